{"id": "C01", "title": "Requests survive the wire", "statement": "A request encoded as a RESP array of bulk strings (any number of arguments, any bytes in them, including CR, LF and NUL) is decoded to exactly those arguments in order, whatever bytes follow it in the buffer, and exactly the request's bytes are consumed; two different requests are never confused.", "quantifier": "every list of byte strings whose lengths fit the machine (allocatable, below 2^63) and every trailing byte string", "why_tests_cant": "infinitely many argument lists and binary contents; framing bugs show up only on particular bytes and lengths", "anchors": ["protocol/decode.go: DecodeFromReader, decodeSingleLine, readBulkOrArrayLength, readBulkStrings, readArray", "protocol/encode.go: Response.Encode, AppendBulkStrings"]}
{"id": "C02", "title": "Replies are unambiguous RESP", "statement": "Every reply the server encodes without failing is one well-formed RESP value: a client's RESP reader recovers exactly the status/error/integer/bulk/array that the command produced and stops exactly at its last byte, whatever follows on the connection; two replies are never confused.", "quantifier": "every request, state and random choice (so every reply the command layer can build), every continuation of the stream", "why_tests_cant": "all payloads, all array items and all following bytes", "anchors": ["protocol/encode.go: Response.Encode, ResponseItem.encode"]}
{"id": "C03", "title": "Malformed input never panics the decoder", "statement": "No byte string sent by a client makes the request decoder panic; malformed input gives an error.", "quantifier": "every byte string", "why_tests_cant": "the space of malformed frames is unbounded", "anchors": ["protocol/decode.go: DecodeFromReader, readBulkOrArrayLength, readBulkStrings"]}
{"id": "C04", "title": "A truncated request is never executed", "statement": "If the connection delivers a strict prefix of a request, the decoder reports an error instead of inventing argument bytes the client did not send.", "quantifier": "every request and every proper prefix of its encoding", "why_tests_cant": "every cut point of every request", "anchors": ["protocol/decode.go: readBulkStrings, readArray"]}
{"id": "C05", "title": "The decoder is total, local and makes progress", "statement": "Decoding any finite input terminates: it panics (C44), fails, or consumes a non-empty prefix of the input and leaves the remainder untouched; an accepted request depends only on the bytes consumed; nested arrays are flattened in order.", "quantifier": "every byte string, every nesting", "why_tests_cant": "termination and progress are claims over all inputs", "anchors": ["protocol/decode.go: DecodeFromReader, readArray"]}
{"id": "C06", "title": "Pipelined requests are all served", "statement": "If one delivery from the network contains several complete requests, each of them is executed and answered, in order.", "quantifier": "every sequence of requests concatenated in one frame", "why_tests_cant": "all ways the transport may batch requests", "anchors": ["server/v2/server.go: React", "event/handler.go: HandleRequest"]}
{"id": "C07", "title": "Commands execute one at a time, each at most once, and each client gets its own reply", "statement": "For every interleaving of any number of connection goroutines, the worker and command goroutines, the executed commands form a single sequence whose sequential execution gives the state and the replies; no frame is executed twice; executions never overlap; every reply goes to the connection of its frame, at most one per frame, and is the reply its own command produced at its place in that sequence, unless its deadline has passed and it says so.", "quantifier": "every number of clients, every schedule of their steps, the worker's, the deadline timers and Stop, unbounded length", "why_tests_cant": "schedules cannot be enumerated by tests", "anchors": ["event/event_pool.go: AddEvent", "event/worker.go: run", "event/handler.go: HandleRequest", "redis/command.go: ExecuteAsync, setRsp", "server/v2/server.go: React"]}
{"id": "C08", "title": "Real-time order is respected (linearizability)", "statement": "If one client's reply (other than a deadline error) is written before another client's request arrives, the first command took effect before the second.", "quantifier": "every schedule, every pair of requests", "why_tests_cant": "needs all interleavings", "anchors": ["event/event_pool.go", "event/worker.go", "event/handler.go"]}
{"id": "C09", "title": "A timed-out request has no effect", "statement": "A client that is answered with the deadline error can assume its command did not and will not run.", "quantifier": "every schedule and every moment at which the deadline fires", "why_tests_cant": "depends on the moment the timer fires relative to the queue and worker", "anchors": ["event/handler.go: HandleRequest", "redis/command.go: NewCommandFromReceive, setRsp"]}
{"id": "C10", "title": "Stopping is clean", "statement": "Stopping the event pool while clients are active never kills the process; Stop returns; nothing is executed after it has returned; and every request executed before is answered.", "quantifier": "every schedule of Stop against clients and the worker", "why_tests_cant": "races between Stop, AddEvent and the worker's select", "anchors": ["event/event_pool.go: Stop, AddEvent", "event/worker.go: run, stop"]}
{"id": "C11", "title": "The sharded map is a map", "statement": "For all operation sequences the sharded map behaves as one finite map: lookup returns the last value set and not deleted, set-if-absent / delete-if-exists / load-and-delete / upsert have their advertised results, and enumeration yields each present key exactly once, whatever the hash values and whatever order Go iterates in.", "quantifier": "every sequence of operations, every key, every iteration order", "why_tests_cant": "all histories x all keys x all iteration orders", "anchors": ["lib/shard_map/shard_map.go"]}
{"id": "C12", "title": "A command on a key of another type fails and changes nothing", "statement": "If a key holds a value of one type, every command of another type family naming it as its key answers the type error (or an argument error that does not depend on the state) and changes nothing. Exceptions, with their exact answers: ZPOPMIN and ZPOPMAX answer an empty array, HGETALL a nil, SDIFF/SINTER/SUNION an empty array when the key is the only one or an earlier one is missing or empty, MGET (C19) no reply, LINDEX (C49) looks at another key. Nothing changes there either.", "quantifier": "every state, every command and argument list", "why_tests_cant": "all states x commands x keys", "anchors": ["datastruct/keys.go: loadKeyInfo", "datastruct/*.go: loadAndCheck*", "redis/*.go"]}
{"id": "C13", "title": "Commands touch only the keys they name", "statement": "Executing commands never changes the answer to any question about a key, unless they write that key or one linked to it by SDIFFSTORE/SINTERSTORE/SUNIONSTORE commands with a single source (which make two keys share one set); questions never change anything.", "quantifier": "every history from the start, every continuation, every key", "why_tests_cant": "frame conditions quantify over all other keys and all states (aliasing!)", "anchors": ["datastruct/*.go", "datastruct/set.go: SDiffStore, SInterStore, SUnionStore"]}
{"id": "C14", "title": "EXISTS, TYPE, DEL and KEYS agree with the keyspace", "statement": "EXISTS answers 1 exactly for keys that hold a value, TYPE names the type whose commands work on the key, DEL k answers whether it was there and makes k (and only k) absent, KEYS with a pattern that compiles lists exactly the present keys the pattern matches, each once; with a pattern that does not compile it crashes the server.", "quantifier": "every reachable state, every key, every pattern, every map iteration order", "why_tests_cant": "all states and iteration orders", "anchors": ["datastruct/keys.go", "redis/keys.go"]}
{"id": "C15", "title": "Bad requests are rejected without effect", "statement": "An unknown command, one with too few arguments, or a non-number where a number is required is answered with an error and changes nothing; command names are case-insensitive. Exception: MSET with no argument or an odd number of at least three is accepted, the last key being dropped.", "quantifier": "every command name, argument list and state", "why_tests_cant": "all argument lists", "anchors": ["redis/command.go: NewCommandFromReceive, ExecuteAsync", "redis/*.go"]}
{"id": "C16", "title": "GET returns the last SET", "statement": "After any history, the replies about a string key (GET, SET, MSET, APPEND, INCR.., DEL, EXISTS, TYPE, ...) are those of a plain string variable, whatever happens to other keys; SET overwrites a value of any type; GET returns the value last set.", "quantifier": "every history over all commands, every key and value", "why_tests_cant": "all histories", "anchors": ["datastruct/string.go: Set, Get, MSet, MGet, Append", "redis/string.go"]}
{"id": "C17", "title": "INCR/DECR family is 64-bit integer arithmetic", "statement": "INCR, DECR, INCRBY, DECRBY on a key holding a decimal int64 (0 if missing) store and return the sum modulo 2^64 as a signed number, hence the exact sum whenever it fits; on a non-integer they fail and change nothing.", "quantifier": "every reachable state, every stored string, every int64 increment", "why_tests_cant": "2^128 operand pairs", "anchors": ["datastruct/string.go: IncrBy", "redis/string.go: incr, incrBy, decr, decrBy"]}
{"id": "C18", "title": "APPEND concatenates", "statement": "APPEND k v makes the value old ++ v (v if k was absent) and answers its byte length.", "quantifier": "every reachable state, key and value", "why_tests_cant": "all byte strings and states", "anchors": ["datastruct/string.go: Append"]}
{"id": "C19", "title": "MSET then MGET", "statement": "MSET k1 v1 ... stores every pair, later duplicates winning, and changes no other key; MGET answers one entry per key in order, nil for absent keys; with a key of another type among them the client gets no reply.", "quantifier": "every key/value list, every reachable state", "why_tests_cant": "all lists, duplicates, and mixtures of types", "anchors": ["datastruct/string.go: MSet, MGet", "redis/string.go: mSet, mget", "protocol/encode.go: ResponseItem.encode"]}
{"id": "C20", "title": "A list behaves as a sequence", "statement": "For every history of list commands on a key, LLEN, LRANGE, LPOP, RPOP and the effects of LPUSH, RPUSH, LSET, LINSERT, LREM are those of a plain sequence of byte strings, whatever happens to other keys (up to the first push at an end that an LREM lost, see C22).", "quantifier": "every history, every argument", "why_tests_cant": "pointer manipulations go wrong only on particular histories (removal at ends, emptied lists)", "anchors": ["datastruct/list.go", "redis/list.go"]}
{"id": "C21", "title": "LREM removes the right occurrences", "statement": "LREM k n v removes the first n occurrences from the head (n>0), the last |n| from the tail (n<0) or all (n=0), keeps every other element in order, and answers how many were removed; with n = -2^63 it removes nothing.", "quantifier": "every list content, count and value", "why_tests_cant": "all lists x counts x values", "anchors": ["datastruct/list.go: LRem, LRemCountFromHead, LRemCountFromTail"]}
{"id": "C22", "title": "A list emptied by LREM is still a usable empty list", "statement": "After LREM removed every element, the key behaves as an empty list: later pushes, reads and removals work as on a fresh list and never crash the server.", "quantifier": "every history containing an LREM that empties the list", "why_tests_cant": "needs specific multi-command histories", "anchors": ["datastruct/list.go: LRemCountFromHead, LRemCountFromTail, RPush, LPush"]}
{"id": "C23", "title": "LRANGE and LSET positions", "statement": "LRANGE k a b returns exactly the elements at positions max(a',0)..min(b',len-1) with negative indices counted from the end; LSET replaces exactly the element at its position and refuses positions outside.", "quantifier": "every list, every int64 indices", "why_tests_cant": "all index pairs incl. extremes", "anchors": ["datastruct/list.go: LRange, lIndexNode, LSet", "redis/list.go: lRange, lSet"]}
{"id": "C24", "title": "A set contains what was added and not removed", "statement": "SADD answers the number of new members, SREM the number removed, SISMEMBER and SMEMBERS reflect exactly the current members, each once; the replies about a set key through any history are those of a finite set.", "quantifier": "every history, every iteration order", "why_tests_cant": "all histories and orders", "anchors": ["datastruct/set.go", "redis/set.go"]}
{"id": "C25", "title": "SCARD equals the number of members", "statement": "After any history SCARD k equals the number of elements SMEMBERS k would list.", "quantifier": "every history including SPOP, SMOVE and the store commands", "why_tests_cant": "the counter is maintained separately from the members, so drift appears only after particular histories", "anchors": ["datastruct/set.go: sAdd, sRem, sPop, SMove, SCard"]}
{"id": "C26", "title": "SDIFF, SINTER, SUNION compute set algebra", "statement": "For two or more existing non-empty set keys the answers are exactly first minus the others, the intersection and the union, each element once; the STORE variants store exactly that set, answer its size and change no other set.", "quantifier": "every tuple of sets, every iteration order", "why_tests_cant": "all tuples of sets and orders", "anchors": ["datastruct/set.go: SDiff*, SInter*, SUnion*", "redis/set.go"]}
{"id": "C27", "title": "What a STORE command stores", "statement": "With two or more sources the stored set is an independent copy: later changes to other keys never change it, nor do changes to it change them (unless linked by a single-source STORE). With a single source, source and destination are one set from then on: every question about the one is answered as about the other until one of them is replaced.", "quantifier": "every history", "why_tests_cant": "aliasing shows only in particular histories", "anchors": ["datastruct/set.go: SDiffStore, SInterStore, SUnionStore"]}
{"id": "C28", "title": "SPOP and SMOVE", "statement": "SPOP k n removes and returns min(n, size) distinct members (none without a count); SMOVE moves the member from source to target if the target is a set (not linked to the source as in C13) or missing; a member that is not there gives an error and changes nothing; to a target of another type it answers the type error and loses the member.", "quantifier": "every state, count and iteration order", "why_tests_cant": "all states and orders", "anchors": ["datastruct/set.go: sPop, SPop, SMove", "redis/set.go: SPop, sMove"]}
{"id": "C29", "title": "Sorted sets stay sorted and indexable", "statement": "After any history whose sorted-set commands on the key are ZADD, ZINCR, ZPOPMIN, reads, and removals of the two lowest members, for every choice of random tower heights below the maximal one, ZRANGE k 0 -1 lists the members in strictly increasing (score, member) order, every index window of ZRANGE returns exactly that slice, and ZCARD is its length.", "quantifier": "every such history, all heights below 32, all non-NaN scores", "why_tests_cant": "heights are random; span bookkeeping errors appear only for particular shapes", "anchors": ["datastruct/sorted_set.go: insert, updateScore, findElementByRank, zRange"]}
{"id": "C30", "title": "ZSCORE returns the last score given", "statement": "After any such history ZSCORE k m is the score last assigned to m (or the accumulated float64 sum), nil if m was never added.", "quantifier": "every such history, all heights below 32", "why_tests_cant": "all histories", "anchors": ["datastruct/sorted_set.go: zAdd, ZScore, ZIncr"]}
{"id": "C31", "title": "ZRANK is the position in ZRANGE", "statement": "ZRANK k m is the (1-based) position of m in ZRANGE k 0 -1 for every member m, nil for others.", "quantifier": "every such history, all heights below 32, every member", "why_tests_cant": "all shapes of the index", "anchors": ["datastruct/sorted_set.go: rank, ZRank"]}
{"id": "C32", "title": "ZREM removes exactly the named members", "statement": "After ZREM k m..., the named members are gone from every view of the set (ZRANGE, ZCARD, ZSCORE), the others are untouched, and the answer is how many were removed.", "quantifier": "every state reachable by any history, all heights", "why_tests_cant": "depends on the random shape of the index", "anchors": ["datastruct/sorted_set.go: ZRem, delete, deleteNode"]}
{"id": "C33", "title": "ZPOPMIN and ZPOPMAX remove the extremes", "statement": "ZPOPMIN/ZPOPMAX k n return and remove the n lowest/highest members; a removed member is no longer a member and can be added again.", "quantifier": "every state, count, all heights", "why_tests_cant": "depends on histories and shape", "anchors": ["datastruct/sorted_set.go: ZPopMin, ZPopMax, delete"]}
{"id": "C34", "title": "ZCOUNT and ZRANGEBYSCORE select by score", "statement": "ZCOUNT k min max is the number of members whose score lies in the interval (open or closed ends, infinities allowed) and ZRANGEBYSCORE lists exactly them in order.", "quantifier": "every set of scores and every pair of bounds", "why_tests_cant": "all intervals and score multisets", "anchors": ["datastruct/sorted_set.go: count, minScoreRank, maxScoreRank, zRangeByScore"]}
{"id": "C35", "title": "What ZREVRANGE lists", "statement": "ZREVRANGE k a b lists the members at positions a..b of the ascending order (clipped as in C23), in descending order.", "quantifier": "every set, every index pair", "why_tests_cant": "all windows", "anchors": ["datastruct/sorted_set.go: zRevRange"]}
{"id": "C36", "title": "NX, XX and INCR flags", "statement": "ZADD NX never changes an existing member, ZADD XX never adds one, INCR adds to the current score; the answer counts the members affected.", "quantifier": "every state and member list", "why_tests_cant": "all combinations", "anchors": ["datastruct/sorted_set.go: zAdd, ZAdd", "redis/sorted_set.go: zAdd"]}
{"id": "C37", "title": "Hash commands store nothing", "statement": "No hash command ever changes the state of the server.", "quantifier": "every reachable state and request", "why_tests_cant": "all histories", "anchors": ["datastruct/hash_table.go", "redis/hash_table.go"]}
{"id": "C38", "title": "No command sequence crashes the server", "statement": "No sequence of well-formed requests makes a command goroutine panic (which would terminate the process).", "quantifier": "every command sequence, every random choice, every schedule", "why_tests_cant": "all histories", "anchors": ["redis/command.go: ExecuteAsync", "datastruct/*.go"]}
{"id": "C39", "title": "The server refines one abstract key-value server", "statement": "Every conversation the server survives is a conversation of the abstract server of SpecServer.v (a finite map from keys to strings, sequences, sets and score tables): there is one run of it with exactly these replies; a conversation it specifies is carried to its end; and under every schedule of the running server one such run explains every reply written.", "quantifier": "every history, every random choice, every schedule", "why_tests_cant": "refinement over all histories and schedules", "anchors": ["redis/*.go", "datastruct/*.go", "event/*.go", "server/v2/server.go"]}
{"id": "C40", "title": "The hash table structure is a map from fields to values", "statement": "Every history of operations on a hash table value (set, set-if-absent, get, delete, increments, enumeration) has the results of a finite map, whatever the iteration order.", "quantifier": "every history, every iteration order", "why_tests_cant": "all histories and orders", "anchors": ["datastruct/hash_table.go: hashTable methods"]}
{"id": "C41", "title": "Replies on one connection come in the order of its requests", "statement": "The replies written on a connection come in the order in which its requests arrived.", "quantifier": "every schedule", "why_tests_cant": "needs all interleavings of goroutines of one connection", "anchors": ["server/v2/server.go: React", "event/handler.go: HandleRequest"]}
{"id": "C42", "title": "Every request is eventually executed and answered", "statement": "Without new input the server comes to rest after a bounded number of steps under every schedule; then every frame that begins with a request has been executed once and answered (also when its deadline passed), except for replies that cannot be encoded, unless a command crashed the process or the server was being stopped; other frames have no effect and no reply.", "quantifier": "every schedule", "why_tests_cant": "deadlock and lost wake-up freedom quantify over all schedules", "anchors": ["event/event_pool.go", "event/worker.go: run", "event/handler.go: HandleRequest", "server/v2/server.go: React"]}
{"id": "C43", "title": "The command log is a write-ahead log whose replay gives the same state", "statement": "Every executed request is in the command log before it is executed, as the bytes the client sent, and replaying the log gives the state of the server.", "quantifier": "every schedule", "why_tests_cant": "races between logging and execution", "anchors": ["server/v2/server.go: React", "persistence/persistence.go: WriteCommand"]}
{"id": "C44", "title": "Only a malformed length header can panic the decoder", "statement": "Whenever decoding panics, the input contains, at a line start, a '$' or '*' header whose line has no CR, or a '$' header whose number is unusable as an allocation size; any input without such a header is decoded or refused without panic.", "quantifier": "every byte string", "why_tests_cant": "the space of malformed frames is unbounded", "anchors": ["protocol/decode.go: readBulkOrArrayLength, readBulkStrings, readArray"]}
{"id": "C45", "title": "What becomes of a truncated request", "statement": "A request cut at any byte is either refused, or decoded to the same arguments except that the last one is what arrived of it filled up with NUL bytes to its announced length.", "quantifier": "every request and every proper prefix of its encoding", "why_tests_cant": "every cut point of every request", "anchors": ["protocol/decode.go: readBulkStrings, readArray"]}
{"id": "C46", "title": "A frame is executed as its first request only", "statement": "Whatever follows the first request in a delivered frame, the only request executed for that frame is the first one.", "quantifier": "every schedule, every frame that begins with a request", "why_tests_cant": "all ways the transport may batch requests, under all schedules", "anchors": ["server/v2/server.go: React", "event/handler.go: HandleRequest"]}
{"id": "C47", "title": "A timed-out request is executed all the same, exactly once", "statement": "Unless the process crashes, hangs or is stopped, a request answered with the deadline error has been executed exactly once, as the request its frame began with, by the time the server comes to rest.", "quantifier": "every schedule and every moment at which the deadline fires", "why_tests_cant": "depends on the moment the timer fires relative to the queue and worker", "anchors": ["event/handler.go: HandleRequest", "event/worker.go: run"]}
{"id": "C48", "title": "Every event accepted before the stop is executed", "statement": "Every event accepted by the pool before Stop is called is executed.", "quantifier": "every schedule of Stop against clients and the worker", "why_tests_cant": "races between Stop and the worker's select", "anchors": ["event/event_pool.go: Stop", "event/worker.go: run"]}
{"id": "C49", "title": "LINDEX returns the element at a position", "statement": "LINDEX k i returns the element of k at position i (negative: from the end), or nil.", "quantifier": "every list, every int64 index", "why_tests_cant": "all indices", "anchors": ["redis/list.go: lIndex", "datastruct/list.go: LIndex"]}
{"id": "C50", "title": "ZREVRANGE is ZRANGE from the other end", "statement": "ZREVRANGE k a b lists positions a..b of the members in descending order.", "quantifier": "every set, every index pair", "why_tests_cant": "all windows", "anchors": ["datastruct/sorted_set.go: zRevRange"]}
{"id": "C51", "title": "HSET then HGET", "statement": "After HSET k f v, HGET k f returns v, HEXISTS answers 1 only for present fields, HDEL removes the field, HLEN counts fields.", "quantifier": "every history", "why_tests_cant": "all histories", "anchors": ["datastruct/hash_table.go", "redis/hash_table.go"]}
{"id": "C52", "title": "The hash table's length counter is the number of fields", "statement": "After every history the counter reported as the length is the number of fields, and deletion reports whether the field was there.", "quantifier": "every history", "why_tests_cant": "the counter is maintained separately from the fields", "anchors": ["datastruct/hash_table.go: hashTable methods"]}
{"id": "C53", "title": "Requests are executed in the order in which the queue accepted them", "statement": "The sequence of executed requests is a prefix of the sequence of accepted ones: no overtaking, no loss in the middle.", "quantifier": "every schedule", "why_tests_cant": "needs all interleavings", "anchors": ["event/event_pool.go: AddEvent", "event/worker.go: run"]}
{"id": "C54", "title": "What ZCOUNT and ZRANGEBYSCORE compute on every interval", "statement": "Each end of the interval is turned into a rank: the number of members with scores up to it (whether it is a lower or an upper end), or, for an open end equal to the scores of members, the place after (lower) or before (upper) one of those members, or -1 for an infinity of either sign; ZCOUNT and ZRANGEBYSCORE answer from the two ranks alone, except on -inf..+inf, where they take everything. In particular a closed lower end includes the last member up to it, and with several members at an open end the answer depends on random choices made when they were inserted.", "quantifier": "every set of scores, every pair of bounds, every history and every random choice", "why_tests_cant": "all intervals, score multisets and tower heights", "anchors": ["datastruct/sorted_set.go: count, zRangeByScore, minScoreRank, maxScoreRank"]}
{"id": "C55", "title": "Every request comes to an end", "statement": "In every state that any history can produce, damaged values included, every request ends with a reply or with a crash of the process: no command loops for ever. In the running server the command being executed can always return or crash next.", "quantifier": "every history, every request, every random choice, every schedule", "why_tests_cant": "all histories; the pointer structures can be corrupted by earlier commands", "anchors": ["datastruct/list.go", "datastruct/sorted_set.go", "datastruct/set.go", "redis/*.go", "event/worker.go: run"]}
{"id": "C56", "title": "Requests arrive whole however the network splits them", "statement": "Reading requests from a connection returns exactly the requests the client sent, in order, whatever pieces the bytes arrive in; while bytes are missing it waits; what has been returned does not change when more arrives.", "quantifier": "every sequence of requests, every way to split the bytes over reads", "why_tests_cant": "all splits of all byte streams", "anchors": ["protocol/decode.go: DecodeFromReader, readBulkStrings, readArray", "server/v1/server.go: handleConn"]}
{"id": "C57", "title": "The v1 server answers each connection in order", "statement": "Under every schedule: commands are executed one at a time, each at most once; on each connection the n-th reply written answers the n-th request taken from it, with the reply of one sequential run of all executed requests or the deadline error; of each connection's requests those executed are executed in the order they were sent. What arrives on a connection is cut into requests and refused bytes, every byte in its place, nothing added but NUL bytes at the end of a piece, and these requests are the ones taken.", "quantifier": "every schedule, any number of connections and requests, all bytes and all ways to split them", "why_tests_cant": "all interleavings", "anchors": ["server/v1/server.go: handleConn", "protocol/decode.go: ReceiveDataAsync", "event/handler.go: HandleRequest", "event/worker.go: run"]}
{"id": "C58", "title": "The v1 server serves everything that arrives", "statement": "When the v1 server has come to rest and is still alive, every request that has arrived on an open connection has been executed once and answered, if the server is not being stopped and no write to the connection failed.", "quantifier": "every schedule", "why_tests_cant": "deadlock and lost wake-up freedom quantify over all schedules", "anchors": ["server/v1/server.go: handleConn", "protocol/decode.go: ReceiveDataAsync"]}
{"id": "C59", "title": "The v1 server survives its clients", "statement": "No client can end the v1 server process.", "quantifier": "every schedule, every byte stream", "why_tests_cant": "all schedules x byte streams", "anchors": ["server/v1/server.go: handleConn", "protocol/decode.go: ReceiveDataAsync"]}
{"id": "C60", "title": "Stopping the v1 server", "statement": "Stop returns once everything has come to rest, unless the process died; after the pool has been stopped nothing is executed, and after Stop has returned no request is started and nothing is written.", "quantifier": "every schedule", "why_tests_cant": "all interleavings of Stop with requests", "anchors": ["server/v1/server.go: Stop", "event/event_pool.go: Stop"]}
{"id": "C61", "title": "What becomes of a popped member", "statement": "A member popped by ZPOPMIN leaves every range and count, but while the set is not empty ZSCORE still tells its last score and ZRANK the number of members before the place it had; no ZADD (whatever the scores and options) or ZINCR of it has any effect or answers anything but 0; ZREM answers 1 and only then it can be added again. In a set that has become empty ZSCORE and ZRANK answer nil and ZREM answers 0 and has no effect, so the popped members can never be added again.", "quantifier": "every history, score and member, all heights below 32", "why_tests_cant": "all histories", "anchors": ["datastruct/sorted_set.go: ZPopMin, ZScore, ZRank, zAdd, ZRem"]}
{"id": "C62", "title": "What SCARD counts", "statement": "SCARD k is a counter: SADD adds its answer to it, SREM subtracts its answer, SPOP and SMOVE leave it as it is for the key they take from, SMOVE adds its answer to that of its target, and a STORE from two or more sources starts it at the number of members. Along any history of one set key SCARD is the number of members plus the number of members popped since the key came into being.", "quantifier": "every history, every iteration order", "why_tests_cant": "the counter is maintained separately from the members", "anchors": ["datastruct/set.go: sAdd, sRem, sPop, SMove, SCard, SDiffStore, SInterStore, SUnionStore"]}
{"id": "C63", "title": "Scores survive a damaged order", "statement": "In every state that can be reached, also when the order of a sorted set is damaged (C32, C33, C50), the set has a table of scores and a counter, and every later request follows them until the server crashes: ZSCORE and ZCARD never crash and tell them (no score is told while the counter is 0); a ZADD or ZINCR either gives the member exactly the new score and counts it, or leaves everything as it was and does not count it, and changes no other score; ZREM forgets the scores of exactly the named members and answers how many had one; ZPOPMIN and ZPOPMAX and all questions change no score.", "quantifier": "every reachable state, every later history, every tower height", "why_tests_cant": "needs an argument about all shapes a damaged skip list can have", "anchors": ["datastruct/sorted_set.go: zAdd, ZAdd, ZIncr, ZRem, ZScore, ZCard, ZPopMin, ZPopMax, insert, delete, updateScore, deleteNode", "redis/sorted_set.go"]}
{"id": "C64", "title": "What a list does in every state", "statement": "A list key, in every state that can be reached (also after LREM has emptied it, C22), is a chain of elements, the ends from which the chain can still be reached, and a counter; these tell for every LPUSH, RPUSH, LPOP, RPOP, LLEN, LRANGE, LREM, LSET, LINSERT, LINDEX, DEL, EXISTS and TYPE, with any arguments, whether the server process panics, and if not, exactly what it answers and what the list is afterwards. A conversation about one key panics exactly when this automaton does, and otherwise gets exactly its answers. A list that counts elements but shows none gives nothing to LPOP, panics at LREM from the front, and starts anew at LPUSH while LLEN counts on.", "quantifier": "every reachable state, every request about the key, every later history", "why_tests_cant": "needs an argument about all shapes a damaged linked list can have, and about every argument of every command in each of them", "anchors": ["datastruct/list.go: all", "redis/list.go"]}
{"id": "C65", "title": "The process ends when told to, and not before", "statement": "The process ends only after a signal or when the address could not be served; by then Stop has been called exactly once, and if the server had begun to serve, it has shut down and its event pool has been stopped, exactly once, even if Stop gave up waiting. When the address cannot be served the process ends by itself. A signal sent to a serving process ends it. Every run ends after a bounded number of steps other than arriving signals.", "quantifier": "every schedule of the goroutines of main, every number and time of signals", "why_tests_cant": "the orders of signals, of start-up and of shutdown are not under a test's control", "anchors": ["cmd/server/main.go: main", "server/v2/server.go: Start, Stop, OnShutdown"]}
{"id": "C66", "title": "The generated command table is what the sources declare", "statement": "From a Go source whose lines fit into 64 KiB the generator makes one entry for each line that declares a command function, in the order of the lines; a function declared below a comment '// Name .' or an empty line is registered under that name, or its own, in lower case; when the names differ each is found in the table as the declared function. Run on path/x.go, where '.go' occurs only at the end, it writes path/x.cmd.go and no other file, and running it again changes nothing. The generated files in the repository are what it makes of the sources there, and they give exactly the commands the server knows; every other request is answered as unknown.", "quantifier": "every source text, every path, every request name", "why_tests_cant": "all texts; and the generated files are committed, so nothing ties them to the sources", "anchors": ["cmd/gen_redis_cmd/main.go", "redis/*.go", "redis/*.cmd.go"]}
{"id": "C67", "title": "Debug mode loads its preset data", "statement": "Started in debug mode, the server executes its four preset commands one at a time and before any client's request, after which list1, key1, key2 and zset hold the preset data for as long as no client changes them.", "quantifier": "every interleaving of the four loading goroutines with each other and with every run of the server and its clients", "why_tests_cant": "the order of four unsynchronised goroutines and of the worker is up to the scheduler", "anchors": ["cmd/server/main.go: main, insertPreData, prepareData", "redis/command.go: ExecuteAsync, setRsp"]}
{"id": "C68", "title": "Clients on different keys do not notice each other", "statement": "If one group of clients names only keys of some set in its requests (and does not list the keyspace) and all other clients name only keys outside that set, then, as long as the server survives, every reply to the group is exactly the reply it would get on a server of its own that is asked only the group's requests in the same order, whatever the others ask, however the requests are interleaved, and also for set values that several keys of one group share.", "quantifier": "every set of keys, every mixture of the requests of the two groups, all random choices, every schedule of the running server", "why_tests_cant": "a claim about all interleavings of two unbounded conversations and all pairs of them (noninterference)", "anchors": ["datastruct/*.go", "redis/*.go", "server/v2/server.go: React", "event/worker.go"]}
{"id": "C69", "title": "The server's own random choices do not show", "statement": "Two servers that execute the same requests in the same order give the same replies, whatever heights of skip list towers they draw and in whatever order they walk their maps; only the order of an answer that stands for a collection (KEYS, SMEMBERS, SDIFF, SINTER, SUNION) and the members SPOP picks may differ.", "quantifier": "every conversation, all pairs of assignments of tower heights and iteration orders, every schedule of the running server with the same order of execution", "why_tests_cant": "a claim about all pairs of executions with different random numbers; a test sees one assignment per run", "anchors": ["datastruct/sorted_set.go: zslRandomLevel", "datastruct/sorted_set.go", "datastruct/set.go", "datastruct/keys.go: Keys", "redis/*.go"]}
{"id": "C70", "title": "When a key exists, and of which type it is", "statement": "Whether a key exists and what TYPE says about it follow from the requests and from which of them were answered with an error, and from nothing else: a key comes to exist, with the command's type, by a successful SET, MSET, APPEND, INCR, DECR, INCRBY, DECRBY, LPUSH, RPUSH, SADD, SDIFFSTORE, SINTERSTORE, SUNIONSTORE, SMOVE (as the target), ZADD or ZINCR naming it; it ceases to exist only by a DEL naming it first (not by being emptied), and its type changes only by DEL, SET, MSET and the STORE commands. KEYS, EXISTS and TYPE agree on this, also on the running server under every schedule.", "quantifier": "every conversation, every key, every pattern, every schedule of the running server, all tower heights and iteration orders, also after SPOP, SMOVE or sorted set operations have damaged counters", "why_tests_cant": "a claim about the whole history of requests; tests look at single commands on fresh keys", "anchors": ["redis/*.go", "datastruct/keys.go: Exists, Type, Keys, Del", "datastruct/list.go", "datastruct/set.go", "datastruct/sorted_set.go", "datastruct/string.go"]}
{"id": "C71", "title": "What it takes to crash the server", "statement": "While no skip list tower of the maximal height is drawn, and the requests have fewer than 2^63-2 words in all, executing a request crashes the server only for KEYS with a pattern its library rejects, or for a command about a list or sorted set at a key for which there was, since it was last deleted or overwritten, a successful LREM, a ZREM, a ZPOPMAX, or a ZADD or ZINCR with a score that is not a number (or an infinite increment), this request included. In particular a request about a key without such a past is answered, whatever happened to the other keys.", "quantifier": "every conversation, all tower heights but the maximal one and all iteration orders, every schedule of the running server", "why_tests_cant": "a claim about all histories: which of them can end in a panic", "anchors": ["datastruct/*.go", "redis/*.go", "event/worker.go", "server/v2/server.go"]}
{"id": "C72", "title": "Exactly which bytes are which request", "statement": "The decoder accepts bytes as a request, uses up a given part of them, and logs given bytes, exactly if a grammar says so: a line +..., -... or :..., PING, a $-header followed by that many bytes and two more (padded with NUL at the end of the input), or a *-header followed by that many values, flattened; a header spells its length in decimal. It panics exactly on a header without CR, or one announcing more bytes than can be allocated, at a place where it comes to read a value. All other bytes are refused. The bytes determine the words. The running server executes and logs only what the grammar says of the delivered frames.", "quantifier": "every byte string, every schedule of the running server", "why_tests_cant": "all byte strings; a test tries a few", "anchors": ["protocol/decode.go: DecodeFromReader, decodeSingleLine, readBulkOrArrayLength, readBulkStrings, readArray", "server/v2/server.go: React", "redis/command.go"]}
{"id": "C73", "title": "Every reply is of a form the command promises", "statement": "A table gives for each command the forms of its replies (a number, a string, null, an array of strings, one entry per argument, a status word) and the texts of its errors. In every reachable state every reply of every command is one the table lists, and everything listed is really given. Only an MGET naming a key of another type (and a request without words) gets no reply at all; a server at rest has answered everything else. Whatever the running server sends is such a reply to a request of that client, or the deadline message. The older server dies in its encoder only on such an MGET.", "quantifier": "every reachable state, every request, every schedule of either server", "why_tests_cant": "all states and requests; a test tries a few", "anchors": ["redis/*.go: all handlers", "redis/command.go", "protocol/encode.go", "protocol/api.go", "server/v2/server.go", "server/v1"]}
{"id": "C74", "title": "A request answered with an error has no effect", "statement": "If the reply to a request is an error then the request has changed nothing. (Not so for SMOVE: with a target of another type the member is gone and the reply is an error.)", "quantifier": "every reachable state, every request", "why_tests_cant": "all states and requests; a test tries a few", "anchors": ["redis/*.go: all handlers", "datastruct/*.go", "datastruct/set.go: SMove"]}
{"id": "C75", "title": "Overload: what a server with more work than it has room for does", "statement": "At every moment the server has at most as many frames under way (taken, and neither answered nor given up) as its pool has goroutines. A frame is refused exactly when that many are under way; a refused frame gets no reply, and the server goes on as if it had not been sent. Of the requests accepted into the queue all but the last two at most have been executed, in order. If every connection awaits its reply before sending again, and there are no more connections than goroutines, nothing is refused. Once at rest nothing is under way and the next frame is taken.", "quantifier": "every schedule of the running server, every pool size, all frames", "why_tests_cant": "all schedules; a test would need hundreds of thousands of clients at once", "anchors": ["server/v2/server.go: React, NewServer", "event/event_pool.go: AddEvent, NewEventPool", "event/worker.go: run", "event/handler.go: HandleRequest"]}
{"id": "C76", "title": "Which requests may be sent again", "statement": "A client that does not know whether its request arrived may send SET, MSET, DEL, SADD, SREM, ZREM and LSET again: in every state the second copy changes nothing at all and gets the same reply, or 0 where the first got a number; taking all such copies out of a conversation changes neither the other replies nor the final state. This also holds for SET, DEL and SADD when requests that do not write the key come in between, and for any request (but SMOVE) that was answered with an error. A second SINTERSTORE or SUNIONSTORE with two or more sources makes no difference any question can show. Hash commands store nothing anyway. For every other command that writes there is a history after which a second copy changes the answer to a question.", "quantifier": "every reachable state, every history with any number of copies anywhere, all arguments, all iteration orders", "why_tests_cant": "all states and histories; a test tries a few", "anchors": ["redis/*.go: the handlers of the named commands", "datastruct/string.go: Set, MSet", "datastruct/keys.go: Del", "datastruct/set.go: sAdd, sRem, SInterStore, SUnionStore", "datastruct/sorted_set.go: ZRem", "datastruct/list.go: LSet"]}
{"id": "C77", "title": "Independent requests commute", "statement": "If neither of two requests changes a key that the other names - or a key that may hold the same set object, because an earlier SUNIONSTORE, SINTERSTORE or SDIFFSTORE with one source shares it - then the server may execute them in either order: every request gets the same reply, and no later question tells the two resulting states from each other. Hence, however the server takes the requests of two clients whose requests are pairwise independent, each request is answered the same. Requests that change nothing are always independent; KEYS, which depends on every key, is independent only of these. Requests for different keys that share a set, and requests for the same key, need not commute.", "quantifier": "every history from the empty server, every way to reorder independent requests, all arguments and iteration orders, every later conversation", "why_tests_cant": "all histories and all interleavings; a test tries a few", "anchors": ["redis/*.go: every handler", "datastruct/set.go: SInterStore, SUnionStore, SDiffStore (aliasing)"]}
{"id": "C78", "title": "A list used as a queue", "statement": "If the only requests about a key are LPUSHes and RPOPs (or RPUSHes and LPOPs), with or without a count, and questions, then the list is a first-in-first-out queue, whatever happens to other keys: the values put in are, in order, exactly those handed out in replies followed by those still waiting, whose number LLEN tells; a pop gets as many values as it asks for or all that wait; no value is handed out twice (if none is put in twice) and none that was not put in. Clients of a running server, under every schedule, never get the same job. A job handed out in a reply that the server no longer sends because the deadline has passed is lost to everybody; and with LREM the property fails: a value pushed onto a list that LREM has emptied may never be handed out.", "quantifier": "every history of such requests mixed with any requests about other keys, every number of values per request, every schedule of the running server", "why_tests_cant": "every history and schedule; a test runs a few", "anchors": ["datastruct/list.go: LPush, RPush, LPop, RPop", "redis/list.go: lPush, rPush, lPop, rPop", "event/worker.go: run"]}
{"id": "C79", "title": "INCR hands out each number once", "statement": "If the only requests about a key that holds the number z are INCRs and questions, the INCRs get the numbers z+1, z+2, ... in order of execution, without gaps or repetition, as long as these are 64-bit integers. Two clients of a running server never get the same number, under any schedule. Beyond the largest 64-bit integer the numbers continue with the smallest.", "quantifier": "every history of such requests mixed with any requests about other keys, every schedule of the running server", "why_tests_cant": "every history and schedule; a lost update shows up only in particular interleavings", "anchors": ["datastruct/string.go: IncrBy", "redis/string.go: incr", "event/worker.go: run"]}
{"id": "C80", "title": "Adding a token to a set is taking a lock", "statement": "If clients add and remove a token in a set only by SADD key token and SREM key token (other tokens may be used alongside, but not in the same request), then the successful SADDs (reply 1) and the successful SREMs of the token alternate, beginning with a SADD: nobody is told that it has the lock while another has it; an SADD is answered 1 exactly if the lock is free. Two clients of a running server that are both told 1 are so with a release executed in between, under every schedule. A client whose deadline passed may have got the lock without being told; a SADD of the token together with another member may be answered 1 while another has the lock.", "quantifier": "every history of such requests mixed with any requests about other keys, every schedule of the running server", "why_tests_cant": "every history and schedule; a violation of mutual exclusion shows up only in particular interleavings", "anchors": ["datastruct/set.go: SAdd, SRem", "redis/set.go: sAdd, sRem", "event/worker.go: run"]}
{"id": "C81", "title": "APPEND writes a log", "statement": "If the only requests about a key that is absent or holds a string are APPENDs (of one record each) and questions, the string is what it was before followed by all the records in the order of execution: none is lost, overwritten or torn apart. APPEND answers the length of the string that ends with its record, so a client finds its record in what GET later returns, at the place that the reply says, whatever is appended afterwards; the places of different records do not overlap. Clients of a running server each find their record, under every schedule.", "quantifier": "every history of such requests mixed with any requests about other keys, every record, every schedule of the running server", "why_tests_cant": "every history and schedule; a lost or torn record shows up only in particular interleavings", "anchors": ["datastruct/string.go: Append", "redis/string.go: stringAppend", "event/worker.go: run"]}
{"id": "C82", "title": "Keys written together are read together", "statement": "If the requests about certain keys that write are MSETs of all of them (in any order, with other keys or repeated pairs), a MGET of any of these keys answers the values of the last MSET executed before it, all from that one, or nil / the first values if there was none: no MGET shows a part of one MSET and a part of another. Clients of a running server who read with MGET see, under every schedule, what one of the MSETs wrote. Who reads the keys with separate GETs may see a value of each of two MSETs.", "quantifier": "every history of such requests mixed with any requests about other keys, every selection and repetition of keys in the MGET, every schedule of the running server", "why_tests_cant": "every history and schedule; a torn read shows up only in particular interleavings", "anchors": ["datastruct/string.go: MSet, MGet", "redis/string.go: mSet, mget", "event/worker.go: run"]}
{"id": "C83", "title": "A list with two ends loses nothing", "statement": "If a key is absent at first and the only requests about it push values and pop positive numbers of values, at either end, or ask for its length, existence or type, then each pop answers what is at its end at that moment; all values that were pushed were either handed out once or are still in the list, whatever ends are used; what is pushed last at an end is what is popped first there. Clients of a running server who pop at either end never get the same value, and only values that were pushed.", "quantifier": "every history of such requests mixed with any requests about other keys, every mix of ends, every schedule of the running server", "why_tests_cant": "every history and schedule", "anchors": ["datastruct/list.go: LPush, LPop, RPush, RPop", "redis/list.go: lPush, lPop, rPush, rPop", "event/worker.go: run"]}
{"id": "C84", "title": "A growing list can be read in pages", "statement": "If a key is absent at first and the only requests about it append values with RPUSH, read pages with LRANGE from a position counted from the front (with a last position, or to the end with -1), or ask for its length, existence or type, then a page holds the values at its positions of all that was appended before. A reader who starts at 0 and goes on each time where the last page ended gets the values in the order of appending, none left out and none twice, whatever is appended in between; once it has read to the end it has all that was appended before that request. The same holds for a client of a running server, from the replies it gets. With LPUSH in between a reader gets values twice and misses others.", "quantifier": "every history of such requests mixed with any requests about other keys, every choice of page sizes, every schedule of the running server", "why_tests_cant": "every history and schedule", "anchors": ["datastruct/list.go: RPush, LRange", "redis/list.go: rPush, lRange", "event/worker.go: run"]}
{"id": "C85", "title": "The configuration in force is the last one accepted", "statement": "The default timeout asked for at any moment is the one in the last configuration text that was accepted before (five seconds if there was none or it names none), and is never zero. A text that is refused leaves no trace: until the next accepted text every question is answered as before.", "quantifier": "every history of InitConfig and GetDefaultTimeout calls, every text, every behaviour of the YAML decoder", "why_tests_cant": "every history of loads and questions, whatever the decoder accepts", "anchors": ["config/config.go: InitConfig, GetDefaultTimeout"]}
{"id": "C86", "title": "A scoreboard shows everybody's last score", "statement": "If a key is absent at first and the only requests about it submit scores (ZADD of numbers, without options) or ask (ZRANGE, ZREVRANGE, ZSCORE, ZRANK, ZCARD, EXISTS, TYPE), then at every moment the server shows the ranking of all submissions before: every player who submitted anything exactly once, with the last score, ordered by score and then by name; pages, scores, ranks and the count all belong to that one ranking, which the submissions determine. Clients of a running server see the ranking of the submissions executed so far, under every schedule. With ZPOPMIN among the requests a submission may be lost.", "quantifier": "every history of such requests mixed with any requests about other keys, every number of players, every page, every schedule of the running server, all tower heights below the maximum", "why_tests_cant": "every history and schedule; the skip list is rebuilt by each submission", "anchors": ["datastruct/sorted_set.go: ZAdd, ZRange, ZScore, ZRank, zSkipList", "redis/sorted_set.go: zAdd, zRange, zRevRange, zScore, zRank, zCard", "event/worker.go: run"]}
{"id": "C87", "title": "A task moved between sets is in exactly one of them", "statement": "Let some absent keys be the columns of a task board: tasks with distinct names are added with SADD, moved from one column to another with SMOVE, and no other request touches the columns. Then each task is at every moment in exactly one column, the one where it arrived last: SISMEMBER and SMEMBERS say so. A SMOVE succeeds exactly if the task is in its source column at that moment, and otherwise is an error and changes nothing. So of all clients that claim a task by moving it out of a column only one is told that he succeeded, unless somebody moves it back. This holds for the clients of a running server under every schedule. A column of another type loses tasks.", "quantifier": "every set of columns, every number of tasks, every history of such requests mixed with any others, every schedule of the running servers", "why_tests_cant": "every history and schedule; which client wins is decided by the schedule", "anchors": ["datastruct/set.go: SMove, SAdd, SIsMember, SMembers", "redis/set.go: sMove, sAdd", "event/worker.go: run"]}
{"id": "C88", "title": "A counter adds up the amounts of all clients", "statement": "If a key is absent at first and the only requests that touch it are INCR, DECR, INCRBY and DECRBY, then GET shows at every moment the sum of all amounts so far, in 64-bit two's complement, and null before the first; each of these requests is answered with the sum up to and including its own amount; a request whose amount is no integer adds nothing. Clients of a running server see the sum of the amounts executed so far, under every schedule: no update is lost and none is applied twice, even if its client was told of the deadline. With a SET among the requests amounts are thrown away.", "quantifier": "every history of such requests mixed with any requests that cannot change the key, every amount, every schedule of the running servers", "why_tests_cant": "every history and schedule", "anchors": ["datastruct/string.go: IncrBy, Get", "redis/string.go: incr, decr, incrBy, decrBy", "event/worker.go: run", "event/handler.go: HandleRequest"]}
{"id": "C89", "title": "A set recognises what it has seen", "statement": "If a key is absent at first and the only requests that touch it are SADD, then at every moment SCARD is the number of different strings added so far and SISMEMBER says whether one was; SADD answers how many of its strings are new. So of all clients of a running server that announce the same string, each with a SADD of its own, only one is told that it is new, under every schedule. With SPOP among the requests SCARD counts too much, and a popped string is new again.", "quantifier": "every history of such requests mixed with any requests that cannot change the key, every number of strings, every schedule of the running servers", "why_tests_cant": "every history and schedule; who is told is decided by the schedule", "anchors": ["datastruct/set.go: SAdd, SCard, SIsMember", "redis/set.go: sAdd, sCard, sIsMember", "event/worker.go: run"]}
{"id": "C90", "title": "A key is a register on which all clients agree", "statement": "If a key is absent at first and the only requests that can change it are SET and DEL, then a GET is answered with the value of the last SET before it, or null if there is none or a DEL came after it, DEL and EXISTS say whether there is a value, and a SET is always answered OK. One order of all executed requests explains what every client of a running server is told. A client whose request was sent after some write was answered is told the value of that write or of one executed after it, under every schedule: clients read what was written.", "quantifier": "every history of such requests mixed with any requests that cannot change the key, every value, every schedule of the running servers", "why_tests_cant": "every history and schedule", "anchors": ["datastruct/string.go: Set, Get", "datastruct/keys.go: Del, Exists", "redis/string.go: set, get", "redis/keys.go: del, exists", "event/worker.go: run", "server/v2/server.go: React"]}
{"id": "C91", "title": "On the first server a request takes effect between being taken and being answered", "statement": "Under every schedule of the first server: no request is executed before it has been taken from its connection; a request whose answer (other than the deadline error) has been written had been executed before; so of two requests on any two connections, the second taken after the first was answered, the first is executed first. A client that reads a key after another client's write was answered is told the value of that write or of one executed after it, where only SET and DEL change the key.", "quantifier": "every schedule, any number of connections and requests", "why_tests_cant": "every interleaving of the handlers, the pool's worker and the deadlines", "anchors": ["server/v1/server.go: handleConn", "event/handler.go: HandleRequest", "event/event_pool.go: AddEvent", "event/worker.go: run"]}
{"id": "C92", "title": "Lists and sorted sets can be read page by page", "statement": "Read with windows of any fixed size - positions 0 to p-1, p to 2p-1 and so on - a list (LRANGE) or a sorted set that is not empty (ZRANGE) comes out whole and in order, nothing skipped and nothing twice; a page past the end is empty. The pages of a list may be asked for at different moments, in any order and by different clients of a running server, with any other requests in between that do not change the key. ZREVRANGE cannot be read so: each of its pages is taken from the low end and then reversed.", "quantifier": "every list and sorted set of any length, every page size, every conversation and schedule in which the key is not changed between the pages", "why_tests_cant": "every length, page size and interleaving", "anchors": ["datastruct/list.go: LRange", "redis/list.go: lRange", "redis/sorted_set.go: zRange, zRevRange", "datastruct/sorted_set.go: ZRange, zRange"]}
{"id": "C93", "title": "What clients see of a counter or a growing set never goes back", "statement": "If the only requests that touch a key are INCR, DECR, INCRBY, DECRBY, GET, EXISTS and TYPE, and the amounts added are not negative and their sum fits in 64 bits, then a client whose request was sent after another request was answered - on whatever connection - is told at least the number that was told there. If the only requests that touch a key are SADD and questions, then the size told later is at least the size told before, and a string once reported as a member is always reported as a member. Under every schedule, on both servers. With an overflow, or with SPOP, it does go back.", "quantifier": "every schedule, any number of clients and requests, all amounts", "why_tests_cant": "every interleaving and history; several connections", "anchors": ["datastruct/string.go: IncrBy, Get", "datastruct/set.go: SAdd, SCard, SIsMember", "server/v1/server.go: handleConn", "server/v2/server.go: React", "event/worker.go: run"]}
{"id": "C94", "title": "Acknowledged appends to a list are kept in the order of acknowledgement", "statement": "If the only requests that touch a key are RPUSH and questions, then of two RPUSHes that were both answered, the second sent after the first was answered - on whatever connections - the list holds the values of both, those of the first before those of the second. Under every schedule, on both servers. On the first server the client need not wait for the answer: what it sends on one connection is appended in the order it was sent. On the gnet server it must wait.", "quantifier": "every schedule, any number of clients, values and requests", "why_tests_cant": "every interleaving and history", "anchors": ["datastruct/list.go: RPush, LRange", "redis/list.go: rPush, lRange", "server/v1/server.go: handleConn", "server/v2/server.go: React", "event/worker.go: run"]}
{"id": "C95", "title": "A queue is first in, first out in real time", "statement": "Let the only requests that change a key be pushes at one end of a list and pops at the other (LPUSH with RPOP, or RPUSH with LPOP), and let the pushed values be distinct. If a push of u was answered before a push of v was sent - on whatever connections - then whenever both have been handed out, v was not handed out before: it is impossible that the pop that got v was answered before the pop that got u was sent. Under every schedule, on both servers. If the producer does not wait for the answer on the gnet server, or pops at the end where it pushes, the order may be the other one.", "quantifier": "every schedule, any number of producers, consumers and values", "why_tests_cant": "every interleaving and history; the values and their order are decided by the schedule", "anchors": ["datastruct/list.go: LPush, RPop, RPush, LPop", "redis/list.go: lPush, rPop, rPush, lPop", "server/v1/server.go: handleConn", "server/v2/server.go: React", "event/worker.go: run"]}
{"id": "C96", "title": "A lock excludes in real time", "statement": "Let clients take a lock by SADD key token and release it by SREM key token, where only a client that has been told that it has the lock releases it, after it has been told, and only once for each taking. Then critical sections do not overlap: of any two requests that are told that they have the lock, the release of one was sent before the other was told. Under every schedule, on both servers, whatever else clients send that respects the token. If somebody releases a lock that is not his, two clients can have it; and a release sent without waiting for the answer may be executed first, and the lock is then never free again.", "quantifier": "every schedule, any number of clients, takings and releases", "why_tests_cant": "every interleaving and history; a violation of mutual exclusion shows up only in particular interleavings", "anchors": ["datastruct/set.go: SAdd, SRem", "redis/set.go: sAdd, sRem", "server/v1/server.go: handleConn", "server/v2/server.go: React", "event/worker.go: run"]}
{"id": "C97", "title": "SPOP hands out what was added, everything once", "statement": "If a key is absent at first, the only requests that can change it are SADD and SPOP with a count, and each string is added once, then at every moment each string added so far has either been drawn by exactly one SPOP or is still a member; a SPOP gets as many members as it asks for, or all that are left. So of all clients of a running server no two draw the same string, and nothing is drawn that nobody added, under every schedule and every random choice. A SPOP without a count gets nothing; a string added again may be drawn again.", "quantifier": "every history of such requests mixed with any requests that cannot change the key, every number of members, every random choice, every schedule of the running servers", "why_tests_cant": "every history, schedule and random choice", "anchors": ["datastruct/set.go: SAdd, SPop, SIsMember", "redis/set.go: sAdd, sPop, sIsMember", "event/worker.go: run"]}
{"id": "C98", "title": "Acknowledged APPENDs stand in the log in the order of acknowledgement, and later readers see them", "statement": "If the only requests about a key that is absent at first are APPENDs and questions, then: if an APPEND was answered before another request was sent - on whatever connections -, a second APPEND's record stands behind the first record, and a GET shows the first record at the place that its answer named. Under every schedule, on both servers. On the gnet server a client that does not wait for the answer may find its second record before its first.", "quantifier": "every schedule, any number of clients, records and requests", "why_tests_cant": "every interleaving and history", "anchors": ["datastruct/string.go: Append, Get", "redis/string.go: get", "server/v1/server.go: handleConn", "server/v2/server.go: React", "event/worker.go: run"]}
