# ---------------------------------------------------------------- protocol
prop("C01", "Requests survive the wire",
 "A request encoded as a RESP array of bulk strings (any number of arguments, any bytes in them, including CR, LF and NUL) is decoded to exactly those arguments in order, whatever bytes follow it in the buffer, and exactly the request's bytes are consumed; two different requests are never confused.",
 "every list of byte strings whose lengths fit the machine (allocatable, below 2^63) and every trailing byte string",
 "infinitely many argument lists and binary contents; framing bugs show up only on particular bytes and lengths",
 ["protocol/decode.go: DecodeFromReader, decodeSingleLine, readBulkOrArrayLength, readBulkStrings, readArray", "protocol/encode.go: Response.Encode, AppendBulkStrings"],
 note="C01_request, C01_injective; C01_demo shows a binary request meeting the hypotheses.")
prop("C02", "Replies are unambiguous RESP",
 "Every reply the server encodes without failing is one well-formed RESP value: a client's RESP reader recovers exactly the status/error/integer/bulk/array that the command produced and stops exactly at its last byte, whatever follows on the connection; two replies are never confused.",
 "every request, state and random choice (so every reply the command layer can build), every continuation of the stream",
 "all payloads, all array items and all following bytes",
 ["protocol/encode.go: Response.Encode, ResponseItem.encode"],
 note="The reader read_reply is a separate specification (SpecResp.v).")
prop("C03", "Malformed input never panics the decoder",
 "No byte string sent by a client makes the request decoder panic; malformed input gives an error.",
 "every byte string", "the space of malformed frames is unbounded",
 ["protocol/decode.go: DecodeFromReader, readBulkOrArrayLength, readBulkStrings"],
 status="partial", note="False of the code: C03_no_cr_refuted (every first line that is a '$' or '*' header without CR panics). Proved: no panic on every input all of whose length headers are well formed (C03_no_panic_partial); C44 gives the exact cause of every panic.")
prop("C44", "Only a malformed length header can panic the decoder",
 "Whenever decoding panics, the input contains, at a line start, a '$' or '*' header whose line has no CR, or a '$' header whose number is unusable as an allocation size; any input without such a header is decoded or refused without panic.",
 "every byte string", "the space of malformed frames is unbounded",
 ["protocol/decode.go: readBulkOrArrayLength, readBulkStrings, readArray"],
 note="C44_panic_cause is the necessary condition, C03_no_panic_partial its contrapositive in the shape of well-formed headers.")
prop("C04", "A truncated request is never executed",
 "If the connection delivers a strict prefix of a request, the decoder reports an error instead of inventing argument bytes the client did not send.",
 "every request and every proper prefix of its encoding", "every cut point of every request",
 ["protocol/decode.go: readBulkStrings, readArray"],
 status="partial", note="False of the code: C04_refuted (a cut inside the last argument is padded with NULs and accepted). Proved for every cut before the last argument's bytes (C04_refused_partial); C45 says exactly what happens at every cut.")
prop("C45", "What becomes of a truncated request",
 "A request cut at any byte is either refused, or decoded to the same arguments except that the last one is what arrived of it filled up with NUL bytes to its announced length.",
 "every request and every proper prefix of its encoding", "every cut point of every request",
 ["protocol/decode.go: readBulkStrings, readArray"])
prop("C05", "The decoder is total, local and makes progress",
 "Decoding any finite input terminates: it panics (C44), fails, or consumes a non-empty prefix of the input and leaves the remainder untouched; an accepted request depends only on the bytes consumed; nested arrays are flattened in order.",
 "every byte string, every nesting", "termination and progress are claims over all inputs",
 ["protocol/decode.go: DecodeFromReader, readArray"])
prop("C06", "Pipelined requests are all served",
 "If one delivery from the network contains several complete requests, each of them is executed and answered, in order.",
 "every sequence of requests concatenated in one frame", "all ways the transport may batch requests",
 ["server/v2/server.go: React", "event/handler.go: HandleRequest"],
 status="partial", note="False of the code: C06_refuted (everything after the first request of a frame is dropped). Proved for frames with exactly one request (C06_single_partial); see C46 for what happens to the rest.")
prop("C46", "A frame is executed as its first request only",
 "Whatever follows the first request in a delivered frame, the only request executed for that frame is the first one.",
 "every schedule, every frame that begins with a request", "all ways the transport may batch requests, under all schedules",
 ["server/v2/server.go: React", "event/handler.go: HandleRequest"])
# ---------------------------------------------------------------- event loop
prop("C07", "Commands execute one at a time, each at most once, and each client gets its own reply",
 "For every interleaving of any number of connection goroutines, the worker and command goroutines, the executed commands form a single sequence whose sequential execution gives the state and the replies; no frame is executed twice; executions never overlap; every reply goes to the connection of its frame, at most one per frame, and is the reply its own command produced at its place in that sequence, unless its deadline has passed and it says so.",
 "every number of clients, every schedule of their steps, the worker's, the deadline timers and Stop, unbounded length",
 "schedules cannot be enumerated by tests",
 ["event/event_pool.go: AddEvent", "event/worker.go: run", "event/handler.go: HandleRequest", "redis/command.go: ExecuteAsync, setRsp", "server/v2/server.go: React"])
prop("C08", "Real-time order is respected (linearizability)",
 "If one client's reply (other than a deadline error) is written before another client's request arrives, the first command took effect before the second.",
 "every schedule, every pair of requests", "needs all interleavings",
 ["event/event_pool.go", "event/worker.go", "event/handler.go"])
prop("C09", "A timed-out request has no effect",
 "A client that is answered with the deadline error can assume its command did not and will not run.",
 "every schedule and every moment at which the deadline fires",
 "depends on the moment the timer fires relative to the queue and worker",
 ["event/handler.go: HandleRequest", "redis/command.go: NewCommandFromReceive, setRsp"],
 status="partial", note="False of the code: C09_refuted. Proved: such a request runs at most once (C09_at_most_once_partial); by C47 it does run.")
prop("C47", "A timed-out request is executed all the same, exactly once",
 "Unless the process crashes, hangs or is stopped, a request answered with the deadline error has been executed exactly once, as the request its frame began with, by the time the server comes to rest.",
 "every schedule and every moment at which the deadline fires",
 "depends on the moment the timer fires relative to the queue and worker",
 ["event/handler.go: HandleRequest", "event/worker.go: run"])
prop("C10", "Stopping is clean",
 "Stopping the event pool while clients are active never kills the process; Stop returns; nothing is executed after it has returned; and every request executed before is answered.",
 "every schedule of Stop against clients and the worker", "races between Stop, AddEvent and the worker's select",
 ["event/event_pool.go: Stop, AddEvent", "event/worker.go: run, stop"],
 note="The panic of AddEvent on the closed channel is recovered by the goroutine pool (ants) and is in the model as a lost request. What can kill the process is named: a command that panics, or a frame that announces an argument longer than itself and exhausts memory.")
prop("C48", "Every event accepted before the stop is executed",
 "Every event accepted by the pool before Stop is called is executed.",
 "every schedule of Stop against clients and the worker", "races between Stop and the worker's select",
 ["event/event_pool.go: Stop", "event/worker.go: run"],
 status="partial", note="False of the code: C48_accepted_refuted (the worker's select may take the done channel while an event is queued). Proved: C48_all_but_last_partial (everything ever accepted is executed except at most the last one, and that only if the server was being stopped).")
prop("C41", "Replies on one connection come in the order of its requests",
 "The replies written on a connection come in the order in which its requests arrived.",
 "every schedule", "needs all interleavings of goroutines of one connection",
 ["server/v2/server.go: React", "event/handler.go: HandleRequest"],
 status="partial", note="False of the code: C41_refuted (each frame gets its own goroutine; replies may overtake). Proved for clients that wait for each reply before the next request (C41_closed_loop_partial).")
prop("C53", "Requests are executed in the order in which the queue accepted them",
 "The sequence of executed requests is a prefix of the sequence of accepted ones: no overtaking, no loss in the middle.",
 "every schedule", "needs all interleavings",
 ["event/event_pool.go: AddEvent", "event/worker.go: run"])
prop("C42", "Every request is eventually executed and answered",
 "Without new input the server comes to rest after a bounded number of steps under every schedule; then every frame that begins with a request has been executed once and answered (also when its deadline passed), except for replies that cannot be encoded, unless a command crashed the process or the server was being stopped; other frames have no effect and no reply.",
 "every schedule", "deadlock and lost wake-up freedom quantify over all schedules",
 ["event/event_pool.go", "event/worker.go: run", "event/handler.go: HandleRequest", "server/v2/server.go: React"])
prop("C43", "The command log is a write-ahead log whose replay gives the same state",
 "Every executed request is in the command log before it is executed, as the bytes the client sent, and replaying the log gives the state of the server.",
 "every schedule", "races between logging and execution",
 ["server/v2/server.go: React", "persistence/persistence.go: WriteCommand"],
 status="partial", note="Replay is false of the code: C43_refuted (requests are logged in decoding order, not in execution order). Proved: logged before executed, verbatim (C43_write_ahead_partial, C43_log_is_request).")
# ---------------------------------------------------------------- v1 server
prop("C56", "Requests arrive whole however the network splits them",
 "Reading requests from a connection returns exactly the requests the client sent, in order, whatever pieces the bytes arrive in; while bytes are missing it waits; what has been returned does not change when more arrives.",
 "every sequence of requests, every way to split the bytes over reads", "all splits of all byte streams",
 ["protocol/decode.go: DecodeFromReader, readBulkStrings, readArray", "server/v1/server.go: handleConn"],
 status="partial", note="False of the code when a value is split over two reads: C56_refuted (the value is cut at the split and filled with NUL bytes, the rest is taken for the next request). Proved for every split that does not cut a value (C56_requests_partial, C56_so_far_partial); and for all bytes and all splits that every byte is accounted for: the returned requests are the decoder's reading of the bytes that arrived, in order, with nothing left out and nothing added but NUL bytes at the end of a piece (C56_bytes, C56_exact).")
prop("C57", "The v1 server answers each connection in order",
 "Under every schedule: commands are executed one at a time, each at most once; on each connection the n-th reply written answers the n-th request taken from it, with the reply of one sequential run of all executed requests or the deadline error; of each connection's requests those executed are executed in the order they were sent. What arrives on a connection is cut into requests and refused bytes, every byte in its place, nothing added but NUL bytes at the end of a piece, and these requests are the ones taken.",
 "every schedule, any number of connections and requests, all bytes and all ways to split them", "all interleavings",
 ["server/v1/server.go: handleConn", "protocol/decode.go: ReceiveDataAsync", "event/handler.go: HandleRequest", "event/worker.go: run"])
prop("C58", "The v1 server serves everything that arrives",
 "When the v1 server has come to rest and is still alive, every request that has arrived on an open connection has been executed once and answered, if the server is not being stopped and no write to the connection failed.",
 "every schedule", "deadlock and lost wake-up freedom quantify over all schedules",
 ["server/v1/server.go: handleConn", "protocol/decode.go: ReceiveDataAsync"])
prop("C59", "The v1 server survives its clients",
 "No client can end the v1 server process.",
 "every schedule, every byte stream", "all schedules x byte streams",
 ["server/v1/server.go: handleConn", "protocol/decode.go: ReceiveDataAsync"],
 status="partial", note="False of the code: C59_refuted (whenever a client connects and disconnects there is a schedule that kills the process). Proved: the complete list of causes (C59_causes_partial).")
prop("C60", "Stopping the v1 server",
 "Stop returns once everything has come to rest, unless the process died; after the pool has been stopped nothing is executed, and after Stop has returned no request is started and nothing is written.",
 "every schedule", "all interleavings of Stop with requests",
 ["server/v1/server.go: Stop", "event/event_pool.go: Stop"])
# ---------------------------------------------------------------- keyspace
prop("C11", "The sharded map is a map",
 "For all operation sequences the sharded map behaves as one finite map: lookup returns the last value set and not deleted, set-if-absent / delete-if-exists / load-and-delete / upsert have their advertised results, and enumeration yields each present key exactly once, whatever the hash values and whatever order Go iterates in.",
 "every sequence of operations, every key, every iteration order",
 "all histories x all keys x all iteration orders",
 ["lib/shard_map/shard_map.go"])
prop("C12", "A command on a key of another type fails and changes nothing",
 "If a key holds a value of one type, every command of another type family naming it as its key answers the type error (or an argument error that does not depend on the state) and changes nothing. Exceptions, with their exact answers: ZPOPMIN and ZPOPMAX answer an empty array, HGETALL a nil, SDIFF/SINTER/SUNION an empty array when the key is the only one or an earlier one is missing or empty, MGET (C19) no reply, LINDEX (C49) looks at another key. Nothing changes there either.",
 "every state, every command and argument list", "all states x commands x keys",
 ["datastruct/keys.go: loadKeyInfo", "datastruct/*.go: loadAndCheck*", "redis/*.go"],
 also=["C19_mget_mixed"])
prop("C13", "Commands touch only the keys they name",
 "Executing commands never changes the answer to any question about a key, unless they write that key or one linked to it by SDIFFSTORE/SINTERSTORE/SUNIONSTORE commands with a single source (which make two keys share one set); questions never change anything.",
 "every history from the start, every continuation, every key",
 "frame conditions quantify over all other keys and all states (aliasing!)",
 ["datastruct/*.go", "datastruct/set.go: SDiffStore, SInterStore, SUnionStore"],
 note="C13_frame_linked is the general theorem (linked: SpecCmd.v); C13_frame and C13_frame_nonset are simpler cases. Without the exception the property is false: C13_alias_refuted.")
prop("C14", "EXISTS, TYPE, DEL and KEYS agree with the keyspace",
 "EXISTS answers 1 exactly for keys that hold a value, TYPE names the type whose commands work on the key, DEL k answers whether it was there and makes k (and only k) absent, KEYS with a pattern that compiles lists exactly the present keys the pattern matches, each once; with a pattern that does not compile it crashes the server.",
 "every reachable state, every key, every pattern, every map iteration order", "all states and iteration orders",
 ["datastruct/keys.go", "redis/keys.go"],
 note="The glob library is a parameter of the model (compile: pattern -> option matcher). The type texts are those of the code ('setIfNotExists' for sets). DEL and EXISTS look at their first argument only.")
prop("C15", "Bad requests are rejected without effect",
 "An unknown command, one with too few arguments, or a non-number where a number is required is answered with an error and changes nothing; command names are case-insensitive. Exception: MSET with no argument or an odd number of at least three is accepted, the last key being dropped.",
 "every command name, argument list and state", "all argument lists",
 ["redis/command.go: NewCommandFromReceive, ExecuteAsync", "redis/*.go"])
# ---------------------------------------------------------------- strings
prop("C16", "GET returns the last SET",
 "After any history, the replies about a string key (GET, SET, MSET, APPEND, INCR.., DEL, EXISTS, TYPE, ...) are those of a plain string variable, whatever happens to other keys; SET overwrites a value of any type; GET returns the value last set.",
 "every history over all commands, every key and value", "all histories",
 ["datastruct/string.go: Set, Get, MSet, MGet, Append", "redis/string.go"])
prop("C17", "INCR/DECR family is 64-bit integer arithmetic",
 "INCR, DECR, INCRBY, DECRBY on a key holding a decimal int64 (0 if missing) store and return the sum modulo 2^64 as a signed number, hence the exact sum whenever it fits; on a non-integer they fail and change nothing.",
 "every reachable state, every stored string, every int64 increment", "2^128 operand pairs",
 ["datastruct/string.go: IncrBy", "redis/string.go: incr, incrBy, decr, decrBy"],
 note="'An out-of-range result is refused rather than stored' (Redis) is false: C17_overflow_refuted.")
prop("C18", "APPEND concatenates",
 "APPEND k v makes the value old ++ v (v if k was absent) and answers its byte length.",
 "every reachable state, key and value", "all byte strings and states",
 ["datastruct/string.go: Append"])
prop("C19", "MSET then MGET",
 "MSET k1 v1 ... stores every pair, later duplicates winning, and changes no other key; MGET answers one entry per key in order, nil for absent keys; with a key of another type among them the client gets no reply.",
 "every key/value list, every reachable state", "all lists, duplicates, and mixtures of types",
 ["datastruct/string.go: MSet, MGet", "redis/string.go: mSet, mget", "protocol/encode.go: ResponseItem.encode"],
 note="'MGET always gets a reply' is false: C19_mget_no_reply_refuted, and in general C19_mget_mixed.")
# ---------------------------------------------------------------- lists
prop("C20", "A list behaves as a sequence",
 "For every history of list commands on a key, LLEN, LRANGE, LPOP, RPOP and the effects of LPUSH, RPUSH, LSET, LINSERT, LREM are those of a plain sequence of byte strings, whatever happens to other keys (up to the first push at an end that an LREM lost, see C22).",
 "every history, every argument",
 "pointer manipulations go wrong only on particular histories (removal at ends, emptied lists)",
 ["datastruct/list.go", "redis/list.go"],
 note="The condition is the step function list_step of SpecKey.v being defined ('within').")
prop("C21", "LREM removes the right occurrences",
 "LREM k n v removes the first n occurrences from the head (n>0), the last |n| from the tail (n<0) or all (n=0), keeps every other element in order, and answers how many were removed; with n = -2^63 it removes nothing.",
 "every list content, count and value", "all lists x counts x values",
 ["datastruct/list.go: LRem, LRemCountFromHead, LRemCountFromTail"])
prop("C22", "A list emptied by LREM is still a usable empty list",
 "After LREM removed every element, the key behaves as an empty list: later pushes, reads and removals work as on a fresh list and never crash the server.",
 "every history containing an LREM that empties the list", "needs specific multi-command histories",
 ["datastruct/list.go: LRemCountFromHead, LRemCountFromTail, RPush, LPush"],
 status="partial", note="False of the code: C22_refuted (RPUSH after LREM 0 emptied the list is invisible, the next LREM crashes). Proved: reads, pops, DEL and pushes at the other end work (C22_empty_partial); popping everything loses nothing (C22_pop_all).")
prop("C23", "LRANGE and LSET positions",
 "LRANGE k a b returns exactly the elements at positions max(a',0)..min(b',len-1) with negative indices counted from the end; LSET replaces exactly the element at its position and refuses positions outside.",
 "every list, every int64 indices", "all index pairs incl. extremes",
 ["datastruct/list.go: LRange, lIndexNode, LSet", "redis/list.go: lRange, lSet"])
prop("C49", "LINDEX returns the element at a position",
 "LINDEX k i returns the element of k at position i (negative: from the end), or nil.",
 "every list, every int64 index", "all indices",
 ["redis/list.go: lIndex", "datastruct/list.go: LIndex"],
 status="partial", note="False of the code: C49_lindex_refuted (the second argument is used as the key as well as the index). Proved: the position arithmetic for the key it looks at (C49_lindex_partial).")
# ---------------------------------------------------------------- sets
prop("C24", "A set contains what was added and not removed",
 "SADD answers the number of new members, SREM the number removed, SISMEMBER and SMEMBERS reflect exactly the current members, each once; the replies about a set key through any history are those of a finite set.",
 "every history, every iteration order", "all histories and orders",
 ["datastruct/set.go", "redis/set.go"])
prop("C25", "SCARD equals the number of members",
 "After any history SCARD k equals the number of elements SMEMBERS k would list.",
 "every history including SPOP, SMOVE and the store commands", "the counter is maintained separately from the members, so drift appears only after particular histories",
 ["datastruct/set.go: sAdd, sRem, sPop, SMove, SCard"],
 status="partial", note="False of the code after SPOP or SMOVE: C25_refuted. Proved: exact in every history without them (C25_scard_partial), never too small in any (C25_at_least); C62 says exactly what it counts.")
prop("C62", "What SCARD counts",
 "SCARD k is a counter: SADD adds its answer to it, SREM subtracts its answer, SPOP and SMOVE leave it as it is for the key they take from, SMOVE adds its answer to that of its target, and a STORE from two or more sources starts it at the number of members. Along any history of one set key SCARD is the number of members plus the number of members popped since the key came into being.",
 "every history, every iteration order", "the counter is maintained separately from the members",
 ["datastruct/set.go: sAdd, sRem, sPop, SMove, SCard, SDiffStore, SInterStore, SUnionStore"])
prop("C63", "Scores survive a damaged order",
 "In every state that can be reached, also when the order of a sorted set is damaged (C32, C33, C50), the set has a table of scores and a counter, and every later request follows them until the server crashes: ZSCORE and ZCARD never crash and tell them (no score is told while the counter is 0); a ZADD or ZINCR either gives the member exactly the new score and counts it, or leaves everything as it was and does not count it, and changes no other score; ZREM forgets the scores of exactly the named members and answers how many had one; ZPOPMIN and ZPOPMAX and all questions change no score.",
 "every reachable state, every later history, every tower height", "needs an argument about all shapes a damaged skip list can have",
 ["datastruct/sorted_set.go: zAdd, ZAdd, ZIncr, ZRem, ZScore, ZCard, ZPopMin, ZPopMax, insert, delete, updateScore, deleteNode", "redis/sorted_set.go"])
prop("C64", "What a list does in every state",
 "A list key, in every state that can be reached (also after LREM has emptied it, C22), is a chain of elements, the ends from which the chain can still be reached, and a counter; these tell for every LPUSH, RPUSH, LPOP, RPOP, LLEN, LRANGE, LREM, LSET, LINSERT, LINDEX, DEL, EXISTS and TYPE, with any arguments, whether the server process panics, and if not, exactly what it answers and what the list is afterwards. A conversation about one key panics exactly when this automaton does, and otherwise gets exactly its answers. A list that counts elements but shows none gives nothing to LPOP, panics at LREM from the front, and starts anew at LPUSH while LLEN counts on.",
 "every reachable state, every request about the key, every later history", "needs an argument about all shapes a damaged linked list can have, and about every argument of every command in each of them",
 ["datastruct/list.go: all", "redis/list.go"])
prop("C26", "SDIFF, SINTER, SUNION compute set algebra",
 "For two or more existing non-empty set keys the answers are exactly first minus the others, the intersection and the union, each element once; the STORE variants store exactly that set, answer its size and change no other set.",
 "every tuple of sets, every iteration order", "all tuples of sets and orders",
 ["datastruct/set.go: SDiff*, SInter*, SUnion*", "redis/set.go"],
 note="A missing key does not count as the empty set in this code: C26_missing_refuted.")
prop("C27", "What a STORE command stores",
 "With two or more sources the stored set is an independent copy: later changes to other keys never change it, nor do changes to it change them (unless linked by a single-source STORE). With a single source, source and destination are one set from then on: every question about the one is answered as about the other until one of them is replaced.",
 "every history", "aliasing shows only in particular histories",
 ["datastruct/set.go: SDiffStore, SInterStore, SUnionStore"],
 note="The Redis claim that a stored result is always an independent copy is false: C27_refuted.")
prop("C28", "SPOP and SMOVE",
 "SPOP k n removes and returns min(n, size) distinct members (none without a count); SMOVE moves the member from source to target if the target is a set (not linked to the source as in C13) or missing; a member that is not there gives an error and changes nothing; to a target of another type it answers the type error and loses the member.",
 "every state, count and iteration order", "all states and orders",
 ["datastruct/set.go: sPop, SPop, SMove", "redis/set.go: SPop, sMove"],
 note="C28_refuted: the Redis claims 'SPOP k pops one member' and 'if SMOVE fails nothing is lost' are false.")
# ---------------------------------------------------------------- sorted sets
prop("C29", "Sorted sets stay sorted and indexable",
 "After any history whose sorted-set commands on the key are ZADD, ZINCR, ZPOPMIN, reads, and removals of the two lowest members, for every choice of random tower heights below the maximal one, ZRANGE k 0 -1 lists the members in strictly increasing (score, member) order, every index window of ZRANGE returns exactly that slice, and ZCARD is its length.",
 "every such history, all heights below 32, all non-NaN scores", "heights are random; span bookkeeping errors appear only for particular shapes",
 ["datastruct/sorted_set.go: insert, updateScore, findElementByRank, zRange"],
 note="A tower of height 32 (probability 4^-31 per insertion) makes the next insertion crash: C29_high_tower_refuted.")
prop("C30", "ZSCORE returns the last score given",
 "After any such history ZSCORE k m is the score last assigned to m (or the accumulated float64 sum), nil if m was never added.",
 "every such history, all heights below 32", "all histories",
 ["datastruct/sorted_set.go: zAdd, ZScore, ZIncr"])
prop("C31", "ZRANK is the position in ZRANGE",
 "ZRANK k m is the (1-based) position of m in ZRANGE k 0 -1 for every member m, nil for others.",
 "every such history, all heights below 32, every member", "all shapes of the index",
 ["datastruct/sorted_set.go: rank, ZRank"])
prop("C32", "ZREM removes exactly the named members",
 "After ZREM k m..., the named members are gone from every view of the set (ZRANGE, ZCARD, ZSCORE), the others are untouched, and the answer is how many were removed.",
 "every state reachable by any history, all heights", "depends on the random shape of the index",
 ["datastruct/sorted_set.go: ZRem, delete, deleteNode"],
 status="partial", note="False of the code for members beyond the two lowest: C32_refuted. Proved for the two lowest (C32_zrem_partial) and for names that are not members (C32_missing).")
prop("C33", "ZPOPMIN and ZPOPMAX remove the extremes",
 "ZPOPMIN/ZPOPMAX k n return and remove the n lowest/highest members; a removed member is no longer a member and can be added again.",
 "every state, count, all heights", "depends on histories and shape",
 ["datastruct/sorted_set.go: ZPopMin, ZPopMax, delete"],
 status="partial", note="False of the code: C33_refuted (popped members keep their score and cannot be added again; ZPOPMAX of three or more pops nothing). Proved: ZPOPMIN for every set and count as far as ranges and counts are concerned; ZPOPMAX for at most two members. C61 says exactly what becomes of a popped member.")
prop("C61", "What becomes of a popped member",
 "A member popped by ZPOPMIN leaves every range and count, but while the set is not empty ZSCORE still tells its last score and ZRANK the number of members before the place it had; no ZADD (whatever the scores and options) or ZINCR of it has any effect or answers anything but 0; ZREM answers 1 and only then it can be added again. In a set that has become empty ZSCORE and ZRANK answer nil and ZREM answers 0 and has no effect, so the popped members can never be added again.",
 "every history, score and member, all heights below 32", "all histories",
 ["datastruct/sorted_set.go: ZPopMin, ZScore, ZRank, zAdd, ZRem"])
prop("C34", "ZCOUNT and ZRANGEBYSCORE select by score",
 "ZCOUNT k min max is the number of members whose score lies in the interval (open or closed ends, infinities allowed) and ZRANGEBYSCORE lists exactly them in order.",
 "every set of scores and every pair of bounds", "all intervals and score multisets",
 ["datastruct/sorted_set.go: count, minScoreRank, maxScoreRank, zRangeByScore"],
 status="partial", note="False of the code: C34_refuted. Proved for the intervals characterised by count_specified / select_specified (SpecZSet.v); C54 says exactly what the code answers on every other interval. E.g. it is right on -inf..+inf and closed intervals starting at the score of exactly one member.")
prop("C54", "What ZCOUNT and ZRANGEBYSCORE compute on every interval",
 "Each end of the interval is turned into a rank: the number of members with scores up to it (whether it is a lower or an upper end), or, for an open end equal to the scores of members, the place after (lower) or before (upper) one of those members, or -1 for an infinity of either sign; ZCOUNT and ZRANGEBYSCORE answer from the two ranks alone, except on -inf..+inf, where they take everything. In particular a closed lower end includes the last member up to it, and with several members at an open end the answer depends on random choices made when they were inserted.",
 "every set of scores, every pair of bounds, every history and every random choice", "all intervals, score multisets and tower heights",
 ["datastruct/sorted_set.go: count, zRangeByScore, minScoreRank, maxScoreRank"])
prop("C35", "What ZREVRANGE lists",
 "ZREVRANGE k a b lists the members at positions a..b of the ascending order (clipped as in C23), in descending order.",
 "every set, every index pair", "all windows",
 ["datastruct/sorted_set.go: zRevRange"])
prop("C50", "ZREVRANGE is ZRANGE from the other end",
 "ZREVRANGE k a b lists positions a..b of the members in descending order.",
 "every set, every index pair", "all windows",
 ["datastruct/sorted_set.go: zRevRange"],
 status="partial", note="False of the code: C50_refuted. Proved for the whole set (C50_all) and for windows that are their own mirror images (C50_descending_partial); C35 says exactly what the code does.")
prop("C36", "NX, XX and INCR flags",
 "ZADD NX never changes an existing member, ZADD XX never adds one, INCR adds to the current score; the answer counts the members affected.",
 "every state and member list", "all combinations",
 ["datastruct/sorted_set.go: zAdd, ZAdd", "redis/sorted_set.go: zAdd"],
 note="For members that ZPOPMIN/ZPOPMAX has not popped (C33). XX on a missing key creates an empty sorted set: C36_xx_creates_refuted.")
# ---------------------------------------------------------------- hashes
prop("C37", "Hash commands store nothing",
 "No hash command ever changes the state of the server.",
 "every reachable state and request", "all histories",
 ["datastruct/hash_table.go", "redis/hash_table.go"])
prop("C51", "HSET then HGET",
 "After HSET k f v, HGET k f returns v, HEXISTS answers 1 only for present fields, HDEL removes the field, HLEN counts fields.",
 "every history", "all histories",
 ["datastruct/hash_table.go", "redis/hash_table.go"],
 status="partial", note="False of the code: C51_refuted (for every reachable state and absent key, HSET is acknowledged and the field is not found). Proved: C51_no_phantom_partial (no question about a hash ever reports a field that is not there: every hash is empty, in every reachable state), and C37.")
prop("C40", "The hash table structure is a map from fields to values",
 "Every history of operations on a hash table value (set, set-if-absent, get, delete, increments, enumeration) has the results of a finite map, whatever the iteration order.",
 "every history, every iteration order", "all histories and orders",
 ["datastruct/hash_table.go: hashTable methods"])
prop("C52", "The hash table's length counter is the number of fields",
 "After every history the counter reported as the length is the number of fields, and deletion reports whether the field was there.",
 "every history", "the counter is maintained separately from the fields",
 ["datastruct/hash_table.go: hashTable methods"],
 status="partial", note="False of the code: C52_refuted. Proved for histories that only set fields (C52_length_partial).")
# ---------------------------------------------------------------- server
prop("C38", "No command sequence crashes the server",
 "No sequence of well-formed requests makes a command goroutine panic (which would terminate the process).",
 "every command sequence, every random choice, every schedule", "all histories",
 ["redis/command.go: ExecuteAsync", "datastruct/*.go"],
 status="partial", note="False of the code: C38_refuted, C38_requests_refuted; not even a request is needed, C38_no_request_refuted (a frame that announces an argument larger than memory). Proved for every sequence of 'harmless' requests (SpecSafe.v: every command but ZREM and ZPOPMAX; KEYS with patterns that compile; scores that are numbers; LREM only from one end and then no push at the other), and for every sequence whose effect the specification describes, also under every schedule of the running server, for coin flips below the maximal tower height.")
prop("C55", "Every request comes to an end",
 "In every state that any history can produce, damaged values included, every request ends with a reply or with a crash of the process: no command loops for ever. In the running server the command being executed can always return or crash next.",
 "every history, every request, every random choice, every schedule", "all histories; the pointer structures can be corrupted by earlier commands",
 ["datastruct/list.go", "datastruct/sorted_set.go", "datastruct/set.go", "redis/*.go", "event/worker.go: run"])
prop("C39", "The server refines one abstract key-value server",
 "Every conversation the server survives is a conversation of the abstract server of SpecServer.v (a finite map from keys to strings, sequences, sets and score tables): there is one run of it with exactly these replies; a conversation it specifies is carried to its end; and under every schedule of the running server one such run explains every reply written.",
 "every history, every random choice, every schedule", "refinement over all histories and schedules",
 ["redis/*.go", "datastruct/*.go", "event/*.go", "server/v2/server.go"],
 note="Where the code corrupts a value (see the refuted properties) the abstract server marks the key as damaged and allows anything for it, and only for it.")
# ---------------------------------------------------------------- process
prop("C65", "The process ends when told to, and not before",
 "The process ends only after a signal or when the address could not be served; by then Stop has been called exactly once, and if the server had begun to serve, it has shut down and its event pool has been stopped, exactly once, even if Stop gave up waiting. When the address cannot be served the process ends by itself. A signal sent to a serving process ends it. Every run ends after a bounded number of steps other than arriving signals.",
 "every schedule of the goroutines of main, every number and time of signals", "the orders of signals, of start-up and of shutdown are not under a test's control",
 ["cmd/server/main.go: main", "server/v2/server.go: Start, Stop, OnShutdown"],
 status="partial", note="False of the code: C65_signals_end_refuted, C65_deaf (a signal that arrives before the server is registered is consumed, and no later signal ever ends the process). C65_signal_partial is proved for runs without a signal before the server begins to serve.")
# ---------------------------------------------------------------- generator
prop("C66", "The generated command table is what the sources declare",
 "From a Go source whose lines fit into 64 KiB the generator makes one entry for each line that declares a command function, in the order of the lines; a function declared below a comment '// Name .' or an empty line is registered under that name, or its own, in lower case; when the names differ each is found in the table as the declared function. Run on path/x.go, where '.go' occurs only at the end, it writes path/x.cmd.go and no other file, and running it again changes nothing. The generated files in the repository are what it makes of the sources there, and they give exactly the commands the server knows; every other request is answered as unknown.",
 "every source text, every path, every request name", "all texts; and the generated files are committed, so nothing ties them to the sources",
 ["cmd/gen_redis_cmd/main.go", "redis/*.go", "redis/*.cmd.go"],
 note="The conditions are needed: C66_long_line (nothing after a longer line is seen, silently), C66_paths_needed (a file that is not a Go source is overwritten with an empty table; a '.go' inside the path redirects the output).")

prop("C67", "Debug mode loads its preset data",
 "Started in debug mode, the server executes its four preset commands one at a time and before any client's request, after which list1, key1, key2 and zset hold the preset data for as long as no client changes them.",
 "every interleaving of the four loading goroutines with each other and with every run of the server and its clients",
 "the order of four unsynchronised goroutines and of the worker is up to the scheduler",
 ["cmd/server/main.go: main, insertPreData, prepareData", "redis/command.go: ExecuteAsync, setRsp"],
 status="partial", note="False of the code: C67_first_refuted (a client may be answered before the data is there), C67_exclusive_refuted (the loading commands may execute at the same time as each other and as a client's command, on maps without locks). Proved: by the time the process is at rest all four have been executed (C67_executed), and then, in runs whose executions do not overlap and whatever their order, the data is there (C67_loaded_partial). The loading goroutines never end: nobody receives their replies.")

prop("C68", "Clients on different keys do not notice each other",
 "If one group of clients names only keys of some set in its requests (and does not list the keyspace) and all other clients name only keys outside that set, then, as long as the server survives, every reply to the group is exactly the reply it would get on a server of its own that is asked only the group's requests in the same order, whatever the others ask, however the requests are interleaved, and also for set values that several keys of one group share.",
 "every set of keys, every mixture of the requests of the two groups, all random choices, every schedule of the running server",
 "a claim about all interleavings of two unbounded conversations and all pairs of them (noninterference)",
 ["datastruct/*.go", "redis/*.go", "server/v2/server.go: React", "event/worker.go"],
 note="C68_alone for conversations, C68_unnoticed for any two conversations in which the group asks the same, C68_served for the running server and the clients of given connections. The provisos are needed: C68_keys_refuted (KEYS shows the keys of others), C68_crash_refuted (a request that crashes the server takes everybody along). LINDEX counts its second argument as a key too, because the code looks there (C49).")

prop("C69", "The server's own random choices do not show",
 "Two servers that execute the same requests in the same order give the same replies, whatever heights of skip list towers they draw and in whatever order they walk their maps; only the order of an answer that stands for a collection (KEYS, SMEMBERS, SDIFF, SINTER, SUNION) and the members SPOP picks may differ.",
 "every conversation, all pairs of assignments of tower heights and iteration orders, every schedule of the running server with the same order of execution",
 "a claim about all pairs of executions with different random numbers; a test sees one assignment per run",
 ["datastruct/sorted_set.go: zslRandomLevel", "datastruct/sorted_set.go", "datastruct/set.go", "datastruct/keys.go: Keys", "redis/*.go"],
 status="partial", note="False of the code: C69_towers_refuted (whether a ZREM crashes the server depends on the heights), C69_open_refuted (ZCOUNT of an open interval answers 2, 1 or 0 depending on them). Proved: without ZADD, ZINCR and SPOP the whole state and all replies are the same, or both servers crash (C69_replay; C69_served for the running server); with sorted sets, if every request is specified by the abstract server (which excludes ZREM beyond the two lowest members and the other damaging requests) and settled (no SPOP, no open end), both survive and reply the same (C69_settled_partial).")
prop("C70", "When a key exists, and of which type it is",
 "Whether a key exists and what TYPE says about it follow from the requests and from which of them were answered with an error, and from nothing else: a key comes to exist, with the command's type, by a successful SET, MSET, APPEND, INCR, DECR, INCRBY, DECRBY, LPUSH, RPUSH, SADD, SDIFFSTORE, SINTERSTORE, SUNIONSTORE, SMOVE (as the target), ZADD or ZINCR naming it; it ceases to exist only by a DEL naming it first (not by being emptied), and its type changes only by DEL, SET, MSET and the STORE commands. KEYS, EXISTS and TYPE agree on this, also on the running server under every schedule.",
 "every conversation, every key, every pattern, every schedule of the running server, all tower heights and iteration orders, also after SPOP, SMOVE or sorted set operations have damaged counters",
 "a claim about the whole history of requests; tests look at single commands on fresh keys",
 ["redis/*.go", "datastruct/keys.go: Exists, Type, Keys, Del", "datastruct/list.go", "datastruct/set.go", "datastruct/sorted_set.go", "datastruct/string.go"],
 note="As Redis, except that emptied lists, sets and sorted sets stay (C70_emptied_demo), DEL removes its first argument only, and HSET and the like never create a key.")
prop("C71", "What it takes to crash the server",
 "While no skip list tower of the maximal height is drawn, and the requests have fewer than 2^63-2 words in all, executing a request crashes the server only for KEYS with a pattern its library rejects, or for a command about a list or sorted set at a key for which there was, since it was last deleted or overwritten, a successful LREM, a ZREM, a ZPOPMAX, or a ZADD or ZINCR with a score that is not a number (or an infinite increment), this request included. In particular a request about a key without such a past is answered, whatever happened to the other keys.",
 "every conversation, all tower heights but the maximal one and all iteration orders, every schedule of the running server",
 "a claim about all histories: which of them can end in a panic",
 ["datastruct/*.go", "redis/*.go", "event/worker.go", "server/v2/server.go"],
 note="C71_unhurt and C71_blame for conversations, C71_history for the first crash of one, C71_served for the running server. C71_causes shows that a bad pattern, LREM, ZREM and ZPOPMAX are causes, and that DEL heals; for the odd scores only the direction stated is proved. The maximal tower crashes by itself (C29_high_tower_refuted); bytes that crash the decoder are C44's subject.")
prop("C72", "Exactly which bytes are which request",
 "The decoder accepts bytes as a request, uses up a given part of them, and logs given bytes, exactly if a grammar says so: a line +..., -... or :..., PING, a $-header followed by that many bytes and two more (padded with NUL at the end of the input), or a *-header followed by that many values, flattened; a header spells its length in decimal. It panics exactly on a header without CR, or one announcing more bytes than can be allocated, at a place where it comes to read a value. All other bytes are refused. The bytes determine the words. The running server executes and logs only what the grammar says of the delivered frames.",
 "every byte string, every schedule of the running server", "all byte strings; a test tries a few",
 ["protocol/decode.go: DecodeFromReader, decodeSingleLine, readBulkOrArrayLength, readBulkStrings, readArray", "server/v2/server.go: React", "redis/command.go"],
 note="The grammar (SpecAccept.v) records the decoder's liberties: digits may be any bytes, junk between the first CR and LF of a header is skipped, the byte before the LF of an inline value is dropped whatever it is, PING is logged twice, the header of a nested array is logged after its elements.")
prop("C73", "Every reply is of a form the command promises",
 "A table gives for each command the forms of its replies (a number, a string, null, an array of strings, one entry per argument, a status word) and the texts of its errors. In every reachable state every reply of every command is one the table lists, and everything listed is really given. Only an MGET naming a key of another type (and a request without words) gets no reply at all; a server at rest has answered everything else. Whatever the running server sends is such a reply to a request of that client, or the deadline message. The older server dies in its encoder only on such an MGET.",
 "every reachable state, every request, every schedule of either server", "all states and requests; a test tries a few",
 ["redis/*.go: all handlers", "redis/command.go", "protocol/encode.go", "protocol/api.go", "server/v2/server.go", "server/v1"],
 note="The table (SpecKinds.v) records what the code does, also where Redis differs: ZINCR answers a number when the score does not change, ZPOPMIN, ZPOPMAX and HGETALL hide the type error, HGET is always null.")
prop("C74", "A request answered with an error has no effect",
 "If the reply to a request is an error then the request has changed nothing. (Not so for SMOVE: with a target of another type the member is gone and the reply is an error.)",
 "every reachable state, every request", "all states and requests; a test tries a few",
 ["redis/*.go: all handlers", "datastruct/*.go", "datastruct/set.go: SMove"],
 status="partial", note="Missing: SMOVE, of which the claim is false (C74_refuted).")
prop("C75", "Overload: what a server with more work than it has room for does",
 "At every moment the server has at most as many frames under way (taken, and neither answered nor given up) as its pool has goroutines. A frame is refused exactly when that many are under way; a refused frame gets no reply, and the server goes on as if it had not been sent. Of the requests accepted into the queue all but the last two at most have been executed, in order. If every connection awaits its reply before sending again, and there are no more connections than goroutines, nothing is refused. Once at rest nothing is under way and the next frame is taken.",
 "every schedule of the running server, every pool size, all frames", "all schedules; a test would need hundreds of thousands of clients at once",
 ["server/v2/server.go: React, NewServer", "event/event_pool.go: AddEvent, NewEventPool", "event/worker.go: run", "event/handler.go: HandleRequest"],
 note="The pool is gnet's (not modelled: a bound on live goroutines). In the model the write of a reply and the end of its goroutine are one step, so C75_patient takes a reply to have arrived when its goroutine has ended. The refusal is silent: C75_demo. Only without Stop does the server come to rest with nothing under way (a request dropped by Stop may wait for its deadline, C10).")
prop("C76", "Which requests may be sent again",
 "A client that does not know whether its request arrived may send SET, MSET, DEL, SADD, SREM, ZREM and LSET again: in every state the second copy changes nothing at all and gets the same reply, or 0 where the first got a number; taking all such copies out of a conversation changes neither the other replies nor the final state. This also holds for SET, DEL and SADD when requests that do not write the key come in between, and for any request (but SMOVE) that was answered with an error. A second SINTERSTORE or SUNIONSTORE with two or more sources makes no difference any question can show. Hash commands store nothing anyway. For every other command that writes there is a history after which a second copy changes the answer to a question.",
 "every reachable state, every history with any number of copies anywhere, all arguments, all iteration orders", "all states and histories; a test tries a few",
 ["redis/*.go: the handlers of the named commands", "datastruct/string.go: Set, MSet", "datastruct/keys.go: Del", "datastruct/set.go: sAdd, sRem, SInterStore, SUnionStore", "datastruct/sorted_set.go: ZRem", "datastruct/list.go: LSet"],
 note="Every implemented command is of one of these kinds (C76_all_kinds). ZADD is listed as harmful because of its INCR option (and SDIFFSTORE because its destination may be a source); SMOVE k k m counts the member again each time.")
prop("C77", "Independent requests commute",
 "If neither of two requests changes a key that the other names - or a key that may hold the same set object, because an earlier SUNIONSTORE, SINTERSTORE or SDIFFSTORE with one source shares it - then the server may execute them in either order: every request gets the same reply, and no later question tells the two resulting states from each other. Hence, however the server takes the requests of two clients whose requests are pairwise independent, each request is answered the same. Requests that change nothing are always independent; KEYS, which depends on every key, is independent only of these. Requests for different keys that share a set, and requests for the same key, need not commute.",
 "every history from the empty server, every way to reorder independent requests, all arguments and iteration orders, every later conversation", "all histories and all interleavings; a test tries a few",
 ["redis/*.go: every handler", "datastruct/set.go: SInterStore, SUnionStore, SDiffStore (aliasing)"],
 note="The two states may differ in the addresses of the set objects; C77_swap is proved with a relation between states up to such a renaming (Twin.v). That KEYS lists the keys in the same order in both (KeyOrder.v) holds because the order in which the model visits a map depends on its keys and the random choices only; the program's depends on more, but the choices range over all orders.")
prop("C78", "A list used as a queue",
 "If the only requests about a key are LPUSHes and RPOPs (or RPUSHes and LPOPs), with or without a count, and questions, then the list is a first-in-first-out queue, whatever happens to other keys: the values put in are, in order, exactly those handed out in replies followed by those still waiting, whose number LLEN tells; a pop gets as many values as it asks for or all that wait; no value is handed out twice (if none is put in twice) and none that was not put in. Clients of a running server, under every schedule, never get the same job. A job handed out in a reply that the server no longer sends because the deadline has passed is lost to everybody; and with LREM the property fails: a value pushed onto a list that LREM has emptied may never be handed out.",
 "every history of such requests mixed with any requests about other keys, every number of values per request, every schedule of the running server", "every history and schedule; a test runs a few",
 ["datastruct/list.go: LPush, RPush, LPop, RPop", "redis/list.go: lPush, rPush, lPop, rPop", "event/worker.go: run"],
 note="C78_queue, C78_once, C78_from_push, C78_size for conversations, C78_clients and C78_clients1 for the two running servers; C78_missed and C78_lrem_refuted show the two limits.")
prop("C79", "INCR hands out each number once",
 "If the only requests about a key that holds the number z are INCRs and questions, the INCRs get the numbers z+1, z+2, ... in order of execution, without gaps or repetition, as long as these are 64-bit integers. Two clients of a running server never get the same number, under any schedule. Beyond the largest 64-bit integer the numbers continue with the smallest.",
 "every history of such requests mixed with any requests about other keys, every schedule of the running server", "every history and schedule; a lost update shows up only in particular interleavings",
 ["datastruct/string.go: IncrBy", "redis/string.go: incr", "event/worker.go: run"],
 note="C79_numbers for conversations, C79_clients and C79_clients1 for the two running servers, C79_wraps_refuted for the end of the integers.")
prop("C80", "Adding a token to a set is taking a lock",
 "If clients add and remove a token in a set only by SADD key token and SREM key token (other tokens may be used alongside, but not in the same request), then the successful SADDs (reply 1) and the successful SREMs of the token alternate, beginning with a SADD: nobody is told that it has the lock while another has it; an SADD is answered 1 exactly if the lock is free. Two clients of a running server that are both told 1 are so with a release executed in between, under every schedule. A client whose deadline passed may have got the lock without being told; a SADD of the token together with another member may be answered 1 while another has the lock.",
 "every history of such requests mixed with any requests about other keys, every schedule of the running server", "every history and schedule; a violation of mutual exclusion shows up only in particular interleavings",
 ["datastruct/set.go: SAdd, SRem", "redis/set.go: sAdd, sRem", "event/worker.go: run"],
 note="C80_lock, C80_told, C80_exclusive for conversations, C80_clients and C80_clients1 for the two running servers; C80_forgotten and C80_pair_refuted show the limits.")
prop("C81", "APPEND writes a log",
 "If the only requests about a key that is absent or holds a string are APPENDs (of one record each) and questions, the string is what it was before followed by all the records in the order of execution: none is lost, overwritten or torn apart. APPEND answers the length of the string that ends with its record, so a client finds its record in what GET later returns, at the place that the reply says, whatever is appended afterwards; the places of different records do not overlap. Clients of a running server each find their record, under every schedule.",
 "every history of such requests mixed with any requests about other keys, every record, every schedule of the running server", "every history and schedule; a lost or torn record shows up only in particular interleavings",
 ["datastruct/string.go: Append", "redis/string.go: stringAppend", "event/worker.go: run"],
 note="C81_log, C81_told, C81_found, C81_apart for conversations, C81_clients and C81_clients1 for the two running servers. The number in the reply is the byte length of the string, without bound: strings are assumed to fit the memory.")
prop("C82", "Keys written together are read together",
 "If the requests about certain keys that write are MSETs of all of them (in any order, with other keys or repeated pairs), a MGET of any of these keys answers the values of the last MSET executed before it, all from that one, or nil / the first values if there was none: no MGET shows a part of one MSET and a part of another. Clients of a running server who read with MGET see, under every schedule, what one of the MSETs wrote. Who reads the keys with separate GETs may see a value of each of two MSETs.",
 "every history of such requests mixed with any requests about other keys, every selection and repetition of keys in the MGET, every schedule of the running server", "every history and schedule; a torn read shows up only in particular interleavings",
 ["datastruct/string.go: MSet, MGet", "redis/string.go: mSet, mget", "event/worker.go: run"],
 note="C82_together for conversations, C82_clients and C82_clients1 for the two running servers; C82_gets_refuted for separate GETs. An MSET with an odd number of arguments is not among the requests (see C19).")
prop("C83", "A list with two ends loses nothing",
 "If a key is absent at first and the only requests about it push values and pop positive numbers of values, at either end, or ask for its length, existence or type, then each pop answers what is at its end at that moment; all values that were pushed were either handed out once or are still in the list, whatever ends are used; what is pushed last at an end is what is popped first there. Clients of a running server who pop at either end never get the same value, and only values that were pushed.",
 "every history of such requests mixed with any requests about other keys, every mix of ends, every schedule of the running server", "every history and schedule",
 ["datastruct/list.go: LPush, LPop, RPush, RPop", "redis/list.go: lPush, lPop, rPush, rPop", "event/worker.go: run"],
 note="C83_deque, C83_conserved, C83_last_first for conversations, C83_clients and C83_clients1 for the two running servers. LREM is excluded (see C22: a list it empties loses an end); C78 is the case of one end each.")
prop("C84", "A growing list can be read in pages",
 "If a key is absent at first and the only requests about it append values with RPUSH, read pages with LRANGE from a position counted from the front (with a last position, or to the end with -1), or ask for its length, existence or type, then a page holds the values at its positions of all that was appended before. A reader who starts at 0 and goes on each time where the last page ended gets the values in the order of appending, none left out and none twice, whatever is appended in between; once it has read to the end it has all that was appended before that request. The same holds for a client of a running server, from the replies it gets. With LPUSH in between a reader gets values twice and misses others.",
 "every history of such requests mixed with any requests about other keys, every choice of page sizes, every schedule of the running server", "every history and schedule",
 ["datastruct/list.go: RPush, LRange", "redis/list.go: rPush, lRange", "event/worker.go: run"],
 note="C84_list, C84_page, C84_read_on, C84_up_to_date for conversations, C84_clients and C84_clients1 for the two running servers; C84_front_refuted for LPUSH.")
prop("C85", "The configuration in force is the last one accepted",
 "The default timeout asked for at any moment is the one in the last configuration text that was accepted before (five seconds if there was none or it names none), and is never zero. A text that is refused leaves no trace: until the next accepted text every question is answered as before.",
 "every history of InitConfig and GetDefaultTimeout calls, every text, every behaviour of the YAML decoder", "every history of loads and questions, whatever the decoder accepts",
 ["config/config.go: InitConfig, GetDefaultTimeout"],
 note="C85_in_force, C85_accepted, C85_never_zero, C85_refused_leave_no_trace, C85_takes_effect. The YAML library is a parameter. A negative timeout is possible (C85_positive_refuted). The server does not use this package.")
prop("C86", "A scoreboard shows everybody's last score",
 "If a key is absent at first and the only requests about it submit scores (ZADD of numbers, without options) or ask (ZRANGE, ZREVRANGE, ZSCORE, ZRANK, ZCARD, EXISTS, TYPE), then at every moment the server shows the ranking of all submissions before: every player who submitted anything exactly once, with the last score, ordered by score and then by name; pages, scores, ranks and the count all belong to that one ranking, which the submissions determine. Clients of a running server see the ranking of the submissions executed so far, under every schedule. With ZPOPMIN among the requests a submission may be lost.",
 "every history of such requests mixed with any requests about other keys, every number of players, every page, every schedule of the running server, all tower heights below the maximum", "every history and schedule; the skip list is rebuilt by each submission",
 ["datastruct/sorted_set.go: ZAdd, ZRange, ZScore, ZRank, zSkipList", "redis/sorted_set.go: zAdd, zRange, zRevRange, zScore, zRank, zCard", "event/worker.go: run"],
 note="C86_board, C86_told, C86_unique for conversations, C86_clients and C86_clients1 for the two running servers; C86_pop_refuted for ZPOPMIN. A tower of the maximal height (odds 4^-31 per insertion) crashes the server (C29_high_tower_refuted); fewer than 2^63-2 submissions.")
prop("C87", "A task moved between sets is in exactly one of them",
 "Let some absent keys be the columns of a task board: tasks with distinct names are added with SADD, moved from one column to another with SMOVE, and no other request touches the columns. Then each task is at every moment in exactly one column, the one where it arrived last: SISMEMBER and SMEMBERS say so. A SMOVE succeeds exactly if the task is in its source column at that moment, and otherwise is an error and changes nothing. So of all clients that claim a task by moving it out of a column only one is told that he succeeded, unless somebody moves it back. This holds for the clients of a running server under every schedule. A column of another type loses tasks.",
 "every set of columns, every number of tasks, every history of such requests mixed with any others, every schedule of the running servers", "every history and schedule; which client wins is decided by the schedule",
 ["datastruct/set.go: SMove, SAdd, SIsMember, SMembers", "redis/set.go: sMove, sAdd", "event/worker.go: run"],
 note="C87_places, C87_move, C87_once for conversations; C87_clients and C87_clients1 for the two running servers; C87_wrong_type_refuted and C87_twice_refuted show that the conditions are needed. SCARD is not covered: it counts moved tasks too (C25).")
prop("C88", "A counter adds up the amounts of all clients",
 "If a key is absent at first and the only requests that touch it are INCR, DECR, INCRBY and DECRBY, then GET shows at every moment the sum of all amounts so far, in 64-bit two's complement, and null before the first; each of these requests is answered with the sum up to and including its own amount; a request whose amount is no integer adds nothing. Clients of a running server see the sum of the amounts executed so far, under every schedule: no update is lost and none is applied twice, even if its client was told of the deadline. With a SET among the requests amounts are thrown away.",
 "every history of such requests mixed with any requests that cannot change the key, every amount, every schedule of the running servers", "every history and schedule",
 ["datastruct/string.go: IncrBy, Get", "redis/string.go: incr, decr, incrBy, decrBy", "event/worker.go: run", "event/handler.go: HandleRequest"],
 note="C88_sum for conversations; C88_clients and C88_clients1 for the two running servers; C88_set_refuted shows that the condition is needed.")
prop("C89", "A set recognises what it has seen",
 "If a key is absent at first and the only requests that touch it are SADD, then at every moment SCARD is the number of different strings added so far and SISMEMBER says whether one was; SADD answers how many of its strings are new. So of all clients of a running server that announce the same string, each with a SADD of its own, only one is told that it is new, under every schedule. With SPOP among the requests SCARD counts too much, and a popped string is new again.",
 "every history of such requests mixed with any requests that cannot change the key, every number of strings, every schedule of the running servers", "every history and schedule; who is told is decided by the schedule",
 ["datastruct/set.go: SAdd, SCard, SIsMember", "redis/set.go: sAdd, sCard, sIsMember", "event/worker.go: run"],
 note="C89_seen for conversations; C89_clients and C89_clients1 for the two running servers; C89_pop_refuted shows that the condition is needed.")
prop("C90", "A key is a register on which all clients agree",
 "If a key is absent at first and the only requests that can change it are SET and DEL, then a GET is answered with the value of the last SET before it, or null if there is none or a DEL came after it, DEL and EXISTS say whether there is a value, and a SET is always answered OK. One order of all executed requests explains what every client of a running server is told. A client whose request was sent after some write was answered is told the value of that write or of one executed after it, under every schedule: clients read what was written.",
 "every history of such requests mixed with any requests that cannot change the key, every value, every schedule of the running servers", "every history and schedule",
 ["datastruct/string.go: Set, Get", "datastruct/keys.go: Del, Exists", "redis/string.go: set, get", "redis/keys.go: del, exists", "event/worker.go: run", "server/v2/server.go: React"],
 note="C90_register for conversations; C90_clients and C90_clients1 for the two running servers; C90_fresh (the answer is not older than what was answered before) for the gnet server.")
prop("C91", "On the first server a request takes effect between being taken and being answered",
 "Under every schedule of the first server: no request is executed before it has been taken from its connection; a request whose answer (other than the deadline error) has been written had been executed before; so of two requests on any two connections, the second taken after the first was answered, the first is executed first. A client that reads a key after another client's write was answered is told the value of that write or of one executed after it, where only SET and DEL change the key.",
 "every schedule, any number of connections and requests", "every interleaving of the handlers, the pool's worker and the deadlines",
 ["server/v1/server.go: handleConn", "event/handler.go: HandleRequest", "event/event_pool.go: AddEvent", "event/worker.go: run"],
 note="The second server's counterparts are C08_real_time, C08_replied_executed and C90_fresh.")
prop("C92", "Lists and sorted sets can be read page by page",
 "Read with windows of any fixed size - positions 0 to p-1, p to 2p-1 and so on - a list (LRANGE) or a sorted set that is not empty (ZRANGE) comes out whole and in order, nothing skipped and nothing twice; a page past the end is empty. The pages of a list may be asked for at different moments, in any order and by different clients of a running server, with any other requests in between that do not change the key. ZREVRANGE cannot be read so: each of its pages is taken from the low end and then reversed.",
 "every list and sorted set of any length, every page size, every conversation and schedule in which the key is not changed between the pages", "every length, page size and interleaving",
 ["datastruct/list.go: LRange", "redis/list.go: lRange", "redis/sorted_set.go: zRange, zRevRange", "datastruct/sorted_set.go: ZRange, zRange"],
 note="C92_list and C92_zset for a state, C92_conversation, C92_clients and C92_clients1 for pages read at different moments; C92_zrevrange_refuted for the descending direction.")
prop("C93", "What clients see of a counter or a growing set never goes back",
 "If the only requests that touch a key are INCR, DECR, INCRBY, DECRBY, GET, EXISTS and TYPE, and the amounts added are not negative and their sum fits in 64 bits, then a client whose request was sent after another request was answered - on whatever connection - is told at least the number that was told there. If the only requests that touch a key are SADD and questions, then the size told later is at least the size told before, and a string once reported as a member is always reported as a member. Under every schedule, on both servers. With an overflow, or with SPOP, it does go back.",
 "every schedule, any number of clients and requests, all amounts", "every interleaving and history; several connections",
 ["datastruct/string.go: IncrBy, Get", "datastruct/set.go: SAdd, SCard, SIsMember", "server/v1/server.go: handleConn", "server/v2/server.go: React", "event/worker.go: run"],
 note="C93_counter and C93_set for the gnet server, C93_counter1 and C93_set1 for the first server; the _refuted theorems show that the conditions are needed.")
prop("C94", "Acknowledged appends to a list are kept in the order of acknowledgement",
 "If the only requests that touch a key are RPUSH and questions, then of two RPUSHes that were both answered, the second sent after the first was answered - on whatever connections - the list holds the values of both, those of the first before those of the second. Under every schedule, on both servers. On the first server the client need not wait for the answer: what it sends on one connection is appended in the order it was sent. On the gnet server it must wait.",
 "every schedule, any number of clients, values and requests", "every interleaving and history",
 ["datastruct/list.go: RPush, LRange", "redis/list.go: rPush, lRange", "server/v1/server.go: handleConn", "server/v2/server.go: React", "event/worker.go: run"],
 note="C94_in_order for the gnet server, C94_in_order1 and C94_pipelined1 for the first server; C94_pipelined_refuted shows that on the gnet server waiting is necessary.")
prop("C95", "A queue is first in, first out in real time",
 "Let the only requests that change a key be pushes at one end of a list and pops at the other (LPUSH with RPOP, or RPUSH with LPOP), and let the pushed values be distinct. If a push of u was answered before a push of v was sent - on whatever connections - then whenever both have been handed out, v was not handed out before: it is impossible that the pop that got v was answered before the pop that got u was sent. Under every schedule, on both servers. If the producer does not wait for the answer on the gnet server, or pops at the end where it pushes, the order may be the other one.",
 "every schedule, any number of producers, consumers and values", "every interleaving and history; the values and their order are decided by the schedule",
 ["datastruct/list.go: LPush, RPop, RPush, LPop", "redis/list.go: lPush, rPop, rPush, lPop", "server/v1/server.go: handleConn", "server/v2/server.go: React", "event/worker.go: run"],
 note="C95_fifo for the gnet server, C95_fifo1 for the first server (with the requests being taken in place of being sent); the _refuted theorems show that the conditions are needed.")
prop("C96", "A lock excludes in real time",
 "Let clients take a lock by SADD key token and release it by SREM key token, where only a client that has been told that it has the lock releases it, after it has been told, and only once for each taking. Then critical sections do not overlap: of any two requests that are told that they have the lock, the release of one was sent before the other was told. Under every schedule, on both servers, whatever else clients send that respects the token. If somebody releases a lock that is not his, two clients can have it; and a release sent without waiting for the answer may be executed first, and the lock is then never free again.",
 "every schedule, any number of clients, takings and releases", "every interleaving and history; a violation of mutual exclusion shows up only in particular interleavings",
 ["datastruct/set.go: SAdd, SRem", "redis/set.go: sAdd, sRem", "server/v1/server.go: handleConn", "server/v2/server.go: React", "event/worker.go: run"],
 note="C96_sections for the gnet server, C96_sections1 for the first server (releases being taken from the connection in place of being sent); the function owner says whose release a SREM is. The _refuted theorems show that the discipline is needed. C80 is the counterpart for the order of execution.")
prop("C97", "SPOP hands out what was added, everything once",
 "If a key is absent at first, the only requests that can change it are SADD and SPOP with a count, and each string is added once, then at every moment each string added so far has either been drawn by exactly one SPOP or is still a member; a SPOP gets as many members as it asks for, or all that are left. So of all clients of a running server no two draw the same string, and nothing is drawn that nobody added, under every schedule and every random choice. A SPOP without a count gets nothing; a string added again may be drawn again.",
 "every history of such requests mixed with any requests that cannot change the key, every number of members, every random choice, every schedule of the running servers", "every history, schedule and random choice",
 ["datastruct/set.go: SAdd, SPop, SIsMember", "redis/set.go: sAdd, sPop, sIsMember", "event/worker.go: run"],
 note="C97_pot, C97_once for conversations; C97_clients and C97_clients1 for the two running servers; the _refuted theorems show that the conditions are needed. SCARD is not covered: it counts drawn members too (C25).")
prop("C98", "Acknowledged APPENDs stand in the log in the order of acknowledgement, and later readers see them",
 "If the only requests about a key that is absent at first are APPENDs and questions, then: if an APPEND was answered before another request was sent - on whatever connections -, a second APPEND's record stands behind the first record, and a GET shows the first record at the place that its answer named. Under every schedule, on both servers. On the gnet server a client that does not wait for the answer may find its second record before its first.",
 "every schedule, any number of clients, records and requests", "every interleaving and history",
 ["datastruct/string.go: Append, Get", "redis/string.go: get", "server/v1/server.go: handleConn", "server/v2/server.go: React", "event/worker.go: run"],
 note="C98_logged for the gnet server, C98_logged1 for the first server; C98_pipelined_refuted shows that on the gnet server waiting is necessary. C81 is the counterpart for the order of execution.")
