# Formal model of yusank/godis in Rocq (Coq 8.16.1)

## Approach
The code is modelled function by function as total, executable Gallina functions in `rocq/theories/`, one model
file per Go file group; every definition cites the file and lines it models and says what it simplifies.

* Go panics, nil dereferences and out-of-range indexing are an explicit `Panic` outcome; loops that are not
  structurally bounded carry fuel and return an explicit `OutOfFuel` outcome, which theorems exclude or name.
* Go pointers: list nodes and skip-list nodes live in an explicit arena per structure (`option loc` pointers,
  in-place mutation = arena update).  `*set` pointers live in a database-wide heap because the STORE commands share
  them between keys.
* Go map iteration order and `zslRandomLevel` are oracles (`choices`): every theorem quantifies over them.
* `int`, `int64`, `uint` arithmetic on user-supplied numbers wraps explicitly (64-bit platform).
* float64 is Coq's `spec_float` (IEEE-754 binary64: `SFcompare`, `SFadd 53 1024`).
* `strconv.ParseFloat`, `strconv.FormatFloat` and the `glob` library are fields of a record `Ext`
  (`parse_float`, `format_float`, `glob_compile`) over which every theorem quantifies; no law is assumed of them.
* Goroutines and channels are a small-step state machine (`Server.v`); theorems quantify over all schedules.

Where the unchanged code violates a property, the full statement is kept in `properties.jsonl`, a `..._refuted`
theorem gives the witness, a `..._partial` theorem the largest true part proved, and usually a second property says
exactly what the code does instead (e.g. C04/C45, C06/C46, C09/C47, C10/C48, C35/C50, C37/C51).

## Files
| kind | files |
|------|-------|
| model | `GoBase` (outcomes, strings, strconv.ParseInt/Itoa, ToLower, errors), `Float64`, `ShardMap` (lib/shard_map), `DList` (datastruct/list.go), `SkipList` (sorted_set.go: zSkipList), `Db` (datastruct: keys, string, list, set, hash_table, sorted_set on one keyspace), `Protocol` (decode.go, encode.go), `Redis` (redis/*.go: argument handling of every command, the command table, ExecuteAsync), `Server` (server/v2, event/*: the concurrent server), `Stream` (the decoder on a connection that delivers its bytes in pieces), `Server1` (server/v1, protocol.ReceiveDataAsync) |
| observation | `Obs` (`ask`, `talk`, `reachable`, `answers`, `does`: requests in, decoded replies out) |
| specifications, independent of the model | `SpecResp` (RESP reply reader), `SpecWire` (RESP request writer), `SpecList`, `SpecZSet`, `SpecCmd` (command signatures, keys written, links), `SpecServer` (the abstract server: finite map of strings, sequences, sets, score tables), `SpecKey` (one key's life), `SpecTable` (scores of one key, in any state), `SpecMap`, `SpecHash`, `SpecServing` and `SpecServing1` (traces), `SpecStream` (how bytes arrive), `SpecSafe` |
| proofs | `*Proofs`, `SkipListOps/More/Absent/Scores`, `SetRep`, `DbInv`, `ExecSteps`, `KeyHist`, `Sim*`, `PropBase`, `KeyIs`, `ServerProofs`, `Drive`, `StreamProofs`, `Server1Proofs/More/Err`, `Drive1`, `Safe*`, `Term*`, `ScoreTable` |
| property theorems | `P_*.v`; names start with the property id |
| generated | `Assumptions.v` (`Print Assumptions` over all property theorems) |

`tools/props.py` with `tools/table.py` generates `properties.jsonl`, `MANIFEST.json` and `Assumptions.v`.

## Plan per property
| id | model | proof |
|----|-------|-------|
| C01, C03–C05, C44, C45 | Protocol.v (decoder over a byte buffer) | round trip by induction on the argument list; cause of every panic and effect of every truncation by induction on the decoder's run; witnesses for the refuted parts |
| C02 | Protocol.v (encoder) + independent reader | induction over reply items, for every reply any command can build |
| C06–C10, C41–C43, C46–C48, C53 | Server.v small-step machine | one inductive invariant over all schedules (ServerProofs.v), ranking function for termination; witnesses are computed schedules (Drive.v) |
| C56 | Stream.v | induction over the parts of the requests and the reads; what was read does not depend on what comes later; witness for a value in two pieces |
| C57–C60 | Server1.v small-step machine on top of Server.v | projection of each run to a run of the event pool of Server.v (so its invariant applies), invariants on each connection's channels and goroutines; witnesses are computed schedules (Drive1.v) |
| C11 | ShardMap.v | refinement to one `gmap`, all iteration orders |
| C12–C15 | Db.v, Redis.v | case analysis over the whole command table; C13 by an invariant on which keys can share a set object |
| C16–C19 | Db.v strings | refinement to a string variable per key |
| C20–C23, C49 | DList.v arena model | representation invariant, refinement to sequences with a mark for an end lost by LREM |
| C24–C28 | Db.v sets on ShardMap with heap | refinement to finite sets with the counter's drift |
| C61, C62 | the same models (P_Exact.v) | from the per-key step tables, whose states carry the scores of popped members (sorted sets) and the number of popped members (sets) |
| C63 | the same skip list and dictionary model, on any state (SpecTable.v, ScoreTable.v, P_Table.v) | every skip-list operation leaves values and scores of the nodes alone but for the one it sets (partial correctness, no assumption on the links); so the dictionary with the scores of the nodes it points to is a table, kept by induction over all histories (Term.v) |
| C64 | the linked list model on any state (SpecEnds.v, ListEnds.v, P_Ends.v) | a heap of nodes represents a chain whose head or tail pointer may be lost; every list operation, with any argument, either panics exactly when the automaton says so or leads to the next chain; mirror images halve the work; kept by induction over all histories (Term.v) |
| C29–C36, C50, C54 | SkipList.v arena model with towers and spans | representation invariant (every pointer and span is a function of the sorted sequence and the heights), preserved by every operation used |
| C37, C40, C51, C52 | Db.v hashes | no reachable state contains a hash; the structure alone refines a map |
| C38 | whole command layer, Server.v | representation invariants for the harmless fragment; witnesses |
| C55 | everything | every pointer of a list or of one level of a sorted set goes up in a suitable numbering of the nodes (TermList.v, TermZSet.v), kept by every operation, also on corrupted values; so no walk repeats a node |
| C65 | main with the life of the v2 server, as a small-step machine (Main.v, SpecMain.v, MainProofs.v, P_Main.v) | an invariant that counts the labels of the run; a decreasing rank |
| C66 | the generator of the command table, on texts and a file system (Gen.v, SpecGen.v, GenProofs.v, P_Gen.v); the sources of the repository as texts (GenSources.v, made by tools/embed.py) | the pattern as a function against a relation on texts; induction over the lines; evaluation on the repository's files |
| C67 | the start in debug mode: four loading goroutines beside the server machine (Preload.v, SpecPreload.v, P_Preload.v) | induction over runs; the history as seen by one key; the abstract server (C39) |
| C68 | the whole command layer (SpecTenants.v, Twin.v, P_Tenants.v) | two keyspaces that agree on the group's keys up to the addresses of set objects: every request of the group has the same outcome in both, every other request keeps them in agreement; composed with C07 |
| C69 | the whole command layer with its random draws and iteration orders (SpecChoices.v, Choices.v, Settled.v, P_Choices.v) | exact: only eleven commands use a choice, and on sets the result of a fold over members in any order is the same object; sorted sets: the abstract server has one outcome for every settled request on an undamaged keyspace; composed with C07 |
| C70 | the key space and every command's effect on its types (SpecLife.v, P_Life.v) | for each of the commands, what it does to the types of all keys, by cases on its code; then induction on the conversation; the running server by C07_serial |
| C71 | the panics of every command on the representation of lists and sorted sets (SpecBlame.v, Blame.v, P_Blame.v) | per key, an invariant (the value is well formed) that every request but the risky ones keeps and under which no command panics; induction on the conversation; the running server by C07_serial |
| C72 | the whole decoder (Protocol.v) against a grammar (SpecAccept.v, P_Accept.v) | equivalence, both directions: rule induction on the grammar, and induction on the unread bytes; the running server by C07_serial |
| C73 | the replies of all commands, both servers (P_Kinds.v) against a table (SpecKinds.v) | one lemma per command by case analysis under the state invariant; every entry of the table attained, by evaluation in the kernel; the running servers by C07_serial, C42, C57 and C59 |
| C74 | the same lemmas | an error leaves the state as it was, for all commands but SMOVE; SMOVE refuted by a reachable state |
| C75 | Server.v, the marks of each frame in the trace matched with its goroutine | invariant over runs: under way = live goroutine; bound and refusal from the steps; the queue from the FIFO invariant; patient clients by an injection of frames into connections |
| C76 | the handlers of the named commands on the exact state (P_Retry.v) | one lemma per command: the second execution is the identity; histories by induction over the marks of the copies; later copies by the frame theorems of C13; SINTERSTORE and SUNIONSTORE by uniqueness of the set object that represents a set; the other commands by evaluation in the kernel |
| C77 | every handler on the exact state, addresses of set objects included (P_Commute.v) | C68's relation `twin` between states that agree on a set of keys up to the addresses, C13's frame for the keys neither request reaches, glued together; rearrangements by induction |
| C78 | as C20 and C07; a specification of queues, numbers and locks read off the conversation (SpecUse.v) | invariant over the conversation on top of C20_sequence: the list is what is put in without what is handed out; C07_serial carries it to the running server (P_Use.v) |
| C79 | as C16 and C07 | invariant on top of C16_string_variable: the next number is z plus the number of INCRs; then as C78 |
| C80 | as C24 and C07 | invariant on top of C24's set specification: the token is in the set exactly if the last turn was a taking; then as C78 |
| C81 | as C16 and C07 | invariant on top of C16_string_variable: the string is the old one and the records; then as C78 |
| C82 | as C19 and C07 | induction over the conversation with C19_mset and C19_mget: the keys hold the last version (P_Use2.v); then as C78 |
| C83 | as C20 and C07 | invariant on top of C20_sequence: the list is what replaying pushes and pops leaves; conservation by permutation; then as C78 |
| C84 | as C20 and C07 | invariant on top of C20_sequence: the list is what was appended; a page is a part of it and stays one while the list grows (P_Use3.v); then as C78 |
| C85 | config/config.go whole (Config.v); the YAML decoder is a parameter | induction over the calls: the variable is a function of the accepted texts (P_Config.v, SpecConfig.v) |
| C86 | as C29 and C07 | invariant on top of C29_history: the score of each member is its last one; the order is that of C29_sorted (P_Use4.v, SpecBoard.v); then as C78 |
| C87 | as C39 and C07 | invariant of the abstract server of C39 along the conversation: every column is the set of the tasks that arrived there last; then as C78 (P_Use5.v, SpecTasks.v) |
| C88 | as C39 and C07 | invariant of the abstract server along the conversation: the value is the 64-bit sum of the amounts; then as C78 (P_Use6.v, SpecTotal.v) |
| C89 | as C39 and C07 | the same with: the set is what was announced, its counter is exact (P_Use6.v, SpecTotal.v) |
| C90 | as C39, C07 and C08 | the same with: the key is what the last write made of it; reading one's own writes from the real-time order (P_Use7.v, SpecRegister.v) |
| C91 | the machine of C57 | every prefix of a run is a run; C57 on the prefix that ends where the second request is taken, and request numbers are used once (P_Real1.v) |
| C92 | C23 and C29; C07, C57 | the window between the positions of page i is the i-th piece of the sequence; the pieces join to the whole; no request in between changes the key (P_Pages.v, SpecPages.v) |
| C93 | C88 and C89 with C08 and C91 | sums of amounts that are not negative, and unions, grow with the order of execution, which real time respects (P_Mono.v, SpecMono.v) |
| C94 | C84 with C08, C57 and C91 | the list is the concatenation of what was appended, in the order of execution, which real time (and, on the first server, the order on a connection) respects (P_Acked.v) |
| C95 | C78 with C08 and C91 | what has been handed out, in order of execution, is a prefix of what was pushed, in order of execution; real time respects both orders, and the values being distinct two orders cannot both hold (P_Fifo.v) |
| C96 | C80 with C08 and C91 | between two successful takings a release is executed; as every release belongs to one earlier taking and no two to the same, strong induction gives that it is the earlier taking's own (own_release), and real time puts it between the two critical sections (P_Sections.v) |
| C97 | the key history of a set (set_step) with the invariant that what was added is a permutation of what is left and what was drawn | conversation induction; the clients' theorems from C07/C57 (SpecPot.v, P_Pot.v) |
| C98 | C81 with C08 and C91 | an APPEND's reply is the length of the log up to its record in the order of execution, which real time respects; a GET is answered with the records before it (P_Logged.v) |
| C39 | everything | forward simulation between model and abstract server, composed with C07 |

Concrete cases that meet the hypotheses of the theorems stand next to them (`Cxx_demo`) or in P_Demos.v and P_Demos2.v (runs of the first server).

## Trusted base
* Coq's kernel (8.16.1).  `Print Assumptions` on every property theorem: **Closed under the global context** (checked
  by `Assumptions.v`, which asks for all of them at once).  No axiom is used by any theorem.  The files that load
  Coq's ssreflect (through std++) also load the standard library's module `Coq.ssr.ssrunder`, whose seven parameters
  `Under_rel.{Under_rel, Under_rel_from_rel, Under_relE, Over_rel, over_rel, over_rel_done, under_rel_done}` a tool
  that lists the axioms of all loaded libraries (coqchk) reports; no theorem depends on them.
* The reading of the Go code recorded in the per-definition comments (the code was not run).
* The semantics assumed of Go and its libraries: 64-bit ints; maps iterate in arbitrary order; `bytes.Buffer.Read`
  returns short counts without error; an unrecovered panic kills the process; the ants pool recovers panics of the
  tasks submitted to it and runs at most its capacity; channels, `select`, `close` as in the Go specification;
  allocation of more than `max` bytes panics; an allocation that the runtime allows but the machine cannot provide is
  fatal and is possible only for a frame that announces an argument longer than the frame (memory suffices for what
  has actually been received and stored).

## What is modelled and what is not
Modelled: `lib/shard_map`, `datastruct/*` (all commands' storage functions), `protocol/decode.go`
(DecodeFromReader and everything below it), `protocol/encode.go`, `redis/*` (all commands of the table),
`redis/command.go`, `event/*`, `server/v2/server.go`, `cmd/server/main.go` (the goroutines, channels and signals of main), `cmd/gen_redis_cmd`, `server/v1/server.go`, `protocol.ReceiveDataAsync`,
`persistence.WriteCommand` as a log event.

Not modelled: bufio and net (Stream.v says what is assumed of them), Accept errors, a failing Listen; gnet itself (delivery of frames: any split of the byte stream into frames is allowed by the model,
`AsyncWrite` always succeeds, closing of connections); the ants pool beyond capacity and recovery; timers beyond "the
deadline may fire at any moment after the request was logged"; log output (`PrintSupportedCmd` included; the rest of
debug mode is in Preload.v); the YAML library behind `config` (Config.v; the server does not use that package); `persistence` beyond WriteCommand (the rest is
empty); of gnet's Serve and Stop only what Main.v says; `cmd/server` otherwise (flag parsing); `e2e` test helpers.
`shard_map` has no locks; by C07 commands run one at a time, so no two map operations overlap.
