(** Model of the start in debug mode: cmd/server/main.go:36-38, 98-117 (insertPreData) beside the server of Server.v.

    insertPreData starts one ExecuteAsync goroutine (redis/command.go:40-59) for each of the four preset commands and
    waits for none of them; main then starts the server.  The goroutines run at any time, beside each other and
    beside the worker of the event pool.  Nobody receives from the channel that ExecuteAsync returns, so a goroutine
    that has executed its command waits in setRsp (command.go:61-83) for ever.

    Simplifications: as in Server.v the whole effect of a command is at its end.  That is justified only while no two
    executions overlap; theorem C67_exclusive_refuted shows that here they can, and the positive theorems speak of runs
    in which they do not.  What PrintSupportedCmd and log.Println print is not modelled. *)
From Verif Require Import GoBase Float64 Db Protocol Redis Obs Server.

(** main.go:98-103 prepareData; command and values together *)
Definition preset : list (list string) :=
  [ ["rpush"; "list1"; "1"; "2"; "3"; "4"; "5"; "6"];
    ["set"; "key1"; "hello"];
    ["set"; "key2"; "10"];
    ["zadd"; "zset"; "1"; "a"; "2"; "b"; "3"; "c"; "4"; "d"; "5"; "e"] ]%string.

(** command.go:45-58: the goroutine of preset command [i] *)
Inductive pstate :=
| PReady | PRunning
| PSending (r : response).    (* command.go:82 ch <- result: never received *)

Record dconfig := DCfg { d_srv : config; d_pre : list pstate }.
(** main.go:105-115: the goroutines are started before the server *)
Definition dcfg_init : dconfig := DCfg cfg_init (replicate (length preset) PReady).

Inductive dlabel :=
| DBegin (i : nat)                    (* preset command [i] starts executing *)
| DExec (i : nat) (c : choices)       (* ... has executed *)
| DCrash (i : nat) (c : choices)      (* ... has panicked: the process dies *)
| DSrv (l : label).                   (* anything that the server of Server.v does *)

Section machine.
Context (ext : Ext) (max_alloc : Z) (pool_size : nat).

Inductive dstep (s : dconfig) : dlabel → dconfig → Prop :=
(** command.go:51 *)
| ds_begin i : d_pre s !! i = Some PReady → dstep s (DBegin i) (DCfg (d_srv s) (<[i := PRunning]> (d_pre s)))
(** command.go:57-58 *)
| ds_exec i req c d' r : d_pre s !! i = Some PRunning → preset !! i = Some req → exec ext c req (c_db (d_srv s)) = Ret (d', Some r) →
    dstep s (DExec i c) (DCfg (set_db (d_srv s) d') (<[i := PSending r]> (d_pre s)))
(** command.go:47-50: the recovery is commented out *)
| ds_crash i req c : d_pre s !! i = Some PRunning → preset !! i = Some req → exec ext c req (c_db (d_srv s)) = Panic →
    dstep s (DCrash i c) (DCfg (set_crashed (d_srv s)) (d_pre s))
| ds_srv l s' : step ext max_alloc pool_size (d_srv s) l s' → dstep s (DSrv l) (DCfg s' (d_pre s)).

Inductive druns : list dlabel → dconfig → Prop :=
| druns_init : druns [] dcfg_init
| druns_step tr s l s' : druns tr s → c_crashed (d_srv s) = false → dstep s l s' → druns (tr ++ [l]) s'.
End machine.
