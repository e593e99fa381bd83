(** Model of the running server: server/v2/server.go (React), event/*.go (event pool, worker, HandleRequest)
    and redis/command.go:40-75 (ExecuteAsync, setRsp), as a small-step machine over goroutines and channels.

    Simplifications, all of them:
    - gnet calls React with whatever bytes arrived on a connection (a frame); gnet itself is not modelled: a frame
      may be delivered at any moment, on any connection, with any bytes.
    - s.pool is gnet's goroutine.Default(): a non-blocking pool of bounded size [pool_size]; Submit refuses when
      that many goroutines are live, and a panic in a pool goroutine is recovered (ants v2.4.7), so the
      goroutine just ends.  c.AsyncWrite is an output to the connection.
    - the ten second timer of HandleRequest may fire at any moment while the request is being handled.
    - which of several ready cases of a select is taken, and which goroutine moves next, is arbitrary.
    - the execution of a command is two steps, its begin and its end; the whole effect is at the end.  Theorem
      C07_exclusive shows that no other command is executing in between.
    - logging is not modelled; debug mode is in Preload.v, the deprecated v1 server in Server1.v. *)
From Verif Require Import GoBase Float64 Db Protocol Redis Obs.

Notation gid := nat.

(** the goroutine that React submits to the pool (server/v2/server.go:50-63), with the body of
    HandleRequest (event/handler.go:15-52) *)
Inductive gstate :=
| GFrame (conn : nat) (frame : string)       (* server.go:51: about to decode *)
| GAdd (conn : nat)                           (* handler.go:34 AddEvent: ep.eventChan <- e *)
| GSelect (conn : nat)                        (* handler.go:38-43 select *)
| GReply (conn : nat) (r : option response)   (* handler.go:49 rsp.Encode(), server.go:62 AsyncWrite; None: nil *)
| GTimeout (conn : nat)                       (* the same with rsp = NewResponseWithError(ctx.Err()) *)
| GEnd.

(** event/event.go:8-12; the event of goroutine [g] has the number [g].  e.Cmd is the request. *)
Record event := Ev { ev_cmd : list string; ev_rsp : option response; ev_done : bool }.

(** the goroutine of ExecuteAsync (redis/command.go:44-58) for one event *)
Inductive cstate :=
| CReady                      (* spawned *)
| CRunning                    (* inside f(c) *)
| CSending (r : response)     (* setRsp: ch <- r; Command.Ctx is never set, so it is always sent *)
| CExit.

(** event/worker.go:20-37 run *)
Inductive wstate :=
| WSelect                     (* the select *)
| WAwait (e : gid)            (* <-e.Cmd.ExecuteAsync() *)
| WClose (e : gid)            (* e.Rsp stored; close(e.done) *)
| WExit.                      (* returned; wg.Done() *)

(** event/event_pool.go:28-35 Stop, event/worker.go:39-42 stop *)
Inductive sstate := SRun | SSend | SCloseDone | SWait | SReturned.

Record config := Cfg {
  c_gs : gmap gid gstate;     (* pool goroutines, ended ones included *)
  c_evs : gmap gid event;
  c_cmds : gmap gid cstate;   (* command goroutines *)
  c_chan : list gid;          (* buffer of ep.eventChan *)
  c_closed : bool;            (* ep.eventChan closed *)
  c_worker : wstate;
  c_wdone : bool;             (* w.done holds a value *)
  c_wclosed : bool;           (* w.done closed *)
  c_stop : sstate;
  c_expired : gset gid;       (* goroutines whose context has expired *)
  c_db : db;
  c_crashed : bool            (* the process has died *)
}.

(** event/event_pool.go:13-21 NewEventPool: a channel of capacity 1, one worker *)
Definition chan_cap : nat := 1.
Definition cfg_init : config := Cfg ∅ ∅ ∅ [] false WSelect false false SRun ∅ db_new false.

(** What happens: the first six can be seen from outside. *)
Inductive label :=
| LDeliver (g : gid) (conn : nat) (frame : string)    (* a frame arrives and goroutine [g] is started for it *)
| LRefuse (conn : nat) (frame : string)               (* a frame arrives and the pool is full *)
| LWrite (g : gid) (conn : nat) (bytes : string)      (* goroutine [g] writes a reply *)
| LPrint (g : gid) (s : string)                       (* the append-only log prints a request *)
| LStop | LStopped                                    (* Stop is called, returns *)
| LCrash (g : gid) (c : choices) (req : list string)  (* the command of [g] panics: the process dies *)
| LBegin (g : gid)                                    (* the command of [g] starts executing *)
| LExec (g : gid) (c : choices) (req : list string)   (* ... has executed *)
| LExpire (g : gid)                                   (* the deadline of [g] passes *)
| LAccept (g : gid)                                   (* the event of [g] enters the channel *)
| LDie                                                (* any other unrecovered panic *)
| LExhaust (g : gid)                                  (* [g] asks for more memory than there is: the process dies *)
| LLost (g : gid)                                     (* [g] ends without a reply *)
| LTau (g : gid).                                     (* a step of goroutine [g], its command or the worker on it *)

Definition set_g (s : config) (g : gid) (x : gstate) : config :=
  Cfg (<[g := x]> (c_gs s)) (c_evs s) (c_cmds s) (c_chan s) (c_closed s) (c_worker s) (c_wdone s) (c_wclosed s) (c_stop s) (c_expired s) (c_db s) (c_crashed s).
Definition set_ev (s : config) (g : gid) (x : event) : config :=
  Cfg (c_gs s) (<[g := x]> (c_evs s)) (c_cmds s) (c_chan s) (c_closed s) (c_worker s) (c_wdone s) (c_wclosed s) (c_stop s) (c_expired s) (c_db s) (c_crashed s).
Definition set_cmd (s : config) (g : gid) (x : cstate) : config :=
  Cfg (c_gs s) (c_evs s) (<[g := x]> (c_cmds s)) (c_chan s) (c_closed s) (c_worker s) (c_wdone s) (c_wclosed s) (c_stop s) (c_expired s) (c_db s) (c_crashed s).
Definition set_chan (s : config) (l : list gid) : config :=
  Cfg (c_gs s) (c_evs s) (c_cmds s) l (c_closed s) (c_worker s) (c_wdone s) (c_wclosed s) (c_stop s) (c_expired s) (c_db s) (c_crashed s).
Definition set_worker (s : config) (w : wstate) : config :=
  Cfg (c_gs s) (c_evs s) (c_cmds s) (c_chan s) (c_closed s) w (c_wdone s) (c_wclosed s) (c_stop s) (c_expired s) (c_db s) (c_crashed s).
Definition set_wdone (s : config) (b : bool) : config :=
  Cfg (c_gs s) (c_evs s) (c_cmds s) (c_chan s) (c_closed s) (c_worker s) b (c_wclosed s) (c_stop s) (c_expired s) (c_db s) (c_crashed s).
Definition set_stop (s : config) (chan_closed wdone wdone_closed : bool) (x : sstate) : config :=
  Cfg (c_gs s) (c_evs s) (c_cmds s) (c_chan s) chan_closed (c_worker s) wdone wdone_closed x (c_expired s) (c_db s) (c_crashed s).
Definition set_expired (s : config) (g : gid) : config :=
  Cfg (c_gs s) (c_evs s) (c_cmds s) (c_chan s) (c_closed s) (c_worker s) (c_wdone s) (c_wclosed s) (c_stop s) ({[g]} ∪ c_expired s) (c_db s) (c_crashed s).
Definition set_db (s : config) (d : db) : config :=
  Cfg (c_gs s) (c_evs s) (c_cmds s) (c_chan s) (c_closed s) (c_worker s) (c_wdone s) (c_wclosed s) (c_stop s) (c_expired s) d (c_crashed s).
Definition set_crashed (s : config) : config :=
  Cfg (c_gs s) (c_evs s) (c_cmds s) (c_chan s) (c_closed s) (c_worker s) (c_wdone s) (c_wclosed s) (c_stop s) (c_expired s) (c_db s) true.

(** NewResponseWithError(ctx.Err()).Encode(), ctx.Err() being context.DeadlineExceeded *)
Definition deadline_bytes : string := ("-context deadline exceeded" ++ CRLF)%string.

Definition live (x : gstate) : bool := match x with GEnd => false | _ => true end.

Section machine.
Context (ext : Ext) (max_alloc : Z) (pool_size : nat).

Definition live_count (s : config) : nat := length (filter (λ x, live x.2 = true) (map_to_list (c_gs s))).

Inductive step (s : config) : label → config → Prop :=
(** server.go:46-48 React: a copy of the frame is handed to the pool *)
| st_deliver g k f : c_gs s !! g = None → (live_count s < pool_size)%nat →
    step s (LDeliver g k f) (set_g s g (GFrame k f))
(** ... unless it is full: the error is ignored *)
| st_refuse k f : (pool_size ≤ live_count s)%nat → step s (LRefuse k f) s
(** server.go:51-56: one request is decoded; a decoding error, or a panic in the decoder, ends the goroutine *)
| st_bad g k f e : c_gs s !! g = Some (GFrame k f) → decode max_alloc f = Ret (DErr e) → step s (LLost g) (set_g s g GEnd)
| st_decode_panic g k f : c_gs s !! g = Some (GFrame k f) → decode max_alloc f = Panic → step s (LLost g) (set_g s g GEnd)
(** decode.go:167 make([]byte, ln+2): a length that the runtime allows but the machine cannot provide is a fatal
    error, which nothing recovers.  Memory for what has been received is assumed to suffice: only a frame that
    announces an argument longer than the whole frame can do this. *)
| st_exhaust g k f : c_gs s !! g = Some (GFrame k f) → decode max_alloc f ≠ Panic → decode (slen f) f = Panic →
    step s (LExhaust g) (set_crashed s)
(** handler.go:26 the log; handler.go:29-32, command.go:22-25: nothing to execute, no reply *)
| st_empty g k f org rest : c_gs s !! g = Some (GFrame k f) → decode max_alloc f = Ret (DOk (Rec [] org, rest)) →
    step s (LPrint g org) (set_g s g GEnd)
(** handler.go:26-34, event.go:14-19 NewEvent *)
| st_request g k f name args org rest : c_gs s !! g = Some (GFrame k f) →
    decode max_alloc f = Ret (DOk (Rec (name :: args) org, rest)) →
    step s (LPrint g org) (set_ev (set_g s g (GAdd k)) g (Ev (name :: args) None false))
(** event_pool.go:23-25 AddEvent: the send succeeds when there is room, panics when the channel is closed *)
| st_add g k : c_gs s !! g = Some (GAdd k) → c_closed s = false → (length (c_chan s) < chan_cap)%nat →
    step s (LAccept g) (set_chan (set_g s g (GSelect k)) (c_chan s ++ [g]))
| st_add_closed g k : c_gs s !! g = Some (GAdd k) → c_closed s = true → step s (LLost g) (set_g s g GEnd)
(** the timer *)
| st_expire g k : (c_gs s !! g = Some (GAdd k) ∨ c_gs s !! g = Some (GSelect k)) → step s (LExpire g) (set_expired s g)
(** handler.go:38-43: either case of the select, when ready *)
| st_timeout g k : c_gs s !! g = Some (GSelect k) → g ∈ c_expired s → step s (LTau g) (set_g s g (GTimeout k))
| st_done g k e : c_gs s !! g = Some (GSelect k) → c_evs s !! g = Some e → ev_done e = true →
    step s (LTau g) (set_g s g (GReply k (ev_rsp e)))
(** handler.go:49, server.go:58-62: encode and write; a panic in the encoder ends the goroutine *)
| st_write g k r b : c_gs s !! g = Some (GReply k (Some r)) → encode r = Ret b → b ≠ EmptyString →
    step s (LWrite g k b) (set_g s g GEnd)
| st_write_panic g k r : c_gs s !! g = Some (GReply k (Some r)) → encode r = Panic → step s (LLost g) (set_g s g GEnd)
| st_write_nil g k : c_gs s !! g = Some (GReply k None) → step s (LLost g) (set_g s g GEnd)
| st_write_timeout g k : c_gs s !! g = Some (GTimeout k) → step s (LWrite g k deadline_bytes) (set_g s g GEnd)
(** worker.go:24-27 case <-w.done *)
| st_worker_done : c_worker s = WSelect → c_wdone s = true ∨ c_wclosed s = true →
    step s (LTau 0) (set_wdone (set_worker s WExit) false)
(** worker.go:28, 33: an event is taken, its command goroutine started *)
| st_worker_take e rest : c_worker s = WSelect → c_chan s = e :: rest →
    step s (LTau e) (set_cmd (set_worker (set_chan s rest) (WAwait e)) e CReady)
(** worker.go:29-31: nil from the closed and drained channel *)
| st_worker_nil : c_worker s = WSelect → c_chan s = [] → c_closed s = true → step s (LTau 0) (set_worker s WExit)
(** command.go:51-57: look the command up and run it *)
| st_begin e : c_cmds s !! e = Some CReady → step s (LBegin e) (set_cmd s e CRunning)
| st_exec e ev c d' r : c_cmds s !! e = Some CRunning → c_evs s !! e = Some ev →
    exec ext c (ev_cmd ev) (c_db s) = Ret (d', Some r) →
    step s (LExec e c (ev_cmd ev)) (set_db (set_cmd s e (CSending r)) d')
(** a panic in a command goroutine is not recovered *)
| st_crash e ev c : c_cmds s !! e = Some CRunning → c_evs s !! e = Some ev → exec ext c (ev_cmd ev) (c_db s) = Panic →
    step s (LCrash e c (ev_cmd ev)) (set_crashed s)
(** command.go:67-74, worker.go:33: the response goes over the unbuffered channel and is stored in the event *)
| st_respond e ev r : c_worker s = WAwait e → c_cmds s !! e = Some (CSending r) → c_evs s !! e = Some ev →
    step s (LTau e) (set_ev (set_cmd (set_worker s (WClose e)) e CExit) e (Ev (ev_cmd ev) (Some r) (ev_done ev)))
(** worker.go:34 close(e.done), and back to the select *)
| st_close e ev : c_worker s = WClose e → c_evs s !! e = Some ev → ev_done ev = false →
    step s (LTau e) (set_ev (set_worker s WSelect) e (Ev (ev_cmd ev) (ev_rsp ev) true))
(** closing a closed channel panics *)
| st_close_panic e ev : c_worker s = WClose e → c_evs s !! e = Some ev → ev_done ev = true → step s LDie (set_crashed s)
(** event_pool.go:29 close(ep.eventChan); gnet calls OnShutdown (server.go:67-69) once *)
| st_stop : c_stop s = SRun → step s LStop (set_stop s true (c_wdone s) (c_wclosed s) SSend)
(** worker.go:40 w.done <- true (capacity 1), worker.go:41 close(w.done), event_pool.go:34 wg.Wait() *)
| st_stop_send : c_stop s = SSend → c_wdone s = false → step s (LTau 0) (set_stop s (c_closed s) true (c_wclosed s) SCloseDone)
| st_stop_close : c_stop s = SCloseDone → step s (LTau 0) (set_stop s (c_closed s) (c_wdone s) true SWait)
| st_stop_wait : c_stop s = SWait → c_worker s = WExit → step s LStopped (set_stop s (c_closed s) (c_wdone s) (c_wclosed s) SReturned).

(** what happened, oldest first, and the state it led to *)
Inductive runs : list label → config → Prop :=
| runs_init : runs [] cfg_init
| runs_step tr s l s' : runs tr s → c_crashed s = false → step s l s' → runs (tr ++ [l]) s'.

End machine.
