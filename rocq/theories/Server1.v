(** Model of the v1 server: server/v1/server.go (accept loop, one handler goroutine per connection, Stop) and
    protocol.ReceiveDataAsync (protocol/decode.go:57-85, one receiving goroutine per connection), on top of the event pool
    and the commands of Server.v.

    cmd/server/main.go:84-86 no longer offers this server; it is a library package behind the build tag v1.

    Simplifications, all of them:
    - the connection's bytes arrive in pieces, one per read, of any size at any moment (Stream.v); the peer may end the
      connection at any moment; a write to the connection succeeds at once or fails.
    - one call of DecodeFromReader is one step, taken when it can return.  After conn.Close the receiving goroutine may
      still have read some of the bytes that had arrived: which is arbitrary.
    - event.HandleRequest (event/handler.go) is called by the handler goroutine itself; request number [g] is handled by
      the states of goroutine [g] of Server.v, started after decoding (the log line is printed in the same step).
      There is no recovery: a panic in any goroutine ends the process.
    - everything said in Server.v about timers, selects and the execution of commands.  Accept errors other than
      net.ErrClosed and a failing Listen are not modelled; Stop is called once, after Start. *)
From Verif Require Import GoBase Float64 Db Protocol Redis Obs Stream Server.

(** protocol/decode.go:62-82, the receiving goroutine *)
Inductive rgstate :=
| RDecode                   (* decode.go:69 *)
| RSend (r : receive)       (* decode.go:80 ar.ReceiveChan <- rec *)
| RFail (final : bool)      (* decode.go:71 ar.ErrorChan <- err; final: io.EOF or net.ErrClosed *)
| RClose1 | RClose2         (* decode.go:63-66, the deferred closes *)
| RDone.

(** server.go:92-120 handleConn *)
Inductive hstate :=
| HLoop                     (* server.go:98 select *)
| HCall (g : gid)           (* server.go:105 event.HandleRequest, 110 conn.Write *)
| HClose                    (* server.go:118 conn.Close *)
| HEnd.

Record conn := Cn {
  k_rd : reader;            (* the bufio.Reader *)
  k_rg : rgstate;
  k_rchan : option receive; (* ReceiveChan, capacity 1 *)
  k_rclosed : bool;
  k_echan : bool;           (* ErrorChan, capacity 1: holds an error *)
  k_eclosed : bool;
  k_h : hstate
}.
Definition conn_new : conn := Cn (Rd "" [] None) RDecode None false false false HLoop.

Record vstate := V {
  v_conns : gmap nat conn;
  v_pool : config;          (* event pool and requests *)
  v_listen : bool;          (* the listener is open *)
  v_cancelled : bool;       (* s.ctx is cancelled *)
  v_returned : bool;        (* Start has returned *)
  v_dead : bool             (* the process has died, other than by a command *)
}.
Definition v_init : vstate := V ∅ cfg_init true false false false.
(** the process is running *)
Definition v_alive (s : vstate) : Prop := v_dead s = false ∧ c_crashed (v_pool s) = false.

(** what a panic outside the commands can come from *)
Inductive cause :=
| ByDecoder                 (* readBulkOrArrayLength, make *)
| ByNil                     (* nil from the closed ReceiveChan: persistence/persistence.go:14 r.OrgStr *)
| ByQueue                   (* send on the closed event channel *)
| ByEncoder.                (* a failed type assertion, or a nil response *)

Inductive vlabel :=
| VOpen (k : nat)                                   (* connection [k] is accepted *)
| VArrive (k : nat) (b : string)                    (* bytes arrive on it, as one read *)
| VEnd (k : nat) (x : ending)                       (* the peer closes it, or the network fails *)
| VStart (k : nat) (g : gid) (r : receive)          (* its handler takes a request, prints the log line *)
| VWrite (k : nat) (g : gid) (b : string)           (* ... writes the reply *)
| VDrop (k : nat) (g : gid)                         (* ... fails to *)
| VPool (l : label)                                 (* event pool, commands, deadlines *)
| VDie (k : nat) (why : cause)                      (* a panic: the process dies *)
| VStop | VCancel                                   (* Stop is called; its last step *)
| VReturn                                           (* Start returns *)
| VTau (k : nat).                                   (* anything else on connection [k] *)

Definition upd (s : vstate) (k : nat) (c : conn) : vstate :=
  V (<[k := c]> (v_conns s)) (v_pool s) (v_listen s) (v_cancelled s) (v_returned s) (v_dead s).
Definition upd_pool (s : vstate) (p : config) : vstate :=
  V (v_conns s) p (v_listen s) (v_cancelled s) (v_returned s) (v_dead s).
Definition dead (s : vstate) : vstate :=
  V (v_conns s) (v_pool s) (v_listen s) (v_cancelled s) (v_returned s) true.
Definition with_rd (c : conn) (rd : reader) (x : rgstate) : conn := Cn rd x (k_rchan c) (k_rclosed c) (k_echan c) (k_eclosed c) (k_h c).
Definition with_h (c : conn) (h : hstate) : conn := Cn (k_rd c) (k_rg c) (k_rchan c) (k_rclosed c) (k_echan c) (k_eclosed c) h.

(** the steps of Server.v that are also steps here: event_pool.go, worker.go, command.go, and of HandleRequest the
    successful AddEvent, the deadline and the select *)
Definition inner (l : label) : bool := match l with
  | LAccept _ | LExpire _ | LTau _ | LBegin _ | LExec _ _ _ | LCrash _ _ _ | LDie | LStopped => true
  | _ => false
  end.
(** decode.go:73 *)
Definition is_final (e : rerr) : bool := match e with Ended PeerClosed | Ended WeClosed => true | _ => false end.

(** event/handler.go:26-34 for request [g] of connection [k]: nothing to do for an empty command, or an event to add *)
Definition begin_request (p : config) (k : nat) (g : gid) (r : receive) : config :=
  match elements r with
  | [] => set_g p g GEnd
  | name :: args => set_ev (set_g p g (GAdd k)) g (Ev (name :: args) None false)
  end.
Definition after_start (g : gid) (r : receive) : hstate := match elements r with [] => HLoop | _ => HCall g end.

Section machine1.
Context (ext : Ext) (max_alloc : Z).

Inductive step1 (s : vstate) : vlabel → vstate → Prop :=
(** server.go:72-85: accept, start the handler, server.go:93-94 and with it the receiving goroutine *)
| v1_open k : v_listen s = true → v_conns s !! k = None → step1 s (VOpen k) (upd s k conn_new)
(** the network *)
| v1_arrive k c b : v_conns s !! k = Some c → rd_end (k_rd c) = None → b ≠ EmptyString →
    step1 s (VArrive k b) (upd s k (with_rd c (Rd (rd_buf (k_rd c)) (rd_in (k_rd c) ++ [b]) None) (k_rg c)))
| v1_end k c x : v_conns s !! k = Some c → (rd_end (k_rd c) = None ∨ rd_end (k_rd c) = Some NetError) → x ≠ WeClosed →
    step1 s (VEnd k x) (upd s k (with_rd c (Rd (rd_buf (k_rd c)) (rd_in (k_rd c)) (Some x)) (k_rg c)))
(** decode.go:69 *)
| v1_got k c r rd' : v_conns s !! k = Some c → k_rg c = RDecode → stream_decode max_alloc (k_rd c) = Ret (Got r rd') →
    step1 s (VTau k) (upd s k (with_rd c rd' (RSend r)))
| v1_fail k c e rd' : v_conns s !! k = Some c → k_rg c = RDecode → stream_decode max_alloc (k_rd c) = Ret (Fail e rd') →
    step1 s (VTau k) (upd s k (with_rd c rd' (RFail (is_final e))))
| v1_panic k c : v_conns s !! k = Some c → k_rg c = RDecode → stream_decode max_alloc (k_rd c) = Panic →
    step1 s (VDie k ByDecoder) (dead s)
(** decode.go:80 *)
| v1_send k c r : v_conns s !! k = Some c → k_rg c = RSend r → k_rchan c = None →
    step1 s (VTau k) (upd s k (Cn (k_rd c) RDecode (Some r) (k_rclosed c) (k_echan c) (k_eclosed c) (k_h c)))
(** decode.go:71-77 *)
| v1_send_err k c final : v_conns s !! k = Some c → k_rg c = RFail final → k_echan c = false →
    step1 s (VTau k) (upd s k (Cn (k_rd c) (if final then RClose1 else RDecode) (k_rchan c) (k_rclosed c) true (k_eclosed c) (k_h c)))
(** decode.go:64-65 *)
| v1_close1 k c : v_conns s !! k = Some c → k_rg c = RClose1 →
    step1 s (VTau k) (upd s k (Cn (k_rd c) RClose2 (k_rchan c) true (k_echan c) (k_eclosed c) (k_h c)))
| v1_close2 k c : v_conns s !! k = Some c → k_rg c = RClose2 →
    step1 s (VTau k) (upd s k (Cn (k_rd c) RDone (k_rchan c) (k_rclosed c) (k_echan c) true (k_h c)))
(** server.go:99-100 *)
| v1_ctx k c : v_conns s !! k = Some c → k_h c = HLoop → v_cancelled s = true → step1 s (VTau k) (upd s k (with_h c HClose))
(** server.go:101-103: an error, or the channel is closed *)
| v1_err k c : v_conns s !! k = Some c → k_h c = HLoop → k_echan c = true →
    step1 s (VTau k) (upd s k (Cn (k_rd c) (k_rg c) (k_rchan c) (k_rclosed c) false (k_eclosed c) HClose))
| v1_err_closed k c : v_conns s !! k = Some c → k_h c = HLoop → k_echan c = false → k_eclosed c = true →
    step1 s (VTau k) (upd s k (with_h c HClose))
(** server.go:104-105 *)
| v1_start k c r g : v_conns s !! k = Some c → k_h c = HLoop → k_rchan c = Some r → c_gs (v_pool s) !! g = None →
    step1 s (VStart k g r) (upd_pool (upd s k (Cn (k_rd c) (k_rg c) None (k_rclosed c) (k_echan c) (k_eclosed c) (after_start g r)))
                                     (begin_request (v_pool s) k g r))
| v1_nil k c : v_conns s !! k = Some c → k_h c = HLoop → k_rchan c = None → k_rclosed c = true → step1 s (VDie k ByNil) (dead s)
(** event pool, commands, HandleRequest *)
| v1_pool l p' : inner l = true → step ext max_alloc 0 (v_pool s) l p' → step1 s (VPool l) (upd_pool s p')
| v1_queue k c g k' : v_conns s !! k = Some c → k_h c = HCall g → c_gs (v_pool s) !! g = Some (GAdd k') → c_closed (v_pool s) = true →
    step1 s (VDie k ByQueue) (dead s)
(** server.go:105-114 *)
| v1_write k c g k' r b : v_conns s !! k = Some c → k_h c = HCall g → c_gs (v_pool s) !! g = Some (GReply k' (Some r)) → encode r = Ret b → b ≠ EmptyString →
    step1 s (VWrite k g b) (upd_pool (upd s k (with_h c HLoop)) (set_g (v_pool s) g GEnd))
| v1_timeout k c g k' : v_conns s !! k = Some c → k_h c = HCall g → c_gs (v_pool s) !! g = Some (GTimeout k') →
    step1 s (VWrite k g deadline_bytes) (upd_pool (upd s k (with_h c HLoop)) (set_g (v_pool s) g GEnd))
| v1_write_fails k c g k' r b : v_conns s !! k = Some c → k_h c = HCall g → c_gs (v_pool s) !! g = Some (GReply k' (Some r)) → encode r = Ret b → b ≠ EmptyString →
    step1 s (VDrop k g) (upd_pool (upd s k (with_h c HClose)) (set_g (v_pool s) g GEnd))
| v1_timeout_fails k c g k' : v_conns s !! k = Some c → k_h c = HCall g → c_gs (v_pool s) !! g = Some (GTimeout k') →
    step1 s (VDrop k g) (upd_pool (upd s k (with_h c HClose)) (set_g (v_pool s) g GEnd))
| v1_encode_panic k c g k' r : v_conns s !! k = Some c → k_h c = HCall g → c_gs (v_pool s) !! g = Some (GReply k' (Some r)) → encode r = Panic →
    step1 s (VDie k ByEncoder) (dead s)
| v1_encode_nil k c g k' : v_conns s !! k = Some c → k_h c = HCall g → c_gs (v_pool s) !! g = Some (GReply k' None) →
    step1 s (VDie k ByEncoder) (dead s)
(** server.go:118-119 conn.Close, wg.Done *)
| v1_close k c n : v_conns s !! k = Some c → k_h c = HClose →
    step1 s (VTau k) (upd s k (with_h (with_rd c (Rd (rd_buf (k_rd c)) (take n (rd_in (k_rd c))) (Some WeClosed)) (k_rg c)) HEnd))
(** server.go:59-68 Stop: close the listener, event.Stop(), cancel *)
| v1_stop : v_listen s = true → step1 s VStop (V (v_conns s) (v_pool s) false (v_cancelled s) (v_returned s) (v_dead s))
| v1_stop_pool p' : v_listen s = false → step ext max_alloc 0 (v_pool s) LStop p' → step1 s (VPool LStop) (upd_pool s p')
| v1_cancel : c_stop (v_pool s) = SReturned → v_cancelled s = false → step1 s VCancel (V (v_conns s) (v_pool s) (v_listen s) true (v_returned s) (v_dead s))
(** server.go:73-77, 88: the accept loop ends, wg.Wait(), Start returns *)
| v1_return : v_listen s = false → map_Forall (λ _ c, k_h c = HEnd) (v_conns s) → v_returned s = false →
    step1 s VReturn (V (v_conns s) (v_pool s) (v_listen s) (v_cancelled s) true (v_dead s)).

(** what happened, oldest first, and the state it led to *)
Inductive runs1 : list vlabel → vstate → Prop :=
| runs1_init : runs1 [] v_init
| runs1_step tr s l s' : runs1 tr s → v_alive s → step1 s l s' → runs1 (tr ++ [l]) s'.
End machine1.
