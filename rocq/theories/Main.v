(** Model of the life of the process: cmd/server/main.go:21-76 (main) with server/v2/server.go:30-44, 67-69 (Start, Stop,
    OnShutdown), as a small-step machine.

    Simplifications, all of them:
    - the machine starts after signal.Notify (main.go:52); before that a signal has its default effect.
    - flag parsing, logging, GOMAXPROCS and the choice of the server version (main.go:42-45) are not modelled; the
      version is "v2".
    - gnet: Serve either fails before it serves, or registers the server under its address, serves, and returns nil
      after a shutdown, when it has called OnShutdown.  gnet.Stop asks the registered server to shut down and waits
      until it has, or until the deadline of five seconds; it does nothing but return an error when no server is
      registered or it has already shut down.  A shutdown may also begin by itself (an event loop fails).
    - event.Stop, called by OnShutdown, returns: C10_stop_returns. *)
From Verif Require Import GoBase.

(** main.go:54-61, the goroutine that runs Start *)
Inductive serving :=
| VStarting              (* gnet.Serve, nothing registered yet; s.addr perhaps not yet set *)
| VUp                    (* registered and serving *)
| VClosing               (* a shutdown has begun *)
| VClosed                (* OnShutdown has returned *)
| VFailed                (* Serve has returned an error; errChan <- err *)
| VDone.                 (* wg.Done() *)

(** main.go:63-72, the goroutine that waits for a reason to stop *)
Inductive stopping :=
| TWait                  (* the select *)
| TStop                  (* srv.Stop(): about to call gnet.Stop *)
| TAwait                 (* gnet.Stop waits for the shutdown *)
| TDone.                 (* wg.Done() *)

Record life := Life {
  f_srv : serving;
  f_stop : stopping;
  f_sig : nat;           (* buffer of sigChan *)
  f_err : nat;           (* buffer of errChan *)
  f_exit : bool          (* main has returned: wg.Wait() (main.go:75), then the deferred calls *)
}.
(** main.go:46-49 *)
Definition sig_cap : nat := 1.
Definition err_cap : nat := 1.
Definition life_init : life := Life VStarting TWait 0 0 false.

Inductive mlabel :=
| MSignal                (* SIGTERM, SIGINT or SIGQUIT arrives *)
| MUp                    (* the server begins to serve *)
| MFail                  (* it cannot *)
| MBreak                 (* it begins to shut down by itself *)
| MCallStop              (* srv.Stop is called *)
| MAsked                 (* ... finds the server and asks it to shut down *)
| MMissed                (* ... finds no server to stop *)
| MShutdown              (* gnet calls OnShutdown, which stops the event pool *)
| MLate                  (* ... gives up waiting after five seconds *)
| MExit                  (* the process ends *)
| MStep.                 (* anything else *)

Inductive mstep (s : life) : mlabel → life → Prop :=
(** os/signal: a signal is dropped when the buffer is full *)
| ms_signal : f_exit s = false → (f_sig s < sig_cap)%nat → mstep s MSignal (Life (f_srv s) (f_stop s) (S (f_sig s)) (f_err s) (f_exit s))
| ms_signal_full : f_exit s = false → (sig_cap ≤ f_sig s)%nat → mstep s MSignal s
(** server/v2/server.go:30-34 Start *)
| ms_up : f_srv s = VStarting → mstep s MUp (Life VUp (f_stop s) (f_sig s) (f_err s) (f_exit s))
| ms_fail : f_srv s = VStarting → mstep s MFail (Life VFailed (f_stop s) (f_sig s) (f_err s) (f_exit s))
| ms_break : f_srv s = VUp → mstep s MBreak (Life VClosing (f_stop s) (f_sig s) (f_err s) (f_exit s))
(** server/v2/server.go:67-69 OnShutdown *)
| ms_shutdown : f_srv s = VClosing → mstep s MShutdown (Life VClosed (f_stop s) (f_sig s) (f_err s) (f_exit s))
(** main.go:56-60: Start returns nil, or its error is put in the channel *)
| ms_return : f_srv s = VClosed → mstep s MStep (Life VDone (f_stop s) (f_sig s) (f_err s) (f_exit s))
| ms_report : f_srv s = VFailed → (f_err s < err_cap)%nat → mstep s MStep (Life VDone (f_stop s) (f_sig s) (S (f_err s)) (f_exit s))
(** main.go:66-71 the select *)
| ms_on_signal n : f_stop s = TWait → f_sig s = S n → mstep s MCallStop (Life (f_srv s) TStop n (f_err s) (f_exit s))
| ms_on_error n : f_stop s = TWait → f_err s = S n → mstep s MCallStop (Life (f_srv s) TStop (f_sig s) n (f_exit s))
(** server/v2/server.go:36-43 Stop: gnet.Stop *)
| ms_asked : f_stop s = TStop → f_srv s = VUp → mstep s MAsked (Life VClosing TAwait (f_sig s) (f_err s) (f_exit s))
| ms_asked_again : f_stop s = TStop → f_srv s = VClosing → mstep s MAsked (Life VClosing TAwait (f_sig s) (f_err s) (f_exit s))
| ms_missed : f_stop s = TStop → (f_srv s ≠ VUp ∧ f_srv s ≠ VClosing) → mstep s MMissed (Life (f_srv s) TDone (f_sig s) (f_err s) (f_exit s))
| ms_stopped : f_stop s = TAwait → (f_srv s = VClosed ∨ f_srv s = VDone) → mstep s MStep (Life (f_srv s) TDone (f_sig s) (f_err s) (f_exit s))
| ms_late : f_stop s = TAwait → mstep s MLate (Life (f_srv s) TDone (f_sig s) (f_err s) (f_exit s))
(** main.go:75 wg.Wait() *)
| ms_exit : f_srv s = VDone → f_stop s = TDone → f_exit s = false → mstep s MExit (Life (f_srv s) (f_stop s) (f_sig s) (f_err s) true).

Inductive lives : list mlabel → life → Prop :=
| lives_init : lives [] life_init
| lives_step tr s l s' : lives tr s → mstep s l s' → lives (tr ++ [l]) s'.
(** what may come after a state *)
Inductive lives_on : life → list mlabel → life → Prop :=
| on_nil s : lives_on s [] s
| on_cons s l s1 tr s2 : mstep s l s1 → lives_on s1 tr s2 → lives_on s (l :: tr) s2.
