(** What clients see of the v1 server, in terms of the trace of its events (the labels of Server1.v). *)
From Verif Require Import GoBase Float64 Db Protocol Redis Obs SpecResp Stream Server SpecServing Server1.

(** what happened in the event pool *)
Definition pool_trace (tr : list vlabel) : list label := omap (λ l, match l with VPool x => Some x | _ => None end) tr.
(** the executed requests, in the order of their execution *)
Definition calls1 (tr : list vlabel) : list call := calls (pool_trace tr).
(** the pieces in which bytes have arrived on connection [k] *)
Definition arrived (k : nat) (tr : list vlabel) : list string :=
  omap (λ l, match l with VArrive k' b => if decide (k' = k) then Some b else None | _ => None end) tr.
(** the requests its handler has taken, in order *)
Definition taken (k : nat) (tr : list vlabel) : list (gid * list string) :=
  omap (λ l, match l with VStart k' g r => if decide (k' = k) then Some (g, elements r) else None | _ => None end) tr.
(** those that ask for anything *)
Definition asked (k : nat) (tr : list vlabel) : list (gid * list string) := filter (λ x, x.2 ≠ []) (taken k tr).
(** the replies written to it, in order *)
Definition written (k : nat) (tr : list vlabel) : list (gid * string) :=
  omap (λ l, match l with VWrite k' g b => if decide (k' = k) then Some (g, b) else None | _ => None end) tr.
(** of its requests, those executed, in the order of their execution *)
Definition executed (k : nat) (tr : list vlabel) : list (gid * list string) :=
  (λ x, (who x, what x)) <$> filter (λ x, who x ∈ (taken k tr).*1) (calls1 tr).

(** what comes from outside *)
Definition external1 (l : vlabel) : Prop :=
  match l with VOpen _ | VArrive _ _ | VEnd _ _ | VStop | VPool (LExpire _) => True | _ => False end.
(** nothing can happen any more without something from outside *)
Definition quiescent1 (ext : Ext) (max_alloc : Z) (s : vstate) : Prop := ∀ l s', step1 ext max_alloc s l s' → external1 l.
