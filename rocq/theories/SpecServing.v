(** What clients see of a running server, in terms of the trace of its events (the labels of Server.v). *)
From Verif Require Import GoBase Float64 Db Protocol Redis Obs SpecResp Server.

(** [a] happens, and later [b] *)
Definition before (tr : list label) (a b : label) : Prop := ∃ i j, (i < j)%nat ∧ tr !! i = Some a ∧ tr !! j = Some b.
(** the request that the bytes of a frame begin with, if they do *)
Definition asks (max_alloc : Z) (frame : string) (req : list string) : Prop :=
  req ≠ [] ∧ ∃ org rest, decode max_alloc frame = Ret (DOk (Rec req org, rest)).

(** the executed requests, in the order of their execution: for whom, with which random choices, what *)
Record call := Call { who : gid; how : choices; what : list string }.
Definition call_of (l : label) : option call := match l with LExec g c req => Some (Call g c req) | _ => None end.
Definition calls (tr : list label) : list call := omap call_of tr.
Definition as_history (h : list call) : list (choices * list string) := (λ x, (how x, what x)) <$> h.
(** the goroutines that were started, and those that have written a reply, in order *)
Definition started (tr : list label) : list gid := omap (λ l, match l with LDeliver g _ _ => Some g | _ => None end) tr.
Definition writers (tr : list label) : list gid := omap (λ l, match l with LWrite g _ _ => Some g | _ => None end) tr.
(** begins (true) and ends (false) of command executions, in order *)
Definition executions (tr : list label) : list (bool * gid) :=
  omap (λ l, match l with LBegin g => Some (true, g) | LExec g _ _ | LCrash g _ _ => Some (false, g) | _ => None end) tr.
(** one begins only after the previous one has ended; the last may still be going on *)
Fixpoint one_at_a_time (l : list (bool * gid)) : Prop :=
  match l with
  | [] => True
  | [(b, _)] => b = true
  | (b, g) :: (b', g') :: r => b = true ∧ b' = false ∧ g = g' ∧ one_at_a_time r
  end.
(** the reply of the i-th executed request, read by a client *)
Definition is_reply (b : string) (v : resp) : Prop := ∀ t, read_reply 2 (b +:+ t) = Some (v, t).

(** what comes from outside: frames, the request to stop, deadlines *)
Definition external (l : label) : Prop := match l with LDeliver _ _ _ | LRefuse _ _ | LStop | LExpire _ => True | _ => False end.
(** nothing can happen any more without something from outside *)
Definition quiescent (ext : Ext) (max_alloc : Z) (pool_size : nat) (s : config) : Prop :=
  ∀ l s', step ext max_alloc pool_size s l s' → external l.
(** a continuation with nothing from outside *)
Inductive continues (ext : Ext) (max_alloc : Z) (pool_size : nat) : config → list label → config → Prop :=
| co_nil s : continues ext max_alloc pool_size s [] s
| co_cons s l s1 tr s2 : c_crashed s = false → step ext max_alloc pool_size s l s1 → ¬ external l →
    continues ext max_alloc pool_size s1 tr s2 → continues ext max_alloc pool_size s (l :: tr) s2.
