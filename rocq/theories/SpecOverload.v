(** How busy the server is, in terms of what can be seen of it (the trace of labels of Server.v). *)
From Verif Require Import GoBase Float64 Db Protocol Redis Obs SpecResp Server SpecServing.

(** the server is done with frame number [g]: its reply is written; or there will be none, because its bytes are no
    request (or its reply cannot be encoded, or the server is stopping), or because it is logged but holds no request *)
Definition finished (max_alloc : Z) (tr : list label) (g : gid) : Prop :=
  (∃ k b, LWrite g k b ∈ tr) ∨ LLost g ∈ tr ∨
  (∃ k f org, LDeliver g k f ∈ tr ∧ LPrint g org ∈ tr ∧ ¬ ∃ req, asks max_alloc f req).
(** the server has taken frame number [g] and is not done with it *)
Definition under_way (max_alloc : Z) (tr : list label) (g : gid) : Prop := g ∈ started tr ∧ ¬ finished max_alloc tr g.
(** exactly [n] frames are under way *)
Definition busy (max_alloc : Z) (tr : list label) (n : nat) : Prop :=
  ∃ gs, NoDup gs ∧ (∀ g, g ∈ gs ↔ under_way max_alloc tr g) ∧ length gs = n.

(** a frame arrives on connection [k]: taken or not *)
Definition arrives (l : label) (k : nat) : Prop := (∃ g f, l = LDeliver g k f) ∨ (∃ f, l = LRefuse k f).
(** whoever sends a frame on a connection has none under way there: clients that await the reply to each request *)
Definition patient (max_alloc : Z) (tr : list label) : Prop :=
  ∀ tr1 l tr2 k, tr = tr1 ++ l :: tr2 → arrives l k → ¬ ∃ g f, LDeliver g k f ∈ tr1 ∧ under_way max_alloc tr1 g.

(** the requests that were accepted into the queue, in order *)
Definition queued (tr : list label) : list gid := omap (λ l, match l with LAccept g => Some g | _ => None end) tr.
(** the frames that were refused *)
Definition refused (tr : list label) : list (nat * string) := omap (λ l, match l with LRefuse k f => Some (k, f) | _ => None end) tr.
(** the same run, as if the refused frames had never been sent *)
Definition without_refused (tr : list label) : list label :=
  omap (λ l, match l with LRefuse _ _ => None | _ => Some l end) tr.
