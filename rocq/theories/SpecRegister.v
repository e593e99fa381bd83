(** Specification for C90: a key as a register that clients write and read.  Everything is read off the requests. *)
From Verif Require Import GoBase SpecResp Db Redis Obs SpecCmd SpecKey Server SpecServing SpecCommute SpecUse.

(** what the request makes of the key: a value, or nothing (DEL) *)
Definition rewritten (k : string) (req : list string) : option (option string) :=
  if asks_for "set" k req then match values req with v :: _ => Some (Some v) | [] => None end
  else if asks_for "del" k req then Some None else None.
(** the request sets or deletes the key, reads it, or cannot change it *)
Definition register_request (k : string) (req : list string) : bool :=
  asks_for_any ["set"; "del"; "get"; "exists"; "type"] k req || negb (bool_decide (k ∈ touched req)).
(** the writes, in order; of a conversation and of the executed requests of a server *)
Definition writes_in (k : string) (l : list exchange) : list (option string) := omap (λ x : exchange, rewritten k x.1.2) l.
Definition writes_of (k : string) (h : list call) : list (option string) := omap (λ x, rewritten k (what x)) h.
(** the last write counts *)
Definition register (p : list (option string)) : option string := default None (last p).
Definition register_shown (o : option string) : resp := match o with Some v => RBulk v | None => RNil end.
(** the answers: SET always succeeds, DEL says whether there was a value, GET the value, EXISTS whether there is one *)
Definition register_answer (k : string) (o : option string) (req : list string) (r : option resp) : Prop :=
  (∀ v, rewritten k req = Some (Some v) → r = Some (RStatus "OK")) ∧
  (asks_for "del" k req = true → r = Some (RInt (if o then 1 else 0))) ∧
  (asks_for "get" k req = true → r = Some (register_shown o)) ∧
  (asks_for "exists" k req = true → r = Some (RInt (if o then 1 else 0))).
