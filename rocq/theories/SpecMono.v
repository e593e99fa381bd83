(** Specification for C93: what a client is shown of a counter, and of a set of what was seen. *)
From Verif Require Import GoBase SpecResp Db Redis Obs SpecCmd SpecKey Server SpecServing SpecCommute SpecUse SpecTotal.

(** the number in an answer *)
Definition number_in (v : resp) : option Z :=
  match v with RInt n => Some n | RBulk s => parse_int s | RNil => Some 0 | _ => None end.
(** the request is answered with the counter's value *)
Definition shows_total (k : string) (req : list string) : Prop := is_Some (amount k req) ∨ asks_for "get" k req = true.
(** the request is one for the size of the set; for whether [v] is in it *)
Definition shows_size (k : string) (req : list string) : Prop := asks_for "scard" k req = true.
Definition shows_member (k v : string) (req : list string) : Prop := asks_for "sismember" k req = true ∧ ∃ a, values req = v :: a.
