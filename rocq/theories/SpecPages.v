(** Specification for C92: reading a list or a sorted set page by page. *)
From Verif Require Import GoBase SpecResp Db Redis Obs SpecCmd SpecKey Server SpecServing SpecCommute SpecUse.

(** page number [i] of size [p] is asked for with the positions of its first and its last element *)
Definition first_of (p i : nat) : string := itoa (Z.of_nat (i * p)).
Definition last_of (p i : nat) : string := itoa (Z.of_nat (i * p + p - 1)).
(** the request reads a part of the list, or cannot change the key *)
Definition quiet_request (k : string) (req : list string) : bool := asks_for "lrange" k req || negb (bool_decide (k ∈ touched req)).
(** some client asked for page [i], and was answered [page] *)
Definition page_read (k : string) (h : list call) (got : call → string → Prop) (p i : nat) (page : list string) : Prop :=
  ∃ x b, x ∈ h ∧ what x = ["LRANGE"; k; first_of p i; last_of p i] ∧ got x b ∧ is_reply b (bulks page).
