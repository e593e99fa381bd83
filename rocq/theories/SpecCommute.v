(** Specification for C77: requests that do not get in each other's way. *)
From Verif Require Import GoBase Float64 SpecResp Db Redis Obs SpecCmd SpecTenants.

(** Neither changes a key that the other names, nor one that may hold the same set (see C13, C27), in a conversation
    with these requests; and if one asks for all keys, the other changes none. *)
Definition independent (h : list (list string)) (r1 r2 : list string) : Prop :=
  (lists_keys r1 = true → writes r2 = []) ∧ (lists_keys r2 = true → writes r1 = []) ∧
  (∀ k k', k ∈ writes r1 → k' ∈ names_keys r2 → ¬ linked h k k') ∧
  (∀ k k', k ∈ writes r2 → k' ∈ names_keys r1 → ¬ linked h k k').

(** a conversation with the random choices and the reply of each request *)
Definition exchange : Type := choices * list string * option resp.
Definition asked_in (l : list exchange) : list (list string) := l.*1.*2.

(** two neighbours change places *)
Inductive swapped : list exchange → list exchange → Prop :=
| swap_here l1 x y l2 : independent (asked_in (l1 ++ x :: y :: l2)) x.1.2 y.1.2 → swapped (l1 ++ x :: y :: l2) (l1 ++ y :: x :: l2).
(** no later question tells one state from the other *)
Definition indistinguishable (ext : Ext) (d d' : db) : Prop := ∀ h d1 rs, talk ext h d = Ret (d1, rs) → ∃ d1', talk ext h d' = Ret (d1', rs).
(** the requests of two clients, as the server took them *)
Inductive merge {A} : list A → list A → list A → Prop :=
| merge_nil : merge [] [] []
| merge_left x l1 l2 l : merge l1 l2 l → merge (x :: l1) l2 (x :: l)
| merge_right y l1 l2 l : merge l1 l2 l → merge l1 (y :: l2) (y :: l).
