(** Specification of lists: plain sequences of byte strings. Nothing here refers to the model. *)
From Verif Require Import GoBase.

(** LREM with a positive count: remove the first [n] occurrences of [v]. *)
Fixpoint remove_first (n : Z) (v : string) (xs : list string) : list string :=
  match xs with
  | [] => []
  | x :: r =>
      if n <=? 0 then xs
      else if String.eqb x v then remove_first (n - 1) v r else x :: remove_first n v r
  end.

(** LREM with a negative count: the last [n] occurrences. *)
Definition remove_last (n : Z) (v : string) (xs : list string) : list string :=
  reverse (remove_first n v (reverse xs)).

(** LREM with count 0: every occurrence. *)
Definition remove_all (v : string) (xs : list string) : list string :=
  filter (λ x, x ≠ v) xs.

(** A user index: negative counts from the end. *)
Definition norm_index (len i : Z) : Z := if i <? 0 then i + len else i.

(** LRANGE a b: the elements whose position lies in [max(a',0) .. b'] . *)
Definition window {A} (a b : Z) (xs : list A) : list A :=
  let len := Z.of_nat (length xs) in
  let lo := Z.max 0 (norm_index len a) in
  let hi := norm_index len b in
  take (Z.to_nat (Z.min (hi + 1) len - lo)) (drop (Z.to_nat (Z.min lo len)) xs).

(** LINDEX *)
Definition nth_elem (i : Z) (xs : list string) : option string :=
  let i := norm_index (Z.of_nat (length xs)) i in
  if i <? 0 then None else if Z.of_nat (length xs) <=? i then None else xs !! Z.to_nat i.

(** LSET *)
Definition set_elem (i : Z) (v : string) (xs : list string) : option (list string) :=
  let i := norm_index (Z.of_nat (length xs)) i in
  if i <? 0 then None else if Z.of_nat (length xs) <=? i then None
  else Some (<[Z.to_nat i := v]> xs).

(** LINSERT BEFORE/AFTER the first occurrence of [pivot]; None if there is none. *)
Fixpoint insert_before (pivot v : string) (xs : list string) : option (list string) :=
  match xs with
  | [] => None
  | x :: r => if String.eqb x pivot then Some (v :: x :: r)
              else option_map (cons x) (insert_before pivot v r)
  end.
Fixpoint insert_after (pivot v : string) (xs : list string) : option (list string) :=
  match xs with
  | [] => None
  | x :: r => if String.eqb x pivot then Some (x :: v :: r)
              else option_map (cons x) (insert_after pivot v r)
  end.

(** LREM, all cases. *)
Definition lrem_result (count : Z) (v : string) (xs : list string) : list string :=
  if 0 <? count then remove_first count v xs
  else if count <? 0 then remove_last (- count) v xs
  else remove_all v xs.
