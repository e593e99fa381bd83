(** What a hash (a map from fields to values) does.  Nothing here refers to the model's hash table. *)
From Verif Require Import GoBase Float64 Db.

(** operations on one hash table and their answers; values are strings, int64 or float64 ([hval]) *)
Inductive hop :=
| HoSet (f : string) (v : hval) | HoSetNx (f : string) (v : hval) | HoDel (f : string) | HoExists (f : string)
| HoGet (f : string) | HoAll | HoKeys | HoIncr (f : string) (i : Z) | HoIncrFloat (f : string) (i : float).
Inductive hans :=
| HaNone | HaBool (b : bool) | HaVal (v : option hval) | HaAll (m : gmap string hval) | HaKeys (ks : list string) | HaInt (r : option Z) | HaFloat (r : option float).
(** [hash_does o m a m']: on the fields [m], [o] answers [a] and leaves [m'].  Counts are not part of it (see C37). *)
Definition hash_does (o : hop) (m : gmap string hval) (a : hans) (m' : gmap string hval) : Prop :=
  match o with
  | HoSet f v => a = HaNone ∧ m' = <[f := v]> m
  | HoSetNx f v => a = HaBool (bool_decide (m !! f = None)) ∧ m' = (if m !! f then m else <[f := v]> m)
  | HoDel f => a = HaNone ∧ m' = delete f m
  | HoExists f => a = HaBool (bool_decide (is_Some (m !! f))) ∧ m' = m
  | HoGet f => a = HaVal (m !! f) ∧ m' = m
  | HoAll => a = HaAll m ∧ m' = m
  | HoKeys => m' = m ∧ ∃ ks, a = HaKeys ks ∧ NoDup ks ∧ ∀ f, f ∈ ks ↔ is_Some (m !! f)
  | HoIncr f i =>
      match m !! f with
      | None => a = HaInt (Some i) ∧ m' = <[f := HInt i]> m
      | Some (HInt z) => a = HaInt (Some (wrap64 (z + i))) ∧ m' = <[f := HInt (wrap64 (z + i))]> m
      | Some _ => a = HaInt None ∧ m' = m
      end
  | HoIncrFloat f i =>
      match m !! f with
      | None => a = HaFloat (Some i) ∧ m' = <[f := HFloat i]> m
      | Some (HFloat z) => a = HaFloat (Some (fadd z i)) ∧ m' = <[f := HFloat (fadd z i)]> m
      | Some _ => a = HaFloat None ∧ m' = m
      end
  end.
Fixpoint hash_history (h : list hop) (m : gmap string hval) (rs : list hans) (m' : gmap string hval) : Prop :=
  match h, rs with
  | [], [] => m' = m
  | o :: h, a :: rs => ∃ m1, hash_does o m a m1 ∧ hash_history h m1 rs m'
  | _, _ => False
  end.
