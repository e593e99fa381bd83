(** What a finite map does, operation by operation.  Nothing here refers to the sharded map. *)
From Verif Require Import GoBase.

(** the operations of package shard_map.  A callback is any function of what it has been shown so far (last entry last). *)
Inductive mop (A : Type) : Type :=
| MGet (k : string) | MHas (k : string) | MSet (k : string) (v : A)
| MSetIfAbsent (k : string) (v : A) | MDeleteIfExists (k : string) | MLoadAndDelete (k : string) | MDelete (k : string)
| MUpsert (k : string) (f : option A → A * bool)
| MKeys | MItems
| MRange (go : list (string * A) → bool)
| MRangeAndDelete (del go : list (string * A) → bool).
Arguments MGet {A} _. Arguments MHas {A} _. Arguments MSet {A} _ _. Arguments MSetIfAbsent {A} _ _. Arguments MDeleteIfExists {A} _.
Arguments MLoadAndDelete {A} _. Arguments MDelete {A} _. Arguments MUpsert {A} _ _. Arguments MKeys {A}. Arguments MItems {A}.
Arguments MRange {A} _. Arguments MRangeAndDelete {A} _ _.
Inductive mans (A : Type) : Type :=
| ANone | AVal (v : option A) | ABool (b : bool) | AUpsert (v : A) (aborted : bool) | AKeys (ks : list string) | AItems (m : gmap string A) | AShown (l : list (string * A)).
Arguments ANone {A}. Arguments AVal {A} _. Arguments ABool {A} _. Arguments AUpsert {A} _ _. Arguments AKeys {A} _. Arguments AItems {A} _. Arguments AShown {A} _.

Section spec.
Context {A : Type}.
Implicit Types (m : gmap string A).
(** the entries a callback is shown when the map is walked in the order [l] *)
Fixpoint shown (go : list (string * A) → bool) (seen l : list (string * A)) : list (string * A) :=
  match l with
  | [] => seen
  | x :: r => if go (seen ++ [x]) then shown go (seen ++ [x]) r else seen ++ [x]
  end.
(** and what is left of the map when it may delete them *)
Fixpoint left_over (del go : list (string * A) → bool) (seen : list (string * A)) m (l : list (string * A)) : gmap string A :=
  match l with
  | [] => m
  | x :: r => let m' := if del (seen ++ [x]) then delete x.1 m else m in if go (seen ++ [x]) then left_over del go (seen ++ [x]) m' r else m'
  end.
(** [map_does o m a m']: on the finite map [m], operation [o] may answer [a] and leave [m'] *)
Definition map_does (o : mop A) m (a : mans A) m' : Prop :=
  match o with
  | MGet k => a = AVal (m !! k) ∧ m' = m
  | MHas k => a = ABool (bool_decide (is_Some (m !! k))) ∧ m' = m
  | MSet k v => a = ANone ∧ m' = <[k := v]> m
  | MSetIfAbsent k v => a = ABool (bool_decide (m !! k = None)) ∧ m' = (if m !! k then m else <[k := v]> m)
  | MDeleteIfExists k => a = ABool (bool_decide (is_Some (m !! k))) ∧ m' = delete k m
  | MLoadAndDelete k => a = AVal (m !! k) ∧ m' = delete k m
  | MDelete k => a = ANone ∧ m' = delete k m
  | MUpsert k f => a = AUpsert (f (m !! k)).1 (f (m !! k)).2 ∧ m' = (if (f (m !! k)).2 then m else <[k := (f (m !! k)).1]> m)
  | MKeys => (∃ ks, a = AKeys ks ∧ NoDup ks ∧ ∀ k, k ∈ ks ↔ is_Some (m !! k)) ∧ m' = m
  | MItems => a = AItems m ∧ m' = m
  | MRange go => ∃ l, l ≡ₚ map_to_list m ∧ a = AShown (shown go [] l) ∧ m' = m
  | MRangeAndDelete del go => ∃ l, l ≡ₚ map_to_list m ∧ a = AShown (shown go [] l) ∧ m' = left_over del go [] m l
  end.
(** a history of operations and their answers *)
Fixpoint map_history (h : list (mop A)) m (rs : list (mans A)) m' : Prop :=
  match h, rs with
  | [], [] => m' = m
  | o :: h, a :: rs => ∃ m1, map_does o m a m1 ∧ map_history h m1 rs m'
  | _, _ => False
  end.
End spec.
