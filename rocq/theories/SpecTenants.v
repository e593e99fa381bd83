(** The keys a request names, and what part of a conversation belongs to one of two groups of clients. *)
From Verif Require Import GoBase SpecCmd.

(** Every argument of MGET and of the set operations is a key, every other argument of MSET, the first two of
    SMOVE; LINDEX looks at the key its second argument names (see C49), otherwise it is the first argument.  PING and
    COMMAND name no key; KEYS looks at all keys. *)
Definition all_args : list string :=
  ["mget"; "sdiff"; "sinter"; "sunion"; "sdiffstore"; "sinterstore"; "sunionstore"]%string.
Definition names_keys (req : list string) : list string :=
  match req with
  | [] => []
  | name :: a =>
      let n := to_lower name in
      if bool_decide (n ∈ ["ping"; "command"; "keys"]%string) then []
      else if bool_decide (n ∈ all_args) then a
      else if String.eqb n "mset" then evens a
      else if bool_decide (n ∈ ["smove"; "lindex"]%string) then take 2 a
      else take 1 a
  end.
Definition lists_keys (req : list string) : bool :=
  match req with name :: _ => String.eqb (to_lower name) "keys" | [] => false end.

(** what belongs to the clients selected by the marks *)
Fixpoint marked {A} (marks : list bool) (l : list A) : list A :=
  match marks, l with
  | b :: marks', x :: l' => if b then x :: marked marks' l' else marked marks' l'
  | _, _ => []
  end.
(** One group of clients (marked [true]) names only keys in [K] and never lists the keyspace; the others name only
    keys outside [K]. *)
Definition keeps_apart (K : string → bool) (marks : list bool) (h : list (list string)) : Prop :=
  Forall2 (λ (b : bool) req, if b then (∀ k, k ∈ names_keys req → K k = true) ∧ lists_keys req = false
                             else ∀ k, k ∈ names_keys req → K k = false) marks h.
