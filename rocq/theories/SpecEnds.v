(** What a list key does in every state that can be reached, also after LREM has emptied it (C22): an automaton.
    A list is a chain of elements, the ends from which it can still be reached, and a counter.
    Nothing here refers to the model. *)
From Verif Require Import GoBase SpecResp SpecList SpecCmd SpecServer SpecKey.

Inductive known_ends := Both | OnlyBack | OnlyFront.
Record chain := Chain { c_ends : known_ends; c_items : list string; c_count : Z }.
(** a list as it should be *)
Definition sound (xs : list string) : chain := Chain Both xs (zlen xs).
(** a chain known from one end only has at least one element *)
Definition chain_ok (s : chain) : Prop := c_ends s = Both ∨ c_items s ≠ [].

Definition other_end (e : known_ends) : known_ends := match e with Both => Both | OnlyBack => OnlyFront | OnlyFront => OnlyBack end.
Definition mirror (s : chain) : chain := Chain (other_end (c_ends s)) (reverse (c_items s)) (c_count s).

(** A push at an end that is lost forgets the chain. *)
Definition push_front (v : string) (s : chain) : chain :=
  match c_ends s with
  | OnlyBack => Chain Both [v] (c_count s + 1)
  | e => Chain e (v :: c_items s) (c_count s + 1)
  end.
Definition push_back (v : string) (s : chain) : chain := mirror (push_front v (mirror s)).

(** Pops take no more than the counter says, and nothing from an end that is lost. *)
Definition pop_front (n : Z) (s : chain) : list string * chain :=
  match c_ends s with
  | OnlyBack => ([], s)
  | e =>
      let m := Z.to_nat (Z.min n (c_count s)) in
      let rest := drop m (c_items s) in
      (take m (c_items s), Chain (match rest with [] => Both | _ => e end) rest (c_count s - zlen (take m (c_items s))))
  end.
Definition pop_back (n : Z) (s : chain) : list string * chain :=
  let (vs, s') := pop_front n (mirror s) in (vs, mirror s').

(** LRANGE counts from the front; negative positions and the last position are taken from the counter. *)
Definition range (a b : Z) (s : chain) : list string :=
  match c_ends s with
  | OnlyBack => []
  | _ =>
      let lo := Z.max 0 (norm_index (c_count s) a) in
      let hi := Z.min (norm_index (c_count s) b) (c_count s - 1) in
      take (Z.to_nat (hi + 1 - lo)) (drop (Z.to_nat lo) (c_items s))
  end.

(** what a search for [n] occurrences of [v] does not look at *)
Fixpoint unseen (n : Z) (v : string) (xs : list string) : list string :=
  match xs with
  | [] => []
  | x :: r => if n <=? 0 then xs else unseen (if String.eqb x v then n - 1 else n) v r
  end.
(** LREM from the front: None is a crash.  A search that gets to the end finds the lost end again.  If nothing is
    left, the front is lost and the chain is one empty element that nobody added. *)
Definition remove_front (n : Z) (v : string) (s : chain) : option (chain * Z) :=
  match c_ends s, c_items s with
  | OnlyBack, _ | _, [] => None
  | e, xs =>
      let ys := remove_first n v xs in
      let c := zlen xs - zlen ys in
      Some (match ys with
            | [] => Chain OnlyBack [""%string] (c_count s - c)
            | _ => Chain (match unseen n v xs with [] => Both | _ => e end) ys (c_count s - c)
            end, c)
  end.
Definition remove_back (n : Z) (v : string) (s : chain) : option (chain * Z) :=
  match remove_front n v (mirror s) with Some (s', c) => Some (mirror s', c) | None => None end.
(** LREM with its count; the negation of the least int64 is itself *)
Definition remove (n : Z) (v : string) (s : chain) : option (chain * Z) :=
  if 0 <? n then remove_front n v s
  else if n <? 0 then remove_back (if n =? - two63 then n else - n) v s
  else remove_front (c_count s) v s.

(** The place of the element at position [i]: None is a crash, Some None no element.  Positions behind the middle are
    looked for from the back. *)
Definition place_of (i : Z) (s : chain) : option (option nat) :=
  match c_ends s, c_items s with
  | OnlyBack, _ | _, [] => Some None
  | e, xs =>
      let i := norm_index (c_count s) i in
      let along (j : Z) (p : Z) := if j <? zlen xs then Some (Some (Z.to_nat p)) else if j =? zlen xs then Some None else None in
      if (i <? 0) || (c_count s <=? i) then Some None
      else if c_count s / 2 + 1 <? i then
        let j := c_count s - 1 - i in
        match e with OnlyFront => if j =? 0 then Some None else None | _ => along j (zlen xs - 1 - j) end
      else along i i
  end.
(** LINSERT AFTER the last element finds the lost back again *)
Definition insert_at (after : bool) (p v : string) (s : chain) : option chain :=
  match c_ends s with
  | OnlyBack => None
  | e =>
      match (if after then insert_after p v (c_items s) else insert_before p v (c_items s)) with
      | None => None
      | Some ys => Some (Chain (if after && negb (bool_decide (p ∈ take (length (c_items s) - 1) (c_items s))) then Both else e)
                               ys (c_count s + 1))
      end
  end.

(** ** The commands *)
Inductive deed := Crash | Does (r : resp) (s : option chain).
Definition refuse (e : err) (s : option chain) : deed := Does (RError (err_msg e)) s.
Definition as_chain (s : option chain) : chain := match s with Some s => s | None => sound [] end.
(** a key that is absent, or whose counter is 0 *)
Definition nothing (s : option chain) : bool := c_count (as_chain s) =? 0.
Definition pop_arg (a : list string) : option Z :=
  match a with
  | [] => Some 1
  | x :: _ => match parse_int x with Some n => if n <=? 0 then None else Some n | None => None end
  end.
Definition chain_commands : list (string * (list string → option chain → deed)) :=
  [ ("lpush", λ a s, match a with
                     | [] => refuse ErrArgsNotEnough s
                     | _ => let s' := foldl (λ s v, push_front v s) (as_chain s) a in Does (RInt (c_count s')) (Some s') end);
    ("rpush", λ a s, match a with
                     | [] => refuse ErrArgsNotEnough s
                     | _ => let s' := foldl (λ s v, push_back v s) (as_chain s) a in Does (RInt (c_count s')) (Some s') end);
    ("lpop", λ a s, match pop_arg a with
                    | None => refuse ErrValueOutOfRange s
                    | Some n => if nothing s then Does RNil s
                                else let (vs, s') := pop_front n (as_chain s) in Does (bulks vs) (Some s') end);
    ("rpop", λ a s, match pop_arg a, s with
                    | None, _ => refuse ErrValueOutOfRange s
                    | Some _, None => Does RNil None
                    | Some n, Some s => let (vs, s') := pop_back n s in Does (bulks vs) (Some s') end);
    ("llen", λ a s, Does (RInt (c_count (as_chain s))) s);
    ("lrange", λ a s, match a with
                      | x :: y :: _ => match parse_int x, parse_int y with
                                       | Some i, Some j => Does (bulks (if nothing s then [] else range i j (as_chain s))) s
                                       | _, _ => refuse ErrValueOutOfRange s end
                      | _ => refuse ErrArgsNotEnough s end);
    ("lrem", λ a s, match a with
                    | x :: v :: _ => match parse_int x with
                                     | None => refuse ErrValueOutOfRange s
                                     | Some n => if nothing s then Does (RInt 0) s
                                                 else match remove n v (as_chain s) with
                                                      | Some (s', c) => Does (RInt c) (Some s')
                                                      | None => Crash end end
                    | _ => refuse ErrArgsNotEnough s end);
    ("lset", λ a s, match a with
                    | x :: v :: _ => match parse_int x with
                                     | None => refuse ErrValueOutOfRange s
                                     | Some i => if nothing s then refuse ErrNil s
                                                 else match place_of i (as_chain s) with
                                                      | Some (Some p) => Does (RStatus "OK") (Some (Chain (c_ends (as_chain s)) (<[p := v]> (c_items (as_chain s))) (c_count (as_chain s))))
                                                      | Some None => refuse ErrNil s
                                                      | None => Crash end end
                    | _ => refuse ErrArgsNotEnough s end);
    ("linsert", λ a s, match a with
                       | w :: p :: v :: _ =>
                           let go after := if nothing s then refuse ErrNil s
                                           else match insert_at after p v (as_chain s) with
                                                | Some s' => Does (RInt (c_count s')) (Some s')
                                                | None => refuse ErrNil s end in
                           if String.eqb (to_lower w) "after" then go true
                           else if String.eqb (to_lower w) "before" then go false else refuse ErrArgsNotEnough s
                       | _ => refuse ErrArgsNotEnough s end);
    ("del", λ _ (s : option chain), Does (flag (if s then true else false)) None);
    ("exists", λ _ (s : option chain), Does (flag (if s then true else false)) s);
    ("type", λ _ (s : option chain), Does (RStatus (if s then "list" else "none")) s) ].
(** what a request with key [k] as its first argument does *)
Fixpoint find_deed (name : string) (t : list (string * (list string → option chain → deed))) : option (list string → option chain → deed) :=
  match t with
  | [] => None
  | (n, f) :: r => if String.eqb n name then Some f else find_deed name r
  end.
Definition deed_of (req : list string) (s : option chain) : option deed :=
  match req with
  | name :: _ :: a => match find_deed (to_lower name) chain_commands with Some f => Some (f a s) | None => None end
  | _ => None
  end.
Definition chain_step (req : list string) (s : option chain) : option (resp → option chain → Prop) :=
  match deed_of req s with Some x => Some (λ r s', x = Does r s') | None => None end.
(** LINDEX takes its position as the key, too (C49) *)
Definition element (i : Z) (s : option chain) : option resp :=
  if nothing s then Some RNil
  else match place_of i (as_chain s) with
       | Some (Some p) => match c_items (as_chain s) !! p with Some v => Some (RBulk v) | None => None end
       | Some None => Some RNil
       | None => None
       end.

(** a conversation about one key: None if it crashes, otherwise the answers *)
Fixpoint run (s : option chain) (h : list (list string)) : option (list resp) :=
  match h with
  | [] => Some []
  | req :: h' =>
      match deed_of req s with
      | Some (Does r s') => match run s' h' with Some rs => Some (r :: rs) | None => None end
      | _ => None
      end
  end.
(** the request is one of the table, with key [k] *)
Definition listed (k : string) (req : list string) : Prop :=
  match req with
  | name :: k' :: _ => k' = k ∧ find_deed (to_lower name) chain_commands ≠ None
  | _ => False
  end.
