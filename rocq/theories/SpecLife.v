(** When a key exists and of which type it is, from the requests and their replies alone.  Nothing here refers to the
    model of the code. *)
From Verif Require Import GoBase SpecResp.

(** the types, as TYPE calls them *)
Definition a_string : string := "string".
Definition a_list : string := "list".
Definition a_set : string := "setIfNotExists".
Definition a_sorted_set : string := "sortedSet".

Definition is_error (r : option resp) : bool := match r with Some (RError _) => true | _ => false end.
(** the first of every complete pair *)
Fixpoint pair_heads (l : list string) : list string :=
  match l with x :: _ :: r => x :: pair_heads r | _ => [] end.

(** The key has this type after the request, if that is not answered with an error. *)
Definition makes (req : list string) (k : string) : option string :=
  match req with
  | [] => None
  | name :: a =>
      let n := to_lower name in
      let first := bool_decide (k ∈ take 1 a) in
      if String.eqb n "mset" then if bool_decide (k ∈ pair_heads a) then Some a_string else None
      else if String.eqb n "smove" then if bool_decide (a !! 1%nat = Some k) then Some a_set else None
      else if bool_decide (n ∈ ["set"; "append"; "incr"; "decr"; "incrby"; "decrby"]%string) && first then Some a_string
      else if bool_decide (n ∈ ["lpush"; "rpush"]%string) && first then Some a_list
      else if bool_decide (n ∈ ["sadd"; "sdiffstore"; "sinterstore"; "sunionstore"]%string) && first then Some a_set
      else if bool_decide (n ∈ ["zadd"; "zincr"]%string) && first then Some a_sorted_set
      else None
  end.
Definition unmakes (req : list string) (k : string) : bool :=
  match req with name :: a => String.eqb (to_lower name) "del" && bool_decide (k ∈ take 1 a) | [] => false end.

(** the type of a key (None: it does not exist) after a request, from that before *)
Definition lives (k : string) (t : option string) (x : list string * option resp) : option string :=
  if is_error x.2 then t else if unmakes x.1 k then None else match makes x.1 k with Some u => Some u | None => t end.
(** after a conversation with a fresh server *)
Definition life (k : string) (h : list (list string * option resp)) : option string := foldl (lives k) None h.
(** commands that put a new value in place of whatever the key held *)
Definition overwrites (req : list string) (k : string) : bool :=
  match req with
  | [] => false
  | name :: a =>
      let n := to_lower name in
      (String.eqb n "mset" && bool_decide (k ∈ pair_heads a)) ||
      (bool_decide (n ∈ ["set"; "sdiffstore"; "sinterstore"; "sunionstore"]%string) && bool_decide (k ∈ take 1 a))
  end.
