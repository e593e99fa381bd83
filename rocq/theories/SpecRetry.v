(** Specification for C76: requests that a client may send again. *)
From Verif Require Import GoBase Protocol SpecResp Db.

(** the commands whose requests may be sent again *)
Definition may_repeat : list string := ["set"; "mset"; "del"; "sadd"; "srem"; "zrem"; "lset"]%string.
Definition repeatable (req : list string) : Prop :=
  match req with [] => False | name :: _ => to_lower name ∈ may_repeat end.

(** the reply to the second copy: a count becomes 0, anything else stays *)
Definition again (r : option resp) : option resp :=
  match r with Some (RInt _) => Some (RInt 0) | _ => r end.

(** [marks] says of every request whether it is a copy of the one just before it *)
Fixpoint copies (prev : option (list string)) (marks : list bool) (h : list (choices * list string)) : Prop :=
  match marks, h with
  | [], [] => True
  | b :: marks', (_, req) :: h' => (b = true → prev = Some req ∧ repeatable req) ∧ copies (Some req) marks' h'
  | _, _ => False
  end.
(** without the entries that are marked *)
Fixpoint unmarked {A} (marks : list bool) (l : list A) : list A :=
  match marks, l with
  | true :: marks', _ :: l' => unmarked marks' l'
  | false :: marks', x :: l' => x :: unmarked marks' l'
  | _, _ => []
  end.
