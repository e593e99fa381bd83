(** What a client may expect of one key, whatever happens to the other keys: small specifications of string,
    list, set and sorted-set keys.  Nothing here refers to the model.

    A key specification gives, for a request about the key and the abstract value of the key, the possible
    replies and new values; None means that the specification makes no promise for this request. *)
From Verif Require Import GoBase Float64 Float64Proofs SpecResp SpecList SpecZSet SpecCmd SpecServer.

(** questions about the key in the first argument alone *)
Definition questions : list string :=
  [ "exists"; "type"; "get"; "llen"; "lrange"; "scard"; "sismember"; "smembers"; "zscore"; "zrank"; "zcard"; "zcount";
    "zrange"; "zrangebyscore"; "zrevrange" ].
(** the request may change key [k] or asks about it *)
Definition about (k : string) (req : list string) : bool :=
  bool_decide (k ∈ touched req) ||
  match req with
  | name :: k' :: _ => bool_decide (to_lower name ∈ questions) && String.eqb k' k
  | _ => false
  end.

Section histories.
Context {A : Type} (step : list string → A → option (resp → A → Prop)) (k : string).

(** the specification promises something for every request about [k] in the history *)
Fixpoint within (s : A) (h : list (list string)) : Prop :=
  match h with
  | [] => True
  | req :: h' =>
      if about k req then
        match step req s with
        | None => False
        | Some R => ∀ r s', R r s' → within s' h'
        end
      else within s h'
  end.

(** the replies to the requests about [k] are those of the specification, ending with value [s'] *)
Inductive consistent : A → list (list string) → list (option resp) → A → Prop :=
| cs_nil s : consistent s [] [] s
| cs_about s req R r s1 h rs s2 :
    about k req = true → step req s = Some R → R r s1 → consistent s1 h rs s2 →
    consistent s (req :: h) (Some r :: rs) s2
| cs_other s req r h rs s2 :
    about k req = false → consistent s h rs s2 → consistent s (req :: h) (r :: rs) s2.
End histories.

(** a table of commands: name, arguments after the key, value *)
Definition ktable (A : Type) := list (string * (list string → A → option (resp → A → Prop))).
Fixpoint find_cmd {A} (name : string) (t : ktable A) : option (list string → A → option (resp → A → Prop)) :=
  match t with
  | [] => None
  | (n, f) :: r => if String.eqb n name then Some f else find_cmd name r
  end.
Definition table_step {A} (t : ktable A) (req : list string) (s : A) : option (resp → A → Prop) :=
  match req with
  | name :: _ :: a => match find_cmd (to_lower name) t with Some f => f a s | None => None end
  | _ => None
  end.
(** exactly this reply and this value *)
Definition exactly {A} (r : resp) (s : A) : option (resp → A → Prop) := Some (λ r' s', r' = r ∧ s' = s).
Definition flag (b : bool) : resp := RInt (if b then 1 else 0).
Definition key_commands (A : Type) (ty : string) : ktable (option A) :=
  [ ("del", λ (_ : list string) (s : option A), exactly (flag (if s then true else false)) None);
    ("exists", λ (_ : list string) (s : option A), exactly (flag (if s then true else false)) s);
    ("type", λ (_ : list string) (s : option A), exactly (RStatus (if s then ty else "none")) s) ].
Arguments key_commands _ _ : clear implicits.

(** *** strings: a byte string or nothing *)
Definition add_int (n : Z) (s : option string) : option (resp → option string → Prop) :=
  match s with
  | None => if in_int64 n then exactly (RInt n) (Some (itoa n)) else None
  | Some v => match parse_int v with
              | None => exactly (RError (err_msg ErrNotInteger)) s
              | Some i => if in_int64 (i + n) then exactly (RInt (i + n)) (Some (itoa (i + n))) else None
              end
  end.
Definition int_arg {B} (x : string) (f : Z → option B) : option B :=
  match parse_int x with Some n => f n | None => None end.
Definition string_commands : ktable (option string) :=
  [ ("set", λ a s, match a with v :: _ => exactly (RStatus "OK") (Some v) | _ => None end);
    ("get", λ a s, exactly (match s with Some v => RBulk v | None => RNil end) s);
    ("append", λ a s, match a with
                      | v :: _ => let w := default "" s +:+ v in exactly (RInt (slen w)) (Some w)
                      | _ => None end);
    ("incr", λ a s, add_int 1 s); ("decr", λ a s, add_int (-1) s);
    ("incrby", λ a s, match a with x :: _ => int_arg x (λ n, add_int n s) | _ => None end);
    ("decrby", λ a s, match a with x :: _ => int_arg x (λ n, add_int (- n) s) | _ => None end) ].
Definition string_step := table_step (key_commands string "string" ++ string_commands).

(** *** lists: a sequence of byte strings or nothing.  A list that LREM emptied remembers the end it lost:
    nothing is promised for a push at that end (see C22). *)
Notation list_value := (option (list string * wear))%type.
Definition elems (s : list_value) : list string := match s with Some (xs, _) => xs | None => [] end.
Definition lost (s : list_value) : wear := match s with Some (_, w) => w | None => Sound end.
Definition pop_number (a : list string) : option Z :=
  match a with
  | [] => Some 1
  | x :: _ => int_arg x (λ n, if 0 <? n then Some n else None)
  end.
Definition list_commands : ktable list_value :=
  [ ("lpush", λ a s, match a, lost s with
                     | [], _ => None
                     | _, TailLost => None
                     | _, _ => let xs := reverse a ++ elems s in exactly (RInt (zlen xs)) (Some (xs, Sound)) end);
    ("rpush", λ a s, match a, lost s with
                     | [], _ => None
                     | _, HeadLost => None
                     | _, _ => let xs := elems s ++ a in exactly (RInt (zlen xs)) (Some (xs, Sound)) end);
    ("lpop", λ a s, match pop_number a, s with
                    | None, _ => None
                    | Some _, None => exactly RNil None
                    | Some _, Some ([], _) => exactly RNil s
                    | Some n, Some (xs, _) => exactly (bulks (take (Z.to_nat n) xs)) (Some (drop (Z.to_nat n) xs, Sound))
                    end);
    ("rpop", λ a s, match pop_number a, s with
                    | None, _ => None
                    | Some _, None => exactly RNil None
                    | Some _, Some ([], _) => exactly (RArr []) s
                    | Some n, Some (xs, _) =>
                        exactly (bulks (take (Z.to_nat n) (reverse xs))) (Some (reverse (drop (Z.to_nat n) (reverse xs)), Sound))
                    end);
    ("llen", λ a s, exactly (RInt (zlen (elems s))) s);
    ("lrange", λ a s, match a with
                      | x :: y :: _ => int_arg x (λ i, int_arg y (λ j, exactly (bulks (window i j (elems s))) s))
                      | _ => None end);
    ("lset", λ a s, match a with
                    | x :: v :: _ => int_arg x (λ i,
                        match set_elem i v (elems s) with
                        | Some ys => exactly (RStatus "OK") (Some (ys, Sound))
                        | None => exactly (RError (err_msg ErrNil)) s
                        end)
                    | _ => None end);
    ("linsert", λ a s, match a with
                       | w :: p :: v :: _ =>
                           let go o := match o with
                                       | Some ys => exactly (RInt (zlen ys)) (Some (ys, Sound))
                                       | None => exactly (RError (err_msg ErrNil)) s
                                       end in
                           if String.eqb (to_lower w) "before" then go (insert_before p v (elems s))
                           else if String.eqb (to_lower w) "after" then go (insert_after p v (elems s)) else None
                       | _ => None end);
    ("lrem", λ a s, match a with
                    | x :: v :: _ => int_arg x (λ n,
                        let ys := lrem_result n v (elems s) in
                        if n =? - two63 then exactly (RInt 0) s   (* nothing is removed, see C21 *)
                        else match s with
                             | Some (_ :: _, _) => exactly (RInt (zlen (elems s) - zlen ys))
                                 (Some (ys, match ys with [] => if n <? 0 then TailLost else HeadLost | _ => Sound end))
                             | _ => exactly (RInt 0) s
                             end)
                    | _ => None end) ].
Definition list_step := table_step (key_commands (list string * wear) "list" ++ list_commands).

(** *** sets: the members, and how many members SPOP removed: SCARD still counts those (see C25, C62) *)
Notation set_value := (option (gset string * nat))%type.
Definition members (s : set_value) : gset string := match s with Some (X, _) => X | None => ∅ end.
Definition surplus (s : set_value) : nat := match s with Some (_, dr) => dr | None => 0 end.
Definition set_commands : ktable set_value :=
  [ ("sadd", λ a s, match a with
                    | [] => None
                    | _ => let Y : gset string := list_to_set a in
                           exactly (RInt (Z.of_nat (size (Y ∖ members s)))) (Some (members s ∪ Y, surplus s)) end);
    ("srem", λ a s, match a with
                    | [] => None
                    | _ => let Y : gset string := list_to_set a in
                           exactly (RInt (Z.of_nat (size (members s ∩ Y))))
                                   (match s with Some (X, dr) => Some (X ∖ Y, dr) | None => None end) end);
    ("sismember", λ a s, match a with
                         | v :: _ => exactly (flag (bool_decide (v ∈ members s))) s | _ => None end);
    ("scard", λ a s, exactly (RInt (Z.of_nat (size (members s) + surplus s))) s);
    ("smembers", λ a s, Some (λ r s', s' = s ∧
         if bool_decide (members s = ∅) && (surplus s =? 0)%nat then r = RError (err_msg ErrNil)
         else ∃ l, r = bulks l ∧ NoDup l ∧ ∀ x, x ∈ l ↔ x ∈ members s));
    ("spop", λ a s, match a with
                    | x :: _ => int_arg x (λ n, Some (λ r s', ∃ l, r = bulks l ∧ NoDup l ∧ (∀ x, x ∈ l → x ∈ members s) ∧
                        length l = Nat.min (Z.to_nat n) (size (members s)) ∧
                        s' = match s with Some (X, dr) => Some (X ∖ list_to_set l, (dr + length l)%nat) | None => None end))
                    | _ => None end) ].
Definition set_step := table_step (key_commands (gset string * nat) "setIfNotExists" ++ set_commands).

(** *** sorted sets: the (score, member) pairs in order, and the members popped with their last scores (see C33, C61) *)
Notation zset_value := (option (list zkey * gmap string float))%type.
Section zset.
Context (ext : Ext).
Definition pairs (s : zset_value) : list zkey := match s with Some (es, _) => es | None => [] end.
Definition gone (s : zset_value) : gmap string float := match s with Some (_, gh) => gh | None => ∅ end.
Definition popped (s : zset_value) : gset string := dom (gone s).
(** [out] are popped *)
Definition pop (gh : gmap string float) (out : list zkey) : gmap string float := foldl (λ g (e : zkey), <[e.2 := e.1]> g) gh out.
(** one pair of ZADD: set the score of a member (or add to it); a member popped before cannot be added again,
    and there is no promise for a score that is not a number *)
Definition add_pair (incr nx xx : bool) (f : float) (v : string) (es : list zkey) (P : gset string) : option (list zkey * option float) :=
  if bool_decide (v ∈ P) then Some (es, None)
  else match zfind v es with
       | None => if xx then Some (es, None) else if is_nan f then None else Some (zplace (f, v) es, Some f)
       | Some old =>
           if nx then Some (es, None)
           else let g := if incr then fadd f old else f in
                if is_nan g then None
                else if feq g old then Some (es, None) else Some (zplace (g, v) (zdrop v es), Some g)
       end.
Fixpoint add_pairs (fl : zopts) (l : list zkey) (es : list zkey) (P : gset string) : option (list zkey * Z) :=
  match l with
  | [] => Some (es, 0)
  | (f, v) :: r =>
      match add_pair (o_incr fl) (o_nx fl) (o_xx fl) f v es P with
      | None => None
      | Some (es', o) => match add_pairs fl r es' P with
                         | Some (es'', n) => Some (es'', (if o then 1 else 0) + n) | None => None end
      end
  end.
(** ZREM, only promised for members that are among the two lowest when their turn comes (see C32); a member popped
    before counts as removed, and is forgotten *)
Fixpoint remove_low (vs : list string) (es : list zkey) (gh : gmap string float) : option (list zkey * gmap string float * Z) :=
  match vs with
  | [] => Some (es, gh, 0)
  | v :: r =>
      match gh !! v with
      | Some _ => match remove_low r es (delete v gh) with Some (es', gh', z) => Some (es', gh', 1 + z) | None => None end
      | None =>
          match zindex v es with
          | None => remove_low r es gh
          | Some n => if (n <=? 1)%nat
                      then match remove_low r (zdrop v es) gh with Some (es', gh', z) => Some (es', gh', 1 + z) | None => None end
                      else None
          end
      end
  end.
Definition zset_commands : ktable zset_value :=
  [ ("zadd", λ a s, match a with
                    | _ :: _ :: _ =>
                        match zadd_parse ext a (ZO false false false) with
                        | None => exactly (RError (err_msg ErrValueOutOfRange)) s
                        | Some (fl, l) => match add_pairs fl l (pairs s) (popped s) with
                                          | Some (es, n) => exactly (RInt n) (Some (es, gone s))
                                          | None => None end
                        end
                    | _ => None end);
    ("zincr", λ a s, match a with
                     | x :: v :: _ =>
                         match parse_float ext x with
                         | None => exactly (RError (err_msg ErrValueOutOfRange)) s
                         | Some f => match add_pair true false false f v (pairs s) (popped s) with
                                     | Some (es, Some g) => exactly (RBulk (format_float ext g)) (Some (es, gone s))
                                     | Some (es, None) => exactly (RInt 0) (Some (es, gone s))
                                     | None => None end
                         end
                     | _ => None end);
    ("zcard", λ a s, exactly (RInt (zlen (pairs s))) s);
    ("zscore", λ a s, match a with
                      | v :: _ => exactly (match pairs s with
                                           | [] => RNil
                                           | es => match zfind v es with
                                                   | Some f => RBulk (format_float ext f)
                                                   | None => match gone s !! v with Some f => RBulk (format_float ext f) | None => RNil end
                                                   end
                                           end) s
                      | _ => None end);
    ("zrank", λ a s, match a with
                     | v :: _ => if two63 - 2 <=? zlen (pairs s) then None
                                 else exactly (match pairs s with
                                               | [] => RNil
                                               | es => match gone s !! v with
                                                       | Some f => RInt (zlen (filter (λ e, zlt e (f, v) = true) es))
                                                       | None => match zindex v es with Some n => RInt (Z.of_nat n + 1) | None => RNil end
                                                       end
                                               end) s
                     | _ => None end);
    ("zrange", λ a s, match a with
                      | [x; y] => if two63 - 2 <=? zlen (pairs s) then None
                                  else int_arg x (λ i, int_arg y (λ j,
                                    exactly (match pairs s with [] => RNil | es => bulks (window i j es).*2 end) s))
                      | _ => None end);
    ("zpopmin", λ a s, match a with
                       | [x] => if two63 - 2 <=? zlen (pairs s) then None
                                else int_arg x (λ n,
                                  let out := take (Z.to_nat n) (pairs s) in
                                  exactly (bulks (concat ((λ e : zkey, [e.2; format_float ext e.1]) <$> out)))
                                    (match s with
                                     | Some (es, gh) => Some (drop (Z.to_nat n) es, pop gh out)
                                     | None => None end))
                       | _ => None end);
    ("zpopmax", λ a s, match a with
                       | [x] => int_arg x (λ n,
                                  if (zlen (pairs s) <? two63 - 2) && ((n <=? 0) || ((n <=? zlen (pairs s)) && (zlen (pairs s) <=? 2))) then
                                    let out := take (Z.to_nat n) (reverse (pairs s)) in
                                    exactly (bulks (concat ((λ e : zkey, [e.2; format_float ext e.1]) <$> out)))
                                      (match s with
                                       | Some (es, gh) => Some (reverse (drop (Z.to_nat n) (reverse es)), pop gh out)
                                       | None => None end)
                                  else None)
                       | _ => None end);
    ("zrem", λ a s, match a with
                    | [] => None
                    | vs => match pairs s with
                            | [] => exactly (RInt 0) s
                            | es => match remove_low vs es (gone s) with
                                    | Some (es', gh, n) => exactly (RInt n) (Some (es', gh))
                                    | None => None end
                            end
                    end);
    ("zrevrange", λ a s, match a with
                         | [x; y] => if two63 - 2 <=? zlen (pairs s) then None
                                     else int_arg x (λ i, int_arg y (λ j,
                                       exactly (match pairs s with [] => RNil | es => bulks (reverse (window i j es)).*2 end) s))
                         | _ => None end) ].
Definition zset_step := table_step (key_commands (list zkey * gmap string float) "sortedSet" ++ zset_commands).
End zset.
