(** The abstract server: what every command answers and does, on a keyspace of plain mathematical values.
    Nothing here refers to the model of the code.

    A verdict says when a request is certain to be executed without crashing the server ([v_safe]) and which
    answers and new keyspaces are possible if it is executed ([v_does]; an answer None means that the client
    gets no reply).  Where the code deviates from the documented Redis behaviour without harm, this file
    states what the server really does, with a remark; where it can corrupt a value, the key becomes damaged:
    nothing is said about its value until it is deleted or overwritten. *)
From Verif Require Import GoBase Float64 Float64Proofs SpecResp SpecList SpecZSet SpecCmd.

(** A list remembers whether LREM emptied it, and from which end (see C22). *)
Inductive wear := Sound | HeadLost | TailLost.
(** A set is its members and the drift of its cardinality counter: SPOP and SMOVE remove members without
    counting them (see C25).
    A sorted set is the sequence of its (score, member) pairs, plus the ghosts: members already popped that
    the score index still knows (see C33). *)
Inductive aval :=
| AStr (s : string)
| AList (xs : list string) (w : wear)
| ASet (X : gset string) (drift : nat)
| AZSet (es : list zkey) (ghosts : gmap string float)
| ADamaged.
Notation kspace := (gmap string aval).

Record verdict := Verdict { v_safe : Prop; v_does : option resp → kspace → Prop }.
(** only the keys [W] may have changed; each of them is now absent or damaged *)
Definition damages (W : list string) (m m0 : kspace) : Prop :=
  ∀ k, if bool_decide (k ∈ W) then m0 !! k = None ∨ m0 !! k = Some ADamaged else m0 !! k = m !! k.
(** any answer, or a crash; if the server survives, only the keys [W] are damaged *)
Definition unspecified (W : list string) (m : kspace) : verdict := Verdict False (λ _ m0, damages W m m0).
(** the server certainly crashes *)
Definition crashes : verdict := Verdict False (λ _ _, False).
Definition says (r : resp) (m : kspace) : verdict := Verdict True (λ r0 m0, r0 = Some r ∧ m0 = m).
Definition fails (e : err) (m : kspace) : verdict := says (RError (err_msg e)) m.
Definition too_few (m : kspace) : verdict := fails ErrArgsNotEnough m.
Definition mismatch (m : kspace) : verdict := fails ErrTypeMismatch m.
(** the value at the key is not what the command works on *)
Definition other (x : aval) (W : list string) (m : kspace) : verdict :=
  match x with ADamaged => unspecified W m | _ => mismatch m end.
(** a question whose answer is specified under a condition *)
Definition guarded (G : Prop) (v : verdict) (m : kspace) : verdict :=
  Verdict (G ∧ v_safe v) (λ r0 m0, m0 = m ∧ (G → v_does v r0 m0)).
(** a question that is certain to be answered if [F], with one of the answers [R] *)
Definition answered (F : Prop) (R : resp → Prop) (m : kspace) : verdict :=
  Verdict F (λ r0 m0, m0 = m ∧ (F → ∃ r, r0 = Some r ∧ R r)).
(** an array of the members of a finite collection, each once, in any order *)
Definition lists_all (P : string → Prop) (m : kspace) : verdict :=
  Verdict True (λ r0 m0, m0 = m ∧ ∃ l, r0 = Some (bulks l) ∧ NoDup l ∧ ∀ x, x ∈ l ↔ P x).

Section spec.
Context (ext : Ext).
Implicit Types (a : list string) (m : kspace) (k v : string).

(** *** keys *)
Definition type_text (x : aval) : string :=
  match x with AStr _ => "string" | AList _ _ => "list" | ASet _ _ => "setIfNotExists" | AZSet _ _ => "sortedSet" | ADamaged => "" end.
Definition type_names : list string := ["string"; "list"; "setIfNotExists"; "sortedSet"].
Definition s_exists a m := match a with
  | k :: _ => says (RInt (if m !! k then 1 else 0)) m | _ => too_few m end.
Definition s_del a m := match a with
  | k :: _ => says (RInt (if m !! k then 1 else 0)) (delete k m) | _ => too_few m end.
Definition s_type a m := match a with
  | k :: _ => match m !! k with
              | None => says (RStatus "none") m
              | Some ADamaged => Verdict True (λ r0 m0, m0 = m ∧ ∃ t, t ∈ type_names ∧ r0 = Some (RStatus t))
              | Some x => says (RStatus (type_text x)) m
              end
  | _ => too_few m end.
Definition s_keys a m := match a with
  | p :: _ => match glob_compile ext p with
              | None => crashes
              | Some g => lists_all (λ k, is_Some (m !! k) ∧ g k = true) m
              end
  | _ => too_few m end.
Definition s_ping a m := says (RStatus "PONG") m.
Definition s_command a m := says (RStatus "COMMAND") m.

(** *** strings *)
Definition s_set a m := match a with
  | k :: v :: _ => says (RStatus "OK") (<[k := AStr v]> m) | _ => too_few m end.
Fixpoint put_pairs a m := match a with k :: v :: r => put_pairs r (<[k := AStr v]> m) | _ => m end.
Definition s_mset a m := match a with
  | [_] => too_few m | _ => says (RStatus "OK") (put_pairs a m) end.
Definition s_get a m := match a with
  | k :: _ => match m !! k with
              | None => says RNil m
              | Some (AStr s) => says (RBulk s) m
              | Some x => other x [] m
              end
  | _ => too_few m end.
Definition str_or_nil m k : option resp := match m !! k with
  | None => Some RNil | Some (AStr s) => Some (RBulk s) | Some _ => None end.
Definition s_mget a m := match a with
  | [] => too_few m
  | _ => Verdict True (λ r0 m0, m0 = m ∧
           (Forall (λ k, m !! k ≠ Some ADamaged) a → r0 = RArr <$> mapM (str_or_nil m) a))
  end.
Definition add_to k n m := match m !! k with
  | None => says (RInt n) (<[k := AStr (itoa n)]> m)
  | Some (AStr s) => match parse_int s with
                     | None => fails ErrNotInteger m
                     | Some i => says (RInt (wrap64 (i + n))) (<[k := AStr (itoa (wrap64 (i + n)))]> m)
                     end
  | Some x => other x [k] m
  end.
Definition s_incr a m := match a with k :: _ => add_to k 1 m | _ => too_few m end.
Definition s_decr a m := match a with k :: _ => add_to k (-1) m | _ => too_few m end.
Definition s_incrby a m := match a with
  | k :: v :: _ => match parse_int v with None => fails ErrNotInteger m | Some n => add_to k n m end
  | _ => too_few m end.
Definition s_decrby a m := match a with
  | k :: v :: _ => match parse_int v with None => fails ErrNotInteger m | Some n => add_to k (wrap64 (- n)) m end
  | _ => too_few m end.
Definition s_append a m := match a with
  | k :: v :: _ => match m !! k with
                   | None => says (RInt (slen v)) (<[k := AStr v]> m)
                   | Some (AStr s) => says (RInt (slen (s +:+ v))) (<[k := AStr (s +:+ v)]> m)
                   | Some x => other x [k] m
                   end
  | _ => too_few m end.

(** *** lists *)
Definition zlen {A} (l : list A) : Z := Z.of_nat (length l).
Definition push_to (left : bool) k (vs xs : list string) m : verdict :=
  let ys := if left then reverse vs ++ xs else xs ++ vs in
  says (RInt (zlen ys)) (<[k := AList ys Sound]> m).
Definition s_push (left : bool) a m := match a with
  | k :: v :: vs =>
      match m !! k with
      | None => push_to left k (v :: vs) [] m
      | Some (AList xs w) =>
          match w, left with
          | TailLost, true | HeadLost, false => unspecified [k] m
          | _, _ => push_to left k (v :: vs) xs m
          end
      | Some x => other x [k] m
      end
  | _ => too_few m end.
Definition pop_arg (r : list string) : option Z := match r with
  | [] => Some 1
  | c :: _ => match parse_int c with Some n => if n <=? 0 then None else Some n | None => None end
  end.
(** an emptied list answers LPOP with nil and RPOP with the empty array *)
Definition s_pop (left : bool) a m := match a with
  | k :: r =>
      match pop_arg r with
      | None => fails ErrValueOutOfRange m
      | Some n =>
          match m !! k with
          | None => says RNil m
          | Some (AList [] w) => says (if left then RNil else RArr []) m
          | Some (AList xs w) =>
              let p := Z.to_nat n in
              if left then says (bulks (take p xs)) (<[k := AList (drop p xs) Sound]> m)
              else says (bulks (take p (reverse xs))) (<[k := AList (reverse (drop p (reverse xs))) Sound]> m)
          | Some x => other x [k] m
          end
      end
  | _ => too_few m end.
Definition s_llen a m := match a with
  | k :: _ => match m !! k with
              | None => says (RInt 0) m
              | Some (AList xs _) => says (RInt (zlen xs)) m
              | Some x => other x [] m
              end
  | _ => too_few m end.
Definition s_lrange a m := match a with
  | k :: s1 :: s2 :: _ =>
      match parse_int s1, parse_int s2 with
      | Some i, Some j => match m !! k with
                          | None => says (RArr []) m
                          | Some (AList xs _) => says (bulks (window i j xs)) m
                          | Some x => other x [] m
                          end
      | _, _ => fails ErrValueOutOfRange m
      end
  | _ => too_few m end.
Definition s_lrem a m := match a with
  | k :: s1 :: v :: _ =>
      match parse_int s1 with
      | None => fails ErrValueOutOfRange m
      | Some n =>
          match m !! k with
          | None => says (RInt 0) m
          | Some (AList [] _) => says (RInt 0) m
          | Some (AList xs _) =>
              let ys := lrem_result n v xs in
              let w := match ys with [] => if n <? 0 then TailLost else HeadLost | _ => Sound end in
              if n =? - two63 then says (RInt 0) m   (* nothing is removed, see C21 *)
              else says (RInt (zlen xs - zlen ys)) (<[k := AList ys w]> m)
          | Some x => other x [k] m
          end
      end
  | _ => too_few m end.
(** LINDEX k i looks for a list at the key named i (see C23) *)
Definition s_lindex a m := match a with
  | _ :: s1 :: _ =>
      match parse_int s1 with
      | None => fails ErrValueOutOfRange m
      | Some i => match m !! s1 with
                  | None => says RNil m
                  | Some (AList xs _) => says (match nth_elem i xs with Some v => RBulk v | None => RNil end) m
                  | Some x => other x [] m
                  end
      end
  | _ => too_few m end.
Definition s_lset a m := match a with
  | k :: s1 :: v :: _ =>
      match parse_int s1 with
      | None => fails ErrValueOutOfRange m
      | Some i => match m !! k with
                  | None => fails ErrNil m
                  | Some (AList xs w) =>
                      match set_elem i v xs with
                      | None => fails ErrNil m
                      | Some ys => says (RStatus "OK") (<[k := AList ys Sound]> m)
                      end
                  | Some x => other x [k] m
                  end
      end
  | _ => too_few m end.
Definition s_linsert a m := match a with
  | k :: w :: p :: v :: _ =>
      let go (ins : list string → option (list string)) :=
        match m !! k with
        | None => fails ErrNil m
        | Some (AList xs _) =>
            match ins xs with
            | None => fails ErrNil m
            | Some ys => says (RInt (zlen ys)) (<[k := AList ys Sound]> m)
            end
        | Some x => other x [k] m
        end in
      if String.eqb (to_lower w) "after" then go (insert_after p v)
      else if String.eqb (to_lower w) "before" then go (insert_before p v)
      else fails ErrArgsNotEnough m
  | _ => too_few m end.

(** *** sets *)
Definition counted (X : gset string) (drift : nat) : Z := Z.of_nat (size X) + Z.of_nat drift.
Definition add_members k (vs : list string) m : verdict :=
  let go X dr := says (RInt (Z.of_nat (size ((list_to_set vs : gset string) ∖ X)))) (<[k := ASet (X ∪ list_to_set vs) dr]> m) in
  match m !! k with
  | None => go ∅ 0%nat
  | Some (ASet X dr) => go X dr
  | Some x => other x [k] m
  end.
Definition s_sadd a m := match a with k :: v :: vs => add_members k (v :: vs) m | _ => too_few m end.
Definition s_scard a m := match a with
  | k :: _ => match m !! k with
              | None => says (RInt 0) m
              | Some (ASet X dr) => says (RInt (counted X dr)) m
              | Some x => other x [] m
              end
  | _ => too_few m end.
Definition s_srem a m := match a with
  | k :: v :: vs => match m !! k with
                    | None => says (RInt 0) m
                    | Some (ASet X dr) =>
                        let Y : gset string := list_to_set (v :: vs) in
                        says (RInt (Z.of_nat (size (X ∩ Y)))) (<[k := ASet (X ∖ Y) dr]> m)
                    | Some x => other x [k] m
                    end
  | _ => too_few m end.
Definition s_sismember a m := match a with
  | k :: v :: _ => match m !! k with
                   | None => says (RInt 0) m
                   | Some (ASet X _) => says (RInt (if bool_decide (v ∈ X) then 1 else 0)) m
                   | Some x => other x [] m
                   end
  | _ => too_few m end.
(** SMEMBERS of a missing key is an error *)
Definition s_smembers a m := match a with
  | k :: _ => match m !! k with
              | None => fails ErrNil m
              | Some (ASet X dr) => if counted X dr =? 0 then fails ErrNil m else lists_all (λ x, x ∈ X) m
              | Some x => other x [] m
              end
  | _ => too_few m end.
(** SMOVE of a missing member is an error; with a target of another type the member is lost (see C28) *)
Definition s_smove a m := match a with
  | s :: t :: v :: _ =>
      match m !! s with
      | None => fails ErrNil m
      | Some (ASet X dr) =>
          if bool_decide (v ∈ X) then add_members t [v] (<[s := ASet (X ∖ {[v]}) (S dr)]> m)
          else fails ErrNil m
      | Some x => other x [s; t] m
      end
  | _ => too_few m end.
(** SPOP without a count pops nothing (see C28) *)
Definition s_spop a m := match a with
  | k :: r =>
      match (match r with [] => Some 0 | c :: _ => parse_int c end) with
      | None => fails ErrNotInteger m
      | Some n =>
          match m !! k with
          | None => says (RArr []) m
          | Some (ASet X dr) =>
              Verdict True (λ r0 m0, ∃ l, r0 = Some (bulks l) ∧ NoDup l ∧ (∀ x, x ∈ l → x ∈ X) ∧
                length l = Nat.min (Z.to_nat n) (size X) ∧
                m0 = <[k := ASet (X ∖ list_to_set l) (dr + length l)]> m)
          | Some x => other x [k] m
          end
      end
  | _ => too_few m end.

Inductive set_op := Diff | Inter | Union.
Definition apply_op (o : set_op) (X Y : gset string) : gset string :=
  match o with Diff => X ∖ Y | Inter => X ∩ Y | Union => X ∪ Y end.
(** the sets at the keys, in order; a missing or empty one, or one of another type, is an error;
    None: a damaged key comes first *)
Fixpoint get_sets (ks : list string) m : option (err + list (gset string)) :=
  match ks with
  | [] => Some (inr [])
  | k :: r =>
      match m !! k with
      | None => Some (inl ErrNil)
      | Some (ASet X dr) =>
          if counted X dr =? 0 then Some (inl ErrNil)
          else match get_sets r m with Some (inr l) => Some (inr (X :: l)) | x => x end
      | Some ADamaged => None
      | Some _ => Some (inl ErrTypeMismatch)
      end
  end.
Definition combine_sets (o : set_op) (l : list (gset string)) : gset string :=
  match l with [] => ∅ | X :: r => foldl (apply_op o) X r end.
(** one key alone, a missing key or an empty set give the empty array (see C26) *)
Definition s_setop (o : set_op) a m := match a with
  | [] => too_few m
  | [_] => says (RArr []) m
  | _ => match get_sets a m with
         | None => unspecified [] m
         | Some (inl ErrNil) => says (RArr []) m
         | Some (inl e) => fails e m
         | Some (inr l) => lists_all (λ x, x ∈ combine_sets o l) m
         end
  end.
(** a single source damages both keys: the destination becomes the same set object (see C27) *)
Definition s_setop_store (o : set_op) a m := match a with
  | k :: k1 :: r =>
      match get_sets (k1 :: r) m with
      | None => unspecified (match r with [] => [k; k1] | _ => [k] end) m
      | Some (inl e) => fails e m
      | Some (inr l) =>
          match r with
          | [] => unspecified [k; k1] m
          | _ => says (RInt (Z.of_nat (size (combine_sets o l)))) (<[k := ASet (combine_sets o l) 0]> m)
          end
      end
  | _ => too_few m end.

(** *** sorted sets *)
Record zopts := ZO { o_incr : bool; o_nx : bool; o_xx : bool }.
(** the flags and (score, member) pairs of ZADD; a last unpaired argument is ignored; None: bad score *)
Fixpoint zadd_parse (l : list string) (fl : zopts) : option (zopts * list zkey) :=
  match l with
  | x :: ((y :: r) as t) =>
      if String.eqb (to_lower x) "xx" then zadd_parse t (ZO (o_incr fl) (o_nx fl) true)
      else if String.eqb (to_lower x) "nx" then zadd_parse t (ZO (o_incr fl) true (o_xx fl))
      else if String.eqb (to_lower x) "incr" then zadd_parse t (ZO true (o_nx fl) (o_xx fl))
      else match parse_float ext x with
           | None => None
           | Some f => match zadd_parse r fl with Some (fl', ms) => Some (fl', (f, y) :: ms) | None => None end
           end
  | _ => Some (fl, [])
  end.
(** one pair: the new sequence and, if the member was added or changed, its new score; None: unspecified
    (the score is not a number); nothing happens if the member is a ghost *)
Definition zadd_one (fl : zopts) (k : zkey) (es : list zkey) (gh : gmap string float) : option (list zkey * option float) :=
  if gh !! k.2 then Some (es, None)
  else match zfind k.2 es with
       | None => if o_xx fl then Some (es, None)
                 else if is_nan k.1 then None else Some (zplace k es, Some k.1)
       | Some old =>
           if o_nx fl then Some (es, None)
           else let f := if o_incr fl then fadd k.1 old else k.1 in
                if is_nan f then None
                else if feq f old then Some (es, None) else Some (zplace (f, k.2) (zdrop k.2 es), Some f)
       end.
Fixpoint zadd_many (fl : zopts) (ks : list zkey) (es : list zkey) (gh : gmap string float) : option (list zkey * Z) :=
  match ks with
  | [] => Some (es, 0)
  | k :: r =>
      match zadd_one fl k es gh with
      | None => None
      | Some (es', o) =>
          match zadd_many fl r es' gh with
          | None => None
          | Some (es'', n) => Some (es'', (if o then 1 else 0) + n)
          end
      end
  end.
(** the sorted set at a key, an absent one counting as empty *)
Definition zset_at m k : option (list zkey * gmap string float) :=
  match m !! k with None => Some ([], ∅) | Some (AZSet es gh) => Some (es, gh) | Some _ => None end.
Definition not_zset k (W : list string) m : verdict :=
  match m !! k with Some x => other x W m | None => mismatch m end.
(** ZADD creates the key even if XX makes it add nothing; the answer counts changed members too *)
Definition s_zadd a m := match a with
  | k :: ((_ :: _ :: _) as r) =>
      match zadd_parse r (ZO false false false) with
      | None => fails ErrValueOutOfRange m
      | Some (fl, ks) =>
          match zset_at m k with
          | None => not_zset k [k] m
          | Some (es, gh) =>
              match zadd_many fl ks es gh with
              | None => unspecified [k] m
              | Some (es', n) => says (RInt n) (<[k := AZSet es' gh]> m)
              end
          end
      end
  | _ => too_few m end.
(** an increment that leaves the score as it is answers the integer 0 *)
Definition s_zincr a m := match a with
  | k :: s :: v :: _ =>
      match parse_float ext s with
      | None => fails ErrValueOutOfRange m
      | Some f =>
          match zset_at m k with
          | None => not_zset k [k] m
          | Some (es, gh) =>
              match zadd_one (ZO true false false) (f, v) es gh with
              | None => unspecified [k] m
              | Some (es', o) =>
                  says (match o with Some g => RBulk (format_float ext g) | None => RInt 0 end)
                       (<[k := AZSet es' gh]> m)
              end
          end
      end
  | _ => too_few m end.
(** the score of a ghost is still answered while the set is not empty *)
Definition s_zscore a m := match a with
  | k :: v :: _ =>
      match zset_at m k with
      | None => not_zset k [] m
      | Some ([], _) => says RNil m
      | Some (es, gh) =>
          says (match zfind v es with
                | Some f => RBulk (format_float ext f)
                | None => match gh !! v with Some f => RBulk (format_float ext f) | None => RNil end
                end) m
      end
  | _ => too_few m end.
(** memory is finite *)
Definition fits (es : list zkey) : Prop := zlen es < two63 - 2.
Definition zindex (v : string) (es : list zkey) : option nat := fst <$> list_find (λ k : zkey, k.2 = v) es.
(** ZRANK counts from 1; for a ghost, a member popped before, it answers how many members come before its old place *)
Definition s_zrank a m := match a with
  | k :: v :: _ =>
      match zset_at m k with
      | None => not_zset k [] m
      | Some ([], _) => says RNil m
      | Some (es, gh) =>
          match gh !! v with
          | Some f => guarded (fits es) (says (RInt (zlen (filter (λ e, zlt e (f, v) = true) es))) m) m
          | None => guarded (fits es) (says (match zindex v es with Some n => RInt (Z.of_nat n + 1) | None => RNil end) m) m
          end
      end
  | _ => too_few m end.
(** removing members one by one: a ghost counts as removed; a member beyond the two lowest is unspecified *)
Fixpoint zrem_many (vs : list string) (es : list zkey) (gh : gmap string float) : option (list zkey * gmap string float * Z) :=
  match vs with
  | [] => Some (es, gh, 0)
  | v :: r =>
      let next es gh (n : Z) := match zrem_many r es gh with Some (x, y, z) => Some (x, y, n + z) | None => None end in
      if gh !! v then next es (delete v gh) 1
      else match zindex v es with
           | None => next es gh 0
           | Some n => if (n <=? 1)%nat then next (zdrop v es) gh 1 else None
           end
  end.
Definition s_zrem a m := match a with
  | k :: v :: vs =>
      match zset_at m k with
      | None => not_zset k [k] m
      | Some ([], _) => says (RInt 0) m
      | Some (es, gh) =>
          match zrem_many (v :: vs) es gh with
          | None => unspecified [k] m
          | Some (es', gh', n) => says (RInt n) (<[k := AZSet es' gh']> m)
          end
      end
  | _ => too_few m end.
Definition s_zcard a m := match a with
  | k :: _ => match zset_at m k with
              | None => not_zset k [] m
              | Some (es, _) => says (RInt (zlen es)) m
              end
  | _ => too_few m end.
(** a score bound: -inf, +inf, number, or (number; None: not a number *)
Definition bound_of (s : string) : option (float * bool) :=
  let s := to_lower s in
  if String.eqb s "-inf" then Some (ninf, false)
  else if String.eqb s "+inf" then Some (pinf, false)
  else let (t, open) := trim_paren s in
       match parse_float ext t with Some f => Some (f, open) | None => None end.
(** what ZCOUNT answers and which positions ZRANGEBYSCORE lists (SpecZSet.v; on which intervals that is right: C34) *)
Definition count_answer (mn : float) (mo : bool) (mx : float) (mxo : bool) (es : list zkey) (n : Z) : Prop :=
  if is_ninf mn && is_pinf mx then n = zlen es
  else ∃ lo hi, lower_rank mn mo es lo ∧ upper_rank mx mxo es hi ∧ n = rank_count lo hi (zlen es).
Definition select_answer (mn : float) (mo : bool) (mx : float) (mxo : bool) (es ys : list zkey) : Prop :=
  if is_ninf mn && is_pinf mx then ys = es
  else ∃ lo hi, lower_rank mn mo es lo ∧ upper_rank mx mxo es hi ∧
    ys = window (rank_window lo hi (zlen es)).1 (rank_window lo hi (zlen es)).2 es.
Definition s_zcount a m := match a with
  | k :: s1 :: s2 :: _ =>
      match zset_at m k with
      | None => not_zset k [] m
      | Some ([], _) => says (RInt 0) m
      | Some (es, _) =>
          match bound_of (to_lower s1), bound_of (to_lower s2) with
          | Some (mn, mo), Some (mx, mxo) =>
              answered (fits es) (λ r, ∃ n, count_answer mn mo mx mxo es n ∧ r = RInt n) m
          | _, _ => fails ErrNotFloat m
          end
      end
  | _ => too_few m end.
Definition shown (ws : bool) (l : list zkey) : resp := bulks (concat (show_ent ext ws <$> l)).
Definition mentions (name : string) (l : list string) : bool := existsb (λ s, String.eqb (to_lower s) name) l.
Definition range_spec (byscore ws : bool) k (s1 s2 : string) m : verdict :=
  match zset_at m k with
  | None => not_zset k [] m
  | Some ([], _) => says RNil m
  | Some (es, _) =>
      if byscore then
        match bound_of s1, bound_of s2 with
        | Some (mn, mo), Some (mx, mxo) =>
            answered (fits es) (λ r, ∃ ys, select_answer mn mo mx mxo es ys ∧ r = shown ws ys) m
        | _, _ => fails ErrNotFloat m
        end
      else
        match parse_int s1, parse_int s2 with
        | Some i, Some j => guarded (fits es) (says (shown ws (window i j es)) m) m
        | _, _ => fails ErrNotInteger m
        end
  end.
Definition s_zrange a m := match a with
  | k :: s1 :: s2 :: r =>
      range_spec (mentions "byscore" (s2 :: r)) (mentions "withscores" (s2 :: r)) k s1 s2 m
  | _ => too_few m end.
(** WITHSCORES is ignored *)
Definition s_zrangebyscore a m := match a with
  | k :: s1 :: s2 :: r => range_spec true false k s1 s2 m | _ => too_few m end.
(** ZREVRANGE takes the ascending window and reverses it (see C35) *)
Definition s_zrevrange a m := match a with
  | k :: s1 :: s2 :: r =>
      match zset_at m k with
      | None => not_zset k [] m
      | Some ([], _) => says RNil m
      | Some (es, _) =>
          match parse_int s1, parse_int s2 with
          | Some i, Some j =>
              guarded (fits es) (says (shown (mentions "withscores" (s2 :: r)) (reverse (window i j es))) m) m
          | _, _ => fails ErrNotInteger m
          end
      end
  | _ => too_few m end.
(** popped members become ghosts; a key of another type answers the empty array; popping from the top is
    specified only for at most two members and not more than there are *)
Definition zpop_ok (max : bool) (p : nat) (es : list zkey) : bool :=
  (zlen es <? two63 - 2) &&
  (if max then (p =? 0)%nat || ((p <=? length es)%nat && (length es <=? 2)%nat) else true).
Definition s_zpop (max : bool) a m := match a with
  | k :: r =>
      match (match r with [] => Some 1 | c :: _ => parse_int c end) with
      | None => fails ErrNotInteger m
      | Some n =>
          match zset_at m k with
          | None => match m !! k with Some ADamaged => unspecified [k] m | _ => says (RArr []) m end
          | Some ([], _) => says (RArr []) m
          | Some (es, gh) =>
              let p := Z.to_nat n in
              let out := take p (if max then reverse es else es) in
              let rest := if max then reverse (drop p (reverse es)) else drop p es in
              if zpop_ok max p es
              then says (shown true out) (<[k := AZSet rest (foldl (λ g e, <[e.2 := e.1]> g) gh out)]> m)
              else unspecified [k] m
          end
      end
  | _ => too_few m end.

(** *** hash tables: nothing is ever stored (see C37) *)
Definition absent_or (r : resp) k m : verdict := match m !! k with None => says r m | Some _ => mismatch m end.
Definition s_hdel a m := match a with k :: _ :: _ => absent_or (RInt 0) k m | _ => too_few m end.
Definition s_hget a m := match a with k :: _ :: _ => absent_or RNil k m | _ => too_few m end.
Definition s_hgetall a m := match a with k :: _ => says RNil m | _ => too_few m end.
Definition s_hkeys a m := match a with k :: _ => absent_or (RArr []) k m | _ => too_few m end.
Definition s_hlen a m := match a with k :: _ => absent_or (RInt 0) k m | _ => too_few m end.
Definition s_hmget a m := match a with
  | k :: f :: fs => absent_or (RArr (replicate (S (length fs)) RNil)) k m | _ => too_few m end.
Definition s_hset a m := match a with
  | k :: ((_ :: _ :: _) as r) => absent_or (RInt (Z.of_nat (length r / 2))) k m | _ => too_few m end.
Definition s_hmset a m := match a with k :: _ :: _ :: _ => absent_or (RStatus "OK") k m | _ => too_few m end.
Definition s_hsetnx a m := match a with k :: _ :: _ :: _ => absent_or (RInt 1) k m | _ => too_few m end.
Definition s_hincrby a m := match a with
  | k :: _ :: s :: _ => match parse_int s with None => fails ErrNotInteger m | Some i => absent_or (RInt i) k m end
  | _ => too_few m end.
Definition s_hincrbyfloat a m := match a with
  | k :: _ :: s :: _ => match parse_float ext s with
                        | None => fails ErrNotInteger m
                        | Some f => absent_or (RBulk (format_float ext f)) k m
                        end
  | _ => too_few m end.

Definition spec_table : list (string * (list string → kspace → verdict)) :=
  [ ("hdel", s_hdel); ("hexists", s_hdel); ("hget", s_hget); ("hgetall", s_hgetall); ("hincrby", s_hincrby);
    ("hincrbyfloat", s_hincrbyfloat); ("hkeys", s_hkeys); ("hlen", s_hlen); ("hmget", s_hmget);
    ("hmset", s_hmset); ("hset", s_hset); ("hsetnx", s_hsetnx); ("hvals", s_hkeys);
    ("keys", s_keys); ("exists", s_exists); ("del", s_del); ("type", s_type); ("ping", s_ping);
    ("command", s_command);
    ("lpush", s_push true); ("lpop", s_pop true); ("rpush", s_push false); ("rpop", s_pop false);
    ("llen", s_llen); ("lrange", s_lrange); ("lrem", s_lrem); ("lindex", s_lindex); ("lset", s_lset);
    ("linsert", s_linsert);
    ("sadd", s_sadd); ("scard", s_scard); ("sdiff", s_setop Diff); ("sdiffstore", s_setop_store Diff);
    ("sinter", s_setop Inter); ("sinterstore", s_setop_store Inter); ("sunion", s_setop Union);
    ("sunionstore", s_setop_store Union); ("sismember", s_sismember); ("smembers", s_smembers);
    ("smove", s_smove); ("srem", s_srem); ("spop", s_spop);
    ("zadd", s_zadd); ("zscore", s_zscore); ("zrank", s_zrank); ("zrem", s_zrem); ("zcard", s_zcard);
    ("zcount", s_zcount); ("zincr", s_zincr); ("zrange", s_zrange); ("zrangebyscore", s_zrangebyscore);
    ("zrevrange", s_zrevrange); ("zpopmin", s_zpop false); ("zpopmax", s_zpop true);
    ("set", s_set); ("mset", s_mset); ("get", s_get); ("mget", s_mget); ("incr", s_incr);
    ("incrby", s_incrby); ("decr", s_decr); ("decrby", s_decrby); ("append", s_append) ].

Fixpoint find_spec (name : string) (t : list (string * (list string → kspace → verdict)))
    : option (list string → kspace → verdict) :=
  match t with
  | [] => None
  | (n, f) :: r => if String.eqb n name then Some f else find_spec name r
  end.

(** any request: an empty one is not answered, an unknown command is an error *)
Definition spec (req : list string) m : verdict :=
  match req with
  | [] => Verdict True (λ r0 m0, r0 = None ∧ m0 = m)
  | name :: a => match find_spec (to_lower name) spec_table with
                 | None => fails ErrUnknownCommand m
                 | Some f => f a m
                 end
  end.

(** ** Histories *)

(** ZADD and ZINCR are the commands that draw random numbers. *)
Definition drawing (req : list string) : Prop :=
  match req with
  | name :: _ => to_lower name = "zadd"%string ∨ to_lower name = "zincr"%string
  | [] => False
  end.
(** What may happen to the keyspace when the requests [h] get the replies [rs].  With [unlucky] a command that
    draws random numbers may also damage the key it writes. *)
Inductive behaves (unlucky : bool) : kspace → list (list string) → list (option resp) → kspace → Prop :=
| bh_nil m : behaves unlucky m [] [] m
| bh_cons m req r m1 h rs m2 :
    (v_does (spec req m) r m1 ∨ unlucky = true ∧ drawing req ∧ damages (writes req) m m1) →
    behaves unlucky m1 h rs m2 → behaves unlucky m (req :: h) (r :: rs) m2.

(** From the requests and the replies it follows that key [k] now holds [x] (None: it is absent). *)
Definition known (unlucky : bool) (h : list (list string)) (rs : list (option resp)) (k : string) (x : option aval) : Prop :=
  ∀ m, behaves unlucky ∅ h rs m → m !! k = x.

(** every request of the history is certain to be executed, whatever the earlier answers were *)
Fixpoint specified (m : kspace) (h : list (list string)) : Prop :=
  match h with
  | [] => True
  | req :: h' => v_safe (spec req m) ∧ ∀ r m', v_does (spec req m) r m' → specified m' h'
  end.
End spec.
