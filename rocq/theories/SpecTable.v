(** What a client may expect of a sorted-set key in every state that can be reached, also when the ordered index of
    the set is damaged (C32, C33, C50): a table of scores and a counter.  Nothing here refers to the model. *)
From Verif Require Import GoBase Float64 Float64Proofs SpecResp SpecZSet SpecCmd SpecServer SpecKey.

(** the scores, and the counter that ZCARD tells *)
Notation table := (gmap string float * Z)%type.

(** One (score, member) pair of ZADD, and whether it is counted in the answer.  A member that has a score gets the
    new one, or nothing happens at all ([pair_stuck]: the index has lost the member). *)
Inductive put_pair (o : zopts) (f : float) (v : string) : table → table → bool → Prop :=
| pair_new T n : T !! v = None → o_xx o = false → put_pair o f v (T, n) (<[v := f]> T, n + 1) true
| pair_xx T n : T !! v = None → o_xx o = true → put_pair o f v (T, n) (T, n) false
| pair_nx T n old : T !! v = Some old → o_nx o = true → put_pair o f v (T, n) (T, n) false
| pair_same T n old : T !! v = Some old → o_nx o = false → feq (if o_incr o then fadd f old else f) old = true →
    put_pair o f v (T, n) (T, n) false
| pair_changed T n old : T !! v = Some old → o_nx o = false → feq (if o_incr o then fadd f old else f) old = false →
    put_pair o f v (T, n) (<[v := if o_incr o then fadd f old else f]> T, n) true
| pair_stuck T n old : T !! v = Some old → o_nx o = false → feq (if o_incr o then fadd f old else f) old = false →
    put_pair o f v (T, n) (T, n) false.
(** a sequence of pairs, and how many are counted *)
Inductive put_pairs (o : zopts) : list (float * string) → table → table → Z → Prop :=
| puts_nil t : put_pairs o [] t t 0
| puts_cons f v l t1 t2 t3 (b : bool) m : put_pair o f v t1 t2 b → put_pairs o l t2 t3 m →
    put_pairs o ((f, v) :: l) t1 t3 ((if b then 1 else 0) + m).

Definition scores (s : option table) : gmap string float := match s with Some (T, _) => T | None => ∅ end.
Definition counter (s : option table) : Z := match s with Some (_, n) => n | None => 0 end.
Definition as_table (s : option table) : table := (scores s, counter s).
(** the scores without those of the given members *)
Definition forget (vs : list string) (T : gmap string float) : gmap string float := filter (λ p, p.1 ∉ vs) T.

Section table.
Context (ext : Ext).
(** any answer, no effect *)
Definition looks : list string → option table → option (resp → option table → Prop) := λ _ s, Some (λ _ s', s' = s).
(** any answer; no score changes, and the counter does not grow *)
Definition pops : list string → option table → option (resp → option table → Prop) :=
  λ _ s, Some (λ _ s', match s with
                       | None => s' = None
                       | Some (T, n) => ∃ n', s' = Some (T, n') ∧ n' <= n end).
Definition table_commands : ktable (option table) :=
  [ ("zadd", λ a s, match a with
                    | _ :: _ :: _ =>
                        match zadd_parse ext a (ZO false false false) with
                        | None => exactly (RError (err_msg ErrValueOutOfRange)) s
                        | Some (o, l) => Some (λ r s', ∃ t m, put_pairs o l (as_table s) t m ∧ r = RInt m ∧ s' = Some t)
                        end
                    | _ => None end);
    ("zincr", λ a s, match a with
                     | x :: v :: _ =>
                         match parse_float ext x with
                         | None => exactly (RError (err_msg ErrValueOutOfRange)) s
                         | Some f => Some (λ r s', ∃ t b, put_pair (ZO true false false) f v (as_table s) t b ∧ s' = Some t ∧
                                      if b : bool then ∃ g, t.1 !! v = Some g ∧ r = RBulk (format_float ext g) else r = RInt 0)
                         end
                     | _ => None end);
    ("zrem", λ a s, match a with
                    | [] => None
                    | vs => Some (λ r s', if counter s =? 0 then r = RInt 0 ∧ s' = s
                                          else ∃ m n, m = Z.of_nat (size (scores s)) - Z.of_nat (size (forget vs (scores s))) ∧
                                                 counter s - m <= n <= counter s ∧ r = RInt m ∧ s' = Some (forget vs (scores s), n))
                    end);
    ("zscore", λ a s, match a with
                      | v :: _ => exactly (if counter s =? 0 then RNil
                                           else match scores s !! v with Some f => RBulk (format_float ext f) | None => RNil end) s
                      | _ => None end);
    ("zrank", λ a s, match a with
                     | v :: _ => Some (λ r s', s' = s ∧
                                   if (counter s =? 0) || bool_decide (scores s !! v = None) then r = RNil else ∃ z, r = RInt z)
                     | _ => None end);
    ("zcard", λ a s, exactly (RInt (counter s)) s);
    ("zcount", looks); ("zrange", looks); ("zrangebyscore", looks); ("zrevrange", looks);
    ("zpopmin", pops); ("zpopmax", pops) ].
Definition score_step := table_step (key_commands table "sortedSet" ++ table_commands).
End table.
