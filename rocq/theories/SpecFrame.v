(** The abstract server changes no key but those a request names for writing. *)
From Verif Require Import GoBase GoBaseProofs Float64 SpecResp SpecList SpecZSet SpecCmd SpecServer.

Lemma damages_other W m m' k : damages W m m' → k ∉ W → m' !! k = m !! k.
Proof. intros D Hk. specialize (D k). by rewrite bool_decide_eq_false_2 in D. Qed.

(** a verdict that changes nothing outside [W] *)
Definition keeps (W : list string) (m : kspace) (v : verdict) : Prop :=
  ∀ r m' k, v_does v r m' → k ∉ W → m' !! k = m !! k.

Lemma k_says W r m : keeps W m (says r m).
Proof. by intros r0 m' k [_ ->]. Qed.
Lemma k_fails W e m : keeps W m (fails e m).
Proof. apply k_says. Qed.
Lemma k_few W m : keeps W m (too_few m).
Proof. apply k_says. Qed.
Lemma k_mismatch W m : keeps W m (mismatch m).
Proof. apply k_says. Qed.
Lemma k_put W r m k x : k ∈ W → keeps W m (says r (<[k := x]> m)).
Proof. intros Hk r0 m' k' [_ ->] H. apply lookup_insert_ne. by intros ->. Qed.
Lemma k_del W r m k : k ∈ W → keeps W m (says r (delete k m)).
Proof. intros Hk r0 m' k' [_ ->] H. apply lookup_delete_ne. by intros ->. Qed.
Lemma k_unspec W W' m : W' ⊆ W → keeps W m (unspecified W' m).
Proof. intros H r0 m' k D Hk. eapply damages_other; [exact D|]. set_solver. Qed.
Lemma k_other W W' x m : W' ⊆ W → keeps W m (other x W' m).
Proof. intros H. destruct x; cbn [other]; first [apply k_mismatch|by apply k_unspec]. Qed.
Lemma k_not_zset W W' k m : W' ⊆ W → keeps W m (not_zset k W' m).
Proof. intros H. unfold not_zset. destruct (m !! k); [by apply k_other|apply k_mismatch]. Qed.
Lemma k_answered W F R m : keeps W m (answered F R m).
Proof. by intros r m' k [-> _]. Qed.
Lemma k_guarded W G v m : keeps W m (guarded G v m).
Proof. by intros r m' k [-> _]. Qed.
Lemma k_lists W P m : keeps W m (lists_all P m).
Proof. by intros r m' k [-> _]. Qed.
Lemma k_crash W m : keeps W m crashes.
Proof. by intros r m' k []. Qed.
Lemma k_absent_or W r k m : keeps W m (absent_or r k m).
Proof. unfold absent_or. destruct (m !! k); apply k_says. Qed.

Ltac insub := let x := fresh in intros x; rewrite ?elem_of_cons, ?elem_of_nil; simpl; rewrite ?elem_of_cons; tauto.
Ltac keep1 :=
  first [ apply k_says | apply k_fails | apply k_few | apply k_mismatch | apply k_guarded | apply k_answered | apply k_lists | apply k_crash
        | apply k_absent_or
        | apply k_put; simpl; rewrite ?elem_of_cons; tauto | apply k_del; simpl; rewrite ?elem_of_cons; tauto
        | apply k_unspec; insub | apply k_other; insub | apply k_not_zset; insub ].
Ltac keep := repeat (first [ keep1 | case_match | progress cbv zeta ]).

Section frame.
Context (ext : Ext).
Lemma keeps_put_pairs a : ∀ m k, k ∉ evens a → put_pairs a m !! k = m !! k.
Proof.
  induction a as [a IH] using (induction_ltof1 _ (@length string)); unfold ltof in IH.
  destruct a as [|x [|y a]]; try done. intros m k Hk. cbn [put_pairs evens] in *.
  rewrite IH by (simpl; try lia; set_solver). apply lookup_insert_ne. set_solver.
Qed.
Lemma k_add_members W k vs m : k ∈ W → keeps W m (add_members k vs m).
Proof. intros Hk. unfold add_members. repeat case_match; try by apply k_put. all: apply k_other; set_solver. Qed.

Lemma keeps_mono W W' m v : keeps W m v → W ⊆ W' → keeps W' m v.
Proof. intros H Hs r m' k V Hk. eapply H; [done|]. set_solver. Qed.
Lemma touched_one name a : to_lower name = name → bool_decide (name ∈ read_only) = false →
  String.eqb name "mset" = false → String.eqb name "smove" = false → take 1 a ⊆ touched (name :: a).
Proof. intros Hl H1 H2 H3. unfold touched, writes. rewrite Hl, H1, H2, H3. set_solver. Qed.

Lemma keeps_readers m a o :
  keeps [] m (s_get a m) ∧ keeps [] m (s_mget a m) ∧ keeps [] m (s_keys ext a m) ∧ keeps [] m (s_exists a m) ∧
  keeps [] m (s_type a m) ∧ keeps [] m (s_llen a m) ∧ keeps [] m (s_lrange a m) ∧ keeps [] m (s_lindex a m) ∧
  keeps [] m (s_scard a m) ∧ keeps [] m (s_sismember a m) ∧ keeps [] m (s_smembers a m) ∧ keeps [] m (s_setop o a m) ∧
  keeps [] m (s_zscore ext a m) ∧ keeps [] m (s_zrank a m) ∧ keeps [] m (s_zcard a m) ∧ keeps [] m (s_zcount ext a m) ∧
  keeps [] m (s_zrange ext a m) ∧ keeps [] m (s_zrangebyscore ext a m) ∧ keeps [] m (s_zrevrange ext a m) ∧
  (keeps [] m (s_hdel a m) ∧ keeps [] m (s_hget a m) ∧ keeps [] m (s_hgetall a m) ∧ keeps [] m (s_hkeys a m) ∧
   keeps [] m (s_hlen a m) ∧ keeps [] m (s_hmget a m) ∧ keeps [] m (s_hset a m) ∧ keeps [] m (s_hmset a m) ∧ keeps [] m (s_hsetnx a m) ∧
   keeps [] m (s_hincrby a m) ∧ keeps [] m (s_hincrbyfloat ext a m)).
Proof.
  repeat split.
  all: unfold s_get, s_mget, s_keys, s_exists, s_type, s_llen, s_lrange, s_lindex, s_scard, s_sismember, s_smembers, s_setop,
    s_zscore, s_zrank, s_zcard, s_zcount, s_zrange, s_zrangebyscore, s_zrevrange, range_spec,
    s_hdel, s_hget, s_hgetall, s_hkeys, s_hlen, s_hmget, s_hset, s_hmset, s_hsetnx, s_hincrby, s_hincrbyfloat.
  all: keep.
  all: by intros ??? [-> _].
Qed.
Lemma keeps_writers m a l max :
  keeps (take 1 a) m (s_del a m) ∧ keeps (take 1 a) m (s_set a m) ∧ keeps (take 1 a) m (s_incr a m) ∧ keeps (take 1 a) m (s_decr a m) ∧
  keeps (take 1 a) m (s_incrby a m) ∧ keeps (take 1 a) m (s_decrby a m) ∧ keeps (take 1 a) m (s_append a m) ∧
  keeps (take 1 a) m (s_push l a m) ∧ keeps (take 1 a) m (s_pop l a m) ∧ keeps (take 1 a) m (s_lrem a m) ∧
  keeps (take 1 a) m (s_lset a m) ∧ keeps (take 1 a) m (s_linsert a m) ∧ keeps (take 1 a) m (s_sadd a m) ∧
  keeps (take 1 a) m (s_srem a m) ∧ keeps (take 1 a) m (s_spop a m) ∧
  keeps (take 1 a) m (s_zadd ext a m) ∧ keeps (take 1 a) m (s_zincr ext a m) ∧ keeps (take 1 a) m (s_zrem a m) ∧
  keeps (take 1 a) m (s_zpop ext max a m).
Proof.
  repeat split.
  all: unfold s_del, s_set, s_incr, s_decr, s_incrby, s_decrby, s_append, add_to, s_push, push_to, s_pop, s_lrem, s_lset, s_linsert,
    s_sadd, s_srem, s_spop, s_zadd, s_zincr, s_zrem, s_zpop.
  all: destruct a as [|x a]; [try keep1; try (keep; fail)|].
  all: cbn [take].
  all: keep.
  all: try (apply k_add_members; by left).
  all: intros r0 m' k' V Hk; simpl in V.
  all: destruct V as (? & _ & _ & _ & _ & ->); apply lookup_insert_ne; set_solver.
Qed.

Lemma keeps_store o name a m :
  (to_lower name = "sdiffstore" ∨ to_lower name = "sinterstore" ∨ to_lower name = "sunionstore")%string →
  keeps (touched (name :: a)) m (s_setop_store o a m).
Proof.
  intros Hn. destruct a as [|k [|k1 [|k2 r]]]; [apply k_few..| |].
  - assert ([k; k1] ⊆ touched [name; k; k1]) as Hs.
    { unfold touched, one_source_store, writes. destruct Hn as [-> | [-> | ->]]; set_solver. }
    unfold s_setop_store. destruct (get_sets [k1] m) as [[e|l]|]; [apply k_says|by apply k_unspec..].
  - assert (k ∈ touched (name :: k :: k1 :: k2 :: r)) as Hs.
    { unfold touched, one_source_store, writes. destruct Hn as [-> | [-> | ->]]; set_solver. }
    unfold s_setop_store. destruct (get_sets (k1 :: k2 :: r) m) as [[e|l]|]; [apply k_says|by apply k_put|].
    apply k_unspec. set_solver.
Qed.
Lemma keeps_smove a m : keeps (take 2 a) m (s_smove a m).
Proof.
  destruct a as [|s [|t [|v a]]]; [apply k_few..|]. unfold s_smove. cbn [take].
  destruct (m !! s) as [x|]; [|apply k_says]. destruct x as [|  |X dr| |]; try (apply k_other; set_solver).
  case_bool_decide; [|apply k_says]. intros r m' k V Hk. rewrite (k_add_members [s; t] t [v] _ ltac:(set_solver) _ _ _ V Hk).
  apply lookup_insert_ne. set_solver.
Qed.
Lemma keeps_mset a m : keeps (evens a) m (s_mset a m).
Proof.
  unfold s_mset. destruct a as [|x [|y a]]; [apply k_says|apply k_few|]. intros r m' k [_ ->] Hk. by apply keeps_put_pairs.
Qed.
Lemma table_keeps name f a m : find_spec (to_lower name) (spec_table ext) = Some f →
  keeps (touched (name :: a)) m (f a m).
Proof.
  intros H.
  assert (Hw : ∀ n, to_lower name = n → bool_decide (n ∈ read_only) = false →
    String.eqb n "mset" = false → String.eqb n "smove" = false → take 1 a ⊆ touched (name :: a)).
  { intros n Hl H1 H2 H3. unfold touched, writes. rewrite Hl, H1, H2, H3. set_solver. }
  assert (Hr : ∀ v, keeps [] m v → keeps (touched (name :: a)) m v) by (intros v Hv; eapply keeps_mono; [done|set_solver]).
  assert (Hk : ∀ n v, to_lower name = n → bool_decide (n ∈ read_only) = false →
    String.eqb n "mset" = false → String.eqb n "smove" = false → keeps (take 1 a) m v → keeps (touched (name :: a)) m v).
  { intros n v E H1 H2 H3 Hv. eapply keeps_mono; [done|]. by apply (Hw n). }
  destruct (keeps_readers m a Diff) as (R1 & R2 & R3 & R4 & R5 & R6 & R7 & R8 & R9 & R10 & R11 & _ & R12 & R13 & R14 & R15 & R16 & R17 & R18 & RH).
  destruct RH as (R20 & R21 & R22 & R23 & R24 & R25 & R26 & R27 & R28 & R29 & R30).
  assert (RS : ∀ o, keeps [] m (s_setop o a m)) by (intros o; apply (keeps_readers m a o)).
  destruct (keeps_writers m a false false) as (W1 & W2 & W3 & W4 & W5 & W6 & W7 & W8 & W9 & W10 & W11 & W12 & W13 & W14 & W15 & W16 & W17 & W18 & W19).
  destruct (keeps_writers m a true true) as (_ & _ & _ & _ & _ & _ & _ & X8 & X9 & _ & _ & _ & _ & _ & _ & _ & _ & _ & X19).
  unfold spec_table in H.
  remember (to_lower name) as low eqn:El. symmetry in El.
  repeat (cbn [find_spec] in H;
    match type of H with (if String.eqb ?n low then _ else _) = _ => destruct (String.eqb_spec n low) as [<-|_] end;
    [injection H as <-; first [by apply Hr | by apply (Hk _ _ eq_refl) | apply k_says | idtac ]|]); try done.
  - apply (keeps_store Diff); rewrite El; auto.
  - apply (keeps_store Inter); rewrite El; auto.
  - apply (keeps_store Union); rewrite El; auto.
  - apply (keeps_mono (take 2 a)); [|unfold touched, writes; rewrite El; set_solver]. apply keeps_smove.
  - apply (keeps_mono (evens a)); [|unfold touched, writes; rewrite El; set_solver]. apply keeps_mset.
Qed.
Lemma spec_keeps req m : keeps (touched req) m (spec ext req m).
Proof.
  destruct req as [|name a]; [by intros ??? [_ ->]|]. unfold spec.
  destruct (find_spec _ _) eqn:E; [by apply table_keeps|apply k_fails].
Qed.
End frame.
