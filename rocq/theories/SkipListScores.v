(** minScoreRank, maxScoreRank, count and zRangeByScore. *)
From Coq Require Import ZifyBool Sorting.Sorted.
From Verif Require Import GoBase GoBaseProofs DList Float64 Float64Proofs SkipList SkipListProofs SkipListOps
  SpecList SpecZSet SkipListMore.
Implicit Types (s : skiplist) (es : list ent) (N n m : nat).

Lemma sorted_scores es p q e f :
  zsorted es → (p < q)%nat → es !! p = Some e → es !! q = Some f →
  flt (e_sc e) (e_sc f) = true ∨ feq (e_sc e) (e_sc f) = true.
Proof.
  intros Hs Hpq He Hf. pose proof (zsorted_lookup _ _ _ _ _ Hs Hpq He Hf) as H.
  unfold zlt in H. simpl in H. apply orb_true_iff in H as [H|H]; [by left|].
  apply andb_true_iff in H as [H _]. by right.
Qed.

Lemma fle_trans_l a b c : flt a b = true ∨ feq a b = true → fle b c = true → fle a c = true.
Proof.
  intros H Hbc. pose proof (fle_nan _ _ Hbc) as [Hb Hc].
  assert (Ha : is_nan a = false) by (destruct H as [H|H]; [by apply flt_nan in H as [? _]|by apply feq_nan in H as [? _]]).
  rewrite fle_flt in * by done. apply negb_true_iff in Hbc. apply negb_true_iff.
  destruct (flt c a) eqn:E; [|done]. destruct H as [H|H].
  - by rewrite (flt_trans _ _ _ E H) in Hbc.
  - by rewrite (flt_feq_r _ _ c H), Hbc in E.
Qed.
Lemma flt_trans_l a b c : flt a b = true ∨ feq a b = true → flt b c = true → flt a c = true.
Proof. intros [H|H] Hbc; [by eapply flt_trans|]. by rewrite (flt_feq_l _ _ _ H). Qed.

(** score predicates that hold on an initial segment *)
Lemma le_split es mx : zsorted es →
  ∃ N, (N ≤ length es)%nat ∧ ∀ p e, es !! p = Some e → fle (e_sc e) mx = bool_decide (p < N)%nat.
Proof.
  intros Hs. apply (split_point (λ e, fle (e_sc e) mx)). intros p q e f Hpq He Hf.
  apply fle_trans_l. by eapply sorted_scores.
Qed.
Lemma lt_split es mx : zsorted es →
  ∃ N, (N ≤ length es)%nat ∧ ∀ p e, es !! p = Some e → flt (e_sc e) mx = bool_decide (p < N)%nat.
Proof.
  intros Hs. apply (split_point (λ e, flt (e_sc e) mx)). intros p q e f Hpq He Hf.
  apply flt_trans_l. by eapply sorted_scores.
Qed.

Lemma seg_filter {A} (P : A → bool) (l : list A) lo hi :
  (hi ≤ length l)%nat →
  (∀ p e, l !! p = Some e → P e = bool_decide (lo ≤ p < hi)%nat) →
  filter (λ e, P e = true) l = take (hi - lo) (drop lo l).
Proof.
  revert lo hi. induction l as [|x l IH]; intros lo hi Hhi HP.
  - by rewrite drop_nil, take_nil.
  - pose proof (HP 0%nat x eq_refl) as H0. rewrite filter_cons.
    assert (IHl : ∀ lo' hi', (hi' ≤ length l)%nat → (∀ p, (lo ≤ S p < hi)%nat ↔ (lo' ≤ p < hi')%nat) →
      filter (λ e, P e = true) l = take (hi' - lo') (drop lo' l)).
    { intros lo' hi' Hh Heq. apply IH; [done|]. intros p e He. rewrite (HP (S p) e) by done.
      apply bool_decide_ext. apply Heq. }
    simpl in Hhi. destruct lo as [|lo].
    + destruct hi as [|hi].
      * rewrite bool_decide_eq_false_2 in H0 by lia. rewrite decide_False by (by rewrite H0).
        rewrite (IHl 0%nat 0%nat); [done|lia|lia].
      * rewrite bool_decide_eq_true_2 in H0 by lia. rewrite decide_True by done.
        rewrite (IHl 0%nat hi); [|lia|lia]. simpl. by rewrite Nat.sub_0_r, drop_0.
    + rewrite bool_decide_eq_false_2 in H0 by lia. rewrite decide_False by (by rewrite H0).
      simpl. destruct hi as [|hi].
      * rewrite (IHl lo 0%nat); [done|lia|lia].
      * rewrite (IHl lo hi); [done|lia|lia].
Qed.

Lemma filter_nil_not {A} (P : A → bool) (l : list A) p e :
  filter (λ e, P e = true) l = [] → l !! p = Some e → P e = false.
Proof.
  intros Hf He. destruct (P e) eqn:E; [|done].
  assert (Hin : e ∈ filter (λ e, P e = true) l).
  { apply elem_of_list_filter. split; [done|]. by eapply elem_of_list_lookup_2. }
  rewrite Hf in Hin. by apply elem_of_nil in Hin.
Qed.

(** at most one element at a score: its two neighbourhoods *)
Lemma at_score_unique es f p q e1 e2 :
  (length (at_score f (e_key <$> es)) ≤ 1)%nat →
  es !! p = Some e1 → es !! q = Some e2 → feq (e_sc e1) f = true → feq (e_sc e2) f = true → p = q.
Proof.
  unfold at_score. intros Hlen H1 H2 F1 F2.
  revert p q H1 H2 Hlen. induction es as [|x es IH]; intros p q H1 H2 Hlen; [done|].
  cbn [fmap list_fmap] in Hlen. rewrite filter_cons in Hlen. simpl in Hlen.
  assert (Hone : ∀ r e, es !! r = Some e → feq (e_sc e) f = true → feq (e_sc x) f = true → False).
  { intros r e He Fe Fx. rewrite decide_True in Hlen by done. simpl in Hlen.
    assert (Hnil : filter (λ k : zkey, feq k.1 f = true) (e_key <$> es) = []) by (apply nil_length_inv, Nat.le_0_r; by apply le_S_n in Hlen).
    pose proof (filter_nil_not (λ k : zkey, feq k.1 f) (e_key <$> es) r (e_key e) Hnil) as Hn.
    rewrite list_lookup_fmap, He in Hn. specialize (Hn eq_refl). simpl in Hn. congruence. }
  destruct p as [|p], q as [|q]; simpl in *; simplify_eq.
  - done.
  - exfalso. by eapply Hone.
  - exfalso. by eapply Hone.
  - f_equal. apply IH; [done|done|]. destruct (decide (feq (e_sc x) f = true)); [|done]. simpl in Hlen.
    etransitivity; [|exact Hlen]. apply Nat.le_succ_diag_r.
Qed.

Lemma wrap64_id z : - two63 ≤ z < two63 → wrap64 z = z.
Proof. intros. unfold wrap64. rewrite Z.mod_small by (unfold two63, two64 in *; lia). lia. Qed.

Lemma up_to_split es f N : (N ≤ length es)%nat → (∀ p e, es !! p = Some e → fle (e_sc e) f = bool_decide (p < N)%nat) →
  length (up_to f (e_key <$> es)) = N.
Proof.
  intros HN HP. unfold up_to. rewrite (seg_filter (λ k : zkey, fle k.1 f) _ 0 N).
  - rewrite take_length, drop_length, fmap_length. lia.
  - by rewrite fmap_length.
  - intros p k Hk. rewrite list_lookup_fmap in Hk. destruct (es !! p) as [e|] eqn:He; [|done]. simpl in Hk. simplify_eq. simpl.
    rewrite (HP _ _ He). repeat case_bool_decide; try done; lia.
Qed.
Lemma at_score_nil es f p e : at_score f (e_key <$> es) = [] → es !! p = Some e → feq (e_sc e) f = false.
Proof.
  intros Hn He. destruct (feq (e_sc e) f) eqn:E; [|done].
  assert (e_key e ∈ at_score f (e_key <$> es)) as H; [|rewrite Hn in H; by apply elem_of_nil in H].
  apply elem_of_list_filter. split; [done|]. apply elem_of_list_fmap. exists e. split; [done|]. by eapply elem_of_list_lookup_2.
Qed.

Lemma feq_fle a b : feq a b = true → fle a b = true.
Proof. intros E. destruct (feq_nan _ _ E). rewrite fle_flt by done. by rewrite (flt_feq_r _ _ b E), flt_irrefl. Qed.

(** the two descents, on every bound *)
Lemma max_rank_exact s es mx mxo : zinv s es → Z.of_nat (length es) < two63 - 2 →
  ∃ r, sl_max_score_rank mx mxo s = Ret r ∧ upper_rank mx mxo (e_key <$> es) r.
Proof.
  intros [Hwf Hs Hn] Hlen. pose proof (wf_level _ _ Hwf) as Hlev. unfold sl_max_score_rank.
  destruct (is_inf mx) eqn:Hinf; [exists (-1); split; [done|by constructor]|].
  destruct (le_split es mx Hs) as (N & HN & HP). pose proof (up_to_split es mx N HN HP) as HU.
  match goal with |- context [descend _ _ ?t ?b _ _] =>
    destruct (descend_ok s es t b N (sl_level s) 0 Hwf HN) as (a' & adj & E & Ha & Hcase); try lia end.
  { intros p e He. cbn [info_of zi_score]. by apply HP. }
  change (nid es 0) with sl_head in E. change (Z.of_nat 0) with 0 in E. rewrite E. cbn [obind].
  assert (Hle : ∀ q e, es !! q = Some e → (q < N)%nat → flt mx (e_sc e) = false).
  { intros q e He Hq. pose proof (HP _ _ He) as H. rewrite bool_decide_eq_true_2 in H by done.
    pose proof (fle_nan _ _ H) as [H1 H2]. rewrite fle_flt in H; [by apply negb_true_iff in H|done|done]. }
  destruct Hcase as [(-> & -> & Hc)|(q & e & cur & -> & He & Hb)].
  - rewrite Z.add_0_r, wrap64_id by (unfold two63 in *; lia). exists (Z.of_nat N). split; [done|]. rewrite <- HU.
    destruct mxo; [|by constructor].
    destruct (at_score mx (e_key <$> es)) as [|k l] eqn:Ea; [by constructor|exfalso].
    assert (Hin : k ∈ at_score mx (e_key <$> es)) by (rewrite Ea; left). apply elem_of_list_filter in Hin as [Hf Hin].
    apply elem_of_list_fmap in Hin as (e & -> & He). apply elem_of_list_lookup in He as [p Hp]. simpl in Hf.
    assert (p < N)%nat as HpN. { pose proof (HP _ _ Hp) as H. rewrite feq_fle in H by done. by apply (bool_decide_eq_true_1 (p < N)%nat). }
    destruct Hc as [Hc|(q & f & cur & Hq & Hfq & Hb)]; [lia|].
    cbn [info_of zi_score] in Hb. rewrite (Hle q f Hfq) in Hb by lia. cbn [orb andb] in Hb.
    destruct (feq (e_sc f) mx) eqn:Ef; [by cbn in Hb|].
    destruct (decide (p = q)) as [->|Hpq]; [congruence|].
    destruct (sorted_scores es p q e f Hs ltac:(lia) Hp Hfq) as [H|H].
    + rewrite (flt_feq_l _ _ _ Hf) in H. by rewrite (Hle q f Hfq) in H by lia.
    + rewrite (feq_feq_l _ _ _ H) in Hf. congruence.
  - cbn [info_of zi_score] in Hb. rewrite (Hle q e He) in Hb by lia. cbn [orb] in Hb.
    destruct mxo; [|by rewrite andb_false_l in Hb]. cbn [andb] in Hb.
    destruct (feq (e_sc e) mx) eqn:Ef; [|done]. cbn [andb] in Hb. simplify_eq.
    replace (Z.of_nat (S q) + -1) with (Z.of_nat q) by lia. rewrite wrap64_id by (unfold two63 in *; lia).
    exists (Z.of_nat q). split; [done|]. apply (upper_open _ _ _ q (e_key e)); try done. by rewrite list_lookup_fmap, He.
Qed.
Lemma min_rank_exact s es mn mo : zinv s es → Z.of_nat (length es) < two63 - 2 →
  ∃ r, sl_min_score_rank mn mo s = Ret r ∧ lower_rank mn mo (e_key <$> es) r.
Proof.
  intros [Hwf Hs Hn] Hlen. pose proof (wf_level _ _ Hwf) as Hlev. unfold sl_min_score_rank.
  destruct (is_inf mn) eqn:Hinf; [exists (-1); split; [done|by constructor]|].
  destruct (le_split es mn Hs) as (N & HN & HP). pose proof (up_to_split es mn N HN HP) as HU.
  match goal with |- context [descend _ _ ?t ?b _ _] =>
    destruct (descend_ok s es t b N (sl_level s) 0 Hwf HN) as (a' & adj & E & Ha & Hcase); try lia end.
  { intros p e He. cbn [info_of zi_score]. by apply HP. }
  change (nid es 0) with sl_head in E. change (Z.of_nat 0) with 0 in E. rewrite E. cbn [obind].
  assert (Hle : ∀ q e, es !! q = Some e → (q < N)%nat → flt mn (e_sc e) = false).
  { intros q e He Hq. pose proof (HP _ _ He) as H. rewrite bool_decide_eq_true_2 in H by done.
    pose proof (fle_nan _ _ H) as [H1 H2]. rewrite fle_flt in H; [by apply negb_true_iff in H|done|done]. }
  destruct Hcase as [(-> & -> & Hc)|(q & e & cur & -> & He & Hb)].
  - rewrite Z.add_0_r, wrap64_id by (unfold two63 in *; lia). exists (Z.of_nat N). split; [done|]. rewrite <- HU.
    destruct mo; [|by constructor].
    destruct (at_score mn (e_key <$> es)) as [|k l] eqn:Ea; [by constructor|exfalso].
    assert (Hin : k ∈ at_score mn (e_key <$> es)) by (rewrite Ea; left). apply elem_of_list_filter in Hin as [Hf Hin].
    apply elem_of_list_fmap in Hin as (e & -> & He). apply elem_of_list_lookup in He as [p Hp]. simpl in Hf.
    assert (p < N)%nat as HpN. { pose proof (HP _ _ Hp) as H. rewrite feq_fle in H by done. by apply (bool_decide_eq_true_1 (p < N)%nat). }
    destruct Hc as [Hc|(q & f & cur & Hq & Hfq & Hb)]; [lia|].
    cbn [info_of zi_score] in Hb. rewrite (Hle q f Hfq) in Hb by lia. cbn [orb andb] in Hb.
    destruct (feq (e_sc f) mn) eqn:Ef; [by cbn in Hb|].
    destruct (decide (p = q)) as [->|Hpq]; [congruence|].
    destruct (sorted_scores es p q e f Hs ltac:(lia) Hp Hfq) as [H|H].
    + rewrite (flt_feq_l _ _ _ Hf) in H. by rewrite (Hle q f Hfq) in H by lia.
    + rewrite (feq_feq_l _ _ _ H) in Hf. congruence.
  - cbn [info_of zi_score] in Hb. rewrite (Hle q e He) in Hb by lia. cbn [orb] in Hb. rewrite andb_false_r in Hb.
    destruct mo; [|by rewrite andb_false_l in Hb]. cbn [andb] in Hb.
    destruct (feq (e_sc e) mn) eqn:Ef; [|done]. cbn [andb] in Hb. simplify_eq.
    rewrite wrap64_id by (unfold two63 in *; lia).
    exists (Z.of_nat (S q) + (0 + 1)). split; [done|].
    replace (Z.of_nat (S q) + (0 + 1)) with (Z.of_nat q + 2) by lia.
    apply (lower_open _ _ _ q (e_key e)); try done. by rewrite list_lookup_fmap, He.
Qed.


(** ** On which intervals the ranks are the right ones *)
Lemma upper_pure es mx mxo r :
  zsorted es → Forall (λ e, is_nan (e_sc e) = false) es → is_inf mx = false → is_nan mx = false →
  (mxo = true → (length (at_score mx (e_key <$> es)) ≤ 1)%nat) → upper_rank mx mxo (e_key <$> es) r →
  ∃ H, (H ≤ length es)%nat ∧ r = Z.of_nat H ∧ ∀ p e, es !! p = Some e → below_max mx mxo (e_sc e) = bool_decide (p < H)%nat.
Proof.
  intros Hs Hn Hinf Hnan Huniq HR.
  destruct (le_split es mx Hs) as (N & HN & HP). pose proof (up_to_split es mx N HN HP) as HU.
  destruct HR as [HI|_ HO|q k _ -> Hk Hf]; [congruence| |].
  - exists N. rewrite HU. split; [done|]. split; [done|]. intros p e He. rewrite <- (HP _ _ He). destruct mxo; [|done]. simpl.
    pose proof (at_score_nil es mx p e (HO eq_refl) He) as Hne.
    assert (is_nan (e_sc e) = false) by (by rewrite Forall_lookup in Hn; apply (Hn _ _ He)).
    rewrite fle_flt by done. destruct (flt (e_sc e) mx) eqn:E1.
    + destruct (flt mx (e_sc e)) eqn:E2; [|done]. pose proof (flt_trans _ _ _ E1 E2) as H'. by rewrite flt_irrefl in H'.
    + destruct (f_trichotomy (e_sc e) mx) as [H'|[H'|H']]; try done; try congruence. by rewrite H'.
  - rewrite list_lookup_fmap in Hk. destruct (es !! q) as [e|] eqn:He; [|done]. simpl in Hk. simplify_eq. simpl in Hf.
    exists q. split; [apply lookup_lt_Some in He; lia|]. split; [done|]. intros p f Hp. simpl.
    destruct (lt_eq_lt_dec p q) as [[Hpq|Hpq]|Hpq].
    + rewrite bool_decide_eq_true_2 by done.
      destruct (sorted_scores es p q f e Hs Hpq Hp He) as [H|H].
      * by rewrite <- (flt_feq_r _ _ (e_sc f) Hf).
      * assert (p = q); [|lia]. eapply at_score_unique; [by apply Huniq|exact Hp|exact He| |done].
        by rewrite (feq_feq_l _ _ _ H).
    + subst. simplify_eq. rewrite bool_decide_eq_false_2 by lia.
      rewrite (flt_feq_l _ _ mx Hf). apply flt_irrefl.
    + rewrite bool_decide_eq_false_2 by lia.
      destruct (flt (e_sc f) mx) eqn:E1; [|done].
      destruct (sorted_scores es q p e f Hs Hpq He Hp) as [H|H].
      * rewrite (flt_feq_l _ _ _ Hf) in H. pose proof (flt_trans _ _ _ H E1) as Hc'. by rewrite flt_irrefl in Hc'.
      * rewrite <- (flt_feq_l _ _ _ H), (flt_feq_l _ _ _ Hf) in E1. by rewrite flt_irrefl in E1.
Qed.

Lemma at_score_one es f : length (at_score f (e_key <$> es)) = 1%nat →
  ∃ q e, es !! q = Some e ∧ feq (e_sc e) f = true.
Proof.
  intros H. destruct (at_score f (e_key <$> es)) as [|k l] eqn:E; [done|].
  assert (Hin : k ∈ at_score f (e_key <$> es)) by (rewrite E; left). unfold at_score in Hin.
  apply elem_of_list_filter in Hin as [Hf Hin]. apply elem_of_list_fmap in Hin as (e & -> & He).
  apply elem_of_list_lookup in He as [q Hq]. by exists q, e.
Qed.

Lemma above_ninf mn mo sc : is_ninf mn = true → is_nan sc = false → mo = false → above_min mn mo sc = true.
Proof. destruct mn as [|[]| |]; try done. intros _ Hn ->. simpl. by destruct sc as [|[]| |[]]. Qed.

(** with exactly one member at [mn] the rank is one past the members below the interval *)
Lemma lower_one es mn mo r :
  zsorted es → Forall (λ e, is_nan (e_sc e) = false) es → is_inf mn = false → is_nan mn = false →
  length (at_score mn (e_key <$> es)) = 1%nat → lower_rank mn mo (e_key <$> es) r →
  ∃ L q0 e0, (L ≤ length es)%nat ∧ r = Z.of_nat L + 1 ∧
    (∀ p e, es !! p = Some e → above_min mn mo (e_sc e) = bool_decide (L ≤ p)%nat) ∧
    es !! q0 = Some e0 ∧ feq (e_sc e0) mn = true ∧ (L ≤ S q0)%nat.
Proof.
  intros Hs Hn Hinf Hnan Hone HR.
  destruct (at_score_one es mn Hone) as (q0 & e0 & He0 & Hf0).
  pose proof (lookup_lt_Some _ _ _ He0) as Hq0.
  assert (Hlt : ∀ p e, es !! p = Some e → flt (e_sc e) mn = bool_decide (p < q0)%nat).
  { intros p e He. destruct (lt_eq_lt_dec p q0) as [[Hp|Hp]|Hp].
    - rewrite bool_decide_eq_true_2 by done. rewrite <- (flt_feq_r _ _ (e_sc e) Hf0).
      destruct (sorted_scores es p q0 e e0 Hs Hp He He0) as [H|H]; [done|].
      assert (p = q0); [|lia]. eapply at_score_unique; [by rewrite Hone|exact He|exact He0| |done].
      by rewrite (feq_feq_l _ _ _ H).
    - subst. simplify_eq. rewrite bool_decide_eq_false_2 by lia. rewrite (flt_feq_l _ _ _ Hf0). apply flt_irrefl.
    - rewrite bool_decide_eq_false_2 by lia. destruct (flt (e_sc e) mn) eqn:E; [|done].
      rewrite <- (flt_feq_r _ _ (e_sc e) Hf0) in E.
      destruct (sorted_scores es q0 p e0 e Hs Hp He0 He) as [H|H].
      + pose proof (flt_trans _ _ _ H E) as Hc. by rewrite flt_irrefl in Hc.
      + rewrite <- (flt_feq_l _ _ _ H) in E. by rewrite flt_irrefl in E. }
  assert (Hgt : ∀ p e, es !! p = Some e → flt mn (e_sc e) = bool_decide (q0 < p)%nat).
  { intros p e He. destruct (lt_eq_lt_dec p q0) as [[Hp|Hp]|Hp].
    - rewrite bool_decide_eq_false_2 by lia. pose proof (Hlt _ _ He) as H. rewrite bool_decide_eq_true_2 in H by done.
      destruct (flt mn (e_sc e)) eqn:E; [|done]. pose proof (flt_trans _ _ _ H E) as Hc. by rewrite flt_irrefl in Hc.
    - subst. simplify_eq. rewrite bool_decide_eq_false_2 by lia. rewrite (flt_feq_r _ _ _ Hf0). apply flt_irrefl.
    - rewrite bool_decide_eq_true_2 by done. pose proof (Hlt _ _ He) as H. rewrite bool_decide_eq_false_2 in H by lia.
      destruct (f_trichotomy (e_sc e) mn) as [H'|[H'|H']]; try done; try congruence.
      { by rewrite Forall_lookup in Hn; apply (Hn _ _ He). }
      assert (p = q0); [|lia]. eapply at_score_unique; [by rewrite Hone|exact He|exact He0|done|done]. }
  assert (Hnn : ∀ p e, es !! p = Some e → is_nan (e_sc e) = false).
  { intros p e He. by rewrite Forall_lookup in Hn; apply (Hn _ _ He). }
  destruct HR as [HI|_ HO|q k _ -> Hk Hf]; [congruence| |].
  - destruct mo; [rewrite (HO eq_refl) in Hone; done|].
    rewrite (up_to_split es mn (S q0)); [|lia|].
    2:{ intros p e He. rewrite fle_flt by (done || by eapply Hnn). rewrite (Hgt _ _ He). repeat case_bool_decide; try done; lia. }
    exists q0, q0, e0. split; [lia|]. split; [lia|]. split.
    2:{ split; [done|]. split; [done|lia]. }
    intros p e He. simpl. rewrite fle_flt by (done || by eapply Hnn). rewrite (Hlt _ _ He).
    repeat case_bool_decide; try done; lia.
  - rewrite list_lookup_fmap in Hk. destruct (es !! q) as [e|] eqn:He; [|done]. simpl in Hk. simplify_eq. simpl in Hf.
    assert (q = q0) as -> by (eapply at_score_unique; [by rewrite Hone|exact He|exact He0|done|done]).
    exists (S q0), q0, e0. split; [lia|]. split; [lia|]. split.
    2:{ split; [done|]. split; [done|lia]. }
    intros p f Hp. simpl. rewrite (Hgt _ _ Hp). repeat case_bool_decide; try done; lia.
Qed.

Lemma low_cases es mn mo r :
  zsorted es → Forall (λ e, is_nan (e_sc e) = false) es → good_min mn (e_key <$> es) →
  (is_ninf mn = true → mo = false) → lower_rank mn mo (e_key <$> es) r →
  ∃ L, (L ≤ length es)%nat ∧
    ((r ≤ 0 ∧ L = 0%nat) ∨
     (r = Z.of_nat L + 1 ∧ ∃ q e, es !! q = Some e ∧ feq (e_sc e) mn = true ∧ (L ≤ S q)%nat)) ∧
    ∀ p e, es !! p = Some e → above_min mn mo (e_sc e) = bool_decide (L ≤ p)%nat.
Proof.
  intros Hs Hn (Hnan & Hcase) Hmo HR.
  destruct Hcase as [Hinf|[Hinf [Hall|Hone]]].
  - exists 0%nat. split; [lia|]. assert (is_inf mn = true) by (by destruct mn as [|[]| |]).
    destruct HR; [|congruence..].
    split; [left; lia|]. intros p e He. rewrite bool_decide_eq_true_2 by lia. apply above_ninf; [done| |by apply Hmo].
    by rewrite Forall_lookup in Hn; apply (Hn _ _ He).
  - exists 0%nat. split; [lia|]. rewrite Forall_fmap, Forall_lookup in Hall. split.
    { left. split; [|done]. destruct HR as [HI|_ HO|q k _ -> Hk Hf]; [congruence| |exfalso].
      - rewrite (up_to_split es mn 0); [lia|lia|]. intros p e He. rewrite bool_decide_eq_false_2 by lia.
        specialize (Hall _ _ He). simpl in Hall. rewrite fle_flt; [by rewrite Hall|by apply flt_nan in Hall as [_ ?]|done].
      - rewrite list_lookup_fmap in Hk. destruct (es !! q) as [e|] eqn:He; [|done]. simpl in Hk. simplify_eq. simpl in Hf.
        specialize (Hall _ _ He). simpl in Hall. rewrite (flt_feq_r _ _ _ Hf) in Hall. by rewrite flt_irrefl in Hall. }
    intros p e He. rewrite bool_decide_eq_true_2 by lia. specialize (Hall _ _ He). simpl in Hall.
    destruct mo; simpl; [done|]. rewrite fle_flt; [|done|by apply flt_nan in Hall as [_ ?]].
    destruct (flt (e_sc e) mn) eqn:E; [|done]. pose proof (flt_trans _ _ _ Hall E) as Hc. by rewrite flt_irrefl in Hc.
  - destruct (lower_one es mn mo r Hs Hn Hinf Hnan Hone HR) as (L & q & e & HL & -> & HP & He & Hf & Hq).
    exists L. split; [done|]. split; [right; eauto 10|done].
Qed.

Lemma select_seg es mn mo mx mxo L H :
  (H ≤ length es)%nat →
  (∀ p e, es !! p = Some e → above_min mn mo (e_sc e) = bool_decide (L ≤ p)%nat) →
  (∀ p e, es !! p = Some e → below_max mx mxo (e_sc e) = bool_decide (p < H)%nat) →
  select_scores mn mo mx mxo (e_key <$> es) = e_key <$> take (H - L) (drop L es).
Proof.
  intros HH HL HB. unfold select_scores. rewrite fmap_take, fmap_drop.
  apply (seg_filter (λ k : zkey, in_interval mn mo mx mxo k.1)); [by rewrite fmap_length|].
  intros p k Hk. rewrite list_lookup_fmap in Hk. destruct (es !! p) as [e|] eqn:He; [|done].
  simpl in Hk. simplify_eq. unfold in_interval. simpl. rewrite (HL _ _ He), (HB _ _ He).
  repeat case_bool_decide; try done; lia.
Qed.

Lemma ends_le es mn mx mxo L H q e :
  ordered_ends mn mx mxo → es !! q = Some e → feq (e_sc e) mn = true → (L ≤ S q)%nat →
  (∀ p e, es !! p = Some e → below_max mx mxo (e_sc e) = bool_decide (p < H)%nat) →
  (L ≤ H)%nat ∧ (0 < H)%nat.
Proof.
  intros Hord He Hf HL HB.
  assert (Hb : below_max mx mxo (e_sc e) = true).
  { unfold ordered_ends in Hord. destruct mxo; simpl in *.
    - by rewrite (flt_feq_l _ _ _ Hf).
    - eapply fle_trans_l; [by right|done]. }
  rewrite (HB _ _ He) in Hb. apply bool_decide_eq_true_1 in Hb. lia.
Qed.

(** ZCOUNT on such an interval *)
Lemma count_right es mn mo mx mxo lo hi :
  zsorted es → Forall (λ e, is_nan (e_sc e) = false) es → lower_rank mn mo (e_key <$> es) lo → upper_rank mx mxo (e_key <$> es) hi →
  good_min mn (e_key <$> es) → good_max mx mxo (e_key <$> es) → (is_ninf mn = true → mo = false) → ordered_ends mn mx mxo →
  rank_count lo hi (Z.of_nat (length es)) = Z.of_nat (length (select_scores mn mo mx mxo (e_key <$> es))).
Proof.
  intros Hs Hn Hlo Hhi Hmin (Hxn & Hxi & Hxu) Hmo Hord. unfold rank_count.
  destruct (low_cases es mn mo lo Hs Hn Hmin Hmo Hlo) as (L & HLl & Hr & HL).
  destruct (upper_pure es mx mxo hi Hs Hn Hxi Hxn Hxu Hhi) as (H & HH & -> & HB).
  rewrite (select_seg es mn mo mx mxo L H HH HL HB). rewrite fmap_length, take_length, drop_length.
  destruct Hr as [[Hr ->]|[-> (q & e & He & Hf & HLq)]].
  - replace (lo <=? 0) with true by lia. lia.
  - destruct (ends_le es mn mx mxo L H q e Hord He Hf HLq HB) as [H1 H2].
    replace (Z.of_nat L + 1 <=? 0) with false by lia. replace (Z.of_nat H <? 0) with false by lia. lia.
Qed.

(** ... and with +inf above the score of one member *)
Lemma below_pinf mx sc : is_pinf mx = true → is_nan sc = false → below_max mx false sc = true.
Proof. destruct mx as [|[]| |]; try done. intros _ Hn. simpl. by destruct sc as [|[]| |[]]. Qed.

Lemma count_right_pinf es mn mo mx lo hi :
  zsorted es → Forall (λ e, is_nan (e_sc e) = false) es → lower_rank mn mo (e_key <$> es) lo → upper_rank mx false (e_key <$> es) hi →
  is_nan mn = false → is_inf mn = false → length (at_score mn (e_key <$> es)) = 1%nat → is_pinf mx = true →
  rank_count lo hi (Z.of_nat (length es)) = Z.of_nat (length (select_scores mn mo mx false (e_key <$> es))).
Proof.
  intros Hs Hn Hlo Hhi Hmn Hmi Hone Hx. unfold rank_count.
  destruct (lower_one es mn mo lo Hs Hn Hmi Hmn Hone Hlo) as (L & q & e & HLl & -> & HL & He & Hf & HLq).
  assert (is_inf mx = true) by (by destruct mx as [|[]| |]). destruct Hhi; [|congruence..].
  replace (Z.of_nat L + 1 <=? 0) with false by lia. change (-1 <? 0) with true. cbv iota.
  rewrite (select_seg es mn mo mx false L (length es)); [|done|done|].
  - rewrite fmap_length, take_length, drop_length. lia.
  - intros p f Hp. rewrite bool_decide_eq_true_2 by (by apply lookup_lt_Some in Hp).
    apply below_pinf; [done|]. by rewrite Forall_lookup in Hn; apply (Hn _ _ Hp).
Qed.

Lemma select_all es mn mo mx mxo :
  Forall (λ e, is_nan (e_sc e) = false) es → is_ninf mn = true → is_pinf mx = true → mo = false → mxo = false →
  select_scores mn mo mx mxo (e_key <$> es) = e_key <$> es.
Proof.
  intros Hn Hmn Hmx -> ->. rewrite (select_seg es mn false mx false 0 (length es)); [|done| |].
  - rewrite Nat.sub_0_r, drop_0. by rewrite firstn_all.
  - intros p e He. rewrite bool_decide_eq_true_2 by lia. apply above_ninf; [done| |done].
    by rewrite Forall_lookup in Hn; apply (Hn _ _ He).
  - intros p e He. rewrite bool_decide_eq_true_2 by (by apply lookup_lt_Some in He). apply below_pinf; [done|].
    by rewrite Forall_lookup in Hn; apply (Hn _ _ He).
Qed.

(** ZCOUNT, on every interval *)
Lemma sl_count_exact s es mn mo mx mxo : zinv s es → Z.of_nat (length es) < two63 - 2 → is_ninf mn && is_pinf mx = false →
  ∃ lo hi, lower_rank mn mo (e_key <$> es) lo ∧ upper_rank mx mxo (e_key <$> es) hi ∧
    sl_count mn mo mx mxo s = Ret (rank_count lo hi (Z.of_nat (length es))).
Proof.
  intros Hinv Hlen Hi. destruct (min_rank_exact s es mn mo Hinv Hlen) as (lo & E1 & R1).
  destruct (max_rank_exact s es mx mxo Hinv Hlen) as (hi & E2 & R2). exists lo, hi. split; [done|]. split; [done|].
  unfold sl_count, rank_count. rewrite Hi, E1, E2. cbn [obind]. destruct Hinv as [Hwf _ _]. rewrite (wf_len _ _ Hwf).
  destruct (lo <=? 0); [done|]. by destruct (hi <? 0).
Qed.
Lemma sl_count_all s es mn mo mx mxo : zinv s es → is_ninf mn && is_pinf mx = true →
  sl_count mn mo mx mxo s = Ret (Z.of_nat (length es)).
Proof. intros [Hwf _ _] Hi. unfold sl_count. rewrite Hi. by rewrite (wf_len _ _ Hwf). Qed.

Section ranges.
Context (ext : Ext).

Lemma window_seg {A} (l : list A) (L H : nat) :
  (L ≤ H)%nat → (0 < H)%nat → (H ≤ length l)%nat →
  window (Z.of_nat L) (Z.of_nat H - 1) l = take (H - L) (drop L l).
Proof.
  intros HL H0 HH. unfold window, norm_index.
  replace (Z.of_nat L <? 0) with false by lia. replace (Z.of_nat H - 1 <? 0) with false by lia.
  f_equal; [lia|]. f_equal. lia.
Qed.

(** ZRANGEBYSCORE on such an interval, provided the interval reaches the first member *)
Lemma window_right es mn mo mx mxo lo hi :
  zsorted es → Forall (λ e, is_nan (e_sc e) = false) es → lower_rank mn mo (e_key <$> es) lo → upper_rank mx mxo (e_key <$> es) hi →
  good_min mn (e_key <$> es) → good_max mx mxo (e_key <$> es) →
  (is_ninf mn = true → mo = false) → ordered_ends mn mx mxo →
  Exists (λ k : zkey, below_max mx mxo k.1 = true) (e_key <$> es) →
  let w := rank_window lo hi (Z.of_nat (length es)) in
  window w.1 w.2 (e_key <$> es) = select_scores mn mo mx mxo (e_key <$> es).
Proof.
  intros Hs Hn Hlo Hhi Hmin (Hxn & Hxi & Hxu) Hmo Hord Hex.
  destruct (low_cases es mn mo lo Hs Hn Hmin Hmo Hlo) as (L & HLl & Hr & HL).
  destruct (upper_pure es mx mxo hi Hs Hn Hxi Hxn Hxu Hhi) as (H & HH & -> & HB).
  rewrite (select_seg es mn mo mx mxo L H HH HL HB).
  assert (H0 : (0 < H)%nat).
  { apply Exists_exists in Hex as (k & Hk & Hb). apply elem_of_list_fmap in Hk as (e & -> & He).
    apply elem_of_list_lookup in He as [p Hp]. simpl in Hb. rewrite (HB _ _ Hp) in Hb.
    apply bool_decide_eq_true_1 in Hb. lia. }
  unfold rank_window. destruct Hr as [[Hr ->]|[-> (q & e & He & Hf & HLq)]].
  - replace (lo <=? 0) with true by lia. cbn [fst snd].
    rewrite window_fmap. f_equal. apply (window_seg es 0 H); lia.
  - destruct (ends_le es mn mx mxo L H q e Hord He Hf HLq HB) as [H1 H2].
    replace (Z.of_nat L + 1 <=? 0) with false by lia. replace (Z.of_nat H <? 0) with false by lia. cbn [fst snd].
    rewrite window_fmap. f_equal.
    replace (Z.of_nat L + 1 - 1) with (Z.of_nat L) by lia. by apply window_seg.
Qed.
(** ... and on every interval *)
Lemma sl_range_by_score_exact s es mn mo mx mxo ws : zinv s es → Z.of_nat (length es) < two63 - 2 → is_ninf mn && is_pinf mx = false →
  ∃ lo hi, lower_rank mn mo (e_key <$> es) lo ∧ upper_rank mx mxo (e_key <$> es) hi ∧
    let w := rank_window lo hi (Z.of_nat (length es)) in
    sl_range_by_score ext mn mo mx mxo ws s = Ret (concat (show_ent ext ws <$> window w.1 w.2 (e_key <$> es))).
Proof.
  intros Hinv Hlen Hi. destruct (min_rank_exact s es mn mo Hinv Hlen) as (lo & E1 & R1).
  destruct (max_rank_exact s es mx mxo Hinv Hlen) as (hi & E2 & R2). exists lo, hi. split; [done|]. split; [done|].
  unfold sl_range_by_score, rank_window. rewrite Hi, E1, E2. cbn [obind]. pose proof Hinv as [Hwf _ _]. rewrite (wf_len _ _ Hwf).
  destruct (lo <=? 0); [|destruct (hi <? 0)]; cbn [fst snd]; by rewrite (sl_range_ok ext s es) by (done || lia).
Qed.
Lemma sl_range_by_score_all s es mn mo mx mxo ws : zinv s es → Z.of_nat (length es) < two63 - 2 → is_ninf mn && is_pinf mx = true →
  sl_range_by_score ext mn mo mx mxo ws s = Ret (concat (show_ent ext ws <$> (e_key <$> es))).
Proof.
  intros [Hwf Hs Hn] Hlen Hi. unfold sl_range_by_score. rewrite Hi.
  rewrite (sl_range_ok ext s es) by (done || lia).
  do 3 f_equal. rewrite (wf_len _ _ Hwf). unfold window, norm_index. rewrite fmap_length.
  change (0 <? 0) with false. cbv iota. replace (Z.of_nat (length es) <? 0) with false by lia.
  replace (Z.to_nat (Z.min (Z.max 0 0) (Z.of_nat (length es)))) with 0%nat by lia. rewrite drop_0.
  apply take_ge. rewrite fmap_length. lia.
Qed.
End ranges.
