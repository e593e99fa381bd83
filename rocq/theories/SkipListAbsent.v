(** The skip list operations on a member that is not there, and on any score bounds whatever. *)
From Verif Require Import GoBase GoBaseProofs DList Float64 Float64Proofs SkipList SkipListProofs SkipListOps SpecList SpecZSet SkipListMore.

Lemma update_score_absent s es level cur new v : zinv s es → v ∉ (e_val <$> es) → sl_update_score level cur new v s = Ret (s, None).
Proof.
  intros [Hwf Hs Hn] Hv. pose proof (wf_level _ _ Hwf) as Hlev. unfold sl_update_score.
  destruct (key_split es (cur, v) Hs) as (N & HN & Hsp).
  destruct (update_search_ok s es cur v N (sl_level s) 0 (replicate max_level None))
    as (a & update & E & Hlu & Hz & _ & Harr & _); try done; [lia|lia|].
  change (nid es 0) with sl_head in E. rewrite E. cbn [obind].
  pose proof (upos_zero s es N a Hwf HN (Hz ltac:(lia))) as ->.
  destruct (level0_next s es N Hwf HN) as [z Hz0]. unfold lk. rewrite Hz0. cbn [deref obind].
  destruct (es !! N) as [e|] eqn:He; cbn [fmap option_fmap option_map]; [|done].
  unfold zn. rewrite (wf_nodes _ _ Hwf _ _ He). cbn [deref obind zi_score zi_val].
  assert (String.eqb (e_val e) v = false) as ->.
  { apply String.eqb_neq. intros <-. apply Hv, elem_of_list_fmap_1. by eapply elem_of_list_lookup_2. }
  by rewrite orb_true_r.
Qed.

Lemma filter_initial {A} (P : A → bool) (l : list A) N : (N ≤ length l)%nat →
  (∀ p e, l !! p = Some e → P e = bool_decide (p < N)%nat) → length (filter (λ e, P e = true) l) = N.
Proof.
  revert N. induction l as [|x l IH]; intros N HN H; simpl in HN; [simpl; lia|].
  pose proof (H 0%nat x eq_refl) as H0. destruct N as [|N].
  - rewrite filter_cons_False by (by rewrite H0). apply IH; [lia|]. intros p e Hp. by apply (H (S p) e).
  - rewrite filter_cons_True by (by rewrite H0). simpl. f_equal. apply IH; [lia|]. intros p e Hp. rewrite (H (S p) e Hp).
    repeat case_bool_decide; try done; lia.
Qed.
Lemma sl_rank_absent s es sc v : zinv s es → v ∉ (e_val <$> es) →
  sl_rank sc v s = Ret (Z.of_nat (length (filter (λ k, zlt k (sc, v) = true) (e_key <$> es)))).
Proof.
  intros [Hwf Hs Hn] Hv. pose proof (wf_level _ _ Hwf) as Hlev. unfold sl_rank.
  destruct (key_split es (sc, v) Hs) as (N & HN & Hsp).
  assert (Hne : ∀ p f, es !! p = Some f → feq (e_sc f) sc && String.eqb (e_val f) v = false).
  { intros p f Hf. apply andb_false_iff. right. apply String.eqb_neq. intros <-. apply Hv, elem_of_list_fmap_1. by eapply elem_of_list_lookup_2. }
  destruct (descend_ok s es
    (λ nd _, flt (zi_score nd) sc || (feq (zi_score nd) sc && str_leb (zi_val nd) v))
    (λ _ nd, if feq (zi_score nd) sc && String.eqb (zi_val nd) v then Some 0 else None)
    N (sl_level s) 0 Hwf) as (a' & adj & E & Ha & Hcase); try lia.
  { intros p f Hf. cbn [info_of zi_score zi_val].
    transitivity (zlt (e_key f) (sc, v) || (feq (e_sc f) sc && String.eqb (e_val f) v)).
    - rewrite str_leb_spec. unfold zlt. simpl. by destruct (flt (e_sc f) sc), (feq (e_sc f) sc).
    - by rewrite (Hsp _ _ Hf), (Hne _ _ Hf), orb_false_r. }
  change (nid es 0) with sl_head in E. change (Z.of_nat 0) with 0 in E. rewrite E. f_equal.
  rewrite (filter_initial (λ k, zlt k (sc, v)) (e_key <$> es) N).
  - destruct Hcase as [(-> & -> & _)|(q & f & cur & -> & Hf & Hb)]; [lia|].
    cbn [info_of zi_score zi_val] in Hb. by rewrite (Hne _ _ Hf) in Hb.
  - by rewrite fmap_length.
  - intros p k Hp. rewrite list_lookup_fmap in Hp. destruct (es !! p) as [e|] eqn:He; [|done]. injection Hp as <-. by apply Hsp.
Qed.

(** ** any search at all comes to an end without a panic *)
Lemma walk_safe s es test brk i fuel a r : wf s es → lvl_ok (sl_level s) es a i → (length es - a < fuel)%nat →
  ∃ a' r' b, walk fuel s test brk i (nid es a) r = Ret (nid es a', r', b) ∧ lvl_ok (sl_level s) es a' i.
Proof.
  intros Hwf. revert a r. induction fuel as [|f IH]; intros a r Hlvl Hfuel; [lia|].
  cbn [walk]. unfold lk. rewrite (wf_links _ _ Hwf _ _ Hlvl). cbn [deref obind].
  destruct (hop_cases i (drop a es)) as [Hall|(A & e & B & E & HA & He)].
  - rewrite hop_none by done. by exists a, r, false.
  - rewrite E. rewrite hop_hit by done. destruct (drop_split _ _ _ _ _ E) as (Hq & Hd & Hin).
    set (q := (a + length A)%nat) in *. unfold zn. rewrite (wf_nodes _ _ Hwf _ _ Hq). cbn [deref obind].
    pose proof (lookup_lt_Some _ _ _ Hq) as Hlt.
    destruct (test _ _); [|by exists a, r, false].
    destruct (wf_nid_node s es a Hwf) as [cur Hcur]; [lia|]. rewrite Hcur. cbn [deref obind]. rewrite <- (nid_S _ _ _ Hq).
    destruct (brk _ _) as [adj|]; [eexists (S q), _, true; split; [done|]; by exists e|].
    apply IH; [by exists e|lia].
Qed.
Lemma descend_safe s es test brk n a r : wf s es → (n ≤ sl_level s)%nat → (n = sl_level s → a = 0%nat) →
  ((n < sl_level s)%nat → lvl_ok (sl_level s) es a n) → ∃ r', descend n s test brk (nid es a) r = Ret r'.
Proof.
  intros Hwf. revert a r. induction n as [|i IH]; intros a r Hn Htop Hbelow; [by eexists|]. cbn [descend].
  assert (Hlv : lvl_ok (sl_level s) es a i).
  { destruct (decide (S i = sl_level s)) as [E|E].
    - rewrite Htop by done. simpl. lia.
    - apply (lvl_ok_mono _ _ _ (S i)); [lia|]. apply Hbelow. lia. }
  destruct (walk_safe s es test brk i (sl_fuel s) a r Hwf Hlv) as (a' & r' & b & -> & Hl').
  { unfold sl_fuel. pose proof (wf_size _ _ Hwf). lia. }
  cbn [obind]. destruct b; [by eexists|]. apply IH; [lia|lia|done].
Qed.
Lemma score_rank_safe s es f o : wf s es → (∃ r, sl_min_score_rank f o s = Ret r) ∧ (∃ r, sl_max_score_rank f o s = Ret r).
Proof.
  intros Hwf. unfold sl_min_score_rank, sl_max_score_rank. destruct (is_inf f); [split; by eexists|].
  split; (match goal with |- context [descend _ s ?t ?b sl_head 0] =>
    destruct (descend_safe s es t b (sl_level s) 0 0 Hwf) as [r E]; [lia|done|lia|]; change (nid es 0) with sl_head in E; rewrite E; by eexists end).
Qed.
Lemma sl_count_safe s es mn mo mx mxo : wf s es → ∃ n, sl_count mn mo mx mxo s = Ret n.
Proof.
  intros Hwf. unfold sl_count. destruct (_ && _); [by eexists|].
  destruct (score_rank_safe s es mn mo Hwf) as [[r1 ->] _]. destruct (score_rank_safe s es mx mxo Hwf) as [_ [r2 ->]]. cbn [obind].
  destruct (_ <=? _); [by eexists|]. destruct (_ <? _); by eexists.
Qed.
Lemma sl_range_by_score_safe ext s es mn mo mx mxo ws : wf s es → Z.of_nat (length es) < two63 →
  ∃ l, sl_range_by_score ext mn mo mx mxo ws s = Ret l.
Proof.
  intros Hwf Hlen. unfold sl_range_by_score. destruct (_ && _); [rewrite (sl_range_ok ext s es) by done; by eexists|].
  destruct (score_rank_safe s es mn mo Hwf) as [[r1 ->] _]. destruct (score_rank_safe s es mx mxo Hwf) as [_ [r2 ->]]. cbn [obind].
  destruct (_ <=? _); [rewrite (sl_range_ok ext s es) by done; by eexists|].
  destruct (_ <? _); rewrite (sl_range_ok ext s es) by done; by eexists.
Qed.
