(** Delete, score update, ranks and ranges on a sorted skip list. *)
From Coq Require Import ZifyBool Sorting.Sorted.
From Verif Require Import GoBase GoBaseProofs DList Float64 Float64Proofs SkipList SkipListProofs SkipListOps SpecList SpecZSet.
Implicit Types (s : skiplist) (es : list ent) (level N n m : nat).

(** the invariant of the index: well formed, strictly sorted by (score, member), no NaN *)
Record zinv s es : Prop := {
  zi_wf : wf s es;
  zi_sorted : zsorted es;
  zi_num : Forall (λ e, is_nan (e_sc e) = false) es
}.

Lemma zinv_new : zinv sl_new [].
Proof. split; [apply wf_new|constructor|constructor]. Qed.

(** ** Sorted insertion *)
Lemma ins_S N e x es : ins (S N) e (x :: es) = x :: ins N e es.
Proof. done. Qed.
Lemma ins_0 e es : ins 0 e es = e :: es.
Proof. unfold ins. by rewrite take_0, drop_0. Qed.

Lemma ins_place N e es :
  (N ≤ length es)%nat →
  (∀ p f, es !! p = Some f → zlt (e_key f) (e_key e) = bool_decide (p < N)%nat) →
  e_key <$> ins N e es = zplace (e_key e) (e_key <$> es).
Proof.
  revert N. induction es as [|x es IH]; intros N HN Hs.
  - destruct N; [|simpl in HN; lia]. done.
  - cbn [fmap list_fmap zplace]. rewrite (Hs 0%nat x) by done. destruct N as [|N].
    + rewrite bool_decide_eq_false_2 by lia. by rewrite ins_0.
    + rewrite bool_decide_eq_true_2 by lia. rewrite ins_S. cbn [fmap list_fmap]. f_equal.
      apply IH; [simpl in HN; lia|]. intros p f Hf. rewrite (Hs (S p) f) by done. apply bool_decide_ext. lia.
Qed.

Lemma ins_sorted N e es :
  zsorted es → Forall (λ e, is_nan (e_sc e) = false) es → is_nan (e_sc e) = false →
  (N ≤ length es)%nat →
  (∀ p f, es !! p = Some f → zlt (e_key f) (e_key e) = bool_decide (p < N)%nat) →
  Forall (λ f, zeq (e_key f) (e_key e) = false) es →
  zsorted (ins N e es).
Proof.
  intros Hs Hn He HN Hsp Hne. revert N HN Hsp.
  induction Hs as [|x es Hs IH Hx]; intros N HN Hsp.
  - destruct N; [|simpl in HN; lia]. rewrite ins_0. repeat constructor.
  - apply Forall_cons in Hn as [Hn1 Hn2]. apply Forall_cons in Hne as [Hne1 Hne2].
    destruct N as [|N].
    + rewrite ins_0.
      assert (Hex : zlt (e_key e) (e_key x) = true).
      { destruct (zlt (e_key e) (e_key x)) eqn:E; [done|].
        pose proof (Hsp 0%nat x eq_refl) as H0. rewrite bool_decide_eq_false_2 in H0 by lia.
        rewrite (zlt_total (e_key x) (e_key e)) in Hne1; done. }
      constructor; [by constructor|]. constructor; [done|].
      eapply Forall_impl; [exact Hx|]. intros f Hf. by eapply zlt_trans.
    + rewrite ins_S. constructor.
      * apply IH; [done|done|simpl in HN; lia|]. intros p f Hf. rewrite (Hsp (S p) f) by done.
        apply bool_decide_ext. lia.
      * rewrite (ins_perm N). constructor; [|done].
        rewrite (Hsp 0%nat x) by done. apply bool_decide_eq_true_2. lia.
Qed.

Lemma zlt_feq_r k a b : feq a.1 b.1 = true → a.2 = b.2 → zlt k a = zlt k b.
Proof.
  intros H1 H2. unfold zlt. rewrite (flt_feq_r _ _ _ H1), H2.
  rewrite (feq_sym k.1 a.1), (feq_feq_l _ _ _ H1), (feq_sym k.1 b.1). done.
Qed.

Lemma insert_zinv s es sc v level :
  zinv s es → (sl_level s < max_level)%nat → (1 ≤ level ≤ max_level)%nat → is_nan sc = false →
  Forall (λ f, zeq (e_key f) (sc, v) = false) es →
  ∃ s' N, sl_insert level sc v s = Ret (s', sl_fresh s) ∧ (N ≤ length es)%nat ∧
    zinv s' (ins N (Ent (sl_fresh s) sc v level) es) ∧
    e_key <$> ins N (Ent (sl_fresh s) sc v level) es = zplace (sc, v) (e_key <$> es) ∧
    sl_level s' = Nat.max (sl_level s) level ∧
    zi_score <$> sl_nodes s' !! sl_fresh s = Some sc ∧
    (∀ y, y ≠ sl_fresh s → zi_score <$> sl_nodes s' !! y = zi_score <$> sl_nodes s !! y).
Proof.
  intros [Hwf Hs Hn] Hlt Hlev Hsc Hne.
  destruct (key_split es (sc, v) Hs) as (N & HN & Hsp).
  destruct (sl_insert_ok s es sc v level N Hwf Hlt Hlev HN Hsp) as (s' & E & Hwf' & Hl' & Hsc').
  exists s', N. split; [done|]. split; [done|]. split; [|split; [|split; [done|split; [|done]]]].
  - split; [done| |].
    + by apply ins_sorted.
    + rewrite (ins_perm N). by constructor.
  - by apply (ins_place N (Ent (sl_fresh s) sc v level)).
  - pose proof (wf_nodes _ _ Hwf' N _ (ins_eq N _ es HN)) as Hnd. cbn [e_id] in Hnd. by rewrite Hnd.
Qed.

(** ** Locating an element *)
Lemma key_at es n e : zsorted es → es !! n = Some e →
  ∀ p f, es !! p = Some f → zlt (e_key f) (e_key e) = bool_decide (p < n)%nat.
Proof.
  intros Hs He p f Hf. destruct (lt_eq_lt_dec p n) as [[Hp|Hp]|Hp].
  - rewrite bool_decide_eq_true_2 by done. by eapply zsorted_lookup.
  - subst. simplify_eq. rewrite bool_decide_eq_false_2 by lia. apply zlt_irrefl.
  - rewrite bool_decide_eq_false_2 by lia. apply zlt_asym. by eapply zsorted_lookup.
Qed.

Lemma split_ins es n e : es !! n = Some e → es = ins n e (delete n es) ∧ (n ≤ length (delete n es))%nat.
Proof.
  intros He. pose proof (lookup_lt_Some _ _ _ He) as Hlt. split.
  - unfold ins. rewrite delete_take_drop.
    rewrite take_app_le by (rewrite take_length; lia). rewrite take_take, Nat.min_id.
    rewrite drop_app_ge by (rewrite take_length; lia).
    rewrite take_length. replace (n - n `min` length es)%nat with 0%nat by lia. rewrite drop_0.
    by rewrite take_drop_middle.
  - rewrite length_delete by eauto. lia.
Qed.

Lemma delete_ins N e es : (N ≤ length es)%nat → delete N (ins N e es) = es.
Proof.
  intros HN. unfold ins. assert (HNl : N = length (take N es)) by (rewrite take_length; lia).
  rewrite HNl at 1. by rewrite delete_middle, take_drop.
Qed.

Lemma sorted_delete es n : zsorted es → zsorted (delete n es).
Proof.
  intros Hs. revert n. induction Hs as [|x es Hs IH Hx]; intros n; [destruct n; constructor|].
  destruct n as [|n]; [done|]. simpl. constructor; [apply IH|].
  apply Forall_delete. done.
Qed.

(** the node found by the descent *)
Lemma update_search_found s es n e sc v :
  zinv s es → es !! n = Some e → feq (e_sc e) sc = true → e_val e = v →
  ∃ update,
    update_search (sl_level s) s sc v sl_head (replicate max_level None) = Ret (nid es n, update) ∧
    (∀ i, (i < sl_level s)%nat → arr_ok (sl_level s) es n i update).
Proof.
  intros [Hwf Hs Hn] He Hsc Hv. pose proof (wf_level _ _ Hwf) as Hlev.
  pose proof (lookup_lt_Some _ _ _ He) as Hlt.
  assert (Hsp : ∀ p f, es !! p = Some f → zlt (e_key f) (sc, v) = bool_decide (p < n)%nat).
  { intros p f Hf. rewrite <- (key_at es n e Hs He p f Hf). symmetry. by apply zlt_feq_r. }
  destruct (update_search_ok s es sc v n (sl_level s) 0 (replicate max_level None))
    as (a & update & E & Hlu & Hz & _ & Harr & _); try done; [lia|lia|lia|].
  exists update. split; [|done]. change (nid es 0) with sl_head in E. rewrite E.
  by rewrite (upos_zero s es n a Hwf ltac:(lia) (Hz ltac:(lia))).
Qed.

Lemma level0_next s es a : wf s es → (a ≤ length es)%nat →
  ∃ z, sl_links s !! (nid es a, 0%nat) = Some (e_id <$> es !! a, z).
Proof.
  intros Hwf Ha. pose proof (wf_level _ _ Hwf) as Hlev.
  assert (Hl : lvl_ok (sl_level s) es a 0).
  { destruct a as [|q]; simpl; [lia|]. destruct (lookup_lt_is_Some_2 es q) as [e He]; [lia|].
    exists e. split; [done|]. pose proof (wf_hts _ _ Hwf _ _ He). lia. }
  rewrite (wf_links _ _ Hwf _ _ Hl). rewrite <- (hop0 s es a Hwf).
  destruct (hop 0 (drop a es)) as [fw z]. by exists z.
Qed.

Lemma delete_eq_bools s es n e sc v :
  zinv s es → es !! n = Some e →
  zeq (e_key e) (sc, v) = feq (e_sc e) sc && String.eqb (e_val e) v.
Proof. intros _ _. unfold zeq, e_key. simpl. f_equal. by destruct (String.eqb_spec (e_val e) v); case_bool_decide. Qed.

Lemma sl_delete_found s es n e sc v :
  zinv s es → es !! n = Some e → (n ≤ 1)%nat → feq (e_sc e) sc = true → e_val e = v →
  ∃ s', sl_delete sc v s = Ret (s', 1) ∧ zinv s' (delete n es) ∧
    (sl_level s' ≤ sl_level s)%nat ∧ sl_fresh s' = sl_fresh s ∧
    (∀ y, zi_score <$> sl_nodes s' !! y = zi_score <$> sl_nodes s !! y) ∧
    (∀ y, zi_val <$> sl_nodes s' !! y = zi_val <$> sl_nodes s !! y).
Proof.
  intros Hinv He Hn1 Hsc Hv. pose proof Hinv as [Hwf Hs Hn].
  pose proof (lookup_lt_Some _ _ _ He) as Hlt.
  destruct (update_search_found s es n e sc v Hinv He Hsc Hv) as (update & E & Harr).
  unfold sl_delete.
  assert (Hsp : ∀ p f, es !! p = Some f → zlt (e_key f) (sc, v) = bool_decide (p < n)%nat).
  { intros p f Hf. rewrite <- (key_at es n e Hs He p f Hf). symmetry. by apply zlt_feq_r. }
  pose proof (delete_search_eq s es sc v n (sl_level s) 0 (replicate max_level None)) as Eq.
  change (nid es 0) with sl_head in Eq. rewrite Eq; try done; [|lia|lia|lia]. clear Eq.
  rewrite E. cbn [obind].
  destruct (level0_next s es n Hwf) as [z Hz]; [lia|]. unfold lk. rewrite Hz, He. cbn [deref obind fmap option_fmap option_map].
  unfold zn. rewrite (wf_nodes _ _ Hwf _ _ He). cbn [deref obind zi_score zi_val].
  rewrite Hsc, Hv, String.eqb_refl. cbn [andb].
  destruct (split_ins es n e He) as [Hes Hle].
  destruct (sl_delete_node_ok s (delete n es) n e update) as (s' & Ed & Hwf' & Hl' & Hf' & Hsc').
  { done. } { by rewrite <- Hes. } { by rewrite <- Hes. }
  rewrite Ed. cbn [obind]. exists s'. split; [done|]. split; [|done].
  split; [done|by apply sorted_delete|by apply Forall_delete].
Qed.

(** the one-step descent always stays on nodes of the list *)
Lemma delete_search_safe s es sc v n a update :
  wf s es → (n ≤ sl_level s)%nat → (a ≤ length es)%nat →
  (n = sl_level s → a = 0%nat) →
  ((n < sl_level s)%nat → lvl_ok (sl_level s) es a n) →
  ∃ a' update', delete_search n s sc v (nid es a) update = Ret (nid es a', update') ∧
    (a' ≤ length es)%nat.
Proof.
  intros Hwf. revert a update. induction n as [|i IH]; intros a update Hn Ha Htop Hbelow.
  - by exists a, update.
  - cbn [delete_search].
    assert (Hlv : lvl_ok (sl_level s) es a i).
    { destruct (decide (S i = sl_level s)) as [E|E].
      - rewrite Htop by done. simpl. lia.
      - apply (lvl_ok_mono _ _ _ (S i)); [lia|]. apply Hbelow. lia. }
    unfold lk. rewrite (wf_links _ _ Hwf _ _ Hlv). cbn [deref obind].
    destruct (hop_cases i (drop a es)) as [Hall|(A & e & B & E & HA & He)].
    + rewrite hop_none by done. cbn [obind]. apply IH; [lia|lia|lia|done].
    + rewrite E, hop_hit by done. destruct (drop_split _ _ _ _ _ E) as (Hq & _ & _).
      unfold zn. rewrite (wf_nodes _ _ Hwf _ _ Hq). cbn [deref obind].
      destruct (key_lt _ _ _ _).
      * rewrite <- (nid_S _ _ _ Hq). apply IH; [lia| |lia|].
        -- apply lookup_lt_Some in Hq. lia.
        -- intros _. by exists e.
      * apply IH; [lia|lia|lia|done].
Qed.

Lemma sl_delete_absent s es sc v :
  zinv s es → Forall (λ f, zeq (e_key f) (sc, v) = false) es → sl_delete sc v s = Ret (s, 0).
Proof.
  intros Hinv Hne. pose proof Hinv as [Hwf Hs Hn]. unfold sl_delete.
  destruct (delete_search_safe s es sc v (sl_level s) 0 (replicate max_level None) Hwf)
    as (a & update & E & Ha); [lia|lia|done|lia|].
  change (nid es 0) with sl_head in E. rewrite E. cbn [obind].
  destruct (level0_next s es a Hwf Ha) as [z Hz]. unfold lk. rewrite Hz. cbn [deref obind].
  destruct (es !! a) as [e|] eqn:He; cbn [fmap option_fmap option_map]; [|done].
  unfold zn. rewrite (wf_nodes _ _ Hwf _ _ He). cbn [deref obind zi_score zi_val].
  rewrite <- (delete_eq_bools s es a e sc v Hinv He).
  rewrite Forall_lookup in Hne. by rewrite (Hne _ _ He).
Qed.

(** ** updateScore *)
Lemma set_score_wf s es n e newsc :
  wf s es → es !! n = Some e →
  wf (set_score (e_id e) newsc s) (<[n := Ent (e_id e) newsc (e_val e) (e_h e)]> es).
Proof.
  intros Hwf He. pose proof (lookup_lt_Some _ _ _ He) as Hlt.
  set (e' := Ent (e_id e) newsc (e_val e) (e_h e)). set (es' := <[n:=e']> es).
  assert (Hids : e_id <$> es' = e_id <$> es).
  { unfold es'. rewrite list_fmap_insert. apply list_insert_id. by rewrite list_lookup_fmap, He. }
  assert (Hlk : ∀ p f', es' !! p = Some f' → ∃ f, es !! p = Some f ∧ e_id f' = e_id f ∧
      e_val f' = e_val f ∧ e_h f' = e_h f ∧ e_sc f' = if decide (p = n) then newsc else e_sc f).
  { intros p f' Hf. unfold es' in Hf. destruct (decide (p = n)) as [->|Hne].
    - rewrite list_lookup_insert in Hf by done. simplify_eq. exists e. done.
    - rewrite list_lookup_insert_ne in Hf by done. by exists f'. }
  assert (Hback : ∀ p, back_of es' p = back_of es p).
  { intros [|q]; [done|]. simpl. rewrite <- !list_lookup_fmap. by rewrite Hids. }
  assert (Hnid : ∀ p, nid es' p = nid es p).
  { intros [|q]; [done|]. simpl. unfold es'. destruct (decide (q = n)) as [->|Hne].
    - rewrite list_lookup_insert, He by done. done.
    - by rewrite list_lookup_insert_ne. }
  assert (Hhop : ∀ i p, hop i (drop p es') = hop i (drop p es)).
  { intros i p. destruct (decide (n < p)%nat) as [Hp|Hp].
    - unfold es'. by rewrite drop_insert_gt by lia.
    - unfold es'. rewrite drop_insert_le by lia.
      assert (Hd : drop p es !! (n - p)%nat = Some e).
      { rewrite lookup_drop. by replace (p + (n - p))%nat with n by lia. }
      clear -Hd. revert Hd. generalize (n - p)%nat. generalize (drop p es). intros l.
      induction l as [|x l IH]; intros k Hk; [done|]. destruct k as [|k]; simpl in *.
      + simplify_eq. done.
      + by rewrite IH. }
  assert (Hids0 : NoDup (e_id <$> es)) by (pose proof (wf_ids _ _ Hwf) as H; by apply NoDup_cons in H as [_ H]).
  split; simpl.
  - rewrite Hids. apply Hwf.
  - rewrite lookup_alter_ne; [apply Hwf|]. intros E.
    pose proof (wf_ids _ _ Hwf) as H. apply NoDup_cons in H as [H _]. apply H.
    apply elem_of_list_fmap. exists e. split; [done|]. by eapply elem_of_list_lookup_2.
  - intros p f' Hf'. destruct (Hlk p f' Hf') as (f & Hf & E1 & E2 & E3 & E4).
    rewrite Hback, E1, E2, E4. destruct (decide (p = n)) as [->|Hne].
    + assert (f = e) as -> by congruence. rewrite lookup_alter, (wf_nodes _ _ Hwf _ _ He). done.
    + rewrite lookup_alter_ne; [by rewrite (wf_nodes _ _ Hwf _ _ Hf)|]. intros E. apply Hne.
      eapply (NoDup_lookup (e_id <$> es)); [done| |].
      * by rewrite list_lookup_fmap, Hf.
      * rewrite list_lookup_fmap, He. simpl. by rewrite E.
  - intros p i Hp. rewrite Hnid, Hhop. apply (wf_links _ _ Hwf).
    destruct p as [|q]; [done|]. destruct Hp as (f' & Hf' & Hi).
    destruct (Hlk q f' Hf') as (f & Hf & E1 & E2 & E3 & E4). exists f. split; [done|]. by rewrite <- E3.
  - apply Hwf.
  - intros p f' Hf'. destruct (Hlk p f' Hf') as (f & Hf & E1 & E2 & E3 & E4). rewrite E3.
    apply (wf_hts _ _ Hwf _ _ Hf).
  - apply Hwf.
  - rewrite (wf_len _ _ Hwf). unfold es'. by rewrite insert_length.
  - intros a [nd Ha]. apply (wf_fresh _ _ Hwf). apply lookup_alter_Some in Ha.
    destruct Ha as [(Ea & n' & Hn' & _)|[_ Hn']]; try rewrite Ea in Hn'; rewrite Hn'; eauto.
Qed.

Lemma zplace_last k l : Forall (λ x, zlt x k = true) l → zplace k l = l ++ [k].
Proof. induction 1 as [|x l Hx _ IH]; simpl; [done|]. by rewrite Hx, IH. Qed.
Lemma zplace_app k l r : Forall (λ x, zlt x k = true) l → zplace k (l ++ r) = l ++ zplace k r.
Proof. induction 1 as [|x l Hx _ IH]; simpl; [done|]. by rewrite Hx, IH. Qed.

Lemma delete_fmap {A B} (f : A → B) (l : list A) n : f <$> delete n l = delete n (f <$> l).
Proof. revert n. induction l as [|x l IH]; intros [|n]; simpl; try done. f_equal. apply IH. Qed.

Lemma update_score_zinv s es n e cur new level v :
  zinv s es → es !! n = Some e → feq (e_sc e) cur = true → e_val e = v → is_nan new = false →
  (sl_level s < max_level)%nat → (1 ≤ level ≤ max_level)%nat →
  (∀ p f, es !! p = Some f → e_val f = v → p = n) →
  ∃ s' x es' m e', sl_update_score level cur new v s = Ret (s', Some x) ∧ zinv s' es' ∧
    e_key <$> es' = zplace (new, v) (delete n (e_key <$> es)) ∧
    es' !! m = Some e' ∧ e_id e' = x ∧ e_val e' = v ∧ e_sc e' = new ∧
    delete m es' = delete n es ∧ (x = e_id e ∨ x = sl_fresh s) ∧
    (sl_level s' ≤ Nat.max (sl_level s) level)%nat ∧
    (∀ y, y ≠ x → zi_score <$> sl_nodes s' !! y = zi_score <$> sl_nodes s !! y).
Proof.
  intros Hinv He Hcur Hv Hnew Hlt Hlev Huniq. pose proof Hinv as [Hwf Hs Hn].
  pose proof (lookup_lt_Some _ _ _ He) as Hnl.
  destruct (update_search_found s es n e cur v Hinv He Hcur Hv) as (update & E & Harr).
  unfold sl_update_score. rewrite E. cbn [obind].
  destruct (level0_next s es n Hwf) as [z Hz]; [lia|]. unfold lk at 1. rewrite Hz, He.
  cbn [deref obind fmap option_fmap option_map].
  unfold zn at 1. rewrite (wf_nodes _ _ Hwf _ _ He). cbn [deref obind zi_score zi_val zi_back].
  rewrite Hcur, Hv, String.eqb_refl. cbn [negb orb].
  assert (Hback : (match back_of es n with
      | None => Ret true | Some b => let* bn := zn b s in Ret (flt (zi_score bn) new) end) =
      Ret (match n with O => true | S q => from_option (λ f, flt (e_sc f) new) true (es !! q) end)).
  { destruct n as [|q]; [done|]. simpl. destruct (lookup_lt_is_Some_2 es q) as [f Hf]; [lia|].
    rewrite Hf. simpl. unfold zn. rewrite (wf_nodes _ _ Hwf _ _ Hf). done. }
  rewrite Hback. clear Hback. cbn [obind].
  set (bok := match n with O => true | S q => from_option (λ f, flt (e_sc f) new) true (es !! q) end).
  set (fok := from_option (λ f, flt new (e_sc f)) true (es !! S n)).
  assert (Hfwd : (if bok then
             let* (xf, _) := lk (e_id e) 0 s in
             match xf with
             | None => Ret true
             | Some y => let* yn := zn y s in Ret (flt new (zi_score yn))
             end
           else Ret false) = Ret (bok && fok)).
  { destruct bok; [|done]. rewrite <- (nid_S _ _ _ He).
    destruct (level0_next s es (S n) Hwf) as [z' Hz']; [lia|]. unfold lk. rewrite Hz'. cbn [deref obind].
    unfold fok. destruct (es !! S n) as [f|] eqn:Hf; simpl; [|done].
    unfold zn. rewrite (wf_nodes _ _ Hwf _ _ Hf). done. }
  rewrite Hfwd. clear Hfwd. cbn [obind].
  destruct (split_ins es n e He) as [Hes Hle].
  assert (Hdel : zsorted (delete n es)) by by apply sorted_delete.
  assert (Hnovals : Forall (λ f, e_val f ≠ v) (delete n es)).
  { rewrite Forall_lookup. intros p f Hf Hfv. rewrite Hes in Huniq.
    destruct (decide (p < n)%nat) as [Hp|Hp].
    - rewrite <- (ins_lt n e) in Hf by done. pose proof (Huniq p f Hf Hfv). lia.
    - rewrite <- (ins_gt n e) in Hf by lia. pose proof (Huniq (S p) f Hf Hfv). lia. }
  destruct (bok && fok) eqn:Estay.
  - apply andb_true_iff in Estay as [Eb Ef].
    set (e' := Ent (e_id e) new (e_val e) (e_h e)).
    assert (Heq : <[n:=e']> es = ins n e' (delete n es)).
    { rewrite Hes at 1. unfold ins at 1. rewrite insert_app_r_alt by (rewrite take_length; lia).
      rewrite take_length. replace (n - n `min` length (delete n es))%nat with 0%nat by lia. done. }
    assert (Hsp : ∀ p f, delete n es !! p = Some f → zlt (e_key f) (e_key e') = bool_decide (p < n)%nat).
    { intros p f Hf. destruct (decide (p < n)%nat) as [Hp|Hp].
      - rewrite bool_decide_eq_true_2 by done. rewrite <- (ins_lt n e), <- Hes in Hf by done.
        destruct n as [|q]; [lia|]. unfold bok in Eb.
        destruct (lookup_lt_is_Some_2 es q) as [g Hg]; [lia|]. rewrite Hg in Eb. simpl in Eb.
        assert (Hge : zlt (e_key g) (e_key e') = true) by (unfold zlt; simpl; by rewrite Eb).
        destruct (decide (p = q)) as [->|Hpq]; [congruence|].
        eapply zlt_trans; [|exact Hge]. eapply zsorted_lookup; [exact Hs| |exact Hf|exact Hg]. lia.
      - rewrite bool_decide_eq_false_2 by done. rewrite <- (ins_gt n e), <- Hes in Hf by lia.
        apply zlt_asym. unfold fok in Ef.
        destruct (es !! S n) as [g|] eqn:Hg; simpl in Ef.
        + assert (Hge : zlt (e_key e') (e_key g) = true) by (unfold zlt; simpl; by rewrite Ef).
          destruct (decide (p = n)) as [->|Hpn]; [congruence|].
          eapply zlt_trans; [exact Hge|]. eapply zsorted_lookup; [exact Hs| |exact Hg|exact Hf]. lia.
        + apply lookup_ge_None in Hg. apply lookup_lt_Some in Hf. lia. }
    exists (set_score (e_id e) new s), (e_id e), (<[n:=e']> es), n, e'.
    split; [done|]. split; [|split; [|split; [|split; [done|split; [done|split; [done|split]]]]]].
    + split; [by apply set_score_wf| |].
      * rewrite Heq. apply ins_sorted; [done|by apply Forall_delete|done|done|done|].
        eapply Forall_impl; [exact Hnovals|]. intros f Hf. unfold zeq, e_key. simpl.
        rewrite bool_decide_eq_false_2 by (by rewrite Hv). by rewrite andb_false_r.
      * apply Forall_insert; [done|]. done.
    + rewrite Heq. rewrite (ins_place n e' (delete n es)) by done.
      rewrite delete_fmap. unfold e_key at 1. simpl. by rewrite Hv.
    + by rewrite list_lookup_insert.
    + rewrite Heq. by apply delete_ins.
    + split; [by left|]. split; [simpl; lia|].
      intros y Hy. simpl. by rewrite lookup_alter_ne.
  - destruct (sl_delete_node_ok s (delete n es) n e update) as (s1 & Ed & Hwf1 & Hl1 & Hf1 & Hsc1).
    { done. } { by rewrite <- Hes. } { by rewrite <- Hes. }
    rewrite Ed. cbn [obind].
    destruct (insert_zinv s1 (delete n es) new v level) as (s2 & N & Ei & HN & Hinv2 & Hk & Hl2 & Hx & Hsc2).
    { split; [done|done|by apply Forall_delete]. } { lia. } { done. } { done. }
    { eapply Forall_impl; [exact Hnovals|]. intros f Hf. unfold zeq, e_key. simpl.
      rewrite bool_decide_eq_false_2 by done. by rewrite andb_false_r. }
    rewrite Ei. cbn [obind].
    eexists _, _, _, N, _. split; [reflexivity|]. split; [exact Hinv2|].
    split; [by rewrite Hk, delete_fmap|].
    split; [by rewrite ins_eq|]. split; [done|]. split; [done|]. split; [done|]. split.
    + by apply delete_ins.
    + split; [right; congruence|]. split; [lia|]. intros y Hy. rewrite Hsc2 by done. apply Hsc1.
Qed.

(** ** Search that only reads: rank, minScoreRank, maxScoreRank *)
Lemma descend_ok s es test brk N n a :
  wf s es → (N ≤ length es)%nat →
  (∀ p e, es !! p = Some e → test (info_of es p e) (Z.of_nat p + 1) = bool_decide (p < N)%nat) →
  (n ≤ sl_level s)%nat → (a ≤ N)%nat → (n = 0%nat → a = N) →
  (n = sl_level s → a = 0%nat) →
  ((n < sl_level s)%nat → lvl_ok (sl_level s) es a n) →
  ∃ a' adj, descend n s test brk (nid es a) (Z.of_nat a) = Ret (Z.of_nat a' + adj) ∧ (a ≤ a' ≤ N)%nat ∧
    ((adj = 0 ∧ a' = N ∧ (a = N ∨ ∃ q e cur, a' = S q ∧ es !! q = Some e ∧ brk cur (info_of es q e) = None)) ∨
     (∃ q e cur, a' = S q ∧ es !! q = Some e ∧ brk cur (info_of es q e) = Some adj)).
Proof.
  intros Hwf HN Htest. revert a. induction n as [|i IH]; intros a Hn Ha H0 Htop Hbelow.
  - exists a, 0. split; [cbn [descend]; f_equal; lia|]. rewrite H0 by done. split; [lia|]. left. split; [done|]. split; [done|]. by left.
  - cbn [descend].
    assert (Hlv : lvl_ok (sl_level s) es a i).
    { destruct (decide (S i = sl_level s)) as [E|E].
      - rewrite Htop by done. simpl. lia.
      - apply (lvl_ok_mono _ _ _ (S i)); [lia|]. apply Hbelow. lia. }
    destruct (walk_ok s es test brk i N 0 (sl_fuel s) a Hwf HN) as (a' & b & adj & Ew & Ha' & Hl' & Hb1 & Hb2 & Hb3).
    { intros p e He. rewrite Z.add_0_l. by apply Htest. } { done. } { done. }
    { unfold sl_fuel. pose proof (wf_size _ _ Hwf). lia. }
    rewrite !Z.add_0_l in Ew. rewrite Ew. cbn [obind]. destruct b.
    + destruct (Hb2 eq_refl) as (q & e & cur & -> & Hq & He & Hbr).
      exists (S q), adj. split; [done|]. split; [lia|]. right. by exists q, e, cur.
    + destruct (Hb1 eq_refl) as [-> Hall]. rewrite Z.add_0_r.
      pose proof (wf_level _ _ Hwf) as Hlev.
      destruct (IH a') as (a'' & adj & E & Ha'' & Hcase).
      { lia. } { lia. }
      { intros ->. apply (upos_zero s es N); [done|done|]. split; [lia|]. done. }
      { lia. } { done. }
      exists a'', adj. split; [done|]. split; [lia|].
      destruct Hcase as [(-> & -> & Hc)|Hc]; [|by right]. left. split; [done|]. split; [done|].
      destruct Hc as [->|Hc]; [|by right].
      destruct (Hb3 eq_refl) as [->|(q & e & cur & H1 & H2 & H3)]; [by left|]. right. by exists q, e, cur.
Qed.

Lemma str_leb_spec a b : str_leb a b = str_ltb a b || String.eqb a b.
Proof.
  unfold str_leb. destruct (String.eqb_spec a b) as [->|Hne].
  - by rewrite str_ltb_irrefl, orb_true_r.
  - rewrite orb_false_r. destruct (str_ltb a b) eqn:E1.
    + destruct (str_ltb b a) eqn:E2; [|done].
      pose proof (str_ltb_trans _ _ _ E1 E2) as H. by rewrite str_ltb_irrefl in H.
    + destruct (str_ltb b a) eqn:E2; [done|]. destruct Hne. by apply str_ltb_total.
Qed.

Lemma sl_rank_found s es n e sc v :
  zinv s es → es !! n = Some e → feq (e_sc e) sc = true → e_val e = v →
  sl_rank sc v s = Ret (Z.of_nat n + 1).
Proof.
  intros [Hwf Hs Hn] He Hsc Hv. pose proof (lookup_lt_Some _ _ _ He) as Hlt.
  pose proof (wf_level _ _ Hwf) as Hlev.
  unfold sl_rank.
  assert (Hat : ∀ p f, es !! p = Some f → zlt (e_key f) (sc, v) = bool_decide (p < n)%nat).
  { intros p f Hf. rewrite <- (key_at es n e Hs He p f Hf). symmetry. by apply zlt_feq_r. }
  assert (Heqn : ∀ p f, es !! p = Some f → feq (e_sc f) sc && String.eqb (e_val f) v = bool_decide (p = n)).
  { intros p f Hf. case_bool_decide as Hp.
    - subst p. simplify_eq. by rewrite Hsc, String.eqb_refl.
    - apply not_true_is_false. intros H. apply andb_true_iff in H as [H1 H2].
      apply String.eqb_eq in H2.
      assert (Hk : ∀ k, zlt k (e_key f) = zlt k (e_key e)).
      { intros k. apply zlt_feq_r; simpl; [|congruence]. rewrite (feq_feq_l _ _ _ H1). by rewrite feq_sym. }
      destruct (lt_eq_lt_dec p n) as [[Hpn|]|Hpn]; [|done|].
      + pose proof (zsorted_lookup _ _ _ _ _ Hs Hpn Hf He) as H. rewrite <- Hk, zlt_irrefl in H. done.
      + pose proof (zsorted_lookup _ _ _ _ _ Hs Hpn He Hf) as H. rewrite Hk, zlt_irrefl in H. done. }
  destruct (descend_ok s es
    (λ nd _, flt (zi_score nd) sc || (feq (zi_score nd) sc && str_leb (zi_val nd) v))
    (λ _ nd, if feq (zi_score nd) sc && String.eqb (zi_val nd) v then Some 0 else None)
    (S n) (sl_level s) 0 Hwf) as (a' & adj & E & Ha & Hcase); try lia.
  { intros p f Hf. cbn [info_of zi_score zi_val].
    transitivity (zlt (e_key f) (sc, v) || (feq (e_sc f) sc && String.eqb (e_val f) v)).
    - rewrite str_leb_spec. unfold zlt. simpl. by destruct (flt (e_sc f) sc), (feq (e_sc f) sc).
    - rewrite (Hat _ _ Hf), (Heqn _ _ Hf). repeat case_bool_decide; try done; lia. }
  change (nid es 0) with sl_head in E. change (Z.of_nat 0) with 0 in E. rewrite E. f_equal.
  destruct Hcase as [(-> & -> & Hc)|(q & f & cur & -> & Hf & Hb)].
  - exfalso. destruct Hc as [Hc|(q & f & cur & Hq & Hf & Hb)]; [lia|].
    assert (q = n) as -> by lia. cbn [info_of zi_score zi_val] in Hb.
    rewrite (Heqn _ _ Hf), bool_decide_eq_true_2 in Hb by done. done.
  - cbn [info_of zi_score zi_val] in Hb. rewrite (Heqn _ _ Hf) in Hb.
    case_bool_decide as Hq; [|done]. simplify_eq. lia.
Qed.

(** ** findElementByRank *)
Lemma u64_small z : 0 ≤ z < two64 → u64 z = z.
Proof. intros. unfold u64. by apply Z.mod_small. Qed.

Lemma find_rank_loop_ok s es rank n a :
  wf s es → Z.of_nat (length es) < two64 - 1 → 0 ≤ rank < two64 →
  (n ≤ sl_level s)%nat → (Z.of_nat a ≤ rank) → (a ≤ length es)%nat →
  (n = 0%nat → Z.of_nat a ≠ rank ∧ Z.of_nat (length es) < rank) →
  (n = sl_level s → a = 0%nat) →
  ((n < sl_level s)%nat → lvl_ok (sl_level s) es a n ∧ Z.of_nat a ≠ rank) →
  find_rank_loop n s rank (nid es a) (Z.of_nat a) =
    Ret (if rank <=? Z.of_nat (length es) then Some (nid es (Z.to_nat rank)) else None).
Proof.
  intros Hwf Hlen Hr. revert a. induction n as [|i IH]; intros a Hn Har Hal H0 Htop Hbelow.
  - simpl. destruct (H0 eq_refl) as [? ?]. replace (rank <=? _) with false by lia. done.
  - cbn [find_rank_loop].
    assert (Hlv : lvl_ok (sl_level s) es a i).
    { destruct (decide (S i = sl_level s)) as [E|E].
      - rewrite Htop by done. simpl. lia.
      - apply (lvl_ok_mono _ _ _ (S i)); [lia|]. apply Hbelow. lia. }
    set (N := Z.to_nat (Z.min rank (Z.of_nat (length es)))).
    destruct (walk_nobrk s es (λ _ r, u64 r <=? u64 rank) i N 0 a Hwf) as (a' & Ew & Haa & Hup).
    { unfold N. lia. }
    { intros p e He. apply lookup_lt_Some in He. rewrite !u64_small by lia.
      unfold N. case_bool_decide; lia. }
    { done. } { unfold N. lia. }
    rewrite !Z.add_0_l in Ew. rewrite Ew. cbn [obind].
    pose proof Hup as (Hu1 & Hu2 & Hu3).
    assert (Ha'r : Z.of_nat a' ≤ rank) by (unfold N in Hu1; lia).
    rewrite (u64_small (Z.of_nat a')), (u64_small rank) by lia.
    destruct (Z.eqb_spec (Z.of_nat a') rank) as [Heq|Hne].
    + replace (rank <=? _) with true by (unfold N in Hu1; lia). do 3 f_equal. lia.
    + apply IH; [lia|done|unfold N in Hu1; lia| | |done].
      * intros ->. split; [done|]. rewrite (upos_zero s es N a' Hwf) in Hne; [|unfold N; lia|done].
        unfold N in Hne. lia.
      * pose proof (wf_level _ _ Hwf). lia.
Qed.

Lemma find_by_rank_ok s es rank :
  wf s es → Z.of_nat (length es) < two64 - 1 → 0 ≤ rank < two64 →
  sl_find_by_rank rank s =
    Ret (if rank <=? Z.of_nat (length es) then Some (nid es (Z.to_nat rank)) else None).
Proof.
  intros Hwf Hlen Hr. pose proof (wf_level _ _ Hwf) as Hlev.
  apply (find_rank_loop_ok s es rank (sl_level s) 0 Hwf); try done; lia.
Qed.

(** ** zRange and zRevRange *)
Section ranges.
Context (ext : Ext).
Lemma range_out_ok s es ws n p acc :
  wf s es → (p + n ≤ length es)%nat →
  range_out ext n s ws (e_id <$> es !! p) acc =
    Ret (acc ++ concat (show_ent ext ws <$> (e_key <$> take n (drop p es)))).
Proof.
  intros Hwf. revert p acc. induction n as [|n IH]; intros p acc Hp.
  - simpl. by rewrite app_nil_r.
  - cbn [range_out]. destruct (lookup_lt_is_Some_2 es p) as [e He]; [lia|].
    rewrite He. cbn [fmap option_fmap option_map deref obind].
    unfold zn. rewrite (wf_nodes _ _ Hwf _ _ He). cbn [deref obind zi_val zi_score].
    destruct (level0_next s es (S p) Hwf) as [z Hz]; [lia|]. rewrite (nid_S _ _ _ He) in Hz.
    unfold lk. rewrite Hz. cbn [deref obind]. rewrite IH by lia. f_equal.
    rewrite (drop_S _ _ _ He). cbn [take fmap list_fmap concat].
    unfold show_ent at 2. cbn [fst snd e_key]. by rewrite <- !app_assoc.
Qed.

Lemma rev_range_out_ok s es ws n p acc :
  wf s es → (n ≤ S p)%nat → (p < length es)%nat →
  rev_range_out ext n s ws (e_id <$> es !! p) acc =
    Ret (acc ++ concat (show_ent ext ws <$> reverse (e_key <$> take n (drop (S p - n) es)))).
Proof.
  intros Hwf. revert p acc. induction n as [|n IH]; intros p acc Hn Hp.
  - simpl. by rewrite app_nil_r.
  - cbn [rev_range_out]. destruct (lookup_lt_is_Some_2 es p) as [e He]; [lia|].
    rewrite He. cbn [fmap option_fmap option_map deref obind].
    unfold zn. rewrite (wf_nodes _ _ Hwf _ _ He). cbn [deref obind zi_val zi_score zi_back].
    assert (Htd : take (S n) (drop (S p - S n) es) = take n (drop (p - n) es) ++ [e]).
    { replace (S p - S n)%nat with (p - n)%nat by lia. apply take_S_r. rewrite lookup_drop.
      by replace (p - n + n)%nat with p by lia. }
    rewrite Htd. rewrite fmap_app, reverse_app. cbn [fmap list_fmap]. rewrite reverse_singleton.
    rewrite fmap_app, concat_app. cbn [fmap list_fmap concat]. rewrite app_nil_r.
    destruct p as [|q].
    + assert (n = 0%nat) as -> by lia. cbn [rev_range_out]. rewrite take_0. cbn [fmap list_fmap].
      rewrite reverse_nil. cbn [fmap list_fmap concat]. rewrite app_nil_r. done.
    + cbn [back_of]. rewrite IH by lia. unfold show_ent at 2. cbn [fst snd e_key]. by rewrite <- !app_assoc.
Qed.

Lemma window_fmap {A B} (f : A → B) a b (l : list A) : window a b (f <$> l) = f <$> window a b l.
Proof. unfold window. by rewrite fmap_length, fmap_take, fmap_drop. Qed.

Lemma range_bounds_window {A} a b (l : list A) :
  match range_bounds a b (Z.of_nat (length l)) with
  | None => window a b l = []
  | Some (st, sp) => 0 ≤ st ≤ sp ∧ sp < Z.of_nat (length l) ∧
      window a b l = take (Z.to_nat (sp - st + 1)) (drop (Z.to_nat st) l)
  end.
Proof.
  unfold range_bounds, window, norm_index.
  set (len := Z.of_nat (length l)).
  assert (0 ≤ len) by lia.
  destruct (a <? 0) eqn:Ea; [destruct (a + len <? 0) eqn:Ea2|]; destruct (b <? 0) eqn:Eb.
  all: destruct (_ || _) eqn:Ec.
  all: repeat match goal with |- context [if ?c then _ - 1 else _] => destruct c eqn:? end.
  all: try (split; [lia|split; [lia|]]; f_equal; [lia|f_equal; lia]).
  all: match goal with |- take ?n (drop ?m _) = [] =>
         destruct (decide (n = 0%nat)) as [->|]; [done|]; rewrite drop_ge by lia; by rewrite take_nil end.
Qed.

Lemma sl_range_ok s es a b ws :
  wf s es → Z.of_nat (length es) < two63 →
  sl_range ext a b ws s = Ret (concat (show_ent ext ws <$> window a b (e_key <$> es))).
Proof.
  intros Hwf Hlen. unfold sl_range. rewrite (wf_len _ _ Hwf), window_fmap.
  pose proof (range_bounds_window a b es) as Hb.
  destruct (range_bounds a b (Z.of_nat (length es))) as [[st sp]|]; [|by rewrite Hb].
  destruct Hb as (H1 & H2 & ->).
  rewrite (find_by_rank_ok s es) by (unfold two63, two64 in *; done || lia).
  replace (st + 1 <=? Z.of_nat (length es)) with true by lia. cbn [obind].
  destruct (lookup_lt_is_Some_2 es (Z.to_nat st)) as [e He]; [lia|].
  replace (Z.to_nat (st + 1)) with (S (Z.to_nat st)) by lia. rewrite (nid_S _ _ _ He).
  pose proof (range_out_ok s es ws (Z.to_nat (sp - st + 1)) (Z.to_nat st) [] Hwf) as Ho.
  rewrite He in Ho. apply Ho. lia.
Qed.

Lemma sl_rev_range_ok s es a b ws :
  wf s es → Z.of_nat (length es) < two63 →
  sl_rev_range ext a b ws s = Ret (concat (show_ent ext ws <$> reverse (window a b (e_key <$> es)))).
Proof.
  intros Hwf Hlen. unfold sl_rev_range. rewrite (wf_len _ _ Hwf), window_fmap.
  pose proof (range_bounds_window a b es) as Hb.
  destruct (range_bounds a b (Z.of_nat (length es))) as [[st sp]|]; [|by rewrite Hb].
  destruct Hb as (H1 & H2 & ->).
  rewrite (find_by_rank_ok s es) by (unfold two63, two64 in *; done || lia).
  replace (sp + 1 <=? Z.of_nat (length es)) with true by lia. cbn [obind].
  destruct (lookup_lt_is_Some_2 es (Z.to_nat sp)) as [e He]; [lia|].
  replace (Z.to_nat (sp + 1)) with (S (Z.to_nat sp)) by lia. rewrite (nid_S _ _ _ He).
  pose proof (rev_range_out_ok s es ws (Z.to_nat (sp - st + 1)) (Z.to_nat sp) [] Hwf) as Ho.
  rewrite He in Ho. cbn [fmap option_fmap option_map] in Ho. rewrite Ho by lia.
  replace (S (Z.to_nat sp) - Z.to_nat (sp - st + 1))%nat with (Z.to_nat st) by lia. done.
Qed.
End ranges.
