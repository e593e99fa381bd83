(** The sorted-set commands behave as SpecServer.v says. *)
From Verif Require Import GoBase GoBaseProofs ShardMap ShardMapProofs Float64 Float64Proofs DList SkipList SkipListProofs SkipListOps
  SpecList SpecZSet SkipListMore SkipListAbsent SkipListScores Db Protocol Redis SpecCmd SpecResp SpecServer DbInv ExecSteps Obs Sim SimStr SimList.

(** the coin flips of this command stop before the maximal height *)
Definition low_draw (n : nat) : Prop := (random_level n < max_level)%nat.
Definition low_towers (c : choices) : Prop := ∀ j, low_draw (ch_lvl c j).
Lemma random_level_pos n : (1 ≤ random_level n)%nat.
Proof. unfold random_level, max_level. destruct (_ <? _)%nat; lia. Qed.

(** ** finding members in the entry list *)
Lemma zfind_None v es : zfind v es = None ↔ v ∉ es.*2.
Proof.
  unfold zfind. induction es as [|[f x] es IH]; [split; [intros _; by apply not_elem_of_nil|done]|].
  rewrite fmap_cons. cbn [snd]. destruct (decide (x = v)) as [->|Hx].
  - rewrite filter_cons_True by done. split; [done|]. intros H. exfalso. apply H. by left.
  - rewrite filter_cons_False by done. rewrite IH, not_elem_of_cons. split; [intros H; split; congruence|intros [_ H]; done].
Qed.
Lemma zdrop_cons_ne v k es : k.2 ≠ v → zdrop v (k :: es) = k :: zdrop v es.
Proof. intros H. unfold zdrop. by rewrite filter_cons_True. Qed.
Lemma zdrop_notin v es : v ∉ es.*2 → zdrop v es = es.
Proof.
  induction es as [|k es IH]; [done|]. rewrite fmap_cons, not_elem_of_cons. intros [H1 H2].
  rewrite zdrop_cons_ne by congruence. by rewrite IH.
Qed.
Lemma vals_keys (ents : list ent) : (e_key <$> ents).*2 = e_val <$> ents.
Proof. rewrite <- list_fmap_compose. done. Qed.
Lemma member_at v (ents : list ent) n e : NoDup (e_val <$> ents) → ents !! n = Some e → e_val e = v →
  zfind v (e_key <$> ents) = Some (e_sc e) ∧ zdrop v (e_key <$> ents) = delete n (e_key <$> ents) ∧
  zindex v (e_key <$> ents) = Some n.
Proof.
  intros Hn. revert n. induction ents as [|x ents IH]; intros n He Hv; [done|].
  rewrite !fmap_cons in *. apply NoDup_cons in Hn as [Hx Hn]. destruct n as [|n].
  - injection He as ->. unfold zfind, zindex. rewrite filter_cons_True by done. cbn [list_find].
    rewrite decide_True by done. split; [done|]. split; [|done]. unfold zdrop. rewrite filter_cons_False by (simpl; congruence).
    apply (zdrop_notin v (e_key <$> ents)). rewrite vals_keys. by rewrite <- Hv.
  - simpl in He. destruct (IH Hn n He Hv) as (H1 & H2 & H3).
    assert (e_val x ≠ v). { intros Hxv. apply Hx. rewrite Hxv, <- Hv. apply elem_of_list_fmap_1. by eapply elem_of_list_lookup_2. }
    unfold zfind, zindex in *. rewrite filter_cons_False by done. cbn [list_find]. rewrite decide_False by done.
    split; [done|]. split; [rewrite zdrop_cons_ne by done; by rewrite H2|].
    destruct (list_find _ (e_key <$> ents)) as [[i y]|]; [|done]. simpl in H3 |- *. congruence.
Qed.
Lemma zindex_None v es : zindex v es = None ↔ v ∉ es.*2.
Proof.
  unfold zindex. induction es as [|k es IH]; [split; [intros _; by apply not_elem_of_nil|done]|].
  rewrite fmap_cons. cbn [list_find]. destruct (decide (k.2 = v)) as [<-|Hk].
  - split; [done|]. intros H. exfalso. apply H. by left.
  - rewrite not_elem_of_cons, <- IH. destruct (list_find _ es) as [[]|]; simpl; split; try done; try (intros [_ H]; done).
Qed.

(** ** the representation *)
Lemma zrep_new : zrep zs_new [] ∅.
Proof.
  exists []. assert (∀ v, sm_map (zs_m zs_new) !! v = None) as N.
  { intros v. change (zs_m zs_new) with (@sm_new loc). by rewrite sm_new_map, lookup_empty. }
  split; [done|apply zinv_new|unfold max_level; simpl; lia|apply sm_wf_new|constructor| | |done].
  - intros e He. by apply elem_of_nil in He.
  - intros v p. by rewrite N.
Qed.

Lemma zrep_member z es gh ents v : zrep_with z es gh ents → gh !! v = None →
  match zfind v es with
  | None => sm_get (zs_m z) v = None ∧ v ∉ (e_val <$> ents) ∧ zindex v es = None
  | Some f => ∃ n e, ents !! n = Some e ∧ e_val e = v ∧ e_sc e = f ∧ sm_get (zs_m z) v = Some (e_id e) ∧
      zindex v es = Some n ∧ zdrop v es = delete n es ∧ entry_score (e_id e) z = Ret f
  end.
Proof.
  intros R Hg. pose proof (zr_keys _ _ _ _ R) as <-. destruct (zfind v (e_key <$> ents)) as [f|] eqn:E.
  - assert (Hin : v ∈ e_val <$> ents).
    { destruct (decide (v ∈ e_val <$> ents)) as [|Hn]; [done|]. rewrite <- vals_keys in Hn. apply zfind_None in Hn. congruence. }
    apply elem_of_list_fmap in Hin as (e & Hv & He). apply elem_of_list_lookup in He as [n He].
    destruct (member_at v ents n e (zr_uniq _ _ _ _ R) He) as (H1 & H2 & H3); [done|].
    exists n, e. split; [done|]. split; [done|]. split; [congruence|]. split; [|split; [done|split; [done|]]].
    + rewrite sm_get_map by apply R. subst v. apply (zr_in _ _ _ _ R). by eapply elem_of_list_lookup_2.
    + unfold entry_score, zn. rewrite (wf_nodes _ _ (zi_wf _ _ (zr_inv _ _ _ _ R)) _ _ He). simpl. congruence.
  - pose proof E as Hz. apply zfind_None in Hz. rewrite vals_keys in Hz. split; [|split; [done|]].
    + rewrite sm_get_map by apply R. destruct (sm_map (zs_m z) !! v) as [p|] eqn:Hp; [|done]. exfalso.
      destruct (zr_out _ _ _ _ R v p Hp) as [(e & He & Hv & _)|(f & Hf & _)]; [|congruence].
      apply Hz. subst v. by apply elem_of_list_fmap_1.
    + apply zindex_None. by rewrite vals_keys.
Qed.
Lemma zrep_ghost z es gh ents v f : zrep_with z es gh ents → gh !! v = Some f →
  ∃ p, sm_get (zs_m z) v = Some p ∧ entry_score p z = Ret f ∧ v ∉ (e_val <$> ents) ∧ zfind v es = None.
Proof.
  intros R Hg. destruct (zr_gh _ _ _ _ R v f Hg) as [Hv [p Hp]]. exists p.
  rewrite sm_get_map by apply R. split; [done|].
  destruct (zr_out _ _ _ _ R v p Hp) as [(e & He & Hev & _)|(f' & Hf & Hs & _)].
  - exfalso. apply Hv. subst v. by apply elem_of_list_fmap_1.
  - split; [|split; [done|]].
    + unfold entry_score, zn. destruct (sl_nodes (zs_sl z) !! p) as [nd|]; [|done]. simpl in *. congruence.
    + apply zfind_None. pose proof (zr_keys _ _ _ _ R) as <-. by rewrite vals_keys.
Qed.

Lemma zrep_put z es gh ents s' es' ents' rest e' :
  zrep_with z es gh ents → gh !! e_val e' = None →
  zinv s' ents' → (sl_level s' < max_level)%nat → e_key <$> ents' = es' → ents' ≡ₚ e' :: rest →
  NoDup (e_val <$> rest) → (∀ e, e ∈ rest ↔ e ∈ ents ∧ e_val e ≠ e_val e') →
  (e_id e' = sl_fresh (zs_sl z) ∨ e_id e' ∈ (e_id <$> ents)) →
  (∀ y, y ≠ e_id e' → zi_score <$> sl_nodes s' !! y = zi_score <$> sl_nodes (zs_sl z) !! y) →
  zrep_with (ZSet (sm_set (zs_m z) (e_val e') (e_id e')) s') es' gh ents'.
Proof.
  intros R Hg Hinv Hlow Hk Hp Hn Hrest Hid Hsc. split; cbn [zs_sl zs_m].
  - done.
  - done.
  - done.
  - apply sm_set_wf, R.
  - rewrite Hp, fmap_cons, NoDup_cons. split; [|done]. intros Hin.
    apply elem_of_list_fmap in Hin as (e & Hv & He). apply Hrest in He as [_ He]. congruence.
  - intros e He. rewrite sm_set_map by apply R. rewrite Hp in He. apply elem_of_cons in He as [->|He]; [by rewrite lookup_insert|].
    apply Hrest in He as [He Hne]. rewrite lookup_insert_ne by done. by apply R.
  - intros v p. rewrite sm_set_map by apply R. destruct (decide (v = e_val e')) as [->|Hne].
    + rewrite lookup_insert. intros [= <-]. left. exists e'. split; [|done]. rewrite Hp. by left.
    + rewrite lookup_insert_ne by done. intros Hv. apply (zr_out _ _ _ _ R) in Hv as [(e & He & Hev & Hei)|(f & Hf & Hs & Hnin)].
      * left. exists e. split; [|done]. rewrite Hp. right. apply Hrest. split; [done|congruence].
      * right. exists f. assert (p ≠ e_id e').
        { intros ->. destruct Hid as [Hid|Hid]; [|done].
          assert (e_id e' < sl_fresh (zs_sl z))%nat; [|lia].
          apply (wf_fresh _ _ (zi_wf _ _ (zr_inv _ _ _ _ R))). destruct (sl_nodes (zs_sl z) !! e_id e'); [eauto|done]. }
        split; [done|]. split; [by rewrite Hsc|]. rewrite Hp, fmap_cons, not_elem_of_cons. split; [done|].
        intros Hin. apply Hnin. apply elem_of_list_fmap in Hin as (e & -> & He). apply elem_of_list_fmap_1. by apply Hrest.
  - intros v f Hf. rewrite Hp, fmap_cons, not_elem_of_cons. destruct (zr_gh _ _ _ _ R v f Hf) as [H1 H2].
    assert (v ≠ e_val e') by (intros ->; congruence). split.
    + split; [done|]. intros Hin. apply H1. apply elem_of_list_fmap in Hin as (e & -> & He). apply elem_of_list_fmap_1. by apply Hrest.
    + rewrite sm_set_map by apply R. by rewrite lookup_insert_ne.
Qed.

Lemma delete_elem (ents : list ent) n e x : NoDup (e_val <$> ents) → ents !! n = Some e →
  x ∈ delete n ents ↔ x ∈ ents ∧ e_val x ≠ e_val e.
Proof.
  intros Hn He. pose proof (delete_Permutation ents n e He) as Hp. rewrite Hp in Hn. rewrite fmap_cons in Hn.
  apply NoDup_cons in Hn as [Hx Hn].
  assert (x ∈ ents ↔ x = e ∨ x ∈ delete n ents) as -> by (rewrite <- elem_of_cons; by rewrite <- Hp). split.
  - intros H. split; [by right|]. intros E. apply Hx. rewrite <- E. by apply elem_of_list_fmap_1.
  - intros [[->|H] E]; [done|done].
Qed.
Lemma delete_vals (ents : list ent) n e : NoDup (e_val <$> ents) → ents !! n = Some e → NoDup (e_val <$> delete n ents).
Proof. intros Hn He. rewrite (delete_Permutation ents n e He) in Hn. rewrite fmap_cons in Hn. by apply NoDup_cons in Hn as [_ ?]. Qed.

Definition zf_of (fl : zopts) : zflags := ZF (o_incr fl) (o_nx fl) (o_xx fl).

Lemma zs_add_ok draw fl k z es gh es' o : low_draw draw → zrep z es gh → zadd_one fl k es gh = Some (es', o) →
  ∃ z' x, zs_add draw k.1 k.2 (zf_of fl) z = Ret (z', x) ∧ zrep z' es' gh ∧
    match o with None => x = None | Some f => ∃ p, x = Some p ∧ entry_score p z' = Ret f end.
Proof.
  intros Hlow [ents R] Ha. destruct k as [sc v]. cbn [fst snd]. unfold zadd_one in Ha. cbn [fst snd] in Ha.
  destruct (gh !! v) as [old|] eqn:Hg.
  { injection Ha as <- <-. destruct (zrep_ghost _ _ _ _ v old R Hg) as (p & Hp & Hs & Hv & _).
    exists z, None. split; [|split; [by exists ents|done]]. unfold zs_add. rewrite Hp.
    destruct (zf_nx (zf_of fl)); [done|]. rewrite Hs. cbn [obind]. cbv zeta. destruct (negb _); [|done].
    rewrite (update_score_absent _ ents) by (done || apply R). cbn [obind]. by destruct z. }
  pose proof (zrep_member _ _ _ _ v R Hg) as M. unfold zs_add.
  pose proof (zr_inv _ _ _ _ R) as Hinv. pose proof (zr_keys _ _ _ _ R) as Hk. pose proof (random_level_pos draw) as Hpos.
  unfold low_draw in Hlow. pose proof (zr_low _ _ _ _ R) as Hlo.
  destruct (zfind v es) as [old|] eqn:Hf.
  - destruct M as (n & e & He & Hv & Hsc & Hget & Hidx & Hdrop & Hes). rewrite Hget. cbn [zf_nx zf_of zf_incr].
    destruct (o_nx fl); [injection Ha as <- <-; exists z, None; split; [done|]; split; [by exists ents|done]|].
    rewrite Hes. cbn [obind]. set (f := if o_incr fl then fadd sc old else sc) in *.
    destruct (is_nan f) eqn:Hnan; [done|]. destruct (feq f old) eqn:Hfeq; cbn [negb].
    { injection Ha as <- <-. exists z, None. split; [done|]. split; [by exists ents|done]. }
    injection Ha as <- <-.
    destruct (update_score_zinv (zs_sl z) ents n e old f (random_level draw) v Hinv He) as
      (s' & x & ents' & i & e' & E & Hinv' & Hk' & He' & Hi' & Hv' & Hs' & Hdel & Hx & Hlev & Hsc').
    { rewrite Hsc. apply feq_refl. pose proof (zi_num _ _ Hinv) as Hnum. rewrite Forall_lookup in Hnum. rewrite <- Hsc. by eapply Hnum. }
    { done. } { done. } { done. } { lia. }
    { intros p g Hp Hgv. pose proof (zr_uniq _ _ _ _ R) as Hu. eapply (NoDup_lookup _ _ _ v Hu); rewrite list_lookup_fmap.
      - by rewrite Hp, <- Hgv. - by rewrite He, <- Hv. }
    rewrite E. cbn [obind]. eexists _, _. split; [reflexivity|]. split.
    + exists ents'. rewrite <- Hi', <- Hv' at 1. pose proof (zr_uniq _ _ _ _ R) as Hu.
      eapply (zrep_put z es gh ents s' _ ents' (delete n ents) e' R).
      * by rewrite Hv'.
      * done.
      * lia.
      * rewrite Hk', Hdrop, <- Hk. done.
      * rewrite (delete_Permutation ents' i e' He'). by rewrite Hdel.
      * by eapply delete_vals.
      * intros g. rewrite (delete_elem ents n e g Hu He). by rewrite Hv, Hv'.
      * rewrite Hi'. destruct Hx as [-> | ->]; [right|by left]. apply elem_of_list_fmap_1. by eapply elem_of_list_lookup_2.
      * rewrite Hi'. done.
    + exists x. split; [done|]. unfold entry_score, zn. cbn [zs_sl]. rewrite <- Hi'.
      rewrite (wf_nodes _ _ (zi_wf _ _ Hinv') _ _ He'). simpl. congruence.
  - destruct M as (Hget & Hnin & _). rewrite Hget. cbn [zf_xx zf_of].
    destruct (o_xx fl); [injection Ha as <- <-; exists z, None; split; [done|]; split; [by exists ents|done]|].
    destruct (is_nan sc) eqn:Hnan; [done|]. injection Ha as <- <-.
    destruct (insert_zinv (zs_sl z) ents sc v (random_level draw) Hinv) as (s' & N & E & HN & Hinv' & Hk' & Hlev & Hnew & Hsc').
    { done. } { lia. } { done. }
    { apply Forall_forall. intros g Hg'. unfold zeq. simpl. rewrite bool_decide_eq_false_2; [by rewrite andb_false_r|].
      intros Hgv. apply Hnin. rewrite <- Hgv. by apply elem_of_list_fmap_1. }
    rewrite E. cbn [obind]. eexists _, _. split; [reflexivity|]. split.
    + eexists. eapply (zrep_put z es gh ents s' _ _ ents (Ent (sl_fresh (zs_sl z)) sc v (random_level draw)) R).
      * done.
      * exact Hinv'.
      * lia.
      * by rewrite Hk', Hk.
      * apply ins_perm.
      * apply R.
      * intros g. simpl. split; [|by intros []]. intros Hg'. split; [done|]. intros Hgv. apply Hnin. rewrite <- Hgv. by apply elem_of_list_fmap_1.
      * by left.
      * done.
    + exists (sl_fresh (zs_sl z)). split; [done|]. unfold entry_score, zn. cbn [zs_sl].
      destruct (sl_nodes s' !! sl_fresh (zs_sl z)); [|done]. simpl in *. congruence.
Qed.

Lemma zs_add_all_ok lvl fl ks : ∀ j z es gh cnt es' n, (∀ j, low_draw (lvl j)) → zrep z es gh →
  zadd_many fl ks es gh = Some (es', n) →
  ∃ z', zs_add_all lvl j ks (zf_of fl) z cnt = Ret (z', cnt + n) ∧ zrep z' es' gh.
Proof.
  induction ks as [|k ks IH]; intros j z es gh cnt es' n Hl R; cbn [zadd_many zs_add_all].
  - intros [= <- <-]. exists z. split; [|done]. do 2 f_equal. lia.
  - destruct (zadd_one fl k es gh) as [[es1 o]|] eqn:E1; [|done].
    destruct (zadd_many fl ks es1 gh) as [[es2 n2]|] eqn:E2; [|done]. intros [= <- <-].
    destruct (zs_add_ok (lvl j) fl k z es gh es1 o (Hl j) R E1) as (z1 & x & H1 & R1 & Hx).
    destruct k as [sc v]. cbn [fst snd] in H1. rewrite H1. cbn [obind].
    destruct (IH (S j) z1 es1 gh (match x with Some _ => cnt + 1 | None => cnt end) es2 n2 Hl R1 E2) as (z' & -> & R').
    exists z'. split; [|done]. do 2 f_equal. destruct o; [destruct Hx as (p & -> & _)|rewrite Hx]; lia.
Qed.

Lemma zrep_len z es gh : zrep z es gh → sl_len (zs_sl z) = zlen es.
Proof.
  intros [ents R]. rewrite (wf_len _ _ (zi_wf _ _ (zr_inv _ _ _ _ R))). unfold zlen.
  by rewrite <- (zr_keys _ _ _ _ R), fmap_length.
Qed.

(** removal of the member at position 0 or 1, keeping the dictionary: the member becomes a ghost *)
Lemma zrep_unlink z es gh ents n e : zrep_with z es gh ents → ents !! n = Some e → (n ≤ 1)%nat →
  ∃ s', sl_delete (e_sc e) (e_val e) (zs_sl z) = Ret (s', 1) ∧
    zrep_with (ZSet (zs_m z) s') (delete n es) (<[e_val e := e_sc e]> gh) (delete n ents) ∧
    zi_score <$> sl_nodes s' !! e_id e = Some (e_sc e) ∧ zi_val <$> sl_nodes s' !! e_id e = Some (e_val e).
Proof.
  intros R He Hn. pose proof (zr_inv _ _ _ _ R) as Hinv. pose proof (zr_uniq _ _ _ _ R) as Hu.
  assert (Hnan : is_nan (e_sc e) = false). { pose proof (zi_num _ _ Hinv) as H. rewrite Forall_lookup in H. by eapply H. }
  destruct (sl_delete_found (zs_sl z) ents n e (e_sc e) (e_val e) Hinv He Hn (feq_refl _ Hnan) eq_refl)
    as (s' & E & Hinv' & Hlev & Hfr & Hsc & Hval).
  pose proof (wf_nodes _ _ (zi_wf _ _ Hinv) _ _ He) as Hnode.
  exists s'. split; [done|]. split; [|rewrite Hsc, Hval, Hnode; done].
  assert (Hein : e ∈ ents) by (by eapply elem_of_list_lookup_2).
  assert (Hids : NoDup (e_id <$> ents)). { pose proof (wf_ids _ _ (zi_wf _ _ Hinv)) as H. by apply NoDup_cons in H as [_ ?]. }
  split; cbn [zs_sl zs_m].
  - rewrite delete_fmap. by rewrite (zr_keys _ _ _ _ R).
  - done.
  - pose proof (zr_low _ _ _ _ R). lia.
  - apply R.
  - by eapply delete_vals.
  - intros x Hx. apply (delete_elem ents n e x Hu He) in Hx as [Hx _]. by apply R.
  - intros v p Hv. apply (zr_out _ _ _ _ R) in Hv as [(x & Hx & Hxv & Hxi)|(f & Hf & Hs & Hnin)].
    + destruct (decide (v = e_val e)) as [->|Hne].
      * right. exists (e_sc e). rewrite lookup_insert. split; [done|].
        assert (x = e) as ->.
        { apply elem_of_list_lookup in Hx as [i Hi]. assert (i = n) as ->; [|congruence].
          eapply (NoDup_lookup _ _ _ (e_val e) Hu); rewrite list_lookup_fmap; [by rewrite Hi, <- Hxv|by rewrite He]. }
        subst p. rewrite Hsc, Hnode. split; [done|]. rewrite (delete_Permutation ents n e He), fmap_cons in Hids.
        by apply NoDup_cons in Hids as [? _].
      * left. exists x. split; [|done]. apply (delete_elem ents n e x Hu He). split; [done|congruence].
    + right. exists f. destruct (decide (v = e_val e)) as [->|Hne].
      * exfalso. destruct (zr_gh _ _ _ _ R _ _ Hf) as [H _]. apply H. by apply elem_of_list_fmap_1.
      * rewrite lookup_insert_ne by done. split; [done|]. split; [by rewrite Hsc|].
        intros Hin. apply Hnin. apply elem_of_list_fmap in Hin as (x & -> & Hx). apply elem_of_list_fmap_1.
        by apply (delete_elem ents n e x Hu He) in Hx as [Hx _].
  - intros v f. destruct (decide (v = e_val e)) as [->|Hne].
    + intros _. split.
      * intros Hin. apply elem_of_list_fmap in Hin as (x & Hxv & Hx). by apply (delete_elem ents n e x Hu He) in Hx as [_ ?].
      * exists (e_id e). by apply R.
    + rewrite lookup_insert_ne by done. intros Hf. destruct (zr_gh _ _ _ _ R _ _ Hf) as [H1 H2]. split; [|done].
      intros Hin. apply H1. apply elem_of_list_fmap in Hin as (x & -> & Hx). apply elem_of_list_fmap_1.
      by apply (delete_elem ents n e x Hu He) in Hx as [Hx _].
Qed.
(** forgetting a ghost *)
Lemma zrep_forget z es gh ents v : zrep_with z es gh ents → v ∉ (e_val <$> ents) →
  zrep_with (ZSet (sm_delete (zs_m z) v) (zs_sl z)) es (delete v gh) ents.
Proof.
  intros R Hv. split; cbn [zs_sl zs_m]; try apply R.
  - apply sm_delete_wf, R.
  - intros e He. rewrite sm_delete_map by apply R. rewrite lookup_delete_ne; [by apply R|].
    intros ->. apply Hv. by apply elem_of_list_fmap_1.
  - intros w p. rewrite sm_delete_map by apply R. intros Hw. apply lookup_delete_Some in Hw as [Hne Hw].
    apply (zr_out _ _ _ _ R) in Hw as [?|(f & Hf & H)]; [by left|]. right. exists f. by rewrite lookup_delete_ne.
  - intros w f Hw. apply lookup_delete_Some in Hw as [Hne Hw]. destruct (zr_gh _ _ _ _ R _ _ Hw). split; [done|].
    rewrite sm_delete_map by apply R. by rewrite lookup_delete_ne.
Qed.

Lemma zs_rem_all_ok vs : ∀ z es gh cnt es' gh' n, zrep z es gh → zrem_many vs es gh = Some (es', gh', n) →
  ∃ z', zs_rem_all vs z cnt = Ret (z', cnt + n) ∧ zrep z' es' gh'.
Proof.
  induction vs as [|v vs IH]; intros z es gh cnt es' gh' n [ents R]; cbn [zrem_many zs_rem_all].
  - intros [= <- <- <-]. exists z. split; [do 2 f_equal; lia|by exists ents].
  - rewrite sm_load_and_delete_map by apply R. rewrite <- sm_get_map by apply R.
    destruct (gh !! v) as [f|] eqn:Hg.
    + destruct (zrep_ghost _ _ _ _ v f R Hg) as (p & Hp & Hs & Hv & _). rewrite Hp. rewrite Hs. cbn [obind].
      destruct (zrem_many vs es (delete v gh)) as [[[es1 gh1] n1]|] eqn:E1; [|done]. intros [= <- <- <-].
      rewrite (sl_delete_absent _ ents f v (zr_inv _ _ _ _ R)). 2:{ apply Forall_forall. intros g Hg'. unfold zeq. simpl.
        rewrite bool_decide_eq_false_2; [by rewrite andb_false_r|]. intros Hgv. apply Hv. rewrite <- Hgv. by apply elem_of_list_fmap_1. }
      cbn [obind].
      destruct (IH (ZSet (sm_delete (zs_m z) v) (zs_sl z)) es (delete v gh) (cnt + 1) es1 gh1 n1) as (z' & -> & R').
      { exists ents. by apply zrep_forget. } { done. }
      exists z'. split; [do 2 f_equal; lia|done].
    + pose proof (zrep_member _ _ _ _ v R Hg) as M. destruct (zfind v es) as [f|].
      * destruct M as (i & e & He & Hv & Hsc & Hget & Hidx & Hdrop & Hes). rewrite Hidx, Hget.
        destruct (Nat.leb_spec i 1) as [Hi|]; [|done].
        destruct (zrem_many vs (zdrop v es) gh) as [[[es1 gh1] n1]|] eqn:E1; [|done]. intros [= <- <- <-].
        rewrite Hes. cbn [obind]. destruct (zrep_unlink z es gh ents i e R He Hi) as (s' & E & R1 & _). rewrite Hsc, Hv in E.
        rewrite E. cbn [obind].
        assert (R2 := zrep_forget _ _ _ _ v R1). cbn [zs_m zs_sl] in R2. rewrite Hv, Hsc, delete_insert in R2 by done.
        destruct (IH (ZSet (sm_delete (zs_m z) v) s') (zdrop v es) gh (cnt + 1) es1 gh1 n1) as (z' & -> & R').
        { exists (delete i ents). rewrite Hdrop. apply R2. intros Hin. apply elem_of_list_fmap in Hin as (x & Hxv & Hx).
          apply (delete_elem ents i e x (zr_uniq _ _ _ _ R) He) in Hx as [_ Hx]. congruence. }
        { done. }
        exists z'. split; [do 2 f_equal; lia|done].
      * destruct M as (Hget & Hnin & Hidx). rewrite Hidx, Hget.
        destruct (zrem_many vs es gh) as [[[es1 gh1] n1]|] eqn:E1; [|done]. intros [= <- <- <-].
        destruct (IH z es gh cnt es1 gh1 n1) as (z' & -> & R'); [by exists ents|done|].
        exists z'. split; [do 2 f_equal; lia|done].
Qed.

Section pop.
Context (ext : Ext).
Lemma zs_pop_step (max : bool) p z es gh ents acc n e : zrep_with z es gh ents → fits es →
  ents !! n = Some e → (n ≤ 1)%nat → n = (if max then pred (length es) else 0%nat) →
  ∃ s', zrep_with (ZSet (zs_m z) s') (delete n es) (<[e_val e := e_sc e]> gh) (delete n ents) ∧
    zs_pop_loop ext max (S p) (zs_sl z) acc = zs_pop_loop ext max p s' (acc ++ show_ent ext true (e_key e)).
Proof.
  intros R Hfit He Hn Hmax. destruct (zrep_unlink z es gh ents n e R He Hn) as (s' & E & R' & Hs & Hv).
  exists s'. split; [done|]. cbn [zs_pop_loop]. pose proof (lookup_lt_Some _ _ _ He) as Hlt.
  assert (Hlen : length ents = length es) by (by rewrite <- (zr_keys _ _ _ _ R), fmap_length).
  unfold fits, zlen in Hfit. pose proof (zr_inv _ _ _ _ R) as Hinv. unfold two63 in *.
  assert (Hrank : (if max then u64 (sl_len (zs_sl z)) else 1) = Z.of_nat n + 1).
  { destruct max; [|lia]. rewrite (zrep_len z es gh) by (by exists ents). unfold zlen. rewrite u64_small by (unfold two64; lia). lia. }
  rewrite Hrank. rewrite (find_by_rank_ok _ ents) by (try apply Hinv; unfold two64; lia).
  destruct (Z.leb_spec (Z.of_nat n + 1) (Z.of_nat (length ents))); [|lia]. cbn [obind].
  replace (Z.to_nat (Z.of_nat n + 1)) with (S n) by lia. rewrite (nid_S _ _ _ He).
  unfold zn at 1. rewrite (wf_nodes _ _ (zi_wf _ _ Hinv) _ _ He). cbn [deref obind zi_score zi_val]. rewrite E. cbn [obind].
  unfold zn. destruct (sl_nodes s' !! e_id e) as [nd|]; [|done]. cbn [deref obind]. simpl in Hs, Hv.
  injection Hs as ->. injection Hv as ->. done.
Qed.
Definition ghost_all (gh : gmap string float) (l : list zkey) := foldl (λ g e, <[e.2 := e.1]> g) gh l.
Lemma zs_pop_min p : ∀ z es gh acc, zrep z es gh → fits es →
  ∃ s', zs_pop_loop ext false p (zs_sl z) acc = Ret (s', acc ++ concat (show_ent ext true <$> take p es)) ∧
    zrep (ZSet (zs_m z) s') (drop p es) (ghost_all gh (take p es)).
Proof.
  induction p as [|p IH]; intros z es gh acc [ents R] Hfit.
  - exists (zs_sl z). cbn [zs_pop_loop take drop]. rewrite app_nil_r. split; [done|]. destruct z. by exists ents.
  - destruct ents as [|e ents].
    + pose proof (zr_keys _ _ _ _ R) as <-. exists (zs_sl z). cbn [zs_pop_loop].
      rewrite (find_by_rank_ok _ []); [|apply R|unfold two64; simpl; lia|unfold two64; lia]. simpl. rewrite app_nil_r.
      split; [done|]. destruct z. by exists [].
    + pose proof (zr_keys _ _ _ _ R) as Hk. destruct es as [|k es]; [done|]. rewrite fmap_cons in Hk. injection Hk as Hk1 Hk2.
      destruct (zs_pop_step false p z (k :: es) gh (e :: ents) acc 0 e R Hfit) as (s1 & R1 & E1); [done|lia|done|].
      rewrite E1. cbn [delete list_delete] in R1.
      destruct (IH (ZSet (zs_m z) s1) es (<[e_val e := e_sc e]> gh) (acc ++ show_ent ext true (e_key e))) as (s' & E & R').
      { by exists ents. } { unfold fits, zlen in *. simpl in Hfit. lia. }
      exists s'. cbn [zs_sl] in E. rewrite E. rewrite Hk1. rewrite <- app_assoc. split; [done|].
      cbn [drop take ghost_all foldl]. rewrite <- Hk1. exact R'.
Qed.
Lemma delete_last {A} (l : list A) x : delete (length l) (l ++ [x]) = l.
Proof. rewrite delete_middle. apply app_nil_r. Qed.
Lemma zs_pop_max p : ∀ z es gh acc, zrep z es gh → (p = 0 ∨ p ≤ length es ≤ 2)%nat →
  ∃ s', zs_pop_loop ext true p (zs_sl z) acc = Ret (s', acc ++ concat (show_ent ext true <$> take p (reverse es))) ∧
    zrep (ZSet (zs_m z) s') (reverse (drop p (reverse es))) (ghost_all gh (take p (reverse es))).
Proof.
  induction p as [|p IH]; intros z es gh acc [ents R] Hp.
  - exists (zs_sl z). cbn [zs_pop_loop]. rewrite take_0, drop_0, reverse_involutive. cbn [fmap list_fmap concat]. rewrite app_nil_r. split; [done|]. destruct z. by exists ents.
  - destruct Hp as [Hp|Hp]; [done|].
    pose proof (zr_keys _ _ _ _ R) as Hk.
    destruct ents as [|e ents _] using rev_ind; [subst es; simpl in Hp; lia|].
    rewrite fmap_app in Hk. cbn [fmap list_fmap] in Hk. rewrite <- Hk in *. rewrite app_length, fmap_length in Hp. cbn [length] in Hp.
    destruct (zs_pop_step true p z (e_key <$> ents ++ [e]) gh (ents ++ [e]) acc (length ents) e) as (s1 & R1 & E1).
    { by rewrite fmap_app. } { unfold fits, zlen, two63. rewrite fmap_length, app_length. simpl. lia. }
    { by rewrite lookup_app_r, Nat.sub_diag by lia. } { lia. } { rewrite fmap_length, app_length. simpl. lia. }
    rewrite E1. rewrite delete_last in R1. rewrite fmap_app in R1. cbn [fmap list_fmap] in R1.
    rewrite <- (fmap_length e_key ents) in R1 at 1. rewrite delete_last in R1.
    destruct (IH (ZSet (zs_m z) s1) (e_key <$> ents) (<[e_val e := e_sc e]> gh) (acc ++ show_ent ext true (e_key e))) as (s' & E & R').
    { by exists ents. } { right. rewrite fmap_length. lia. }
    exists s'. cbn [zs_sl] in E. rewrite E. rewrite reverse_snoc. cbn [take drop]. rewrite <- app_assoc. split; [done|].
    exact R'.
Qed.
End pop.

(** ** the commands *)
Lemma load_zset_at d m k : sim d m → match zset_at m k with
  | None => is_Some (m !! k) ∧ (m !! k ≠ Some ADamaged → ∀ b, load_zset k b d = Err ErrTypeMismatch)
  | Some (es, gh) => ∃ z, zrep z es gh ∧
      (load_zset k false d = Ok z ∨ load_zset k false d = Err ErrNil ∧ z = zs_new) ∧
      load_zset k true d = match es with [] => Err ErrNil | _ => Ok z end
  end.
Proof.
  intros S. unfold zset_at, load_zset. at_key S k; rewrite At; try (split; [by eexists|intros ? []; done || reflexivity]).
  - exists z. split; [done|]. split; [by left|]. cbn [andb]. rewrite (zrep_len _ _ _ Hz). unfold zlen. by destruct es.
  - exists zs_new. split; [apply zrep_new|]. split; [by right|done].
Qed.
Ltac at_zset S k :=
  let H := fresh "At" in
  pose proof (load_zset_at _ _ k S) as H;
  match type of H with context [zset_at ?m k] => destruct (zset_at m k) as [[?es ?gh]|] eqn:? end;
  [destruct H as (?z & ?Hz & ?Hl0 & ?Hl1)|].
Ltac no_zset At :=
  unfold not_zset; let x := fresh "x" in let Hx := fresh "Hx" in
  destruct At as [[x Hx] At]; rewrite Hx in At |- *;
  destruct x; [rewrite At by done..|by apply fm_damage]; by first [apply fm, meets_fails|apply fm, meets_says].

Section zcmd.
Context (ext : Ext) (c : choices) (d : db) (m : kspace) (S : sim d m) (Lo : low_towers c).

Lemma zadd_args_parse n : ∀ l fl ms, (length l ≤ n)%nat → zadd_args ext l (zf_of fl) ms =
  match zadd_parse ext l fl with None => Err ErrValueOutOfRange | Some (fl', ms') => Ok (zf_of fl', ms ++ ms') end.
Proof.
  clear. induction n as [|n IH]; intros l fl ms Hn.
  { destruct l; [|simpl in Hn; lia]. simpl. by rewrite app_nil_r. }
  destruct l as [|x [|y l]]; [simpl; by rewrite app_nil_r..|].
  cbn [zadd_args zadd_parse]. cbn [length] in Hn.
  destruct (String.eqb _ "xx"); [apply (IH (y :: l) (ZO (o_incr fl) (o_nx fl) true)); simpl; lia|].
  destruct (String.eqb _ "nx"); [apply (IH (y :: l) (ZO (o_incr fl) true (o_xx fl))); simpl; lia|].
  destruct (String.eqb _ "incr"); [apply (IH (y :: l) (ZO true (o_nx fl) (o_xx fl))); simpl; lia|].
  destruct (parse_float ext x) as [f|]; [|done]. rewrite IH by lia.
  destruct (zadd_parse ext l fl) as [[fl' ms']|]; [|done]. by rewrite <- app_assoc.
Qed.

Lemma sim_zadd a : meets (c_zadd ext c a d) (s_zadd ext a m).
Proof.
  destruct a as [|k [|x [|y a]]]; [by apply meets_fails..|].
  apply (framed [k] d); [exact (w_zadd ext c _ d)|]. unfold c_zadd, s_zadd.
  cbn [fewer arg]. change (arg (k :: x :: y :: a) 0) with (Ret k). cbn [obind drop].
  replace (fewer (k :: x :: y :: a) 3) with false by done.
  change (ZF false false false) with (zf_of (ZO false false false)). rewrite (zadd_args_parse (length (x :: y :: a))) by done.
  destruct (zadd_parse ext (x :: y :: a) (ZO false false false)) as [[fl ks]|]; [|by apply fm, meets_fails].
  cbn [app]. unfold ZAdd. at_zset S k; [|no_zset At].
  destruct (zadd_many fl ks es gh) as [[es' n]|] eqn:E; [|by apply fm_damage].
  destruct (zs_add_all_ok (ch_lvl c) fl ks 0 z es gh 0 es' n Lo Hz E) as (z' & Ez & R).
  destruct Hl0 as [-> | [-> ->]]; rewrite Ez; cbn [obind]; (apply fm, meets_says; [by apply sim_put_zset|done]).
Qed.
Lemma sim_zincr a : meets (c_zincr ext c a d) (s_zincr ext a m).
Proof.
  destruct a as [|k [|x [|v a]]]; [by apply meets_fails..|].
  apply (framed [k] d); [exact (w_zincr ext c _ d)|]. unfold c_zincr, s_zincr.
  replace (fewer (k :: x :: v :: a) 3) with false by done.
  change (arg (k :: x :: v :: a) 0) with (Ret k). change (arg (k :: x :: v :: a) 1) with (Ret x).
  change (arg (k :: x :: v :: a) 2) with (Ret v). cbn [obind].
  destruct (parse_float ext x) as [f|]; [|by apply fm, meets_fails].
  unfold ZIncr. at_zset S k; [|no_zset At].
  destruct (zadd_one (ZO true false false) (f, v) es gh) as [[es' o]|] eqn:E; [|by apply fm_damage].
  destruct (zs_add_ok (ch_lvl c 0%nat) _ (f, v) z es gh es' o (Lo 0%nat) Hz E) as (z' & x' & Ez & R & Ho).
  cbn [fst snd] in Ez. change (zf_of (ZO true false false)) with (ZF true false false) in Ez.
  destruct Hl0 as [-> | [-> ->]]; rewrite Ez; cbn [obind]; destruct o as [g|];
    try (destruct Ho as (p & -> & Hp); rewrite Hp; cbn [obind]); try subst x';
    (apply fm, meets_says; [by apply sim_put_zset|done]).
Qed.
Lemma sim_zscore a : meets (c_zscore ext a d) (s_zscore ext a m).
Proof.
  destruct a as [|k [|v a]]; [by apply meets_fails..|].
  apply (framed_ro d); [apply ro_zscore|]. unfold c_zscore, s_zscore.
  replace (fewer (k :: v :: a) 2) with false by done.
  change (arg (k :: v :: a) 0) with (Ret k). change (arg (k :: v :: a) 1) with (Ret v). cbn [obind].
  unfold ZScore. at_zset S k; [|no_zset At]. rewrite Hl1.
  destruct es as [|k1 es]; [by apply fm, meets_says|]. destruct Hz as [ents R].
  destruct (gh !! v) as [f|] eqn:Eg.
  - destruct (zrep_ghost _ _ _ _ _ _ R Eg) as (p & -> & Hp & _ & ->). rewrite Hp. by apply fm, meets_says.
  - pose proof (zrep_member _ _ _ _ v R Eg) as M. destruct (zfind v (k1 :: es)) as [f|].
    + destruct M as (n & e & _ & _ & _ & -> & _ & _ & ->). by apply fm, meets_says.
    + destruct M as (-> & _). by apply fm, meets_says.
Qed.
Lemma wrap64_fits z : - two63 ≤ z < two63 → wrap64 z = z.
Proof. apply wrap64_id. Qed.
Lemma sim_zrank a : meets (c_zrank a d) (s_zrank a m).
Proof.
  destruct a as [|k [|v a]]; [by apply meets_fails..|].
  apply (framed_ro d); [apply ro_zrank|]. unfold c_zrank, s_zrank.
  replace (fewer (k :: v :: a) 2) with false by done.
  change (arg (k :: v :: a) 0) with (Ret k). change (arg (k :: v :: a) 1) with (Ret v). cbn [obind].
  unfold ZRank. at_zset S k; [|no_zset At]. rewrite Hl1.
  destruct es as [|k1 es]; [by apply fm, meets_says|]. destruct Hz as [ents R].
  destruct (gh !! v) as [f|] eqn:Eg; (apply fm_guard; [done|by intros ?? [_ ->]|]); intros Hf.
  { destruct (zrep_ghost _ _ _ _ v f R Eg) as (p & -> & Hs & Hv & _). rewrite Hs. cbn [obind].
    rewrite (sl_rank_absent _ ents f v) by (done || apply R). rewrite (zr_keys _ _ _ _ R). cbn [obind].
    pose proof (filter_length (λ e, zlt e (f, v) = true) (k1 :: es)) as Hl. unfold fits, zlen, two63 in Hf.
    rewrite wrap64_fits by (unfold two63; lia). by apply fm, meets_says. }
  pose proof (zrep_member _ _ _ _ v R Eg) as M. destruct (zfind v (k1 :: es)) as [f|].
  - destruct M as (n & e & He & Hv & Hsc & -> & -> & _ & ->). cbn [obind].
    pose proof (lookup_lt_Some _ _ _ He) as Hlt. assert (length ents = length (k1 :: es)) as Hlen by (by rewrite <- (zr_keys _ _ _ _ R), fmap_length).
    unfold fits, zlen, two63 in Hf.
    rewrite (sl_rank_found _ ents n e f v); [|apply R|done| |done].
    + cbn [obind]. rewrite wrap64_fits by (unfold two63; lia). by apply fm, meets_says.
    + rewrite <- Hsc. apply feq_refl. pose proof (zi_num _ _ (zr_inv _ _ _ _ R)) as Hn. by eapply Forall_lookup_1 in Hn.
  - destruct M as (-> & _ & ->). by apply fm, meets_says.
Qed.
Lemma sim_zrem a : meets (c_zrem a d) (s_zrem a m).
Proof.
  destruct a as [|k [|v a]]; [by apply meets_fails..|].
  apply (framed [k] d); [exact (w_zrem _ d)|]. unfold c_zrem, s_zrem.
  replace (fewer (k :: v :: a) 2) with false by done. change (arg (k :: v :: a) 0) with (Ret k). cbn [obind drop].
  unfold ZRem. at_zset S k; [|no_zset At]. rewrite Hl1.
  destruct es as [|k1 es]; [by apply fm, meets_says|].
  destruct (zrem_many (v :: a) (k1 :: es) gh) as [[[es' gh'] n]|] eqn:E; [|by apply fm_damage].
  destruct (zs_rem_all_ok _ z _ _ 0 _ _ _ Hz E) as (z' & -> & R). cbn [obind].
  apply fm, meets_says; [by apply sim_put_zset|done].
Qed.
Lemma sim_zcard a : meets (c_zcard a d) (s_zcard a m).
Proof.
  destruct a as [|k a]; [by apply meets_fails|].
  apply (framed_ro d); [apply ro_zcard|]. unfold c_zcard, s_zcard.
  replace (fewer (k :: a) 1) with false by done. change (arg (k :: a) 0) with (Ret k). cbn [obind].
  unfold ZCard. at_zset S k; [|no_zset At]. rewrite Hl1. pose proof (zrep_len _ _ _ Hz) as Hlen.
  destruct es as [|k1 es]; [by apply fm, meets_says|]. rewrite Hlen. by apply fm, meets_says.
Qed.
Lemma score_bound_of s : score_bound ext s = match bound_of ext s with None => Err ErrNotFloat | Some b => Ok b end.
Proof.
  clear. unfold score_bound, bound_of. destruct (String.eqb _ _); [done|]. destruct (String.eqb _ _); [done|].
  destruct (trim_paren _). by destruct (parse_float _ _).
Qed.
Lemma sim_zcount a : meets (c_zcount ext a d) (s_zcount ext a m).
Proof.
  destruct a as [|k [|s1 [|s2 a]]]; [by apply meets_fails..|].
  apply (framed_ro d); [apply ro_zcount|]. unfold c_zcount, s_zcount.
  replace (fewer (k :: s1 :: s2 :: a) 3) with false by done.
  change (arg (k :: s1 :: s2 :: a) 0) with (Ret k). change (arg (k :: s1 :: s2 :: a) 1) with (Ret s1).
  change (arg (k :: s1 :: s2 :: a) 2) with (Ret s2). cbn [obind].
  unfold ZCount. at_zset S k; [|no_zset At]. rewrite Hl1.
  destruct es as [|k1 es]; [by apply fm, meets_says|]. rewrite !score_bound_of.
  destruct (bound_of ext (to_lower s1)) as [[mn mo]|]; [|by apply fm, meets_fails].
  destruct (bound_of ext (to_lower s2)) as [[mx mxo]|]; [|by apply fm, meets_fails].
  apply fm_answered; [done|]. intros Hf. destruct Hz as [ents R]. pose proof (zr_keys _ _ _ _ R) as Hk. pose proof (zr_inv _ _ _ _ R) as HI.
  unfold fits, zlen in Hf. rewrite <- Hk in *. rewrite fmap_length in Hf.
  assert (∃ n, sl_count mn mo mx mxo (zs_sl z) = Ret n ∧ count_answer mn mo mx mxo (e_key <$> ents) n) as (n & -> & Hc).
  { unfold count_answer, zlen. rewrite fmap_length. destruct (is_ninf mn && is_pinf mx) eqn:Hi; [eexists; split; [by apply sl_count_all|done]|].
    destruct (sl_count_exact _ _ mn mo mx mxo HI Hf Hi) as (lo & hi & R1 & R2 & ->). eexists. split; [done|]. by exists lo, hi. }
  cbn [obind]. do 2 eexists. split; [done|]. split; [done|]. by exists n.
Qed.
Lemma sim_range_spec b ws k s1 s2 :
  meets (let* r := ZRange ext k s1 s2 b ws d in range_reply r d) (range_spec ext b ws k s1 s2 m).
Proof.
  apply (framed_ro d).
  { intros d' q H. apply obind_ret in H as (r & _ & H). unfold range_reply, reply, fail in H. by destruct r as [|[]]; injection H as <- _. }
  unfold ZRange, range_spec. at_zset S k; [|no_zset At]. rewrite Hl1.
  destruct es as [|k1 es]; [by apply fm, meets_says|].
  destruct Hz as [ents R]. pose proof (zr_keys _ _ _ _ R) as Hk.
  destruct b.
  - rewrite !score_bound_of.
    destruct (bound_of ext s1) as [[mn mo]|]; [|by apply fm, meets_fails].
    destruct (bound_of ext s2) as [[mx mxo]|]; [|by apply fm, meets_fails].
    apply fm_answered; [done|]. intros Hf. pose proof (zr_inv _ _ _ _ R) as HI. unfold fits, zlen in Hf. rewrite <- Hk in *. rewrite fmap_length in Hf.
    assert (∃ ys, sl_range_by_score ext mn mo mx mxo ws (zs_sl z) = Ret (concat (show_ent ext ws <$> ys)) ∧ select_answer mn mo mx mxo (e_key <$> ents) ys) as (ys & -> & Hc).
    { unfold select_answer, zlen. rewrite fmap_length. destruct (is_ninf mn && is_pinf mx) eqn:Hi; [eexists; split; [by apply sl_range_by_score_all|done]|].
      destruct (sl_range_by_score_exact ext _ _ mn mo mx mxo ws HI Hf Hi) as (lo & hi & R1 & R2 & ->). eexists. split; [done|]. by exists lo, hi. }
    cbn [obind]. do 2 eexists. split; [done|]. split; [apply view_strings|]. by exists ys.
  - destruct (parse_int s1) as [i|]; [|by apply fm, meets_fails].
    destruct (parse_int s2) as [j|]; [|by apply fm, meets_fails].
    apply fm_guard; [done|by intros ?? [_ ->]|]. intros Hf. unfold fits, zlen in Hf. rewrite <- Hk in *. rewrite fmap_length in Hf.
    rewrite (sl_range_ok ext _ ents) by (apply R || lia). apply fm, meets_says; [done|]. apply view_strings.
Qed.
Lemma sim_zrange a : meets (c_zrange ext a d) (s_zrange ext a m).
Proof. destruct a as [|k [|s1 [|s2 a]]]; [by apply meets_fails..|]. apply sim_range_spec. Qed.
Lemma sim_zrangebyscore a : meets (c_zrangebyscore ext a d) (s_zrangebyscore ext a m).
Proof. destruct a as [|k [|s1 [|s2 a]]]; [by apply meets_fails..|]. apply sim_range_spec. Qed.
Lemma sim_zrevrange a : meets (c_zrevrange ext a d) (s_zrevrange ext a m).
Proof.
  destruct a as [|k [|s1 [|s2 a]]]; [by apply meets_fails..|].
  apply (framed_ro d); [apply ro_zrevrange|]. unfold c_zrevrange, s_zrevrange.
  replace (fewer (k :: s1 :: s2 :: a) 3) with false by done.
  change (arg (k :: s1 :: s2 :: a) 0) with (Ret k). change (arg (k :: s1 :: s2 :: a) 1) with (Ret s1).
  change (arg (k :: s1 :: s2 :: a) 2) with (Ret s2). cbn [obind drop].
  change (has_flag "withscores" (s2 :: a)) with (mentions "withscores" (s2 :: a)).
  unfold ZRevRange. at_zset S k; [|no_zset At]. rewrite Hl1.
  destruct es as [|k1 es]; [by apply fm, meets_says|]. destruct Hz as [ents R]. pose proof (zr_keys _ _ _ _ R) as Hk.
  destruct (parse_int s1) as [i|]; [|by apply fm, meets_fails].
  destruct (parse_int s2) as [j|]; [|by apply fm, meets_fails].
  apply fm_guard; [done|by intros ?? [_ ->]|]. intros Hf. unfold fits, zlen in Hf. rewrite <- Hk in *. rewrite fmap_length in Hf.
  rewrite (sl_rev_range_ok ext _ ents) by (apply R || lia). apply fm, meets_says; [done|]. apply view_strings.
Qed.
Lemma opt_count_pop k r : opt_count (k :: r) 1 =
  Ret (match (match r with [] => Some 1 | c :: _ => parse_int c end) with None => Err ErrNotInteger | Some n => Ok n end).
Proof. clear. unfold opt_count. destruct r as [|x r]; [done|]. simpl. by destruct (parse_int x). Qed.
Lemma sim_zpop max a : meets (c_zpop ext max a d) (s_zpop ext max a m).
Proof.
  destruct a as [|k r]; [by apply meets_fails|].
  apply (framed [k] d); [exact (w_zpop ext max _ d)|]. unfold c_zpop, s_zpop.
  replace (fewer (k :: r) 1) with false by done. change (arg (k :: r) 0) with (Ret k). rewrite opt_count_pop. cbn [obind].
  destruct (match r with [] => Some 1 | c :: _ => parse_int c end) as [n|]; [|by apply fm, meets_fails].
  unfold ZPop. at_zset S k; [|no_zset At]. rewrite Hl1.
  destruct es as [|k1 es]; [by apply fm, meets_says|]. 
  destruct (zpop_ok max (Z.to_nat n) (k1 :: es)) eqn:Hok; [|by apply fm_damage].
  assert (Hf : fits (k1 :: es) ∧ (if max then Z.to_nat n = 0%nat ∨ (Z.to_nat n ≤ length (k1 :: es) ≤ 2)%nat else True)).
  { unfold zpop_ok in Hok. apply andb_true_iff in Hok as [H1 H2]. split; [by apply Z.ltb_lt in H1|].
    destruct max; [|done]. apply orb_true_iff in H2 as [H2|H2]; [left; by apply Nat.eqb_eq|right].
    apply andb_true_iff in H2 as [H2 H3]. apply Nat.leb_le in H2. apply Nat.leb_le in H3. done. }
  destruct Hf as [Hf Hp].
  assert (∀ z' out rest gh', zrep z' rest gh' →
    fmeets [k] d (match concat (show_ent ext true <$> out) with
           | [] => reply rsp_empty_array (put k (VZSet z') d)
           | _ :: _ => reply (rsp_strings (concat (show_ent ext true <$> out))) (put k (VZSet z') d) end)
      (says (shown ext true out) (<[k := AZSet rest gh']> m))) as Done.
  { intros z' out rest gh' R. destruct out as [|e out]; [apply fm, meets_says; [by apply sim_put_zset|done]|].
    apply fm, meets_says; [by apply sim_put_zset|apply view_strings]. }
  destruct max.
  - destruct (zs_pop_max ext (Z.to_nat n) z (k1 :: es) gh [] Hz Hp) as (s' & E & R). rewrite E. cbn [obind app].
    by apply Done.
  - destruct (zs_pop_min ext (Z.to_nat n) z (k1 :: es) gh [] Hz Hf) as (s' & E & R). rewrite E. cbn [obind app].
    by apply Done.
Qed.
End zcmd.
