(** The sharded map refines one finite map. *)
From Verif Require Import GoBase GoBaseProofs ShardMap.

Section proofs.
Context {A : Type}.
Implicit Types (m : smap A) (k : string).

(** Well-formed: 32 shards, every key in the shard its hash selects. *)
Definition sm_wf m : Prop :=
  length m = shard_count ∧
  ∀ i s k, m !! i = Some s → is_Some (s !! k) → shard_idx k = i.

(** The single map a sharded map stands for. *)
Definition sm_map m : gmap string A := foldr (∪) ∅ m.

Lemma shard_idx_lt k : (shard_idx k < shard_count)%nat.
Proof.
  unfold shard_idx.
  pose proof (N.mod_lt (fnv32 k) (N.of_nat shard_count) ltac:(unfold shard_count; simpl; lia)). lia.
Qed.

Lemma sm_wf_shard m k : sm_wf m → ∃ s, m !! shard_idx k = Some s.
Proof.
  intros [Hl _]. apply lookup_lt_is_Some_2. rewrite Hl. apply shard_idx_lt.
Qed.

Lemma sm_wf_new : sm_wf (sm_new (A:=A)).
Proof.
  split; [apply replicate_length|].
  intros i s k Hi [v Hv]. apply lookup_replicate in Hi as [-> _]. by rewrite lookup_empty in Hv.
Qed.

Lemma foldr_union_lookup (l : list (gmap string A)) k v :
  foldr (∪) ∅ l !! k = Some v → ∃ i s, l !! i = Some s ∧ s !! k = Some v.
Proof.
  induction l as [|s l IH]; simpl; [by rewrite lookup_empty|].
  intros H. apply lookup_union_Some_raw in H as [H|[_ H]].
  - by exists 0%nat, s.
  - destruct (IH H) as (i & s' & ? & ?). by exists (S i), s'.
Qed.

Lemma foldr_union_lookup_None (l : list (gmap string A)) k :
  foldr (∪) ∅ l !! k = None ↔ (∀ i s, l !! i = Some s → s !! k = None).
Proof.
  induction l as [|s l IH]; simpl.
  - split; [intros _ i s; by rewrite lookup_nil|intros _; apply lookup_empty].
  - rewrite lookup_union_None, IH. split.
    + intros [H1 H2] [|i] s' ?; simplify_eq/=; eauto.
    + intros H. split; [by apply (H 0%nat)|]. intros i s' ?. by apply (H (S i)).
Qed.

Lemma sm_get_map m k : sm_wf m → sm_get m k = sm_map m !! k.
Proof.
  intros Hwf. pose proof Hwf as [Hl Hk].
  destruct (sm_wf_shard m k Hwf) as [s Hs].
  unfold sm_get, get_shard. rewrite Hs. simpl.
  destruct (sm_map m !! k) as [v|] eqn:E.
  - apply foldr_union_lookup in E as (i & s' & Hi & Hv).
    assert (shard_idx k = i) as Hi' by (eapply Hk; eauto). congruence.
  - apply (proj1 (foldr_union_lookup_None _ _)) with (i:=shard_idx k) (s:=s) in E; done.
Qed.

Lemma sm_map_eq m1 m2 : sm_wf m1 → sm_wf m2 → sm_map m1 = sm_map m2 → m1 = m2.
Proof.
  intros H1 H2 Heq. apply list_eq. intros i.
  destruct (decide (i < shard_count)%nat) as [Hi|Hi].
  2:{ rewrite !lookup_ge_None_2; [done|rewrite (proj1 H2); lia|rewrite (proj1 H1); lia]. }
  destruct (lookup_lt_is_Some_2 m1 i) as [s1 Hs1]; [by rewrite (proj1 H1)|].
  destruct (lookup_lt_is_Some_2 m2 i) as [s2 Hs2]; [by rewrite (proj1 H2)|].
  rewrite Hs1, Hs2. f_equal. apply map_eq. intros k.
  assert (∀ m s, sm_wf m → m !! i = Some s → s !! k = if decide (shard_idx k = i) then sm_map m !! k else None) as Haux.
  { intros m s Hwf Hs. destruct (decide (shard_idx k = i)) as [<-|Hne].
    - rewrite <- sm_get_map by done. unfold sm_get, get_shard. by rewrite Hs.
    - destruct (s !! k) eqn:E; [|done]. destruct Hne. eapply Hwf; eauto. }
  rewrite (Haux m1 s1), (Haux m2 s2) by done. by rewrite Heq.
Qed.

Lemma upd_shard_wf m k f :
  sm_wf m → (∀ s k', is_Some (f s !! k') → k' = k ∨ is_Some (s !! k')) → sm_wf (upd_shard m k f).
Proof.
  intros [Hl Hk] Hf. unfold upd_shard. split; [by rewrite alter_length|].
  intros i s k' Hs Hk'. destruct (decide (i = shard_idx k)) as [->|Hne].
  - rewrite list_lookup_alter in Hs. destruct (m !! shard_idx k) as [s0|] eqn:E; [|done].
    simpl in Hs. injection Hs as <-. apply Hf in Hk' as [->|Hk']; [done|]. by eapply Hk.
  - rewrite list_lookup_alter_ne in Hs by done. by eapply Hk.
Qed.

Lemma upd_shard_map m k f (g : gmap string A → gmap string A) :
  sm_wf m → sm_wf (upd_shard m k f) →
  (∀ s, f s !! k = g s !! k) →
  (∀ s k', k' ≠ k → f s !! k' = s !! k') →
  (∀ s k', k' ≠ k → g s !! k' = s !! k') →
  (∀ s s', s !! k = s' !! k → g s !! k = g s' !! k) →
  sm_map (upd_shard m k f) = g (sm_map m).
Proof.
  intros Hwf Hwf' Hfg Hf Hg Hloc. apply map_eq. intros k'.
  rewrite <- sm_get_map by done. destruct (sm_wf_shard m k' Hwf) as [s Hs].
  unfold sm_get, get_shard, upd_shard.
  destruct (decide (k' = k)) as [->|Hne].
  - rewrite list_lookup_alter, Hs. simpl. rewrite Hfg. apply Hloc.
    rewrite <- (sm_get_map m k) by done. unfold sm_get, get_shard. by rewrite Hs.
  - rewrite Hg by done. rewrite <- sm_get_map by done. unfold sm_get, get_shard.
    destruct (decide (shard_idx k' = shard_idx k)) as [He|He].
    + rewrite He, list_lookup_alter. destruct (m !! shard_idx k); [|done]. simpl. by apply Hf.
    + by rewrite list_lookup_alter_ne.
Qed.

Lemma sm_set_wf m k v : sm_wf m → sm_wf (sm_set m k v).
Proof.
  intros H. apply upd_shard_wf; [done|]. intros s k' [w Hw].
  destruct (decide (k' = k)); [by left|right]. rewrite lookup_insert_ne in Hw by done. eauto.
Qed.

Lemma sm_set_map m k v : sm_wf m → sm_map (sm_set m k v) = <[k := v]> (sm_map m).
Proof.
  intros H. pose proof (sm_set_wf m k v H) as H'.
  apply (upd_shard_map m k _ (λ s, <[k:=v]> s)); try done; intros.
  - by rewrite lookup_insert_ne.
  - by rewrite lookup_insert_ne.
  - by rewrite !lookup_insert.
Qed.

Lemma sm_delete_wf m k : sm_wf m → sm_wf (sm_delete m k).
Proof.
  intros H. apply upd_shard_wf; [done|]. intros s k' [w Hw].
  apply lookup_delete_Some in Hw as [_ Hw]. eauto.
Qed.

Lemma sm_delete_map m k : sm_wf m → sm_map (sm_delete m k) = delete k (sm_map m).
Proof.
  intros H. pose proof (sm_delete_wf m k H) as H'.
  apply (upd_shard_map m k _ (delete k)); try done; intros.
  - by rewrite lookup_delete_ne.
  - by rewrite lookup_delete_ne.
  - by rewrite !lookup_delete.
Qed.

Lemma sm_new_map : sm_map (sm_new (A:=A)) = ∅.
Proof.
  apply map_eq. intros k. rewrite <- sm_get_map by apply sm_wf_new.
  unfold sm_get, get_shard, sm_new. rewrite lookup_replicate_2 by apply shard_idx_lt. done.
Qed.

Lemma sm_has_map m k : sm_wf m → sm_has m k = bool_decide (is_Some (sm_map m !! k)).
Proof. intros H. rewrite <- sm_get_map by done. done. Qed.

Lemma sm_set_if_absent_map m k v :
  sm_wf m →
  sm_set_if_absent m k v =
    match sm_map m !! k with None => (sm_set m k v, true) | Some _ => (m, false) end.
Proof. intros H. rewrite <- sm_get_map by done. done. Qed.

Lemma sm_delete_if_exists_map m k :
  sm_wf m →
  sm_delete_if_exists m k =
    match sm_map m !! k with None => (m, false) | Some _ => (sm_delete m k, true) end.
Proof. intros H. rewrite <- sm_get_map by done. done. Qed.

Lemma sm_load_and_delete_map m k :
  sm_wf m →
  sm_load_and_delete m k =
    match sm_map m !! k with None => (m, None) | Some v => (sm_delete m k, Some v) end.
Proof. intros H. rewrite <- sm_get_map by done. done. Qed.

Lemma sm_upsert_map {E} m k (f : option A → E + A) :
  sm_wf m →
  sm_upsert m k f =
    match f (sm_map m !! k) with inl e => (m, inl e) | inr v => (sm_set m k v, inr v) end.
Proof. intros H. rewrite <- sm_get_map by done. done. Qed.

(** Enumeration *)
Lemma entries_from_elem (i : nat) ord (l : list (gmap string A)) k v :
  (k, v) ∈ entries_from i ord l ↔ ∃ j s, l !! j = Some s ∧ s !! k = Some v.
Proof.
  revert i. induction l as [|s l IH]; intros i; simpl.
  - split; [by intros ?%elem_of_nil|]. intros (j & s & H & _). by rewrite lookup_nil in H.
  - rewrite elem_of_app, shuffle_perm, elem_of_map_to_list, IH. split.
    + intros [H|(j & s' & ? & ?)]; [by exists 0%nat, s|by exists (S j), s'].
    + intros ([|j] & s' & H & ?); simplify_eq/=; eauto.
Qed.

Lemma sm_entries_elem ord m k v :
  sm_wf m → (k, v) ∈ sm_entries ord m ↔ sm_map m !! k = Some v.
Proof.
  intros Hwf. unfold sm_entries. rewrite entries_from_elem. split.
  - intros (j & s & Hj & Hv). rewrite <- sm_get_map by done. unfold sm_get, get_shard.
    assert (shard_idx k = j) as -> by (eapply Hwf; eauto). by rewrite Hj.
  - intros H%foldr_union_lookup. naive_solver.
Qed.

Lemma entries_from_keys_nodup (i : nat) ord (l : list (gmap string A)) :
  (∀ j1 j2 s1 s2 k, l !! j1 = Some s1 → l !! j2 = Some s2 → is_Some (s1 !! k) → is_Some (s2 !! k) → j1 = j2) →
  NoDup (entries_from i ord l).*1.
Proof.
  revert i. induction l as [|s l IH]; intros i Hd; simpl; [constructor|].
  rewrite fmap_app. apply NoDup_app. split_and!.
  - rewrite shuffle_perm. apply NoDup_fst_map_to_list.
  - intros k Hk1 Hk2.
    rewrite shuffle_perm in Hk1.
    apply elem_of_list_fmap in Hk1 as ([k1 v1] & -> & Hk1). apply elem_of_map_to_list in Hk1.
    apply elem_of_list_fmap in Hk2 as ([k2 v2] & Heq & Hk2). simpl in *. subst k2.
    apply entries_from_elem in Hk2 as (j & s' & Hj & Hs').
    by specialize (Hd 0%nat (S j) s s' k1 eq_refl Hj (ex_intro _ _ Hk1) (ex_intro _ _ Hs')).
  - apply IH. intros j1 j2 s1 s2 k H1 H2 H3 H4.
    specialize (Hd (S j1) (S j2) s1 s2 k H1 H2 H3 H4). lia.
Qed.

Lemma sm_entries_nodup ord m : sm_wf m → NoDup (sm_entries ord m).*1.
Proof.
  intros Hwf. apply entries_from_keys_nodup. intros j1 j2 s1 s2 k H1 H2 H3 H4.
  rewrite <- (proj2 Hwf _ _ _ H1 H3). exact (proj2 Hwf _ _ _ H2 H4).
Qed.

Lemma sm_entries_perm ord m : sm_wf m → sm_entries ord m ≡ₚ map_to_list (sm_map m).
Proof.
  intros Hwf. apply NoDup_Permutation.
  - eapply NoDup_fmap_1, sm_entries_nodup; done.
  - apply NoDup_map_to_list.
  - intros [k v]. rewrite elem_of_map_to_list. by apply sm_entries_elem.
Qed.

Lemma sm_keys_elem ord m k : sm_wf m → k ∈ sm_keys ord m ↔ is_Some (sm_map m !! k).
Proof.
  intros Hwf. unfold sm_keys. rewrite elem_of_list_fmap. split.
  - intros ([k' v] & -> & H). apply sm_entries_elem in H; eauto.
  - intros [v Hv]. exists (k, v). split; [done|]. by apply sm_entries_elem.
Qed.

Lemma sm_keys_nodup ord m : sm_wf m → NoDup (sm_keys ord m).
Proof. apply sm_entries_nodup. Qed.

Lemma sm_keys_perm ord m : sm_wf m → sm_keys ord m ≡ₚ elements (dom (sm_map m)).
Proof.
  intros Hwf. apply NoDup_Permutation; [by apply sm_keys_nodup|apply NoDup_elements|].
  intros k. rewrite sm_keys_elem by done. by rewrite elem_of_elements, elem_of_dom.
Qed.

Lemma sm_keys_length ord m : sm_wf m → length (sm_keys ord m) = size (sm_map m).
Proof.
  intros Hwf. unfold sm_keys. rewrite fmap_length.
  rewrite (Permutation_length (sm_entries_perm ord m Hwf)). done.
Qed.

Lemma sm_items_map ord m : sm_wf m → sm_items ord m = sm_map m.
Proof.
  intros Hwf.
  assert (∀ (l : list (string * A)) acc, NoDup l.*1 → (∀ k v, (k, v) ∈ l → acc !! k = None) →
    foldl (λ (acc : gmap string A) kv, <[kv.1 := kv.2]> acc) acc l = (list_to_map l : gmap string A) ∪ acc) as Haux.
  { induction l as [|[k v] l IH]; intros acc Hnd Hacc; simpl.
    - by rewrite (left_id_L ∅ (∪)).
    - apply NoDup_cons in Hnd as [Hk Hnd]. rewrite IH; [|done|].
      + rewrite <- insert_union_r; [by rewrite insert_union_l|].
        apply not_elem_of_list_to_map_1. done.
      + intros k' v' Hin. rewrite lookup_insert_ne.
        * eapply Hacc. by right.
        * intros <-. apply Hk. apply elem_of_list_fmap. by exists (k, v'). }
  unfold sm_items. rewrite Haux; [|by apply sm_entries_nodup|intros; apply lookup_empty].
  rewrite (right_id_L ∅ (∪)).
  rewrite (list_to_map_proper _ _ (sm_entries_nodup ord m Hwf) (sm_entries_perm ord m Hwf)).
  apply list_to_map_to_list.
Qed.

End proofs.
