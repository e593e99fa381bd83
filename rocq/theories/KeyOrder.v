(** The order in which [range] visits the keys of a map depends on the keys only, not on the values: facts about
    std++'s maps that C77 needs for KEYS. *)
From stdpp Require Import gmap pmap.
From Verif Require Import GoBase GoBaseProofs ShardMap ShardMapProofs Float64 Db Protocol Redis Obs SpecCmd SpecResp SpecTenants DbInv ExecSteps Twin.

Lemma pto_list_fmap {A B} (f : A → B) t : ∀ j acc,
  Pto_list_raw j (Pfmap_raw f t) (prod_map id f <$> acc) = prod_map id f <$> Pto_list_raw j t acc.
Proof.
  induction t as [|o l IHl r IHr]; intros j acc; [done|]. cbn [Pfmap_raw Pto_list_raw]. rewrite IHr, IHl, fmap_app. by destruct o.
Qed.
Lemma map_to_list_fmap_eq {A B} (f : A → B) (m : gmap string A) : map_to_list (f <$> m) = prod_map id f <$> map_to_list m.
Proof.
  destruct m as [[t Ht] Hm]. unfold map_to_list, gmap_to_list. cbn. unfold map_to_list, Pto_list. cbn.
  pose proof (pto_list_fmap f t 1%positive []) as E. change (prod_map id f <$> []) with ([] : list (positive * B)) in E. unfold fmap, Pfmap in *. rewrite E. clear E.
  induction (Pto_list_raw 1 t []) as [|[i x] l IH]; [done|]. cbn. destruct (countable.decode i); cbn; [|exact IH]. f_equal. exact IH.
Qed.
Lemma same_keys_listed {A B} (m1 : gmap string A) (m2 : gmap string B) : (∀ k, is_Some (m1 !! k) ↔ is_Some (m2 !! k)) → (map_to_list m1).*1 = (map_to_list m2).*1.
Proof.
  intros H. assert ((λ _, tt) <$> m1 = (λ _, tt) <$> m2) as E.
  { apply map_eq. intros k. rewrite !lookup_fmap. specialize (H k). destruct (m1 !! k), (m2 !! k); cbn; try done.
    - destruct H as [H _]. destruct H; [by eexists|done].
    - destruct H as [_ H]. destruct H; [by eexists|done]. }
  apply (f_equal (fmap (M:=list) fst ∘ map_to_list)) in E. cbn [compose] in E. rewrite !map_to_list_fmap_eq, <- !list_fmap_compose in E. exact E.
Qed.
Lemma take_nth_fmap {A B} (f : A → B) n (l : list A) : take_nth n (f <$> l) = option_fmap _ _ (prod_map f (fmap (M:=list) f)) (take_nth n l).
Proof.
  revert n. induction l as [|x l IH]; intros n; [done|]. destruct n; [done|]. cbn. rewrite IH. by destruct (take_nth n l) as [[]|].
Qed.
Lemma shuffle_fmap {A B} (f : A → B) seed (l : list A) : shuffle seed (f <$> l) = f <$> shuffle seed l.
Proof.
  unfold shuffle. rewrite fmap_length. generalize (length l) as n. intros n. revert seed l. induction n as [|n IH]; intros seed l; [done|].
  destruct seed as [|m seed]; [done|]. cbn [shuffle_fuel]. rewrite fmap_length, take_nth_fmap. destruct (take_nth _ l) as [[x r]|]; [|done]. cbn. by rewrite IH.
Qed.
Lemma entries_same {A} ord (m1 m2 : smap A) : ∀ i, Forall2 (λ s1 s2, ∀ k, is_Some (s1 !! k) ↔ is_Some (s2 !! k)) m1 m2 → (entries_from i ord m1).*1 = (entries_from i ord m2).*1.
Proof.
  intros i H. revert i. induction H as [|s1 s2 m1 m2 Hs _ IH]; intros i; [done|]. cbn [entries_from]. rewrite !fmap_app, <- !shuffle_fmap, IH. by rewrite (same_keys_listed s1 s2 Hs).
Qed.
Lemma shards_same {A} (m1 m2 : smap A) : sm_wf m1 → sm_wf m2 → (∀ k, is_Some (sm_get m1 k) ↔ is_Some (sm_get m2 k)) →
  Forall2 (λ s1 s2, ∀ k, is_Some (s1 !! k) ↔ is_Some (s2 !! k)) m1 m2.
Proof.
  intros [L1 W1] [L2 W2] H. apply Forall2_same_length_lookup_2; [congruence|]. intros i s1 s2 E1 E2 k. split; intros Hk.
  - pose proof (W1 i s1 k E1 Hk) as <-. specialize (H k). unfold sm_get, get_shard in H. rewrite E1, E2 in H. by apply H.
  - pose proof (W2 i s2 k E2 Hk) as <-. specialize (H k). unfold sm_get, get_shard in H. rewrite E1, E2 in H. by apply H.
Qed.
Lemma range_keys {A} (g : string → bool) (l1 l2 : list (string * A)) acc : l1.*1 = l2.*1 →
  range_loop (λ acc k _, ((if g k : bool then acc ++ [k] else acc), true)) acc l1 = range_loop (λ acc k _, ((if g k : bool then acc ++ [k] else acc), true)) acc l2.
Proof.
  revert l2 acc. induction l1 as [|[k v] l1 IH]; intros [|[k2 v2] l2] acc E; try discriminate E; [done|]. cbn in E. injection E as <- E. cbn [range_loop]. by apply IH.
Qed.
Lemma keys_same ext c p d e : twin (λ _, true) d e → Keys ext c p d = Keys ext c p e.
Proof.
  intros T. unfold Keys. destruct (deref (glob_compile ext p)) as [g| |]; [|done..]. cbn [obind]. f_equal. unfold sm_range. apply range_keys. unfold sm_entries. apply entries_same.
  apply shards_same; [apply T|apply T|]. intros k. pose proof (t_val _ _ _ T k eq_refl) as V. unfold same_value in V.
  destruct (sm_get (db_keys d) k) as [[]|], (sm_get (db_keys e) k) as [[]|]; try done; by split; intros _; eexists.
Qed.
Lemma ask_same_all ext c d e req : twin (λ _, true) d e → same (λ _, true) (ask ext c req d) (ask ext c req e).
Proof.
  intros T. destruct (lists_keys req) eqn:Hl; [|by apply ask_same]. destruct req as [|name a]; [done|]. cbn [lists_keys] in Hl. apply String.eqb_eq in Hl.
  unfold ask, exec, exec_lowered. rewrite Hl.
  replace (lookup_command "keys"%string (implemented_commands ext c)) with (Some (c_keys ext c)) by reflexivity.
  unfold c_keys. destruct (fewer a 1); [by split|]. destruct (arg a 0) as [p| |]; [|done..]. cbn [obind]. rewrite (keys_same ext c p d e T).
  destruct (Keys ext c p e); [|done..]. by split.
Qed.
