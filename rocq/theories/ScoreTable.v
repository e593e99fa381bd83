(** Every operation on a sorted set, on any skip list whatever its shape, follows the table of scores of
    SpecTable.v as long as it returns. *)
From Verif Require Import GoBase GoBaseProofs ShardMap ShardMapProofs Float64 Float64Proofs DList SkipList Db Protocol Redis SpecCmd SpecZSet SpecServer SpecKey SpecTable
  SetRep DbInv ExecSteps Sim SimZSet.

(** values and scores of the nodes *)
Definition sig (s : skiplist) : gmap loc (string * float) := (λ nd, (zi_val nd, zi_score nd)) <$> sl_nodes s.
Definition bounded (s : skiplist) : Prop := ∀ x, is_Some (sl_nodes s !! x) → (x < sl_fresh s)%nat.
(** [s'] is [s] but for links, levels, tail and back pointers *)
Definition same_nodes (s s' : skiplist) : Prop :=
  sig s' = sig s ∧ sl_fresh s' = sl_fresh s ∧ sl_len s' = sl_len s ∧ (bounded s → bounded s').

Lemma sn_refl s : same_nodes s s.
Proof. done. Qed.
Lemma sn_trans s1 s2 s3 : same_nodes s1 s2 → same_nodes s2 s3 → same_nodes s1 s3.
Proof. intros (A1 & A2 & A3 & A4) (B1 & B2 & B3 & B4). split_and!; [congruence..|auto]. Qed.
Lemma sn_set_lk x i v s : same_nodes s (set_lk x i v s).
Proof. done. Qed.
Lemma sn_level n s : same_nodes s (with_level n s).
Proof. done. Qed.
Lemma sn_tail t s : same_nodes s (with_tail t s).
Proof. done. Qed.
Lemma sn_back x b s : same_nodes s (set_back x b s).
Proof.
  split_and!; try done.
  - unfold sig, set_back. cbn [sl_nodes with_nodes]. apply map_eq. intros y. rewrite !lookup_fmap.
    destruct (decide (x = y)) as [->|]; [rewrite lookup_alter|by rewrite lookup_alter_ne]. by destruct (sl_nodes s !! y).
  - intros B y. unfold set_back. cbn [sl_nodes with_nodes sl_fresh]. intros H. apply B.
    destruct (decide (x = y)) as [->|]; [rewrite lookup_alter in H|by rewrite lookup_alter_ne in H]. by destruct (sl_nodes s !! y); destruct H.
Qed.
Lemma oloop_inv {S} (P : S → S → Prop) (is : list nat) f (s s' : S) : (∀ s, P s s) → (∀ a b c, P a b → P b c → P a c) →
  (∀ i s s', f i s = Ret s' → P s s') → oloop is f s = Ret s' → P s s'.
Proof.
  intros Hr Ht Hf. revert s. induction is as [|i is IH]; intros s H; cbn [oloop] in H; [injection H as <-; done|].
  apply obind_ret in H as (s1 & E & H). eapply Ht; [by eapply Hf|by eapply IH].
Qed.
Lemma sn_loop is f s s' : (∀ i s s', f i s = Ret s' → same_nodes s s') → oloop is f s = Ret s' → same_nodes s s'.
Proof. apply oloop_inv; [apply sn_refl|apply sn_trans]. Qed.
Lemma sn_splice x rank update i s s' : splice_step x rank update i s = Ret s' → same_nodes s s'.
Proof. unfold splice_step. intros H. crush H. eapply sn_trans; apply sn_set_lk. Qed.
Lemma sn_bump update i s s' : bump_step update i s = Ret s' → same_nodes s s'.
Proof. unfold bump_step. intros H. crush H. apply sn_set_lk. Qed.
Lemma sn_unlink x update i s s' : unlink_step x update i s = Ret s' → same_nodes s s'.
Proof. unfold unlink_step. intros H. crush H; apply sn_set_lk. Qed.
Lemma sn_grow level rank update s r' u' s' : grow_level level rank update s = Ret (r', u', s') → same_nodes s s'.
Proof.
  unfold grow_level. destruct (_ <? _)%nat; [|by intros [= <- <- <-]]. intros H. apply obind_ret in H as ([[r1 u1] s1] & E & H).
  injection H as <- <- <-. eapply sn_trans; [|apply sn_level].
  apply (oloop_inv (λ a b : list Z * list (option loc) * skiplist, same_nodes a.2 b.2) _ _ (rank, update, s) (r1, u1, s1)) in E; [done| | |].
  - intros a. apply sn_refl.
  - intros a b c. apply sn_trans.
  - intros i [[a b] c] [[a' b'] c'] H. crush H. apply sn_set_lk.
Qed.

Lemma insert_table level sc v s s' x : bounded s → sl_insert level sc v s = Ret (s', x) →
  x = sl_fresh s ∧ sig s' = <[x := (v, sc)]> (sig s) ∧ bounded s' ∧ sl_len s' = sl_len s + 1.
Proof.
  intros B H. unfold sl_insert in H. apply obind_ret in H as ([rank update] & _ & H).
  apply obind_ret in H as ([[rank' update'] s1] & E1 & H). apply sn_grow in E1 as (G1 & G2 & G3 & G4).
  destruct (new_zsl_node level sc v s1) as [x0 s2] eqn:E2. unfold new_zsl_node in E2. cbv zeta in E2. injection E2 as <- <-.
  apply obind_ret in H as (s3 & E3 & H). apply sn_loop in E3; [|intros; by eapply sn_splice].
  apply obind_ret in H as (s4 & E4 & H). apply sn_loop in E4; [|intros; by eapply sn_bump].
  pose proof (sn_trans _ _ _ E3 E4) as N4. clear E3 E4.
  apply obind_ret in H as (u0 & _ & H).
  match type of H with context [lk _ 0 ?s] => set (s5 := s) in H end.
  match type of N4 with same_nodes ?s2 _ => set (s20 := s2) in N4 end.
  assert (same_nodes s20 s5) as N5. { unfold s5. destruct (Nat.eqb u0 sl_head); [done|]. eapply sn_trans; [done|apply sn_back]. }
  clearbody s5. apply obind_ret in H as ([fwd sp] & _ & H).
  match type of H with context [with_len (sl_len ?s + 1)] => set (s6 := s) in H end.
  assert (same_nodes s20 s6) as N6. { unfold s6. destruct fwd; eapply sn_trans; [done|apply sn_back|done|apply sn_tail]. }
  clearbody s6. injection H as <- <-. destruct N6 as (A1 & A2 & A3 & A4). split_and!.
  - done.
  - change (sig (with_len (sl_len s6 + 1) s6)) with (sig s6). rewrite A1. unfold sig, s20. cbn [sl_nodes].
    rewrite fmap_insert. cbn [zi_val zi_score]. f_equal. done.
  - assert (bounded s6) as B6; [|done]. apply A4. intros y. unfold s20. cbn [sl_nodes sl_fresh]. destruct (decide (y = sl_fresh s1)) as [->|]; [lia|].
    rewrite lookup_insert_ne by done. intros Hy. apply (G4 B) in Hy. lia.
  - cbn [sl_len with_len]. rewrite A3. unfold s20. cbn [sl_len]. by rewrite G3.
Qed.
Lemma delete_node_table x update s s' : sl_delete_node x update s = Ret s' →
  sig s' = sig s ∧ sl_fresh s' = sl_fresh s ∧ (bounded s → bounded s') ∧ sl_len s' = sl_len s - 1.
Proof.
  intros H. unfold sl_delete_node in H. apply obind_ret in H as (s1 & E1 & H). apply sn_loop in E1; [|intros; by eapply sn_unlink].
  apply obind_ret in H as ([fwd sp] & _ & H). apply obind_ret in H as (s2 & E2 & H).
  assert (same_nodes s s2) as N2. { destruct fwd; [|by injection E2 as <-]. crush E2. eapply sn_trans; [done|apply sn_back]. }
  apply obind_ret in H as (lvl & _ & H). injection H as <-. destruct N2 as (A1 & A2 & A3 & A4). split_and!; [done..|]. cbn. by rewrite A3.
Qed.
Lemma delete_table sc v s s' n : sl_delete sc v s = Ret (s', n) →
  sig s' = sig s ∧ sl_fresh s' = sl_fresh s ∧ (bounded s → bounded s') ∧ sl_len s - 1 <= sl_len s' <= sl_len s.
Proof.
  intros H. unfold sl_delete in H. apply obind_ret in H as ([x0 update] & _ & H). apply obind_ret in H as ([fwd sp] & _ & H).
  destruct fwd as [x|]; [|injection H as <- _; split_and!; [done..|lia|lia]].
  apply obind_ret in H as (nd & _ & H). destruct (_ && _); [|injection H as <- _; split_and!; [done..|lia|lia]].
  apply obind_ret in H as (s1 & E & H). injection H as <- _. apply delete_node_table in E as (A1 & A2 & A3 & A4). split_and!; [done..|lia|lia].
Qed.
Lemma sig_node s x nd : zn x s = Ret nd → sig s !! x = Some (zi_val nd, zi_score nd).
Proof. unfold zn, sig. intros H. rewrite lookup_fmap. destruct (sl_nodes s !! x); simpl in *; [|done]. by injection H as ->. Qed.
Lemma node_sig s x v f : sig s !! x = Some (v, f) → ∃ nd, zn x s = Ret nd ∧ zi_val nd = v ∧ zi_score nd = f.
Proof. unfold zn, sig. rewrite lookup_fmap. destruct (sl_nodes s !! x) as [nd|]; simpl; [|done]. intros [= <- <-]. by exists nd. Qed.
(** the score goes to a node of this value, or to a new one *)
Lemma update_table level cur new v s s' o : bounded s → sl_update_score level cur new v s = Ret (s', o) →
  bounded s' ∧ sl_len s' = sl_len s ∧
  match o with
  | None => s' = s
  | Some x => sig s' = <[x := (v, new)]> (sig s) ∧ (sig s !! x = None ∨ ∃ f, sig s !! x = Some (v, f))
  end.
Proof.
  intros B H. unfold sl_update_score in H. apply obind_ret in H as ([x0 update] & _ & H). apply obind_ret in H as ([fwd sp] & _ & H).
  destruct fwd as [x|]; [|by injection H as <- <-]. apply obind_ret in H as (nd & En & H).
  destruct (negb _ || negb _) eqn:Et; [by injection H as <- <-|].
  apply orb_false_iff in Et as [_ Et]. apply negb_false_iff in Et. apply String.eqb_eq in Et.
  apply sig_node in En as Es. rewrite Et in Es.
  apply obind_ret in H as (bo & _ & H). apply obind_ret in H as (stay & _ & H). destruct stay.
  - injection H as <- <-. split_and!.
    + intros y. unfold set_score. cbn [sl_nodes with_nodes sl_fresh]. intros H. apply B.
      destruct (decide (x = y)) as [->|]; [rewrite lookup_alter in H|by rewrite lookup_alter_ne in H]. by destruct (sl_nodes s !! y); destruct H.
    + done.
    + apply map_eq. intros y. unfold sig, set_score. cbn [sl_nodes with_nodes]. rewrite lookup_fmap.
      destruct (decide (x = y)) as [<-|]; [|by rewrite lookup_alter_ne, lookup_insert_ne, lookup_fmap by done].
      rewrite lookup_alter, lookup_insert. unfold zn in En. destruct (sl_nodes s !! x) as [nd'|]; simpl in *; [|done]. injection En as ->. by rewrite Et.
    + right. eauto.
  - apply obind_ret in H as (s1 & E1 & H). apply delete_node_table in E1 as (A1 & A2 & A3 & A4).
    apply obind_ret in H as ([s2 n] & E2 & H). injection H as <- <-. apply insert_table in E2 as (I1 & I2 & I3 & I4); [|auto].
    split_and!; [done|lia|by rewrite I2, A1|]. left. subst n. unfold sig. rewrite lookup_fmap.
    destruct (sl_nodes s !! sl_fresh s1) eqn:E; [|done]. exfalso. apply mk_is_Some, B in E. lia.
Qed.

(** ** the table of a sorted set *)
Record tabled (z : zset) (t : table) : Prop := {
  tb_wf : sm_wf (zs_m z);
  tb_node : ∀ v p, sm_get (zs_m z) v = Some p → ∃ f, sig (zs_sl z) !! p = Some (v, f);
  tb_score : ∀ v, t.1 !! v = match sm_get (zs_m z) v with Some p => snd <$> sig (zs_sl z) !! p | None => None end;
  tb_bound : bounded (zs_sl z);
  tb_len : sl_len (zs_sl z) = t.2 }.

Lemma tabled_new : tabled zs_new (∅, 0).
Proof.
  split; [apply sm_wf_new| | | |done].
  - intros v p. unfold zs_new. cbn [zs_m]. rewrite sm_get_map by apply sm_wf_new. by rewrite sm_new_map.
  - intros v. unfold zs_new. cbn [zs_m fst]. rewrite sm_get_map by apply sm_wf_new. by rewrite sm_new_map.
  - intros x. unfold zs_new, sl_new, new_zsl_node. cbn [zs_sl snd sl_nodes sl_fresh]. destruct (decide (x = 0%nat)) as [->|]; [lia|]. rewrite lookup_insert_ne by done.
    by intros [? ?].
Qed.
(** a node for [v] with score [f] *)
Lemma tabled_put z T n v x f s' n' : tabled z (T, n) → sig s' = <[x := (v, f)]> (sig (zs_sl z)) → bounded s' → sl_len s' = n' →
  (sig (zs_sl z) !! x = None ∨ ∃ g, sig (zs_sl z) !! x = Some (v, g)) → tabled (ZSet (sm_set (zs_m z) v x) s') (<[v := f]> T, n').
Proof.
  intros [W N Sc B L] Es B' L' Hx. split; cbn [zs_m zs_sl fst snd]; [by apply sm_set_wf| | |done|done].
  - intros w p. rewrite sm_get_set by done. rewrite Es. case_bool_decide as Ew.
    + intros [= <-]. exists f. rewrite lookup_insert. by subst.
    + intros H. destruct (N w p H) as [g Hg]. exists g. rewrite lookup_insert_ne; [done|]. intros <-. destruct Hx as [Hx|[g' Hx]]; congruence.
  - intros w. rewrite sm_get_set by done. rewrite Es. case_bool_decide as Ew; [subst; by rewrite !lookup_insert|].
    rewrite lookup_insert_ne by done. rewrite Sc. cbn [fst]. destruct (sm_get (zs_m z) w) as [p|] eqn:E; [|done].
    rewrite lookup_insert_ne; [done|]. intros <-. destruct (N w _ E) as [g Hg]. destruct Hx as [Hx|[g' Hx]]; congruence.
Qed.
Lemma tabled_score z T n v : tabled z (T, n) →
  match sm_get (zs_m z) v with
  | None => T !! v = None
  | Some p => ∃ f, T !! v = Some f ∧ entry_score p z = Ret f
  end.
Proof.
  intros [W N Sc B L]. pose proof (Sc v) as Hv. cbn [fst] in Hv. destruct (sm_get (zs_m z) v) as [p|] eqn:E; [|done].
  destruct (N v p E) as [f Hf]. exists f. rewrite Hv, Hf. split; [done|]. apply node_sig in Hf as (nd & En & _ & <-). unfold entry_score. by rewrite En.
Qed.
Lemma add_table draw f v o z t z' x : tabled z t → zs_add draw f v (zf_of o) z = Ret (z', x) →
  ∃ t', tabled z' t' ∧ put_pair o f v t t' (if x then true else false) ∧
    match x with Some p => ∃ g, t'.1 !! v = Some g ∧ entry_score p z' = Ret g | None => True end.
Proof.
  destruct t as [T n]. intros Tb H. pose proof (tabled_score z T n v Tb) as Hv. unfold zs_add in H. unfold zf_of in H. cbn [zf_incr zf_nx zf_xx] in H.
  assert (∀ z' p g t', tabled z' t' → sm_get (zs_m z') v = Some p → t'.1 !! v = Some g → entry_score p z' = Ret g) as Last.
  { intros z2 p g [T2 n2] Tb2 Hp Hg. pose proof (tabled_score z2 T2 n2 v Tb2) as H2. rewrite Hp in H2. destruct H2 as (g' & H3 & H4). cbn [fst] in Hg. congruence. }
  destruct (sm_get (zs_m z) v) as [p|] eqn:Ep.
  - destruct Hv as (old & Ho & Hs). destruct (o_nx o) eqn:Enx; [injection H as <- <-; exists (T, n); split_and!; [done|by eapply pair_nx|done]|].
    rewrite Hs in H. cbn [obind] in H. set (g := if o_incr o then fadd f old else f) in *.
    destruct (feq g old) eqn:Eq; cbn [negb] in H; [injection H as <- <-; exists (T, n); split_and!; [done|by eapply pair_same|done]|].
    apply obind_ret in H as ([s' y] & Eu & H). apply update_table in Eu as (B' & L' & Hu); [|apply Tb].
    destruct y as [y|]; injection H as <- <-.
    + destruct Hu as [Es Hx]. assert (tabled (ZSet (sm_set (zs_m z) v y) s') (<[v := g]> T, n)) as Tb' by (eapply tabled_put; [done|done|done|rewrite L'; apply Tb|done]).
      exists (<[v := g]> T, n). split_and!; [done|by eapply pair_changed|]. exists g. cbn [fst]. rewrite lookup_insert. split; [done|].
      eapply Last; [done| |cbn [fst]; by rewrite lookup_insert]. cbn [zs_m]. rewrite sm_get_set by apply Tb. by rewrite bool_decide_eq_true_2.
    + subst s'. exists (T, n). split_and!; [by destruct z|by eapply pair_stuck|done].
  - destruct (o_xx o) eqn:Exx; [injection H as <- <-; exists (T, n); split_and!; [done|by eapply pair_xx|done]|].
    apply obind_ret in H as ([s' y] & Eu & H). injection H as <- <-. apply insert_table in Eu as (I1 & I2 & I3 & I4); [|apply Tb].
    assert (tabled (ZSet (sm_set (zs_m z) v y) s') (<[v := f]> T, n + 1)) as Tb'.
    { eapply tabled_put; [done|done|done|rewrite I4; f_equal; apply Tb|]. left. subst y. unfold sig. rewrite lookup_fmap.
      destruct (sl_nodes (zs_sl z) !! sl_fresh (zs_sl z)) eqn:E; [|done]. exfalso. apply mk_is_Some, Tb in E. lia. }
    exists (<[v := f]> T, n + 1). split_and!; [done|by eapply pair_new|]. exists f. cbn [fst]. rewrite lookup_insert. split; [done|].
    eapply Last; [done| |cbn [fst]; by rewrite lookup_insert]. cbn [zs_m]. rewrite sm_get_set by apply Tb. by rewrite bool_decide_eq_true_2.
Qed.
Lemma add_all_table lvl o ms : ∀ j z t cnt z' n, tabled z t → zs_add_all lvl j ms (zf_of o) z cnt = Ret (z', n) →
  ∃ t' m, tabled z' t' ∧ put_pairs o ms t t' m ∧ n = cnt + m.
Proof.
  induction ms as [|[f v] ms IH]; intros j z t cnt z' n Tb H; cbn [zs_add_all] in H.
  - injection H as <- <-. exists t, 0. split_and!; [done|constructor|lia].
  - apply obind_ret in H as ([z1 x] & E & H). apply (add_table _ _ _ _ _ t) in E as (t1 & Tb1 & P1 & _); [|done].
    apply (IH _ _ t1) in H as (t2 & m & Tb2 & P2 & ->); [|done]. eexists t2, _. split_and!; [done|by econstructor|]. destruct x; lia.
Qed.
Lemma forget_lookup vs (T : gmap string float) v : forget vs T !! v = if bool_decide (v ∈ vs) then None else T !! v.
Proof.
  unfold forget. case_bool_decide as Hv.
  - apply map_filter_lookup_None. right. intros x _ Hx. by apply Hx.
  - destruct (T !! v) as [f|] eqn:E; [by apply map_filter_lookup_Some|]. apply map_filter_lookup_None. by left.
Qed.
Lemma forget_nil (T : gmap string float) : forget [] T = T.
Proof. apply map_eq. intros v. rewrite forget_lookup. rewrite bool_decide_eq_false_2; [done|]. apply not_elem_of_nil. Qed.
Lemma forget_cons v vs (T : gmap string float) : forget (v :: vs) T = forget vs (delete v T).
Proof.
  apply map_eq. intros w. rewrite !forget_lookup. destruct (decide (w = v)) as [->|Hw].
  - rewrite bool_decide_eq_true_2 by (by left). rewrite lookup_delete. by case_bool_decide.
  - rewrite lookup_delete_ne by done. destruct (decide (w ∈ vs)); [rewrite !bool_decide_eq_true_2 by (done || by right)|rewrite !bool_decide_eq_false_2 by (done || by apply not_elem_of_cons)]; done.
Qed.
Lemma rem_all_table vs : ∀ z T n cnt z' m, tabled z (T, n) → zs_rem_all vs z cnt = Ret (z', m) →
  ∃ n', tabled z' (forget vs T, n') ∧ m = cnt + (Z.of_nat (size T) - Z.of_nat (size (forget vs T))) ∧
    n - (m - cnt) <= n' <= n.
Proof.
  induction vs as [|v vs IH]; intros z T n cnt z' m Tb H; cbn [zs_rem_all] in H.
  - injection H as <- <-. exists n. rewrite forget_nil. split_and!; [done|lia|lia|lia].
  - rewrite sm_load_and_delete_map in H by apply Tb. rewrite <- sm_get_map in H by apply Tb.
    pose proof (tabled_score z T n v Tb) as Hv. rewrite forget_cons. destruct (sm_get (zs_m z) v) as [p|] eqn:Ep.
    + destruct Hv as (f & Hf & Hs). rewrite Hs in H. cbn [obind] in H. apply obind_ret in H as ([s' k] & E & H).
      apply delete_table in E as (A1 & A2 & A3 & A4). apply (IH _ (delete v T) (sl_len s')) in H as (n' & Tb' & -> & Hn).
      * exists n'. split; [done|]. assert (Z.of_nat (size T) = 1 + Z.of_nat (size (delete v T))) as E.
        { rewrite <- (insert_delete T v f Hf) at 1. rewrite map_size_insert_None by apply lookup_delete. lia. }
        pose proof (tb_len _ _ Tb) as L. cbn [snd] in L. split_and!; lia.
      * destruct Tb as [W N Sc B L]. split; cbn [zs_m zs_sl fst snd]; [by apply sm_delete_wf| | |by apply A3|done].
        -- intros w q. rewrite sm_get_delete by done. case_bool_decide; [done|]. rewrite A1. apply N.
        -- intros w. rewrite sm_get_delete by done. rewrite A1. case_bool_decide as Ew; [subst; by rewrite lookup_delete|]. rewrite lookup_delete_ne by done. apply Sc.
    + rewrite delete_notin by done. by eapply IH.
Qed.
Lemma pop_table ext mx k : ∀ s acc s' vs, zs_pop_loop ext mx k s acc = Ret (s', vs) →
  sig s' = sig s ∧ (bounded s → bounded s') ∧ sl_len s' <= sl_len s.
Proof.
  induction k as [|k IH]; intros s acc s' vs H; cbn [zs_pop_loop] in H; [injection H as <- _; split_and!; [done..|lia]|].
  apply obind_ret in H as (o & _ & H). destruct o as [x|]; [|injection H as <- _; split_and!; [done..|lia]].
  apply obind_ret in H as (nd & _ & H). apply obind_ret in H as ([s1 q] & E & H). apply obind_ret in H as (nd' & _ & H).
  apply delete_table in E as (A1 & A2 & A3 & A4). apply IH in H as (B1 & B2 & B3). split_and!; [congruence|auto|lia].
Qed.
Lemma tabled_pop z T n s' : tabled z (T, n) → sig s' = sig (zs_sl z) → bounded s' → tabled (ZSet (zs_m z) s') (T, sl_len s').
Proof. intros [W N Sc B L] E B'. split; cbn [zs_m zs_sl fst snd]; [done| | |done|done]; rewrite E; done. Qed.
