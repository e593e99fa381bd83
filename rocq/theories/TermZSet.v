(** Every loop over a skip list ends, in every state the commands can produce, damaged ones included: inserting and
    unlinking a node only subdivides or contracts the pointers of one level, so no level ever has a cycle. *)
From Verif Require Import GoBase ShardMap Float64 DList SkipList Db TermList.

(** per level, every forward pointer goes up; every pointer stays within the arena *)
Definition zord (f : nat → nat → Z) (lk : gmap (nat * nat) (option nat * Z)) (fr : nat) : Prop :=
  ∀ x i o sp, lk !! (x, i) = Some (o, sp) → (x < fr)%nat ∧ (∀ y, o = Some y → (y < fr)%nat ∧ f i x < f i y).
Record zfine (f : nat → nat → Z) (s : skiplist) : Prop := {
  zf_ord : zord f (sl_links s) (sl_fresh s);
  zf_pos : (0 < sl_fresh s)%nat
}.
Definition ZFn (s : skiplist) : Prop := ∃ f, zfine f s.
Lemma zfine_same f s s' : sl_links s' = sl_links s → sl_fresh s' = sl_fresh s → zfine f s → zfine f s'.
Proof. intros E1 E2 [H1 H2]. split; by rewrite ?E1, E2. Qed.

Lemma new_node_links (m0 : gmap (nat * nat) (option nat * Z)) (x n : nat) y i :
  foldl (λ m i, <[(x, i) := (None, 0)]> m) m0 (seq 0 n) !! (y, i) =
    if decide (y = x ∧ (i < n)%nat) then Some (None, 0) else m0 !! (y, i).
Proof.
  induction n as [|n IH].
  - simpl. rewrite decide_False by lia. done.
  - rewrite seq_S, foldl_app. simpl. destruct (decide ((y, i) = (x, n))) as [E|Hne].
    + injection E as -> ->. rewrite lookup_insert, decide_True by lia. done.
    + rewrite lookup_insert_ne by done. rewrite IH. destruct (decide (y = x ∧ (i < n)%nat)) as [H|H].
      * by rewrite decide_True by lia.
      * rewrite decide_False; [done|]. intros [-> H']. apply Hne. f_equal. lia.
Qed.
Lemma zfine_new_node f lvl sc v s : zfine f s → zfine f (new_zsl_node lvl sc v s).2.
Proof.
  intros [H1 H2]. split; simpl; [|lia]. intros y i o sp. rewrite new_node_links. destruct (decide _) as [[-> H]|H].
  - intros [= <- <-]. split; [lia|done].
  - intros E. destruct (H1 _ _ _ _ E) as [A B]. split; [lia|]. intros z Hz. destruct (B z Hz). split; [lia|done].
Qed.
Lemma ZF_new : ZFn sl_new.
Proof.
  exists (λ _ _, 0). split; [|simpl; lia]. intros y i o sp. change (sl_links sl_new) with (foldl (λ m i, <[(0%nat, i) := (None, 0)]> m) (∅ : gmap (nat * nat) (option nat * Z)) (seq 0 max_level)).
  rewrite new_node_links. change (sl_fresh sl_new) with 1%nat.
  destruct (decide _) as [[-> H]|H]; [intros [= <- <-]; split; [lia|done]|by rewrite lookup_empty].
Qed.

(** one link *)
Lemma zfine_set f x i o sp s : zfine f s → (x < sl_fresh s)%nat → (∀ y, o = Some y → (y < sl_fresh s)%nat ∧ f i x < f i y) → zfine f (set_lk x i (o, sp) s).
Proof.
  intros [H1 H2] Hx Ho. split; [|done]. intros y j o' sp'. simpl. destruct (decide ((y, j) = (x, i))) as [E|Hne].
  - injection E as -> ->. rewrite lookup_insert. intros [= <- <-]. done.
  - rewrite lookup_insert_ne by done. apply H1.
Qed.
Lemma zfine_lk f x i s : zfine f s → fin (λ l, (x < sl_fresh s)%nat ∧ ∀ y, l.1 = Some y → (y < sl_fresh s)%nat ∧ f i x < f i y) (lk x i s).
Proof. intros [H1 H2]. apply fin_deref. intros [o sp] E. by destruct (H1 x i o sp E). Qed.

Lemma fin_walk f s n : zfine f s → ∀ test brk i x r, (above (f i) (dom (sl_nodes s)) x < n)%nat → (x < sl_fresh s)%nat →
  fin (λ p, (p.1.1 < sl_fresh s)%nat) (walk n s test brk i x r).
Proof.
  intros H. induction n as [|n IH]; intros test brk i x r Hn Hx; [lia|]. cbn [walk].
  eapply fin_bind; [by apply (zfine_lk f)|]. intros [o sp] [_ Ho]. simpl in Ho. destruct o as [y|]; [|done]. destruct (Ho y eq_refl) as [Hy Hf].
  unfold zn at 1. destruct (sl_nodes s !! y) as [nd|] eqn:E; [|done]. cbn [deref obind]. destruct (test nd (r + sp)); [|done].
  unfold zn at 1. destruct (sl_nodes s !! x) as [cu|]; [|done]. cbn [deref obind]. destruct (brk cu nd); [done|].
  apply IH; [|done]. assert (y ∈ dom (sl_nodes s)) as Hd by (apply elem_of_dom; eauto). pose proof (above_lt (f i) _ x y Hd Hf). lia.
Qed.
Lemma fin_walk_all s test brk i x r : ZFn s → (x < sl_fresh s)%nat → fin (λ p, (p.1.1 < sl_fresh s)%nat) (walk (sl_fuel s) s test brk i x r).
Proof.
  intros [f H] Hx. apply (fin_walk f); [done| |done]. unfold sl_fuel. pose proof (above_size (f i) (dom (sl_nodes s)) x) as W. rewrite dom_size in W. lia.
Qed.
Lemma fin_descend s test brk : ZFn s → ∀ n x r, (x < sl_fresh s)%nat → fin (λ _, True) (descend n s test brk x r).
Proof.
  intros H. induction n as [|n IH]; intros x r Hx; [done|]. cbn [descend]. eapply fin_bind; [by apply fin_walk_all|].
  intros [[x' r'] b] Hx'. destruct b; [done|]. by apply IH.
Qed.
Lemma fin_find_rank s rk : ZFn s → ∀ n x t, (x < sl_fresh s)%nat → fin (λ _, True) (find_rank_loop n s rk x t).
Proof.
  intros H. induction n as [|n IH]; intros x t Hx; [done|]. cbn [find_rank_loop]. eapply fin_bind; [by apply fin_walk_all|].
  intros [[x' t'] b] Hx'. destruct (_ =? _); [done|]. by apply IH.
Qed.
Lemma ZF_pos s : ZFn s → (sl_head < sl_fresh s)%nat.
Proof. by intros [f [_ H]]. Qed.
Lemma fin_by_rank s rk : ZFn s → fin (λ _, True) (sl_find_by_rank rk s).
Proof. intros H. by apply fin_find_rank, ZF_pos. Qed.
Lemma fin_rank s sc v : ZFn s → fin (λ _, True) (sl_rank sc v s).
Proof. intros H. by apply fin_descend, ZF_pos. Qed.
Lemma fin_min_rank s sc o : ZFn s → fin (λ _, True) (sl_min_score_rank sc o s).
Proof. intros H. unfold sl_min_score_rank. destruct (is_inf sc); [done|]. eapply fin_bind; [by apply fin_descend, ZF_pos|done]. Qed.
Lemma fin_max_rank s sc o : ZFn s → fin (λ _, True) (sl_max_score_rank sc o s).
Proof. intros H. unfold sl_max_score_rank. destruct (is_inf sc); [done|]. eapply fin_bind; [by apply fin_descend, ZF_pos|done]. Qed.
Lemma fin_count s mn mo mx mxo : ZFn s → fin (λ _, True) (sl_count mn mo mx mxo s).
Proof.
  intros H. unfold sl_count. destruct (_ && _); [done|]. eapply fin_bind; [by apply fin_min_rank|]. intros a _. eapply fin_bind; [by apply fin_max_rank|]. intros b _.
  destruct (a <=? 0); [done|]. by destruct (b <? 0).
Qed.
Lemma fin_range_out ext n : ∀ s ws x acc, fin (λ _, True) (range_out ext n s ws x acc).
Proof.
  induction n as [|n IH]; intros s ws x acc; [done|]. cbn [range_out]. destruct x as [x|]; [|done]. cbn [deref obind].
  unfold zn. destruct (sl_nodes s !! x); [|done]. cbn [deref obind]. unfold lk. destruct (sl_links s !! (x, 0%nat)) as [[]|]; [|done]. apply IH.
Qed.
Lemma fin_rev_out ext n : ∀ s ws x acc, fin (λ _, True) (rev_range_out ext n s ws x acc).
Proof.
  induction n as [|n IH]; intros s ws x acc; [done|]. cbn [rev_range_out]. destruct x as [x|]; [|done]. cbn [deref obind].
  unfold zn. destruct (sl_nodes s !! x); [|done]. apply IH.
Qed.
Lemma fin_range ext a b ws s : ZFn s → fin (λ _, True) (sl_range ext a b ws s).
Proof. intros H. unfold sl_range. destruct (range_bounds a b (sl_len s)) as [[]|]; [|done]. eapply fin_bind; [by apply fin_by_rank|]. intros o _. apply fin_range_out. Qed.
Lemma fin_rev_range ext a b ws s : ZFn s → fin (λ _, True) (sl_rev_range ext a b ws s).
Proof. intros H. unfold sl_rev_range. destruct (range_bounds a b (sl_len s)) as [[]|]; [|done]. eapply fin_bind; [by apply fin_by_rank|]. intros o _. apply fin_rev_out. Qed.
Lemma fin_range_by_score ext mn mo mx mxo ws s : ZFn s → fin (λ _, True) (sl_range_by_score ext mn mo mx mxo ws s).
Proof.
  intros H. unfold sl_range_by_score. destruct (_ && _); [by apply fin_range|]. eapply fin_bind; [by apply fin_min_rank|]. intros a _. eapply fin_bind; [by apply fin_max_rank|]. intros b _.
  destruct (a <=? 0); [by apply fin_range|]. destruct (b <? 0); by apply fin_range.
Qed.

(** ** Changes *)
Definition uok (fr : nat) (u : list (option nat)) : Prop := ∀ i x, u !! i = Some (Some x) → (x < fr)%nat.
Lemma uok_insert fr u i x : uok fr u → (x < fr)%nat → uok fr (<[i := Some x]> u).
Proof.
  intros H Hx j y. destruct (decide (i = j)) as [->|]; [|rewrite list_lookup_insert_ne by done; apply H].
  intros E. assert (j < length u)%nat as Hl. { apply lookup_lt_Some in E. by rewrite insert_length in E. }
  rewrite list_lookup_insert in E by done. by injection E as <-.
Qed.
Lemma uok_none fr n : uok fr (replicate n None).
Proof. intros i x E. by apply lookup_replicate in E as [[=] _]. Qed.
Lemma fin_upd fr u i : uok fr u → fin (λ x, (x < fr)%nat) (upd_at u i).
Proof. intros H. unfold upd_at. destruct (u !! i) as [[x|]|] eqn:E; simpl; try done. by eapply H. Qed.

Lemma fin_insert_search s sc v : ZFn s → ∀ n x rk u, (x < sl_fresh s)%nat → uok (sl_fresh s) u →
  fin (λ p, uok (sl_fresh s) p.2) (insert_search n s sc v x rk u).
Proof.
  intros H. induction n as [|n IH]; intros x rk u Hx Hu; [done|]. cbn [insert_search]. destruct (rk !! S n); [|done]. cbn [deref obind].
  eapply fin_bind; [by apply fin_walk_all|]. intros [[x' r'] b] Hx'. apply IH; [done|by apply uok_insert].
Qed.
Lemma fin_update_search s sc v : ZFn s → ∀ n x u, (x < sl_fresh s)%nat → uok (sl_fresh s) u →
  fin (λ p, (p.1 < sl_fresh s)%nat ∧ uok (sl_fresh s) p.2) (update_search n s sc v x u).
Proof.
  intros H. induction n as [|n IH]; intros x u Hx Hu; [done|]. cbn [update_search].
  eapply fin_bind; [by apply fin_walk_all|]. intros [[x' r'] b] Hx'. apply IH; [done|by apply uok_insert].
Qed.
Lemma fin_delete_search s sc v : ZFn s → ∀ n x u, (x < sl_fresh s)%nat → uok (sl_fresh s) u →
  fin (λ p, (p.1 < sl_fresh s)%nat ∧ uok (sl_fresh s) p.2) (delete_search n s sc v x u).
Proof.
  intros [f H]. induction n as [|n IH]; intros x u Hx Hu; [done|]. cbn [delete_search].
  eapply fin_bind; [by apply (zfine_lk f)|]. intros [o sp] [_ Ho]. simpl in Ho. destruct o as [y|]; cbn [obind].
  - unfold zn. destruct (sl_nodes s !! y); [|done]. cbn [deref obind]. destruct (key_lt _ _ _ _); (apply IH; [|apply uok_insert]); try done; by apply Ho.
  - apply IH; [done|by apply uok_insert].
Qed.

Lemma fin_oloop {X} (P : nat → X → Prop) f n : ∀ a s, P a s → (∀ i s, (a ≤ i < a + n)%nat → P i s → fin (P (S i)) (f i s)) → fin (P (a + n)%nat) (oloop (seq a n) f s).
Proof.
  induction n as [|n IH]; intros a s Hs Hf; simpl; [by rewrite Nat.add_0_r|]. eapply fin_bind; [apply Hf; [lia|done]|]. intros s' Hs'.
  replace (a + S n)%nat with (S a + n)%nat by lia. apply IH; [done|]. intros i s0 Hi. apply Hf. lia.
Qed.

Lemma fin_grow f lvl rk u s : zfine f s → uok (sl_fresh s) u →
  fin (λ p, zfine f p.2 ∧ sl_fresh p.2 = sl_fresh s ∧ uok (sl_fresh s) p.1.2) (grow_level lvl rk u s).
Proof.
  intros H Hu. unfold grow_level. destruct (_ <? _)%nat; [|done].
  eapply fin_bind.
  - apply (fin_oloop (λ _ p, zfine f p.2 ∧ sl_fresh p.2 = sl_fresh s ∧ uok (sl_fresh s) p.1.2)); [done|].
    intros i [[rk' u'] s'] _ (A & B & C). cbn [fst snd] in *. eapply fin_bind; [by apply (zfine_lk f)|]. intros [o sp] [Hh Ho].
    cbn [fst snd fin] in *. split_and!; [|done|].
    + by apply zfine_set.
    + apply uok_insert; [done|]. by rewrite <- B.
  - intros [[rk' u'] s'] (A & B & C). cbn [fst snd fin] in *. split_and!; [|done|done]. by apply (zfine_same f s').
Qed.

(** while the new node [x] is linked at the levels below [i] *)
Definition unlinked (x i : nat) (s : skiplist) : Prop :=
  ∀ j, (i ≤ j)%nat → (∀ y sp, sl_links s !! (y, j) ≠ Some (Some x, sp)) ∧ (∀ o sp, sl_links s !! (x, j) = Some (o, sp) → o = None).
Lemma fin_splice x rk u i s : ZFn s → (x < sl_fresh s)%nat → uok x u → unlinked x i s →
  fin (λ s', ZFn s' ∧ sl_fresh s' = sl_fresh s ∧ unlinked x (S i) s') (splice_step x rk u i s).
Proof.
  intros [f H] Hx Hu Hun. unfold splice_step. eapply fin_bind; [by apply fin_upd|]. intros w Hw. cbv beta in Hw.
  unfold lk at 1. destruct (sl_links s !! (w, i)) as [[o sp]|] eqn:Ew; [|done]. cbn [deref obind].
  destruct (zf_ord _ _ H _ _ _ _ Ew) as [Hwf Ho]. unfold rank_at. destruct (rk !! 0%nat) as [r0|]; [|done]. cbn [deref obind]. destruct (rk !! i) as [ri|]; [|done]. cbn [deref obind].
  unfold lk. destruct (sl_links s !! (x, i)) as [lx|] eqn:Ex; [|done]. cbn [deref obind fin].
  destruct (Hun i (le_n i)) as [N1 N2]. split_and!; [|done|].
  - exists (λ j, if decide (j = i) then place (f i) x (2 * f i w + 1) else f j). split; [|apply H].
    intros y j o' sp'. simpl. destruct (decide ((y, j) = (w, i))) as [E|Hne1].
    { injection E as -> ->. rewrite lookup_insert. intros [= <- <-]. split; [done|]. intros z [= <-]. split; [done|]. rewrite decide_True by done. unfold place. repeat case_decide; lia. }
    rewrite lookup_insert_ne by done. destruct (decide ((y, j) = (x, i))) as [E|Hne2].
    { injection E as -> ->. rewrite lookup_insert. intros [= <- <-]. split; [done|]. intros z Hz. destruct (Ho z Hz) as [Hzf Hfz]. split; [done|].
      rewrite decide_True by done. unfold place. assert (z ≠ x) as Hzx. { intros ->. subst o. by eapply N1. } repeat case_decide; lia. }
    rewrite lookup_insert_ne by done. intros E. destruct (zf_ord _ _ H _ _ _ _ E) as [A B]. split; [done|]. intros z Hz. destruct (B z Hz) as [B1 B2]. split; [done|].
    destruct (decide (j = i)) as [->|]; [|done]. unfold place. assert (z ≠ x) by (intros ->; subst o'; by eapply N1).
    assert (y ≠ x) by (intros ->; congruence). repeat case_decide; lia.
  - intros j Hj. simpl. destruct (Hun j ltac:(lia)) as [M1 M2]. split.
    + intros y sp'. rewrite !lookup_insert_ne by (intros [=]; lia). apply M1.
    + intros o' sp'. rewrite !lookup_insert_ne by (intros [=]; lia). apply M2.
Qed.
Lemma fin_bump u i s : ZFn s → uok (sl_fresh s) u → fin (λ s', ZFn s' ∧ sl_fresh s' = sl_fresh s) (bump_step u i s).
Proof.
  intros [f H] Hu. unfold bump_step. eapply fin_bind; [by apply fin_upd|]. intros w Hw. eapply fin_bind; [by apply (zfine_lk f)|]. intros [o sp] [_ Ho].
  simpl in *. split; [|done]. exists f. by apply zfine_set.
Qed.
Lemma ZF_same s s' : sl_links s' = sl_links s → sl_fresh s' = sl_fresh s → ZFn s → ZFn s'.
Proof. intros E1 E2 [f H]. exists f. by eapply zfine_same. Qed.
Lemma fin_insert lvl sc v s : ZFn s → fin (λ p, ZFn p.1) (sl_insert lvl sc v s).
Proof.
  intros H. unfold sl_insert. eapply fin_bind; [apply fin_insert_search; [done|by apply ZF_pos|apply uok_none]|]. intros [rk u] Hu. cbn [snd] in Hu.
  destruct H as [f H]. eapply fin_bind; [by apply (fin_grow f)|]. intros [[rk' u'] s1] (H1 & Hf & Hu'). cbn [fst snd] in *.
  destruct (new_zsl_node lvl sc v s1) as [x s2] eqn:En. assert (x = sl_fresh s1) as Hx by (by injection En). 
  assert (s2 = (new_zsl_node lvl sc v s1).2) as Es2 by (by rewrite En).
  assert (zfine f s2) as H2 by (rewrite Es2; by apply zfine_new_node).
  assert (sl_fresh s2 = S x) as Hf2 by (rewrite Es2, Hx; done).
  assert (unlinked x 0 s2) as Hun.
  { intros j _. rewrite Es2. cbn [new_zsl_node snd sl_links]. split.
    - intros y sp. rewrite new_node_links. destruct (decide _); [done|]. intros E. destruct (zf_ord _ _ H1 _ _ _ _ E) as [_ B]. destruct (B x eq_refl). lia.
    - intros o sp. rewrite new_node_links. destruct (decide _); [by intros [= <- <-]|]. intros E. rewrite Hx in E. destruct (zf_ord _ _ H1 _ _ _ _ E). lia. }
  eapply fin_bind.
  { apply (fin_oloop (λ i s', ZFn s' ∧ sl_fresh s' = S x ∧ unlinked x i s')); [split_and!; [by exists f|done..]|].
    intros i s' _ (A & B & C). eapply fin_mono; [apply fin_splice; [done|lia| |done]|].
    - rewrite Hx, Hf. done.
    - simpl. intros s'' (A' & B' & C'). split_and!; [done|congruence|done]. }
  intros s3 (H3 & Hf3 & _). cbv beta.
  assert (uok (S x) u') as Hux. { intros i y E. apply Hu' in E. lia. }
  eapply fin_bind.
  { apply (fin_oloop (λ _ s', ZFn s' ∧ sl_fresh s' = S x)); [done|]. intros i s' _ (A & B). eapply fin_mono; [apply fin_bump; [done|by rewrite B]|].
    simpl. intros s'' (A' & B'). split; [done|congruence]. }
  intros s4 (H4 & Hf4). cbv beta. eapply fin_bind; [by apply fin_upd|]. intros u0 _. cbv zeta.
  set (s5 := if Nat.eqb u0 sl_head then s4 else set_back x (Some u0) s4).
  assert (ZFn s5) as H5. { subst s5. destruct (Nat.eqb _ _); [done|]. by apply (ZF_same s4). }
  destruct H5 as [f5 H5]. eapply fin_bind; [by apply (zfine_lk f5)|]. intros [o sp] _. simpl. exists f5. destruct o; eapply zfine_same; try exact H5; done.
Qed.
Lemma fin_unlink node u i s : ZFn s → uok (sl_fresh s) u → fin (λ s', ZFn s' ∧ sl_fresh s' = sl_fresh s) (unlink_step node u i s).
Proof.
  intros [f H] Hu. unfold unlink_step. eapply fin_bind; [by apply fin_upd|]. intros w Hw. cbv beta in Hw. eapply fin_bind; [by apply (zfine_lk f)|]. intros [o sp] [_ Ho].
  cbn [fst] in Ho. case_bool_decide as E.
  - eapply fin_bind; [by apply (zfine_lk f)|]. intros [o' sp'] [_ Ho']. simpl in *. split; [|done]. exists f. apply zfine_set; [done|done|].
    intros y Hy. destruct (Ho node E), (Ho' y Hy). split; [done|lia].
  - simpl. split; [|done]. exists f. by apply zfine_set.
Qed.
Lemma fin_shrink s n : fin (λ _, True) (shrink_level n s).
Proof.
  induction n as [|[|m] IH]; [done..|]. unfold shrink_level; fold shrink_level. unfold lk. destruct (sl_links s !! (sl_head, S m)) as [[[]]|]; cbn [deref obind]; try done.
Qed.
Lemma fin_delete_node node u s : ZFn s → uok (sl_fresh s) u → fin (λ s', ZFn s' ∧ sl_fresh s' = sl_fresh s) (sl_delete_node node u s).
Proof.
  intros H Hu. unfold sl_delete_node. eapply fin_bind.
  { apply (fin_oloop (λ _ s', ZFn s' ∧ sl_fresh s' = sl_fresh s)); [done|]. intros i s' _ (A & B). eapply fin_mono; [apply fin_unlink; [done|by rewrite B]|].
    simpl. intros s'' (A' & B'). split; [done|congruence]. }
  intros s1 (H1 & F1). cbv beta. unfold lk. destruct (sl_links s1 !! (node, 0%nat)) as [[o sp]|]; [|done]. cbn [deref obind].
  apply (fin_bind (λ s', ZFn s' ∧ sl_fresh s' = sl_fresh s)).
  { destruct o as [y|]; [|done]. unfold zn. destruct (sl_nodes s1 !! node); [|done]. simpl. split; [by apply (ZF_same s1)|done]. }
  intros s2 (H2 & F2). eapply fin_bind; [apply fin_shrink|]. intros n _. simpl. split; [by apply (ZF_same s2)|done].
Qed.
Lemma fin_delete sc v s : ZFn s → fin (λ p, ZFn p.1) (sl_delete sc v s).
Proof.
  intros H. unfold sl_delete. eapply fin_bind; [apply fin_delete_search; [done|by apply ZF_pos|apply uok_none]|]. intros [x u] [Hx Hu]. cbn [fst snd] in *.
  unfold lk. destruct (sl_links s !! (x, 0%nat)) as [[[y|] sp]|]; cbn [deref obind]; [|done..].
  unfold zn. destruct (sl_nodes s !! y); [|done]. cbn [deref obind]. destruct (_ && _); [|done].
  eapply fin_bind; [by apply fin_delete_node|]. intros s' [A _]. done.
Qed.
Lemma fin_update_score lvl c n v s : ZFn s → fin (λ p, ZFn p.1) (sl_update_score lvl c n v s).
Proof.
  intros H. unfold sl_update_score. eapply fin_bind; [apply fin_update_search; [done|by apply ZF_pos|apply uok_none]|]. intros [x u] [Hx Hu]. cbn [fst snd] in *.
  unfold lk at 1. destruct (sl_links s !! (x, 0%nat)) as [[[y|] sp]|]; cbn [deref obind]; [|done..].
  unfold zn at 1. destruct (sl_nodes s !! y) as [nd|]; [|done]. cbn [deref obind]. destruct (_ || _); [done|].
  apply (fin_bind (λ _, True)). { destruct (zi_back nd) as [b|]; [|done]. unfold zn. by destruct (sl_nodes s !! b). }
  intros bo _. apply (fin_bind (λ _, True)).
  { destruct bo; [|done]. unfold lk. destruct (sl_links s !! (y, 0%nat)) as [[[z|] sp']|]; cbn [deref obind]; [|done..]. unfold zn. by destruct (sl_nodes s !! z). }
  intros st _. destruct st; [simpl; by apply (ZF_same s)|].
  eapply fin_bind; [by apply fin_delete_node|]. intros s1 [H1 _]. eapply fin_bind; [by apply fin_insert|]. intros [s2 p] H2. done.
Qed.

(** the sorted set *)
Lemma fin_zs_add dr sc v fl z : ZFn (zs_sl z) → fin (λ p, ZFn (zs_sl p.1)) (zs_add dr sc v fl z).
Proof.
  intros H. unfold zs_add. destruct (sm_get (zs_m z) v) as [p|].
  - destruct (zf_nx fl); [done|]. unfold entry_score, zn. destruct (sl_nodes (zs_sl z) !! p); [|done]. cbn [deref obind]. cbv zeta.
    destruct (negb _); [|done]. eapply fin_bind; [by apply fin_update_score|]. intros [s' [x|]] H'; done.
  - destruct (zf_xx fl); [done|]. eapply fin_bind; [by apply fin_insert|]. intros [s' x] H'. done.
Qed.
Lemma fin_zs_add_all lv fl ms : ∀ j z n, ZFn (zs_sl z) → fin (λ p, ZFn (zs_sl p.1)) (zs_add_all lv j ms fl z n).
Proof.
  induction ms as [|[sc v] ms IH]; intros j z n H; [done|]. cbn [zs_add_all]. eapply fin_bind; [by apply fin_zs_add|]. intros [z' o] H'. by apply IH.
Qed.
Lemma fin_zs_rem_all vs : ∀ z n, ZFn (zs_sl z) → fin (λ p, ZFn (zs_sl p.1)) (zs_rem_all vs z n).
Proof.
  induction vs as [|v vs IH]; intros z n H; [done|]. cbn [zs_rem_all]. destruct (sm_load_and_delete (zs_m z) v) as [m [p|]]; [|by apply IH].
  unfold entry_score, zn. destruct (sl_nodes (zs_sl z) !! p); [|done]. cbn [deref obind]. eapply fin_bind; [by apply fin_delete|]. intros [s' k] H'. by apply IH.
Qed.
Lemma fin_zs_pop ext mx n : ∀ s acc, ZFn s → fin (λ p, ZFn p.1) (zs_pop_loop ext mx n s acc).
Proof.
  induction n as [|n IH]; intros s acc H; [done|]. cbn [zs_pop_loop]. eapply fin_bind; [by apply fin_by_rank|]. intros [x|] _; [|done].
  unfold zn at 1. destruct (sl_nodes s !! x); [|done]. cbn [deref obind]. eapply fin_bind; [by apply fin_delete|]. intros [s' k] H'. cbn [fst] in H'.
  unfold zn at 1. destruct (sl_nodes s' !! x); [|done]. cbn [deref obind]. by apply IH.
Qed.
