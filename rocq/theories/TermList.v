(** Every loop over a linked list ends, in every state the commands can produce, damaged ones included: the nodes can
    always be ordered so that every [next] pointer goes up and every [prev] pointer goes down. *)
From Verif Require Import GoBase DList DListProofs.

(** the program finishes (with a result satisfying [P]) or panics; it does not run for ever *)
Definition fin {A} (P : A → Prop) (o : outcome A) : Prop :=
  match o with Ret a => P a | Panic => True | OutOfFuel => False end.
Lemma fin_bind {A B} (Q : A → Prop) (P : B → Prop) o k : fin Q o → (∀ a, Q a → fin P (k a)) → fin P (obind o k).
Proof. destruct o; simpl; auto. Qed.
Lemma fin_mono {A} (Q P : A → Prop) o : fin Q o → (∀ a, Q a → P a) → fin P o.
Proof. destruct o; simpl; auto. Qed.
Lemma fin_deref {A} (P : A → Prop) (o : option A) : (∀ a, o = Some a → P a) → fin P (deref o).
Proof. destruct o; simpl; auto. Qed.
Lemma fin_ret {A} (P : A → Prop) o : fin P o → ∀ a, o = Ret a → P a.
Proof. by intros H a ->. Qed.
Lemma fin_fuel {A} (P : A → Prop) o : fin P o → o ≠ OutOfFuel.
Proof. by destruct o. Qed.

(** how many elements of [D] lie above [x] *)
Definition above (f : nat → Z) (D : gset nat) (x : nat) : nat := size (filter (λ q, f x < f q) D).
Lemma above_lt f D x y : y ∈ D → f x < f y → (above f D y < above f D x)%nat.
Proof.
  intros Hy Hf. apply subset_size. split.
  - intros q. rewrite !elem_of_filter. intros [H1 H2]. split; [lia|done].
  - intros H. specialize (H y). rewrite !elem_of_filter in H. assert (f y < f y) by (apply H; done). lia.
Qed.
Lemma above_size f D x : (above f D x ≤ size D)%nat.
Proof. apply subseteq_size. intros q. rewrite elem_of_filter. tauto. Qed.

(** pointers stay within the arena and are ordered by [f] *)
Definition ordered (f : nat → Z) (h : gmap nat lnode) (fr : nat) : Prop :=
  ∀ p nd, h !! p = Some nd → (p < fr)%nat ∧
    (∀ q, ln_next nd = Some q → (q < fr)%nat ∧ f p < f q) ∧ (∀ q, ln_prev nd = Some q → (q < fr)%nat ∧ f q < f p).
Definition inside (fr : nat) (o : option nat) : Prop := ∀ q, o = Some q → (q < fr)%nat.
Record lfine (f : nat → Z) (l : dlist) : Prop := {
  lf_ord : ordered f (dl_heap l) (dl_fresh l);
  lf_head : inside (dl_fresh l) (dl_head l);
  lf_tail : inside (dl_fresh l) (dl_tail l)
}.
Definition LF (l : dlist) : Prop := ∃ f, lfine f l.

Lemma lf_new : LF dl_new.
Proof. exists (λ _, 0). split; [intros p nd; simpl; by rewrite lookup_empty|done..]. Qed.
Lemma lf_len f z l : lfine f l → lfine f (set_len z l).
Proof. by intros [H1 H2 H3]; split. Qed.
Lemma lf_sethead f p l : lfine f l → inside (dl_fresh l) p → lfine f (set_head p l).
Proof. by intros [H1 H2 H3] ?; split. Qed.
Lemma lf_settail f p l : lfine f l → inside (dl_fresh l) p → lfine f (set_tail p l).
Proof. by intros [H1 H2 H3] ?; split. Qed.
Lemma lf_setnext f p v l : lfine f l → (∀ q, v = Some q → (q < dl_fresh l)%nat ∧ f p < f q) → lfine f (set_next p v l).
Proof.
  intros [H1 H2 H3] Hv. split; [|done..]. intros x nd. simpl. destruct (decide (x = p)) as [->|]; [|rewrite lookup_alter_ne by done; apply H1].
  rewrite lookup_alter. destruct (dl_heap l !! p) as [n0|] eqn:E; [|done]. intros [= <-]. simpl. destruct (H1 p n0 E) as (A & B & C). split_and!; done.
Qed.
Lemma lf_setprev f p v l : lfine f l → (∀ q, v = Some q → (q < dl_fresh l)%nat ∧ f q < f p) → lfine f (set_prev p v l).
Proof.
  intros [H1 H2 H3] Hv. split; [|done..]. intros x nd. simpl. destruct (decide (x = p)) as [->|]; [|rewrite lookup_alter_ne by done; apply H1].
  rewrite lookup_alter. destruct (dl_heap l !! p) as [n0|] eqn:E; [|done]. intros [= <-]. simpl. destruct (H1 p n0 E) as (A & B & C). split_and!; done.
Qed.
Lemma lf_setval f p v l : lfine f l → lfine f (set_val p v l).
Proof.
  intros [H1 H2 H3]. split; [|done..]. intros x nd. simpl. destruct (decide (x = p)) as [->|]; [|rewrite lookup_alter_ne by done; apply H1].
  rewrite lookup_alter. destruct (dl_heap l !! p) as [n0|] eqn:E; [|done]. intros [= <-]. simpl. by apply (H1 p n0 E).
Qed.
(** a fresh node can be given any place between others *)
Definition place (f : nat → Z) (n : nat) (z : Z) : nat → Z := λ x, if decide (x = n) then z else 2 * f x.
Lemma lf_alloc f z v l : lfine f l → lfine (place f (dl_fresh l) z) (alloc (LNode None None v) l).2.
Proof.
  intros [H1 H2 H3]. split; simpl.
  - intros x nd. destruct (decide (x = dl_fresh l)) as [->|Hx].
    + rewrite lookup_insert. intros [= <-]. simpl. split; [lia|done].
    + rewrite lookup_insert_ne by done. intros E. destruct (H1 x nd E) as (A & B & C). unfold place.
      split_and!; [lia| |]; intros q Hq; [destruct (B q Hq)|destruct (C q Hq)]; (split; [lia|]); repeat case_decide; lia.
  - intros q Hq. apply H2 in Hq. lia.
  - intros q Hq. apply H3 in Hq. lia.
Qed.

Lemma LF_lpush v l : LF l → LF (dl_lpush v l).
Proof.
  intros [f H]. unfold dl_lpush. cbn [dl_head set_len]. destruct (dl_head l) as [h|] eqn:Eh.
  - pose proof (lf_head _ _ H h Eh) as Hh. exists (place f (dl_fresh l) (2 * f h - 1)).
    pose proof (lf_alloc f (2 * f h - 1) v _ (lf_len f (dl_len l + 1) l H)) as G. unfold add_to_head. simpl in *.
    apply lf_sethead; [|intros q [= <-]; simpl; lia]. apply lf_setnext; [apply lf_setprev; [done|]|].
    + intros q [= <-]. simpl. unfold place. repeat case_decide; lia.
    + intros q [= <-]. simpl. unfold place. repeat case_decide; lia.
  - exists (place f (dl_fresh l) 0). pose proof (lf_alloc f 0 v _ (lf_len f (dl_len l + 1) l H)) as G. simpl in *.
    apply lf_settail; [|intros q [= <-]; simpl; lia]. apply lf_sethead; [done|intros q [= <-]; simpl; lia].
Qed.
Lemma LF_flip l : LF l → LF (flip l).
Proof.
  intros [f [H1 H2 H3]]. exists (λ x, - f x). split; [|done..]. intros p nd. simpl. rewrite lookup_fmap. destruct (dl_heap l !! p) as [n|] eqn:E; [|done].
  intros [= <-]. destruct (H1 p n E) as (A & B & C). simpl. split_and!; [done| |].
  - intros q Hq. destruct (C q Hq). lia.
  - intros q Hq. destruct (B q Hq). lia.
Qed.
Lemma LF_rpush v l : LF l → LF (dl_rpush v l).
Proof. intros H. rewrite rpush_flip. by apply LF_flip, LF_lpush, LF_flip. Qed.
Lemma LF_lpush_all vs l : LF l → LF (dl_lpush_all vs l).
Proof. unfold dl_lpush_all. revert l. induction vs; simpl; eauto using LF_lpush. Qed.
Lemma LF_rpush_all vs l : LF l → LF (dl_rpush_all vs l).
Proof. unfold dl_rpush_all. revert l. induction vs; simpl; eauto using LF_rpush. Qed.

(** popping: the length goes down each time *)
Lemma fin_lpop l : LF l → fin (λ x, LF x.2 ∧ (x.1 ≠ None → dl_len x.2 = dl_len l - 1)) (dl_lpop l).
Proof.
  intros [f H]. unfold dl_lpop. destruct (dl_head l) as [h|] eqn:Eh; [|simpl; split; [by exists f|done]].
  unfold node_at. destruct (dl_heap (set_len (dl_len l - 1) l) !! h) as [nd|] eqn:E; [|done]. cbn [deref obind].
  unfold pop_and_next, node_at. rewrite E. cbn [deref obind fin fst snd].
  assert (lfine f (set_next h None (set_len (dl_len l - 1) l))) as G by (apply lf_setnext; [by apply lf_len|done]).
  destruct (lf_ord _ _ H h nd E) as (A & B & C). destruct (ln_next nd) as [x|].
  - split; [|done]. exists f. apply lf_sethead; [by apply lf_setprev|]. intros q [= <-]. by apply B.
  - split; [|done]. exists f. apply lf_settail; [|done]. by apply lf_sethead.
Qed.
Lemma fin_lpop_loop n : ∀ cnt l acc, LF l → (dl_len l ≤ Z.of_nat n) → fin (λ x, LF x.1) (lpop_loop n cnt l acc).
Proof.
  induction n as [|n IH]; intros cnt l acc H Hn; cbn [lpop_loop].
  - replace (0 <? dl_len l) with false by lia. by rewrite andb_false_r.
  - destruct ((0 <? cnt) && (0 <? dl_len l)); [|done]. eapply fin_bind; [by apply fin_lpop|].
    intros [r l'] [G Hl]. simpl in *. destruct r as [v|]; [|done]. apply IH; [done|]. rewrite Hl by done. lia.
Qed.
Lemma fin_lpop_n cnt l : LF l → fin (λ x, LF x.1) (dl_lpop_n cnt l).
Proof. intros H. apply fin_lpop_loop; [done|lia]. Qed.
Lemma fin_rpop_n cnt l : LF l → fin (λ x, LF x.1) (dl_rpop_n cnt l).
Proof.
  intros H. unfold dl_rpop_n. rewrite rpop_loop_flip. pose proof (fin_lpop_n cnt (flip l) (LF_flip l H)) as G.
  unfold dl_lpop_n in G. cbn [flip dl_len] in G. unfold oflip. destruct (lpop_loop (Z.to_nat (dl_len l)) cnt (flip l) []) as [[l' vs]| |]; simpl in *; [by apply LF_flip|done..].
Qed.

(** reading *)
Lemma fin_lrange_loop n : ∀ l start stop idx head acc, stop - idx < Z.of_nat n → fin (λ _, True) (lrange_loop n l start stop idx head acc).
Proof.
  induction n as [|n IH]; intros l start stop idx head acc Hn; cbn [lrange_loop]; (destruct head as [p|]; [|done]).
  - replace (idx <=? stop) with false by lia. done.
  - destruct (idx <=? stop); [|done]. unfold node_at. destruct (dl_heap l !! p); [|done]. cbn [deref obind]. apply IH. lia.
Qed.
Lemma fin_lrange start stop l : fin (λ _, True) (dl_lrange start stop l).
Proof.
  unfold dl_lrange. destruct (dl_head l); [|done]. cbv zeta. destruct (_ || _); [done|]. apply fin_lrange_loop.
  destruct (Z.leb_spec (dl_len l) (if stop <? 0 then stop + dl_len l else stop)); lia.
Qed.
Lemma fin_index_loop n : ∀ l (rv : bool) i idx cur, (if rv then idx - i else i - idx) ≤ Z.of_nat n → (if rv then i ≤ idx else idx ≤ i) →
  fin (λ _, True) (index_loop n l rv i idx cur).
Proof.
  induction n as [|n IH]; intros l rv i idx cur Hn Hd; cbn [index_loop].
  - replace (i =? idx) with true by (destruct rv; lia). done.
  - destruct (Z.eqb_spec i idx); [done|]. destruct cur as [c|]; [|done]. cbn [deref obind]. unfold node_at. destruct (dl_heap l !! c); [|done]. cbn [deref obind].
    destruct rv; apply IH; lia.
Qed.
Lemma fin_index i l : fin (λ _, True) (dl_index_node i l).
Proof.
  unfold dl_index_node. destruct (dl_head l); [|done]. cbv zeta. set (j := if i <? 0 then i + dl_len l else i).
  destruct ((dl_len l <=? j) || (j <? 0)) eqn:E; [done|]. apply orb_false_iff in E as [E1 E2]. apply Z.leb_gt in E1. apply Z.ltb_ge in E2.
  destruct (_ <? j); apply fin_index_loop; lia.
Qed.
Lemma fin_lindex i l : fin (λ _, True) (dl_lindex i l).
Proof. eapply fin_bind; [apply fin_index|]. intros [p|] _; [|done]. unfold node_at. by destruct (dl_heap l !! p). Qed.
Lemma fin_lset i v l : LF l → fin (λ x, LF x.1) (dl_lset i v l).
Proof. intros [f H]. eapply fin_bind; [apply fin_index|]. intros [p|] _; simpl; exists f; [by apply lf_setval|done]. Qed.

(** searching *)
Definition atop (f : nat → Z) (D : gset nat) (x : nat) : nat := size (filter (λ q, f x ≤ f q) D).
Lemma atop_lt f D x y : x ∈ D → f x < f y → (atop f D y < atop f D x)%nat.
Proof.
  intros Hx Hf. apply subset_size. split.
  - intros q. rewrite !elem_of_filter. intros [H1 H2]. split; [lia|done].
  - intros H. specialize (H x). rewrite !elem_of_filter in H. assert (f y ≤ f x) by (apply H; split; [lia|done]). lia.
Qed.
Lemma atop_size f D x : (atop f D x ≤ size D)%nat.
Proof. apply subseteq_size. intros q. rewrite elem_of_filter. tauto. Qed.

Lemma fin_find_loop f l n : lfine f l → ∀ v cur, (∀ c, cur = Some c → (atop f (dom (dl_heap l)) c < n)%nat) → 
  fin (λ o, ∀ p, o = Some p → (p < dl_fresh l)%nat) (find_loop n v l cur).
Proof.
  intros H. induction n as [|n IH]; intros v cur Hn; (destruct cur as [c|]; cbn [find_loop]; [|done]); specialize (Hn c eq_refl); [lia|].
  unfold node_at. destruct (dl_heap l !! c) as [nd|] eqn:E; [|done]. cbn [deref obind].
  destruct (lf_ord _ _ H c nd E) as (A & B & C). destruct (String.eqb _ _); [by intros p [= <-]|].
  apply IH. intros q Hq. destruct (B q Hq) as [_ Hf]. assert (c ∈ dom (dl_heap l)) as Hc by (apply elem_of_dom; eauto).
  pose proof (atop_lt f _ c q Hc Hf). lia.
Qed.
Lemma dom_size {A} (h : gmap nat A) : size (dom h) = size h.
Proof. apply size_dom. Qed.
Lemma fin_linsert t v flag l : LF l → fin (λ x, LF x.1) (dl_linsert t v flag l).
Proof.
  intros [f H]. unfold dl_linsert. destruct (dl_head l) as [h|]; [|simpl; by exists f].
  eapply fin_bind.
  { apply (fin_find_loop f); [done|]. intros c _. pose proof (atop_size f (dom (dl_heap l)) c) as G. rewrite dom_size in G. lia. }
  intros [p|] Hp; [|simpl; by exists f]. specialize (Hp p eq_refl). destruct (flag =? 0); [simpl; exists f; by apply lf_setval|].
  destruct (alloc (LNode None None v) l) as [q l1] eqn:Ea. cbv zeta. unfold node_at. cbn [set_len dl_heap].
  injection Ea as Eq El. destruct (dl_heap l1 !! p) as [nd|] eqn:E; [|done]. cbn [deref obind].
  assert (dl_heap l !! p = Some nd) as E0 by (rewrite <- El in E; simpl in E; by rewrite lookup_insert_ne in E by lia).
  assert (∀ z, lfine (place f (dl_fresh l) z) (set_len (dl_len l1 + 1) l1)) as G.
  { intros z. apply lf_len. rewrite <- El. by apply (lf_alloc f z v l). }
  assert (dl_fresh (set_len (dl_len l1 + 1) l1) = S (dl_fresh l)) as Ef by (by rewrite <- El).
  destruct (lf_ord _ _ H p nd E0) as (A & B & C). subst q.
  destruct (0 <? flag).
  - destruct (ln_next nd) as [x|] eqn:En; simpl.
    + destruct (B x eq_refl) as [Hx Hpx]. exists (place f (dl_fresh l) (2 * f p + 1)).
      apply lf_setprev; [apply lf_setnext; [apply lf_setprev; [apply lf_setnext; [apply G|]|]|]|]; intros y [= <-]; (split; [cbn [dl_fresh set_prev set_next set_heap]; lia|]);
        unfold place; repeat case_decide; lia.
    + exists (place f (dl_fresh l) (2 * f p + 1)). apply lf_settail; [|intros y [= <-]; cbn [dl_fresh set_prev set_next set_heap]; lia].
      apply lf_setprev; [apply lf_setnext; [apply G|]|]; intros y [= <-]; (split; [cbn [dl_fresh set_prev set_next set_heap]; lia|]);
        unfold place; repeat case_decide; lia.
  - destruct (ln_prev nd) as [x|] eqn:En; simpl.
    + destruct (C x eq_refl) as [Hx Hpx]. exists (place f (dl_fresh l) (2 * f p - 1)).
      apply lf_setnext; [apply lf_setprev; [apply lf_setnext; [apply lf_setprev; [apply G|]|]|]|]; intros y [= <-]; (split; [cbn [dl_fresh set_prev set_next set_heap]; lia|]);
        unfold place; repeat case_decide; lia.
    + exists (place f (dl_fresh l) (2 * f p - 1)). apply lf_sethead; [|intros y [= <-]; cbn [dl_fresh set_prev set_next set_heap]; lia].
      apply lf_setnext; [apply lf_setprev; [apply G|]|]; intros y [= <-]; (split; [cbn [dl_fresh set_prev set_next set_heap]; lia|]);
        unfold place; repeat case_decide; lia.
Qed.

(** LREM *)
Definition points (l : dlist) (p : nat) (o : option nat) : Prop := ∃ nd, dl_heap l !! p = Some nd ∧ ln_next nd = o.
Definition same (l l' : dlist) : Prop := dl_fresh l' = dl_fresh l ∧ dom (dl_heap l') = dom (dl_heap l).
Lemma fin_rem_loop f n : ∀ l v m cnt prev cur next, lfine f l →
  points l prev cur → (prev < dl_fresh l)%nat → (∀ c, cur = Some c → points l c next ∧ (atop f (dom (dl_heap l)) c < n)%nat) →
  fin (λ x, lfine f x.1.1 ∧ same l x.1.1 ∧ (x.1.2 < dl_fresh l)%nat) (rem_head_loop n v m cnt prev cur next l).
Proof.
  induction n as [|n IH]; intros l v m cnt prev cur next H Hp Hpf Hc; (destruct cur as [c|]; cbn [rem_head_loop]; [|done]); (destruct (0 <? m); [|done]);
    destruct (Hc c eq_refl) as [Hcn Hw]; [lia|].
  destruct Hp as (pn & Ep & Epn). destruct Hcn as (nd & E & En).
  destruct (lf_ord _ _ H c nd E) as (A & B & C). destruct (lf_ord _ _ H prev pn Ep) as (A' & B' & C').
  destruct (B' c Epn) as [_ Hpc]. assert (prev ≠ c) as Hne by (intros ->; lia).
  assert (c ∈ dom (dl_heap l)) as Hcd by (apply elem_of_dom; eauto).
  unfold node_at at 1. rewrite E. cbn [deref obind].
  destruct (String.eqb (ln_val nd) v).
  - cbn [obind]. cbv zeta. set (l1 := set_next prev next l). set (l2 := match next with Some x => set_prev x (Some prev) l1 | None => l1 end).
    set (l3 := set_next c None (set_prev c None l2)).
    assert (lfine f l1) as G1. { apply lf_setnext; [done|]. intros q ->. destruct (B q En). split; [done|lia]. }
    assert (lfine f l2) as G2. { subst l2. destruct next as [x|]; [|done]. apply lf_setprev; [done|]. intros q [= <-]. destruct (B x En). split; [done|lia]. }
    assert (lfine f l3) as G3 by (apply lf_setnext; [by apply lf_setprev|done]).
    assert (same l l3) as S3.
    { split; [by destruct next|]. subst l3 l2 l1. destruct next; simpl; by rewrite !dom_alter_L. }
    assert (points l3 prev next) as P3.
    { assert (∃ p1, dl_heap l1 !! prev = Some p1 ∧ ln_next p1 = next) as (p1 & E1 & N1) by (simpl; rewrite lookup_alter, Ep; simpl; eauto).
      assert (∃ p2, dl_heap l2 !! prev = Some p2 ∧ ln_next p2 = next) as (p2 & E2 & N2).
      { subst l2. destruct next as [x|]; [|eauto]. simpl. destruct (decide (x = prev)) as [->|].
        - rewrite lookup_alter. simpl in E1. rewrite E1. simpl. eauto.
        - rewrite lookup_alter_ne by done. eauto. }
      exists p2. split; [|done]. simpl. rewrite !lookup_alter_ne by done. done. }
    destruct next as [x|]; cycle 1.
    { cbn [obind]. destruct n; cbn [rem_head_loop fin fst snd]; split_and!; try done. }
    unfold node_at at 1. destruct (dl_heap l3 !! x) as [nx|] eqn:Ex; [|done]. cbn [deref obind].
    eapply fin_mono; [apply (IH l3); [done|done|by rewrite (proj1 S3)|]|].
    + intros c' [= <-]. split; [by exists nx|]. rewrite (proj2 S3). destruct (B x En) as [_ Hcx]. pose proof (atop_lt f _ c x Hcd Hcx). lia.
    + intros [[l' p'] n'] (Q1 & Q2 & Q3). simpl in *. destruct S3 as [S3 S3'], Q2 as [Q2 Q2']. split_and!; [done|split; congruence|]. by rewrite <- S3.
  - unfold node_at at 1. rewrite Ep. cbn [deref obind]. rewrite Epn. cbn [deref obind].
    destruct next as [x|]; cycle 1.
    { cbn [obind]. destruct n; cbn [rem_head_loop fin fst snd]; split_and!; try done. }
    unfold node_at at 1. destruct (dl_heap l !! x) as [nx|] eqn:Ex; [|done]. cbn [deref obind].
    apply (IH l); [done|by exists nd|done|].
    intros c' [= <-]. split; [by exists nx|]. destruct (B x En) as [_ Hcx]. pose proof (atop_lt f _ c x Hcd Hcx). lia.
Qed.
Lemma fin_rem_head v n l : LF l → fin (λ x, LF x.1) (dl_rem_head v n l).
Proof.
  intros [f H]. unfold dl_rem_head. destruct (dl_head l) as [h|] eqn:Eh; [|done].
  destruct (alloc (LNode (Some h) None "") l) as [dumb l0] eqn:Ea. cbn [deref obind]. injection Ea as Eq El.
  pose proof (lf_head _ _ H h Eh) as Hh. set (g := place f (dl_fresh l) (2 * f h - 1)).
  assert (lfine g l0) as G.
  { pose proof (lf_alloc f (2 * f h - 1) "" l H) as [G1 G2 G3]. rewrite <- El. split; simpl in *; [|done..].
    intros p nd. destruct (decide (p = dl_fresh l)) as [->|].
    - rewrite lookup_insert. intros [= <-]. simpl. split_and!; [lia| |done]. intros q [= <-]. subst g. unfold place. repeat case_decide; lia.
    - rewrite lookup_insert_ne by done. specialize (G1 p nd). rewrite lookup_insert_ne in G1 by done. done. }
  unfold node_at at 1. destruct (dl_heap l0 !! h) as [hn|] eqn:Ehn; [|done]. cbn [deref obind].
  eapply fin_bind.
  { apply (fin_rem_loop g); [done| | |].
    - exists (LNode (Some h) None ""). rewrite <- El, <- Eq. simpl. by rewrite lookup_insert.
    - rewrite <- El, <- Eq. simpl. lia.
    - intros c [= <-]. split; [by exists hn|]. pose proof (atop_size g (dom (dl_heap l0)) h) as W. rewrite dom_size in W.
      assert (atop g (dom (dl_heap l0)) h ≤ size (dl_heap l))%nat; [|lia]. clear W. rewrite <- (dom_size (dl_heap l)). apply subseteq_size.
      intros q. rewrite elem_of_filter. intros [H1 H2]. rewrite <- El in H2. simpl in H2. rewrite dom_insert_L in H2.
      apply elem_of_union in H2 as [H2|H2]; [|done]. apply elem_of_singleton in H2 as ->. subst g. unfold place in H1. repeat case_decide; lia. }
  intros [[l1 prev] cnt] (Q1 & Q2 & Q3). cbn [fst snd] in *.
  unfold node_at at 1. destruct (dl_heap l1 !! prev) as [pn|] eqn:Epn; [|done]. cbn [deref obind]. cbv zeta.
  set (l2 := match ln_next pn with Some _ => l1 | None => set_tail (Some prev) l1 end).
  assert (lfine g l2) as G2. { subst l2. destruct (ln_next pn); [done|]. apply lf_settail; [done|]. intros q [= <-]. by rewrite (proj1 Q2). }
  unfold node_at at 1. destruct (dl_heap l2 !! dumb) as [dn|] eqn:Edn; [|done]. cbn [deref obind].
  assert (lfine g (set_head (ln_next dn) l2)) as G3.
  { apply lf_sethead; [done|]. intros q Hq. destruct (lf_ord _ _ G2 dumb dn Edn) as (_ & B & _). by apply B. }
  cbn [fin fst dl_head set_head]. exists g. apply lf_len. destruct (ln_next dn) as [x|]; [|done]. by apply lf_setprev.
Qed.
Lemma fin_rem_tail v n l : LF l → fin (λ x, LF x.1) (dl_rem_tail v n l).
Proof.
  intros H. rewrite rem_tail_flip. pose proof (fin_rem_head v n (flip l) (LF_flip l H)) as G. unfold oflip.
  destruct (dl_rem_head v n (flip l)) as [[l' r]| |]; simpl in *; [by apply LF_flip|done..].
Qed.
Lemma fin_lrem n v l : LF l → fin (λ x, LF x.1) (dl_lrem n v l).
Proof. intros H. unfold dl_lrem. destruct (0 <? n); [by apply fin_rem_head|]. destruct (n <? 0); [by apply fin_rem_tail|by apply fin_rem_head]. Qed.
