(** C91: on the first server a request takes effect between the moment it is taken from its connection and the moment it
    is answered. *)
From Verif Require Import GoBase GoBaseProofs Float64 Db Protocol Redis Obs SpecCmd SpecResp SpecServer SpecKey Examples
  SpecCommute SpecUse SpecRegister SpecWire SpecStream Stream StreamProofs Server SpecServing ServerProofs P_Serve Server1 SpecServing1 Server1Proofs Server1More Server1Err Drive1 P_Serve1 P_ServeMore P_Use P_Use4 P_Use5 P_Use6 P_Use7.

Section real1.
Context (ext : Ext) (max : Z).
Notation runs1 := (runs1 ext max).

Lemma runs1_prefix p q s : runs1 (p ++ q) s → ∃ s', runs1 p s'.
Proof.
  revert s. induction q as [|l q IH] using rev_ind; intros s R; [rewrite app_nil_r in R; eauto|].
  rewrite app_assoc in R. inversion R as [E|tr' s1 l' s2 R1 _ _ E]; [by destruct (p ++ q)|]. apply app_inj_tail in E as [-> _]. by eapply IH.
Qed.
Lemma calls1_app p q : calls1 (p ++ q) = calls1 p ++ calls1 q.
Proof. unfold calls1, pool_trace, calls. by rewrite !omap_app. Qed.
Lemma written_here tr k g b : VWrite k g b ∈ tr → (g, b) ∈ written k tr.
Proof. intros H. unfold written. apply elem_of_list_omap. exists (VWrite k g b). split; [done|]. by rewrite decide_True. Qed.
(** a reply other than the deadline error is written after the execution of its request *)
Lemma executed_by tr s k g b : runs1 tr s → VWrite k g b ∈ tr → b ≠ deadline_bytes → g ∈ who <$> calls1 tr.
Proof.
  intros R Hw Nd. destruct (C57_in_order _ _ _ _ R) as (rs & _ & _ & _ & H). apply written_here, elem_of_list_lookup in Hw as [n Hn].
  destruct (H _ _ _ _ Hn) as (q & _ & [[-> _]|(i & x & v & Hi & <- & _)]); [done|]. apply elem_of_list_fmap_1. by eapply elem_of_list_lookup_2.
Qed.
(** no request is executed before it has been taken *)
Lemma taken_by tr s g : runs1 tr s → g ∈ who <$> calls1 tr → ∃ k r, VStart k g r ∈ tr.
Proof.
  intros R Hg. apply elem_of_list_fmap in Hg as (x & -> & Hx). destruct (called_asked _ _ _ _ _ R Hx) as [k Hk]. apply asked_taken, taken_in in Hk as (r & H & _). eauto.
Qed.
Lemma fresh_start p k g r q s : runs1 (p ++ VStart k g r :: q) s → ∀ k' r', VStart k' g r' ∉ p.
Proof.
  intros R k' r' H. rewrite cons_middle, app_assoc in R. apply runs1_prefix in R as [s' R].
  inversion R as [E|tr' s1 l' s2 R1 _ St E]; [by destruct p|]. apply app_inj_tail in E as [-> ->].
  destruct (numbered _ _ _ _ R1) as (I & _). destruct (I _ _ _ H) as [z Hz]. inversion St; subst. congruence.
Qed.
Lemma index_split {A} (p q : list A) i x : NoDup (p ++ q) → (p ++ q) !! i = Some x → x ∈ p → (i < length p)%nat.
Proof.
  intros N Hi Hx. apply elem_of_list_lookup in Hx as [j Hj]. assert (i = j) as ->; [|by eapply lookup_lt_Some].
  eapply NoDup_lookup; [exact N|exact Hi|]. by apply lookup_app_l_Some.
Qed.
(** What was answered before a request was taken, on whatever connections, was executed before it. *)
Theorem C91_real_time tr s p q k1 g1 b k2 g2 r i1 i2 x1 x2 : runs1 tr s →
  tr !! p = Some (VWrite k1 g1 b) → tr !! q = Some (VStart k2 g2 r) → (p < q)%nat → b ≠ deadline_bytes →
  calls1 tr !! i1 = Some x1 → who x1 = g1 → calls1 tr !! i2 = Some x2 → who x2 = g2 → (i1 < i2)%nat.
Proof.
  intros R Hp Hq Hpq Nd H1 W1 H2 W2. destruct (C57_in_order _ _ _ _ R) as (rs & _ & N & _).
  pose proof (take_drop_middle _ _ _ Hq) as E. set (u := take q tr) in *. set (v := drop (S q) tr) in *.
  assert (VWrite k1 g1 b ∈ u) as Hw. { apply elem_of_list_lookup. exists p. unfold u. by rewrite lookup_take. }
  rewrite <- E in R, N, H1, H2. destruct (runs1_prefix _ _ _ R) as [su Ru].
  pose proof (executed_by _ _ _ _ _ Ru Hw Nd) as Y1.
  assert (g2 ∉ who <$> calls1 u) as Y2. { intros Y. destruct (taken_by _ _ _ Ru Y) as (k' & r' & H). by apply (fresh_start _ _ _ _ _ _ R) in H. }
  rewrite calls1_app in N, H1, H2. rewrite fmap_app in N.
  assert (i1 < length (calls1 u))%nat as L1.
  { rewrite <- (fmap_length who). eapply index_split; [exact N| |exact Y1]. rewrite <- fmap_app, list_lookup_fmap, H1. simpl. by rewrite W1. }
  assert (length (calls1 u) ≤ i2)%nat as L2; [|lia].
  apply Nat.nlt_ge. intros L. rewrite lookup_app_l in H2 by done. apply Y2. subst g2. apply elem_of_list_fmap_1. by eapply elem_of_list_lookup_2.
Qed.
(** A request that has been answered, other than with the deadline error, had been executed before the answer was written. *)
Theorem C91_answered_executed tr s p k g b : runs1 tr s → tr !! p = Some (VWrite k g b) → b ≠ deadline_bytes →
  ∃ i x, calls1 (take p tr) !! i = Some x ∧ calls1 tr !! i = Some x ∧ who x = g.
Proof.
  intros R Hp Nd. pose proof (take_drop_middle _ _ _ Hp) as E. set (u := take p tr) in *. set (v := drop (S p) tr) in *. rewrite <- E in R |- *.
  pose proof R as R'. rewrite cons_middle, app_assoc in R'. destruct (runs1_prefix _ _ _ R') as [su Ru].
  assert (VWrite k g b ∈ u ++ [VWrite k g b]) as Hw by (apply elem_of_app; right; by apply elem_of_list_singleton).
  pose proof (executed_by _ _ _ _ _ Ru Hw Nd) as Y. rewrite calls1_app in Y. replace (calls1 [VWrite k g b]) with (@nil call) in Y by done. rewrite app_nil_r in Y.
  apply elem_of_list_fmap in Y as (x & -> & Hx). apply elem_of_list_lookup in Hx as [i Hi]. exists i, x. split; [done|]. split; [|done]. rewrite calls1_app. by apply lookup_app_l_Some.
Qed.
(** A request is executed only after it has been taken. *)
Theorem C91_taken_first tr s q k g r i x : runs1 tr s → tr !! q = Some (VStart k g r) → calls1 tr !! i = Some x → who x = g →
  ∀ n, (n ≤ q)%nat → (length (calls1 (take n tr)) ≤ i)%nat.
Proof.
  intros R Hq Hi Wx n Hn. apply Nat.nlt_ge. intros L. pose proof (take_drop n tr) as E. pose proof R as R0. rewrite <- E in R. destruct (runs1_prefix _ _ _ R) as [su Ru].
  rewrite <- E, calls1_app, lookup_app_l in Hi by done.
  assert (g ∈ who <$> calls1 (take n tr)) as Y by (subst g; apply elem_of_list_fmap_1; by eapply elem_of_list_lookup_2).
  destruct (taken_by _ _ _ Ru Y) as (k' & r' & H). pose proof (take_drop_middle _ _ _ Hq) as E'. rewrite <- E' in R0.
  apply (fresh_start _ _ _ _ _ _ R0 k' r'). apply elem_of_list_lookup in H as [j Hj]. apply lookup_take_Some in Hj as [Hj Lj]. apply elem_of_list_lookup. exists j. rewrite lookup_take by lia. done.
Qed.
(** Clients on different connections read what was written. *)
Theorem C91_fresh tr s k p q k1 g1 b1 k2 g2 rq i1 i2 x1 x2 o n2 b2 r : runs1 tr s → Forall (λ y, register_request k (what y) = true) (calls1 tr) →
  tr !! p = Some (VWrite k1 g1 b1) → tr !! q = Some (VStart k2 g2 rq) → (p < q)%nat → b1 ≠ deadline_bytes →
  calls1 tr !! i1 = Some x1 → who x1 = g1 → rewritten k (what x1) = Some o →
  calls1 tr !! i2 = Some x2 → who x2 = g2 → asks_for "get" k (what x2) = true → written k2 tr !! n2 = Some (g2, b2) → b2 ≠ deadline_bytes → is_reply b2 r →
  ∃ n y o', (i1 ≤ n < i2)%nat ∧ calls1 tr !! n = Some y ∧ rewritten k (what y) = Some o' ∧ r = register_shown o'.
Proof.
  intros R F Hp Hq Hpq N1 H1 W1 Wx H2 W2 G Hw N2 Hr.
  pose proof (C91_real_time _ _ _ _ _ _ _ _ _ _ _ _ _ _ R Hp Hq Hpq N1 H1 W1 H2 W2) as Hlt.
  destruct (C90_clients1 ext k max tr s R F x2 b2 r) as [?|(i & Hi & (_ & _ & A & _))]; [by eapply elem_of_list_lookup_2|exists k2, n2; by rewrite W2|done|done|].
  assert (i = i2) as ->.
  { destruct (C57_in_order _ _ _ _ R) as (_ & _ & Nd & _). eapply (NoDup_lookup (who <$> calls1 tr)); [exact Nd|by rewrite list_lookup_fmap, Hi|by rewrite list_lookup_fmap, H2]. }
  specialize (A G). injection A as ->.
  destruct (register_since k (calls1 tr) i1 i2 x1 o Hlt ltac:(by eapply Nat.lt_le_incl, lookup_lt_Some) H1 Wx) as (n & y & o' & Hn & Hy & Wy & ->). exists n, y, o'. done.
Qed.
End real1.
