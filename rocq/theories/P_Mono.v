(** C93: what clients see of a counter, or of a set that is only added to, never goes back. *)
From Verif Require Import GoBase GoBaseProofs ShardMap Float64 Float64Proofs Db Protocol Redis Obs SpecCmd SpecResp SpecServer SpecFrame SpecKey KeyHist
  DbInv ExecSteps Sim SimSet SimMain PropBase KeyIs Examples P_Keys P_Sets P_Strings P_Life
  SpecCommute SpecUse SpecTotal SpecMono P_Server SpecWire SpecStream Stream Server SpecServing ServerProofs P_Serve Server1 SpecServing1 Drive1 P_Serve1 Drive P_ServeMore P_Use P_Use4 P_Use5 P_Use6 P_Real1.

Lemma sum_app l1 l2 : sum (l1 ++ l2) = sum l1 + sum l2.
Proof. induction l1 as [|x l IH]; cbn [app sum foldr] in *; [done|]. unfold sum in *. lia. Qed.
Lemma sum_nonneg l : Forall (λ n, 0 ≤ n) l → 0 ≤ sum l.
Proof. induction 1; cbn [sum foldr] in *; [done|]. unfold sum in *. lia. Qed.
Lemma paid_app k h1 h2 : paid k (h1 ++ h2) = paid k h1 ++ paid k h2.
Proof. unfold paid. apply omap_app. Qed.
Lemma announced_app k h1 h2 : announced k (h1 ++ h2) = announced k h1 ++ announced k h2.
Proof. unfold announced. by rewrite fmap_app, concat_app. Qed.
Lemma take_split {A} (l : list A) i j : (i ≤ j)%nat → ∃ m r, take j l = take i l ++ m ∧ l = take j l ++ r.
Proof. intros H. exists (drop i (take j l)), (drop j l). split; [|by rewrite take_drop]. rewrite <- (take_drop i (take j l)) at 1. rewrite take_take, Nat.min_l by done. done. Qed.
Section mono.
Context (ext : Ext) (k : string).

Lemma sums_le h i j : Forall (λ n, 0 ≤ n) (paid k h) → (i ≤ j)%nat → 0 ≤ sum (paid k (take i h)) ≤ sum (paid k (take j h)) ∧ sum (paid k (take j h)) ≤ sum (paid k h).
Proof.
  intros F Hij. destruct (take_split h i j Hij) as (m & r & E1 & E2).
  assert (paid k (take j h) = paid k (take i h) ++ paid k m) as P1 by (by rewrite E1, paid_app).
  assert (paid k h = paid k (take j h) ++ paid k r) as P2 by (by rewrite <- paid_app, <- E2).
  rewrite P2, P1, !Forall_app in F. destruct F as [[F1 F2] F3]. rewrite P2, P1, !sum_app. apply sum_nonneg in F1, F2, F3. lia.
Qed.
Lemma shown_number h i x v z : Forall (λ n, 0 ≤ n) (paid k h) → sum (paid k h) < two63 → h !! i = Some x → shows_total k (what x) →
  total_answer k (paid k (take i h)) (what x) (Some v) → number_in v = Some z → z = sum (paid k (take (S i) h)).
Proof.
  intros F B Hi Hs (A1 & A2) Hz.
  pose proof (sums_le h (S i) (S i) F ltac:(lia)) as [_ B1]. pose proof (sums_le h i (S i) F ltac:(lia)) as [[B2 B3] _].
  assert (paid k (take (S i) h) = paid k (take i h) ++ match amount k (what x) with Some n => [n] | None => [] end) as P.
  { rewrite (take_S_r h i x Hi), paid_app. done. }
  rewrite P in *. destruct (amount k (what x)) as [n|] eqn:En.
  - specialize (A1 n eq_refl). injection A1 as ->. cbn in Hz. injection Hz as <-. apply wrap64_small. unfold two63 in *. lia.
  - rewrite app_nil_r in *. destruct Hs as [[? ?]|Hg]; [congruence|]. specialize (A2 Hg). injection A2 as ->.
    unfold total_shown in Hz. destruct (paid k (take i h)) as [|y l] eqn:E; [cbn in Hz; by injection Hz as <-|]. cbn [number_in] in Hz.
    assert (total (y :: l) = sum (y :: l)) as Et by (apply wrap64_small; unfold two63 in *; lia).
    rewrite Et, parse_int_itoa in Hz by (unfold two63 in *; lia). by injection Hz as <-.
Qed.
(** the later in the order of execution, the larger *)
Lemma counted_le h got d i1 i2 x1 x2 b1 b2 v1 v2 z1 z2 : sums_up ext k h got d → NoDup (who <$> h) → Forall (λ n, 0 ≤ n) (paid k h) → sum (paid k h) < two63 →
  (i1 < i2)%nat → h !! i1 = Some x1 → h !! i2 = Some x2 → got x1 b1 → got x2 b2 → b1 ≠ deadline_bytes → b2 ≠ deadline_bytes → is_reply b1 v1 → is_reply b2 v2 →
  shows_total k (what x1) → shows_total k (what x2) → number_in v1 = Some z1 → number_in v2 = Some z2 → z1 ≤ z2.
Proof.
  intros (_ & Sm) N F B Hlt H1 H2 G1 G2 N1 N2 R1 R2 S1 S2 Z1 Z2.
  destruct (Sm x1 b1 v1 ltac:(by eapply elem_of_list_lookup_2) G1 R1) as [->|(j1 & J1 & A1)]; [done|].
  destruct (Sm x2 b2 v2 ltac:(by eapply elem_of_list_lookup_2) G2 R2) as [->|(j2 & J2 & A2)]; [done|].
  assert (∀ i j x, h !! i = Some x → h !! j = Some x → i = j) as U by (intros i j x X Y; eapply (NoDup_lookup (who <$> h)); [exact N|by rewrite list_lookup_fmap, X|by rewrite list_lookup_fmap, Y]).
  rewrite (U _ _ _ J1 H1) in A1. rewrite (U _ _ _ J2 H2) in A2.
  rewrite (shown_number h i1 x1 v1 z1 F B H1 S1 A1 Z1), (shown_number h i2 x2 v2 z2 F B H2 S2 A2 Z2). refine (proj2 (proj1 (sums_le h (S i1) (S i2) F _))). lia.
Qed.

(** the set: larger, and what was in it still is *)
Lemma announced_sub h i j : (i ≤ j)%nat → ∀ v, v ∈ announced k (take i h) → v ∈ announced k (take j h).
Proof. intros Hij v Hv. destruct (take_split h i j Hij) as (m & _ & -> & _). rewrite announced_app. apply elem_of_app. by left. Qed.
Lemma distinct_le p q : (∀ v, v ∈ p → v ∈ q) → distinct p ≤ distinct q.
Proof. intros H. rewrite !distinct_size. apply inj_le, subseteq_size. intros v. rewrite !elem_of_list_to_set. apply H. Qed.
Lemma seen_le h got d i1 i2 x1 x2 b1 b2 n1 n2 : recognises ext k h got d → NoDup (who <$> h) →
  (i1 < i2)%nat → h !! i1 = Some x1 → h !! i2 = Some x2 → got x1 b1 → got x2 b2 → is_reply b1 (RInt n1) → is_reply b2 (RInt n2) →
  (shows_size k (what x1) → shows_size k (what x2) → n1 ≤ n2) ∧
  (∀ v, shows_member k v (what x1) → shows_member k v (what x2) → n1 = 1 → n2 = 1).
Proof.
  intros (_ & Sm & _) N Hlt H1 H2 G1 G2 R1 R2.
  destruct (Sm x1 b1 _ ltac:(by eapply elem_of_list_lookup_2) G1 R1) as [->|(j1 & J1 & A1)]; [by destruct (not_deadline _ _ R1)|].
  destruct (Sm x2 b2 _ ltac:(by eapply elem_of_list_lookup_2) G2 R2) as [->|(j2 & J2 & A2)]; [by destruct (not_deadline _ _ R2)|].
  assert (∀ i j x, h !! i = Some x → h !! j = Some x → i = j) as U by (intros i j x X Y; eapply (NoDup_lookup (who <$> h)); [exact N|by rewrite list_lookup_fmap, X|by rewrite list_lookup_fmap, Y]).
  rewrite (U _ _ _ J1 H1) in A1. rewrite (U _ _ _ J2 H2) in A2. destruct A1 as (_ & A1 & A1'), A2 as (_ & A2 & A2').
  pose proof (announced_sub h i1 i2 ltac:(lia)) as Sub. split.
  - intros S1 S2. specialize (A1 S1). specialize (A2 S2). injection A1 as ->. injection A2 as ->. by apply distinct_le.
  - intros v [S1 [a1 E1]] [S2 [a2 E2]] ->. specialize (A1' v a1 S1 E1). specialize (A2' v a2 S2 E2). destruct (decide (v ∈ announced k (take i1 h))) as [Hv|Hv]; [|by rewrite bool_decide_eq_false_2 in A1' by exact Hv].
    rewrite bool_decide_eq_true_2 in A2' by (by apply Sub). by injection A2' as ->.
Qed.

(** On the gnet server: the first request was answered before the second was sent. *)
Theorem C93_counter max ps tr s g1 k1 b1 g2 k2 f i1 i2 x1 x2 c2 b2 v1 v2 z1 z2 : runs ext max ps tr s → Forall (λ y, total_request k (what y) = true) (calls tr) →
  Forall (λ n, 0 ≤ n) (paid k (calls tr)) → sum (paid k (calls tr)) < two63 →
  before tr (LWrite g1 k1 b1) (LDeliver g2 k2 f) → calls tr !! i1 = Some x1 → who x1 = g1 → calls tr !! i2 = Some x2 → who x2 = g2 → LWrite g2 c2 b2 ∈ tr →
  b1 ≠ deadline_bytes → b2 ≠ deadline_bytes → is_reply b1 v1 → is_reply b2 v2 →
  shows_total k (what x1) → shows_total k (what x2) → number_in v1 = Some z1 → number_in v2 = Some z2 → z1 ≤ z2.
Proof.
  intros R F Nn B Hb H1 W1 H2 W2 Hw2 N1 N2 R1 R2 S1 S2 Z1 Z2. pose proof (C08_real_time _ _ _ _ _ _ _ _ _ _ _ _ _ _ _ R Hb N1 H1 W1 H2 W2) as Hlt.
  destruct (C07_serial _ _ _ _ _ R) as (_ & _ & Nd & _). assert (LWrite g1 k1 b1 ∈ tr) as Hw1 by (destruct Hb as (p & q & _ & Hp & _); by eapply elem_of_list_lookup_2).
  subst g1 g2. exact (counted_le _ _ _ i1 i2 x1 x2 b1 b2 v1 v2 z1 z2 (C88_clients ext k max ps tr s R F) Nd Nn B Hlt H1 H2 (ex_intro _ k1 Hw1) (ex_intro _ c2 Hw2) N1 N2 R1 R2 S1 S2 Z1 Z2).
Qed.
Theorem C93_set max ps tr s g1 k1 b1 g2 k2 f i1 i2 x1 x2 c2 b2 n1 n2 : runs ext max ps tr s → Forall (λ y, seen_request k (what y) = true) (calls tr) →
  before tr (LWrite g1 k1 b1) (LDeliver g2 k2 f) → calls tr !! i1 = Some x1 → who x1 = g1 → calls tr !! i2 = Some x2 → who x2 = g2 → LWrite g2 c2 b2 ∈ tr →
  is_reply b1 (RInt n1) → is_reply b2 (RInt n2) →
  (shows_size k (what x1) → shows_size k (what x2) → n1 ≤ n2) ∧ (∀ v, shows_member k v (what x1) → shows_member k v (what x2) → n1 = 1 → n2 = 1).
Proof.
  intros R F Hb H1 W1 H2 W2 Hw2 R1 R2. pose proof (C08_real_time _ _ _ _ _ _ _ _ _ _ _ _ _ _ _ R Hb (not_deadline _ _ R1) H1 W1 H2 W2) as Hlt.
  destruct (C07_serial _ _ _ _ _ R) as (_ & _ & Nd & _). assert (LWrite g1 k1 b1 ∈ tr) as Hw1 by (destruct Hb as (p & q & _ & Hp & _); by eapply elem_of_list_lookup_2).
  subst g1 g2. exact (seen_le _ _ _ i1 i2 x1 x2 b1 b2 n1 n2 (C89_clients ext k max ps tr s R F) Nd Hlt H1 H2 (ex_intro _ k1 Hw1) (ex_intro _ c2 Hw2) R1 R2).
Qed.
(** On the first server: the first request was answered before the second was taken from its connection. *)
Theorem C93_counter1 max tr s p q k1 g1 b1 k2 g2 rq i1 i2 x1 x2 b2 v1 v2 z1 z2 : runs1 ext max tr s → Forall (λ y, total_request k (what y) = true) (calls1 tr) →
  Forall (λ n, 0 ≤ n) (paid k (calls1 tr)) → sum (paid k (calls1 tr)) < two63 →
  tr !! p = Some (VWrite k1 g1 b1) → tr !! q = Some (VStart k2 g2 rq) → (p < q)%nat →
  calls1 tr !! i1 = Some x1 → who x1 = g1 → calls1 tr !! i2 = Some x2 → who x2 = g2 → VWrite k2 g2 b2 ∈ tr →
  b1 ≠ deadline_bytes → b2 ≠ deadline_bytes → is_reply b1 v1 → is_reply b2 v2 →
  shows_total k (what x1) → shows_total k (what x2) → number_in v1 = Some z1 → number_in v2 = Some z2 → z1 ≤ z2.
Proof.
  intros R F Nn B Hp Hq Hpq H1 W1 H2 W2 Hw2 N1 N2 R1 R2 S1 S2 Z1 Z2. pose proof (C91_real_time _ _ _ _ _ _ _ _ _ _ _ _ _ _ _ _ R Hp Hq Hpq N1 H1 W1 H2 W2) as Hlt.
  destruct (C57_in_order _ _ _ _ R) as (_ & _ & Nd & _). apply elem_of_list_lookup_2, written_here, elem_of_list_lookup in Hp as [m1 Hp]. apply written_here, elem_of_list_lookup in Hw2 as [m2 Hw2].
  subst g1 g2. exact (counted_le _ _ _ i1 i2 x1 x2 b1 b2 v1 v2 z1 z2 (C88_clients1 ext k max tr s R F) Nd Nn B Hlt H1 H2 (ex_intro _ k1 (ex_intro _ m1 Hp)) (ex_intro _ k2 (ex_intro _ m2 Hw2)) N1 N2 R1 R2 S1 S2 Z1 Z2).
Qed.
Theorem C93_set1 max tr s p q k1 g1 b1 k2 g2 rq i1 i2 x1 x2 b2 n1 n2 : runs1 ext max tr s → Forall (λ y, seen_request k (what y) = true) (calls1 tr) →
  tr !! p = Some (VWrite k1 g1 b1) → tr !! q = Some (VStart k2 g2 rq) → (p < q)%nat →
  calls1 tr !! i1 = Some x1 → who x1 = g1 → calls1 tr !! i2 = Some x2 → who x2 = g2 → VWrite k2 g2 b2 ∈ tr →
  is_reply b1 (RInt n1) → is_reply b2 (RInt n2) →
  (shows_size k (what x1) → shows_size k (what x2) → n1 ≤ n2) ∧ (∀ v, shows_member k v (what x1) → shows_member k v (what x2) → n1 = 1 → n2 = 1).
Proof.
  intros R F Hp Hq Hpq H1 W1 H2 W2 Hw2 R1 R2. pose proof (C91_real_time _ _ _ _ _ _ _ _ _ _ _ _ _ _ _ _ R Hp Hq Hpq (not_deadline _ _ R1) H1 W1 H2 W2) as Hlt.
  destruct (C57_in_order _ _ _ _ R) as (_ & _ & Nd & _). apply elem_of_list_lookup_2, written_here, elem_of_list_lookup in Hp as [m1 Hp]. apply written_here, elem_of_list_lookup in Hw2 as [m2 Hw2].
  subst g1 g2. exact (seen_le _ _ _ i1 i2 x1 x2 b1 b2 n1 n2 (C89_clients1 ext k max tr s R F) Nd Hlt H1 H2 (ex_intro _ k1 (ex_intro _ m1 Hp)) (ex_intro _ k2 (ex_intro _ m2 Hw2)) R1 R2).
Qed.
End mono.

(** ** examples *)
(** Past the largest integer the counter goes back. *)
Theorem C93_overflow_refuted : replies [["INCRBY"; "n"; "9223372036854775807"]; ["INCR"; "n"]] = Some [Some (RInt 9223372036854775807); Some (RInt (-9223372036854775808))].
Proof. by vm_compute. Qed.
(** and so does the size of a set from which members are popped *)
Theorem C93_pop_refuted : replies [["SADD"; "v"; "a"]; ["SISMEMBER"; "v"; "a"]; ["SPOP"; "v"; "1"]; ["SISMEMBER"; "v"; "a"]] = Some [Some (RInt 1); Some (RInt 1); Some (bulks ["a"]); Some (RInt 0)].
Proof. by vm_compute. Qed.
Definition visits : list action :=
  whole 1 7 (frame ["INCRBY"; "n"; "5"]) ++ whole 2 8 (frame ["GET"; "n"]) ++ whole 3 7 (frame ["INCR"; "n"]).
Example C93_demo : runs ext0 1000 8 (trace visits) (final visits) ∧ got visits = [(1%nat, crlf [":5"]); (2%nat, crlf ["$1"; "5"]); (3%nat, crlf [":6"])] ∧
  forallb (λ x, total_request "n" (what x)) (calls (trace visits)) = true ∧ paid "n" (calls (trace visits)) = [5; 1] ∧
  (number_in (RInt 5), number_in (RBulk "5"), number_in (RInt 6)) = (Some 5, Some 5, Some 6).
Proof. split; [apply trace_runs; by vm_compute|]. split; [by vm_compute|]. split; [by vm_compute|]. split; by vm_compute. Qed.
