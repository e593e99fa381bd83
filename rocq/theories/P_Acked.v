(** C94: acknowledged appends to a list are kept, and stand in the order of their acknowledgement. *)
From Verif Require Import GoBase GoBaseProofs ShardMap Float64 Float64Proofs Db Protocol Redis Obs SpecCmd SpecResp SpecServer SpecFrame SpecKey KeyHist
  DbInv ExecSteps Sim SimSet SimMain PropBase KeyIs Examples P_Keys P_Sets P_Strings P_Life Server1Proofs Server1More Server1Err
  SpecCommute SpecUse P_Server SpecWire SpecStream Stream Server SpecServing ServerProofs P_Serve Server1 SpecServing1 Drive1 P_Serve1 Drive P_ServeMore P_Use P_Use3 P_Use4 P_Use5 P_Use6 P_Real1 P_Mono.

Section acked.
Context (ext : Ext) (k : string).
(** [u], then later [v], in [l] *)
Definition stand_in_order {A} (u v l : list A) : Prop := ∃ a b c, l = a ++ u ++ b ++ v ++ c.
Lemma pushed_app push h1 h2 : pushed push k (h1 ++ h2) = pushed push k h1 ++ pushed push k h2.
Proof. unfold pushed. by rewrite fmap_app, concat_app. Qed.
Lemma pushed_order push h i j x y : (i < j)%nat → h !! i = Some x → h !! j = Some y → asks_for push k (what x) = true → asks_for push k (what y) = true →
  stand_in_order (values (what x)) (values (what y)) (pushed push k h).
Proof.
  intros Hij Hi Hj Ax Ay. assert (∃ p q r, h = p ++ [x] ++ q ++ [y] ++ r) as (p & q & r & ->).
  { exists (take i h), (drop (S i) (take j h)), (drop (S j) h). rewrite <- (take_drop_middle h j y Hj) at 1.
    assert (take j h = take i h ++ x :: drop (S i) (take j h)) as E; [|rewrite E at 1; by rewrite <- app_assoc].
    assert (take j h !! i = Some x) as Hi' by (by rewrite lookup_take). rewrite <- (take_drop_middle _ _ _ Hi') at 1. by rewrite take_take, Nat.min_l by lia. }
  exists (pushed push k p), (pushed push k q), (pushed push k r). rewrite !pushed_app. do 2 f_equal; [|do 2 f_equal].
  - unfold pushed. cbn. rewrite Ax. apply app_nil_r.
  - unfold pushed. cbn. rewrite Ay. apply app_nil_r.
Qed.
(** On the gnet server: both were acknowledged, the first before the second was sent. *)
Theorem C94_in_order max ps tr s g1 k1 b1 g2 k2 f c2 b2 : runs ext max ps tr s → (∀ y, y ∈ calls tr → growing_request k (what y) = true) →
  before tr (LWrite g1 k1 b1) (LDeliver g2 k2 f) → LWrite g2 c2 b2 ∈ tr → b1 ≠ deadline_bytes → b2 ≠ deadline_bytes →
  ∃ x1 x2, x1 ∈ calls tr ∧ who x1 = g1 ∧ x2 ∈ calls tr ∧ who x2 = g2 ∧
    (asks_for "rpush" k (what x1) = true → asks_for "rpush" k (what x2) = true →
     ∃ xs, answers ext (c_db s) ["LRANGE"; k; "0"; "-1"] (bulks xs) ∧ stand_in_order (values (what x1)) (values (what x2)) xs).
Proof.
  intros R Q Hb Hw2 N1 N2. assert (LWrite g1 k1 b1 ∈ tr) as Hw1 by (destruct Hb as (p & q & _ & Hp & _); by eapply elem_of_list_lookup_2).
  destruct (C08_replied_executed _ _ _ _ _ _ _ _ R Hw1 N1) as (i1 & x1 & H1 & W1). destruct (C08_replied_executed _ _ _ _ _ _ _ _ R Hw2 N2) as (i2 & x2 & H2 & W2).
  pose proof (C08_real_time _ _ _ _ _ _ _ _ _ _ _ _ _ _ _ R Hb N1 H1 W1 H2 W2) as Hlt.
  exists x1, x2. split; [by eapply elem_of_list_lookup_2|]. split; [done|]. split; [by eapply elem_of_list_lookup_2|]. split; [done|]. intros A1 A2.
  exists (pushed "rpush" k (calls tr)). split; [|by eapply pushed_order].
  apply (C84_clients ext max ps tr s k [] R Q); [intros * H; by apply elem_of_nil in H|done].
Qed.
(** On the first server: both were acknowledged, the first before the second was taken from its connection. *)
Theorem C94_in_order1 max tr s p q k1 g1 b1 k2 g2 rq b2 : runs1 ext max tr s → (∀ y, y ∈ calls1 tr → growing_request k (what y) = true) →
  tr !! p = Some (VWrite k1 g1 b1) → tr !! q = Some (VStart k2 g2 rq) → (p < q)%nat → VWrite k2 g2 b2 ∈ tr → b1 ≠ deadline_bytes → b2 ≠ deadline_bytes →
  ∃ x1 x2, x1 ∈ calls1 tr ∧ who x1 = g1 ∧ x2 ∈ calls1 tr ∧ who x2 = g2 ∧
    (asks_for "rpush" k (what x1) = true → asks_for "rpush" k (what x2) = true →
     ∃ xs, answers ext (c_db (v_pool s)) ["LRANGE"; k; "0"; "-1"] (bulks xs) ∧ stand_in_order (values (what x1)) (values (what x2)) xs).
Proof.
  intros R Q Hp Hq Hpq Hw2 N1 N2. destruct (C91_answered_executed _ _ _ _ _ _ _ _ R Hp N1) as (i1 & x1 & _ & H1 & W1).
  apply elem_of_list_lookup in Hw2 as [n Hn]. destruct (C91_answered_executed _ _ _ _ _ _ _ _ R Hn N2) as (i2 & x2 & _ & H2 & W2).
  pose proof (C91_real_time _ _ _ _ _ _ _ _ _ _ _ _ _ _ _ _ R Hp Hq Hpq N1 H1 W1 H2 W2) as Hlt.
  exists x1, x2. split; [by eapply elem_of_list_lookup_2|]. split; [done|]. split; [by eapply elem_of_list_lookup_2|]. split; [done|]. intros A1 A2.
  exists (pushed "rpush" k (calls1 tr)). split; [|by eapply pushed_order].
  apply (C84_clients1 ext max tr s k [] R Q); [intros * H; by apply elem_of_nil in H|done].
Qed.
Lemma executed_split c tr n x : calls1 tr !! n = Some x → who x ∈ (taken c tr).*1 →
  executed c tr !! length (filter (λ y, who y ∈ (taken c tr).*1) (take n (calls1 tr))) = Some (who x, what x).
Proof.
  intros Hn T. unfold executed. rewrite <- (take_drop_middle _ _ _ Hn) at 2. rewrite filter_app, filter_cons_True by done. rewrite fmap_app.
  rewrite lookup_app_r by (by rewrite fmap_length). by rewrite fmap_length, Nat.sub_diag.
Qed.
Lemma filter_take_le {A} (P : A → Prop) `{∀ x, Decision (P x)} (l : list A) i j : (i ≤ j)%nat → (length (filter P (take i l)) ≤ length (filter P (take j l)))%nat.
Proof.
  intros Hij. destruct (take_split l i j Hij) as (m & _ & E & _). rewrite E, filter_app, app_length. lia.
Qed.
(** On the first server a client need not even wait for the answers: on one connection requests are executed in order. *)
Theorem C94_pipelined1 max tr s c i j g1 q1 g2 q2 x1 x2 n1 n2 : runs1 ext max tr s → (∀ y, y ∈ calls1 tr → growing_request k (what y) = true) →
  asked c tr !! i = Some (g1, q1) → asked c tr !! j = Some (g2, q2) → (i < j)%nat →
  calls1 tr !! n1 = Some x1 → who x1 = g1 → calls1 tr !! n2 = Some x2 → who x2 = g2 → asks_for "rpush" k q1 = true → asks_for "rpush" k q2 = true →
  ∃ xs, answers ext (c_db (v_pool s)) ["LRANGE"; k; "0"; "-1"] (bulks xs) ∧ stand_in_order (values q1) (values q2) xs.
Proof.
  intros R Q Hi Hj Hij H1 W1 H2 W2 A1 A2. pose proof (C57_executed_in_order ext max tr s c R) as Pre. pose proof (asked_nodup _ _ _ _ c R) as Nd.
  assert (∀ m x n g q, executed c tr !! m = Some (g, x) → asked c tr !! n = Some (g, q) → m = n ∧ x = q) as U.
  { intros m x n g q X Y. assert (asked c tr !! m = Some (g, x)) as X' by (destruct Pre as [rest ->]; by apply lookup_app_l_Some). assert (m = n) as ->; [|by rewrite X' in Y; injection Y as ->].
    eapply NoDup_lookup; [exact Nd| |]; rewrite list_lookup_fmap; [by rewrite X'|by rewrite Y]. }
  assert (g1 ∈ (taken c tr).*1) as T1 by (apply elem_of_list_lookup_2, asked_taken in Hi; apply elem_of_list_fmap; by exists (g1, q1)).
  assert (g2 ∈ (taken c tr).*1) as T2 by (apply elem_of_list_lookup_2, asked_taken in Hj; apply elem_of_list_fmap; by exists (g2, q2)).
  pose proof (executed_split c tr n1 x1 H1 ltac:(by rewrite W1)) as E1. pose proof (executed_split c tr n2 x2 H2 ltac:(by rewrite W2)) as E2.
  destruct (U _ _ _ _ _ (eq_trans E1 ltac:(by rewrite W1)) Hi) as [I1 V1]. destruct (U _ _ _ _ _ (eq_trans E2 ltac:(by rewrite W2)) Hj) as [I2 V2].
  assert (n1 < n2)%nat as Hlt.
  { destruct (decide (n1 < n2)%nat) as [|Hn]; [done|]. exfalso.
    pose proof (filter_take_le (λ y, who y ∈ (taken c tr).*1) (calls1 tr) n2 n1 ltac:(lia)). lia. }
  exists (pushed "rpush" k (calls1 tr)). split; [apply (C84_clients1 ext max tr s k [] R Q); [intros * H; by apply elem_of_nil in H|done]|].
  rewrite <- V1, <- V2. eapply pushed_order; [exact Hlt|done|done|by rewrite V1|by rewrite V2].
Qed.
End acked.

(** ** examples *)
Definition three_appends : list action :=
  whole 1 7 (frame ["RPUSH"; "l"; "a"; "b"]) ++ whole 2 8 (frame ["RPUSH"; "l"; "c"]) ++ whole 3 7 (frame ["RPUSH"; "l"; "d"]).
Example C94_demo : runs ext0 1000 8 (trace three_appends) (final three_appends) ∧ got three_appends = [(1%nat, crlf [":2"]); (2%nat, crlf [":3"]); (3%nat, crlf [":4"])] ∧
  forallb (λ x, growing_request "l" (what x)) (calls (trace three_appends)) = true ∧ pushed "rpush" "l" (calls (trace three_appends)) = ["a"; "b"; "c"; "d"].
Proof. split; [apply trace_runs; by vm_compute|]. split; [by vm_compute|]. split; by vm_compute. Qed.
(** On the gnet server a client has to wait for the answer: of two requests sent on one connection without waiting, the
    second may be executed first. *)
Definition in_a_hurry : list action :=
  [ADeliver 1 7 (frame ["RPUSH"; "l"; "a"]); ADeliver 2 7 (frame ["RPUSH"; "l"; "b"]); ADecode 1; ADecode 2; AAdd 2] ++ serve 2 ++ [ADone 2; AWrite 2; AAdd 1] ++ serve 1 ++ [ADone 1; AWrite 1].
Theorem C94_pipelined_refuted : runs ext0 1000 8 (trace in_a_hurry) (final in_a_hurry) ∧ got in_a_hurry = [(2%nat, crlf [":1"]); (1%nat, crlf [":2"])] ∧
  pushed "rpush" "l" (calls (trace in_a_hurry)) = ["b"; "a"].
Proof. split; [apply trace_runs; by vm_compute|]. split; by vm_compute. Qed.
