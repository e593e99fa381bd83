(** C96: a lock excludes in real time: critical sections do not overlap. *)
From Verif Require Import GoBase GoBaseProofs ShardMap Float64 Float64Proofs Db Protocol Redis Obs SpecCmd SpecResp SpecServer SpecFrame SpecKey KeyHist
  DbInv ExecSteps Sim SimSet SimMain PropBase KeyIs Examples P_Keys P_Sets P_Strings P_Life Server1Proofs Server1More Server1Err
  SpecCommute SpecUse P_Server SpecWire SpecStream Stream Server SpecServing ServerProofs P_Serve Server1 SpecServing1 Drive1 P_Serve1 Drive P_ServeMore P_Use P_Use3 P_Use4 P_Use5 P_Use6 P_Real1 P_Mono P_Acked.

(** takings [T] with a release [F] between any two of them, each release belonging to one earlier taking and no two to the same:
    then the release of the earlier of two takings comes before the later taking *)
Lemma own_release (T F : nat → Prop) (O : nat → nat → Prop) :
  (∀ i j, T i → T j → (i < j)%nat → ∃ m, F m ∧ (i < m < j)%nat) →
  (∀ m, F m → ∃ i, T i ∧ (i < m)%nat ∧ O m i) → (∀ m m' i, F m → F m' → O m i → O m' i → m = m') →
  ∀ j i, T i → T j → (i < j)%nat → ∃ m, F m ∧ (i < m < j)%nat ∧ O m i.
Proof.
  intros X Ow On j. induction (lt_wf j) as [j _ IH]. intros i Ti Tj Hij. destruct (X i j Ti Tj Hij) as (m & Fm & Hm). destruct (Ow m Fm) as (n & Tn & Hn & Om).
  destruct (lt_eq_lt_dec n i) as [[L| ->]|L].
  - destruct (IH i ltac:(lia) n Tn Ti L) as (m' & Fm' & Hm' & Om'). rewrite (On m m' n Fm Fm' Om Om') in Hm. lia.
  - by exists m.
  - destruct (IH n ltac:(lia) i Ti Tn L) as (m' & Fm' & Hm' & Om'). exists m'. split; [done|]. split; [lia|done].
Qed.
Section sections.
Context (ext : Ext) (k t : string) (owner : nat → nat).
Lemma service_sections h got d i j x1 x2 b1 b2 : service ext h got d →
  (∀ x, x ∈ h → lock_request k (what x) = true ∧ respects k t (what x) = true) →
  (∀ m z, h !! m = Some z → frees k t (what z) = true →
     ∃ n x b, (n < m)%nat ∧ h !! n = Some x ∧ who x = owner (who z) ∧ takes k t (what x) = true ∧ got x b ∧ is_reply b (RInt 1)) →
  (∀ z z', z ∈ h → z' ∈ h → frees k t (what z) = true → frees k t (what z') = true → owner (who z) = owner (who z') → who z = who z') →
  h !! i = Some x1 → h !! j = Some x2 → (i < j)%nat → takes k t (what x1) = true → takes k t (what x2) = true →
  got x1 b1 → got x2 b2 → is_reply b1 (RInt 1) → is_reply b2 (RInt 1) →
  ∃ m z, (i < m < j)%nat ∧ h !! m = Some z ∧ frees k t (what z) = true ∧ owner (who z) = who x1.
Proof.
  intros Sv Q Ow On Hi Hj Hij T1 T2 G1 G2 R1 R2. destruct Sv as (rs & T & L & N & Hc). apply spoken_talk in T.
  assert (∀ n m x, h !! n = Some x → h !! m = Some x → n = m) as U by (intros n m x A B; eapply (NoDup_lookup (who <$> h)); [exact N|by rewrite list_lookup_fmap, A|by rewrite list_lookup_fmap, B]).
  assert (∀ n x b, h !! n = Some x → got x b → is_reply b (RInt 1) → spoken h rs !! n = Some (how x, what x, Some (RInt 1))) as At.
  { intros n x b Hn G R. destruct (Hc x b _ ltac:(by eapply elem_of_list_lookup_2) G R) as [->|(n' & Hn' & Sn)]; [by destruct (not_deadline _ _ R)|]. by rewrite (U _ _ _ Hn Hn'). }
  assert (Forall (λ req, lock_request k req = true ∧ respects k t req = true) (asked_in (spoken h rs))) as F.
  { rewrite spoken_asked by done. apply Forall_forall. intros req (x & -> & Hx)%elem_of_list_fmap. by apply Q. }
  assert (∀ m z, spoken h rs !! m = Some z → ∃ y, h !! m = Some y ∧ what y = z.1.2) as G.
  { intros m z Hm. unfold spoken in Hm. apply lookup_zip_with_Some in Hm as (p & r & -> & Hp & _). unfold as_history in Hp.
    rewrite list_lookup_fmap in Hp. destruct (h !! m) as [y|]; [|done]. injection Hp as <-. by exists y. }
  assert (reachable ext db_new) as Hr by (by exists [], []).
  destruct (own_release (λ n, ∃ x, h !! n = Some x ∧ takes k t (what x) = true ∧ spoken h rs !! n = Some (how x, what x, Some (RInt 1)))
    (λ m, ∃ z, h !! m = Some z ∧ frees k t (what z) = true) (λ m n, ∃ z x, h !! m = Some z ∧ h !! n = Some x ∧ owner (who z) = who x)) with (j := j) (i := i) as (m & (z & Hz & Fz) & Hm & (z' & x & Hz' & Hx & E)).
  - intros n m (x & Hx & Tx & Sx) (y & Hy & Ty & Sy) Hnm. destruct (C80_exclusive ext k t db_new _ _ n m _ _ Hr (db_new_absent _ _) F T Sx Sy) as (p & z & Hp & Hz & Fz & _); try done.
    destruct (G p z Hz) as (w & Hw & Ew). exists p. split; [|lia]. exists w. by rewrite Ew.
  - intros m (z & Hz & Fz). destruct (Ow m z Hz Fz) as (n & x & b & Hn & Hx & E & Tx & Gx & Rx). exists n. split; [exists x; split; [done|]; split; [done|]; by eapply At|]. split; [done|]. by exists z, x.
  - intros m m' n (z & Hz & Fz) (z' & Hz' & Fz') (y & x & Hy & Hx & E) (y' & x' & Hy' & Hx' & E'). assert (x' = x) as -> by congruence. assert (y = z) as -> by congruence. assert (y' = z') as -> by congruence.
    eapply (NoDup_lookup (who <$> h)); [exact N|by rewrite list_lookup_fmap, Hz|rewrite list_lookup_fmap, Hz'; cbn; f_equal]. apply On; [by eapply elem_of_list_lookup_2..|done|done|congruence].
  - exists x1. split; [done|]. split; [done|]. by eapply At.
  - exists x2. split; [done|]. split; [done|]. by eapply At.
  - done.
  - exists m, z. split; [lia|]. split; [done|]. split; [done|]. congruence.
Qed.
(** On the gnet server. Let [owner] say whose release a SREM of the token is: a request that took the lock and had been told so
    before the SREM was sent; nobody releases twice. Then of two requests that are told that they have the lock, the release
    of one was sent before the other was told: the critical sections, from being told to sending the release, do not overlap. *)
Theorem C96_sections max ps tr s x1 x2 c1 c2 b1 b2 : runs ext max ps tr s →
  (∀ x, x ∈ calls tr → lock_request k (what x) = true ∧ respects k t (what x) = true) →
  (∀ z, z ∈ calls tr → frees k t (what z) = true → ∃ x c b c' f, x ∈ calls tr ∧ who x = owner (who z) ∧ takes k t (what x) = true ∧ is_reply b (RInt 1) ∧
     before tr (LWrite (who x) c b) (LDeliver (who z) c' f)) →
  (∀ z z', z ∈ calls tr → z' ∈ calls tr → frees k t (what z) = true → frees k t (what z') = true → owner (who z) = owner (who z') → who z = who z') →
  x1 ∈ calls tr → x2 ∈ calls tr → who x1 ≠ who x2 → takes k t (what x1) = true → takes k t (what x2) = true →
  LWrite (who x1) c1 b1 ∈ tr → LWrite (who x2) c2 b2 ∈ tr → is_reply b1 (RInt 1) → is_reply b2 (RInt 1) →
  ∃ z c f, z ∈ calls tr ∧ frees k t (what z) = true ∧
    (owner (who z) = who x1 ∧ before tr (LDeliver (who z) c f) (LWrite (who x2) c2 b2) ∨
     owner (who z) = who x2 ∧ before tr (LDeliver (who z) c f) (LWrite (who x1) c1 b1)).
Proof.
  intros R Q Ow On Hx1 Hx2 D T1 T2 W1 W2 R1 R2. pose proof Hx1 as [i Hi]%elem_of_list_lookup. pose proof Hx2 as [j Hj]%elem_of_list_lookup.
  assert (∀ i j x1 x2 c1 c2 b1 b2, calls tr !! i = Some x1 → calls tr !! j = Some x2 → (i < j)%nat → takes k t (what x1) = true → takes k t (what x2) = true →
    LWrite (who x1) c1 b1 ∈ tr → LWrite (who x2) c2 b2 ∈ tr → is_reply b1 (RInt 1) → is_reply b2 (RInt 1) →
    ∃ z c f, z ∈ calls tr ∧ frees k t (what z) = true ∧ owner (who z) = who x1 ∧ before tr (LDeliver (who z) c f) (LWrite (who x2) c2 b2)) as Main.
  { clear -R Q Ow On. intros i j x1 x2 c1 c2 b1 b2 Hi Hj Hij T1 T2 W1 W2 R1 R2.
    destruct (service_sections _ _ _ i j x1 x2 b1 b2 (service2 _ _ _ _ _ R) Q) as (m & z & Hm & Hz & Fz & E); [|exact On|done|done|done|done|done|by exists c1|by exists c2|done|done|].
    - intros m z Hz Fz. destruct (Ow z ltac:(by eapply elem_of_list_lookup_2) Fz) as (x & c & b & c' & f & Hx & E & Tx & Rx & B). apply elem_of_list_lookup in Hx as [n Hx].
      exists n, x, b. split; [exact (C08_real_time _ _ _ _ _ _ _ _ _ _ _ _ _ _ _ R B (not_deadline _ _ Rx) Hx eq_refl Hz eq_refl)|]. do 3 (split; [done|]). split; [|done].
      exists c. destruct B as (p & q & _ & Hp & _). by eapply elem_of_list_lookup_2.
    - pose proof Hz as Hz0%elem_of_list_lookup_2. destruct (Ow z Hz0 Fz) as (x & c & b & c' & f & Hx & Ex & Tx & Rx & B). exists z, c', f. do 3 (split; [done|]).
      destruct B as (p & q & Hpq & Hp & Hq). apply elem_of_list_lookup in W2 as [n Hn]. destruct (decide (q < n)%nat) as [|Hge]; [by exists q, n|]. exfalso.
      assert (n ≠ q) by congruence. assert (before tr (LWrite (who x2) c2 b2) (LDeliver (who z) c' f)) as B' by (exists n, q; split; [lia|done]).
      pose proof (C08_real_time _ _ _ _ _ _ _ _ _ _ _ _ _ _ _ R B' (not_deadline _ _ R2) Hj eq_refl Hz eq_refl). lia. }
  destruct (lt_eq_lt_dec i j) as [[H|H]|H]; [|subst; congruence|].
  - destruct (Main i j x1 x2 c1 c2 b1 b2) as (z & c & f & Hz & Fz & E & B); try done. exists z, c, f. eauto.
  - destruct (Main j i x2 x1 c2 c1 b2 b1) as (z & c & f & Hz & Fz & E & B); try done. exists z, c, f. eauto.
Qed.
(** On the first server, with the releases being taken from the connection in place of being sent. *)
Theorem C96_sections1 max tr s x1 x2 c1 c2 b1 b2 p1 p2 : runs1 ext max tr s →
  (∀ x, x ∈ calls1 tr → lock_request k (what x) = true ∧ respects k t (what x) = true) →
  (∀ z, z ∈ calls1 tr → frees k t (what z) = true → ∃ x c b c' rq p q, x ∈ calls1 tr ∧ who x = owner (who z) ∧ takes k t (what x) = true ∧ is_reply b (RInt 1) ∧
     (p < q)%nat ∧ tr !! p = Some (VWrite c (who x) b) ∧ tr !! q = Some (VStart c' (who z) rq)) →
  (∀ z z', z ∈ calls1 tr → z' ∈ calls1 tr → frees k t (what z) = true → frees k t (what z') = true → owner (who z) = owner (who z') → who z = who z') →
  x1 ∈ calls1 tr → x2 ∈ calls1 tr → who x1 ≠ who x2 → takes k t (what x1) = true → takes k t (what x2) = true →
  tr !! p1 = Some (VWrite c1 (who x1) b1) → tr !! p2 = Some (VWrite c2 (who x2) b2) → is_reply b1 (RInt 1) → is_reply b2 (RInt 1) →
  ∃ z c rq q, z ∈ calls1 tr ∧ frees k t (what z) = true ∧ tr !! q = Some (VStart c (who z) rq) ∧
    (owner (who z) = who x1 ∧ (q < p2)%nat ∨ owner (who z) = who x2 ∧ (q < p1)%nat).
Proof.
  intros R Q Ow On Hx1 Hx2 D T1 T2 W1 W2 R1 R2. pose proof Hx1 as [i Hi]%elem_of_list_lookup. pose proof Hx2 as [j Hj]%elem_of_list_lookup.
  assert (∀ c g b p, tr !! p = Some (VWrite c g b) → ∃ c n, written c tr !! n = Some (g, b)) as Wr.
  { intros c g b p H. pose proof (written_here _ _ _ _ (elem_of_list_lookup_2 _ _ _ H)) as [n Hn]%elem_of_list_lookup. eauto. }
  assert (∀ i j x1 x2 c1 c2 b1 b2 p1 p2, calls1 tr !! i = Some x1 → calls1 tr !! j = Some x2 → (i < j)%nat → takes k t (what x1) = true → takes k t (what x2) = true →
    tr !! p1 = Some (VWrite c1 (who x1) b1) → tr !! p2 = Some (VWrite c2 (who x2) b2) → is_reply b1 (RInt 1) → is_reply b2 (RInt 1) →
    ∃ z c rq q, z ∈ calls1 tr ∧ frees k t (what z) = true ∧ tr !! q = Some (VStart c (who z) rq) ∧ owner (who z) = who x1 ∧ (q < p2)%nat) as Main.
  { clear -R Q Ow On Wr. intros i j x1 x2 c1 c2 b1 b2 p1 p2 Hi Hj Hij T1 T2 W1 W2 R1 R2.
    destruct (service_sections _ _ _ i j x1 x2 b1 b2 (service1 _ _ _ _ R) Q) as (m & z & Hm & Hz & Fz & E); [|exact On|done|done|done|done|done|by eapply Wr|by eapply Wr|done|done|].
    - intros m z Hz Fz. destruct (Ow z ltac:(by eapply elem_of_list_lookup_2) Fz) as (x & c & b & c' & rq & p & q & Hx & E & Tx & Rx & Hpq & Hp & Hq). apply elem_of_list_lookup in Hx as [n Hx].
      exists n, x, b. split; [exact (C91_real_time _ _ _ _ _ _ _ _ _ _ _ _ _ _ _ _ R Hp Hq Hpq (not_deadline _ _ Rx) Hx eq_refl Hz eq_refl)|]. do 3 (split; [done|]). split; [|done]. by eapply Wr.
    - pose proof Hz as Hz0%elem_of_list_lookup_2. destruct (Ow z Hz0 Fz) as (x & c & b & c' & rq & p & q & Hx & Ex & Tx & Rx & Hpq & Hp & Hq). exists z, c', rq, q. do 4 (split; [done|]).
      destruct (decide (q < p2)%nat) as [|Hge]; [done|]. exfalso. assert (p2 ≠ q) by congruence.
      pose proof (C91_real_time _ _ _ _ _ _ _ _ _ _ _ _ _ _ _ _ R W2 Hq ltac:(lia) (not_deadline _ _ R2) Hj eq_refl Hz eq_refl). lia. }
  destruct (lt_eq_lt_dec i j) as [[H|H]|H]; [|subst; congruence|].
  - destruct (Main i j x1 x2 c1 c2 b1 b2 p1 p2) as (z & c & rq & q & Hz & Fz & Hq & E & B); try done. exists z, c, rq, q. eauto 10.
  - destruct (Main j i x2 x1 c2 c1 b2 b1 p2 p1) as (z & c & rq & q & Hz & Fz & Hq & E & B); try done. exists z, c, rq, q. eauto 10.
Qed.
End sections.

(** ** examples *)
Definition guarded : list action :=
  whole 1 7 (frame ["SADD"; "lock"; "t"]) ++ whole 2 8 (frame ["SADD"; "lock"; "t"]) ++ whole 3 7 (frame ["SREM"; "lock"; "t"]) ++ whole 4 8 (frame ["SADD"; "lock"; "t"]).
Definition guarded_calls : list call := [Call 1 c0 ["SADD"; "lock"; "t"]; Call 2 c0 ["SADD"; "lock"; "t"]; Call 3 c0 ["SREM"; "lock"; "t"]; Call 4 c0 ["SADD"; "lock"; "t"]].
Lemma guarded_is : calls (trace guarded) = guarded_calls.
Proof. by vm_compute. Qed.
Ltac each H := repeat (apply elem_of_cons in H as [->|H]); [..|by apply elem_of_nil in H].
Lemma guarded_release z : z ∈ guarded_calls → frees "lock" "t" (what z) = true → z = Call 3 c0 ["SREM"; "lock"; "t"].
Proof. intros H. unfold guarded_calls in H. each H; vm_compute; congruence. Qed.
(** requests 1 and 4 are told that they have the lock; request 3 is the release of request 1: all hypotheses of the theorem *)
Example C96_demo : runs ext0 1000 8 (trace guarded) (final guarded) ∧
  (∀ x, x ∈ calls (trace guarded) → lock_request "lock" (what x) = true ∧ respects "lock" "t" (what x) = true) ∧
  (∀ z, z ∈ calls (trace guarded) → frees "lock" "t" (what z) = true → ∃ x c b c' f, x ∈ calls (trace guarded) ∧ who x = (λ _, 1%nat) (who z) ∧ takes "lock" "t" (what x) = true ∧ is_reply b (RInt 1) ∧
     before (trace guarded) (LWrite (who x) c b) (LDeliver (who z) c' f)) ∧
  (∀ z z', z ∈ calls (trace guarded) → z' ∈ calls (trace guarded) → frees "lock" "t" (what z) = true → frees "lock" "t" (what z') = true → who z = who z') ∧
  Call 1 c0 ["SADD"; "lock"; "t"] ∈ calls (trace guarded) ∧ Call 4 c0 ["SADD"; "lock"; "t"] ∈ calls (trace guarded) ∧
  LWrite 1 7 (crlf [":1"]) ∈ trace guarded ∧ LWrite 4 8 (crlf [":1"]) ∈ trace guarded ∧ is_reply (crlf [":1"]) (RInt 1).
Proof.
  assert (is_reply (crlf [":1"]) (RInt 1)) as One by (intros more; by vm_compute).
  split; [apply trace_runs; by vm_compute|]. rewrite guarded_is. split; [|split; [|split; [|split; [|split; [|split; [|split]]]]]].
  - intros x H. unfold guarded_calls in H. each H; by vm_compute.
  - intros z H Fz. rewrite (guarded_release z H Fz). exists (Call 1 c0 ["SADD"; "lock"; "t"]), 7%nat, (crlf [":1"]), 7%nat, (frame ["SREM"; "lock"; "t"]).
    split; [by left|]. split; [done|]. split; [by vm_compute|]. split; [done|]. exists 9%nat, 20%nat. split; [lia|]. split; by vm_compute.
  - intros z z' H H' Fz Fz'. by rewrite (guarded_release z H Fz), (guarded_release z' H' Fz').
  - by left.
  - by do 3 right; left.
  - apply elem_of_list_lookup. exists 9%nat. by vm_compute.
  - apply elem_of_list_lookup. exists 39%nat. by vm_compute.
  - done.
Qed.
(** Who removes the token without having the lock breaks it: both clients are told that they have it, and neither has released it. *)
Definition intruder : list action :=
  whole 1 7 (frame ["SADD"; "lock"; "t"]) ++ whole 2 8 (frame ["SREM"; "lock"; "t"]) ++ whole 3 8 (frame ["SADD"; "lock"; "t"]).
Theorem C96_not_owner_refuted : runs ext0 1000 8 (trace intruder) (final intruder) ∧
  got intruder = [(1%nat, crlf [":1"]); (2%nat, crlf [":1"]); (3%nat, crlf [":1"])] ∧
  forallb (λ x, lock_request "lock" (what x) && respects "lock" "t" (what x)) (calls (trace intruder)) = true.
Proof. split; [apply trace_runs; by vm_compute|]. split; by vm_compute. Qed.
(** A release sent without waiting for the answer may be executed before the taking that it belongs to: the lock is then never free again. *)
Definition impatient : list action :=
  [ADeliver 1 7 (frame ["SADD"; "lock"; "t"]); ADeliver 2 7 (frame ["SREM"; "lock"; "t"]); ADecode 1; ADecode 2; AAdd 2] ++ serve 2 ++ [ADone 2; AWrite 2; AAdd 1] ++ serve 1 ++ [ADone 1; AWrite 1] ++
  whole 3 8 (frame ["SADD"; "lock"; "t"]).
Theorem C96_impatient_refuted : runs ext0 1000 8 (trace impatient) (final impatient) ∧
  got impatient = [(2%nat, crlf [":0"]); (1%nat, crlf [":1"]); (3%nat, crlf [":0"])].
Proof. split; [apply trace_runs; by vm_compute|]. by vm_compute. Qed.
