(** C95: clients of a queue see one queue: what was put in first comes out first, in real time. *)
From Verif Require Import GoBase GoBaseProofs ShardMap Float64 Float64Proofs Db Protocol Redis Obs SpecCmd SpecResp SpecServer SpecFrame SpecKey KeyHist
  DbInv ExecSteps Sim SimSet SimMain PropBase KeyIs Examples P_Keys P_Sets P_Strings P_Life Server1Proofs Server1More Server1Err
  SpecCommute SpecUse P_Server SpecWire SpecStream Stream Server SpecServing ServerProofs P_Serve Server1 SpecServing1 Drive1 P_Serve1 Drive P_ServeMore P_Use P_Use3 P_Use4 P_Use5 P_Use6 P_Real1 P_Mono P_Acked.

Definition earlier {A} (u v : A) (l : list A) : Prop := ∃ i j, (i < j)%nat ∧ l !! i = Some u ∧ l !! j = Some v.
Lemma earlier_asym {A} (u v : A) l : NoDup l → earlier u v l → ¬ earlier v u l.
Proof.
  intros N (i & j & Hij & Hi & Hj) (i' & j' & Hij' & Hi' & Hj'). pose proof (NoDup_lookup _ _ _ _ N Hi Hj'). pose proof (NoDup_lookup _ _ _ _ N Hj Hi'). lia.
Qed.
Lemma earlier_app {A} (u v : A) l r : earlier u v l → earlier u v (l ++ r).
Proof. intros (i & j & Hij & Hi & Hj). exists i, j. split; [done|]. split; by apply lookup_app_l_Some. Qed.
Lemma earlier_concat {A} (L : list (list A)) i j a b u v : (i < j)%nat → L !! i = Some a → L !! j = Some b → u ∈ a → v ∈ b → earlier u v (concat L).
Proof.
  intros Hij Hi Hj Hu Hv. assert (concat L = concat (take j L) ++ b ++ concat (drop (S j) L)) as E.
  { rewrite <- (take_drop_middle L j b Hj) at 1. by rewrite concat_app. }
  assert (u ∈ concat (take j L)) as Hu'. { apply elem_of_list_In, in_concat. exists a. split; apply elem_of_list_In; [|done]. apply elem_of_list_lookup. exists i. by rewrite lookup_take. }
  apply elem_of_list_lookup in Hu' as [m Hm]. apply elem_of_list_lookup in Hv as [n Hn].
  exists m, (length (concat (take j L)) + n)%nat. pose proof (lookup_lt_Some _ _ _ Hm). split; [lia|]. rewrite E. split; [by apply lookup_app_l_Some|].
  rewrite lookup_app_r by lia. rewrite Nat.add_comm, Nat.add_sub. by apply lookup_app_l_Some.
Qed.
Section fifo.
Context (ext : Ext) (push pop k : string).
Lemma service_fifo h got d iu iv ju jv xu xv yu yv bu bv ru rv u v : service ext h got d → (push, pop) ∈ queue_ends →
  (∀ x, x ∈ h → queue_request push pop k (what x) = true) → NoDup (pushed push k h) →
  (iu < iv)%nat → h !! iu = Some xu → h !! iv = Some xv → asks_for push k (what xu) = true → asks_for push k (what xv) = true → u ∈ values (what xu) → v ∈ values (what xv) →
  h !! ju = Some yu → h !! jv = Some yv → asks_for pop k (what yu) = true → asks_for pop k (what yv) = true → got yu bu → got yv bv →
  is_reply bu ru → is_reply bv rv → u ∈ texts (Some ru) → v ∈ texts (Some rv) → ¬ (jv < ju)%nat.
Proof.
  intros Sv Hends Q ND Hlt Hxu Hxv Au Av Hu Hv Hyu Hyv Pu Pv Gu Gv Ru Rv Tu Tv Hj. destruct Sv as (rs & T & L & N & Hc). apply spoken_talk in T.
  assert (Forall (λ req, queue_request push pop k req = true) (asked_in (spoken h rs))) as F.
  { rewrite spoken_asked by done. apply Forall_forall. intros req (x & -> & Hx)%elem_of_list_fmap. by apply Q. }
  assert (reachable ext db_new) as Hr by (by exists [], []). assert (answers ext db_new ["EXISTS"; k] (RInt 0)) as Ha by apply db_new_absent.
  destruct (C78_queue ext push pop k db_new _ _ Hends Hr Ha F T) as (w & Hp & _). rewrite pushed_put_in in Hp by done.
  assert (∀ j y b r t, h !! j = Some y → got y b → is_reply b r → t ∈ texts (Some r) → spoken h rs !! j = Some (how y, what y, Some r)) as At.
  { intros j y b r t Hy G Hb Ht. destruct (Hc y b r ltac:(by eapply elem_of_list_lookup_2) G Hb) as [->|(i & Hi & Si)]; [rewrite (deadline_texts r Hb) in Ht; by apply elem_of_nil in Ht|].
    assert (i = j) as ->; [|done]. eapply (NoDup_lookup (who <$> h)); [exact N|by rewrite list_lookup_fmap, Hi|by rewrite list_lookup_fmap, Hy]. }
  apply (earlier_asym u v (pushed push k h) ND).
  - eapply (earlier_concat _ iu iv); [done|by rewrite list_lookup_fmap, Hxu|by rewrite list_lookup_fmap, Hxv|by rewrite Au|by rewrite Av].
  - rewrite Hp. apply earlier_app. pose proof (At _ _ _ _ _ Hyu Gu Ru Tu) as Su. pose proof (At _ _ _ _ _ Hyv Gv Rv Tv) as Sw. unfold exchange in *.
    eapply (earlier_concat _ jv ju); [done|by rewrite list_lookup_fmap, Sw|by rewrite list_lookup_fmap, Su|cbn; by rewrite Pv|cbn; by rewrite Pu].
Qed.
(** On the gnet server: if the push of [u] was answered before the push of [v] was sent, then not: the pop that got [v]
    was answered before the pop that got [u] was sent. *)
Theorem C95_fifo max ps tr s xu xv yu yv cu bu' cv fv' bu bv cv2 cu2 fu ru rv u v c3 : runs ext max ps tr s → (push, pop) ∈ queue_ends →
  (∀ x, x ∈ calls tr → queue_request push pop k (what x) = true) → NoDup (pushed push k (calls tr)) →
  xu ∈ calls tr → xv ∈ calls tr → yu ∈ calls tr → yv ∈ calls tr →
  asks_for push k (what xu) = true → u ∈ values (what xu) → asks_for push k (what xv) = true → v ∈ values (what xv) →
  asks_for pop k (what yu) = true → LWrite (who yu) c3 bu ∈ tr → is_reply bu ru → u ∈ texts (Some ru) →
  asks_for pop k (what yv) = true → is_reply bv rv → v ∈ texts (Some rv) →
  before tr (LWrite (who xu) cu bu') (LDeliver (who xv) cv fv') → bu' ≠ deadline_bytes →
  ¬ before tr (LWrite (who yv) cv2 bv) (LDeliver (who yu) cu2 fu).
Proof.
  intros R Hends Q ND Hxu Hxv Hyu Hyv Au Hu Av Hv Pu Wu Ru Tu Pv Rv Tv B1 N1 B2.
  assert (LWrite (who yv) cv2 bv ∈ tr) as Wv by (destruct B2 as (p & q & _ & Hp & _); by eapply elem_of_list_lookup_2).
  assert (bv ≠ deadline_bytes) as N2 by (intros ->; rewrite (deadline_texts rv Rv) in Tv; by apply elem_of_nil in Tv).
  apply elem_of_list_lookup in Hxu as [iu Hxu], Hxv as [iv Hxv], Hyu as [ju Hyu], Hyv as [jv Hyv].
  pose proof (C08_real_time _ _ _ _ _ _ _ _ _ _ _ _ _ _ _ R B1 N1 Hxu eq_refl Hxv eq_refl) as L1.
  pose proof (C08_real_time _ _ _ _ _ _ _ _ _ _ _ _ _ _ _ R B2 N2 Hyv eq_refl Hyu eq_refl) as L2.
  exact (service_fifo _ _ _ iu iv ju jv xu xv yu yv bu bv ru rv u v (service2 _ _ _ _ _ R) Hends Q ND L1 Hxu Hxv Au Av Hu Hv Hyu Hyv Pu Pv (ex_intro _ c3 Wu) (ex_intro _ cv2 Wv) Ru Rv Tu Tv L2).
Qed.
(** On the first server, with the requests being taken in place of being sent. *)
Theorem C95_fifo1 max tr s xu xv yu yv p1 q1 p2 q2 cu bu' cv rqv cu2 rqu cv2 n bu bv ru rv u v : runs1 ext max tr s → (push, pop) ∈ queue_ends →
  (∀ x, x ∈ calls1 tr → queue_request push pop k (what x) = true) → NoDup (pushed push k (calls1 tr)) →
  xu ∈ calls1 tr → xv ∈ calls1 tr → yu ∈ calls1 tr → yv ∈ calls1 tr →
  asks_for push k (what xu) = true → u ∈ values (what xu) → asks_for push k (what xv) = true → v ∈ values (what xv) →
  asks_for pop k (what yu) = true → written cu2 tr !! n = Some (who yu, bu) → is_reply bu ru → u ∈ texts (Some ru) →
  asks_for pop k (what yv) = true → is_reply bv rv → v ∈ texts (Some rv) →
  tr !! p1 = Some (VWrite cu (who xu) bu') → tr !! q1 = Some (VStart cv (who xv) rqv) → (p1 < q1)%nat → bu' ≠ deadline_bytes →
  tr !! p2 = Some (VWrite cv2 (who yv) bv) → tr !! q2 = Some (VStart cu2 (who yu) rqu) → ¬ (p2 < q2)%nat.
Proof.
  intros R Hends Q ND Hxu Hxv Hyu Hyv Au Hu Av Hv Pu Wu Ru Tu Pv Rv Tv Hp1 Hq1 L1 N1 Hp2 Hq2 L2.
  assert (bv ≠ deadline_bytes) as N2 by (intros ->; rewrite (deadline_texts rv Rv) in Tv; by apply elem_of_nil in Tv).
  pose proof (written_here _ _ _ _ (elem_of_list_lookup_2 _ _ _ Hp2)) as Wv. apply elem_of_list_lookup in Wv as [m Wv].
  apply elem_of_list_lookup in Hxu as [iu Hxu], Hxv as [iv Hxv], Hyu as [ju Hyu], Hyv as [jv Hyv].
  pose proof (C91_real_time _ _ _ _ _ _ _ _ _ _ _ _ _ _ _ _ R Hp1 Hq1 L1 N1 Hxu eq_refl Hxv eq_refl) as K1.
  pose proof (C91_real_time _ _ _ _ _ _ _ _ _ _ _ _ _ _ _ _ R Hp2 Hq2 L2 N2 Hyv eq_refl Hyu eq_refl) as K2.
  exact (service_fifo _ _ _ iu iv ju jv xu xv yu yv bu bv ru rv u v (service1 _ _ _ _ R) Hends Q ND K1 Hxu Hxv Au Av Hu Hv Hyu Hyv Pu Pv
    (ex_intro _ cu2 (ex_intro _ n Wu)) (ex_intro _ cv2 (ex_intro _ m Wv)) Ru Rv Tu Tv K2).
Qed.
End fifo.

(** ** examples *)
Definition two_jobs : list action :=
  whole 1 7 (frame ["LPUSH"; "l"; "u"]) ++ whole 2 8 (frame ["LPUSH"; "l"; "v"]) ++ whole 3 8 (frame ["RPOP"; "l"]) ++ whole 4 7 (frame ["RPOP"; "l"]).
Example C95_demo : runs ext0 1000 8 (trace two_jobs) (final two_jobs) ∧
  got two_jobs = [(1%nat, crlf [":1"]); (2%nat, crlf [":2"]); (3%nat, crlf ["*1"; "$1"; "u"]); (4%nat, crlf ["*1"; "$1"; "v"])] ∧
  forallb (λ x, queue_request "lpush" "rpop" "l" (what x)) (calls (trace two_jobs)) = true ∧ pushed "lpush" "l" (calls (trace two_jobs)) = ["u"; "v"].
Proof. split; [apply trace_runs; by vm_compute|]. split; [by vm_compute|]. split; by vm_compute. Qed.
(** The producer has to wait for the answer: on the gnet server, of two pushes sent on one connection without waiting, the second
    may be executed, and its value handed out, first. *)
Definition hasty_producer : list action :=
  [ADeliver 1 7 (frame ["LPUSH"; "l"; "u"]); ADeliver 2 7 (frame ["LPUSH"; "l"; "v"]); ADecode 1; ADecode 2; AAdd 2] ++ serve 2 ++ [ADone 2; AWrite 2; AAdd 1] ++ serve 1 ++ [ADone 1; AWrite 1] ++
  whole 3 8 (frame ["RPOP"; "l"]) ++ whole 4 8 (frame ["RPOP"; "l"]).
Theorem C95_pipelined_refuted : runs ext0 1000 8 (trace hasty_producer) (final hasty_producer) ∧
  got hasty_producer = [(2%nat, crlf [":1"]); (1%nat, crlf [":2"]); (3%nat, crlf ["*1"; "$1"; "v"]); (4%nat, crlf ["*1"; "$1"; "u"])] ∧
  forallb (λ x, queue_request "lpush" "rpop" "l" (what x)) (calls (trace hasty_producer)) = true.
Proof. split; [apply trace_runs; by vm_compute|]. split; by vm_compute. Qed.
(** With the other kind of pop it is a stack: the value pushed last is handed out first. *)
Definition stacked : list action :=
  whole 1 7 (frame ["LPUSH"; "l"; "u"]) ++ whole 2 8 (frame ["LPUSH"; "l"; "v"]) ++ whole 3 8 (frame ["LPOP"; "l"]) ++ whole 4 7 (frame ["LPOP"; "l"]).
Theorem C95_stack_refuted : runs ext0 1000 8 (trace stacked) (final stacked) ∧
  got stacked = [(1%nat, crlf [":1"]); (2%nat, crlf [":2"]); (3%nat, crlf ["*1"; "$1"; "v"]); (4%nat, crlf ["*1"; "$1"; "u"])].
Proof. split; [apply trace_runs; by vm_compute|]. by vm_compute. Qed.
