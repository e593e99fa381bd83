(** C98: acknowledged APPENDs stand in the log in the order of acknowledgement, and later readers see them. *)
From Verif Require Import GoBase GoBaseProofs ShardMap Float64 Float64Proofs Db Protocol Redis Obs SpecCmd SpecResp SpecServer SpecFrame SpecKey KeyHist
  DbInv ExecSteps Sim SimSet SimMain PropBase KeyIs Examples P_Keys P_Sets P_Strings P_Life Server1Proofs Server1More Server1Err
  SpecCommute SpecUse P_Server SpecWire SpecStream Stream Server SpecServing ServerProofs P_Serve Server1 SpecServing1 Drive1 P_Serve1 Drive P_ServeMore P_Use P_Use3 P_Use4 P_Use5 P_Use6 P_Real1 P_Mono P_Acked.

Lemma asked_app (l1 l2 : list exchange) : asked_in (l1 ++ l2) = asked_in l1 ++ asked_in l2.
Proof. unfold asked_in. by rewrite !fmap_app. Qed.
Section logged.
Context (ext : Ext) (k : string).
(** a GET is answered with all records before it *)
Lemma get_told s d0 l x d : reachable ext d0 → string_at ext d0 k s → Forall (λ req, log_request k req = true) (asked_in (l ++ [x])) →
  talk ext (l ++ [x]).*1 d0 = Ret (d, (l ++ [x]).*2) → asks_for "get" k x.1.2 = true → (∃ y, y ∈ l ∧ asks_for "append" k y.1.2 = true) →
  x.2 = Some (RBulk (default "" s +:+ records k l)).
Proof.
  intros Hr Hs F H Ax (z & Hz & Az). apply talk_prefix in H as (d1 & H1 & H2).
  unfold asked_in in F. rewrite !fmap_app in F. apply Forall_app in F as [F Fx]. cbn in Fx. apply Forall_cons in Fx as [Fq _].
  destruct (log_conversation k (default "" s) s l eq_refl F) as [W C].
  destruct (C16_string_variable ext d0 k s l.*1 d1 l.*2 Hr Hs H1 W) as (s' & Cs & S'). pose proof (C s' Cs) as I.
  destruct x as [[c req] r0]. cbn [fst snd] in *. assert (about k req = true) as Ea by (by apply (asked_about _ _ _ Ax)).
  destruct (log_step k _ l req s' Fq Ea I) as (r & s2 & Hs2 & _ & _ & T).
  assert (reachable ext d1) as Hr1.
  { destruct Hr as (h0 & rs0 & H0). exists (h0 ++ l.*1), (rs0 ++ l.*2). by rewrite talk_app, H0; cbn [obind]; rewrite H1. }
  destruct (C16_string_variable ext d1 k s' [(c, req)] d [r0] Hr1 S' H2) as (s3 & C3 & _).
  { cbn. rewrite Ea, Hs2. done. }
  inversion C3 as [|? ? R0 r1 s1 ? ? ? Ea' Es HR C'|? ? ? ? ? ? Ea' C']; subst; [|cbn in Ea'; congruence].
  rewrite Hs2 in Es. injection Es as <-. destruct HR as [-> _]. rewrite (T Ax); [done|]. destruct I as [_ I2]. apply I2. unfold appended. apply existsb_exists. exists z. split; [by apply elem_of_list_In|done].
Qed.
Lemma got_found l d i j x y n w : talk ext l.*1 db_new = Ret (d, l.*2) → Forall (λ req, log_request k req = true) (asked_in l) →
  l !! i = Some x → l !! j = Some y → (i < j)%nat → asks_for "append" k x.1.2 = true → asks_for "get" k y.1.2 = true → x.2 = Some (RInt n) → y.2 = Some (RBulk w) →
  found_at (n - slen (record k x.1.2)) (record k x.1.2) w.
Proof.
  intros H F Hi Hj Hij Ax Ay Rx Ry. assert (reachable ext db_new) as Hr by (by exists [], []). assert (string_at ext db_new k None) as S0 by apply db_new_absent.
  assert (l = (take j l ++ [y]) ++ drop (S j) l) as El by (rewrite <- app_assoc; cbn; by rewrite take_drop_middle).
  assert (take j l !! i = Some x) as Hi' by (rewrite lookup_take; done).
  rewrite El in H, F. apply talk_prefix in H as (d1 & H & _). rewrite asked_app in F. apply Forall_app in F as [F _].
  pose proof (get_told None db_new _ y d1 Hr S0 F H Ay ltac:(exists x; split; [by eapply elem_of_list_lookup_2|done])) as T. rewrite Ry in T. injection T as ->.
  set (p := take j l) in *. clearbody p. apply talk_prefix in H as (d2 & H & _). rewrite asked_app in F. apply Forall_app in F as [F _].
  assert (p = (take i p ++ [x]) ++ drop (S i) p) as Ep by (rewrite <- app_assoc; cbn; by rewrite take_drop_middle).
  rewrite Ep in H, F. apply talk_prefix in H as (d3 & H & _). rewrite asked_app in F. apply Forall_app in F as [F _].
  pose proof (C81_told ext k None db_new _ x d3 Hr S0 F H Ax) as T. rewrite Rx in T. injection T as ->.
  exists (records k (take i p)), (records k (drop (S i) p)). split.
  - rewrite Ep at 1. rewrite !records_app, records_one. by rewrite !app_assoc_s.
  - change (default "" None) with "". rewrite !sapp_nil_l, records_app, records_one, !slen_app. lia.
Qed.
Lemma service_logged h got d i j x y b1 b2 n : service ext h got d → (∀ y, y ∈ h → log_request k (what y) = true) →
  (i < j)%nat → h !! i = Some x → h !! j = Some y → got x b1 → got y b2 → asks_for "append" k (what x) = true → is_reply b1 (RInt n) →
  (∀ m, asks_for "append" k (what y) = true → is_reply b2 (RInt m) → n ≤ m - slen (record k (what y))) ∧
  (∀ w, asks_for "get" k (what y) = true → is_reply b2 (RBulk w) → found_at (n - slen (record k (what x))) (record k (what x)) w).
Proof.
  intros (rs & T & L & N & Hc) Q Hij Hx Hy Gx Gy Ax Rx. apply spoken_talk in T.
  assert (∀ i j x, h !! i = Some x → h !! j = Some x → i = j) as U by (intros i' j' z X Y; eapply (NoDup_lookup (who <$> h)); [exact N|by rewrite list_lookup_fmap, X|by rewrite list_lookup_fmap, Y]).
  assert (Forall (λ req, log_request k req = true) (asked_in (spoken h rs))) as F.
  { rewrite spoken_asked by done. apply Forall_forall. intros req (z & -> & Hz)%elem_of_list_fmap. by apply Q. }
  assert (reachable ext db_new) as Hr by (by exists [], []). assert (string_at ext db_new k None) as S0 by apply db_new_absent.
  destruct (Hc x b1 _ ltac:(by eapply elem_of_list_lookup_2) Gx Rx) as [->|(i' & Hi & Si)]; [by destruct (not_deadline _ _ Rx)|]. rewrite (U _ _ _ Hi Hx) in Si. split.
  - intros m Ay Ry. destruct (Hc y b2 _ ltac:(by eapply elem_of_list_lookup_2) Gy Ry) as [->|(j' & Hj & Sj)]; [by destruct (not_deadline _ _ Ry)|]. rewrite (U _ _ _ Hj Hy) in Sj.
    by apply (C81_apart ext k None db_new _ _ i j _ _ n m Hr S0 F T Si Sj).
  - intros w Ay Ry. destruct (Hc y b2 _ ltac:(by eapply elem_of_list_lookup_2) Gy Ry) as [->|(j' & Hj & Sj)].
    { exfalso. specialize (Ry ""). vm_compute in Ry. discriminate Ry. }
    rewrite (U _ _ _ Hj Hy) in Sj. by apply (got_found _ _ i j _ _ n w T F Si Sj).
Qed.
(** On the gnet server: if an APPEND was answered before another request was sent - on whatever connections -, an APPEND among
    the two is told a place after the first record's, and a GET shows the first record at its place. *)
Theorem C98_logged max ps tr s x y c1 b1 c2 f c2' b2 n : runs ext max ps tr s → (∀ y, y ∈ calls tr → log_request k (what y) = true) →
  before tr (LWrite (who x) c1 b1) (LDeliver (who y) c2 f) → x ∈ calls tr → y ∈ calls tr → LWrite (who y) c2' b2 ∈ tr →
  asks_for "append" k (what x) = true → is_reply b1 (RInt n) →
  (∀ m, asks_for "append" k (what y) = true → is_reply b2 (RInt m) → n ≤ m - slen (record k (what y))) ∧
  (∀ w, asks_for "get" k (what y) = true → is_reply b2 (RBulk w) → found_at (n - slen (record k (what x))) (record k (what x)) w).
Proof.
  intros R Q B Hx Hy W2 Ax Rx. apply elem_of_list_lookup in Hx as [i Hx], Hy as [j Hy].
  pose proof (C08_real_time _ _ _ _ _ _ _ _ _ _ _ _ _ _ _ R B (not_deadline _ _ Rx) Hx eq_refl Hy eq_refl) as Hij.
  apply (service_logged _ _ _ i j x y b1 b2 n (service2 _ _ _ _ _ R) Q Hij Hx Hy); [|by exists c2'|done|done].
  destruct B as (p & q & _ & Hp & _). exists c1. by eapply elem_of_list_lookup_2.
Qed.
(** On the first server, with the second request being taken in place of being sent. *)
Theorem C98_logged1 max tr s x y p q c1 b1 c2 rq m2 c2' b2 n : runs1 ext max tr s → (∀ y, y ∈ calls1 tr → log_request k (what y) = true) →
  tr !! p = Some (VWrite c1 (who x) b1) → tr !! q = Some (VStart c2 (who y) rq) → (p < q)%nat → x ∈ calls1 tr → y ∈ calls1 tr → written c2' tr !! m2 = Some (who y, b2) →
  asks_for "append" k (what x) = true → is_reply b1 (RInt n) →
  (∀ m, asks_for "append" k (what y) = true → is_reply b2 (RInt m) → n ≤ m - slen (record k (what y))) ∧
  (∀ w, asks_for "get" k (what y) = true → is_reply b2 (RBulk w) → found_at (n - slen (record k (what x))) (record k (what x)) w).
Proof.
  intros R Q Hp Hq Hpq Hx Hy W2 Ax Rx. apply elem_of_list_lookup in Hx as [i Hx], Hy as [j Hy].
  pose proof (C91_real_time _ _ _ _ _ _ _ _ _ _ _ _ _ _ _ _ R Hp Hq Hpq (not_deadline _ _ Rx) Hx eq_refl Hy eq_refl) as Hij.
  apply (service_logged _ _ _ i j x y b1 b2 n (service1 _ _ _ _ R) Q Hij Hx Hy); [|by exists c2', m2|done|done].
  pose proof (written_here _ _ _ _ (elem_of_list_lookup_2 _ _ _ Hp)) as [m Hm]%elem_of_list_lookup. by exists c1, m.
Qed.
End logged.

(** ** examples *)
Definition diary : list action :=
  whole 1 7 (frame ["APPEND"; "log"; "one;"]) ++ whole 2 8 (frame ["APPEND"; "log"; "two;"]) ++ whole 3 8 (frame ["GET"; "log"]).
Example C98_demo : runs ext0 1000 8 (trace diary) (final diary) ∧ got diary = [(1%nat, crlf [":4"]); (2%nat, crlf [":8"]); (3%nat, crlf ["$8"; "one;two;"])] ∧
  forallb (λ x, log_request "log" (what x)) (calls (trace diary)) = true.
Proof. split; [apply trace_runs; by vm_compute|]. split; by vm_compute. Qed.
(** A client that does not wait for the answer may find its second record before its first. *)
Definition hasty_diary : list action :=
  [ADeliver 1 7 (frame ["APPEND"; "log"; "one;"]); ADeliver 2 7 (frame ["APPEND"; "log"; "two;"]); ADecode 1; ADecode 2; AAdd 2] ++ serve 2 ++ [ADone 2; AWrite 2; AAdd 1] ++ serve 1 ++ [ADone 1; AWrite 1] ++
  whole 3 8 (frame ["GET"; "log"]).
Theorem C98_pipelined_refuted : runs ext0 1000 8 (trace hasty_diary) (final hasty_diary) ∧
  got hasty_diary = [(2%nat, crlf [":4"]); (1%nat, crlf [":8"]); (3%nat, crlf ["$8"; "two;one;"])].
Proof. split; [apply trace_runs; by vm_compute|]. by vm_compute. Qed.
