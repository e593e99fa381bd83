(** C88, C89: a counter that adds up amounts, a set that recognises what it has seen. *)
From Verif Require Import GoBase GoBaseProofs ShardMap Float64 Float64Proofs Db Protocol Redis Obs SpecCmd SpecResp SpecServer SpecFrame SpecKey KeyHist
  DbInv ExecSteps Sim SimSet SimMain PropBase KeyIs Examples P_Keys P_Sets P_Life
  SpecCommute SpecUse SpecTotal P_Server SpecWire SpecStream Stream Server SpecServing ServerProofs P_Serve Server1 SpecServing1 Drive1 P_Serve1 Drive P_ServeMore P_Use P_Use4 P_Use5.

(** An invariant of the abstract server along a conversation. *)
Section along.
Context (ext : Ext) (Q : list string → Prop) (Inv : kspace → list exchange → Prop) (A : list exchange → list string → option resp → Prop).
Context (step : ∀ m l c req r m1, Q req → Inv m l → sstep ext true m req r m1 → Inv m1 (l ++ [(c, req, r)]) ∧ A l req r).
Lemma along_talk l : ∀ pre d m d', sim d m → Inv m pre → Forall Q (asked_in l) → talk ext l.*1 d = Ret (d', l.*2) →
  ∃ m', sim d' m' ∧ Inv m' (pre ++ l) ∧ ∀ i x, l !! i = Some x → A (pre ++ take i l) x.1.2 x.2.
Proof.
  induction l as [|[[c req] r] l IH]; intros pre d m d' S I F H.
  { cbn in H. injection H as <-. exists m. rewrite app_nil_r. by split_and!. }
  unfold asked_in in F. rewrite !fmap_cons in F. apply Forall_cons in F as [Hq F]. cbn [fst snd] in Hq.
  change ((c, req, r) :: l) with ([(c, req, r)] ++ l) in H. apply talk_prefix in H as (d1 & H1 & H2).
  destruct (talk_behaves_any ext _ d m d1 _ S H1) as (m1 & B & S1).
  cbn in B. inversion B as [|? ? ? m2 ? ? ? V B1]; subst. inversion B1; subst.
  destruct (step m pre c req r m1 Hq I V) as [I1 A1].
  destruct (IH _ d1 m1 d' S1 I1 F H2) as (m' & S' & I' & A'). exists m'. split; [done|]. rewrite <- app_assoc in I'. split; [exact I'|].
  intros [|i] x Hi.
  - injection Hi as <-. cbn [fst snd take]. by rewrite app_nil_r.
  - pose proof (A' i x Hi) as Ax. rewrite <- app_assoc in Ax. exact Ax.
Qed.
Lemma along_service h got d : service ext h got d → Forall (λ y, Q (what y)) h → Inv ∅ [] →
  ∃ rs m, length rs = length h ∧ sim d m ∧ Inv m (spoken h rs) ∧ (∀ i x, h !! i = Some x → ∃ r, A (take i (spoken h rs)) (what x) r) ∧ NoDup (who <$> h) ∧
  ∀ x b v, x ∈ h → got x b → is_reply b v → b = deadline_bytes ∨ ∃ i, h !! i = Some x ∧ A (take i (spoken h rs)) (what x) (Some v).
Proof.
  intros (rs & T & L & N & Hc) F I. apply spoken_talk in T.
  destruct (along_talk (spoken h rs) [] db_new ∅ d sim_new I) as (m & S & I' & Hi); [rewrite spoken_asked by done; by apply Forall_fmap|done|].
  cbn [app] in *. exists rs, m. split_and!; [done..| |done|].
  - intros i x Hx. destruct (lookup_lt_is_Some_2 rs i) as [r Hr]; [rewrite L; by eapply lookup_lt_Some|]. exists r. apply (Hi i _ (spoken_at h rs i x r Hx Hr)).
  - intros x b v Hx Gx Hb. destruct (Hc x b v Hx Gx Hb) as [->|(i & E & Si)]; [by left|right]. exists i. split; [done|]. apply (Hi i _ Si).
Qed.
End along.
Lemma asks_any_name names k req : asks_for_any names k req = true → ∃ n a, req = n :: k :: a ∧ to_lower n ∈ names.
Proof. apply asks_for_any_spec. Qed.

(** ** C88 *)
Section counter.
Context (ext : Ext) (k : string).
Definition counter_val (p : list Z) : option aval := match p with [] => None | _ => Some (AStr (itoa (total p))) end.
Definition counter_at (m : kspace) (l : list exchange) : Prop := m !! k = counter_val (amounts k l).
Lemma total_snoc p n : total (p ++ [n]) = wrap64 (total p + n).
Proof.
  unfold total. rewrite wrap64_add_l. f_equal. unfold sum. rewrite foldr_app. cbn [foldr]. rewrite Z.add_0_r.
  induction p as [|x p IH]; cbn [foldr]; [lia|]. rewrite IH. lia.
Qed.
Lemma total_fits p : - two63 ≤ total p < two63.
Proof. apply wrap64_range. Qed.
Lemma amount_named n a : amount k (n :: k :: a) =
  if String.eqb (to_lower n) "incr" then Some 1 else if String.eqb (to_lower n) "decr" then Some (-1)
  else if String.eqb (to_lower n) "incrby" then match a with v :: _ => parse_int v | [] => None end
  else if String.eqb (to_lower n) "decrby" then match a with v :: _ => Z.opp <$> parse_int v | [] => None end else None.
Proof. unfold amount. rewrite !asks_for_name. done. Qed.
Lemma add_to_step m p n w : m !! k = counter_val p → wrap64 w = wrap64 n →
  (p = [] → w = wrap64 n) → add_to k w m = says (RInt (total (p ++ [n]))) (<[k := AStr (itoa (total (p ++ [n])))]> m).
Proof.
  intros E Hw H0. unfold add_to. rewrite E. unfold counter_val. destruct p as [|x p].
  - cbn [app]. rewrite (H0 eq_refl). assert (total [n] = wrap64 n) as ->; [|done]. unfold total, sum. cbn [foldr]. by rewrite Z.add_0_r.
  - rewrite parse_int_itoa by apply total_fits. rewrite total_snoc. rewrite <- (wrap64_add_r _ w), Hw, wrap64_add_r. done.
Qed.
Lemma not_drawing n a (l : list string) : to_lower n ∈ l → forallb (λ x, negb (bool_decide (x = "zadd" ∨ x = "zincr"))) l = true → ¬ drawing (n :: a).
Proof.
  intros Hn F D. rewrite forallb_forall in F. specialize (F _ (proj1 (elem_of_list_In _ _) Hn)). by rewrite bool_decide_eq_true_2 in F.
Qed.
Lemma sstep_calm u m req r m1 : sstep ext u m req r m1 → ¬ drawing req → v_does (spec ext req m) r m1.
Proof. intros [V|(_ & D & _)] N; [exact V|by destruct N]. Qed.
Lemma amounts_snoc l x : amounts k (l ++ [x]) = amounts k l ++ match amount k x.1.2 with Some n => [n] | None => [] end.
Proof. unfold amounts. rewrite omap_app. cbn [omap list_omap]. by destruct (amount k x.1.2). Qed.
Lemma counter_same m m1 l x : amount k x.1.2 = None → m1 !! k = m !! k → counter_at m l → counter_at m1 (l ++ [x]).
Proof. unfold counter_at. intros N E C. by rewrite amounts_snoc, N, app_nil_r, E. Qed.
Lemma parse_fits v n : parse_int v = Some n → wrap64 n = n.
Proof. intros H. apply wrap64_small. by apply parse_int_range in H. Qed.
Lemma amount_untouched req n : amount k req = Some n → k ∈ touched req.
Proof.
  intros H. assert (asks_for_any ["incr"; "decr"; "incrby"; "decrby"] k req = true) as (m & a & -> & Hm)%asks_for_any_spec.
  { unfold amount in H. unfold asks_for_any. cbn [existsb]. repeat (destruct (asks_for _ k req); [by rewrite ?orb_true_r|]). done. }
  unfold touched, writes. apply elem_of_app. left.
  repeat (apply elem_of_cons in Hm as [Hm|Hm]; [rewrite Hm; by left|]). by apply elem_of_nil in Hm.
Qed.
Lemma counter_step m l c req r m1 : total_request k req = true → counter_at m l → sstep ext true m req r m1 →
  counter_at m1 (l ++ [(c, req, r)]) ∧ total_answer k (amounts k l) req r.
Proof.
  intros Hq I St. unfold total_request in Hq. destruct (asks_for_any _ k req) eqn:Ea.
  - apply asks_for_any_spec in Ea as (n & a & -> & Hn). pose proof (sstep_calm _ _ _ _ _ St (not_drawing n (k :: a) _ Hn eq_refl)) as V. clear St.
    pose proof (amount_named n a) as Am. unfold total_answer. rewrite asks_for_name. rewrite Am.
    assert (∀ w z, amount k (n :: k :: a) = Some z → wrap64 w = wrap64 z → w = wrap64 w → spec ext (n :: k :: a) m = add_to k w m →
      counter_at m1 (l ++ [(c, n :: k :: a, r)]) ∧ r = Some (RInt (total (amounts k l ++ [z])))) as Add.
    { intros w z Ez Hw Hw2 Es. rewrite Es, (add_to_step m (amounts k l) z w I Hw ltac:(by intros _; rewrite <- Hw)) in V. destruct V as [-> ->]. split; [|done].
      unfold counter_at. rewrite amounts_snoc. cbn [fst snd]. rewrite Ez, lookup_insert. by destruct (amounts k l). }
    assert (amount k (n :: k :: a) = None → (∃ v, spec ext (n :: k :: a) m = says v m) → counter_at m1 (l ++ [(c, n :: k :: a, r)])) as Same.
    { intros Ez [v Es]. rewrite Es in V. destruct V as [-> ->]. by apply (counter_same m). }
    repeat (apply elem_of_cons in Hn as [Hn|Hn]; [rewrite Hn in Am |- *; cbn [String.eqb Ascii.eqb Bool.eqb] in Am |- *|]); [..|by apply elem_of_nil in Hn].
    + destruct (Add 1 1 Am eq_refl eq_refl ltac:(cbn [spec]; rewrite Hn; reflexivity)) as [C ->]. split; [done|]. split; [by intros ? [= <-]|done].
    + destruct (Add (-1) (-1) Am eq_refl eq_refl ltac:(cbn [spec]; rewrite Hn; reflexivity)) as [C ->]. split; [done|]. split; [by intros ? [= <-]|done].
    + destruct a as [|v a]; [split; [|done]; apply Same; [done|]; eexists; cbn [spec]; rewrite Hn; reflexivity|].
      destruct (parse_int v) as [z|] eqn:Ep.
      * destruct (Add z z Am eq_refl ltac:(symmetry; by eapply parse_fits) ltac:(cbn [spec]; rewrite Hn; cbn; by rewrite Ep)) as [C ->]. split; [done|]. split; [by intros ? [= <-]|done].
      * split; [|done]. apply Same; [done|]. eexists. cbn [spec]. rewrite Hn. cbn. rewrite Ep. reflexivity.
    + destruct a as [|v a]; [split; [|done]; apply Same; [done|]; eexists; cbn [spec]; rewrite Hn; reflexivity|].
      destruct (parse_int v) as [z|] eqn:Ep.
      * destruct (Add (wrap64 (- z)) (- z) Am) as [C ->]; [apply wrap64_small, wrap64_range|symmetry; apply wrap64_small, wrap64_range|cbn [spec]; rewrite Hn; cbn; by rewrite Ep|].
        split; [done|]. split; [by intros ? [= <-]|done].
      * split; [|done]. apply Same; [done|]. eexists. cbn [spec]. rewrite Hn. cbn. rewrite Ep. reflexivity.
    + assert (spec ext (n :: k :: a) m = says (total_shown (amounts k l)) m) as Es.
      { cbn [spec]. rewrite Hn. cbn. unfold counter_at in I. rewrite I. by destruct (amounts k l). }
      split; [apply Same; [done|by eexists]|]. split; [done|]. intros _. rewrite Es in V. by destruct V as [-> _].
    + split; [|done]. apply Same; [done|]. eexists. cbn [spec]. rewrite Hn. reflexivity.
    + split; [|done]. apply Same; [done|]. unfold counter_at in I. destruct (amounts k l) eqn:El; eexists; cbn [spec]; rewrite Hn; cbn; rewrite I; reflexivity.
  - cbn [orb] in Hq. apply negb_true_iff, bool_decide_eq_false in Hq. assert (amount k req = None) as Am.
    { destruct (amount k req) eqn:E; [|done]. by apply amount_untouched in E. }
    split; [apply (counter_same m); [done|by eapply sstep_other|done]|]. split; [by rewrite Am|].
    unfold asks_for_any in Ea. cbn [existsb] in Ea. intros G. rewrite G in Ea. by rewrite !orb_true_r in Ea.
Qed.
Lemma counter_get d m l : sim d m → counter_at m l → answers ext d ["GET"; k] (total_shown (amounts k l)).
Proof.
  intros S I. eapply (question ext d m "GET"); [exact S|split; by vm_compute|by vm_compute|]. spc. cbn [s_get]. unfold counter_at in I. rewrite I. by destruct (amounts k l).
Qed.
(** No amount is lost and none is counted twice: the counter is the sum, at every moment. *)
Theorem C88_sum d0 l d : reachable ext d0 → answers ext d0 ["EXISTS"; k] (RInt 0) → Forall (λ req, total_request k req = true) (asked_in l) →
  talk ext l.*1 d0 = Ret (d, l.*2) →
  answers ext d ["GET"; k] (total_shown (amounts k l)) ∧
  ∀ i x, l !! i = Some x → total_answer k (amounts k (take i l)) x.1.2 x.2.
Proof.
  intros Hr Ha F H. apply reachable_inv in Hr as Hi. pose proof (absent_coarse ext d0 k Hi Ha) as E0.
  destruct (along_talk ext _ counter_at (λ p, total_answer k (amounts k p)) counter_step l [] d0 (coarse d0) d (coarse_sim d0 Hi) E0 F H) as (m & S & I & A).
  split; [by eapply counter_get|exact A].
Qed.
Lemma paid_amounts h rs : length rs = length h → amounts k (spoken h rs) = paid k h.
Proof.
  intros L. pose proof (spoken_asked h rs L) as E. unfold amounts, paid. revert E. generalize (spoken h rs). clear. intros l.
  revert h. induction l as [|x l IH]; intros [|y h] E; try done. cbn in E. injection E as E1 E2. cbn [omap list_omap]. rewrite E1. by rewrite (IH h E2).
Qed.
(** Clients: the counter is the sum of all executed amounts; who adds an amount is told the sum up to it. *)
Definition sums_up (h : list call) (got : call → string → Prop) (d : db) : Prop :=
  answers ext d ["GET"; k] (total_shown (paid k h)) ∧
  ∀ x b v, x ∈ h → got x b → is_reply b v → b = deadline_bytes ∨ ∃ i, h !! i = Some x ∧ total_answer k (paid k (take i h)) (what x) (Some v).
Lemma service_sums h got d : service ext h got d → Forall (λ y, total_request k (what y) = true) h → sums_up h got d.
Proof.
  intros Sv F. destruct (along_service ext _ counter_at (λ p, total_answer k (amounts k p)) counter_step h got d Sv F) as (rs & m & L & S & I & _ & _ & A); [done|].
  split.
  - rewrite <- (paid_amounts h rs L). by eapply counter_get.
  - intros x b v Hx Gx Hb. destruct (A x b v Hx Gx Hb) as [->|(i & Hi & Ai)]; [by left|right]. exists i. split; [done|].
    rewrite spoken_take, paid_amounts in Ai by (rewrite !take_length; lia). done.
Qed.
Theorem C88_clients max ps tr s : runs ext max ps tr s → Forall (λ y, total_request k (what y) = true) (calls tr) →
  sums_up (calls tr) (λ x b, ∃ c, LWrite (who x) c b ∈ tr) (c_db s).
Proof. intros R F. apply service_sums; [|done]. exact (service2 _ _ _ _ _ R). Qed.
Theorem C88_clients1 max tr s : runs1 ext max tr s → Forall (λ y, total_request k (what y) = true) (calls1 tr) →
  sums_up (calls1 tr) (λ x b, ∃ j n, written j tr !! n = Some (who x, b)) (c_db (v_pool s)).
Proof. intros R F. apply service_sums; [|done]. exact (service1 _ _ _ _ R). Qed.
End counter.

(** ** C89 *)
Section seen.
Context (ext : Ext) (k : string).
Definition set_val (p : list string) : option aval := match p with [] => None | _ => Some (ASet (list_to_set p) 0) end.
Definition seen_at (m : kspace) (l : list exchange) : Prop := m !! k = set_val (seen_so_far k l).
Lemma distinct_size p : distinct p = Z.of_nat (size (list_to_set p : gset string)).
Proof.
  unfold distinct. f_equal. rewrite <- (size_list_to_set (C := gset string) (remove_dups p)) by apply NoDup_remove_dups. f_equal.
  apply set_eq. intros x. by rewrite !elem_of_list_to_set, elem_of_remove_dups.
Qed.
Lemma gapp (p q : list string) : (list_to_set (p ++ q) : gset string) = list_to_set p ∪ list_to_set q.
Proof. apply set_eq. intros x. rewrite elem_of_union, !elem_of_list_to_set. apply elem_of_app. Qed.
Lemma seen_snoc l x : seen_so_far k (l ++ [x]) = seen_so_far k l ++ seen_in k x.1.2.
Proof. unfold seen_so_far. rewrite fmap_app, concat_app. cbn. by rewrite app_nil_r. Qed.
Lemma seen_same m m1 l x : seen_in k x.1.2 = [] → m1 !! k = m !! k → seen_at m l → seen_at m1 (l ++ [x]).
Proof. unfold seen_at. intros N E C. by rewrite seen_snoc, N, app_nil_r, E. Qed.
Lemma seen_none n a : to_lower n ≠ "sadd" → seen_in k (n :: k :: a) = [].
Proof. intros H. unfold seen_in. rewrite asks_for_name. by destruct (String.eqb_spec (to_lower n) "sadd"). Qed.
Lemma new_size (p vs : list string) : Z.of_nat (size ((list_to_set vs : gset string) ∖ list_to_set p)) = distinct (p ++ vs) - distinct p.
Proof. rewrite !distinct_size, gapp. generalize (list_to_set vs : gset string) (list_to_set p : gset string). intros Y X. rewrite (size_union_alt X Y). lia. Qed.
Lemma seen_step m l c req r m1 : seen_request k req = true → seen_at m l → sstep ext true m req r m1 →
  seen_at m1 (l ++ [(c, req, r)]) ∧ seen_answer k (seen_so_far k l) req r.
Proof.
  intros Hq I St. unfold seen_request in Hq. set (p := seen_so_far k l) in *.
  destruct (asks_for "sadd" k req) eqn:E1; [|destruct (asks_for "sismember" k req) eqn:E2; [|destruct (asks_for_any ["scard"; "exists"; "type"] k req) eqn:E3]].
  - pose proof E1 as (n & a & -> & Hn)%asks_for_spec. assert (a ≠ []) as Na.
    { intros ->. cbn [values drop] in Hq. change (values [n; k]) with (@nil string) in Hq.
      rewrite bool_decide_eq_true_2 in Hq by done. cbn [negb andb orb] in Hq. rewrite andb_false_r in Hq. cbn [orb] in Hq. apply orb_true_iff in Hq as [Hq|Hq].
      - apply asks_for_any_spec in Hq as (n' & a' & [= <- <-] & Hm). rewrite Hn in Hm. repeat (apply elem_of_cons in Hm as [[=]|Hm]). by apply elem_of_nil in Hm.
      - apply negb_true_iff, bool_decide_eq_false in Hq. apply Hq. unfold touched, writes. rewrite Hn. by left. }
    pose proof (sstep_calm _ _ _ _ _ _ St (not_drawing n (k :: a) ["sadd"] ltac:(rewrite Hn; by left) eq_refl)) as V.
    cbn [spec] in V. rewrite Hn in V. cbn in V. destruct a as [|v a]; [done|].
    assert (s_sadd (k :: v :: a) m = says (RInt (distinct (p ++ v :: a) - distinct p)) (<[k := ASet (list_to_set (p ++ v :: a)) 0]> m)) as E.
    { cbn [s_sadd]. unfold add_members. unfold seen_at in I. fold p in I. rewrite I. rewrite <- new_size, gapp.
      unfold set_val. destruct p; done. }
    cbn [s_sadd] in E. rewrite E in V. destruct V as [-> ->]. split.
    + unfold seen_at. rewrite seen_snoc, lookup_insert. cbn [fst snd]. unfold seen_in. rewrite E1. change (values (n :: k :: v :: a)) with (v :: a). fold p.
      unfold set_val. by destruct p.
    + split; [done|]. rewrite !asks_for_name, Hn. split; [done|]. intros ? ? [=].
  - pose proof E2 as (n & a & -> & Hn)%asks_for_spec. assert (to_lower n ≠ "sadd") as N1 by (by rewrite Hn).
    pose proof (sstep_calm _ _ _ _ _ _ St (not_drawing n (k :: a) ["sismember"] ltac:(rewrite Hn; by left) eq_refl)) as V.
    cbn [spec] in V. rewrite Hn in V. cbn in V. destruct a as [|v a].
    + destruct V as [-> ->]. split; [apply (seen_same m); [by apply seen_none|done|done]|]. split; [by rewrite E1|]. rewrite !asks_for_name, Hn. split; [done|]. intros v a _ [=].
    + assert (s_sismember (k :: v :: a) m = says (RInt (if bool_decide (v ∈ p) then 1 else 0)) m) as E.
      { cbn [s_sismember]. unfold seen_at in I. fold p in I. rewrite I. unfold set_val. destruct p as [|q p'] eqn:Ep; [done|].
        rewrite (bool_decide_ext (v ∈ (list_to_set (q :: p') : gset string)) (v ∈ q :: p')) by (by rewrite elem_of_list_to_set). done. }
      cbn [s_sismember] in E. rewrite E in V. destruct V as [-> ->]. split; [apply (seen_same m); [by apply seen_none|done|done]|]. split; [by rewrite E1|].
      split; [rewrite asks_for_name, Hn; done|]. intros v' a' _ [= <- <-]. done.
  - pose proof E3 as (n & a & -> & Hn)%asks_for_any_spec.
    assert (to_lower n ≠ "sadd") as N1. { intros E. rewrite E in Hn. repeat (apply elem_of_cons in Hn as [[=]|Hn]). by apply elem_of_nil in Hn. }
    pose proof (sstep_calm _ _ _ _ _ _ St (not_drawing n (k :: a) _ Hn eq_refl)) as V.
    unfold seen_answer. rewrite E1, E2. rewrite asks_for_name.
    repeat (apply elem_of_cons in Hn as [Hn|Hn]; [cbn [spec] in V; rewrite Hn in V |- *; cbn in V; cbn [String.eqb Ascii.eqb Bool.eqb]|]); [..|by apply elem_of_nil in Hn].
    + unfold seen_at in I. fold p in I. rewrite I in V. assert (r = Some (RInt (distinct p)) ∧ m1 = m) as [-> ->].
      { unfold set_val in V. destruct p as [|q p'] eqn:Ep; [exact V|]. destruct V as [-> ->]. split; [|done]. do 2 f_equal. rewrite distinct_size. unfold counted. lia. }
      split; [apply (seen_same m); [by apply seen_none|done|]; unfold seen_at; by fold p|]. done.
    + destruct V as [-> ->]. split; [apply (seen_same m); [by apply seen_none|done|done]|done].
    + unfold seen_at in I. fold p in I. rewrite I in V. assert (m1 = m) as ->. { unfold set_val in V. destruct p; by destruct V as [_ ->]. }
      split; [apply (seen_same m); [by apply seen_none|done|]; unfold seen_at; by fold p|done].
  - cbn [andb orb] in Hq. apply negb_true_iff, bool_decide_eq_false in Hq.
    split; [apply (seen_same m); [cbn [fst snd]; unfold seen_in; by rewrite E1|by eapply sstep_other|done]|]. split; [by rewrite E1|]. split; [|by rewrite E2].
    unfold asks_for_any in E3. cbn [existsb] in E3. by destruct (asks_for "scard" k req).
Qed.
(** what a client sees of the set *)
Definition shows_seen (d : db) (p : list string) : Prop :=
  answers ext d ["SCARD"; k] (RInt (distinct p)) ∧ ∀ v, answers ext d ["SISMEMBER"; k; v] (RInt (if bool_decide (v ∈ p) then 1 else 0)).
Lemma seen_shown d m l : sim d m → seen_at m l → shows_seen d (seen_so_far k l).
Proof.
  intros S I. unfold seen_at in I. split.
  - eapply (question ext d m "SCARD"); [exact S|split; by vm_compute|by vm_compute|]. spc. cbn [s_scard]. rewrite I. unfold set_val.
    destruct (seen_so_far k l) as [|q p]; [done|]. do 2 f_equal. rewrite distinct_size. unfold counted. lia.
  - intros v. eapply (question ext d m "SISMEMBER"); [exact S|split; by vm_compute|by vm_compute|]. spc. cbn [s_sismember]. rewrite I. unfold set_val.
    destruct (seen_so_far k l) as [|q p]; [done|]. rewrite (bool_decide_ext (v ∈ (list_to_set (q :: p) : gset string)) (v ∈ q :: p)) by (by rewrite elem_of_list_to_set). done.
Qed.
Theorem C89_seen d0 l d : reachable ext d0 → answers ext d0 ["EXISTS"; k] (RInt 0) → Forall (λ req, seen_request k req = true) (asked_in l) →
  talk ext l.*1 d0 = Ret (d, l.*2) →
  shows_seen d (seen_so_far k l) ∧ ∀ i x, l !! i = Some x → seen_answer k (seen_so_far k (take i l)) x.1.2 x.2.
Proof.
  intros Hr Ha F H. apply reachable_inv in Hr as Hi. pose proof (absent_coarse ext d0 k Hi Ha) as E0.
  destruct (along_talk ext _ seen_at (λ p, seen_answer k (seen_so_far k p)) seen_step l [] d0 (coarse d0) d (coarse_sim d0 Hi) E0 F H) as (m & S & I & A).
  split; [by eapply seen_shown|exact A].
Qed.
Lemma announced_seen h rs : length rs = length h → seen_so_far k (spoken h rs) = announced k h.
Proof.
  intros L. pose proof (spoken_asked h rs L) as E. unfold seen_so_far, announced. f_equal. revert E. generalize (spoken h rs). clear. intros l.
  revert h. induction l as [|x l IH]; intros [|y h] E; try done. cbn in E. injection E as E1 E2. rewrite !fmap_cons, E1. f_equal. by apply IH.
Qed.
(** Clients: the set is what was announced; who announces is told how much of it is new; and of all who announce the same
    string only one is told that it is new. *)
Definition recognises (h : list call) (got : call → string → Prop) (d : db) : Prop :=
  shows_seen d (announced k h) ∧
  (∀ x b v, x ∈ h → got x b → is_reply b v → b = deadline_bytes ∨ ∃ i, h !! i = Some x ∧ seen_answer k (announced k (take i h)) (what x) (Some v)) ∧
  (∀ x y b b' v, x ∈ h → y ∈ h → who x ≠ who y → seen_in k (what x) = [v] → seen_in k (what y) = [v] →
    got x b → got y b' → is_reply b (RInt 1) → ¬ is_reply b' (RInt 1)).
Lemma distinct_old p v : v ∈ p → distinct (p ++ [v]) - distinct p = 0.
Proof.
  intros H. rewrite !distinct_size, gapp.
  assert ((list_to_set p : gset string) ∪ list_to_set [v] = list_to_set p) as ->; [|lia]. set_solver.
Qed.
Lemma seen_in_one req v : seen_in k req = [v] → asks_for "sadd" k req = true ∧ values req = [v].
Proof. unfold seen_in. by destruct (asks_for "sadd" k req). Qed.
Lemma service_seen h got d : service ext h got d → Forall (λ y, seen_request k (what y) = true) h → recognises h got d.
Proof.
  intros Sv F. destruct (along_service ext _ seen_at (λ p, seen_answer k (seen_so_far k p)) seen_step h got d Sv F) as (rs & m & L & S & I & _ & N & A); [done|].
  assert (∀ x b v, x ∈ h → got x b → is_reply b v → b = deadline_bytes ∨ ∃ i, h !! i = Some x ∧ seen_answer k (announced k (take i h)) (what x) (Some v)) as A'.
  { intros x b v Hx Gx Hb. destruct (A x b v Hx Gx Hb) as [->|(i & Hi & Ai)]; [by left|right]. exists i. split; [done|].
    rewrite spoken_take, announced_seen in Ai by (rewrite !take_length; lia). done. }
  split; [rewrite <- (announced_seen h rs L); by eapply seen_shown|]. split; [exact A'|].
  assert (∀ i j x y v r, (i < j)%nat → h !! i = Some x → h !! j = Some y → seen_in k (what x) = [v] → seen_in k (what y) = [v] →
    seen_answer k (announced k (take j h)) (what y) (Some r) → r = RInt 0) as Z.
  { intros i j x y v r Hij Hi Hj Sx Sy (Ay & _). destruct (seen_in_one _ _ Sy) as [E1 E2]. specialize (Ay E1). rewrite E2, distinct_old in Ay; [by injection Ay|].
    unfold announced. apply elem_of_list_In, in_concat. exists [v]. split; [|by left]. apply elem_of_list_In, elem_of_list_fmap. exists x. split; [done|].
    apply elem_of_list_lookup. exists i. by rewrite lookup_take. }
  intros x y b b' v Hx Hy Nw Sx Sy Gx Gy Bx By.
  destruct (A' x b _ Hx Gx Bx) as [->|(i & Hi & Ai)]; [by destruct (not_deadline _ _ Bx)|].
  destruct (A' y b' _ Hy Gy By) as [->|(j & Hj & Aj)]; [by destruct (not_deadline _ _ By)|].
  destruct (Nat.lt_total i j) as [Hl|[->|Hl]].
  - by pose proof (Z i j x y v _ Hl Hi Hj Sx Sy Aj).
  - rewrite Hi in Hj. by injection Hj as ->.
  - by pose proof (Z j i y x v _ Hl Hj Hi Sy Sx Ai).
Qed.
Theorem C89_clients max ps tr s : runs ext max ps tr s → Forall (λ y, seen_request k (what y) = true) (calls tr) →
  recognises (calls tr) (λ x b, ∃ c, LWrite (who x) c b ∈ tr) (c_db s).
Proof. intros R F. apply service_seen; [|done]. exact (service2 _ _ _ _ _ R). Qed.
Theorem C89_clients1 max tr s : runs1 ext max tr s → Forall (λ y, seen_request k (what y) = true) (calls1 tr) →
  recognises (calls1 tr) (λ x b, ∃ j n, written j tr !! n = Some (who x, b)) (c_db (v_pool s)).
Proof. intros R F. apply service_seen; [|done]. exact (service1 _ _ _ _ R). Qed.
End seen.

(** ** examples *)
Definition paying : list (list string) :=
  [["GET"; "n"]; ["INCRBY"; "n"; "40"]; ["DECR"; "n"]; ["SET"; "x"; "1"]; ["INCRBY"; "n"; "ten"]; ["decrby"; "n"; "50"]; ["GET"; "n"]; ["INCRBY"; "n"; "9223372036854775807"]; ["INCRBY"; "n"; "12"]].
Example C88_demo : forallb (total_request "n") paying = true ∧ talk ext0 (dialogue paying).*1 db_new = Ret (after paying, (dialogue paying).*2) ∧
  amounts "n" (dialogue paying) = [40; -1; -50; 9223372036854775807; 12] ∧
  (dialogue paying).*2 = Some <$> [RNil; RInt 40; RInt 39; RStatus "OK"; RError (err_msg ErrNotInteger); RInt (-11); RBulk "-11"; RInt 9223372036854775796; RInt (-9223372036854775808)].
Proof. split; [by vm_compute|]. split; [apply dialogue_talk; by exists (default [] (replies paying)); vm_compute|]. split; by vm_compute. Qed.
(** A SET in between throws the amounts away. *)
Theorem C88_set_refuted : replies [["INCRBY"; "n"; "40"]; ["SET"; "n"; "0"]; ["INCRBY"; "n"; "2"]] = Some [Some (RInt 40); Some (RStatus "OK"); Some (RInt 2)].
Proof. by vm_compute. Qed.
Definition tills : list action :=
  whole 1 7 (frame ["INCRBY"; "n"; "5"]) ++ whole 2 8 (frame ["DECRBY"; "n"; "2"]) ++ whole 3 7 (frame ["GET"; "n"]).
Example C88_clients_demo : runs ext0 1000 8 (trace tills) (final tills) ∧ got tills = [(1%nat, crlf [":5"]); (2%nat, crlf [":3"]); (3%nat, crlf ["$1"; "3"])] ∧
  forallb (λ x, total_request "n" (what x)) (calls (trace tills)) = true ∧ paid "n" (calls (trace tills)) = [5; -2].
Proof. split; [apply trace_runs; by vm_compute|]. split; [by vm_compute|]. split; by vm_compute. Qed.
Definition visiting : list (list string) :=
  [["SCARD"; "v"]; ["SADD"; "v"; "a"; "b"; "a"]; ["SADD"; "v"; "b"]; ["SADD"; "w"; "c"]; ["sadd"; "v"; "b"; "c"]; ["SCARD"; "v"]; ["SISMEMBER"; "v"; "c"]; ["SISMEMBER"; "v"; "d"]].
Example C89_demo : forallb (seen_request "v") visiting = true ∧ talk ext0 (dialogue visiting).*1 db_new = Ret (after visiting, (dialogue visiting).*2) ∧
  seen_so_far "v" (dialogue visiting) = ["a"; "b"; "a"; "b"; "b"; "c"] ∧ distinct (seen_so_far "v" (dialogue visiting)) = 3 ∧
  (dialogue visiting).*2 = Some <$> [RInt 0; RInt 2; RInt 0; RInt 1; RInt 1; RInt 3; RInt 1; RInt 0].
Proof. split; [by vm_compute|]. split; [apply dialogue_talk; by exists (default [] (replies visiting)); vm_compute|]. split; [by vm_compute|]. split; by vm_compute. Qed.
(** With SPOP among the requests SCARD counts more than there is (see C25), and what was popped is new again. *)
Theorem C89_pop_refuted : replies [["SADD"; "v"; "a"]; ["SPOP"; "v"; "1"]; ["SCARD"; "v"]; ["SADD"; "v"; "a"]] =
  Some [Some (RInt 1); Some (bulks ["a"]); Some (RInt 1); Some (RInt 1)].
Proof. by vm_compute. Qed.
Definition doors : list action :=
  whole 1 7 (frame ["SADD"; "v"; "m1"]) ++ whole 2 8 (frame ["SADD"; "v"; "m1"]) ++ whole 3 7 (frame ["SCARD"; "v"]).
Example C89_clients_demo : runs ext0 1000 8 (trace doors) (final doors) ∧ got doors = [(1%nat, crlf [":1"]); (2%nat, crlf [":0"]); (3%nat, crlf [":1"])] ∧
  forallb (λ x, seen_request "v" (what x)) (calls (trace doors)) = true ∧ announced "v" (calls (trace doors)) = ["m1"; "m1"].
Proof. split; [apply trace_runs; by vm_compute|]. split; [by vm_compute|]. split; by vm_compute. Qed.
