(** C77: requests that have nothing to do with each other may be executed in either order. *)
From Verif Require Import GoBase GoBaseProofs ShardMap ShardMapProofs Float64 Db Protocol Redis Obs SpecCmd SpecResp SpecServer SpecTenants SpecCommute
  DbInv ExecSteps PropBase Examples P_Keys P_Requests P_Frame Twin P_Tenants KeyOrder.

(** the classes of keys that may hold one set, as a function *)
Definition join (req : list string) (f : string → string) : string → string :=
  match req with
  | [_; dst; src] => if one_source_store req then λ k, if String.eqb (f k) (f dst) then f src else f k else f
  | _ => f
  end.
Fixpoint class (h : list (list string)) : string → string :=
  match h with [] => id | req :: h' => join req (class h') end.
Lemma linked_cons req h k1 k2 : linked h k1 k2 → linked (req :: h) k1 k2.
Proof.
  unfold linked. apply rtc_subrel. intros a b [(n & Hin & Ho)|(n & Hin & Ho)]; [left|right]; exists n; (split; [by right|done]).
Qed.
Lemma class_linked h k : linked h k (class h k).
Proof.
  revert k. induction h as [|req h IH]; intros k; [apply rtc_refl|]. cbn [class]. unfold join.
  pose proof (linked_cons req h _ _ (IH k)) as Hk. destruct req as [|n [|dst [|src [|]]]]; try done.
  destruct (one_source_store [n; dst; src]) eqn:Ho; [|done]. destruct (String.eqb_spec (class h k) (class h dst)) as [E|]; [|done].
  eapply rtc_transitive; [exact Hk|]. rewrite E. pose proof (linked_cons [n; dst; src] h _ _ (IH dst)) as Hd. pose proof (linked_cons [n; dst; src] h _ _ (IH src)) as Hs.
  eapply rtc_transitive; [apply linked_sym; exact Hd|]. eapply rtc_l; [left; exists n; split; [by left|done]|exact Hs].
Qed.
Definition one_class (h : list (list string)) (k1 k2 : string) : Prop := class h k1 = class h k2.
Lemma one_class_linked h k1 k2 : one_class h k1 k2 → linked h k1 k2.
Proof.
  intros E. eapply rtc_transitive; [apply class_linked|]. rewrite E. apply linked_sym, class_linked.
Qed.
Lemma class_stored h n dst src : [n; dst; src] ∈ h → one_source_store [n; dst; src] = true → one_class h dst src.
Proof.
  unfold one_class. induction h as [|req h IH]; intros Hin Ho; [by apply elem_of_nil in Hin|]. apply elem_of_cons in Hin as [<-|Hin]; cbn [class join].
  - rewrite Ho. rewrite String.eqb_refl. by destruct (String.eqb _ _).
  - specialize (IH Hin Ho). destruct req as [|m [|d [|s [|]]]]; try done. cbn [join]. destruct (one_source_store [m; d; s]); [|done]. by rewrite IH.
Qed.

Section commute.
Context (ext : Ext).
Lemma same_value_sym d e v w : same_value d e v w → same_value e d w v.
Proof. destruct v as [[]|], w as [[]|]; try done. Qed.
Lemma twin_sym K d e : twin K d e → twin K e d.
Proof.
  intros [L R V S]. split; [done|done| |].
  - intros k Hk. by apply same_value_sym, V.
  - intros k1 k2 p1 p2 q1 q2 H1 H2 E1 E2 E3 E4. symmetry. by eapply (S k1 k2).
Qed.
Lemma twin_refl K d : lite d → twin K d d.
Proof.
  intros L. split; [done|done| |].
  - intros k _. unfold same_value. by destruct (sm_get (db_keys d) k) as [[]|].
  - intros k1 k2 p1 p2 q1 q2 _ _ E1 E2 E3 E4. by simplify_eq.
Qed.
Context (H : list (list string)).
Notation L := (one_class H).
Lemma l_refl k : L k k. Proof. done. Qed.
Lemma l_sym k1 k2 : L k1 k2 → L k2 k1. Proof. unfold one_class. by intros ->. Qed.
Lemma l_trans k1 k2 k3 : L k1 k2 → L k2 k3 → L k1 k3. Proof. unfold one_class. by intros -> ->. Qed.
Lemma within c req d d' r : req ∈ H → dbinv d → shared_within L d → ask ext c req d = Ret (d', r) →
  shared_within L d' ∧ ∀ k, (∀ k', k' ∈ writes req → ¬ L k k') → held d' k = held d k.
Proof. intros Hin. apply ask_within; [apply l_refl|apply l_sym|apply l_trans|]. intros n dst src -> Ho. by eapply class_stored. Qed.
(** a request leaves the keys it does not reach as they are *)
Lemma ask_far K c req d d' r e : req ∈ H → dbinv d → shared_within L d → twin K d e → (∀ k k', K k = true → k' ∈ writes req → ¬ L k k') →
  ask ext c req d = Ret (d', r) → twin K d' e.
Proof.
  intros Hin I Sh T HK Ha. destruct (within c req d d' r Hin I Sh Ha) as [Sh' Hh].
  pose proof (ask_inv _ _ _ _ _ _ I Ha) as I'. pose proof (ask_steps ext c req d d' r I Ha) as St.
  assert (G : ∀ k, K k = true → sm_get (db_keys d') k = sm_get (db_keys d) k).
  { intros k Hk. eapply dsteps_get; [exact St|done|]. intros Hw. by eapply HK. }
  split; [by apply lite_inv|apply T| |].
  - intros k Hk. pose proof (t_val _ _ _ T k Hk) as V. specialize (Hh k (λ k', HK k k' Hk)). rewrite (G k Hk).
    unfold held in Hh. rewrite (G k Hk) in Hh. unfold same_value in *. destruct (sm_get (db_keys d) k) as [[| |p| |]|] eqn:E1; try done.
    destruct (sm_get (db_keys e) k) as [[]|]; try done. rewrite <- V. destruct (inv_ptr d I k p E1) as [s Hs]. rewrite Hs in *.
    destruct (db_sets d' !! p) as [s'|]; [|done]. by injection Hh as ->.
  - intros k1 k2 p1 p2 q1 q2 H1 H2. rewrite (G k1 H1), (G k2 H2). by apply (t_sh _ _ _ T).
Qed.
Definition far (ws : list string) (k : string) : bool := forallb (λ w, negb (String.eqb (class H k) (class H w))) ws.
Lemma far_true ws k : far ws k = true ↔ ∀ w, w ∈ ws → ¬ L k w.
Proof.
  unfold far, one_class. rewrite forallb_forall. split.
  - intros F w Hw. apply elem_of_list_In, F in Hw. destruct (String.eqb_spec (class H k) (class H w)); done.
  - intros F w Hw. apply elem_of_list_In, F in Hw. destruct (String.eqb_spec (class H k) (class H w)); done.
Qed.
Lemma far_false ws k : far ws k = false → ∃ w, w ∈ ws ∧ L k w.
Proof.
  induction ws as [|w ws IH]; [done|]. cbn. destruct (String.eqb_spec (class H k) (class H w)) as [E|].
  - intros _. exists w. split; [by left|done].
  - intros E. destruct IH as (w' & ? & ?); [done|]. exists w'. split; [by right|done].
Qed.

Lemma ask_free K ext' c d e req : twin K d e → in_K K (names_keys req) → (lists_keys req = true → ∀ k, K k = true) → same K (ask ext' c req d) (ask ext' c req e).
Proof.
  intros T N G. destruct (lists_keys req) eqn:Hl; [|by apply ask_same]. specialize (G eq_refl).
  assert (∀ d e, twin (λ _, true) d e → twin K d e) as W.
  { intros x y [A B C D]. split; [done|done| |]; [intros k _; by apply C|]. intros k1 k2 p1 p2 q1 q2 _ _. by apply D. }
  assert (twin (λ _, true) d e) as T'.
  { destruct T as [A B C D]. split; [done|done| |]; [intros k _; by apply C|]. intros k1 k2 p1 p2 q1 q2 _ _. by apply D. }
  pose proof (ask_same_all ext' c d e req T') as S. unfold same in *. destruct (ask ext' c req d) as [[]| |], (ask ext' c req e) as [[]| |]; try done.
  destruct S as [-> S]. split; [done|]. by apply W.
Qed.
Lemma commute c1 r1 c2 r2 d d1 d2 a1 a2 : r1 ∈ H → r2 ∈ H → independent H r1 r2 → dbinv d → shared_within L d →
  ask ext c1 r1 d = Ret (d1, a1) → ask ext c2 r2 d1 = Ret (d2, a2) →
  ∃ e1 e2, ask ext c2 r2 d = Ret (e1, a2) ∧ ask ext c1 r1 e1 = Ret (e2, a1) ∧ twin (λ _, true) d2 e2 ∧ dbinv d2 ∧ dbinv e2.
Proof.
  intros In1 In2 (Hl1 & Hl2 & C1 & C2) I Sh A1 A2.
  set (K1 := far (writes r1)). set (K2 := far (writes r2)).
  assert (in_K K1 (names_keys r2)) as N1.
  { intros k Hk. apply far_true. intros w Hw HL. apply (C1 w k Hw Hk). by apply linked_sym, one_class_linked. }
  assert (in_K K2 (names_keys r1)) as N2.
  { intros k Hk. apply far_true. intros w Hw HL. apply (C2 w k Hw Hk). by apply linked_sym, one_class_linked. }
  assert (∀ k k', K1 k = true → k' ∈ writes r1 → ¬ L k k') as F1 by (intros k k' Hk; by apply far_true).
  assert (∀ k k', K2 k = true → k' ∈ writes r2 → ¬ L k k') as F2 by (intros k k' Hk; by apply far_true).
  pose proof (ask_inv _ _ _ _ _ _ I A1) as I1. pose proof (ask_inv _ _ _ _ _ _ I1 A2) as I2.
  destruct (within _ _ _ _ _ In1 I Sh A1) as [Sh1 _]. destruct (within _ _ _ _ _ In2 I1 Sh1 A2) as [Sh2 _].
  (* the second request first *)
  pose proof (ask_far K1 c1 r1 d d1 a1 d In1 I Sh (twin_refl K1 d (lite_inv d I)) F1 A1) as T1.
  pose proof (ask_free K1 ext c2 d1 d r2 T1 N1 ltac:(intros Hl; apply Hl2 in Hl; subst K1; intros k; by rewrite Hl)) as S1. rewrite A2 in S1. destruct (ask ext c2 r2 d) as [[e1 a2']| |] eqn:B2; try done. destruct S1 as [<- T2].
  pose proof (ask_inv _ _ _ _ _ _ I B2) as J1. destruct (within _ _ _ _ _ In2 I Sh B2) as [Zh1 _].
  (* then the first *)
  pose proof (ask_far K2 c2 r2 d e1 a2 d In2 I Sh (twin_refl K2 d (lite_inv d I)) F2 B2) as T3. apply twin_sym in T3.
  pose proof (ask_free K2 ext c1 d e1 r1 T3 N2 ltac:(intros Hl; apply Hl1 in Hl; subst K2; intros k; by rewrite Hl)) as S2. rewrite A1 in S2. destruct (ask ext c1 r1 e1) as [[e2 a1']| |] eqn:B1; try done. destruct S2 as [<- T4].
  pose proof (ask_inv _ _ _ _ _ _ J1 B1) as J2. destruct (within _ _ _ _ _ In1 J1 Zh1 B1) as [Zh2 _].
  exists e1, e2. split; [done|]. split; [done|]. split; [|done].
  (* the two states *)
  pose proof (ask_far K1 c1 r1 e1 e2 a1 d2 In1 J1 Zh1 (twin_sym _ _ _ T2) F1 B1) as X1. apply twin_sym in X1.
  pose proof (ask_far K2 c2 r2 d1 d2 a2 e2 In2 I1 Sh1 T4 F2 A2) as X2.
  assert (∀ k, K1 k = true ∨ K2 k = true) as Cov.
  { intros k. destruct (K1 k) eqn:E1; [by left|]. destruct (K2 k) eqn:E2; [by right|]. exfalso.
    apply far_false in E1 as (w1 & H1 & L1). apply far_false in E2 as (w2 & H2 & L2).
    apply (C1 w1 w2 H1 (writes_named _ _ H2)). apply one_class_linked. eapply l_trans; [apply l_sym|]; done. }
  assert (∀ ws k k', far ws k = true → L k k' → far ws k' = true) as Fl.
  { intros ws k k' Hk Hkk. apply far_true. intros w Hw Hw'. eapply far_true; [done..|]. by eapply l_trans. }
  split; [by apply lite_inv|by apply lite_inv| |].
  - intros k _. destruct (Cov k) as [Hk|Hk]; [by apply X1|by apply X2].
  - intros k1 k2 p1 p2 q1 q2 _ _ E1 E2 E3 E4.
    assert (L k1 k2 → p1 = p2 ↔ q1 = q2) as Hc.
    { intros HL. destruct (Cov k1) as [Hk|Hk]; [eapply (t_sh _ _ _ X1 k1 k2)|eapply (t_sh _ _ _ X2 k1 k2)]; try done; by eapply Fl. }
    split; intros <-; apply Hc; try done; [by eapply Sh2|by eapply Zh2].
Qed.
Lemma twin_talk h : ∀ d e d' rs, twin (λ _, true) d e → talk ext h d = Ret (d', rs) →
  ∃ e', talk ext h e = Ret (e', rs) ∧ twin (λ _, true) d' e'.
Proof.
  induction h as [|[c req] h IH]; intros d e d' rs T Ht; [injection Ht as <- <-; by exists e|]. cbn [talk] in *.
  apply obind_ret in Ht as ([d1 r] & E1 & Ht). apply obind_ret in Ht as ([d2 rs2] & E2 & Ht). injection Ht as <- <-.
  pose proof (ask_same_all ext c d e req T) as S. rewrite E1 in S. destruct (ask ext c req e) as [[e1 r']| |]; try done. destruct S as [<- T1].
  destruct (IH d1 e1 d2 rs2 T1 E2) as (e' & E3 & T'). exists e'. split; [|done]. cbn [obind]. by rewrite E3.
Qed.
End commute.
Lemma talk_long ext h : ∀ d d' rs, talk ext h d = Ret (d', rs) → length rs = length h.
Proof.
  induction h as [|[c req] h IH]; intros d d' rs H; [by injection H as <- <-|]. cbn [talk] in H.
  apply obind_ret in H as ([d1 r] & E1 & H). apply obind_ret in H as ([d2 rs2] & E2 & H). injection H as <- <-. cbn. f_equal. by eapply IH.
Qed.
Lemma talk_app_ret ext h1 h2 d d2 rs1 rs2 : length rs1 = length h1 → talk ext (h1 ++ h2) d = Ret (d2, rs1 ++ rs2) →
  ∃ d1, talk ext h1 d = Ret (d1, rs1) ∧ talk ext h2 d1 = Ret (d2, rs2).
Proof.
  intros Hl H. rewrite talk_app in H. apply obind_ret in H as ([d1 r1] & E1 & H). apply obind_ret in H as ([d2' r2] & E2 & H). injection H as -> E.
  apply app_inj_1 in E as [-> ->]; [by exists d1|]. rewrite Hl. by eapply talk_long.
Qed.
Lemma asked_app l1 l2 : asked_in (l1 ++ l2) = asked_in l1 ++ asked_in l2.
Proof. unfold asked_in. by rewrite !fmap_app. Qed.
Lemma swap_step ext l l' d : swapped l l' → talk ext l.*1 db_new = Ret (d, l.*2) →
  ∃ d', talk ext l'.*1 db_new = Ret (d', l'.*2) ∧ twin (λ _, true) d d'.
Proof.
  intros [l1 [[c1 r1] a1] [[c2 r2] a2] l2 Hi] Ht. cbn [fst snd] in Hi. set (H := asked_in (l1 ++ (c1, r1, a1) :: (c2, r2, a2) :: l2)) in *.
  rewrite !fmap_app, !fmap_cons in *. cbn [fst snd] in *. apply talk_app_ret in Ht as (d0 & T0 & Ht); [|by rewrite !fmap_length].
  cbn [talk] in Ht. apply obind_ret in Ht as ([d1 x1] & A1 & Ht). apply obind_ret in Ht as ([d3 xs] & Ht & E). injection E as -> -> ->.
  apply obind_ret in Ht as ([d2 x2] & A2 & Ht). apply obind_ret in Ht as ([d4 ys] & T2 & E). injection E as -> -> ->.
  assert (r1 ∈ H ∧ r2 ∈ H) as [In1 In2].
  { subst H. rewrite asked_app, !elem_of_app. unfold asked_in. rewrite !fmap_cons. split; right; [by left|right; by left]. }
  assert (dbinv d0) as I0 by (eapply talk_inv; [apply dbinv_new|exact T0]).
  assert (shared_within (one_class H) d0) as Sh.
  { eapply (talk_within ext (one_class H) (l1.*1)); [intros; apply l_refl|apply l_sym|apply l_trans| |apply dbinv_new| |exact T0].
    - intros k1 k2 (n & Hin & Ho). eapply (class_stored H n); [|exact Ho]. subst H. rewrite asked_app, elem_of_app. left. exact Hin.
    - intros k1 k2 p. cbn [db_new db_keys]. rewrite !sm_get_map, sm_new_map, !lookup_empty by apply sm_wf_new. done. }
  destruct (commute ext H c1 r1 c2 r2 d0 d1 d2 a1 a2 In1 In2 Hi I0 Sh A1 A2) as (e1 & e2 & B2 & B1 & T & _ & _).
  destruct (twin_talk ext l2.*1 d2 e2 d l2.*2 T T2) as (d' & T2' & T'). exists d'. split; [|exact T'].
  rewrite talk_app, T0. cbn [obind talk]. rewrite B2. cbn [obind]. rewrite B1. cbn [obind]. rewrite T2'. done.
Qed.
Theorem C77_swap ext l l' d : swapped l l' → talk ext l.*1 db_new = Ret (d, l.*2) →
  ∃ d', talk ext l'.*1 db_new = Ret (d', l'.*2) ∧ indistinguishable ext d d'.
Proof.
  intros Hs Ht. destruct (swap_step ext l l' d Hs Ht) as (d' & T' & Tw). exists d'. split; [exact T'|].
  intros h d1 rs H. destruct (twin_talk ext h d d' d1 rs Tw H) as (e & He & _). by exists e.
Qed.
(** any rearrangement that changes the order of independent requests only *)
Theorem C77_order ext l l' d : rtc swapped l l' → talk ext l.*1 db_new = Ret (d, l.*2) →
  ∃ d', talk ext l'.*1 db_new = Ret (d', l'.*2) ∧ indistinguishable ext d d'.
Proof.
  intros Hs. revert d. induction Hs as [l|l l1 l2 Hs _ IH]; intros d Ht; [exists d; split; [done|]; intros h d1 rs H; by exists d1|].
  destruct (C77_swap ext l l1 d Hs Ht) as (d1 & H1 & I1). destruct (IH d1 H1) as (d2 & H2 & I2). exists d2. split; [done|].
  intros h x rs H. destruct (I1 h x rs H) as (y & Hy). exact (I2 h y rs Hy).
Qed.

(** ** two clients *)
Lemma linked_same h h' k1 k2 : h ≡ₚ h' → linked h k1 k2 → linked h' k1 k2.
Proof.
  intros Hp. unfold linked. apply rtc_subrel. intros a b [(n & Hin & Ho)|(n & Hin & Ho)]; [left|right]; exists n; (split; [by rewrite <- Hp|done]).
Qed.
Lemma independent_same h h' r1 r2 : h ≡ₚ h' → independent h r1 r2 → independent h' r1 r2.
Proof.
  intros Hp (K1 & K2 & C1 & C2). split; [done|]. split; [done|].
  split; intros k k' Hk Hk' HL; [eapply C1|eapply C2]; [exact Hk|exact Hk'| |exact Hk|exact Hk'|]; by eapply linked_same; [symmetry|].
Qed.
Lemma independent_sym h r1 r2 : independent h r1 r2 → independent h r2 r1.
Proof. by intros (K1 & K2 & C1 & C2). Qed.
Lemma asked_perm l l' : l ≡ₚ l' → asked_in l ≡ₚ asked_in l'.
Proof. intros Hp. unfold asked_in. by rewrite Hp. Qed.
Lemma merge_perm {A} (l1 l2 l : list A) : merge l1 l2 l → l ≡ₚ l1 ++ l2.
Proof. induction 1 as [|x l1 l2 l _ IH|y l1 l2 l _ IH]; [done|by rewrite IH|]. by rewrite IH, Permutation_middle. Qed.
Lemma swapped_sym l l' : swapped l l' → swapped l' l.
Proof.
  intros [l1 x y l2 Hi]. constructor. apply independent_sym. eapply independent_same; [|exact Hi]. apply asked_perm.
  apply Permutation_app_head. apply perm_swap.
Qed.
Lemma move_right l1 : ∀ p y l2,
  (∀ x, x ∈ l1 → independent (asked_in (p ++ y :: l1 ++ l2)) y.1.2 x.1.2) → rtc swapped (p ++ y :: l1 ++ l2) (p ++ l1 ++ y :: l2).
Proof.
  induction l1 as [|x l1 IH]; intros p y l2 Hi; [apply rtc_refl|]. cbn [app] in *.
  assert (p ++ x :: y :: l1 ++ l2 ≡ₚ p ++ y :: x :: l1 ++ l2) as Hp by (apply Permutation_app_head, perm_swap).
  eapply rtc_l.
  - apply swap_here. apply Hi. by left.
  - specialize (IH (p ++ [x]) y l2). rewrite <- !app_assoc in IH. cbn [app] in IH.
    apply IH. intros z Hz. eapply independent_same; [apply asked_perm; symmetry; exact Hp|]. apply Hi. by right.
Qed.
Lemma sort_out l1 l2 l : merge l1 l2 l → ∀ p,
  (∀ x y, x ∈ l1 → y ∈ l2 → independent (asked_in (p ++ l)) x.1.2 y.1.2) → rtc swapped (p ++ l) (p ++ l1 ++ l2).
Proof.
  induction 1 as [|x l1 l2 l M IH|y l1 l2 l M IH]; intros p Hi; [apply rtc_refl| |].
  - specialize (IH (p ++ [x])). rewrite <- !app_assoc in IH. cbn [app] in *. apply IH. intros a b Ha Hb. apply Hi; [by right|done].
  - specialize (IH (p ++ [y])). rewrite <- !app_assoc in IH. cbn [app] in *. eapply rtc_transitive.
    + apply IH. intros a b Ha Hb. apply Hi; [done|by right].
    + pose proof (merge_perm _ _ _ M) as Hp. assert (p ++ y :: l ≡ₚ p ++ y :: l1 ++ l2) as Hq by by rewrite Hp.
      apply move_right. intros a Ha. apply independent_sym. eapply independent_same; [apply asked_perm; exact Hq|].
      apply Hi; [done|by left].
Qed.
(** however the server takes the requests of two clients whose requests are independent, it answers each of them the same *)
Theorem C77_clients ext l1 l2 l l' d : merge l1 l2 l → merge l1 l2 l' →
  (∀ x y, x ∈ l1 → y ∈ l2 → independent (asked_in l) x.1.2 y.1.2) → talk ext l.*1 db_new = Ret (d, l.*2) →
  ∃ d', talk ext l'.*1 db_new = Ret (d', l'.*2) ∧ indistinguishable ext d d'.
Proof.
  intros M M' Hi Ht. pose proof (merge_perm _ _ _ M) as P1. pose proof (merge_perm _ _ _ M') as P2.
  eapply (C77_order ext l l'); [|exact Ht]. eapply rtc_transitive; [apply (sort_out l1 l2 l M []); exact Hi|]. cbn [app].
  assert (rtc swapped l' (l1 ++ l2)) as R.
  { apply (sort_out l1 l2 l' M' []).
    intros x y Hx Hy. eapply independent_same; [apply asked_perm|by apply Hi]. cbn [app]. by rewrite P1, P2. }
  clear -R. induction R as [|a b c Hab _ IH]; [apply rtc_refl|]. eapply rtc_r; [exact IH|]. by apply swapped_sym.
Qed.
(** two requests that change nothing are always independent *)
Theorem C77_reads h r1 r2 : writes r1 = [] → writes r2 = [] → independent h r1 r2.
Proof. intros W1 W2. split; [done|]. split; [done|]. rewrite W1, W2. split; intros k k' Hk; by apply elem_of_nil in Hk. Qed.

(** requests for different keys need not be independent: a set stored from one source stays shared, so that b changes through a *)
Theorem C77_shared_refuted : ∃ h r1 r2 rs a1 a2 b1 b2, (∀ k, k ∈ names_keys r1 → k ∉ names_keys r2) ∧ lists_keys r1 = false ∧ lists_keys r2 = false ∧
  replies (h ++ [r1; r2]) = Some (rs ++ [a1; a2]) ∧ replies (h ++ [r2; r1]) = Some (rs ++ [b2; b1]) ∧ a2 ≠ b2 ∧ ¬ independent (h ++ [r1; r2]) r1 r2.
Proof.
  exists [["SADD"; "a"; "x"]; ["SUNIONSTORE"; "b"; "a"]]%string, ["SADD"; "a"; "y"]%string, ["SCARD"; "b"]%string,
    [Some (RInt 1); Some (RInt 1)], (Some (RInt 1)), (Some (RInt 2)), (Some (RInt 1)), (Some (RInt 1)).
  split; [intros k; cbn; intros ->%elem_of_list_singleton Hk%elem_of_list_singleton; discriminate Hk|].
  do 2 (split; [done|]). split; [by vm_compute|]. split; [by vm_compute|]. split; [done|]. intros (_ & _ & C & _).
  apply (C "a" "b")%string; [by left|by left|]. apply rtc_once. right. exists "SUNIONSTORE"%string. split; [right; by left|done].
Qed.
(** and requests for one key need not either *)
Theorem C77_same_key_refuted : ∃ h r1 r2 rs a1 a2 b1 b2,
  replies (h ++ [r1; r2]) = Some (rs ++ [a1; a2]) ∧ replies (h ++ [r2; r1]) = Some (rs ++ [b2; b1]) ∧ a2 ≠ b2.
Proof.
  exists [["SET"; "k"; "1"]]%string, ["INCR"; "k"]%string, ["GET"; "k"]%string, [Some (RStatus "OK")], (Some (RInt 2)), (Some (RBulk "2")), (Some (RInt 2)), (Some (RBulk "1")).
  by split; [vm_compute|split; [vm_compute|]].
Qed.
Lemma linked_class h k k' : linked h k k' → one_class h k k'.
Proof.
  induction 1 as [|k1 k2 k3 Hs _ IH]; [done|]. unfold one_class in *. rewrite <- IH. destruct Hs as [(n & Hin & Ho)|(n & Hin & Ho)].
  - by eapply class_stored.
  - symmetry. by eapply class_stored.
Qed.
Definition apart (h : list (list string)) (r1 r2 : list string) : bool :=
  (negb (lists_keys r1) || bool_decide (writes r2 = [])) && (negb (lists_keys r2) || bool_decide (writes r1 = [])) &&
  forallb (λ k, forallb (λ k', negb (String.eqb (class h k) (class h k'))) (names_keys r2)) (writes r1) &&
  forallb (λ k, forallb (λ k', negb (String.eqb (class h k) (class h k'))) (names_keys r1)) (writes r2).
Lemma apart_independent h r1 r2 : apart h r1 r2 = true → independent h r1 r2.
Proof.
  unfold apart. rewrite !andb_true_iff, !orb_true_iff, !negb_true_iff, !bool_decide_eq_true. intros [[[K1 K2] C1] C2].
  split; [intros E; rewrite E in K1; by destruct K1|]. split; [intros E; rewrite E in K2; by destruct K2|].
  split; intros k k' Hk Hk' HL%linked_class.
  - rewrite forallb_forall in C1. apply elem_of_list_In, C1 in Hk. rewrite forallb_forall in Hk. apply elem_of_list_In, Hk in Hk'.
    unfold one_class in HL. by rewrite HL, String.eqb_refl in Hk'.
  - rewrite forallb_forall in C2. apply elem_of_list_In, C2 in Hk. rewrite forallb_forall in Hk. apply elem_of_list_In, Hk in Hk'.
    unfold one_class in HL. by rewrite HL, String.eqb_refl in Hk'.
Qed.
Definition exchanges (reqs : list (list string)) : list exchange := zip (plain_history reqs) (default [] (replies reqs)).
Definition left_hand : list (list string) := [["SADD"; "a"; "x"]; ["SUNIONSTORE"; "b"; "a"]; ["SADD"; "a"; "y"]; ["SCARD"; "b"]]%string.
Definition right_hand : list (list string) := [["SET"; "k"; "1"]; ["INCR"; "k"]; ["GET"; "k"]]%string.
Example C77_demo : let l1 := exchanges left_hand in let l2 := exchanges right_hand in let l := l1 ++ l2 in
  let l' := (λ n, nth n l (c0, [], None)) <$> [0; 4; 1; 5; 2; 3; 6]%nat in
  merge l1 l2 l ∧ merge l1 l2 l' ∧ (∀ x y, x ∈ l1 → y ∈ l2 → independent (asked_in l) x.1.2 y.1.2) ∧
  replies l.*1.*2 = Some l.*2 ∧ replies l'.*1.*2 = Some l'.*2 ∧ l'.*1.*2 ≠ l.*1.*2.
Proof.
  cbv zeta. unfold exchanges.
  replace (default [] (replies left_hand)) with [Some (RInt 1); Some (RInt 1); Some (RInt 1); Some (RInt 2)] by (by vm_compute).
  replace (default [] (replies right_hand)) with [Some (RStatus "OK"); Some (RInt 2); Some (RBulk "2")]%string by (by vm_compute).
  cbn [plain_history left_hand right_hand fmap list_fmap zip_with app nth].
  split; [repeat constructor|]. split; [repeat constructor|].
  split; [|split; [by vm_compute|split; [by vm_compute|discriminate]]].
  match goal with |- ∀ x y, x ∈ ?l1 → y ∈ ?l2 → independent (asked_in ?l) _ _ =>
    assert (forallb (λ x : exchange, forallb (λ y : exchange, apart (asked_in l) x.1.2 y.1.2) l2) l1 = true) as A by (by vm_compute) end.
  intros x y Hx Hy. apply apart_independent. rewrite forallb_forall in A. apply elem_of_list_In, A in Hx.
  rewrite forallb_forall in Hx. by apply elem_of_list_In, Hx in Hy.
Qed.
Example C77_keys_demo : independent [] ["KEYS"; "*"]%string ["GET"; "k"]%string ∧ ¬ independent [] ["KEYS"; "*"]%string ["SET"; "k"; "1"]%string ∧
  replies [["SET"; "j"; "1"]; ["KEYS"; "*"]; ["SET"; "k"; "1"]]%string = Some [Some (RStatus "OK"); Some (RArr [RBulk "j"]); Some (RStatus "OK")]%string ∧
  replies [["SET"; "j"; "1"]; ["SET"; "k"; "1"]; ["KEYS"; "*"]]%string ≠ Some [Some (RStatus "OK"); Some (RStatus "OK"); Some (RArr [RBulk "j"])]%string.
Proof.
  split; [by apply C77_reads|]. split; [intros (C & _); discriminate (C eq_refl)|]. split; [by vm_compute|vm_compute; discriminate].
Qed.
