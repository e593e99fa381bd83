(** C97: SPOP hands out what was added, everything once. *)
From Verif Require Import GoBase GoBaseProofs ShardMap Float64 Float64Proofs Db Protocol Redis Obs SpecCmd SpecResp SpecServer SpecFrame SpecKey KeyHist
  DbInv ExecSteps Sim SimSet SimMain PropBase KeyIs Examples P_Keys P_Sets P_Strings P_Life Server1Proofs Server1More Server1Err
  SpecCommute SpecUse P_Server SpecWire SpecStream Stream Server SpecServing ServerProofs P_Serve Server1 SpecServing1 Drive1 P_Serve1 Drive P_ServeMore P_Use P_Use3 P_Use4 P_Use5 P_Use6 P_Real1 P_Mono P_Acked P_Fifo SpecPot.

Definition filled (k : string) (l : list exchange) : list string := put_in "sadd" k l.
Definition drawn (k : string) (l : list exchange) : list string := handed_out "spop" k l.
Lemma filled_app k l r : filled k (l ++ r) = filled k l ++ filled k r.
Proof. apply put_in_app. Qed.
Lemma drawn_app k l r : drawn k (l ++ r) = drawn k l ++ drawn k r.
Proof. apply handed_out_app. Qed.
Lemma filled_one k x : filled k [x] = if asks_for "sadd" k x.1.2 then values x.1.2 else [].
Proof. apply put_in_one. Qed.
Lemma drawn_one k x : drawn k [x] = if asks_for "spop" k x.1.2 then texts x.2 else [].
Proof. apply handed_out_one. Qed.
(** every draw so far got as many as it asked for, or all that there were *)
Definition fair (k : string) (pre : list exchange) : Prop := ∀ (i : nat) x n, pre !! i = Some x → asks_for "spop" k x.1.2 = true → draw_count x.1.2 = Some n →
  length (texts x.2) = Nat.min (Z.to_nat n) (length (filled k (take i pre)) - length (drawn k (take i pre))).
Definition pot_inv (k : string) (pre : list exchange) (s : set_value) : Prop :=
  NoDup (filled k pre) → filled k pre ≡ₚ base.elements (SpecKey.members s) ++ drawn k pre ∧ fair k pre.
Lemma fair_snoc k pre x : fair k pre → (∀ n, asks_for "spop" k x.1.2 = true → draw_count x.1.2 = Some n →
  length (texts x.2) = Nat.min (Z.to_nat n) (length (filled k pre) - length (drawn k pre))) → fair k (pre ++ [x]).
Proof.
  intros F Hx i y n Hi A D. apply lookup_app_Some in Hi as [Hi|[L Hi]].
  - rewrite take_app_le by (eapply Nat.lt_le_incl, lookup_lt_Some; exact Hi). by apply (F i y n).
  - apply list_lookup_singleton_Some in Hi as [E <-]. assert (i = length pre) as -> by (apply Nat.le_antisymm; [by apply Nat.sub_0_le|exact L]). rewrite take_app. by apply Hx.
Qed.
Lemma pot_stay k pre x s s' : pot_inv k pre s → SpecKey.members s' = SpecKey.members s → asks_for "sadd" k x.1.2 = false → asks_for "spop" k x.1.2 = false → pot_inv k (pre ++ [x]) s'.
Proof.
  intros I E A P. unfold pot_inv. rewrite filled_app, drawn_app, filled_one, drawn_one, A, P, !app_nil_r, E. intros N. destruct (I N) as [I1 I2]. split; [done|]. apply fair_snoc; [done|]. rewrite P. done.
Qed.
Lemma pot_union (X : gset string) (a : list string) : NoDup a → (∀ y, y ∈ X → y ∈ a → False) → base.elements (X ∪ list_to_set a) ≡ₚ base.elements X ++ a.
Proof.
  intros N D. rewrite elements_disj_union by (intros y Hy Ha; apply elem_of_list_to_set in Ha; by apply (D y)). apply Permutation_app_head. by apply elements_list_to_set.
Qed.
Lemma pot_step k pre req s : pot_request k req = true → about k req = true → pot_inv k pre s →
  ∃ R, set_step req s = Some R ∧ ∀ c r s', R r s' → pot_inv k (pre ++ [(c, req, Some r)]) s'.
Proof.
  intros Hq Ha I. unfold pot_request in Hq. rewrite Ha in Hq. cbn [negb orb] in Hq. apply orb_true_iff in Hq as [Hq|Hq]; [apply orb_true_iff in Hq as [Hq|Hq]; [apply orb_true_iff in Hq as [Hq|Hq]|]|].
  - apply andb_true_iff in Hq as [(n & a & -> & Hn)%asks_for_spec Hv%negb_true_iff%bool_decide_eq_false]. change (values (n :: k :: a)) with a in Hv.
    assert (set_step (n :: k :: a) s = exactly (RInt (Z.of_nat (size ((list_to_set a : gset string) ∖ SpecKey.members s)))) (Some (SpecKey.members s ∪ list_to_set a, surplus s))) as Es.
    { unfold set_step. erewrite table_row by (rewrite Hn; reflexivity). cbv beta iota. by destruct a. }
    eexists. split; [exact Es|]. intros c r s' [-> ->]. unfold pot_inv. rewrite filled_app, drawn_app, filled_one, drawn_one. cbn [fst snd]. rewrite !asks_for_name, Hn.
    change (values (n :: k :: a)) with a. cbn [String.eqb Ascii.eqb Bool.eqb]. rewrite app_nil_r. intros (N1 & D & N2)%NoDup_app. destruct (I N1) as [P F]. split.
    + cbn [SpecKey.members]. rewrite (pot_union _ _ N2) by (intros y Hy Hy2; apply (D y); [|done]; rewrite P; apply elem_of_app; left; by apply elem_of_elements).
      rewrite P. rewrite <- !app_assoc. apply Permutation_app_head, Permutation_app_comm.
    + apply fair_snoc; [done|]. cbn [fst snd]. rewrite asks_for_name, Hn. done.
  - apply andb_true_iff in Hq as [(n & a & -> & Hn)%asks_for_spec Hv]. unfold draw_count in Hv. change (values (n :: k :: a)) with a in Hv. destruct a as [|x a]; [done|]. destruct (parse_int x) as [z|] eqn:Hz; [|done].
    assert (set_step (n :: k :: x :: a) s = Some (λ r s', ∃ l, r = bulks l ∧ NoDup l ∧ (∀ x, x ∈ l → x ∈ SpecKey.members s) ∧
      length l = Nat.min (Z.to_nat z) (size (SpecKey.members s)) ∧ s' = match s with Some (X, dr) => Some (X ∖ list_to_set l, (dr + length l)%nat) | None => None end)) as Es.
    { unfold set_step. erewrite table_row by (rewrite Hn; reflexivity). cbv beta iota. unfold int_arg. by rewrite Hz. }
    eexists. split; [exact Es|]. cbv beta. intros c r s' (l & -> & Nl & Sub & Len & E). unfold pot_inv. rewrite filled_app, drawn_app, filled_one, drawn_one. cbn [fst snd]. rewrite !asks_for_name, Hn.
    cbn [String.eqb Ascii.eqb Bool.eqb]. rewrite app_nil_r, texts_bulks. intros N. destruct (I N) as [P F].
    assert (SpecKey.members s' = SpecKey.members s ∖ list_to_set l) as Em. { subst s'. destruct s as [[X dr]|]; cbn [SpecKey.members]; [done|]. clear. set_solver. }
    split.
    + rewrite Em, P. assert (SpecKey.members s = (SpecKey.members s ∖ list_to_set l) ∪ list_to_set l) as Eu.
      { apply set_eq. intros y. rewrite elem_of_union, elem_of_difference, elem_of_list_to_set. split; [intros Hy; destruct (decide (y ∈ l)); [by right|by left]|]. intros [[? _]|?]; [done|by apply Sub]. }
      rewrite Eu at 1. rewrite (pot_union _ _ Nl) by (intros y; rewrite elem_of_difference, elem_of_list_to_set; tauto). rewrite <- app_assoc. apply Permutation_app_head, Permutation_app_comm.
    + apply fair_snoc; [done|]. cbn [fst snd]. intros m _ Hm. unfold draw_count in Hm. change (values (n :: k :: x :: a)) with (x :: a) in Hm. cbn in Hm. rewrite Hz in Hm. injection Hm as <-.
      rewrite texts_bulks, Len. f_equal. rewrite P, app_length. unfold size, set_size. cbn. lia.
  - apply andb_true_iff in Hq as [(n & a & -> & Hn)%asks_for_spec Hv%negb_true_iff%bool_decide_eq_false]. change (values (n :: k :: a)) with a in Hv. destruct a as [|v a]; [done|].
    eexists. split; [unfold set_step; erewrite table_row by (rewrite Hn; reflexivity); reflexivity|]. intros c r s' [-> ->]. eapply pot_stay; [exact I|done|..]; cbn [fst snd]; by rewrite asks_for_name, Hn.
  - apply asks_for_any_spec in Hq as (n & a & -> & Hn).
    assert (∃ R, set_step (n :: k :: a) s = Some R ∧ ∀ r s', R r s' → s' = s) as (R & Hs & HR).
    { unfold set_step. repeat (apply elem_of_cons in Hn as [Hn|Hn]; [erewrite table_row by (rewrite Hn; reflexivity); cbv beta iota; eexists; split; [reflexivity|]; by intros ?? [??]|]). by apply elem_of_nil in Hn. }
    exists R. split; [done|]. intros c r s' ->%HR.
    assert (asks_for "sadd" k (n :: k :: a) = false ∧ asks_for "spop" k (n :: k :: a) = false) as [E1 E2].
    { rewrite !asks_for_name. repeat (apply elem_of_cons in Hn as [->|Hn]; [done|]). by apply elem_of_nil in Hn. }
    by eapply pot_stay.
Qed.
Lemma pot_conversation k l : Forall (λ req, pot_request k req = true) (requests l) →
  within set_step k None (requests l) ∧ ∀ s', consistent set_step k None (requests l) l.*2 s' → pot_inv k l s'.
Proof.
  intros F. apply (conversation set_step k l (pot_inv k)); [|intros _; split; [change (SpecKey.members None) with (∅ : gset string); by rewrite (elements_empty (C := gset string))|intros i x n Hi; done]]. intros pre x post s E I.
  assert (pot_request k x.1.2 = true) as Hq.
  { rewrite E, requests_app in F. apply Forall_app in F as [_ F]. rewrite requests_cons in F. by apply Forall_cons in F as [F _]. }
  destruct (about k x.1.2) eqn:Ea; [by apply pot_step|]. eapply pot_stay; [exact I|done|..].
  - destruct (asks_for "sadd" k x.1.2) eqn:E1; [by rewrite (asked_about _ _ _ E1) in Ea|done].
  - destruct (asks_for "spop" k x.1.2) eqn:E1; [by rewrite (asked_about _ _ _ E1) in Ea|done].
Qed.
Section pot.
Context (ext : Ext) (k : string).
(** What was added, each string once, is either drawn, once, or still there; and a draw gets as many as it asks for, or all. *)
Theorem C97_pot d0 l d : reachable ext d0 → answers ext d0 ["EXISTS"; k] (RInt 0) →
  Forall (λ req, pot_request k req = true) (asked_in l) → talk ext l.*1 d0 = Ret (d, l.*2) → NoDup (put_in "sadd" k l) →
  (∃ left, put_in "sadd" k l ≡ₚ left ++ handed_out "spop" k l ∧ ∀ v, answers ext d ["SISMEMBER"; k; v] (RInt (if bool_decide (v ∈ left) then 1 else 0))) ∧
  (∀ i x n, l !! i = Some x → asks_for "spop" k x.1.2 = true → draw_count x.1.2 = Some n →
     length (texts x.2) = Nat.min (Z.to_nat n) (length (put_in "sadd" k (take i l)) - length (handed_out "spop" k (take i l)))).
Proof.
  intros Hr Ha F H N. destruct (pot_conversation k l F) as [W C].
  pose proof (key_is_absent ext false set_step k d0 Hr Ha) as K.
  destruct (key_is_next ext false set_step k set_corr (KeyHist.set_ok ext k true) set_determined eq_refl None d0 l.*1 d l.*2 K ltac:(done) H W) as (s & Cs & K').
  destruct (C s Cs N) as [I1 I2]. split; [|exact I2]. exists (base.elements (SpecKey.members s)). split; [exact I1|]. intros v.
  eapply (key_is_answers ext false set_step k set_corr (KeyHist.set_ok ext k true) set_determined eq_refl s d "SISMEMBER" [k; v]); [exact K'|done|done|by apply about_first|].
  unfold set_step. erewrite table_row by reflexivity. cbv beta iota. rewrite (bool_decide_ext (v ∈ base.elements (SpecKey.members s)) (v ∈ SpecKey.members s)) by apply elem_of_elements. done.
Qed.
(** No two draws get the same string, and no draw gets a string twice. *)
Theorem C97_once d0 l d : reachable ext d0 → answers ext d0 ["EXISTS"; k] (RInt 0) →
  Forall (λ req, pot_request k req = true) (asked_in l) → talk ext l.*1 d0 = Ret (d, l.*2) → NoDup (put_in "sadd" k l) →
  NoDup (handed_out "spop" k l) ∧ (∀ v, v ∈ handed_out "spop" k l → v ∈ put_in "sadd" k l) ∧
  ∀ i j x y v, i ≠ j → l !! i = Some x → l !! j = Some y → asks_for "spop" k x.1.2 = true → asks_for "spop" k y.1.2 = true →
    v ∈ texts x.2 → v ∉ texts y.2.
Proof.
  intros Hr Ha F H N. destruct (C97_pot d0 l d Hr Ha F H N) as [(left & P & _) _].
  assert (NoDup (handed_out "spop" k l)) as Nh. { rewrite P in N. by apply NoDup_app in N as (_ & _ & N). }
  split; [done|]. split; [intros v Hv; rewrite P; apply elem_of_app; by right|].
  assert (∀ (i j : nat) x y v, (i < j)%nat → l !! i = Some x → l !! j = Some y → asks_for "spop" k x.1.2 = true → asks_for "spop" k y.1.2 = true → v ∈ texts x.2 → v ∈ texts y.2 → False) as G.
  { intros i j x y v Hij Hi Hj Ax Ay Hx Hy. assert (earlier v v (handed_out "spop" k l)) as E; [|by apply (earlier_asym v v _ Nh E)].
    unfold handed_out, exchange in *. eapply (earlier_concat _ i j); [done|by rewrite list_lookup_fmap, Hi|by rewrite list_lookup_fmap, Hj|cbn; by rewrite Ax|cbn; by rewrite Ay]. }
  intros i j x y v D Hi Hj Ax Ay Hx Hy. destruct (lt_eq_lt_dec i j) as [[L|E]|L]; [|done|]; [by apply (G i j x y v)|by apply (G j i y x v)].
Qed.
Lemma service_pot h got d x1 b1 v1 : service ext h got d → (∀ x, x ∈ h → pot_request k (what x) = true) → NoDup (pushed "sadd" k h) →
  x1 ∈ h → asks_for "spop" k (what x1) = true → got x1 b1 → is_reply b1 v1 →
  (∀ v, v ∈ texts (Some v1) → v ∈ pushed "sadd" k h) ∧
  (∀ x2 b2 v2 v, x2 ∈ h → who x1 ≠ who x2 → asks_for "spop" k (what x2) = true → got x2 b2 → is_reply b2 v2 → v ∈ texts (Some v1) → v ∉ texts (Some v2)).
Proof.
  intros R Q ND Hx1 P1 W1 V1. destruct R as (rs & T & L & N & Hc). apply spoken_talk in T.
  assert (Forall (λ req, pot_request k req = true) (asked_in (spoken h rs))) as F.
  { rewrite spoken_asked by done. apply Forall_forall. intros req (x & -> & Hx)%elem_of_list_fmap. by apply Q. }
  assert (reachable ext db_new) as Hr by (by exists [], []). rewrite <- (pushed_put_in "sadd" k h rs L) in *.
  destruct (C97_once db_new _ _ Hr (db_new_absent _ _) F T ND) as (_ & Sub & Dis).
  destruct (Hc x1 b1 v1 Hx1 W1 V1) as [->|(i & Hi & Si)].
  { rewrite (deadline_texts v1 V1). split; [intros v Hv; by apply elem_of_nil in Hv|]. intros x2 b2 v2 v _ _ _ _ _ Hv. by apply elem_of_nil in Hv. }
  split.
  - intros v Hv. apply Sub. unfold handed_out. apply elem_of_list_In, in_concat. exists (texts (Some v1)). split; apply elem_of_list_In; [|done].
    apply elem_of_list_fmap. exists (how x1, what x1, Some v1). cbn. rewrite P1. split; [done|]. by eapply elem_of_list_lookup_2.
  - intros x2 b2 v2 v Hx2 D P2 W2 V2 J1. destruct (Hc x2 b2 v2 Hx2 W2 V2) as [->|(j & Hj & Sj)]; [rewrite (deadline_texts v2 V2); apply not_elem_of_nil|].
    apply (Dis i j (how x1, what x1, Some v1) (how x2, what x2, Some v2) v); [|exact Si|exact Sj|done..]. intros ->. rewrite Hi in Hj. congruence.
Qed.
(** Clients of a running server: what one draws no other draws, and somebody added it. *)
Theorem C97_clients max ps tr s x1 c1 b1 v1 : runs ext max ps tr s → (∀ x, x ∈ calls tr → pot_request k (what x) = true) → NoDup (pushed "sadd" k (calls tr)) →
  x1 ∈ calls tr → asks_for "spop" k (what x1) = true → LWrite (who x1) c1 b1 ∈ tr → is_reply b1 v1 →
  (∀ v, v ∈ texts (Some v1) → v ∈ pushed "sadd" k (calls tr)) ∧
  (∀ x2 c2 b2 v2 v, x2 ∈ calls tr → who x1 ≠ who x2 → asks_for "spop" k (what x2) = true → LWrite (who x2) c2 b2 ∈ tr → is_reply b2 v2 → v ∈ texts (Some v1) → v ∉ texts (Some v2)).
Proof.
  intros R Q ND Hx1 P1 W1 V1. destruct (service_pot _ _ _ x1 b1 v1 (service2 _ _ _ _ _ R) Q ND Hx1 P1 ltac:(by exists c1) V1) as [H1 H2]. split; [done|].
  intros x2 c2 b2 v2 v Hx2 D P2 W2. eapply H2; try done. by exists c2.
Qed.
Theorem C97_clients1 max tr s x1 k1 n1 b1 v1 : runs1 ext max tr s → (∀ x, x ∈ calls1 tr → pot_request k (what x) = true) → NoDup (pushed "sadd" k (calls1 tr)) →
  x1 ∈ calls1 tr → asks_for "spop" k (what x1) = true → written k1 tr !! n1 = Some (who x1, b1) → is_reply b1 v1 →
  (∀ v, v ∈ texts (Some v1) → v ∈ pushed "sadd" k (calls1 tr)) ∧
  (∀ x2 k2 n2 b2 v2 v, x2 ∈ calls1 tr → who x1 ≠ who x2 → asks_for "spop" k (what x2) = true → written k2 tr !! n2 = Some (who x2, b2) → is_reply b2 v2 → v ∈ texts (Some v1) → v ∉ texts (Some v2)).
Proof.
  intros R Q ND Hx1 P1 W1 V1. destruct (service_pot _ _ _ x1 b1 v1 (service1 _ _ _ _ R) Q ND Hx1 P1 ltac:(by exists k1, n1) V1) as [H1 H2]. split; [done|].
  intros x2 k2 n2 b2 v2 v Hx2 D P2 W2. eapply H2; try done. by exists k2, n2.
Qed.
End pot.

(** ** examples *)
Definition drawing : list (list string) :=
  [["SADD"; "pot"; "a"; "b"; "c"]; ["SPOP"; "pot"; "2"]; ["SISMEMBER"; "pot"; "a"]; ["set"; "other"; "x"]; ["sadd"; "pot"; "d"]; ["SPOP"; "pot"; "9"]; ["SPOP"; "pot"; "1"]].
Example C97_demo : forallb (pot_request "pot") (asked_in (dialogue drawing)) = true ∧ talk ext0 (dialogue drawing).*1 db_new = Ret (after drawing, (dialogue drawing).*2) ∧
  (put_in "sadd" "pot" (dialogue drawing) = ["a"; "b"; "c"; "d"]) ∧ length (handed_out "spop" "pot" (dialogue drawing)) = 4%nat ∧
  ((λ x, length (texts x.2)) <$> dialogue drawing) = [0; 2; 0; 0; 0; 2; 0]%nat ∧ NoDup (put_in "sadd" "pot" (dialogue drawing)).
Proof.
  split; [by vm_compute|]. split; [by vm_compute|]. split; [by vm_compute|]. split; [by vm_compute|]. split; [by vm_compute|].
  apply (bool_decide_unpack _). by vm_compute.
Qed.
Definition two_drawers : list action := whole 1 7 (frame ["SADD"; "pot"; "a"; "b"]) ++ whole 2 8 (frame ["SPOP"; "pot"; "1"]) ++ whole 3 7 (frame ["SPOP"; "pot"; "1"]).
Example C97_clients_demo : runs ext0 1000 8 (trace two_drawers) (final two_drawers) ∧
  forallb (λ x, pot_request "pot" (what x)) (calls (trace two_drawers)) = true ∧ (pushed "sadd" "pot" (calls (trace two_drawers)) = ["a"; "b"]) ∧
  (got two_drawers = [(1%nat, crlf [":2"]); (2%nat, crlf ["*1"; "$1"; "a"]); (3%nat, crlf ["*1"; "$1"; "b"])] ∨ got two_drawers = [(1%nat, crlf [":2"]); (2%nat, crlf ["*1"; "$1"; "b"]); (3%nat, crlf ["*1"; "$1"; "a"])]).
Proof. split; [apply trace_runs; by vm_compute|]. split; [by vm_compute|]. split; [by vm_compute|]. (left; by vm_compute) || (right; by vm_compute). Qed.
(** A SPOP that does not say how many gets none; a string added again after it was drawn is handed out again. *)
Definition no_count : list (list string) := [["SADD"; "pot"; "a"]; ["SPOP"; "pot"]; ["SISMEMBER"; "pot"; "a"]].
Theorem C97_default_refuted : replies no_count = Some [Some (RInt 1); Some (bulks []); Some (RInt 1)].
Proof. by vm_compute. Qed.
Definition added_again : list (list string) := [["SADD"; "pot"; "a"]; ["SPOP"; "pot"; "1"]; ["SADD"; "pot"; "a"]; ["SPOP"; "pot"; "1"]].
Theorem C97_again_refuted : replies added_again = Some [Some (RInt 1); Some (bulks ["a"]); Some (RInt 1); Some (bulks ["a"])].
Proof. by vm_compute. Qed.
