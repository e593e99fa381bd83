(** Set objects: what one represents, and the operations on it. *)
From Verif Require Import GoBase GoBaseProofs ShardMap ShardMapProofs Float64 DList SkipList Db SpecServer.

(** the members, and the excess of the length counter over their number *)
Definition set_rep (s : mset) (X : gset string) (dr : nat) : Prop :=
  sm_wf (ms_m s) ∧ dom (sm_map (ms_m s)) = X ∧ ms_len s = counted X dr.
(** a set object as it may occur: the counter never is too small *)
Definition set_ok (s : mset) : Prop := ∃ X dr, set_rep s X dr.

(** ** set objects *)
Lemma gsize_union (X Y : gset string) : X ## Y → size (X ∪ Y) = (size X + size Y)%nat.
Proof. apply size_union. Qed.
Lemma gsize_diff (X Y : gset string) : Y ⊆ X → size (X ∖ Y) = (size X - size Y)%nat.
Proof. apply size_difference. Qed.
Lemma set_rep_new : set_rep ms_new ∅ 0.
Proof. split; [apply sm_wf_new|]. split; [|done]. change (ms_m ms_new) with (@sm_new unit). by rewrite sm_new_map, dom_empty_L. Qed.
Lemma set_rep_in s X dr v : set_rep s X dr → v ∈ X ↔ is_Some (sm_map (ms_m s) !! v).
Proof. intros (_ & <- & _). apply elem_of_dom. Qed.
Lemma set_rep_has s X dr v : set_rep s X dr → sm_has (ms_m s) v = bool_decide (v ∈ X).
Proof.
  intros R. rewrite sm_has_map by apply R. apply bool_decide_ext. symmetry. by eapply set_rep_in.
Qed.
Lemma ms_add_in v s X dr : set_rep s X dr → v ∈ X → ms_add v s = (s, 0).
Proof.
  intros R Hv. unfold ms_add. rewrite sm_set_if_absent_map by apply R.
  apply (set_rep_in _ _ _ _ R) in Hv as [u Hu]. rewrite Hu. by destruct s.
Qed.
Lemma ms_add_new v s X dr : set_rep s X dr → v ∉ X → ∃ s', ms_add v s = (s', 1) ∧ set_rep s' ({[v]} ∪ X) dr.
Proof.
  intros R Hv. unfold ms_add. rewrite sm_set_if_absent_map by apply R.
  destruct (sm_map (ms_m s) !! v) eqn:E.
  { exfalso. apply Hv. apply (set_rep_in _ _ _ _ R). eauto. }
  eexists. split; [done|]. destruct R as (W & D & L). split; [by apply sm_set_wf|]. simpl. split.
  - rewrite sm_set_map by done. by rewrite dom_insert_L, D.
  - rewrite L. unfold counted. rewrite gsize_union by set_solver. rewrite size_singleton. lia.
Qed.
Lemma ms_add_all_ok vs : ∀ s X dr n, set_rep s X dr →
  ∃ s', ms_add_all vs s n = (s', n + Z.of_nat (size ((list_to_set vs : gset string) ∖ X))) ∧
        set_rep s' (X ∪ list_to_set vs) dr.
Proof.
  induction vs as [|v vs IH]; intros s X dr n R; simpl.
  - exists s. rewrite (union_empty_r_L X). split; [|done]. f_equal. assert ((∅ : gset string) ∖ X = ∅) as -> by set_solver.
    rewrite size_empty. lia.
  - destruct (decide (v ∈ X)) as [Hv|Hv].
    + rewrite (ms_add_in v s X dr R Hv). destruct (IH s X dr (n + 0) R) as (s' & -> & R'). exists s'.
      assert (X ∪ ({[v]} ∪ list_to_set vs) = X ∪ list_to_set vs) as -> by set_solver.
      assert (({[v]} ∪ list_to_set vs) ∖ X = list_to_set vs ∖ X) as -> by set_solver.
      split; [|done]. f_equal. lia.
    + destruct (ms_add_new v s X dr R Hv) as (s1 & -> & R1). destruct (IH s1 _ dr (n + 1) R1) as (s' & -> & R'). exists s'.
      assert (X ∪ ({[v]} ∪ list_to_set vs) = {[v]} ∪ X ∪ list_to_set vs) as -> by set_solver.
      split; [|done]. f_equal.
      assert (({[v]} ∪ list_to_set vs) ∖ X = {[v]} ∪ (list_to_set vs ∖ ({[v]} ∪ X))) as ->.
      { apply set_eq. intros x. destruct (decide (x = v)); set_solver. }
      rewrite gsize_union by set_solver. rewrite size_singleton. lia.
Qed.
Lemma ms_rem_ok v s X dr : set_rep s X dr →
  ∃ s', ms_rem v s = (s', if bool_decide (v ∈ X) then 1 else 0) ∧ set_rep s' (X ∖ {[v]}) dr.
Proof.
  intros R. unfold ms_rem. rewrite sm_delete_if_exists_map by apply R.
  pose proof (set_rep_in _ _ _ v R) as Hin. destruct R as (W & D & L). destruct (sm_map (ms_m s) !! v) eqn:E.
  - assert (v ∈ X) by (apply Hin; eauto). rewrite bool_decide_eq_true_2 by done. eexists. split; [done|].
    split; [by apply sm_delete_wf|]. simpl. split.
    + rewrite sm_delete_map by done. by rewrite dom_delete_L, D.
    + rewrite L. unfold counted. rewrite gsize_diff by set_solver. rewrite size_singleton.
      assert (size X ≠ 0%nat) by (apply size_non_empty_iff; set_solver). lia.
  - assert (v ∉ X) by (rewrite Hin; by intros []). rewrite bool_decide_eq_false_2 by done. eexists. split; [done|].
    assert (X ∖ {[v]} = X) as -> by set_solver. split; [done|]. split; done.
Qed.
Lemma ms_rem_all_ok vs : ∀ s X dr n, set_rep s X dr →
  ∃ s', ms_rem_all vs s n = (s', n + Z.of_nat (size (X ∩ list_to_set vs))) ∧ set_rep s' (X ∖ list_to_set vs) dr.
Proof.
  induction vs as [|v vs IH]; intros s X dr n R; simpl.
  - exists s. assert (X ∖ ∅ = X) as -> by set_solver. assert (X ∩ ∅ = ∅) as -> by set_solver. rewrite size_empty. split; [|done]. f_equal. lia.
  - destruct (ms_rem_ok v s X dr R) as (s1 & -> & R1). destruct (IH s1 _ dr (n + if bool_decide (v ∈ X) then 1 else 0) R1) as (s' & -> & R').
    exists s'. assert (X ∖ ({[v]} ∪ list_to_set vs) = X ∖ {[v]} ∖ list_to_set vs) as -> by set_solver.
    split; [|done]. f_equal. case_bool_decide as Hv.
    + assert (X ∩ ({[v]} ∪ list_to_set vs) = {[v]} ∪ (X ∖ {[v]} ∩ list_to_set vs)) as ->.
      { apply set_eq. intros x. destruct (decide (x = v)); set_solver. }
      rewrite gsize_union by set_solver. rewrite size_singleton. lia.
    + assert (X ∩ ({[v]} ∪ list_to_set vs) = X ∖ {[v]} ∩ list_to_set vs) as -> by set_solver. lia.
Qed.
Lemma ms_keys_ok ord s X dr : set_rep s X dr → NoDup (sm_keys ord (ms_m s)) ∧ ∀ x, x ∈ sm_keys ord (ms_m s) ↔ x ∈ X.
Proof.
  intros R. split; [apply sm_keys_nodup, R|]. intros x. rewrite sm_keys_elem by apply R. symmetry. by eapply set_rep_in.
Qed.
Lemma range_add (P : string → bool) (l : list (string * unit)) : ∀ s n,
  range_loop (λ acc k (_ : unit), ((if P k then (ms_add k acc).1 else acc), true)) s l =
  (ms_add_all (filter (λ k, P k = true) l.*1) s n).1.
Proof.
  induction l as [|[k v] l IH]; intros s n; [done|]. cbn [range_loop fmap list_fmap]. destruct (P k) eqn:E.
  - change ((k, v) :: l).*1 with (k :: l.*1). rewrite filter_cons_True by done. cbn [ms_add_all fst].
    destruct (ms_add k s) as [s' z]. apply IH.
  - change ((k, v) :: l).*1 with (k :: l.*1). rewrite filter_cons_False by (cbn [fst]; congruence). apply IH.
Qed.
Lemma ms_filter_ok (P : string → bool) ord s1 X1 dr1 s X dr : set_rep s1 X1 dr1 → set_rep s X dr →
  set_rep (sm_range ord (ms_m s1) (λ acc k (_ : unit), ((if P k then (ms_add k acc).1 else acc), true)) s)
    (X ∪ filter (λ k, P k = true) X1) dr.
Proof.
  intros R1 R. unfold sm_range. rewrite (range_add P _ s 0).
  destruct (ms_add_all_ok (filter (λ k, P k = true) (sm_entries ord (ms_m s1)).*1) s X dr 0 R) as (s' & -> & R').
  simpl. replace (filter (λ k, P k = true) X1) with (list_to_set (filter (λ k, P k = true) (sm_entries ord (ms_m s1)).*1) : gset string); [done|].
  apply set_eq. intros x. rewrite elem_of_list_to_set, elem_of_list_filter, elem_of_filter.
  pose proof (ms_keys_ok ord s1 X1 dr1 R1) as [_ Hk]. rewrite <- (Hk x). done.
Qed.
Definition op_of (o : setop) : set_op := match o with OpDiff => Diff | OpInter => Inter | OpUnion => Union end.
Lemma ms_op_ok o c j s1 s2 X1 X2 dr1 dr2 : set_rep s1 X1 dr1 → set_rep s2 X2 dr2 →
  set_rep (ms_op o c j s1 s2) (apply_op (op_of o) X1 X2) 0.
Proof.
  intros R1 R2. destruct o; simpl.
  - unfold ms_diff. pose proof (ms_filter_ok (λ k, negb (sm_has (ms_m s2) k)) (ch_ord c (2 * j)%nat) s1 X1 dr1 _ _ _ R1 set_rep_new) as H.
    replace (X1 ∖ X2) with (∅ ∪ filter (λ k, negb (sm_has (ms_m s2) k) = true) X1); [exact H|].
    apply set_eq. intros x. rewrite elem_of_union, elem_of_filter, elem_of_difference, (set_rep_has _ _ _ x R2).
    case_bool_decide; simpl; set_solver.
  - unfold ms_inter. pose proof (ms_filter_ok (λ k, sm_has (ms_m s2) k) (ch_ord c (2 * j)%nat) s1 X1 dr1 _ _ _ R1 set_rep_new) as H.
    replace (X1 ∩ X2) with (∅ ∪ filter (λ k, sm_has (ms_m s2) k = true) X1); [exact H|].
    apply set_eq. intros x. rewrite elem_of_union, elem_of_filter, elem_of_intersection, (set_rep_has _ _ _ x R2).
    case_bool_decide; simpl; set_solver.
  - unfold ms_union. pose proof (ms_filter_ok (λ k, true) (ch_ord c (2 * j)%nat) s1 X1 dr1 _ _ _ R1 set_rep_new) as H1.
    pose proof (ms_filter_ok (λ k, true) (ch_ord c (2 * j + 1)%nat) s2 X2 dr2 _ _ _ R2 H1) as H2.
    replace (X1 ∪ X2) with (∅ ∪ filter (λ _, true = true) X1 ∪ filter (λ _, true = true) X2); [exact H2|].
    apply set_eq. intros x. rewrite !elem_of_union, !elem_of_filter. set_solver.
Qed.
Lemma rad_pop (l : list (string * unit)) : ∀ n acc m, NoDup l.*1 → sm_wf m →
  ∃ n' m', rad_loop (λ (st : Z * list string) k (_ : unit), if (st.1 <=? 0) then (st, false, false) else ((st.1 - 1, st.2 ++ [k]), true, true))
    (n, acc) m l = ((n', acc ++ take (Z.to_nat n) l.*1), m') ∧ sm_wf m' ∧
    dom (sm_map m') = dom (sm_map m) ∖ list_to_set (take (Z.to_nat n) l.*1).
Proof.
  induction l as [|[k v] l IH]; intros n acc m Hn W; cbn [rad_loop].
  - exists n, m. rewrite fmap_nil, take_nil, app_nil_r. split; [done|]. split; [done|]. set_solver.
  - change ((k, v) :: l).*1 with (k :: l.*1) in *. cbn [fst snd]. destruct (Z.leb_spec n 0) as [H0|H0].
    + exists n, m. replace (Z.to_nat n) with 0%nat by lia. cbn [take]. rewrite app_nil_r.
      split; [done|]. split; [done|]. set_solver.
    + apply NoDup_cons in Hn as [Hk Hn]. destruct (IH (n - 1) (acc ++ [k]) (sm_delete m k) Hn) as (n' & m' & E & W' & D).
      { by apply sm_delete_wf. }
      exists n', m'. replace (Z.to_nat n) with (S (Z.to_nat (n - 1))) by lia. cbn [take].
      rewrite <- app_assoc in E. split; [exact E|]. split; [done|]. rewrite D, sm_delete_map, dom_delete_L by done.
      simpl. set_solver.
Qed.
Lemma size_list_to_set_nd (l : list string) : NoDup l → size (list_to_set l : gset string) = length l.
Proof. intros H. by rewrite size_list_to_set. Qed.
Lemma ms_pop_ok ord n s X dr : set_rep s X dr → ∃ s' l, ms_pop ord n s = (s', l) ∧ NoDup l ∧ (∀ x, x ∈ l → x ∈ X) ∧
  length l = Nat.min (Z.to_nat n) (size X) ∧ set_rep s' (X ∖ list_to_set l) (dr + length l).
Proof.
  intros R. unfold ms_pop, sm_range_and_delete.
  destruct (ms_keys_ok ord s X dr R) as [Hnd Hk]. unfold sm_keys in *.
  destruct (rad_pop (sm_entries ord (ms_m s)) n [] (ms_m s) Hnd) as (n' & m' & E & W & D); [apply R|].
  rewrite E. cbn [fst snd]. set (l := take (Z.to_nat n) (sm_entries ord (ms_m s)).*1) in *.
  exists (MSet m' (ms_len s)), l. split; [done|].
  assert (Hl : NoDup l). { rewrite <- (take_drop (Z.to_nat n) (sm_entries ord (ms_m s)).*1) in Hnd. by apply NoDup_app in Hnd as (? & _). }
  assert (Hsub : ∀ x, x ∈ l → x ∈ X). { intros x Hx. apply Hk. apply elem_of_take in Hx as (i & ? & ?). by eapply elem_of_list_lookup_2. }
  assert (Hlen : length (sm_entries ord (ms_m s)).*1 = size X).
  { rewrite <- (size_list_to_set_nd _ Hnd). f_equal. apply set_eq. intros x. rewrite elem_of_list_to_set. apply Hk. }
  split; [done|]. split; [done|]. split; [unfold l; rewrite take_length; by rewrite Hlen|].
  destruct R as (W0 & D0 & L0). split; [done|]. split; [simpl; by rewrite D, D0|]. simpl. rewrite L0. unfold counted.
  rewrite gsize_diff by (intros x; rewrite elem_of_list_to_set; apply Hsub).
  assert (size (list_to_set l : gset string) ≤ size X)%nat.
  { apply subseteq_size. intros x. rewrite elem_of_list_to_set. apply Hsub. }
  rewrite (size_list_to_set_nd l Hl) in *. lia.
Qed.
Lemma counted_0 X dr : counted X dr = 0 → X = ∅ ∧ dr = 0%nat.
Proof. unfold counted. intros H. split; [|lia]. apply size_empty_inv_L || apply leibniz_equiv, size_empty_inv. lia. Qed.


(** ** every operation keeps [set_ok] *)
Lemma set_rep_ok s X dr : set_rep s X dr → set_ok s.
Proof. by exists X, dr. Qed.
Lemma set_ok_wf s : set_ok s → sm_wf (ms_m s).
Proof. by intros (X & dr & ? & _). Qed.
Lemma ms_new_ok : set_ok ms_new.
Proof. exists ∅, 0%nat. apply set_rep_new. Qed.
Lemma ms_add_all_sok vs s n : set_ok s → set_ok (ms_add_all vs s n).1.
Proof. intros (X & dr & R). destruct (ms_add_all_ok vs s X dr n R) as (s' & -> & R'). by eapply set_rep_ok. Qed.
Lemma ms_rem_all_sok vs s n : set_ok s → set_ok (ms_rem_all vs s n).1.
Proof. intros (X & dr & R). destruct (ms_rem_all_ok vs s X dr n R) as (s' & -> & R'). by eapply set_rep_ok. Qed.
Lemma ms_pop_sok ord n s : set_ok s → set_ok (ms_pop ord n s).1.
Proof. intros (X & dr & R). destruct (ms_pop_ok ord n s X dr R) as (s' & l & -> & _ & _ & _ & R'). by eapply set_rep_ok. Qed.
Lemma ms_op_sok o c j s1 s2 : set_ok s1 → set_ok s2 → set_ok (ms_op o c j s1 s2).
Proof. intros (X & dr & R) (Y & dr' & R'). eapply set_rep_ok. by eapply ms_op_ok. Qed.
(** SMOVE takes a member away without counting it *)
Lemma ms_take_rep s X dr v : set_rep s X dr → v ∈ X → set_rep (MSet (sm_delete (ms_m s) v) (ms_len s)) (X ∖ {[v]}) (S dr).
Proof.
  intros (W & D & L) Hv. split; [by apply sm_delete_wf|]. cbn [ms_m ms_len]. split.
  - by rewrite sm_delete_map, dom_delete_L, D by done.
  - rewrite L. unfold counted. rewrite gsize_diff by set_solver. rewrite size_singleton.
    assert (size X ≠ 0%nat) by (apply size_non_empty_iff; set_solver). lia.
Qed.

(** ** the counter is exact as long as nothing is popped *)
Definition tight (s : mset) : Prop := ∃ X, set_rep s X 0.
Lemma tight_ok s : tight s → set_ok s.
Proof. intros [X R]. by exists X, 0%nat. Qed.
Lemma ms_new_tight : tight ms_new.
Proof. exists ∅. apply set_rep_new. Qed.
Lemma ms_add_all_tight vs s n : tight s → tight (ms_add_all vs s n).1.
Proof. intros (X & R). destruct (ms_add_all_ok vs s X 0 n R) as (s' & -> & R'). by eexists. Qed.
Lemma ms_rem_all_tight vs s n : tight s → tight (ms_rem_all vs s n).1.
Proof. intros (X & R). destruct (ms_rem_all_ok vs s X 0 n R) as (s' & -> & R'). by eexists. Qed.
Lemma ms_op_tight o c j s1 s2 : set_ok s1 → set_ok s2 → tight (ms_op o c j s1 s2).
Proof. intros (X & dr & R) (Y & dr' & R'). eexists. by eapply ms_op_ok. Qed.
