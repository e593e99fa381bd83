(** The invariant of the machine of Main.v, for P_Main.v. *)
From Verif Require Import GoBase Main SpecMain.

Lemma times_snoc l x tr : times l (tr ++ [x]) = (times l tr + if decide (x = l) then 1 else 0)%nat.
Proof. unfold times. rewrite filter_app, app_length. f_equal. rewrite filter_cons, filter_nil. by destruct (decide (x = l)). Qed.
Lemma times_in l tr : l ∈ tr ↔ (0 < times l tr)%nat.
Proof.
  unfold times. split.
  - intros H. destruct (filter (λ x, x = l) tr) eqn:E; [|simpl; lia]. exfalso. assert (Hx : l ∈ filter (λ x, x = l) tr) by (by apply elem_of_list_filter).
    rewrite E in Hx. by apply elem_of_nil in Hx.
  - destruct (filter (λ x, x = l) tr) as [|x rest] eqn:E; [simpl; lia|]. intros _.
    assert (Hx : x ∈ filter (λ x, x = l) tr) by (rewrite E; left). apply elem_of_list_filter in Hx as [-> Hx]. done.
Qed.
Lemma times_app l t1 t2 : times l (t1 ++ t2) = (times l t1 + times l t2)%nat.
Proof. unfold times. by rewrite filter_app, app_length. Qed.

Definition srv_ok (tr : list mlabel) (s : life) : Prop :=
  let up := times MUp tr in let fail := times MFail tr in let down := times MShutdown tr in
  match f_srv s with
  | VStarting => up = 0 ∧ fail = 0 ∧ down = 0 ∧ times MBreak tr = 0 ∧ times MAsked tr = 0
  | VUp => up = 1 ∧ fail = 0 ∧ down = 0 ∧ times MBreak tr = 0 ∧ times MAsked tr = 0
  | VClosing => up = 1 ∧ fail = 0 ∧ down = 0 ∧ times MBreak tr ≤ 1 ≤ times MBreak tr + times MAsked tr
  | VClosed => up = 1 ∧ fail = 0 ∧ down = 1 ∧ times MBreak tr ≤ 1 ≤ times MBreak tr + times MAsked tr
  | VFailed => up = 0 ∧ fail = 1 ∧ down = 0 ∧ times MBreak tr = 0 ∧ times MAsked tr = 0
  | VDone => (up = 1 ∧ fail = 0 ∧ down = 1 ∧ times MBreak tr ≤ 1 ≤ times MBreak tr + times MAsked tr)
             ∨ (up = 0 ∧ fail = 1 ∧ down = 0 ∧ times MBreak tr = 0 ∧ times MAsked tr = 0)
  end%nat.
Definition stop_ok (tr : list mlabel) (s : life) : Prop :=
  let called := times MCallStop tr in let got := (times MAsked tr + times MMissed tr)%nat in
  match f_stop s with
  | TWait => called = 0 ∧ got = 0 ∧ times MLate tr = 0
  | TStop => called = 1 ∧ got = 0 ∧ times MLate tr = 0
  | TAwait => called = 1 ∧ got = 1 ∧ times MAsked tr = 1 ∧ times MLate tr = 0
  | TDone => called = 1 ∧ got = 1 ∧ times MLate tr ≤ times MAsked tr
  end%nat.
Definition chan_ok (tr : list mlabel) (s : life) : Prop :=
  (f_sig s ≤ 1 ∧ f_err s ≤ 1 ∧ f_sig s ≤ times MSignal tr ∧ f_err s ≤ times MFail tr
   ∧ (f_srv s = VFailed → f_err s = 0)
   ∧ (f_srv s ≠ VDone → f_err s = 0 ∧ (times MCallStop tr = 1 → 1 ≤ times MSignal tr))
   ∧ (times MCallStop tr = 1 → 1 ≤ times MSignal tr + times MFail tr)
   ∧ (f_stop s = TWait → f_srv s = VDone → times MFail tr = 1 → f_err s = 1)
   ∧ (f_stop s = TWait → 1 ≤ times MSignal tr → f_sig s = 1))%nat.
Definition exit_ok (tr : list mlabel) (s : life) : Prop :=
  if f_exit s then times MExit tr = 1%nat ∧ f_srv s = VDone ∧ f_stop s = TDone else times MExit tr = 0%nat.
Definition inv (tr : list mlabel) (s : life) : Prop := srv_ok tr s ∧ stop_ok tr s ∧ chan_ok tr s ∧ exit_ok tr s.

Ltac snoc := rewrite ?times_snoc; repeat match goal with
  | |- context [@decide (?a = ?a) ?d] => rewrite (@decide_True _ (a = a) d) by done
  | |- context [@decide (?a = ?b) ?d] => rewrite (@decide_False _ (a = b) d) by discriminate end; rewrite ?Nat.add_0_r.
Lemma lives_inv tr s : lives tr s → inv tr s.
Proof.
  induction 1 as [|tr s l s' Hl IH Hs]; [unfold inv, srv_ok, stop_ok, chan_ok, exit_ok; simpl; cbv [times]; simpl; intuition (lia || done)|].
  destruct IH as (H1 & H2 & H3 & H4). unfold inv, srv_ok, stop_ok, chan_ok, exit_ok in *.
  destruct s as [v t g e x]; cbn [f_srv f_stop f_sig f_err f_exit] in *.
  inversion Hs; subst; cbn [f_srv f_stop f_sig f_err f_exit] in *; subst; unfold sig_cap, err_cap in *; snoc;
    try destruct v; try destruct t; try destruct x; cbn [f_srv f_stop f_sig f_err f_exit] in *; try discriminate; intuition (try discriminate; try lia; try done).
Qed.

