(** C65: the life of the process. *)
From Verif Require Import GoBase Main SpecMain MainProofs.

(** ** Ending is clean *)
(** When the process ends it was told to or could not serve; Stop was called exactly once; if it had begun to serve, the
    network layer had shut down and the event pool had been stopped, exactly once, even if Stop had given up waiting; and
    nothing happens any more. *)
Theorem C65_end_is_clean tr s t1 t2 : lives tr s → tr = t1 ++ MExit :: t2 →
  t2 = [] ∧ (MSignal ∈ t1 ∨ MFail ∈ t1) ∧ times MCallStop t1 = 1%nat ∧
  ((MUp ∈ t1 ∧ MFail ∉ t1 ∧ times MShutdown t1 = 1%nat) ∨ (MFail ∈ t1 ∧ MUp ∉ t1 ∧ MShutdown ∉ t1)).
Proof.
  intros Hl. revert t1 t2. induction Hl as [|tr s l s' Hl IH Hs]; intros t1 t2 E.
  { by destruct t1. }
  destruct t2 as [|x t2' _] using rev_ind.
  - apply app_inj_tail in E as [<- ->]. split; [done|]. apply lives_inv in Hl as (H1 & H2 & H3 & H4).
    inversion Hs; subst; unfold srv_ok, stop_ok, chan_ok, exit_ok in *. rewrite !times_in.
    rewrite H in *. rewrite H0 in *. rewrite H5 in *. intuition lia.
  - rewrite app_comm_cons, app_assoc in E. apply app_inj_tail in E as [E ->]. destruct (IH t1 t2' E) as (-> & _).
    apply lives_inv in Hl as (H1 & H2 & H3 & H4). exfalso. subst tr. unfold exit_ok in H4.
    destruct (f_exit s) eqn:Ex; [|rewrite times_app in H4; cbv [times] in H4; simpl in H4; lia].
    destruct H4 as (_ & Hv & Ht). inversion Hs; congruence || (destruct H0; congruence).
Qed.
(** Stop, and the stop of the event pool, happen at most once in every run. *)
Theorem C65_at_most_once tr s : lives tr s → (times MCallStop tr ≤ 1 ∧ times MShutdown tr ≤ 1 ∧ times MExit tr ≤ 1)%nat.
Proof.
  intros Hl. apply lives_inv in Hl as (H1 & H2 & H3 & H4). unfold srv_ok, stop_ok, exit_ok in *.
  destruct (f_srv s), (f_stop s), (f_exit s); intuition lia.
Qed.
(** Whatever the schedule, a run has at most eight steps that are not the arrival of a signal. *)
Definition rank (s : life) : nat :=
  (match f_srv s with VStarting => 4 | VUp => 3 | VClosing => 2 | VClosed | VFailed => 1 | VDone => 0 end
   + match f_stop s with TWait => 3 | TStop => 2 | TAwait => 1 | TDone => 0 end + if f_exit s then 0 else 1)%nat.
Theorem C65_ends tr s : lives tr s → (length tr ≤ 8 + times MSignal tr)%nat.
Proof.
  intros Hl. cut (length tr + rank s ≤ 8 + times MSignal tr)%nat; [lia|].
  induction Hl as [|tr s l s' Hl IH Hs]; [done|]. rewrite app_length, times_snoc. simpl.
  destruct (decide (l = MSignal)) as [->|Hn].
  - assert (rank s' = rank s) by (inversion Hs; subst; done). lia.
  - assert (rank s' < rank s)%nat; [|lia]. inversion Hs; subst; try done; unfold rank; cbn [f_srv f_stop f_exit]; rewrite ?H, ?H0, ?H1; try lia.
Qed.

(** ** It ends when told to *)
Lemma stuck_done s : settled s → f_stop s = TDone ∨ (f_stop s = TWait ∧ f_sig s = 0%nat ∧ f_err s = 0%nat).
Proof.
  intros Hs. destruct (f_stop s) eqn:E.
  - right. split; [done|]. split.
    + destruct (f_sig s) eqn:Eg; [done|]. destruct (Hs _ _ (ms_on_signal s _ E Eg)) as [|[|[|]]]; done.
    + destruct (f_err s) eqn:Eg; [done|]. destruct (Hs _ _ (ms_on_error s _ E Eg)) as [|[|[|]]]; done.
  - exfalso. destruct (f_srv s) eqn:Ev.
    1,4-6: destruct (Hs _ _ (ms_missed s E ltac:(rewrite Ev; done))) as [|[|[|]]]; done.
    + destruct (Hs _ _ (ms_asked s E Ev)) as [|[|[|]]]; done.
    + destruct (Hs _ _ (ms_asked_again s E Ev)) as [|[|[|]]]; done.
  - exfalso. destruct (Hs _ _ (ms_late s E)) as [|[|[|]]]; done.
  - by left.
Qed.
Lemma stuck_srv tr s : inv tr s → settled s → f_srv s = VStarting ∨ f_srv s = VUp ∨ f_srv s = VDone.
Proof.
  intros (H1 & H2 & H3 & H4) Hs. destruct (f_srv s) eqn:E; auto; exfalso.
  - destruct (Hs _ _ (ms_shutdown s E)) as [|[|[|]]]; done.
  - destruct (Hs _ _ (ms_return s E)) as [|[|[|]]]; done.
  - unfold chan_ok in H3. assert (f_err s < err_cap)%nat as Hc by (unfold err_cap; intuition lia).
    destruct (Hs _ _ (ms_report s E Hc)) as [|[|[|]]]; done.
Qed.
Lemma stuck_exit tr s : inv tr s → settled s → f_srv s = VDone → f_stop s = TDone → MExit ∈ tr.
Proof.
  intros (H1 & H2 & H3 & H4) Hs Ev Et. unfold exit_ok in H4. destruct (f_exit s) eqn:Ex; [apply times_in; lia|].
  destruct (Hs _ _ (ms_exit s Ev Et Ex)) as [|[|[|]]]; done.
Qed.
(** When the address cannot be served the process ends by itself. *)
Theorem C65_failure tr s : lives tr s → MFail ∈ tr → settled s → MExit ∈ tr.
Proof.
  intros Hl Hf Hs. apply lives_inv in Hl as Hi. destruct (stuck_srv _ _ Hi Hs) as [E|[E|E]];
    pose proof Hi as (H1 & H2 & H3 & H4); unfold srv_ok in H1; rewrite E in H1; apply times_in in Hf; [lia|lia|].
  destruct (stuck_done s Hs) as [Et|(Et & E1 & E2)]; [by eapply stuck_exit|].
  unfold chan_ok in H3. intuition lia.
Qed.

Lemma stopped_late tr s : lives tr s → no_early_signal tr → MUp ∈ tr →
  match f_stop s with TAwait | TDone => f_srv s = VClosing ∨ f_srv s = VClosed ∨ f_srv s = VDone | _ => True end.
Proof.
  induction 1 as [|tr s l s' Hl IH Hs]; [by intros _ ?%elem_of_nil|]. intros Hn Hu.
  assert (Hn' : no_early_signal tr) by (intros t1 t2 ->; apply (Hn t1 (t2 ++ [l])); by rewrite <-app_assoc).
  apply lives_inv in Hl as (H1 & H2 & H3 & H4).
  destruct (decide (l = MUp)) as [->|Hl'].
  - assert (H5 : MSignal ∉ tr) by (by apply (Hn tr [])). rewrite times_in in H5.
    inversion Hs; subst; cbn [f_stop f_srv]. unfold srv_ok, stop_ok, chan_ok in *. rewrite H in *.
    destruct (f_stop s); try done; intuition lia.
  - apply elem_of_app in Hu as [Hu|Hu%elem_of_list_singleton]; [|congruence]. specialize (IH Hn' Hu).
    apply times_in in Hu. unfold srv_ok in H1.
    inversion Hs; subst; cbn [f_stop f_srv]; repeat match goal with H : f_stop s = _ |- _ => rewrite H in * | H : f_srv s = _ |- _ => rewrite H in * end; auto;
      try (destruct (f_stop s); intuition congruence); try (destruct (f_srv s); intuition (congruence || lia)).
Qed.
(** A server that has begun to serve and then gets its first signal ends. *)
Theorem C65_signal_partial tr s : lives tr s → MUp ∈ tr → MSignal ∈ tr → no_early_signal tr → settled s → MExit ∈ tr.
Proof.
  intros Hl Hu Hg Hn Hs. pose proof (stopped_late _ _ Hl Hn Hu) as Hk. apply lives_inv in Hl as Hi.
  pose proof Hi as (H1 & H2 & H3 & H4). apply times_in in Hg. apply times_in in Hu.
  destruct (stuck_done s Hs) as [Et|(Et & E1 & E2)]; [|unfold chan_ok in H3; intuition lia].
  rewrite Et in Hk. destruct (stuck_srv _ _ Hi Hs) as [E|[E|E]]; [rewrite E in Hk; intuition congruence..|]. by eapply stuck_exit.
Qed.

(** The full claim: a server that serves and has been sent a signal, at any time, ends. *)
Definition signals_end : Prop := ∀ tr s, lives tr s → MUp ∈ tr → MSignal ∈ tr → settled s → MExit ∈ tr.

Lemma lives_on_app t1 s1 t2 s2 : lives t1 s1 → lives_on s1 t2 s2 → lives (t1 ++ t2) s2.
Proof.
  intros H Ho. revert t1 H. induction Ho as [|s l s1 tr s2 Hs Ho IH]; intros t1 H; [by rewrite app_nil_r|].
  change (l :: tr) with ([l] ++ tr). rewrite app_assoc. apply IH. by econstructor.
Qed.
Lemma lives_on_snoc s1 tr s2 l s3 : lives_on s1 tr s2 → mstep s2 l s3 → lives_on s1 (tr ++ [l]) s3.
Proof. induction 1; intros; simpl; econstructor; eauto using lives_on. Qed.
Lemma lives_split tr s : lives tr s → ∀ t1 t2, tr = t1 ++ t2 → ∃ s1, lives t1 s1 ∧ lives_on s1 t2 s.
Proof.
  induction 1 as [|tr s l s' Hl IH Hs]; intros t1 t2 E.
  { destruct t1, t2; try done. eexists; split; constructor. }
  destruct t2 as [|x t2' _] using rev_ind.
  - rewrite app_nil_r in E. subst t1. eexists; split; [by econstructor|constructor].
  - rewrite app_assoc in E. apply app_inj_tail in E as [E ->]. destruct (IH _ _ E) as (s1 & H1 & H2).
    exists s1. split; [done|]. by eapply lives_on_snoc.
Qed.
Definition deaf (s : life) : Prop := f_stop s = TDone ∧ (f_srv s = VStarting ∨ f_srv s = VUp) ∧ f_exit s = false.
Lemma deaf_step s l s' : deaf s → mstep s l s' → l ≠ MBreak → l ≠ MFail → deaf s' ∧ l ≠ MExit ∧ l ≠ MShutdown.
Proof. intros (H1 & H2 & H3) Hs Hb Hf. unfold deaf. inversion Hs; subst; cbn [f_stop f_srv f_exit]; intuition congruence. Qed.
Lemma deaf_on s tr s' : lives_on s tr s' → deaf s → MBreak ∉ tr → MFail ∉ tr → deaf s' ∧ MExit ∉ tr ∧ MShutdown ∉ tr.
Proof.
  induction 1 as [|s l s1 tr s2 Hs Ho IH]; intros Hd Hb Hf; [split; [done|]; split; apply not_elem_of_nil|].
  apply not_elem_of_cons in Hb as [Hb1 Hb2]. apply not_elem_of_cons in Hf as [Hf1 Hf2].
  destruct (deaf_step _ _ _ Hd Hs) as (Hd' & Hx & Hy); [congruence..|]. destruct (IH Hd' Hb2 Hf2) as (? & ? & ?).
  split; [done|]. rewrite !not_elem_of_cons. intuition congruence.
Qed.
Lemma lives_on_trans s1 t1 s2 t2 s3 : lives_on s1 t1 s2 → lives_on s2 t2 s3 → lives_on s1 (t1 ++ t2) s3.
Proof. induction 1; [done|]. intros. simpl. econstructor; eauto. Qed.
(** It is false.  When Stop finds no server because the server has not yet begun to serve, and the server then does begin,
    no number of signals ever ends the process or stops the server. *)
Theorem C65_deaf tr s t1 t2 tr' s' : lives tr s → tr = t1 ++ MMissed :: t2 → MUp ∉ t1 → MUp ∈ t2 → MBreak ∉ t2 →
  lives_on s tr' s' → MBreak ∉ tr' → MExit ∉ tr ++ tr' ∧ MShutdown ∉ tr ++ tr'.
Proof.
  intros Hl E H1 H2 H3 Ho H4.
  assert (HF : MFail ∉ tr ++ tr').
  { pose proof (lives_inv _ _ (lives_on_app _ _ _ _ Hl Ho)) as (Hv & _). rewrite times_in.
    assert (Hu : MUp ∈ tr ++ tr') by (subst tr; set_solver). apply times_in in Hu. unfold srv_ok in Hv.
    destruct (f_srv s'); intuition lia. }
  destruct (lives_split _ _ Hl _ _ E) as (s1 & L1 & L2). inversion L2 as [|? ? s2 ? ? M1 M2]; subst.
  assert (Hv : f_srv s1 = VStarting).
  { apply lives_inv in L1 as I. destruct I as (I & _). unfold srv_ok in I. rewrite times_in in H1.
    assert (HF' : ¬ (0 < times MFail t1)%nat) by (rewrite <-times_in; set_solver).
    destruct (f_srv s1); intuition lia. }
  assert (Hx : f_exit s1 = false ∧ MExit ∉ t1 ∧ MShutdown ∉ t1).
  { apply lives_inv in L1 as (I1 & _ & _ & I4). unfold srv_ok, exit_ok in *. rewrite !times_in. rewrite Hv in *.
    destruct (f_exit s1); intuition (done || lia). }
  assert (Hd : deaf s2) by (inversion M1; subst; unfold deaf; cbn [f_stop f_srv f_exit]; intuition congruence).
  destruct (deaf_on s2 (t2 ++ tr') s') as (_ & Hy); [by eapply lives_on_trans|done|set_solver|set_solver|].
  set_solver.
Qed.
(** such a run *)
Definition early : list mlabel := [MSignal; MCallStop; MMissed; MUp].
Lemma early_lives : lives early (Life VUp TDone 0 0 false).
Proof.
  change early with (((([] ++ [MSignal]) ++ [MCallStop]) ++ [MMissed]) ++ [MUp]).
  eapply lives_step; [eapply lives_step; [eapply lives_step; [eapply lives_step; [apply lives_init|]|]|]|].
  - by apply ms_signal; [|apply Nat.lt_0_1].
  - by eapply ms_on_signal.
  - by apply ms_missed.
  - by apply ms_up.
Qed.
Theorem C65_signals_end_refuted : ¬ signals_end.
Proof.
  intros H. assert (Hx : MExit ∈ early).
  { apply (H _ _ early_lives); [set_solver|set_solver|]. intros l s' Hs. unfold outside. inversion Hs; subst; simpl in *; intuition congruence. }
  unfold early in Hx. set_solver.
Qed.
(** Nor does the process end when the network layer fails while serving: it stays, serving nothing, until a signal comes. *)
Theorem C65_break_stays : ∃ tr s, lives tr s ∧ MShutdown ∈ tr ∧ settled s ∧ MExit ∉ tr.
Proof.
  exists [MUp; MBreak; MShutdown; MStep], (Life VDone TWait 0 0 false). split; [|split; [set_solver|split; [|set_solver]]].
  - change [MUp; MBreak; MShutdown; MStep] with (((([] ++ [MUp]) ++ [MBreak]) ++ [MShutdown]) ++ [MStep]).
    eapply lives_step; [eapply lives_step; [eapply lives_step; [eapply lives_step; [apply lives_init|]|]|]|].
    + by apply ms_up.
    + by apply ms_break.
    + by apply ms_shutdown.
    + by apply ms_return.
  - intros l s' Hs. unfold outside. inversion Hs; subst; simpl in *; intuition congruence.
Qed.

(** ** The hypotheses are met *)
Theorem C65_demo :
  (∃ tr s, lives tr s ∧ MUp ∈ tr ∧ MSignal ∈ tr ∧ no_early_signal tr ∧ settled s ∧ MLate ∈ tr) ∧
  (∃ tr s, lives tr s ∧ MFail ∈ tr ∧ settled s) ∧
  (∃ tr s t1 t2 tr' s', lives tr s ∧ tr = t1 ++ MMissed :: t2 ∧ MUp ∉ t1 ∧ MUp ∈ t2 ∧ MBreak ∉ t2 ∧ lives_on s tr' s' ∧ MBreak ∉ tr' ∧ times MSignal tr' = 3%nat).
Proof.
  split; [|split].
  - exists [MUp; MSignal; MCallStop; MAsked; MLate; MShutdown; MStep; MSignal; MExit], (Life VDone TDone 1 0 true).
    change [MUp; MSignal; MCallStop; MAsked; MLate; MShutdown; MStep; MSignal; MExit] with
      ((((((((([] ++ [MUp]) ++ [MSignal]) ++ [MCallStop]) ++ [MAsked]) ++ [MLate]) ++ [MShutdown]) ++ [MStep]) ++ [MSignal]) ++ [MExit]).
    split; [|split; [set_solver|split; [set_solver|split; [|split; [|set_solver]]]]].
    + eapply lives_step; [eapply lives_step; [eapply lives_step; [eapply lives_step; [eapply lives_step; [eapply lives_step; [eapply lives_step; [eapply lives_step; [eapply lives_step; [apply lives_init|]|]|]|]|]|]|]|]|].
      * by apply ms_up.
      * apply ms_signal; [done|apply Nat.lt_0_1].
      * by eapply ms_on_signal.
      * by apply ms_asked.
      * by apply ms_late.
      * by apply ms_shutdown.
      * by apply ms_return.
      * apply ms_signal; [done|apply Nat.lt_0_1].
      * by apply ms_exit.
    + intros t1 t2 E. cbn [app] in E. destruct t1 as [|x t1]; [apply not_elem_of_nil|]. exfalso. cbn [app] in E. injection E as _ E.
      do 8 (destruct t1 as [|? t1]; [discriminate E|]; cbn [app] in E; injection E as _ E). by destruct t1.
    + intros l s' Hs. unfold outside. inversion Hs; subst; simpl in *; intuition congruence.
  - exists [MFail; MStep; MCallStop; MMissed; MExit], (Life VDone TDone 0 0 true).
    change [MFail; MStep; MCallStop; MMissed; MExit] with ((((([] ++ [MFail]) ++ [MStep]) ++ [MCallStop]) ++ [MMissed]) ++ [MExit]).
    split; [|split; [set_solver|]].
    + eapply lives_step; [eapply lives_step; [eapply lives_step; [eapply lives_step; [eapply lives_step; [apply lives_init|]|]|]|]|].
      * by apply ms_fail.
      * apply ms_report; [done|apply Nat.lt_0_1].
      * by eapply ms_on_error.
      * by apply ms_missed.
      * by apply ms_exit.
    + intros l s' Hs. unfold outside. inversion Hs; subst; simpl in *; intuition congruence.
  - exists early, (Life VUp TDone 0 0 false), [MSignal; MCallStop], [MUp], [MSignal; MSignal; MSignal], (Life VUp TDone 1 0 false).
    split; [apply early_lives|]. split; [done|]. split; [set_solver|]. split; [set_solver|]. split; [set_solver|]. split; [|split; [set_solver|done]].
    eapply on_cons; [apply ms_signal; [done|apply Nat.lt_0_1]|]. eapply on_cons; [by apply ms_signal_full|]. eapply on_cons; [by apply ms_signal_full|]. constructor.
Qed.
