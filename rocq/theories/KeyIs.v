(** Keys with a known life: a key that did not exist at some moment and about which, since then, only requests
    with a promise (SpecKey.v) were made, has a definite abstract value. *)
From Verif Require Import GoBase GoBaseProofs ShardMap Float64 Db Protocol Redis Obs SpecCmd SpecResp SpecServer SpecFrame SpecKey KeyHist
  DbInv ExecSteps Sim SimMain PropBase.

(** At some moment (state [d0]) EXISTS k was 0; the requests since then got replies as the specification [step]
    promises, and the abstract value of [k] is now [s].  With [lucky] the towers drawn by ZADD and ZINCR
    stay below the maximal height. *)
Definition key_is (ext : Ext) {A} (lucky : bool) (step : list string → option A → option (resp → option A → Prop)) (k : string)
    (s : option A) (d : db) : Prop :=
  ∃ d0 h rs, reachable ext d0 ∧ answers ext d0 ["EXISTS"; k] (RInt 0) ∧ (lucky = true → calm h) ∧
    talk ext h d0 = Ret (d, rs) ∧ consistent step k None (h.*2) rs s.

(** the reply determines the new value *)
Definition determined {A} (step : list string → A → option (resp → A → Prop)) : Prop :=
  ∀ req s R, step req s = Some R → ∀ r a b, R r a → R r b → a = b.

Lemma read_only_plain name a : bool_decide (to_lower name ∈ read_only) = true → one_source_store (name :: a) = false.
Proof.
  intros Hr. unfold one_source_store. destruct a as [|x [|y [|]]]; try done.
  destruct (String.eqb_spec (to_lower name) "sdiffstore") as [Hn|_]; [rewrite Hn in Hr; by vm_compute in Hr|].
  destruct (String.eqb_spec (to_lower name) "sinterstore") as [Hn|_]; [rewrite Hn in Hr; by vm_compute in Hr|].
  destruct (String.eqb_spec (to_lower name) "sunionstore") as [Hn|_]; [rewrite Hn in Hr; by vm_compute in Hr|done].
Qed.
(** a request naming [k] first is about it *)
Lemma about_first k name a : (bool_decide (to_lower name ∈ questions) || bool_decide (k ∈ writes (name :: k :: a))) = true → about k (name :: k :: a) = true.
Proof.
  intros H. unfold about, touched. apply orb_true_iff in H as [H|H].
  - rewrite H, String.eqb_refl. by rewrite orb_true_r.
  - apply bool_decide_eq_true in H. apply orb_true_iff. left. apply bool_decide_eq_true. apply elem_of_app. by left.
Qed.

Section generic.
Context (ext : Ext) {A : Type} (lucky : bool) (step : list string → option A → option (resp → option A → Prop)) (k : string).
Context (corr : option A → option aval → Prop).
Context (ok : ∀ req s R m, corr s (m !! k) → about k req = true → step req s = Some R → promise ext (negb lucky) k corr req s R m).
Context (det : determined step) (corr0 : corr None None).

Lemma consistent_corr h : ∀ s m rs m' s', behaves ext (negb lucky) m h rs m' → corr s (m !! k) → consistent step k s h rs s' → corr s' (m' !! k).
Proof.
  induction h as [|req h IH]; intros s m rs m' s' B C W; [inversion B; inversion W; by subst|].
  inversion B as [|? ? r m1 ? rs1 ? V B1]; subst. inversion W as [|? ? R r0 s1 ? ? ? Ea Es HR W1|? ? ? ? ? ? Ea W1]; subst.
  - destruct (ok req s R m C Ea Es) as (_ & _ & H). destruct (H _ _ V) as (r' & s2 & [= <-] & HR2 & C2).
    rewrite <- (det _ _ _ Es _ _ _ HR HR2) in C2. by eapply IH.
  - eapply IH; [done| |done]. rewrite (sstep_other _ _ _ _ _ _ k V); [done|].
    unfold about in Ea. apply orb_false_iff in Ea as [Ea _]. by apply bool_decide_eq_false in Ea.
Qed.
Lemma behaves_of h d m d' rs : sim d m → (lucky = true → calm h) → talk ext h d = Ret (d', rs) →
  ∃ m', behaves ext (negb lucky) m (h.*2) rs m' ∧ sim d' m'.
Proof. intros S Lo H. destruct lucky; [by apply (talk_behaves ext h d m d' rs S); [apply Lo|]|by apply (talk_behaves_any ext h d m d' rs S)]. Qed.
Lemma key_is_corr s d : key_is ext lucky step k s d → ∃ m, sim d m ∧ corr s (m !! k).
Proof.
  intros (d0 & h & rs & Hr & Ha & Lo & Ht & W). pose proof (reachable_inv _ _ Hr) as I.
  destruct (behaves_of h d0 (coarse d0) d rs (coarse_sim d0 I) Lo Ht) as (m & B & S). exists m. split; [done|].
  eapply consistent_corr; [done| |done]. by rewrite (absent_coarse ext d0 k I Ha).
Qed.
Lemma key_is_reachable s d : key_is ext lucky step k s d → reachable ext d.
Proof.
  intros (d0 & h & rs & (h0 & rs0 & Hr) & Ha & Lo & Ht & W). exists (h0 ++ h), (rs0 ++ rs). rewrite talk_app, Hr. cbn [obind]. by rewrite Ht.
Qed.
Lemma key_is_absent d : reachable ext d → answers ext d ["EXISTS"; k] (RInt 0) → key_is ext lucky step k None d.
Proof. intros Hr Ha. exists d, [], []. repeat split; [done|done|constructor|constructor]. Qed.
Lemma consistent_app s1 h1 rs1 s2 h2 rs2 s3 : consistent step k s1 h1 rs1 s2 → consistent step k s2 h2 rs2 s3 →
  consistent step k s1 (h1 ++ h2) (rs1 ++ rs2) s3.
Proof. intros Hc. induction Hc; intros Hd; simpl; [done|econstructor; eauto|econstructor; eauto]. Qed.
Lemma key_is_next s d h d' rs : key_is ext lucky step k s d → (lucky = true → calm h) → talk ext h d = Ret (d', rs) → within step k s (h.*2) →
  ∃ s', consistent step k s (h.*2) rs s' ∧ key_is ext lucky step k s' d'.
Proof.
  intros K Lo H W. destruct (key_is_corr s d K) as (m & S & C). destruct (behaves_of h d m d' rs S Lo H) as (m' & B & S').
  destruct (behaves_consistent ext (negb lucky) step k corr ok _ _ _ _ _ B C W) as (s' & Cs & C'). exists s'. split; [done|].
  destruct K as (d0 & h0 & rs0 & Hr & Ha & Lo0 & Ht & W0). exists d0, (h0 ++ h), (rs0 ++ rs). repeat split; try done.
  - intros El. apply Forall_app. split; [by apply Lo0|by apply Lo].
  - rewrite talk_app, Ht. cbn [obind]. by rewrite H.
  - rewrite fmap_app. by eapply consistent_app.
Qed.
Lemma key_is_served s d h : key_is ext lucky step k s d → (lucky = true → calm h) → within step k s (h.*2) → Forall (λ x, about k x.2 = true) h →
  ∃ d' rs, talk ext h d = Ret (d', rs).
Proof.
  intros K Lo W F. destruct (key_is_corr s d K) as (m & S & C). destruct lucky.
  - by apply (key_survives_calm ext step k corr ok h d m s S (Lo eq_refl)).
  - by apply (key_survives ext step k corr ok h d m s S).
Qed.
(** one request *)
Lemma key_is_step s d c req R : key_is ext lucky step k s d → (lucky = true → calm_req c req) → about k req = true → step req s = Some R →
  ∃ d' r s', ask ext c req d = Ret (d', Some r) ∧ R r s' ∧ key_is ext lucky step k s' d'.
Proof.
  intros K Lo Ea Es. assert (W : within step k s ([(c, req)].*2)) by (cbn; by rewrite Ea, Es).
  assert (Lo' : lucky = true → calm [(c, req)]) by (intros E; constructor; [by apply Lo|constructor]).
  destruct (key_is_served s d [(c, req)] K Lo' W) as (d' & rs & H); [by repeat constructor|].
  destruct (key_is_next s d [(c, req)] d' rs K Lo' H W) as (s' & Cs & K').
  cbn [talk] in H. apply obind_ret in H as ([d1 r] & E1 & H). cbn [obind] in H. injection H as <- <-.
  inversion Cs as [|? ? R' r0 s1 ? ? ? Ea' Es' HR W1|? ? ? ? ? ? Ea' W1]; subst; [|congruence].
  inversion W1; subst. rewrite Es in Es'. injection Es' as <-. by exists d1, r0, s'.
Qed.
Lemma key_is_does s d name a r s' : key_is ext lucky step k s d → not_tossing name → about k (name :: a) = true → step (name :: a) s = exactly r s' →
  does ext d (name :: a) r (key_is ext lucky step k s').
Proof.
  intros K Ht Ea Es c. destruct (key_is_step s d c (name :: a) (λ r' s1, r' = r ∧ s1 = s') K) as (d' & r' & s1 & E & [-> ->] & K');
    [intros _; by apply calm_other|done|done|]. by exists d'.
Qed.
Lemma key_is_answers s d name a r s' : key_is ext lucky step k s d → not_tossing name → bool_decide (to_lower name ∈ read_only) = true →
  about k (name :: a) = true → step (name :: a) s = exactly r s' → answers ext d (name :: a) r.
Proof.
  intros K Ht Hr Ea Es c. destruct (key_is_does s d name a r s' K Ht Ea Es c) as (d' & E & K'). rewrite E.
  assert (Hw : writes (name :: a) = []) by (unfold writes; by rewrite Hr).
  rewrite (ask_reads ext c (name :: a) d d' (Some r)); [done| | |by apply read_only_plain|done]; [|done].
  by apply reachable_inv with ext, (key_is_reachable s).
Qed.
End generic.

Lemma table_determined {A} (t : ktable A) :
  Forall (λ nf : string * (list string → A → option (resp → A → Prop)), ∀ a s (R : resp → A → Prop), nf.2 a s = Some R → ∀ r x y, R r x → R r y → x = y) t → determined (table_step t).
Proof.
  intros H req s R. destruct req as [|name [|k' a]]; try done. cbn [table_step].
  destruct (find_cmd (to_lower name) t) as [f|] eqn:E; [|done]. assert (∃ n, (n, f) ∈ t) as [n Hn].
  { clear H. induction t as [|[n g] t IH]; [done|]. cbn [find_cmd] in E. destruct (String.eqb n (to_lower name)).
    - injection E as ->. exists n. by left.
    - destruct (IH E) as [n' Hn']. exists n'. by right. }
  rewrite Forall_forall in H. by apply (H (n, f)).
Qed.
Lemma exactly_determined {A} (r0 : resp) (s0 : A) R : exactly r0 s0 = Some R → ∀ r x y, R r x → R r y → x = y.
Proof. intros [= <-] r x y [_ ->] [_ ->]. done. Qed.
Ltac table_det := unfold key_commands; cbn [app];
  repeat (apply Forall_cons; split); [..|by apply Forall_nil]; intros a s R E; cbn [snd] in E; cbv zeta in E; unfold add_int, int_arg in E;
  repeat match type of E with context [match ?x with _ => _ end] => destruct x end; try done; try (by eapply exactly_determined).
Lemma list_determined : determined list_step.
Proof. apply table_determined. unfold list_commands. table_det. Qed.
Lemma string_determined : determined string_step.
Proof. apply table_determined. unfold string_commands. table_det. Qed.
Lemma zset_determined ext : determined (zset_step ext).
Proof. apply table_determined. unfold zset_commands. table_det. Qed.
Lemma bulks_inj l1 l2 : bulks l1 = bulks l2 → l1 = l2.
Proof.
  unfold bulks. intros [= H]. revert l2 H. induction l1 as [|x l1 IH]; intros [|y l2] H; try done. injection H as -> H. f_equal. by apply IH.
Qed.
Lemma set_determined : determined set_step.
Proof.
  apply table_determined. unfold set_commands. table_det.
  all: injection E as <-; intros r x y H1 H2.
  all: try (by destruct H1 as [-> _], H2 as [-> _]).
  all: destruct H1 as (l1 & -> & _ & _ & _ & ->), H2 as (l2 & E & _ & _ & _ & ->); by rewrite ?(bulks_inj _ _ E).
Qed.

Lemma table_row {A} (t : ktable A) name k a s f : find_cmd (to_lower name) t = Some f → table_step t (name :: k :: a) s = f a s.
Proof. intros H. cbn [table_step]. by rewrite H. Qed.
(** the row of the table *)
Ltac row := match goal with |- ?st (_ :: _ :: _) ?s = _ => unfold st end; erewrite table_row by reflexivity; cbv beta iota.
