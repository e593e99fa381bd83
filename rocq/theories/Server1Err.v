(** Invariants of the v1 server: what makes a handler close its connection, or the process die. *)
From Verif Require Import GoBase GoBaseProofs Float64 Db Protocol Redis Obs SpecResp SpecWire SpecStream RespProofs P_Wire Stream StreamProofs
  Server SpecServing ServerProofs P_Serve P_ServeMore Server1 SpecServing1 Server1Proofs Server1More.

Section err1.
Context (ext : Ext) (max : Z).
Notation step1 := (step1 ext max).
Notation runs1 := (runs1 ext max).

Lemma proj_pool tr t : proj max tr t → ∀ l, l ∈ t → match l with LDeliver _ _ _ | LPrint _ _ | LWrite _ _ _ => True | _ => VPool l ∈ tr end.
Proof.
  induction 1 as [|tr t x ls H IH M]; intros l Hin; [by apply elem_of_nil in Hin|]. apply elem_of_app in Hin as [Hin|Hin].
  - specialize (IH _ Hin). destruct l; try done; set_solver.
  - destruct x; simpl in M; try (subst ls; by apply elem_of_nil in Hin).
    + destruct M as (f & _ & ->). apply elem_of_cons in Hin as [->|Hin]; [done|]. by apply elem_of_list_singleton in Hin as ->.
    + subst ls. by apply elem_of_list_singleton in Hin as ->.
    + destruct M as (b & ->). by apply elem_of_list_singleton in Hin as ->.
    + subst ls. apply elem_of_list_singleton in Hin as ->. destruct l0; try done; set_solver.
Qed.
Lemma stopped_stop tr s : runs1 tr s → c_stop (v_pool s) ≠ SRun → VStop ∈ tr.
Proof.
  intros R E. destruct (projection _ _ _ _ R) as (t & Hp & Ht). specialize (Ht (S (length tr)) ltac:(lia)).
  apply (stop_label _ _ _ _ _ Ht) in E. apply (proj_pool _ _ Hp) in E. destruct (pool_labels _ _ _ _ R _ E) as [?|[_ ?]]; done.
Qed.
Lemma cancelled_stop tr s : runs1 tr s → v_cancelled s = true → VStop ∈ tr.
Proof.
  induction 1 as [|tr s l s' R IH NC St]; [done|]. rewrite in_snoc. destruct St; simpl; auto. intros _. left. eapply stopped_stop; [done|]. congruence.
Qed.

(** the bytes that have arrived contain something that is no request, where the decoder looks for one *)
Definition bad_stream (reads : list string) : Prop := ∃ rs rd1 rd2, streams max (Rd "" reads None) rs rd1 ∧ stream_decode max rd1 = Ret (Fail BadInput rd2).
Definition wrong (k : nat) (tr : list vlabel) : Prop := bad_stream (arrived k tr) ∨ (∃ x, VEnd k x ∈ tr) ∨ (∃ g, VDrop k g ∈ tr) ∨ VStop ∈ tr.
Lemma bad_mono reads more : bad_stream reads → bad_stream (reads ++ more).
Proof.
  intros (rs & rd1 & rd2 & H1 & H2). exists rs, (grow more None rd1), (grow more None rd2). split; [by apply (streams_grow max more None) in H1|].
  pose proof (stream_decode_grow max rd1 more None) as G. by rewrite H2 in G.
Qed.
Lemma wrong_mono k tr l : wrong k tr → wrong k (tr ++ [l]).
Proof.
  unfold wrong. rewrite arrived_snoc. intros [H|[[x H]|[[g H]|H]]]; [left; by apply bad_mono|right..]; [left; exists x|right; left; exists g|right; right]; rewrite in_snoc; auto.
Qed.

Definition errors (c : conn) : Prop := k_echan c = true ∨ match k_rg c with RDecode | RSend _ => False | _ => True end ∨ k_rclosed c = true ∨ k_eclosed c = true.
Definition closing (c : conn) : Prop := k_h c = HClose ∨ k_h c = HEnd.
Definition ending_rg (c : conn) : Prop := match k_rg c with RFail true | RClose1 | RClose2 | RDone => True | _ => False end ∨ k_rclosed c = true.
Record einv (k : nat) (tr : list vlabel) (c : conn) : Prop := {
  e_wrong : errors c ∨ closing c → wrong k tr;
  e_final : k_h c ≠ HEnd → ending_rg c → VEnd k PeerClosed ∈ tr;
  e_closed : k_h c = HEnd ↔ rd_end (k_rd c) = Some WeClosed;
  e_end : ∀ x, rd_end (k_rd c) = Some x → x ≠ WeClosed → VEnd k x ∈ tr;
}.
Lemma einv_frame k tr l c : einv k tr c → einv k (tr ++ [l]) c.
Proof.
  intros [E1 E2 E3 E4]. split; [|..|done|].
  - intros H. by apply wrong_mono, E1.
  - intros H1 H2. rewrite in_snoc. auto.
  - intros x Hx Nx. rewrite in_snoc. auto.
Qed.
Lemma einv_open k tr : einv k tr conn_new.
Proof. split; cbn; [intros [[?|[?|[?|?]]]|[?|?]]; done|intros _ [?|?]; done|done|done]. Qed.
(** same handler, reader with the same end *)
Lemma einv_same k tr c c' : einv k tr c → k_h c' = k_h c → rd_end (k_rd c') = rd_end (k_rd c) → (errors c' → errors c ∨ wrong k tr) → (k_h c ≠ HEnd → ending_rg c' → ending_rg c ∨ VEnd k PeerClosed ∈ tr) → einv k tr c'.
Proof.
  intros [E1 E2 E3 E4] Hh He Hr Hg. split.
  - unfold closing. rewrite Hh. intros [H|H]; [destruct (Hr H); [by apply E1; left|done]|apply E1; by right].
  - rewrite Hh. intros H1 H2. destruct (Hg H1 H2); [by apply E2|done].
  - by rewrite Hh, He.
  - rewrite He. done.
Qed.
Lemma bad_of k tr c rd' : sinv max k tr c → k_h c ≠ HEnd → stream_decode max (k_rd c) = Ret (Fail BadInput rd') → bad_stream (arrived k tr).
Proof.
  intros (rs & rd0 & S1 & S2 & _) Hh E. destruct (S2 Hh) as [_ [S3|[x S3]]]; [|rewrite S3, exhausted_decode in E; done]. exists rs, rd0, (grow [] None rd'). split; [done|].
  pose proof (open_decode max (k_rd c)) as D. rewrite E in D. simpl in D. by rewrite <- S3.
Qed.
Lemma einv_step tr s l s' : runs1 tr s → step1 s l s' → (∀ k c, v_conns s !! k = Some c → einv k tr c) → ∀ k c, v_conns s' !! k = Some c → einv k (tr ++ [l]) c.
Proof.
  intros R St IH.
  assert (v_conns s' = v_conns s → ∀ k c, v_conns s' !! k = Some c → einv k (tr ++ [l]) c) as Same by (intros E k c Hc; rewrite E in Hc; by apply einv_frame, IH).
  assert (∀ k c', v_conns s' = <[k := c']> (v_conns s) → einv k (tr ++ [l]) c' → ∀ k c, v_conns s' !! k = Some c → einv k (tr ++ [l]) c) as One.
  { intros k c' E Hc' k0 c0 Hc0. rewrite E in Hc0. destruct (decide (k0 = k)) as [->|N]; [rewrite lookup_insert in Hc0; by injection Hc0 as <-|]. rewrite lookup_insert_ne in Hc0 by done. by apply einv_frame, IH. }
  assert (∀ k c, v_conns s !! k = Some c → einv k (tr ++ [l]) c) as IH' by (intros; by apply einv_frame, IH).
  assert (∀ k c, v_conns s !! k = Some c → sinv max k tr c) as SI by (intros k c Hc; pose proof (sall_runs _ _ _ _ R k) as S; by rewrite Hc in S).
  (* a handler leaves its loop *)
  assert (∀ k c c', v_conns s !! k = Some c → v_conns s' = <[k := c']> (v_conns s) → k_h c ≠ HEnd → k_h c' = HClose → k_rd c' = k_rd c → (ending_rg c' → ending_rg c) → wrong k (tr ++ [l]) → ∀ k c, v_conns s' !! k = Some c → einv k (tr ++ [l]) c) as Leave.
  { intros k c c' Hc Hs Hh Hh' Hrd He W. eapply One; [exact Hs|]. destruct (IH' _ _ Hc) as [I1 I2 I3 I4]. split; [done|intros _ H; by apply I2, He|rewrite Hh', Hrd|by rewrite Hrd].
    split; [done|]. intros H. by apply I3 in H. }
  destruct St; try (by apply Same).
  - (* open *) eapply One; [reflexivity|]. apply einv_open.
  - (* arrive *) eapply One; [reflexivity|]. eapply einv_same; [by apply IH'|done|cbn; congruence|by left|by left].
  - (* end *) eapply One; [reflexivity|]. destruct (IH' _ _ H) as [I1 I2 I3 I4]. split; cbn.
    + intros _. right. left. exists x. rewrite in_snoc. auto.
    + done.
    + split; [|congruence]. intros Hh. apply I3 in Hh. destruct H0; congruence.
    + intros y [= <-] _. rewrite in_snoc. auto.
  - (* got *) eapply One; [reflexivity|]. pose proof (stream_decode_ok max (k_rd c)) as X. rewrite H1 in X. destruct X as (_ & X & _). eapply einv_same; [by apply IH'|done|done|..]; unfold errors, ending_rg; cbn; rewrite H0; tauto.
  - (* fail *) eapply One; [reflexivity|]. pose proof (stream_decode_ok max (k_rd c)) as X. rewrite H1 in X. destruct (IH' _ _ H) as [I1 I2 I3 I4]. destruct e as [y|].
    + destruct X as [X ->]. eapply einv_same; [by apply IH'|done|cbn; congruence|..].
      * intros _. right. assert (y = WeClosed ∨ y ≠ WeClosed) as [->|Ny] by (destruct y; auto); [apply I1; right; right; by apply I3|]. right. left. exists y. by apply I4.
      * intros Nh Eg. right. assert (y ≠ WeClosed) as Ny by (intros ->; by apply Nh, I3). destruct y; [by apply I4| |done]. apply I2; [done|]. right. match goal with E : ending_rg _ |- _ => destruct E as [E|E]; done end.
    + destruct X as (_ & X & _). eapply einv_same; [by apply IH'|done|done|..].
      * intros _. right. destruct (is_end c) as [Hh|Hh]; [apply I1; by right; right|]. left. rewrite arrived_snoc, app_nil_r. eapply bad_of; [by apply SI|done|done].
      * unfold ending_rg. cbn. rewrite H0. tauto.
  - (* send *) eapply One; [reflexivity|]. eapply einv_same; [by apply IH'|done|done|..]; unfold errors, ending_rg; cbn; rewrite H0; tauto.
  - (* send_err *) eapply One; [reflexivity|]. eapply einv_same; [by apply IH'|done|done|..]; unfold errors, ending_rg; cbn; rewrite H0; [auto|destruct final; tauto].
  - eapply One; [reflexivity|]. eapply einv_same; [by apply IH'|done|done|..]; unfold errors, ending_rg; cbn; rewrite H0; tauto.
  - eapply One; [reflexivity|]. eapply einv_same; [by apply IH'|done|done|..]; unfold errors, ending_rg; cbn; rewrite H0; tauto.
  - eapply Leave; [eassumption|reflexivity|congruence|done|done|done|]. right. right. right. rewrite in_snoc. left. by eapply cancelled_stop.
  - eapply Leave; [eassumption|reflexivity|congruence|done|done|done|]. apply (e_wrong _ _ _ (IH' _ _ H)). left. by left.
  - eapply Leave; [eassumption|reflexivity|congruence|done|done|done|]. apply (e_wrong _ _ _ (IH' _ _ H)). left. by right; right; right.
  - (* start *) eapply One; [reflexivity|]. destruct (IH' _ _ H) as [I1 I2 I3 I4]. assert (k_h c ≠ HEnd) as Nh by congruence. split; cbn.
    + intros [E|[E|E]]; [apply I1; by left|unfold after_start in E; by destruct (elements r)..].
    + intros _ E. by apply I2.
    + split; [unfold after_start; by destruct (elements r)|]. intros E. by apply I3 in E.
    + done.
  - eapply One; [reflexivity|]. destruct (IH' _ _ H) as [I1 I2 I3 I4]. assert (k_h c ≠ HEnd) as Nh by congruence. split; cbn; [|intros _ E; by apply I2| |done].
    + intros [E|[E|E]]; [apply I1; by left|done..].
    + split; [done|]. intros E. by apply I3 in E.
  - eapply One; [reflexivity|]. destruct (IH' _ _ H) as [I1 I2 I3 I4]. assert (k_h c ≠ HEnd) as Nh by congruence. split; cbn; [|intros _ E; by apply I2| |done].
    + intros [E|[E|E]]; [apply I1; by left|done..].
    + split; [done|]. intros E. by apply I3 in E.
  - eapply Leave; [eassumption|reflexivity|congruence|done|done|done|]. right. right. left. exists g. rewrite in_snoc. auto.
  - eapply Leave; [eassumption|reflexivity|congruence|done|done|done|]. right. right. left. exists g. rewrite in_snoc. auto.
  - (* close *) eapply One; [reflexivity|]. destruct (IH' _ _ H) as [I1 I2 I3 I4]. split; cbn; [|done|done|intros x [= <-]; done].
    intros _. apply I1. right. by left.
Qed.
Lemma einv_runs tr s : runs1 tr s → ∀ k c, v_conns s !! k = Some c → einv k tr c.
Proof. induction 1 as [|tr s l s' R IH NC St]; [intros k c; simpl; by rewrite lookup_empty|by eapply einv_step]. Qed.

(** the bytes still to be read are among those that have arrived *)
Lemma prefix_cut (l : list string) n : ∃ v, sconcat l = sconcat (take n l) +:+ v.
Proof. exists (sconcat (drop n l)). by rewrite <- sconcat_app, take_drop. Qed.
Definition finv (k : nat) (tr : list vlabel) (rd : reader) : Prop :=
  (∃ u v, sconcat (arrived k tr) = u +:+ flat rd +:+ v) ∧ (rd_end rd = None → ∃ u, sconcat (arrived k tr) = u +:+ flat rd).
Lemma finv_suffix k tr rd rd' : finv k tr rd → (∃ u, flat rd = u +:+ flat rd') → (rd_end rd' = None → rd_end rd = None) → finv k tr rd'.
Proof.
  intros [(u & v & E) F2] [w Ew] He. split.
  - exists (u +:+ w), v. rewrite E, Ew. by rewrite !app_assoc_s.
  - intros H. destruct (F2 (He H)) as [u' E']. exists (u' +:+ w). rewrite E', Ew. by rewrite !app_assoc_s.
Qed.
Lemma finv_end k tr rd rd' : finv k tr rd → flat rd' = flat rd → is_Some (rd_end rd') → finv k tr rd'.
Proof. intros [F1 F2] Ef [x He]. split; [by rewrite Ef|]. congruence. Qed.
Lemma finv_done k tr x : finv k tr (Rd "" [] (Some x)).
Proof. split; [|done]. exists (sconcat (arrived k tr)), EmptyString. unfold flat. cbn. by rewrite !string_app_nil_r. Qed.
Lemma flat_runs tr s : runs1 tr s → ∀ k c, v_conns s !! k = Some c → finv k tr (k_rd c).
Proof.
  induction 1 as [|tr s l s' R IH NC St]; [intros k c; simpl; by rewrite lookup_empty|].
  assert (∀ k, (∀ b, l ≠ VArrive k b) → arrived k (tr ++ [l]) = arrived k tr) as EA.
  { intros k N. rewrite arrived_snoc. destruct l; try apply app_nil_r. rewrite decide_False by (intros ->; by eapply N). apply app_nil_r. }
  assert (∀ k c, v_conns s !! k = Some c → (∀ b, l ≠ VArrive k b) → finv k (tr ++ [l]) (k_rd c)) as IH'.
  { intros k c Hc N. unfold finv. rewrite EA by done. by apply IH. }
  assert (v_conns s' = v_conns s → (∀ k b, l ≠ VArrive k b) → ∀ k c, v_conns s' !! k = Some c → finv k (tr ++ [l]) (k_rd c)) as Same by (intros E N k c Hc; rewrite E in Hc; by apply IH').
  assert (∀ k c', v_conns s' = <[k := c']> (v_conns s) → (∀ k' b, k' ≠ k → l ≠ VArrive k' b) → finv k (tr ++ [l]) (k_rd c') →
    ∀ k c, v_conns s' !! k = Some c → finv k (tr ++ [l]) (k_rd c)) as One.
  { intros k c' E N Hc' k0 c0 Hc0. rewrite E in Hc0. destruct (decide (k0 = k)) as [->|Nk]; [rewrite lookup_insert in Hc0; by injection Hc0 as <-|]. rewrite lookup_insert_ne in Hc0 by done. apply IH'; [done|]. intros b. by apply N. }
  destruct St; try (by apply Same); (eapply One; [reflexivity|intros; congruence|]); try (cbn [k_rd with_h]; apply IH'; [assumption|done]).
  - split; [|intros _]; [exists (sconcat (arrived k (tr ++ [VOpen k]))), EmptyString|exists (sconcat (arrived k (tr ++ [VOpen k])))]; cbn; by rewrite !string_app_nil_r.
  - destruct (IH _ _ H) as [_ F]. destruct (F H0) as [u E]. assert (sconcat (arrived k (tr ++ [VArrive k b])) = u +:+ flat (Rd (rd_buf (k_rd c)) (rd_in (k_rd c) ++ [b]) None)) as E'.
    { rewrite arrived_snoc, decide_True by done. rewrite sconcat_app, E. unfold flat. cbn [rd_buf rd_in]. by rewrite sconcat_app, !app_assoc_s. }
    split; [exists u, EmptyString; by rewrite E', string_app_nil_r|]. intros _. by exists u.
  - eapply finv_end; [by apply IH'|done|by eexists].
  - pose proof (stream_decode_ok max (k_rd c)) as X. rewrite H1 in X. destruct X as (X1 & X2 & _). eapply finv_suffix; [by apply IH'|done|cbn; congruence].
  - pose proof (stream_decode_ok max (k_rd c)) as X. rewrite H1 in X. destruct e as [y|]; [destruct X as (_ & ->); apply finv_done|]. destruct X as (X1 & X2 & _). eapply finv_suffix; [by apply IH'|done|cbn; congruence].
  - split; [|intros X; discriminate X]. destruct (IH' _ _ H ltac:(done)) as [(u & v & E) _]. destruct (prefix_cut (rd_in (k_rd c)) n) as [w Ew]. exists u, (w +:+ v). rewrite E. unfold flat. cbn. rewrite Ew. by rewrite !app_assoc_s.
Qed.
End err1.
