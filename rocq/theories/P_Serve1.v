(** C57–C60: the v1 server, for all schedules. *)
From Verif Require Import GoBase GoBaseProofs Float64 Db Protocol Redis Obs SpecResp SpecWire SpecStream RespProofs P_Wire Stream StreamProofs
  Server SpecServing ServerProofs P_Serve Drive P_ServeMore Server1 SpecServing1 Server1Proofs Server1More Server1Err Drive1 Examples.

Section serve1.
Context (ext : Ext) (max : Z).
Notation step1 := (step1 ext max).
Notation runs1 := (runs1 ext max).

(** ** C57: order on a connection *)
Lemma deliver_start tr s t : runs1 tr s → proj max tr t → ∀ g k f, LDeliver g k f ∈ t → ∃ r, VStart k g r ∈ tr ∧ decode max f = Ret (DOk (r, EmptyString)).
Proof.
  intros R Hp g k f Hin. destruct (proj_deliver _ _ _ Hp _ _ _ Hin) as [?|Hin']; [done|]. destruct (pool_labels _ _ _ _ R _ Hin') as [?|[? _]]; done.
Qed.
Lemma asks_asked k tr g r f q : VStart k g r ∈ tr → decode max f = Ret (DOk (r, EmptyString)) → asks max f q → (g, q) ∈ asked k tr.
Proof.
  intros Hs Hf (Hq & org & rest & Ha). rewrite Hf in Ha. injection Ha as -> _. unfold asked. apply elem_of_list_filter. split; [done|]. apply taken_in. by exists (Rec q org).
Qed.
Lemma asked_unique tr s k k' g q q' : runs1 tr s → (g, q) ∈ asked k tr → (g, q') ∈ asked k' tr → k = k' ∧ q = q'.
Proof.
  intros R H1 H2. apply asked_taken in H1, H2. pose proof H1 as H1'. pose proof H2 as H2'. apply taken_in in H1' as (r & H1' & _). apply taken_in in H2' as (r' & H2' & _).
  destruct (numbered _ _ _ _ R) as (_ & _ & N3 & N4). assert (k = k') as <- by (by eapply N3). split; [done|].
  apply elem_of_list_lookup in H1 as [i H1]. apply elem_of_list_lookup in H2 as [j H2]. assert (i = j) as <-; [|congruence].
  eapply (NoDup_lookup _ _ _ g (N4 k)); rewrite list_lookup_fmap; [by rewrite H1|by rewrite H2].
Qed.
Lemma asked_nodup tr s k : runs1 tr s → NoDup (asked k tr).*1.
Proof.
  intros R. destruct (numbered _ _ _ _ R) as (_ & _ & _ & N). specialize (N k). unfold asked. induction (taken k tr) as [|x l IH]; [constructor|].
  cbn [fmap list_fmap] in N. apply NoDup_cons in N as [N1 N2]. rewrite filter_cons. destruct (decide _); [|by apply IH]. cbn [fmap list_fmap]. apply NoDup_cons. split; [|by apply IH].
  intros H. apply N1. apply elem_of_list_fmap in H as (y & -> & H). apply elem_of_list_filter in H as [_ H]. by apply elem_of_list_fmap_1.
Qed.
Lemma called_asked tr s x : runs1 tr s → x ∈ calls1 tr → ∃ k, (who x, what x) ∈ asked k tr.
Proof.
  intros R Hx. destruct (projection _ _ _ _ R) as (t & Hp & Ht). specialize (Ht (S (length tr)) ltac:(lia)). rewrite <- (proj_calls _ _ _ Hp) in Hx.
  destruct (C07_serial _ _ _ _ _ Ht) as (rs & _ & _ & _ & _ & K & _). destruct (K _ Hx) as (k & f & Hd & Ha). destruct (deliver_start _ _ _ R Hp _ _ _ Hd) as (r & Hs & Hf). exists k. by eapply asks_asked.
Qed.

(** The commands behave as if the executed requests had been executed one after the other; each is a request some
    client sent, and is executed once.  The n-th reply on a connection answers the n-th request taken from it: it is that
    request's reply, or says that its deadline has passed. *)
Theorem C57_in_order tr s : runs1 tr s → ∃ rs,
  talk ext (as_history (calls1 tr)) db_new = Ret (c_db (v_pool s), rs) ∧
  NoDup (who <$> calls1 tr) ∧
  (∀ x, x ∈ calls1 tr → ∃ k, (who x, what x) ∈ asked k tr) ∧
  (∀ k n g b, written k tr !! n = Some (g, b) → ∃ q, asked k tr !! n = Some (g, q) ∧
     ((b = deadline_bytes ∧ VPool (LExpire g) ∈ tr) ∨
      ∃ i x v, calls1 tr !! i = Some x ∧ who x = g ∧ what x = q ∧ rs !! i = Some (Some v) ∧ is_reply b v)).
Proof.
  intros R. destruct (projection _ _ _ _ R) as (t & Hp & Ht). specialize (Ht (S (length tr)) ltac:(lia)). pose proof (proj_calls _ _ _ Hp) as Ec.
  destruct (C07_serial _ _ _ _ _ Ht) as (rs & H1 & H2 & _ & _ & H3 & H4). rewrite Ec in *. exists rs. split; [done|]. split; [done|]. split; [intros; by eapply called_asked|].
  intros k n g b Hw. destruct (oall_order _ _ _ _ k R) as [[rest Eo] _]. assert (∃ q, asked k tr !! n = Some (g, q)) as [q Hq].
  { assert ((asked k tr).*1 !! n = Some g) as E by (rewrite Eo; apply lookup_app_l_Some; rewrite list_lookup_fmap, Hw; done).
    rewrite list_lookup_fmap in E. destruct (asked k tr !! n) as [[g' q]|]; [|done]. injection E as <-. by exists q. }
  exists q. split; [done|].
  assert (LWrite g k b ∈ t) as Hwt.
  { apply elem_of_list_lookup_2, written_in in Hw. clear -Hp Hw. induction Hp as [|tr t l ls H IH M]; [by apply elem_of_nil in Hw|]. apply elem_of_app. apply in_snoc in Hw as [Hw|<-]; [auto|].
    right. simpl in M. subst ls. by apply elem_of_list_singleton. }
  destruct (H4 _ _ _ Hwt) as (f & Hd & [[-> He]|(i & x & v & A1 & A2 & A3 & A4 & A5)]).
  - left. split; [done|]. by apply (proj_pool _ _ _ Hp) in He.
  - right. exists i, x, v. destruct (deliver_start _ _ _ R Hp _ _ _ Hd) as (r & Hs & Hf). pose proof (asks_asked _ _ _ _ _ _ Hs Hf A3) as Hin.
    apply elem_of_list_lookup_2 in Hq. destruct (asked_unique _ _ _ _ _ _ _ R Hin Hq) as [_ E]. done.
Qed.

Lemma prefix_by_key {A B} (m l : list (A * B)) : NoDup l.*1 → m.*1 `prefix_of` l.*1 → (∀ x, x ∈ m → x ∈ l) → m `prefix_of` l.
Proof.
  revert l. induction m as [|x m IH]; intros l N [rest E] H; [by exists l|]. destruct l as [|y l]; [done|]. cbn [fmap list_fmap app] in E. injection E as E1 E2. cbn [fmap list_fmap] in N. apply NoDup_cons in N as [N1 N2].
  assert (x = y) as <-.
  { destruct (elem_of_cons l x y) as [K _]. destruct (K (H x ltac:(left))) as [->|Hx]; [done|]. exfalso. apply N1. rewrite E1. by apply elem_of_list_fmap_1. }
  apply prefix_cons. apply IH; [done|by exists rest|]. intros z Hz. destruct (elem_of_cons l z x) as [K _]. destruct (K (H z ltac:(by right))) as [->|?]; [|done].
  exfalso. apply N1. rewrite E2. apply elem_of_app. left. by apply elem_of_list_fmap_1.
Qed.
Lemma prefix_filter {A} (P : A → Prop) `{∀ x, Decision (P x)} (m l : list A) : m `prefix_of` l → filter P m `prefix_of` filter P l.
Proof. intros [r ->]. rewrite filter_app. by eexists. Qed.
Lemma executed_keys k tr : (executed k tr).*1 = filter (λ g, g ∈ (taken k tr).*1) (who <$> calls1 tr).
Proof. unfold executed. induction (calls1 tr) as [|x l IH]; [done|]. cbn [fmap list_fmap]. rewrite !filter_cons. destruct (decide (who x ∈ _)); [|done]. cbn [fmap list_fmap fst]. by rewrite IH. Qed.
Lemma executed_asked tr s k x : runs1 tr s → x ∈ executed k tr → x ∈ asked k tr.
Proof.
  intros R Hx. unfold executed in Hx. apply elem_of_list_fmap in Hx as (y & -> & Hy). apply elem_of_list_filter in Hy as [H1 H2]. destruct (called_asked _ _ _ R H2) as [k' Hk'].
  apply elem_of_list_fmap in H1 as ([g q] & E & H1). simpl in E. subst g. apply taken_in in H1 as (r & H1 & _). pose proof Hk' as Hk2. apply asked_taken, taken_in in Hk2 as (r' & Hk2 & _).
  destruct (numbered _ _ _ _ R) as (_ & _ & N3 & _). by rewrite (N3 _ _ _ _ _ H1 Hk2).
Qed.
(** The requests of a connection are executed in the order in which they came, none is skipped. *)
Theorem C57_executed_in_order tr s k : runs1 tr s → executed k tr `prefix_of` asked k tr.
Proof.
  intros R. apply prefix_by_key; [by eapply asked_nodup| |intros x; by apply (executed_asked tr s)].
  destruct (projection _ _ _ _ R) as (t & Hp & Ht). specialize (Ht (S (length tr)) ltac:(lia)). pose proof (C53_fifo _ _ _ _ _ Ht) as F. rewrite (proj_calls _ _ _ Hp), (proj_accepted _ _ _ Hp) in F.
  rewrite executed_keys. etrans; [by apply prefix_filter|]. destruct (oall_order _ _ _ _ k R) as [_ K]. exact K.
Qed.
(** All bytes are accounted for: what has arrived on a connection is cut, every byte in its place and with nothing added
    but NUL bytes at the end of a piece, into requests and bytes that the decoder refuses, and the handler takes these
    requests, in this order. *)
Theorem C57_bytes tr s k : runs1 tr s → ∃ (segs : list (string * option receive)) rest,
  used_up (EmptyString :: arrived k tr) (sconcat segs.*1) rest ∧
  Forall (λ x, match x.2 with Some r => ∀ t, decode max (x.1 +:+ t) = Ret (DOk (r, t)) | None => ∀ t, ∃ e, decode max (x.1 +:+ t) = Ret (DErr e) end) segs ∧
  (taken k tr).*2 `prefix_of` (elements <$> omap snd segs).
Proof.
  intros R. destruct (sall_streams _ _ _ _ k R) as (rs & rd0 & Hs & Hp). destruct (streams_segments _ _ _ _ Hs) as (segs & S & U & E).
  exists segs, (pieces rd0). split; [exact U|]. split; [exact S|]. by rewrite E.
Qed.
(** If none of these bytes is a NUL they are the bytes the client has sent, up to some place. *)
Theorem C57_bytes_exact tr s k : runs1 tr s → ∃ (segs : list (string * option receive)) rest,
  Forall (λ x, match x.2 with Some r => ∀ t, decode max (x.1 +:+ t) = Ret (DOk (r, t)) | None => ∀ t, ∃ e, decode max (x.1 +:+ t) = Ret (DErr e) end) segs ∧
  (taken k tr).*2 `prefix_of` (elements <$> omap snd segs) ∧
  (no_nul (sconcat segs.*1) → sconcat (arrived k tr) = sconcat segs.*1 +:+ rest).
Proof.
  intros R. destruct (C57_bytes _ _ k R) as (segs & rest & U & S & P). exists segs, (sconcat rest). split; [done|]. split; [done|]. intros N.
  by apply used_up_exact in U.
Qed.
(** What the handler of a connection takes from it is what the client has sent, if no value is split over two reads. *)
Theorem C57_as_sent tr s k reqs : runs1 tr s → Forall (fits_buffer max) reqs → reads_from (arrived k tr) (concat (request_parts <$> reqs)) →
  (taken k tr).*2 `prefix_of` reqs.
Proof.
  intros R Hf Hr. destruct (sall_streams _ _ _ _ k R) as (rs & rd0 & Hs & Hp). destruct (streams_from max _ _ _ _ Hf Hr Hs) as [todo E].
  etrans; [exact Hp|]. assert (elements <$> (to_rec <$> reqs) = reqs) as <- by (clear; induction reqs as [|a l IH]; [done|]; cbn [fmap list_fmap]; f_equal; done).
  rewrite E, fmap_app. by eexists.
Qed.

(** ** C58: everything is served *)
Lemma gstates tr s g x : runs1 tr s → c_gs (v_pool s) !! g = Some x → x = GEnd ∨ ∃ k c, busy k x ∧ v_conns s !! k = Some c ∧ k_h c = HCall g.
Proof. intros R. apply (ki_own _ _ (kinv_runs _ _ _ _ R)). Qed.
Lemma pool_quiescent ps tr s : runs1 tr s → quiescent1 ext max s → quiescent ext max ps (v_pool s).
Proof.
  intros R Q l p' St. destruct (inner l) eqn:Ei.
  - assert (step ext max 0 (v_pool s) l p') as St0 by (destruct St; try discriminate Ei; by econstructor). pose proof (Q _ _ (v1_pool _ _ _ _ _ Ei St0)) as X. by destruct l.
  - assert (∀ k c g l s', v_conns s !! k = Some c → step1 s l s' → external1 l → match l with VDie _ _ | VWrite _ _ _ => False | _ => True end) as N by (intros ? ? ? l0 ? ? ? ?; by destruct l0).
    destruct St; try discriminate Ei; try done; exfalso.
    all: match goal with E : c_gs _ !! ?g = Some ?x |- _ => destruct (gstates _ _ _ _ R E) as [?|(k0 & c0 & B & Hc & Hh)]; [done|] end.
    all: destruct B as [B|[B|[[r0 B]|B]]]; try discriminate B; injection B as B; subst.
    + exact (Q _ _ (v1_queue _ _ _ _ _ _ _ Hc Hh H H0)).
    + exact (Q _ _ (v1_write _ _ _ _ _ _ _ _ _ Hc Hh H H0 H1)).
    + exact (Q _ _ (v1_encode_panic _ _ _ _ _ _ _ _ Hc Hh H H0)).
    + exact (Q _ _ (v1_encode_nil _ _ _ _ _ _ _ Hc Hh H)).
    + exact (Q _ _ (v1_timeout _ _ _ _ _ _ _ Hc Hh H)).
Qed.
Lemma rest1 tr s : runs1 tr s → v_alive s → quiescent1 ext max s → rest (v_pool s).
Proof.
  intros R [_ A] Q. destruct (projection _ _ _ _ R) as (t & Hp & Ht). specialize (Ht (S (length tr)) ltac:(lia)). eapply at_rest; [exact Ht|done|by eapply pool_quiescent].
Qed.
Lemma running tr s : runs1 tr s → VStop ∉ tr → c_stop (v_pool s) = SRun.
Proof. intros R N. destruct (c_stop (v_pool s)) eqn:E; [done|destruct N; eapply stopped_stop; [exact R|congruence]..]. Qed.
Lemma opened tr s k : runs1 tr s → VOpen k ∈ tr → is_Some (v_conns s !! k).
Proof.
  induction 1 as [|tr s l s' R IH NC St]; intros Hin; [by apply elem_of_nil in Hin|]. rewrite in_snoc in Hin.
  assert (∀ k' c, v_conns s' = <[k' := c]> (v_conns s) → (l = VOpen k → k' = k) → is_Some (v_conns s' !! k)) as U.
  { intros k' c -> E. apply lookup_insert_is_Some'. destruct Hin as [Hin|Hin]; [right; by apply IH|left; auto]. }
  destruct Hin as [Hin|<-].
  - destruct St; try (by apply IH); (eapply U; [reflexivity|]); intros E; try discriminate E; by injection E as ->.
  - inversion St; subst. by eapply U.
Qed.
Lemma clean reads reqs : Forall (fits_buffer max) reqs → reads_of reads (concat (request_parts <$> reqs)) → ¬ bad_stream max reads.
Proof.
  intros Hf Hr (rs & rd1 & rd2 & H1 & H2). destruct (streams_whole max _ _ _ H1 reqs _ Hf (reads_holds _ _ _ Hr (parts_nonempty reqs)) eq_refl) as (d & todo & -> & -> & Hh & He).
  apply Forall_app in Hf as [_ Hf]. destruct todo as [|a todo].
  - cbn [fmap list_fmap concat] in Hh. destruct Hh as (g & gs & A1 & A2 & A3 & A4 & _). symmetry in A4. apply app_eq_nil in A4 as [-> A4].
    assert (gs = []) as -> by (destruct gs as [|x gs]; [done|]; apply Forall_cons in A3 as [A3 _]; cbn [concat] in A4; by destruct x). destruct rd1 as [b ins en]. cbn in A1, A2. subst b ins.
    unfold stream_decode, stream_line in H2. cbn in H2. by destruct en.
  - apply Forall_cons in Hf as [[Hf1 Hf2] Hf]. cbn [fmap list_fmap concat] in Hh. destruct (stream_request max a rd1 _ Hf1 Hf2 Hh) as (rd3 & E3 & _). congruence.
Qed.
(** A client sends its requests, as many as it likes without waiting for replies, no value split over two reads.  When
    the server comes to rest all of them have been executed, in order, and answered, in order: see [C57_in_order].
    (Unless the process dies, the server is being stopped, the client closes the connection, or a write fails.) *)
Theorem C58_all_served tr s k reqs : runs1 tr s → v_alive s → quiescent1 ext max s →
  VOpen k ∈ tr → VStop ∉ tr → (∀ x, VEnd k x ∉ tr) → (∀ g, VDrop k g ∉ tr) →
  Forall (fits_buffer max) reqs → reads_of (arrived k tr) (concat (request_parts <$> reqs)) →
  (taken k tr).*2 = reqs ∧ executed k tr = asked k tr ∧ (written k tr).*1 = (asked k tr).*1.
Proof.
  intros R A Q Ho Ns Ne Nd Hf Hr. destruct (opened _ _ _ R Ho) as [c Hc]. pose proof (rest1 _ _ R A Q) as [Rg Rc Rr Rs]. pose proof (running _ _ R Ns) as ES.
  pose proof (einv_runs _ _ _ _ R _ _ Hc) as [E1 E2 E3 E4].
  assert (¬ wrong max k tr) as Nw. { intros [W|[[x W]|[[g W]|W]]]; [by eapply clean|by eapply Ne|by eapply Nd|done]. }
  assert (¬ errors c) as Nerr by (intros X; apply Nw, E1; by left). assert (¬ closing c) as Ncl by (intros X; apply Nw, E1; by right).
  assert (k_h c = HLoop) as Hh.
  { destruct (k_h c) as [|g| |] eqn:Hh; [done| |destruct Ncl; unfold closing; rewrite Hh; auto..]. exfalso.
    destruct (ki_call _ _ (kinv_runs _ _ _ _ R) _ _ _ Hc Hh) as (x & Hx & B). destruct (Rg _ _ Hx) as [->|[? _]]; [by apply busy_live in B|done]. }
  assert (k_rchan c = None) as Hrc.
  { destruct (k_rchan c) as [r|] eqn:E; [|done]. exfalso. exact (Q _ _ (v1_start _ _ _ _ _ _ (fresh (dom (c_gs (v_pool s)))) Hc Hh E (proj1 (not_elem_of_dom _ _) (is_fresh _)))). }
  assert (k_rg c = RDecode) as Hrg.
  { destruct (k_rg c) as [|r|b| | |] eqn:E; [done| |destruct Nerr; unfold errors; rewrite E; auto..]. exfalso. exact (Q _ _ (v1_send _ _ _ _ _ _ Hc E Hrc)). }
  assert (rd_end (k_rd c) = None) as Hend.
  { destruct (rd_end (k_rd c)) as [x|] eqn:E; [|done]. exfalso. destruct x; [eapply Ne, E4; done|eapply Ne, E4; done|]. apply Ncl. right. by apply E3. }
  assert (stream_decode max (k_rd c) = Ret Wait) as Hw.
  { pose proof (stream_decode_ok max (k_rd c)) as X. destruct (stream_decode max (k_rd c)) as [[r rd'|e rd'|]| |] eqn:E; [..|done].
    - exfalso. exact (Q _ _ (v1_got _ _ _ _ _ _ _ Hc Hrg E)). - exfalso. exact (Q _ _ (v1_fail _ _ _ _ _ _ _ Hc Hrg E)). - done. - exfalso. exact (Q _ _ (v1_panic _ _ _ _ _ Hc Hrg E)). }
  pose proof (sall_runs _ _ _ _ R k) as S. rewrite Hc in S. destruct S as (rs & rd0 & S1 & S2 & _). destruct (S2 ltac:(congruence)) as [S3 [S4|[x S4]]]; [|rewrite S4 in Hend; done].
  assert (k_rd c = rd0) as <-. { rewrite <- S4. destruct (k_rd c) as [b i e]. cbn in Hend. by rewrite Hend. }
  destruct (streams_whole max _ _ _ S1 reqs _ Hf (reads_holds _ _ _ Hr (parts_nonempty reqs)) eq_refl) as (d & todo & -> & -> & H & _).
  assert (todo = []) as ->.
  { apply Forall_app in Hf as [_ Hf]. destruct todo as [|a todo]; [done|]. apply Forall_cons in Hf as [[Hf1 Hf2] Hf]. cbn [fmap list_fmap concat] in H. destruct (stream_request max a _ _ Hf1 Hf2 H) as (rd3 & X & _). congruence. }
  split; [|split].
  - rewrite app_nil_r. unfold pend in S3. rewrite Hrc, Hrg in S3. simpl in S3. rewrite app_nil_r in S3. rewrite <- S3. clear. induction d as [|a l IH]; [done|]; cbn [fmap list_fmap]; f_equal; done.
  - destruct (C57_executed_in_order tr s k R) as [rest Er]. assert (rest = []) as ->; [|by rewrite Er, app_nil_r].
    pose proof (oall_runs _ _ _ _ R k) as O. rewrite Hc in O. unfold oinv in O. rewrite Hh in O. destruct O as [_ O].
    destruct (projection _ _ _ _ R) as (t & Hp & Ht). specialize (Ht (Datatypes.S (length tr)) ltac:(lia)). pose proof (fifo_inv _ _ _ _ _ Ht) as F. rewrite (proj_accepted _ _ _ Hp), (proj_calls _ _ _ Hp) in F.
    destruct (Rr ES) as [W1 W2]. unfold inflight in F. rewrite W1, W2, !app_nil_r in F. unfold acc in O. rewrite F, <- executed_keys, Er, fmap_app in O.
    assert (length rest = 0%nat) as L. { apply (f_equal length) in O. rewrite app_length, !fmap_length in O. lia. }
    by destruct rest.
  - pose proof (oall_runs _ _ _ _ R k) as O. rewrite Hc in O. unfold oinv in O. rewrite Hh in O. by destruct O as [O _].
Qed.
(** ** C59: what can end the process *)
Lemma pool_labels tr s : runs1 tr s → ∀ l, VPool l ∈ tr → inner l = true ∨ l = LStop.
Proof.
  induction 1 as [|tr s x s' R IH NC St]; intros l Hin; [by apply elem_of_nil in Hin|]. apply in_snoc in Hin as [Hin|<-]; [by apply IH|].
  inversion St; subst; auto.
Qed.
Lemma dead_or tr s : runs1 tr s → ¬ v_alive s → (∃ k why, VDie k why ∈ tr) ∨ ∃ g c req, VPool (LCrash g c req) ∈ tr.
Proof.
  intros R Na. assert ((v_dead s = true → ∃ k why, VDie k why ∈ tr) ∧ (c_crashed (v_pool s) = true → ∃ g c req, VPool (LCrash g c req) ∈ tr)) as [K1 K2].
  { split.
    - clear Na. induction R as [|tr s l s' R IH [NC _] St]; [done|]. destruct St; simpl; try (rewrite NC; done); intros _; eexists _, _; rewrite in_snoc; right; reflexivity.
    - destruct (projection _ _ _ _ R) as (t & Hp & Ht). specialize (Ht (S (length tr)) ltac:(lia)). destruct (C10_no_panic _ _ _ _ _ Ht) as [_ K]. intros E.
      destruct (K E) as [(g & c & req & Hin)|(g & _ & _ & _ & _ & Hin & _)]; apply (proj_pool _ _ _ Hp) in Hin; [eauto|].
      by destruct (pool_labels _ _ R _ Hin). }
  unfold v_alive in Na. destruct (v_dead s), (c_crashed (v_pool s)); auto. by destruct Na.
Qed.
Definition explains (tr : list vlabel) (k : nat) (why : cause) : Prop := match why with
  | ByDecoder => max < two63 → ∃ c mid, header_in (sconcat (arrived k tr)) c mid ∧ bad_header max c mid
  | ByNil => VEnd k PeerClosed ∈ tr
  | ByQueue => VStop ∈ tr
  | ByEncoder => ∃ d rs i x, talk ext (as_history (calls1 tr)) db_new = Ret (d, rs) ∧ calls1 tr !! i = Some x ∧ (who x, what x) ∈ asked k tr ∧ rs !! i = Some None
  end.
(** If the process ends by itself, then: a command has crashed; or the decoder met a '$' or '*' header without CR or with a
    length out of bounds; or a client closed its connection; or Stop was called; or a reply could not be encoded. *)
Theorem C59_causes_partial tr s : runs1 tr s → ¬ v_alive s →
  (∃ g c req, VPool (LCrash g c req) ∈ tr) ∨ ∃ k why, VDie k why ∈ tr ∧ explains tr k why.
Proof.
  intros R Na. destruct (dead_or _ _ R Na) as [(k & why & Hd)|?]; [right|by left]. exists k, why. split; [done|]. clear Na.
  assert (∀ tr l, (∀ b, l ≠ VArrive k b) → arrived k (tr ++ [l]) = arrived k tr) as EA.
  { intros tr0 l N. rewrite arrived_snoc. destruct l; try apply app_nil_r. rewrite decide_False by (intros ->; by eapply N). apply app_nil_r. }
  induction R as [|tr s l s' R IH NC St]; [by apply elem_of_nil in Hd|]. apply in_snoc in Hd as [Hd|<-].
  { exfalso. clear -R NC Hd. assert (∀ tr s, runs1 tr s → VDie k why ∈ tr → v_dead s = true) as K.
    { clear. induction 1 as [|tr s l s' R IH NC St]; intros Hd; [by apply elem_of_nil in Hd|]. apply in_snoc in Hd as [Hd|<-]; [|by inversion St]. specialize (IH Hd). destruct NC. congruence. }
    destruct NC as [NC _]. rewrite (K _ _ R Hd) in NC. done. }
  inversion St; subst; unfold explains.
  - intros Hm. rewrite EA by done. pose proof (stream_decode_ok max (k_rd c)) as X. match goal with E : stream_decode _ _ = Panic |- _ => rewrite E in X end. destruct (X Hm) as (c' & mid & X1 & X2).
    exists c', mid. split; [|done]. destruct (flat_runs _ _ _ _ R k c ltac:(done)) as [(u & v & ->) _]. destruct X1 as (p & q & Y1 & Y2 & Y3). rewrite Y1. exists (u +:+ p), (q +:+ v). split; [|done].
    rewrite <- !app_assoc_s, sapp_cons, <- app_assoc_s, sapp_cons. done.
  - rewrite in_snoc. left. eapply (e_final _ _ _ _ (einv_runs _ _ _ _ R k c ltac:(done))); [congruence|by right].
  - rewrite in_snoc. left. eapply stopped_stop; [exact R|]. destruct (projection _ _ _ _ R) as (t & Hp & Ht). specialize (Ht (S (length tr)) ltac:(lia)).
    pose proof (i_stop _ _ _ _ (runs_inv _ _ _ _ _ Ht)) as Sok. unfold stop_ok in Sok. destruct (c_stop (v_pool s)); [|done..]. destruct Sok as (E & _). congruence.
  - destruct (projection _ _ _ _ R) as (t & Hp & Ht). specialize (Ht (S (length tr)) ltac:(lia)). pose proof (runs_inv _ _ _ _ _ Ht) as I. destruct (i_db _ _ _ _ I) as [rs Hrs].
    match goal with H : c_gs (v_pool s) !! g = Some _ |- _ => destruct (gok_event _ _ _ _ _ _ I H) as (ev & k1 & f & E1 & E2 & E3 & E4 & E5 & E6); [done|]; unfold gor_ok in E4; rewrite H in E4 end.
    destruct E4 as (-> & r0 & [= <-] & Hr). destruct (result_index _ _ _ _ _ _ _ _ _ Ht Hr Hrs) as (i & x & A1 & A2 & A3 & A4).
    exists (c_db (v_pool s)), ((λ r, r ≫= view) <$> rs), i, x.
    assert (calls1 (tr ++ [VDie k ByEncoder]) = calls t) as -> by (rewrite (proj_calls _ _ _ Hp); unfold calls1; by rewrite pool_trace_snoc, app_nil_r).
    split; [by rewrite run_talk, Hrs|]. split; [done|]. split.
    + rewrite asked_snoc, app_nil_r. destruct (deliver_start _ _ _ R Hp _ _ _ E2) as (r' & Hs & Hf). destruct (ki_call _ _ (kinv_runs _ _ _ _ R) _ _ _ ltac:(eassumption) ltac:(eassumption)) as (y & Hy & B). 
      assert (k1 = k) as -> by (unfold busy in B; naive_solver). subst g. rewrite A3. by eapply asks_asked.
    + rewrite list_lookup_fmap, A4. simpl. destruct (view r) eqn:Ev; [|done]. exfalso. destruct (proj2 (encode_view r)) as [b Hb]; [by rewrite Ev|congruence].
  - destruct (projection _ _ _ _ R) as (t & Hp & Ht). specialize (Ht (S (length tr)) ltac:(lia)). pose proof (runs_inv _ _ _ _ _ Ht) as I.
    match goal with H : c_gs (v_pool s) !! g = Some _ |- _ => destruct (gok_event _ _ _ _ _ _ I H) as (ev & k1 & f & E1 & E2 & E3 & E4 & E5 & E6); [done|]; unfold gor_ok in E4; rewrite H in E4 end.
    by destruct E4 as (-> & r0 & ? & Hr).
Qed.
(** At any time, a client that connects and closes the connection again, without sending anything, may end the process. *)
Theorem C59_refuted tr s k : runs1 (tr ++ [VOpen k]) s → ∃ tr' s',
  runs1 (tr ++ [VOpen k] ++ VEnd k PeerClosed :: tr') s' ∧ ¬ v_alive s' ∧ ∀ l, l ∈ tr' → ¬ external1 l.
Proof.
  intros R0. assert (v_alive s ∧ v_conns s !! k = Some conn_new) as [A Hc].
  { inversion R0 as [E|tr0 s0 l0 s1 R1 A1 St1 E]; [by destruct tr|]. apply app_inj_tail in E as [-> ->]. inversion St1; subst. split; [done|]. apply lookup_insert. }
  assert (∀ t, tr ++ [VOpen k] ++ t = (tr ++ [VOpen k]) ++ t) as Ea by (intros t; apply app_assoc). setoid_rewrite Ea. clear Ea.
  revert R0 A Hc. generalize (tr ++ [VOpen k]). clear tr. intros tr R A Hc. set (u := λ c, upd s k c). 
  set (c1 := with_rd conn_new (Rd "" [] (Some PeerClosed)) RDecode). set (c2 := with_rd c1 (Rd "" [] (Some PeerClosed)) (RFail true)).
  set (c3 := Cn (k_rd c2) RClose1 (k_rchan c2) (k_rclosed c2) true (k_eclosed c2) (k_h c2)). set (c4 := Cn (k_rd c3) RClose2 (k_rchan c3) true (k_echan c3) (k_eclosed c3) (k_h c3)).
  assert (∀ c, v_alive (u c)) as Al by (intros c; exact A). assert (∀ c, v_conns (u c) !! k = Some c) as Lk by (intros c; apply lookup_insert).
  assert (∀ c c', upd (u c) k c' = u c') as Uu by (intros c c'; unfold u, upd; simpl; f_equal; apply insert_insert).
  exists [VTau k; VTau k; VTau k; VDie k ByNil], (dead (u c4)). split; [|split; [by intros [? _]|]].
  - change (VEnd k PeerClosed :: _) with ([VEnd k PeerClosed] ++ [VTau k] ++ [VTau k] ++ [VTau k] ++ [VDie k ByNil]). rewrite !app_assoc.
    eapply runs1_step; [|exact (Al c4)|by eapply (v1_nil _ _ (u c4) k c4)].
    eapply runs1_step; [|exact (Al c3)|rewrite <- (Uu c3 c4); by apply (v1_close1 _ _ (u c3) k c3)].
    eapply runs1_step; [|exact (Al c2)|rewrite <- (Uu c2 c3); by apply (v1_send_err _ _ (u c2) k c2 true)].
    eapply runs1_step; [|exact (Al c1)|rewrite <- (Uu c1 c2); by apply (v1_fail _ _ (u c1) k c1 (Ended PeerClosed))].
    eapply runs1_step; [exact R|exact A|]. apply (v1_end _ _ s k conn_new); [done|by left|done].
  - intros l. rewrite !elem_of_cons, elem_of_nil. intros [->|[->|[->|[->|[]]]]]; by intros [].
Qed.

(** ** C60: Stop *)
(** Once Stop has been called and the server has come to rest, Start has returned, unless a request still waits for its deadline. *)
Theorem C60_stop_returns tr s : runs1 tr s → v_alive s → quiescent1 ext max s → VStop ∈ tr → (∀ g s', ¬ step1 s (VPool (LExpire g)) s') → VReturn ∈ tr.
Proof.
  intros R A Q Hs Nx. pose proof (rest1 _ _ R A Q) as [Rg Rc Rr Rs].
  assert (∀ tr s, runs1 tr s → (VStop ∈ tr → v_listen s = false) ∧ (v_returned s = true → VReturn ∈ tr)) as K.
  { clear. induction 1 as [|tr s l s' R [IH1 IH2] NC St]; [split; [intros H; by apply elem_of_nil in H|done]|]. rewrite !in_snoc. split.
    - intros [H|H]; [specialize (IH1 H)|subst l; by inversion St]. destruct St; simpl; try done; congruence.
    - destruct St; simpl; auto. }
  destruct (K _ _ R) as [K1 K2]. specialize (K1 Hs). apply K2.
  assert (c_stop (v_pool s) ≠ SRun) as Ns by (intros E; exact (Q _ _ (v1_stop_pool _ _ _ _ K1 (st_stop _ _ _ _ E)))). specialize (Rs Ns).
  assert (v_cancelled s = true) as Hcan by (destruct (v_cancelled s) eqn:E; [done|]; exfalso; exact (Q _ _ (v1_cancel _ _ _ Rs E))).
  destruct (v_returned s) eqn:Er; [done|]. exfalso.
  assert (map_Forall (λ _ c, k_h c = HEnd) (v_conns s)) as Hend; [|exact (Q _ _ (v1_return _ _ _ K1 Hend Er))].
  intros k c Hc. destruct (k_h c) as [|g| |] eqn:Hh; [| | |done]; exfalso.
  - exact (Q _ _ (v1_ctx _ _ _ _ _ Hc Hh Hcan)).
  - destruct (ki_call _ _ (kinv_runs _ _ _ _ R) _ _ _ Hc Hh) as (x & Hx & B). destruct (Rg _ _ Hx) as [->|(_ & _ & k' & ->)]; [by apply busy_live in B|].
    apply (Nx g (upd_pool s (set_expired (v_pool s) g))). apply v1_pool; [done|]. eapply st_expire. by right.
  - exact (Q _ _ (v1_close _ _ _ _ _ 0 Hc Hh)).
Qed.
(** When Stop has finished nothing is executed any more. *)
Theorem C60_nothing_executed tr1 tr2 s : runs1 (tr1 ++ VCancel :: tr2) s → ∀ l, VPool l ∈ tr2 → match l with LBegin _ | LExec _ _ _ | LCrash _ _ _ => False | _ => True end.
Proof.
  assert (∀ tr s, runs1 tr s → VCancel ∈ tr → c_stop (v_pool s) = SReturned) as K.
  { induction 1 as [|tr s0 l s' R IH NC St]; intros H; [by apply elem_of_nil in H|]. apply in_snoc in H as [H|<-]; [|by inversion St].
    specialize (IH H). destruct St; cbn [v_pool upd upd_pool dead]; try done.
    - unfold begin_request. by destruct (elements r).
    - destruct (projection _ _ _ _ R) as (t & Hp & Ht). specialize (Ht (S (length tr)) ltac:(lia)). apply (stop_label _ _ _ _ _ Ht) in IH.
      assert (runs ext max (S (length tr)) (t ++ [l]) p') as R' by (eapply runs_step; [exact Ht|apply NC|by apply inner_step]). apply (stop_label _ _ _ _ _ R'). rewrite in_snoc. by left.
    - match goal with H : step _ _ _ _ LStop _ |- _ => inversion H; subst end. congruence. }
  remember (tr1 ++ VCancel :: tr2) as tr eqn:Etr. intros R. revert tr2 Etr. induction R as [|tr s l s' R IH NC St]; intros tr2 Etr l0 Hl; [by destruct tr1|].
  destruct (decide (tr2 = [])) as [->|Hne]; [by apply elem_of_nil in Hl|]. destruct (exists_last Hne) as (tr3 & x & ->).
  change (VCancel :: tr3 ++ [x]) with ((VCancel :: tr3) ++ [x]) in Etr. rewrite app_assoc in Etr. apply app_inj_tail in Etr as [-> ->].
  apply in_snoc in Hl as [Hl|<-]; [by apply (IH tr3)|]. assert (c_stop (v_pool s) = SReturned) as E by (eapply K; [exact R|set_solver]).
  destruct (projection _ _ _ _ R) as (t & Hp & Ht). specialize (Ht (S (length (tr1 ++ VCancel :: tr3))) ltac:(lia)). 
  inversion St; subst; [|done]. match goal with H : step _ _ _ _ _ _ |- _ => apply (inner_step _ _ (S (length (tr1 ++ VCancel :: tr3)))) in H; [|done]; rename H into Sp end.
  assert (LStopped ∈ t) as Hst by (by apply (stop_label _ _ _ _ _ Ht)). destruct NC as [_ NC].
  pose proof (runs_step _ _ _ _ _ _ _ Ht NC Sp) as R'. apply (C10_nothing_after _ _ _ _ _ R' l0). by apply before_snoc.
Qed.
(** When Start has returned nothing is written, and no connection is accepted or served. *)
Theorem C60_nothing_written tr1 tr2 s : runs1 (tr1 ++ VReturn :: tr2) s → ∀ l, l ∈ tr2 → match l with VOpen _ | VStart _ _ _ | VWrite _ _ _ | VDrop _ _ => False | _ => True end.
Proof.
  assert (∀ tr s, runs1 tr s → VReturn ∈ tr → v_listen s = false ∧ map_Forall (λ _ c, k_h c = HEnd) (v_conns s)) as K.
  { induction 1 as [|tr s0 l s' R IH NC St]; intros H; [by apply elem_of_nil in H|]. apply in_snoc in H as [H|<-]; [|by inversion St].
    destruct (IH H) as [I1 I2]. destruct St; cbn [v_listen v_conns upd upd_pool dead]; try done; try congruence.
    all: match goal with H : v_conns _ !! _ = Some _ |- _ => pose proof (I2 _ _ H) as X; simpl in X; first [congruence|split; [done|]; apply map_Forall_insert_2; [|done]; simpl; congruence] end. }
  remember (tr1 ++ VReturn :: tr2) as tr eqn:Etr. intros R. revert tr2 Etr. induction R as [|tr s l s' R IH NC St]; intros tr2 Etr l0 Hl; [by destruct tr1|].
  destruct (decide (tr2 = [])) as [->|Hne]; [by apply elem_of_nil in Hl|]. destruct (exists_last Hne) as (tr3 & x & ->).
  change (VReturn :: tr3 ++ [x]) with ((VReturn :: tr3) ++ [x]) in Etr. rewrite app_assoc in Etr. apply app_inj_tail in Etr as [-> ->].
  apply in_snoc in Hl as [Hl|<-]; [by apply (IH tr3)|]. destruct (K _ _ R ltac:(set_solver)) as [E1 E2].
  destruct St; try done; try congruence; match goal with H : v_conns s !! _ = Some _ |- _ => pose proof (E2 _ _ H) as X; simpl in X; congruence end.
Qed.
End serve1.

(** ** a test for rest *)
Definition idle_conn (max : Z) (s : vstate) (c : conn) : bool :=
  match k_rg c with
  | RDecode => match stream_decode max (k_rd c) with Ret Wait => true | _ => false end
  | RSend _ => match k_rchan c with Some _ => true | None => false end
  | RFail _ => k_echan c
  | RDone => true
  | _ => false
  end &&
  match k_h c with
  | HLoop => negb (v_cancelled s || k_echan c || k_eclosed c || k_rclosed c) && match k_rchan c with None => true | _ => false end
  | HClose => false
  | _ => true
  end.
Definition ended_all (s : vstate) : bool := forallb (λ x : nat * conn, match k_h x.2 with HEnd => true | _ => false end) (map_to_list (v_conns s)).
Definition idle1 (max : Z) (s : vstate) : bool :=
  idle (v_pool s) && forallb (λ x : nat * conn, idle_conn max s x.2) (map_to_list (v_conns s)) &&
  match c_stop (v_pool s) with SRun => v_listen s | SReturned => v_cancelled s | _ => false end &&
  (v_listen s || v_returned s || negb (ended_all s)).
Lemma idle1_quiescent ext max s : idle1 max s = true → quiescent1 ext max s.
Proof.
  unfold idle1. rewrite !andb_true_iff. intros [[[H1 H2] H3] H4]. rewrite forallb_forall in H2. pose proof (idle_quiescent ext max 0 (v_pool s) H1) as Q.
  assert (∀ k c, v_conns s !! k = Some c → idle_conn max s c = true) as K by (intros k c Hc; apply (H2 (k, c)), elem_of_list_In; by apply elem_of_map_to_list).
  assert (∀ g x, c_gs (v_pool s) !! g = Some x → match x with GEnd | GSelect _ => True | _ => False end) as Kg.
  { intros g x Hx. unfold idle in H1. rewrite !andb_true_iff in H1. destruct H1 as [[[H1 _] _] _]. rewrite forallb_forall in H1. specialize (H1 (g, x)). unfold idle_gor in H1. simpl in H1.
    destruct x; try done; discriminate H1; apply elem_of_list_In; by apply elem_of_map_to_list. }
  intros l s' St. destruct St; try done.
  all: try (match goal with H : v_conns _ !! _ = Some _ |- _ => apply K in H; unfold idle_conn in H end).
  all: try (match goal with H : c_gs _ !! _ = Some _ |- _ => by apply Kg in H end).
  all: try (match goal with H : _ && _ = true, E : k_rg _ = _ |- _ => rewrite E in H; first [discriminate H|match goal with E' : _ = _ |- _ => rewrite E' in H; discriminate H end] end).
  all: try (match goal with H : _ && _ = true, E : k_h _ = _ |- _ => rewrite E in H; destruct (match k_rg _ with RDecode => _ | _ => _ end); [|discriminate H]; cbn [andb] in H; try discriminate H end).
  - rewrite H5 in H. simpl in H. discriminate H.
  - rewrite H5 in H. by destruct (v_cancelled s).
  - rewrite H5, H6 in H. by destruct (v_cancelled s).
  - rewrite H5, andb_false_r in H. discriminate H.
  - rewrite H6 in H. by destruct (v_cancelled s), (k_echan c), (k_eclosed c).
  - pose proof (Q _ _ H0) as X. by destruct l.
  - inversion H0; subst. match goal with E : c_stop _ = SRun |- _ => rewrite E in H3 end. congruence.
  - rewrite H in H3. congruence.
  - rewrite H, H5 in H4. simpl in H4. unfold ended_all in H4. rewrite negb_true_iff in H4. exfalso. assert (forallb (λ x : nat * conn, match k_h x.2 with HEnd => true | _ => false end) (map_to_list (v_conns s)) = true); [|congruence].
    apply forallb_forall. intros [k c] Hin. apply elem_of_list_In, elem_of_map_to_list in Hin. simpl. pose proof (H0 _ _ Hin) as E. simpl in E. by rewrite E.
Qed.

(** ** examples *)
Definition big1 : Z := 1000.
Definition played1 (l : list action1) : option (list vlabel * vstate) := drive1 ext0 big1 l v_init [].
Definition trace1 (l : list action1) : list vlabel := match played1 l with Some (tr, _) => tr | None => [] end.
Definition final1 (l : list action1) : vstate := match played1 l with Some (_, s) => s | None => v_init end.
Definition playable1 (l : list action1) : bool := match played1 l with Some _ => true | None => false end.
Lemma trace1_runs l : playable1 l = true → runs1 ext0 big1 (trace1 l) (final1 l).
Proof. unfold playable1, trace1, final1. destruct (played1 l) as [[tr s]|] eqn:E; [|done]. intros _. eapply drive1_runs; [|exact E]. constructor. Qed.

(** three requests sent at once, in three pieces that do not split a value *)
Definition three : list (list string) := [["SET"; "k"; "v"]; ["APPEND"; "k"; "w"]; ["GET"; "k"]].
Definition cut3 {A} (l : list A) : list (list A) := [take 7 l; take 20 (drop 7 l); drop 27 l].
Definition three_reads : list string := sconcat <$> cut3 (concat (request_parts <$> three)).
Definition answer (k : nat) (g : gid) : list action1 :=
  [BDecode k; BSend k; BStart k g; BPool (AAdd g); BPool ATake; BPool (ABegin g); BPool (AExec g c0); BPool ARespond; BPool AClose; BPool (ADone g); BReply k true].
Definition pipelined1 : list action1 := [BOpen 7] ++ (BArrive 7 <$> three_reads) ++ answer 7 1 ++ answer 7 2 ++ answer 7 3.
Theorem C58_demo : Forall (fits_buffer big1) three ∧ reads_of (arrived 7 (trace1 pipelined1)) (concat (request_parts <$> three)) ∧
  v_alive (final1 pipelined1) ∧ quiescent1 ext0 big1 (final1 pipelined1) ∧
  (written 7 (trace1 pipelined1)).*2 = [crlf ["+OK"]; crlf [":2"]; crlf ["$2"; "vw"]].
Proof.
  assert (arrived 7 (trace1 pipelined1) = three_reads) as -> by (by vm_compute). split; [|split; [|split; [|split]]].
  - unfold fits_buffer, three. repeat match goal with |- _ ∧ _ => split | |- Forall _ _ => constructor end; by vm_compute.
  - exists (cut3 (concat (request_parts <$> three))). split; [done|]. split; [by vm_compute|]. repeat (constructor; [by vm_compute|]). constructor.
  - split; by vm_compute.
  - apply idle1_quiescent. by vm_compute.
  - by vm_compute.
Qed.
Theorem C57_demo : runs1 ext0 big1 (trace1 pipelined1) (final1 pipelined1) ∧
  (asked 7 (trace1 pipelined1)).*2 = three ∧ executed 7 (trace1 pipelined1) = asked 7 (trace1 pipelined1) ∧ (written 7 (trace1 pipelined1)).*1 = [1; 2; 3]%nat.
Proof. split; [apply trace1_runs; by vm_compute|]. split; [by vm_compute|]. split; by vm_compute. Qed.

(** a request under way when Stop is called; a header without CR; a reply that cannot be encoded *)
Definition stop_pool : list action1 := [BStop; BStopPool; BPool AStopNext; BPool AStopNext; BPool AWorkerDone; BPool AStopNext; BCancel].
Definition die_queue : list action1 := [BOpen 7; BArrive 7 (sconcat three_reads); BDecode 7; BSend 7; BStart 7 1; BStop; BStopPool; BQueue 7].
Definition die_decoder : list action1 := [BOpen 7; BArrive 7 ("$5" +:+ String LF EmptyString); BDecode 7].
Definition mistyped : list (list string) := [["LPUSH"; "l"; "x"]; ["MGET"; "l"]].
Definition die_encoder : list action1 := [BOpen 7; BArrive 7 (sconcat (request_bytes <$> mistyped))] ++ answer 7 1 ++ answer 7 2.
Theorem C59_demo : last (trace1 die_queue) = Some (VDie 7 ByQueue) ∧ last (trace1 die_decoder) = Some (VDie 7 ByDecoder) ∧ last (trace1 die_encoder) = Some (VDie 7 ByEncoder) ∧
  Forall (λ l, runs1 ext0 big1 (trace1 l) (final1 l) ∧ ¬ v_alive (final1 l)) [die_queue; die_decoder; die_encoder].
Proof.
  split; [by vm_compute|]. split; [by vm_compute|]. split; [by vm_compute|].
  assert (∀ l, playable1 l = true → v_dead (final1 l) = true → runs1 ext0 big1 (trace1 l) (final1 l) ∧ ¬ v_alive (final1 l)) as K by (intros l H1 H2; split; [by apply trace1_runs|intros [? _]; congruence]).
  repeat (apply Forall_cons; split; [apply K; by vm_compute|]). by apply Forall_nil.
Qed.
(** the conclusion of [C59_refuted], from the beginning *)
Example C59_refuted_demo : ∃ tr s, runs1 ext0 big1 (VOpen 7 :: VEnd 7 PeerClosed :: tr) s ∧ ¬ v_alive s ∧ ∀ l, l ∈ tr → ¬ external1 l.
Proof.
  destruct (C59_refuted ext0 big1 [] (final1 [BOpen 7]) 7) as (tr & s & H); [|by exists tr, s]. change ([] ++ [VOpen 7]) with (trace1 [BOpen 7]). apply trace1_runs. by vm_compute.
Qed.
Definition stopping : list action1 := [BOpen 7; BArrive 7 (sconcat three_reads)] ++ answer 7 1 ++ answer 7 2 ++ stop_pool ++
  [BCtx 7; BClose 7 0; BReturn; BDecode 7; BSend 7; BDecode 7; BSend 7; BFinish 7; BFinish 7].
Theorem C60_demo : runs1 ext0 big1 (trace1 stopping) (final1 stopping) ∧ v_alive (final1 stopping) ∧ quiescent1 ext0 big1 (final1 stopping) ∧
  VStop ∈ trace1 stopping ∧ (∀ g s', ¬ step1 ext0 big1 (final1 stopping) (VPool (LExpire g)) s') ∧ VReturn ∈ trace1 stopping.
Proof.
  split; [apply trace1_runs; by vm_compute|]. split; [split; by vm_compute|]. split; [apply idle1_quiescent; by vm_compute|].
  assert (∀ (l : vlabel) tr n, tr !! n = Some l → l ∈ tr) as K by (intros; by eapply elem_of_list_lookup_2).
  split; [eapply (K _ _ 24%nat); by vm_compute|]. split; [|eapply (K _ _ 33%nat); by vm_compute].
  intros g s' St. assert (∀ g x, c_gs (v_pool (final1 stopping)) !! g = Some x → x = GEnd) as E.
  { apply map_Forall_to_list. vm_compute. repeat (constructor; [done|]). constructor. }
  inversion St; subst. match goal with H : step _ _ _ _ _ _ |- _ => inversion H; subst end. match goal with H : _ ∨ _ |- _ => destruct H as [H|H]; apply E in H; discriminate H end.
Qed.
