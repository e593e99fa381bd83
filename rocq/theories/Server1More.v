(** Invariants of the v1 server: the order on each connection, and its stream. *)
From Verif Require Import GoBase GoBaseProofs Float64 Db Protocol Redis Obs SpecResp SpecWire SpecStream RespProofs P_Wire Stream StreamProofs
  Server SpecServing ServerProofs P_Serve P_ServeMore Server1 SpecServing1 Server1Proofs.

Section more1.
Context (ext : Ext) (max : Z).
Notation step1 := (step1 ext max).
Notation runs1 := (runs1 ext max).

(** ** requests are numbered apart *)
Lemma gs_mono s l s' : step1 s l s' → ∀ g, is_Some (c_gs (v_pool s) !! g) → is_Some (c_gs (v_pool s') !! g).
Proof.
  assert (∀ (m : gmap gid gstate) g0 x g, is_Some (m !! g) → is_Some (<[g0 := x]> m !! g)) as K by (intros m g0 x g H; apply lookup_insert_is_Some'; auto).
  intros St g Hg. destruct St; cbn [v_pool upd upd_pool dead set_g c_gs]; try done; try (by apply K).
  - unfold begin_request. destruct (elements r); by apply K.
  - destruct (inner_gs _ _ _ _ _ _ H H0) as [[-> _]|(? & ? & ? & ? & _ & _ & _ & -> & _)]; [done|by apply K].
  - apply (stop_step _ _ 0) in H0 as [_ ->]. done.
Qed.
Lemma numbered tr s : runs1 tr s → (∀ k g r, VStart k g r ∈ tr → is_Some (c_gs (v_pool s) !! g)) ∧ (∀ g, g ∈ accepted (pool_trace tr) → is_Some (c_gs (v_pool s) !! g)) ∧
  (∀ k k' g r r', VStart k g r ∈ tr → VStart k' g r' ∈ tr → k = k') ∧ (∀ k, NoDup (taken k tr).*1).
Proof.
  induction 1 as [|tr s l s' R IH NC St].
  { split; [intros * H; by apply elem_of_nil in H|]. split; [intros * H; by apply elem_of_nil in H|]. split; [intros * H; by apply elem_of_nil in H|]. constructor. }
  destruct IH as (I1 & I2 & I3 & I4). pose proof (gs_mono _ _ _ St) as M.
  assert (∀ k g r, l = VStart k g r → c_gs (v_pool s) !! g = None ∧ is_Some (c_gs (v_pool s') !! g)) as N.
  { intros k g r ->. inversion St; subst. split; [done|]. simpl. unfold begin_request. destruct (elements r); simpl; rewrite lookup_insert; by eexists. }
  split; [|split; [|split]].
  - intros k g r Hin. apply in_snoc in Hin as [Hin|Hin]; [by eapply M, I1|]. by eapply N.
  - intros g Hin. rewrite pool_trace_snoc in Hin. unfold accepted in Hin. rewrite omap_app in Hin. apply elem_of_app in Hin as [Hin|Hin]; [by apply M, I2|].
    destruct l; try (by apply elem_of_nil in Hin). destruct l; try (by apply elem_of_nil in Hin). simpl in Hin. apply elem_of_list_singleton in Hin as ->.
    apply M. inversion St; subst. match goal with H : step _ _ _ _ _ _ |- _ => inversion H; subst end. by eexists.
  - intros k k' g r r' H1 H2. apply in_snoc in H1 as [H1|H1]; apply in_snoc in H2 as [H2|H2]; [by eapply I3| | |congruence].
    + destruct (N _ _ _ (eq_sym H2)) as [E _]. destruct (I1 _ _ _ H1). congruence.
    + destruct (N _ _ _ (eq_sym H1)) as [E _]. destruct (I1 _ _ _ H2). congruence.
  - intros k. rewrite taken_snoc, fmap_app. apply NoDup_app. split; [apply I4|]. destruct l; try (split; [intros ? _; apply not_elem_of_nil|constructor]).
    destruct (decide (k0 = k)) as [->|]; [|split; [intros ? _; apply not_elem_of_nil|constructor]]. split; [|apply NoDup_singleton].
    intros g0 Hg0 Hg. apply elem_of_list_singleton in Hg. simpl in Hg. subst g0. apply elem_of_list_fmap in Hg0 as ([g1 q] & Eg & Hin). simpl in Eg. subst g1. apply taken_in in Hin as (r' & Hin & _).
    destruct (N _ _ _ eq_refl) as [E _]. destruct (I1 _ _ _ Hin). congruence.
Qed.

(** ** the order on a connection *)
Lemma filter_iff_on {A} (P Q : A → Prop) `{∀ x, Decision (P x), ∀ x, Decision (Q x)} (xs : list A) : (∀ x, x ∈ xs → (P x ↔ Q x)) → filter P xs = filter Q xs.
Proof.
  induction xs as [|x xs IH]; intros K; [done|]. assert (P x ↔ Q x) as E by (apply K; left). rewrite !filter_cons, IH by (intros y Hy; apply K; by right).
  destruct (decide (P x)), (decide (Q x)); tauto.
Qed.
Definition acc (k : nat) (tr : list vlabel) : list gid := filter (λ g, g ∈ (taken k tr).*1) (accepted (pool_trace tr)).
Definition in_queue (p : config) (g : gid) : list gid := match c_gs p !! g with Some (GAdd _) => [] | _ => [g] end.
Definition oinv (k : nat) (tr : list vlabel) (p : config) (h : hstate) : Prop := match h with
  | HLoop => (written k tr).*1 = (asked k tr).*1 ∧ acc k tr = (asked k tr).*1
  | HCall g => ∃ q a, asked k tr = a ++ [(g, q)] ∧ (written k tr).*1 = a.*1 ∧ acc k tr = a.*1 ++ in_queue p g
  | HClose | HEnd => (written k tr).*1 `prefix_of` (asked k tr).*1 ∧ acc k tr = (asked k tr).*1
  end.
Lemma asked_snoc k tr l : asked k (tr ++ [l]) = asked k tr ++ match l with VStart k' g r => if decide (k' = k ∧ elements r ≠ []) then [(g, elements r)] else [] | _ => [] end.
Proof.
  unfold asked. rewrite taken_snoc, filter_app. f_equal. destruct l; try done. destruct (decide (k0 = k)) as [->|].
  - destruct (decide (elements r = [])) as [E|E].
    + rewrite filter_cons_False by (simpl; naive_solver). rewrite decide_False by naive_solver. done.
    + rewrite filter_cons_True by done. rewrite decide_True by done. done.
  - rewrite decide_False by naive_solver. done.
Qed.
Lemma acc_snoc_other k tr l s s' : runs1 tr s → step1 s l s' → (∀ g, l ≠ VPool (LAccept g)) → acc k (tr ++ [l]) = acc k tr.
Proof.
  intros R St N. unfold acc. rewrite pool_trace_snoc. assert (accepted (pool_trace tr ++ match l with VPool x => [x] | _ => [] end) = accepted (pool_trace tr)) as ->.
  { unfold accepted. rewrite omap_app. destruct l; rewrite ?app_nil_r; try done. destruct l; simpl; rewrite ?app_nil_r; try done. by destruct (N g). }
  apply filter_iff_on. intros g Hg. rewrite taken_snoc, fmap_app, elem_of_app. split; [|auto]. intros [?|Hin]; [done|]. exfalso.
  destruct l; try (by apply elem_of_nil in Hin). destruct (decide (k0 = k)); [|by apply elem_of_nil in Hin]. apply elem_of_list_singleton in Hin. simpl in Hin. subst g0.
  destruct (numbered _ _ R) as (_ & I2 & _). destruct (I2 _ Hg) as [x Hx]. inversion St; subst. congruence.
Qed.
Lemma acc_snoc_accept k tr g : acc k (tr ++ [VPool (LAccept g)]) = acc k tr ++ (if decide (g ∈ (taken k tr).*1) then [g] else []).
Proof.
  unfold acc. rewrite pool_trace_snoc. assert (taken k (tr ++ [VPool (LAccept g)]) = taken k tr) as E by (rewrite taken_snoc; apply app_nil_r).
  transitivity (filter (λ g0, g0 ∈ (taken k tr).*1) (accepted (pool_trace tr ++ [LAccept g]))); [apply filter_iff_on; intros; by rewrite E|].
  unfold accepted. rewrite omap_app, filter_app. f_equal.
Qed.
Lemma oinv_frame k tr tr' p p' h : asked k tr' = asked k tr → written k tr' = written k tr → acc k tr' = acc k tr →
  (∀ g, h = HCall g → in_queue p' g = in_queue p g) → oinv k tr p h → oinv k tr' p' h.
Proof. unfold oinv. intros -> -> -> K. destruct h; try done. by rewrite K. Qed.
Lemma asked_taken k tr x : x ∈ asked k tr → x ∈ taken k tr.
Proof. unfold asked. rewrite elem_of_list_filter. tauto. Qed.

Definition oall (tr : list vlabel) (s : vstate) : Prop := ∀ k, match v_conns s !! k with Some c => oinv k tr (v_pool s) (k_h c) | None => taken k tr = [] ∧ written k tr = [] end.
Lemma oall_call tr s k c g : oall tr s → v_conns s !! k = Some c → k_h c = HCall g → g ∈ (taken k tr).*1.
Proof.
  intros O Hc Hh. specialize (O k). rewrite Hc in O. unfold oinv in O. rewrite Hh in O. destruct O as (q & a & Ea & _). change g with (fst (g, q)). apply elem_of_list_fmap_1, asked_taken.
  rewrite Ea. set_solver.
Qed.
(** a step that is neither an AddEvent, nor the start or the end of a request *)
Definition silent1 (l : vlabel) : Prop := match l with VStart _ _ _ | VWrite _ _ _ | VDrop _ _ | VPool (LAccept _) => False | _ => True end.
Lemma silent_frames tr s l s' k : runs1 tr s → step1 s l s' → silent1 l → asked k (tr ++ [l]) = asked k tr ∧ written k (tr ++ [l]) = written k tr ∧ taken k (tr ++ [l]) = taken k tr ∧ acc k (tr ++ [l]) = acc k tr.
Proof.
  intros R St Hl. rewrite asked_snoc, written_snoc, taken_snoc, (acc_snoc_other k tr l s s' R St) by (intros g ->; done).
  destruct l; try done; by rewrite !app_nil_r.
Qed.
Lemma silent_queue s l s' : step1 s l s' → silent1 l → ∀ g, in_queue (v_pool s') g = in_queue (v_pool s) g.
Proof.
  intros St Hl g. destruct St; cbn [v_pool upd upd_pool dead]; try done.
  - destruct (inner_gs _ _ _ _ _ _ H H0) as [[E _]|(g0 & k & x & y & E1 & B1 & B2 & E2 & N & [[-> _]|[_ N']])]; unfold in_queue; [by rewrite E|done|].
    rewrite E2. destruct (decide (g = g0)) as [->|]; [|by rewrite lookup_insert_ne]. rewrite lookup_insert, E1. unfold busy in *. naive_solver.
  - apply (stop_step _ _ 0) in H0 as [_ E]. unfold in_queue. by rewrite E.
Qed.
Lemma in_queue_insert p p' g x g0 : c_gs p' = <[g := x]> (c_gs p) → g0 ≠ g → in_queue p' g0 = in_queue p g0.
Proof. intros E N. unfold in_queue. by rewrite E, lookup_insert_ne. Qed.
Lemma oall_runs tr s : runs1 tr s → oall tr s.
Proof.
  induction 1 as [|tr s l s' R IH NC St]; [intros k; simpl; by rewrite lookup_empty|]. pose proof (kinv_runs _ _ _ _ R) as K.
  assert (silent1 l → (∀ k, k_h <$> v_conns s' !! k = k_h <$> v_conns s !! k) → oall (tr ++ [l]) s') as Same.
  { intros Hl Hk k. specialize (Hk k). specialize (IH k). destruct (silent_frames _ _ _ _ k R St Hl) as (E1 & E2 & E3 & E4).
    destruct (v_conns s !! k) as [c|], (v_conns s' !! k) as [c'|]; try done; [|by rewrite E2, E3]. injection Hk as ->.
    eapply oinv_frame; [done..| |done]. intros g _. by eapply silent_queue. }
  assert (∀ k c c', silent1 l → v_conns s !! k = Some c → v_conns s' = <[k := c']> (v_conns s) → ((k_h c = HLoop ∧ k_h c' = HClose) ∨ (k_h c = HClose ∧ k_h c' = HEnd)) → oall (tr ++ [l]) s') as Closing.
  { intros k c c' Hl Hc Hs Hh k0. specialize (IH k0). destruct (silent_frames _ _ _ _ k0 R St Hl) as (E1 & E2 & E3 & E4). rewrite Hs. destruct (decide (k0 = k)) as [->|].
    - rewrite lookup_insert. rewrite Hc in IH. unfold oinv in IH |- *. rewrite E1, E2, E4. destruct Hh as [[H1 H2]|[H1 H2]]; rewrite H1 in IH; rewrite H2; [|done]. destruct IH as [-> ->]. done.
    - rewrite lookup_insert_ne by done. destruct (v_conns s !! k0); [|by rewrite E2, E3]. eapply oinv_frame; [done..| |done]. intros g _. by eapply silent_queue. }
  assert (∀ k c c' : conn, k_h c = k_h c' → k_h <$> Some c = k_h <$> Some c') as _ by (simpl; congruence).
  assert (∀ k c c', silent1 l → v_conns s !! k = Some c → v_conns s' = <[k := c']> (v_conns s) → k_h c' = k_h c → oall (tr ++ [l]) s') as Same1.
  { intros k c c' Hl Hc Hs Hh. apply Same; [done|]. intros k0. rewrite Hs. destruct (decide (k0 = k)) as [->|]; [rewrite lookup_insert, Hc; simpl; congruence|by rewrite lookup_insert_ne]. }
  (* the end of a request *)
  assert (∀ k c c' g, v_conns s !! k = Some c → k_h c = HCall g → v_conns s' = <[k := c']> (v_conns s) → c_gs (v_pool s') = <[g := GEnd]> (c_gs (v_pool s)) → in_queue (v_pool s) g = [g] →
    ((∃ b, l = VWrite k g b ∧ k_h c' = HLoop) ∨ (l = VDrop k g ∧ k_h c' = HClose)) → oall (tr ++ [l]) s') as Finish.
  { intros k c c' g Hc Hh Hs Hp Hq Hl k0. specialize (IH k0). rewrite Hs. assert (∀ g, l ≠ VPool (LAccept g)) as NA by (destruct Hl as [(b & -> & _)|[-> _]]; done).
    pose proof (acc_snoc_other k0 _ _ _ _ R St NA) as E4. assert (asked k0 (tr ++ [l]) = asked k0 tr) as E1 by (rewrite asked_snoc; destruct Hl as [(b & -> & _)|[-> _]]; apply app_nil_r).
    assert (taken k0 (tr ++ [l]) = taken k0 tr) as E3 by (rewrite taken_snoc; destruct Hl as [(b & -> & _)|[-> _]]; apply app_nil_r).
    destruct (decide (k0 = k)) as [->|Nk].
    - rewrite lookup_insert. rewrite Hc in IH. unfold oinv in IH |- *. rewrite Hh in IH. destruct IH as (q & a & I1 & I2 & I3). rewrite Hq in I3. rewrite E1, E4, I1, I3, fmap_app, written_snoc, fmap_app, I2.
      destruct Hl as [(b & -> & ->)|[-> ->]]; [by rewrite decide_True by done|]. split; [|done]. simpl. rewrite app_nil_r. by exists [g].
    - rewrite lookup_insert_ne by done. assert (written k0 (tr ++ [l]) = written k0 tr) as E2.
      { rewrite written_snoc. destruct Hl as [(b & -> & _)|[-> _]]; [rewrite decide_False by done|]; apply app_nil_r. }
      destruct (v_conns s !! k0) as [c0|] eqn:H0; [|by rewrite E2, E3]. eapply oinv_frame; [done..| |done]. intros g0 Hg0. eapply in_queue_insert; [done|]. intros ->.
      destruct (ki_call _ _ K _ _ _ Hc Hh) as (x & Hx & B1). destruct (ki_call _ _ K _ _ _ H0 Hg0) as (x' & Hx' & B2). assert (x' = x) as -> by congruence. by pose proof (busy_unique _ _ _ B1 B2). }
  destruct St; try (apply Same; [done|]; done); try (eapply Same1; [done|eassumption|reflexivity|done]).
  - intros k0. pose proof (silent_frames _ _ _ _ k0 R ltac:(by apply v1_open) I) as (E1 & E2 & E3 & E4). cbn [v_conns upd]. specialize (IH k0). destruct (decide (k0 = k)) as [->|].
    + rewrite lookup_insert. rewrite H0 in IH. unfold oinv. simpl. rewrite E1, E2, E4. destruct IH as [IH1 ->]. unfold asked, acc. rewrite IH1. split; [done|]. simpl. by induction (accepted (pool_trace tr)).
    + rewrite lookup_insert_ne by done. destruct (v_conns s !! k0); [|by rewrite E2, E3]. by eapply oinv_frame.
  - eapply Closing; [done|eassumption|reflexivity|]. auto.
  - eapply Closing; [done|eassumption|reflexivity|]. auto.
  - eapply Closing; [done|eassumption|reflexivity|]. auto.
  - (* VStart *) intros k0. cbn [v_conns v_pool upd upd_pool]. specialize (IH k0). pose proof (acc_snoc_other k0 _ (VStart k g r) _ _ R ltac:(by eapply v1_start) ltac:(done)) as E4.
    assert (written k0 (tr ++ [VStart k g r]) = written k0 tr) as E2 by (rewrite written_snoc; apply app_nil_r). destruct (decide (k0 = k)) as [->|Nk].
    + rewrite lookup_insert. rewrite H in IH. unfold oinv in IH |- *. rewrite H0 in IH. destruct IH as [I1 I2]. cbn [k_h]. rewrite E2, E4, asked_snoc. unfold after_start, begin_request. destruct (elements r) as [|name args] eqn:Er.
      * rewrite decide_False by naive_solver. by rewrite app_nil_r.
      * rewrite decide_True by done. exists (name :: args), (asked k tr). split; [done|]. split; [done|]. rewrite I2. unfold in_queue. simpl. rewrite lookup_insert. by rewrite app_nil_r.
    + rewrite lookup_insert_ne by done. assert (asked k0 (tr ++ [VStart k g r]) = asked k0 tr) as E1 by (rewrite asked_snoc, decide_False by naive_solver; apply app_nil_r).
      destruct (v_conns s !! k0) as [c0|] eqn:Hc0; [|rewrite E2, taken_snoc, decide_False by done; by rewrite app_nil_r].
      eapply oinv_frame; [done..| |done]. intros g0 Hg0. assert (g0 ≠ g) as Ng; [|unfold begin_request; destruct (elements r); by eapply (in_queue_insert _ _ g)]. intros ->.
      destruct (ki_call _ _ K _ _ _ Hc0 Hg0) as (x & Hx & _). congruence.
  - (* VPool *) assert ((∃ g, l = LAccept g) ∨ silent1 (VPool l)) as [[g ->]|Nl] by (destruct l; simpl; eauto).
    + inversion H0; subst. match goal with G : c_gs (v_pool s) !! g = Some (GAdd _) |- _ => rename G into Hg end. pose proof Hg as Hg'. apply (ki_own _ _ K) in Hg' as [?|(k1 & c1 & B & Hc1 & Hh1)]; [done|].
      assert (k1 = k) as -> by (unfold busy in B; naive_solver). pose proof (oall_call _ _ _ _ _ IH Hc1 Hh1) as Ht. intros k0. cbn [v_conns v_pool upd_pool]. specialize (IH k0).
      assert (asked k0 (tr ++ [VPool (LAccept g)]) = asked k0 tr) as E1 by (rewrite asked_snoc; apply app_nil_r).
      assert (taken k0 (tr ++ [VPool (LAccept g)]) = taken k0 tr) as E3 by (rewrite taken_snoc; apply app_nil_r).
      assert (written k0 (tr ++ [VPool (LAccept g)]) = written k0 tr) as E2 by (rewrite written_snoc; apply app_nil_r).
      destruct (decide (k0 = k)) as [->|Nk].
      * rewrite Hc1 in IH |- *. unfold oinv in IH |- *. rewrite Hh1 in IH |- *. destruct IH as (q & a & I1 & I2 & I3). exists q, a. rewrite E1, E2, acc_snoc_accept, I3. split; [done|]. split; [done|].
        rewrite decide_True by done. unfold in_queue. simpl. rewrite Hg, lookup_insert. by rewrite app_nil_r.
      * assert (acc k0 (tr ++ [VPool (LAccept g)]) = acc k0 tr) as E4.
        { rewrite acc_snoc_accept, decide_False; [apply app_nil_r|]. intros Hin. apply elem_of_list_fmap in Hin as ([g1 q1] & Eg & Hin). simpl in Eg. subst g1. apply elem_of_list_fmap in Ht as ([g2 q2] & Eg & Ht). simpl in Eg. subst g2.
          apply taken_in in Hin as (r1 & Hin & _). apply taken_in in Ht as (r2 & Ht & _). destruct (numbered _ _ R) as (_ & _ & I3 & _). by pose proof (I3 _ _ _ _ _ Hin Ht). }
        destruct (v_conns s !! k0) as [c0|] eqn:Hc0; [|by rewrite E2, E3]. eapply oinv_frame; [done..| |done]. intros g0 Hg0. eapply (in_queue_insert _ _ g); [reflexivity|]. intros ->.
        destruct (ki_call _ _ K _ _ _ Hc0 Hg0) as (x & Hx & B'). assert (x = GAdd k) as -> by congruence. by pose proof (busy_unique _ _ _ B B').
    + by apply Same.
  - eapply (Finish k c); [done|done|reflexivity|reflexivity| |]; [unfold in_queue; by rewrite H1|]. left. by exists b.
  - eapply (Finish k c); [done|done|reflexivity|reflexivity| |]; [unfold in_queue; by rewrite H1|]. left. by eexists.
  - eapply (Finish k c); [done|done|reflexivity|reflexivity| |]; [unfold in_queue; by rewrite H1|]. by right.
  - eapply (Finish k c); [done|done|reflexivity|reflexivity| |]; [unfold in_queue; by rewrite H1|]. by right.
  - eapply Closing; [done|eassumption|reflexivity|]. auto.
Qed.
Lemma oall_order tr s k : runs1 tr s → (written k tr).*1 `prefix_of` (asked k tr).*1 ∧ acc k tr `prefix_of` (asked k tr).*1.
Proof.
  intros R. pose proof (oall_runs _ _ R k) as O. destruct (v_conns s !! k) as [c|] eqn:Hc.
  - unfold oinv in O. destruct (k_h c) as [|g| |] eqn:Hh; [by destruct O as [-> ->]| |by destruct O as [? ->]..].
    destruct O as (q & a & -> & -> & ->). rewrite fmap_app. split; [by eexists|]. unfold in_queue. destruct (c_gs (v_pool s) !! g) as [[]|]; simpl; rewrite ?app_nil_r; try done; by eexists.
  - destruct O as [O1 O2]. unfold acc, asked. rewrite O1, O2. split; [done|]. simpl. by induction (accepted (pool_trace tr)).
Qed.

(** ** the stream of a connection *)
Lemma is_end c : k_h c = HEnd ∨ k_h c ≠ HEnd.
Proof. destruct (k_h c); auto. Qed.
Definition pend (c : conn) : list receive := option_list (k_rchan c) ++ match k_rg c with RSend r => [r] | _ => [] end.
Definition open_rd (rd : reader) : reader := Rd (rd_buf rd) (rd_in rd) None.
Definition sinv (k : nat) (tr : list vlabel) (c : conn) : Prop := ∃ rs rd0, streams max (Rd "" (arrived k tr) None) rs rd0 ∧
  (k_h c ≠ HEnd → elements <$> rs = (taken k tr).*2 ++ (elements <$> pend c) ∧ (open_rd (k_rd c) = rd0 ∨ ∃ x, k_rd c = Rd "" [] (Some x))) ∧
  (k_h c = HEnd → (taken k tr).*2 `prefix_of` (elements <$> rs)).
Lemma open_grow rd : open_rd rd = grow [] None rd.
Proof. unfold open_rd, grow. by rewrite app_nil_r. Qed.
Lemma open_decode rd : settled (stream_decode max rd) [] None (stream_decode max (open_rd rd)).
Proof. rewrite open_grow. apply stream_decode_grow. Qed.
Lemma exhausted_decode x : stream_decode max (Rd "" [] (Some x)) = Ret (Fail (Ended x) (Rd "" [] (Some x))).
Proof. done. Qed.
Definition sall (tr : list vlabel) (s : vstate) : Prop := ∀ k, match v_conns s !! k with Some c => sinv k tr c | None => arrived k tr = [] ∧ taken k tr = [] end.
Lemma sinv_frame k tr tr' c c' : arrived k tr' = arrived k tr → taken k tr' = taken k tr → k_rd c' = k_rd c → pend c' = pend c → (k_h c' = HEnd ↔ k_h c = HEnd) → sinv k tr c → sinv k tr' c'.
Proof. unfold sinv. intros -> -> -> -> E (rs & rd0 & H1 & H2 & H3). exists rs, rd0. tauto. Qed.
Lemma sall_runs tr s : runs1 tr s → sall tr s.
Proof.
  induction 1 as [|tr s l s' R IH NC St]; [intros k; simpl; by rewrite lookup_empty|].
  assert (∀ k, (∀ b, l ≠ VArrive k b) → arrived k (tr ++ [l]) = arrived k tr) as EA.
  { intros k N. rewrite arrived_snoc. destruct l; try apply app_nil_r. rewrite decide_False by (intros ->; by eapply N). apply app_nil_r. }
  assert (∀ k, (∀ g r, l ≠ VStart k g r) → taken k (tr ++ [l]) = taken k tr) as ET.
  { intros k N. rewrite taken_snoc. destruct l; try apply app_nil_r. rewrite decide_False by (intros ->; by eapply N). apply app_nil_r. }
  assert (v_conns s' = v_conns s → (∀ k b, l ≠ VArrive k b) → (∀ k g r, l ≠ VStart k g r) → sall (tr ++ [l]) s') as Same.
  { intros Hs N1 N2 k. rewrite Hs. specialize (IH k). destruct (v_conns s !! k); [by eapply sinv_frame; [apply EA| apply ET|..]|rewrite EA, ET by done; done]. }
  assert (∀ k c', v_conns s' = <[k := c']> (v_conns s) → (∀ k', k' ≠ k → (∀ b, l ≠ VArrive k' b) ∧ (∀ g r, l ≠ VStart k' g r)) → sinv k (tr ++ [l]) c' → sall (tr ++ [l]) s') as One.
  { intros k c' Hs N Hk k0. rewrite Hs. specialize (IH k0). destruct (decide (k0 = k)) as [->|Nk]; [by rewrite lookup_insert|]. rewrite lookup_insert_ne by done. destruct (N _ Nk) as [N1 N2].
    destruct (v_conns s !! k0); [by eapply sinv_frame; [apply EA| apply ET|..]|rewrite EA, ET by done; done]. }
  assert (∀ k c c', v_conns s !! k = Some c → v_conns s' = <[k := c']> (v_conns s) → (∀ k' b, l ≠ VArrive k' b) → (∀ k' g r, l ≠ VStart k' g r) →
    k_rd c' = k_rd c → pend c' = pend c → (k_h c' = HEnd ↔ k_h c = HEnd) → sall (tr ++ [l]) s') as Frame.
  { intros k c c' Hc Hs N1 N2 E1 E2 E3. eapply (One k c' Hs); [done|]. specialize (IH k). rewrite Hc in IH. eapply sinv_frame; [by apply EA|by apply ET|done..]. }
  assert (∀ k c, v_conns s !! k = Some c → sinv k tr c) as IHk by (intros k c Hc; specialize (IH k); by rewrite Hc in IH).
  destruct St; try (by apply Same).
  all: try (eapply Frame; [eassumption|reflexivity|done|done|done|unfold pend, with_h; cbn [k_rchan k_rg]; first [done|by match goal with H : k_rg _ = _ |- _ => rewrite H end]|cbn [k_h with_h]; first [done|split; congruence]]).
  - (* open *) eapply One; [reflexivity|done|]. specialize (IH k). rewrite H0 in IH. destruct IH as [I1 I2]. exists [], (Rd "" [] None). rewrite EA, ET, I1, I2 by done. split; [constructor|]. split; [|done]. intros _. split; [done|by left].
  - (* arrive *) eapply One; [reflexivity|intros k' Nk'; split; intros; congruence|]. destruct (IHk _ _ H) as (rs & rd0 & I1 & I2 & I3). exists rs, (grow [b] None rd0). rewrite ET by done. rewrite arrived_snoc, decide_True by done.
    split; [by apply (streams_grow max [b] None) in I1|]. split; [|done]. intros Hh. destruct (I2 Hh) as [I4 I5]. split; [done|]. left. destruct I5 as [<-|[x I5]]; [done|]. rewrite I5 in H0. done.
  - (* end *) eapply One; [reflexivity|intros k' Nk'; split; intros; congruence|]. destruct (IHk _ _ H) as (rs & rd0 & I1 & I2 & I3). exists rs, rd0. rewrite ET, EA by done. split; [done|]. split; [|done]. intros Hh. destruct (I2 Hh) as [I4 I5]. split; [done|].
    destruct I5 as [<-|[y I5]]; [by left|]. right. exists x. cbn [k_rd with_rd]. by rewrite I5.
  - (* got *) eapply One; [reflexivity|intros k' Nk'; split; intros; congruence|]. destruct (IHk _ _ H) as (rs & rd0 & I1 & I2 & I3). rewrite <- (EA k), <- (ET k) in * by done. destruct (is_end c) as [Hh|Hh].
    { exists rs, rd0. split; [done|]. split; [done|]. intros _. by apply I3. }
    destruct (I2 Hh) as [I4 [I5|[x I5]]]; [|rewrite I5, exhausted_decode in H1; done]. pose proof (open_decode (k_rd c)) as D. rewrite H1 in D. simpl in D. exists (rs ++ [r]), (grow [] None rd'). split; [|split; [|done]].
    + eapply sm_got; [done|]. by rewrite <- I5.
    + intros _. split; [|left; by rewrite <- open_grow]. rewrite fmap_app, I4. unfold pend. cbn [k_rchan k_rg with_rd]. rewrite H0, app_nil_r, fmap_app. by rewrite <- app_assoc.
  - (* fail *) eapply One; [reflexivity|intros k' Nk'; split; intros; congruence|]. destruct (IHk _ _ H) as (rs & rd0 & I1 & I2 & I3). rewrite <- (EA k), <- (ET k) in * by done. destruct (is_end c) as [Hh|Hh].
    { exists rs, rd0. split; [done|]. split; [done|]. intros _. by apply I3. }
    destruct (I2 Hh) as [I4 I5]. pose proof (stream_decode_ok max (k_rd c)) as X. rewrite H1 in X. assert (pend (with_rd c rd' (RFail (is_final e))) = pend c) as Ep by (unfold pend; cbn [k_rchan k_rg with_rd]; by rewrite H0).
    destruct e as [y|].
    + destruct X as [_ ->]. exists rs, rd0. split; [done|]. split; [|done]. intros _. rewrite Ep. split; [done|]. right. by exists y.
    + destruct I5 as [I5|[x I5]]; [|rewrite I5, exhausted_decode in H1; done]. pose proof (open_decode (k_rd c)) as D. rewrite H1 in D. simpl in D. exists rs, (grow [] None rd'). split; [|split; [|done]].
      * eapply sm_bad; [done|]. by rewrite <- I5.
      * intros _. rewrite Ep. split; [done|]. left. by rewrite <- open_grow.
  - (* send *) eapply Frame; [eassumption|reflexivity|done|done|done| |done]. unfold pend. cbn [k_rchan k_rg]. by rewrite H0, H1.
  - (* send_err *) eapply Frame; [eassumption|reflexivity|done|done|done| |done]. unfold pend. cbn [k_rchan k_rg]. rewrite H0. by destruct final.
  - (* start *) eapply One; [reflexivity|intros k' Nk'; split; intros; congruence|]. destruct (IHk _ _ H) as (rs & rd0 & I1 & I2 & I3). rewrite <- (EA k) in * by done. destruct (I2 ltac:(congruence)) as [I4 I5]. exists rs, rd0. split; [done|].
    assert (elements <$> rs = (taken k (tr ++ [VStart k g r])).*2 ++ match k_rg c with RSend r0 => [elements r0] | _ => [] end) as E.
    { rewrite I4, taken_snoc, decide_True by done. rewrite fmap_app, <- app_assoc. unfold pend. rewrite H1. simpl. by destruct (k_rg c). }
    split; [|intros _; rewrite E; by eexists]. intros _. split; [|done]. rewrite E. unfold pend. simpl. by destruct (k_rg c).
  - (* close *) eapply One; [reflexivity|intros k' Nk'; split; intros; congruence|]. destruct (IHk _ _ H) as (rs & rd0 & I1 & I2 & I3). rewrite <- (EA k), <- (ET k) in * by done. destruct (I2 ltac:(congruence)) as [I4 _]. exists rs, rd0.
    split; [done|]. split; [done|]. intros _. rewrite I4. by eexists.
Qed.
Lemma sall_streams tr s k : runs1 tr s → ∃ rs rd0, streams max (Rd "" (arrived k tr) None) rs rd0 ∧ (taken k tr).*2 `prefix_of` (elements <$> rs).
Proof.
  intros R. pose proof (sall_runs _ _ R k) as S. destruct (v_conns s !! k) as [c|].
  - destruct S as (rs & rd0 & S1 & S2 & S3). exists rs, rd0. split; [done|]. destruct (is_end c) as [H|H]; [by apply S3|]. destruct (S2 H) as [-> _]. by eexists.
  - destruct S as [-> ->]. exists [], (Rd "" [] None). split; [constructor|done].
Qed.
End more1.
