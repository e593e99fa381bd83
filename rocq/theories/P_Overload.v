(** C75: what happens when more frames arrive than the server has goroutines for. *)
From Verif Require Import GoBase GoBaseProofs Float64 Db Protocol Redis SpecResp SpecWire Obs RespProofs Examples Server SpecServing SpecOverload
  ServerProofs P_Wire P_Serve Drive P_ServeMore.

Section overload.
Context (ext : Ext) (max : Z) (ps : nat).
Notation step := (step ext max ps).
Notation runs := (runs ext max ps).

(** labels that begin or end the work on a frame *)
Definition marks (l : label) : Prop := match l with LDeliver _ _ _ | LWrite _ _ _ | LLost _ | LPrint _ _ => True | _ => False end.
Lemma gs_step s l s' : step s l s' →
  (c_gs s' = c_gs s ∧ ¬ marks l) ∨
  (∃ g k f, l = LDeliver g k f ∧ c_gs s !! g = None ∧ c_gs s' = <[g := GFrame k f]> (c_gs s) ∧ (live_count s < ps)%nat) ∨
  (∃ g x, c_gs s !! g = Some x ∧ x ≠ GEnd ∧ c_gs s' = <[g := GEnd]> (c_gs s) ∧ ((∃ k b, l = LWrite g k b) ∨ l = LLost g)) ∨
  (∃ g k f org, l = LPrint g org ∧ c_gs s !! g = Some (GFrame k f) ∧ (¬ ∃ req, asks max f req) ∧ c_gs s' = <[g := GEnd]> (c_gs s)) ∨
  (∃ g k f org, l = LPrint g org ∧ c_gs s !! g = Some (GFrame k f) ∧ (∃ req, asks max f req) ∧ c_gs s' = <[g := GAdd k]> (c_gs s)) ∨
  (∃ g x y, ¬ marks l ∧ c_gs s !! g = Some x ∧ c_gs s' = <[g := y]> (c_gs s) ∧ (∀ k f, x ≠ GFrame k f) ∧ (∀ k f, y ≠ GFrame k f) ∧ x ≠ GEnd ∧ y ≠ GEnd).
Proof.
  destruct 1; try (left; split; [done|]; by intros []).
  - right; left. by eexists _, _, _.
  - do 2 right; left. eexists g, _. split; [done|]. split; [done|]. split; [done|]. by right.
  - do 2 right; left. eexists g, _. split; [done|]. split; [done|]. split; [done|]. by right.
  - do 3 right; left. eexists g, k, f, org. split; [done|]. split; [done|]. split; [|done]. intros (req & Hn & o & r & E). rewrite H0 in E. by injection E as <- _ _.
  - do 4 right; left. eexists g, k, f, org. split; [done|]. split; [done|]. split; [|done]. exists (name :: args). split; [done|eauto].
  - do 5 right. eexists g, _, _. split; [by intros []|]. by repeat split.
  - do 2 right; left. eexists g, _. split; [done|]. split; [done|]. split; [done|]. by right.
  - do 5 right. eexists g, _, _. split; [by intros []|]. by repeat split.
  - do 5 right. eexists g, _, _. split; [by intros []|]. by repeat split.
  - do 2 right; left. eexists g, _. split; [done|]. split; [done|]. split; [done|]. left; eauto.
  - do 2 right; left. eexists g, _. split; [done|]. split; [done|]. split; [done|]. by right.
  - do 2 right; left. eexists g, _. split; [done|]. split; [done|]. split; [done|]. by right.
  - do 2 right; left. eexists g, _. split; [done|]. split; [done|]. split; [done|]. left; eauto.
Qed.
Lemma finished_mono tr tr' g : finished max tr g → finished max (tr ++ tr') g.
Proof.
  intros [(k & b & H)|[H|(k & f & org & H1 & H2 & H3)]]; [left; exists k, b|right; left|right; right; exists k, f, org]; rewrite ?elem_of_app; auto.
Qed.

(** the marks in the trace against the goroutines *)
Record told (tr : list label) (s : config) (g : gid) : Prop := {
  t_end : c_gs s !! g = Some GEnd → finished max tr g;
  t_write : ∀ k b, LWrite g k b ∈ tr → c_gs s !! g = Some GEnd;
  t_lost : LLost g ∈ tr → c_gs s !! g = Some GEnd;
  t_print : ∀ org, LPrint g org ∈ tr → ∃ x, c_gs s !! g = Some x ∧ ∀ k f, x ≠ GFrame k f;
}.
Lemma frame_delivered tr s g k f : runs tr s → c_gs s !! g = Some (GFrame k f) → LDeliver g k f ∈ tr.
Proof.
  intros R H. pose proof (i_g _ _ _ _ (runs_inv _ _ _ _ _ R) g) as G. unfold gok, gor_ok in G. rewrite H in G.
  destruct (c_evs s !! g); [by destruct G as (? & ? & _ & _ & ? & _)|]. by destruct G as (_ & _ & _ & _ & G).
Qed.
Lemma told_runs tr s : runs tr s → ∀ g, told tr s g.
Proof.
  induction 1 as [|tr s l s' R IH NC St]; intros g.
  { split; simpl; [by rewrite lookup_empty|intros ? ? H|intros H|intros ? H]; by apply elem_of_nil in H. }
  destruct (IH g) as [T1 T2 T3 T4].
  assert (¬ marks l → ∀ y, marks y → y ∈ tr ++ [l] → y ∈ tr) as K by (intros N y M [H| ->]%in_snoc; done).
  destruct (gs_step _ _ _ St) as [(E & N)|[(h & k & f & -> & E0 & E & _)|[(h & x & E0 & Hx & E & Hl)|[(h & k & f & org & -> & E0 & Ha & E)|[(h & k & f & org & -> & E0 & Ha & E)|(h & x & y & N & E0 & E & X1 & Y1 & X2 & Y2)]]]]].
  - split; rewrite E.
    + intros H. by apply finished_mono, T1.
    + intros k b H. eapply T2. by apply (K N).
    + intros H. apply T3. by apply (K N).
    + intros o H. eapply T4. by apply (K N).
  - (* delivery *)
    assert (∀ y, (∀ g k f, y ≠ LDeliver g k f) → y ∈ tr ++ [LDeliver h k f] → y ∈ tr) as K2 by (intros y N [H| ->]%in_snoc; [done|by destruct (N h k f)]).
    split; rewrite E; destruct (decide (g = h)) as [->|Ne].
    + by rewrite lookup_insert.
    + rewrite lookup_insert_ne by done. intros H. by apply finished_mono, T1.
    + intros k' b H%K2; [|done]. apply T2 in H. congruence.
    + intros k' b H%K2; [|done]. rewrite lookup_insert_ne by done. by eapply T2.
    + intros H%K2; [|done]. apply T3 in H. congruence.
    + intros H%K2; [|done]. rewrite lookup_insert_ne by done. by eapply T3.
    + intros o H%K2; [|done]. apply T4 in H as (x & H & _). congruence.
    + intros o H%K2; [|done]. rewrite lookup_insert_ne by done. by eapply T4.
  - (* a reply, or none *)
    destruct (decide (g = h)) as [->|Ne].
    + split; rewrite E, lookup_insert; try done; [|eauto].
      intros _. destruct Hl as [(k & b & ->)| ->]; [left; exists k, b|right; left]; apply in_snoc; by right.
    + split; rewrite E, lookup_insert_ne by done.
      * intros H. by apply finished_mono, T1.
      * intros k b [H|H]%in_snoc; [by eapply T2|]. by destruct Hl as [(? & ? & ->)| ->]; [injection H as -> -> ->|].
      * intros [H|H]%in_snoc; [by eapply T3|]. by destruct Hl as [(? & ? & ->)| ->]; [|injection H as ->].
      * intros o [H|H]%in_snoc; [by eapply T4|]. by destruct Hl as [(? & ? & ->)| ->].
  - (* nothing to do *)
    destruct (decide (g = h)) as [->|Ne].
    + split; rewrite E, lookup_insert; try done; [|eauto].
      intros _. right; right. exists k, f, org. rewrite !in_snoc. split; [left; by eapply frame_delivered|]. split; [by right|done].
    + split; rewrite E, lookup_insert_ne by done.
      * intros H. by apply finished_mono, T1.
      * intros k' b [H|H]%in_snoc; [by eapply T2|done].
      * intros [H|H]%in_snoc; [by eapply T3|done].
      * intros o [H|H]%in_snoc; [by eapply T4|]. by injection H as -> ->.
  - (* a request *)
    destruct (decide (g = h)) as [->|Ne].
    + split; rewrite E, lookup_insert; try done; [..|eauto].
      * intros k' b [H|H]%in_snoc; [|done]. apply T2 in H. congruence.
      * intros [H|H]%in_snoc; [|done]. apply T3 in H. congruence.
    + split; rewrite E, lookup_insert_ne by done.
      * intros H. by apply finished_mono, T1.
      * intros k' b [H|H]%in_snoc; [by eapply T2|done].
      * intros [H|H]%in_snoc; [by eapply T3|done].
      * intros o [H|H]%in_snoc; [by eapply T4|]. by injection H as -> ->.
  - destruct (decide (g = h)) as [->|Ne].
    + split; rewrite E, lookup_insert; [intros [= ->]; done|..].
      * intros k' b H%(K N); [|done]. apply T2 in H. congruence.
      * intros H%(K N); [|done]. apply T3 in H. congruence.
      * eauto.
    + split; rewrite E, lookup_insert_ne by done.
      * intros H. by apply finished_mono, T1.
      * intros k' b H%(K N); [by eapply T2|done].
      * intros H%(K N); [by eapply T3|done].
      * intros o H%(K N); [by eapply T4|done].
Qed.
Lemma under_way_live tr s g : runs tr s → (under_way max tr g ↔ ∃ x, c_gs s !! g = Some x ∧ x ≠ GEnd).
Proof.
  intros R. destruct (told_runs _ _ R g) as [T1 T2 T3 T4]. split.
  - intros [Hs Hf]. apply started_in in Hs as (k & f & Hd). destruct (delivered_gor _ _ _ _ _ _ _ _ R Hd) as [x Hx].
    exists x. split; [done|]. intros ->. by apply Hf, T1.
  - intros (x & Hx & Ne). pose proof (i_g _ _ _ _ (runs_inv _ _ _ _ _ R) g) as G. unfold gok in G.
    assert (∃ k f, LDeliver g k f ∈ tr) as (k & f & Hd).
    { destruct (c_evs s !! g); [destruct G as (k & f & ? & _); eauto|]. destruct G as (_ & _ & _ & _ & G). rewrite Hx in G.
      destruct x; try done; eauto. }
    split; [apply started_in; eauto|]. intros [(k' & b & H)|[H|(k' & f' & org & H1 & H2 & H3)]].
    + apply T2 in H. congruence.
    + apply T3 in H. congruence.
    + apply T4 in H2 as (y & Hy & Hne). rewrite Hx in Hy. injection Hy as <-.
      pose proof (deliver_state _ _ _ _ _ _ _ _ R H1) as D. destruct (c_evs s !! g); [by apply H3; eauto|].
      destruct G as (_ & _ & _ & _ & G). rewrite Hx in G. destruct x; try done. by destruct (Hne conn frame).
Qed.
Definition at_work (s : config) : list gid := (filter (λ x, live x.2 = true) (map_to_list (c_gs s))).*1.
Lemma at_work_spec tr s : runs tr s → NoDup (at_work s) ∧ (∀ g, g ∈ at_work s ↔ under_way max tr g) ∧ length (at_work s) = live_count s.
Proof.
  intros R. unfold at_work, live_count. split; [|split].
  - apply NoDup_fmap_fst; [|apply NoDup_filter, NoDup_map_to_list]. intros x y1 y2 [_ H1]%elem_of_list_filter [_ H2]%elem_of_list_filter.
    apply elem_of_map_to_list in H1, H2. congruence.
  - intros g. rewrite (under_way_live _ _ _ R), elem_of_list_fmap. split.
    + intros ([g' x] & -> & H). apply elem_of_list_filter in H as [Hl H]. apply elem_of_map_to_list in H. simpl in *. exists x. split; [done|]. by intros ->.
    + intros (x & Hx & Ne). exists (g, x). split; [done|]. apply elem_of_list_filter. split; [by destruct x|]. by apply elem_of_map_to_list.
  - by rewrite fmap_length.
Qed.
Lemma busy_live tr s : runs tr s → busy max tr (live_count s).
Proof. intros R. exists (at_work s). destruct (at_work_spec _ _ R) as (? & ? & ?). done. Qed.
Lemma busy_unique tr n m : busy max tr n → busy max tr m → n = m.
Proof.
  intros (l1 & N1 & S1 & <-) (l2 & N2 & S2 & <-). apply Permutation_length, NoDup_Permutation; [done..|]. intros g. by rewrite S1, S2.
Qed.
Lemma runs_split tr1 l tr2 s : runs (tr1 ++ l :: tr2) s → ∃ s1 s2, runs tr1 s1 ∧ c_crashed s1 = false ∧ step s1 l s2.
Proof.
  revert s. induction tr2 as [|x tr2 IH] using rev_ind; intros s R.
  - inversion R as [E|tr0 s0 l0 s' R0 NC St E]; [by destruct tr1|]. apply app_inj_tail in E as [-> ->]. subst. eauto.
  - rewrite app_comm_cons, app_assoc in R. inversion R as [E|tr0 s0 l0 s' R0 NC St E]; [by destruct tr1|]. apply app_inj_tail in E as [-> ->]. by apply IH in R0.
Qed.
Lemma live_bound tr s : runs tr s → (live_count s ≤ ps)%nat.
Proof.
  induction 1 as [|tr s l s' R IH NC St]; [unfold live_count; simpl; rewrite map_to_list_empty; simpl; lia|].
  destruct (at_work_spec _ _ R) as (N1 & S1 & L1). rewrite <- L1 in IH. destruct (at_work_spec _ _ (runs_step _ _ _ _ _ _ _ R NC St)) as (N2 & S2 & <-).
  assert ((∀ g, under_way max (tr ++ [l]) g → under_way max tr g) → (length (at_work s') ≤ ps)%nat) as K.
  { intros H. etrans; [|exact IH]. apply submseteq_length, NoDup_submseteq; [done|]. intros g. rewrite S1, S2. auto. }
  destruct (gs_step _ _ _ St) as [(E & N)|[(h & k & f & -> & E0 & E & L)|H]].
  - apply K. intros g. rewrite (under_way_live _ _ _ (runs_step _ _ _ _ _ _ _ R NC St)), (under_way_live _ _ _ R), E. done.
  - rewrite <- L1 in L. etrans; [|exact L].
    change (S (length (at_work s))) with (length (h :: at_work s)). apply submseteq_length, NoDup_submseteq; [done|]. intros g. rewrite S2.
    rewrite (under_way_live _ _ _ (runs_step _ _ _ _ _ _ _ R NC St)), E. intros (x & Hx & Ne). rewrite elem_of_cons. destruct (decide (g = h)) as [->|]; [by left|right].
    rewrite lookup_insert_ne in Hx by done. apply S1, (under_way_live _ _ _ R). eauto.
  - apply K. intros g. rewrite (under_way_live _ _ _ (runs_step _ _ _ _ _ _ _ R NC St)), (under_way_live _ _ _ R). intros (x & Hx & Ne).
    assert (∃ h y z, c_gs s !! h = Some y ∧ y ≠ GEnd ∧ c_gs s' = <[h := z]> (c_gs s)) as (h & y & z & E0 & Hy & E)
      by (destruct H as [(?&?&?&?&?&_)|[(?&?&?&?&_&?&_&?)|[(?&?&?&?&_&?&_&?)|(?&?&?&_&?&?&_&_&?&_)]]]; by eexists _, _, _).
    destruct (decide (g = h)) as [->|]; [eauto|]. rewrite E, lookup_insert_ne in Hx by done. eauto.
Qed.

(** ** C75 *)
(** At every moment as many frames are under way as the pool has room for, or fewer. *)
Theorem C75_bound tr s : runs tr s → ∃ n, busy max tr n ∧ (n ≤ ps)%nat.
Proof. intros R. exists (live_count s). split; [by apply busy_live|by eapply live_bound]. Qed.
(** A frame is refused only when that many are under way, and taken only when fewer are. *)
Theorem C75_refused tr1 k f tr2 s : runs (tr1 ++ LRefuse k f :: tr2) s → busy max tr1 ps.
Proof.
  intros R. apply runs_split in R as (s1 & s2 & R & NC & St). inversion St; subst. pose proof (live_bound _ _ R).
  replace ps with (live_count s2) by lia. by apply busy_live.
Qed.
Theorem C75_taken tr1 g k f tr2 s : runs (tr1 ++ LDeliver g k f :: tr2) s → ∃ n, busy max tr1 n ∧ (n < ps)%nat.
Proof. intros R. apply runs_split in R as (s1 & s2 & R & NC & St). inversion St; subst. exists (live_count s1). split; [by apply busy_live|done]. Qed.
(** Refused frames leave no trace: the server goes on as if they had not been sent. *)
Theorem C75_no_trace tr s : runs tr s → runs (without_refused tr) s.
Proof.
  induction 1 as [|tr s l s' R IH NC St]; [constructor|]. unfold without_refused in *. rewrite omap_app.
  destruct l; simpl; try (by econstructor). rewrite app_nil_r. by inversion St; subst.
Qed.
(** ... and get no reply: every reply is to a frame that was taken, on the connection it came from. *)
Theorem C75_no_reply tr s : runs tr s → calls (without_refused tr) = calls tr ∧ writers (without_refused tr) = writers tr ∧
  (∀ g k b, LWrite g k b ∈ tr → ∃ f req, LDeliver g k f ∈ tr ∧ asks max f req).
Proof.
  intros R. split; [|split].
  - clear R. unfold calls, without_refused. induction tr as [|l tr IH]; [done|]. destruct l; simpl; try done; by f_equal.
  - clear R. unfold writers, without_refused. induction tr as [|l tr IH]; [done|]. destruct l; simpl; try done; by f_equal.
  - intros g k b H. apply elem_of_list_split in H as (tr1 & tr2 & ->). apply runs_split in R as (s1 & s2 & R & NC & St).
    assert (∃ x, c_gs s1 !! g = Some x ∧ match x with GFrame _ _ | GEnd => False | GAdd k' | GSelect k' | GReply k' _ | GTimeout k' => k' = k end) as (x & Hx & Hk) by (inversion St; subst; (eexists; split; [eassumption|done])).
    destruct (gok_event _ _ _ _ _ _ (runs_inv _ _ _ _ _ R) Hx) as (ev & k' & f & E1 & E2 & E3 & E4 & _); [by destruct x|].
    unfold gor_ok in E4. rewrite Hx in E4. exists f, (ev_cmd ev). split; [|done]. rewrite elem_of_app. left.
    destruct x; try done; destruct E4 as (-> & _); by subst.
Qed.
(** Of the requests accepted into the queue, at most two have not been executed: one waits, one is with the worker. *)
Theorem C75_queue tr s : runs tr s → (length (calls tr) ≤ length (queued tr) ≤ length (calls tr) + 2)%nat ∧
  take (length (calls tr)) (queued tr) = who <$> calls tr.
Proof.
  intros R. pose proof (fifo_inv _ _ _ _ _ R) as F. change (accepted tr) with (queued tr) in F. rewrite F, !app_length, fmap_length.
  destruct (i_chan _ _ _ _ (runs_inv _ _ _ _ _ R)) as (_ & L & _). split.
  - split; [lia|]. assert (length (inflight s) ≤ 1)%nat; [|lia]. unfold inflight. destruct (c_worker s); simpl; try lia. destruct (c_cmds s !! e) as [[]|]; simpl; lia.
  - rewrite take_app_le by (by rewrite fmap_length). apply take_ge. by rewrite fmap_length.
Qed.
(** Clients that await the reply to each request on a connection are never refused, if there are no more connections
    than the pool has room for. *)
Theorem C75_patient tr s conns : runs tr s → patient max tr → (∀ l k, l ∈ tr → arrives l k → k ∈ conns) → (length conns ≤ ps)%nat → refused tr = [].
Proof.
  intros R P C L. destruct (refused tr) as [|[k f] r] eqn:Er; [done|exfalso].
  assert (LRefuse k f ∈ tr) as Hin.
  { assert ((k, f) ∈ refused tr) as H by (rewrite Er; left). apply elem_of_list_omap in H as ([] & H & E); simplify_eq. done. }
  apply elem_of_list_split in Hin as (tr1 & tr2 & ->). destruct (C75_refused _ _ _ _ _ R) as (gs & N & S & Hl).
  apply runs_split in R as (s1 & s2 & R & NC & St).
  pose proof (i_started _ _ _ _ (runs_inv _ _ _ _ _ R)) as Ns.
  (* each frame under way is on a connection of its own, and not on this one *)
  assert (∀ gs, NoDup gs → (∀ g, g ∈ gs → under_way max tr1 g) → ∃ ks, NoDup ks ∧ k ∉ ks ∧ length ks = length gs ∧ (∀ x, x ∈ ks → x ∈ conns) ∧
    (∀ x, x ∈ ks → ∃ g f, g ∈ gs ∧ LDeliver g x f ∈ tr1)) as K.
  { clear gs N S Hl. induction gs as [|g gs IH]; intros N U; [exists []; split; [constructor|]; split; [apply not_elem_of_nil|]; split; [done|]; split; intros ? []%elem_of_nil|].
    apply NoDup_cons in N as [N1 N2]. destruct IH as (ks & K1 & K2 & K3 & K4 & K5); [done|intros; apply U; by right|].
    destruct (U g ltac:(left)) as [Hs Hf]. apply started_in in Hs as (x & f' & Hd). exists (x :: ks).
    split; [apply NoDup_cons; split; [|done]|split; [apply not_elem_of_cons; split; [|done]|split; [simpl; by rewrite K3|split]]].
    - intros Hx. destruct (K5 _ Hx) as (g2 & f2 & G2 & D2). assert (g2 ≠ g) as Ng by by intros ->.
      destruct (U g2 ltac:(by right)) as [_ Hf2].
      apply elem_of_list_lookup in Hd as [i Hi]. apply elem_of_list_lookup in D2 as [j Hj].
      assert (∀ i j g g2 f f2, (i < j)%nat → tr1 !! i = Some (LDeliver g x f) → tr1 !! j = Some (LDeliver g2 x f2) → ¬ finished max tr1 g → False) as Q.
      { clear -P Ns. intros i j g g2 f' f2 Hij Hi Hj Hf. apply take_drop_middle in Hj as Et.
        apply (P (take j tr1) (LDeliver g2 x f2) (drop (S j) tr1 ++ LRefuse k f :: tr2) x).
        - rewrite app_comm_cons, app_assoc. by rewrite Et.
        - left; eauto.
        - exists g, f'. assert (LDeliver g x f' ∈ take j tr1) as Hd by (eapply elem_of_list_lookup_2; rewrite lookup_take; [exact Hi|done]). split; [done|].
          split; [apply started_in; eauto|]. intros H. apply Hf. rewrite <- Et. by apply finished_mono. }
      destruct (decide (i < j)%nat); [by eapply Q|]. destruct (decide (i = j)) as [->|]; [congruence|]. eapply (Q j i); [lia|done..].
    - intros ->. eapply (P tr1); [done|right; eauto|]. exists g, f'. split; [done|]. split; [apply started_in; eauto|done].
    - intros y [->|Hy]%elem_of_cons; [|auto]. eapply C; [|left; eauto]. rewrite elem_of_app. by left.
    - intros y [->|Hy]%elem_of_cons; [exists g, f'; split; [left|done]|]. destruct (K5 _ Hy) as (g2 & f2 & ? & ?). exists g2, f2. split; [by right|done]. }
  destruct (K gs N) as (ks & K1 & K2 & K3 & K4 & _); [by intros g ?%S|].
  assert (k ∈ conns) as Hk by (eapply (C (LRefuse k f)); [rewrite elem_of_app; right; left|right; eauto]).
  assert (k :: ks ⊆+ conns) as Hsub by (apply NoDup_submseteq; [by apply NoDup_cons|]; intros y [->|Hy]%elem_of_cons; auto).
  apply submseteq_length in Hsub. simpl in Hsub. lia.
Qed.
(** When the server has come to rest nothing is under way, and the next frame is taken. *)
Theorem C75_drains tr s : runs tr s → c_crashed s = false → LStop ∉ tr → quiescent ext max ps s →
  busy max tr 0 ∧ ((0 < ps)%nat → ∀ k f, (∀ s', ¬ step s (LRefuse k f) s') ∧ ∃ g s', step s (LDeliver g k f) s').
Proof.
  intros R NC NS Q. pose proof (at_rest _ _ _ _ _ R NC Q) as [Rg _ _ _]. destruct (stop_label _ _ _ _ _ R) as [St _].
  assert (live_count s = 0%nat) as L.
  { destruct (at_work_spec _ _ R) as (N & S & <-). destruct (at_work s) as [|g l]; [done|exfalso].
    destruct (proj1 (under_way_live _ _ _ R) (proj1 (S g) ltac:(left))) as (x & Hx & Ne). destruct (Rg _ _ Hx) as [->|[Hs _]]; [done|]. by apply NS, St. }
  split; [rewrite <- L; by apply busy_live|]. intros Hp k f. split.
  - intros s' H. inversion H; subst. lia.
  - exists (fresh (dom (c_gs s))). eexists. apply st_deliver; [|lia]. apply not_elem_of_dom, is_fresh.
Qed.
End overload.

(** ** Examples *)
(** a pool with room for one frame *)
Definition part (l : list action) (tr : list label) (s : config) : option (list label * config) := drive ext0 1000 1 l s tr.
Definition first_frame : list action := [ADeliver 1 7 (frame ["SET"; "k"; "v"])].
Definition and_then : list action := [ADecode 1; AAdd 1] ++ serve 1 ++ [ADone 1; AWrite 1] ++ whole 2 8 (frame ["GET"; "k"]).
Definition crowded : option (list label * config) :=
  match part first_frame [] cfg_init with
  | Some (tr, s) => part and_then (tr ++ [LRefuse 8 (frame ["GET"; "k"])]) s
  | None => None
  end.
Lemma crowded_runs tr s : crowded = Some (tr, s) → runs ext0 1000 1 tr s.
Proof.
  unfold crowded, part. destruct (drive _ _ _ first_frame _ _) as [[tr1 s1]|] eqn:E; [|done]. intros H.
  assert (runs ext0 1000 1 tr1 s1) as R by (eapply drive_runs; [|exact E]; constructor).
  assert (s1 = set_g cfg_init 1%nat (GFrame 7 (frame ["SET"; "k"; "v"]))) as ->.
  { unfold first_frame in E. cbn [drive c_crashed cfg_init do_step c_gs] in E. rewrite lookup_empty in E.
    replace (live_count cfg_init <? 1)%nat with true in E by (by vm_compute). by injection E as _ <-. }
  eapply drive_runs; [|exact H]. eapply runs_step; [exact R|done|]. apply st_refuse. vm_compute. lia.
Qed.
Definition replies_of (tr : list label) : list (nat * string) := omap (λ l, match l with LWrite _ k b => Some (k, b) | _ => None end) tr.
(** The second client is refused while the first is served, hears nothing, asks again and is served. *)
Theorem C75_demo : ∃ tr s, runs ext0 1000 1 tr s ∧ quiescent ext0 1000 1 s ∧ refused tr = [(8%nat, frame ["GET"; "k"])] ∧
  what <$> calls tr = [["SET"; "k"; "v"]; ["GET"; "k"]] ∧ replies_of tr = [(7%nat, crlf ["+OK"]); (8%nat, crlf ["$1"; "v"])].
Proof.
  destruct crowded as [[tr s]|] eqn:E; [|by vm_compute in E]. exists tr, s. split; [by apply crowded_runs|].
  assert ((λ x : list label * config, (idle x.2, refused x.1, what <$> calls x.1, replies_of x.1)) <$> crowded =
    Some (true, [(8%nat, frame ["GET"; "k"])], [["SET"; "k"; "v"]; ["GET"; "k"]], [(7%nat, crlf ["+OK"]); (8%nat, crlf ["$1"; "v"])])) as H by (by vm_compute).
  rewrite E in H. cbn [fmap option_fmap option_map fst snd] in H. injection H as H1 H2 H3 H4. split; [by apply idle_quiescent|]. split; [exact H2|]. split; [exact H3|exact H4].
Qed.
(** The bound on the queue is reached: two requests accepted, none executed. *)
Definition piled : list action :=
  [ADeliver 1 7 (frame ["SET"; "k"; "v"]); ADeliver 2 8 (frame ["GET"; "k"]); ADecode 1; ADecode 2; AAdd 1; ATake; AAdd 2].
Theorem C75_queue_tight : runs ext0 1000 8 (trace piled) (final piled) ∧ queued (trace piled) = [1%nat; 2%nat] ∧ calls (trace piled) = [].
Proof. split; [apply trace_runs; by vm_compute|]. split; by vm_compute. Qed.

(** a way to see that clients are patient *)
Definition on (k : nat) (l : label) : list gid := match l with LDeliver g k' _ => if (k =? k')%nat then [g] else [] | _ => [] end.
Definition conn_of (l : label) : option nat := match l with LDeliver _ k _ | LRefuse k _ => Some k | _ => None end.
Fixpoint patient_from (past future : list label) : bool :=
  match future with
  | [] => true
  | l :: r => match conn_of l with
              | Some k => forallb (λ g, bool_decide (g ∈ writers past)) (past ≫= on k)
              | None => true
              end && patient_from (past ++ [l]) r
  end.
Lemma patient_from_ok max : ∀ fut past, patient_from past fut = true → ∀ tr1 l tr2 k, fut = tr1 ++ l :: tr2 → arrives l k →
  ¬ ∃ g f, LDeliver g k f ∈ past ++ tr1 ∧ under_way max (past ++ tr1) g.
Proof.
  induction fut as [|x fut IH]; intros past H tr1 l tr2 k E A; [by destruct tr1|]. cbn [patient_from] in H. apply andb_true_iff in H as [H1 H2].
  destruct tr1 as [|y tr1]; simpl in E; injection E as -> ->.
  - rewrite app_nil_r. intros (g & f & Hd & _ & Hf). assert (conn_of l = Some k) as Ek by (by destruct A as [(? & ? & ->)|(? & ->)]). rewrite Ek in H1.
    rewrite forallb_forall in H1. apply Hf. left. apply writers_in, (bool_decide_unpack _), Is_true_eq_left, H1, elem_of_list_In, elem_of_list_bind.
    exists (LDeliver g k f). split; [|done]. simpl. rewrite Nat.eqb_refl. left.
  - specialize (IH _ H2 tr1 l tr2 k eq_refl A). by rewrite <- app_assoc in IH.
Qed.
(** Patient clients exist: two connections, each awaiting its replies, three requests. *)
Definition polite : list action := whole 1 7 (frame ["SET"; "k"; "v"]) ++ whole 2 8 (frame ["GET"; "k"]) ++ whole 3 7 (frame ["GET"; "k"]).
Theorem C75_patient_demo : patient 1000 (trace polite) ∧ (∀ l k, l ∈ trace polite → arrives l k → k ∈ [7%nat; 8%nat]) ∧ length (calls (trace polite)) = 3%nat.
Proof.
  split; [|split; [|by vm_compute]].
  - intros tr1 l tr2 k E A. apply (patient_from_ok 1000 (trace polite) [] ltac:(by vm_compute) tr1 l tr2 k E A).
  - intros l k Hl A. assert (conn_of l = Some k) as Ek by (by destruct A as [(? & ? & ->)|(? & ->)]).
    assert (omap conn_of (trace polite) = [7%nat; 8%nat; 7%nat]) as T by (by vm_compute).
    assert (k ∈ [7%nat; 8%nat; 7%nat]) as Hk by (rewrite <- T; apply elem_of_list_omap; eauto). rewrite !elem_of_cons, elem_of_nil in *. tauto.
Qed.
