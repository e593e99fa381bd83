(** Invariants of the v1 server, over all schedules. *)
From Verif Require Import GoBase GoBaseProofs Float64 Db Protocol Redis Obs SpecResp SpecWire SpecStream RespProofs P_Wire Stream StreamProofs
  Server SpecServing ServerProofs P_Serve P_ServeMore Server1 SpecServing1.

(** ** traces *)
Lemma pool_trace_snoc tr l : pool_trace (tr ++ [l]) = pool_trace tr ++ match l with VPool x => [x] | _ => [] end.
Proof. unfold pool_trace. rewrite omap_app. by destruct l. Qed.
Lemma arrived_snoc k tr l : arrived k (tr ++ [l]) = arrived k tr ++ match l with VArrive k' b => if decide (k' = k) then [b] else [] | _ => [] end.
Proof. unfold arrived. rewrite omap_app. destruct l; try done. simpl. by destruct (decide _). Qed.
Lemma taken_snoc k tr l : taken k (tr ++ [l]) = taken k tr ++ match l with VStart k' g r => if decide (k' = k) then [(g, elements r)] else [] | _ => [] end.
Proof. unfold taken. rewrite omap_app. destruct l; try done. simpl. by destruct (decide _). Qed.
Lemma written_snoc k tr l : written k (tr ++ [l]) = written k tr ++ match l with VWrite k' g b => if decide (k' = k) then [(g, b)] else [] | _ => [] end.
Proof. unfold written. rewrite omap_app. destruct l; try done. simpl. by destruct (decide _). Qed.
Lemma taken_in k tr g q : (g, q) ∈ taken k tr ↔ ∃ r, VStart k g r ∈ tr ∧ elements r = q.
Proof.
  unfold taken. rewrite elem_of_list_omap. split.
  - intros (l & H & E). destruct l; try done. destruct (decide _) as [->|]; [|done]. injection E as <- <-. eauto.
  - intros (r & H & <-). exists (VStart k g r). split; [done|]. by rewrite decide_True by done.
Qed.
Lemma written_in k tr g b : (g, b) ∈ written k tr ↔ VWrite k g b ∈ tr.
Proof.
  unfold written. rewrite elem_of_list_omap. split.
  - intros (l & H & E). destruct l; try done. destruct (decide _) as [->|]; [|done]. by injection E as <- <-.
  - intros H. exists (VWrite k g b). split; [done|]. by rewrite decide_True by done.
Qed.
Lemma pool_in tr l : l ∈ pool_trace tr ↔ VPool l ∈ tr.
Proof.
  unfold pool_trace. rewrite elem_of_list_omap. split.
  - intros (x & H & E). destruct x; try done. by injection E as <-.
  - intros H. by exists (VPool l).
Qed.

(** ** the handlers and the requests they wait for *)
Definition busy (k : nat) (x : gstate) : Prop := x = GAdd k ∨ x = GSelect k ∨ (∃ r, x = GReply k r) ∨ x = GTimeout k.
Lemma busy_unique k k' x : busy k x → busy k' x → k = k'.
Proof. unfold busy. intros [->|[->|[[r ->] | ->]]]; naive_solver. Qed.
Lemma busy_live k x : busy k x → x ≠ GEnd.
Proof. unfold busy. naive_solver. Qed.

Section inv1.
Context (ext : Ext) (max : Z).
Notation step1 := (step1 ext max).
Notation runs1 := (runs1 ext max).

Lemma inner_gs ps p l p' : inner l = true → step ext max ps p l p' →
  (c_gs p' = c_gs p ∧ ∀ g, l ≠ LAccept g) ∨
  (∃ g k x y, c_gs p !! g = Some x ∧ busy k x ∧ busy k y ∧ c_gs p' = <[g := y]> (c_gs p) ∧ y ≠ GAdd k ∧ ((l = LAccept g ∧ x = GAdd k) ∨ ((∀ g, l ≠ LAccept g) ∧ x ≠ GAdd k))).
Proof.
  intros Hi St. destruct St; try discriminate Hi; try (left; by split).
  - right. exists g, k, (GAdd k), (GSelect k). unfold busy. naive_solver.
  - right. exists g, k, (GSelect k), (GTimeout k). unfold busy. naive_solver.
  - right. exists g, k, (GSelect k), (GReply k (ev_rsp e)). unfold busy. naive_solver.
Qed.
Lemma inner_step ps p l p' : inner l = true → step ext max 0 p l p' → step ext max ps p l p'.
Proof. intros Hi St. destruct St; try discriminate Hi; by econstructor. Qed.
Lemma stop_step ps p p' : step ext max 0 p LStop p' → step ext max ps p LStop p' ∧ c_gs p' = c_gs p.
Proof. intros St. inversion St; subst. split; [by constructor|done]. Qed.

Record kinv (cs : gmap nat conn) (p : config) : Prop := {
  ki_call : ∀ k c g, cs !! k = Some c → k_h c = HCall g → ∃ x, c_gs p !! g = Some x ∧ busy k x;
  ki_own : ∀ g x, c_gs p !! g = Some x → x = GEnd ∨ ∃ k c, busy k x ∧ cs !! k = Some c ∧ k_h c = HCall g;
}.
Lemma kinv_same cs p k c c' : kinv cs p → cs !! k = Some c → k_h c' = k_h c → kinv (<[k := c']> cs) p.
Proof.
  intros [K1 K2] Hc Hh. split.
  - intros k0 c0 g H1 H2. destruct (decide (k0 = k)) as [->|]; [rewrite lookup_insert in H1; injection H1 as <-; apply (K1 k c g); congruence|].
    rewrite lookup_insert_ne in H1 by done. by eapply K1.
  - intros g x Hx. destruct (K2 _ _ Hx) as [?|(k0 & c0 & H1 & H2 & H3)]; [by left|right]. destruct (decide (k0 = k)) as [->|].
    + exists k, c'. rewrite lookup_insert. split; [done|]. split; [done|congruence].
    + exists k0, c0. by rewrite lookup_insert_ne.
Qed.
Lemma kinv_idle cs p k c' : kinv cs p → (∀ c g, cs !! k = Some c → k_h c ≠ HCall g) → (∀ g, k_h c' ≠ HCall g) → kinv (<[k := c']> cs) p.
Proof.
  intros [K1 K2] Hc Hh. split.
  - intros k0 c0 g H1 H2. destruct (decide (k0 = k)) as [->|]; [rewrite lookup_insert in H1; injection H1 as <-; by apply Hh in H2|].
    rewrite lookup_insert_ne in H1 by done. by eapply K1.
  - intros g x Hx. destruct (K2 _ _ Hx) as [?|(k0 & c0 & H1 & H2 & H3)]; [by left|right]. destruct (decide (k0 = k)) as [->|].
    + by apply Hc in H3.
    + exists k0, c0. by rewrite lookup_insert_ne.
Qed.
Lemma kinv_gs cs p p' : c_gs p' = c_gs p → kinv cs p → kinv cs p'.
Proof. intros E [K1 K2]. split; rewrite E; done. Qed.
Lemma kinv_finish cs p p' k c c' g : kinv cs p → cs !! k = Some c → k_h c = HCall g → (∀ g, k_h c' ≠ HCall g) → c_gs p' = <[g := GEnd]> (c_gs p) → kinv (<[k := c']> cs) p'.
Proof.
  intros [K1 K2] Hc Hh Hh' E. destruct (K1 _ _ _ Hc Hh) as (x0 & Hx0 & Hb0). split.
  - intros k0 c0 g0 H1 H2. destruct (decide (k0 = k)) as [->|]; [rewrite lookup_insert in H1; injection H1 as <-; by apply Hh' in H2|].
    rewrite lookup_insert_ne in H1 by done. destruct (K1 _ _ _ H1 H2) as (x & Hx & Hb). rewrite E. destruct (decide (g0 = g)) as [->|]; [|exists x; by rewrite lookup_insert_ne].
    exfalso. rewrite Hx0 in Hx. injection Hx as <-. by pose proof (busy_unique _ _ _ Hb0 Hb).
  - intros g0 x Hx. rewrite E in Hx. destruct (decide (g0 = g)) as [->|]; [rewrite lookup_insert in Hx; left; congruence|]. rewrite lookup_insert_ne in Hx by done.
    destruct (K2 _ _ Hx) as [?|(k0 & c0 & H1 & H2 & H3)]; [by left|right]. destruct (decide (k0 = k)) as [->|]; [congruence|]. exists k0, c0. by rewrite lookup_insert_ne.
Qed.
Lemma kinv_start cs p k c c' g r : kinv cs p → cs !! k = Some c → k_h c = HLoop → c_gs p !! g = None → k_h c' = after_start g r → kinv (<[k := c']> cs) (begin_request p k g r).
Proof.
  intros K Hc Hh Hg Hh'. destruct K as [K1 K2]. unfold after_start, begin_request in *. destruct (elements r) as [|name args] eqn:Er.
  - split.
    + intros k0 c0 g0 H1 H2. destruct (decide (k0 = k)) as [->|]; [rewrite lookup_insert in H1; congruence|]. rewrite lookup_insert_ne in H1 by done.
      destruct (K1 _ _ _ H1 H2) as (x & Hx & Hb). exists x. split; [|done]. simpl. rewrite lookup_insert_ne; [done|]. congruence.
    + intros g0 x Hx. simpl in Hx. destruct (decide (g0 = g)) as [->|]; [rewrite lookup_insert in Hx; left; congruence|]. rewrite lookup_insert_ne in Hx by done.
      destruct (K2 _ _ Hx) as [?|(k0 & c0 & H1 & H2 & H3)]; [by left|right]. destruct (decide (k0 = k)) as [->|]; [congruence|]. exists k0, c0. by rewrite lookup_insert_ne.
  - split.
    + intros k0 c0 g0 H1 H2. simpl. destruct (decide (k0 = k)) as [->|].
      * rewrite lookup_insert in H1. injection H1 as <-. assert (g0 = g) as -> by congruence. exists (GAdd k). rewrite lookup_insert. split; [done|by left].
      * rewrite lookup_insert_ne in H1 by done. destruct (K1 _ _ _ H1 H2) as (x & Hx & Hb). exists x. split; [|done]. rewrite lookup_insert_ne; [done|]. congruence.
    + intros g0 x Hx. simpl in Hx. destruct (decide (g0 = g)) as [->|].
      * rewrite lookup_insert in Hx. injection Hx as <-. right. exists k, c'. rewrite lookup_insert. split; [by left|done].
      * rewrite lookup_insert_ne in Hx by done. destruct (K2 _ _ Hx) as [?|(k0 & c0 & H1 & H2 & H3)]; [by left|right].
        destruct (decide (k0 = k)) as [->|]; [congruence|]. exists k0, c0. by rewrite lookup_insert_ne.
Qed.
Lemma kinv_inner cs p l p' : inner l = true → step ext max 0 p l p' → kinv cs p → kinv cs p'.
Proof.
  intros Hi St K. destruct (inner_gs _ _ _ _ Hi St) as [[E _]|(g & k & x & y & Hg & Hx & Hy & E & _)]; [by eapply kinv_gs|].
  destruct K as [K1 K2]. split.
  - intros k0 c0 g0 H1 H2. destruct (K1 _ _ _ H1 H2) as (x0 & Hx0 & Hb). rewrite E. destruct (decide (g0 = g)) as [->|]; [|exists x0; by rewrite lookup_insert_ne].
    exists y. rewrite lookup_insert. split; [done|]. assert (x0 = x) as -> by congruence. by rewrite (busy_unique _ _ _ Hb Hx).
  - intros g0 x0 Hx0. rewrite E in Hx0. destruct (decide (g0 = g)) as [->|].
    + rewrite lookup_insert in Hx0. injection Hx0 as <-. right. destruct (K2 _ _ Hg) as [->|(k0 & c0 & H1 & H2 & H3)]; [by apply busy_live in Hx|].
      rewrite <- (busy_unique _ _ _ Hx H1) in H2. by exists k, c0.
    + rewrite lookup_insert_ne in Hx0 by done. by apply K2.
Qed.
Lemma kinv_step s l s' : kinv (v_conns s) (v_pool s) → step1 s l s' → kinv (v_conns s') (v_pool s').
Proof.
  intros K St. destruct St; cbn [v_conns v_pool upd upd_pool dead]; try done;
    try (eapply kinv_same; [done|eassumption|done]);
    try (eapply kinv_idle; [done|intros; congruence|done]);
    try (eapply kinv_finish; [done|eassumption|eassumption|done|done]).
  - by eapply kinv_start.
  - by eapply kinv_inner.
  - eapply kinv_gs; [|done]. match goal with H : step _ _ _ _ LStop _ |- _ => apply (stop_step 0 _ _ H) end.
Qed.
Lemma kinv_runs tr s : runs1 tr s → kinv (v_conns s) (v_pool s).
Proof. induction 1 as [|tr s l s' R IH NC St]; [split; simpl; intros *; by rewrite lookup_empty|by eapply kinv_step]. Qed.

(** ** the event pool behaves as in Server.v *)
Definition matches (l : vlabel) (ls : list label) : Prop := match l with
  | VStart k g r => ∃ f, decode max f = Ret (DOk (r, EmptyString)) ∧ ls = [LDeliver g k f; LPrint g (org_str r)]
  | VWrite k g b => ls = [LWrite g k b]
  | VDrop k g => ∃ b, ls = [LWrite g k b]
  | VPool x => ls = [x]
  | _ => ls = []
  end.
Inductive proj : list vlabel → list label → Prop :=
| proj_nil : proj [] []
| proj_snoc tr t l ls : proj tr t → matches l ls → proj (tr ++ [l]) (t ++ ls).

(** every request in a receive channel has been decoded *)
Definition decoded (r : receive) : Prop := ∃ f, decode max f = Ret (DOk (r, EmptyString)).
Lemma got_decoded rd r rd' : stream_decode max rd = Ret (Got r rd') → decoded r.
Proof. intros E. pose proof (stream_decode_ok max rd) as K. rewrite E in K. destruct K as (_ & _ & v & _ & K). exists v. specialize (K EmptyString). by rewrite string_app_nil_r in K. Qed.
Definition dinv (c : conn) : Prop := (∀ r, k_rchan c = Some r → decoded r) ∧ (∀ r, k_rg c = RSend r → decoded r).
Lemma dinv_step s l s' : map_Forall (λ _ c, dinv c) (v_conns s) → step1 s l s' → map_Forall (λ _ c, dinv c) (v_conns s').
Proof.
  intros D St. assert (∀ k c c', v_conns s !! k = Some c → (dinv c → dinv c') → map_Forall (λ _ c, dinv c) (<[k := c']> (v_conns s))) as U.
  { intros k c c' Hc Hd. apply map_Forall_insert_2; [|done]. apply Hd. by eapply D. }
  destruct St; cbn [v_conns upd upd_pool dead]; try done; try (eapply U; [eassumption|]; unfold dinv; simpl; intros [? ?]; split; naive_solver).
  - apply map_Forall_insert_2; [|done]. split; done.
  - eapply U; [eassumption|]. intros [D1 D2]. split; [done|]. intros r0 [= <-]. by eapply got_decoded.
  - eapply U; [eassumption|]. intros [D1 D2]. split; [done|]. simpl. by destruct final.
Qed.
Lemma dinv_runs tr s : runs1 tr s → map_Forall (λ _ c, dinv c) (v_conns s).
Proof. induction 1 as [|tr s l s' R IH NC St]; [apply map_Forall_empty|by eapply dinv_step]. Qed.

Lemma size_step s l s' : step1 s l s' → (size (c_gs (v_pool s')) ≤ S (size (c_gs (v_pool s))))%nat.
Proof.
  assert (∀ (m : gmap gid gstate) g x, (size (<[g := x]> m) ≤ S (size m))%nat) as K.
  { intros m g x. destruct (m !! g) as [y|] eqn:E; [rewrite map_size_insert_Some by (by eexists); lia|rewrite map_size_insert_None by done; lia]. }
  intros St. destruct St; cbn [v_pool upd upd_pool dead set_g c_gs]; try lia; try apply K.
  - unfold begin_request. destruct (elements r); apply K.
  - destruct (inner_gs _ _ _ _ H H0) as [[-> _]|(? & ? & ? & ? & _ & _ & _ & -> & _)]; [lia|apply K].
  - apply stop_step with (ps := 0%nat) in H0 as [_ ->]. lia.
Qed.
Lemma size_runs tr s : runs1 tr s → (size (c_gs (v_pool s)) ≤ length tr)%nat.
Proof.
  induction 1 as [|tr s l s' R IH NC St]; [simpl; rewrite map_size_empty; lia|]. apply size_step in St. rewrite app_length. simpl. lia.
Qed.
Lemma live_size p : (live_count p ≤ size (c_gs p))%nat.
Proof. unfold live_count. rewrite filter_length. unfold size, map_size. done. Qed.

Lemma runs_app2 ps t p l1 p1 l2 p2 : runs ext max ps t p → c_crashed p = false → step ext max ps p l1 p1 → c_crashed p1 = false → step ext max ps p1 l2 p2 → runs ext max ps (t ++ [l1; l2]) p2.
Proof. intros R N1 S1 N2 S2. change [l1; l2] with ([l1] ++ [l2]). rewrite app_assoc. eapply runs_step; [|exact N2|exact S2]. by eapply runs_step. Qed.
Lemma projection tr s : runs1 tr s → ∃ t, proj tr t ∧ ∀ ps, (length tr < ps)%nat → runs ext max ps t (v_pool s).
Proof.
  induction 1 as [|tr s l s' R IH NC St]; [exists []; split; [constructor|intros; constructor]|].
  destruct IH as (t & Hp & Ht). destruct NC as [_ NC]. pose proof (kinv_runs _ _ R) as K. pose proof (dinv_runs _ _ R) as D. pose proof (size_runs _ _ R) as Z.
  assert (∀ ps, (length (tr ++ [l]) < ps)%nat → runs ext max ps t (v_pool s)) as Ht' by (intros ps Hps; apply Ht; rewrite app_length in Hps; simpl in Hps; lia).
  assert (∀ p, matches l [] → v_pool s = p → ∃ t', proj (tr ++ [l]) t' ∧ ∀ ps, (length (tr ++ [l]) < ps)%nat → runs ext max ps t' p) as Same.
  { intros p Hm <-. exists (t ++ []). split; [by constructor|]. rewrite app_nil_r. done. }
  assert (∀ x p, matches l [x] → (∀ ps, step ext max ps (v_pool s) x p) → ∃ t', proj (tr ++ [l]) t' ∧ ∀ ps, (length (tr ++ [l]) < ps)%nat → runs ext max ps t' p) as One.
  { intros x p Hm Hs. exists (t ++ [x]). split; [by constructor|]. intros ps Hps. eapply runs_step; [by apply Ht'|done|apply Hs]. }
  destruct St; cbn [v_pool upd upd_pool dead]; try (by apply Same).
  - destruct (D k c ltac:(done)) as [Dr _]. destruct (Dr r ltac:(done)) as [f Hf]. exists (t ++ [LDeliver g k f; LPrint g (org_str r)]). split; [constructor; [done|]; by exists f|].
    intros ps Hps. eapply (runs_app2 _ _ _ _ (set_g (v_pool s) g (GFrame k f))); [by apply Ht'|done| |done|].
    + constructor; [done|]. pose proof (live_size (v_pool s)). rewrite app_length in Hps. simpl in Hps. lia.
    + destruct r as [els org]. unfold begin_request. cbn [elements org_str]. destruct els as [|name args].
      * replace (set_g (v_pool s) g GEnd) with (set_g (set_g (v_pool s) g (GFrame k f)) g GEnd) by (unfold set_g; simpl; f_equal; apply insert_insert).
        eapply st_empty; [simpl; apply lookup_insert|exact Hf].
      * replace (set_g (v_pool s) g (GAdd k)) with (set_g (set_g (v_pool s) g (GFrame k f)) g (GAdd k)) by (unfold set_g; simpl; f_equal; apply insert_insert).
        eapply st_request; [simpl; apply lookup_insert|exact Hf].
  - apply (One l); [done|]. intros ps. by apply inner_step.
  - destruct (ki_call _ _ K _ _ _ ltac:(eassumption) ltac:(eassumption)) as (x & Hx & Hb). assert (k' = k) as -> by (unfold busy in Hb; naive_solver). apply (One (LWrite g k b)); [done|]. intros ps. by eapply st_write.
  - destruct (ki_call _ _ K _ _ _ ltac:(eassumption) ltac:(eassumption)) as (x & Hx & Hb). assert (k' = k) as -> by (unfold busy in Hb; naive_solver). apply (One (LWrite g k deadline_bytes)); [done|]. intros ps. by eapply st_write_timeout.
  - destruct (ki_call _ _ K _ _ _ ltac:(eassumption) ltac:(eassumption)) as (x & Hx & Hb). assert (k' = k) as -> by (unfold busy in Hb; naive_solver). apply (One (LWrite g k b)); [by exists b|]. intros ps. by eapply st_write.
  - destruct (ki_call _ _ K _ _ _ ltac:(eassumption) ltac:(eassumption)) as (x & Hx & Hb). assert (k' = k) as -> by (unfold busy in Hb; naive_solver). apply (One (LWrite g k deadline_bytes)); [by eexists|]. intros ps. by eapply st_write_timeout.
  - apply (One LStop); [done|]. intros ps. by apply stop_step.
Qed.

(** what the projection says *)
Lemma proj_calls tr t : proj tr t → calls t = calls1 tr.
Proof.
  unfold calls1. induction 1 as [|tr t l ls H IH M]; [done|]. unfold calls in *. rewrite pool_trace_snoc, !omap_app, IH. f_equal.
  destruct l; simpl in M; try (by subst ls); [destruct M as (? & _ & ->)|destruct M as (? & ->)]; done.
Qed.
Lemma proj_accepted tr t : proj tr t → accepted t = accepted (pool_trace tr).
Proof.
  induction 1 as [|tr t l ls H IH M]; [done|]. unfold accepted in *. rewrite pool_trace_snoc, !omap_app, IH. f_equal.
  destruct l; simpl in M; try (by subst ls); [destruct M as (? & _ & ->)|destruct M as (? & ->)]; done.
Qed.
Lemma proj_deliver tr t : proj tr t → ∀ g k f, LDeliver g k f ∈ t → (∃ r, VStart k g r ∈ tr ∧ decode max f = Ret (DOk (r, EmptyString))) ∨ VPool (LDeliver g k f) ∈ tr.
Proof.
  induction 1 as [|tr t l ls H IH M]; intros g k f Hin; [by apply elem_of_nil in Hin|]. apply elem_of_app in Hin as [Hin|Hin].
  - destruct (IH _ _ _ Hin) as [(r & ? & ?)|?]; [left; exists r|right]; set_solver.
  - destruct l; simpl in M; try (subst ls; by apply elem_of_nil in Hin).
    + destruct M as (f' & Hf & ->). left. exists r. assert (g0 = g ∧ k0 = k ∧ f' = f) as (-> & -> & ->) by set_solver. set_solver.
    + subst ls. set_solver.
    + destruct M as (? & ->). set_solver.
    + subst ls. right. set_solver.
Qed.
Lemma pool_labels tr s : runs1 tr s → ∀ l, VPool l ∈ tr → inner l = true ∨ (l = LStop ∧ VStop ∈ tr).
Proof.
  assert (∀ tr s, runs1 tr s → v_listen s = false → VStop ∈ tr) as L.
  { induction 1 as [|tr0 s0 l s' R IH NC St]; [done|]. rewrite in_snoc. destruct St; simpl; auto. }
  induction 1 as [|tr s l s' R IH NC St]; intros x Hin; [by apply elem_of_nil in Hin|]. rewrite in_snoc in Hin |- *. destruct Hin as [Hin|<-].
  - destruct (IH _ Hin) as [?|[-> ?]]; auto.
  - inversion St; subst; [by left|]. right. split; [done|]. left. by eapply L.
Qed.
End inv1.
