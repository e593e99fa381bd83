(** C06, C41, C43, and concrete schedules: examples and counterexamples for C06-C10, C41-C43. *)
From Verif Require Import GoBase GoBaseProofs Float64 Db Protocol Redis SpecResp SpecWire Obs RespProofs Examples Server SpecServing ServerProofs P_Wire P_Serve Drive.

Section more.
Context (ext : Ext) (max : Z) (ps : nat).
Notation step := (step ext max ps).
Notation runs := (runs ext max ps).

(** ** C06: one request per frame *)
Definition fits_buffer (args : list string) : Prop := Forall (λ s, slen s + 2 ≤ max ∧ slen s + 2 < two63) args ∧ Z.of_nat (length args) < two63.
Lemma asks_request args t : args ≠ [] → fits_buffer args → asks max (request_bytes args +:+ t) args.
Proof. intros Hn [F L]. split; [done|]. eexists _, _. by apply C01_request. Qed.
(** A frame holding exactly one request is executed as that request and answered. *)
Theorem C06_single_partial tr s g k args : runs tr s → c_crashed s = false → LStop ∉ tr → quiescent ext max ps s →
  args ≠ [] → fits_buffer args → LDeliver g k (request_bytes args) ∈ tr →
  ∃ rs i x, talk ext (as_history (calls tr)) db_new = Ret (c_db s, rs) ∧ calls tr !! i = Some x ∧ who x = g ∧ what x = args ∧
    (g ∈ writers tr ∨ rs !! i = Some None).
Proof.
  intros R NC NS Q Hn Hf Hd. destruct (C42_all_answered _ _ _ _ _ R NC NS Q) as (rs & T & A). destruct (A _ _ _ Hd) as [A1 _].
  destruct (A1 args) as (i & x & ? & ? & ? & ?). { rewrite <- (string_app_nil_r (request_bytes args)). by apply asks_request. }
  exists rs, i, x. done.
Qed.
(** What follows the first request in a frame is never executed for that frame. *)
Theorem C46_rest_ignored tr s g k args t x : runs tr s → args ≠ [] → fits_buffer args → LDeliver g k (request_bytes args +:+ t) ∈ tr →
  x ∈ calls tr → who x = g → what x = args.
Proof.
  intros R Hn Hf Hd Hx <-. apply calls_in in Hx. destruct (exec_facts _ _ _ _ _ R _ _ _ Hx) as (k' & f' & B & Ha). apply before_in in B as [Hd' _].
  pose proof (i_started _ _ _ _ (runs_inv _ _ _ _ _ R)) as N.
  apply elem_of_list_lookup in Hd as [i Hi]. apply elem_of_list_lookup in Hd' as [j Hj].
  assert (i = j) as <- by (eapply (unique_lookup (λ l, match l with LDeliver g _ _ => Some g | _ => None end) tr i j); [apply N|exact Hi|exact Hj|done|done]).
  rewrite Hi in Hj. injection Hj as -> <-. eapply asks_unique; [exact Ha|]. by apply asks_request.
Qed.

(** ** C43: the log *)
Lemma print_facts tr s : runs tr s → ∀ g ev, c_evs s !! g = Some ev →
  ∃ k f org rest, LDeliver g k f ∈ tr ∧ LPrint g org ∈ tr ∧ decode max f = Ret (DOk (Rec (ev_cmd ev) org, rest)).
Proof.
  induction 1 as [|tr s l s' R IH NC St]; intros g ev He; [simpl in He; by rewrite lookup_empty in He|].
  pose proof (runs_inv _ _ _ _ _ R) as I.
  assert (∀ ev', c_evs s !! g = Some ev' → ev_cmd ev' = ev_cmd ev → ∃ k f org rest, LDeliver g k f ∈ tr ++ [l] ∧ LPrint g org ∈ tr ++ [l] ∧ decode max f = Ret (DOk (Rec (ev_cmd ev) org, rest))) as K.
  { intros ev' H1 H2. destruct (IH _ _ H1) as (k & f & org & rest & ? & ? & ?). exists k, f, org, rest. rewrite !in_snoc, <- H2. auto. }
  destruct St; simpl in He; try (by eapply K); (destruct (decide (g = g0)) as [->|] || destruct (decide (g = e)) as [->|]); try (rewrite lookup_insert_ne in He by done; by eapply K);
    rewrite lookup_insert in He; injection He as <-; try (by eapply K; [eassumption|]).
  pose proof (i_g _ _ _ _ I g0) as G. unfold gok, gor_ok in G. rewrite H in G. destruct (c_evs s !! g0); [by destruct G as (? & ? & _ & _ & ? & _)|].
  destruct G as (_ & _ & _ & _ & G). exists k, f, org, rest. rewrite !in_snoc. auto.
Qed.
(** Every request is in the log before it is executed, as the bytes of the frame up to the end of the request. *)
Theorem C43_write_ahead_partial tr s : runs tr s → ∀ g c req, LExec g c req ∈ tr →
  ∃ k f org rest, LDeliver g k f ∈ tr ∧ before tr (LPrint g org) (LExec g c req) ∧ decode max f = Ret (DOk (Rec req org, rest)).
Proof.
  induction 1 as [|tr s l s' R IH NC St]; intros g c req Hin; [by apply elem_of_nil in Hin|].
  apply in_snoc in Hin as [Hin|<-].
  { destruct (IH _ _ _ Hin) as (k & f & org & rest & ? & ? & ?). exists k, f, org, rest. split; [apply in_snoc; by left|]. split; [by apply before_mono|done]. }
  inversion St; subst. match goal with H : c_evs s !! g = Some _ |- _ => destruct (print_facts _ _ R _ _ H) as (k & f & org & rest & ? & ? & ?) end.
  exists k, f, org, rest. split; [apply in_snoc; by left|]. split; [by apply before_snoc|done].
Qed.
Theorem C43_log_is_request tr s g k args t c req : runs tr s → args ≠ [] → fits_buffer args → LDeliver g k (request_bytes args +:+ t) ∈ tr →
  LExec g c req ∈ tr → req = args ∧ before tr (LPrint g (request_bytes args)) (LExec g c args).
Proof.
  intros R Hn Hf Hd Hx. destruct (C43_write_ahead_partial _ _ R _ _ _ Hx) as (k' & f' & org & rest & Hd' & B & E).
  pose proof (i_started _ _ _ _ (runs_inv _ _ _ _ _ R)) as N.
  apply elem_of_list_lookup in Hd as [i Hi]. apply elem_of_list_lookup in Hd' as [j Hj].
  assert (i = j) as <- by (eapply (unique_lookup (λ l, match l with LDeliver g _ _ => Some g | _ => None end) tr i j); [apply N|exact Hi|exact Hj|done|done]).
  rewrite Hi in Hj. injection Hj as _ <-. destruct Hf as [F L]. rewrite C01_request in E by done. injection E as <- <- <-. done.
Qed.

(** ** C41: the order of execution *)
Definition accepted (tr : list label) : list gid := omap (λ l, match l with LAccept g => Some g | _ => None end) tr.
(** Requests are executed in the order in which they were accepted into the event queue, none is skipped. *)
Definition inflight (s : config) : list gid := match c_worker s with
  | WAwait e => match c_cmds s !! e with Some CReady | Some CRunning => [e] | _ => [] end
  | _ => []
  end.
Lemma accepted_snoc tr l : accepted (tr ++ [l]) = accepted tr ++ match l with LAccept g => [g] | _ => [] end.
Proof. unfold accepted. rewrite omap_app. by destruct l. Qed.
Lemma fifo_inv tr s : runs tr s → accepted tr = (who <$> calls tr) ++ inflight s ++ c_chan s.
Proof.
  induction 1 as [|tr s l s' R IH NC St]; [done|]. pose proof (runs_inv _ _ _ _ _ R) as I. pose proof (i_cmd _ _ _ _ I) as C.
  rewrite accepted_snoc, calls_snoc, fmap_app, IH. unfold inflight.
  destruct St; simpl; rewrite ?app_nil_r; try done.
  - by rewrite <- !app_assoc.
  - by rewrite H.
  - rewrite H, H0, lookup_insert. done.
  - by rewrite H.
  - f_equal. f_equal. destruct (C _ _ H) as [H1 _]. rewrite (H1 ltac:(done)), H, lookup_insert. done.
  - destruct (C _ _ H) as [H2 _]. rewrite (H2 ltac:(done)), H, lookup_insert. simpl. by rewrite <- !app_assoc.
  - by rewrite H, H0.
  - by rewrite H.
Qed.
Theorem C53_fifo tr s : runs tr s → (who <$> calls tr) `prefix_of` accepted tr.
Proof. intros R. rewrite (fifo_inv _ _ R). by eexists. Qed.
(** What holds of C48: once the server has come to rest, or Stop has returned, every event that was ever accepted has been
    executed except at most one: the last one accepted, and only if the server was being stopped.  Its client is told
    nothing but, perhaps, that its deadline has passed. *)
Theorem C48_all_but_last_partial tr s : runs tr s → c_crashed s = false → quiescent ext max ps s ∨ LStopped ∈ tr →
  accepted tr = (who <$> calls tr) ∨
  ∃ g, accepted tr = (who <$> calls tr) ++ [g] ∧ LStop ∈ tr ∧ g ∉ (who <$> calls tr) ∧ ∀ k b, LWrite g k b ∈ tr → b = deadline_bytes.
Proof.
  intros R NC HQ. pose proof (runs_inv _ _ _ _ _ R) as I. pose proof (i_stop _ _ _ _ I) as So. pose proof (i_chan _ _ _ _ I) as (_ & Hl & Hc).
  assert (inflight s = [] ∧ (LStop ∉ tr → c_chan s = [])) as [Hi Hch].
  { destruct (stop_label _ _ _ _ _ R) as [St Sr]. destruct HQ as [Q|Hs].
    - pose proof (at_rest _ _ _ _ _ R NC Q) as [_ Rc Rr _]. split.
      + unfold inflight. destruct (c_worker s) as [|e|e|] eqn:EW; try done. destruct (i_await _ _ _ _ I _ EW) as [x Hx]. rewrite Hx.
        by rewrite (Rc _ _ Hx).
      + intros N. apply Rr. destruct (c_stop s) eqn:ES; [done|exfalso..]; apply N, St; by rewrite ?ES.
    - split.
      + unfold inflight. unfold stop_ok in So. rewrite (proj1 Sr Hs) in So. destruct So as (_ & -> & _). done.
      + intros N. unfold stop_ok in So. rewrite (proj1 Sr Hs) in So. destruct So as (_ & _ & ? & _). done. }
  pose proof (fifo_inv _ _ R) as F. rewrite Hi in F. simpl in F. destruct (c_chan s) as [|g l] eqn:Ech; [left; by rewrite app_nil_r in F|right].
  destruct l; [|simpl in Hl; lia]. exists g. split; [done|]. split.
  { apply (stop_label _ _ _ _ _ R). intros ES. unfold stop_ok in So. rewrite ES in So. destruct So as (_ & _ & _ & _ & N & _). by specialize (Hch N). }
  assert (g ∉ (who <$> calls tr)) as Hg.
  { specialize (Hc g ltac:(by apply elem_of_list_singleton)). pose proof (i_g _ _ _ _ I g) as G. unfold gok in G.
    destruct (c_evs s !! g) as [ev|]; [|by destruct G as (_ & _ & ? & _)].
    destruct G as (k & f & _ & _ & _ & G & _). unfold event_ok in G. rewrite Hc in G. by destruct G as (_ & _ & ?). }
  split; [done|]. intros k b Hw. destruct (decide (b = deadline_bytes)) as [|D]; [done|].
  destruct (C08_replied_executed _ _ _ _ _ _ _ _ R Hw D) as (i & x & Hx & <-). destruct Hg. apply elem_of_list_fmap_1. by eapply elem_of_list_lookup_2.
Qed.
(** A client that sends its next request only after the reply to the previous one gets its replies in order, each to
    its own request. *)
Theorem C41_closed_loop_partial tr s g1 g2 k f2 b1 b2 : runs tr s →
  before tr (LWrite g1 k b1) (LDeliver g2 k f2) → LWrite g2 k b2 ∈ tr → before tr (LWrite g1 k b1) (LWrite g2 k b2).
Proof.
  intros R (i & j & Hij & Hi & Hj) Hw. destruct (write_facts _ _ _ _ _ R _ _ _ Hw) as (f & (i' & j' & Hij' & Hi' & Hj') & _).
  pose proof (i_started _ _ _ _ (runs_inv _ _ _ _ _ R)) as N.
  assert (i' = j) as -> by (eapply (unique_lookup (λ l, match l with LDeliver g _ _ => Some g | _ => None end) tr i' j); [apply N|exact Hi'|exact Hj|done|done]).
  exists i, j'. split; [lia|done].
Qed.

(** ** a test for rest *)
Definition idle_gor (s : config) (x : gid * gstate) : bool := match x.2 with
  | GEnd => true
  | GSelect _ => negb (bool_decide (x.1 ∈ c_expired s)) && match c_evs s !! x.1 with Some e => negb (ev_done e) | None => true end
  | _ => false
  end.
Definition idle (s : config) : bool :=
  forallb (idle_gor s) (map_to_list (c_gs s)) &&
  forallb (λ x : gid * cstate, match x.2 with CExit => true | _ => false end) (map_to_list (c_cmds s)) &&
  match c_worker s with
  | WSelect => match c_chan s with [] => negb (c_closed s || c_wdone s || c_wclosed s) | _ => false end
  | WExit => true
  | _ => false
  end &&
  match c_stop s with SRun | SReturned => true | _ => false end.
Lemma idle_quiescent s : idle s = true → quiescent ext max ps s.
Proof.
  unfold idle. rewrite !andb_true_iff. intros [[[H1 H2] H3] H4]. rewrite forallb_forall in H1, H2.
  assert (∀ g x, c_gs s !! g = Some x → idle_gor s (g, x) = true) as K1 by (intros g x Hx; apply H1, elem_of_list_In; by apply elem_of_map_to_list).
  assert (∀ g x, c_cmds s !! g = Some x → x = CExit) as K2.
  { intros g x Hx. specialize (H2 (g, x)). simpl in H2. destruct x; try done; exfalso; discriminate H2; apply elem_of_list_In; by apply elem_of_map_to_list. }
  intros l s' St. destruct St; try done;
    try (match goal with H : c_gs s !! _ = Some _ |- _ => apply K1 in H; try discriminate H end);
    try (match goal with H : c_cmds s !! _ = Some _ |- _ => apply K2 in H; discriminate H end);
    try (match goal with H : c_worker s = _ |- _ => rewrite H in H3; try discriminate H3 end);
    try (match goal with H : c_stop s = _ |- _ => rewrite H in H4; discriminate H4 end).
  - unfold idle_gor in H. cbn [fst snd] in H. rewrite bool_decide_eq_true_2 in H by done. done.
  - unfold idle_gor in H. cbn [fst snd] in H. rewrite H0, H5 in H. by destruct (bool_decide (g ∈ c_expired s)).
  - destruct (c_chan s); [|done]. destruct (c_closed s), (c_wdone s), (c_wclosed s); try done. by destruct H0.
  - by rewrite H0 in H3.
  - by rewrite H0, H5 in H3.
Qed.
End more.

(** ** examples *)
Definition frame (l : list string) : string := request_bytes l.
Definition played (l : list action) : option (list label * config) := drive ext0 1000 8 l cfg_init [].
(** what can be seen of a schedule: at rest?, the executed requests, the replies, the log *)
Definition seen (l : list action) : option (bool * list (gid * list string) * list (gid * nat * string) * list string) :=
  match played l with
  | Some (tr, s) => Some (idle s, (λ x, (who x, what x)) <$> calls tr, omap (λ l, match l with LWrite g k b => Some (g, k, b) | _ => None end) tr,
                          omap (λ l, match l with LPrint _ b => Some b | _ => None end) tr)
  | None => None
  end.
Lemma seen_runs l x : seen l = Some x → ∃ tr s, runs ext0 1000 8 tr s ∧ played l = Some (tr, s).
Proof.
  unfold seen. destruct (played l) as [[tr s]|] eqn:E; [|done]. intros _. exists tr, s. split; [|done].
  eapply drive_runs; [|exact E]. constructor.
Qed.
Definition serve (g : gid) : list action := [ATake; ABegin g; AExec g c0; ARespond; AClose].
Definition whole (g : gid) (k : nat) (f : string) : list action := [ADeliver g k f; ADecode g; AAdd g] ++ serve g ++ [ADone g; AWrite g].
(** two clients one after the other *)
Definition one_by_one : list action := whole 1 7 (frame ["SET"; "k"; "v"]) ++ whole 2 8 (frame ["GET"; "k"]).
(** three clients at the same time: the third is executed before the second, and times out nevertheless *)
Definition interleaved : list action :=
  [ADeliver 1 7 (frame ["SET"; "k"; "v"]); ADeliver 2 8 (frame ["GET"; "k"]); ADeliver 3 9 (frame ["APPEND"; "k"; "w"]);
   ADecode 3; ADecode 1; ADecode 2; AAdd 1; ATake; AAdd 3; ABegin 1; AExpire 3; AExec 1 c0; ATimeout 3; AWrite 3; ARespond; AClose; ATake; AAdd 2;
   ADone 1; ABegin 3; AExec 3 c0; AWrite 1; ARespond; AClose] ++ serve 2 ++ [ADone 2; AWrite 2].
Definition crlf (l : list string) : string := sconcat ((λ s, s +:+ CRLF) <$> l).

Theorem C07_demo : seen one_by_one = Some (true, [(1%nat, ["SET"; "k"; "v"]); (2%nat, ["GET"; "k"])],
    [(1%nat, 7%nat, crlf ["+OK"]); (2%nat, 8%nat, crlf ["$1"; "v"])], [frame ["SET"; "k"; "v"]; frame ["GET"; "k"]]) ∧
  seen interleaved = Some (true, [(1%nat, ["SET"; "k"; "v"]); (3%nat, ["APPEND"; "k"; "w"]); (2%nat, ["GET"; "k"])],
    [(3%nat, 9%nat, deadline_bytes); (1%nat, 7%nat, crlf ["+OK"]); (2%nat, 8%nat, crlf ["$2"; "vw"])],
    [frame ["APPEND"; "k"; "w"]; frame ["SET"; "k"; "v"]; frame ["GET"; "k"]]).
Proof. split; by vm_compute. Qed.

(** the trace and the final state of a schedule *)
Definition trace (l : list action) : list label := match played l with Some (tr, _) => tr | None => [] end.
Definition final (l : list action) : config := match played l with Some (_, s) => s | None => cfg_init end.
Definition playable (l : list action) : bool := match played l with Some _ => true | None => false end.
Lemma trace_runs l : playable l = true → runs ext0 1000 8 (trace l) (final l).
Proof.
  unfold playable, trace, final. destruct (played l) as [[tr s]|] eqn:E; [|done]. intros _. eapply drive_runs; [|exact E]. constructor.
Qed.
Lemma at_index (l : list label) i x : l !! i = Some x → x ∈ l.
Proof. apply elem_of_list_lookup_2. Qed.

(** C06: of two requests in one frame only the first is executed, and only one reply is written; the server is at rest,
    so the second never will be. *)
Definition pipelined : list action := whole 1 7 (frame ["SET"; "k"; "v"] +:+ frame ["GET"; "k"]).
Theorem C06_refuted : ¬ (∀ tr s g k a b, runs ext0 1000 8 tr s → c_crashed s = false → LStop ∉ tr → quiescent ext0 1000 8 s →
  LDeliver g k (frame a +:+ frame b) ∈ tr → a ≠ [] → b ≠ [] → ∃ i x, calls tr !! i = Some x ∧ who x = g ∧ what x = b).
Proof.
  intros H. specialize (H (trace pipelined) (final pipelined) 1%nat 7%nat ["SET"; "k"; "v"] ["GET"; "k"]).
  pose proof (idle_quiescent ext0 1000 8 (final pipelined) ltac:(by vm_compute)) as Q.
  destruct H as (i & x & H1 & _ & H2).
  - apply trace_runs. by vm_compute.
  - by vm_compute.
  - intros Hs. apply (stop_label _ _ _ _ _ (trace_runs pipelined ltac:(by vm_compute))) in Hs. apply Hs. by vm_compute.
  - exact Q.
  - apply (at_index _ 0). by vm_compute.
  - discriminate.
  - discriminate.
  - assert ((what <$> calls (trace pipelined)) !! i = Some ["GET"; "k"]) as K by (rewrite list_lookup_fmap, H1; simpl; by f_equal).
    assert ((what <$> calls (trace pipelined)) = [["SET"; "k"; "v"]]) as E by (by vm_compute). rewrite E in K. clear -K. by destruct i as [|[|i]].
Qed.
Theorem C06_demo : seen pipelined = Some (true, [(1%nat, ["SET"; "k"; "v"])], [(1%nat, 7%nat, crlf ["+OK"])], [frame ["SET"; "k"; "v"]]).
Proof. by vm_compute. Qed.

(** C09: a client has been told that its deadline has passed; its request is executed later. *)
Theorem C09_refuted : ¬ (∀ tr s g k c req, runs ext0 1000 8 tr s → LWrite g k deadline_bytes ∈ tr → LExec g c req ∉ tr).
Proof.
  intros H. apply (H (trace interleaved) (final interleaved) 3%nat 9%nat c0 ["APPEND"; "k"; "w"]).
  - apply trace_runs. by vm_compute.
  - apply (at_index _ 13). by vm_compute.
  - apply (at_index _ 20). by vm_compute.
Qed.
Theorem C09_demo : before (trace interleaved) (LWrite 3 9 deadline_bytes) (LBegin 3) ∧ before (trace interleaved) (LBegin 3) (LExec 3 c0 ["APPEND"; "k"; "w"]) ∧
  before (trace interleaved) (LExec 3 c0 ["APPEND"; "k"; "w"]) (LWrite 2 8 (crlf ["$2"; "vw"])).
Proof.
  split; [exists 13%nat, 19%nat|split; [exists 19%nat, 20%nat|exists 20%nat, 30%nat]]; (split; [lia|split; by vm_compute]).
Qed.

(** C10: two requests are accepted and then the server is stopped: the second is never executed nor answered.  A third,
    about to be added, is lost in a panic. *)
Definition stopped : list action :=
  [ADeliver 1 7 (frame ["SET"; "k"; "v"]); ADecode 1; AAdd 1; ATake; ADeliver 2 8 (frame ["SET"; "k"; "w"]); ADecode 2; AAdd 2;
   ADeliver 3 9 (frame ["GET"; "k"]); ADecode 3; AStop; AAdd 3; AStopNext; AStopNext; ABegin 1; AExec 1 c0; ARespond; AClose; ADone 1; AWrite 1; AWorkerDone; AStopNext].
Theorem C10_demo : seen stopped = Some (true, [(1%nat, ["SET"; "k"; "v"])], [(1%nat, 7%nat, crlf ["+OK"])],
    [frame ["SET"; "k"; "v"]; frame ["SET"; "k"; "w"]; frame ["GET"; "k"]]) ∧
  before (trace stopped) (LAccept 2) LStop ∧ before (trace stopped) LStop LStopped ∧ LLost 3 ∈ trace stopped.
Proof.
  split; [by vm_compute|]. split; [exists 6%nat, 9%nat; split; [lia|split; by vm_compute]|]. split; [exists 9%nat, 20%nat; split; [lia|split; by vm_compute]|].
  apply (at_index _ 10). by vm_compute.
Qed.
Theorem C48_accepted_refuted : ∃ tr s g, runs ext0 1000 8 tr s ∧ before tr (LAccept g) LStop ∧ LStopped ∈ tr ∧
  ∀ tr' s', runs ext0 1000 8 (tr ++ tr') s' → g ∉ (who <$> calls (tr ++ tr')).
Proof.
  exists (trace stopped), (final stopped), 2%nat. split; [apply trace_runs; by vm_compute|].
  destruct C10_demo as (_ & H1 & H2 & _). split; [done|]. apply before_in in H2 as [_ H2]. split; [done|].
  intros tr' s' R Hin. apply elem_of_list_fmap in Hin as (x & Hx & Hin). apply elem_of_list_lookup in H2 as [i Hi].
  apply calls_in in Hin. apply elem_of_list_lookup in Hin as [j Hj].
  destruct (decide (j < length (trace stopped))%nat) as [L|L].
  - rewrite lookup_app_l in Hj by done. apply elem_of_list_lookup_2 in Hj. apply (calls_in (trace stopped) x) in Hj.
    assert ((who <$> calls (trace stopped)) = [1%nat]) as E by (by vm_compute).
    assert (who x ∈ (who <$> calls (trace stopped))) as K by (by apply elem_of_list_fmap_1). rewrite E, <- Hx in K. by apply elem_of_list_singleton in K.
  - apply (C10_nothing_after ext0 1000 8 _ _ R (LExec (who x) (how x) (what x))). exists i, j.
    pose proof (lookup_lt_Some _ _ _ Hi). split; [lia|]. split; [by rewrite lookup_app_l|done].
Qed.

(** C41: two requests of one client, in two frames: the second one is executed and answered first. *)
Definition overtaken : list action :=
  [ADeliver 1 7 (frame ["SET"; "k"; "v"]); ADeliver 2 7 (frame ["GET"; "k"]); ADecode 1; ADecode 2; AAdd 2] ++ serve 2 ++ [ADone 2; AWrite 2; AAdd 1] ++ serve 1 ++ [ADone 1; AWrite 1].
(** and here they are executed in order but answered out of order *)
Definition answers_swapped : list action :=
  [ADeliver 1 7 (frame ["SET"; "k"; "v"]); ADecode 1; AAdd 1] ++ serve 1 ++ [ADeliver 2 7 (frame ["GET"; "k"]); ADecode 2; AAdd 2] ++ serve 2 ++ [ADone 2; AWrite 2; ADone 1; AWrite 1].
Theorem C41_demo :
  seen overtaken = Some (true, [(2%nat, ["GET"; "k"]); (1%nat, ["SET"; "k"; "v"])], [(2%nat, 7%nat, crlf ["$-1"]); (1%nat, 7%nat, crlf ["+OK"])], [frame ["SET"; "k"; "v"]; frame ["GET"; "k"]]) ∧
  seen answers_swapped = Some (true, [(1%nat, ["SET"; "k"; "v"]); (2%nat, ["GET"; "k"])], [(2%nat, 7%nat, crlf ["$1"; "v"]); (1%nat, 7%nat, crlf ["+OK"])], [frame ["SET"; "k"; "v"]; frame ["GET"; "k"]]).
Proof. split; by vm_compute. Qed.
Theorem C41_refuted : ¬ (∀ tr s g1 g2 k f1 f2 b1 b2, runs ext0 1000 8 tr s → before tr (LDeliver g1 k f1) (LDeliver g2 k f2) →
  LWrite g1 k b1 ∈ tr → LWrite g2 k b2 ∈ tr → before tr (LWrite g1 k b1) (LWrite g2 k b2)).
Proof.
  intros H. specialize (H (trace overtaken) (final overtaken) 1%nat 2%nat 7%nat (frame ["SET"; "k"; "v"]) (frame ["GET"; "k"]) (crlf ["+OK"]) (crlf ["$-1"])).
  pose proof (trace_runs overtaken ltac:(by vm_compute)) as R.
  destruct H as (i & j & Hij & Hi & Hj); [done| | | |].
  - exists 0%nat, 1%nat. split; [lia|]. split; by vm_compute.
  - apply (at_index _ 19). by vm_compute.
  - apply (at_index _ 11). by vm_compute.
  - assert (trace overtaken !! 19%nat = Some (LWrite 1 7 (crlf ["+OK"]))) as H1 by (by vm_compute).
    assert (trace overtaken !! 11%nat = Some (LWrite 2 7 (crlf ["$-1"]))) as H2 by (by vm_compute).
    pose proof (i_writers _ _ _ _ (runs_inv _ _ _ _ _ R)) as N.
    assert (i = 19%nat) as -> by (eapply (unique_lookup (λ l, match l with LWrite g _ _ => Some g | _ => None end)); [apply N|exact Hi|exact H1|done|done]).
    assert (j = 11%nat) as -> by (eapply (unique_lookup (λ l, match l with LWrite g _ _ => Some g | _ => None end)); [apply N|exact Hj|exact H2|done|done]). lia.
Qed.

(** C43: the log is in the order of decoding, not of execution: replayed, it gives another database. *)
Definition log (tr : list label) : list string := omap (λ l, match l with LPrint _ b => Some b | _ => None end) tr.
Definition raced : list action :=
  [ADeliver 1 7 (frame ["SET"; "k"; "v"]); ADeliver 2 8 (frame ["SET"; "k"; "w"]); ADecode 1; ADecode 2; AAdd 2] ++ serve 2 ++ [ADone 2; AWrite 2; AAdd 1] ++ serve 1 ++ [ADone 1; AWrite 1].
Theorem C43_demo : seen raced = Some (true, [(2%nat, ["SET"; "k"; "w"]); (1%nat, ["SET"; "k"; "v"])],
  [(2%nat, 8%nat, crlf ["+OK"]); (1%nat, 7%nat, crlf ["+OK"])], [frame ["SET"; "k"; "v"]; frame ["SET"; "k"; "w"]]).
Proof. by vm_compute. Qed.
Theorem C43_refuted : ∃ tr s reqs d rs, runs ext0 1000 8 tr s ∧ quiescent ext0 1000 8 s ∧ log tr = frame <$> reqs ∧
  talk ext0 (plain_history reqs) db_new = Ret (d, rs) ∧
  ∃ d1 d2, ask ext0 c0 ["GET"; "k"] (c_db s) = Ret (d1, Some (RBulk "v")) ∧ ask ext0 c0 ["GET"; "k"] d = Ret (d2, Some (RBulk "w")).
Proof.
  pose (reqs := [["SET"; "k"; "v"]; ["SET"; "k"; "w"]]).
  exists (trace raced), (final raced), reqs, (after reqs), [Some (RStatus "OK"); Some (RStatus "OK")].
  split; [apply trace_runs; by vm_compute|]. split; [apply idle_quiescent; by vm_compute|]. split; [by vm_compute|]. split; [by vm_compute|].
  exists (c_db (final raced)), (after reqs). split; by vm_compute.
Qed.
