(** Invariants of the running server, over all schedules. *)
From Verif Require Import GoBase GoBaseProofs Float64 Db Protocol Redis Obs SpecResp Server SpecServing.

(** ** traces *)
Lemma calls_snoc tr l : calls (tr ++ [l]) = calls tr ++ match call_of l with Some x => [x] | None => [] end.
Proof. unfold calls. rewrite omap_app. simpl. by destruct (call_of l). Qed.
Lemma started_snoc tr l : started (tr ++ [l]) = started tr ++ match l with LDeliver g _ _ => [g] | _ => [] end.
Proof. unfold started. rewrite omap_app. by destruct l. Qed.
Lemma writers_snoc tr l : writers (tr ++ [l]) = writers tr ++ match l with LWrite g _ _ => [g] | _ => [] end.
Proof. unfold writers. rewrite omap_app. by destruct l. Qed.
Lemma executions_snoc tr l : executions (tr ++ [l]) = executions tr ++
  match l with LBegin g => [(true, g)] | LExec g _ _ | LCrash g _ _ => [(false, g)] | _ => [] end.
Proof. unfold executions. rewrite omap_app. by destruct l. Qed.
Lemma in_snoc {A} (l : list A) x y : x ∈ l ++ [y] ↔ x ∈ l ∨ x = y.
Proof. rewrite elem_of_app, elem_of_list_singleton. done. Qed.
Lemma before_snoc tr a b : a ∈ tr → before (tr ++ [b]) a b.
Proof.
  intros H. apply elem_of_list_lookup in H as [i Hi]. exists i, (length tr). pose proof (lookup_lt_Some _ _ _ Hi).
  split; [done|]. split; [by apply lookup_app_l_Some|]. rewrite lookup_app_r by lia. by rewrite Nat.sub_diag.
Qed.
Lemma before_mono tr l a b : before tr a b → before (tr ++ [l]) a b.
Proof. intros (i & j & H & H1 & H2). exists i, j. split; [done|]. split; by apply lookup_app_l_Some. Qed.
Lemma before_in tr a b : before tr a b → a ∈ tr ∧ b ∈ tr.
Proof. intros (i & j & H & H1 & H2). split; by eapply elem_of_list_lookup_2. Qed.
Lemma before_snoc_inv tr l a b : before (tr ++ [l]) a b → before tr a b ∨ (b = l ∧ a ∈ tr).
Proof.
  intros (i & j & H & H1 & H2). pose proof (lookup_lt_Some _ _ _ H2) as Hl. rewrite app_length in Hl. cbn [length] in Hl.
  destruct (decide (j < length tr)%nat) as [Hj|Hj].
  - left. exists i, j. rewrite lookup_app_l in H1, H2 by lia. done.
  - right. assert (j = length tr) as -> by lia. rewrite lookup_app_r, Nat.sub_diag in H2 by lia. injection H2 as <-.
    rewrite lookup_app_l in H1 by lia. split; [done|]. by eapply elem_of_list_lookup_2.
Qed.
Lemma started_in tr g : g ∈ started tr ↔ ∃ k f, LDeliver g k f ∈ tr.
Proof.
  unfold started. rewrite elem_of_list_omap. split.
  - intros (l & H & E). destruct l; try done. injection E as ->. eauto.
  - intros (k & f & H). by exists (LDeliver g k f).
Qed.
Lemma writers_in tr g : g ∈ writers tr ↔ ∃ k b, LWrite g k b ∈ tr.
Proof.
  unfold writers. rewrite elem_of_list_omap. split.
  - intros (l & H & E). destruct l; try done. injection E as ->. eauto.
  - intros (k & f & H). by exists (LWrite g k f).
Qed.
Lemma calls_in tr x : x ∈ calls tr ↔ LExec (who x) (how x) (what x) ∈ tr.
Proof.
  unfold calls. rewrite elem_of_list_omap. split.
  - intros (l & H & E). destruct l; try done. by injection E as <-.
  - intros H. exists (LExec (who x) (how x) (what x)). by destruct x.
Qed.

(** run and talk are the same but for the view *)
Lemma run_app ext h1 h2 d : run ext (h1 ++ h2) d = (let* (d1, r1) := run ext h1 d in let* (d2, r2) := run ext h2 d1 in Ret (d2, r1 ++ r2)).
Proof.
  revert d. induction h1 as [|[c req] h1 IH]; intros d; simpl.
  - by destruct (run ext h2 d) as [[]| |].
  - destruct (exec ext c req d) as [[d1 r]| |]; simpl; [|done..]. rewrite IH. destruct (run ext h1 d1) as [[d2 rs]| |]; simpl; [|done..].
    by destruct (run ext h2 d2) as [[]| |].
Qed.
Lemma run_talk ext h d : talk ext h d = (let* (d1, rs) := run ext h d in Ret (d1, (λ r, r ≫= view) <$> rs)).
Proof.
  revert d. induction h as [|[c req] h IH]; intros d; simpl; [done|]. unfold ask. destruct (exec ext c req d) as [[d1 r]| |]; simpl; [|done..].
  rewrite IH. by destruct (run ext h d1) as [[]| |].
Qed.

Section inv.
Context (ext : Ext) (max : Z) (ps : nat).
Notation step := (step ext max ps).
Notation runs := (runs ext max ps).

(** [g]'s request has been executed with response [r] *)
Definition result (tr : list label) (g : gid) (req : list string) (r : response) : Prop :=
  ∃ h1 c h2 d0 rs d1, calls tr = h1 ++ Call g c req :: h2 ∧ run ext (as_history h1) db_new = Ret (d0, rs) ∧ exec ext c req d0 = Ret (d1, Some r).
Lemma result_mono tr l g req r : result tr g req r → result (tr ++ [l]) g req r.
Proof.
  intros (h1 & c & h2 & d0 & rs & d1 & E & H). exists h1, c, (h2 ++ match call_of l with Some x => [x] | None => [] end), d0, rs, d1.
  split; [|done]. rewrite calls_snoc, E, <- app_assoc. done.
Qed.

Definition event_ok (tr : list label) (s : config) (g : gid) (ev : event) : Prop :=
  match c_cmds s !! g with
  | None | Some CReady | Some CRunning => ev_rsp ev = None ∧ ev_done ev = false ∧ g ∉ (who <$> calls tr)
  | Some (CSending r) => result tr g (ev_cmd ev) r ∧ ev_done ev = false
  | Some CExit => ∃ r, ev_rsp ev = Some r ∧ result tr g (ev_cmd ev) r ∧ (ev_done ev = false ↔ c_worker s = WClose g)
  end.
Definition gor_ok (tr : list label) (s : config) (g : gid) (ev : event) (k : nat) : Prop :=
  match c_gs s !! g with
  | Some (GAdd k') => k' = k ∧ c_cmds s !! g = None ∧ g ∉ c_chan s
  | Some (GSelect k') => k' = k ∧ (c_cmds s !! g = None → g ∈ c_chan s)
  | Some (GReply k' r) => k' = k ∧ ∃ r0, r = Some r0 ∧ result tr g (ev_cmd ev) r0
  | Some (GTimeout k') => k' = k ∧ LExpire g ∈ tr ∧ (c_cmds s !! g = None → g ∈ c_chan s)
  | Some GEnd => (c_cmds s !! g = None → g ∈ c_chan s ∨ c_closed s = true) ∧
      (g ∈ writers tr ∨ (∃ r, result tr g (ev_cmd ev) r ∧ encode r = Panic) ∨ (c_cmds s !! g = None ∧ c_closed s = true ∧ g ∉ c_chan s))
  | _ => False
  end.
Definition gok (tr : list label) (s : config) (g : gid) : Prop :=
  match c_evs s !! g with
  | None => c_cmds s !! g = None ∧ g ∉ c_chan s ∧ g ∉ (who <$> calls tr) ∧ g ∉ writers tr ∧
      match c_gs s !! g with
      | None => g ∉ started tr
      | Some (GFrame k f) => LDeliver g k f ∈ tr
      | Some GEnd => ∃ k f, LDeliver g k f ∈ tr ∧ ¬ ∃ req, asks max f req
      | _ => False
      end
  | Some ev => ∃ k f, LDeliver g k f ∈ tr ∧ asks max f (ev_cmd ev) ∧ gor_ok tr s g ev k ∧ event_ok tr s g ev ∧
      (c_gs s !! g ≠ Some GEnd → g ∉ writers tr)
  end.
Definition stop_ok (tr : list label) (s : config) : Prop :=
  match c_stop s with
  | SRun => c_closed s = false ∧ c_wdone s = false ∧ c_wclosed s = false ∧ c_worker s ≠ WExit ∧ LStop ∉ tr ∧ LStopped ∉ tr
  | SSend => c_closed s = true ∧ c_wdone s = false ∧ c_wclosed s = false ∧ LStop ∈ tr ∧ LStopped ∉ tr
  | SCloseDone => c_closed s = true ∧ c_wclosed s = false ∧ LStop ∈ tr ∧ LStopped ∉ tr
  | SWait => c_closed s = true ∧ c_wclosed s = true ∧ LStop ∈ tr ∧ LStopped ∉ tr
  | SReturned => c_closed s = true ∧ c_worker s = WExit ∧ LStop ∈ tr ∧ LStopped ∈ tr
  end.
Record inv (tr : list label) (s : config) : Prop := {
  i_g : ∀ g, gok tr s g;
  i_cmd : ∀ e x, c_cmds s !! e = Some x → (x ≠ CExit ↔ c_worker s = WAwait e);
  i_await : ∀ e, c_worker s = WAwait e → is_Some (c_cmds s !! e);
  i_close : ∀ e, c_worker s = WClose e → c_cmds s !! e = Some CExit;
  i_chan : NoDup (c_chan s) ∧ (length (c_chan s) ≤ 1)%nat ∧ ∀ e, e ∈ c_chan s → c_cmds s !! e = None;
  i_exp : ∀ e, e ∈ c_expired s → LExpire e ∈ tr;
  i_db : ∃ rs, run ext (as_history (calls tr)) db_new = Ret (c_db s, rs);
  i_who : NoDup (who <$> calls tr);
  i_started : NoDup (started tr);
  i_writers : NoDup (writers tr);
  i_stop : stop_ok tr s;
  i_crash : c_crashed s = true → (∃ g c req, LCrash g c req ∈ tr) ∨ ∃ g, LExhaust g ∈ tr;
}.

Lemma inv_init : inv [] cfg_init.
Proof.
  split; simpl; try done; try (by constructor).
  - intros g. unfold gok. simpl. rewrite !lookup_empty. split; [done|]. repeat split; apply not_elem_of_nil.
  - split; [constructor|]. split; [lia|]. intros e He. by apply elem_of_nil in He.
  - eauto.
  - repeat split; try done; apply not_elem_of_nil.
Qed.

Lemma exec_some c name args d d' o : exec ext c (name :: args) d = Ret (d', o) → is_Some o.
Proof. simpl. destruct (exec_lowered _ _ _ _ _) as [[? ?]| |]; simpl; try done. intros [= _ <-]. by eexists. Qed.

Lemma writers_mono tr l g : g ∈ writers tr → g ∈ writers (tr ++ [l]).
Proof. rewrite writers_snoc, elem_of_app. auto. Qed.
Definition touches (l : label) (g : gid) : Prop :=
  match l with LDeliver g' _ _ | LWrite g' _ _ | LExec g' _ _ => g' = g | _ => False end.
Lemma calls_snoc_not tr l g : ¬ touches l g → g ∉ (who <$> calls tr) → g ∉ (who <$> calls (tr ++ [l])).
Proof.
  intros Hl H. rewrite calls_snoc, fmap_app, elem_of_app. intros [?|H1]; [done|]. destruct l; simpl in H1; try by apply elem_of_nil in H1.
  apply elem_of_list_singleton in H1. by apply Hl.
Qed.
Lemma writers_snoc_not tr l g : ¬ touches l g → g ∉ writers tr → g ∉ writers (tr ++ [l]).
Proof.
  intros Hl H. rewrite writers_snoc, elem_of_app. intros [?|H1]; [done|]. destruct l; simpl in H1; try by apply elem_of_nil in H1.
  apply elem_of_list_singleton in H1. by apply Hl.
Qed.
Lemma started_snoc_not tr l g : ¬ touches l g → g ∉ started tr → g ∉ started (tr ++ [l]).
Proof.
  intros Hl H. rewrite started_snoc, elem_of_app. intros [?|H1]; [done|]. destruct l; simpl in H1; try by apply elem_of_nil in H1.
  apply elem_of_list_singleton in H1. by apply Hl.
Qed.
Lemma event_ok_other tr s l s' g ev : c_cmds s' !! g = c_cmds s !! g → (c_worker s' = WClose g ↔ c_worker s = WClose g) → ¬ touches l g →
  event_ok tr s g ev → event_ok (tr ++ [l]) s' g ev.
Proof.
  intros E2 Hw Hl H. unfold event_ok in *. rewrite E2. destruct (c_cmds s !! g) as [[]|].
  - destruct H as (? & ? & ?). eauto using calls_snoc_not.
  - destruct H as (? & ? & ?). eauto using calls_snoc_not.
  - destruct H as (? & ?). eauto using result_mono.
  - destruct H as (r & ? & ? & ?). exists r. rewrite Hw. eauto using result_mono.
  - destruct H as (? & ? & ?). eauto using calls_snoc_not.
Qed.
Lemma gor_ok_other tr s l s' g ev k : c_cmds s' !! g = c_cmds s !! g → c_gs s' !! g = c_gs s !! g →
  (g ∈ c_chan s' ↔ g ∈ c_chan s) → (c_closed s = true → c_closed s' = true) →
  gor_ok tr s g ev k → gor_ok (tr ++ [l]) s' g ev k.
Proof.
  intros E2 E3 Hc Hcl H. unfold gor_ok in *. rewrite E3. destruct (c_gs s !! g) as [[]|]; rewrite ?E2, ?Hc; try done.
  - destruct H as (? & r0 & ? & ?). split; [done|]. exists r0. eauto using result_mono.
  - destruct H as (? & ? & ?). split; [done|]. split; [apply in_snoc; by left|done].
  - destruct H as [Ha H]. split; [intros H1; destruct (Ha H1); eauto|]. destruct H as [H|[(r & ? & ?)|(? & ? & ?)]]; [left; by apply writers_mono|right; left; exists r; eauto using result_mono|right; right; eauto].
Qed.
Lemma gok_other tr s l s' g :
  c_evs s' !! g = c_evs s !! g → c_cmds s' !! g = c_cmds s !! g → c_gs s' !! g = c_gs s !! g →
  (g ∈ c_chan s' ↔ g ∈ c_chan s) → (c_worker s' = WClose g ↔ c_worker s = WClose g) →
  (c_closed s = true → c_closed s' = true) → ¬ touches l g → gok tr s g → gok (tr ++ [l]) s' g.
Proof.
  intros E1 E2 E3 Hc Hw Hcl Hl H. unfold gok in *. rewrite E1. destruct (c_evs s !! g) as [ev|].
  - destruct H as (k & f & H1 & H2 & H3 & H4 & H5). exists k, f. split; [apply in_snoc; by left|]. split; [done|].
    split; [by eapply gor_ok_other|]. split; [by eapply event_ok_other|]. rewrite E3. intros. apply writers_snoc_not; auto.
  - destruct H as (H1 & H2 & H3 & H4 & H5). rewrite E2, E3. split; [done|]. split; [by rewrite Hc|]. split; [by apply calls_snoc_not|].
    split; [by apply writers_snoc_not|]. destruct (c_gs s !! g) as [[]|]; try done.
    + apply in_snoc. by left.
    + destruct H5 as (k & f & ? & ?). exists k, f. split; [apply in_snoc; by left|done].
    + by apply started_snoc_not.
Qed.

Lemma stop_ok_same tr l s s' : c_closed s' = c_closed s → c_wdone s' = c_wdone s → c_wclosed s' = c_wclosed s → c_stop s' = c_stop s →
  (c_worker s' = WExit ↔ c_worker s = WExit) → l ≠ LStop → l ≠ LStopped → stop_ok tr s → stop_ok (tr ++ [l]) s'.
Proof.
  intros E1 E2 E3 E4 E5 L1 L2. unfold stop_ok. rewrite E4. destruct (c_stop s); rewrite ?E1, ?E2, ?E3, ?E5, ?in_snoc; naive_solver.
Qed.


Global Instance cstate_exit_dec (x : cstate) : Decision (x = CExit).
Proof. destruct x; (by left) || (by right). Qed.
Lemma worker_select tr s : inv tr s → c_worker s = WSelect → ∀ e x, c_cmds s !! e = Some x → x = CExit.
Proof.
  intros I W e x Hx. destruct (i_cmd _ _ I e x Hx) as [H _]. destruct (decide (x = CExit)) as [|N]; [done|]. rewrite W in H. by specialize (H N).
Qed.
Lemma no_event_cases tr s g : gok tr s g → c_evs s !! g = None →
  c_cmds s !! g = None ∧ g ∉ c_chan s ∧ g ∉ (who <$> calls tr) ∧ g ∉ writers tr.
Proof. unfold gok. intros H E. rewrite E in H. by destruct H as (? & ? & ? & ? & _). Qed.
Lemma cmd_event tr s g x : inv tr s → c_cmds s !! g = Some x → ∃ ev, c_evs s !! g = Some ev.
Proof. intros I H. pose proof (i_g _ _ I g) as G. unfold gok in G. destruct (c_evs s !! g) as [ev|]; [eauto|]. destruct G as (? & _). congruence. Qed.

Lemma step_cmd tr s l s' : inv tr s → step s l s' → ∀ e x, c_cmds s' !! e = Some x → (x ≠ CExit ↔ c_worker s' = WAwait e).
Proof.
  intros I St. pose proof (i_cmd _ _ I) as C. destruct St; simpl; try done; intros e0 x Hx.
  - rewrite (worker_select _ _ I H _ _ Hx). split; by intros.
  - destruct (decide (e0 = e)) as [->|Hne].
    + rewrite lookup_insert in Hx. injection Hx as <-. split; by intros.
    + rewrite lookup_insert_ne in Hx by done. rewrite (worker_select _ _ I H _ _ Hx). split; [by intros|]. intros [= ->]. done.
  - rewrite (worker_select _ _ I H _ _ Hx). split; by intros.
  - destruct (decide (e0 = e)) as [->|Hne].
    + rewrite lookup_insert in Hx. injection Hx as <-. rewrite <- (C _ _ H). split; by intros.
    + rewrite lookup_insert_ne in Hx by done. by apply C.
  - destruct (decide (e0 = e)) as [->|Hne].
    + rewrite lookup_insert in Hx. injection Hx as <-. rewrite <- (C _ _ H). split; by intros.
    + rewrite lookup_insert_ne in Hx by done. by apply C.
  - destruct (decide (e0 = e)) as [->|Hne].
    + rewrite lookup_insert in Hx. injection Hx as <-. split; by intros.
    + rewrite lookup_insert_ne in Hx by done. rewrite (C _ _ Hx), H. split; congruence.
  - rewrite (C _ _ Hx), H. split; congruence.
Qed.
Lemma step_await tr s l s' : inv tr s → step s l s' → ∀ e, c_worker s' = WAwait e → is_Some (c_cmds s' !! e).
Proof.
  intros I St. pose proof (i_await _ _ I) as C. destruct St; simpl; try done; intros e0 Hx; try congruence.
  - injection Hx as ->. rewrite lookup_insert. by eexists.
  - destruct (decide (e0 = e)) as [->|Hne]; [rewrite lookup_insert; by eexists|rewrite lookup_insert_ne by done; auto].
  - destruct (decide (e0 = e)) as [->|Hne]; [rewrite lookup_insert; by eexists|rewrite lookup_insert_ne by done; auto].
Qed.
Lemma step_close_ok tr s l s' : inv tr s → step s l s' → ∀ e, c_worker s' = WClose e → c_cmds s' !! e = Some CExit.
Proof.
  intros I St. pose proof (i_close _ _ I) as C. destruct St; simpl; try done; intros e0 Hx; try congruence.
  - rewrite lookup_insert_ne; [auto|]. intros <-. specialize (C _ Hx). congruence.
  - rewrite lookup_insert_ne; [auto|]. intros <-. specialize (C _ Hx). congruence.
  - injection Hx as ->. by rewrite lookup_insert.
Qed.
Lemma step_chan_ok tr s l s' : inv tr s → step s l s' →
  NoDup (c_chan s') ∧ (length (c_chan s') ≤ 1)%nat ∧ ∀ e, e ∈ c_chan s' → c_cmds s' !! e = None.
Proof.
  intros I St. pose proof (i_chan _ _ I) as (C1 & C2 & C3). destruct St; simpl; try done.
  - unfold chan_cap in H1. destruct (c_chan s) as [|]; simpl in *; [|lia]. split; [repeat constructor; apply not_elem_of_nil|]. split; [lia|].
    intros e He. apply elem_of_list_singleton in He as ->. pose proof (i_g _ _ I g) as G. unfold gok, gor_ok in G. rewrite H in G.
    destruct (c_evs s !! g); [by destruct G as (? & ? & ? & ? & (? & ? & ?) & _)|by destruct G].
  - rewrite H0 in *. destruct rest; [|simpl in *; lia]. split; [constructor|]. split; [simpl; lia|]. intros e0 He. by apply elem_of_nil in He.
  - split; [done|]. split; [done|]. intros e0 He. rewrite lookup_insert_ne; [auto|]. intros <-. rewrite C3 in H by done. done.
  - split; [done|]. split; [done|]. intros e0 He. rewrite lookup_insert_ne; [auto|]. intros <-. rewrite C3 in H by done. done.
  - split; [done|]. split; [done|]. intros e0 He. rewrite lookup_insert_ne; [auto|]. intros <-. rewrite C3 in H0 by done. done.
Qed.
Lemma step_exp tr s l s' : inv tr s → step s l s' → ∀ e, e ∈ c_expired s' → LExpire e ∈ tr ++ [l].
Proof.
  intros I St. pose proof (i_exp _ _ I) as C. destruct St; simpl; intros e0 He; rewrite in_snoc; try (left; by apply C).
  apply elem_of_union in He as [He|He]; [apply elem_of_singleton in He as ->; by right|left; by apply C].
Qed.
Lemma step_stop_ok tr s l s' : inv tr s → step s l s' → stop_ok (tr ++ [l]) s'.
Proof.
  intros I St. pose proof (i_stop _ _ I) as C.
  destruct St; try (by eapply stop_ok_same); try (eapply stop_ok_same; try done; simpl; split; congruence);
    unfold stop_ok in *; simpl; try (rewrite H in C); try destruct (c_stop s); rewrite ?in_snoc; destruct_and?; repeat split; auto; try (by intros [?|?]); try congruence; try (destruct H0; congruence).
Qed.
Lemma step_crash_ok tr s l s' : inv tr s → step s l s' → l ≠ LDie → c_crashed s' = true →
  (∃ g c req, LCrash g c req ∈ tr ++ [l]) ∨ ∃ g, LExhaust g ∈ tr ++ [l].
Proof.
  intros I St NL. pose proof (i_crash _ _ I) as C.
  destruct St; simpl; try done; intros Hc;
    try (destruct (C Hc) as [(g0 & c0 & q0 & ?)|(g0 & ?)]; [left; exists g0, c0, q0; apply in_snoc; by left|right; exists g0; apply in_snoc; by left]).
  - right. exists g. apply in_snoc. by right.
  - left. exists e, c, (ev_cmd ev). apply in_snoc. by right.
Qed.
Lemma not_die tr s s' : inv tr s → step s LDie s' → False.
Proof.
  intros I St. inversion St as [| | | | | | | | | | | | | | | | | | | | | | | | e ev H1 H2 H3| | | |]; subst.
  pose proof (i_close _ _ I _ H1) as Hc. pose proof (i_g _ _ I e) as G. unfold gok in G. rewrite H2 in G.
  destruct G as (k & f & _ & _ & _ & G & _). unfold event_ok in G. rewrite Hc in G. destruct G as (r & _ & _ & G). rewrite H1 in G.
  destruct G as [_ G]. by rewrite G in H3.
Qed.

Lemma step_db tr s l s' : inv tr s → step s l s' → ∃ rs, run ext (as_history (calls (tr ++ [l]))) db_new = Ret (c_db s', rs).
Proof.
  intros I St. pose proof (i_db _ _ I) as [rs C].
  destruct St; simpl; rewrite calls_snoc; simpl; rewrite ?app_nil_r; eauto.
  exists (rs ++ [Some r]). unfold as_history in *. rewrite fmap_app, run_app, C. simpl. rewrite H1. done.
Qed.
Lemma event_not_called tr s e ev x : inv tr s → c_cmds s !! e = Some x → x = CReady ∨ x = CRunning → c_evs s !! e = Some ev → e ∉ (who <$> calls tr).
Proof.
  intros I Hc Hx He. pose proof (i_g _ _ I e) as G. unfold gok in G. rewrite He in G. destruct G as (k & f & _ & _ & _ & G & _). unfold event_ok in G.
  rewrite Hc in G. destruct Hx as [-> | ->]; by destruct G as (_ & _ & ?).
Qed.
Lemma step_who tr s l s' : inv tr s → step s l s' → NoDup (who <$> calls (tr ++ [l])).
Proof.
  intros I St. pose proof (i_who _ _ I) as C.
  destruct St; simpl; rewrite calls_snoc; simpl; rewrite ?app_nil_r; eauto.
  rewrite fmap_app. apply NoDup_app. split; [done|]. split; [|apply NoDup_singleton].
  intros g Hg Hg'. apply elem_of_list_singleton in Hg' as ->. by eapply (event_not_called tr s e ev CRunning); eauto.
Qed.
Lemma step_started tr s l s' : inv tr s → step s l s' → NoDup (started (tr ++ [l])).
Proof.
  intros I St. pose proof (i_started _ _ I) as C.
  destruct St; simpl; rewrite started_snoc; simpl; rewrite ?app_nil_r; eauto.
  apply NoDup_app. split; [done|]. split; [|apply NoDup_singleton].
  intros g0 Hg Hg'. apply elem_of_list_singleton in Hg' as ->. pose proof (i_g _ _ I g) as G. unfold gok, gor_ok in G. rewrite H in G.
  destruct (c_evs s !! g); [by destruct G as (? & ? & ? & ? & ? & _)|]. by destruct G as (_ & _ & _ & _ & G).
Qed.
Lemma not_written tr s g x : inv tr s → c_gs s !! g = Some x → x ≠ GEnd → g ∉ writers tr.
Proof.
  intros I Hg Hx. pose proof (i_g _ _ I g) as G. unfold gok in G. destruct (c_evs s !! g).
  - destruct G as (k & f & _ & _ & _ & _ & G). apply G. rewrite Hg. congruence.
  - by destruct G as (_ & _ & _ & G & _).
Qed.
Lemma step_writers tr s l s' : inv tr s → step s l s' → NoDup (writers (tr ++ [l])).
Proof.
  intros I St. pose proof (i_writers _ _ I) as C.
  destruct St; simpl; rewrite writers_snoc; simpl; rewrite ?app_nil_r; eauto;
    (apply NoDup_app; split; [done|]; split; [|apply NoDup_singleton];
     intros g0 Hg Hg'; apply elem_of_list_singleton in Hg' as ->; revert Hg; by eapply not_written).
Qed.

Ltac other := eapply gok_other; simpl; rewrite ?lookup_insert_ne by done; try done; try (by intros []); try (by intros ->).
Ltac one g0 g := destruct (decide (g0 = g)) as [->|?]; [|by other].
Ltac keep := first [done | by eapply calls_snoc_not | by eapply writers_snoc_not | eapply calls_snoc_not; [by intros []|done] | eapply writers_snoc_not; [by intros []|done] | by eapply result_mono | by (apply in_snoc; left) | by (apply in_snoc; right)].

(** a goroutine that has no event ends *)
Lemma gok_end tr s l g k f : (∀ k' b, l ≠ LWrite g k' b) → (∀ c req, l ≠ LExec g c req) → (∀ k f, l ≠ LDeliver g k f) →
  c_gs s !! g = Some (GFrame k f) → (¬ ∃ req, asks max f req) → gok tr s g → gok (tr ++ [l]) (set_g s g GEnd) g.
Proof.
  intros L1 L2 L3 Hg Hn H. assert (¬ touches l g) by (destruct l; simpl; try (by intros []); intros ->; naive_solver).
  unfold gok in *. simpl. rewrite lookup_insert. rewrite Hg in H. destruct (c_evs s !! g) as [ev|].
  - destruct H as (? & ? & _ & _ & H & _). unfold gor_ok in H. by rewrite Hg in H.
  - destruct H as (H1 & H2 & H3 & H4 & H5). split; [done|]. split; [done|]. split; [keep|]. split; [keep|]. exists k, f. split; [keep|done].
Qed.
(** a goroutine that has an event moves on; nothing else changes *)
Lemma gok_move tr s l g ev k f x (ch : list gid) : (∀ c req, l ≠ LExec g c req) → (∀ k f, l ≠ LDeliver g k f) →
  c_evs s !! g = Some ev → LDeliver g k f ∈ tr → asks max f (ev_cmd ev) → event_ok tr s g ev →
  gor_ok (tr ++ [l]) (set_chan (set_g s g x) ch) g ev k → (x ≠ GEnd → g ∉ writers (tr ++ [l])) →
  gok (tr ++ [l]) (set_chan (set_g s g x) ch) g.
Proof.
  intros L1 L2 He Hd Ha Hev Hg Hx. unfold gok. simpl. rewrite He. exists k, f. split; [keep|]. split; [done|]. split; [done|].
  assert (g ∉ (who <$> calls tr) → g ∉ (who <$> calls (tr ++ [l]))) as Kc.
  { intros H. rewrite calls_snoc, fmap_app, elem_of_app. intros [?|H1]; [done|]. destruct l; simpl in H1; try by apply elem_of_nil in H1.
    apply elem_of_list_singleton in H1. subst. by eapply L1. }
  split.
  - unfold event_ok in *. simpl. destruct (c_cmds s !! g) as [[]|]; naive_solver eauto using result_mono.
  - rewrite lookup_insert. intros HN. apply Hx. congruence.
Qed.
Lemma set_chan_same s : set_chan s (c_chan s) = s. Proof. by destruct s. Qed.

(** the state of a goroutine that has an event *)
Lemma gok_event tr s g x : inv tr s → c_gs s !! g = Some x → match x with GFrame _ _ | GEnd => False | _ => True end →
  ∃ ev k f, c_evs s !! g = Some ev ∧ LDeliver g k f ∈ tr ∧ asks max f (ev_cmd ev) ∧ gor_ok tr s g ev k ∧ event_ok tr s g ev ∧ g ∉ writers tr.
Proof.
  intros I Hg Hx. pose proof (i_g _ _ I g) as G. unfold gok in G. destruct (c_evs s !! g) as [ev|].
  - destruct G as (k & f & G1 & G2 & G3 & G4 & G5). exists ev, k, f. repeat (split; [done|]). apply G5. rewrite Hg. intros [= ->]. done.
  - rewrite Hg in G. destruct G as (_ & _ & _ & _ & G). by destruct x.
Qed.

Lemma gor_ok_cmd tr s l s' g ev ev' k : gor_ok tr s g ev k → c_gs s' !! g = c_gs s !! g → ev_cmd ev' = ev_cmd ev →
  is_Some (c_cmds s' !! g) → (is_Some (c_cmds s !! g) ∨ g ∈ c_chan s) → gor_ok (tr ++ [l]) s' g ev' k.
Proof.
  unfold gor_ok. intros H E1 E2 [x E3] E4. rewrite E1, E2, E3. destruct (c_gs s !! g) as [[]|]; try done.
  - destruct H as (_ & H & H'). destruct E4 as [[? ?]|?]; [congruence|done].
  - by destruct H as (? & _).
  - destruct H as (? & r0 & ? & ?). split; [done|]. exists r0. split; [done|keep].
  - destruct H as (? & ? & _). split; [done|]. split; [keep|done].
  - destruct H as [_ H]. split; [done|]. destruct H as [H|[(r & ? & ?)|(H & ? & Hc)]]; [left; by apply writers_mono|right; left; exists r; eauto using result_mono|].
    exfalso. destruct E4 as [[? ?]|?]; [congruence|done].
Qed.

Lemma asks_unique f req1 req2 : asks max f req1 → asks max f req2 → req1 = req2.
Proof. intros (_ & o1 & r1 & E1) (_ & o2 & r2 & E2). congruence. Qed.

Lemma step_g tr s l s' : inv tr s → step s l s' → ∀ g, gok (tr ++ [l]) s' g.
Proof.
  intros I St. pose proof (i_g _ _ I) as G. pose proof (i_chan _ _ I) as (C1 & C2 & C3).
  destruct St; intros g0; specialize (G g0).
  - (* deliver *) one g0 g.
    unfold gok in *. simpl. rewrite H, lookup_insert in *. destruct (c_evs s !! g) as [ev|].
    { destruct G as (? & ? & _ & _ & G & _). unfold gor_ok in G. by rewrite H in G. }
    destruct G as (G1 & G2 & G3 & G4 & G5). split; [done|]. split; [done|]. rewrite calls_snoc, writers_snoc. simpl. rewrite !app_nil_r.
    split; [done|]. split; [done|]. keep.
  - by other.
  - one g0 g. eapply gok_end; try done. intros (req & _ & org & rest & E). congruence.
  - one g0 g. eapply gok_end; try done. intros (req & _ & org & rest & E). congruence.
  - (* exhaust *) by other.
  - one g0 g. eapply gok_end; try done. intros (req & Hr & org' & rest' & E). congruence.
  - (* request *) one g0 g. unfold gok in *. simpl. rewrite lookup_insert, H in *. destruct (c_evs s !! g) as [ev|] eqn:Ee.
    { destruct G as (? & ? & _ & _ & G & _). unfold gor_ok in G. by rewrite H in G. }
    destruct G as (G1 & G2 & G3 & G4 & G5). exists k, f. split; [keep|]. split; [split; [done|eauto]|].
    unfold gor_ok, event_ok. simpl. rewrite !lookup_insert, G1. split; [done|]. split; [|intros; keep]. split; [done|]. split; [done|]. keep.
  - (* add *) destruct (decide (g0 = g)) as [->|Hg].
    + destruct (gok_event _ _ _ _ I H) as (ev & k' & f & E1 & E2 & E3 & E4 & E5 & E6); [done|]. eapply gok_move; try done; [|intros; keep].
      unfold gor_ok in *. simpl. rewrite lookup_insert. rewrite H in E4. destruct E4 as (-> & _ & _). split; [done|]. intros _. set_solver.
    + other. set_solver.
  - one g0 g. destruct (gok_event _ _ _ _ I H) as (ev & k' & f & E1 & E2 & E3 & E4 & E5 & E6); [done|]. 
    rewrite <- (set_chan_same (set_g s g GEnd)). eapply gok_move; try done.
    unfold gor_ok in *. simpl. rewrite lookup_insert. rewrite H in E4. destruct E4 as (-> & E4 & E7). split; [by right|]. right. right. done.
  - (* expire *) by other.
  - (* timeout *) one g0 g. destruct (gok_event _ _ _ _ I H) as (ev & k' & f & E1 & E2 & E3 & E4 & E5 & E6); [done|].
    rewrite <- (set_chan_same (set_g s g (GTimeout k))). eapply gok_move; try done; [|intros; keep].
    unfold gor_ok in *. simpl. rewrite lookup_insert. rewrite H in E4. destruct E4 as (-> & E4). split; [done|]. split; [|done]. apply in_snoc. left. by apply (i_exp _ _ I).
  - (* done *) one g0 g. destruct (gok_event _ _ _ _ I H) as (ev & k' & f & E1 & E2 & E3 & E4 & E5 & E6); [done|].
    assert (ev = e) as -> by congruence.
    rewrite <- (set_chan_same (set_g s g (GReply k (ev_rsp e)))). eapply gok_move; try done; [|intros; keep].
    unfold gor_ok in *. simpl. rewrite lookup_insert. rewrite H in E4. destruct E4 as (-> & _). split; [done|].
    unfold event_ok in E5. destruct (c_cmds s !! g) as [[]|]; try (destruct E5 as (_ & ? & ?); congruence); [destruct E5; congruence|].
    destruct E5 as (r0 & -> & Hr & _). exists r0. split; [done|keep].
  - (* write *) one g0 g. destruct (gok_event _ _ _ _ I H) as (ev & k' & f & E1 & E2 & E3 & E4 & E5 & E6); [done|].
    rewrite <- (set_chan_same (set_g s g GEnd)). eapply gok_move; try done.
    unfold gor_ok in *. simpl. rewrite lookup_insert. rewrite H in E4. destruct E4 as (-> & r0 & [= <-] & Hr).
    split; [|left; rewrite writers_snoc; set_solver]. intros Hn. unfold event_ok in E5. rewrite Hn in E5. destruct E5 as (_ & _ & Hw). exfalso. apply Hw. destruct Hr as (h1 & c & h2 & d0 & rs & d1 & -> & _).
    rewrite fmap_app, fmap_cons. set_solver.
  - one g0 g. destruct (gok_event _ _ _ _ I H) as (ev & k' & f & E1 & E2 & E3 & E4 & E5 & E6); [done|].
    rewrite <- (set_chan_same (set_g s g GEnd)). eapply gok_move; try done.
    unfold gor_ok in *. simpl. rewrite lookup_insert. rewrite H in E4. destruct E4 as (-> & r0 & [= <-] & Hr).
    split; [|right; left; exists r; split; [keep|done]]. intros Hn. unfold event_ok in E5. rewrite Hn in E5. destruct E5 as (_ & _ & Hw). exfalso. apply Hw. destruct Hr as (h1 & c & h2 & d0 & rs & d1 & -> & _).
    rewrite fmap_app, fmap_cons. set_solver.
  - one g0 g. destruct (gok_event _ _ _ _ I H) as (ev & k' & f & E1 & E2 & E3 & E4 & E5 & E6); [done|].
    unfold gor_ok in E4. rewrite H in E4. by destruct E4 as (_ & r0 & [=] & _).
  - (* write timeout *) one g0 g. destruct (gok_event _ _ _ _ I H) as (ev & k' & f & E1 & E2 & E3 & E4 & E5 & E6); [done|].
    rewrite <- (set_chan_same (set_g s g GEnd)). eapply gok_move; try done.
    unfold gor_ok in *. simpl. rewrite lookup_insert. rewrite H in E4. destruct E4 as (-> & _ & E4). split; [auto|]. left. rewrite writers_snoc. set_solver.
  - (* worker done *) other. rewrite H. split; by intros.
  - (* take *) assert (e ∈ c_chan s) as He by (rewrite H0; set_solver). specialize (C3 _ He).
    destruct (decide (g0 = e)) as [->|Hg].
    + unfold gok in *. simpl. destruct (c_evs s !! e) as [ev|]; [|by destruct G as (_ & ? & _)].
      destruct G as (k & f & G1 & G2 & G3 & G4 & G5). exists k, f. split; [keep|]. split; [done|]. split; [|split].
      * eapply gor_ok_cmd; [done|done|done|simpl; rewrite lookup_insert; by eexists|by right].
      * unfold event_ok in *. simpl. rewrite lookup_insert. rewrite C3 in G4. destruct G4 as (? & ? & ?). split; [done|]. split; [done|keep].
      * intros HN. specialize (G5 HN). keep.
    + other; [|rewrite H; by split]. rewrite H0. set_solver.
  - (* nil *) other. rewrite H. split; by intros.
  - (* begin *) destruct (decide (g0 = e)) as [->|Hg]; [|by other].
    destruct (cmd_event _ _ _ _ I H) as [ev He]. unfold gok in *. simpl. rewrite He in *.
    destruct G as (k & f & G1 & G2 & G3 & G4 & G5). exists k, f. split; [keep|]. split; [done|]. split; [|split].
    * eapply gor_ok_cmd; [done|done|done|simpl; rewrite lookup_insert; by eexists|left; rewrite H; by eexists].
    * unfold event_ok in *. simpl. rewrite lookup_insert. rewrite H in G4. destruct G4 as (? & ? & ?). split; [done|]. split; [done|keep].
    * intros HN. specialize (G5 HN). keep.
  - (* exec *) destruct (decide (g0 = e)) as [->|Hg]; [|by other].
    unfold gok in *. simpl. rewrite H0 in *.
    destruct G as (k & f & G1 & G2 & G3 & G4 & G5). exists k, f. split; [keep|]. split; [done|]. split; [|split].
    * eapply gor_ok_cmd; [done|done|done|simpl; rewrite lookup_insert; by eexists|left; rewrite H; by eexists].
    * unfold event_ok in *. simpl. rewrite lookup_insert. rewrite H in G4. destruct G4 as (? & ? & ?). split; [|done].
      destruct (i_db _ _ I) as [rs Hrs]. exists (calls tr), c, [], (c_db s), rs, d'. rewrite calls_snoc. simpl. done.
    * intros. rewrite writers_snoc. simpl. rewrite app_nil_r. auto.
  - (* crash *) by other.
  - (* respond *) destruct (decide (g0 = e)) as [->|Hg].
    + unfold gok in *. simpl. rewrite lookup_insert. rewrite H1 in G.
      destruct G as (k & f & G1 & G2 & G3 & G4 & G5). exists k, f. split; [keep|]. split; [done|]. split; [|split].
      * eapply gor_ok_cmd; [done|done|done|simpl; rewrite lookup_insert; by eexists|left; rewrite H0; by eexists].
      * unfold event_ok in *. simpl. rewrite lookup_insert. rewrite H0 in G4. destruct G4 as (? & G6). exists r. split; [done|]. split; [keep|].
        rewrite G6. done.
      * intros HN. specialize (G5 HN). keep.
    + other. rewrite H. split; [congruence|done].
  - (* close *) destruct (decide (g0 = e)) as [->|Hg].
    + pose proof (i_close _ _ I _ H) as Hc. unfold gok in *. simpl. rewrite lookup_insert. rewrite H0 in G.
      destruct G as (k & f & G1 & G2 & G3 & G4 & G5). exists k, f. split; [keep|]. split; [done|]. split; [|split].
      * eapply gor_ok_cmd; [done|done|done|simpl; rewrite Hc; by eexists|left; rewrite Hc; by eexists].
      * unfold event_ok in *. simpl. rewrite Hc in *. destruct G4 as (r & ? & ? & ?). exists r. split; [done|]. split; [keep|]. split; by intros.
      * intros HN. specialize (G5 HN). keep.
    + other. rewrite H. split; [by intros|congruence].
  - by other.
  - by other.
  - by other.
  - by other.
  - by other.
Qed.

Theorem runs_inv tr s : runs tr s → inv tr s.
Proof.
  induction 1 as [|tr s l s' R IH NC St]; [apply inv_init|].
  assert (l ≠ LDie) by (intros ->; by eapply not_die). split.
  - by eapply step_g. - by eapply step_cmd. - by eapply step_await. - by eapply step_close_ok. - by eapply step_chan_ok.
  - by eapply step_exp. - by eapply step_db. - by eapply step_who. - by eapply step_started. - by eapply step_writers.
  - by eapply step_stop_ok. - intros. by eapply step_crash_ok.
Qed.
End inv.
