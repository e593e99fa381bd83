(** C06-C10, C41-C43: the running server, over all schedules of its goroutines. *)
From Verif Require Import GoBase GoBaseProofs Float64 Db Protocol Redis SpecResp SpecWire Obs RespProofs Server SpecServing ServerProofs TermList Term P_Wire.

Section serve.
Context (ext : Ext) (max : Z) (ps : nat).
Notation step := (step ext max ps).
Notation runs := (runs ext max ps).

(** ** what the trace says *)
Lemma exec_facts tr s : runs tr s → ∀ g c req, LExec g c req ∈ tr → ∃ k f, before tr (LDeliver g k f) (LExec g c req) ∧ asks max f req.
Proof.
  induction 1 as [|tr s l s' R IH NC St]; intros g c req Hin; [by apply elem_of_nil in Hin|].
  apply in_snoc in Hin as [Hin|<-].
  { destruct (IH _ _ _ Hin) as (k & f & ? & ?). exists k, f. split; [by apply before_mono|done]. }
  pose proof (runs_inv _ _ _ _ _ R) as I. inversion St; subst. pose proof (i_g _ _ _ _ I g) as G. unfold gok in G.
  match goal with H : c_evs s !! g = Some _ |- _ => rewrite H in G end. destruct G as (k & f & G1 & G2 & _). exists k, f. split; [by apply before_snoc|done].
Qed.
Lemma result_exec tr g req r : result ext tr g req r → ∃ c, LExec g c req ∈ tr.
Proof. intros (h1 & c & h2 & d0 & rs & d1 & E & _). exists c. apply (calls_in tr (Call g c req)). rewrite E. set_solver. Qed.
Lemma write_facts tr s : runs tr s → ∀ g k b, LWrite g k b ∈ tr → ∃ f, before tr (LDeliver g k f) (LWrite g k b) ∧
  ((b = deadline_bytes ∧ before tr (LExpire g) (LWrite g k b)) ∨
   ∃ c req r, asks max f req ∧ before tr (LExec g c req) (LWrite g k b) ∧ result ext tr g req r ∧ encode r = Ret b).
Proof.
  induction 1 as [|tr s l s' R IH NC St]; intros g k b Hin; [by apply elem_of_nil in Hin|].
  apply in_snoc in Hin as [Hin|<-].
  { destruct (IH _ _ _ Hin) as (f & H1 & H2). exists f. split; [by apply before_mono|].
    destruct H2 as [[? ?]|(c & req & r & ? & ? & ? & ?)]; [left; split; [done|by apply before_mono]|right]. exists c, req, r. split; [done|]. split; [by apply before_mono|]. split; [by apply result_mono|done]. }
  pose proof (runs_inv _ _ _ _ _ R) as I. inversion St; subst.
  - match goal with H : c_gs s !! g = Some _ |- _ => destruct (gok_event _ _ _ _ _ _ I H) as (ev & k' & f & E1 & E2 & E3 & E4 & E5 & E6); [done|]; unfold gor_ok in E4; rewrite H in E4 end.
    destruct E4 as (-> & r0 & [= <-] & Hr). exists f. split; [by apply before_snoc|]. right. destruct (result_exec _ _ _ _ Hr) as [c Hc].
    exists c, (ev_cmd ev), r. split; [done|]. split; [by apply before_snoc|]. split; [by apply result_mono|done].
  - match goal with H : c_gs s !! g = Some _ |- _ => destruct (gok_event _ _ _ _ _ _ I H) as (ev & k' & f & E1 & E2 & E3 & E4 & E5 & E6); [done|]; unfold gor_ok in E4; rewrite H in E4 end.
    destruct E4 as (-> & Hx & _). exists f. split; [by apply before_snoc|]. left. split; [done|by apply before_snoc].
Qed.

(** ** C07 *)
(** Whatever the schedule, the executed requests form one sequence: the database is the result of executing them one
    after the other; each frame is executed at most once, with the request its bytes begin with; each reply goes to the
    connection of its frame, at most one per frame, and is the reply to that frame's own request at its place in the
    sequence, unless the frame's deadline has passed and the reply says so. *)
Theorem C07_serial tr s : runs tr s → ∃ rs,
  talk ext (as_history (calls tr)) db_new = Ret (c_db s, rs) ∧
  NoDup (who <$> calls tr) ∧ NoDup (writers tr) ∧ NoDup (started tr) ∧
  (∀ x, x ∈ calls tr → ∃ k f, LDeliver (who x) k f ∈ tr ∧ asks max f (what x)) ∧
  (∀ g k b, LWrite g k b ∈ tr → ∃ f, LDeliver g k f ∈ tr ∧
     ((b = deadline_bytes ∧ LExpire g ∈ tr) ∨
      ∃ i x v, calls tr !! i = Some x ∧ who x = g ∧ asks max f (what x) ∧ rs !! i = Some (Some v) ∧ is_reply b v)).
Proof.
  intros R. pose proof (runs_inv _ _ _ _ _ R) as I. destruct (i_db _ _ _ _ I) as [rs Hrs]. exists ((λ r, r ≫= view) <$> rs).
  split; [rewrite run_talk, Hrs; done|]. split; [apply I|]. split; [apply I|]. split; [apply I|]. split.
  - intros x Hx. apply calls_in in Hx. destruct (exec_facts _ _ R _ _ _ Hx) as (k & f & H & ?). apply before_in in H as [? _]. eauto.
  - intros g k b Hw. destruct (write_facts _ _ R _ _ _ Hw) as (f & H1 & H2). apply before_in in H1 as [H1 _]. exists f. split; [done|].
    destruct H2 as [[-> H2]|(c & req & r & Ha & _ & Hr & He)]; [left; split; [done|]; by apply before_in in H2 as [? _]|].
    right. destruct Hr as (h1 & c1 & h2 & d0 & rs1 & d1 & Ec & Hr1 & Hr2).
    rewrite Ec in Hrs. unfold as_history in Hrs, Hr1. rewrite fmap_app, fmap_cons, run_app in Hrs. rewrite Hr1 in Hrs. cbn [obind run how what] in Hrs.
    rewrite Hr2 in Hrs. cbn [obind] in Hrs. destruct (run ext _ d1) as [[d2 rs2]| |] eqn:E2; cbn [obind] in Hrs; [|done..]. injection Hrs as _ <-.
    assert (length rs1 = length h1) as Hlen.
    { clear -Hr1. revert Hr1. generalize db_new. revert d0 rs1. induction h1 as [|x h IH]; intros d0 rs1 d H; [by injection H as <- <-|].
      rewrite fmap_cons in H. cbn [run] in H. destruct (exec ext (how x) (what x) d) as [[d1 r]| |]; cbn [obind] in H; [|done..].
      destruct (run ext _ d1) as [[d2 rs]| |] eqn:E; cbn [obind] in H; [|done..]. injection H as <- <-. simpl. f_equal. by eapply IH. }
    pose proof (C02_reply ext c1 req d0 d1 r Hr2) as V. destruct (view r) as [v|] eqn:Ev; [|by apply V in He].
    destruct V as (b' & Eb & Hb). assert (b' = b) as -> by congruence.
    exists (length h1), (Call g c1 req), v. split; [rewrite Ec; by apply list_lookup_middle|]. split; [done|]. split; [done|]. split; [|done].
    rewrite list_lookup_fmap, lookup_app_r by lia. rewrite Hlen, Nat.sub_diag. simpl. by rewrite Ev.
Qed.

(** A command begins only after the previous one has ended. *)
Fixpoint pairs (l : list gid) : list (bool * gid) := match l with [] => [] | g :: r => (true, g) :: (false, g) :: pairs r end.
Lemma pairs_snoc l g : pairs (l ++ [g]) = pairs l ++ [(true, g); (false, g)].
Proof. induction l as [|x l IH]; [done|]. simpl. by rewrite IH. Qed.
Lemma pairs_ok l : one_at_a_time (pairs l) ∧ ∀ g, one_at_a_time (pairs l ++ [(true, g)]).
Proof.
  induction l as [|x l [IH1 IH2]]; [done|]. split; [by simpl|]. intros g. simpl. repeat (split; [done|]). apply IH2.
Qed.
Lemma executions_pairs tr s : runs tr s → ∃ l,
  (executions tr = pairs l ∧ (c_crashed s = false → ∀ e, c_cmds s !! e ≠ Some CRunning)) ∨
  (∃ e, executions tr = pairs l ++ [(true, e)] ∧ c_cmds s !! e = Some CRunning).
Proof.
  induction 1 as [|tr s l s' R IH NC St].
  { exists []. left. split; [done|]. intros _ e. simpl. by rewrite lookup_empty. }
  pose proof (runs_inv _ _ _ _ _ R) as I. pose proof (i_cmd _ _ _ _ I) as C.
  destruct IH as [p IH]. rewrite executions_snoc.
  assert (∀ e1 e2, c_cmds s !! e1 = Some CRunning → c_cmds s !! e2 = Some CRunning → e1 = e2) as U.
  { intros e1 e2 H1 H2. destruct (C _ _ H1) as [H3 _]. destruct (C _ _ H2) as [H4 _]. specialize (H3 ltac:(done)). specialize (H4 ltac:(done)). congruence. }
  destruct St; simpl; rewrite ?app_nil_r; try (exists p; exact IH).
  - (* exhaust *) exists p. destruct IH as [[E H2]|(e0 & E & H2)]; [left; split; [done|]; by intros|right; eauto].
  - (* take *) exists p. destruct IH as [[E H1]|(e0 & E & H1)].
    + left. split; [done|]. intros _ e0. destruct (decide (e0 = e)) as [->|]; [by rewrite lookup_insert|rewrite lookup_insert_ne by done; auto].
    + right. exists e0. split; [done|]. rewrite lookup_insert_ne; [done|]. intros <-. pose proof (i_chan _ _ _ _ I) as (_ & _ & C3).
      rewrite C3 in H1; [done|]. rewrite H0. set_solver.
  - (* begin *) destruct (C _ _ H) as [H1 _]. specialize (H1 ltac:(done)).
    destruct IH as [[E H2]|(e0 & E & H2)].
    + exists p. right. exists e. rewrite lookup_insert, E. done.
    + destruct (C _ _ H2) as [H3 _]. specialize (H3 ltac:(done)). assert (e0 = e) as -> by congruence. congruence.
  - (* exec *) destruct IH as [[E H2]|(e0 & E & H2)]; [by destruct (H2 NC e)|]. assert (e0 = e) as -> by (by apply U).
    exists (p ++ [e]). left. rewrite E, pairs_snoc, <- app_assoc. split; [done|]. intros _ e1.
    destruct (decide (e1 = e)) as [->|]; [by rewrite lookup_insert|rewrite lookup_insert_ne by done]. intros H3. apply n. by apply U.
  - (* crash *) destruct IH as [[E H2]|(e0 & E & H2)]; [by destruct (H2 NC e)|]. assert (e0 = e) as -> by (by apply U).
    exists (p ++ [e]). left. rewrite E, pairs_snoc, <- app_assoc. done.
  - (* respond *) exists p. destruct IH as [[E H2]|(e0 & E & H2)].
    + left. split; [done|]. intros _ e1. destruct (decide (e1 = e)) as [->|]; [by rewrite lookup_insert|rewrite lookup_insert_ne by done; auto].
    + right. exists e0. split; [done|]. rewrite lookup_insert_ne; [done|]. intros <-. congruence.
  - exists p. destruct IH as [[E H2]|(e0 & E & H2)]; [left; split; [done|]; by intros|right; eauto].
Qed.
Theorem C07_exclusive tr s : runs tr s → one_at_a_time (executions tr).
Proof.
  intros R. destruct (executions_pairs _ _ R) as (l & [[-> _]|(e & -> & _)]); apply pairs_ok.
Qed.

(** ** C08: real-time order *)
Lemma unique_lookup {A B} (f : A → option B) (l : list A) i j x y b : NoDup (omap f l) → l !! i = Some x → l !! j = Some y → f x = Some b → f y = Some b → i = j.
Proof.
  revert i j. induction l as [|z l IH]; intros i j N Hi Hj Fx Fy; [done|]. simpl in N.
  assert (∀ i x, l !! i = Some x → f x = Some b → b ∈ omap f l) as K by (intros i0 x0 H0 H1; apply elem_of_list_omap; exists x0; split; [by eapply elem_of_list_lookup_2|done]).
  destruct i, j; [done| | |].
  - injection Hi as ->. rewrite Fx in N. apply NoDup_cons in N as [N _]. destruct N. by eapply K.
  - injection Hj as ->. rewrite Fy in N. apply NoDup_cons in N as [N _]. destruct N. by eapply K.
  - f_equal. eapply IH; try done. destruct (f z); [by apply NoDup_cons in N as [_ N]|done].
Qed.
Lemma omap_order {A B} (f : A → option B) (l : list A) i j x y a b : (i < j)%nat → l !! i = Some x → l !! j = Some y → f x = Some a → f y = Some b →
  ∃ i' j', (i' < j')%nat ∧ omap f l !! i' = Some a ∧ omap f l !! j' = Some b.
Proof.
  revert i j. induction l as [|z l IH]; intros i j Hij Hi Hj Fx Fy; [done|]. simpl. destruct i, j; try lia.
  - injection Hi as ->. rewrite Fx. assert (b ∈ omap f l) as Hb by (apply elem_of_list_omap; exists y; split; [by eapply elem_of_list_lookup_2|done]).
    apply elem_of_list_lookup in Hb as [j' Hj']. exists 0%nat, (S j'). split; [lia|]. done.
  - destruct (IH i j) as (i' & j' & ? & ? & ?); [lia|done..|]. destruct (f z); [exists (S i'), (S j'); split; [lia|done]|exists i', j'; done].
Qed.
(** If the reply to one request is written before the frame of another arrives, the first was executed before the
    second. *)
Theorem C08_real_time tr s g1 k1 b g2 k2 f i1 i2 x1 x2 : runs tr s → before tr (LWrite g1 k1 b) (LDeliver g2 k2 f) → b ≠ deadline_bytes →
  calls tr !! i1 = Some x1 → who x1 = g1 → calls tr !! i2 = Some x2 → who x2 = g2 → (i1 < i2)%nat.
Proof.
  intros R Hb Nd H1 W1 H2 W2. pose proof (runs_inv _ _ _ _ _ R) as I.
  destruct Hb as (p & q & Hpq & Hp & Hq).
  destruct (write_facts _ _ R g1 k1 b) as (f1 & _ & [[? _]|(c & req & r & _ & B1 & _ & _)]); [by eapply elem_of_list_lookup_2|done|].
  assert (LExec (who x2) (how x2) (what x2) ∈ tr) as Hx2 by (apply calls_in; by eapply elem_of_list_lookup_2).
  destruct (exec_facts _ _ R _ _ _ Hx2) as (k3 & f3 & B2 & _).
  destruct B1 as (p1 & q1 & L1 & P1 & Q1). destruct B2 as (p2 & q2 & L2 & P2 & Q2).
  assert (q1 = p) as -> by (eapply (unique_lookup (λ l, match l with LWrite g _ _ => Some g | _ => None end)); [apply I|exact Q1|exact Hp|done|done]).
  assert (p2 = q) as -> by (eapply (unique_lookup (λ l, match l with LDeliver g _ _ => Some g | _ => None end)); [apply I|exact P2|exact Hq|simpl; by rewrite W2|done]).
  destruct (omap_order call_of tr p1 q2 _ _ (Call g1 c req) x2 ltac:(lia) P1 Q2 eq_refl) as (i & j & Hij & Hi & Hj); [by destruct x2|].
  pose proof (i_who _ _ _ _ I) as NW. fold (calls tr) in Hi, Hj.
  assert (i = i1) as ->. { eapply (NoDup_lookup (who <$> calls tr) i i1 g1 NW); rewrite list_lookup_fmap; [by rewrite Hi|rewrite H1; simpl; by rewrite W1]. }
  assert (j = i2) as ->. { eapply (NoDup_lookup (who <$> calls tr) j i2 (who x2) NW); rewrite list_lookup_fmap; [by rewrite Hj|by rewrite H2]. }
  done.
Qed.
(** and a request whose reply (other than a deadline error) has been written has been executed *)
Theorem C08_replied_executed tr s g k b : runs tr s → LWrite g k b ∈ tr → b ≠ deadline_bytes → ∃ i x, calls tr !! i = Some x ∧ who x = g.
Proof.
  intros R Hw Nd. destruct (C07_serial tr s R) as (rs & _ & _ & _ & _ & _ & H). destruct (H _ _ _ Hw) as (f & _ & [[? _]|(i & x & v & H1 & H2 & _)]); [done|eauto].
Qed.

(** ** C42: every request is answered *)
Section sums.
Context {A : Type} (f : A → nat).
Definition msum (m : gmap nat A) : nat := map_fold (λ _ x acc, f x + acc)%nat 0%nat m.
Lemma msum_insert_new m i x : m !! i = None → msum (<[i := x]> m) = (f x + msum m)%nat.
Proof. intros H. unfold msum. rewrite map_fold_insert_L; [done| |done]. intros. lia. Qed.
Lemma msum_insert m i x y : m !! i = Some y → (msum (<[i := x]> m) + f y = f x + msum m)%nat.
Proof.
  intros H. rewrite <- (insert_delete m i y H) at 2. rewrite <- insert_delete_insert.
  rewrite !msum_insert_new by apply lookup_delete. lia.
Qed.
End sums.
Definition gw (x : gstate) : nat := match x with GFrame _ _ => 9 | GAdd _ => 8 | GSelect _ => 2 | GReply _ _ | GTimeout _ => 1 | GEnd => 0 end.
Definition cw (x : cstate) : nat := match x with CReady => 4 | CRunning => 3 | CSending _ => 2 | CExit => 0 end.
Definition ww (w : wstate) : nat := match w with WSelect | WAwait _ => 1 | WClose _ => 2 | WExit => 0 end.
Definition sw (x : sstate) : nat := match x with SSend => 3 | SCloseDone => 2 | SWait => 1 | _ => 0 end.
Definition measure (s : config) : nat :=
  msum gw (c_gs s) + msum cw (c_cmds s) + 5 * length (c_chan s) + ww (c_worker s) + sw (c_stop s) + (if c_crashed s then 0 else 1).
Lemma measure_step tr s l s' : inv ext max tr s → c_crashed s = false → step s l s' → ¬ external l → (measure s' < measure s)%nat.
Proof.
  intros I NC St NE. unfold measure.
  destruct St; simpl in *; try done; rewrite ?NC;
    repeat match goal with
    | H : c_gs s !! ?g = Some ?x |- context [msum gw (<[?g := ?y]> _)] => pose proof (msum_insert gw (c_gs s) g y x H); simpl in *; clear H
    | H : c_cmds s !! ?g = Some ?x |- context [msum cw (<[?g := ?y]> _)] => pose proof (msum_insert cw (c_cmds s) g y x H); simpl in *; clear H
    | H : c_worker s = _ |- _ => rewrite H; clear H
    | H : c_stop s = _ |- _ => rewrite H; clear H
    end; rewrite ?app_length; simpl; try lia.
  pose proof (i_chan _ _ _ _ I) as (_ & _ & C3). rewrite msum_insert_new by (apply C3; rewrite H0; set_solver). rewrite H0. simpl. lia.
Qed.
(** Without anything new from outside, the server comes to rest after a bounded number of steps, whatever the schedule. *)
Theorem C42_terminates tr s : runs tr s → ∃ n, ∀ tr' s', continues ext max ps s tr' s' → (length tr' ≤ n)%nat.
Proof.
  intros R. exists (measure s). intros tr' s' C. revert tr R. induction C as [|s l s1 tr' s2 NC St NE C IH]; intros tr R; [simpl; lia|].
  pose proof (measure_step tr s l s1 (runs_inv _ _ _ _ _ R) NC St NE). specialize (IH (tr ++ [l]) (runs_step _ _ _ _ _ _ _ R NC St)). simpl. lia.
Qed.

Lemma exec_reply c req d d' o : req ≠ [] → exec ext c req d = Ret (d', o) → is_Some o.
Proof. destruct req as [|n a]; [done|]. intros _. apply exec_some. Qed.

Lemma encode_item_total i : encode_item i = Panic ∨ ∃ c b, encode_item i = Ret (String c b).
Proof.
  unfold encode_item. destruct (ri_type i), (ri_val i); simpl; auto; right; by repeat eexists.
Qed.
Lemma encode_items_total l : encode_items l = Panic ∨ ∃ b, encode_items l = Ret b.
Proof.
  induction l as [|i l IH]; simpl; [eauto|]. destruct (encode_item_total i) as [->|(c & b & ->)]; simpl; [auto|].
  destruct IH as [->|[b' ->]]; simpl; eauto.
Qed.
Lemma encode_total r : encode r = Panic ∨ ∃ b, encode r = Ret b ∧ b ≠ EmptyString.
Proof.
  unfold encode. destruct (rsp_items r) as [|i l].
  - right. destruct (rsp_array r); by eexists.
  - destruct (rsp_array r).
    + destruct (encode_items_total (i :: l)) as [->|[b ->]]; simpl; [auto|]. right. by eexists.
    + destruct (encode_item_total i) as [->|(c & b & ->)]; [auto|]. right. by eexists.
Qed.

Lemma not_deadline r : encode r ≠ Ret deadline_bytes.
Proof.
  unfold encode. destruct (rsp_items r) as [|i l].
  - by destruct (rsp_array r).
  - destruct (rsp_array r).
    + by destruct (encode_items (i :: l)).
    + unfold encode_item. destruct (ri_type i), (ri_val i) as [|v|e|z|v]; simpl; try done. by destruct e.
Qed.
(** the state when the server is at rest *)
Record rest (s : config) : Prop := {
  r_gs : ∀ g x, c_gs s !! g = Some x → x = GEnd ∨ (c_stop s ≠ SRun ∧ c_cmds s !! g = None ∧ ∃ k, x = GSelect k);
  r_cmds : ∀ g x, c_cmds s !! g = Some x → x = CExit;
  r_run : c_stop s = SRun → c_worker s = WSelect ∧ c_chan s = [];
  r_stop : c_stop s ≠ SRun → c_stop s = SReturned;
}.
(** the database of a running server is one the commands can produce *)
Lemma runs_reachable tr s : runs tr s → reachable ext (c_db s).
Proof. intros R. destruct (i_db _ _ _ _ (runs_inv _ _ _ _ _ R)) as [rs E]. eexists _, _. rewrite run_talk, E. done. Qed.
Lemma runs_tidy tr s : runs tr s → tidy (c_db s).
Proof. intros R. by eapply reachable_tidy, runs_reachable. Qed.
Definition c1 : choices := Ch (λ _ _, []) (λ _, 1%nat).
Lemma at_rest tr s : runs tr s → c_crashed s = false → quiescent ext max ps s → rest s.
Proof.
  intros R NC Q. pose proof (runs_inv _ _ _ _ _ R) as I. unfold quiescent in Q.
  assert (∀ g x, c_cmds s !! g = Some x → x = CExit ∨ x = CRunning) as Kc.
  { intros g x Hx. destruct x; auto.
    - exfalso. by destruct (Q _ _ (st_begin _ _ _ s g Hx)).
    - exfalso. destruct (cmd_event _ _ _ _ _ _ I Hx) as [ev He]. destruct (i_cmd _ _ _ _ I _ _ Hx) as [W _]. specialize (W ltac:(done)).
      by destruct (Q _ _ (st_respond _ _ _ s g ev r W Hx He)). }
  destruct (c_worker s) as [|e|e|] eqn:EW.
  3: { exfalso. pose proof (i_close _ _ _ _ I _ EW) as Hc. destruct (cmd_event _ _ _ _ _ _ I Hc) as [ev He]. destruct (ev_done ev) eqn:Ed.
       - by destruct (Q _ _ (st_close_panic _ _ _ s e ev EW He Ed)). - by destruct (Q _ _ (st_close _ _ _ s e ev EW He Ed)). }
  2: { exfalso. destruct (i_await _ _ _ _ I _ EW) as [x Hx]. destruct (cmd_event _ _ _ _ _ _ I Hx) as [ev He].
       assert (x = CRunning) as ->. { destruct (Kc _ _ Hx) as [->|]; [|done]. destruct (i_cmd _ _ _ _ I _ _ Hx) as [_ W]. by destruct (W EW). }
       destruct (exec ext c1 (ev_cmd ev) (c_db s)) as [[d' o]| |] eqn:E.
       - pose proof (i_g _ _ _ _ I e) as G. unfold gok in G. rewrite He in G. destruct G as (k & f & _ & [Hne _] & _).
         destruct (exec_reply _ _ _ _ _ Hne E) as [r ->]. by destruct (Q _ _ (st_exec _ _ _ s e ev c1 d' r Hx He E)).
       - by destruct (Q _ _ (st_crash _ _ _ s e ev c1 Hx He E)).
       - by apply (fin_fuel _ _ (fin_exec ext c1 (ev_cmd ev) (c_db s) (runs_tidy tr s R))) in E. }
  all: assert (∀ g x, c_cmds s !! g = Some x → x = CExit) as Kx by (intros g x Hx; destruct (Kc _ _ Hx) as [|HR]; [done|]; subst x;
         destruct (i_cmd _ _ _ _ I _ _ Hx) as [W _]; specialize (W ltac:(done)); congruence).
  all: pose proof (i_stop _ _ _ _ I) as Sok; unfold stop_ok in Sok.
  all: assert (c_stop s ≠ SRun → c_stop s = SReturned) as Kst.
  1,3: intros HN; destruct (c_stop s) eqn:ES; [done| | | |done]; exfalso.
  1, 4: destruct Sok as (_ & Hw & _); by destruct (Q _ _ (st_stop_send _ _ _ s ES Hw)).
  1, 3: by destruct (Q _ _ (st_stop_close _ _ _ s ES)).
  1: { destruct Sok as (_ & Wc & _). by destruct (Q _ _ (st_worker_done _ _ _ s EW (or_intror Wc))). }
  1: { by destruct (Q _ _ (st_stop_wait _ _ _ s ES EW)). }
  all: assert (c_worker s = WSelect → c_chan s = []) as Kch by (intros W; destruct (c_chan s) as [|e l] eqn:Ech; [done|];
         exfalso; by destruct (Q _ _ (st_worker_take _ _ _ s e l W Ech))).
  all: assert (c_stop s = SRun → c_worker s = WSelect) as Krun by (intros ES; rewrite ES in Sok; destruct Sok as (_ & _ & _ & ? & _); congruence).
  all: assert (c_closed s = false → c_stop s = SRun) as Kcl by (intros Ec; destruct (c_stop s); [done|exfalso..]; destruct Sok as (? & _); congruence).
  all: split; [|done|intros ES; split; [by apply Krun|by apply Kch, Krun]|done].
  all: assert (∀ g, c_worker s ≠ WClose g) as Kw by (intros; by rewrite EW).
  all: clear EW.
  all: intros g x Hg; destruct x as [k f|k|k|k o|k|]; [exfalso|exfalso| |exfalso|exfalso|by left].
  1, 6: destruct (C05_total max f) as [E|[[e E]|(rec & used & rst & E & _)]];
    [by destruct (Q _ _ (st_decode_panic _ _ _ s g k f Hg E))|by destruct (Q _ _ (st_bad _ _ _ s g k f e Hg E))|];
    destruct rec as [[|name args] org];
      [by destruct (Q _ _ (st_empty _ _ _ s g k f org rst Hg E))|by destruct (Q _ _ (st_request _ _ _ s g k f name args org rst Hg E))].
  1, 5: destruct (c_closed s) eqn:Ecl; [by destruct (Q _ _ (st_add_closed _ _ _ s g k Hg Ecl))|];
    assert (length (c_chan s) < chan_cap)%nat as Hroom by (rewrite Kch by (by apply Krun, Kcl); unfold chan_cap; simpl; lia);
    by destruct (Q _ _ (st_add _ _ _ s g k Hg Ecl Hroom)).
  1, 4: right; destruct (gok_event _ _ _ _ _ _ I Hg) as (ev & k' & f & E1 & E2 & E3 & E4 & E5 & E6); [done|]; unfold gor_ok in E4; rewrite Hg in E4; destruct E4 as (-> & E4);
    unfold event_ok in E5; destruct (c_cmds s !! g) as [x|] eqn:Ex;
    [exfalso; rewrite (Kx _ _ Ex) in E5; destruct E5 as (r & Hr & _ & Hd); destruct (ev_done ev) eqn:Ed;
       [by destruct (Q _ _ (st_done _ _ _ s g k' ev Hg E1 Ed))|by destruct (Kw g (proj1 Hd eq_refl))]
    |split; [|eauto]; intros ES; specialize (E4 eq_refl); rewrite (Kch (Krun ES)) in E4; by apply elem_of_nil in E4].
  1, 3: destruct o as [r|]; [|by destruct (Q _ _ (st_write_nil _ _ _ s g k Hg))];
    destruct (encode_total r) as [E|(b & E & Hb)]; [by destruct (Q _ _ (st_write_panic _ _ _ s g k r Hg E))|by destruct (Q _ _ (st_write _ _ _ s g k r b Hg E Hb))].
  1, 2: by destruct (Q _ _ (st_write_timeout _ _ _ s g k Hg)).
Qed.

(** the reply that belongs to an entry of the history *)
Lemma result_index tr s g req r rs : runs tr s → result ext tr g req r → run ext (as_history (calls tr)) db_new = Ret (c_db s, rs) →
  ∃ i x, calls tr !! i = Some x ∧ who x = g ∧ what x = req ∧ rs !! i = Some (Some r).
Proof.
  intros R Hr Hrs. destruct Hr as (h1 & c1 & h2 & d0 & rs1 & d1 & Ec & Hr1 & Hr2).
  rewrite Ec in Hrs. unfold as_history in Hrs, Hr1. rewrite fmap_app, fmap_cons, run_app in Hrs. rewrite Hr1 in Hrs. cbn [obind run how what] in Hrs.
  rewrite Hr2 in Hrs. cbn [obind] in Hrs. destruct (run ext _ d1) as [[d2 rs2]| |] eqn:E2; cbn [obind] in Hrs; [|done..]. injection Hrs as _ <-.
  assert (length rs1 = length h1) as Hlen.
  { clear -Hr1. revert Hr1. generalize db_new. revert d0 rs1. induction h1 as [|x h IH]; intros d0 rs1 d H; [by injection H as <- <-|].
    rewrite fmap_cons in H. cbn [run] in H. destruct (exec ext (how x) (what x) d) as [[d1 r']| |]; cbn [obind] in H; [|done..].
    destruct (run ext _ d1) as [[d2 rs]| |] eqn:E; cbn [obind] in H; [|done..]. injection H as <- <-. simpl. f_equal. by eapply IH. }
  exists (length h1), (Call g c1 req). split; [rewrite Ec; by apply list_lookup_middle|]. split; [done|]. split; [done|].
  rewrite lookup_app_r by lia. by rewrite Hlen, Nat.sub_diag.
Qed.
Lemma deliver_state tr s g k f : runs tr s → LDeliver g k f ∈ tr →
  match c_evs s !! g with
  | Some ev => asks max f (ev_cmd ev)
  | None => c_gs s !! g = Some GEnd → ¬ ∃ req, asks max f req
  end.
Proof.
  intros R Hd. pose proof (runs_inv _ _ _ _ _ R) as I. pose proof (i_g _ _ _ _ I g) as G. unfold gok in G. pose proof (i_started _ _ _ _ I) as N.
  assert (∀ k' f', LDeliver g k' f' ∈ tr → f' = f) as U.
  { intros k' f' Hd'. apply elem_of_list_lookup in Hd as [i Hi]. apply elem_of_list_lookup in Hd' as [j Hj].
    assert (i = j) as <- by (eapply (unique_lookup (λ l, match l with LDeliver g _ _ => Some g | _ => None end) tr i j); [apply N|exact Hi|exact Hj|done|done]). congruence. }
  destruct (c_evs s !! g) as [ev|].
  - destruct G as (k' & f' & H1 & H2 & _). by rewrite <- (U _ _ H1).
  - intros E. rewrite E in G. destruct G as (_ & _ & _ & _ & k' & f' & H1 & H2). by rewrite <- (U _ _ H1).
Qed.
Lemma stop_label tr s : runs tr s → (LStop ∈ tr ↔ c_stop s ≠ SRun) ∧ (LStopped ∈ tr ↔ c_stop s = SReturned).
Proof.
  intros R. pose proof (i_stop _ _ _ _ (runs_inv _ _ _ _ _ R)) as S. unfold stop_ok in S. destruct (c_stop s); split; naive_solver.
Qed.

(** a frame whose goroutine is done with, at rest *)
Lemma ended tr s g k f req : runs tr s → LDeliver g k f ∈ tr → asks max f req → c_gs s !! g = Some GEnd →
  ∃ ev, c_evs s !! g = Some ev ∧ ev_cmd ev = req ∧ gor_ok ext tr s g ev k ∧ event_ok ext tr s g ev.
Proof.
  intros R Hd Ha Hg. pose proof (deliver_state _ _ _ _ _ R Hd) as D. pose proof (i_g _ _ _ _ (runs_inv _ _ _ _ _ R) g) as G. unfold gok in G.
  destruct (c_evs s !! g) as [ev|]; [|exfalso; apply D; eauto]. exists ev. split; [done|]. split; [by eapply asks_unique|].
  destruct G as (k' & f' & _ & _ & G1 & G2 & _). split; [|done]. unfold gor_ok in *. by rewrite Hg in *.
Qed.
Lemma delivered_gor tr s g k f : runs tr s → LDeliver g k f ∈ tr → is_Some (c_gs s !! g).
Proof.
  intros R Hd. pose proof (i_g _ _ _ _ (runs_inv _ _ _ _ _ R) g) as G. unfold gok, gor_ok in G. destruct (c_gs s !! g); [by eexists|].
  destruct (c_evs s !! g); [by destruct G as (? & ? & _ & _ & ? & _)|]. destruct G as (_ & _ & _ & _ & G). destruct G. apply started_in. eauto.
Qed.

(** Every frame that begins with a request has been executed once when the server comes to rest, and answered, even if
    its deadline has passed; only a reply that cannot be encoded is not sent.  (Unless a command crashes the process or
    the server is being stopped.) *)
Theorem C42_all_answered tr s : runs tr s → c_crashed s = false → LStop ∉ tr → quiescent ext max ps s →
  ∃ rs, talk ext (as_history (calls tr)) db_new = Ret (c_db s, rs) ∧
  ∀ g k f, LDeliver g k f ∈ tr →
    (∀ req, asks max f req → ∃ i x, calls tr !! i = Some x ∧ who x = g ∧ what x = req ∧ (g ∈ writers tr ∨ rs !! i = Some None)) ∧
    ((¬ ∃ req, asks max f req) → g ∉ (who <$> calls tr) ∧ g ∉ writers tr).
Proof.
  intros R NC NS Q. destruct (at_rest tr s R NC Q) as [Rg Rc Rr Rs]. pose proof (runs_inv _ _ _ _ _ R) as I.
  destruct (i_db _ _ _ _ I) as [rs Hrs]. exists ((λ r, r ≫= view) <$> rs). split; [by rewrite run_talk, Hrs|].
  assert (c_stop s = SRun) as ES. { destruct (stop_label tr s R) as [K _]. destruct (c_stop s); [done|exfalso; apply NS, K; done..]. }
  intros g k f Hd. destruct (delivered_gor _ _ _ _ _ R Hd) as [x Hx]. assert (x = GEnd) as -> by (destruct (Rg _ _ Hx) as [?|[? _]]; done).
  split.
  - intros req Ha. destruct (ended _ _ _ _ _ _ R Hd Ha Hx) as (ev & He & <- & Go & Eo). unfold gor_ok in Go. rewrite Hx in Go. destruct Go as [G1 G2].
    pose proof (i_stop _ _ _ _ I) as Sok. unfold stop_ok in Sok. rewrite ES in Sok. destruct Sok as (Ecl & _).
    destruct (c_cmds s !! g) as [y|] eqn:Ey; [|destruct (G1 eq_refl) as [G3|]; [|congruence]; destruct (Rr ES) as [_ Hch]; rewrite Hch in G3; by apply elem_of_nil in G3].
    unfold event_ok in Eo. rewrite Ey in Eo. rewrite (Rc _ _ Ey) in Eo. destruct Eo as (r & _ & Hr & _).
    destruct (result_index _ _ _ _ _ _ R Hr Hrs) as (i & x & H1 & H2 & H3 & H4). exists i, x. repeat (split; [done|]).
    destruct G2 as [G2|[(r' & Hr' & Hp)|(? & _)]]; [by left| |done]. right.
    destruct (result_index _ _ _ _ _ _ R Hr' Hrs) as (i' & x' & H1' & H2' & H3' & H4').
    assert (i' = i) as ->. { eapply (NoDup_lookup (who <$> calls tr) i' i g); [apply I|rewrite list_lookup_fmap, H1'; simpl; by f_equal|rewrite list_lookup_fmap, H1; simpl; by f_equal]. }
    rewrite list_lookup_fmap, H4'. simpl. destruct (view r') eqn:Ev; [|done]. exfalso. destruct (proj2 (encode_view r')) as [b Hb]; [by rewrite Ev|congruence].
  - intros Hn. pose proof (i_g _ _ _ _ I g) as G. unfold gok in G. pose proof (deliver_state _ _ _ _ _ R Hd) as D.
    destruct (c_evs s !! g) as [ev|]; [exfalso; apply Hn; eauto|]. by destruct G as (_ & _ & ? & ? & _).
Qed.

(** ** C09 *)
(** A request answered with the deadline error is executed at most once, as if it had not timed out; that it is
    executed nevertheless is C42_all_answered (and C09_refuted). *)
Theorem C09_at_most_once_partial tr s g k : runs tr s → LWrite g k deadline_bytes ∈ tr → LExpire g ∈ tr ∧
  ∀ i j x y, calls tr !! i = Some x → calls tr !! j = Some y → who x = g → who y = g → i = j.
Proof.
  intros R Hw. destruct (C07_serial tr s R) as (rs & _ & N & _ & _ & _ & H). split.
  - destruct (write_facts _ _ R _ _ _ Hw) as (f & _ & [[_ B]|(c & req & r & _ & _ & Hr & He)]); [by apply before_in in B as [? _]|].
    exfalso. destruct Hr as (h1 & c1 & h2 & d0 & rs1 & d1 & _ & _ & E). by apply not_deadline in He.
  - intros i j x y Hx Hy Wx Wy. eapply (NoDup_lookup (who <$> calls tr) i j g N); rewrite list_lookup_fmap; [rewrite Hx; simpl; by f_equal|rewrite Hy; simpl; by f_equal].
Qed.

(** ** C47 *)
(** It is executed nevertheless, exactly once, with the request its frame began with, by the time the server comes to rest. *)
Theorem C47_timed_out_executed tr s g k : runs tr s → c_crashed s = false → LStop ∉ tr → quiescent ext max ps s →
  LWrite g k deadline_bytes ∈ tr →
  ∃ f i x, LDeliver g k f ∈ tr ∧ calls tr !! i = Some x ∧ who x = g ∧ asks max f (what x) ∧
    ∀ j y, calls tr !! j = Some y → who y = g → j = i.
Proof.
  intros R NC NS Q Hw. destruct (C42_all_answered tr s R NC NS Q) as (rs & _ & H).
  destruct (write_facts _ _ R _ _ _ Hw) as (f & B & _). apply before_in in B as [Hd _]. destruct (H _ _ _ Hd) as [H1 H2].
  assert ((∃ req, asks max f req) ∨ ¬ ∃ req, asks max f req) as [[req Ha]|Hn].
  { unfold asks. destruct (decode max f) as [[[[req org] rest]|e]| |]; [|right; by intros (? & _ & ? & ? & ?)..].
    destruct req as [|n l]; [right; intros (req & Hne & ? & ? & Hq); by injection Hq as <- |left]. exists (n :: l). split; [done|]. eauto. }
  - destruct (H1 _ Ha) as (i & x & Hi & Wx & <- & _). exists f, i, x. repeat (split; [done|]). intros j y Hj Wy.
    destruct (C09_at_most_once_partial tr s g k R Hw) as [_ U]. by eapply U.
  - destruct (H2 Hn) as [_ F]. destruct F. unfold writers. apply elem_of_list_omap. exists (LWrite g k deadline_bytes). done.
Qed.

(** ** C10: stopping *)
Lemma exhaust_facts tr s : runs tr s → ∀ g, LExhaust g ∈ tr → ∃ k f n, before tr (LDeliver g k f) (LExhaust g) ∧ announces f n ∧ slen f < n + 2.
Proof.
  induction 1 as [|tr s l s' R IH NC St]; intros g Hin; [by apply elem_of_nil in Hin|].
  apply in_snoc in Hin as [Hin|<-].
  { destruct (IH _ Hin) as (k & f & n & ? & ? & ?). exists k, f, n. split; [by apply before_mono|done]. }
  inversion St as [| | | |g0 k f Hg Hmax Hf| | | | | | | | | | | | | | | | | | | | | | | |]; subst.
  pose proof (i_g _ _ _ _ (runs_inv _ _ _ _ _ R) g) as G. unfold gok in G.
  destruct (decode_two (slen f) max f Hmax) as [E|(n & Hn & Hlt)]; [congruence|]. exists k, f, n. split; [|done]. apply before_snoc.
  destruct (c_evs s !! g) as [ev|]; [|rewrite Hg in G; by destruct G as (_ & _ & _ & _ & ?)].
  destruct G as (k' & f' & _ & _ & G & _). unfold gor_ok in G. by rewrite Hg in G.
Qed.
(** Stopping never kills the process: only a command can, or a frame that announces an argument longer than itself. *)
Theorem C10_no_panic tr s : runs tr s → LDie ∉ tr ∧
  (c_crashed s = true → (∃ g c req, LCrash g c req ∈ tr) ∨
     ∃ g k f n, LDeliver g k f ∈ tr ∧ LExhaust g ∈ tr ∧ announces f n ∧ slen f < n + 2).
Proof.
  intros R. split.
  2: { intros Hc. destruct (i_crash _ _ _ _ (runs_inv _ _ _ _ _ R) Hc) as [?|[g Hg]]; [by left|right].
       destruct (exhaust_facts _ _ R g Hg) as (k & f & n & B & Hn). apply before_in in B as [? _]. by exists g, k, f, n. }
  induction R as [|tr s l s' R IH NC St]; [apply not_elem_of_nil|].
  rewrite in_snoc. intros [?|<-]; [done|]. eapply (not_die ext max ps tr s s'); [by eapply runs_inv|done].
Qed.
(** Stop returns, whatever the schedule. *)
Theorem C10_stop_returns tr s : runs tr s → c_crashed s = false → LStop ∈ tr → quiescent ext max ps s → LStopped ∈ tr.
Proof.
  intros R NC HS Q. destruct (at_rest tr s R NC Q) as [Rg Rc Rr Rs]. destruct (stop_label tr s R) as [K1 K2]. apply K2, Rs, K1, HS.
Qed.
(** After it has returned nothing is executed. *)
Theorem C10_nothing_after tr s : runs tr s → ∀ l, before tr LStopped l → match l with LBegin _ | LExec _ _ _ | LCrash _ _ _ => False | _ => True end.
Proof.
  induction 1 as [|tr s l0 s' R IH NC St]; intros l B; [by destruct B as (i & j & _ & H & _)|].
  apply before_snoc_inv in B as [B|[-> B]]; [by apply IH|]. pose proof (runs_inv _ _ _ _ _ R) as I.
  destruct (stop_label tr s R) as [_ K2]. apply K2 in B. pose proof (i_stop _ _ _ _ I) as Sok. unfold stop_ok in Sok. rewrite B in Sok. destruct Sok as (_ & W & _).
  assert (∀ e x, c_cmds s !! e = Some x → x = CExit) as Kx.
  { intros e x Hx. destruct x; try done; destruct (i_cmd _ _ _ _ I _ _ Hx) as [H _]; specialize (H ltac:(done)); congruence. }
  destruct St; try done; match goal with H : c_cmds s !! _ = Some _ |- _ => by apply Kx in H end.
Qed.
(** Every request executed before that is answered. *)
Theorem C10_executed_answered tr s : runs tr s → c_crashed s = false → quiescent ext max ps s →
  ∃ rs, talk ext (as_history (calls tr)) db_new = Ret (c_db s, rs) ∧
  ∀ i x, calls tr !! i = Some x → who x ∈ writers tr ∨ rs !! i = Some None.
Proof.
  intros R NC Q. destruct (at_rest tr s R NC Q) as [Rg Rc Rr Rs]. pose proof (runs_inv _ _ _ _ _ R) as I.
  destruct (i_db _ _ _ _ I) as [rs Hrs]. exists ((λ r, r ≫= view) <$> rs). split; [by rewrite run_talk, Hrs|].
  intros i x Hx. assert (LExec (who x) (how x) (what x) ∈ tr) as Hin by (apply calls_in; by eapply elem_of_list_lookup_2).
  destruct (exec_facts _ _ R _ _ _ Hin) as (k & f & B & Ha). apply before_in in B as [Hd _].
  destruct (delivered_gor _ _ _ _ _ R Hd) as [y Hy]. pose proof (i_g _ _ _ _ I (who x)) as G. unfold gok in G.
  destruct (c_evs s !! who x) as [ev|] eqn:He; [|exfalso; destruct G as (_ & _ & G & _); apply G, elem_of_list_fmap; exists x; split; [done|by eapply elem_of_list_lookup_2]].
  destruct G as (k' & f' & _ & _ & G1 & G2 & _).
  assert (is_Some (c_cmds s !! who x)) as [z Hz].
  { unfold event_ok in G2. destruct (c_cmds s !! who x) as [z|]; [by eexists|]. destruct G2 as (_ & _ & G2). destruct G2. apply elem_of_list_fmap. exists x. split; [done|by eapply elem_of_list_lookup_2]. }
  assert (y = GEnd) as -> by (destruct (Rg _ _ Hy) as [?|(_ & ? & _)]; [done|congruence]).
  unfold gor_ok in G1. rewrite Hy in G1. destruct G1 as [_ [G1|[(r' & Hr' & Hp)|(? & _)]]]; [by left| |congruence]. right.
  destruct (result_index _ _ _ _ _ _ R Hr' Hrs) as (i' & x' & H1' & H2' & H3' & H4').
  assert (i' = i) as ->. { eapply (NoDup_lookup (who <$> calls tr) i' i (who x)); [apply I|rewrite list_lookup_fmap, H1'; simpl; by f_equal|rewrite list_lookup_fmap, Hx; done]. }
  rewrite list_lookup_fmap, H4'. simpl. destruct (view r') eqn:Ev; [|done]. exfalso. destruct (proj2 (encode_view r')) as [b Hb]; [by rewrite Ev|congruence].
Qed.
End serve.
