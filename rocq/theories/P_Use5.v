(** C87: sets as the columns of a task board. *)
From Verif Require Import GoBase GoBaseProofs ShardMap Float64 Float64Proofs Db Protocol Redis Obs SpecCmd SpecResp SpecServer SpecFrame SpecKey KeyHist
  DbInv ExecSteps Sim SimSet SimMain PropBase KeyIs Examples P_Keys P_Sets P_Life
  SpecCommute SpecUse SpecTasks P_Server SpecWire SpecStream Stream Server SpecServing ServerProofs P_Serve Server1 SpecServing1 Drive1 P_Serve1 Drive P_ServeMore P_Use P_Use4.

Section use.
Context (ext : Ext) (K : list string).
(** what a column holds *)
Definition col (m : kspace) (k : string) (X : gset string) : Prop := (m !! k = None ∧ X = ∅) ∨ ∃ dr, m !! k = Some (ASet X dr).
Definition board_at (m : kspace) (l : list exchange) : Prop :=
  (∀ k, k ∈ K → ∃ X, col m k X ∧ ∀ v, v ∈ X ↔ place K v l = Some k) ∧
  (∀ v k, place K v l = Some k → k ∈ K ∧ v ∈ tasks K l).
Lemma place_snoc v l x : place K v (l ++ [x]) = match arrives K v x with Some k => Some k | None => place K v l end.
Proof.
  unfold place. rewrite omap_app. cbn [omap list_omap]. destruct (arrives K v x); [by rewrite last_snoc|by rewrite app_nil_r].
Qed.
Lemma tasks_app l1 l2 : tasks K (l1 ++ l2) = tasks K l1 ++ tasks K l2.
Proof. unfold tasks. by rewrite fmap_app, concat_app. Qed.
Lemma tasks_one x : tasks K [x] = new_tasks K x.1.2.
Proof. unfold tasks. cbn. by rewrite app_nil_r. Qed.
Lemma adds_spec req k vs : adds K req = Some (k, vs) → ∃ n, req = n :: k :: vs ∧ to_lower n = "sadd" ∧ k ∈ K.
Proof.
  unfold adds. destruct req as [|n [|k' vs']]; try done. destruct (String.eqb_spec (to_lower n) "sadd") as [E|]; [|done].
  unfold column. case_bool_decide; [|done]. intros [= -> ->]. by exists n.
Qed.
Lemma moves_spec req s t v : moves K req = Some (s, t, v) → ∃ n a, req = n :: s :: t :: v :: a ∧ to_lower n = "smove" ∧ s ∈ K ∧ t ∈ K ∧ s ≠ t.
Proof.
  unfold moves. destruct req as [|n [|s' [|t' [|v' a]]]]; try done. destruct (String.eqb_spec (to_lower n) "smove") as [E|]; [|done].
  unfold column. repeat case_bool_decide; try done. cbn [andb]. destruct (String.eqb_spec s' t'); [done|]. intros [= -> -> ->]. by exists n, a.
Qed.
Lemma moves_adds req p : moves K req = Some p → adds K req = None.
Proof. destruct p as [[s t] v]. intros (n & a & -> & E & _)%moves_spec. unfold adds. by rewrite E. Qed.
Lemma names_calm : "sadd" ∉ ["zadd"; "zincr"] ∧ "smove" ∉ ["zadd"; "zincr"].
Proof. rewrite !not_elem_of_cons. split_and!; try done; apply not_elem_of_nil. Qed.
Lemma sstep_says u m n a r m1 f v : find_spec (to_lower n) (spec_table ext) = Some f → f a m = says v m1 → to_lower n ∉ ["zadd"; "zincr"] → ∀ m2,
  sstep ext u m (n :: a) r m2 → r = Some v ∧ m2 = m1.
Proof.
  intros F E N m2 [V|(_ & [D|D] & _)]; [|destruct N; rewrite D; apply elem_of_list_lookup; by exists 0%nat|destruct N; rewrite D; apply elem_of_list_lookup; by exists 1%nat].
  cbn [spec] in V. rewrite F, E in V. exact V.
Qed.
Lemma board_frame m m1 l x : new_tasks K x.1.2 = [] → (∀ v, arrives K v x = None) → (∀ k, k ∈ K → m1 !! k = m !! k) →
  board_at m l → board_at m1 (l ++ [x]).
Proof.
  intros N A F [B1 B2]. split.
  - intros k Hk. destruct (B1 k Hk) as (X & C & H). exists X. split; [unfold col; by rewrite F|]. intros v. by rewrite place_snoc, A.
  - intros v k. rewrite place_snoc, A, tasks_app, tasks_one, N, app_nil_r. apply B2.
Qed.
Lemma col_add m k X Y vs u n r m1 : col m k X → vs ≠ [] → to_lower n = "sadd" → Y = X ∪ list_to_set vs → sstep ext u m (n :: k :: vs) r m1 →
  col m1 k Y ∧ ∀ k', k' ≠ k → m1 !! k' = m !! k'.
Proof.
  intros C Nv En -> S. destruct vs as [|v vs]; [done|].
  assert (∃ i dr, s_sadd (k :: v :: vs) m = says (RInt i) (<[k := ASet (X ∪ list_to_set (v :: vs)) dr]> m)) as (i & dr & E).
  { unfold s_sadd, add_members. destruct C as [[-> ->]|[dr ->]]; eexists; eexists; reflexivity. }
  destruct (sstep_says _ _ _ _ _ _ _ _ ltac:(rewrite En; reflexivity) E ltac:(rewrite En; apply names_calm) _ S) as [-> ->].
  split; [right; exists dr; by rewrite lookup_insert|]. intros k' Hk. by rewrite lookup_insert_ne.
Qed.
Lemma spared req k : forallb (λ k, negb (column K k)) (touched req) = true → k ∈ K → k ∉ touched req.
Proof.
  intros Q Hk Hin. rewrite forallb_forall in Q. specialize (Q k (proj1 (elem_of_list_In _ _) Hin)). unfold column in Q. by rewrite bool_decide_eq_true_2 in Q.
Qed.
Lemma board_step u m l c req r m1 : task_request K req = true → NoDup (tasks K (l ++ [(c, req, r)])) → board_at m l → sstep ext u m req r m1 →
  board_at m1 (l ++ [(c, req, r)]) ∧ ∀ s t v, moves K req = Some (s, t, v) → r = Some (move_answer K s v l).
Proof.
  intros Q Nd I St. rewrite tasks_app, tasks_one in Nd. cbn [fst snd] in Nd. pose proof I as [B1 B2].
  destruct (adds K req) as [[k vs]|] eqn:Ea.
  - (* SADD *)
    destruct (moves K req) as [p|] eqn:Em; [by rewrite (moves_adds _ _ Em) in Ea|]. split; [|done].
    pose proof Ea as (n & -> & En & Hk)%adds_spec. unfold new_tasks in Nd. rewrite Ea in Nd. apply NoDup_app in Nd as (_ & Nd & _).
    destruct (B1 k Hk) as (X & C & HX).
    assert (vs ≠ []) as Nv.
    { intros ->. unfold task_request in Q. rewrite Ea, Em, bool_decide_eq_true_2 in Q by done. cbn [negb orb] in Q.
      apply (spared _ k Q Hk). unfold touched, writes. rewrite En. by left. }
    destruct (col_add m k X _ vs u n r m1 C Nv En eq_refl St) as [C1 F].
    assert (∀ v, arrives K v (c, n :: k :: vs, r) = if bool_decide (v ∈ vs) then Some k else None) as Ar.
    { intros v. unfold arrives. cbn [fst snd]. by rewrite Ea. }
    split.
    + intros k' Hk'. destruct (decide (k' = k)) as [->|Nk].
      * eexists. split; [exact C1|]. intros v. rewrite place_snoc, Ar, elem_of_union, elem_of_list_to_set. case_bool_decide; [tauto|]. rewrite HX. tauto.
      * destruct (B1 k' Hk') as (X' & C' & HX'). exists X'. split; [unfold col; by rewrite F|]. intros v. rewrite place_snoc, Ar, HX'. case_bool_decide as Hv; [|done].
        split; [|congruence]. intros Hp. destruct (B2 _ _ Hp) as [_ Hin]. by destruct (Nd v Hin).
    + intros v k'. rewrite place_snoc, Ar, tasks_app, tasks_one, elem_of_app. unfold new_tasks. cbn [fst snd]. rewrite Ea. case_bool_decide as Hv.
      * intros [= <-]. tauto.
      * intros Hp. destruct (B2 _ _ Hp). tauto.
  - destruct (moves K req) as [[[s t] v]|] eqn:Em.
    + (* SMOVE *)
      assert (new_tasks K req = []) as Nn by (unfold new_tasks; by rewrite Ea).
      assert (∀ w, arrives K w (c, req, r) = if bool_decide (v = w) && moved r then Some t else None) as Ar.
      { intros w. unfold arrives. cbn [fst snd]. by rewrite Ea, Em. }
      pose proof Em as (n & a & -> & En & Hs & Ht & Nst)%moves_spec.
      destruct (B1 s Hs) as (X & C & HX). destruct (B1 t Ht) as (Y & D & HY).
      destruct (decide (v ∈ X)) as [Hv|Hv].
      * pose proof (proj1 (HX v) Hv) as Pv. destruct C as [[_ ->]|[dr C]]; [by apply not_elem_of_empty in Hv|].
        assert (v ∉ Y) as NY. { rewrite HY, Pv. intros [= E]. done. }
        assert (∃ dr', s_smove (s :: t :: v :: a) m = says (RInt 1) (<[t := ASet (Y ∪ {[v]}) dr']> (<[s := ASet (X ∖ {[v]}) (S dr)]> m))) as (dr' & E).
        { unfold s_smove. rewrite C, bool_decide_eq_true_2 by done. unfold add_members. rewrite lookup_insert_ne by done.
          assert ((list_to_set [v] : gset string) = {[v]}) as Ev by set_solver.
          destruct D as [[-> ->]|[dr' ->]]; eexists; rewrite Ev; (replace (size _) with 1%nat; [reflexivity|]); rewrite difference_disjoint_L by set_solver; by rewrite size_singleton. }
        destruct (sstep_says _ _ _ _ _ _ _ _ ltac:(rewrite En; reflexivity) E ltac:(rewrite En; apply names_calm) _ St) as [-> ->].
        split.
        2: { intros s' t' v' [= <- <- <-]. unfold move_answer. by rewrite bool_decide_eq_true_2. }
        cbn [moved] in Ar. split.
        -- intros k Hk. destruct (decide (k = t)) as [->|Nt].
           { exists (Y ∪ {[v]}). split; [right; exists dr'; by rewrite lookup_insert|]. intros w. rewrite place_snoc, Ar, andb_true_r, elem_of_union, elem_of_singleton.
             case_bool_decide as Ew; [subst; tauto|]. rewrite HY. split; [intros [?|?]; [done|congruence]|tauto]. }
           destruct (decide (k = s)) as [->|Ns].
           { exists (X ∖ {[v]}). split; [right; exists (S dr); rewrite lookup_insert_ne by done; by rewrite lookup_insert|]. intros w.
             rewrite place_snoc, Ar, andb_true_r, elem_of_difference, elem_of_singleton, HX. case_bool_decide as Ew; [subst; split; [tauto|congruence]|]. split; [tauto|]. intros ?; split; [done|congruence]. }
           destruct (B1 k Hk) as (Z & CZ & HZ). exists Z. split; [unfold col; by rewrite !lookup_insert_ne|]. intros w. rewrite place_snoc, Ar, andb_true_r, HZ.
           case_bool_decide as Ew; [|done]. subst. rewrite Pv. split; congruence.
        -- intros w k. rewrite place_snoc, Ar, andb_true_r, tasks_app, tasks_one. cbn [fst snd]. rewrite Nn, app_nil_r. case_bool_decide as Ew; [|apply B2].
           intros [= <-]. subst. split; [done|]. by apply (B2 w s).
      * assert (s_smove (s :: t :: v :: a) m = fails ErrNil m) as E.
        { unfold s_smove. destruct C as [[-> _]|[dr ->]]; [done|]. by rewrite bool_decide_eq_false_2. }
        destruct (sstep_says _ _ _ _ _ _ _ _ ltac:(rewrite En; reflexivity) E ltac:(rewrite En; apply names_calm) _ St) as [-> ->].
        split.
        2: { intros s' t' v' [= <- <- <-]. unfold move_answer. rewrite bool_decide_eq_false_2; [done|]. by rewrite <- HX. }
        apply (board_frame m); [done| |done|done]. intros w. rewrite Ar. cbn [moved]. by rewrite andb_false_r.
    + split; [|done]. unfold task_request in Q. rewrite Ea, Em in Q. cbn [orb] in Q.
      apply (board_frame m); [by unfold new_tasks; cbn [fst snd]; rewrite Ea|intros w; unfold arrives; cbn [fst snd]; by rewrite Ea, Em| |done].
      intros k Hk. eapply sstep_other; [exact St|]. by eapply spared.
Qed.

Lemma board_talk l : ∀ pre d m d', sim d m → board_at m pre → Forall (λ req, task_request K req = true) (asked_in l) → NoDup (tasks K (pre ++ l)) →
  talk ext l.*1 d = Ret (d', l.*2) → ∃ m', sim d' m' ∧ board_at m' (pre ++ l) ∧
    ∀ i x s t v, l !! i = Some x → moves K x.1.2 = Some (s, t, v) → x.2 = Some (move_answer K s v (pre ++ take i l)).
Proof.
  induction l as [|[[c req] r] l IH]; intros pre d m d' S I F Nd H.
  { cbn in H. injection H as <-. exists m. rewrite app_nil_r. by split_and!. }
  unfold asked_in in F. rewrite !fmap_cons in F. apply Forall_cons in F as [Q F]. cbn [fst snd] in Q.
  rewrite !fmap_cons in H. cbn [fst snd] in H.
  change ((c, req, r) :: l) with ([(c, req, r)] ++ l) in Nd. rewrite app_assoc in Nd.
  assert (talk ext ([(c, req, r)] ++ l).*1 d = Ret (d', ([(c, req, r)] ++ l).*2)) as H' by exact H.
  apply talk_prefix in H' as (d1 & H1 & H2). destruct (talk_behaves_any ext _ d m d1 _ S H1) as (m1 & B & S1).
  cbn in B. inversion B as [|? ? ? m2 ? ? ? V B1]; subst. inversion B1; subst.
  assert (NoDup (tasks K (pre ++ [(c, req, r)]))) as Nd1.
  { rewrite tasks_app in Nd. by apply NoDup_app in Nd as [? _]. }
  destruct (board_step true m pre c req r m1 Q Nd1 I V) as [I1 A].
  destruct (IH _ d1 m1 d' S1 I1 F Nd H2) as (m' & S' & I' & A'). exists m'. split; [done|]. rewrite <- app_assoc in I'. split; [exact I'|].
  intros [|i] x s t v Hi Hm.
  - injection Hi as <-. cbn [fst snd] in *. rewrite app_nil_r. by apply (A s t v).
  - rewrite (A' i x s t v Hi Hm). rewrite <- app_assoc. done.
Qed.
Lemma board_new d0 : reachable ext d0 → (∀ k, k ∈ K → answers ext d0 ["EXISTS"; k] (RInt 0)) → sim d0 (coarse d0) ∧ board_at (coarse d0) [].
Proof.
  intros Hr Ha. apply reachable_inv in Hr as Hi. split; [by apply coarse_sim|]. split; [|done].
  intros k Hk. exists ∅. split; [left; split; [by eapply absent_coarse; [|apply Ha]|done]|]. intros v. split; [by intros ?%not_elem_of_empty|done].
Qed.
(** what the server says about task [v]: it is in the column [o], and in no other *)
Definition shown_at (d : db) (v : string) (o : option string) : Prop :=
  ∀ k, k ∈ K → answers ext d ["SISMEMBER"; k; v] (RInt (if bool_decide (o = Some k) then 1 else 0)).
(** what SMEMBERS says: each task of the column once, in any order; of an empty column also the error *)
Definition listed (d : db) (k : string) (P : string → Prop) : Prop :=
  ∀ c, ∃ r, ask ext c ["SMEMBERS"; k] d = Ret (d, Some r) ∧
    ((∃ L, r = bulks L ∧ NoDup L ∧ ∀ v, v ∈ L ↔ P v) ∨ (r = RError (err_msg ErrNil) ∧ ∀ v, ¬ P v)).
Lemma board_shown d m l : sim d m → board_at m l → (∀ v, shown_at d v (place K v l)) ∧ (∀ k, k ∈ K → listed d k (λ v, place K v l = Some k)).
Proof.
  intros S [B _]. split.
  - intros v k Hk. destruct (B k Hk) as (X & C & HX).
    eapply (question ext d m "SISMEMBER"); [exact S|split; by vm_compute|by vm_compute|]. spc.
    unfold s_sismember. destruct C as [[-> ->]|[dr ->]].
    + rewrite bool_decide_eq_false_2; [done|]. rewrite <- HX. apply not_elem_of_empty.
    + do 2 f_equal. by rewrite (bool_decide_ext _ _ (HX v)).
  - intros k Hk c. destruct (B k Hk) as (X & C & HX).
    assert (∃ f, spec ext ["SMEMBERS"; k] m = f ∧ (f = fails ErrNil m ∧ X = ∅ ∨ f = lists_all (λ x, x ∈ X) m)) as (f & E & Hf).
    { exists (s_smembers [k] m). split; [spc; reflexivity|]. unfold s_smembers. destruct C as [[-> ->]|[dr ->]]; [by left|].
      destruct (Z.eqb_spec (counted X dr) 0) as [E|]; [|by right]. apply counted_0 in E as [-> _]. by left. }
    destruct Hf as [[-> ->]| ->].
    + exists (RError (err_msg ErrNil)). split; [|right; split; [done|]; intros v Hv; apply HX in Hv; by apply not_elem_of_empty in Hv].
      eapply ask_query; [exact S|by apply calm_other|done|done|exact E].
    + destruct (ask_query_all ext c ["SMEMBERS"; k] d m _ S ltac:(by apply calm_other) ltac:(done) ltac:(done) E) as (L & A & N & HL).
      exists (bulks L). split; [done|]. left. exists L. split_and!; [done..|]. intros v. by rewrite HL.
Qed.
(** Each task is in the column where it arrived last, and nowhere else. *)
Theorem C87_places d0 l d : reachable ext d0 → (∀ k, k ∈ K → answers ext d0 ["EXISTS"; k] (RInt 0)) →
  Forall (λ req, task_request K req = true) (asked_in l) → NoDup (tasks K l) → talk ext l.*1 d0 = Ret (d, l.*2) →
  (∀ v, shown_at d v (place K v l)) ∧ (∀ k, k ∈ K → listed d k (λ v, place K v l = Some k)) ∧
  (∀ v, (∃ k, k ∈ K ∧ place K v l = Some k) ↔ v ∈ tasks K l).
Proof.
  intros Hr Ha F Nd H. destruct (board_new d0 Hr Ha) as [S I]. destruct (board_talk l [] d0 _ d S I F Nd H) as (m & S' & I' & _). cbn [app] in I'.
  destruct (board_shown d m l S' I') as [A B]. split; [done|]. split; [done|]. intros v. split.
  - intros (k & _ & Hp). by apply (proj2 I' v k).
  - intros Hv. destruct (place K v l) as [k|] eqn:E; [exists k; split; [by apply (proj2 I' v k)|done]|].
    unfold place in E. apply last_None in E. unfold tasks in Hv. apply elem_of_list_In, in_concat in Hv as (ts & Hts & Hv).
    apply elem_of_list_In, elem_of_list_fmap in Hts as (x & -> & Hx). unfold new_tasks in Hv. destruct (adds K x.1.2) as [[k vs]|] eqn:Ea; [|done].
    assert (k ∈ omap (arrives K v) l) as Hk; [|rewrite E in Hk; by apply elem_of_nil in Hk].
    apply elem_of_list_omap. exists x. split; [done|]. unfold arrives. rewrite Ea. by rewrite bool_decide_eq_true_2 by (by apply elem_of_list_In).
Qed.
(** A move succeeds exactly if the task is in its source column at that moment, and is an error otherwise. *)
Theorem C87_move d0 l d i x s t v : reachable ext d0 → (∀ k, k ∈ K → answers ext d0 ["EXISTS"; k] (RInt 0)) →
  Forall (λ req, task_request K req = true) (asked_in l) → NoDup (tasks K l) → talk ext l.*1 d0 = Ret (d, l.*2) →
  l !! i = Some x → moves K x.1.2 = Some (s, t, v) → x.2 = Some (move_answer K s v (take i l)).
Proof.
  intros Hr Ha F Nd H Hi Hm. destruct (board_new d0 Hr Ha) as [S I]. destruct (board_talk l [] d0 _ d S I F Nd H) as (m & _ & _ & A).
  by apply (A i x s t v).
Qed.
(** Between two successful moves of one task out of one column it came back. *)
Theorem C87_once d0 l d i j x y s t t' v : reachable ext d0 → (∀ k, k ∈ K → answers ext d0 ["EXISTS"; k] (RInt 0)) →
  Forall (λ req, task_request K req = true) (asked_in l) → NoDup (tasks K l) → talk ext l.*1 d0 = Ret (d, l.*2) →
  (i < j)%nat → l !! i = Some x → l !! j = Some y → moves K x.1.2 = Some (s, t, v) → moves K y.1.2 = Some (s, t', v) →
  moved x.2 = true → moved y.2 = true →
  ∃ k z u, (i < k < j)%nat ∧ l !! k = Some z ∧ moves K z.1.2 = Some (u, s, v) ∧ moved z.2 = true.
Proof.
  intros Hr Ha F Nd H Hij Hi Hj Mx My Sx Sy.
  pose proof (C87_move d0 l d j y s t' v Hr Ha F Nd H Hj My) as Ay. pose proof (C87_move d0 l d i x s t v Hr Ha F Nd H Hi Mx) as Ax.
  assert (∀ p, move_answer K s v p = RInt 1 ∨ move_answer K s v p = RError (err_msg ErrNil)) as Alt by (intros p; unfold move_answer; case_bool_decide; auto).
  assert (∀ p r, r = Some (move_answer K s v p) → moved r = true → place K v p = Some s) as Won.
  { intros p r -> Hm. unfold move_answer in Hm. case_bool_decide; done. }
  pose proof (Won _ _ Ay Sy) as Py. pose proof (Won _ _ Ax Sx) as Px.
  assert (take j l = take i l ++ [x] ++ take (j - S i) (drop (S i) l)) as Ej.
  { rewrite <- (take_drop_middle l i x Hi) at 1. rewrite take_app_ge by (rewrite take_length; lia).
    rewrite take_length, Nat.min_l by (by eapply Nat.lt_le_incl, lookup_lt_Some). replace (j - i)%nat with (S (j - S i))%nat by lia. done. }
  pose proof Mx as (n & a & Ex & En & _ & _ & Nst)%moves_spec.
  unfold place in Py. rewrite Ej, !omap_app in Py.
  assert (omap (arrives K v) [x] = [t]) as Eo.
  { cbn [omap list_omap]. unfold arrives. rewrite (moves_adds _ _ Mx), Mx, Sx. by rewrite bool_decide_eq_true_2. }
  rewrite Eo in Py. set (mid := take (j - S i) (drop (S i) l)) in *.
  destruct (last (omap (arrives K v) mid)) as [k'|] eqn:El.
  2: { apply last_None in El. rewrite El in Py. cbn [app] in Py. rewrite last_snoc in Py. congruence. }
  assert (k' = s) as ->. { rewrite app_assoc, last_app, El in Py. congruence. }
  apply last_Some in El as (pre & El). assert (s ∈ omap (arrives K v) mid) as Hs by (rewrite El; apply elem_of_app; right; by left).
  apply elem_of_list_omap in Hs as (z & Hz & Az). apply elem_of_list_lookup in Hz as [q Hq].
  assert (q < j - S i)%nat as Hq1. { apply lookup_lt_Some in Hq. unfold mid in Hq. rewrite take_length in Hq. lia. }
  unfold mid in Hq. rewrite lookup_take, lookup_drop in Hq by done.
  exists (S i + q)%nat, z. unfold arrives in Az. destruct (adds K z.1.2) as [[k0 vs]|] eqn:Ea.
  - (* the task would be added a second time *)
    case_bool_decide as Hv; [|done]. exfalso.
    assert (v ∈ tasks K (take i l)) as V1.
    { destruct (board_new d0 Hr Ha) as [S I]. rewrite <- (take_drop i l) in H, F, Nd. apply talk_prefix in H as (d1 & H1 & _).
      unfold asked_in in F. rewrite !fmap_app in F. apply Forall_app in F as [F _]. rewrite tasks_app in Nd. apply NoDup_app in Nd as [Nd _].
      destruct (board_talk (take i l) [] d0 _ d1 S I F Nd H1) as (m & _ & I' & _). by apply (proj2 I' v s). }
    rewrite <- (take_drop i l), tasks_app in Nd. apply NoDup_app in Nd as (_ & Nd & _). apply (Nd v V1).
    unfold tasks. apply elem_of_list_In, in_concat. exists (new_tasks K z.1.2). split.
    + apply elem_of_list_In, elem_of_list_fmap. exists z. split; [done|]. apply elem_of_list_lookup. exists (S q). rewrite lookup_drop. by replace (i + S q)%nat with (S i + q)%nat by lia.
    + apply elem_of_list_In. unfold new_tasks. by rewrite Ea.
  - destruct (moves K z.1.2) as [[[u t2] w]|] eqn:Em; [|done]. destruct (bool_decide (w = v) && moved z.2) eqn:Ew; [|done].
    apply andb_true_iff in Ew as [Ew%bool_decide_eq_true Em2]. injection Az as ->. subst w. exists u. split; [lia|]. by split_and!.
Qed.

(** Clients of a running server. *)
Lemma names_tasks h rs : length rs = length h → tasks K (spoken h rs) = task_names K h.
Proof.
  intros L. pose proof (spoken_asked h rs L) as E. unfold tasks, task_names. f_equal. revert E. generalize (spoken h rs). clear. intros l.
  revert h. induction l as [|x l IH]; intros [|y h] E; try done. cbn in E. injection E as E1 E2. rewrite !fmap_cons, E1. f_equal. by apply IH.
Qed.
(** every task is in exactly one column *)
Definition in_one_column (d : db) (names : list string) : Prop :=
  ∀ v, ∃ o, shown_at d v o ∧ (v ∈ names ↔ ∃ k, k ∈ K ∧ o = Some k).
Definition claims_served (h : list call) (got : call → string → Prop) (d : db) : Prop :=
  in_one_column d (task_names K h) ∧
  (** whoever asks to move a task is told that he did, or that the task is not there *)
  (∀ x s t v b r, x ∈ h → moves K (what x) = Some (s, t, v) → got x b → is_reply b r → b = deadline_bytes ∨ r = RInt 1 ∨ r = RError (err_msg ErrNil)) ∧
  (** two clients are told that they moved the same task out of the same column: only if it was moved back *)
  (∀ x y s t t' v b b', x ∈ h → y ∈ h → who x ≠ who y → moves K (what x) = Some (s, t, v) → moves K (what y) = Some (s, t', v) →
    got x b → got y b' → is_reply b (RInt 1) → is_reply b' (RInt 1) → ∃ z u, z ∈ h ∧ moves K (what z) = Some (u, s, v)).
Lemma not_deadline b n : is_reply b (RInt n) → b ≠ deadline_bytes.
Proof. intros H ->. specialize (H ""). by vm_compute in H. Qed.
Lemma service_tasks h got d : service ext h got d → Forall (λ y, task_request K (what y) = true) h → NoDup (task_names K h) → claims_served h got d.
Proof.
  intros (rs & T & L & N & Hc) Q Nd. apply spoken_talk in T as T1.
  assert (Forall (λ req, task_request K req = true) (asked_in (spoken h rs))) as F by (rewrite spoken_asked by done; by apply Forall_fmap).
  rewrite <- (names_tasks h rs L) in Nd.
  assert (reachable ext db_new) as Hr by (by exists [], []).
  assert (∀ k, k ∈ K → answers ext db_new ["EXISTS"; k] (RInt 0)) as Ha by (intros k _; apply db_new_absent).
  destruct (C87_places db_new _ d Hr Ha F Nd T1) as (P1 & _ & P2).
  split; [intros v; exists (place K v (spoken h rs)); rewrite <- (names_tasks h rs L); split; [apply P1|symmetry; apply P2]|].
  assert (∀ x s t v b r, x ∈ h → moves K (what x) = Some (s, t, v) → got x b → is_reply b r → b = deadline_bytes ∨
    ∃ i, h !! i = Some x ∧ spoken h rs !! i = Some (how x, what x, Some r) ∧ r = move_answer K s v (take i (spoken h rs))) as A.
  { intros x s t v b r Hx Hm Gx Hb. destruct (Hc x b r Hx Gx Hb) as [->|(i & Hi & Si)]; [by left|right]. exists i. split; [done|]. split; [done|].
    pose proof (C87_move db_new _ d i _ s t v Hr Ha F Nd T1 Si Hm) as E. cbn [snd] in E. by injection E. }
  split.
  - intros x s t v b r Hx Hm Gx Hb. destruct (A x s t v b r Hx Hm Gx Hb) as [->|(i & _ & _ & ->)]; [by left|]. right. unfold move_answer. case_bool_decide; auto.
  - intros x y s t t' v b b' Hx Hy Nw Mx My Gx Gy Bx By.
    destruct (A x s t v b _ Hx Mx Gx Bx) as [->|(i & Hi & Si & _)]; [by destruct (not_deadline _ _ Bx)|].
    destruct (A y s t' v b' _ Hy My Gy By) as [->|(j & Hj & Sj & _)]; [by destruct (not_deadline _ _ By)|].
    assert (i ≠ j) as Nij by (intros <-; rewrite Hi in Hj; by injection Hj as ->).
    assert (∃ k z u, spoken h rs !! k = Some z ∧ moves K z.1.2 = Some (u, s, v)) as (k & z & u & Hk & Mz).
    { destruct (Nat.lt_total i j) as [Hl|[?|Hl]]; [|done|].
      - destruct (C87_once db_new _ d i j _ _ s t t' v Hr Ha F Nd T1 Hl Si Sj Mx My eq_refl eq_refl) as (k & z & u & _ & Hk & Mz & _). eauto.
      - destruct (C87_once db_new _ d j i _ _ s t' t v Hr Ha F Nd T1 Hl Sj Si My Mx eq_refl eq_refl) as (k & z & u & _ & Hk & Mz & _). eauto. }
    assert (z.1.2 ∈ asked_in (spoken h rs)) as Hz by (unfold asked_in; apply elem_of_list_fmap_1, elem_of_list_fmap_1; by eapply elem_of_list_lookup_2).
    rewrite spoken_asked in Hz by done. apply elem_of_list_fmap in Hz as (z' & Ez & Hz). exists z', u. split; [done|]. by rewrite <- Ez.
Qed.
Theorem C87_clients max ps tr s : runs ext max ps tr s → Forall (λ y, task_request K (what y) = true) (calls tr) → NoDup (task_names K (calls tr)) →
  claims_served (calls tr) (λ x b, ∃ c, LWrite (who x) c b ∈ tr) (c_db s).
Proof. intros R Q Nd. apply service_tasks; [|done|done]. exact (service2 _ _ _ _ _ R). Qed.
Theorem C87_clients1 max tr s : runs1 ext max tr s → Forall (λ y, task_request K (what y) = true) (calls1 tr) → NoDup (task_names K (calls1 tr)) →
  claims_served (calls1 tr) (λ x b, ∃ k n, written k tr !! n = Some (who x, b)) (c_db (v_pool s)).
Proof. intros R Q Nd. apply service_tasks; [|done|done]. exact (service1 _ _ _ _ R). Qed.
End use.

(** ** examples *)
Definition flow : list (list string) :=
  [["SADD"; "todo"; "a"; "b"]; ["SMOVE"; "todo"; "doing"; "a"]; ["SMOVE"; "todo"; "doing"; "a"]; ["SET"; "x"; "1"]; ["SMOVE"; "doing"; "done"; "a"]; ["SMOVE"; "done"; "todo"; "a"];
   ["smove"; "todo"; "doing"; "a"]; ["SMOVE"; "todo"; "doing"; "c"]; ["SADD"; "todo"; "c"]; ["SISMEMBER"; "doing"; "a"]; ["SMEMBERS"; "done"]].
Notation columns := ["todo"; "doing"; "done"].
Example C87_demo : forallb (task_request columns) flow = true ∧ talk ext0 (dialogue flow).*1 db_new = Ret (after flow, (dialogue flow).*2) ∧
  tasks columns (dialogue flow) = ["a"; "b"; "c"] ∧ NoDup (tasks columns (dialogue flow)) ∧
  (λ v, place columns v (dialogue flow)) <$> ["a"; "b"; "c"; "d"] = [Some "doing"; Some "todo"; Some "todo"; None] ∧
  (dialogue flow).*2 = Some <$> [RInt 2; RInt 1; RError (err_msg ErrNil); RStatus "OK"; RInt 1; RInt 1; RInt 1; RError (err_msg ErrNil); RInt 1; RInt 1; bulks []].
Proof.
  split; [by vm_compute|]. split; [apply dialogue_talk; by exists (default [] (replies flow)); vm_compute|].
  assert (tasks columns (dialogue flow) = ["a"; "b"; "c"]) as E by (by vm_compute).
  split; [exact E|]. split; [rewrite E; apply (bool_decide_eq_true_1 _); by vm_compute|]. split; by vm_compute.
Qed.
(** With a column that is a string, a moved task is lost and its client told an error (see C28). *)
Theorem C87_wrong_type_refuted : replies [["SADD"; "todo"; "a"]; ["SET"; "doing"; "x"]; ["SMOVE"; "todo"; "doing"; "a"]; ["SISMEMBER"; "todo"; "a"]] =
  Some [Some (RInt 1); Some (RStatus "OK"); Some (RError (err_msg ErrTypeMismatch)); Some (RInt 0)].
Proof. by vm_compute. Qed.
(** A task added twice is claimed by one client and then, without its coming back, by another, if the first has moved it on. *)
Theorem C87_twice_refuted : replies [["SADD"; "todo"; "a"]; ["SMOVE"; "todo"; "doing"; "a"]; ["SADD"; "todo"; "a"]; ["SMOVE"; "doing"; "done"; "a"]; ["SMOVE"; "todo"; "doing"; "a"]] =
  Some [Some (RInt 1); Some (RInt 1); Some (RInt 1); Some (RInt 1); Some (RInt 1)].
Proof. by vm_compute. Qed.
Definition claiming : list action :=
  whole 1 7 (frame ["SADD"; "todo"; "a"; "b"]) ++ whole 2 8 (frame ["SMOVE"; "todo"; "doing"; "a"]) ++ whole 3 7 (frame ["SMOVE"; "todo"; "doing"; "a"]) ++
  whole 4 8 (frame ["SMOVE"; "todo"; "doing"; "b"]).
Example C87_clients_demo : runs ext0 1000 8 (trace claiming) (final claiming) ∧
  got claiming = [(1%nat, crlf [":2"]); (2%nat, crlf [":1"]); (3%nat, crlf ["-" +:+ err_msg ErrNil]); (4%nat, crlf [":1"])] ∧
  forallb (λ x, task_request columns (what x)) (calls (trace claiming)) = true ∧ task_names columns (calls (trace claiming)) = ["a"; "b"].
Proof. split; [apply trace_runs; by vm_compute|]. split; [by vm_compute|]. split; by vm_compute. Qed.
