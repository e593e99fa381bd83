(** C13: a command changes nothing but the keys it names as written. *)
From Verif Require Import GoBase GoBaseProofs ShardMap ShardMapProofs Float64 SkipList Db Protocol Redis Obs SpecCmd SpecResp SpecServer SpecKey
  DbInv ExecSteps PropBase Examples P_Keys P_Requests.

Definition reply_to (ext : Ext) (c : choices) (req : list string) (d : db) : outcome (option resp) :=
  let* (_, r) := ask ext c req d in Ret r.
(** every question about key [k] (SpecKey.v [questions]) gets the same answer in both states *)
Definition same_view (ext : Ext) (k : string) (d d' : db) : Prop :=
  ∀ name a c, to_lower name ∈ questions → reply_to ext c (name :: k :: a) d = reply_to ext c (name :: k :: a) d'.

Lemma load_set_held k ck d : dbinv d → (let* r := load_set k ck d in Ret (match r with Ok (_, s) => Ok s | Err e => Err e end)) =
  Ret (match held d k with
       | None => Err ErrNil
       | Some (CSet s) => if ck && (ms_len s =? 0) then Err ErrNil else Ok s
       | _ => Err ErrTypeMismatch
       end).
Proof.
  intros I. unfold load_set, held. destruct (sm_get (db_keys d) k) as [[]|] eqn:E; try done.
  destruct (inv_ptr d I k p E) as [s ->]. cbn [deref obind fmap option_fmap option_map]. by destruct (ck && _).
Qed.
Lemma sm_has_get {A} (m : smap A) k : sm_has m k = bool_decide (is_Some (sm_get m k)).
Proof. done. Qed.
Lemma held_same ext k k' d d' name a c : dbinv d → dbinv d' → held d' k' = held d k → to_lower name ∈ questions →
  reply_to ext c (name :: k :: a) d = reply_to ext c (name :: k' :: a) d'.
Proof.
  intros I I' H Hq. unfold questions in Hq.
  assert ((sm_get (db_keys d') k' = sm_get (db_keys d) k ∧ ∀ p, sm_get (db_keys d) k ≠ Some (VSet p)) ∨
    ∃ p p' s, sm_get (db_keys d) k = Some (VSet p) ∧ sm_get (db_keys d') k' = Some (VSet p') ∧
      db_sets d !! p = Some s ∧ db_sets d' !! p' = Some s) as Hh.
  { unfold held in H. destruct (sm_get (db_keys d) k) as [[|? |p| |]|] eqn:E, (sm_get (db_keys d') k') as [[|? |p'| |]|] eqn:E'; simplify_eq/=; auto;
      try (destruct (inv_ptr d I k p E) as [u Hu]; rewrite Hu in H; simplify_eq/=);
      try (destruct (inv_ptr d' I' k' p' E') as [u' Hu']; rewrite Hu' in H; simplify_eq/=).
    right. by exists p, p', u. }
  unfold reply_to. rewrite !elem_of_cons, elem_of_nil in Hq. destruct_or? Hq;
    rewrite !(ask_named ext c name _ _ _ _ Hq eq_refl); clear Hq;
    do 3 (try (destruct a as [|? a])); commands; try done;
    unfold Exists_, Type_, Get, LLen, LRange, SCard, SIsMember, SMembers, ZScore, ZRank, ZCard, ZCount, ZRange, ZRevRange,
      load_list, load_set, load_zset; rewrite ?sm_has_get.
  all: destruct Hh as [[Hg Hn]|(p & p' & s' & Hg & Hg' & Hs & Hs')]; [rewrite ?Hg; destruct (sm_get (db_keys d) k) as [[]|]; try (by exfalso; eapply Hn)|rewrite ?Hg, ?Hg'; cbn [deref obind]; rewrite ?Hs, ?Hs']; try done.
  all: unfold range_reply, reply, fail.
  all: repeat (match goal with
    | |- context [match ?x with _ => _ end] => lazymatch x with context [match _ with _ => _ end] => fail | context [obind] => fail | _ => destruct x end
    | |- context [obind ?x _] => lazymatch x with context [match _ with _ => _ end] => fail | context [obind] => fail | _ => destruct x end
    end; cbn [obind]; try done).
Qed.
Lemma held_view ext k d d' : dbinv d → dbinv d' → held d' k = held d k → same_view ext k d d'.
Proof. intros I I' H name a c Hq. by apply held_same. Qed.
(** commands that are not questions have no influence on the views of other keys *)
Lemma ask_view ext c req d d' r k : dbinv d → unaliased d → ask ext c req d = Ret (d', r) → one_source_store req = false → k ∉ writes req →
  same_view ext k d d'.
Proof.
  intros I U H Ho Hk. pose proof (ask_steps ext c req d d' r I H) as St. rewrite Ho in St.
  apply held_view; [done|by eapply dsteps_inv|by eapply dsteps_held].
Qed.
Lemma ask_unaliased ext c req d d' r : dbinv d → unaliased d → ask ext c req d = Ret (d', r) → one_source_store req = false → unaliased d'.
Proof. intros I U H Ho. pose proof (ask_steps ext c req d d' r I H) as St. rewrite Ho in St. by eapply dsteps_unaliased. Qed.
Lemma talk_unaliased ext h : ∀ d d' rs, dbinv d → unaliased d → talk ext h d = Ret (d', rs) → Forall (λ x, one_source_store x.2 = false) h → unaliased d'.
Proof.
  induction h as [|[c req] h IH]; intros d d' rs I U H F; [by injection H as <- _|]. cbn [talk] in H.
  apply obind_ret in H as ([d1 r] & E1 & H). apply obind_ret in H as ([d2 rs2] & E2 & H). injection H as <- _.
  apply Forall_cons in F as [F1 F]. eapply IH; [| |done|done]; [by eapply ask_inv|by eapply ask_unaliased].
Qed.
Lemma same_view_trans ext k d1 d2 d3 : same_view ext k d1 d2 → same_view ext k d2 d3 → same_view ext k d1 d3.
Proof. intros H1 H2 name a c Hq. by rewrite H1, H2. Qed.

(** [h1] leads to a state; [h2] does not write [k]; every question about [k] is answered as before.  STORE commands
    with a single source are excluded, see [C13_alias_refuted]. *)
Theorem C13_frame ext h1 h2 d d' rs1 rs2 k : talk ext h1 db_new = Ret (d, rs1) → talk ext h2 d = Ret (d', rs2) →
  Forall (λ x, one_source_store x.2 = false) (h1 ++ h2) → Forall (λ x, k ∉ writes x.2) h2 → same_view ext k d d'.
Proof.
  intros H1 H2 F Fk. apply Forall_app in F as [F1 F2].
  assert (dbinv d) as I by (eapply talk_inv; [apply dbinv_new|done]).
  assert (unaliased d) as U by (eapply talk_unaliased; [apply dbinv_new|apply unaliased_new|done|done]).
  clear H1 F1. revert d rs2 I U H2. induction h2 as [|[c req] h IH]; intros d rs2 I U H; [by injection H as <- _|]. cbn [talk] in H.
  apply obind_ret in H as ([d1 r] & E1 & H). apply obind_ret in H as ([d2 rs3] & E2 & H). injection H as <- _.
  apply Forall_cons in F2 as [F1 F2]. apply Forall_cons in Fk as [Fk1 Fk].
  eapply same_view_trans; [by eapply ask_view|]. eapply IH; [done|done| | |done]; [by eapply ask_inv|by eapply ask_unaliased].
Qed.
(** In general: [k] is safe from [h2] if no key that [h2] writes is linked to it by such commands, anywhere in the history. *)
Lemma linked_sym h k1 k2 : linked h k1 k2 → linked h k2 k1.
Proof.
  induction 1 as [|x y z Hxy _ IH]; [apply rtc_refl|]. eapply rtc_r; [exact IH|]. destruct Hxy; [by right|by left].
Qed.
Lemma ask_store_one ext c req d d' r : dbinv d → one_source_store req = true → ask ext c req d = Ret (d', r) →
  ∃ name dst src, req = [name; dst; src] ∧ writes req = [dst] ∧
    (dsteps false [dst] d d' ∨ ∃ p, sm_get (db_keys d) src = Some (VSet p) ∧ d' = put dst (VSet p) d).
Proof.
  intros I Ho H. destruct req as [|name [|dst [|src [|? ?]]]]; try done. exists name, dst, src. split; [done|].
  unfold one_source_store in Ho.
  assert (∃ o, lookup_command (to_lower name) (implemented_commands ext c) = Some (c_setop_store c o) ∧ writes [name; dst; src] = [dst]) as (o & Hl & Hw).
  { unfold writes. destruct (String.eqb_spec (to_lower name) "sdiffstore") as [->|]; [by exists OpDiff|].
    destruct (String.eqb_spec (to_lower name) "sinterstore") as [->|]; [by exists OpInter|].
    destruct (String.eqb_spec (to_lower name) "sunionstore") as [->|]; [by exists OpUnion|done]. }
  split; [done|]. rewrite (ask_cmd _ _ _ _ _ _ Hl) in H. apply obind_ret in H as ([d1 r1] & H & [= <- _]). by eapply store_one.
Qed.
Lemma ask_within ext (L : string → string → Prop) c req d d' r : (∀ k, L k k) → (∀ k1 k2, L k1 k2 → L k2 k1) → (∀ k1 k2 k3, L k1 k2 → L k2 k3 → L k1 k3) →
  (∀ name dst src, req = [name; dst; src] → one_source_store req = true → L dst src) →
  dbinv d → shared_within L d → ask ext c req d = Ret (d', r) →
  shared_within L d' ∧ ∀ k, (∀ k', k' ∈ writes req → ¬ L k k') → held d' k = held d k.
Proof.
  intros Lr Ls Lt Hreq I U H. destruct (one_source_store req) eqn:Ho.
  - destruct (ask_store_one _ _ _ _ _ _ I Ho H) as (name & dst & src & -> & Hw & [St|(p & Hp & ->)]).
    + rewrite Hw. split; [by eapply gsteps_within|]. intros k Hk. by eapply gsteps_held_within.
    + split; [by eapply share_within; eauto|]. intros k Hk. rewrite Hw in Hk. assert (k ≠ dst) as Hne by (intros ->; by apply (Hk dst); [left|]).
      unfold held, put. cbn [db_keys db_sets]. rewrite sm_get_set by apply I. by rewrite bool_decide_eq_false_2.
  - pose proof (ask_steps ext c req d d' r I H) as St. rewrite Ho in St.
    split; [by eapply gsteps_within|]. intros k Hk. by eapply gsteps_held_within.
Qed.
Lemma talk_within ext (L : string → string → Prop) h : (∀ k, L k k) → (∀ k1 k2, L k1 k2 → L k2 k1) → (∀ k1 k2 k3, L k1 k2 → L k2 k3 → L k1 k3) → ∀ d d' rs,
  (∀ k1 k2, stored_from h.*2 k1 k2 → L k1 k2) →
  dbinv d → shared_within L d → talk ext h d = Ret (d', rs) →
  shared_within L d' ∧ ∀ k, (∀ req k', req ∈ h.*2 → k' ∈ writes req → ¬ L k k') → held d' k = held d k.
Proof.
  intros Lr Ls Lt. induction h as [|[c req] h IH]; intros d d' rs Hst I U H; [by injection H as <- _|]. cbn [talk] in H.
  apply obind_ret in H as ([d1 r] & E1 & H). apply obind_ret in H as ([d2 rs3] & E2 & H). injection H as <- _.
  destruct (ask_within ext L c req d d1 r Lr Ls Lt) as [U1 H1]; [|done|done|done|].
  { intros name dst src -> Ho. apply Hst. exists name. split; [by left|done]. }
  destruct (IH d1 d2 rs3) as [U2 H2]; [|by eapply ask_inv|done|done|].
  { intros k1 k2 (name & Hin & Ho). apply Hst. exists name. split; [by right|done]. }
  split; [done|]. intros k Hk. rewrite H2; [apply H1|]; intros; eapply Hk; [by left|done|by right|done].
Qed.
Lemma talk_linked ext h h' d rs : (∀ k1 k2, stored_from h.*2 k1 k2 → stored_from h' k1 k2) → talk ext h db_new = Ret (d, rs) → shared_within (linked h') d.
Proof.
  intros Hs H. eapply (talk_within ext (linked h') h); [intros; apply rtc_refl|apply linked_sym|intros k1 k2 k3; apply rtc_transitive| |apply dbinv_new| |done].
  - intros k1 k2 Hst. apply rtc_once. left. by apply Hs.
  - intros k1 k2 p. cbn [db_new db_keys]. rewrite !sm_get_map, sm_new_map, !lookup_empty by apply sm_wf_new. done.
Qed.
Theorem C13_frame_linked ext h1 h2 d d' rs1 rs2 k : talk ext h1 db_new = Ret (d, rs1) → talk ext h2 d = Ret (d', rs2) →
  (∀ req k', req ∈ h2.*2 → k' ∈ writes req → ¬ linked ((h1 ++ h2).*2) k k') → same_view ext k d d'.
Proof.
  intros H1 H2 Hk. assert (dbinv d) as I by (eapply talk_inv; [apply dbinv_new|done]).
  assert (shared_within (linked ((h1 ++ h2).*2)) d) as U.
  { eapply talk_linked; [|done]. intros k1 k2 (name & Hin & Ho). exists name. split; [|done]. rewrite fmap_app, elem_of_app. by left. }
  destruct (talk_within ext (linked ((h1 ++ h2).*2)) h2) with (d := d) (d' := d') (rs := rs2) as [_ H];
    [intros; apply rtc_refl|apply linked_sym|intros k1 k2 k3; apply rtc_transitive| |done|done|done|].
  { intros k1 k2 (name & Hin & Ho). apply rtc_once. left. exists name. split; [|done]. rewrite fmap_app, elem_of_app. by right. }
  apply held_view; [done|by eapply talk_inv|]. by apply H.
Qed.
Lemma sadd_set_stays k p t vs d d' r : sm_wf (db_keys d) → is_Some (db_sets d !! p) → sm_get (db_keys d) k = Some (VSet p) → SAdd t vs d = Ret (d', r) →
  sm_get (db_keys d') k = Some (VSet p).
Proof.
  intros I [s Hs] Hk H. unfold SAdd, load_set in H. destruct (decide (t = k)) as [->|Hne].
  - rewrite Hk in H. cbn [deref obind] in H. rewrite Hs in H. cbn in H. by destruct (ms_add_all vs s 0); injection H as <- <-.
  - crush H; try done. unfold alloc_set in *. simplify_eq. unfold put_set, put. cbn [db_keys]. rewrite sm_get_set by done. by rewrite bool_decide_eq_false_2.
Qed.
Lemma smove_set_stays k p s t v d d' r : dbinv d → sm_get (db_keys d) k = Some (VSet p) → SMove s t v d = Ret (d', r) →
  sm_get (db_keys d') k = Some (VSet p).
Proof.
  intros I Hk H. unfold SMove in H. apply obind_ret in H as ([[q u]|e] & _ & H); [|by injection H as <- <-].
  destruct (sm_delete_if_exists (ms_m u) v) as [m []]; [|by injection H as <- <-].
  eapply sadd_set_stays; [..|exact H]; unfold put_set; cbn [db_keys db_sets]; [apply I| |done].
  destruct (inv_ptr d I k p Hk) as [s1 Hs]. destruct (decide (q = p)) as [->|]; [rewrite lookup_insert; eauto|rewrite lookup_insert_ne by done; eauto].
Qed.
Lemma set_stays ext c req d d' r k p : dbinv d → sm_get (db_keys d) k = Some (VSet p) → ¬ replaces k req →
  ask ext c req d = Ret (d', r) → sm_get (db_keys d') k = Some (VSet p).
Proof.
  intros I Hk Hr H. destruct (decide (k ∈ writes req)) as [Hw|Hw].
  2: { rewrite <- Hk. eapply dsteps_get; [by eapply ask_steps|done|done]. }
  destruct req as [|name a]; [by apply elem_of_nil in Hw|].
  unfold ask in H. apply obind_ret in H as ([d1 r1] & H & [= <- _]).
  apply exec_inv in H as [(_ & -> & _)|(f & q & Hin & Hf & _)]; [done|].
  destruct (inv_ptr d I k p Hk) as [s Hs].
  unfold writes in Hw. unfold replaces in Hr. remember (to_lower name) as low eqn:El.
  assert (¬ (low ∈ ["set"; "mset"; "del"; "sdiffstore"; "sinterstore"; "sunionstore"]%string)) as Hr'.
  { intros Hin'. apply Hr. split; [done|]. unfold writes. by rewrite <- El. }
  clear Hr El. case_bool_decide as Hro; [by apply elem_of_nil in Hw|].
  unfold implemented_commands in Hin.
  repeat (apply elem_of_cons in Hin as [[= -> ->]|Hin];
    [first [exfalso; apply Hro; apply (bool_decide_eq_true_1 _); by vm_compute|exfalso; apply Hr'; apply (bool_decide_eq_true_1 _); by vm_compute|idtac]|]);
    [..|by apply elem_of_nil in Hin].
  all: cbn [String.eqb Ascii.eqb Bool.eqb] in Hw.
  all: try (destruct a as [|k0 a]; [by apply elem_of_nil in Hw|]; cbn [take] in Hw; apply elem_of_list_singleton in Hw as <-; 
    revert Hf; commands; 
    unfold Append, IncrBy, LPush, RPush, LPop, RPop, LRem, LSet, LInsert, SAdd, SRem, SPop, ZAdd, ZRem, ZIncr, ZPop, HDel, HIncrBy, HIncrByFloat, HSet, load_list, load_set, load_zset, load_hash;
    rewrite ?Hk; cbn [deref obind]; rewrite ?Hs; cbn [deref obind]; intros Hf; crush_all; done).

  3: { unfold c_smove in Hf. crush_one Hf; first [done|by eapply smove_set_stays]. }
  all: destruct a as [|k0 a]; [by apply elem_of_nil in Hw|]; cbn [take] in Hw; apply elem_of_list_singleton in Hw as <-; 
    revert Hf; commands; unfold LPop, RPop, IncrBy, load_list; rewrite ?Hk; cbn [deref obind]; unfold pop_reply, fail; intros Hf.
  3, 4: by injection Hf as <- <-.
  all: apply obind_ret in Hf as ([n|e] & _ & Hf); by injection Hf as <- <-.
Qed.

(** Without that exclusion it holds for every key that is not a set: no history, however long, changes the view. *)
Theorem C13_frame_nonset ext h d d' rs k : reachable ext d → ¬ type_is ext d k "setIfNotExists" → talk ext h d = Ret (d', rs) →
  Forall (λ x, k ∉ writes x.2) h → same_view ext k d d'.
Proof.
  intros Hr Ht H Fk. pose proof (reachable_inv _ _ Hr) as I.
  assert (∀ p, sm_get (db_keys d) k ≠ Some (VSet p)) as Hns.
  { intros p E. apply Ht. pose proof (type_get ext d k) as T. by rewrite E in T. }
  assert (sm_get (db_keys d') k = sm_get (db_keys d) k) as E.
  { clear Ht Hr Hns. revert d rs I H. induction h as [|[c req] h IH]; intros d rs I H; [by injection H as <- _|]. cbn [talk] in H.
    apply obind_ret in H as ([d1 r] & E1 & H). apply obind_ret in H as ([d2 rs3] & E2 & H). injection H as <- _.
    apply Forall_cons in Fk as [Fk1 Fk]. etransitivity; [apply (IH Fk _ _ (ask_inv _ _ _ _ _ _ I E1) E2)|].
    eapply dsteps_get; [by eapply ask_steps|done..]. }
  apply held_view; [done|by eapply talk_inv|]. unfold held. rewrite E. destruct (sm_get (db_keys d) k) as [[]|]; try done. by destruct (Hns p).
Qed.
(** questions never change anything, for any key, whatever the history *)
Theorem C13_reads_change_nothing ext c d req d' r : reachable ext d → writes req = [] → one_source_store req = false →
  ask ext c req d = Ret (d', r) → d' = d.
Proof. intros Hr. apply ask_reads. by apply reachable_inv with ext. Qed.
(** "only the keys it writes" is false once a STORE command with a single source was used: SADD t changes s *)
Theorem C13_alias_refuted : let d := after [["SADD"; "s"; "a"]; ["SUNIONSTORE"; "t"; "s"]] in reachable ext0 d ∧
  answers ext0 d ["SISMEMBER"; "s"; "b"] (RInt 0) ∧
  does ext0 d ["SADD"; "t"; "b"] (RInt 1) (λ d', answers ext0 d' ["SISMEMBER"; "s"; "b"] (RInt 1)).
Proof.
  intros d. split; [apply after_reachable; by eexists|]. split; [intros c; by vm_compute|].
  intros c. eexists. split; [by vm_compute|]. intros c'. by vm_compute.
Qed.
Example C13_demo : let h1 := plain_history [["SADD"; "s"; "a"]; ["SET"; "x"; "1"]] in
  let h2 := plain_history [["LPUSH"; "l"; "y"]; ["SUNIONSTORE"; "t"; "s"; "s"]; ["DEL"; "x"]] in
  Forall (λ x, one_source_store x.2 = false) (h1 ++ h2) ∧ Forall (λ x, "s"%string ∉ writes x.2) h2.
Proof.
  intros h1 h2. unfold h1, h2, plain_history. rewrite <- fmap_app, !Forall_fmap. cbn [compose snd app].
  split; [repeat (apply Forall_cons; split; [done|]); done|].
  repeat (apply Forall_cons; split; [apply (bool_decide_eq_false_1 _); by vm_compute|]); done.
Qed.
Example C13_linked_demo : let h1 := plain_history [["SADD"; "s"; "a"]; ["SUNIONSTORE"; "t"; "s"]; ["SADD"; "u"; "x"]] in
  let h2 := plain_history [["SADD"; "t"; "b"]; ["SMOVE"; "s"; "t"; "a"]] in
  (∀ req k', req ∈ h2.*2 → k' ∈ writes req → ¬ linked ((h1 ++ h2).*2) "u" k') ∧ linked ((h1 ++ h2).*2) "t" "s".
Proof.
  intros h1 h2. split.
  - intros req k' Hin Hw Hl.
    assert (k' ≠ "u"%string) as Hne.
    { intros ->. unfold h2, plain_history in Hin. rewrite !fmap_cons, fmap_nil in Hin. cbn [snd] in Hin.
      apply elem_of_cons in Hin as [-> |Hin]; [|apply elem_of_list_singleton in Hin as ->];
      revert Hw; apply (bool_decide_eq_false_1 _); by vm_compute. }
    apply rtc_inv in Hl as [?|(y & Hxy & _)]; [by apply Hne|].
    unfold h1, h2, plain_history in Hxy. rewrite <- fmap_app, <- list_fmap_compose in Hxy. cbn [app fmap list_fmap compose snd] in Hxy.
    destruct Hxy as [(name & Hi & Ho)|(name & Hi & Ho)];
      repeat (apply elem_of_cons in Hi as [Hi|Hi]; [first [discriminate Hi|injection Hi as -> ->; discriminate Ho]|]); by apply elem_of_nil in Hi.
  - apply rtc_once. left. exists "SUNIONSTORE"%string. split; [|done]. by apply (elem_of_list_lookup_2 _ 1).
Qed.
