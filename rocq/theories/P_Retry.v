(** C76: which requests may be sent a second time, when the client does not know whether the first arrived. *)
From Verif Require Import GoBase GoBaseProofs ShardMap ShardMapProofs Float64 DList SkipList SpecList SpecZSet Db Protocol Redis Obs
  SpecCmd SpecResp SpecServer SpecFrame SpecKey SpecRetry KeyHist DbInv ExecSteps Sim SetRep SimMain SpecKinds PropBase P_Requests P_Keys P_Frame P_Kinds Choices P_Hash Examples.

Lemma put_put k v d : dbinv d → put k v (put k v d) = put k v d.
Proof.
  intros I. pose proof (inv_wf _ I) as W. destruct d as [m s f]. unfold put. cbn [db_keys db_sets db_fresh] in *. f_equal.
  assert (sm_wf (sm_set m k v)) as W' by by apply sm_set_wf. apply sm_map_eq; [by apply sm_set_wf|done|]. rewrite !sm_set_map by done. apply insert_insert.
Qed.
Lemma put_set_put_set p s d : put_set p s (put_set p s d) = put_set p s d.
Proof. unfold put_set. cbn. f_equal. apply insert_insert. Qed.
Lemma put_set_same p s d : db_sets d !! p = Some s → put_set p s d = d.
Proof. intros H. destruct d. unfold put_set. cbn in *. f_equal. by apply insert_id. Qed.

(** MSET over the abstract map *)
Fixpoint mset_map (kvs : list string) (m : gmap string value) : gmap string value :=
  match kvs with k :: v :: r => mset_map r (<[k := VStr v]> m) | _ => m end.
Lemma mset_map_union n : ∀ kvs m, (length kvs ≤ n)%nat → mset_map kvs m = mset_map kvs ∅ ∪ m.
Proof.
  induction n as [|n IH]; intros [|k [|v r]] m Hn; simpl in *; try lia; try (by rewrite (left_id_L ∅ (∪))).
  rewrite (IH r (<[k:=_]> m)), (IH r (<[k:=_]> ∅)) by lia. rewrite <- (assoc_L (∪)). f_equal. by rewrite <- insert_union_l, (left_id_L ∅ (∪)).
Qed.
Lemma mset_db n : ∀ kvs d, (length kvs ≤ n)%nat → sm_wf (db_keys d) →
  sm_wf (db_keys (MSet_ kvs d)) ∧ sm_map (db_keys (MSet_ kvs d)) = mset_map kvs (sm_map (db_keys d)) ∧
  db_sets (MSet_ kvs d) = db_sets d ∧ db_fresh (MSet_ kvs d) = db_fresh d.
Proof.
  induction n as [|n IH]; intros [|k [|v r]] d Hn W; simpl in *; try lia; try done.
  destruct (IH r (Set_ k v d)) as (E1 & E2 & E3 & E4); [lia|by apply sm_set_wf|]. rewrite E2, E3, E4. split; [done|]. split; [|done].
  f_equal. unfold Set_, put. cbn. by apply sm_set_map.
Qed.
Lemma mset_twice kvs d : dbinv d → MSet_ kvs (MSet_ kvs d) = MSet_ kvs d.
Proof.
  intros I. destruct (mset_db _ kvs d (Nat.le_refl _) (inv_wf _ I)) as (W1 & M1 & S1 & F1).
  destruct (mset_db _ kvs (MSet_ kvs d) (Nat.le_refl _) W1) as (W2 & M2 & S2 & F2).
  destruct (MSet_ kvs (MSet_ kvs d)) as [k2 s2 f2], (MSet_ kvs d) as [k1 s1 f1]. cbn [db_keys db_sets db_fresh] in *. subst. f_equal. apply sm_map_eq; [done..|].
  rewrite M2, M1. rewrite (mset_map_union _ kvs (mset_map kvs _)) by done. rewrite (mset_map_union _ kvs (sm_map _)) by done.
  rewrite (assoc_L (∪)). f_equal. apply map_union_idemp.
Qed.

(** sets *)
Lemma add_all_twice vs s n : set_ok s → ms_add_all vs (ms_add_all vs s n).1 0 = ((ms_add_all vs s n).1, 0).
Proof.
  intros (X & dr & R). destruct (ms_add_all_ok vs s X dr n R) as (s' & -> & R'). cbn [fst].
  assert (∀ l, (∀ x, x ∈ l → x ∈ X ∪ list_to_set vs) → ms_add_all l s' 0 = (s', 0)) as H; [|apply H; set_solver].
  induction l as [|v l IH]; intros Hl; [done|]. cbn [ms_add_all]. rewrite (ms_add_in v s' _ dr R') by (apply Hl; set_solver). apply IH. set_solver.
Qed.
Lemma rem_none vs s X dr : set_rep s X dr → (∀ x, x ∈ vs → x ∉ X) → ms_rem_all vs s 0 = (s, 0).
Proof.
  intros R. induction vs as [|v vs IH]; intros H; [done|]. cbn [ms_rem_all]. unfold ms_rem. rewrite sm_delete_if_exists_map by apply R.
  destruct (sm_map (ms_m s) !! v) eqn:E.
  { exfalso. apply (H v); [set_solver|]. apply (set_rep_in _ _ _ _ R). eauto. }
  replace (MSet (ms_m s) (ms_len s)) with s by by destruct s. apply IH. set_solver.
Qed.
Lemma rem_all_twice vs s n : set_ok s → ms_rem_all vs (ms_rem_all vs s n).1 0 = ((ms_rem_all vs s n).1, 0).
Proof.
  intros (X & dr & R). destruct (ms_rem_all_ok vs s X dr n R) as (s' & -> & R'). cbn [fst].
  eapply rem_none; [done|]. intros x Hx. set_solver.
Qed.

(** sorted sets: the dictionary *)
Lemma sm_get_delete {A} (m : smap A) k k' : sm_get m k' = None ∨ k' = k → sm_get (sm_delete m k) k' = None.
Proof.
  unfold sm_get, get_shard, sm_delete, upd_shard. intros H. destruct (decide (shard_idx k' = shard_idx k)) as [E|E].
  - rewrite E, list_lookup_alter. destruct H as [H| ->].
    + rewrite E in H. destruct (m !! shard_idx k) as [s|]; [|done]. simpl in *. destruct (decide (k' = k)) as [->|Hn]; [apply lookup_delete|by rewrite lookup_delete_ne].
    + destruct (m !! shard_idx k) as [s|]; simpl; [apply lookup_delete|apply lookup_empty].
  - rewrite list_lookup_alter_ne by done. by destruct H as [H| ->].
Qed.
Lemma zrem_gone vs : ∀ z n z' n', zs_rem_all vs z n = Ret (z', n') → ∀ v, v ∈ vs ∨ sm_get (zs_m z) v = None → sm_get (zs_m z') v = None.
Proof.
  induction vs as [|x vs IH]; intros z n z' n' H v Hv; cbn [zs_rem_all] in H.
  - injection H as <- <-. destruct Hv as [Hv|]; [by apply elem_of_nil in Hv|done].
  - unfold sm_load_and_delete in H. change (get_shard (zs_m z) x !! x) with (sm_get (zs_m z) x) in H. destruct (sm_get (zs_m z) x) as [p|] eqn:E.
    + apply obind_ret in H as (f & _ & H). apply obind_ret in H as ([s' b] & _ & H). eapply IH; [done|]. cbn [zs_m].
      destruct Hv as [[->|Hv]%elem_of_cons|Hv]; [right; apply sm_get_delete; by right|by left|right; apply sm_get_delete; by left].
    + eapply IH; [done|]. destruct Hv as [[->|Hv]%elem_of_cons|Hv]; auto.
Qed.
Lemma zrem_none vs z : (∀ v, v ∈ vs → sm_get (zs_m z) v = None) → zs_rem_all vs z 0 = Ret (z, 0).
Proof.
  induction vs as [|x vs IH]; intros H; [done|]. cbn [zs_rem_all]. unfold sm_load_and_delete. change (get_shard (zs_m z) x !! x) with (sm_get (zs_m z) x). rewrite H by set_solver. apply IH. set_solver.
Qed.

(** lists *)
Lemma index_loop_set p v l : ∀ fuel rev i idx cur, index_loop fuel (set_val p v l) rev i idx cur = index_loop fuel l rev i idx cur.
Proof.
  induction fuel as [|fuel IH]; intros rev i idx cur; cbn [index_loop]; [done|]. destruct (i =? idx); [done|].
  destruct cur as [c|]; [|done]. cbn [deref obind]. unfold node_at, set_val, set_heap. cbn [dl_heap].
  destruct (decide (c = p)) as [->|Hn].
  - rewrite lookup_alter. destruct (dl_heap l !! p) as [nd|]; [|done]. cbn. destruct rev; apply IH.
  - rewrite lookup_alter_ne by done. destruct (dl_heap l !! c) as [nd|]; [|done]. cbn. destruct rev; apply IH.
Qed.
Lemma index_node_set i p v l : dl_index_node i (set_val p v l) = dl_index_node i l.
Proof. unfold dl_index_node. cbn [set_val set_heap dl_head dl_tail dl_len]. destruct (dl_head l); [|done]. destruct (_ || _); [done|]. by destruct (_ <? _); rewrite index_loop_set. Qed.
Lemma set_val_twice p v l : set_val p v (set_val p v l) = set_val p v l.
Proof. unfold set_val, set_heap. cbn. f_equal. rewrite <- alter_compose. by apply alter_ext. Qed.
Lemma lset_twice i v l l1 b : dl_lset i v l = Ret (l1, b) → dl_lset i v l1 = Ret (l1, b) ∧ dl_len l1 = dl_len l.
Proof.
  unfold dl_lset. destruct (dl_index_node i l) as [[p|]| |] eqn:E; cbn [obind]; intros [= <- <-].
  - rewrite index_node_set, E. cbn [obind]. by rewrite set_val_twice.
  - by rewrite E.
Qed.

Section retry.
Context (ext : Ext).

Lemma load_set_put_set k ck p s d : sm_get (db_keys d) k = Some (VSet p) →
  load_set k ck (put_set p s d) = Ret (if ck && (ms_len s =? 0) then Err ErrNil else Ok (p, s)).
Proof. intros H. unfold load_set, put_set. cbn [db_keys db_sets]. rewrite H, lookup_insert. done. Qed.
Lemma load_set_ok k ck d p s : load_set k ck d = Ret (Ok (p, s)) → sm_get (db_keys d) k = Some (VSet p) ∧ db_sets d !! p = Some s.
Proof.
  unfold load_set. destruct (sm_get _ k) as [[]|]; try done. destruct (db_sets d !! p0) eqn:E; [|done]. cbn [deref obind]. destruct (_ && _); [done|]. by intros [= -> ->].
Qed.

Definition twice (f : list string → db → cmd_result) : Prop := ∀ a d d1 r, dbinv d → f a d = Ret (d1, r) →
  ∃ r', f a d1 = Ret (d1, r') ∧ view (reply_of r') = again (view (reply_of r)).

Lemma twice_set : twice c_set.
Proof.
  intros a d d1 r I H. unfold c_set in *. destruct (fewer a 2) eqn:F; [by injection H as <- <-; eexists|].
  destruct (arg a 0) as [k| |] eqn:E0; [|done..]. destruct (arg a 1) as [v| |] eqn:E1; [|done..]. cbn [obind] in *. injection H as <- <-.
  eexists. split; [|done]. unfold Set_. by rewrite put_put.
Qed.
Lemma twice_mset : twice c_mset.
Proof.
  intros a d d1 r I H. unfold c_mset in *. destruct (_ && _) eqn:F; injection H as <- <-; eexists; (split; [|done]); [done|]. by rewrite mset_twice.
Qed.
Lemma twice_del : twice c_del.
Proof.
  intros a d d1 r I H. unfold c_del in *. destruct (fewer a 1) eqn:F; [by injection H as <- <-; eexists|].
  destruct (arg a 0) as [k| |] eqn:E0; [|done..]. cbn [obind] in *. unfold Del in *. pose proof (inv_wf _ I) as W.
  rewrite sm_delete_if_exists_map in H by done. destruct (sm_map (db_keys d) !! k) eqn:E; injection H as <- <-.
  - cbn [db_keys]. rewrite sm_delete_if_exists_map by by apply sm_delete_wf. rewrite sm_delete_map, lookup_delete by done. by eexists.
  - cbn [db_keys]. rewrite sm_delete_if_exists_map by done. rewrite E. by eexists.
Qed.
Lemma twice_sadd : twice c_sadd.
Proof.
  intros a d d1 r I H. unfold c_sadd in *. destruct (fewer a 2) eqn:F; [by injection H as <- <-; eexists|].
  destruct (arg a 0) as [k| |] eqn:E0; [|done..]. cbn [obind] in *. unfold SAdd in *.
  destruct (load_set k false d) as [l| |] eqn:L; [|done..]. cbn [obind] in H. destruct l as [[p s]|e].
  - destruct (load_set_ok _ _ _ _ _ L) as [Hk Hp]. destruct (ms_add_all (drop 1 a) s 0) as [s' n] eqn:EA. cbn [obind] in H. injection H as <- <-.
    rewrite (load_set_put_set _ _ _ _ _ Hk). cbn [andb obind].
    pose proof (add_all_twice (drop 1 a) s 0 (proj2 (inv_heap _ I _ _ Hp))) as T. rewrite EA in T. cbn [fst] in T. rewrite T. cbn [obind].
    eexists. split; [by rewrite put_set_put_set|done].
  - assert (e = ErrNil ∨ e = ErrTypeMismatch) as [->| ->] by by eapply load_set_err.
    + destruct (ms_add_all (drop 1 a) ms_new 0) as [s' n] eqn:EA. cbn [obind alloc_set] in H. injection H as <- <-.
      rewrite (load_set_put_set k false (db_fresh d)).
      2:{ unfold put. cbn [db_keys]. rewrite sm_get_map by (apply sm_set_wf, I). rewrite sm_set_map by apply I. by rewrite lookup_insert. }
      cbn [andb obind].
      assert (set_ok ms_new) as Sn by (eexists _, _; apply set_rep_new).
      pose proof (add_all_twice (drop 1 a) ms_new 0 Sn) as T. rewrite EA in T. cbn [fst] in T. rewrite T. cbn [obind].
      eexists. split; [by rewrite put_set_put_set|done].
    + injection H as <- <-. rewrite L. cbn. by eexists.
Qed.
Lemma twice_srem : twice c_srem.
Proof.
  intros a d d1 r I H. unfold c_srem in *. destruct (fewer a 2) eqn:F; [by injection H as <- <-; eexists|].
  destruct (arg a 0) as [k| |] eqn:E0; [|done..]. cbn [obind] in *. unfold SRem in *.
  destruct (load_set k true d) as [l| |] eqn:L; [|done..]. cbn [obind] in H. destruct l as [[p s]|e].
  - destruct (load_set_ok _ _ _ _ _ L) as [Hk Hp]. destruct (ms_rem_all (drop 1 a) s 0) as [s' n] eqn:EA. cbn [obind] in H. injection H as <- <-.
    rewrite (load_set_put_set _ _ _ _ _ Hk). cbn [andb obind]. destruct (ms_len s' =? 0); [by eexists|].
    pose proof (rem_all_twice (drop 1 a) s 0 (proj2 (inv_heap _ I _ _ Hp))) as T. rewrite EA in T. cbn [fst] in T. rewrite T. cbn [obind].
    eexists. split; [by rewrite put_set_put_set|done].
  - assert (e = ErrNil ∨ e = ErrTypeMismatch) as [->| ->] by by eapply load_set_err.
    + injection H as <- <-. rewrite L. cbn. by eexists.
    + injection H as <- <-. rewrite L. cbn. by eexists.
Qed.
Lemma twice_zrem : twice c_zrem.
Proof.
  intros a d d1 r I H. unfold c_zrem in *. destruct (fewer a 2) eqn:F; [by injection H as <- <-; eexists|].
  destruct (arg a 0) as [k| |] eqn:E0; [|done..]. cbn [obind] in *. unfold ZRem in *.
  destruct (load_zset k true d) as [z|e] eqn:L.
  - destruct (zs_rem_all (drop 1 a) z 0) as [[z' n]| |] eqn:EZ; [|done..]. cbn [obind] in H. injection H as <- <-.
    assert (sm_get (db_keys (put k (VZSet z') d)) k = Some (VZSet z')) as Hk.
    { unfold put. cbn [db_keys]. rewrite sm_get_map by (apply sm_set_wf, I). rewrite sm_set_map by apply I. by rewrite lookup_insert. }
    unfold load_zset. rewrite Hk. destruct (_ && _); [by eexists|].
    rewrite (zrem_none (drop 1 a) z'); [|intros v Hv; eapply zrem_gone; [done|by left]]. cbn [obind]. eexists. split; [by rewrite put_put|done].
  - cbn [obind] in H. assert (e = ErrNil ∨ e = ErrTypeMismatch) as [->| ->].
    { unfold load_zset in L. destruct (sm_get _ k) as [[]|]; try (injection L as <-; by auto). destruct (_ && _); [injection L as <-; by auto|done]. }
    + injection H as <- <-. rewrite L. by eexists.
    + injection H as <- <-. rewrite L. by eexists.
Qed.
Lemma twice_lset : twice c_lset.
Proof.
  intros a d d1 r I H. unfold c_lset in *. destruct (fewer a 3) eqn:F; [by injection H as <- <-; eexists|].
  destruct (arg a 0) as [k| |] eqn:E0; [|done..]. destruct (arg a 1) as [i0| |] eqn:E1; [|done..]. destruct (arg a 2) as [v| |] eqn:E2; [|done..]. cbn [obind] in *.
  destruct (parse_int i0) as [i|] eqn:Ei; [|by injection H as <- <-; eexists]. unfold LSet in *.
  destruct (load_list k true d) as [l|e] eqn:L; [|injection H as <- <-; rewrite L; by eexists].
  destruct (dl_lset i v l) as [[l1 b]| |] eqn:EL; [|done..]. cbn [obind] in H. destruct (lset_twice _ _ _ _ _ EL) as [T1 T2].
  assert (load_list k true (put k (VList l1) d) = Ok l1) as L1.
  { unfold load_list in *. unfold put. cbn [db_keys]. rewrite sm_get_map by (apply sm_set_wf, I). rewrite sm_set_map by apply I. rewrite lookup_insert, T2.
    destruct (sm_get (db_keys d) k) as [[]|]; try done. destruct (_ && _) eqn:Z0; [done|]. injection L as ->. by rewrite Z0. }
  destruct b; injection H as <- <-; rewrite L1; cbn [obind]; rewrite T1; cbn [obind]; eexists; (split; [by rewrite put_put|done]).
Qed.

Lemma ask_twice c c' req d d1 r : dbinv d → repeatable req → ask ext c req d = Ret (d1, r) → ask ext c' req d1 = Ret (d1, again r).
Proof.
  intros Rd Hr H. destruct req as [|name a]; [done|]. cbn [repeatable] in Hr.
  assert (∃ f, (∀ c, lookup_command (to_lower name) (implemented_commands ext c) = Some f) ∧ twice f) as (f & Lf & Tf).
  { unfold may_repeat in Hr. rewrite !elem_of_cons, elem_of_nil in Hr. destruct Hr as [->|[->|[->|[->|[->|[->|[->|[]]]]]]]]; eexists; (split; [by intros|]).
    - apply twice_set.
    - apply twice_mset.
    - apply twice_del.
    - apply twice_sadd.
    - apply twice_srem.
    - apply twice_zrem.
    - apply twice_lset. }
  rewrite (ask_cmd ext c name a d f (Lf c)) in H. apply obind_ret in H as ([d2 r2] & H & [= <- <-]).
  destruct (Tf _ _ _ _ Rd H) as (r' & H' & Hv). rewrite (ask_cmd ext c' name a d2 f (Lf c')), H'. cbn [obind]. by rewrite Hv.
Qed.
(** sent twice in a row: the second copy changes nothing *)
Theorem C76_twice c c' req d d1 r : reachable ext d → repeatable req → ask ext c req d = Ret (d1, r) → ask ext c' req d1 = Ret (d1, again r).
Proof. intros Rd. apply ask_twice. by eapply reachable_inv. Qed.

(** a conversation with copies in it, and the same conversation without them *)
Lemma once_talk h : ∀ marks prev d d' rs', dbinv d → copies prev marks h →
  (∀ req, prev = Some req → repeatable req → ∀ c, ∃ v, ask ext c req d = Ret (d, v)) →
  ((∃ rs, talk ext h d = Ret (d', rs) ∧ unmarked marks rs = rs') ↔ talk ext (unmarked marks h) d = Ret (d', rs')).
Proof.
  induction h as [|[c req] h IH]; intros [|b marks] prev d d' rs' I C P; try done.
  - cbn [talk unmarked]. split; [by intros (rs & [= <- <-] & <-)|]. intros [= <- <-]. by eexists.
  - cbn [copies] in C. destruct C as [Cb C].
    assert (∀ d1 r, ask ext c req d = Ret (d1, r) → ∀ rq, Some req = Some rq → repeatable rq → ∀ c, ∃ v, ask ext c rq d1 = Ret (d1, v)) as P1.
    { intros d1 r Ha rq [= <-] Hr c1. eexists. by eapply ask_twice. }
    destruct b; cbn [unmarked talk].
    + destruct (Cb eq_refl) as [-> Hr]. destruct (P req eq_refl Hr c) as (v & Ha). rewrite <- (IH marks (Some req) d d' rs' I C (P1 _ _ Ha)). rewrite Ha. cbn [obind]. split.
      * intros (rs & H & Ho). apply obind_ret in H as ([d2 rs2] & H & [= <- <-]). by exists rs2.
      * intros (rs & H & Ho). rewrite H. cbn [obind]. by eexists.
    + split.
      * intros (rs & H & Ho). apply obind_ret in H as ([d1 r] & Ha & H). apply obind_ret in H as ([d2 rs2] & H & [= <- <-]). rewrite Ha. cbn [obind].
        assert (talk ext (unmarked marks h) d1 = Ret (d2, unmarked marks rs2)) as ->; [|by subst]. eapply IH; [by eapply ask_inv|done|by eapply P1|]. by eexists.
      * intros H. apply obind_ret in H as ([d1 r] & Ha & H). apply obind_ret in H as ([d2 rs2] & H & [= <- <-]). rewrite Ha. cbn [obind].
        assert (∃ rs, talk ext h d1 = Ret (d2, rs) ∧ unmarked marks rs = rs2) as (rs & -> & <-); [|by eexists]. eapply IH; [by eapply ask_inv|done|by eapply P1|done].
Qed.
Theorem C76_history marks h d rs : copies None marks h →
  (∃ all, talk ext h db_new = Ret (d, all) ∧ unmarked marks all = rs) ↔ talk ext (unmarked marks h) db_new = Ret (d, rs).
Proof. intros C. eapply once_talk; [apply dbinv_new|done|done]. Qed.

(** a request that was refused may be sent again, whatever it was *)
Theorem C76_error c name args d d' m : reachable ext d → to_lower name ≠ "smove"%string →
  ask ext c (name :: args) d = Ret (d', Some (RError m)) → ask ext c (name :: args) d' = Ret (d', Some (RError m)).
Proof. intros R Hn H. pose proof (C74_error_no_effect_partial ext c name args d d' m R Hn H) as ->. exact H. Qed.

(** ** what is already so need not be done: for any state *)
Lemma get_of d k v : dbinv d → answers ext d ["GET"; k]%string (RBulk v) → sm_get (db_keys d) k = Some (VStr v).
Proof.
  intros I H. pose proof (get_coarse ext d k v I H) as E. rewrite coarse_at in E by done. destruct (sm_get (db_keys d) k) as [[]|]; simpl in E; congruence.
Qed.
Theorem C76_set_noop d k v more : reachable ext d → answers ext d ["GET"; k]%string (RBulk v) → answers ext d ("SET" :: k :: v :: more)%string (RStatus "OK").
Proof.
  intros R H c. apply reachable_inv in R. apply get_of in H; [|done]. rewrite (ask_cmd ext c "SET" (k :: v :: more) d c_set eq_refl).
  change (c_set (k :: v :: more) d) with (reply (rsp_simple "OK") (put k (VStr v) d)). rewrite put_same by done. done.
Qed.
Theorem C76_del_noop d k more : reachable ext d → answers ext d ["EXISTS"; k]%string (RInt 0) → answers ext d ("DEL" :: k :: more)%string (RInt 0).
Proof.
  intros R H c. apply reachable_inv in R. apply absent_coarse in H; [|done]. rewrite coarse_at in H by done. rewrite (ask_cmd ext c "DEL" (k :: more) d c_del eq_refl).
  change (c_del (k :: more) d) with (let (d', n) := Del k d in reply (rsp_int n) d'). unfold Del. rewrite sm_delete_if_exists_map by apply R. rewrite <- sm_get_map by apply R.
  destruct (sm_get (db_keys d) k); [done|]. by destruct d.
Qed.
Lemma sismember_of c d k v : dbinv d → ask ext c ["SISMEMBER"; k; v]%string d = Ret (d, Some (RInt 1)) →
  ∃ p s, sm_get (db_keys d) k = Some (VSet p) ∧ db_sets d !! p = Some s ∧ is_Some (sm_map (ms_m s) !! v).
Proof.
  intros I. rewrite (ask_cmd ext c "SISMEMBER" [k; v] d c_sismember eq_refl).
  change (c_sismember [k; v] d) with (let* r := SIsMember k v d in match r with Err ErrNil => reply (rsp_int 0) d | Err e => fail e d | Ok z => reply (rsp_int z) d end).
  unfold SIsMember. destruct (load_set k true d) as [l| |] eqn:L; [|done..]. cbn [obind]. destruct l as [[p s]|e].
  - destruct (load_set_ok _ _ _ _ _ L) as [Hk Hp]. destruct (proj2 (inv_heap _ I _ _ Hp)) as (X & dr & W & _). rewrite sm_has_map by done. case_bool_decide as Hv; [|done]. intros _. by exists p, s.
  - by destruct (load_set_err _ _ _ _ L) as [->| ->].
Qed.
Theorem C76_sadd_noop d k v vs : reachable ext d → (∀ x, x ∈ v :: vs → answers ext d ["SISMEMBER"; k; x]%string (RInt 1)) →
  answers ext d ("SADD" :: k :: v :: vs)%string (RInt 0).
Proof.
  intros R H c. apply reachable_inv in R. rewrite (ask_cmd ext c "SADD" (k :: v :: vs) d c_sadd eq_refl).
  destruct (sismember_of c d k v R) as (p & s & Hk & Hp & _); [apply H; set_solver|].
  change (c_sadd (k :: v :: vs) d) with (let* r := SAdd k (v :: vs) d in match r with (d', Err e) => fail e d' | (d', Ok z) => reply (rsp_int z) d' end).
  unfold SAdd, load_set. rewrite Hk, Hp. cbn [deref obind andb].
  destruct (proj2 (inv_heap _ R _ _ Hp)) as (X & dr & Rs).
  assert (∀ l, (∀ x, x ∈ l → x ∈ v :: vs) → ms_add_all l s 0 = (s, 0)) as E; [|rewrite E by done; cbn [obind]; by rewrite put_set_same].
  induction l as [|x l IH]; intros Hl; [done|]. cbn [ms_add_all].
  rewrite (ms_add_in x s X dr Rs); [apply IH; set_solver|]. apply (set_rep_in _ _ _ _ Rs).
  destruct (sismember_of c d k x R) as (p' & s' & Hk' & Hp' & Hx); [apply H, Hl; set_solver|]. congruence.
Qed.
Theorem C76_srem_noop d k v vs : reachable ext d → (∀ x, x ∈ v :: vs → answers ext d ["SISMEMBER"; k; x]%string (RInt 0)) →
  answers ext d ("SREM" :: k :: v :: vs)%string (RInt 0).
Proof.
  intros R H c. apply reachable_inv in R. rewrite (ask_cmd ext c "SREM" (k :: v :: vs) d c_srem eq_refl).
  change (c_srem (k :: v :: vs) d) with (let* r := SRem k (v :: vs) d in match r with (d', Err ErrNil) => reply (rsp_int 0) d' | (d', Err e) => fail e d' | (d', Ok z) => reply (rsp_int z) d' end).
  unfold SRem.
  assert (∀ x, x ∈ v :: vs → (let* r := SIsMember k x d in match r with Err ErrNil => reply (rsp_int 0) d | Err e => fail e d | Ok z => reply (rsp_int z) d end) = reply (rsp_int 0) d) as H1.
  { intros x Hx. specialize (H x Hx c). rewrite (ask_cmd ext c "SISMEMBER" [k; x] d c_sismember eq_refl) in H.
    change (c_sismember [k; x] d) with (let* r := SIsMember k x d in match r with Err ErrNil => reply (rsp_int 0) d | Err e => fail e d | Ok z => reply (rsp_int z) d end) in H.
    destruct (SIsMember k x d) as [[z|[]]| |]; try done. cbn in H. injection H as ->. done. }
  clear H. unfold SIsMember in H1. destruct (load_set k true d) as [l| |] eqn:L; cbn [obind] in *; [|by specialize (H1 v (elem_of_list_here _ _))..].
  destruct l as [[p s]|e].
  - destruct (load_set_ok _ _ _ _ _ L) as [Hk Hp]. destruct (proj2 (inv_heap _ R _ _ Hp)) as (X & dr & Rs).
    rewrite (rem_none (v :: vs) s X dr Rs).
    + cbn [obind]. by rewrite put_set_same.
    + intros x Hx Hin. specialize (H1 x Hx). apply (set_rep_in _ _ _ _ Rs) in Hin. rewrite sm_has_map in H1 by apply Rs. rewrite bool_decide_eq_true_2 in H1 by done. done.
  - destruct (load_set_err _ _ _ _ L) as [->| ->]; [done|]. by specialize (H1 v (elem_of_list_here _ _)).
Qed.
End retry.

Section later.
Context (ext : Ext).
Lemma reach_talk d h d' rs : reachable ext d → talk ext h d = Ret (d', rs) → reachable ext d'.
Proof. intros (h0 & rs0 & H0) H. exists (h0 ++ h), (rs0 ++ rs). rewrite talk_app, H0. cbn [obind]. rewrite H. done. Qed.
Lemma reach_ask d c req d' r : reachable ext d → ask ext c req d = Ret (d', r) → reachable ext d'.
Proof. intros R H. eapply (reach_talk d [(c, req)]); [done|]. cbn [talk]. rewrite H. done. Qed.
Lemma sadd_members c d k v vs d1 r : dbinv d → ask ext c ("SADD" :: k :: v :: vs)%string d = Ret (d1, Some (RInt r)) →
  ∀ x, x ∈ v :: vs → answers ext d1 ["SISMEMBER"; k; x]%string (RInt 1).
Proof.
  intros I H x Hx. rewrite (ask_cmd ext c "SADD" (k :: v :: vs) d c_sadd eq_refl) in H.
  change (c_sadd (k :: v :: vs) d) with (let* r := SAdd k (v :: vs) d in match r with (d', Err e) => fail e d' | (d', Ok z) => reply (rsp_int z) d' end) in H.
  assert (∃ p s s0 X dr n, set_rep s0 X dr ∧ ms_add_all (v :: vs) s0 0 = (s, n) ∧ sm_get (db_keys d1) k = Some (VSet p) ∧ db_sets d1 !! p = Some s) as (p & s & s0 & X & dr & n & S0 & EA & Hk & Hp).
  { unfold SAdd in H. destruct (load_set k false d) as [l| |] eqn:L; [|done..]. cbn [obind] in H. destruct l as [[p s]|e].
    - destruct (load_set_ok _ _ _ _ _ L) as [Hk Hp]. destruct (proj2 (inv_heap _ I _ _ Hp)) as (X & dr & Rs). destruct (ms_add_all (v :: vs) s 0) as [s' n] eqn:EA. cbn [obind] in H. injection H as <- _.
      exists p, s', s, X, dr, n. repeat split; try done; try apply Rs. cbn [db_sets put_set]. by rewrite lookup_insert.
    - destruct (load_set_err _ _ _ _ L) as [->| ->]; [|done]. destruct (ms_add_all (v :: vs) ms_new 0) as [s' n] eqn:EA. cbn [obind alloc_set] in H. injection H as <- _.
      exists (db_fresh d), s', ms_new, ∅, 0%nat, n. split; [apply set_rep_new|]. split; [done|]. split; [|cbn [db_sets put_set]; by rewrite lookup_insert].
      unfold put, put_set. cbn [db_keys]. rewrite sm_get_map by (apply sm_set_wf, I). rewrite sm_set_map by apply I. by rewrite lookup_insert. }
  destruct (ms_add_all_ok (v :: vs) s0 X dr 0 S0) as (s' & E & S1). rewrite EA in E. injection E as <- _.
  intros c1. rewrite (ask_cmd ext c1 "SISMEMBER" [k; x] d1 c_sismember eq_refl).
  change (c_sismember [k; x] d1) with (let* r := SIsMember k x d1 in match r with Err ErrNil => reply (rsp_int 0) d1 | Err e => fail e d1 | Ok z => reply (rsp_int z) d1 end).
  assert (x ∈ X ∪ list_to_set (v :: vs)) as Hin by set_solver.
  unfold SIsMember, load_set. rewrite Hk, Hp. cbn [deref obind]. destruct S1 as (W & D & Hl).
  destruct (ms_len s =? 0) eqn:Z0.
  - exfalso. apply Z.eqb_eq in Z0. rewrite Hl in Z0. unfold counted in Z0. assert (size (X ∪ list_to_set (v :: vs)) ≠ 0%nat) by (apply size_non_empty_iff; set_solver). lia.
  - cbn [andb obind]. rewrite sm_has_map by done. rewrite bool_decide_eq_true_2; [done|]. apply elem_of_dom.  by rewrite D.
Qed.
Lemma look ext' d d' k name a r : (∀ c d1 o, ask ext' c (name :: k :: a) d' = Ret (d1, o) → d1 = d') → to_lower name ∈ questions → same_view ext' k d d' → answers ext' d (name :: k :: a) r → answers ext' d' (name :: k :: a) r.
Proof.
  intros Q Hq V H c. specialize (V name a c Hq). unfold reply_to in V. rewrite (H c) in V. cbn [obind] in V.
  destruct (ask ext' c (name :: k :: a) d') as [[d1 o]| |] eqn:E; [|done..]. cbn [obind] in V. injection V as <-. by rewrite (Q _ _ _ E).
Qed.
Lemma not_set_at d k (v : value) : dbinv d → sm_get (db_keys d) k = Some v → (∀ p, v ≠ VSet p) → ¬ type_is ext d k "setIfNotExists".
Proof.
  intros I H Hv T. pose proof (type_get ext d k) as T'. rewrite H in T'. pose proof (answers_fun _ _ _ _ _ T T') as E. destruct v; try done. by destruct (Hv p).
Qed.
Lemma absent_at d k : dbinv d → sm_get (db_keys d) k = None → ¬ type_is ext d k "setIfNotExists".
Proof. intros I H T. pose proof (type_get ext d k) as T'. rewrite H in T'. by pose proof (answers_fun _ _ _ _ _ T T'). Qed.

(** the copy comes later, when other requests have been served that do not write the key *)
Theorem C76_set_later c k v d d1 r h d2 rs : reachable ext d → ask ext c ["SET"; k; v]%string d = Ret (d1, r) → talk ext h d1 = Ret (d2, rs) →
  Forall (λ x, k ∉ writes x.2) h → answers ext d2 ["SET"; k; v]%string (RStatus "OK").
Proof.
  intros R Ha Ht F.
  assert (reachable ext d1) as R1 by by eapply reach_ask.
  assert (reachable ext d2) as R2 by by eapply reach_talk.
  assert (sm_get (db_keys d1) k = Some (VStr v)) as E1.
  { rewrite (ask_cmd ext c "SET" [k; v] d c_set eq_refl) in Ha. injection Ha as <- _. cbn [db_keys]. pose proof (inv_wf _ (reachable_inv _ _ R)) as W.
    unfold Set_, put. cbn [db_keys]. rewrite sm_get_map by (by apply sm_set_wf). rewrite sm_set_map by done. by rewrite lookup_insert. }
  apply C76_set_noop; [done|].
  eapply (look ext d1 d2 k "GET" []); [|by apply (bool_decide_unpack _); vm_compute| |].
  - intros c1 d3 o H. by apply (C13_reads_change_nothing _ _ _ _ _ _ R2) in H.
  - eapply C13_frame_nonset; [done| |done|done]. eapply not_set_at; [by eapply reachable_inv|done|done].
  - intros c1. rewrite (ask_cmd ext c1 "GET" [k] d1 c_get eq_refl). change (c_get [k] d1) with (match Get k d1 with Err ErrNil => reply rsp_nil d1 | Err e => fail e d1 | Ok v => reply (rsp_interfaces false [IStr v]) d1 end).
    unfold Get. by rewrite E1.
Qed.
Theorem C76_del_later c k d d1 r h d2 rs : reachable ext d → ask ext c ["DEL"; k]%string d = Ret (d1, r) → talk ext h d1 = Ret (d2, rs) →
  Forall (λ x, k ∉ writes x.2) h → answers ext d2 ["DEL"; k]%string (RInt 0).
Proof.
  intros R Ha Ht F.
  assert (reachable ext d1) as R1 by by eapply reach_ask.
  assert (reachable ext d2) as R2 by by eapply reach_talk.
  assert (sm_get (db_keys d1) k = None) as E1.
  { rewrite (ask_cmd ext c "DEL" [k] d c_del eq_refl) in Ha. change (c_del [k] d) with (let (d', n) := Del k d in reply (rsp_int n) d') in Ha. pose proof (inv_wf _ (reachable_inv _ _ R)) as W.
    unfold Del in Ha. rewrite sm_delete_if_exists_map in Ha by done. destruct (sm_map (db_keys d) !! k) eqn:E; injection Ha as <- _; cbn [db_keys].
    - rewrite sm_get_map by by apply sm_delete_wf. by rewrite sm_delete_map, lookup_delete.
    - by rewrite sm_get_map. }
  apply C76_del_noop; [done|].
  eapply (look ext d1 d2 k "EXISTS" []); [|apply (bool_decide_unpack _); by vm_compute| |].
  - intros c1 d3 o H. by apply (C13_reads_change_nothing _ _ _ _ _ _ R2) in H.
  - eapply C13_frame_nonset; [done| |done|done]. eapply absent_at; [by eapply reachable_inv|done].
  - pose proof (exists_get ext d1 k) as H. rewrite E1 in H. by apply H, (reachable_inv ext).
Qed.
(** sets: the copy of SADD; STORE commands with a single source are left out (see [C13_alias_refuted]) *)
Theorem C76_sadd_later c k v vs h1 h2 d d1 r d2 rs1 rs2 : talk ext h1 db_new = Ret (d, rs1) → ask ext c ("SADD" :: k :: v :: vs)%string d = Ret (d1, Some (RInt r)) →
  talk ext h2 d1 = Ret (d2, rs2) → Forall (λ x, one_source_store x.2 = false) (h1 ++ h2) → Forall (λ x, k ∉ writes x.2) h2 →
  answers ext d2 ("SADD" :: k :: v :: vs)%string (RInt 0).
Proof.
  intros H1 Ha H2 F Fk.
  assert (reachable ext d) as R by by exists h1, rs1.
  assert (reachable ext d1) as R1 by by eapply reach_ask.
  assert (reachable ext d2) as R2 by by eapply reach_talk.
  apply C76_sadd_noop; [done|]. intros x Hx.
  eapply (look ext d1 d2 k "SISMEMBER" [x]); [|apply (bool_decide_unpack _); by vm_compute| |exact (sadd_members _ _ _ _ _ _ _ (reachable_inv _ _ R) Ha x Hx)].
  - intros c1 d3 o H. by apply (C13_reads_change_nothing _ _ _ _ _ _ R2) in H.
  - eapply (C13_frame ext (h1 ++ [(c, "SADD"%string :: k :: v :: vs)]) h2); [|done| |done].
    + rewrite talk_app, H1. cbn [obind talk]. rewrite Ha. cbn [obind]. done.
    + apply Forall_app in F as [F1 F2]. rewrite !Forall_app. split; [split; [done|]|done]. apply Forall_cons. split; [|done]. cbn. by destruct vs as [|? []].
Qed.
End later.

(** ** SINTERSTORE and SUNIONSTORE with two or more sources: no client can see a difference *)
Section store.
Context (ext : Ext).
Definition loads (d : db) (k : string) (X : gset string) : Prop := ∃ p s dr, load_set k true d = Ret (Ok (p, s)) ∧ set_rep s X dr.
Lemma fold_in o c d ks : dbinv d → ∀ j acc r, set_fold o c j ks acc d = Ret (Ok r) → ∃ Xs, Forall2 (loads d) ks Xs.
Proof.
  intros I. induction ks as [|k ks IH]; intros j acc r H; [by exists []|]. cbn [set_fold] in H.
  apply obind_ret in H as ([[p s]|e] & L & H); [|done]. destruct (IH _ _ _ H) as (Xs & F).
  destruct (load_set_ok _ _ _ _ _ L) as [_ Hp]. destruct (proj2 (inv_heap _ I _ _ Hp)) as (X & dr & R). exists (X :: Xs). constructor; [by exists p, s, dr|done].
Qed.
Lemma fold_loads o c d ks Xs : Forall2 (loads d) ks Xs → ∀ j acc s A dr, acc_set acc = Some s → set_rep s A dr →
  ∃ acc', set_fold o c j ks acc d = Ret (Ok acc') ∧
    match ks with [] => acc' = acc | _ => ∃ s', acc' = AFresh s' ∧ set_rep s' (foldl (apply_op (op_of o)) A Xs) 0 end.
Proof.
  intros F. induction F as [|k X ks Xs Hk F IH]; intros j acc s A dr Ha R; cbn [set_fold]; [by exists acc|].
  destruct Hk as (p & st & dr0 & -> & Hs). cbn [obind]. rewrite Ha.
  pose proof (ms_op_ok o c j s st A X dr dr0 R Hs) as R'. destruct (IH (S j) (AFresh (ms_op o c j s st)) _ _ _ eq_refl R') as (acc' & E & H).
  exists acc'. split; [done|]. destruct ks as [|k' ks]; [|done]. inversion F; subst. by exists (ms_op o c j s st).
Qed.
Lemma fold_top o c d k1 k2 ks X1 Xs : Forall2 (loads d) (k1 :: k2 :: ks) (X1 :: Xs) →
  ∃ s', set_fold o c 0%nat (k1 :: k2 :: ks) ANil d = Ret (Ok (AFresh s')) ∧ set_rep s' (foldl (apply_op (op_of o)) X1 Xs) 0.
Proof.
  intros F. apply Forall2_cons in F as [F1 F].
  change (set_fold o c 0%nat (k1 :: k2 :: ks) ANil d) with
    (let* l := load_set k1 true d in match l with Ok (p, s) => set_fold o c 1%nat (k2 :: ks) (AObj p s) d | Err e => Ret (Err e) end).
  destruct F1 as (p & st & dr0 & -> & Hs). cbn [obind].
  destruct (fold_loads o c d (k2 :: ks) Xs F 1 (AObj p st) st X1 dr0 eq_refl Hs) as (acc' & E & s' & -> & R). by exists s'.
Qed.
Lemma fold_err o c d e ks : ∀ j acc, (∀ k, k ∈ ks → (∃ x, load_set k true d = Ret (Ok x)) ∨ load_set k true d = Ret (Err e)) → (∃ k, k ∈ ks ∧ load_set k true d = Ret (Err e)) →
  set_fold o c j ks acc d = Ret (Err e).
Proof.
  induction ks as [|k ks IH]; intros j acc H (k0 & Hk0 & H0); [by apply elem_of_nil in Hk0|]. cbn [set_fold].
  destruct (H k (elem_of_list_here _ _)) as [([p s] & E)|E]; rewrite E; cbn [obind]; [|done].
  apply IH; [intros k' Hk'; apply H; by right|]. exists k0. split; [|done]. apply elem_of_cons in Hk0 as [->|Hk0]; [congruence|done].
Qed.
Lemma fold_elem o X Xs x : o ≠ Diff → x ∈ foldl (apply_op o) X Xs ↔ match o with Inter => ∀ Y, Y ∈ X :: Xs → x ∈ Y | _ => ∃ Y, Y ∈ X :: Xs ∧ x ∈ Y end.
Proof.
  intros Ho. revert X. induction Xs as [|Y Xs IH]; intros X; cbn [foldl].
  - destruct o; [done|..]; set_solver.
  - rewrite IH. destruct o; [done|..]; cbn [apply_op].
    + split; [intros H Z [->|[->|HZ]%elem_of_cons]%elem_of_cons|intros H Z [->|HZ]%elem_of_cons].
      * assert (x ∈ X ∩ Y) by (apply H; set_solver). set_solver.
      * assert (x ∈ X ∩ Y) by (apply H; set_solver). set_solver.
      * apply H. set_solver.
      * apply elem_of_intersection. split; apply H; set_solver.
      * apply H. set_solver.
    + split.
      * intros (Z & [->|HZ]%elem_of_cons & Hx); [|exists Z; set_solver]. apply elem_of_union in Hx as [Hx|Hx]; [exists X|exists Y]; set_solver.
      * intros (Z & [->|[->|HZ]%elem_of_cons]%elem_of_cons & Hx); [exists (X ∪ Y)|exists (X ∪ Y)|exists Z]; set_solver.
Qed.
(** putting the result in the place of some of the sources gives the result again *)
Lemma fold_again o (R : gset string) X Xs Y Ys : o ≠ Diff → R = foldl (apply_op o) X Xs → Forall2 (λ Z Z', Z' = Z ∨ Z' = R) (X :: Xs) (Y :: Ys) →
  foldl (apply_op o) Y Ys = R.
Proof.
  intros Ho E F. apply set_eq. intros x. rewrite fold_elem by done.
  assert (∀ x, x ∈ R ↔ match o with Inter => ∀ Y, Y ∈ X :: Xs → x ∈ Y | _ => ∃ Y, Y ∈ X :: Xs ∧ x ∈ Y end) as ER by (intros y; rewrite E; by apply fold_elem).
  destruct o; [done|..].
  - split.
    + intros H. apply ER. intros Z HZ. apply elem_of_list_lookup in HZ as [i HZ]. destruct (Forall2_lookup_l _ _ _ _ _ F HZ) as (Z' & HZ' & [->| ->]).
      * apply H. by eapply elem_of_list_lookup_2.
      * assert (x ∈ R) as Hx by by eapply H, elem_of_list_lookup_2. apply (proj1 (ER x) Hx). by eapply elem_of_list_lookup_2.
    + intros Hx Z' HZ. apply elem_of_list_lookup in HZ as [i HZ]. destruct (Forall2_lookup_r _ _ _ _ _ F HZ) as (Z & HZ' & [->| ->]); [|done].
      apply (proj1 (ER x) Hx). by eapply elem_of_list_lookup_2.
  - split.
    + intros (Z' & HZ & Hx). apply elem_of_list_lookup in HZ as [i HZ]. destruct (Forall2_lookup_r _ _ _ _ _ F HZ) as (Z & HZ' & [->| ->]); [|done].
      apply ER. exists Z. split; [by eapply elem_of_list_lookup_2|done].
    + intros Hx. pose proof (proj1 (ER x) Hx) as (Z & HZ & Hz). apply elem_of_list_lookup in HZ as [i HZ]. destruct (Forall2_lookup_l _ _ _ _ _ F HZ) as (Z' & HZ' & [->| ->]).
      * exists Z. split; [by eapply elem_of_list_lookup_2|done].
      * exists R. split; [by eapply elem_of_list_lookup_2|done].
Qed.

(** the state after the store *)
Definition stored (k : string) (s : mset) (d : db) : db := Db (sm_set (db_keys d) k (VSet (db_fresh d))) (<[db_fresh d := s]> (db_sets d)) (S (db_fresh d)).
Lemma stored_get k s d k' : dbinv d → sm_get (db_keys (stored k s d)) k' = if decide (k' = k) then Some (VSet (db_fresh d)) else sm_get (db_keys d) k'.
Proof.
  intros I. pose proof (inv_wf _ I) as W. unfold stored. cbn [db_keys]. rewrite sm_get_map by by apply sm_set_wf. rewrite sm_set_map by done.
  case_decide as E; [subst; by rewrite lookup_insert|]. rewrite lookup_insert_ne by done. by rewrite sm_get_map.
Qed.
Lemma stored_held k s d k' : dbinv d → held (stored k s d) k' = if decide (k' = k) then Some (CSet s) else held d k'.
Proof.
  intros I. unfold held. rewrite stored_get by done. case_decide as E.
  - cbn [stored db_sets]. by rewrite lookup_insert.
  - destruct (sm_get (db_keys d) k') as [[]|] eqn:G; try done. cbn [stored db_sets]. rewrite lookup_insert_ne; [done|].
    intros Hpf. destruct (inv_ptr _ I _ _ G) as [s0 H0]. pose proof (proj1 (inv_heap _ I _ _ H0)). lia.
Qed.
Lemma stored_load k s d k' ck : dbinv d → load_set k' ck (stored k s d) =
  if decide (k' = k) then Ret (if ck && (ms_len s =? 0) then Err ErrNil else Ok (db_fresh d, s)) else load_set k' ck d.
Proof.
  intros I. unfold load_set. rewrite stored_get by done. case_decide as E.
  - cbn [stored db_sets]. by rewrite lookup_insert.
  - destruct (sm_get (db_keys d) k') as [[]|] eqn:G; try done. cbn [stored db_sets]. rewrite lookup_insert_ne; [done|].
    intros Hpf. destruct (inv_ptr _ I _ _ G) as [s0 H0]. pose proof (proj1 (inv_heap _ I _ _ H0)). lia.
Qed.

Theorem C76_store c c' name k k1 k2 ks d d1 r : reachable ext d → to_lower name ∈ ["sinterstore"; "sunionstore"]%string →
  ask ext c (name :: k :: k1 :: k2 :: ks) d = Ret (d1, r) →
  ∃ d2 r2, ask ext c' (name :: k :: k1 :: k2 :: ks) d1 = Ret (d2, r2) ∧ (∀ k', same_view ext k' d1 d2) ∧
    (r2 = r ∨ k ∈ k1 :: k2 :: ks ∧ r = Some (RInt 0) ∧ r2 = Some (RError absent)).
Proof.
  intros Rd Hn H. apply reachable_inv in Rd as I. set (keys := k1 :: k2 :: ks) in *.
  assert (∃ o, op_of o ≠ Diff ∧ ∀ c d, ask ext c (name :: k :: keys) d = let* r := SOpStore o c k keys d in
    let* (d', r) := (match r with (d', Err e) => fail e d' | (d', Ok z) => reply (rsp_int z) d' end) in Ret (d', view (reply_of r))) as (o & Ho & A).
  { rewrite !elem_of_cons, elem_of_nil in Hn. destruct Hn as [Hn|[Hn|[]]]; [exists OpInter|exists OpUnion]; (split; [done|]); intros c1 e.
    - rewrite (ask_named ext c1 name _ (k :: keys) e (c_setop_store c1 OpInter) Hn eq_refl). unfold c_setop_store, keys. cbn [length fewer Nat.ltb Nat.leb Nat.eqb drop].
      change (arg (k :: k1 :: k2 :: ks) 0) with (Ret k). cbn [obind]. by destruct (SOpStore OpInter c1 k (k1 :: k2 :: ks) e) as [[]| |].
    - rewrite (ask_named ext c1 name _ (k :: keys) e (c_setop_store c1 OpUnion) Hn eq_refl). unfold c_setop_store, keys. cbn [length fewer Nat.ltb Nat.leb Nat.eqb drop].
      change (arg (k :: k1 :: k2 :: ks) 0) with (Ret k). cbn [obind]. by destruct (SOpStore OpUnion c1 k (k1 :: k2 :: ks) e) as [[]| |]. }
  rewrite A in H. unfold SOpStore in H. destruct (set_fold o c 0%nat keys ANil d) as [[acc|e]| |] eqn:E; [| |done..]; cbn [obind] in H.
  - (* stored *)
    destruct (fold_in _ _ _ _ I _ _ _ E) as ([|X1 Xs] & F); [by apply Forall2_nil_inv_r in F|].
    destruct (fold_top o c d k1 k2 ks X1 Xs F) as (s & E1 & Rs). fold keys in E1. rewrite E in E1. injection E1 as ->. cbn [obind alloc_set] in H.
    change (put k (VSet (db_fresh d)) _) with (stored k s d) in H. injection H as <- <-.
    assert (dbinv (stored k s d)) as I1.
    { eapply (ask_inv ext c (name :: k :: keys) d); [done|]. rewrite A. unfold SOpStore. rewrite E. cbn [obind alloc_set]. reflexivity. }
    destruct (decide (k ∈ keys ∧ ms_len s = 0)) as [[Hk Z0]|Hk].
    + exists (stored k s d). eexists. split; [|split; [|right; split; [done|]; split; [by rewrite Z0|reflexivity]]]; [|done].
      rewrite A. unfold SOpStore. rewrite (fold_err o c' (stored k s d) ErrNil keys); [done| |].
      * intros k' Hk'. rewrite stored_load by done. case_decide; [right; by rewrite Z0|]. left.
        apply elem_of_list_lookup in Hk' as [i Hi]. destruct (Forall2_lookup_l _ _ _ _ _ F Hi) as (X & _ & p & s' & dr & -> & _). by eexists.
      * exists k. split; [done|]. rewrite stored_load by done. rewrite decide_True by done. by rewrite Z0.
    + set (R := foldl (apply_op (op_of o)) X1 Xs) in *.
      assert (∃ Y1 Ys, Forall2 (loads (stored k s d)) keys (Y1 :: Ys) ∧ Forall2 (λ Z Z', Z' = Z ∨ Z' = R) (X1 :: Xs) (Y1 :: Ys)) as (Y1 & Ys & F2 & F3).
      { assert (∃ L, Forall2 (loads (stored k s d)) keys L ∧ Forall2 (λ Z Z', Z' = Z ∨ Z' = R) (X1 :: Xs) L) as ([|Y1 Ys] & F2 & F3); [|by apply Forall2_nil_inv_r in F2|by exists Y1, Ys].
        assert (∀ k', k' ∈ keys → k' = k → ms_len s ≠ 0) as Hk' by (intros k' H' -> Hz; by apply Hk).
        clear -F I Rs Hk'. revert F Hk'. generalize (X1 :: Xs). intros Zs F. induction F as [|q X qs Zs Hq F IH]; intros Hk'; [by exists []|].
        destruct IH as (L & F2 & F3); [intros k' H'; apply Hk'; by right|]. destruct (decide (q = k)) as [->|Hne].
        - exists (R :: L). split; constructor; auto. exists (db_fresh d), s, 0%nat. split; [|done]. rewrite stored_load, decide_True by done.
          rewrite (proj2 (Z.eqb_neq (ms_len s) 0)); [done|]. eapply Hk'; [by left|done].
        - exists (X :: L). split; constructor; auto. destruct Hq as (p & s' & dr & E & R'). exists p, s', dr. split; [|done]. by rewrite stored_load, decide_False. }
      destruct (fold_top o c' _ k1 k2 ks Y1 Ys F2) as (s2 & E2 & R2). fold keys in E2.
      rewrite (fold_again (op_of o) R X1 Xs Y1 Ys Ho eq_refl F3) in R2.
      assert (s2 = s) as -> by by eapply set_rep_inj.
      exists (stored k s (stored k s d)). eexists. split; [|split; [|by left]].
      * rewrite A. unfold SOpStore. rewrite E2. cbn [obind alloc_set]. reflexivity.
      * intros k'. apply held_view; [done| |].
        { eapply (ask_inv ext c' (name :: k :: keys) (stored k s d)); [done|]. rewrite A. unfold SOpStore. rewrite E2. cbn [obind alloc_set]. reflexivity. }
        rewrite !stored_held by done. by case_decide.
  - injection H as <- <-. exists d. eexists. split; [|split; [by intros k'|by left]].
    rewrite A. unfold SOpStore. rewrite (set_fold_any c' c d I o keys 0%nat ANil) by done. rewrite E. done.
Qed.
End store.

(** commands on hash tables store nothing: sending them again is harmless, and gets the same reply *)
Theorem C76_hash ext c name a d d1 r : reachable ext d → to_lower name ∈ hash_commands → ask ext c (name :: a) d = Ret (d1, r) → ask ext c (name :: a) d1 = Ret (d1, r).
Proof. intros R Hn H. pose proof (C37_nothing_stored ext c name a d d1 r R Hn H) as ->. exact H. Qed.

(** ** every other command that writes does harm when it is sent again: a history, a request, and a question whose answer differs *)
Definition harmful : list (list (list string) * list string * list string) :=
  [ ([], ["APPEND"; "k"; "x"], ["GET"; "k"]);
    ([], ["INCR"; "k"], ["GET"; "k"]);
    ([], ["INCRBY"; "k"; "2"], ["GET"; "k"]);
    ([], ["DECR"; "k"], ["GET"; "k"]);
    ([], ["DECRBY"; "k"; "2"], ["GET"; "k"]);
    ([], ["LPUSH"; "k"; "x"], ["LLEN"; "k"]);
    ([], ["RPUSH"; "k"; "x"], ["LLEN"; "k"]);
    ([["RPUSH"; "k"; "x"; "y"; "z"]], ["LPOP"; "k"], ["LLEN"; "k"]);
    ([["RPUSH"; "k"; "x"; "y"; "z"]], ["RPOP"; "k"], ["LLEN"; "k"]);
    ([["RPUSH"; "k"; "x"; "y"; "x"; "x"]], ["LREM"; "k"; "1"; "x"], ["LLEN"; "k"]);
    ([["RPUSH"; "k"; "x"; "y"]], ["LINSERT"; "k"; "BEFORE"; "y"; "n"], ["LLEN"; "k"]);
    ([["SADD"; "k"; "x"; "y"; "z"]], ["SPOP"; "k"; "1"], ["SMEMBERS"; "k"]);
    ([["SADD"; "k"; "x"; "y"]], ["SMOVE"; "k"; "k"; "x"], ["SCARD"; "k"]);
    ([["SADD"; "a"; "x"; "y"]; ["SADD"; "b"; "y"; "z"]], ["SDIFFSTORE"; "b"; "a"; "b"], ["SMEMBERS"; "b"]);
    ([["ZADD"; "k"; "1"; "x"]], ["ZADD"; "k"; "INCR"; "1"; "x"], ["ZSCORE"; "k"; "x"]);
    ([["ZADD"; "k"; "1"; "x"]], ["ZINCR"; "k"; "1"; "x"], ["ZSCORE"; "k"; "x"]);
    ([["ZADD"; "k"; "1"; "x"; "2"; "y"; "3"; "z"]], ["ZPOPMIN"; "k"; "1"], ["ZCARD"; "k"]);
    ([["ZADD"; "k"; "1"; "x"; "2"; "y"]], ["ZPOPMAX"; "k"; "1"], ["ZCARD"; "k"]) ]%string.
Definition last_reply (h : list (list string)) : option (option resp) := match replies h with Some rs => last rs | None => None end.
Theorem C76_others : ∀ h req q, (h, req, q) ∈ harmful →
  is_Some (last_reply (h ++ [req; q])) ∧ is_Some (last_reply (h ++ [req; req; q])) ∧ last_reply (h ++ [req; q]) ≠ last_reply (h ++ [req; req; q]).
Proof.
  assert (Forall (λ x, is_Some (last_reply (x.1.1 ++ [x.1.2; x.2])) ∧ is_Some (last_reply (x.1.1 ++ [x.1.2; x.1.2; x.2])) ∧ last_reply (x.1.1 ++ [x.1.2; x.2]) ≠ last_reply (x.1.1 ++ [x.1.2; x.1.2; x.2])) harmful) as H.
  { unfold harmful. repeat (apply Forall_cons; split; [split; [vm_compute; by eexists|]; split; [vm_compute; by eexists|]; vm_compute; discriminate|]). by apply Forall_nil. }
  intros h req q Hin. rewrite Forall_forall in H. by apply (H (h, req, q)).
Qed.
(** every implemented command is of one of these kinds *)
Theorem C76_all_kinds ext c name f : (name, f) ∈ implemented_commands ext c →
  name ∈ may_repeat ∨ name ∈ read_only ∨ name ∈ hash_commands ∨ name ∈ ["sinterstore"; "sunionstore"]%string ∨
  ∃ h w a q, (h, w :: a, q) ∈ harmful ∧ to_lower w = name.
Proof.
  intros H. assert (name ∈ (implemented_commands ext c).*1) as Hn by (apply elem_of_list_fmap; by exists (name, f)). clear H.
  assert (Forall (λ n, n ∈ may_repeat ∨ n ∈ read_only ∨ n ∈ hash_commands ∨ n ∈ ["sinterstore"; "sunionstore"]%string ∨
    n ∈ (λ x, match x.1.2 with w :: _ => to_lower w | [] => "" end) <$> harmful) (implemented_commands ext c).*1) as F.
  { apply (bool_decide_unpack _). by vm_compute. }
  rewrite Forall_forall in F. destruct (F _ Hn) as [?|[?|[?|[?|H]]]]; auto. do 4 right.
  apply elem_of_list_fmap in H as ([[h [|w a]] q] & -> & H); [|by exists h, w, a, q].
  exfalso. assert (Forall (λ x, x.1.2 ≠ []) harmful) as F2 by (apply (bool_decide_unpack _); by vm_compute). rewrite Forall_forall in F2. by apply (F2 _ H).
Qed.
Definition impatient : list (list string) :=
  [["MSET"; "k"; "1"; "j"; "2"]; ["MSET"; "k"; "1"; "j"; "2"]; ["SADD"; "s"; "x"; "y"]; ["SADD"; "s"; "x"; "y"]; ["sadd"; "s"; "x"; "y"];
   ["SADD"; "s"; "x"; "y"]; ["SREM"; "s"; "y"]; ["SREM"; "s"; "y"]; ["DEL"; "j"]; ["DEL"; "j"]; ["INCR"; "k"]; ["GET"; "k"]]%string.
Example C76_demo : let marks := [false; true; false; true; false; false; false; true; false; true; false; false] in
  copies None marks (plain_history impatient) ∧
  replies impatient = Some [Some (RStatus "OK"); Some (RStatus "OK"); Some (RInt 2); Some (RInt 0); Some (RInt 0); Some (RInt 0); Some (RInt 1); Some (RInt 0);
    Some (RInt 1); Some (RInt 0); Some (RInt 2); Some (RBulk "2")] ∧
  replies (unmarked marks impatient) = Some [Some (RStatus "OK"); Some (RInt 2); Some (RInt 0); Some (RInt 0); Some (RInt 1); Some (RInt 1); Some (RInt 2); Some (RBulk "2")].
Proof.
  cbv zeta. split; [|by split; vm_compute]. unfold impatient, plain_history. cbn [fmap list_fmap copies].
  repeat match goal with |- _ ∧ _ => split | |- True => done end; intros Hb; try discriminate Hb; (split; [reflexivity|]); apply (bool_decide_unpack _); by vm_compute.
Qed.
Example C76_store_demo : let h := [["SADD"; "a"; "x"; "y"]; ["SADD"; "b"; "y"; "z"]; ["SADD"; "c"; "w"]]%string in
  replies (h ++ [["SUNIONSTORE"; "a"; "a"; "b"]; ["SUNIONSTORE"; "a"; "a"; "b"]]%string) = Some [Some (RInt 2); Some (RInt 2); Some (RInt 1); Some (RInt 3); Some (RInt 3)] ∧
  replies (h ++ [["SINTERSTORE"; "a"; "a"; "c"]; ["SINTERSTORE"; "a"; "a"; "c"]]%string) = Some [Some (RInt 2); Some (RInt 2); Some (RInt 1); Some (RInt 0); Some (RError absent)].
Proof. by split; vm_compute. Qed.
