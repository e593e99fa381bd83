(** C12-C15: keys, types, arguments. *)
From Verif Require Import GoBase GoBaseProofs ShardMap ShardMapProofs Float64 SkipList Db Protocol Redis Obs SpecCmd SpecResp SpecServer
  SpecKey KeyHist DbInv ExecSteps Sim SimMain PropBase Examples.

(** ** C14: EXISTS, TYPE, KEYS, DEL *)
(** [P] is the set of keys that EXISTS reports *)
Definition present (ext : Ext) (d : db) (P : gset string) : Prop :=
  ∀ k, answers ext d ["EXISTS"; k] (RInt (if bool_decide (k ∈ P) then 1 else 0)).
Definition types : list string := ["string"; "list"; "setIfNotExists"; "sortedSet"].
Definition type_is (ext : Ext) (d : db) (k t : string) : Prop := answers ext d ["TYPE"; k] (RStatus t).

Lemma dom_get d k : dbinv d → k ∈ dom (sm_map (db_keys d)) ↔ is_Some (sm_get (db_keys d) k).
Proof. intros I. rewrite elem_of_dom. by rewrite <- sm_get_map by apply I. Qed.
Lemma exists_get ext d k : dbinv d → answers ext d ["EXISTS"; k] (RInt (if sm_get (db_keys d) k then 1 else 0)).
Proof.
  intros I. pose proof (exists_answer ext d (coarse d) k (coarse_sim d I)) as H. rewrite coarse_at in H by done.
  by destruct (sm_get (db_keys d) k).
Qed.
Lemma present_iff ext d P : dbinv d → present ext d P ↔ P = dom (sm_map (db_keys d)).
Proof.
  intros I. split.
  - intros H. apply set_eq. intros k. rewrite dom_get by done.
    pose proof (answers_fun _ _ _ _ _ (H k) (exists_get ext d k I)) as E.
    destruct (sm_get (db_keys d) k); case_bool_decide; try done; split; try done; try (by intros [? ?]); by eexists.
  - intros -> k. pose proof (exists_get ext d k I) as H. pose proof (dom_get d k I) as D.
    destruct (sm_get (db_keys d) k); case_bool_decide as E; try done; exfalso; [apply E, D; eauto|apply D in E as [? ?]; done].
Qed.
Lemma type_get ext d k : type_is ext d k (match sm_get (db_keys d) k with Some v => type_name v | None => "none" end).
Proof.
  intros c. rewrite (ask_cmd ext c "TYPE" [k] d c_type eq_refl). unfold c_type. change (fewer [k] 1) with false.
  change (arg [k] 0) with (Ret k). cbn [obind]. unfold Type_. by destruct (sm_get (db_keys d) k).
Qed.
Lemma type_is_get ext d k t : type_is ext d k t → t = match sm_get (db_keys d) k with Some v => type_name v | None => "none" end.
Proof. intros H. pose proof (answers_fun _ _ _ _ _ H (type_get ext d k)) as E. by injection E. Qed.

Theorem C14_present ext d : reachable ext d → ∃ P, present ext d P ∧ ∀ P', present ext d P' → P' = P.
Proof.
  intros Hr. pose proof (reachable_inv _ _ Hr) as I. exists (dom (sm_map (db_keys d))). split; [by apply present_iff|].
  intros P H. by eapply present_iff.
Qed.
Theorem C14_type ext d P k : reachable ext d → present ext d P →
  if bool_decide (k ∈ P) then ∃ t, t ∈ types ∧ type_is ext d k t else type_is ext d k "none".
Proof.
  intros Hr HP. pose proof (reachable_inv _ _ Hr) as I. apply present_iff in HP as ->; [|done].
  pose proof (dom_get d k I) as D. pose proof (type_get ext d k) as T.
  case_bool_decide as E.
  - apply D in E as [v Hv]. rewrite Hv in T. exists (type_name v). split; [|done].
    destruct v; unfold types; simpl; rewrite !elem_of_cons; auto. by apply (inv_nohash d I) in Hv.
  - destruct (sm_get (db_keys d) k); [|done]. exfalso. apply E, D. eauto.
Qed.
(** TYPE names the type of the value: the commands of that type, and of no other, work on the key *)
Theorem C14_type_meaning ext d k : reachable ext d →
  (type_is ext d k "string" ↔ ∃ v, answers ext d ["GET"; k] (RBulk v)) ∧
  (type_is ext d k "list" ↔ (∃ n, answers ext d ["LLEN"; k] (RInt n)) ∧ answers ext d ["EXISTS"; k] (RInt 1)) ∧
  (type_is ext d k "setIfNotExists" ↔ (∃ n, answers ext d ["SCARD"; k] (RInt n)) ∧ answers ext d ["EXISTS"; k] (RInt 1)) ∧
  (type_is ext d k "sortedSet" ↔ (∃ n, answers ext d ["ZCARD"; k] (RInt n)) ∧ answers ext d ["EXISTS"; k] (RInt 1)) ∧
  (type_is ext d k "none" ↔ answers ext d ["EXISTS"; k] (RInt 0)).
Proof.
  intros Hr. pose proof (reachable_inv _ _ Hr) as I. pose proof (type_get ext d k) as T. pose proof (exists_get ext d k I) as X.
  assert (A : ∀ t, type_is ext d k t ↔ t = match sm_get (db_keys d) k with Some v => type_name v | None => "none" end).
  { intros t. split; [apply type_is_get|]. by intros ->. }
  assert (B : ∀ n, answers ext d ["EXISTS"; k] (RInt n) ↔ n = if sm_get (db_keys d) k then 1 else 0).
  { intros n. split; [|by intros ->]. intros H. pose proof (answers_fun _ _ _ _ _ H X) as E. by injection E. }
  rewrite !A. setoid_rewrite B. clear T X A B.
  assert (G : ∀ r, answers ext d ["GET"; k] r ↔ r = match sm_get (db_keys d) k with None => RNil | Some (VStr v) => RBulk v | _ => RError (err_msg ErrTypeMismatch) end).
  { intros r. assert (answers ext d ["GET"; k] (match sm_get (db_keys d) k with None => RNil | Some (VStr v) => RBulk v | _ => RError (err_msg ErrTypeMismatch) end)) as H.
    { intros c. rewrite (ask_cmd ext c "GET" [k] d c_get eq_refl). unfold c_get. change (fewer [k] 1) with false.
      change (arg [k] 0) with (Ret k). cbn [obind]. unfold Get. by destruct (sm_get (db_keys d) k) as [[]|]. }
    split; [intros H'; by pose proof (answers_fun _ _ _ _ _ H' H)|by intros ->]. }
  assert (L : ∀ r, answers ext d ["LLEN"; k] r ↔ r = match sm_get (db_keys d) k with None => RInt 0 | Some (VList l) => RInt (DList.dl_len l) | _ => RError (err_msg ErrTypeMismatch) end).
  { intros r. assert (answers ext d ["LLEN"; k] (match sm_get (db_keys d) k with None => RInt 0 | Some (VList l) => RInt (DList.dl_len l) | _ => RError (err_msg ErrTypeMismatch) end)) as H.
    { intros c. rewrite (ask_cmd ext c "LLEN" [k] d c_llen eq_refl). unfold c_llen. change (fewer [k] 1) with false.
      change (arg [k] 0) with (Ret k). cbn [obind]. unfold LLen, load_list. by destruct (sm_get (db_keys d) k) as [[]|]. }
    split; [intros H'; by pose proof (answers_fun _ _ _ _ _ H' H)|by intros ->]. }
  assert (Z : ∀ r, answers ext d ["ZCARD"; k] r ↔ r = match sm_get (db_keys d) k with None => RInt 0 | Some (VZSet z) => RInt (sl_len (zs_sl z)) | _ => RError (err_msg ErrTypeMismatch) end).
  { intros r. assert (answers ext d ["ZCARD"; k] (match sm_get (db_keys d) k with None => RInt 0 | Some (VZSet z) => RInt (sl_len (zs_sl z)) | _ => RError (err_msg ErrTypeMismatch) end)) as H.
    { intros c. rewrite (ask_cmd ext c "ZCARD" [k] d c_zcard eq_refl). unfold c_zcard. change (fewer [k] 1) with false.
      change (arg [k] 0) with (Ret k). cbn [obind]. unfold ZCard, load_zset. destruct (sm_get (db_keys d) k) as [[| | |z|]|]; try done.
      cbn [andb]. destruct (Z.eqb_spec (sl_len (zs_sl z)) 0) as [->|]; done. }
    split; [intros H'; by pose proof (answers_fun _ _ _ _ _ H' H)|by intros ->]. }
  assert (S : ∀ r, answers ext d ["SCARD"; k] r ↔ r = match sm_get (db_keys d) k with None => RInt 0 | Some (VSet p) => RInt (from_option ms_len 0 (db_sets d !! p)) | _ => RError (err_msg ErrTypeMismatch) end).
  { intros r. assert (answers ext d ["SCARD"; k] (match sm_get (db_keys d) k with None => RInt 0 | Some (VSet p) => RInt (from_option ms_len 0 (db_sets d !! p)) | _ => RError (err_msg ErrTypeMismatch) end)) as H.
    { intros c. rewrite (ask_cmd ext c "SCARD" [k] d c_scard eq_refl). unfold c_scard. change (fewer [k] 1) with false.
      change (arg [k] 0) with (Ret k). cbn [obind]. unfold SCard, load_set. destruct (sm_get (db_keys d) k) as [[| |p| |]|] eqn:E; try done.
      destruct (inv_ptr d I k p E) as [s Hs]. rewrite Hs. cbn [deref obind andb from_option].
      destruct (Z.eqb_spec (ms_len s) 0) as [->|]; done. }
    split; [intros H'; by pose proof (answers_fun _ _ _ _ _ H' H)|by intros ->]. }
  setoid_rewrite G. setoid_rewrite L. setoid_rewrite Z. setoid_rewrite S.
  destruct (sm_get (db_keys d) k) as [[]|] eqn:E; simpl; try (by apply (inv_nohash d I) in E); repeat split; try done; intros;
    repeat match goal with H : _ ∧ _ |- _ => destruct H | H : ∃ _, _ |- _ => destruct H end; simplify_eq; eauto.
Qed.
Theorem C14_keys ext d P p g : reachable ext d → present ext d P → glob_compile ext p = Some g →
  ∀ c, ∃ l, ask ext c ["KEYS"; p] d = Ret (d, Some (bulks l)) ∧ NoDup l ∧ ∀ k, k ∈ l ↔ k ∈ P ∧ g k = true.
Proof.
  intros Hr HP Hg c. pose proof (reachable_inv _ _ Hr) as I. apply present_iff in HP as ->; [|done].
  destruct (ask_query_all ext c ["KEYS"; p] d (coarse d) (λ k, is_Some (coarse d !! k) ∧ g k = true) (coarse_sim d I)) as (l & E & Hn & Hl);
    [by apply calm_other|done|done|spc; cbn [s_keys]; by rewrite Hg|].
  exists l. split; [done|]. split; [done|]. intros k. rewrite Hl, dom_get, coarse_at, fmap_is_Some by done. done.
Qed.
Theorem C14_del ext d P k : reachable ext d → present ext d P →
  does ext d ["DEL"; k] (RInt (if bool_decide (k ∈ P) then 1 else 0)) (λ d', present ext d' (P ∖ {[k]})).
Proof.
  intros Hr HP. pose proof (reachable_inv _ _ Hr) as I. apply present_iff in HP as ->; [|done].
  pose proof (coarse_sim d I) as S.
  eapply does_mono; [apply (does_says ext d (coarse d) "DEL" [k] _ (delete k (coarse d))); [done|done|]|].
  - spc. cbn [s_del]. rewrite coarse_at by done. pose proof (dom_get d k I) as D.
    destruct (sm_get (db_keys d) k) as [v|]; case_bool_decide as E; try done; exfalso; [apply E, D; eauto|apply D in E as [? ?]; done].
  - intros d' S' k'. cbn beta in S'. pose proof (exists_answer ext d' _ k' S') as H. destruct (decide (k' = k)) as [->|].
    + rewrite lookup_delete in H. by rewrite bool_decide_eq_false_2 by set_solver.
    + rewrite lookup_delete_ne, coarse_at in H by done. pose proof (dom_get d k' I) as D.
      destruct (sm_get (db_keys d) k'); simpl in H; case_bool_decide as E; try done; exfalso.
      * apply E. apply elem_of_difference. split; [apply D; eauto|set_solver].
      * apply elem_of_difference in E as [E _]. apply D in E as [? ?]. done.
Qed.
Example C14_demo : let d := after [["SET"; "a"; "1"]; ["LPUSH"; "b"; "x"]; ["SADD"; "c"; "y"]; ["DEL"; "a"]] in
  present ext0 d {["b"; "c"]} ∧ type_is ext0 d "b" "list".
Proof.
  intros d. assert (reachable ext0 d) as Hr by (apply after_reachable; by eexists).
  split; [|intros c; by vm_compute]. apply present_iff; [by eapply reachable_inv|].
  apply (bool_decide_eq_true_1 _). by vm_compute.
Qed.
(** a key whose pattern does not compile brings the server down: "KEYS always answers" is false *)
Theorem C14_bad_pattern_refuted ext d p c : glob_compile ext p = None → ask ext c ["KEYS"; p] d = Panic.
Proof. intros H. rewrite (ask_cmd ext c "KEYS" [p] d (c_keys ext c) eq_refl). unfold c_keys. change (fewer [p] 1) with false.
  change (arg [p] 0) with (Ret p). cbn [obind]. unfold Keys. by rewrite H.
Qed.
