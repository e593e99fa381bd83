(** The set commands behave as SpecServer.v says. *)
From Verif Require Import GoBase GoBaseProofs ShardMap ShardMapProofs Float64 DList SkipList Db Protocol Redis SpecCmd SpecResp
  SpecServer SetRep DbInv ExecSteps Obs Sim SimStr.

Section sets.
Context (ext : Ext) (c : choices).

Lemma load_set_at d m k check : sim d m → match m !! k with
  | None => load_set k check d = Ret (Err ErrNil)
  | Some (ASet X dr) => ∃ p s, set_rep s X dr ∧ sm_get (db_keys d) k = Some (VSet p) ∧
      load_set k check d = Ret (if check && (counted X dr =? 0) then Err ErrNil else Ok (p, s))
  | Some ADamaged => True
  | Some _ => load_set k check d = Ret (Err ErrTypeMismatch)
  end.
Proof.
  intros S. unfold load_set. at_key S k; rewrite ?At; try done.
  rewrite Hp. exists p, st. split; [done|]. split; [done|]. cbn [deref obind]. by destruct Hs as (_ & _ & ->).
Qed.
Ltac at_set S k check :=
  let H := fresh "At" in
  pose proof (load_set_at _ _ k check S) as H;
  match type of H with context [?m !! k] => destruct (m !! k) as [[?s|?xs ?w|?X ?dr|?es ?gh|]|] eqn:? end;
  [rewrite H|rewrite H|destruct H as (?p & ?st & ?Hs & ?Hg & H); rewrite H|rewrite H|try (by apply fm_damage)|rewrite H]; cbn [obind andb].
Lemma sim_put_set' k p s X dr a d m : sim d m → sm_get (db_keys d) k = Some (VSet p) → m !! k = Some a → a ≠ ADamaged →
  set_rep s X dr → sim (put_set p s d) (<[k := ASet X dr]> m).
Proof. intros Sm Hg Hk Ha Hs. apply sim_put_set; try done; [by eapply set_rep_ok|]. congruence. Qed.

Lemma sim_add_members d m k vs : sim d m → meets
  (let* r := SAdd k vs d in match r with (d', Err e) => fail e d' | (d', Ok z) => reply (rsp_int z) d' end)
  (add_members k vs m).
Proof.
  intros S. apply (framed [k] d).
  { intros d' q H. apply obind_ret in H as ([d1 r] & H & E). assert (d' = d1) as -> by (by destruct r; injection E as <- _).
    by eapply (sadd_steps k [k] vs d d1 r); [apply S|left|]. }
  unfold SAdd, add_members. at_set S k false; try (by apply fm, meets_fails).
  - destruct (ms_add_all_ok vs st X dr 0 Hs) as (s' & -> & R). cbn [obind].
    apply fm, meets_says; [by eapply sim_put_set'|done].
  - destruct (ms_add_all_ok vs ms_new ∅ 0 0 set_rep_new) as (s' & E & R). unfold alloc_set. rewrite E. cbn [obind].
    apply fm, meets_says; [|done]. unfold put_set, put. cbn [db_keys db_sets db_fresh]. rewrite insert_insert.
    apply sim_new_set; [done|by eexists|done].
Qed.
Section one.
Context (d : db) (m : kspace) (S : sim d m).
Lemma sim_sadd a : meets (c_sadd a d) (s_sadd a m).
Proof. destruct a as [|k [|v a]]; [by apply meets_fails..|]. by apply (sim_add_members d m k (v :: a)). Qed.
Lemma sim_scard a : meets (c_scard a d) (s_scard a m).
Proof.
  destruct a as [|k a]; [by apply meets_fails|].
  apply (framed_ro d); [apply ro_scard|]. unfold c_scard, s_scard, SCard. simpl.
  at_set S k true; try (by apply fm, meets_fails); [|by apply fm, meets_says].
  destruct (Z.eqb_spec (counted X dr) 0) as [H0|H0]; cbn.
  - rewrite H0. by apply fm, meets_says.
  - apply fm, meets_says; [done|]. by destruct Hs as (_ & _ & ->).
Qed.
Lemma sim_srem a : meets (c_srem a d) (s_srem a m).
Proof.
  destruct a as [|k [|v a]]; [by apply meets_fails..|].
  apply (framed [k] d); [intros ??; by apply (w_srem (k :: v :: a) d), S|]. unfold c_srem, s_srem, SRem.
  change (fewer _ 2) with false. cbv iota. change (arg _ 0) with (Ret k). change (drop 1 (k :: v :: a)) with (v :: a). cbn [obind].
  at_set S k true; try (by apply fm, meets_fails); [|by apply fm, meets_says].
  destruct (Z.eqb_spec (counted X dr) 0) as [H0|H0]; cbn [obind].
  - apply counted_0 in H0 as [-> ->].
    assert (∅ ∖ list_to_set (v :: a) = (∅ : gset string)) as -> by set_solver.
    assert (∅ ∩ list_to_set (v :: a) = (∅ : gset string)) as -> by set_solver.
    rewrite insert_id by done. by apply fm, meets_says.
  - destruct (ms_rem_all_ok (v :: a) st X dr 0 Hs) as (s' & -> & R). cbn [obind].
    apply fm, meets_says; [by eapply sim_put_set'|done].
Qed.
Lemma sim_sismember a : meets (c_sismember a d) (s_sismember a m).
Proof.
  destruct a as [|k [|v a]]; [by apply meets_fails..|].
  apply (framed_ro d); [apply ro_sismember|]. unfold c_sismember, s_sismember, SIsMember. simpl.
  at_set S k true; try (by apply fm, meets_fails); [|by apply fm, meets_says].
  destruct (Z.eqb_spec (counted X dr) 0) as [H0|H0]; cbn.
  - apply counted_0 in H0 as [-> ->]. rewrite bool_decide_eq_false_2 by set_solver. by apply fm, meets_says.
  - apply fm, meets_says; [done|]. by rewrite (set_rep_has _ _ _ v Hs).
Qed.
Lemma sim_smembers a : meets (c_smembers c a d) (s_smembers a m).
Proof.
  destruct a as [|k a]; [by apply meets_fails|].
  apply (framed_ro d); [apply ro_smembers|]. unfold c_smembers, s_smembers, SMembers. simpl.
  at_set S k true; try (by apply fm, meets_fails).
  destruct (Z.eqb_spec (counted X dr) 0) as [H0|H0]; cbn; [by apply fm, meets_fails|].
  destruct (ms_keys_ok (ch_ord c 0%nat) st X dr Hs). by apply fm, meets_array.
Qed.
Lemma sim_smove a : meets (c_smove a d) (s_smove a m).
Proof.
  destruct a as [|s0 [|t [|v a]]]; [by apply meets_fails..|].
  apply (framed [s0; t] d); [intros ??; by apply (w_smove (s0 :: t :: v :: a) d), S|]. unfold c_smove, s_smove, SMove. cbn -[SAdd].
  at_set S s0 true; try (by apply fm, meets_fails).
  destruct (Z.eqb_spec (counted X dr) 0) as [H0|H0]; cbn -[SAdd].
  - apply counted_0 in H0 as [-> ->]. rewrite bool_decide_eq_false_2 by set_solver. by apply fm, meets_fails.
  - pose proof (set_rep_in _ _ _ v Hs) as Hin. rewrite sm_delete_if_exists_map by apply Hs.
    destruct (sm_map (ms_m st) !! v) eqn:E.
    + assert (v ∈ X) as Hv by (apply Hin; eauto). rewrite bool_decide_eq_true_2 by done. apply fm, sim_add_members.
      apply (sim_put_set' s0 p _ _ _ (ASet X dr)); [done..|]. destruct Hs as (W & D & L). split; [by apply sm_delete_wf|]. cbn [ms_m ms_len]. split.
      * by rewrite sm_delete_map, dom_delete_L, D by done.
      * rewrite L. unfold counted. rewrite gsize_diff by set_solver. rewrite size_singleton.
        assert (size X ≠ 0%nat) by (apply size_non_empty_iff; set_solver). lia.
    + assert (v ∉ X) by (rewrite Hin; by intros []). rewrite bool_decide_eq_false_2 by done. by apply fm, meets_fails.
Qed.
Lemma sim_spop a : meets (c_spop c a d) (s_spop a m).
Proof.
  destruct a as [|k r]; [by apply meets_fails|].
  apply (framed [k] d); [intros ??; by apply (w_spop c (k :: r) d), S|]. unfold c_spop, s_spop.
  change (fewer _ 1) with false. cbv iota. change (arg (k :: r) 0) with (Ret k).
  assert (opt_count (k :: r) 0 = Ret (match match r with [] => Some 0 | v :: _ => parse_int v end with
    Some n => Ok n | None => Err ErrNotInteger end)) as ->.
  { destruct r as [|v r]; [done|]. unfold opt_count. simpl. by destruct (parse_int v). }
  cbn [obind]. destruct (match r with [] => Some 0 | v :: _ => parse_int v end) as [n|]; [|by apply fm, meets_fails].
  unfold SPop. at_set S k true; try (by apply fm, meets_fails); [|by apply fm, meets_says].
  destruct (Z.eqb_spec (counted X dr) 0) as [H0|H0]; cbn [obind].
  - apply counted_0 in H0 as [-> ->]. apply fm, (meets_ret _ _ _ m); [|done]. exists []. split; [done|].
    split; [constructor|]. split; [intros x Hx; by apply elem_of_nil in Hx|]. split.
    + change (size (∅ : gset string)) with 0%nat. cbn [length]. lia.
    + rewrite insert_id; [done|]. rewrite Heqo. cbn [length list_to_set]. repeat f_equal. set_solver.
  - destruct (ms_pop_ok (ch_ord c 0%nat) n st X dr Hs) as (s' & l & -> & Hn & Hsub & Hlen & R). cbn [obind].
    apply fm, (meets_ret _ _ _ (<[k := ASet (X ∖ list_to_set l) (dr + length l)]> m)); [|by eapply sim_put_set'].
    exists l. rewrite view_strings. done.
Qed.

Lemma set_fold_some o j ks acc s A dr : acc_set acc = Some s → set_rep s A dr →
  match get_sets ks m with
  | None => True
  | Some (inl e) => set_fold o c j ks acc d = Ret (Err e)
  | Some (inr l) => ∃ acc', set_fold o c j ks acc d = Ret (Ok acc') ∧
      match ks with [] => acc' = acc | _ => ∃ s', acc' = AFresh s' ∧ set_rep s' (foldl (apply_op (op_of o)) A l) 0 end
  end.
Proof.
  revert j acc s A dr. induction ks as [|k ks IH]; intros j acc s A dr Ha R; cbn [get_sets set_fold].
  - by exists acc.
  - at_set S k true; try done.
    destruct (Z.eqb_spec (counted X dr0) 0) as [H0|H0]; cbn [obind]; [done|]. rewrite Ha.
    pose proof (ms_op_ok o c j s st A X dr dr0 R Hs) as R'.
    specialize (IH (Datatypes.S j) (AFresh (ms_op o c j s st)) _ _ _ eq_refl R').
    destruct (get_sets ks m) as [[e|l]|] eqn:El; [done| |done]. destruct IH as (acc' & E & H). exists acc'. split; [done|].
    destruct ks as [|k' ks']; [|done]. injection El as <-. subst acc'. by exists (ms_op o c j s st).
Qed.
Lemma set_fold_nil o j k ks :
  match get_sets (k :: ks) m with
  | None => True
  | Some (inl e) => set_fold o c j (k :: ks) ANil d = Ret (Err e)
  | Some (inr l) => match ks with
      | [] => True
      | _ => ∃ s', set_fold o c j (k :: ks) ANil d = Ret (Ok (AFresh s')) ∧ set_rep s' (combine_sets (op_of o) l) 0 end
  end.
Proof.
  cbn [get_sets set_fold]. at_set S k true; try done.
  destruct (Z.eqb_spec (counted X dr) 0) as [H0|H0]; cbn [obind]; [done|]. cbn [acc_set].
  pose proof (set_fold_some o (Datatypes.S j) ks (AObj p st) st X dr eq_refl Hs) as H.
  destruct (get_sets ks m) as [[e|l]|] eqn:El; [done| |done]. destruct ks as [|k' ks].
  - done.
  - destruct H as (acc' & -> & s' & -> & R). by exists s'.
Qed.
Lemma sim_setop o a : meets (c_setop c o a d) (s_setop (op_of o) a m).
Proof.
  destruct a as [|k1 [|k2 a]]; [by apply meets_fails|by apply meets_says|].
  apply (framed_ro d); [apply ro_setop|]. unfold c_setop, s_setop.
  change (fewer _ 1) with false. change (length (k1 :: k2 :: a) =? 1)%nat with false. cbv iota.
  pose proof (set_fold_nil o 0 k1 (k2 :: a)) as H. unfold SOp. destruct (get_sets (k1 :: k2 :: a) m) as [[e|l]|]; [| |by apply fm_damage].
  - rewrite H. cbn [obind]. destruct e; by first [apply fm, meets_says|apply fm, meets_fails].
  - destruct H as (s' & -> & R). cbn [obind acc_set].
    pose proof R as (W & D & L). rewrite L.
    destruct (Z.eqb_spec (counted (combine_sets (op_of o) l) 0) 0) as [H0|H0]; cbn [obind].
    + apply counted_0 in H0 as [H0 _]. apply fm, (meets_ret _ _ _ m); [|done]. split; [done|].
      exists []. split; [done|]. split; [constructor|]. intros x. rewrite H0. set_solver.
    + destruct (ms_keys_ok (ch_ord c (2 * length (k1 :: k2 :: a))%nat) s' _ _ R). by apply fm, meets_array.
Qed.
Lemma store_one o k k1 : meets (c_setop_store c o [k; k1] d) (unspecified [k; k1] m).
Proof.
  split; [done|]. intros d' q H.
  enough (∃ m', damages [k; k1] m m' ∧ sim d' m') as (m' & D & S') by (by exists m').
  unfold c_setop_store in H. cbn -[SOpStore] in H. apply obind_ret in H as ([d1 r] & H & E).
  assert (d' = d1) as -> by (by destruct r; injection E as <- _). clear E.
  unfold SOpStore in H. apply obind_ret in H as (l & Hl & H).
  destruct l as [acc|]; [|injection H as <- _; by apply sim_forget_all].
  cbn [set_fold] in Hl. apply obind_ret in Hl as (l1 & Hl1 & Hl). destruct l1 as [[p s]|]; [|done].
  cbn in Hl. injection Hl as <-. apply load_set_ok in Hl1 as [Hg _]. cbn in H. injection H as <- _.
  by apply sim_share.
Qed.
Lemma sim_setop_store o a : meets (c_setop_store c o a d) (s_setop_store (op_of o) a m).
Proof.
  destruct a as [|k [|k1 a]]; [by apply meets_fails..|].
  pose proof (set_fold_nil o 0 k1 a) as H. destruct a as [|k2 a].
  { pose proof (store_one o k k1) as F. unfold s_setop_store. destruct (get_sets [k1] m) as [[e|l]|]; [|done..].
    unfold c_setop_store, SOpStore. cbn [drop]. change (fewer _ 2) with false. cbn -[set_fold]. rewrite H. cbn.
    by apply meets_fails. }
  apply (framed [k] d). { intros d' q E. apply (w_setop_store c o (k :: k1 :: k2 :: a) d d' q); [apply S|done]. }
  unfold c_setop_store, s_setop_store.
  change (fewer _ 2) with false. change (length (k :: k1 :: k2 :: a) =? 1)%nat with false. cbv iota.
  change (arg _ 0) with (Ret k). change (drop 1 (k :: k1 :: k2 :: a)) with (k1 :: k2 :: a). cbn [obind].
  unfold SOpStore. destruct (get_sets (k1 :: k2 :: a) m) as [[e|l]|]; [| |by apply fm_damage].
  - rewrite H. cbn [obind]. by apply fm, meets_fails.
  - destruct H as (s' & -> & R). cbn [obind]. unfold alloc_set. cbn [obind].
    apply fm, meets_says.
    + unfold put. cbn [db_keys db_sets db_fresh]. apply sim_new_set; [done|by eexists|done].
    + destruct R as (W & D & L). rewrite L. unfold counted. change (Z.of_nat 0) with 0. by rewrite Z.add_0_r.
Qed.
End one.
End sets.
