(** The list and hash-table commands behave as SpecServer.v says. *)
From Verif Require Import GoBase GoBaseProofs ShardMap ShardMapProofs Float64 DList DListProofs SkipList Db Protocol Redis SpecCmd
  SpecResp SpecList SpecServer DbInv ExecSteps Obs Sim SimStr.

Lemma list_rep_len l xs w : list_rep l xs w → dl_len l = zlen xs.
Proof. destruct w; simpl; [apply Rep_len|intros [-> H]; by destruct H as (_ & -> & _)..]. Qed.
Lemma list_rep_sound l xs w : list_rep l xs w → xs ≠ [] → Rep l xs.
Proof. destruct w; simpl; [done|intros [-> _]; done..]. Qed.
Lemma zlen_eqb {A} (xs : list A) : (zlen xs =? 0) = match xs with [] => true | _ => false end.
Proof. by destruct xs. Qed.
Lemma dl_rpop_n_nil n l : dl_len l = 0 → dl_rpop_n n l = Ret (l, []).
Proof. intros H. unfold dl_rpop_n. rewrite H. simpl. rewrite H, andb_false_r. done. Qed.

Section lists.
Context (ext : Ext) (c : choices) (d : db) (m : kspace) (S : sim d m).

Lemma load_list_at k check : match m !! k with
  | None => load_list k check d = Err ErrNil
  | Some (AList xs w) => ∃ l, list_rep l xs w ∧ sm_get (db_keys d) k = Some (VList l) ∧
      load_list k check d = if check && (match xs with [] => true | _ => false end) then Err ErrNil else Ok l
  | Some ADamaged => True
  | Some _ => load_list k check d = Err ErrTypeMismatch
  end.
Proof.
  unfold load_list. at_key S k; rewrite ?At; try done.
  exists l. split; [done|]. split; [done|]. by rewrite (list_rep_len _ _ _ Hl), zlen_eqb.
Qed.
Ltac at_list k check :=
  let H := fresh "At" in
  pose proof (load_list_at k check) as H;
  destruct (m !! k) as [[?s|?xs ?w|?X ?dr|?es ?gh|]|] eqn:?;
  [rewrite H|destruct H as (?l & ?Hl & ?Hg & H); rewrite H|rewrite H|rewrite H|by apply fm_damage|rewrite H].

Lemma sim_lpush a : meets (c_lpush a d) (s_push true a m).
Proof.
  destruct a as [|k [|v a]]; [by apply meets_fails..|].
  apply (framed [k] d); [exact (w_lpush _ d)|]. unfold c_lpush, s_push, LPush. cbn -[dl_lpush_all reverse].
  at_list k false; try (by apply fm, meets_fails).
  - cbn -[dl_lpush_all reverse]. destruct w; try by apply fm_damage.
    + pose proof (lpush_all_ok (v :: a) l xs Hl) as R. apply fm, meets_says; [by apply sim_put_list|].
      by rewrite (Rep_len _ _ R).
    + destruct Hl as [-> Hl]. pose proof (lpush_all_HEmpty v a l Hl) as R. unfold push_to. rewrite app_nil_r.
      apply fm, meets_says; [by apply sim_put_list|]. by rewrite (Rep_len _ _ R).
  - pose proof (lpush_all_ok (v :: a) _ _ Rep_new) as R. apply fm, meets_says; [by apply sim_put_list|].
    by rewrite (Rep_len _ _ R).
Qed.
Lemma sim_rpush a : meets (c_rpush a d) (s_push false a m).
Proof.
  destruct a as [|k [|v a]]; [by apply meets_fails..|].
  apply (framed [k] d); [exact (w_rpush _ d)|]. unfold c_rpush, s_push, RPush. cbn -[dl_rpush_all].
  at_list k false; try (by apply fm, meets_fails).
  - cbn -[dl_rpush_all]. destruct w; try by apply fm_damage.
    + pose proof (rpush_all_ok (v :: a) l xs Hl) as R. apply fm, meets_says; [by apply sim_put_list|].
      by rewrite (Rep_len _ _ R).
    + destruct Hl as [-> Hl]. pose proof (rpush_all_TEmpty v a l Hl) as R. unfold push_to. change ([] ++ v :: a) with (v :: a).
      apply fm, meets_says; [by apply sim_put_list|]. by rewrite (Rep_len _ _ R).
  - pose proof (rpush_all_ok (v :: a) _ _ Rep_new) as R. apply fm, meets_says; [by apply sim_put_list|].
    by rewrite (Rep_len _ _ R).
Qed.

Lemma pop_count_arg k r : pop_count (k :: r) = Ret (match pop_arg r with Some n => Ok n | None => Err ErrValueOutOfRange end).
Proof.
  unfold pop_count. destruct r as [|v r]; [done|]. simpl. destruct (parse_int v) as [n|]; [|done].
  by destruct (n <=? 0).
Qed.
Lemma sim_lpop a : meets (c_lpop a d) (s_pop true a m).
Proof.
  destruct a as [|k r]; [by apply meets_fails|].
  apply (framed [k] d); [exact (w_lpop _ d)|]. unfold c_lpop. change (fewer (k :: r) 1) with false. cbv iota.
  rewrite pop_count_arg. cbn [obind]. unfold s_pop. destruct (pop_arg r) as [n|]; [|by apply fm, meets_fails].
  cbn. unfold LPop. at_list k true; try (by apply fm, meets_fails).
  - destruct xs as [|x xs]; [by apply fm, meets_says|]. cbn [andb].
    destruct (lpop_n_ok n l (x :: xs)) as (l' & E & R); [by eapply list_rep_sound|].
    rewrite E. cbn [obind pop_reply]. apply fm, meets_says; [by apply sim_put_list|]. apply view_strings.
  - by apply fm, meets_says.
Qed.
Lemma sim_rpop a : meets (c_rpop a d) (s_pop false a m).
Proof.
  destruct a as [|k r]; [by apply meets_fails|].
  apply (framed [k] d); [exact (w_rpop _ d)|]. unfold c_rpop. change (fewer (k :: r) 1) with false. cbv iota.
  rewrite pop_count_arg. cbn [obind]. unfold s_pop. destruct (pop_arg r) as [n|] eqn:Hn; [|by apply fm, meets_fails].
  cbn. unfold RPop. at_list k false; try (by apply fm, meets_fails).
  - destruct xs as [|x xs]; cbn [andb].
    + rewrite dl_rpop_n_nil by (by rewrite (list_rep_len _ _ _ Hl)). cbn [obind pop_reply].
      apply fm, (meets_ret _ _ _ m); [done|].
      rewrite <- (insert_id m k (AList [] w)) by done. by apply sim_put_list.
    + destruct (rpop_n_ok n l (x :: xs)) as (l' & E & R); [by eapply list_rep_sound|].
      rewrite E. cbn [obind pop_reply]. apply fm, meets_says; [by apply sim_put_list|]. apply view_strings.
  - by apply fm, meets_says.
Qed.
Lemma sim_llen a : meets (c_llen a d) (s_llen a m).
Proof.
  destruct a as [|k r]; [by apply meets_fails|].
  apply (framed_ro d); [apply ro_llen|]. unfold c_llen, s_llen, LLen. simpl.
  at_list k false; try (by apply fm, meets_fails); [|by apply fm, meets_says]. apply fm, meets_says; [done|].
  by rewrite (list_rep_len _ _ _ Hl).
Qed.
Lemma sim_lrange a : meets (c_lrange a d) (s_lrange a m).
Proof.
  destruct a as [|k [|s1 [|s2 a]]]; [by apply meets_fails..|].
  apply (framed_ro d); [apply ro_lrange|]. unfold c_lrange, s_lrange, LRange. simpl.
  destruct (parse_int s1) as [i|]; [|by apply fm, meets_fails]. destruct (parse_int s2) as [j|]; [|by apply fm, meets_fails].
  at_list k true; try (by apply fm, meets_fails); [|by apply fm, meets_says].
  destruct xs as [|x xs]; cbn [andb].
  - rewrite window_nil. by apply fm, meets_says.
  - rewrite (lrange_ok i j l (x :: xs)) by (by eapply list_rep_sound). cbn [obind].
    destruct (window i j (x :: xs)) as [|y ys] eqn:E; (apply fm, meets_says; [done|]); [done|apply view_strings].
Qed.
Lemma sim_lrem a : meets (c_lrem a d) (s_lrem a m).
Proof.
  destruct a as [|k [|s1 [|v a]]]; [by apply meets_fails..|].
  apply (framed [k] d); [exact (w_lrem _ d)|]. unfold c_lrem, s_lrem, LRem. simpl.
  destruct (parse_int s1) as [n|] eqn:Hn; [|by apply fm, meets_fails].
  at_list k true; try (by apply fm, meets_fails); [|by apply fm, meets_says].
  destruct xs as [|x xs]; [by apply fm, meets_says|]. cbn [andb].
  destruct (Z.eqb_spec n (- two63)) as [->|Hmin].
  { destruct (lrem_min v l (x :: xs)) as (l' & E & R); [by eapply list_rep_sound|done|]. rewrite E. cbn [obind].
    apply fm, meets_says; [|done]. replace m with (<[k := AList (x :: xs) Sound]> m); [by apply sim_put_list|].
    apply insert_id. destruct w; [done|by destruct Hl..]. }
  pose proof (parse_int_range _ _ Hn).
  destruct (lrem_ok n v l (x :: xs)) as (l' & E & R1 & R2); [by eapply list_rep_sound|done|lia|].
  rewrite E. cbn [obind]. apply fm, meets_says; [|done]. apply sim_put_list; [done|].
  destruct (lrem_result n v (x :: xs)) as [|y ys]; [|by apply R1].
  specialize (R2 eq_refl). destruct (n <? 0); done.
Qed.
Lemma nth_elem_nil i : nth_elem i [] = None.
Proof.
  unfold nth_elem. cbn [length]. change (Z.of_nat 0) with 0. generalize (norm_index 0 i). intros z. cbv zeta.
  destruct (Z.ltb_spec z 0); [done|]. destruct (Z.leb_spec 0 z); [done|lia].
Qed.
Lemma sim_lindex a : meets (c_lindex a d) (s_lindex a m).
Proof.
  destruct a as [|k [|s1 a]]; [by apply meets_fails..|].
  apply (framed_ro d); [apply ro_lindex|]. unfold c_lindex, s_lindex, LIndex. simpl.
  destruct (parse_int s1) as [n|] eqn:Hn; [|by apply fm, meets_fails].
  at_list s1 true; try (by apply fm, meets_fails); [|by apply fm, meets_says].
  destruct xs as [|x xs]; cbn [andb].
  - rewrite nth_elem_nil. by apply fm, meets_says.
  - rewrite (lindex_ok n l (x :: xs)) by (by eapply list_rep_sound). cbn [obind].
    destruct (nth_elem n (x :: xs)); by apply fm, meets_says.
Qed.
Lemma set_elem_nil i v : set_elem i v [] = None.
Proof.
  unfold set_elem. cbn [length]. change (Z.of_nat 0) with 0. generalize (norm_index 0 i). intros z. cbv zeta.
  destruct (Z.ltb_spec z 0); [done|]. destruct (Z.leb_spec 0 z); [done|lia].
Qed.
Lemma sim_lset a : meets (c_lset a d) (s_lset a m).
Proof.
  destruct a as [|k [|s1 [|v a]]]; [by apply meets_fails..|].
  apply (framed [k] d); [exact (w_lset _ d)|]. unfold c_lset, s_lset, LSet. simpl.
  destruct (parse_int s1) as [n|] eqn:Hn; [|by apply fm, meets_fails].
  at_list k true; try (by apply fm, meets_fails).
  destruct xs as [|x xs]; cbn [andb].
  - rewrite set_elem_nil. by apply fm, meets_fails.
  - pose proof (list_rep_sound _ _ _ Hl) as R. pose proof (lset_ok n v l (x :: xs) (R ltac:(done))) as H.
    destruct (set_elem n v (x :: xs)) as [ys|].
    + destruct H as (l' & E & R'). rewrite E. cbn [obind]. apply fm, meets_says; [by apply sim_put_list|done].
    + rewrite H. cbn [obind]. apply fm, meets_fails. rewrite <- (insert_id m k (AList (x :: xs) w)) by done.
      by apply sim_put_list.
Qed.
Lemma sim_linsert a : meets (c_linsert a d) (s_linsert a m).
Proof.
  destruct a as [|k [|w [|p [|v a]]]]; [by apply meets_fails..|].
  apply (framed [k] d); [exact (w_linsert _ d)|]. unfold c_linsert, s_linsert. cbn -[LInsert].
  set (go := λ (ins : list string → option (list string)), match m !! k with
    | None => fails ErrNil m
    | Some (AList xs _) => match ins xs with
        | None => fails ErrNil m | Some ys => says (RInt (zlen ys)) (<[k := AList ys Sound]> m) end
    | Some x => other x [k] m end).
  assert (G : ∀ fl ins, fl = 1 ∨ fl = -1 →
    (∀ xs : list string, ins xs = if 0 <? fl then insert_after p v xs else insert_before p v xs) → fmeets [k] d
    (let* r := LInsert k p v fl d in match r with (d', Err e) => fail e d' | (d', Ok z) => reply (rsp_int z) d' end) (go ins)).
  { intros fl ins Hfl Hins. unfold go, LInsert. at_list k true; try (by apply fm, meets_fails).
    destruct xs as [|x xs]; cbn [andb].
    - rewrite Hins. destruct (0 <? fl); by apply fm, meets_fails.
    - pose proof (list_rep_sound _ _ _ Hl) as R. pose proof (linsert_ok p v fl l (x :: xs) (R ltac:(done)) Hfl) as H.
      rewrite <- Hins in H. destruct (ins (x :: xs)) as [ys|].
      + destruct H as (l' & E & R'). rewrite E. cbn [obind]. apply fm, meets_says; [by apply sim_put_list|].
        by rewrite (Rep_len _ _ R').
      + rewrite H. cbn [obind]. apply fm, meets_fails. rewrite <- (insert_id m k (AList (x :: xs) w0)) by done.
        by apply sim_put_list. }
  destruct (String.eqb (to_lower w) "after"); [apply G; [by left|done]|].
  destruct (String.eqb (to_lower w) "before"); [apply G; [by right|done]|]. by apply fm, meets_fails.
Qed.
End lists.

(** ** hash tables *)
Section hash.
Context (ext : Ext) (c : choices) (d : db) (m : kspace) (S : sim d m).
Lemma load_hash_at k check : load_hash k check d = match m !! k with None => Err ErrNil | Some _ => Err ErrTypeMismatch end.
Proof.
  unfold load_hash. at_key S k; rewrite At; try done. pose proof (sim_not_hash d m k) as N.
  destruct v; try done. by destruct (N h S).
Qed.
Ltac hash2 := match goal with |- meets (_ ?a d) _ => destruct a as [|k [|f a]]; [by apply meets_fails..|] end.
Ltac hash1 := match goal with |- meets (_ ?a d) _ => destruct a as [|k a]; [by apply meets_fails|] end.
Ltac hash3 := match goal with |- meets (_ ?a d) _ => destruct a as [|k [|f [|v a]]]; [by apply meets_fails..|] end.
Ltac fin := rewrite load_hash_at; unfold absent_or; destruct (m !! _); [by apply meets_fails|by apply meets_says].
Lemma sim_hdel a : meets (c_hdel a d) (s_hdel a m).
Proof. hash2. unfold c_hdel, HDel, s_hdel. simpl. fin. Qed.
Lemma sim_hexists a : meets (c_hexists a d) (s_hdel a m).
Proof. hash2. unfold c_hexists, HExists, s_hdel. simpl. fin. Qed.
Lemma sim_hget a : meets (c_hget ext a d) (s_hget a m).
Proof. hash2. unfold c_hget, HGet, s_hget. simpl. fin. Qed.
Lemma sim_hgetall a : meets (c_hgetall c a d) (s_hgetall a m).
Proof. hash1. unfold c_hgetall, HGetAll, s_hgetall. simpl. rewrite load_hash_at. destruct (m !! k); by apply meets_says. Qed.
Lemma sim_hkeys a : meets (c_hkeys c a d) (s_hkeys a m).
Proof. hash1. unfold c_hkeys, HKeys, s_hkeys. simpl. fin. Qed.
Lemma sim_hvals a : meets (c_hvals ext c a d) (s_hkeys a m).
Proof. hash1. unfold c_hvals, HVals, s_hkeys. simpl. fin. Qed.
Lemma sim_hlen a : meets (c_hlen a d) (s_hlen a m).
Proof. hash1. unfold c_hlen, HLen, s_hlen. simpl. fin. Qed.
Lemma mapM_nils n : mapM view_item ((λ v, RI v TBulk) <$> replicate n INil) = Some (replicate n RNil).
Proof. apply mapM_Some. induction n as [|n IH]; constructor; done. Qed.
Lemma sim_hmget a : meets (c_hmget ext a d) (s_hmget a m).
Proof.
  hash2. unfold c_hmget, HMGet, s_hmget. change (fewer _ 2) with false. cbv iota.
  change (arg (k :: f :: a) 0) with (Ret k). cbn [obind]. rewrite load_hash_at. unfold absent_or.
  destruct (m !! k); [by apply meets_fails|]. apply meets_says; [done|].
  change (drop 1 (k :: f :: a)) with (f :: a). cbn [length].
  change (RArr <$> mapM view_item ((λ v, RI v TBulk) <$> replicate (Datatypes.S (length a)) INil) =
    Some (RArr (replicate (Datatypes.S (length a)) RNil))).
  by rewrite mapM_nils.
Qed.
Lemma hset_len : ∀ l h n, (ht_set_all (hset_args ext l) false h n).2 = n + Z.of_nat (length l / 2).
Proof.
  clear. fix IH 1. intros [|f [|v l]] h n; [simpl; lia|simpl; lia|]. cbn [hset_args ht_set_all].
  unfold ht_set at 1. rewrite IH. cbn [length].
  replace (Datatypes.S (Datatypes.S (length l))) with (length l + 1 * 2)%nat by lia. rewrite Nat.div_add by lia. lia.
Qed.
Lemma sim_hset a : meets (c_hset ext a d) (s_hset a m).
Proof.
  hash3. unfold c_hset, HSet, s_hset. change (fewer _ 3) with false. cbv iota.
  change (arg _ 0) with (Ret k). cbn [obind]. rewrite load_hash_at. unfold absent_or.
  destruct (m !! k); [by apply meets_fails|]. apply meets_says; [done|]. rewrite hset_len. done.
Qed.
Lemma sim_hmset a : meets (c_hmset ext a d) (s_hmset a m).
Proof.
  hash3. unfold c_hmset, HSet, s_hmset. change (fewer _ 3) with false. cbv iota.
  change (arg _ 0) with (Ret k). cbn [obind]. fin.
Qed.
Lemma sim_hsetnx a : meets (c_hsetnx ext a d) (s_hsetnx a m).
Proof.
  hash3. unfold c_hsetnx, HSet, s_hsetnx. cbn -[ht_set_all]. rewrite load_hash_at. unfold absent_or.
  destruct (m !! k); [by apply meets_fails|]. apply meets_says; [done|].
  cbn [ht_set_all]. unfold ht_set. change (ht_m ht_new) with (@sm_new hval).
  rewrite sm_set_if_absent_map by apply sm_wf_new. rewrite sm_new_map, lookup_empty. done.
Qed.
Lemma sim_hincrby a : meets (c_hincrby a d) (s_hincrby a m).
Proof.
  hash3. unfold c_hincrby, HIncrBy, s_hincrby. simpl. destruct (parse_int v) as [i|]; [|by apply meets_fails].
  rewrite load_hash_at. unfold absent_or. destruct (m !! k); [by apply meets_fails|].
  unfold ht_incr. change (ht_m ht_new) with (@sm_new hval).
  rewrite sm_upsert_map by apply sm_wf_new. rewrite sm_new_map, lookup_empty. by apply meets_says.
Qed.
Lemma sim_hincrbyfloat a : meets (c_hincrbyfloat ext a d) (s_hincrbyfloat ext a m).
Proof.
  hash3. unfold c_hincrbyfloat, HIncrByFloat, s_hincrbyfloat. simpl. destruct (parse_float ext v) as [i|]; [|by apply meets_fails].
  rewrite load_hash_at. unfold absent_or. destruct (m !! k); [by apply meets_fails|].
  unfold ht_incr_float. change (ht_m ht_new) with (@sm_new hval).
  rewrite sm_upsert_map by apply sm_wf_new. rewrite sm_new_map, lookup_empty. by apply meets_says.
Qed.
End hash.
