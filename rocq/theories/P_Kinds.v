(** C73: every reply is of a form the command promises; C74: what an error reply says about the state. *)
From Verif Require Import GoBase GoBaseProofs ShardMap ShardMapProofs Float64 DList SkipList Db Protocol Redis Obs SpecCmd SpecResp SpecKinds
  SetRep DbInv ExecSteps PropBase Examples P_Keys P_Hash Server SpecServing P_Serve Drive P_ServeMore P_Requests P_Sets Stream SpecStream Server1 SpecServing1 ServerProofs P_Serve1.

Definition kept (F : list form) (E : list string) (quiet : bool) (a : list string) (d d' : db) (r : res response) : Prop :=
  match r with
  | Err e => err_msg e ∈ E ∧ (quiet = true → d' = d)
  | Ok rsp => ∃ v, view rsp = Some v ∧ (∀ m, v ≠ RError m) ∧ Exists (has_form a v) F
  end.
Lemma view_words vs : view (rsp_strings vs) = Some (bulks vs).
Proof.
  unfold rsp_strings, view, bulks. cbn [rsp_items rsp_array]. destruct vs as [|x vs]; [done|].
  assert (∀ l, mapM view_item ((λ v, RI (IStr v) TBulk) <$> l) = Some (RBulk <$> l)) as H; [|by rewrite H].
  induction l as [|y l IH]; [done|]. rewrite !fmap_cons. cbn [mapM]. by rewrite IH.
Qed.
Lemma put_same k v d : dbinv d → sm_get (db_keys d) k = Some v → put k v d = d.
Proof.
  intros I H. destruct d as [m s f]. unfold put. cbn [db_keys db_sets db_fresh] in *. f_equal. pose proof (inv_wf _ I) as W. cbn [db_keys] in W.
  assert (sm_wf (sm_set m k v)) as W' by by apply sm_set_wf. apply sm_map_eq; [done..|]. rewrite sm_set_map by done. apply insert_id. by rewrite <- sm_get_map.
Qed.
Lemma load_list_at k ck d l : load_list k ck d = Ok l → sm_get (db_keys d) k = Some (VList l).
Proof. unfold load_list. destruct (sm_get _ k) as [[]|]; try done. destruct (_ && _); [done|]. by intros [= ->]. Qed.

Lemma load_list_err k ck d e : load_list k ck d = Err e → e = ErrNil ∨ e = ErrTypeMismatch.
Proof. unfold load_list. destruct (sm_get _ k) as [[]|]; try destruct (_ && _); intros [= <-]; auto. Qed.
Lemma load_zset_err k ck d e : load_zset k ck d = Err e → e = ErrNil ∨ e = ErrTypeMismatch.
Proof. unfold load_zset. destruct (sm_get _ k) as [[]|]; try destruct (_ && _); intros [= <-]; auto. Qed.
Lemma load_hash_err k ck d e : load_hash k ck d = Err e → e = ErrNil ∨ e = ErrTypeMismatch.
Proof. unfold load_hash. destruct (sm_get _ k) as [[]|]; try destruct (_ && _); intros [= <-]; auto. Qed.
Lemma load_hash_not k ck d h : dbinv d → load_hash k ck d ≠ Ok h.
Proof. intros I. unfold load_hash. pose proof (inv_nohash d I k) as N. destruct (sm_get _ k) as [[]|]; try done. by destruct (N h0). Qed.
Lemma load_set_err k ck d e : load_set k ck d = Ret (Err e) → e = ErrNil ∨ e = ErrTypeMismatch.
Proof.
  unfold load_set. destruct (sm_get _ k) as [[]|]; try (intros H; inversion H; by auto). intros H. apply obind_ret in H as (s & _ & H). destruct (_ && _); inversion H; auto.
Qed.
Lemma set_fold_err o c keys d : ∀ j acc e, set_fold o c j keys acc d = Ret (Err e) → e = ErrNil ∨ e = ErrTypeMismatch.
Proof.
  induction keys as [|k keys IH]; intros j acc e H; cbn [set_fold] in H; [done|]. apply obind_ret in H as (l & Hl & H). destruct l as [[p s]|e1]; [by eapply IH|]. injection H as <-. by eapply load_set_err.
Qed.
Lemma zadd_args_err ext l : ∀ fl ms e, zadd_args ext l fl ms = Err e → e = ErrValueOutOfRange.
Proof.
  assert (∀ n l fl ms e, (length l ≤ n)%nat → zadd_args ext l fl ms = Err e → e = ErrValueOutOfRange) as H; [|by intros; eapply H].
  induction n as [|n IH]; intros [|x [|y r]] fl ms e Hn H; try discriminate H; [cbn [length] in Hn; lia|].
  assert (length (y :: r) ≤ n ∧ length r ≤ n)%nat as [N1 N2] by (cbn [length] in *; lia).
  change (zadd_args ext (x :: y :: r) fl ms) with (if String.eqb (to_lower x) "xx" then zadd_args ext (y :: r) (ZF (zf_incr fl) (zf_nx fl) true) ms
      else if String.eqb (to_lower x) "nx" then zadd_args ext (y :: r) (ZF (zf_incr fl) true (zf_xx fl)) ms
      else if String.eqb (to_lower x) "incr" then zadd_args ext (y :: r) (ZF true (zf_nx fl) (zf_xx fl)) ms
      else match parse_float ext x with None => Err ErrValueOutOfRange | Some f => zadd_args ext r fl (ms ++ [(f, y)]) end) in H.
  destruct (String.eqb _ "xx"); [by apply (IH _ _ _ _ N1 H)|]. destruct (String.eqb _ "nx"); [by apply (IH _ _ _ _ N1 H)|]. destruct (String.eqb _ "incr"); [by apply (IH _ _ _ _ N1 H)|].
  destruct (parse_float ext x); [by apply (IH _ _ _ _ N2 H)|by injection H].
Qed.
Lemma ht_incr_ok f i e : (ht_incr f i ht_new).2 ≠ Err e.
Proof. unfold ht_incr. cbn [ht_new ht_m ht_len]. rewrite sm_upsert_map, sm_new_map, lookup_empty by apply sm_wf_new. done. Qed.
Lemma ht_incr_float_ok f i e : (ht_incr_float f i ht_new).2 ≠ Err e.
Proof. unfold ht_incr_float. cbn [ht_new ht_m ht_len]. rewrite sm_upsert_map, sm_new_map, lookup_empty by apply sm_wf_new. done. Qed.

Section kinds.
Context (ext : Ext) (c : choices).
Ltac form := first [ eexists; split; [reflexivity|]; split; [done|] | eexists; split; [apply view_words|]; split; [done|] ];
  first [ apply Exists_cons_hd; first [ by eexists | done | by exists [] | eexists; split; [|reflexivity]; set_solver+ ]
        | apply Exists_cons_tl, Exists_cons_hd; first [ by eexists | done ] ].
Ltac errs := split; [first [by repeat constructor | set_solver+] | try done].
Ltac loads := repeat match goal with
  | H : load_list _ _ _ = Err ?e |- _ => apply load_list_err in H as [H|H]; first [discriminate H | try subst e]
  | H : load_zset _ _ _ = Err ?e |- _ => apply load_zset_err in H as [H|H]; first [discriminate H | try subst e]
  | H : load_hash _ _ _ = Err ?e |- _ => apply load_hash_err in H as [H|H]; first [discriminate H | try subst e]
  | H : load_hash _ _ _ = Ok _ |- _ => exfalso; revert H; by apply load_hash_not
  | H : load_set _ _ _ = Ret (Err ?e) |- _ => apply load_set_err in H as [H|H]; first [discriminate H | try subst e]
  | H : set_fold _ _ _ _ _ _ = Ret (Err ?e) |- _ => apply set_fold_err in H as [H|H]; first [discriminate H | try subst e]
  | H : zadd_args _ _ _ _ = Err ?e |- _ => apply zadd_args_err in H; first [discriminate H | try subst e]
  | H : (ht_incr _ _ ht_new).2 = Err _ |- _ => exfalso; revert H; apply ht_incr_ok
  | H : (ht_incr_float _ _ ht_new).2 = Err _ |- _ => exfalso; revert H; apply ht_incr_float_ok
  | H : Err _ = Err _ |- _ => injection H; clear H; intros; subst
  | H : Ok _ = Ok _ |- _ => injection H; clear H; intros; subst
  | H : Ok _ = Err _ |- _ => discriminate H
  | H : Err _ = Ok _ |- _ => discriminate H
  | H : match ?x with _ => _ end = Err _ |- _ => destruct x eqn:?
  | H : match ?x with _ => _ end = Ok _ |- _ => destruct x eqn:?
  end.
Ltac go H := unfold reply, fail in H; crush H; crush_all; loads; try done; try (by form); try (by errs).

Lemma k_keys a d d' r : dbinv d → c_keys ext c a d = Ret (d', r) → kept [FWords]%string [few] true a d d' r.
Proof. intros I H. unfold c_keys in H. go H. Qed.
Lemma k_exists a d d' r : dbinv d → c_exists a d = Ret (d', r) → kept [FInt]%string [few] true a d d' r.
Proof. intros I H. unfold c_exists in H. go H. Qed.
Lemma k_del a d d' r : dbinv d → c_del a d = Ret (d', r) → kept [FInt]%string [few] true a d d' r.
Proof. intros I H. unfold c_del in H. go H. Qed.
Lemma k_ping a d d' r : dbinv d → c_ping a d = Ret (d', r) → kept [FStatus ["PONG"]]%string [] true a d d' r.
Proof. intros I H. unfold c_ping in H. go H. Qed.
Lemma k_command a d d' r : dbinv d → c_command a d = Ret (d', r) → kept [FStatus ["COMMAND"]]%string [] true a d d' r.
Proof. intros I H. unfold c_command in H. go H. Qed.
Lemma k_set a d d' r : dbinv d → c_set a d = Ret (d', r) → kept [FStatus ["OK"]]%string [few] true a d d' r.
Proof. intros I H. unfold c_set in H. go H. Qed.
Lemma k_mset a d d' r : dbinv d → c_mset a d = Ret (d', r) → kept [FStatus ["OK"]]%string [few] true a d d' r.
Proof. intros I H. unfold c_mset in H. go H. Qed.
Lemma k_get a d d' r : dbinv d → c_get a d = Ret (d', r) → kept [FText; FNil]%string [few; mismatch] true a d d' r.
Proof. intros I H. unfold c_get, Get in H. go H. Qed.
Lemma k_incr a d d' r : dbinv d → c_incr a d = Ret (d', r) → kept [FInt]%string [few; mismatch; no_integer] true a d d' r.
Proof. intros I H. unfold c_incr, incr_reply, IncrBy in H. go H. Qed.
Lemma k_decr a d d' r : dbinv d → c_decr a d = Ret (d', r) → kept [FInt]%string [few; mismatch; no_integer] true a d d' r.
Proof. intros I H. unfold c_decr, incr_reply, IncrBy in H. go H. Qed.
Lemma k_incrby a d d' r : dbinv d → c_incrby a d = Ret (d', r) → kept [FInt]%string [few; mismatch; no_integer] true a d d' r.
Proof. intros I H. unfold c_incrby, incr_reply, IncrBy in H. go H. Qed.
Lemma k_decrby a d d' r : dbinv d → c_decrby a d = Ret (d', r) → kept [FInt]%string [few; mismatch; no_integer] true a d d' r.
Proof. intros I H. unfold c_decrby, incr_reply, IncrBy in H. go H. Qed.
Lemma k_append a d d' r : dbinv d → c_append a d = Ret (d', r) → kept [FInt]%string [few; mismatch] true a d d' r.
Proof. intros I H. unfold c_append, Append in H. go H. Qed.
Lemma k_lpush a d d' r : dbinv d → c_lpush a d = Ret (d', r) → kept [FInt]%string [few; mismatch] true a d d' r.
Proof. intros I H. unfold c_lpush, LPush in H. go H. Qed.
Lemma k_rpush a d d' r : dbinv d → c_rpush a d = Ret (d', r) → kept [FInt]%string [few; mismatch] true a d d' r.
Proof. intros I H. unfold c_rpush, RPush in H. go H. Qed.
Lemma k_llen a d d' r : dbinv d → c_llen a d = Ret (d', r) → kept [FInt]%string [few; mismatch] true a d d' r.
Proof. intros I H. unfold c_llen, LLen in H. go H. Qed.
Lemma k_lpop a d d' r : dbinv d → c_lpop a d = Ret (d', r) → kept [FWords; FNil]%string [few; mismatch; no_range] true a d d' r.
Proof. intros I H. unfold c_lpop, pop_count, pop_reply, LPop in H. go H. Qed.
Lemma k_rpop a d d' r : dbinv d → c_rpop a d = Ret (d', r) → kept [FWords; FNil]%string [few; mismatch; no_range] true a d d' r.
Proof. intros I H. unfold c_rpop, pop_count, pop_reply, RPop in H. go H. Qed.
Lemma k_lrange a d d' r : dbinv d → c_lrange a d = Ret (d', r) → kept [FWords]%string [few; mismatch; no_range] true a d d' r.
Proof. intros I H. unfold c_lrange, LRange in H. go H. Qed.
Lemma k_lrem a d d' r : dbinv d → c_lrem a d = Ret (d', r) → kept [FInt]%string [few; mismatch; no_range] true a d d' r.
Proof. intros I H. unfold c_lrem, LRem in H. go H. Qed.
Lemma k_lindex a d d' r : dbinv d → c_lindex a d = Ret (d', r) → kept [FText; FNil]%string [few; mismatch; no_range] true a d d' r.
Proof. intros I H. unfold c_lindex, LIndex in H. go H. Qed.
Lemma k_lset a d d' r : dbinv d → c_lset a d = Ret (d', r) → kept [FStatus ["OK"]]%string [few; mismatch; no_range; absent] true a d d' r.
Proof. intros I H. unfold c_lset, LSet, dl_lset in H. go H. split; [set_solver+|]. intros _. eapply put_same; [done|]. by eapply load_list_at. Qed.
Lemma k_linsert a d d' r : dbinv d → c_linsert a d = Ret (d', r) → kept [FInt]%string [few; mismatch; absent] true a d d' r.
Proof. intros I H. unfold c_linsert, LInsert, dl_linsert in H. go H; (split; [set_solver+|]); intros _; (eapply put_same; [done|]); by eapply load_list_at. Qed.
Lemma k_sadd a d d' r : dbinv d → c_sadd a d = Ret (d', r) → kept [FInt]%string [few; mismatch] true a d d' r.
Proof. intros I H. unfold c_sadd, SAdd in H. go H. Qed.
Lemma k_scard a d d' r : dbinv d → c_scard a d = Ret (d', r) → kept [FInt]%string [few; mismatch] true a d d' r.
Proof. intros I H. unfold c_scard, SCard in H. go H. Qed.
Lemma k_setop o a d d' r : dbinv d → c_setop c o a d = Ret (d', r) → kept [FWords]%string [few; mismatch] true a d d' r.
Proof. intros I H. unfold c_setop, SOp in H. go H. Qed.
Lemma k_setop_store o a d d' r : dbinv d → c_setop_store c o a d = Ret (d', r) → kept [FInt]%string [few; mismatch; absent] true a d d' r.
Proof. intros I H. unfold c_setop_store, SOpStore in H. go H. exfalso. unfold fewer in *. apply Nat.eqb_eq in Heqb0. rewrite Heqb0 in Heqb. done. Qed.
Lemma k_sismember a d d' r : dbinv d → c_sismember a d = Ret (d', r) → kept [FInt]%string [few; mismatch] true a d d' r.
Proof. intros I H. unfold c_sismember, SIsMember in H. go H. Qed.
Lemma k_smembers a d d' r : dbinv d → c_smembers c a d = Ret (d', r) → kept [FWords]%string [few; mismatch; absent] true a d d' r.
Proof. intros I H. unfold c_smembers, SMembers in H. go H. Qed.
Lemma k_smove a d d' r : dbinv d → c_smove a d = Ret (d', r) → kept [FInt]%string [few; mismatch; absent] false a d d' r.
Proof. intros I H. unfold c_smove, SMove, SAdd in H. go H. Qed.
Lemma k_srem a d d' r : dbinv d → c_srem a d = Ret (d', r) → kept [FInt]%string [few; mismatch] true a d d' r.
Proof. intros I H. unfold c_srem, SRem in H. go H. Qed.
Lemma k_spop a d d' r : dbinv d → c_spop c a d = Ret (d', r) → kept [FWords]%string [few; mismatch; no_integer] true a d d' r.
Proof. intros I H. unfold c_spop, opt_count, SPop in H. go H. Qed.
Lemma k_zadd a d d' r : dbinv d → c_zadd ext c a d = Ret (d', r) → kept [FInt]%string [few; mismatch; no_range] true a d d' r.
Proof. intros I H. unfold c_zadd, ZAdd in H. go H. Qed.
Lemma k_zscore a d d' r : dbinv d → c_zscore ext a d = Ret (d', r) → kept [FText; FNil]%string [few; mismatch] true a d d' r.
Proof. intros I H. unfold c_zscore, ZScore in H. go H. Qed.
Lemma k_zrank a d d' r : dbinv d → c_zrank a d = Ret (d', r) → kept [FInt; FNil]%string [few; mismatch] true a d d' r.
Proof. intros I H. unfold c_zrank, ZRank in H. go H. Qed.
Lemma k_zrem a d d' r : dbinv d → c_zrem a d = Ret (d', r) → kept [FInt]%string [few; mismatch] true a d d' r.
Proof. intros I H. unfold c_zrem, ZRem in H. go H. Qed.
Lemma k_zcard a d d' r : dbinv d → c_zcard a d = Ret (d', r) → kept [FInt]%string [few; mismatch] true a d d' r.
Proof. intros I H. unfold c_zcard, ZCard in H. go H. Qed.
Lemma k_zcount a d d' r : dbinv d → c_zcount ext a d = Ret (d', r) → kept [FInt]%string [few; mismatch; no_float] true a d d' r.
Proof. intros I H. unfold c_zcount, ZCount, score_bound in H. go H. Qed.
Lemma k_zincr a d d' r : dbinv d → c_zincr ext c a d = Ret (d', r) → kept [FText; FInt]%string [few; mismatch; no_range] true a d d' r.
Proof. intros I H. unfold c_zincr, ZIncr in H. go H. Qed.
Lemma k_zrange a d d' r : dbinv d → c_zrange ext a d = Ret (d', r) → kept [FWords; FNil]%string [few; mismatch; no_integer; no_float] true a d d' r.
Proof. intros I H. unfold c_zrange, range_reply, ZRange, score_bound in H. go H. Qed.
Lemma k_zrangebyscore a d d' r : dbinv d → c_zrangebyscore ext a d = Ret (d', r) → kept [FWords; FNil]%string [few; mismatch; no_float] true a d d' r.
Proof. intros I H. unfold c_zrangebyscore, range_reply, ZRange, score_bound in H. go H. Qed.
Lemma k_zrevrange a d d' r : dbinv d → c_zrevrange ext a d = Ret (d', r) → kept [FWords; FNil]%string [few; mismatch; no_integer] true a d d' r.
Proof. intros I H. unfold c_zrevrange, range_reply, ZRevRange in H. go H. Qed.
Lemma k_zpop m a d d' r : dbinv d → c_zpop ext m a d = Ret (d', r) → kept [FWords]%string [few; no_integer] true a d d' r.
Proof. intros I H. unfold c_zpop, opt_count, ZPop in H. go H. Qed.
Lemma k_hdel a d d' r : dbinv d → c_hdel a d = Ret (d', r) → kept [FInt]%string [few; mismatch] true a d d' r.
Proof. intros I H. unfold c_hdel, HDel in H. go H. Qed.
Lemma k_hexists a d d' r : dbinv d → c_hexists a d = Ret (d', r) → kept [FInt]%string [few; mismatch] true a d d' r.
Proof. intros I H. unfold c_hexists, HExists in H. go H. Qed.
Lemma k_hget a d d' r : dbinv d → c_hget ext a d = Ret (d', r) → kept [FNil]%string [few; mismatch] true a d d' r.
Proof. intros I H. unfold c_hget, HGet in H. go H. Qed.
Lemma k_hgetall a d d' r : dbinv d → c_hgetall c a d = Ret (d', r) → kept [FNil]%string [few] true a d d' r.
Proof. intros I H. unfold c_hgetall, HGetAll in H. go H. Qed.
Lemma k_hincrby a d d' r : dbinv d → c_hincrby a d = Ret (d', r) → kept [FInt]%string [few; mismatch; no_integer] true a d d' r.
Proof. intros I H. unfold c_hincrby, HIncrBy in H. go H. Qed.
Lemma k_hincrbyfloat a d d' r : dbinv d → c_hincrbyfloat ext a d = Ret (d', r) → kept [FText]%string [few; mismatch; no_integer] true a d d' r.
Proof. intros I H. unfold c_hincrbyfloat, HIncrByFloat in H. go H. Qed.
Lemma k_hkeys a d d' r : dbinv d → c_hkeys c a d = Ret (d', r) → kept [FWords]%string [few; mismatch] true a d d' r.
Proof. intros I H. unfold c_hkeys, HKeys in H. go H. Qed.
Lemma k_hlen a d d' r : dbinv d → c_hlen a d = Ret (d', r) → kept [FInt]%string [few; mismatch] true a d d' r.
Proof. intros I H. unfold c_hlen, HLen in H. go H. Qed.
Lemma k_hmget a d d' r : dbinv d → c_hmget ext a d = Ret (d', r) → kept [FNils]%string [few; mismatch] true a d d' r.
Proof. intros I H. unfold c_hmget, HMGet in H. go H. exists (RArr (replicate (length a - 1) RNil)).
  assert (∀ n, mapM view_item ((λ v, RI v TBulk) <$> replicate n INil) = Some (replicate n RNil)) as K.
  { induction n as [|n IH]; [done|]. cbn [replicate]. rewrite fmap_cons. cbn [mapM]. by rewrite IH. }
  rewrite drop_length. split; [|split; [done|by apply Exists_cons_hd]]. unfold view, rsp_interfaces. cbn [rsp_items rsp_array]. specialize (K (length a - 1)%nat).
  destruct (length a - 1)%nat eqn:El; [done|]. cbn [replicate] in *. rewrite fmap_cons in *. by rewrite K.
Qed.
Lemma k_hmset a d d' r : dbinv d → c_hmset ext a d = Ret (d', r) → kept [FStatus ["OK"]]%string [few; mismatch] true a d d' r.
Proof. intros I H. unfold c_hmset, HSet in H. go H. Qed.
Lemma k_hset a d d' r : dbinv d → c_hset ext a d = Ret (d', r) → kept [FInt]%string [few; mismatch] true a d d' r.
Proof. intros I H. unfold c_hset, HSet in H. go H. Qed.
Lemma k_hsetnx a d d' r : dbinv d → c_hsetnx ext a d = Ret (d', r) → kept [FInt]%string [few; mismatch] true a d d' r.
Proof. intros I H. unfold c_hsetnx, HSet in H. go H. Qed.
Lemma k_hvals a d d' r : dbinv d → c_hvals ext c a d = Ret (d', r) → kept [FWords]%string [few; mismatch] true a d d' r.
Proof. intros I H. unfold c_hvals, HVals in H. go H. Qed.
Lemma k_type a d d' r : dbinv d → c_type a d = Ret (d', r) → kept [FStatus ["none"; "string"; "list"; "setIfNotExists"; "sortedSet"]]%string [few] true a d d' r.
Proof.
  intros I H. unfold c_type, Type_ in H. unfold reply, fail in H. crush H; [by errs|]. pose proof (inv_nohash d' I x) as N.
  destruct (sm_get (db_keys d') x) as [v|]; [|by form]. destruct v; try (by form). by destruct (N h).
Qed.
Lemma view_ifs l : view (rsp_interfaces true l) = RArr <$> mapM view_item ((λ v, RI v TBulk) <$> l).
Proof. by destruct l. Qed.
(** MGET answers every key, or nothing when one of them is of another type *)
Definition other_type (d : db) (k : string) : Prop := Get k d = Err ErrTypeMismatch.
Global Instance other_dec d k : Decision (other_type d k).
Proof. unfold other_type. destruct (Get k d) as [s|[]]; first [left; reflexivity | right; intros H; discriminate H]. Defined.
Lemma k_mget a d d' r : dbinv d → c_mget a d = Ret (d', r) →
  kept [FEntries] [few] true a d d' r ∨ (d' = d ∧ view (reply_of r) = None ∧ ∃ k, k ∈ a ∧ other_type d k).
Proof.
  intros I H. unfold c_mget in H. unfold reply, fail in H. crush H; [left; by errs|].
  destruct (decide (Exists (other_type d') a)) as [Hx|Hx].
  - right. split; [done|]. apply Exists_exists in Hx as (k & Hk & Hg). split; [|by exists k].
    unfold reply_of. rewrite view_ifs. destruct (mapM view_item _) as [l|] eqn:E; [|done]. exfalso.
    unfold MGet in E. rewrite <- list_fmap_compose in E. apply mapM_Some_1 in E. apply Forall2_fmap_l in E.
    apply elem_of_list_lookup in Hk as [i Hi]. destruct (Forall2_lookup_l _ _ _ _ _ E Hi) as (y & _ & Hy). simpl in Hy. by rewrite Hg in Hy.
  - left. apply not_Exists_Forall in Hx; [|apply _].
    exists (RArr ((λ o : option string, match o with Some s => RBulk s | None => RNil end) <$> ((λ k, match Get k d' with Ok s => Some s | Err _ => None end) <$> a))).
    split; [|split; [done|]].
    + rewrite view_ifs. unfold MGet. match goal with |- RArr <$> ?m = Some (RArr ?l) => assert (m = Some l) as ->; [|done] end.
      clear Heqb. induction a as [|k l IH]; [done|]. revert Hx. intros Hf. apply Forall_cons in Hf as [H1 Hf]. rewrite !fmap_cons. cbn [mapM]. rewrite (IH Hf).
      change (¬ other_type d' k) in H1. unfold other_type, Get in *. destruct (sm_get (db_keys d') k) as [[]|]; first [reflexivity | exfalso; by apply H1].
    + apply Exists_cons_hd. eexists. split; [reflexivity|]. by rewrite fmap_length.
Qed.
End kinds.

(** ** every command *)
Lemma kept_keeps N F E q a d d' r : kept F E q a d d' r →
  ∃ v, view (reply_of r) = Some v ∧ keeps (Promise N F E) a v ∧ (q = true → (∃ m, v = RError m) → d' = d).
Proof.
  destruct r as [rsp|e]; cbn [kept].
  - intros (v & Hv & Hn & Hx). exists v. split; [done|]. split; [|intros _ [m ->]; by destruct (Hn m)]. destruct v; try done. by destruct (Hn s).
  - intros [He Hq]. exists (RError (err_msg e)). split; [done|]. split; [done|]. intros Hq' _. by apply Hq.
Qed.
Definition told (low : string) (a : list string) (d d' : db) (r : option response) : Prop :=
  (∃ p v, p ∈ promises ∧ low ∈ p_names p ∧ r ≫= view = Some v ∧ keeps p a v ∧ (low ≠ "smove"%string → (∃ m, v = RError m) → d' = d)) ∨
  (low = "mget"%string ∧ d' = d ∧ r ≫= view = None ∧ ∃ k, k ∈ a ∧ other_type d k).
Lemma kept_told N F E q low a d d' r : kept F E q a d d' r → Promise N F E ∈ promises → low ∈ N → (low ≠ "smove"%string → q = true) → told low a d d' (Some (reply_of r)).
Proof.
  intros K Hp Hn Hq. destruct (kept_keeps N F E q a d d' r K) as (v & H1 & H2 & H3). left. exists (Promise N F E), v. repeat split; try done. intros Hl. apply H3. by apply Hq.
Qed.
Ltac member := (apply elem_of_list_here) + (apply elem_of_list_further; member).
Ltac table := unfold promises; eexists; split; [member|]; solve [member].
Lemma exec_told ext c name a d d' r : dbinv d → exec ext c (name :: a) d = Ret (d', r) →
  (lookup_command (to_lower name) (implemented_commands ext c) = None ∧ d' = d ∧ r = Some (rsp_error ErrUnknownCommand)) ∨ told (to_lower name) a d d' r.
Proof.
  intros I H. apply exec_inv in H as [H|(f & q & Hin & Hf & ->)]; [by left|right]. remember (to_lower name) as low eqn:Hlow. clear Hlow.
  assert (G : ∀ F E q', kept F E q' a d d' q → (∃ N, Promise N F E ∈ promises ∧ low ∈ N) → (low ≠ "smove"%string → q' = true) → told low a d d' (Some (reply_of q))).
  { intros F E q' K (N & HN & Hl) Hq. by eapply kept_told. }
  unfold implemented_commands in Hin.
  repeat (apply elem_of_cons in Hin as [[= -> ->]|Hin]; [
    first [ eapply G; [ first [ (eapply k_keys; [exact I|exact Hf]) | (eapply k_exists; [exact I|exact Hf]) | (eapply k_del; [exact I|exact Hf]) | (eapply k_ping; [exact I|exact Hf]) | (eapply k_command; [exact I|exact Hf]) | (eapply k_set; [exact I|exact Hf]) | (eapply k_mset; [exact I|exact Hf]) | (eapply k_get; [exact I|exact Hf]) | (eapply k_incr; [exact I|exact Hf]) | (eapply k_decr; [exact I|exact Hf]) | (eapply k_incrby; [exact I|exact Hf]) | (eapply k_decrby; [exact I|exact Hf]) | (eapply k_append; [exact I|exact Hf]) | (eapply k_lpush; [exact I|exact Hf]) | (eapply k_rpush; [exact I|exact Hf]) | (eapply k_llen; [exact I|exact Hf]) | (eapply k_lpop; [exact I|exact Hf]) | (eapply k_rpop; [exact I|exact Hf]) | (eapply k_lrange; [exact I|exact Hf]) | (eapply k_lrem; [exact I|exact Hf]) | (eapply k_lindex; [exact I|exact Hf]) | (eapply k_lset; [exact I|exact Hf]) | (eapply k_linsert; [exact I|exact Hf]) | (eapply k_sadd; [exact I|exact Hf]) | (eapply k_scard; [exact I|exact Hf]) | (eapply k_setop; [exact I|exact Hf]) | (eapply k_setop_store; [exact I|exact Hf]) | (eapply k_sismember; [exact I|exact Hf]) | (eapply k_smembers; [exact I|exact Hf]) | (eapply k_smove; [exact I|exact Hf]) | (eapply k_srem; [exact I|exact Hf]) | (eapply k_spop; [exact I|exact Hf]) | (eapply k_zadd; [exact I|exact Hf]) | (eapply k_zscore; [exact I|exact Hf]) | (eapply k_zrank; [exact I|exact Hf]) | (eapply k_zrem; [exact I|exact Hf]) | (eapply k_zcard; [exact I|exact Hf]) | (eapply k_zcount; [exact I|exact Hf]) | (eapply k_zincr; [exact I|exact Hf]) | (eapply k_zrange; [exact I|exact Hf]) | (eapply k_zrangebyscore; [exact I|exact Hf]) | (eapply k_zrevrange; [exact I|exact Hf]) | (eapply k_zpop; [exact I|exact Hf]) | (eapply k_hdel; [exact I|exact Hf]) | (eapply k_hexists; [exact I|exact Hf]) | (eapply k_hget; [exact I|exact Hf]) | (eapply k_hgetall; [exact I|exact Hf]) | (eapply k_hincrby; [exact I|exact Hf]) | (eapply k_hincrbyfloat; [exact I|exact Hf]) | (eapply k_hkeys; [exact I|exact Hf]) | (eapply k_hlen; [exact I|exact Hf]) | (eapply k_hmget; [exact I|exact Hf]) | (eapply k_hmset; [exact I|exact Hf]) | (eapply k_hset; [exact I|exact Hf]) | (eapply k_hsetnx; [exact I|exact Hf]) | (eapply k_hvals; [exact I|exact Hf]) | (eapply k_type; [exact I|exact Hf]) ] 
                    | table | done ]
          | destruct (k_mget _ _ _ _ I Hf) as [Hg|(-> & Hv & Hk)]; [eapply G; [exact Hg | table | done]
                                                       | right; by split_and!] ] |]).
  by apply elem_of_nil in Hin.
Qed.

(** What each command promises is what it answers. *)
Lemma promises_all name ext c : lookup_command name (implemented_commands ext c) = None → ∀ p, p ∈ promises → name ∉ p_names p.
Proof.
  intros H p Hp Hn. assert (K : Forall (λ n, is_Some (lookup_command n (implemented_commands ext c))) (concat (p_names <$> promises))).
  { repeat (apply Forall_cons; split; [by eexists|]). by apply Forall_nil. }
  rewrite Forall_forall in K. destruct (K name) as [x Hx]; [|congruence].
  apply elem_of_list_In, in_concat. exists (p_names p). split; [apply elem_of_list_In; by apply elem_of_list_fmap_1|by apply elem_of_list_In].
Qed.
Lemma other_is ext d k : other_type d k ↔ ∃ t, type_is ext d k t ∧ t ≠ "none"%string ∧ t ≠ "string"%string.
Proof.
  setoid_rewrite (type_is_name ext d k). unfold other_type, Get. split.
  - destruct (sm_get (db_keys d) k) as [[]|]; intros H; try discriminate H; (eexists; split; [reflexivity|split; done]).
  - intros (t & -> & H1 & H2). destruct (sm_get (db_keys d) k) as [[]|]; done.
Qed.
Theorem C73_kinds ext c req d d' r : reachable ext d → ask ext c req d = Ret (d', Some r) → promised req r.
Proof.
  intros R H. pose proof (reachable_inv _ _ R) as I. unfold ask in H. apply obind_ret in H as ([d1 o] & H & [= -> Ho]).
  destruct req as [|name a]; [injection H as <- <-; discriminate Ho|].
  destruct (exec_told _ _ _ _ _ _ _ I H) as [(E & -> & ->)|[(p & v & Hp & Hl & Hv & K & _)|(_ & _ & Hv & _)]].
  - injection Ho as <-. right. split; [by apply (promises_all _ ext c)|done].
  - rewrite Hv in Ho. injection Ho as <-. left. by exists p.
  - by rewrite Hv in Ho.
Qed.
(** The only requests answered by nothing at all are those without a word and the MGETs that name a key of another type. *)
Definition unanswered (ext : Ext) (d : db) (req : list string) : Prop :=
  req = [] ∨ ∃ name ks k t, req = name :: ks ∧ to_lower name = "mget"%string ∧ k ∈ ks ∧ type_is ext d k t ∧ t ≠ "none"%string ∧ t ≠ "string"%string.
Theorem C73_silent ext c req d : reachable ext d → (∃ d', ask ext c req d = Ret (d', None)) ↔ unanswered ext d req.
Proof.
  intros R. pose proof (reachable_inv _ _ R) as I. split.
  - intros (d' & H). unfold ask in H. apply obind_ret in H as ([d1 o] & H & [= -> Ho]). destruct req as [|name a]; [by left|]. right.
    destruct (exec_told _ _ _ _ _ _ _ I H) as [(E & -> & ->)|[(p & v & Hp & Hl & Hv & K & _)|(Hl & _ & Hv & k & Hk & Ht)]]; [done|congruence|].
    apply (other_is ext) in Ht as (t & Ht & H1 & H2). by exists name, a, k, t.
  - intros [->|(name & ks & k & t & -> & Hn & Hk & Ht & H1 & H2)]; [by exists d|].
    assert (other_type d k) as Hg by (apply (other_is ext); by exists t). exists d.
    rewrite (ask_named ext c name _ ks d _ Hn eq_refl). unfold c_mget, fewer. destruct ks as [|k0 ks]; [by apply elem_of_nil in Hk|]. cbn [length Nat.ltb Nat.leb reply obind].
    f_equal. f_equal. unfold reply_of. rewrite view_ifs. destruct (mapM view_item _) as [l|] eqn:E; [|done]. exfalso.
    unfold MGet in E. rewrite <- list_fmap_compose in E. apply mapM_Some_1 in E. apply Forall2_fmap_l in E.
    apply elem_of_list_lookup in Hk as [i Hi]. destruct (Forall2_lookup_l _ _ _ _ _ E Hi) as (y & _ & Hy). simpl in Hy. by rewrite Hg in Hy.
Qed.
(** ** C74: an error reply means that nothing has happened, unless the command is SMOVE *)
Theorem C74_error_no_effect_partial ext c name args d d' m : reachable ext d → to_lower name ≠ "smove"%string →
  ask ext c (name :: args) d = Ret (d', Some (RError m)) → d' = d.
Proof.
  intros R Hn H. pose proof (reachable_inv _ _ R) as I. unfold ask in H. apply obind_ret in H as ([d1 o] & H & [= -> Ho]).
  destruct (exec_told _ _ _ _ _ _ _ I H) as [(E & -> & ->)|[(p & v & Hp & Hl & Hv & K & Q)|(_ & -> & _)]]; [done| |done].
  apply Q; [done|]. exists m. congruence.
Qed.
Theorem C74_refuted : let d := after [["SADD"; "from"; "x"; "y"]; ["SET"; "to"; "v"]] in reachable ext0 d ∧ answers ext0 d ["SISMEMBER"; "from"; "x"] (RInt 1) ∧
  ∀ c, ∃ d', ask ext0 c ["SMOVE"; "from"; "to"; "x"] d = Ret (d', Some (RError mismatch)) ∧ answers ext0 d' ["SISMEMBER"; "from"; "x"] (RInt 0).
Proof.
  intros d. split; [apply after_reachable; by eexists|]. split; [intros c; by vm_compute|]. intros c.
  exists (after [["SADD"; "from"; "x"; "y"]; ["SET"; "to"; "v"]; ["SMOVE"; "from"; "to"; "x"]]%string). split; [by vm_compute|]. intros c'. by vm_compute.
Qed.
(** ** the running servers *)
Lemma talk_at ext h : ∀ d d' rs i x r, talk ext h d = Ret (d', rs) → h !! i = Some x → rs !! i = Some r →
  ∃ d1 d2, talk ext (take i h) d = Ret (d1, take i rs) ∧ ask ext x.1 x.2 d1 = Ret (d2, r).
Proof.
  induction h as [|[c req] h IH]; intros d d' rs i x r H Hi Hr; [done|]. cbn [talk] in H. apply obind_ret in H as ([d1 o] & Ha & H). apply obind_ret in H as ([d2 os] & Ht & [= <- <-]).
  destruct i as [|i].
  - injection Hi as <-. injection Hr as <-. by exists d, d1.
  - destruct (IH _ _ _ i x r Ht Hi Hr) as (e1 & e2 & H1 & H2). exists e1, e2. split; [|done]. cbn [take talk]. rewrite Ha. cbn [obind]. by rewrite H1.
Qed.
Lemma calls_at ext h d rs i x v : talk ext (as_history h) db_new = Ret (d, rs) → h !! i = Some x → rs !! i = Some v →
  ∃ d1 d2, reachable ext d1 ∧ talk ext (as_history (take i h)) db_new = Ret (d1, take i rs) ∧ ask ext (how x) (what x) d1 = Ret (d2, v).
Proof.
  intros H Hi Hr. destruct (talk_at _ _ _ _ _ i (how x, what x) v H) as (d1 & d2 & H1 & H2); [unfold as_history; by rewrite list_lookup_fmap, Hi|done|].
  exists d1, d2. unfold as_history in *. rewrite fmap_take. split; [|done]. by exists (take i ((λ x, (how x, what x)) <$> h)), (take i rs).
Qed.
(** Whatever a server sends to a client is the message of the deadline or a reply of a form promised for a request of that client. *)
Theorem C73_served ext max ps tr s g k b : runs ext max ps tr s → LWrite g k b ∈ tr → ∃ f, LDeliver g k f ∈ tr ∧
  (b = deadline_bytes ∨ ∃ req v, asks max f req ∧ promised req v ∧ is_reply b v).
Proof.
  intros R H. destruct (C07_serial _ _ _ _ _ R) as (rs & Ht & _ & _ & _ & _ & W). destruct (W _ _ _ H) as (f & Hf & K). exists f. split; [done|].
  destruct K as [[-> _]|(i & x & v & Hi & _ & Ha & Hr & Hb)]; [by left|right]. exists (what x), v. split; [done|]. split; [|done].
  destruct (calls_at _ _ _ _ _ _ _ Ht Hi Hr) as (d1 & d2 & Rd & _ & E). by eapply C73_kinds.
Qed.
(** When a server has come to rest, every request delivered has been answered, except for the MGETs that named a key of another type. *)
Theorem C73_answered ext max ps tr s g k f req : runs ext max ps tr s → c_crashed s = false → LStop ∉ tr → quiescent ext max ps s → LDeliver g k f ∈ tr → asks max f req →
  g ∈ writers tr ∨ ∃ h1 x h2 d rs, calls tr = h1 ++ x :: h2 ∧ who x = g ∧ what x = req ∧ talk ext (as_history h1) db_new = Ret (d, rs) ∧ unanswered ext d req.
Proof.
  intros R NC NS Q Hd Ha. destruct (C42_all_answered _ _ _ _ _ R NC NS Q) as (rs & Ht & K). destruct (K _ _ _ Hd) as [K1 _]. destruct (K1 _ Ha) as (i & x & Hi & Hw & <- & [H|H]); [by left|right].
  destruct (calls_at _ _ _ _ _ _ _ Ht Hi H) as (d1 & d2 & Rd & T & E). exists (take i (calls tr)), x, (drop (S i) (calls tr)), d1, (take i rs).
  split; [by rewrite take_drop_middle|]. repeat split; try done. apply (C73_silent _ (how x)); [done|by exists d2].
Qed.
(** The other server: what it writes, and the one way in which a request makes its encoder end the process. *)
Theorem C73_served1 ext max tr s k n g b : runs1 ext max tr s → written k tr !! n = Some (g, b) → ∃ q, asked k tr !! n = Some (g, q) ∧
  (b = deadline_bytes ∨ ∃ v, promised q v ∧ is_reply b v).
Proof.
  intros R H. destruct (C57_in_order _ _ _ _ R) as (rs & Ht & _ & _ & W). destruct (W _ _ _ _ H) as (q & Hq & K). exists q. split; [done|].
  destruct K as [[-> _]|(i & x & v & Hi & _ & <- & Hr & Hb)]; [by left|right]. exists v. split; [|done].
  destruct (calls_at _ _ _ _ _ _ _ Ht Hi Hr) as (d1 & d2 & Rd & _ & E). by eapply C73_kinds.
Qed.
Lemma die_last ext max tr s k why : runs1 ext max tr s → VDie k why ∈ tr → v_dead s = true ∧ last tr = Some (VDie k why).
Proof.
  induction 1 as [|tr s l s' R IH NC St]; intros Hd; [by apply elem_of_nil in Hd|]. apply in_snoc in Hd as [Hd|<-].
  - destruct (IH Hd) as [E _]. destruct NC. congruence.
  - split; [by inversion St|]. apply last_snoc.
Qed.
Lemma crash_last ext max tr s g c req : runs1 ext max tr s → VPool (LCrash g c req) ∈ tr → c_crashed (v_pool s) = true ∧ last tr = Some (VPool (LCrash g c req)).
Proof.
  induction 1 as [|tr s l s' R IH NC St]; intros Hd; [by apply elem_of_nil in Hd|]. apply in_snoc in Hd as [Hd|<-].
  - destruct (IH Hd) as [E _]. destruct NC. congruence.
  - split; [|apply last_snoc]. inversion St; subst. match goal with H : step _ _ _ _ _ _ |- _ => by inversion H end.
Qed.
Theorem C73_encoder ext max tr s k : runs1 ext max tr s → VDie k ByEncoder ∈ tr →
  ∃ h1 x h2 d rs, calls1 tr = h1 ++ x :: h2 ∧ (who x, what x) ∈ asked k tr ∧ talk ext (as_history h1) db_new = Ret (d, rs) ∧ unanswered ext d (what x).
Proof.
  intros R H. destruct (die_last _ _ _ _ _ _ R H) as [Hd Hl].
  assert (¬ v_alive s) as Na by (intros [? _]; congruence).
  destruct (C59_causes_partial _ _ _ _ R Na) as [(g & c & req & X)|(k' & why & X & Ex)].
  - exfalso. destruct (crash_last _ _ _ _ _ _ _ R X) as [_ Hl']. congruence.
  - destruct (die_last _ _ _ _ _ _ R X) as [_ Hl']. rewrite Hl in Hl'. injection Hl' as <- <-. cbn [explains] in Ex. destruct Ex as (d & rs & i & x & Ht & Hi & Ha & Hr).
    destruct (calls_at _ _ _ _ _ _ _ Ht Hi Hr) as (d1 & d2 & Rd & T & E). exists (take i (calls1 tr)), x, (drop (S i) (calls1 tr)), d1, (take i rs).
    split; [by rewrite take_drop_middle|]. repeat split; try done. apply (C73_silent _ (how x)); [done|by exists d2].
Qed.

(** ** the promises are not too generous: every form and every error listed for a command is given by it *)
Definition has_formb (args : list string) (r : resp) (f : form) : bool :=
  match f, r with
  | FInt, RInt _ => true
  | FText, RBulk _ => true
  | FNil, RNil => true
  | FWords, RArr l => forallb (λ x, match x with RBulk _ => true | _ => false end) l
  | FNils, RArr l => (length l =? length args - 1)%nat && forallb (λ x, match x with RNil => true | _ => false end) l
  | FEntries, RArr l => (length l =? length args)%nat && forallb (λ x, match x with RBulk _ | RNil => true | _ => false end) l
  | FStatus l, RStatus s => bool_decide (s ∈ l)
  | _, _ => false
  end.
Lemma has_formb_ok args r f : has_formb args r f = true → has_form args r f.
Proof.
  destruct f, r; try done; cbn [has_formb has_form]; intros H; try (by eexists).
  - exists ((λ x, match x with RBulk s => s | _ => EmptyString end) <$> l). unfold bulks. f_equal. induction l as [|x l IH]; [done|]. cbn [forallb] in H. apply andb_true_iff in H as [H1 H2].
    destruct x; try done. rewrite !fmap_cons, <- IH by done. done.
  - apply andb_true_iff in H as [H1 H2]. apply Nat.eqb_eq in H1. rewrite <- H1. f_equal. clear H1. induction l as [|x l IH]; [done|]. cbn [forallb] in H2. apply andb_true_iff in H2 as [H1 H2].
    destruct x; try done. cbn [length replicate]. by rewrite <- IH.
  - apply andb_true_iff in H as [H1 H2]. apply Nat.eqb_eq in H1. exists ((λ x, match x with RBulk s => Some s | _ => None end) <$> l). rewrite fmap_length. split; [|done]. f_equal. clear H1.
    induction l as [|x l IH]; [done|]. cbn [forallb] in H2. apply andb_true_iff in H2 as [H1 H2]. rewrite !fmap_cons, <- IH by done. by destruct x.
  - apply bool_decide_eq_true in H. by exists s.
Qed.
Definition samples : list (list string) := [
  ["exists"; "s"]; ["exists"]; ["del"; "s"]; ["del"]; ["keys"; "*"]; ["keys"];
  ["type"; "s"]; ["type"]; ["ping"]; ["command"]; ["set"; "a"; "b"]; ["set"; "a"]; ["mset"; "a"; "b"]; ["mset"; "a"]; ["get"; "s"]; ["get"; "no"]; ["get"]; ["get"; "l"];
  ["mget"; "s"; "no"]; ["mget"]; ["incr"; "i"]; ["incr"]; ["incr"; "l"]; ["incr"; "s"]; ["decr"; "i"]; ["decr"]; ["decr"; "l"]; ["decr"; "s"];
  ["incrby"; "i"; "2"]; ["incrby"]; ["incrby"; "l"; "2"]; ["incrby"; "s"; "2"]; ["decrby"; "i"; "2"]; ["decrby"]; ["decrby"; "l"; "2"]; ["decrby"; "s"; "2"];
  ["append"; "s"; "w"]; ["append"]; ["append"; "l"; "w"]; ["lpush"; "l"; "w"]; ["lpush"]; ["lpush"; "s"; "w"]; ["rpush"; "l"; "w"]; ["rpush"]; ["rpush"; "s"; "w"];
  ["llen"; "l"]; ["llen"]; ["llen"; "s"]; ["sadd"; "e"; "w"]; ["sadd"]; ["sadd"; "s"; "w"]; ["scard"; "e"]; ["scard"]; ["scard"; "s"]; ["sismember"; "e"; "x"]; ["sismember"]; ["sismember"; "s"; "x"];
  ["srem"; "e"; "x"]; ["srem"]; ["srem"; "s"; "x"]; ["zrem"; "z"; "m"]; ["zrem"]; ["zrem"; "s"; "m"]; ["zcard"; "z"]; ["zcard"]; ["zcard"; "s"];
  ["lpop"; "l"]; ["lpop"; "no"]; ["lpop"]; ["lpop"; "s"]; ["lpop"; "l"; "0"]; ["rpop"; "l"]; ["rpop"; "no"]; ["rpop"]; ["rpop"; "s"]; ["rpop"; "l"; "0"];
  ["lrange"; "l"; "0"; "1"]; ["lrange"]; ["lrange"; "s"; "0"; "1"]; ["lrange"; "l"; "x"; "1"]; ["lrem"; "l"; "0"; "a"]; ["lrem"]; ["lrem"; "s"; "0"; "a"]; ["lrem"; "l"; "x"; "a"];
  ["lindex"; "l"; "1"]; ["lindex"; "l"; "5"]; ["lindex"]; ["lindex"; "l"; "0"]; ["lindex"; "l"; "x"];
  ["lset"; "l"; "0"; "w"]; ["lset"]; ["lset"; "s"; "0"; "w"]; ["lset"; "l"; "x"; "w"]; ["lset"; "l"; "9"; "w"];
  ["linsert"; "l"; "after"; "a"; "w"]; ["linsert"]; ["linsert"; "s"; "after"; "a"; "w"]; ["linsert"; "l"; "after"; "no"; "w"];
  ["sdiff"; "e"; "g"]; ["sdiff"]; ["sdiff"; "e"; "s"]; ["sinter"; "e"; "g"]; ["sinter"]; ["sinter"; "e"; "s"]; ["sunion"; "e"; "g"]; ["sunion"]; ["sunion"; "e"; "s"];
  ["sdiffstore"; "t"; "e"; "g"]; ["sdiffstore"]; ["sdiffstore"; "t"; "s"]; ["sdiffstore"; "t"; "no"];
  ["sinterstore"; "t"; "e"; "g"]; ["sinterstore"]; ["sinterstore"; "t"; "s"]; ["sinterstore"; "t"; "no"];
  ["sunionstore"; "t"; "e"; "g"]; ["sunionstore"]; ["sunionstore"; "t"; "s"]; ["sunionstore"; "t"; "no"];
  ["smove"; "e"; "g"; "x"]; ["smove"]; ["smove"; "s"; "g"; "x"]; ["smove"; "no"; "g"; "x"]; ["smembers"; "e"]; ["smembers"]; ["smembers"; "s"]; ["smembers"; "no"];
  ["spop"; "e"; "1"]; ["spop"]; ["spop"; "s"]; ["spop"; "e"; "x"]; ["zadd"; "z"; "1"; "n"]; ["zadd"]; ["zadd"; "s"; "1"; "n"]; ["zadd"; "z"; "x"; "n"];
  ["zincr"; "z"; "1"; "m"]; ["zincr"; "z"; "0"; "m"]; ["zincr"]; ["zincr"; "s"; "1"; "m"]; ["zincr"; "z"; "x"; "m"];
  ["zscore"; "z"; "m"]; ["zscore"; "no"; "m"]; ["zscore"]; ["zscore"; "s"; "m"]; ["zrank"; "z"; "m"]; ["zrank"; "no"; "m"]; ["zrank"]; ["zrank"; "s"; "m"];
  ["zcount"; "z"; "0"; "1"]; ["zcount"]; ["zcount"; "s"; "0"; "1"]; ["zcount"; "z"; "x"; "1"];
  ["zrange"; "z"; "0"; "1"]; ["zrange"; "no"; "0"; "1"]; ["zrange"]; ["zrange"; "s"; "0"; "1"]; ["zrange"; "z"; "x"; "1"]; ["zrange"; "z"; "x"; "1"; "byscore"];
  ["zrangebyscore"; "z"; "0"; "1"]; ["zrangebyscore"; "no"; "0"; "1"]; ["zrangebyscore"]; ["zrangebyscore"; "s"; "0"; "1"]; ["zrangebyscore"; "z"; "x"; "1"];
  ["zrevrange"; "z"; "0"; "1"]; ["zrevrange"; "no"; "0"; "1"]; ["zrevrange"]; ["zrevrange"; "s"; "0"; "1"]; ["zrevrange"; "z"; "x"; "1"];
  ["zpopmin"; "z"]; ["zpopmin"]; ["zpopmin"; "z"; "x"]; ["zpopmax"; "z"]; ["zpopmax"]; ["zpopmax"; "z"; "x"];
  ["hdel"; "h"; "f"]; ["hdel"]; ["hdel"; "s"; "f"]; ["hexists"; "h"; "f"]; ["hexists"]; ["hexists"; "s"; "f"]; ["hlen"; "h"]; ["hlen"]; ["hlen"; "s"];
  ["hset"; "h"; "f"; "v"]; ["hset"]; ["hset"; "s"; "f"; "v"]; ["hsetnx"; "h"; "f"; "v"]; ["hsetnx"]; ["hsetnx"; "s"; "f"; "v"];
  ["hincrby"; "h"; "f"; "1"]; ["hincrby"]; ["hincrby"; "s"; "f"; "1"]; ["hincrby"; "h"; "f"; "x"]; ["hincrbyfloat"; "h"; "f"; "1"]; ["hincrbyfloat"]; ["hincrbyfloat"; "s"; "f"; "1"]; ["hincrbyfloat"; "h"; "f"; "x"];
  ["hget"; "h"; "f"]; ["hget"]; ["hget"; "s"; "f"]; ["hgetall"; "h"]; ["hgetall"]; ["hmget"; "h"; "f"; "g"]; ["hmget"]; ["hmget"; "s"; "f"];
  ["hmset"; "h"; "f"; "v"]; ["hmset"]; ["hmset"; "s"; "f"; "v"]; ["hkeys"; "h"]; ["hkeys"]; ["hkeys"; "s"]; ["hvals"; "h"]; ["hvals"]; ["hvals"; "s"] ]%string.
Definition base : list (list string) := [["SET"; "s"; "v"]; ["SET"; "i"; "7"]; ["SET"; "0"; "v"]; ["RPUSH"; "1"; "a"; "b"]; ["RPUSH"; "l"; "a"; "b"];
  ["SADD"; "e"; "x"]; ["SADD"; "g"; "y"]; ["ZADD"; "z"; "1"; "m"]]%string.
Definition tried : list (list string * option resp) :=
  let d := after base in (λ req, (req, match ask ext0 c0 req d with Ret (_, r) => r | _ => None end)) <$> samples.
Definition gives (l : list (list string * option resp)) (n : string) (ok : list string → resp → bool) : bool :=
  existsb (λ x, match x with (name :: args, Some r) => String.eqb (to_lower name) n && ok args r | _ => false end) l.
Definition is_error (m : string) (r : resp) : bool := match r with RError e => String.eqb e m | _ => false end.
Definition all_given (l : list (list string * option resp)) : bool :=
  forallb (λ p, forallb (λ n, forallb (λ f, gives l n (λ args r, has_formb args r f)) (p_forms p) && forallb (λ e, gives l n (λ _, is_error e)) (p_errors p)) (p_names p)) promises.
Lemma gives_ok n ok : gives tried n ok = true → ∃ name args d d' r, reachable ext0 d ∧ to_lower name = n ∧ ask ext0 c0 (name :: args) d = Ret (d', Some r) ∧ ok args r = true.
Proof.
  unfold gives. intros H. apply existsb_exists in H as ([[|name args] [r|]] & Hin & H); try discriminate H. apply andb_true_iff in H as [H1 H2]. apply String.eqb_eq in H1.
  apply elem_of_list_In, elem_of_list_fmap in Hin as (req & [= <- Hr] & _). exists name, args, (after base).
  destruct (ask ext0 c0 (name :: args) (after base)) as [[d' o]| |]; try discriminate Hr. exists d', r. subst o. split; [|done]. apply after_reachable. by eexists.
Qed.
Theorem C73_tight : (∀ p n f, p ∈ promises → n ∈ p_names p → f ∈ p_forms p →
    ∃ name args d d' r, reachable ext0 d ∧ to_lower name = n ∧ ask ext0 c0 (name :: args) d = Ret (d', Some r) ∧ has_form args r f) ∧
  (∀ p n e, p ∈ promises → n ∈ p_names p → e ∈ p_errors p →
    ∃ name args d d', reachable ext0 d ∧ to_lower name = n ∧ ask ext0 c0 (name :: args) d = Ret (d', Some (RError e))).
Proof.
  assert (all_given tried = true) as H by (vm_cast_no_check (eq_refl true)). unfold all_given in H. rewrite forallb_forall in H.
  split; intros p n x Hp Hn Hx; apply elem_of_list_In in Hp, Hn, Hx; specialize (H _ Hp); rewrite forallb_forall in H; specialize (H _ Hn); apply andb_true_iff in H as [H1 H2].
  - rewrite forallb_forall in H1. destruct (gives_ok _ _ (H1 _ Hx)) as (name & args & d & d' & r & R & E & A & K). exists name, args, d, d', r. repeat split; try done. by apply has_formb_ok.
  - rewrite forallb_forall in H2. destruct (gives_ok _ _ (H2 _ Hx)) as (name & args & d & d' & r & R & E & A & K). exists name, args, d, d'. destruct r; try discriminate K. apply String.eqb_eq in K. by subst.
Qed.
(** the hypotheses of [C73_answered] and of [C73_encoder] *)
Example C73_encoder_demo : runs1 ext0 big1 (trace1 die_encoder) (final1 die_encoder) ∧ VDie 7 ByEncoder ∈ trace1 die_encoder.
Proof. split; [apply trace1_runs; by vm_compute|]. apply last_Some_elem_of. by vm_compute. Qed.
(** A run at rest in which one request, such an MGET, has not been answered. *)
Definition mute : list action := whole 1 7 (frame ["RPUSH"; "l"; "x"]) ++ whole 2 7 (frame ["MGET"; "k"; "l"]) ++ whole 3 7 (frame ["LLEN"; "l"]).
Theorem C73_demo : seen mute = Some (true, [(1%nat, ["RPUSH"; "l"; "x"]); (2%nat, ["MGET"; "k"; "l"]); (3%nat, ["LLEN"; "l"])],
    [(1%nat, 7%nat, crlf [":1"]); (3%nat, 7%nat, crlf [":1"])], [frame ["RPUSH"; "l"; "x"]; frame ["MGET"; "k"; "l"]; frame ["LLEN"; "l"]]) ∧
  runs ext0 1000 8 (trace mute) (final mute) ∧ c_crashed (final mute) = false ∧ LStop ∉ trace mute ∧ quiescent ext0 1000 8 (final mute).
Proof.
  split; [by vm_compute|]. split; [apply trace_runs; by vm_compute|]. split; [by vm_compute|].
  split; [|apply idle_quiescent; by vm_compute].
  intros Hs. apply (stop_label _ _ _ _ _ (trace_runs mute ltac:(by vm_compute))) in Hs. apply Hs. by vm_compute.
Qed.
