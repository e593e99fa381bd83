(** Every command changes the keyspace only by the elementary changes of DbInv.v. *)
From Verif Require Import GoBase GoBaseProofs ShardMap ShardMapProofs Float64 DList SkipList Db Protocol Redis SpecCmd SpecServer SetRep DbInv.

Lemma obind_ret {A B} (e : outcome A) (k : A → outcome B) x :
  obind e k = Ret x → ∃ a, e = Ret a ∧ k a = Ret x.
Proof. destruct e; simpl; intros H; try done. eauto. Qed.

Lemma arg_in a i k n : arg a i = Ret k → (i < n)%nat → k ∈ take n a.
Proof.
  unfold arg. destruct (a !! i) as [x|] eqn:E; simpl; intros [= ->] Hi.
  apply elem_of_list_lookup. exists i. by rewrite lookup_take.
Qed.

Ltac crush H :=
  repeat match type of H with
  | obind _ _ = Ret _ => let x := fresh "x" in let E := fresh "E" in apply obind_ret in H as (x & E & H)
  | Ret _ = Ret _ => injection H as H; subst
  | Panic = Ret _ => discriminate H
  | OutOfFuel = Ret _ => discriminate H
  | (_, _) = (_, _) => injection H; clear H; intros; subst
  | (if ?b then _ else _) = Ret _ => destruct b eqn:?
  | (let (_, _) := ?x in _) = Ret _ => destruct x eqn:?
  | match ?x with _ => _ end = Ret _ => destruct x eqn:?
  end.
Ltac crush_one H := unfold reply, fail in H; crush H.
Ltac crush_all := repeat match goal with
  | H : obind _ _ = Ret _ |- _ => crush_one H
  | H : Ret _ = Ret _ |- _ => crush_one H
  | H : Ret _ = Panic |- _ => discriminate H
  | H : Ret _ = OutOfFuel |- _ => discriminate H
  | H : match _ with _ => _ end = Ret _ |- _ => crush_one H
  | H : (_, _) = (_, _) |- _ => injection H; clear H; intros; subst
  | H : match ?x with _ => _ end = (_, _) |- _ => destruct x eqn:?
  | H : Ok _ = Ok _ |- _ => injection H; clear H; intros; subst
  | H : Ok _ = Err _ |- _ => discriminate H
  | H : Err _ = Ok _ |- _ => discriminate H
  end.

Section steps.
Context (ext : Ext) (c : choices).

(** read-only commands *)
Ltac ro := intros H; unfold reply, fail in H; crush H; done.

Lemma ro_get a d d' r : c_get a d = Ret (d', r) → d' = d.
Proof. unfold c_get. ro. Qed.
Lemma ro_mget a d d' r : c_mget a d = Ret (d', r) → d' = d.
Proof. unfold c_mget. ro. Qed.
Lemma ro_keys a d d' r : c_keys ext c a d = Ret (d', r) → d' = d.
Proof. unfold c_keys. ro. Qed.
Lemma ro_exists a d d' r : c_exists a d = Ret (d', r) → d' = d.
Proof. unfold c_exists. ro. Qed.
Lemma ro_type a d d' r : c_type a d = Ret (d', r) → d' = d.
Proof. unfold c_type. ro. Qed.
Lemma ro_ping a d d' r : c_ping a d = Ret (d', r) → d' = d.
Proof. unfold c_ping. ro. Qed.
Lemma ro_command a d d' r : c_command a d = Ret (d', r) → d' = d.
Proof. unfold c_command. ro. Qed.
Lemma ro_llen a d d' r : c_llen a d = Ret (d', r) → d' = d.
Proof. unfold c_llen. ro. Qed.
Lemma ro_lrange a d d' r : c_lrange a d = Ret (d', r) → d' = d.
Proof. unfold c_lrange. ro. Qed.
Lemma ro_lindex a d d' r : c_lindex a d = Ret (d', r) → d' = d.
Proof. unfold c_lindex. ro. Qed.
Lemma ro_scard a d d' r : c_scard a d = Ret (d', r) → d' = d.
Proof. unfold c_scard. ro. Qed.
Lemma ro_sismember a d d' r : c_sismember a d = Ret (d', r) → d' = d.
Proof. unfold c_sismember. ro. Qed.
Lemma ro_smembers a d d' r : c_smembers c a d = Ret (d', r) → d' = d.
Proof. unfold c_smembers. ro. Qed.
Lemma ro_setop o a d d' r : c_setop c o a d = Ret (d', r) → d' = d.
Proof. unfold c_setop. ro. Qed.
Lemma ro_zscore a d d' r : c_zscore ext a d = Ret (d', r) → d' = d.
Proof. unfold c_zscore. ro. Qed.
Lemma ro_zrank a d d' r : c_zrank a d = Ret (d', r) → d' = d.
Proof. unfold c_zrank. ro. Qed.
Lemma ro_zcard a d d' r : c_zcard a d = Ret (d', r) → d' = d.
Proof. unfold c_zcard. ro. Qed.
Lemma ro_zcount a d d' r : c_zcount ext a d = Ret (d', r) → d' = d.
Proof. unfold c_zcount. ro. Qed.
Lemma ro_zrange a d d' r : c_zrange ext a d = Ret (d', r) → d' = d.
Proof. unfold c_zrange, range_reply. ro. Qed.
Lemma ro_zrangebyscore a d d' r : c_zrangebyscore ext a d = Ret (d', r) → d' = d.
Proof. unfold c_zrangebyscore, range_reply. ro. Qed.
Lemma ro_zrevrange a d d' r : c_zrevrange ext a d = Ret (d', r) → d' = d.
Proof. unfold c_zrevrange, range_reply. ro. Qed.
Lemma ro_hexists a d d' r : c_hexists a d = Ret (d', r) → d' = d.
Proof. unfold c_hexists. ro. Qed.
Lemma ro_hget a d d' r : c_hget ext a d = Ret (d', r) → d' = d.
Proof. unfold c_hget. ro. Qed.
Lemma ro_hgetall a d d' r : c_hgetall c a d = Ret (d', r) → d' = d.
Proof. unfold c_hgetall. ro. Qed.
Lemma ro_hkeys a d d' r : c_hkeys c a d = Ret (d', r) → d' = d.
Proof. unfold c_hkeys. ro. Qed.
Lemma ro_hlen a d d' r : c_hlen a d = Ret (d', r) → d' = d.
Proof. unfold c_hlen. ro. Qed.
Lemma ro_hmget a d d' r : c_hmget ext a d = Ret (d', r) → d' = d.
Proof. unfold c_hmget. ro. Qed.
Lemma ro_hvals a d d' r : c_hvals ext c a d = Ret (d', r) → d' = d.
Proof. unfold c_hvals. ro. Qed.

(** one write to the key of the first argument *)
Lemma once pp al W d d' : gstep pp al W d d' → gsteps pp al W d d'.
Proof. apply rtc_once. Qed.
Lemma none pp al W d : gsteps pp al W d d.
Proof. apply rtc_refl. Qed.

Ltac argk := match goal with E : arg ?a ?i = Ret ?k |- ?k ∈ take ?n ?a => apply (arg_in a i k n E); lia end.

Lemma w_del {pp} a d d' r : dbinv d → c_del a d = Ret (d', r) → gsteps pp false (take 1 a) d d'.
Proof.
  intros I H. unfold c_del, reply, fail in H. crush H; [apply none|].
  unfold Del in *. rewrite sm_delete_if_exists_map in * by apply I.
  destruct (sm_map (db_keys d) !! x); crush_all.
  - apply once, st_del. argk.
  - destruct d; apply none.
Qed.
Lemma w_set {pp} a d d' r : c_set a d = Ret (d', r) → gsteps pp false (take 1 a) d d'.
Proof. intros H. unfold c_set, reply, fail in H. crush H; [apply none|]. apply once, st_put; [argk|done]. Qed.
Lemma w_mset {pp} a d d' r : c_mset a d = Ret (d', r) → gsteps pp false (evens a) d d'.
Proof.
  intros H. unfold c_mset, reply, fail in H. crush H; [apply none|].
  assert (G : ∀ n W l d, (length l ≤ n)%nat → (∀ k, k ∈ evens l → k ∈ W) → gsteps pp false W d (MSet_ l d)).
  { clear. induction n as [|n IH]; intros W [|x [|y l]] d Hl HW; simpl in *; try apply none; try lia.
    eapply rtc_l.
    - apply (st_put _ _ _ x (VStr y)); [|done]. apply HW. by left.
    - apply IH; [lia|]. intros k Hk. apply HW. by right. }
  by eapply G.
Qed.
Lemma w_incr_reply {pp} k n a d d' r : k ∈ take 1 a → incr_reply k n d = Ret (d', r) → gsteps pp false (take 1 a) d d'.
Proof.
  intros Hk H. unfold incr_reply, IncrBy, reply, fail in H. crush H; crush_all; try apply none; apply once, st_put; done.
Qed.
Lemma w_incr {pp} a d d' r : c_incr a d = Ret (d', r) → gsteps pp false (take 1 a) d d'.
Proof. intros H. unfold c_incr, fail in H. crush_one H; [apply none|]. eapply w_incr_reply; [|done]; argk. Qed.
Lemma w_decr {pp} a d d' r : c_decr a d = Ret (d', r) → gsteps pp false (take 1 a) d d'.
Proof. intros H. unfold c_decr, fail in H. crush_one H; [apply none|]. eapply w_incr_reply; [|done]; argk. Qed.
Lemma w_incrby {pp} a d d' r : c_incrby a d = Ret (d', r) → gsteps pp false (take 1 a) d d'.
Proof. intros H. unfold c_incrby, fail in H. crush_one H; try apply none. eapply w_incr_reply; [|done]. argk. Qed.
Lemma w_decrby {pp} a d d' r : c_decrby a d = Ret (d', r) → gsteps pp false (take 1 a) d d'.
Proof. intros H. unfold c_decrby, fail in H. crush_one H; try apply none. eapply w_incr_reply; [|done]. argk. Qed.
Lemma w_append {pp} a d d' r : c_append a d = Ret (d', r) → gsteps pp false (take 1 a) d d'.
Proof.
  intros H. unfold c_append, Append, reply, fail in H. crush H; crush_all; try apply none; apply once, st_put; try done; argk.
Qed.

(** lists *)
Lemma w_lpush {pp} a d d' r : c_lpush a d = Ret (d', r) → gsteps pp false (take 1 a) d d'.
Proof.
  intros H. unfold c_lpush, LPush, reply, fail in H. crush H; crush_all; try apply none; apply once, st_put; try done; argk.
Qed.
Lemma w_rpush {pp} a d d' r : c_rpush a d = Ret (d', r) → gsteps pp false (take 1 a) d d'.
Proof.
  intros H. unfold c_rpush, RPush, reply, fail in H. crush H; crush_all; try apply none; apply once, st_put; try done; argk.
Qed.
Lemma w_lpop {pp} a d d' r : c_lpop a d = Ret (d', r) → gsteps pp false (take 1 a) d d'.
Proof.
  intros H. unfold c_lpop, pop_reply, LPop, reply, fail in H. crush H; crush_all; try apply none; apply once, st_put; try done; argk.
Qed.
Lemma w_rpop {pp} a d d' r : c_rpop a d = Ret (d', r) → gsteps pp false (take 1 a) d d'.
Proof.
  intros H. unfold c_rpop, pop_reply, RPop, reply, fail in H. crush H; crush_all; try apply none; apply once, st_put; try done; argk.
Qed.
Lemma w_lrem {pp} a d d' r : c_lrem a d = Ret (d', r) → gsteps pp false (take 1 a) d d'.
Proof.
  intros H. unfold c_lrem, LRem, reply, fail in H. crush H; crush_all; try apply none; apply once, st_put; try done; argk.
Qed.
Lemma w_lset {pp} a d d' r : c_lset a d = Ret (d', r) → gsteps pp false (take 1 a) d d'.
Proof.
  intros H. unfold c_lset, LSet, reply, fail in H. crush H; crush_all; try apply none; apply once, st_put; try done; argk.
Qed.
Lemma w_linsert {pp} a d d' r : c_linsert a d = Ret (d', r) → gsteps pp false (take 1 a) d d'.
Proof.
  intros H. unfold c_linsert, LInsert, reply, fail in H. crush H; crush_all; try apply none; apply once, st_put; try done; argk.
Qed.

(** sets *)
Lemma load_set_ok key ck d p s : load_set key ck d = Ret (Ok (p, s)) →
  sm_get (db_keys d) key = Some (VSet p) ∧ db_sets d !! p = Some s.
Proof.
  unfold load_set. destruct (sm_get (db_keys d) key) as [[]|]; try done.
  destruct (db_sets d !! p0) as [s0|] eqn:E; simpl; [|done].
  destruct (ck && (ms_len s0 =? 0)); intros [= -> ->]. done.
Qed.
Lemma load_set_wf key ck d p s : dbinv d → load_set key ck d = Ret (Ok (p, s)) → set_ok s.
Proof. intros I H. apply load_set_ok in H as [_ H]. by apply I in H as [_ ?]. Qed.

Lemma sadd_steps {pp} k W vs d d' r : dbinv d → k ∈ W → SAdd k vs d = Ret (d', r) → gsteps pp false W d d'.
Proof.
  intros I Hk H. unfold SAdd in H. apply obind_ret in H as (l & Hl & H). destruct l as [[p s]|e].
  - pose proof (load_set_ok _ _ _ _ _ Hl) as [Hg Hs]. pose proof (load_set_wf _ _ _ _ _ I Hl) as Hw.
    pose proof (ms_add_all_sok vs s 0 Hw). pose proof (ms_add_all_tight vs s 0). destruct (ms_add_all vs s 0). crush_all.
    apply once, (st_set _ _ _ k _ s); auto.
  - destruct e; try (crush_all; apply none). simpl in H.
    pose proof (ms_add_all_tight vs ms_new 0 ms_new_tight). destruct (ms_add_all vs ms_new 0). crush_all.
    unfold put_set, put; simpl. rewrite insert_insert. apply once, st_new; done.
Qed.
Lemma w_sadd {pp} a d d' r : dbinv d → c_sadd a d = Ret (d', r) → gsteps pp false (take 1 a) d d'.
Proof.
  intros I H. unfold c_sadd, reply, fail in H. crush H; crush_all; try apply none;
  eapply sadd_steps; try done; argk.
Qed.
Lemma w_srem {pp} a d d' r : dbinv d → c_srem a d = Ret (d', r) → gsteps pp false (take 1 a) d d'.
Proof.
  intros I H. unfold c_srem, reply, fail in H.
  destruct (fewer a 2); [crush_all; apply none|].
  apply obind_ret in H as (k & Ek & H). apply obind_ret in H as (q & HS & H).
  assert (gsteps pp false (take 1 a) d q.1) as G; [|destruct q as [? [|[]]]; by crush_all].
  clear H. unfold SRem in HS. apply obind_ret in HS as (l0 & Hl & HS). destruct l0 as [[p s']|e0]; [|crush_all; apply none].
  pose proof (load_set_ok _ _ _ _ _ Hl) as [Hg Hs]. pose proof (load_set_wf _ _ _ _ _ I Hl) as Hw.
  pose proof (ms_rem_all_sok (drop 1 a) s' 0 Hw). pose proof (ms_rem_all_tight (drop 1 a) s' 0). destruct (ms_rem_all (drop 1 a) s' 0). crush_all.
  apply once, (st_set _ _ _ k _ s'); auto; argk.
Qed.
Lemma w_spop a d d' r : dbinv d → c_spop c a d = Ret (d', r) → gsteps true false (take 1 a) d d'.
Proof.
  intros I H. unfold c_spop, reply, fail in H.
  destruct (fewer a 1); [crush_all; apply none|].
  apply obind_ret in H as (n & En & H). destruct n as [n|]; [|crush_all; apply none].
  apply obind_ret in H as (k & Ek & H). apply obind_ret in H as (q & HS & H).
  assert (gsteps true false (take 1 a) d q.1) as G; [|destruct q as [? [|[]]]; by crush_all].
  clear H. unfold SPop in HS. apply obind_ret in HS as (l0 & Hl & HS). destruct l0 as [[p s']|e0]; [|crush_all; apply none].
  pose proof (load_set_ok _ _ _ _ _ Hl) as [Hg Hs]. pose proof (load_set_wf _ _ _ _ _ I Hl) as Hw.
  match type of HS with context [ms_pop ?o ?n ?s] => pose proof (ms_pop_sok o n s Hw); destruct (ms_pop o n s) end; crush_all.
  apply once, (st_set _ _ _ k _ s'); try done; argk.
Qed.
Lemma w_smove a d d' r : dbinv d → c_smove a d = Ret (d', r) → gsteps true false (take 2 a) d d'.
Proof.
  intros I H. unfold c_smove, reply, fail in H.
  destruct (fewer a 3); [crush_all; apply none|].
  apply obind_ret in H as (s & Es & H). apply obind_ret in H as (t & Et & H). apply obind_ret in H as (v & Ev & H).
  apply obind_ret in H as (q & HS & H).
  assert (gsteps true false (take 2 a) d q.1) as G; [|destruct q as [? []]; by crush_all].
  clear H. unfold SMove in HS. apply obind_ret in HS as (l0 & Hl & HS). destruct l0 as [[p s']|e0]; [|crush_all; apply none].
  pose proof (load_set_ok _ _ _ _ _ Hl) as [Hg Hs]. pose proof (load_set_wf _ _ _ _ _ I Hl) as Hw.
  rewrite sm_delete_if_exists_map in HS by (by apply set_ok_wf). destruct (sm_map (ms_m s') !! v) eqn:Ev'.
  - assert (S1 : gstep true false (take 2 a) d (put_set p (MSet (sm_delete (ms_m s') v) (ms_len s')) d)).
    { apply (st_set _ _ _ s _ s'); [argk|done|done| |done]. destruct Hw as (X & dr & R). eapply set_rep_ok, ms_take_rep; [done|]. apply (set_rep_in _ _ _ v R). eauto. }
    eapply rtc_l; [exact S1|]. destruct q. eapply (sadd_steps t); [by eapply dstep_inv|argk|done].
  - crush_all. apply none.
Qed.
Lemma set_fold_shape o j keys acc d acc' : dbinv d →
  set_fold o c j keys acc d = Ret (Ok acc') →
  (∀ s, acc = AFresh s → tight s) → (∀ p s, acc = AObj p s → set_ok s) →
  (∀ s, acc' = AFresh s → tight s) ∧
  (∀ p s, acc' = AObj p s → (keys = [] ∧ acc = acc') ∨
     (acc = ANil ∧ ∃ k, keys = [k] ∧ sm_get (db_keys d) k = Some (VSet p) ∧ db_sets d !! p = Some s)).
Proof.
  intros I. revert j acc. induction keys as [|k keys IH]; intros j acc H HF HO; simpl in H.
  - crush_all. split; [done|]. intros p s ->. by left.
  - apply obind_ret in H as (l & Hl & H). destruct l as [[p s]|]; [|crush_all].
    pose proof (load_set_ok _ _ _ _ _ Hl) as [Hg Hs]. pose proof (load_set_wf _ _ _ _ _ I Hl) as Hw.
    apply IH in H as [H1 H2].
    + split; [done|]. intros p1 s1 E. destruct (H2 _ _ E) as [[-> E2]|[E2 _]].
      * right. destruct acc; simpl in E2; rewrite E in E2; try discriminate E2. injection E2 as <- <-. split; [done|]. eauto.
      * destruct acc; discriminate E2.
    + intros s1 E. destruct acc; simpl in E; try discriminate E; injection E as <-; apply ms_op_tight; eauto using tight_ok.
    + intros p1 s1 E. destruct acc; simpl in E; try discriminate E; injection E as <- <-; done.
Qed.
Lemma w_setop_store {pp} o a d d' r : dbinv d → c_setop_store c o a d = Ret (d', r) →
  gsteps pp (bool_decide (length a = 2%nat)) (take 1 a) d d'.
Proof.
  intros I H. unfold c_setop_store, reply, fail in H.
  destruct (fewer a 2); [crush_all; apply none|]. destruct (length a =? 1)%nat; [crush_all; apply none|].
  apply obind_ret in H as (k & Ek & H). apply obind_ret in H as (q & HS & H).
  assert (gsteps pp (bool_decide (length a = 2%nat)) (take 1 a) d q.1) as G; [|destruct q as [? []]; by crush_all].
  clear H. unfold SOpStore in HS. apply obind_ret in HS as (l & Hl & HS). destruct l as [acc|]; [|crush_all; apply none].
  destruct (set_fold_shape _ _ _ _ _ _ I Hl) as [H1 H2]; [done|done|].
  destruct acc as [|p s|s]; simpl in HS; crush_all; simpl.
  - apply once, (st_new _ _ d k ms_new); [argk|apply ms_new_tight].
  - destruct (H2 _ _ eq_refl) as [[_ ?]|(_ & k2 & Ha & Hg & Hs)]; [done|].
    apply once, (st_share _ _ _ _ k2); [argk| |done].
    apply bool_decide_eq_true. apply (f_equal length) in Ha. rewrite drop_length in Ha. simpl in Ha. lia.
  - apply once, (st_new _ _ d k s); [argk|by apply H1].
Qed.

Lemma store_one o k src d d' r : dbinv d → c_setop_store c o [k; src] d = Ret (d', r) →
  gsteps true false [k] d d' ∨ ∃ p, sm_get (db_keys d) src = Some (VSet p) ∧ d' = put k (VSet p) d.
Proof.
  intros I H. unfold c_setop_store, reply, fail in H. cbn [fewer length Nat.ltb Nat.leb Nat.eqb arg obind drop] in H.
  apply obind_ret in H as (k0 & Ek & H). apply obind_ret in H as (q & HS & H). injection Ek as <-.
  assert (gsteps true false [k] d q.1 ∨ ∃ p, sm_get (db_keys d) src = Some (VSet p) ∧ q.1 = put k (VSet p) d) as G; [|destruct q as [? []]; by crush_all].
  clear H. unfold SOpStore in HS. apply obind_ret in HS as (l & Hl & HS). destruct l as [acc|]; [|crush_all; left; apply none].
  destruct (set_fold_shape _ _ _ _ _ _ I Hl) as [H1 H2]; [done|done|].
  destruct acc as [|p s|s]; simpl in HS; crush_all; simpl.
  - left. apply once, (st_new _ _ d k ms_new); [by left|apply ms_new_tight].
  - destruct (H2 _ _ eq_refl) as [[_ ?]|(_ & k2 & [= <-] & Hg & Hs)]; [done|]. right. by exists p.
  - left. apply once, (st_new _ _ d k s); [by left|by apply H1].
Qed.

(** sorted sets *)
Lemma w_zadd {pp} a d d' r : c_zadd ext c a d = Ret (d', r) → gsteps pp false (take 1 a) d d'.
Proof.
  intros H. unfold c_zadd, ZAdd, reply, fail in H. crush H; crush_all; try apply none; apply once, st_put; try done; argk.
Qed.
Lemma w_zrem {pp} a d d' r : c_zrem a d = Ret (d', r) → gsteps pp false (take 1 a) d d'.
Proof.
  intros H. unfold c_zrem, ZRem, reply, fail in H. crush H; crush_all; try apply none; apply once, st_put; try done; argk.
Qed.
Lemma w_zincr {pp} a d d' r : c_zincr ext c a d = Ret (d', r) → gsteps pp false (take 1 a) d d'.
Proof.
  intros H. unfold c_zincr, ZIncr, reply, fail in H. crush H; crush_all; try apply none; apply once, st_put; try done; argk.
Qed.
Lemma w_zpop {pp} mx a d d' r : c_zpop ext mx a d = Ret (d', r) → gsteps pp false (take 1 a) d d'.
Proof.
  intros H. unfold c_zpop, ZPop, reply, fail in H. crush H; crush_all; try apply none; apply once, st_put; try done; argk.
Qed.

(** hash tables: there never is one *)
Lemma load_hash_never key ck d h : dbinv d → load_hash key ck d ≠ Ok h.
Proof.
  intros I. unfold load_hash. destruct (sm_get (db_keys d) key) as [[]|] eqn:E; try done.
  by apply I in E.
Qed.
Lemma w_hdel a d d' r : dbinv d → c_hdel a d = Ret (d', r) → d' = d.
Proof.
  intros I H. unfold c_hdel, HDel, reply, fail in H. crush H; crush_all; try done; by exfalso; eapply load_hash_never.
Qed.
Lemma w_hincrby a d d' r : dbinv d → c_hincrby a d = Ret (d', r) → d' = d.
Proof.
  intros I H. unfold c_hincrby, HIncrBy, reply, fail in H. crush H; crush_all; try done; by exfalso; eapply load_hash_never.
Qed.
Lemma w_hincrbyfloat a d d' r : dbinv d → c_hincrbyfloat ext a d = Ret (d', r) → d' = d.
Proof.
  intros I H. unfold c_hincrbyfloat, HIncrByFloat, reply, fail in H. crush H; crush_all; try done; by exfalso; eapply load_hash_never.
Qed.
Lemma w_hset a d d' r : dbinv d → c_hset ext a d = Ret (d', r) → d' = d.
Proof.
  intros I H. unfold c_hset, HSet, reply, fail in H. crush H; crush_all; try done; by exfalso; eapply load_hash_never.
Qed.
Lemma w_hmset a d d' r : dbinv d → c_hmset ext a d = Ret (d', r) → d' = d.
Proof.
  intros I H. unfold c_hmset, HSet, reply, fail in H. crush H; crush_all; try done; by exfalso; eapply load_hash_never.
Qed.
Lemma w_hsetnx a d d' r : dbinv d → c_hsetnx ext a d = Ret (d', r) → d' = d.
Proof.
  intros I H. unfold c_hsetnx, HSet, reply, fail in H. crush H; crush_all; try done; by exfalso; eapply load_hash_never.
Qed.
End steps.

(** ** Any request *)
Lemma lookup_command_in name t f : lookup_command name t = Some f → (name, f) ∈ t.
Proof.
  induction t as [|[n g] t IH]; simpl; [done|]. destruct (String.eqb_spec n name) as [->|].
  - intros [= ->]. by left.
  - intros H. right. by apply IH.
Qed.

Definition reply_of (r : res response) : response := match r with Err e => rsp_error e | Ok rsp => rsp end.

Lemma exec_inv ext c name a d d' r : exec ext c (name :: a) d = Ret (d', r) →
  (lookup_command (to_lower name) (implemented_commands ext c) = None ∧ d' = d ∧ r = Some (rsp_error ErrUnknownCommand)) ∨
  ∃ f q, (to_lower name, f) ∈ implemented_commands ext c ∧ f a d = Ret (d', q) ∧ r = Some (reply_of q).
Proof.
  unfold exec, exec_lowered. intros H. apply obind_ret in H as ([d1 r1] & H & [= <- <-]).
  destruct (lookup_command (to_lower name) (implemented_commands ext c)) as [f|] eqn:E.
  - apply obind_ret in H as ([d2 q] & Hf & [= <- <-]). right. exists f, q.
    split; [by apply lookup_command_in|]. done.
  - injection H as <- <-. by left.
Qed.

(** SPOP and SMOVE remove members without counting them *)
Definition popping (req : list string) : bool :=
  match req with name :: _ => let n := to_lower name in String.eqb n "spop" || String.eqb n "smove" | [] => false end.
Lemma exec_gsteps ext c req d d' r : dbinv d → exec ext c req d = Ret (d', r) →
  gsteps (popping req) (one_source_store req) (writes req) d d'.
Proof.
  intros I H. destruct req as [|name a]; [injection H as <- <-; apply none|].
  apply exec_inv in H as [(_ & -> & _)|(f & q & Hin & Hf & _)]; [apply none|].
  unfold writes, popping. remember (to_lower name) as low eqn:Hlow.
  assert (Hone : one_source_store (name :: a) =
     (bool_decide (length a = 2%nat)) && (String.eqb low "sdiffstore" || String.eqb low "sinterstore" || String.eqb low "sunionstore")).
  { subst low. destruct a as [|? [|? [|? ?]]]; reflexivity. }
  rewrite Hone. clear Hone Hlow.
  unfold implemented_commands in Hin.
  repeat (apply elem_of_cons in Hin as [[= -> ->]|Hin]; [cbn -[take evens bool_decide]; rewrite ?andb_false_r, ?andb_true_r; 
    match goal with |- context [bool_decide (?x ∈ read_only)] => 
      let b := eval vm_compute in (bool_decide (x ∈ read_only)) in
      replace (bool_decide (x ∈ read_only)) with b by (vm_compute; reflexivity) end; cbn -[take evens bool_decide];
    first [ assert (d' = d) as ->; [|apply none]; 
            eauto using w_hdel, w_hincrby, w_hincrbyfloat, w_hset, w_hmset, w_hsetnx, ro_get, ro_mget, ro_keys, ro_exists, ro_type, ro_ping, ro_command, ro_llen, ro_lrange, ro_lindex, ro_scard, ro_sismember, ro_smembers, ro_setop, ro_zscore, ro_zrank, ro_zcard, ro_zcount, ro_zrange, ro_zrangebyscore, ro_zrevrange, ro_hexists, ro_hget, ro_hgetall, ro_hkeys, ro_hlen, ro_hmget, ro_hvals; fail
          | eauto using w_del, w_set, w_mset, w_incr, w_incrby, w_decr, w_decrby, w_append, w_lpush, w_rpush, w_lpop, w_rpop, w_lrem, w_lset, w_linsert, w_sadd, w_srem, w_spop, w_smove, w_setop_store, w_zadd, w_zrem, w_zincr, w_zpop; fail ] |]).
  by apply elem_of_nil in Hin.
Qed.

Lemma gstep_more pp al W d d' : gstep pp al W d d' → dstep al W d d'.
Proof. intros St. destruct St; [by apply st_put|by eapply st_set|by apply st_new|by eapply st_share|by apply st_del]. Qed.
Lemma gsteps_more pp al W d d' : gsteps pp al W d d' → dsteps al W d d'.
Proof. induction 1; [apply rtc_refl|eapply rtc_l; [by eapply gstep_more|done]]. Qed.
Lemma exec_steps ext c req d d' r : dbinv d → exec ext c req d = Ret (d', r) →
  dsteps (one_source_store req) (writes req) d d'.
Proof. intros I H. eapply gsteps_more. by eapply exec_gsteps. Qed.
