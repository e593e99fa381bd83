(** Two keyspaces that agree on the keys [K], up to the addresses of set objects: every request that names only keys
    in [K] has the same outcome in both. *)
From Verif Require Import GoBase GoBaseProofs ShardMap ShardMapProofs Float64 DList SkipList Db Protocol Redis Obs SpecCmd SpecResp SpecServer SpecTenants
  SetRep DbInv ExecSteps.

Definition same_value (d e : db) (v w : option value) : Prop :=
  match v, w with
  | Some (VSet p), Some (VSet q) => db_sets d !! p = db_sets e !! q
  | Some (VSet _), _ | _, Some (VSet _) => False
  | v, w => v = w
  end.
Record lite (d : db) : Prop := {
  l_wf : sm_wf (db_keys d);
  l_ptr : ∀ k p, sm_get (db_keys d) k = Some (VSet p) → is_Some (db_sets d !! p);
  l_heap : ∀ p, is_Some (db_sets d !! p) → (p < db_fresh d)%nat
}.
Record twin (K : string → bool) (d e : db) : Prop := {
  t_l : lite d;
  t_r : lite e;
  t_val : ∀ k, K k = true → same_value d e (sm_get (db_keys d) k) (sm_get (db_keys e) k);
  t_sh : ∀ k1 k2 p1 p2 q1 q2, K k1 = true → K k2 = true →
    sm_get (db_keys d) k1 = Some (VSet p1) → sm_get (db_keys e) k1 = Some (VSet q1) →
    sm_get (db_keys d) k2 = Some (VSet p2) → sm_get (db_keys e) k2 = Some (VSet q2) → (p1 = p2 ↔ q1 = q2)
}.
Lemma lite_inv d : dbinv d → lite d.
Proof.
  intros I. split; [apply I|apply I|]. intros p [s H]. by apply I in H as [? _].
Qed.

Definition not_set (v : value) : Prop := match v with VSet _ => False | _ => True end.

Section twin.
Context (K : string → bool).
Implicit Types (d e : db).

Lemma lite_put k v d : not_set v → lite d → lite (put k v d).
Proof.
  intros Hv [W P H]. split; cbn [put db_keys db_sets db_fresh]; [by apply sm_set_wf| |done].
  intros k' p. rewrite sm_get_set by done. case_bool_decide; [|apply P]. by intros [= ->].
Qed.
Lemma twin_put k v d e : not_set v → twin K d e → twin K (put k v d) (put k v e).
Proof.
  intros Hv [L R V S]. split; [by apply lite_put..| |]; cbn [put db_keys db_sets].
  - intros k' Hk. rewrite !sm_get_set by (apply L || apply R). case_bool_decide; [|by apply V]. by destruct v.
  - intros k1 k2 p1 p2 q1 q2 H1 H2. rewrite !sm_get_set by (apply L || apply R).
    repeat case_bool_decide; try (intros; simplify_eq; done). by apply S.
Qed.
Lemma twin_del k d e : twin K d e →
  twin K (Db (sm_delete (db_keys d) k) (db_sets d) (db_fresh d)) (Db (sm_delete (db_keys e) k) (db_sets e) (db_fresh e)).
Proof.
  assert (G : ∀ d, lite d → lite (Db (sm_delete (db_keys d) k) (db_sets d) (db_fresh d))).
  { clear. intros d [W P H]. split; cbn [db_keys db_sets db_fresh]; [by apply sm_delete_wf| |done].
    intros k' p. rewrite sm_get_delete by done. case_bool_decide; [done|apply P]. }
  intros [L R V S]. split; [by apply G..| |]; cbn [db_keys db_sets].
  - intros k' Hk. rewrite !sm_get_delete by (apply L || apply R). case_bool_decide; [done|by apply V].
  - intros k1 k2 p1 p2 q1 q2 H1 H2. rewrite !sm_get_delete by (apply L || apply R). repeat case_bool_decide; try done. by apply S.
Qed.
Lemma lite_put_set p s d : lite d → is_Some (db_sets d !! p) → lite (put_set p s d).
Proof.
  intros [W P H] Hp. split; cbn [put_set db_keys db_sets db_fresh]; [done| |].
  - intros k' p' Hg. rewrite lookup_insert_is_Some'. right. by eapply P.
  - intros p'. rewrite lookup_insert_is_Some'. intros [<-|?]; auto.
Qed.
Lemma twin_put_set k p q s d e : K k = true → sm_get (db_keys d) k = Some (VSet p) → sm_get (db_keys e) k = Some (VSet q) →
  twin K d e → twin K (put_set p s d) (put_set q s e).
Proof.
  intros Hk Hp Hq [L R V S]. split; [apply lite_put_set; [done|by eapply L]|apply lite_put_set; [done|by eapply R]| |done].
  intros k' Hk'. specialize (V k' Hk'). cbn [put_set db_keys db_sets]. revert V. unfold same_value. cbn [put_set db_keys db_sets].
  destruct (sm_get (db_keys d) k') as [[| |p'| |]|] eqn:E1, (sm_get (db_keys e) k') as [[| |q'| |]|] eqn:E2; try done.
  pose proof (S k k' p p' q q' Hk Hk' Hp Hq E1 E2) as Hs. intros V.
  destruct (decide (p = p')) as [<-|Hn].
  - destruct Hs as [Hs _]. rewrite <- (Hs eq_refl), !lookup_insert. done.
  - rewrite lookup_insert_ne by done. rewrite lookup_insert_ne; [done|]. intros ->. by apply Hn, Hs.
Qed.
Definition place (k : string) (s : mset) (d : db) : db :=
  Db (sm_set (db_keys d) k (VSet (db_fresh d))) (<[db_fresh d := s]> (db_sets d)) (S (db_fresh d)).
Lemma lite_fresh d k : lite d → sm_get (db_keys d) k ≠ Some (VSet (db_fresh d)).
Proof. intros [W P H] Hg. apply P, H in Hg. lia. Qed.
Lemma lite_place k s d : lite d → lite (place k s d).
Proof.
  intros [W P H]. split; cbn [place db_keys db_sets db_fresh]; [by apply sm_set_wf| |].
  - intros k' p. rewrite sm_get_set by done. rewrite lookup_insert_is_Some'. case_bool_decide; [intros [= <-]; by left|].
    intros Hg. right. by eapply P.
  - intros p. rewrite lookup_insert_is_Some'. intros [<-|Hp]; [lia|]. apply H in Hp. lia.
Qed.
Lemma twin_place k s d e : twin K d e → twin K (place k s d) (place k s e).
Proof.
  intros [L R V S]. split; [by apply lite_place..| |]; cbn [place db_keys db_sets].
  - intros k' Hk'. rewrite !sm_get_set by (apply L || apply R). case_bool_decide.
    + cbn. by rewrite !lookup_insert.
    + specialize (V k' Hk'). pose proof (lite_fresh d k' L) as F1. pose proof (lite_fresh e k' R) as F2. unfold same_value in *.
      destruct (sm_get (db_keys d) k') as [[| |p'| |]|] eqn:E1, (sm_get (db_keys e) k') as [[| |q'| |]|] eqn:E2; try done.
      cbn [place db_sets]. rewrite !lookup_insert_ne; [done|congruence..].
  - intros k1 k2 p1 p2 q1 q2 H1 H2. rewrite !sm_get_set by (apply L || apply R).
    repeat case_bool_decide; subst.
    + intros; simplify_eq; done.
    + intros [= <-] [= <-] G1 G2. pose proof (lite_fresh d k2 L). pose proof (lite_fresh e k2 R). split; congruence.
    + intros G1 G2 [= <-] [= <-]. pose proof (lite_fresh d k1 L). pose proof (lite_fresh e k1 R). split; congruence.
    + by apply S.
Qed.
Lemma lite_share k k' p d : lite d → sm_get (db_keys d) k' = Some (VSet p) → lite (put k (VSet p) d).
Proof.
  intros [W P H] Hg. split; cbn [put db_keys db_sets db_fresh]; [by apply sm_set_wf| |done].
  intros k1 p1. rewrite sm_get_set by done. case_bool_decide; [intros [= <-]; by eapply P|apply P].
Qed.
Lemma twin_share k k' p q d e : K k' = true → sm_get (db_keys d) k' = Some (VSet p) → sm_get (db_keys e) k' = Some (VSet q) →
  twin K d e → twin K (put k (VSet p) d) (put k (VSet q) e).
Proof.
  intros Hk Hp Hq [L R V S]. split; [by eapply lite_share..| |]; cbn [put db_keys db_sets].
  - intros k1 Hk1. rewrite !sm_get_set by (apply L || apply R). case_bool_decide; [|by apply V].
    specialize (V k' Hk). rewrite Hp, Hq in V. exact V.
  - intros k1 k2 p1 p2 q1 q2 H1 H2. rewrite !sm_get_set by (apply L || apply R).
    repeat case_bool_decide; subst.
    + intros; simplify_eq; done.
    + intros [= <-] [= <-] G1 G2. by apply (S k' k2).
    + intros G1 G2 [= <-] [= <-]. by apply (S k1 k').
    + by apply S.
Qed.

(** the same outcome *)
Definition same {A} (x y : outcome (db * A)) : Prop :=
  match x, y with
  | Ret (d, r), Ret (e, s) => r = s ∧ twin K d e
  | Panic, Panic | OutOfFuel, OutOfFuel => True
  | _, _ => False
  end.

Context (d e : db) (T : twin K d e).
Lemma tw_list k ck : K k = true → load_list k ck d = load_list k ck e.
Proof using T.
  intros Hk. pose proof (t_val _ _ _ T k Hk) as V. unfold load_list, same_value in *.
  destruct (sm_get (db_keys d) k) as [[]|], (sm_get (db_keys e) k) as [[]|]; by simplify_eq.
Qed.
Lemma tw_zset k ck : K k = true → load_zset k ck d = load_zset k ck e.
Proof using T.
  intros Hk. pose proof (t_val _ _ _ T k Hk) as V. unfold load_zset, same_value in *.
  destruct (sm_get (db_keys d) k) as [[]|], (sm_get (db_keys e) k) as [[]|]; by simplify_eq.
Qed.
Lemma tw_hash k ck : K k = true → load_hash k ck d = load_hash k ck e.
Proof using T.
  intros Hk. pose proof (t_val _ _ _ T k Hk) as V. unfold load_hash, same_value in *.
  destruct (sm_get (db_keys d) k) as [[]|], (sm_get (db_keys e) k) as [[]|]; by simplify_eq.
Qed.
Lemma tw_get k : K k = true → Get k d = Get k e.
Proof using T.
  intros Hk. pose proof (t_val _ _ _ T k Hk) as V. unfold Get, same_value in *.
  destruct (sm_get (db_keys d) k) as [[]|], (sm_get (db_keys e) k) as [[]|]; by simplify_eq.
Qed.
Lemma tw_exists k : K k = true → Exists_ k d = Exists_ k e.
Proof using T.
  intros Hk. pose proof (t_val _ _ _ T k Hk) as V. unfold Exists_, same_value in *.
  change (sm_has (db_keys d) k) with (bool_decide (is_Some (sm_get (db_keys d) k))).
  change (sm_has (db_keys e) k) with (bool_decide (is_Some (sm_get (db_keys e) k))).
  destruct (sm_get (db_keys d) k) as [[]|], (sm_get (db_keys e) k) as [[]|]; try done; simplify_eq; done.
Qed.
Lemma tw_type k : K k = true → Type_ k d = Type_ k e.
Proof using T.
  intros Hk. pose proof (t_val _ _ _ T k Hk) as V. unfold Type_, same_value in *.
  destruct (sm_get (db_keys d) k) as [[]|], (sm_get (db_keys e) k) as [[]|]; by simplify_eq.
Qed.
(** a key of a set: the same set behind two addresses *)
Lemma tw_set k ck : K k = true →
  (∃ er, load_set k ck d = Ret (Err er) ∧ load_set k ck e = Ret (Err er)) ∨
  ∃ p q s, load_set k ck d = Ret (Ok (p, s)) ∧ load_set k ck e = Ret (Ok (q, s)) ∧
    sm_get (db_keys d) k = Some (VSet p) ∧ sm_get (db_keys e) k = Some (VSet q).
Proof using T.
  intros Hk. pose proof (t_val _ _ _ T k Hk) as V. unfold load_set, same_value in *.
  destruct (sm_get (db_keys d) k) as [[| |p| |]|] eqn:E1, (sm_get (db_keys e) k) as [[| |q| |]|] eqn:E2; simplify_eq; try (left; eexists; by split).
  destruct (l_ptr d (t_l _ _ _ T) _ _ E1) as [s Hs]. rewrite Hs in V. rewrite Hs, <- V. cbn [deref obind].
  destruct (ck && (ms_len s =? 0)); [left; exists ErrNil; by split|right; by exists p, q, s].
Qed.

(** one command after the other *)
Lemma same_ret {A} (r : A) d1 e1 : twin K d1 e1 → same (Ret (d1, r)) (Ret (e1, r)).
Proof. done. Qed.
Lemma same_bind {A B} (x y : outcome (db * A)) (f g : db * A → outcome (db * B)) : same x y →
  (∀ d1 e1 r, twin K d1 e1 → same (f (d1, r)) (g (e1, r))) → same (obind x f) (obind y g).
Proof. destruct x as [[d1 r]| |], y as [[e1 r']| |]; try done. intros [<- H] G. by apply G. Qed.

Ltac leaf := first [done | split; [done|]; first [exact T | apply twin_put; [done|exact T]]].
Ltac both := try leaf; repeat (match goal with
    | |- context [match ?x with _ => _ end] => lazymatch x with context [match _ with _ => _ end] => fail | context [obind] => fail | _ => destruct x end
    | |- context [obind ?x _] => lazymatch x with context [match _ with _ => _ end] => fail | context [obind] => fail | _ => destruct x end
    end; cbn [obind]; try leaf).
Ltac args a := do 5 (try (destruct a as [|? a])); 
  cbn [fewer length Nat.ltb Nat.leb Nat.eqb arg lookup list_lookup deref obind andb negb drop]; try leaf.

Context (ext : Ext) (c : choices).
Definition in_K (a : list string) : Prop := ∀ k, k ∈ a → K k = true.
Lemma in_K_1 k a : in_K (take 1 (k :: a)) → K k = true.
Proof. intros H. apply H. by left. Qed.

Ltac start a HK := intros HK; destruct a as [|k a]; [try leaf|apply in_K_1 in HK].

Lemma tw_c_exists a : in_K (take 1 a) → same (c_exists a d) (c_exists a e).
Proof using T. start a HK. unfold c_exists, reply. cbn. rewrite (tw_exists k HK). leaf. Qed.
Lemma tw_c_type a : in_K (take 1 a) → same (c_type a d) (c_type a e).
Proof using T. start a HK. unfold c_type, reply. cbn. rewrite (tw_type k HK). leaf. Qed.
Lemma tw_c_get a : in_K (take 1 a) → same (c_get a d) (c_get a e).
Proof using T. start a HK. unfold c_get, reply. cbn. rewrite (tw_get k HK). both. Qed.
Lemma tw_c_incr_reply k n : K k = true → same (incr_reply k n d) (incr_reply k n e).
Proof using T.
  intros Hk. unfold incr_reply, IncrBy, Set_, reply, fail. pose proof (t_val _ _ _ T k Hk) as V. unfold same_value in V.
  destruct (sm_get (db_keys d) k) as [[]|], (sm_get (db_keys e) k) as [[]|]; try done; simplify_eq; both; leaf.
Qed.
Lemma tw_c_append a : in_K (take 1 a) → same (c_append a d) (c_append a e).
Proof using T.
  start a HK. unfold c_append, Append, Set_, reply, fail. args a. all: pose proof (t_val _ _ _ T k HK) as V; unfold same_value in V.
  all: destruct (sm_get (db_keys d) k) as [[]|], (sm_get (db_keys e) k) as [[]|]; try done; simplify_eq; both; leaf.
Qed.
Lemma tw_c_incr a : in_K (take 1 a) → same (c_incr a d) (c_incr a e).
Proof using T. start a HK. unfold c_incr, fail. args a. all: by apply tw_c_incr_reply. Qed.
Lemma tw_c_decr a : in_K (take 1 a) → same (c_decr a d) (c_decr a e).
Proof using T. start a HK. unfold c_decr, fail. args a. all: by apply tw_c_incr_reply. Qed.
Lemma tw_c_incrby a : in_K (take 1 a) → same (c_incrby a d) (c_incrby a e).
Proof using T. start a HK. unfold c_incrby, fail. args a. all: destruct (parse_int _); [by apply tw_c_incr_reply|leaf]. Qed.
Lemma tw_c_decrby a : in_K (take 1 a) → same (c_decrby a d) (c_decrby a e).
Proof using T. start a HK. unfold c_decrby, fail. args a. all: destruct (parse_int _); [by apply tw_c_incr_reply|leaf]. Qed.
Lemma tw_c_set a : in_K (take 1 a) → same (c_set a d) (c_set a e).
Proof using T. start a HK. unfold c_set, Set_, reply, fail. args a. Qed.
Lemma tw_c_del a : in_K (take 1 a) → same (c_del a d) (c_del a e).
Proof using T.
  start a HK. unfold c_del, Del, reply, fail. cbn [fewer length Nat.ltb Nat.leb arg lookup list_lookup deref obind].
  rewrite !sm_delete_if_exists_map by (apply T). pose proof (t_val _ _ _ T k HK) as V. unfold same_value in V.
  rewrite <- !sm_get_map by (apply T).
  destruct (sm_get (db_keys d) k) as [[]|] eqn:E1, (sm_get (db_keys e) k) as [[]|] eqn:E2; try done.
  all: try (split; [done|]; by apply twin_del).
  split; [done|]. by destruct d, e.
Qed.
Lemma tw_c_lpush a : in_K (take 1 a) → same (c_lpush a d) (c_lpush a e).
Proof using T. start a HK. unfold c_lpush, LPush, reply, fail. args a. all: rewrite ?(tw_list k _ HK); both. Qed.
Lemma tw_c_rpush a : in_K (take 1 a) → same (c_rpush a d) (c_rpush a e).
Proof using T. start a HK. unfold c_rpush, RPush, reply, fail. args a. all: rewrite ?(tw_list k _ HK); both. Qed.
Lemma tw_c_lpop a : in_K (take 1 a) → same (c_lpop a d) (c_lpop a e).
Proof using T. start a HK. unfold c_lpop, pop_count, pop_reply, LPop, reply, fail. args a. all: rewrite ?(tw_list k _ HK); both. Qed.
Lemma tw_c_rpop a : in_K (take 1 a) → same (c_rpop a d) (c_rpop a e).
Proof using T. start a HK. unfold c_rpop, pop_count, pop_reply, RPop, reply, fail. args a. all: rewrite ?(tw_list k _ HK); both. Qed.
Lemma tw_c_llen a : in_K (take 1 a) → same (c_llen a d) (c_llen a e).
Proof using T. start a HK. unfold c_llen, LLen, reply, fail. args a. all: rewrite ?(tw_list k _ HK); both. Qed.
Lemma tw_c_lrange a : in_K (take 1 a) → same (c_lrange a d) (c_lrange a e).
Proof using T. start a HK. unfold c_lrange, LRange, reply, fail. args a. all: rewrite ?(tw_list k _ HK); both. Qed.
Lemma tw_c_lrem a : in_K (take 1 a) → same (c_lrem a d) (c_lrem a e).
Proof using T. start a HK. unfold c_lrem, LRem, reply, fail. args a. all: rewrite ?(tw_list k _ HK); both. Qed.
Lemma tw_c_lset a : in_K (take 1 a) → same (c_lset a d) (c_lset a e).
Proof using T. start a HK. unfold c_lset, LSet, reply, fail. args a. all: rewrite ?(tw_list k _ HK); both. Qed.
Lemma tw_c_linsert a : in_K (take 1 a) → same (c_linsert a d) (c_linsert a e).
Proof using T. start a HK. unfold c_linsert, LInsert, reply, fail. args a. all: rewrite ?(tw_list k _ HK); both. Qed.
Lemma tw_c_zadd a : in_K (take 1 a) → same (c_zadd ext c a d) (c_zadd ext c a e).
Proof using T. start a HK. unfold c_zadd, ZAdd, reply, fail. args a. all: rewrite ?(tw_zset k _ HK); both. Qed.
Lemma tw_c_zscore a : in_K (take 1 a) → same (c_zscore ext a d) (c_zscore ext a e).
Proof using T. start a HK. unfold c_zscore, ZScore, reply, fail. args a. all: rewrite ?(tw_zset k _ HK); both. Qed.
Lemma tw_c_zrank a : in_K (take 1 a) → same (c_zrank a d) (c_zrank a e).
Proof using T. start a HK. unfold c_zrank, ZRank, reply, fail. args a. all: rewrite ?(tw_zset k _ HK); both. Qed.
Lemma tw_c_zrem a : in_K (take 1 a) → same (c_zrem a d) (c_zrem a e).
Proof using T. start a HK. unfold c_zrem, ZRem, reply, fail. args a. all: rewrite ?(tw_zset k _ HK); both. Qed.
Lemma tw_c_zcard a : in_K (take 1 a) → same (c_zcard a d) (c_zcard a e).
Proof using T. start a HK. unfold c_zcard, ZCard, reply, fail. args a. all: rewrite ?(tw_zset k _ HK); both. Qed.
Lemma tw_c_zcount a : in_K (take 1 a) → same (c_zcount ext a d) (c_zcount ext a e).
Proof using T. start a HK. unfold c_zcount, ZCount, reply, fail. args a. all: rewrite ?(tw_zset k _ HK); both. Qed.
Lemma tw_c_zincr a : in_K (take 1 a) → same (c_zincr ext c a d) (c_zincr ext c a e).
Proof using T. start a HK. unfold c_zincr, ZIncr, reply, fail. args a. all: rewrite ?(tw_zset k _ HK); both. Qed.
Lemma tw_c_zrange a : in_K (take 1 a) → same (c_zrange ext a d) (c_zrange ext a e).
Proof using T. start a HK. unfold c_zrange, ZRange, range_reply, reply, fail. args a. all: rewrite ?(tw_zset k _ HK); both. Qed.
Lemma tw_c_zrangebyscore a : in_K (take 1 a) → same (c_zrangebyscore ext a d) (c_zrangebyscore ext a e).
Proof using T. start a HK. unfold c_zrangebyscore, ZRange, range_reply, reply, fail. args a. all: rewrite ?(tw_zset k _ HK); both. Qed.
Lemma tw_c_zrevrange a : in_K (take 1 a) → same (c_zrevrange ext a d) (c_zrevrange ext a e).
Proof using T. start a HK. unfold c_zrevrange, ZRevRange, range_reply, reply, fail. args a. all: rewrite ?(tw_zset k _ HK); both. Qed.
Lemma tw_c_hdel a : in_K (take 1 a) → same (c_hdel a d) (c_hdel a e).
Proof using T. start a HK. unfold c_hdel, HDel, reply, fail. args a. all: rewrite ?(tw_hash k _ HK); both. Qed.
Lemma tw_c_hexists a : in_K (take 1 a) → same (c_hexists a d) (c_hexists a e).
Proof using T. start a HK. unfold c_hexists, HExists, reply, fail. args a. all: rewrite ?(tw_hash k _ HK); both. Qed.
Lemma tw_c_hget a : in_K (take 1 a) → same (c_hget ext a d) (c_hget ext a e).
Proof using T. start a HK. unfold c_hget, HGet, reply, fail. args a. all: rewrite ?(tw_hash k _ HK); both. Qed.
Lemma tw_c_hgetall a : in_K (take 1 a) → same (c_hgetall c a d) (c_hgetall c a e).
Proof using T. start a HK. unfold c_hgetall, HGetAll, reply, fail. args a. all: rewrite ?(tw_hash k _ HK); both. Qed.
Lemma tw_c_hincrby a : in_K (take 1 a) → same (c_hincrby a d) (c_hincrby a e).
Proof using T. start a HK. unfold c_hincrby, HIncrBy, reply, fail. args a. all: rewrite ?(tw_hash k _ HK); both. Qed.
Lemma tw_c_hincrbyfloat a : in_K (take 1 a) → same (c_hincrbyfloat ext a d) (c_hincrbyfloat ext a e).
Proof using T. start a HK. unfold c_hincrbyfloat, HIncrByFloat, reply, fail. args a. all: rewrite ?(tw_hash k _ HK); both. Qed.
Lemma tw_c_hkeys a : in_K (take 1 a) → same (c_hkeys c a d) (c_hkeys c a e).
Proof using T. start a HK. unfold c_hkeys, HKeys, reply, fail. args a. all: rewrite ?(tw_hash k _ HK); both. Qed.
Lemma tw_c_hlen a : in_K (take 1 a) → same (c_hlen a d) (c_hlen a e).
Proof using T. start a HK. unfold c_hlen, HLen, reply, fail. args a. all: rewrite ?(tw_hash k _ HK); both. Qed.
Lemma tw_c_hmget a : in_K (take 1 a) → same (c_hmget ext a d) (c_hmget ext a e).
Proof using T. start a HK. unfold c_hmget, HMGet, reply, fail. args a. all: rewrite ?(tw_hash k _ HK); both. Qed.
Lemma tw_c_hmset a : in_K (take 1 a) → same (c_hmset ext a d) (c_hmset ext a e).
Proof using T. start a HK. unfold c_hmset, HSet, reply, fail. args a. all: rewrite ?(tw_hash k _ HK); both. Qed.
Lemma tw_c_hset a : in_K (take 1 a) → same (c_hset ext a d) (c_hset ext a e).
Proof using T. start a HK. unfold c_hset, HSet, reply, fail. args a. all: rewrite ?(tw_hash k _ HK); both. Qed.
Lemma tw_c_hsetnx a : in_K (take 1 a) → same (c_hsetnx ext a d) (c_hsetnx ext a e).
Proof using T. start a HK. unfold c_hsetnx, HSet, reply, fail. args a. all: rewrite ?(tw_hash k _ HK); both. Qed.
Lemma tw_c_hvals a : in_K (take 1 a) → same (c_hvals ext c a d) (c_hvals ext c a e).
Proof using T. start a HK. unfold c_hvals, HVals, reply, fail. args a. all: rewrite ?(tw_hash k _ HK); both. Qed.
Lemma tw_c_zpop mx a : in_K (take 1 a) → same (c_zpop ext mx a d) (c_zpop ext mx a e).
Proof using T. start a HK. unfold c_zpop, opt_count, ZPop, reply, fail. args a. all: rewrite ?(tw_zset k _ HK); both. Qed.
Lemma tw_c_lindex a : in_K (take 2 a) → same (c_lindex a d) (c_lindex a e).
Proof using T.
  intros HK. destruct a as [|k [|i a]]; [leaf..|]. assert (K i = true) as Hi by (apply HK; right; by left).
  unfold c_lindex, LIndex, reply, fail. args a. all: rewrite ?(tw_list i _ Hi); both.
Qed.
Lemma tw_c_mget a : in_K a → same (c_mget a d) (c_mget a e).
Proof using T.
  intros HK. unfold c_mget, reply, fail. destruct (fewer a 1); [leaf|].
  assert (MGet a d = MGet a e) as ->; [|leaf]. unfold MGet. induction a as [|k a IH]; [done|].
  rewrite !fmap_cons, (tw_get k) by (apply HK; by left). f_equal. apply IH. intros k' Hk'. apply HK. by right.
Qed.

(** sets *)
Lemma tw_c_sadd_at k vs : K k = true → same (SAdd k vs d) (SAdd k vs e).
Proof using T.
  intros HK. unfold SAdd. destruct (tw_set k false HK) as [(er & E1 & E2)|(p & q & s & E1 & E2 & G1 & G2)]; rewrite E1, E2; cbn [obind].
  - destruct er; try leaf. cbn [alloc_set]. destruct (ms_add_all vs ms_new 0) as [s' n]. split; [done|].
    unfold put_set, put. cbn [db_keys db_sets db_fresh]. rewrite !insert_insert. by apply (twin_place k s').
  - destruct (ms_add_all vs s 0) as [s' n]. split; [done|]. by apply (twin_put_set k).
Qed.
Lemma tw_c_sadd a : in_K (take 1 a) → same (c_sadd a d) (c_sadd a e).
Proof using T.
  start a HK. unfold c_sadd, reply, fail. args a. all: apply same_bind; [by apply tw_c_sadd_at|].
  all: intros d1 e1 [] H; by split.
Qed.
Lemma tw_c_scard a : in_K (take 1 a) → same (c_scard a d) (c_scard a e).
Proof using T.
  start a HK. unfold c_scard, SCard, reply, fail. args a. all: destruct (tw_set k true HK) as [(er & E1 & E2)|(p & q & uu & E1 & E2 & _)]; rewrite E1, E2; cbn [obind]; both.
Qed.
Lemma tw_c_sismember a : in_K (take 1 a) → same (c_sismember a d) (c_sismember a e).
Proof using T.
  start a HK. unfold c_sismember, SIsMember, reply, fail. args a. all: destruct (tw_set k true HK) as [(er & E1 & E2)|(p & q & uu & E1 & E2 & _)]; rewrite E1, E2; cbn [obind]; both.
Qed.
Lemma tw_c_smembers a : in_K (take 1 a) → same (c_smembers c a d) (c_smembers c a e).
Proof using T.
  start a HK. unfold c_smembers, SMembers, reply, fail. args a. all: destruct (tw_set k true HK) as [(er & E1 & E2)|(p & q & uu & E1 & E2 & _)]; rewrite E1, E2; cbn [obind]; both.
Qed.
Lemma tw_c_srem a : in_K (take 1 a) → same (c_srem a d) (c_srem a e).
Proof using T.
  start a HK. unfold c_srem, SRem, reply, fail. args a.
  all: destruct (tw_set k true HK) as [(er & E1 & E2)|(p & q & uu & E1 & E2 & G1 & G2)]; rewrite E1, E2; cbn [obind]; [both|].
  all: destruct (ms_rem_all _ uu 0) as [uu' nn]; split; [done|]; by apply (twin_put_set k).
Qed.
Lemma tw_c_spop a : in_K (take 1 a) → same (c_spop c a d) (c_spop c a e).
Proof using T.
  start a HK. unfold c_spop, opt_count, SPop, reply, fail. args a.
  all: try (destruct (parse_int _); cbn [obind]; [|leaf]).
  all: destruct (tw_set k true HK) as [(er & E1 & E2)|(p & q & uu & E1 & E2 & G1 & G2)]; rewrite E1, E2; cbn [obind]; [both|].
  all: destruct (ms_pop _ _ uu) as [uu' nn]; split; [done|]; by apply (twin_put_set k).
Qed.
Lemma tw_fold o ks : in_K ks → ∀ j acc acc', acc_set acc = acc_set acc' →
  (∃ er, set_fold o c j ks acc d = Ret (Err er) ∧ set_fold o c j ks acc' e = Ret (Err er)) ∨
  ∃ a1 a2, set_fold o c j ks acc d = Ret (Ok a1) ∧ set_fold o c j ks acc' e = Ret (Ok a2) ∧
    (ks = [] ∧ a1 = acc ∧ a2 = acc' ∨
     (∃ k p q s, k ∈ ks ∧ a1 = AObj p s ∧ a2 = AObj q s ∧ sm_get (db_keys d) k = Some (VSet p) ∧ sm_get (db_keys e) k = Some (VSet q)) ∨
     ∃ s, a1 = AFresh s ∧ a2 = AFresh s).
Proof using T.
  induction ks as [|k ks IH]; intros HK j acc acc' Ha; cbn [set_fold].
  { right. exists acc, acc'. split_and!; auto. }
  assert (K k = true) as Hk by (apply HK; by left). assert (in_K ks) as HKs by (intros k' Hk'; apply HK; by right).
  destruct (tw_set k true Hk) as [(er & E1 & E2)|(p & q & s & E1 & E2 & G1 & G2)]; rewrite E1, E2; cbn [obind].
  { left. by exists er. }
  rewrite <- Ha. destruct (acc_set acc) as [u|] eqn:Eu.
  - destruct (IH HKs (S j) (AFresh (ms_op o c j u s)) (AFresh (ms_op o c j u s)) eq_refl) as [?|(a1 & a2 & F1 & F2 & F)]; [by left|].
    right. exists a1, a2. split_and!; [done..|]. destruct F as [(_ & -> & ->)|[(k' & p' & q' & s' & Hk' & F)|F]]; [right; right; by eexists| |by right; right].
    right. left. exists k', p', q', s'. split; [by right|done].
  - destruct (IH HKs (S j) (AObj p s) (AObj q s) eq_refl) as [?|(a1 & a2 & F1 & F2 & F)]; [by left|].
    right. exists a1, a2. split_and!; [done..|]. right. destruct F as [(_ & -> & ->)|[(k' & p' & q' & s' & Hk' & F)|F]]; [| |by right].
    + left. exists k, p, q, s. split; [by left|done].
    + left. exists k', p', q', s'. split; [by right|done].
Qed.
Lemma tw_c_setop o a : in_K a → same (c_setop c o a d) (c_setop c o a e).
Proof using T.
  intros HK. unfold c_setop, reply, fail. destruct (fewer a 1); [leaf|]. destruct (length a =? 1)%nat; [leaf|].
  unfold SOp. destruct (tw_fold o a HK 0 ANil ANil eq_refl) as [(er & E1 & E2)|(a1 & a2 & E1 & E2 & F)]; rewrite E1, E2; cbn [obind]; [both|].
  assert (acc_set a1 = acc_set a2) as ->. { by destruct F as [(_ & -> & ->)|[(k' & p' & q' & s' & _ & -> & -> & _)|(s & -> & ->)]]. }
  both.
Qed.
Lemma tw_c_setop_store o a : in_K a → same (c_setop_store c o a d) (c_setop_store c o a e).
Proof using T.
  intros HK. unfold c_setop_store, reply, fail. destruct (fewer a 2); [leaf|]. destruct (length a =? 1)%nat; [leaf|].
  destruct a as [|k a]; [by unfold arg|]. assert (in_K a) as HKs by (intros k' Hk'; apply HK; by right).
  change (drop 1 (k :: a)) with a. cbn [arg lookup list_lookup deref obind]. apply same_bind; [|intros d1 e1 [] H; by split].
  unfold SOpStore. destruct (tw_fold o a HKs 0 ANil ANil eq_refl) as [(er & E1 & E2)|(a1 & a2 & E1 & E2 & F)]; rewrite E1, E2; cbn [obind]; [leaf|].
  destruct F as [(_ & -> & ->)|[(k' & p' & q' & s' & Hk' & -> & -> & G1 & G2)|(s & -> & ->)]].
  - split; [done|]. exact (twin_place k ms_new d e T).
  - split; [done|]. apply (twin_share k k'); try done. by apply HKs.
  - split; [done|]. exact (twin_place k s d e T).
Qed.
End twin.

Section requests.
Context (K : string → bool) (ext : Ext) (c : choices).
Lemma tw_c_mset d e a : twin K d e → same K (c_mset a d) (c_mset a e).
Proof.
  intros T. unfold c_mset, reply, fail. destruct (_ && _); [by split|]. split; [done|].
  revert d e T. induction a as [a IH] using (induction_ltof1 _ (@length string)); unfold ltof in IH.
  destruct a as [|x [|y a]]; try done. intros d e T. cbn [MSet_]. apply IH; [simpl; lia|]. by apply twin_put.
Qed.
Lemma tw_c_smove d e a : twin K d e → in_K K (take 2 a) → same K (c_smove a d) (c_smove a e).
Proof.
  intros T HK. destruct a as [|s [|t [|v a]]]; [by split..|]. cbn [take] in HK.
  assert (K s = true) as Hs by (apply HK; by left). assert (K t = true) as Ht by (apply HK; right; by left).
  unfold c_smove, reply, fail. cbn [fewer length Nat.ltb Nat.leb arg lookup list_lookup deref obind].
  apply same_bind; [|intros d1 e1 [] H; by split].
  unfold SMove. destruct (tw_set K d e T s true Hs) as [(er & E1 & E2)|(p & q & u & E1 & E2 & G1 & G2)]; rewrite E1, E2; cbn [obind]; [by split|].
  destruct (sm_delete_if_exists (ms_m u) v) as [m []]; [|by split]. apply tw_c_sadd_at; [|done]. by apply (twin_put_set K s).
Qed.

Lemma ask_same d e req : twin K d e → in_K K (names_keys req) → lists_keys req = false → same K (ask ext c req d) (ask ext c req e).
Proof.
  intros T HK Hl. destruct req as [|name a]; [by split|]. unfold ask, exec, exec_lowered.
  assert (same K (match lookup_command (to_lower name) (implemented_commands ext c) with
                  | None => Ret (d, Ok (rsp_error ErrUnknownCommand)) | Some f => f a d end)
                 (match lookup_command (to_lower name) (implemented_commands ext c) with
                  | None => Ret (e, Ok (rsp_error ErrUnknownCommand)) | Some f => f a e end)) as H.
  { cbn [names_keys lists_keys] in HK, Hl. remember (to_lower name) as low eqn:El. clear El name.
    destruct (lookup_command low (implemented_commands ext c)) as [f|] eqn:Hf; [|by split].
    apply lookup_command_in in Hf. unfold implemented_commands in Hf.
    repeat (apply elem_of_cons in Hf as [[= -> ->]|Hf];
      [ first [discriminate Hl|
        repeat match type of HK with context [bool_decide (?x ∈ ?l)] =>
          let b := eval vm_compute in (bool_decide (x ∈ l)) in
          replace (bool_decide (x ∈ l)) with b in HK by (vm_compute; reflexivity) end;
        cbn [String.eqb Ascii.eqb Bool.eqb] in HK;
        first [ by apply tw_c_hdel | by apply tw_c_hexists | by apply tw_c_hget | by apply tw_c_hgetall | by apply tw_c_hincrby | by apply tw_c_hincrbyfloat
              | by apply tw_c_hkeys | by apply tw_c_hlen | by apply tw_c_hmget | by apply tw_c_hmset | by apply tw_c_hset | by apply tw_c_hsetnx | by apply tw_c_hvals
              | by apply tw_c_exists | by apply tw_c_del | by apply tw_c_type | by split
              | by apply tw_c_lpush | by apply tw_c_lpop | by apply tw_c_rpush | by apply tw_c_rpop | by apply tw_c_llen | by apply tw_c_lrange
              | by apply tw_c_lrem | by apply tw_c_lindex | by apply tw_c_lset | by apply tw_c_linsert
              | by apply tw_c_sadd | by apply tw_c_scard | by apply tw_c_setop | by apply tw_c_setop_store | by apply tw_c_sismember
              | by apply tw_c_smembers | by apply tw_c_smove | by apply tw_c_srem | by apply tw_c_spop
              | by apply tw_c_zadd | by apply tw_c_zscore | by apply tw_c_zrank | by apply tw_c_zrem | by apply tw_c_zcard | by apply tw_c_zcount
              | by apply tw_c_zincr | by apply tw_c_zrange | by apply tw_c_zrangebyscore | by apply tw_c_zrevrange | by apply tw_c_zpop
              | by apply tw_c_set | by apply tw_c_mset | by apply tw_c_get | by apply tw_c_mget | by apply tw_c_incr | by apply tw_c_incrby
              | by apply tw_c_decr | by apply tw_c_decrby | by apply tw_c_append ]] | ]).
    by apply elem_of_nil in Hf. }
  destruct (lookup_command (to_lower name) (implemented_commands ext c)) as [f|]; [|by split].
  destruct (f a d) as [[d1 r1]| |], (f a e) as [[e1 r2]| |]; try done. destruct H as [<- H]. by split.
Qed.
End requests.
