(** C12 and C15: commands on keys of another type, malformed requests. *)
From Verif Require Import GoBase GoBaseProofs ShardMap ShardMapProofs Float64 SkipList Db Protocol Redis Obs SpecCmd SpecResp SpecServer
  DbInv ExecSteps PropBase Examples P_Keys.

Definition type_text_of (F : family) : string :=
  match F with
  | FString => "string" | FList => "list" | FSet => "setIfNotExists" | FZSet => "sortedSet" | FHash => "hashTable"
  end.
(** the request is answered with an error in every state, and never changes anything *)
Definition rejected (ext : Ext) (req : list string) : Prop := ∃ e, ∀ d, answers ext d req (RError e).

Lemma ask_named ext c name n a d f : to_lower name = n → lookup_command n (implemented_commands ext c) = Some f →
  ask ext c (name :: a) d = let* (d', r) := f a d in Ret (d', view (reply_of r)).
Proof. intros <-. apply ask_cmd. Qed.

Ltac args_there :=
  repeat match goal with
  | H : (S ?n ≤ S (length ?l))%nat |- _ => apply le_S_n in H
  | H : (S ?n ≤ length ?l)%nat |- _ => destruct l as [|? ?]; [exfalso; clear -H; simpl in H; lia|simpl in H]
  end.
Ltac by_name c H :=
  match goal with
  | |- ask ?ext c (?name :: ?a) ?d = _ => rewrite (ask_named ext c name _ a d _ H eq_refl)
  end.

(** ** C12: a command on a key of another type *)
(** [LINDEX] does not look at the key named (see C23); [HGETALL], [ZPOPMIN] and [ZPOPMAX] answer an empty
    reply instead of the type error; the set-algebra commands are treated below. *)
Definition type_exceptions : list string := ["lindex"; "hgetall"; "zpopmin"; "zpopmax"; "sdiff"; "sinter"; "sunion"].
Definition type_checked (ext : Ext) (sg : csig) : Prop :=
  ∀ F name k a d t, cs_type sg = Some F → cs_name sg ∉ type_exceptions → to_lower name = cs_name sg →
  (cs_args sg ≤ length (k :: a))%nat → type_is ext d k t → t ≠ "none"%string → t ≠ type_text_of F →
  answers ext d (name :: k :: a) (RError (err_msg ErrTypeMismatch)) ∨ rejected ext (name :: k :: a).

Ltac commands := unfold c_keys, c_exists, c_del, c_type, c_set, c_mset, c_get, c_mget, c_incr, c_incrby, c_decr, c_decrby, c_append,
  c_lpush, c_rpush, c_lpop, c_rpop, c_llen, c_lrange, c_lrem, c_lindex, c_lset, c_linsert, c_sadd, c_scard, c_setop, c_setop_store,
  c_sismember, c_smembers, c_smove, c_srem, c_spop, c_zadd, c_zscore, c_zrank, c_zrem, c_zcard, c_zcount, c_zincr, c_zrange,
  c_zrangebyscore, c_zrevrange, c_zpop, c_hdel, c_hexists, c_hget, c_hgetall, c_hincrby, c_hincrbyfloat, c_hkeys, c_hlen, c_hmget,
  c_hmset, c_hset, c_hsetnx, c_hvals, incr_reply, pop_count, opt_count;
  cbn [fewer length Nat.ltb Nat.leb Nat.eqb arg lookup list_lookup deref obind andb negb drop].
Ltac other_type :=
  match goal with
  | H : sm_get (db_keys ?d) ?k = Some ?v |- _ =>
      unfold Get, Append, IncrBy, LPush, RPush, LPop, RPop, LLen, LRange, LRem, LSet, LInsert, SAdd, SCard, SRem, SIsMember, SMembers,
        SMove, SPop, ZAdd, ZScore, ZRank, ZRem, ZCard, ZCount, ZIncr, ZRange, ZRevRange, HDel, HExists, HGet, HIncrBy, HIncrByFloat,
        HKeys, HLen, HMGet, HSet, HVals, load_list, load_set, load_zset, load_hash;
      rewrite ?H; destruct v; done
  end.
Ltac rejects H := right; eexists; intros ? ?c; match goal with c : choices |- _ => by_name c H end; commands.
Ltac accepts H := left; intros ?c; match goal with c : choices |- _ => by_name c H end; commands.
Lemma all_type_checked ext : Forall (type_checked ext) signatures.
Proof.
  assert (Go : ∀ sg, (∀ F name k a d v, cs_type sg = Some F → cs_name sg ∉ type_exceptions → to_lower name = cs_name sg →
    (cs_args sg ≤ length (k :: a))%nat → sm_get (db_keys d) k = Some v → type_name v ≠ type_text_of F →
    answers ext d (name :: k :: a) (RError (err_msg ErrTypeMismatch)) ∨ rejected ext (name :: k :: a)) → type_checked ext sg).
  { intros sg H F name k a d t HF Hx Hn Hl Ht Hn1 Hn2. apply type_is_get in Ht. destruct (sm_get (db_keys d) k) as [v|] eqn:E; [|done].
    subst t. by apply (H F name k a d v). }
  unfold signatures. repeat (apply Forall_cons; split); [..|by apply Forall_nil];
    apply Go; clear Go; intros F name k a d v HF Hx Hn Hl E Hv; simpl in HF, Hn, Hl;
    (discriminate HF || injection HF as <-); simpl in Hv;
    try (exfalso; apply Hx; clear; simpl; unfold type_exceptions; rewrite !elem_of_cons; tauto); clear Hx; args_there.
  
  (* what is left reads an argument first *)
all: try (by accepts Hn; other_type).
(* what is left reads an argument first *)
  all: match type of Hn with
    | _ = "incrby"%string => idtac | _ = "decrby"%string => idtac
    | _ = "lpop"%string => destruct a as [|s a] | _ = "rpop"%string => destruct a as [|s a] | _ = "spop"%string => destruct a as [|s a]
    | _ = "linsert"%string => destruct (String.eqb (to_lower s) "after") eqn:W1; [|destruct (String.eqb (to_lower s) "before") eqn:W2]
    | _ = "zadd"%string => destruct (zadd_args ext (s :: s0 :: a) (ZF false false false) []) as [[fl ms]|e] eqn:W
    | _ => idtac end.
  all: try (by accepts Hn; rewrite ?W, ?W1, ?W2; other_type).
  all: try (by rejects Hn; rewrite ?W, ?W1, ?W2; done).
  all: try (destruct (parse_int s) as [i|] eqn:Wi; [|by rejects Hn; rewrite ?Wi; done]; try (by accepts Hn; rewrite ?Wi; other_type)).
  all: try (destruct (parse_int s0) as [j|] eqn:Wj; [|by rejects Hn; rewrite ?Wi, ?Wj; done]; try (by accepts Hn; rewrite ?Wi, ?Wj; other_type)).
  all: try (destruct (i <=? 0) eqn:Wz; [by rejects Hn; rewrite ?Wi, ?Wz; done|by accepts Hn; rewrite ?Wi, ?Wz; other_type]).
  all: try (destruct (parse_float ext s) as [f|] eqn:Wf; [|by rejects Hn; rewrite ?Wf; done]; try (by accepts Hn; rewrite ?Wf; other_type)).
  all: try (destruct (parse_float ext s0) as [f|] eqn:Wf; [|by rejects Hn; rewrite ?Wf; done]; try (by accepts Hn; rewrite ?Wf; other_type)).
Qed.
(** The type error, or the request is malformed and refused whatever the state; nothing changes in either case. *)
Theorem C12_type_error ext d sg F name k a t : sg ∈ signatures → cs_type sg = Some F → cs_name sg ∉ type_exceptions →
  to_lower name = cs_name sg → (cs_args sg ≤ length (k :: a))%nat →
  type_is ext d k t → t ≠ "none"%string → t ≠ type_text_of F →
  answers ext d (name :: k :: a) (RError (err_msg ErrTypeMismatch)) ∨ rejected ext (name :: k :: a).
Proof. intros Hs. pose proof (all_type_checked ext) as H. rewrite Forall_forall in H. by apply H. Qed.
(** not a vacuous alternative: well-formed requests are never refused whatever the state *)
Example C12_demo : let d := after [["SET"; "s"; "v"]] in
  type_is ext0 d "s" "string" ∧
  answers ext0 d ["LPUSH"; "s"; "x"] (RError (err_msg ErrTypeMismatch)) ∧
  ¬ rejected ext0 ["LPUSH"; "s"; "x"] ∧ rejected ext0 ["LPOP"; "s"; "-1"].
Proof.
  intros d. split; [intros c; by vm_compute|]. split; [intros c; by vm_compute|]. split.
  - intros [e H]. specialize (H db_new c0). by vm_compute in H.
  - eexists. intros d' c. rewrite (ask_named ext0 c "LPOP" "lpop" _ _ _ eq_refl eq_refl). reflexivity.
Qed.
(** The set-algebra commands, all keys of which must be sets: a key of another type after non-empty sets. *)
Definition nonempty_set (ext : Ext) (d : db) (k : string) : Prop := ∃ n, n ≠ 0 ∧ answers ext d ["SCARD"; k] (RInt n).
Lemma nonempty_set_load ext d k : nonempty_set ext d k → ∃ x, load_set k true d = Ret (Ok x).
Proof.
  intros (n & Hn & H). specialize (H some_choices). rewrite (ask_cmd ext some_choices "SCARD" [k] d c_scard eq_refl) in H.
  unfold c_scard in H. change (fewer [k] 1) with false in H. change (arg [k] 0) with (Ret k) in H. cbn [obind] in H. unfold SCard in H.
  destruct (load_set k true d) as [[x|e]| |]; try done; [by exists x|]. cbn [obind] in H. destruct e; try done. injection H as <-. done.
Qed.
Lemma set_fold_mismatch o c post k d : load_set k true d = Ret (Err ErrTypeMismatch) → ∀ pre, Forall (λ k, ∃ x, load_set k true d = Ret (Ok x)) pre →
  ∀ j acc, set_fold o c j (pre ++ k :: post) acc d = Ret (Err ErrTypeMismatch).
Proof.
  intros Hk pre F. induction F as [|k' pre [[p s] E] _ IH]; intros j acc; cbn [app set_fold].
  - by rewrite Hk.
  - rewrite E. cbn [obind]. apply IH.
Qed.
Lemma other_load_set ext d k t : type_is ext d k t → t ≠ "none"%string → t ≠ "setIfNotExists"%string → load_set k true d = Ret (Err ErrTypeMismatch).
Proof. intros Ht H1 H2. apply type_is_get in Ht. unfold load_set. by destruct (sm_get (db_keys d) k) as [[]|]; subst. Qed.
Theorem C12_set_algebra ext d name pre k post t : to_lower name ∈ ["sdiff"; "sinter"; "sunion"]%string →
  Forall (nonempty_set ext d) pre → type_is ext d k t → t ≠ "none"%string → t ≠ "setIfNotExists"%string →
  (2 ≤ length (pre ++ k :: post))%nat →
  answers ext d (name :: pre ++ k :: post) (RError (err_msg ErrTypeMismatch)).
Proof.
  intros Hn F Ht H1 H2 Hl c. pose proof (other_load_set ext d k t Ht H1 H2) as Hk.
  assert (Forall (λ k, ∃ x, load_set k true d = Ret (Ok x)) pre) as F'.
  { eapply Forall_impl; [done|]. intros x. apply nonempty_set_load. }
  assert (∀ o, c_setop c o (pre ++ k :: post) d = fail ErrTypeMismatch d) as E.
  { intros o. unfold c_setop, SOp. rewrite (set_fold_mismatch o c post k d Hk pre F'). unfold fewer.
    destruct (Nat.ltb_spec (length (pre ++ k :: post)) 1); [lia|]. destruct (Nat.eqb_spec (length (pre ++ k :: post)) 1); [lia|]. done. }
  rewrite !elem_of_cons, elem_of_nil in Hn. destruct Hn as [Hn|[Hn|[Hn|[]]]]; by_name c Hn; by rewrite E.
Qed.
Theorem C12_set_algebra_store ext d name dst pre k post t : to_lower name ∈ ["sdiffstore"; "sinterstore"; "sunionstore"]%string →
  Forall (nonempty_set ext d) pre → type_is ext d k t → t ≠ "none"%string → t ≠ "setIfNotExists"%string →
  answers ext d (name :: dst :: pre ++ k :: post) (RError (err_msg ErrTypeMismatch)).
Proof.
  intros Hn F Ht H1 H2 c. pose proof (other_load_set ext d k t Ht H1 H2) as Hk.
  assert (Forall (λ k, ∃ x, load_set k true d = Ret (Ok x)) pre) as F'.
  { eapply Forall_impl; [done|]. intros x. apply nonempty_set_load. }
  assert (∀ o, c_setop_store c o (dst :: pre ++ k :: post) d = fail ErrTypeMismatch d) as E.
  { intros o. unfold c_setop_store, SOpStore. assert (1 ≤ length (pre ++ k :: post))%nat as Hl by (rewrite app_length; simpl; lia).
    assert (fewer (dst :: pre ++ k :: post) 2 = false) as -> by (unfold fewer; cbn [length]; apply Nat.ltb_ge; lia).
    assert ((length (dst :: pre ++ k :: post) =? 1)%nat = false) as -> by (cbn [length]; apply Nat.eqb_neq; lia).
    change (drop 1 (dst :: pre ++ k :: post)) with (pre ++ k :: post). change (arg (dst :: pre ++ k :: post) 0) with (Ret dst). cbn [obind].
    by rewrite (set_fold_mismatch o c post k d Hk pre F'). }
  rewrite !elem_of_cons, elem_of_nil in Hn. destruct Hn as [Hn|[Hn|[Hn|[]]]]; by_name c Hn; by rewrite E.
Qed.
Example C12_set_algebra_demo : let d := after [["SADD"; "a"; "x"]; ["SET"; "b"; "v"]] in
  nonempty_set ext0 d "a" ∧ type_is ext0 d "b" "string".
Proof. intros d. split; [exists 1; split; [done|]; intros c; by vm_compute|intros c; by vm_compute]. Qed.
(** What the exceptions do instead, whatever the state: ZPOPMIN, ZPOPMAX, HGETALL and the set-algebra commands with a
    single key or after a missing (or emptied) set answer as for a missing key; nothing changes. *)
Definition no_set (ext : Ext) (d : db) (k : string) : Prop := answers ext d ["SCARD"; k] (RInt 0).
Lemma no_set_load ext d k : no_set ext d k → load_set k true d = Ret (Err ErrNil).
Proof.
  intros H. specialize (H some_choices). rewrite (ask_cmd ext some_choices "SCARD" [k] d c_scard eq_refl) in H.
  unfold c_scard in H. change (fewer [k] 1) with false in H. change (arg [k] 0) with (Ret k) in H. cbn [obind] in H. unfold SCard in H.
  destruct (load_set k true d) as [[[p s]|e]| |] eqn:E; try done; [|cbn [obind] in H; by destruct e].
  cbn [obind] in H. injection H as H. unfold load_set in E. destruct (sm_get (db_keys d) k) as [[]|]; try done.
  destruct (db_sets d !! p0) as [s'|]; [|done]. cbn [deref obind] in E. destruct (true && (ms_len s' =? 0)) eqn:E0; [done|]. injection E as <- <-.
  simpl in E0. apply Z.eqb_neq in E0. by destruct E0.
Qed.
Theorem C12_exceptions ext d k t : type_is ext d k t → t ≠ "none"%string →
  (t ≠ "sortedSet"%string → answers ext d ["ZPOPMIN"; k] (RArr []) ∧ answers ext d ["ZPOPMAX"; k] (RArr []) ∧
     ∀ x i, parse_int x = Some i → answers ext d ["ZPOPMIN"; k; x] (RArr []) ∧ answers ext d ["ZPOPMAX"; k; x] (RArr [])) ∧
  (t ≠ "hashTable"%string → answers ext d ["HGETALL"; k] RNil) ∧
  (∀ name, to_lower name ∈ ["sdiff"; "sinter"; "sunion"]%string → answers ext d [name; k] (RArr []) ∧
     ∀ k0 post, no_set ext d k0 → answers ext d (name :: k0 :: k :: post) (RArr [])).
Proof.
  intros Ht Hn. pose proof (type_is_get _ _ _ _ Ht) as Hv. destruct (sm_get (db_keys d) k) as [v|] eqn:E; [|done]. split_and!.
  - intros Hz. assert (load_zset k true d = Err ErrTypeMismatch) as El. { unfold load_zset. rewrite E. destruct v; subst; done. }
    split_and!; [intros c..|intros x i Hx; split; intros c].
    1,2: match goal with |- ask _ _ (?n :: ?a) _ = _ => first [rewrite (ask_cmd ext c n a d (c_zpop ext false) eq_refl)|rewrite (ask_cmd ext c n a d (c_zpop ext true) eq_refl)] end;
      unfold c_zpop, opt_count; cbn [fewer length Nat.ltb Nat.leb Nat.eqb arg lookup list_lookup deref obind]; unfold ZPop; by rewrite El.
    all: match goal with |- ask _ _ (?n :: ?a) _ = _ => first [rewrite (ask_cmd ext c n a d (c_zpop ext false) eq_refl)|rewrite (ask_cmd ext c n a d (c_zpop ext true) eq_refl)] end;
      unfold c_zpop, opt_count; cbn [fewer length Nat.ltb Nat.leb Nat.eqb arg lookup list_lookup deref obind]; rewrite Hx; cbn [obind]; unfold ZPop; by rewrite El.
  - intros Hh c. rewrite (ask_cmd ext c "HGETALL" [k] d (c_hgetall c) eq_refl). unfold c_hgetall. cbn [fewer length Nat.ltb Nat.leb Nat.eqb arg lookup list_lookup deref obind].
    unfold HGetAll, load_hash. rewrite E. destruct v; subst; done.
  - intros name Hname. rewrite !elem_of_cons, elem_of_nil in Hname. split.
    + intros c. destruct Hname as [Hm|[Hm|[Hm|[]]]]; by_name c Hm; done.
    + intros k0 post H0 c. assert (∀ o, c_setop c o (k0 :: k :: post) d = reply rsp_empty_array d) as Es.
      { intros o. unfold c_setop, SOp. cbn [fewer length Nat.ltb Nat.leb Nat.eqb set_fold]. by rewrite (no_set_load ext d k0 H0). }
      destruct Hname as [Hm|[Hm|[Hm|[]]]]; by_name c Hm; by rewrite Es.
Qed.
(** MGET with a key of another type: the client gets no reply at all. *)
Theorem C19_mget_mixed ext d ks k t : k ∈ ks → type_is ext d k t → t ≠ "none"%string → t ≠ "string"%string →
  ∀ c, ask ext c ("MGET" :: ks) d = Ret (d, None).
Proof.
  intros Hk Ht H1 H2 c. apply type_is_get in Ht. rewrite (ask_cmd ext c "MGET" ks d c_mget eq_refl). unfold c_mget.
  destruct ks as [|k1 ks]; [by apply elem_of_nil in Hk|]. cbn [fewer length Nat.ltb Nat.leb reply obind reply_of].
  f_equal. f_equal. change (RArr <$> mapM view_item ((λ v, RI v TBulk) <$> MGet (k1 :: ks) d) = None).
  destruct (mapM view_item _) as [l|] eqn:E; [|done]. exfalso. apply mapM_Some_1 in E. unfold MGet in E. rewrite <- list_fmap_compose in E.
  apply Forall2_fmap_l in E. apply elem_of_list_lookup in Hk as [i Hi]. destruct (Forall2_lookup_l _ _ _ _ _ E Hi) as (y & _ & Hy).
  simpl in Hy. unfold Get in Hy. destruct (sm_get (db_keys d) k) as [[]|]; by subst.
Qed.
(** The exceptions are real: the type error is missing. *)
Theorem C12_no_type_error_refuted : let d := after [["SET"; "s"; "v"]] in reachable ext0 d ∧ type_is ext0 d "s" "string" ∧
  answers ext0 d ["ZPOPMIN"; "s"] (RArr []) ∧ answers ext0 d ["ZPOPMAX"; "s"] (RArr []) ∧ answers ext0 d ["HGETALL"; "s"] RNil ∧
  answers ext0 d ["LINDEX"; "s"; "0"] RNil ∧ answers ext0 d ["SUNION"; "s"] (RArr []) ∧ answers ext0 d ["SUNION"; "missing"; "s"] (RArr []).
Proof. intros d. split; [apply after_reachable; by eexists|]. repeat split; intros c; by vm_compute. Qed.

(** ** C15: malformed requests *)
Definition command_names : list string := ["ping"; "command"; "mset"]%string ++ (cs_name <$> signatures).
Theorem C15_unknown ext d name a : to_lower name ∉ command_names →
  answers ext d (name :: a) (RError (err_msg ErrUnknownCommand)).
Proof.
  intros H c. unfold ask, exec, exec_lowered.
  assert (lookup_command (to_lower name) (implemented_commands ext c) = None) as ->; [|done].
  destruct (lookup_command _ _) as [f|] eqn:E; [|done]. exfalso. apply H. apply lookup_command_in in E. clear H.
  revert E. generalize (to_lower name) as n. unfold implemented_commands.
  intros n E. repeat (apply elem_of_cons in E as [E|E]; [injection E as -> _; clear; apply (bool_decide_eq_true_1 _); by vm_compute|]).
  by apply elem_of_nil in E.
Qed.
Definition rejects_short (ext : Ext) (sg : csig) : Prop :=
  ∀ name a d, to_lower name = cs_name sg → (length a < cs_args sg)%nat → answers ext d (name :: a) (RError (err_msg ErrArgsNotEnough)).
Lemma all_reject_short ext : Forall (rejects_short ext) signatures.
Proof.
  unfold signatures. repeat (apply Forall_cons; split); [..|by apply Forall_nil];
    intros name a d Hn Hl c; simpl in Hn, Hl; by_name c Hn; clear Hn;
    repeat (destruct a as [|? a]; [done|simpl in Hl]); exfalso; lia.
Qed.
Theorem C15_too_few ext d sg name a : sg ∈ signatures → to_lower name = cs_name sg → (length a < cs_args sg)%nat →
  answers ext d (name :: a) (RError (err_msg ErrArgsNotEnough)).
Proof. intros Hs. pose proof (all_reject_short ext) as H. rewrite Forall_forall in H. by apply H. Qed.
Definition rejects_non_integer (ext : Ext) (sg : csig) : Prop :=
  ∀ name a d i x, to_lower name = cs_name sg → (cs_args sg ≤ length a)%nat → i ∈ cs_ints sg → a !! i = Some x → parse_int x = None →
  answers ext d (name :: a) (RError (err_msg ErrNotInteger)) ∨ answers ext d (name :: a) (RError (err_msg ErrValueOutOfRange)).
Lemma all_reject_non_integer ext : Forall (rejects_non_integer ext) signatures.
Proof.
  unfold signatures. repeat (apply Forall_cons; split); [..|by apply Forall_nil];
    intros name a d i x Hn Hl Hi Ha Hp; simpl in Hn, Hl, Hi;
    repeat (apply elem_of_cons in Hi as [->|Hi]); try (by apply elem_of_nil in Hi).
  all: do 3 (destruct a as [|? a]; [try (by simpl in Ha); try (exfalso; simpl in Hl; lia)|]); try (simpl in Ha; simplify_eq).
  all: try (by left; intros c; by_name c Hn; commands; rewrite ?Hp).
  all: try (by right; intros c; by_name c Hn; commands; rewrite ?Hp).
  right. intros c. by_name c Hn. commands. rewrite ?Hp. by destruct (parse_int s0).
Qed.
Theorem C15_not_integer ext d sg name a i x : sg ∈ signatures → to_lower name = cs_name sg → (cs_args sg ≤ length a)%nat →
  i ∈ cs_ints sg → a !! i = Some x → parse_int x = None →
  answers ext d (name :: a) (RError (err_msg ErrNotInteger)) ∨ answers ext d (name :: a) (RError (err_msg ErrValueOutOfRange)).
Proof. intros Hs. pose proof (all_reject_non_integer ext) as H. rewrite Forall_forall in H. by apply H. Qed.
(** an argument that must be a number: ZADD and ZINCR scores, HINCRBYFLOAT *)
Theorem C15_not_float ext d k x v a : parse_float ext x = None →
  (to_lower x ∉ ["xx"; "nx"; "incr"]%string → answers ext d ("ZADD" :: k :: x :: v :: a) (RError (err_msg ErrValueOutOfRange))) ∧
  answers ext d ("ZINCR" :: k :: x :: v :: a) (RError (err_msg ErrValueOutOfRange)) ∧
  answers ext d ("HINCRBYFLOAT" :: k :: v :: x :: a) (RError (err_msg ErrNotInteger)).
Proof.
  intros H. split; [|split].
  - intros Hx c. rewrite !not_elem_of_cons in Hx. destruct Hx as (H1 & H2 & H3 & _). by_name c (eq_refl : to_lower "ZADD" = "zadd"%string).
    commands. cbn [zadd_args]. rewrite !(proj2 (String.eqb_neq _ _)) by done. by rewrite H.
  - intros c. by_name c (eq_refl : to_lower "ZINCR" = "zincr"%string). commands. by rewrite H.
  - intros c. by_name c (eq_refl : to_lower "HINCRBYFLOAT" = "hincrbyfloat"%string). commands. by rewrite H.
Qed.
(** ASCII words that differ only in the case of letters *)
Definition same_char (x y : ascii) : Prop :=
  (N_of_ascii x < 128)%N ∧ (N_of_ascii y < 128)%N ∧
  (x = y ∨ (65 ≤ N_of_ascii x ≤ 90 ∧ N_of_ascii y = N_of_ascii x + 32)%N ∨ (65 ≤ N_of_ascii y ≤ 90 ∧ N_of_ascii x = N_of_ascii y + 32)%N).
Fixpoint same_word (s t : string) : Prop :=
  match s, t with
  | EmptyString, EmptyString => True
  | String x s', String y t' => same_char x y ∧ same_word s' t'
  | _, _ => False
  end.
Lemma to_lower_ascii x s : (N_of_ascii x < 128)%N → to_lower (String x s) = String (lower_ascii x) (to_lower s).
Proof.
  intros H. assert (is_byte x 196 = false ∧ is_byte x 226 = false) as [E1 E2].
  { unfold is_byte. split; apply N.eqb_neq; lia. }
  cbn [to_lower]. destruct s as [|y s]; [done|]. rewrite E1. cbn [andb]. destruct s as [|z s]; [done|]. by rewrite E2.
Qed.
Lemma same_word_lower s : ∀ t, same_word s t → to_lower s = to_lower t.
Proof.
  induction s as [|x s IH]; intros [|y t] H; try done. destruct H as [(Hx & Hy & H) Hw].
  rewrite !to_lower_ascii by done. f_equal; [|by apply IH]. clear -H Hx Hy. destruct H as [->|H]; [done|].
  unfold lower_ascii. destruct H as [[H1 H2]|[H1 H2]].
  - destruct (N.leb_spec 65 (N_of_ascii x)), (N.leb_spec (N_of_ascii x) 90); try lia.
    destruct (N.leb_spec (N_of_ascii y) 90); try lia. rewrite andb_false_r. cbn [andb]. rewrite <- H2. apply ascii_N_embedding.
  - destruct (N.leb_spec 65 (N_of_ascii y)), (N.leb_spec (N_of_ascii y) 90); try lia.
    destruct (N.leb_spec (N_of_ascii x) 90); try lia. rewrite andb_false_r. cbn [andb]. rewrite <- H2. symmetry. apply ascii_N_embedding.
Qed.
Theorem C15_case_insensitive ext c d n1 n2 a : same_word n1 n2 → ask ext c (n1 :: a) d = ask ext c (n2 :: a) d.
Proof. intros H. unfold ask, exec. by rewrite (same_word_lower n1 n2 H). Qed.
Example C15_case_demo : same_word "LPush" "lpUSH".
Proof. repeat split; vm_compute; auto; right; (by left) || (by right). Qed.
Theorem C15_mset_one ext d x : answers ext d ["MSET"; x] (RError (err_msg ErrArgsNotEnough)).
Proof. intros c. by_name c (eq_refl : to_lower "MSET" = "mset"%string). done. Qed.
(** "too few arguments is an error" is false of MSET: a key without a value is silently dropped *)
Theorem C15_mset_refuted : answers ext0 db_new ["MSET"] (RStatus "OK") ∧
  does ext0 db_new ["MSET"; "a"; "1"; "b"] (RStatus "OK") (λ d', answers ext0 d' ["EXISTS"; "b"] (RInt 0)).
Proof. split; [intros c; by vm_compute|]. intros c. eexists. split; [by vm_compute|]. intros c'. by vm_compute. Qed.
Example C15_demo : to_lower "FLUSHALL" ∉ command_names ∧ Sig "lrem" (Some FList) 3 [1%nat] ∈ signatures ∧ parse_int "1x" = None.
Proof.
  split; [apply (bool_decide_eq_false_1 _); by vm_compute|]. split; [|done].
  by apply (elem_of_list_lookup_2 _ 18).
Qed.
