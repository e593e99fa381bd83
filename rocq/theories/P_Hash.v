(** C37: hashes.  The hash commands never store anything; the hash table itself (not reachable by commands) is a map. *)
From Verif Require Import GoBase GoBaseProofs ShardMap ShardMapProofs Float64 Db Protocol Redis Obs SpecCmd SpecResp DbInv ExecSteps PropBase P_Keys Examples SpecHash.

Definition hash_commands : list string := ["hdel"; "hexists"; "hget"; "hgetall"; "hincrby"; "hincrbyfloat"; "hkeys"; "hlen"; "hmget"; "hmset"; "hset"; "hsetnx"; "hvals"].
Lemma no_table d key check : dbinv d → load_hash key check d = Err (match sm_get (db_keys d) key with None => ErrNil | _ => ErrTypeMismatch end).
Proof. intros I. unfold load_hash. destruct (sm_get (db_keys d) key) as [[]|] eqn:E; try done. by apply (inv_nohash d I) in E. Qed.

(** No hash command ever changes anything. *)
Theorem C37_nothing_stored ext c name a d d' r : reachable ext d → to_lower name ∈ hash_commands → ask ext c (name :: a) d = Ret (d', r) → d' = d.
Proof.
  intros Hr Hn H. pose proof (reachable_inv _ _ Hr) as I. unfold ask, exec, exec_lowered in H. unfold hash_commands in Hn.
  repeat (apply elem_of_cons in Hn as [Hn|Hn]; [rewrite Hn in H|]); [..|by apply elem_of_nil in Hn];
    (match type of H with context [lookup_command ?n ?l] => let e := eval hnf in (lookup_command n l) in change (lookup_command n l) with e in H end; cbv iota in H;
     unfold c_hdel, c_hexists, c_hget, c_hgetall, c_hincrby, c_hincrbyfloat, c_hkeys, c_hlen, c_hmget, c_hmset, c_hset, c_hsetnx, c_hvals,
       HDel, HExists, HGet, HGetAll, HIncrBy, HIncrByFloat, HKeys, HLen, HMGet, HSet, HVals in H;
     destruct (fewer a _); [by injection H as <-|];
     repeat match type of H with context [obind (arg a ?i) _] => destruct (arg a i) as [?k| |]; cbn [obind] in H; try discriminate H end;
     rewrite ?(no_table d) in H by done;
     repeat match type of H with context [match ?x with _ => _ end] => lazymatch x with context [match _ with _ => _ end] => fail | _ => destruct x eqn:? end; cbn [obind] in H; try discriminate H end;
     unfold fail, reply in H; simpl in H; by injection H as <-).
Qed.
(** So a field that was set (and acknowledged) is not found: on every reachable state, for every absent key. *)
Theorem C51_refuted ext d k f v : reachable ext d → answers ext d ["EXISTS"; k] (RInt 0) →
  answers ext d ["HSET"; k; f; v] (RInt 1) ∧ answers ext d ["HSETNX"; k; f; v] (RInt 1) ∧ answers ext d ["HMSET"; k; f; v] (RStatus "OK") ∧
  answers ext d ["HGET"; k; f] RNil ∧ answers ext d ["HEXISTS"; k; f] (RInt 0) ∧ answers ext d ["HLEN"; k] (RInt 0) ∧
  answers ext d ["HKEYS"; k] (RArr []) ∧ answers ext d ["HVALS"; k] (RArr []) ∧ answers ext d ["HMGET"; k; f] (RArr [RNil]).
Proof.
  intros Hr Ha. pose proof (reachable_inv _ _ Hr) as I. pose proof (exists_get ext d k I) as X. pose proof (answers_fun _ _ _ _ _ Ha X) as E.
  assert (sm_get (db_keys d) k = None) as Hk by (by destruct (sm_get (db_keys d) k)). clear E X.
  assert (∀ b, load_hash k b d = Err ErrNil) as L by (intros b; rewrite no_table by done; by rewrite Hk).
  assert (∀ nx, ht_set_all [(f, convert_value ext v)] nx ht_new 0 = (HT (sm_set sm_new f (convert_value ext v)) 1, 1)) as HS.
  { intros nx. assert (sm_get (sm_new (A:=hval)) f = None) as Hf.
    { rewrite sm_get_map by apply sm_wf_new. rewrite sm_new_map. apply lookup_empty. }
    cbn [ht_set_all]. unfold ht_set. cbn [ht_m ht_new ht_len]. destruct nx.
    - unfold sm_set_if_absent. change (get_shard sm_new f !! f) with (sm_get (sm_new (A:=hval)) f). rewrite Hf. done.
    - unfold sm_has. change (get_shard sm_new f !! f) with (sm_get (sm_new (A:=hval)) f). rewrite Hf. done. }
  split_and!; intros c;
    (match goal with |- ask _ _ (?n :: ?a) _ = _ => unfold ask, exec, exec_lowered end;
     match goal with |- context [lookup_command ?n ?l] => let e := eval hnf in (lookup_command n l) in change (lookup_command n l) with e end; cbv iota;
     unfold c_hdel, c_hexists, c_hget, c_hgetall, c_hincrby, c_hincrbyfloat, c_hkeys, c_hlen, c_hmget, c_hmset, c_hset, c_hsetnx, c_hvals,
       HDel, HExists, HGet, HGetAll, HIncrBy, HIncrByFloat, HKeys, HLen, HMGet, HSet, HVals;
     cbn [fewer length Nat.ltb Nat.leb arg lookup list_lookup deref obind drop hset_args]; rewrite ?L, ?HS; done).
Qed.
(** What holds of C51: no field is ever reported that was not stored.  In every reachable state every question about the
    fields of a key finds none: an absent key is an empty hash, any other is of the wrong type (and HGETALL does not even say so). *)
Theorem C51_no_phantom_partial ext d k f fs : reachable ext d →
  let none (r : resp) (req : list string) :=
    (answers ext d ["EXISTS"; k] (RInt 0) ∧ answers ext d req r) ∨
    (answers ext d ["EXISTS"; k] (RInt 1) ∧ answers ext d req (RError (err_msg ErrTypeMismatch))) in
  none RNil ["HGET"; k; f] ∧ none (RInt 0) ["HEXISTS"; k; f] ∧ none (RInt 0) ["HDEL"; k; f] ∧ none (RInt 0) ["HLEN"; k] ∧
  none (RArr []) ["HKEYS"; k] ∧ none (RArr []) ["HVALS"; k] ∧ none (RArr (replicate (S (length fs)) RNil)) ("HMGET" :: k :: f :: fs) ∧
  answers ext d ["HGETALL"; k] RNil.
Proof.
  intros Hr none. pose proof (reachable_inv _ _ Hr) as I. pose proof (exists_get ext d k I) as X.
  assert (∀ b, load_hash k b d = Err (match sm_get (db_keys d) k with None => ErrNil | _ => ErrTypeMismatch end)) as L by (intros b; by apply no_table).
  subst none. cbv beta. destruct (sm_get (db_keys d) k) as [x|] eqn:Ek.
  all: assert (∀ l : list string, fewer (k :: f :: l) 2 = false) as Fw by (by intros []).
  all: split_and!.
  all: try (match type of X with context [RInt 0] => left | _ => right end; split; [exact X|]).
  all: intros c;
    (match goal with |- ask _ _ (?n :: ?a) _ = _ => unfold ask, exec, exec_lowered end;
     match goal with |- context [lookup_command ?n ?l] => let e := eval hnf in (lookup_command n l) in change (lookup_command n l) with e end; cbv iota;
     unfold c_hdel, c_hexists, c_hget, c_hgetall, c_hkeys, c_hlen, c_hmget, c_hvals, HDel, HExists, HGet, HGetAll, HKeys, HLen, HMGet, HVals;
     rewrite ?Fw; cbn [fewer length Nat.ltb Nat.leb arg lookup list_lookup deref obind drop]; rewrite ?L; try done).
  cbn [reply obind mbind option_bind]. do 3 f_equal. cbn. unfold view. cbn [rsp_interfaces rsp_items rsp_array replicate fmap list_fmap].
  assert (mapM view_item ((λ v : ival, RI v TBulk) <$> replicate (length fs) INil) = Some (replicate (length fs) RNil)) as ->; [|done].
  induction fs as [|x l IH]; [done|]. cbn. by rewrite IH.
Qed.
(** the concrete case: on a new server *)
Example C37_demo : reachable ext0 db_new ∧ answers ext0 db_new ["EXISTS"; "h"] (RInt 0) ∧
  replies [["HSET"; "h"; "f"; "v"]; ["HGET"; "h"; "f"]] = Some [Some (RInt 1); Some RNil].
Proof. split; [by exists [], []|]. split; [by intros c|]. by vm_compute. Qed.

(** ** The hash table as a data structure *)
Definition run_hop (ord : order) (o : hop) (h : htable) : hans * htable :=
  match o with
  | HoSet f v => (HaNone, (ht_set f v false h).1)
  | HoSetNx f v => (HaBool ((ht_set f v true h).2 =? 1), (ht_set f v true h).1)
  | HoDel f => (HaNone, (ht_del f h).1)
  | HoExists f => (HaBool (sm_has (ht_m h) f), h)
  | HoGet f => (HaVal (sm_get (ht_m h) f), h)
  | HoAll => (HaAll (sm_items ord (ht_m h)), h)
  | HoKeys => (HaKeys (sm_keys ord (ht_m h)), h)
  | HoIncr f i => (HaInt (match (ht_incr f i h).2 with Ok z => Some z | Err _ => None end), (ht_incr f i h).1)
  | HoIncrFloat f i => (HaFloat (match (ht_incr_float f i h).2 with Ok z => Some z | Err _ => None end), (ht_incr_float f i h).1)
  end.
Fixpoint run_hops (l : list (order * hop)) (h : htable) : list hans * htable :=
  match l with
  | [] => ([], h)
  | (ord, o) :: l => let (a, h1) := run_hop ord o h in let (rs, h2) := run_hops l h1 in (a :: rs, h2)
  end.
Lemma run_hop_does ord o h : sm_wf (ht_m h) → hash_does o (sm_map (ht_m h)) (run_hop ord o h).1 (sm_map (ht_m (run_hop ord o h).2)) ∧ sm_wf (ht_m (run_hop ord o h).2).
Proof.
  intros W. destruct o as [f v|f v|f|f|f| | |f i|f i]; cbn [run_hop hash_does fst snd].
  - unfold ht_set. simpl. split; [split; [done|by apply sm_set_map]|by apply sm_set_wf].
  - unfold ht_set, sm_set_if_absent. change (get_shard (ht_m h) f !! f) with (sm_get (ht_m h) f). rewrite sm_get_map by done. destruct (sm_map (ht_m h) !! f) eqn:E; simpl; [done|].
    split; [split; [done|by apply sm_set_map]|by apply sm_set_wf].
  - unfold ht_del, sm_delete_if_exists. change (get_shard (ht_m h) f !! f) with (sm_get (ht_m h) f). rewrite sm_get_map by done. destruct (sm_map (ht_m h) !! f) eqn:E; simpl.
    + split; [split; [done|by apply sm_delete_map]|by apply sm_delete_wf].
    + by rewrite delete_notin.
  - by rewrite sm_has_map.
  - by rewrite sm_get_map.
  - by rewrite sm_items_map.
  - split; [|done]. split; [done|]. eexists. split; [done|]. split; [by apply sm_keys_nodup|]. intros k. by apply sm_keys_elem.
  - unfold ht_incr, sm_upsert. change (get_shard (ht_m h) f !! f) with (sm_get (ht_m h) f). rewrite sm_get_map by done. destruct (sm_map (ht_m h) !! f) as [[s|z|x]|] eqn:E; simpl; try done.
    + split; [split; [done|by apply sm_set_map]|by apply sm_set_wf].
    + split; [split; [done|by apply sm_set_map]|by apply sm_set_wf].
  - unfold ht_incr_float, sm_upsert. change (get_shard (ht_m h) f !! f) with (sm_get (ht_m h) f). rewrite sm_get_map by done. destruct (sm_map (ht_m h) !! f) as [[s|z|x]|] eqn:E; simpl; try done.
    + split; [split; [done|by apply sm_set_map]|by apply sm_set_wf].
    + split; [split; [done|by apply sm_set_map]|by apply sm_set_wf].
Qed.
(** every history of operations on a new hash table is one of a map from fields to values *)
Theorem C40_hash_table (l : list (order * hop)) : ∃ m', hash_history l.*2 ∅ (run_hops l ht_new).1 m'.
Proof.
  assert (∀ h, sm_wf (ht_m h) → hash_history l.*2 (sm_map (ht_m h)) (run_hops l h).1 (sm_map (ht_m (run_hops l h).2))) as H.
  { induction l as [|[ord o] l' IH]; intros h W; [done|]. destruct (run_hop_does ord o h W) as [H1 H2]. cbn [run_hops fmap list_fmap snd].
    destruct (run_hop ord o h) as [a h1] eqn:E. specialize (IH _ H2). simpl in IH. destruct (run_hops l' h1) as [rs h2]. simpl in *. eauto. }
  exists (sm_map (ht_m (run_hops l ht_new).2)). rewrite <- (sm_new_map (A:=hval)). apply (H ht_new), sm_wf_new.
Qed.
(** its counter is the number of fields as long as fields are only set *)
Theorem C52_length_partial (l : list (order * hop)) : Forall (λ o, match o with HoDel _ | HoIncr _ _ | HoIncrFloat _ _ => False | _ => True end) l.*2 →
  ht_len (run_hops l ht_new).2 = Z.of_nat (size (sm_map (ht_m (run_hops l ht_new).2))).
Proof.
  assert (∀ l h, sm_wf (ht_m h) → ht_len h = Z.of_nat (size (sm_map (ht_m h))) → Forall (λ o, match o with HoDel _ | HoIncr _ _ | HoIncrFloat _ _ => False | _ => True end) l.*2 →
    ht_len (run_hops l h).2 = Z.of_nat (size (sm_map (ht_m (run_hops l h).2)))) as H.
  { clear l. induction l as [|[ord o] l IH]; intros h W E F; [done|]. rewrite fmap_cons in F. apply Forall_cons in F as [Fo F]. simpl in Fo. cbn [run_hops].
    destruct (run_hop_does ord o h W) as [_ H2]. assert (ht_len (run_hop ord o h).2 = Z.of_nat (size (sm_map (ht_m (run_hop ord o h).2)))) as H3.
    { clear IH H2. destruct o as [f v|f v|f|f|f| | |f i|f i]; cbn [run_hop snd]; try done.
      - unfold ht_set. cbn [ht_len ht_m fst]. rewrite sm_set_map, sm_has_map by done. destruct (sm_map (ht_m h) !! f) as [x|] eqn:Ef; cbn [bool_decide negb fst ht_len ht_m].
        + rewrite map_size_insert_Some by (by eexists). simpl. done.
        + rewrite map_size_insert_None by done. simpl. lia.
      - unfold ht_set, sm_set_if_absent. change (get_shard (ht_m h) f !! f) with (sm_get (ht_m h) f). rewrite sm_get_map by done. destruct (sm_map (ht_m h) !! f) eqn:Ef; simpl; [done|].
        change (upd_shard (ht_m h) f (λ s, <[f:=v]> s)) with (sm_set (ht_m h) f v). rewrite sm_set_map by done. rewrite map_size_insert_None by done. lia. }
    destruct (run_hop ord o h) as [a h1]. simpl in *. specialize (IH h1 H2 H3 F). destruct (run_hops l h1). done. }
  intros F. apply H; [apply sm_wf_new| |done]. change (0 = Z.of_nat (size (sm_map (sm_new (A:=hval))))). by rewrite sm_new_map.
Qed.
(** but not after a removal or an increment of a new field; and del answers 1 for a field that was not there *)
Theorem C52_refuted : ht_len (run_hops [(λ _, [], HoSet "f" (HInt 1)); (λ _, [], HoDel "f")] ht_new).2 = 1 ∧
  ht_len (run_hops [(λ _, [], HoIncr "f" 1)] ht_new).2 = 0 ∧ (ht_del "f" ht_new).2 = 1 ∧
  (ht_del "f" (ht_set "f" (HInt 1) false ht_new).1).2 = 0.
Proof. by vm_compute. Qed.
Example C40_demo : (run_hops [(λ _, [], HoSet "f" (HStr "a")); (λ _, [], HoSetNx "f" (HStr "b")); (λ _, [], HoIncr "f" 1); (λ _, [], HoIncr "g" 2); (λ _, [], HoIncr "g" 3); (λ _, [], HoDel "f");
    (λ _, [], HoGet "f"); (λ _, [], HoGet "g"); (λ _, [], HoKeys)] ht_new).1
  = [HaNone; HaBool false; HaInt None; HaInt (Some 2); HaInt (Some 5); HaNone; HaVal None; HaVal (Some (HInt 5)); HaKeys ["g"]].
Proof. by vm_compute. Qed.
