(** C70: when a key exists, and of which type it is. *)
From Verif Require Import GoBase GoBaseProofs ShardMap ShardMapProofs Float64 DList SkipList Db Protocol Redis Obs SpecCmd SpecResp SpecServer SpecLife
  SetRep DbInv ExecSteps PropBase Examples P_Keys Server SpecServing P_Serve Drive P_ServeMore.

(** what a command does to the types: those of [K] become [t] *)
Definition typed (K : string → Prop) (t : string) (d d' : db) : Prop :=
  ∀ k, (K k → Type_ k d' = Some t) ∧ (¬ K k → Type_ k d' = Type_ k d).
Definition same_types (d d' : db) : Prop := ∀ k, Type_ k d' = Type_ k d.
Lemma type_put k v d k' : dbinv d → Type_ k' (put k v d) = if bool_decide (k' = k) then Some (type_name v) else Type_ k' d.
Proof. intros I. unfold Type_, put. cbn [db_keys]. rewrite sm_get_set by apply I. repeat case_bool_decide; try done; by subst. Qed.
Lemma typed_put k v d : dbinv d → typed (λ x, x = k) (type_name v) d (put k v d).
Proof. intros I x. rewrite type_put by done. case_bool_decide; by split. Qed.
Lemma same_put k v d : dbinv d → Type_ k d = Some (type_name v) → same_types d (put k v d).
Proof. intros I H x. rewrite type_put by done. case_bool_decide; congruence. Qed.
Lemma load_list_type k ck d l : load_list k ck d = Ok l → Type_ k d = Some a_list.
Proof. unfold load_list, Type_. destruct (sm_get _ k) as [[]|]; try done. Qed.
Lemma load_zset_type k ck d z : load_zset k ck d = Ok z → Type_ k d = Some a_sorted_set.
Proof. unfold load_zset, Type_. destruct (sm_get _ k) as [[]|]; try done. Qed.
Lemma load_set_type k ck d x : load_set k ck d = Ret (Ok x) → Type_ k d = Some a_set.
Proof. destruct x. intros H. apply load_set_ok in H as [H _]. unfold Type_. by rewrite H. Qed.
Lemma arg_take a i k : arg a i = Ret k → a !! i = Some k.
Proof. unfold arg. destruct (a !! i); [|done]. by intros [= ->]. Qed.
Lemma arg_0 a k : arg a 0 = Ret k → ∀ x, x ∈ take 1 a ↔ x = k.
Proof. intros H x. apply arg_take in H. destruct a as [|y a]; [done|]. injection H as ->. cbn [take]. apply elem_of_list_singleton. Qed.

Section life.
Context (ext : Ext) (c : choices).
(** a command that makes its first argument a key of type [t] *)
Definition maker (t : string) (a : list string) (d d' : db) (r : res response) : Prop :=
  match r with
  | Err _ => d' = d
  | Ok rsp => is_error (view rsp) = false ∧ typed (λ k, k ∈ take 1 a) t d d'
  end.
Lemma maker_put t a k v d rsp : dbinv d → arg a 0 = Ret k → type_name v = t → is_error (view rsp) = false → maker t a d (put k v d) (Ok rsp).
Proof.
  intros I Ha <- Hr. split; [done|]. intros x. pose proof (typed_put k v d I x) as [H1 H2]. pose proof (arg_0 a k Ha x) as E.
  split; intros H; [apply H1, E, H|apply H2]. by rewrite <- E.
Qed.
Ltac mk H := crush H; crush_all; try done; eapply maker_put; done.
Lemma mk_set a d d' r : dbinv d → c_set a d = Ret (d', r) → maker a_string a d d' r.
Proof. intros I H. unfold c_set, Set_, reply, fail in H. mk H. Qed.
Lemma mk_append a d d' r : dbinv d → c_append a d = Ret (d', r) → maker a_string a d d' r.
Proof. intros I H. unfold c_append, Append, Set_, reply, fail in H. mk H. Qed.
Lemma mk_incr a d d' r : dbinv d → c_incr a d = Ret (d', r) → maker a_string a d d' r.
Proof. intros I H. unfold c_incr, incr_reply, IncrBy, Set_, reply, fail in H. mk H. Qed.
Lemma mk_decr a d d' r : dbinv d → c_decr a d = Ret (d', r) → maker a_string a d d' r.
Proof. intros I H. unfold c_decr, incr_reply, IncrBy, Set_, reply, fail in H. mk H. Qed.
Lemma mk_incrby a d d' r : dbinv d → c_incrby a d = Ret (d', r) → maker a_string a d d' r.
Proof. intros I H. unfold c_incrby, incr_reply, IncrBy, Set_, reply, fail in H. mk H. Qed.
Lemma mk_decrby a d d' r : dbinv d → c_decrby a d = Ret (d', r) → maker a_string a d d' r.
Proof. intros I H. unfold c_decrby, incr_reply, IncrBy, Set_, reply, fail in H. mk H. Qed.
Lemma mk_lpush a d d' r : dbinv d → c_lpush a d = Ret (d', r) → maker a_list a d d' r.
Proof. intros I H. unfold c_lpush, LPush, reply, fail in H. mk H. Qed.
Lemma mk_rpush a d d' r : dbinv d → c_rpush a d = Ret (d', r) → maker a_list a d d' r.
Proof. intros I H. unfold c_rpush, RPush, reply, fail in H. mk H. Qed.
Lemma mk_zadd a d d' r : dbinv d → c_zadd ext c a d = Ret (d', r) → maker a_sorted_set a d d' r.
Proof. intros I H. unfold c_zadd, ZAdd, reply, fail in H. mk H. Qed.
Lemma mk_zincr a d d' r : dbinv d → c_zincr ext c a d = Ret (d', r) → maker a_sorted_set a d d' r.
Proof. intros I H. unfold c_zincr, ZIncr, reply, fail in H. crush H; crush_all; try done; try (eapply maker_put; done). Qed.
Lemma type_set p s d k : Type_ k (put_set p s d) = Type_ k d.
Proof. done. Qed.
Lemma inv_keys d d' : dbinv d → db_keys d' = db_keys d → ∀ k v k', Type_ k' (put k v d') = if bool_decide (k' = k) then Some (type_name v) else Type_ k' d.
Proof. intros I E k v k'. unfold Type_, put. cbn [db_keys]. rewrite E, sm_get_set by apply I. repeat case_bool_decide; try done; by subst. Qed.
Lemma sadd_types k vs d d' r : dbinv d → SAdd k vs d = Ret (d', r) →
  match r with Err _ => d' = d | Ok _ => typed (λ x, x = k) a_set d d' end.
Proof.
  intros I H. unfold SAdd in H. apply obind_ret in H as (l & Hl & H). destruct l as [[p s]|e].
  - pose proof (load_set_type _ _ _ _ Hl) as T. destruct (ms_add_all vs s 0). crush_all.
    intros x. rewrite type_set. split; [by intros ->|done].
  - destruct e; try (crush_all; done). simpl in H. destruct (ms_add_all vs ms_new 0). crush_all.
    intros x. rewrite type_set. rewrite (inv_keys d) by done. case_bool_decide; by split.
Qed.
Lemma mk_sadd a d d' r : dbinv d → c_sadd a d = Ret (d', r) → maker a_set a d d' r.
Proof.
  intros I H. unfold c_sadd, reply, fail in H. destruct (fewer a 2); [by crush_all|].
  apply obind_ret in H as (k & Ek & H). apply obind_ret in H as ([d1 q] & HS & H). apply sadd_types in HS; [|done].
  pose proof (arg_0 a k Ek) as E. destruct q; crush_all; [|done]. split; [done|]. intros x. rewrite E. apply HS.
Qed.
Lemma mk_store o a d d' r : dbinv d → c_setop_store c o a d = Ret (d', r) → maker a_set a d d' r.
Proof.
  intros I H. unfold c_setop_store, reply, fail in H. destruct (fewer a 2) eqn:F; [by crush_all|].
  destruct (length a =? 1)%nat eqn:L; [apply Nat.eqb_eq in L; unfold fewer in F; rewrite L in F; done|].
  apply obind_ret in H as (k & Ek & H). apply obind_ret in H as ([d1 q] & HS & H).
  unfold SOpStore in HS. apply obind_ret in HS as (l & Hl & HS).
  destruct l as [acc|]; [|by crush_all]. pose proof (arg_0 a k Ek) as E.
  destruct acc as [|p s|s]; simpl in HS; crush_all; (split; [done|]); intros x; rewrite E, (inv_keys d) by done; case_bool_decide; by split.
Qed.
Lemma mk_smove a d d' r : dbinv d → c_smove a d = Ret (d', r) →
  match r with Err _ => same_types d d' | Ok rsp => is_error (view rsp) = false ∧ typed (λ k, a !! 1%nat = Some k) a_set d d' end.
Proof.
  intros I H. unfold c_smove, reply, fail in H. destruct (fewer a 3); [by crush_all|].
  apply obind_ret in H as (s & Es & H). apply obind_ret in H as (t & Et & H). apply obind_ret in H as (v & Ev & H).
  apply obind_ret in H as ([d1 q] & HS & H). apply arg_take in Et.
  unfold SMove in HS. apply obind_ret in HS as (l0 & Hl & HS). destruct l0 as [[p s']|e0]; [|by crush_all].
  pose proof (load_set_ok _ _ _ _ _ Hl) as [Hg Hs]. pose proof (load_set_wf _ _ _ _ _ I Hl) as Hw.
  rewrite sm_delete_if_exists_map in HS by (by apply set_ok_wf). destruct (sm_map (ms_m s') !! v) eqn:Ev'.
  - assert (S1 : gstep true false (take 2 a) d (put_set p (MSet (sm_delete (ms_m s') v) (ms_len s')) d)).
    { apply (st_set _ _ _ s _ s'); [by eapply arg_in; [exact Es|lia]|done|done| |done].
      destruct Hw as (X & dr & R). eapply set_rep_ok, ms_take_rep; [done|]. apply (set_rep_in _ _ _ v R). eauto. }
    apply sadd_types in HS; [|by eapply dstep_inv]. destruct q; crush_all.
    + split; [done|]. intros x. rewrite Et. split; [intros [= ->]; by apply HS|]. intros N. etransitivity; [apply HS; congruence|done].
    + done.
  - crush_all. done.
Qed.
Lemma mset_types a d : dbinv d → dbinv (MSet_ a d) ∧ typed (λ k, k ∈ pair_heads a) a_string d (MSet_ a d).
Proof.
  intros I. assert (G : ∀ n a d, (length a < n)%nat → dbinv d → dbinv (MSet_ a d) ∧ typed (λ k, k ∈ pair_heads a) a_string d (MSet_ a d)); [|apply (G (S (length a))); [lia|done]].
  clear a d I. induction n as [|n IH]; [lia|]. intros [|x [|v a]] d L I; cbn [length] in L; try (split; [done|]; intros k; split; [by intros ?%elem_of_nil|done]).
  cbn [MSet_ pair_heads]. assert (I1 : dbinv (Set_ x v d)). { refine (dstep_inv true false [x] d _ _ I). apply (st_put _ _ d x (VStr v)); [by left|done]. }
  destruct (IH a (Set_ x v d)) as [I2 T]; [lia|done|]. split; [done|]. intros k. specialize (T k) as [T1 T2].
  pose proof (type_put x (VStr v) d k I) as P. fold (Set_ x v d) in P.
  destruct (decide (k ∈ pair_heads a)) as [Hk|Hk].
  - split; [intros _; by apply T1|]. intros N. exfalso. apply N. by right.
  - rewrite T2 by done. rewrite P. case_bool_decide; [subst|].
    + split; [done|]. intros N. exfalso. apply N. left.
    + split; [|done]. intros [?|?]%elem_of_cons; done.
Qed.
Lemma mk_mset a d d' r : dbinv d → c_mset a d = Ret (d', r) →
  match r with Err _ => d' = d | Ok rsp => is_error (view rsp) = false ∧ typed (λ k, k ∈ pair_heads a) a_string d d' end.
Proof.
  intros I H. unfold c_mset, reply, fail in H. destruct (_ && _); crush_all; [done|]. split; [done|]. by apply mset_types.
Qed.
Lemma mk_del a d d' r : dbinv d → c_del a d = Ret (d', r) →
  match r with Err _ => d' = d | Ok rsp => is_error (view rsp) = false ∧ ∀ k, Type_ k d' = if bool_decide (k ∈ take 1 a) then None else Type_ k d end.
Proof.
  intros I H. unfold c_del, reply, fail in H. destruct (fewer a 1); [by crush_all|]. apply obind_ret in H as (k & Ek & H).
  unfold Del in H. rewrite sm_delete_if_exists_map in H by apply I. destruct (sm_map (db_keys d) !! k) eqn:G; crush_all; (split; [done|]); intros x.
  - rewrite (bool_decide_ext _ _ (arg_0 a k Ek x)). unfold Type_. cbn [db_keys]. rewrite sm_get_delete by apply I. repeat case_bool_decide; try done; by subst.
  - rewrite (bool_decide_ext _ _ (arg_0 a k Ek x)). unfold Type_. cbn [db_keys]. case_bool_decide as X; [|done]. subst x. rewrite sm_get_map by apply I. by rewrite G.
Qed.
(** commands that change no type *)
Ltac neutral H := crush H; crush_all; try done;
  first [ done | eapply same_put; [done|first [by eapply load_list_type|by eapply load_zset_type]] ].
Lemma nt_lpop a d d' r : dbinv d → c_lpop a d = Ret (d', r) → same_types d d'.
Proof. intros I H. unfold c_lpop, LPop, pop_reply, reply, fail in H. neutral H. Qed.
Lemma nt_rpop a d d' r : dbinv d → c_rpop a d = Ret (d', r) → same_types d d'.
Proof. intros I H. unfold c_rpop, RPop, pop_reply, reply, fail in H. neutral H. Qed.
Lemma nt_lrem a d d' r : dbinv d → c_lrem a d = Ret (d', r) → same_types d d'.
Proof. intros I H. unfold c_lrem, LRem, reply, fail in H. neutral H. Qed.
Lemma nt_lset a d d' r : dbinv d → c_lset a d = Ret (d', r) → same_types d d'.
Proof. intros I H. unfold c_lset, LSet, reply, fail in H. neutral H. Qed.
Lemma nt_linsert a d d' r : dbinv d → c_linsert a d = Ret (d', r) → same_types d d'.
Proof. intros I H. unfold c_linsert, LInsert, reply, fail in H. neutral H. Qed.
Lemma nt_srem a d d' r : dbinv d → c_srem a d = Ret (d', r) → same_types d d'.
Proof. intros I H. unfold c_srem, SRem, reply, fail in H. neutral H. Qed.
Lemma nt_spop a d d' r : dbinv d → c_spop c a d = Ret (d', r) → same_types d d'.
Proof. intros I H. unfold c_spop, SPop, reply, fail in H. neutral H. Qed.
Lemma nt_zrem a d d' r : dbinv d → c_zrem a d = Ret (d', r) → same_types d d'.
Proof. intros I H. unfold c_zrem, ZRem, reply, fail in H. neutral H. Qed.
Lemma nt_zpop mx a d d' r : dbinv d → c_zpop ext mx a d = Ret (d', r) → same_types d d'.
Proof. intros I H. unfold c_zpop, ZPop, reply, fail in H. neutral H. Qed.
Definition makes_by (n : string) (a : list string) (k : string) : option string :=
  if String.eqb n "mset" then if bool_decide (k ∈ pair_heads a) then Some a_string else None
  else if String.eqb n "smove" then if bool_decide (a !! 1%nat = Some k) then Some a_set else None
  else if bool_decide (n ∈ ["set"; "append"; "incr"; "decr"; "incrby"; "decrby"]%string) && bool_decide (k ∈ take 1 a) then Some a_string
  else if bool_decide (n ∈ ["lpush"; "rpush"]%string) && bool_decide (k ∈ take 1 a) then Some a_list
  else if bool_decide (n ∈ ["sadd"; "sdiffstore"; "sinterstore"; "sunionstore"]%string) && bool_decide (k ∈ take 1 a) then Some a_set
  else if bool_decide (n ∈ ["zadd"; "zincr"]%string) && bool_decide (k ∈ take 1 a) then Some a_sorted_set
  else None.
Definition lives_by (n : string) (a : list string) (r : option resp) (k : string) (t : option string) : option string :=
  if is_error r then t else if String.eqb n "del" && bool_decide (k ∈ take 1 a) then None else match makes_by n a k with Some u => Some u | None => t end.
Lemma made (K : string → Prop) t d d' q k (Kd : Decision (K k)) :
  match q with Err _ => same_types d d' | Ok rsp => is_error (view rsp) = false ∧ typed K t d d' end →
  Type_ k d' = if is_error (view (reply_of q)) then Type_ k d else match (if bool_decide (K k) then Some t else None) with Some u => Some u | None => Type_ k d end.
Proof.
  destruct q as [rsp|e]; cbn [reply_of]; [|by intros H; apply H]. intros [-> T]. specialize (T k) as [T1 T2]. case_bool_decide; auto.
Qed.
Lemma made_first t a d d' q k : maker t a d d' q →
  Type_ k d' = if is_error (view (reply_of q)) then Type_ k d else match (if bool_decide (k ∈ take 1 a) then Some t else None) with Some u => Some u | None => Type_ k d end.
Proof. intros H. apply (made (λ k, k ∈ take 1 a) t d d' q k). destruct q; [done|]. by rewrite H. Qed.
Ltac sort_out := unfold lives_by, makes_by; cbn -[take bool_decide pair_heads is_error view lookup];
  repeat match goal with |- context [bool_decide (?x ∈ ?l)] =>
      let b := eval vm_compute in (bool_decide (x ∈ l)) in
      match b with true => idtac | false => idtac end;
      replace (bool_decide (x ∈ l)) with b by (vm_compute; reflexivity) end;
  cbn -[take bool_decide pair_heads is_error view lookup].
Lemma cmd_life low f a d d' q k : dbinv d → (low, f) ∈ implemented_commands ext c → f a d = Ret (d', q) →
  Type_ k d' = lives_by low a (view (reply_of q)) k (Type_ k d).
Proof.
  intros I Hin Hf. unfold implemented_commands in Hin.
  repeat (apply elem_of_cons in Hin as [[= -> ->]|Hin]; [sort_out;
    first [ assert (same_types d d') as Hs;
            [ first [ assert (d' = d) as ->; [|done];
                  eauto using w_hdel, w_hincrby, w_hincrbyfloat, w_hset, w_hmset, w_hsetnx, ro_get, ro_mget, ro_keys, ro_exists, ro_type, ro_ping, ro_command, ro_llen, ro_lrange, ro_lindex, ro_scard, ro_sismember, ro_smembers, ro_setop, ro_zscore, ro_zrank, ro_zcard, ro_zcount, ro_zrange, ro_zrangebyscore, ro_zrevrange, ro_hexists, ro_hget, ro_hgetall, ro_hkeys, ro_hlen, ro_hmget, ro_hvals; fail
                | eauto using nt_lpop, nt_rpop, nt_lrem, nt_lset, nt_linsert, nt_srem, nt_spop, nt_zrem, nt_zpop; fail ]
            | rewrite (Hs k); by destruct (is_error _) ]
          | apply made_first; eauto using mk_set, mk_append, mk_incr, mk_decr, mk_incrby, mk_decrby, mk_lpush, mk_rpush, mk_sadd, mk_store, mk_zadd, mk_zincr; fail
          | idtac ] |]); [| | |by apply elem_of_nil in Hin].
  - pose proof (mk_del _ _ _ _ I Hf) as H. destruct q; [|by rewrite H]. cbn [reply_of]. destruct H as [-> H]. apply H.
  - apply (made (λ k, a !! 1%nat = Some k) a_set d d' q k). by apply mk_smove.
  - apply (made (λ k, k ∈ pair_heads a) a_string d d' q k). pose proof (mk_mset _ _ _ _ I Hf) as H. destruct q; [done|]. by rewrite H.
Qed.
Lemma ask_life req d d' r k : dbinv d → ask ext c req d = Ret (d', r) → Type_ k d' = lives k (Type_ k d) (req, r).
Proof.
  intros I H. unfold ask in H. apply obind_ret in H as ([d1 q] & H & E). injection E as <- <-.
  destruct req as [|name a]; [injection H as <- <-; done|]. apply exec_inv in H as [(_ & -> & ->)|(f & q0 & Hin & Hf & ->)]; [done|].
  exact (cmd_life _ _ _ _ _ _ k I Hin Hf).
Qed.
(** the other makers only work on keys that do not exist or have the type already *)
Definition gentle (t : string) (k : string) (d : db) (q : res response) : Prop :=
  match q with Ok _ => Type_ k d = None ∨ Type_ k d = Some t | Err _ => True end.
Lemma get_gentle k d : match sm_get (db_keys d) k with None => Type_ k d = None | Some v => Type_ k d = Some (type_name v) end.
Proof. unfold Type_. by destruct (sm_get _ k). Qed.
Ltac gt H := crush H; crush_all; cbn [gentle]; try done;
  match goal with |- Type_ ?k ?d = None ∨ _ => let G := fresh in pose proof (get_gentle k d) as G;
    repeat match goal with E : sm_get (db_keys d) k = _ |- _ => rewrite E in G end; auto end.
Lemma gt_append a d d' r k : arg a 0 = Ret k → c_append a d = Ret (d', r) → gentle a_string k d r.
Proof. intros K H. unfold c_append, Append, Set_, reply, fail in H. rewrite K in H. gt H. Qed.
Lemma gt_incr_reply n d d' r k : incr_reply k n d = Ret (d', r) → gentle a_string k d r.
Proof. intros H. unfold incr_reply, IncrBy, Set_, reply, fail in H. gt H. Qed.
Lemma gt_incr a d d' r k : arg a 0 = Ret k → c_incr a d = Ret (d', r) → gentle a_string k d r.
Proof. intros K H. unfold c_incr, fail in H. rewrite K in H. destruct (fewer a 1); [by crush_all|]. by eapply gt_incr_reply. Qed.
Lemma gt_decr a d d' r k : arg a 0 = Ret k → c_decr a d = Ret (d', r) → gentle a_string k d r.
Proof. intros K H. unfold c_decr, fail in H. rewrite K in H. destruct (fewer a 1); [by crush_all|]. by eapply gt_incr_reply. Qed.
Lemma gt_incrby a d d' r k : arg a 0 = Ret k → c_incrby a d = Ret (d', r) → gentle a_string k d r.
Proof. intros K H. unfold c_incrby, fail in H. rewrite K in H. crush H; repeat match goal with E : Ret _ = Ret _ |- _ => injection E as <- end; try done; by eapply gt_incr_reply. Qed.
Lemma gt_decrby a d d' r k : arg a 0 = Ret k → c_decrby a d = Ret (d', r) → gentle a_string k d r.
Proof. intros K H. unfold c_decrby, fail in H. rewrite K in H. crush H; repeat match goal with E : Ret _ = Ret _ |- _ => injection E as <- end; try done; by eapply gt_incr_reply. Qed.
Lemma load_list_gentle k ck d e : load_list k ck d = Err e → e = ErrNil → Type_ k d = None ∨ Type_ k d = Some a_list.
Proof. unfold load_list, Type_. destruct (sm_get _ k) as [[]|]; cbn; try (by intros [= <-]); auto. Qed.
Lemma gt_lpush a d d' r k : arg a 0 = Ret k → c_lpush a d = Ret (d', r) → gentle a_list k d r.
Proof.
  intros K H. unfold c_lpush, LPush, reply, fail in H. rewrite K in H. crush H; crush_all; cbn [gentle]; try done;
  first [right; by eapply load_list_type | by eapply load_list_gentle].
Qed.
Lemma gt_rpush a d d' r k : arg a 0 = Ret k → c_rpush a d = Ret (d', r) → gentle a_list k d r.
Proof.
  intros K H. unfold c_rpush, RPush, reply, fail in H. rewrite K in H. crush H; crush_all; cbn [gentle]; try done;
  first [right; by eapply load_list_type | by eapply load_list_gentle].
Qed.
Lemma load_zset_gentle k ck d e : load_zset k ck d = Err e → e = ErrNil → Type_ k d = None ∨ Type_ k d = Some a_sorted_set.
Proof. unfold load_zset, Type_. destruct (sm_get _ k) as [[]|]; cbn; try (by intros [= <-]); auto. Qed.
Lemma gt_zadd a d d' r k : arg a 0 = Ret k → c_zadd ext c a d = Ret (d', r) → gentle a_sorted_set k d r.
Proof.
  intros K H. unfold c_zadd, ZAdd, reply, fail in H. rewrite K in H. crush H; crush_all; cbn [gentle]; try done;
  first [right; by eapply load_zset_type | by eapply load_zset_gentle].
Qed.
Lemma gt_zincr a d d' r k : arg a 0 = Ret k → c_zincr ext c a d = Ret (d', r) → gentle a_sorted_set k d r.
Proof.
  intros K H. unfold c_zincr, ZIncr, reply, fail in H. rewrite K in H. crush H; crush_all; cbn [gentle]; try done;
  first [right; by eapply load_zset_type | by eapply load_zset_gentle].
Qed.
Lemma load_set_gentle k ck d : load_set k ck d = Ret (Err ErrNil) → Type_ k d = None ∨ Type_ k d = Some a_set.
Proof. unfold load_set, Type_. destruct (sm_get _ k) as [[]|]; cbn; try done; auto. Qed.
Lemma sadd_gentle k vs d d' n : SAdd k vs d = Ret (d', Ok n) → Type_ k d = None ∨ Type_ k d = Some a_set.
Proof.
  unfold SAdd. intros H. apply obind_ret in H as (l & Hl & H). destruct l as [[p s]|e]; [right; by eapply load_set_type|].
  destruct e; try by crush_all. by eapply load_set_gentle.
Qed.
Lemma gt_sadd a d d' r k : arg a 0 = Ret k → c_sadd a d = Ret (d', r) → gentle a_set k d r.
Proof. intros K H. unfold c_sadd, reply, fail in H. rewrite K in H. crush H; crush_all; cbn [gentle]; try done. by eapply sadd_gentle. Qed.
Lemma gt_smove a d d' r k : arg a 1 = Ret k → c_smove a d = Ret (d', r) → gentle a_set k d r.
Proof.
  intros K H. unfold c_smove, reply, fail in H. rewrite K in H. crush H; crush_all; cbn [gentle]; try done.
  match goal with H : SMove _ _ _ _ = _ |- _ => unfold SMove in H; crush H end.
  all: try (match goal with H : SAdd _ _ _ = _ |- _ => apply sadd_gentle in H end; done). all: done.
Qed.
Definition rewrites_by (n : string) (a : list string) (k : string) : bool :=
  (String.eqb n "mset" && bool_decide (k ∈ pair_heads a)) ||
  (bool_decide (n ∈ ["set"; "sdiffstore"; "sinterstore"; "sunionstore"]%string) && bool_decide (k ∈ take 1 a)).
Lemma cmd_keeps low f a d d' q k t : (low, f) ∈ implemented_commands ext c → f a d = Ret (d', q) →
  rewrites_by low a k = false → is_error (view (reply_of q)) = false → makes_by low a k = Some t → Type_ k d = None ∨ Type_ k d = Some t.
Proof.
  intros Hin Hf. unfold implemented_commands in Hin. unfold rewrites_by.
  assert (A0 : k ∈ take 1 a → arg a 0 = Ret k) by (intros H; destruct a; [by apply elem_of_nil in H|]; apply elem_of_list_singleton in H; by subst).
  assert (A1 : a !! 1%nat = Some k → arg a 1 = Ret k) by (intros H; unfold arg; by rewrite H).
  assert (G : gentle t k d q → is_error (view (reply_of q)) = false → Type_ k d = None ∨ Type_ k d = Some t) by (by destruct q).
  repeat (apply elem_of_cons in Hin as [[= -> ->]|Hin]; [sort_out;
    try (case_bool_decide as Hk); cbn; try done; intros _ He [= <-]; (apply G; [|done]); try apply A0 in Hk; try apply A1 in Hk;
    eauto using gt_append, gt_incr, gt_decr, gt_incrby, gt_decrby, gt_lpush, gt_rpush, gt_sadd, gt_smove, gt_zadd, gt_zincr |]).
  by apply elem_of_nil in Hin.
Qed.
Lemma ask_keeps req d d' r k t : dbinv d → ask ext c req d = Ret (d', r) → unmakes req k = false → overwrites req k = false →
  Type_ k d = Some t → Type_ k d' = Some t.
Proof.
  intros I H U O E. rewrite (ask_life req d d' r k I H), E. unfold lives. cbn [fst snd]. rewrite U.
  destruct (is_error r) eqn:He; [done|]. destruct (makes req k) as [u|] eqn:M; [|done].
  unfold ask in H. apply obind_ret in H as ([d1 q] & H & X). injection X as <- <-.
  destruct req as [|name a]; [done|]. apply exec_inv in H as [(_ & -> & ->)|(f & q0 & Hin & Hf & ->)]; [done|].
  destruct (cmd_keeps _ _ _ _ _ _ k u Hin Hf O He M) as [?|?]; congruence.
Qed.
End life.
Lemma Forall2_nil_rs {A B} (l : list A) (rs : list B) : length l = length rs → l = [] → rs = [].
Proof. intros H ->. by destruct rs. Qed.
Lemma talk_life ext h k : ∀ d d' rs, dbinv d → talk ext h d = Ret (d', rs) → Type_ k d' = foldl (lives k) (Type_ k d) (zip h.*2 rs).
Proof.
  induction h as [|[c req] h IH]; intros d d' rs I H; [by injection H as <- <-|]. cbn [talk] in H.
  apply obind_ret in H as ([d1 r] & E1 & H). apply obind_ret in H as ([d2 rs2] & E2 & H). injection H as <- <-.
  rewrite fmap_cons. cbn [snd zip_with foldl]. rewrite (IH d1 d2 rs2); [|by eapply ask_inv|done]. f_equal. by eapply ask_life.
Qed.
Lemma talk_length ext h : ∀ d d' rs, talk ext h d = Ret (d', rs) → length rs = length h.
Proof.
  induction h as [|[c req] h IH]; intros d d' rs H; [by injection H as <- <-|]. cbn [talk] in H.
  apply obind_ret in H as ([d1 r] & E1 & H). apply obind_ret in H as ([d2 rs2] & E2 & H). injection H as <- <-. cbn. f_equal. by eapply IH.
Qed.
Lemma new_type k : Type_ k db_new = None.
Proof. unfold Type_. cbn [db_new db_keys]. by rewrite sm_get_map, sm_new_map, lookup_empty by apply sm_wf_new. Qed.
Lemma get_type d k : match sm_get (db_keys d) k with Some v => type_name v | None => "none" end = default "none" (Type_ k d).
Proof. unfold Type_. by destruct (sm_get _ k). Qed.
Lemma exists_type ext d k : dbinv d → answers ext d ["EXISTS"; k] (RInt (if Type_ k d then 1 else 0)).
Proof. intros I. pose proof (exists_get ext d k I) as H. unfold Type_. by destruct (sm_get _ k). Qed.

(** ** C70 *)
(** Whether a key exists and of which type it is follows from the requests and from which of them were answered with
    an error; EXISTS, TYPE and KEYS say so. *)
Theorem C70_life ext h d rs k : talk ext h db_new = Ret (d, rs) →
  answers ext d ["EXISTS"; k] (RInt (if life k (zip h.*2 rs) then 1 else 0)) ∧
  type_is ext d k (default "none" (life k (zip h.*2 rs))).
Proof.
  intros H. assert (I : dbinv d) by (eapply talk_inv; [apply dbinv_new|done]).
  pose proof (talk_life ext h k _ _ _ dbinv_new H) as E. rewrite new_type in E. fold (life k (zip h.*2 rs)) in E. rewrite <- E. split.
  - by apply exists_type.
  - rewrite <- get_type. apply type_get.
Qed.
Theorem C70_keys ext h d rs p g : talk ext h db_new = Ret (d, rs) → glob_compile ext p = Some g →
  ∀ c, ∃ l, ask ext c ["KEYS"; p] d = Ret (d, Some (bulks l)) ∧ NoDup l ∧ ∀ k, k ∈ l ↔ is_Some (life k (zip h.*2 rs)) ∧ g k = true.
Proof.
  intros H Hg c. assert (R : reachable ext d) by (by exists h, rs). pose proof (reachable_inv _ _ R) as I.
  destruct (C14_keys ext d _ p g R (proj2 (present_iff ext d _ I) eq_refl) Hg c) as (l & E & N & Hl).
  exists l. split; [done|]. split; [done|]. intros k. rewrite Hl, dom_get by done.
  pose proof (talk_life ext h k _ _ _ dbinv_new H) as T. rewrite new_type in T. fold (life k (zip h.*2 rs)) in T. rewrite <- T.
  unfold Type_. by rewrite fmap_is_Some.
Qed.
(** A key that exists stays until DEL names it first. *)
Theorem C70_until_del ext h d d' rs k : reachable ext d → answers ext d ["EXISTS"; k] (RInt 1) → talk ext h d = Ret (d', rs) →
  Forall (λ req, unmakes req k = false) h.*2 → answers ext d' ["EXISTS"; k] (RInt 1).
Proof.
  intros R A H F. pose proof (reachable_inv _ _ R) as I. assert (I' : dbinv d') by (by eapply talk_inv).
  assert (is_Some (Type_ k d)) as S. { pose proof (answers_fun _ _ _ _ _ A (exists_type ext d k I)) as E. by destruct (Type_ k d). }
  assert (is_Some (Type_ k d')) as [t E].
  { rewrite (talk_life ext h k _ _ _ I H). revert S. generalize (Type_ k d). clear -F. revert rs. induction h as [|[c req] h IH]; intros rs o S; [done|].
    rewrite fmap_cons in F. apply Forall_cons in F as [F1 F2]. rewrite fmap_cons. destruct rs as [|r rs]; [done|]. cbn [zip_with foldl snd].
    apply IH; [done|]. unfold lives. cbn [fst snd] in *. rewrite F1. destruct (is_error r); [done|]. by destruct (makes req k). }
  pose proof (exists_type ext d' k I') as X. by rewrite E in X.
Qed.
(** The running server: what TYPE and EXISTS answer follows from the requests executed before and from their replies. *)
Theorem C70_served ext max ps tr s : runs ext max ps tr s → ∃ rs,
  length rs = length (calls tr) ∧
  (∀ g k b, LWrite g k b ∈ tr → (b = deadline_bytes ∧ LExpire g ∈ tr) ∨
      ∃ i x v, calls tr !! i = Some x ∧ who x = g ∧ rs !! i = Some (Some v) ∧ is_reply b v) ∧
  ∀ i x k, calls tr !! i = Some x →
    let t := life k (take i (zip (what <$> calls tr) rs)) in
    (what x = ["EXISTS"; k]%string → rs !! i = Some (Some (RInt (if t then 1 else 0)))) ∧
    (what x = ["TYPE"; k]%string → rs !! i = Some (Some (RStatus (default "none" t)))).
Proof.
  intros R. destruct (C07_serial _ _ _ _ _ R) as (rs & T & _ & _ & _ & _ & W). exists rs.
  pose proof (talk_length _ _ _ _ _ T) as L. unfold as_history in L. rewrite fmap_length in L.
  split; [done|]. split.
  { intros g k b Hw. destruct (W _ _ _ Hw) as (f & _ & [?|(i & x & v & ? & ? & _ & ? & ?)]); [by left|]. right. by exists i, x, v. }
  intros i x k Hx. cbv zeta.
  assert (H2 : ∀ l, (as_history l).*2 = what <$> l) by (intros l; unfold as_history; rewrite <- list_fmap_compose; done).
  pose proof (take_drop_middle _ _ _ Hx) as Sp. rewrite <- Sp in T. unfold as_history in T. rewrite fmap_app, fmap_cons, talk_app in T.
  fold (as_history (take i (calls tr))) in T. fold (as_history (drop (S i) (calls tr))) in T.
  apply obind_ret in T as ([d1 r1] & T1 & T). apply obind_ret in T as ([d2 r2] & T2 & T). injection T as _ <-.
  cbn [talk] in T2. apply obind_ret in T2 as ([d3 v] & A & T2). apply obind_ret in T2 as ([d4 r3] & _ & T2). injection T2 as _ <-.
  pose proof (talk_length _ _ _ _ _ T1) as L1. unfold as_history in L1. rewrite fmap_length, take_length in L1. apply lookup_lt_Some in Hx as Lt.
  assert (L1' : length r1 = i) by lia.
  assert (Z : take i (zip (what <$> calls tr) (r1 ++ v :: r3)) = zip (as_history (take i (calls tr))).*2 r1).
  { rewrite H2, <- Sp at 1. rewrite fmap_app, zip_with_app by (rewrite fmap_length, take_length; lia).
    rewrite take_app_alt; [done|]. rewrite zip_with_length, fmap_length, !take_length. lia. }
  rewrite Z. rewrite lookup_app_r, L1', Nat.sub_diag by lia. cbn [lookup list_lookup].
  destruct (C70_life ext _ d1 r1 k T1) as [X1 X2]. split; intros E; rewrite E in A.
  - rewrite (X1 (how x)) in A. by injection A as _ <-.
  - rewrite (X2 (how x)) in A. by injection A as _ <-.
Qed.

(** The type of a key that exists does not change, except by DEL or by the commands that replace it as a whole. *)
Theorem C70_type_stays ext h d d' rs k t : reachable ext d → t ≠ "none" → type_is ext d k t → talk ext h d = Ret (d', rs) →
  Forall (λ req, unmakes req k = false ∧ overwrites req k = false) h.*2 → type_is ext d' k t.
Proof.
  intros R N T H F. pose proof (reachable_inv _ _ R) as I. apply type_is_get in T. rewrite get_type in T.
  assert (Type_ k d = Some t) as E. { destruct (Type_ k d); cbn in T; congruence. }
  assert (Type_ k d' = Some t) as E'.
  { clear -I E F H. revert d d' rs I E H. induction h as [|[c req] h IH]; intros d d' rs I E H; [by injection H as <- <-|].
    cbn [talk] in H. rewrite fmap_cons in F. apply Forall_cons in F as [[F1 F2] F3].
    apply obind_ret in H as ([d1 r] & E1 & H). apply obind_ret in H as ([d2 rs2] & E2 & H). injection H as <- <-.
    eapply IH; [done|by eapply ask_inv| |done]. by eapply ask_keeps. }
  pose proof (type_get ext d' k) as G. by rewrite get_type, E' in G.
Qed.
(** Redis removes a list, set or sorted set that becomes empty; this server keeps it, with its type. *)
Theorem C70_emptied_demo :
  replies [["RPUSH"; "l"; "a"]; ["LPOP"; "l"]; ["LLEN"; "l"]; ["EXISTS"; "l"]; ["TYPE"; "l"]; ["SADD"; "l"; "x"];
           ["SADD"; "s"; "a"]; ["SREM"; "s"; "a"]; ["EXISTS"; "s"]; ["KEYS"; "*"]]%string =
    Some (Some <$> [RInt 1; bulks ["a"]; RInt 0; RInt 1; RStatus "list"; RError (err_msg ErrTypeMismatch);
           RInt 1; RInt 1; RInt 1; bulks ["s"; "l"]])%string.
Proof. by vm_compute. Qed.

(** A conversation: a key through its types. *)
Definition days : list (list string) :=
  [["SET"; "k"; "v"]; ["LPUSH"; "k"; "x"]; ["TYPE"; "k"]; ["DEL"; "k"; "j"]; ["EXISTS"; "k"]; ["SMOVE"; "a"; "k"; "x"]; ["SADD"; "a"; "x"; "y"];
   ["SMOVE"; "a"; "k"; "x"]; ["TYPE"; "k"]; ["APPEND"; "k"; "z"]; ["MSET"; "j"; "1"; "k"; "2"; "i"]; ["TYPE"; "k"]; ["EXISTS"; "i"]; ["ZADD"; "z"; "1"; "m"];
   ["SUNIONSTORE"; "z"; "a"]; ["HSET"; "h"; "f"; "v"]; ["TYPE"; "z"]; ["EXISTS"; "h"]]%string.
Theorem C70_life_demo :
  replies days = Some [Some (RStatus "OK"); Some (RError (err_msg ErrTypeMismatch)); Some (RStatus "string"); Some (RInt 1); Some (RInt 0);
    Some (RError (err_msg ErrNil)); Some (RInt 2); Some (RInt 1); Some (RStatus "setIfNotExists"); Some (RError (err_msg ErrTypeMismatch)); Some (RStatus "OK");
    Some (RStatus "string"); Some (RInt 0); Some (RInt 1); Some (RInt 2); Some (RInt 1); Some (RStatus "setIfNotExists"); Some (RInt 0)]%string ∧
  ∃ rs, replies days = Some rs ∧ (λ k, life k (zip days rs)) <$> ["k"; "a"; "j"; "i"; "z"; "h"]%string =
    [Some a_string; Some a_set; Some a_string; None; Some a_set; None] ∧
    (λ n, life "k" (take n (zip days rs))) <$> [1; 2; 4; 6; 8; 10; 11]%nat = [Some a_string; Some a_string; None; None; Some a_set; Some a_set; Some a_string].
Proof. split; [by vm_compute|]. eexists. split; [by vm_compute|]. by vm_compute. Qed.
(** The hypotheses of C70_until_del and C70_type_stays are met by conversations that try to change the key. *)
Theorem C70_stays_demo :
  answers ext0 (after [["RPUSH"; "l"; "a"]]%string) ["EXISTS"; "l"]%string (RInt 1) ∧ type_is ext0 (after [["RPUSH"; "l"; "a"]]%string) "l" "list" ∧
  Forall (λ req, unmakes req "l" = false ∧ overwrites req "l" = false)
    [["LPOP"; "l"; "5"]; ["SADD"; "l"; "x"]; ["INCR"; "l"]; ["DEL"; "m"; "l"]; ["SMOVE"; "l"; "m"; "x"]; ["MSET"; "m"; "l"]; ["LPUSH"; "l"; "b"]]%string ∧
  replies [["RPUSH"; "l"; "a"]; ["LPOP"; "l"; "5"]; ["SADD"; "l"; "x"]; ["INCR"; "l"]; ["DEL"; "m"; "l"]; ["SMOVE"; "l"; "m"; "x"]; ["MSET"; "m"; "l"]; ["LPUSH"; "l"; "b"]; ["TYPE"; "l"]]%string =
    Some (Some <$> [RInt 1; bulks ["a"]; RError (err_msg ErrTypeMismatch); RError (err_msg ErrTypeMismatch); RInt 0; RError (err_msg ErrTypeMismatch);
      RStatus "OK"; RInt 1; RStatus "list"])%string.
Proof.
  split_and!.
  - intros c. by vm_compute.
  - intros c. by vm_compute.
  - repeat constructor.
  - by vm_compute.
Qed.
