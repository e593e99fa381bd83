(** Every command ends, in every state the commands can produce: with a result or with a panic, never by looping
    for ever. *)
From Verif Require Import GoBase GoBaseProofs ShardMap ShardMapProofs Float64 DList SkipList Db Protocol Redis DbInv Obs SpecServer SpecTable SpecEnds SimZSet ScoreTable ListEnds TermList TermZSet.

(** the loops of the sorted set end, and it has a table of scores *)
Definition zfine (z : zset) : Prop := ZFn (zs_sl z) ∧ ∃ t, tabled z t.
(** the loops of the list end, and it is a chain *)
Definition lfit (l : dlist) : Prop := LF l ∧ ∃ s, chained l s.
Definition vfine (v : value) : Prop := match v with VList l => lfit l | VZSet z => zfine z | _ => True end.
Lemma lfit_new : lfit dl_new.
Proof. split; [apply lf_new|]. eexists. apply chained_new. Qed.
Lemma zfine_new : zfine zs_new.
Proof. split; [apply ZF_new|]. exists (∅, 0). apply tabled_new. Qed.
Lemma zfine_loops z : zfine z → ZFn (zs_sl z).
Proof. by intros [H _]. Qed.
Lemma fin_and {A} (P Q : A → Prop) o : fin P o → (∀ a, o = Ret a → Q a) → fin (λ a, P a ∧ Q a) o.
Proof. destruct o; simpl; auto. Qed.
Record tidy (d : db) : Prop := {
  td_wf : sm_wf (db_keys d);
  td_val : ∀ k v, sm_get (db_keys d) k = Some v → vfine v
}.
Lemma tidy_new : tidy db_new.
Proof. split; simpl; [apply sm_wf_new|]. intros k v. rewrite sm_get_map by apply sm_wf_new. by rewrite sm_new_map, lookup_empty. Qed.
Lemma tidy_put k v d : tidy d → vfine v → tidy (put k v d).
Proof.
  intros [W H] Hv. split; simpl; [by apply sm_set_wf|]. intros k' v'. rewrite sm_get_set by done. case_bool_decide; [by intros [= <-]|apply H].
Qed.
Lemma tidy_put_set p s d : tidy d → tidy (put_set p s d).
Proof. intros [W H]. by split. Qed.
Lemma tidy_alloc s d : tidy d → tidy (alloc_set s d).2.
Proof. intros [W H]. by split. Qed.
Lemma tidy_del k d : tidy d → tidy (Del k d).1.
Proof.
  intros [W H]. unfold Del. rewrite sm_delete_if_exists_map by done. destruct (sm_map (db_keys d) !! k); split; simpl; try done.
  - by apply sm_delete_wf.
  - intros k1 v1. rewrite sm_get_delete by done. case_bool_decide; [done|apply H].
Qed.
Lemma tidy_list k l d : tidy d → sm_get (db_keys d) k = Some (VList l) → lfit l.
Proof. intros [W H] E. by apply H in E. Qed.
Lemma tidy_zset k z d : tidy d → sm_get (db_keys d) k = Some (VZSet z) → zfine z.
Proof. intros [W H] E. by apply H in E. Qed.

Lemma load_list_fine k b d l : tidy d → load_list k b d = Ok l → lfit l.
Proof.
  intros T. unfold load_list. destruct (sm_get (db_keys d) k) as [[]|] eqn:E; try done. destruct (_ && _); [done|]. intros [= <-]. by eapply tidy_list.
Qed.
Lemma load_zset_fine k b d z : tidy d → load_zset k b d = Ok z → zfine z.
Proof.
  intros T. unfold load_zset. destruct (sm_get (db_keys d) k) as [[]|] eqn:E; try done. destruct (_ && _); [done|]. intros [= <-]. by eapply tidy_zset.
Qed.

(** ** The data structure package *)
Notation okdb o := (fin (λ x, tidy (fst x)) o).
Notation ends o := (fin (λ _, True) o).
Lemma tidy_mset kvs : ∀ d, tidy d → tidy (MSet_ kvs d).
Proof.
  assert (∀ n kvs d, (length kvs ≤ n)%nat → tidy d → tidy (MSet_ kvs d)) as G; [|intros d; by eapply G].
  clear. induction n as [|n IH]; intros [|x [|y l]] d Hl T; simpl in *; try done; [lia|]. apply IH; [lia|]. by apply tidy_put.
Qed.
Lemma tidy_append k v d : tidy d → tidy (Append k v d).1.
Proof. intros T. unfold Append. destruct (sm_get (db_keys d) k) as [[]|]; simpl; try done; by apply tidy_put. Qed.
Lemma tidy_incrby k n d : tidy d → tidy (IncrBy k n d).1.
Proof. intros T. unfold IncrBy. destruct (sm_get (db_keys d) k) as [[]|]; simpl; try done; [|by apply tidy_put]. destruct (parse_int s); [|done]. by apply tidy_put. Qed.
Lemma lfit_lpush vs l : lfit l → lfit (dl_lpush_all vs l).
Proof. intros [H [s Hs]]. split; [by apply LF_lpush_all|]. eexists. by apply lpush_all_chained. Qed.
Lemma lfit_rpush vs l : lfit l → lfit (dl_rpush_all vs l).
Proof. intros [H [s Hs]]. split; [by apply LF_rpush_all|]. eexists. by apply rpush_all_chained. Qed.
Lemma fit_lpop n l : lfit l → fin (λ x, lfit x.1) (dl_lpop_n n l).
Proof. intros [H [s Hs]]. apply fin_and; [by apply fin_lpop_n|]. intros [l' vs] E. by eapply lpop_any. Qed.
Lemma fit_rpop n l : lfit l → fin (λ x, lfit x.1) (dl_rpop_n n l).
Proof. intros [H [s Hs]]. apply fin_and; [by apply fin_rpop_n|]. intros [l' vs] E. by eapply rpop_any. Qed.
Lemma fit_lrem n v l : lfit l → fin (λ x, lfit x.1) (dl_lrem n v l).
Proof. intros [H [s Hs]]. apply fin_and; [by apply fin_lrem|]. intros [l' vs] E. by eapply lrem_any. Qed.
Lemma fit_lset i v l : lfit l → fin (λ x, lfit x.1) (dl_lset i v l).
Proof. intros [H [s Hs]]. apply fin_and; [by apply fin_lset|]. intros [l' b] E. by eapply lset_any. Qed.
Lemma fit_linsert t v f l : lfit l → f = 1 ∨ f = -1 → fin (λ x, lfit x.1) (dl_linsert t v f l).
Proof. intros [H [s Hs]] Hf. apply fin_and; [by apply fin_linsert|]. intros [l' b] E. by eapply linsert_any. Qed.
Lemma tidy_lpush k vs d : tidy d → tidy (LPush k vs d).1.
Proof.
  intros T. unfold LPush. destruct (load_list k false d) as [l|[]] eqn:E; simpl; try done; (apply tidy_put; [done|]); apply lfit_lpush; [by eapply load_list_fine|apply lfit_new].
Qed.
Lemma tidy_rpush k vs d : tidy d → tidy (RPush k vs d).1.
Proof.
  intros T. unfold RPush. destruct (load_list k false d) as [l|[]] eqn:E; simpl; try done; (apply tidy_put; [done|]); apply lfit_rpush; [by eapply load_list_fine|apply lfit_new].
Qed.
Lemma fin_LPop k n d : tidy d → okdb (LPop k n d).
Proof.
  intros T. unfold LPop. destruct (load_list k true d) as [l|e] eqn:E; [|done]. eapply fin_bind; [eapply fit_lpop, load_list_fine; done|]. intros [l' vs] H. by apply tidy_put.
Qed.
Lemma fin_RPop k n d : tidy d → okdb (RPop k n d).
Proof.
  intros T. unfold RPop. destruct (load_list k false d) as [l|e] eqn:E; [|done]. eapply fin_bind; [eapply fit_rpop, load_list_fine; done|]. intros [l' vs] H. by apply tidy_put.
Qed.
Lemma fin_LRange k a b d : ends (LRange k a b d).
Proof. unfold LRange. destruct (load_list k true d) as [l|e]; [|done]. eapply fin_bind; [by apply fin_lrange|done]. Qed.
Lemma fin_LRem k n v d : tidy d → okdb (LRem k n v d).
Proof.
  intros T. unfold LRem. destruct (load_list k true d) as [l|e] eqn:E; [|done]. eapply fin_bind; [eapply fit_lrem, load_list_fine; done|]. intros [l' vs] H. by apply tidy_put.
Qed.
Lemma fin_LIndex k i d : ends (LIndex k i d).
Proof. unfold LIndex. destruct (load_list k true d) as [l|e]; [|done]. eapply fin_bind; [by apply fin_lindex|done]. Qed.
Lemma fin_LSet k i v d : tidy d → okdb (LSet k i v d).
Proof.
  intros T. unfold LSet. destruct (load_list k true d) as [l|e] eqn:E; [|done]. eapply fin_bind; [eapply fit_lset, load_list_fine; done|]. intros [l' []] H; by apply tidy_put.
Qed.
Lemma fin_LInsert k t v f d : tidy d → f = 1 ∨ f = -1 → okdb (LInsert k t v f d).
Proof.
  intros T Hf. unfold LInsert. destruct (load_list k true d) as [l|e] eqn:E; [|done]. eapply fin_bind; [eapply fit_linsert; [eapply load_list_fine; done|done]|]. intros [l' b] H; by apply tidy_put.
Qed.

Lemma fin_load_set k b d : ends (load_set k b d).
Proof. unfold load_set. destruct (sm_get (db_keys d) k) as [[]|]; try done. by destruct (db_sets d !! p). Qed.
Lemma fin_SAdd k vs d : tidy d → okdb (SAdd k vs d).
Proof.
  intros T. unfold SAdd. eapply fin_bind; [apply fin_load_set|]. intros [[p s]|e] _.
  - destruct (ms_add_all vs s 0). by apply tidy_put_set.
  - destruct e; try done. simpl. destruct (ms_add_all vs ms_new 0). apply tidy_put_set, tidy_put; [|done]. by apply (tidy_alloc ms_new).
Qed.
Lemma fin_SRem k vs d : tidy d → okdb (SRem k vs d).
Proof.
  intros T. unfold SRem. eapply fin_bind; [apply fin_load_set|]. intros [[p s]|e] _; [|done]. destruct (ms_rem_all vs s 0). by apply tidy_put_set.
Qed.
Lemma fin_SMove s t v d : tidy d → okdb (SMove s t v d).
Proof.
  intros T. unfold SMove. eapply fin_bind; [apply fin_load_set|]. intros [[p u]|e] _; [|done]. destruct (sm_delete_if_exists (ms_m u) v) as [m []]; [|done]. by apply fin_SAdd, tidy_put_set.
Qed.
Lemma fin_set_fold o c d : ∀ ks j acc, ends (set_fold o c j ks acc d).
Proof.
  induction ks as [|k ks IH]; intros j acc; [done|]. cbn [set_fold]. eapply fin_bind; [apply fin_load_set|]. intros [[p s]|e] _; [|done]. apply IH.
Qed.
Lemma fin_SOpStore o c k ks d : tidy d → okdb (SOpStore o c k ks d).
Proof.
  intros T. unfold SOpStore. eapply fin_bind; [apply fin_set_fold|]. intros [[|p s|s]|e] _; try done.
  - simpl. apply tidy_put; [|done]. by apply (tidy_alloc ms_new).
  - simpl. by apply tidy_put.
  - simpl. apply tidy_put; [|done]. by apply (tidy_alloc s).
Qed.
Lemma fin_SPop c k n d : tidy d → okdb (SPop c k n d).
Proof.
  intros T. unfold SPop. eapply fin_bind; [apply fin_load_set|]. intros [[p s]|e] _; [|done]. destruct (ms_pop _ n s). by apply tidy_put_set.
Qed.

Lemma tidy_hdel k f d : tidy d → tidy (HDel k f d).1.
Proof. intros T. unfold HDel. destruct (load_hash k true d) as [h|]; [|done]. destruct (ht_del f h). by apply tidy_put. Qed.
Lemma tidy_hincrby k f i d : tidy d → tidy (HIncrBy k f i d).1.
Proof. intros T. unfold HIncrBy. destruct (load_hash k false d) as [h|[]]; try done. destruct (ht_incr f i h). by apply tidy_put. Qed.
Lemma tidy_hincrbyfloat k f i d : tidy d → tidy (HIncrByFloat k f i d).1.
Proof. intros T. unfold HIncrByFloat. destruct (load_hash k false d) as [h|[]]; try done. destruct (ht_incr_float f i h). by apply tidy_put. Qed.
Lemma tidy_hset k b kvs d : tidy d → tidy (HSet k b kvs d).1.
Proof. intros T. unfold HSet. destruct (load_hash k false d) as [h|[]]; try done. destruct (ht_set_all kvs b h 0). by apply tidy_put. Qed.

Lemma zf_of_all fl : ∃ o, zf_of o = fl.
Proof. destruct fl as [a b c]. by exists (ZO a b c). Qed.
Lemma fin_add_fine dr sc v fl z : zfine z → fin (λ p, zfine p.1) (zs_add dr sc v fl z).
Proof.
  intros [H [t Tb]]. destruct (zf_of_all fl) as [o <-]. apply fin_and; [by apply fin_zs_add|]. intros [z' x] E.
  destruct (add_table _ _ _ _ _ _ _ _ Tb E) as (t' & Tb' & _). by exists t'.
Qed.
Lemma fin_add_all_fine lv fl ms j z n : zfine z → fin (λ p, zfine p.1) (zs_add_all lv j ms fl z n).
Proof.
  intros [H [t Tb]]. destruct (zf_of_all fl) as [o <-]. apply fin_and; [by apply fin_zs_add_all|]. intros [z' m] E.
  destruct (add_all_table _ _ _ _ _ _ _ _ _ Tb E) as (t' & m' & Tb' & _). by exists t'.
Qed.
Lemma fin_rem_all_fine vs z n : zfine z → fin (λ p, zfine p.1) (zs_rem_all vs z n).
Proof.
  intros [H [[T len] Tb]]. apply fin_and; [by apply fin_zs_rem_all|]. intros [z' m] E.
  destruct (rem_all_table _ _ _ _ _ _ _ Tb E) as (n' & Tb' & _). by eexists.
Qed.
Lemma fin_pop_fine ext mx n z acc : zfine z → fin (λ p, zfine (ZSet (zs_m z) p.1)) (zs_pop_loop ext mx n (zs_sl z) acc).
Proof.
  intros [H [[T len] Tb]]. apply fin_and; [by apply fin_zs_pop|]. intros [s' vs] E.
  destruct (pop_table _ _ _ _ _ _ _ E) as (A1 & A2 & A3). eexists. eapply tabled_pop; [done..|]. by apply A2, Tb.
Qed.
Lemma fin_ZAdd c k ms fl d : tidy d → okdb (ZAdd c k ms fl d).
Proof.
  intros T. unfold ZAdd. destruct (load_zset k false d) as [z|[]] eqn:E; try done.
  - eapply fin_bind; [eapply fin_add_all_fine, load_zset_fine; done|]. intros [z' n] H. by apply tidy_put.
  - eapply fin_bind; [eapply fin_add_all_fine, zfine_new|]. intros [z' n] H. by apply tidy_put.
Qed.
Lemma fin_entry p z : ends (entry_score p z).
Proof. unfold entry_score, zn. by destruct (sl_nodes (zs_sl z) !! p). Qed.
Lemma fin_ZScore k v d : ends (ZScore k v d).
Proof. unfold ZScore. destruct (load_zset k true d) as [z|]; [|done]. destruct (sm_get (zs_m z) v); [|done]. eapply fin_bind; [apply fin_entry|done]. Qed.
Lemma fin_ZRank k v d : tidy d → ends (ZRank k v d).
Proof.
  intros T. unfold ZRank. destruct (load_zset k true d) as [z|] eqn:E; [|done]. destruct (sm_get (zs_m z) v); [|done]. eapply fin_bind; [apply fin_entry|]. intros f _.
  eapply fin_bind; [eapply fin_rank, zfine_loops, load_zset_fine; done|done].
Qed.
Lemma fin_ZRem k vs d : tidy d → okdb (ZRem k vs d).
Proof.
  intros T. unfold ZRem. destruct (load_zset k true d) as [z|] eqn:E; [|done]. eapply fin_bind; [eapply fin_rem_all_fine, load_zset_fine; done|]. intros [z' n] H. by apply tidy_put.
Qed.
Lemma fin_ZCount ext k a b d : tidy d → ends (ZCount ext k a b d).
Proof.
  intros T. unfold ZCount. destruct (load_zset k true d) as [z|] eqn:E; [|done]. destruct (score_bound ext a) as [[mn mno]|]; [|done]. destruct (score_bound ext b) as [[mx mxo]|]; [|done].
  eapply fin_bind; [eapply fin_count, zfine_loops, load_zset_fine; done|done].
Qed.
Lemma fin_ZIncr c k sc v d : tidy d → okdb (ZIncr c k sc v d).
Proof.
  intros T. unfold ZIncr. cbv zeta. assert (∀ z, zfine z → okdb (let* (z', o) := zs_add (ch_lvl c 0%nat) sc v (ZF true false false) z in
    match o with None => Ret (put k (VZSet z') d, Err ErrNil) | Some x => let* f := entry_score x z' in Ret (put k (VZSet z') d, Ok f) end)) as G.
  { intros z Hz. eapply fin_bind; [by apply fin_add_fine|]. intros [z' o] H. destruct o as [x|]; [|by apply tidy_put].
    eapply fin_bind; [apply fin_entry|]. intros f _. by apply tidy_put. }
  destruct (load_zset k false d) as [z|[]] eqn:E; try done; apply G; [by eapply load_zset_fine|apply zfine_new].
Qed.
Lemma fin_ZRange ext k a b bs ws d : tidy d → ends (ZRange ext k a b bs ws d).
Proof.
  intros T. unfold ZRange. destruct (load_zset k true d) as [z|] eqn:E; [|done]. apply load_zset_fine, zfine_loops in E; [|done]. destruct bs.
  - destruct (score_bound ext a) as [[mn mno]|]; [|done]. destruct (score_bound ext b) as [[mx mxo]|]; [|done]. eapply fin_bind; [by apply fin_range_by_score|done].
  - destruct (parse_int a); [|done]. destruct (parse_int b); [|done]. eapply fin_bind; [by apply fin_range|done].
Qed.
Lemma fin_ZRevRange ext k a b ws d : tidy d → ends (ZRevRange ext k a b ws d).
Proof.
  intros T. unfold ZRevRange. destruct (load_zset k true d) as [z|] eqn:E; [|done]. apply load_zset_fine, zfine_loops in E; [|done].
  destruct (parse_int a); [|done]. destruct (parse_int b); [|done]. eapply fin_bind; [by apply fin_rev_range|done].
Qed.
Lemma fin_ZPop ext mx k n d : tidy d → okdb (ZPop ext mx k n d).
Proof.
  intros T. unfold ZPop. destruct (load_zset k true d) as [z|] eqn:E; [|done]. apply load_zset_fine in E; [|done]. eapply fin_bind; [by apply fin_pop_fine|].
  intros [s' vs] H. by apply tidy_put.
Qed.

(** ** The commands *)
Lemma fin_arg a i : ends (arg a i).
Proof. by apply fin_deref. Qed.
Lemma fin_count_arg a : ends (pop_count a).
Proof. unfold pop_count. destruct (_ <? _)%nat; [|done]. eapply fin_bind; [apply fin_arg|done]. Qed.
Lemma fin_opt_count a n : ends (opt_count a n).
Proof. unfold opt_count. destruct (_ <? _)%nat; [|done]. eapply fin_bind; [apply fin_arg|done]. Qed.
Lemma fin_Keys ext c p d : ends (Keys ext c p d).
Proof. unfold Keys. by destruct (glob_compile ext p). Qed.
Lemma fin_SCard k d : ends (SCard k d).
Proof. eapply fin_bind; [apply fin_load_set|done]. Qed.
Lemma fin_SIsMember k v d : ends (SIsMember k v d).
Proof. eapply fin_bind; [apply fin_load_set|done]. Qed.
Lemma fin_SMembers c k d : ends (SMembers c k d).
Proof. eapply fin_bind; [apply fin_load_set|done]. Qed.
Lemma fin_SOp o c ks d : ends (SOp o c ks d).
Proof. eapply fin_bind; [apply fin_set_fold|done]. Qed.

Create HintDb fins.
#[local] Hint Extern 1 (vfine _) => exact I : fins.
#[local] Hint Resolve fin_arg fin_count_arg fin_opt_count fin_Keys fin_SCard fin_SIsMember fin_SMembers fin_SOp fin_LPop fin_RPop fin_LRange fin_LRem fin_LIndex fin_LSet fin_LInsert
  fin_SAdd fin_SRem fin_SMove fin_SOpStore fin_SPop fin_ZAdd fin_ZScore fin_ZRank fin_ZRem fin_ZCount fin_ZIncr fin_ZRange fin_ZRevRange fin_ZPop
  tidy_mset tidy_append tidy_incrby tidy_lpush tidy_rpush tidy_del tidy_put tidy_hdel tidy_hincrby tidy_hincrbyfloat tidy_hset : fins.
Ltac one := match goal with
  | T : tidy ?d |- fin _ (reply _ ?d) => exact T
  | T : tidy ?d |- fin _ (fail _ ?d) => exact T
  | T : tidy (?d, _).1 |- _ => cbn [fst] in T
  | |- fin _ (reply _ _) => solve [simpl; eauto with fins]
  | |- fin _ (if _ then _ else _) => case_match
  | |- fin _ (obind _ _) => eapply fin_bind; [solve [eauto with fins]|cbn beta; intros ? ?]
  | |- fin _ (match ?x with (_, _) => _ end) => 
      first [is_var x; destruct x as [? ?] | let H := fresh in assert (tidy x.1) as H by eauto with fins; destruct x as [? ?]; cbn [fst] in H]
  | |- fin _ (match ?x with _ => _ end) => case_match
  end.
Ltac cmd := intros; repeat one; try done.
Lemma fin_c_linsert a d : tidy d → okdb (c_linsert a d).
Proof.
  intros T. unfold c_linsert. repeat match goal with |- fin _ (if fewer _ _ then _ else _) => case_match; [done|] end.
  do 4 (eapply fin_bind; [apply fin_arg|cbn beta; intros ? _]).
  assert (∀ k t v f, f = 1 ∨ f = -1 → okdb (let* r := LInsert k t v f d in match r with (d', Err e) => fail e d' | (d', Ok z) => reply (rsp_int z) d' end)) as G.
  { intros k t v f Hf. eapply fin_bind; [by apply fin_LInsert|]. cbn beta. intros [d' []] HH; exact HH. }
  cbv zeta. destruct (String.eqb _ "after"); [apply G; by left|]. destruct (String.eqb _ "before"); [apply G; by right|done].
Qed.
Lemma fin_exec_lowered ext c name a d : tidy d → okdb (exec_lowered ext c name a d).
Proof.
  intros T. unfold exec_lowered. destruct (lookup_command name (implemented_commands ext c)) as [f|] eqn:E; [|done].
  apply (fin_bind (λ x, tidy x.1)); [|intros [d1 r] H; exact H]. revert E. unfold implemented_commands. cbn [lookup_command].
  repeat (match goal with |- (if ?b then _ else _) = _ → _ => destruct b end;
    [intros [= <-]; unfold c_hdel, c_hexists, c_hget, c_hgetall, c_hincrby, c_hincrbyfloat, c_hkeys, c_hlen, c_hmget, c_hmset, c_hset, c_hsetnx, c_hvals, c_keys, c_exists, c_del, c_type, c_ping, c_command,
      c_lpush, c_lpop, c_rpush, c_rpop, c_llen, c_lrange, c_lrem, c_lindex, c_lset, c_sadd, c_scard, c_setop, c_setop_store, c_sismember, c_smembers, c_smove, c_srem, c_spop,
      c_zadd, c_zscore, c_zrank, c_zrem, c_zcard, c_zcount, c_zincr, c_zrange, c_zrangebyscore, c_zrevrange, c_zpop, c_set, c_mset, c_get, c_mget, c_incr, c_incrby, c_decr, c_decrby, c_append,
      pop_reply, range_reply, incr_reply, Set_; clear - T; solve [by apply fin_c_linsert|cmd]|]).
  done.
Qed.
Lemma fin_exec ext c req d : tidy d → okdb (exec ext c req d).
Proof. intros T. destruct req as [|name a]; [done|]. cbn [exec]. eapply fin_bind; [by apply fin_exec_lowered|]. intros [d' r] H. exact H. Qed.
Lemma fin_ask ext c req d : tidy d → okdb (ask ext c req d).
Proof. intros T. eapply fin_bind; [by apply fin_exec|]. intros [d' r] H. exact H. Qed.
Lemma fin_talk ext h : ∀ d, tidy d → okdb (talk ext h d).
Proof.
  induction h as [|[c req] h IH]; intros d T; [done|]. cbn [talk]. eapply fin_bind; [by apply fin_ask|]. intros [d1 r] T1.
  eapply fin_bind; [by apply IH|]. intros [d2 rs] T2. exact T2.
Qed.
Lemma reachable_tidy ext d : reachable ext d → tidy d.
Proof. intros (h & rs & E). by apply (fin_ret _ _ (fin_talk ext h db_new tidy_new)) in E. Qed.
