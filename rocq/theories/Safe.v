(** No harmless request crashes the server. *)
From Verif Require Import GoBase GoBaseProofs ShardMap ShardMapProofs Float64 Float64Proofs DList DListProofs SkipList SkipListProofs SkipListOps SkipListMore
  SpecList SpecZSet Db Protocol Redis Obs SpecCmd SpecResp SpecServer SetRep DbInv ExecSteps Sim SimList SimMain PropBase P_Requests SpecSafe SafeSpec.

(** what every key holds *)
Definition kgood (hb : habit) (n : Z) (v : option value) : Prop :=
  match v with
  | Some (VList l) => ∃ xs w, list_rep l xs w ∧ allowed hb w
  | Some (VZSet z) => ∃ es gh, zrep z es gh ∧ zlen es ≤ n
  | Some (VHash _) => False
  | _ => True
  end.
Definition J (hb : habit) (n : Z) (d : db) : Prop := dbinv d ∧ ∀ k, kgood hb n (sm_get (db_keys d) k).
Lemma kgood_mono hb n n' v : n ≤ n' → kgood hb n v → kgood hb n' v.
Proof. intros H. destruct v as [[]|]; simpl; try done. intros (es & gh & R & L). exists es, gh. split; [done|lia]. Qed.
Lemma J_mono hb n n' d : n ≤ n' → J hb n d → J hb n' d.
Proof. intros H [I K]. split; [done|]. intros k. by eapply kgood_mono. Qed.
Lemma J_new hb : J hb 0 db_new.
Proof.
  split; [apply dbinv_new|]. intros k. simpl. rewrite sm_get_map by apply sm_wf_new. by rewrite sm_new_map, lookup_empty.
Qed.

Lemma sim_know d m k a : sim d m → (∀ p, sm_get (db_keys d) k ≠ Some (VSet p)) → rep_key (held d k) (Some a) → sim d (<[k := a]> m).
Proof.
  intros [I U R] Hk Hr. split; [done| |].
  - intros k1 k2 p H1 H2. destruct (U k1 k2 p H1 H2) as [H|H]; [by left|right]. rewrite lookup_insert_ne; [done|]. intros <-. by apply (Hk p).
  - intros k'. destruct (decide (k' = k)) as [->|H]; [by rewrite lookup_insert|by rewrite lookup_insert_ne].
Qed.
Lemma zrep_numbers z es gh : zrep z es gh → numbers es.
Proof.
  intros [ents R]. rewrite <- (zr_keys _ _ _ _ R). unfold numbers. rewrite Forall_fmap.
  eapply Forall_impl; [apply (zi_num _ _ (zr_inv _ _ _ _ R))|]. done.
Qed.
Lemma local_sim hb n d k : J hb n d → (∀ p, sm_get (db_keys d) k ≠ Some (VSet p)) → ∃ m, sim d m ∧ tame hb n (m !! k).
Proof.
  intros [I K] Hs. specialize (K k). pose proof (coarse_sim d I) as S. pose proof (coarse_at d k I) as Hc.
  destruct (sm_get (db_keys d) k) as [[s|l|p|z|h]|] eqn:E; simpl in K, Hc.
  - exists (coarse d). by rewrite Hc.
  - destruct K as (xs & w & R & A). exists (<[k := AList xs w]> (coarse d)). rewrite lookup_insert. split; [|done].
    apply sim_know; [done|by rewrite E|]. unfold held. by rewrite E.
  - by destruct (Hs p).
  - destruct K as (es & gh & R & L). exists (<[k := AZSet es gh]> (coarse d)). rewrite lookup_insert. split; [|split; [done|by eapply zrep_numbers]].
    apply sim_know; [done|by rewrite E|]. unfold held. by rewrite E.
  - done.
  - exists (coarse d). by rewrite Hc.
Qed.
Lemma sim_good hb n d m k : sim d m → tame hb n (m !! k) → kgood hb n (sm_get (db_keys d) k).
Proof.
  intros S T. pose proof (sim_at d m k S) as A. destruct (m !! k) as [[]|]; simpl in T; try done.
  - by rewrite A.
  - destruct A as (l & -> & R). by exists xs, w.
  - destruct A as (z & -> & R). exists es, ghosts. by destruct T.
  - by rewrite A.
Qed.

(** ** commands about one key that holds something else than a set *)
Lemma simple_writes name a : to_lower name ∈ simple → one_source_store (name :: a) = false ∧ writes (name :: a) ⊆ take 1 a.
Proof.
  intros H. unfold simple in H. rewrite !elem_of_cons, elem_of_nil in H. unfold one_source_store, writes.
  repeat (destruct H as [-> | H]; [split; [by destruct a as [|? [|? []]]|vm_compute; set_solver]|]). done.
Qed.
Lemma simple_found ext low : low ∈ simple → is_Some (find_spec low (spec_table ext)).
Proof. intros H. unfold simple in H. rewrite !elem_of_cons, elem_of_nil in H. repeat (destruct H as [-> | H]; [by eexists|]). done. Qed.
Lemma simple_step ext c hb n name k a d : to_lower name ∈ simple → harmless ext hb (name :: k :: a) → calm_req c (name :: k :: a) →
  J hb n d → 0 ≤ n < two63 - 2 → (∀ p, sm_get (db_keys d) k ≠ Some (VSet p)) →
  ∃ d' r, ask ext c (name :: k :: a) d = Ret (d', r) ∧ J hb (n + zlen a) d'.
Proof.
  intros Hin Hh Hc HJ Hn Hs. destruct (local_sim hb n d k HJ Hs) as (m & S & T). destruct (simple_found ext _ Hin) as [g Hg].
  assert (Hl : to_lower (to_lower name) = to_lower name).
  { unfold simple in Hin. rewrite !elem_of_cons, elem_of_nil in Hin. repeat (destruct Hin as [-> | Hin]; [done|]). done. }
  destruct (simple_fine ext hb n (to_lower name) a k m g Hin Hg) as [V1 V2]; [|done|done|done|].
  { unfold harmless in *. by rewrite Hl. }
  destruct (ask_meets ext c (name :: k :: a) d m S Hc) as [A1 A2]. rewrite (KeyHist.spec_cmd ext name _ g _ _ eq_refl Hg) in A1, A2.
  destruct (A1 V1) as (d' & r & E). exists d', r. split; [done|]. destruct (A2 _ _ E) as (m' & Hv & S').
  split; [by eapply ask_inv; [apply HJ|]|]. intros k'. destruct (decide (k' = k)) as [->|Hk]; [by eapply sim_good; [|by eapply V2]|].
  destruct (simple_writes name (k :: a) Hin) as [Ho Hw].
  rewrite (dsteps_get _ _ _ _ _ k' (ask_steps ext c _ _ _ _ (proj1 HJ) E)); [|apply HJ|].
  - eapply kgood_mono; [|apply HJ]. unfold zlen. lia.
  - intros H. apply Hw in H. simpl in H. apply elem_of_list_singleton in H. done.
Qed.

(** ** the same commands on a set *)
Section on_set.
Context (ext : Ext) (c : choices) (d : db) (k : string) (p : loc) (Hk : sm_get (db_keys d) k = Some (VSet p)).
Lemma os_list b : load_list k b d = Err ErrTypeMismatch. Proof. unfold load_list. by rewrite Hk. Qed.
Lemma os_zset b : load_zset k b d = Err ErrTypeMismatch. Proof. unfold load_zset. by rewrite Hk. Qed.
Lemma os_hash b : load_hash k b d = Err ErrTypeMismatch. Proof. unfold load_hash. by rewrite Hk. Qed.
Lemma os_get : Get k d = Err ErrTypeMismatch. Proof. unfold Get. by rewrite Hk. Qed.
Lemma os_incr n : IncrBy k n d = (d, Err ErrTypeMismatch). Proof. unfold IncrBy. by rewrite Hk. Qed.
Lemma os_append v : Append k v d = (d, Err ErrTypeMismatch). Proof. unfold Append. by rewrite Hk. Qed.
Lemma on_set_same low f a : low ∈ simple → low ≠ "set"%string → low ≠ "del"%string →
  lookup_command low (implemented_commands ext c) = Some f → ∃ q, f (k :: a) d = Ret (d, q).
Proof.
  intros Hin Hs Hd Hf. unfold simple in Hin. rewrite !elem_of_cons, elem_of_nil in Hin.
  repeat (destruct Hin as [-> | Hin]; [try done; injection Hf as <-|]); [..|done].
  all: destruct a as [|a1 [|a2 [|a3 a]]]; commands; unfold LPush, RPush, LPop, RPop, LLen, LRange, LRem, LSet, LInsert, ZAdd, ZScore, ZRank, ZCard, ZCount, ZIncr, ZRange, ZRevRange, ZPop,
    HDel, HExists, HGet, HGetAll, HIncrBy, HIncrByFloat, HKeys, HLen, HMGet, HSet, HVals; rewrite ?os_list, ?os_zset, ?os_hash, ?os_get, ?os_incr, ?os_append; cbn [obind].
  all: try (by eexists).
  all: repeat (case_match; try (by eexists)).
  all: match goal with H : IncrBy k _ d = _ |- _ => rewrite os_incr in H; by simplify_eq; eexists end.
Qed.
End on_set.

Lemma J_put hb n d k v : J hb n d → plain v → kgood hb n (Some v) → J hb n (put k v d).
Proof.
  intros [I K] P G. split; [eapply (dstep_inv true false [k]); [apply (st_put _ _ d k v); [by left|done]|done]|].
  intros k'. simpl. rewrite sm_get_set by apply I. by case_bool_decide.
Qed.
Lemma J_set hb n d k s : J hb n d → J hb n (Set_ k s d).
Proof. intros H. by apply J_put. Qed.
Lemma J_mset hb n kvs : ∀ d, J hb n d → J hb n (MSet_ kvs d).
Proof.
  remember (length kvs) as len eqn:Hl. revert kvs Hl. induction (lt_wf len) as [len _ IH]. intros kvs -> d HJ.
  destruct kvs as [|k [|v r]]; [done..|]. cbn [MSet_]. apply (IH (length r)); [simpl; lia|done|by apply J_set].
Qed.
Lemma J_sets hb n d d' : J hb n d → dbinv d' →
  (∀ k, sm_get (db_keys d') k = sm_get (db_keys d) k ∨ ∃ p, sm_get (db_keys d') k = Some (VSet p)) → J hb n d'.
Proof. intros [_ K] I H. split; [done|]. intros k. destruct (H k) as [-> |[p ->]]; [apply K|done]. Qed.

(** ** set commands *)
Definition only_sets (d d' : db) : Prop :=
  ∀ k, sm_get (db_keys d') k = sm_get (db_keys d) k ∨ ∃ p, sm_get (db_keys d') k = Some (VSet p).
Lemma only_refl d : only_sets d d.
Proof. by left. Qed.
Lemma only_put_set d p s : only_sets d (put_set p s d).
Proof. by left. Qed.
Lemma only_put d d' k p : dbinv d → db_keys d' = db_keys d → only_sets d (put k (VSet p) d').
Proof. intros I E k'. simpl. rewrite E, sm_get_set by apply I. case_bool_decide; [right; by eexists|by left]. Qed.
Lemma load_set_safe k b d : dbinv d → ∃ r, load_set k b d = Ret r ∧ (r ≠ Err ErrNil → ∀ p, r = Err p → p = ErrTypeMismatch).
Proof.
  intros I. unfold load_set. destruct (sm_get (db_keys d) k) as [v|] eqn:E; [|by eexists].
  destruct v; try (eexists; split; [done|]; by intros _ q [= <-]).
  destruct (inv_ptr d I k p E) as [s ->]. cbn [deref obind]. eexists. split; [done|].
  destruct (b && _); [done|]. intros _ q. done.
Qed.
Lemma SAdd_safe k vs d : dbinv d → ∃ d' q, SAdd k vs d = Ret (d', q) ∧ only_sets d d'.
Proof.
  intros I. unfold SAdd. destruct (load_set_safe k false d I) as (r & -> & _). cbn [obind].
  destruct r as [[p s]|e].
  - destruct (ms_add_all vs s 0). eexists _, _. split; [done|apply only_put_set].
  - destruct e; try (eexists _, _; split; [done|apply only_refl]). unfold alloc_set.
    destruct (ms_add_all vs ms_new 0). eexists _, _. split; [done|]. intros k'. by apply (only_put d _ k (db_fresh d)).
Qed.
Section sets.
Context (c : choices) (d : db) (I : dbinv d).
Definition harmless_set (x : cmd_result) : Prop := ∃ d' q, x = Ret (d', q) ∧ only_sets d d'.
Lemma hs_here q : harmless_set (Ret (d, q)).
Proof. exists d, q. split; [done|apply only_refl]. Qed.
Lemma sadd_safe a : harmless_set (c_sadd a d).
Proof.
  unfold c_sadd. destruct a as [|k [|v vs]]; [apply hs_here..|]. cbn [fewer length Nat.ltb Nat.leb arg lookup list_lookup deref obind].
  destruct (SAdd_safe k (drop 1 (k :: v :: vs)) d I) as (d' & q & -> & O). cbn [obind]. destruct q; eexists _, _; done.
Qed.
Lemma set_fold_safe o ks : ∀ j acc, ∃ r, set_fold o c j ks acc d = Ret r.
Proof.
  induction ks as [|k ks IH]; intros j acc; cbn [set_fold]; [by eexists|].
  destruct (load_set_safe k true d I) as (r & -> & _). cbn [obind]. destruct r as [[p s]|e]; [apply IH|by eexists].
Qed.
Lemma set_command_safe ext low f a : low ∈ ["sadd"; "scard"; "sdiff"; "sdiffstore"; "sinter"; "sinterstore"; "sunion"; "sunionstore";
    "sismember"; "smembers"; "smove"; "srem"; "spop"]%string →
  lookup_command low (implemented_commands ext c) = Some f → harmless_set (f a d).
Proof.
  intros Hin Hf. rewrite !elem_of_cons, elem_of_nil in Hin.
  assert (Op : ∀ o, harmless_set (c_setop c o a d)).
  { intros o. unfold c_setop. destruct (fewer a 1); [apply hs_here|]. destruct (Nat.eqb _ _); [apply hs_here|]. unfold SOp.
    destruct (set_fold_safe o a 0 ANil) as [r ->]. cbn [obind]. repeat case_match; apply hs_here. }
  assert (St : ∀ o, harmless_set (c_setop_store c o a d)).
  { intros o. unfold c_setop_store. destruct a as [|k [|v vs]]; [apply hs_here..|].
    cbn [fewer length Nat.ltb Nat.leb Nat.eqb arg lookup list_lookup deref obind]. unfold SOpStore.
    destruct (set_fold_safe o (drop 1 (k :: v :: vs)) 0 ANil) as [r ->]. cbn [obind].
    destruct r as [[|p s|s]|e]; [..|apply hs_here]; (eexists _, _; split; [done|]; by apply only_put). }
  repeat (destruct Hin as [-> | Hin]; [injection Hf as <-; try done|]); [..|done].
  - apply sadd_safe.
  - unfold c_scard. destruct a as [|k a]; [apply hs_here|]. cbn [fewer length Nat.ltb Nat.leb arg lookup list_lookup deref obind]. unfold SCard.
    destruct (load_set_safe k true d I) as (r & -> & _). cbn [obind]. repeat case_match; apply hs_here.
  - unfold c_sismember. destruct a as [|k [|v a]]; [apply hs_here..|]. cbn [fewer length Nat.ltb Nat.leb arg lookup list_lookup deref obind]. unfold SIsMember.
    destruct (load_set_safe k true d I) as (r & -> & _). cbn [obind]. repeat case_match; apply hs_here.
  - unfold c_smembers. destruct a as [|k a]; [apply hs_here|]. cbn [fewer length Nat.ltb Nat.leb arg lookup list_lookup deref obind]. unfold SMembers.
    destruct (load_set_safe k true d I) as (r & -> & _). cbn [obind]. repeat case_match; apply hs_here.
  - unfold c_smove. destruct a as [|k [|t [|v a]]]; [apply hs_here..|]. cbn [fewer length Nat.ltb Nat.leb arg lookup list_lookup deref obind]. unfold SMove.
    destruct (load_set k true d) as [r| |] eqn:El; [|by destruct (load_set_safe k true d I) as (r & E & _); rewrite E in El..].
    cbn [obind]. destruct r as [[p s]|e]; [|apply hs_here].
    pose proof (load_set_ok _ _ _ _ _ El) as [Hg Hs]. pose proof (load_set_wf _ _ _ _ _ I El) as Hw.
    rewrite sm_delete_if_exists_map by (by apply set_ok_wf). destruct (sm_map (ms_m s) !! v) eqn:Ev'; [|apply hs_here].
    assert (S1 : gstep true false [k] d (put_set p (MSet (sm_delete (ms_m s) v) (ms_len s)) d)).
    { apply (st_set _ _ _ k _ s); [by left|done|done| |done]. destruct Hw as (X & dr & R). eapply set_rep_ok, ms_take_rep; [done|]. apply (set_rep_in _ _ _ v R). eauto. }
    destruct (SAdd_safe t [v] _ (dstep_inv _ _ _ _ _ S1 I)) as (d' & q & -> & O). cbn [obind]. destruct q; eexists _, _; done.
  - unfold c_srem. destruct a as [|k [|v a]]; [apply hs_here..|]. cbn [fewer length Nat.ltb Nat.leb arg lookup list_lookup deref obind]. unfold SRem.
    destruct (load_set_safe k true d I) as (r & -> & _). cbn [obind]. destruct r as [[p s]|e].
    + destruct (ms_rem_all _ _ _). cbn [obind]. eexists _, _. split; [done|apply only_put_set].
    + cbn [obind]. destruct e; apply hs_here.
  - unfold c_spop. destruct a as [|k a]; [apply hs_here|]. cbn [fewer length Nat.ltb Nat.leb]. unfold opt_count.
    assert (P : ∀ n, harmless_set (let* k0 := arg (k :: a) 0 in let* r := SPop c k0 n d in
      match r with (d', Err ErrNil) => reply rsp_empty_array d' | (d', Err e) => fail e d' | (d', Ok vs) => reply (rsp_strings vs) d' end)).
    { intros n. cbn [arg lookup list_lookup deref obind]. unfold SPop. destruct (load_set_safe k true d I) as (r & -> & _). cbn [obind].
      destruct r as [[p s]|e]; [|destruct e; apply hs_here]. destruct (ms_pop _ _ _). cbn [obind]. eexists _, _. split; [done|apply only_put_set]. }
    destruct a as [|x a]; cbn [length Nat.ltb Nat.leb arg lookup list_lookup deref obind]; [apply P|].
    destruct (parse_int x); [apply P|apply hs_here].
Qed.
End sets.

(** ** every harmless request *)
Lemma lookup_found ext c low f : lookup_command low (implemented_commands ext c) = Some f →
  low ∈ simple ∨ low ∈ ["sadd"; "scard"; "sdiff"; "sdiffstore"; "sinter"; "sinterstore"; "sunion"; "sunionstore";
    "sismember"; "smembers"; "smove"; "srem"; "spop"]%string ∨ low ∈ ["keys"; "ping"; "command"; "mget"; "mset"; "lindex"; "zrem"; "zpopmax"]%string.
Proof.
  intros H. apply lookup_command_in, (elem_of_list_fmap_1 fst) in H. simpl in H.
  assert (∀ l1 l2 : list string, forallb (λ x, existsb (String.eqb x) l2) l1 = true → low ∈ l1 → low ∈ l2) as Sub.
  { intros l1 l2 Hf Hl. rewrite forallb_forall in Hf. apply elem_of_list_In in Hl. apply Hf, existsb_exists in Hl as (y & Hy & ->%String.eqb_eq).
    by apply elem_of_list_In. }
  rewrite <- !elem_of_app. revert H. apply Sub. by vm_compute.
Qed.
Lemma ask_ret ext c name a d f d' q : lookup_command (to_lower name) (implemented_commands ext c) = Some f → f a d = Ret (d', q) →
  ask ext c (name :: a) d = Ret (d', view (reply_of q)).
Proof. intros Hf E. rewrite (ask_cmd ext c name a d f Hf), E. done. Qed.
Lemma ask_returns_coarse ext c req d : dbinv d → calm_req c req → v_safe (spec ext req (coarse d)) → ∃ d' r, ask ext c req d = Ret (d', r).
Proof. intros I Hc. apply (ask_meets ext c req d (coarse d) (coarse_sim d I) Hc). Qed.
Lemma ask_nothing ext c req d d' r : dbinv d → writes req = [] → one_source_store req = false → ask ext c req d = Ret (d', r) → d' = d.
Proof. intros I Hw Ho E. pose proof (ask_steps ext c req d d' r I E) as H. rewrite Hw in H. by apply dsteps_nil in H. Qed.

Lemma Del_holds k d v : dbinv d → sm_get (db_keys d) k = Some v → Del k d = (Db (sm_delete (db_keys d) k) (db_sets d) (db_fresh d), 1).
Proof.
  intros I E. unfold Del. rewrite sm_delete_if_exists_map by apply I. rewrite sm_get_map in E by apply I. by rewrite E.
Qed.
Lemma J_del hb n d k : J hb n d → J hb n (Db (sm_delete (db_keys d) k) (db_sets d) (db_fresh d)).
Proof.
  intros [I K]. split; [eapply (dstep_inv true false [k]); [apply st_del; by left|done]|].
  intros k'. simpl. rewrite sm_get_delete by apply I. by case_bool_decide.
Qed.
Lemma LIndex_returns hb n d k i : J hb n d → ∃ r, LIndex k i d = Ret r.
Proof.
  intros [I K]. specialize (K k). unfold LIndex, load_list. destruct (sm_get (db_keys d) k) as [[]|]; try by eexists.
  destruct K as (xs & w & R & A). destruct (dl_len l =? 0) eqn:El; cbn [andb]; [by eexists|].
  rewrite (lindex_ok i l xs); [by eexists|]. eapply list_rep_sound; [done|]. intros ->. apply Z.eqb_neq in El. apply El. by rewrite (list_rep_len _ _ _ R).
Qed.

Theorem harmless_step ext c hb n req d : harmless ext hb req → calm_req c req → J hb n d → 0 ≤ n < two63 - 2 →
  ∃ d' r, ask ext c req d = Ret (d', r) ∧ J hb (n + zlen req) d'.
Proof.
  intros Hh Hc HJ Hn. destruct req as [|name a].
  { exists d, None. split; [done|]. eapply J_mono; [|done]. unfold zlen. simpl. lia. }
  assert (Mono : ∀ d', J hb n d' → J hb (n + zlen (name :: a)) d') by (intros d'; apply J_mono; unfold zlen; lia).
  pose proof (proj1 HJ) as I.
  destruct (lookup_command (to_lower name) (implemented_commands ext c)) as [f|] eqn:Hf.
  2:{ exists d, (Some (RError (err_msg ErrUnknownCommand))). split; [|by apply Mono]. unfold ask, exec, exec_lowered. by rewrite Hf. }
  destruct (lookup_found ext c _ f Hf) as [Hin|[Hin|Hin]].
  - destruct a as [|k a].
    + destruct (simple_writes name [] Hin) as [Ho Hw].
      assert (v_safe (spec ext [name] (coarse d))) as Vs.
      { unfold simple in Hin. rewrite !elem_of_cons, elem_of_nil in Hin. unfold spec. clear -Hin.
        repeat (destruct Hin as [-> | Hin]; [exact Logic.I|]). done. }
      destruct (ask_returns_coarse ext c [name] d I Hc Vs) as (d' & r & E). exists d', r. split; [done|].
      assert (d' = d) as ->; [|by apply Mono]. apply (ask_nothing ext c [name] d d' r I); [|done|done].
      destruct (writes [name]) as [|x l]; [done|]. exfalso. assert (x ∈ take 1 ([] : list string)) as Hx by (apply Hw; by left). by apply elem_of_nil in Hx.
    + assert ((∃ p, sm_get (db_keys d) k = Some (VSet p)) ∨ ∀ p, sm_get (db_keys d) k ≠ Some (VSet p)) as [[p Hp]|Hs].
      { destruct (sm_get (db_keys d) k) as [[]|]; eauto. }
      * destruct (decide (to_lower name = "set"%string)) as [Es|Hs1]; [|destruct (decide (to_lower name = "del"%string)) as [Ed|Hd1]].
        -- rewrite Es in Hf. injection Hf as <-. destruct a as [|v a].
           ++ eexists _, _. split; [by apply (ask_ret ext c name _ d c_set); [rewrite Es|]|]. by apply Mono.
           ++ eexists _, _. split; [by apply (ask_ret ext c name _ d c_set); [rewrite Es|]|]. by apply Mono, J_set.
        -- rewrite Ed in Hf. injection Hf as <-. eexists _, _. split; [apply (ask_ret ext c name _ d c_del); [by rewrite Ed|]|].
           ++ unfold c_del. cbn [fewer length Nat.ltb Nat.leb arg lookup list_lookup deref obind]. rewrite (Del_holds k d _ I Hp). reflexivity.
           ++ apply Mono. by apply J_del.
        -- destruct (on_set_same ext c d k p Hp (to_lower name) f a Hin Hs1 Hd1 Hf) as [q E]. eexists _, _. split; [by eapply ask_ret|by apply Mono].
      * destruct (simple_step ext c hb n name k a d Hin Hh Hc HJ Hn Hs) as (d' & r & E & J'). exists d', r. split; [done|].
        eapply J_mono; [|done]. unfold zlen. simpl. lia.
  - destruct (set_command_safe c d I ext (to_lower name) f a Hin Hf) as (d' & q & E & O).
    pose proof (ask_ret ext c name a d f d' q Hf E) as E'. eexists _, _. split; [done|]. apply Mono.
    apply (J_sets hb n d); [done|by eapply ask_inv|done].
  - destruct Hh as (H1 & H2 & H3 & _).
    assert (RO : to_lower name ∈ ["keys"; "ping"; "command"; "mget"]%string → ∃ d' r, ask ext c (name :: a) d = Ret (d', r) ∧ J hb (n + zlen (name :: a)) d').
    { intros Hr. assert (v_safe (spec ext (name :: a) (coarse d))) as Vs.
      { unfold spec. rewrite !elem_of_cons, elem_of_nil in Hr. destruct Hr as [Hr|[Hr|[Hr|Hr]]].
        - rewrite Hr. change (v_safe (s_keys ext a (coarse d))). destruct a as [|p a]; [done|]. unfold s_keys. destruct (H1 Hr p eq_refl) as [g ->]. done.
        - by rewrite Hr.
        - by rewrite Hr.
        - destruct Hr as [Hr|[]]; rewrite Hr. by destruct a. }
      destruct (ask_returns_coarse ext c _ d I Hc Vs) as (d' & r & E). exists d', r. split; [done|].
      assert (d' = d) as ->; [|by apply Mono]. apply (ask_nothing ext c (name :: a) d d' r I); [| |done].
      - unfold writes. rewrite !elem_of_cons, elem_of_nil in Hr. destruct Hr as [Hr|[Hr|[Hr|[Hr|[]]]]]; by rewrite Hr.
      - unfold one_source_store. rewrite !elem_of_cons, elem_of_nil in Hr.
        destruct Hr as [Hr|[Hr|[Hr|[Hr|[]]]]]; rewrite Hr; by destruct a as [|? [|? []]]. }
    rewrite !elem_of_cons, elem_of_nil in Hin. 
    destruct Hin as [Hr|[Hr|[Hr|[Hr|[Hr|[Hr|[Hr|[Hr|[]]]]]]]]].
    1-4: apply RO; rewrite Hr, !elem_of_cons; tauto.
    3: by destruct (H2 Hr). 3: by destruct (H3 Hr).
    all: rewrite Hr in Hf; injection Hf as <-.
    + eexists _, _. split; [apply (ask_ret ext c name _ d c_mset); [by rewrite Hr|]|].
      * unfold c_mset. instantiate (2 := if fewer a 2 && negb (Nat.even (length a)) then d else MSet_ a d).
        instantiate (1 := if fewer a 2 && negb (Nat.even (length a)) then Err ErrArgsNotEnough else Ok (rsp_simple "OK")). by destruct (_ && _).
      * destruct (_ && _); [by apply Mono|by apply Mono, J_mset].
    + assert (∃ q, c_lindex a d = Ret (d, q)) as [q E].
      { unfold c_lindex. destruct a as [|k [|s1 a]]; [by eexists..|]. cbn [fewer length Nat.ltb Nat.leb arg lookup list_lookup deref obind].
        destruct (parse_int s1) as [i|] eqn:Ei; [|by eexists]. destruct (LIndex_returns hb n d s1 i HJ) as [r ->]. cbn [obind]. destruct r as [v|[]]; by eexists. }
      eexists _, _. split; [eapply (ask_ret ext c name a d c_lindex); [by rewrite Hr|done]|]. by apply Mono.
Qed.
