(** What keeps a key from crashing the server, whatever happens to other keys. *)
From Verif Require Import GoBase GoBaseProofs ShardMap ShardMapProofs Float64 Float64Proofs DList DListProofs SkipList SkipListProofs SkipListOps SkipListMore
  SpecList SpecZSet Db Protocol Redis Obs SpecCmd SpecResp SpecServer SetRep DbInv ExecSteps Sim SimList SimMain PropBase P_Requests SpecSafe SafeSpec Safe
  SpecLife P_Life SpecBlame.

(** a value that no request has hurt *)
Notation good n d k := (kgood NoLrem n (sm_get (db_keys d) k)).
Lemma kgood_any hb n v : kgood NoLrem n v → kgood hb n v.
Proof. destruct v as [[]|]; cbn [kgood]; try done. intros (xs & w & R & A). exists xs, w. split; [done|]. by destruct w. Qed.
Lemma local_one hb n d k : dbinv d → kgood hb n (sm_get (db_keys d) k) → (∀ p, sm_get (db_keys d) k ≠ Some (VSet p)) → ∃ m, sim d m ∧ tame hb n (m !! k).
Proof.
  intros I K Hs. pose proof (coarse_sim d I) as S. pose proof (coarse_at d k I) as Hc.
  destruct (sm_get (db_keys d) k) as [[s|l|p|z|h]|] eqn:E; simpl in K, Hc.
  - exists (coarse d). by rewrite Hc.
  - destruct K as (xs & w & R & A). exists (<[k := AList xs w]> (coarse d)). rewrite lookup_insert. split; [|done].
    apply sim_know; [done|by rewrite E|]. unfold held. by rewrite E.
  - by destruct (Hs p).
  - destruct K as (es & gh & R & L). exists (<[k := AZSet es gh]> (coarse d)). rewrite lookup_insert. split; [|split; [done|by eapply zrep_numbers]].
    apply sim_know; [done|by rewrite E|]. unfold held. by rewrite E.
  - done.
  - exists (coarse d). by rewrite Hc.
Qed.
Lemma simple_low low : low ∈ simple → to_lower low = low.
Proof. intros H. unfold simple in H. rewrite !elem_of_cons, elem_of_nil in H. repeat (destruct H as [-> | H]; [done|]). done. Qed.
(** a harmless request about a good key *)
Lemma simple_one ext c hb n name k a d : to_lower name ∈ simple → harmless ext hb (name :: k :: a) → calm_req c (name :: k :: a) →
  dbinv d → kgood hb n (sm_get (db_keys d) k) → 0 ≤ n < two63 - 2 →
  ∃ d' r, ask ext c (name :: k :: a) d = Ret (d', r) ∧ kgood hb (n + zlen a) (sm_get (db_keys d') k).
Proof.
  intros Hin Hh Hc I G Hn.
  assert ((∃ p, sm_get (db_keys d) k = Some (VSet p)) ∨ ∀ p, sm_get (db_keys d) k ≠ Some (VSet p)) as [[p Hp]|Hs].
  { destruct (sm_get (db_keys d) k) as [[]|]; eauto. }
  - destruct (lookup_command (to_lower name) (implemented_commands ext c)) as [f|] eqn:Hf.
    2:{ exfalso. clear -Hin Hf. unfold simple in Hin. rewrite !elem_of_cons, elem_of_nil in Hin. repeat (destruct Hin as [Hin | Hin]; [by rewrite Hin in Hf|]). done. }
    destruct (decide (to_lower name = "set"%string)) as [Es|Hs1]; [|destruct (decide (to_lower name = "del"%string)) as [Ed|Hd1]].
    + rewrite Es in Hf. injection Hf as <-. destruct a as [|v a].
      * eexists _, _. split; [by apply (ask_ret ext c name _ d c_set); [rewrite Es|]|]. eapply kgood_mono; [|done]. unfold zlen. cbn. lia.
      * eexists _, _. split; [by apply (ask_ret ext c name _ d c_set); [rewrite Es|]|]. cbn. rewrite sm_get_set by apply I. by rewrite bool_decide_true.
    + rewrite Ed in Hf. injection Hf as <-. eexists _, _. split; [apply (ask_ret ext c name _ d c_del); [by rewrite Ed|]|].
      * unfold c_del. cbn [fewer length Nat.ltb Nat.leb arg lookup list_lookup deref obind]. rewrite (Del_holds k d _ I Hp). reflexivity.
      * cbn. rewrite sm_get_delete by apply I. by rewrite bool_decide_true.
    + destruct (on_set_same ext c d k p Hp (to_lower name) f a Hin Hs1 Hd1 Hf) as [q E]. eexists _, _. split; [by eapply ask_ret|].
      eapply kgood_mono; [|done]. unfold zlen. lia.
  - destruct (local_one hb n d k I G Hs) as (m & S & T). destruct (simple_found ext _ Hin) as [g Hg].
    pose proof (simple_low _ Hin) as Hl.
    destruct (simple_fine ext hb n (to_lower name) a k m g Hin Hg) as [V1 V2]; [|done|done|done|].
    { unfold harmless in *. by rewrite Hl. }
    destruct (ask_meets ext c (name :: k :: a) d m S Hc) as [A1 A2]. rewrite (KeyHist.spec_cmd ext name _ g _ _ eq_refl Hg) in A1, A2.
    destruct (A1 V1) as (d' & r & E). exists d', r. split; [done|]. destruct (A2 _ _ E) as (m' & Hv & S').
    by eapply sim_good; [|by eapply V2].
Qed.

Definition numeric (ext : Ext) (name : string) (a : list string) : Prop :=
  (to_lower name = "zadd"%string → existsb (odd_score ext (existsb (λ y, String.eqb (to_lower y) "incr") a)) a = false) ∧
  (to_lower name = "zincr"%string → existsb (odd_score ext true) a = false).
Lemma odd_false ext b a x f : existsb (odd_score ext b) a = false → x ∈ a → parse_float ext x = Some f → is_nan f = false ∧ (b = true → is_inf f = false).
Proof.
  intros H Hx Hf. assert (odd_score ext b x = false) as O.
  { destruct (odd_score ext b x) eqn:E; [|done]. assert (existsb (odd_score ext b) a = true); [|congruence]. apply existsb_exists. exists x. split; [by apply elem_of_list_In|done]. }
  unfold odd_score in O. rewrite Hf in O. apply orb_false_iff in O as [? O]. split; [done|]. intros ->. done.
Qed.
Lemma numeric_harmless ext hb name a : numeric ext name a → to_lower name ∈ simple →
  (to_lower name = "lrem"%string → match hb with
         | NoLrem => False
         | HeadLrem => ∀ x i, a !! 1%nat = Some x → parse_int x = Some i → 0 ≤ i
         | TailLrem => ∀ x i, a !! 1%nat = Some x → parse_int x = Some i → i < 0
         end) →
  (to_lower name = "rpush"%string → hb ≠ HeadLrem) → (to_lower name = "lpush"%string → hb ≠ TailLrem) → harmless ext hb (name :: a).
Proof.
  intros [N1 N2] Hin L R P. unfold harmless. split_and!; try done.
  - intros E. rewrite E in Hin. exfalso. clear -Hin. unfold simple in Hin. rewrite !elem_of_cons, elem_of_nil in Hin. naive_solver.
  - intros E. rewrite E in Hin. clear -Hin. unfold simple in Hin. rewrite !elem_of_cons, elem_of_nil in Hin. naive_solver.
  - intros E. rewrite E in Hin. clear -Hin. unfold simple in Hin. rewrite !elem_of_cons, elem_of_nil in Hin. naive_solver.
  - intros E x f Hx Hf. destruct (odd_false _ _ _ _ _ (N1 E) Hx Hf) as [H1 H2]. split; [done|]. intros Hi y Hy Hy2.
    rewrite H2 in Hi; [done|]. apply existsb_exists. exists y. split; [by apply elem_of_list_In|]. by apply String.eqb_eq.
  - intros E x f Hx Hf. destruct (odd_false _ _ _ _ _ (N2 E) Hx Hf) as [H1 H2]. auto.
Qed.

(** ** commands that never crash *)
Definition easy : list string :=
  [ "hdel"; "hexists"; "hget"; "hgetall"; "hincrby"; "hincrbyfloat"; "hkeys"; "hlen"; "hmget"; "hmset"; "hset"; "hsetnx"; "hvals";
    "exists"; "del"; "type"; "ping"; "command"; "set"; "mset"; "get"; "mget"; "incr"; "incrby"; "decr"; "decrby"; "append" ]%string.
Lemma easy_safe ext c d low f a : dbinv d → low ∈ easy → lookup_command low (implemented_commands ext c) = Some f → ∃ d' q, f a d = Ret (d', q).
Proof.
  intros I Hin Hf. assert (LH : ∀ k b, ∃ e, load_hash k b d = Err e).
  { intros k b. pose proof (load_hash_never k b d) as H. destruct (load_hash k b d) as [h|e]; [by destruct (H h I)|by exists e]. }
  unfold easy in Hin. rewrite !elem_of_cons, elem_of_nil in Hin.
  repeat (destruct Hin as [-> | Hin]; [injection Hf as <-|]); [..|done].
  all: destruct a as [|a1 [|a2 [|a3 a]]]; commands; unfold incr_reply, IncrBy, Append,
    HDel, HExists, HGet, HGetAll, HIncrBy, HIncrByFloat, HKeys, HLen, HMGet, HSet, HVals.
  all: try (match goal with |- context [load_hash ?k ?b _] => destruct (LH k b) as [? ->] end); cbn [obind].
  all: try (by eexists _, _).
  all: repeat (case_match; cbn [obind]; try (by eexists _, _)).
Qed.

Definition set_names : list string := ["sadd"; "scard"; "sdiff"; "sdiffstore"; "sinter"; "sinterstore"; "sunion"; "sunionstore";
    "sismember"; "smembers"; "smove"; "srem"; "spop"]%string.
Definition chain_names : list string := ["lpush"; "lpop"; "rpush"; "rpop"; "llen"; "lrange"; "lrem"; "lset"; "linsert";
    "zadd"; "zscore"; "zrank"; "zcard"; "zcount"; "zincr"; "zrange"; "zrangebyscore"; "zrevrange"; "zpopmin"]%string.
Lemma sub_names low (l1 l2 : list string) : forallb (λ x, existsb (String.eqb x) l2) l1 = true → low ∈ l1 → low ∈ l2.
Proof.
  intros Hf Hl. rewrite forallb_forall in Hf. apply elem_of_list_In in Hl. apply Hf, existsb_exists in Hl as (y & Hy & ->%String.eqb_eq).
  by apply elem_of_list_In.
Qed.
Lemma all_names ext c low f : lookup_command low (implemented_commands ext c) = Some f →
  low ∈ chain_names ∨ low ∈ easy ∨ low ∈ set_names ∨ low ∈ ["keys"; "lindex"; "zrem"; "zpopmax"]%string.
Proof.
  intros H. apply lookup_command_in, (elem_of_list_fmap_1 fst) in H. simpl in H.
  rewrite <- !elem_of_app. revert H. apply sub_names. by vm_compute.
Qed.
Lemma chain_simple low : low ∈ chain_names → low ∈ simple.
Proof. apply sub_names. by vm_compute. Qed.
Lemma chain_works name a : to_lower name ∈ chain_names → works_on (name :: a) = take 1 a.
Proof.
  intros H. unfold works_on. unfold chain_names in H. rewrite !elem_of_cons, elem_of_nil in H.
  repeat (destruct H as [-> | H]; [reflexivity|]). done.
Qed.
Lemma not_risky ext k name a r : risky ext k (name :: a) r = false → k ∈ take 1 a →
  numeric ext name a ∧ to_lower name ≠ "zrem"%string ∧ to_lower name ≠ "zpopmax"%string ∧
  (to_lower name = "lrem"%string → match r with Some (RInt c) => c ≤ 0 | _ => True end).
Proof.
  intros H Hk. unfold risky in H. rewrite bool_decide_true in H by done. cbn [andb] in H. rewrite !orb_false_iff in H.
  destruct H as ((((H1 & H2) & H3) & H4) & H5). split_and!.
  - split; intros E; rewrite E in *; done.
  - by apply String.eqb_neq.
  - by apply String.eqb_neq.
  - intros E. rewrite E in H1. cbn in H1. destruct r as [[]|]; try done. apply Z.ltb_ge in H1. done.
Qed.

Lemma survives_one ext c n req d : dbinv d → calm_req c req → 0 ≤ n < two63 - 2 → bad_pattern ext req = false →
  (∀ k, k ∈ works_on req → good n d k ∧ risky ext k req None = false) → ∃ d' r, ask ext c req d = Ret (d', r).
Proof.
  intros I Hc Hn Hb Hk. destruct req as [|name a]; [by exists d, None|].
  destruct (lookup_command (to_lower name) (implemented_commands ext c)) as [f|] eqn:Hf.
  2:{ exists d, (Some (RError (err_msg ErrUnknownCommand))). unfold ask, exec, exec_lowered. by rewrite Hf. }
  destruct (all_names ext c _ f Hf) as [Hin|[Hin|[Hin|Hin]]].
  - pose proof (chain_works name a Hin) as W. rewrite W in Hk. destruct a as [|k a].
    + assert (∃ d' q, f [] d = Ret (d', q)) as (d' & q & E); [|eexists _, _; by eapply ask_ret].
      clear -Hin Hf. unfold chain_names in Hin. rewrite !elem_of_cons, elem_of_nil in Hin.
      repeat (destruct Hin as [Hin | Hin]; [rewrite Hin in Hf; injection Hf as <-; by eexists _, _|]). done.
    + destruct (Hk k) as [G R]; [by left|]. destruct (not_risky _ _ _ _ _ R) as (N & _); [by left|].
      assert (∃ hb, harmless ext hb (name :: k :: a)) as [hb H].
      { destruct (decide (to_lower name = "lrem"%string)) as [L|L].
        - destruct (match a with x :: _ => match parse_int x with Some i => i <? 0 | None => false end | [] => false end) eqn:B.
          + exists TailLrem. apply numeric_harmless; try done; [by apply chain_simple| |by rewrite L].
            intros _ x i Hx Hi. destruct a as [|y a]; [done|]. injection Hx as ->. rewrite Hi in B. by apply Z.ltb_lt in B.
          + exists HeadLrem. apply numeric_harmless; try done; [by apply chain_simple| |by rewrite L].
            intros _ x i Hx Hi. destruct a as [|y a]; [done|]. injection Hx as ->. rewrite Hi in B. by apply Z.ltb_ge in B.
        - exists NoLrem. apply numeric_harmless; try done. by apply chain_simple. }
      destruct (simple_one ext c hb n name k a d) as (d' & r & E & _); try done; [by apply chain_simple|by apply kgood_any|].
      by exists d', r.
  - destruct (easy_safe ext c d _ f a I Hin Hf) as (d' & q & E). eexists _, _. by eapply ask_ret.
  - destruct (set_command_safe c d I ext (to_lower name) f a Hin Hf) as (d' & q & E & O). eexists _, _. by eapply ask_ret.
  - rewrite !elem_of_cons, elem_of_nil in Hin. destruct Hin as [L|[L|[L|[L|[]]]]].
    + destruct a as [|p a].
      * eexists _, _. apply (ask_ret ext c name [] d f d (Err ErrArgsNotEnough) Hf). rewrite L in Hf. by injection Hf as <-.
      * cbn [bad_pattern] in Hb. rewrite L in Hb. cbn in Hb. destruct (glob_compile ext p) as [g|] eqn:Eg; [|done].
        eexists _, _. eapply (ask_ret ext c name (p :: a) d f); [done|]. rewrite L in Hf. injection Hf as <-. commands. unfold Keys. rewrite Eg. cbn [deref obind]. reflexivity.
    + assert (∃ q, c_lindex a d = Ret (d, q)) as [q E].
      { unfold works_on in Hk. rewrite L in Hk. cbn in Hk.
        unfold c_lindex. destruct a as [|k [|s1 a]]; [by eexists..|]. cbn [fewer length Nat.ltb Nat.leb arg lookup list_lookup deref obind].
        destruct (Hk s1) as [G _]; [by left|].
        destruct (parse_int s1) as [i|] eqn:Ei; [|by eexists].
        assert (∃ r, LIndex s1 i d = Ret r) as [r ->].
        { unfold LIndex, load_list. destruct (sm_get (db_keys d) s1) as [[]|]; try by eexists.
          destruct G as (xs & w & R & A). destruct (dl_len l =? 0) eqn:El; cbn [andb]; [by eexists|].
          rewrite (lindex_ok i l xs); [by eexists|]. eapply list_rep_sound; [done|]. intros ->. apply Z.eqb_neq in El. apply El. by rewrite (list_rep_len _ _ _ R). }
        cbn [obind]. destruct r as [v|[]]; by eexists. }
      eexists _, _. eapply (ask_ret ext c name a d c_lindex); [by rewrite L|done].
    + destruct a as [|k a].
      * eexists _, _. apply (ask_ret ext c name [] d f d (Err ErrArgsNotEnough) Hf). rewrite L in Hf. by injection Hf as <-.
      * exfalso. destruct (Hk k) as [_ R]; [unfold works_on; rewrite L; by left|]. destruct (not_risky _ _ _ _ _ R) as (_ & Hz & _); [by left|done].
    + destruct a as [|k a].
      * eexists _, _. apply (ask_ret ext c name [] d f d (Err ErrArgsNotEnough) Hf). rewrite L in Hf. by injection Hf as <-.
      * exfalso. destruct (Hk k) as [_ R]; [unfold works_on; rewrite L; by left|]. destruct (not_risky _ _ _ _ _ R) as (_ & _ & Hz & _); [by left|done].
Qed.

(** ** what a request leaves of a good key *)
Lemma get_of_type d k t : Type_ k d = Some t → t = a_string ∨ t = a_set → ∀ n, good n d k.
Proof. unfold Type_. destruct (sm_get (db_keys d) k) as [[]|]; cbn; try done; intros [= <-] [?|?] n; done. Qed.
Lemma lrem_keeps ext c n name k a d d' r : to_lower name = "lrem"%string → dbinv d → calm_req c (name :: k :: a) → ask ext c (name :: k :: a) d = Ret (d', r) →
  good n d k → match r with Some (RInt x) => x ≤ 0 | _ => True end → good n d' k.
Proof.
  intros L I Hc E G Hr.
  assert ((∃ p, sm_get (db_keys d) k = Some (VSet p)) ∨ ∀ p, sm_get (db_keys d) k ≠ Some (VSet p)) as [[p Hp]|Hs].
  { destruct (sm_get (db_keys d) k) as [[]|]; eauto. }
  - assert (lookup_command (to_lower name) (implemented_commands ext c) = Some c_lrem) as Hf by (by rewrite L).
    destruct (on_set_same ext c d k p Hp "lrem" c_lrem a) as [q Eq]; [unfold simple; rewrite !elem_of_cons; tauto|done..|].
    rewrite (ask_ret _ _ _ _ _ _ _ _ Hf Eq) in E. injection E as <- <-. done.
  - destruct (local_one NoLrem n d k I G Hs) as (m & S & T).
    destruct (ask_meets ext c (name :: k :: a) d m S Hc) as [_ A2]. rewrite (KeyHist.spec_cmd ext name _ s_lrem _ _ eq_refl) in A2 by (by rewrite L).
    destruct (A2 _ _ E) as (m' & Hv & S'). eapply sim_good; [exact S'|]. clear -Hv T Hr.
    unfold s_lrem in Hv. destruct a as [|s1 [|v a]]; [by destruct Hv as [_ ->]..|]. destruct (parse_int s1) as [i|]; [|by destruct Hv as [_ ->]].
    destruct (m !! k) as [[s|xs w|X dr|es gh|]|] eqn:Em; cbn [tame] in T; try done.
    + destruct Hv as [_ ->]. by rewrite Em.
    + destruct xs as [|x xs]; [destruct Hv as [_ ->]; by rewrite Em|]. destruct (i =? - two63); [destruct Hv as [_ ->]; by rewrite Em|].
      destruct Hv as [-> ->]. rewrite lookup_insert. destruct (lrem_result i v (x :: xs)); [|done]. unfold zlen in Hr. cbn in Hr. lia.
    + destruct Hv as [_ ->]. by rewrite Em.
    + destruct Hv as [_ ->]. by rewrite Em.
Qed.
Lemma keeps_one ext c n req d d' r k : dbinv d → calm_req c req → 0 ≤ n < two63 - 2 → ask ext c req d = Ret (d', r) →
  good n d k → risky ext k req r = false → good (n + zlen req) d' k.
Proof.
  intros I Hc Hn E G R.
  assert (Mono : ∀ d0, good n d0 k → good (n + zlen req) d0 k) by (intros d0; apply kgood_mono; unfold zlen; lia).
  destruct (decide (k ∈ writes req)) as [Hw|Hw].
  2:{ rewrite (dsteps_get _ _ _ _ _ k (ask_steps ext c _ _ _ _ I E) I Hw). by apply Mono. }
  destruct req as [|name a]; [by apply elem_of_nil in Hw|].
  destruct (lookup_command (to_lower name) (implemented_commands ext c)) as [f|] eqn:Hf.
  2:{ unfold ask, exec, exec_lowered in E. rewrite Hf in E. injection E as <- _. by apply Mono. }
  destruct (lookup_found ext c _ f Hf) as [Hin|[Hin|Hin]].
  - destruct (simple_writes name a Hin) as [_ Hs]. apply Hs in Hw. destruct a as [|k' a]; [by apply elem_of_nil in Hw|].
    destruct (not_risky _ _ _ _ _ R Hw) as (N & _ & _ & L). cbn [take] in Hw. apply elem_of_list_singleton in Hw as <-.
    destruct (decide (to_lower name = "lrem"%string)) as [Lr|Lr].
    + apply Mono. eapply lrem_keeps; try done. by apply L.
    + destruct (simple_one ext c NoLrem n name k a d Hin) as (d1 & r1 & E1 & G1); try done; [by apply numeric_harmless|].
      rewrite E1 in E. injection E as <- <-. eapply kgood_mono; [|done]. unfold zlen. cbn [length]. lia.
  - destruct (set_command_safe c d I ext (to_lower name) f a Hin Hf) as (d1 & q & E1 & O).
    rewrite (ask_ret ext c name a d f d1 q Hf E1) in E. injection E as <- <-. apply Mono. destruct (O k) as [-> |[p ->]]; done.
  - rewrite !elem_of_cons, elem_of_nil in Hin.
    destruct Hin as [L|[L|[L|[L|[L|[L|[L|[L|[]]]]]]]]].
    1-4,6: unfold writes in Hw; rewrite L in Hw; exfalso; revert Hw; replace (bool_decide _) with true by (vm_compute; reflexivity); apply not_elem_of_nil.
    + rewrite L in Hf. injection Hf as <-. rewrite (ask_cmd ext c name a d c_mset) in E by (by rewrite L). cbn in E.
      unfold c_mset in E. destruct (_ && _); cbn in E; injection E as <- _; [by apply Mono|].
      destruct (mset_types a d I) as [_ T]. specialize (T k) as [T1 T2]. destruct (decide (k ∈ pair_heads a)) as [Hp|Hp].
      * eapply get_of_type; [by apply T1|by left].
      * apply Mono. assert (sm_get (db_keys (MSet_ a d)) k = sm_get (db_keys d) k) as ->; [|done].
        clear -Hp I. revert d I. assert (∀ len a, (length a < len)%nat → k ∉ pair_heads a → ∀ d, dbinv d → sm_get (db_keys (MSet_ a d)) k = sm_get (db_keys d) k) as H; [|apply (H (S (length a))); [lia|done]].
        clear. induction len as [|len IH]; [lia|]. intros [|x [|v a]] Hl Hp d I; cbn [length] in Hl; [done..|]. cbn [MSet_ pair_heads] in *.
        apply not_elem_of_cons in Hp as [Hx Hp]. rewrite IH; [|lia|done|].
        -- cbn. rewrite sm_get_set by apply I. by rewrite bool_decide_false.
        -- refine (dstep_inv true false [x] d _ _ I). apply (st_put _ _ d x (VStr v)); [by left|done].
    + exfalso. destruct a as [|k' a]; [by unfold writes in Hw; rewrite L in Hw; apply elem_of_nil in Hw|].
      destruct (not_risky _ _ _ _ _ R) as (_ & H & _); [|done]. unfold writes in Hw. rewrite L in Hw. exact Hw.
    + exfalso. destruct a as [|k' a]; [by unfold writes in Hw; rewrite L in Hw; apply elem_of_nil in Hw|].
      destruct (not_risky _ _ _ _ _ R) as (_ & _ & H & _); [|done]. unfold writes in Hw. rewrite L in Hw. exact Hw.
Qed.
