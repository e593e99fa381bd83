(** C24-C28: sets. *)
From Verif Require Import GoBase GoBaseProofs ShardMap ShardMapProofs Float64 SkipList Db Protocol Redis Obs SpecCmd SpecResp SpecServer SpecKey KeyHist
  SetRep DbInv ExecSteps Sim SimSet SimMain PropBase KeyIs Examples P_Keys P_Requests P_Frame.

(** key [k] holds a set, and its members are [X]: what a client sees *)
Definition set_is (ext : Ext) (d : db) (k : string) (X : gset string) : Prop :=
  type_is ext d k "setIfNotExists" ∧ ∀ v, answers ext d ["SISMEMBER"; k; v] (flag (bool_decide (v ∈ X))).
(** whatever the choices, the request is answered with an array of exactly the elements of [X], each once, and
    changes nothing *)
Definition lists (ext : Ext) (d : db) (req : list string) (X : gset string) : Prop :=
  ∀ c, ∃ l, ask ext c req d = Ret (d, Some (bulks l)) ∧ NoDup l ∧ ∀ x, x ∈ l ↔ x ∈ X.

(** the set object behind a key *)
Definition set_obj (d : db) (k : string) (p : nat) (s : mset) : Prop := sm_get (db_keys d) k = Some (VSet p) ∧ db_sets d !! p = Some s.
Lemma load_set_obj d k p s ck : set_obj d k p s → load_set k ck d = Ret (if ck && (ms_len s =? 0) then Err ErrNil else Ok (p, s)).
Proof. intros [H1 H2]. unfold load_set. rewrite H1, H2. cbn [deref obind]. done. Qed.
Lemma type_is_name ext d k t : type_is ext d k t ↔ t = match sm_get (db_keys d) k with Some v => type_name v | None => "none" end.
Proof. split; [intros H; apply type_is_get in H; by destruct (sm_get _ _)|]. intros ->. intros c. rewrite (ask_cmd ext c "TYPE" [k] d _ eq_refl).
  unfold c_type. change (fewer [k] 1) with false. change (arg [k] 0) with (Ret k). cbn [obind]. unfold Type_. by destruct (sm_get (db_keys d) k). Qed.
Lemma rep_len0 s X dr : set_rep s X dr → ms_len s = 0 → X = ∅ ∧ dr = 0%nat.
Proof. intros (_ & _ & ->). apply counted_0. Qed.
Lemma sismember_ask ext d k p s X dr v c : set_obj d k p s → set_rep s X dr →
  ask ext c ["SISMEMBER"; k; v] d = Ret (d, Some (flag (bool_decide (v ∈ X)))).
Proof.
  intros O R. rewrite (ask_cmd ext c "SISMEMBER" [k; v] d _ eq_refl). unfold c_sismember. change (fewer [k; v] 2) with false.
  change (arg [k; v] 0) with (Ret k). change (arg [k; v] 1) with (Ret v). cbn [obind]. unfold SIsMember.
  rewrite (load_set_obj d k p s true O). cbn [andb obind]. destruct (Z.eqb_spec (ms_len s) 0) as [E|E].
  - destruct (rep_len0 s X dr R E) as [-> ->]. cbn [obind]. rewrite bool_decide_eq_false_2 by set_solver. done.
  - cbn [obind]. rewrite (set_rep_has s X dr v R). by destruct (bool_decide (v ∈ X)).
Qed.
Lemma set_is_of ext d k p s X dr : set_obj d k p s → set_rep s X dr → set_is ext d k X.
Proof.
  intros O R. split; [|intros v c; by eapply sismember_ask]. apply type_is_name. destruct O as [-> _]. done.
Qed.
Lemma set_is_obj ext d k X : dbinv d → set_is ext d k X → ∃ p s dr, set_obj d k p s ∧ set_rep s X dr.
Proof.
  intros I [Ht Hm]. apply type_is_name in Ht. destruct (sm_get (db_keys d) k) as [[| |p| |]|] eqn:E; try done.
  destruct (inv_ptr d I k p E) as [s Hs]. destruct (inv_heap d I p s Hs) as [_ (Y & dr & R)]. exists p, s, dr.
  assert (set_obj d k p s) as O by done. split; [done|]. replace X with Y; [done|].
  apply set_eq. intros v. specialize (Hm v some_choices). rewrite (sismember_ask ext d k p s Y dr v _ O R) in Hm.
  unfold flag in Hm. repeat case_bool_decide; done || tauto.
Qed.
Lemma set_is_unique ext d k X Y : set_is ext d k X → set_is ext d k Y → X = Y.
Proof.
  intros [_ HX] [_ HY]. apply set_eq. intros v. pose proof (answers_fun _ _ _ _ _ (HX v) (HY v)) as E. unfold flag in E.
  repeat case_bool_decide; done || tauto.
Qed.

(** ** C24: members *)
(** writing through a key *)
Lemma put_set_obj d k p s s' : set_obj d k p s → set_obj (put_set p s' d) k p s'.
Proof. intros [H1 H2]. split; [done|]. simpl. by rewrite lookup_insert. Qed.
Lemma new_set_obj d k s : dbinv d → set_obj (Db (sm_set (db_keys d) k (VSet (db_fresh d))) (<[db_fresh d := s]> (db_sets d)) (S (db_fresh d))) k (db_fresh d) s.
Proof. intros I. split; simpl; [rewrite sm_get_set by apply I; by rewrite bool_decide_eq_true_2|by rewrite lookup_insert]. Qed.
Lemma absent_get ext d k : answers ext d ["EXISTS"; k] (RInt 0) → sm_get (db_keys d) k = None.
Proof.
  intros H. specialize (H some_choices). rewrite (ask_cmd ext some_choices "EXISTS" [k] d _ eq_refl) in H. unfold c_exists in H.
  change (fewer [k] 1) with false in H. change (arg [k] 0) with (Ret k) in H. cbn [obind] in H. unfold Exists_ in H. rewrite sm_has_get in H.
  by destruct (sm_get (db_keys d) k).
Qed.
Lemma sadd_set d k p s X dr vs : set_obj d k p s → set_rep s X dr → ∃ s',
  SAdd k vs d = Ret (put_set p s' d, Ok (Z.of_nat (size ((list_to_set vs : gset string) ∖ X)))) ∧ set_rep s' (X ∪ list_to_set vs) dr.
Proof.
  intros O R. unfold SAdd. rewrite (load_set_obj d k p s false O). cbn [andb obind].
  destruct (ms_add_all_ok vs s X dr 0 R) as (s' & -> & R'). by exists s'.
Qed.
Lemma sadd_none d k vs : sm_get (db_keys d) k = None → ∃ s',
  SAdd k vs d = Ret (Db (sm_set (db_keys d) k (VSet (db_fresh d))) (<[db_fresh d := s']> (db_sets d)) (S (db_fresh d)),
                     Ok (Z.of_nat (size (list_to_set vs : gset string)))) ∧ set_rep s' (list_to_set vs) 0.
Proof.
  intros E. unfold SAdd, load_set. rewrite E. cbn [obind]. unfold alloc_set.
  destruct (ms_add_all_ok vs ms_new ∅ 0 0 set_rep_new) as (s' & -> & R'). exists s'. cbn [obind]. unfold put_set, put. cbn [db_keys db_sets db_fresh].
  rewrite insert_insert. assert ((list_to_set vs : gset string) ∖ ∅ = list_to_set vs) as -> by set_solver.
  assert (∅ ∪ list_to_set vs = (list_to_set vs : gset string)) as E2 by set_solver. rewrite E2 in R'. done.
Qed.
Theorem C24_sadd ext d k X v vs : reachable ext d → set_is ext d k X →
  let Y : gset string := list_to_set (v :: vs) in
  does ext d ("SADD" :: k :: v :: vs) (RInt (Z.of_nat (size (Y ∖ X)))) (λ d', set_is ext d' k (X ∪ Y)).
Proof.
  intros Hr Hs Y c. apply reachable_inv in Hr as I. destruct (set_is_obj ext d k X I Hs) as (p & s & dr & O & R).
  destruct (sadd_set d k p s X dr (v :: vs) O R) as (s' & E & R'). rewrite (ask_cmd ext c "SADD" (k :: v :: vs) d _ eq_refl). unfold c_sadd.
  change (fewer (k :: v :: vs) 2) with false. change (arg (k :: v :: vs) 0) with (Ret k). change (drop 1 (k :: v :: vs)) with (v :: vs). cbn [obind].
  rewrite E. cbn [obind]. eexists. split; [done|]. eapply set_is_of; [by eapply put_set_obj|done].
Qed.
Theorem C24_sadd_fresh ext d k v vs : reachable ext d → answers ext d ["EXISTS"; k] (RInt 0) →
  let Y : gset string := list_to_set (v :: vs) in
  does ext d ("SADD" :: k :: v :: vs) (RInt (Z.of_nat (size Y))) (λ d', set_is ext d' k Y).
Proof.
  intros Hr Ha Y c. apply reachable_inv in Hr as I. apply absent_get in Ha.
  destruct (sadd_none d k (v :: vs) Ha) as (s' & E & R'). rewrite (ask_cmd ext c "SADD" (k :: v :: vs) d _ eq_refl). unfold c_sadd.
  change (fewer (k :: v :: vs) 2) with false. change (arg (k :: v :: vs) 0) with (Ret k). change (drop 1 (k :: v :: vs)) with (v :: vs). cbn [obind].
  rewrite E. cbn [obind]. eexists. split; [done|]. eapply set_is_of; [by apply new_set_obj|done].
Qed.
Theorem C24_srem ext d k X v vs : reachable ext d → set_is ext d k X →
  let Y : gset string := list_to_set (v :: vs) in
  does ext d ("SREM" :: k :: v :: vs) (RInt (Z.of_nat (size (X ∩ Y)))) (λ d', set_is ext d' k (X ∖ Y)).
Proof.
  intros Hr Hs Y c. apply reachable_inv in Hr as I. destruct (set_is_obj ext d k X I Hs) as (p & s & dr & O & R).
  rewrite (ask_cmd ext c "SREM" (k :: v :: vs) d _ eq_refl). unfold c_srem.
  change (fewer (k :: v :: vs) 2) with false. change (arg (k :: v :: vs) 0) with (Ret k). change (drop 1 (k :: v :: vs)) with (v :: vs). cbn [obind].
  unfold SRem. rewrite (load_set_obj d k p s true O). cbn [andb obind]. destruct (Z.eqb_spec (ms_len s) 0) as [E|E].
  - destruct (rep_len0 s X dr R E) as [-> ->]. cbn [obind]. exists d. assert (∅ ∩ Y = ∅) as -> by set_solver. split; [done|].
    assert (∅ ∖ Y = ∅) as -> by set_solver. done.
  - destruct (ms_rem_all_ok (v :: vs) s X dr 0 R) as (s' & E' & R'). cbn [obind]. rewrite E'. cbn [obind]. eexists. split; [done|].
    eapply set_is_of; [by eapply put_set_obj|done].
Qed.
Theorem C24_srem_missing ext d k v vs : answers ext d ["EXISTS"; k] (RInt 0) → answers ext d ("SREM" :: k :: v :: vs) (RInt 0).
Proof.
  intros Ha c. apply absent_get in Ha. rewrite (ask_cmd ext c "SREM" (k :: v :: vs) d _ eq_refl). unfold c_srem.
  change (fewer (k :: v :: vs) 2) with false. change (arg (k :: v :: vs) 0) with (Ret k). cbn [obind]. unfold SRem, load_set. rewrite Ha. done.
Qed.
(** SMEMBERS lists a non-empty set; an empty one answers an error or the empty array *)
Lemma smembers_obj ext d k p s X dr c : set_obj d k p s → set_rep s X dr →
  ask ext c ["SMEMBERS"; k] d = Ret (d, Some (if ms_len s =? 0 then RError (err_msg ErrNil) else bulks (sm_keys (ch_ord c 0%nat) (ms_m s)))).
Proof.
  intros O R. rewrite (ask_cmd ext c "SMEMBERS" [k] d _ eq_refl). unfold c_smembers. change (fewer [k] 1) with false.
  change (arg [k] 0) with (Ret k). cbn [obind]. unfold SMembers.
  rewrite (load_set_obj d k p s true O). cbn [andb obind]. destruct (Z.eqb_spec (ms_len s) 0) as [E|E]; [done|].
  cbn [obind]. unfold reply. cbn [obind]. f_equal. f_equal. apply view_strings.
Qed.
Theorem C24_smembers ext d k X : reachable ext d → set_is ext d k X → X ≠ ∅ → lists ext d ["SMEMBERS"; k] X.
Proof.
  intros Hr Hs Hx c. apply reachable_inv in Hr as I. destruct (set_is_obj ext d k X I Hs) as (p & s & dr & O & R).
  exists (sm_keys (ch_ord c 0%nat) (ms_m s)). rewrite (smembers_obj ext d k p s X dr c O R). destruct (Z.eqb_spec (ms_len s) 0) as [E|E].
  - by destruct (rep_len0 s X dr R E).
  - split; [done|]. by eapply ms_keys_ok.
Qed.
(** the life of one set key, whatever happens to other keys *)
Theorem C24_history ext d k h d' rs : reachable ext d → answers ext d ["EXISTS"; k] (RInt 0) → talk ext h d = Ret (d', rs) →
  within set_step k None (h.*2) →
  ∃ s, consistent set_step k None (h.*2) rs s ∧
    match s with Some (X, _) => set_is ext d' k X | None => answers ext d' ["EXISTS"; k] (RInt 0) end.
Proof.
  intros Hr Ha H W. pose proof (key_is_absent ext false set_step k d Hr Ha) as K.
  destruct (key_is_next ext false set_step k set_corr (KeyHist.set_ok ext k true) set_determined eq_refl None d h d' rs K ltac:(done) H W) as (s & C & K').
  exists s. split; [done|]. destruct (key_is_corr ext false set_step k set_corr (KeyHist.set_ok ext k true) set_determined eq_refl s d' K') as (m & Sm & Co).
  destruct s as [[X b]|].
  - unfold set_corr in Co. pose proof (sim_at d' m k Sm) as At. rewrite Co in At. destruct At as (p & st & H1 & H2 & R). by eapply set_is_of.
  - simpl in Co. pose proof (exists_answer ext d' m k Sm) as E. by rewrite Co in E.
Qed.
Theorem C24_history_served ext d k h : reachable ext d → answers ext d ["EXISTS"; k] (RInt 0) →
  within set_step k None (h.*2) → Forall (λ x, about k x.2 = true) h → ∃ d' rs, talk ext h d = Ret (d', rs).
Proof.
  intros Hr Ha W F. pose proof (key_is_absent ext false set_step k d Hr Ha) as K.
  by apply (key_is_served ext false set_step k set_corr (KeyHist.set_ok ext k true) set_determined eq_refl None d h K).
Qed.
Lemma db_new_reachable ext : reachable ext db_new. Proof. by exists [], []. Qed.
Lemma db_new_absent ext k : answers ext db_new ["EXISTS"; k] (RInt 0).
Proof.
  intros c. rewrite (ask_cmd ext c "EXISTS" [k] db_new _ eq_refl). unfold c_exists. change (fewer [k] 1) with false. change (arg [k] 0) with (Ret k). cbn [obind].
  unfold Exists_. rewrite sm_has_get. simpl. rewrite sm_get_map by apply sm_wf_new. by rewrite sm_new_map, lookup_empty.
Qed.
Lemma set_is_sadd v vs : set_is ext0 (after ["SADD" :: "k" :: v :: vs]) "k" (list_to_set (v :: vs)).
Proof.
  destruct (C24_sadd_fresh ext0 db_new "k" v vs (db_new_reachable _) (db_new_absent _ _) c0) as (d' & E & H).
  unfold after, plain_history. rewrite fmap_cons, fmap_nil. cbn [talk]. rewrite E. cbn [obind]. done.
Qed.
Lemma within_last {A} (step : list string → A → option (resp → A → Prop)) k s req R : about k req = true → step req s = Some R → within step k s [req].
Proof. intros Ha E. cbn [within]. by rewrite Ha, E. Qed.
Lemma within_next k req h : about k req = true → (∀ s, ∃ R, set_step req s = Some R) →
  (∀ s, within set_step k s h) → ∀ s, within set_step k s (req :: h).
Proof. intros Ha E W s. destruct (E s) as (R & Es). cbn [within]. rewrite Ha, Es. intros r s' HR. apply W. Qed.
Definition set_demo : list (list string) :=
  [["SADD"; "k"; "a"; "b"; "a"; "c"]; ["sadd"; "k"; "c"; "d"]; ["sismember"; "k"; "d"]; ["SADD"; "other"; "z"]; ["srem"; "k"; "a"; "z"; "b"];
   ["sismember"; "k"; "a"]; ["scard"; "k"]; ["smembers"; "k"]].
Example C24_demo : within set_step "k" None set_demo ∧
  set_is ext0 (after [["SADD"; "k"; "a"; "b"; "a"; "c"]]) "k" {[ "a"; "b"; "c" ]} ∧
  replies set_demo = Some [Some (RInt 3); Some (RInt 1); Some (RInt 1); Some (RInt 1); Some (RInt 2); Some (RInt 0); Some (RInt 2); Some (bulks ["d"; "c"])].
Proof.
  split; [|split].
  - generalize (@None (gset string * nat)). unfold set_demo.
    repeat first
      [ apply within_next;
        [ reflexivity
        | intros st; (eexists;
            unfold set_step; erewrite table_row by reflexivity; cbv beta iota; unfold exactly; reflexivity)
        | ]
      | intros st; apply within_other; [reflexivity|]; revert st ].
    done.
  - pose proof (set_is_sadd "a" ["b"; "a"; "c"]) as H. replace ({[ "a"; "b"; "c" ]} : gset string) with (list_to_set ["a"; "b"; "a"; "c"] : gset string) by set_solver. done.
  - by vm_compute.
Qed.

(** ** C25: SCARD *)
(** The answer never is too small; without SPOP and SMOVE it is exact. *)
Theorem C25_at_least ext d k X : reachable ext d → set_is ext d k X →
  ∃ n, answers ext d ["SCARD"; k] (RInt n) ∧ Z.of_nat (size X) ≤ n.
Proof.
  intros Hr Hs. apply reachable_inv in Hr as I. destruct (set_is_obj ext d k X I Hs) as (p & s & dr & O & R).
  exists (ms_len s). split; [|destruct R as (_ & _ & ->); unfold counted; lia]. intros c.
  rewrite (ask_cmd ext c "SCARD" [k] d _ eq_refl). unfold c_scard. change (fewer [k] 1) with false. change (arg [k] 0) with (Ret k). cbn [obind].
  unfold SCard. rewrite (load_set_obj d k p s true O). cbn [andb obind]. destruct (Z.eqb_spec (ms_len s) 0) as [->|E]; done.
Qed.
Lemma talk_tight ext h : ∀ d d' rs, dbinv d → all_tight d → talk ext h d = Ret (d', rs) → Forall (λ x, popping x.2 = false) h → all_tight d'.
Proof.
  induction h as [|[c req] h IH]; intros d d' rs I T H F; [by injection H as <- _|]. cbn [talk] in H.
  apply obind_ret in H as ([d1 r] & E1 & H). apply obind_ret in H as ([d2 rs2] & E2 & H). injection H as <- _.
  apply Forall_cons in F as [F1 F]. eapply IH; [by eapply ask_inv| |done|done].
  unfold ask in E1. apply obind_ret in E1 as ([d3 r3] & E1 & [= <- <-]). cbn [snd] in F1. pose proof (exec_gsteps ext c req d d3 r3 I E1) as G. rewrite F1 in G.
  by eapply gsteps_tight.
Qed.
Definition uncounted (req : list string) : bool :=
  match req with name :: _ => bool_decide (to_lower name ∈ ["spop"; "smove"]%string) | [] => false end.
Lemma uncounted_popping req : popping req = uncounted req.
Proof.
  destruct req as [|n a]; [done|]. unfold popping, uncounted. destruct (String.eqb_spec (to_lower n) "spop") as [->|H1]; [done|].
  destruct (String.eqb_spec (to_lower n) "smove") as [->|H2]; [done|]. symmetry. apply bool_decide_eq_false_2. set_solver.
Qed.
Theorem C25_scard_partial ext h d rs k X : talk ext h db_new = Ret (d, rs) → Forall (λ x, uncounted x.2 = false) h →
  set_is ext d k X → answers ext d ["SCARD"; k] (RInt (Z.of_nat (size X))).
Proof.
  intros H F Hs. assert (reachable ext d) as Hr by (by exists h, rs). apply reachable_inv in Hr as I.
  assert (T : all_tight d).
  { eapply talk_tight; [apply dbinv_new|apply all_tight_new|done|]. eapply Forall_impl; [done|]. intros x. by rewrite uncounted_popping. }
  destruct (set_is_obj ext d k X I Hs) as (p & s & dr & O & R). destruct (T p s) as [Y (W & D & L)]; [apply O|].
  destruct R as (_ & D' & L'). assert (Y = X) as -> by congruence. intros c.
  rewrite (ask_cmd ext c "SCARD" [k] d _ eq_refl). unfold c_scard. change (fewer [k] 1) with false. change (arg [k] 0) with (Ret k). cbn [obind].
  unfold SCard. rewrite (load_set_obj d k p s true O). unfold counted in L. rewrite Z.add_0_r in L. rewrite <- L.
  cbn [andb obind]. destruct (Z.eqb_spec (ms_len s) 0) as [E|E]; [by rewrite E|done].
Qed.
Theorem C25_missing ext d k : answers ext d ["EXISTS"; k] (RInt 0) → answers ext d ["SCARD"; k] (RInt 0).
Proof.
  intros Ha c. apply absent_get in Ha. rewrite (ask_cmd ext c "SCARD" [k] d _ eq_refl). unfold c_scard. change (fewer [k] 1) with false. change (arg [k] 0) with (Ret k). cbn [obind].
  unfold SCard, load_set. rewrite Ha. done.
Qed.
Example C25_demo : Forall (λ x, uncounted x.2 = false) (plain_history [["SADD"; "k"; "a"; "b"]; ["SREM"; "k"; "a"]; ["SUNIONSTORE"; "j"; "k"]]) ∧
  replies [["SADD"; "k"; "a"; "b"]; ["SREM"; "k"; "a"]; ["SUNIONSTORE"; "j"; "k"]; ["SADD"; "j"; "y"; "z"]; ["SCARD"; "k"]]
  = Some [Some (RInt 2); Some (RInt 1); Some (RInt 1); Some (RInt 2); Some (RInt 3)].
Proof. split; [by repeat constructor|by vm_compute]. Qed.
Theorem C25_refuted :
  replies [["SADD"; "k"; "a"; "b"]; ["SPOP"; "k"; "1"]; ["SCARD"; "k"]; ["SMEMBERS"; "k"]] =
    Some [Some (RInt 2); Some (bulks ["b"]); Some (RInt 2); Some (bulks ["a"])] ∧
  replies [["SADD"; "k"; "a"; "b"]; ["SMOVE"; "k"; "j"; "a"]; ["SCARD"; "k"]; ["SMEMBERS"; "k"]] =
    Some [Some (RInt 2); Some (RInt 1); Some (RInt 2); Some (bulks ["b"])].
Proof. by vm_compute. Qed.

(** ** C26: set algebra *)
(** the members of the result: first minus the others, intersection, union *)
Definition in_result (o : set_op) (X : gset string) (rest : list (gset string)) (x : string) : Prop :=
  match o with
  | Diff => x ∈ X ∧ ∀ Y, Y ∈ rest → x ∉ Y
  | Inter => x ∈ X ∧ ∀ Y, Y ∈ rest → x ∈ Y
  | Union => x ∈ X ∨ ∃ Y, Y ∈ rest ∧ x ∈ Y
  end.
Definition op_name (o : set_op) : string := match o with Diff => "SDIFF" | Inter => "SINTER" | Union => "SUNION" end.
Definition store_name (o : set_op) : string := match o with Diff => "SDIFFSTORE" | Inter => "SINTERSTORE" | Union => "SUNIONSTORE" end.
Definition go_op (o : set_op) : setop := match o with Diff => OpDiff | Inter => OpInter | Union => OpUnion end.
Lemma go_op_of o : op_of (go_op o) = o. Proof. by destruct o. Qed.
Lemma fold_result o rest : ∀ X x, x ∈ foldl (apply_op o) X rest ↔ in_result o X rest x.
Proof.
  induction rest as [|Y rest IH]; intros X x; cbn [foldl].
  - destruct o; simpl; set_solver.
  - rewrite IH. destruct o; simpl; set_solver.
Qed.
(** a non-empty set *)
Definition full_set (ext : Ext) (d : db) (k : string) (X : gset string) : Prop := set_is ext d k X ∧ X ≠ ∅.
Lemma full_load ext d k X : dbinv d → full_set ext d k X → ∃ p s dr, set_obj d k p s ∧ set_rep s X dr ∧ load_set k true d = Ret (Ok (p, s)).
Proof.
  intros I [Hs Hx]. destruct (set_is_obj ext d k X I Hs) as (p & s & dr & O & R). exists p, s, dr. split; [done|]. split; [done|].
  rewrite (load_set_obj d k p s true O). destruct (Z.eqb_spec (ms_len s) 0) as [E|E]; [by destruct (rep_len0 s X dr R E)|done].
Qed.
Lemma set_fold_full ext o c d ks Xs : dbinv d → Forall2 (full_set ext d) ks Xs → ∀ j acc s A dr, acc_set acc = Some s → set_rep s A dr →
  ∃ acc', set_fold o c j ks acc d = Ret (Ok acc') ∧
    match ks with [] => acc' = acc | _ => ∃ s', acc' = AFresh s' ∧ set_rep s' (foldl (apply_op (op_of o)) A Xs) 0 end.
Proof.
  intros I F. induction F as [|k X ks Xs Hk F IH]; intros j acc s A dr Ha R; cbn [set_fold]; [by exists acc|].
  destruct (full_load ext d k X I Hk) as (p & st & dr0 & O & Hs & ->). cbn [obind]. rewrite Ha.
  pose proof (ms_op_ok o c j s st A X dr dr0 R Hs) as R'. destruct (IH (S j) (AFresh (ms_op o c j s st)) _ _ _ eq_refl R') as (acc' & E & H).
  exists acc'. split; [done|]. destruct ks as [|k' ks]; [|done]. inversion F; subst. by exists (ms_op o c j s st).
Qed.
Lemma set_fold_top ext o c d k1 k2 ks X1 X2 Xs : dbinv d → Forall2 (full_set ext d) (k1 :: k2 :: ks) (X1 :: X2 :: Xs) →
  ∃ s', set_fold o c 0%nat (k1 :: k2 :: ks) ANil d = Ret (Ok (AFresh s')) ∧ set_rep s' (foldl (apply_op (op_of o)) X1 (X2 :: Xs)) 0.
Proof.
  intros I F. apply Forall2_cons in F as [F1 F].
  change (set_fold o c 0%nat (k1 :: k2 :: ks) ANil d) with
    (let* l := load_set k1 true d in match l with Ok (p, s) => set_fold o c 1%nat (k2 :: ks) (AObj p s) d | Err e => Ret (Err e) end).
  destruct (full_load ext d k1 X1 I F1) as (p & st & dr0 & O & Hs & ->). cbn [obind].
  destruct (set_fold_full ext o c d (k2 :: ks) (X2 :: Xs) I F 1 (AObj p st) st X1 dr0 eq_refl Hs) as (acc' & E & s' & -> & R). by exists s'.
Qed.
Theorem C26_algebra ext d o k1 k2 ks X1 X2 Xs : reachable ext d → Forall2 (full_set ext d) (k1 :: k2 :: ks) (X1 :: X2 :: Xs) →
  ∃ R : gset string, (∀ x, x ∈ R ↔ in_result o X1 (X2 :: Xs) x) ∧ lists ext d (op_name o :: k1 :: k2 :: ks) R.
Proof.
  intros Hr F. apply reachable_inv in Hr as I. exists (foldl (apply_op o) X1 (X2 :: Xs)). split; [apply fold_result|]. intros c.
  assert (ask ext c (op_name o :: k1 :: k2 :: ks) d =
    let* (d', r) := c_setop c (go_op o) (k1 :: k2 :: ks) d in Ret (d', view (reply_of r))) as ->.
  { destruct o; by apply ask_cmd. }
  unfold c_setop. change (fewer (k1 :: k2 :: ks) 1) with false. change (length (k1 :: k2 :: ks) =? 1)%nat with false. cbv iota. unfold SOp.
  destruct (set_fold_top ext (go_op o) c d k1 k2 ks X1 X2 Xs I F) as (s' & -> & R). rewrite go_op_of in R. cbn [obind acc_set].
  destruct (Z.eqb_spec (ms_len s') 0) as [E|E].
  - destruct (rep_len0 _ _ _ R E) as [E' _]. exists []. split; [done|]. split; [constructor|]. intros x. rewrite E'. set_solver.
  - cbn [obind]. eexists. split; [unfold reply; cbn [obind]; f_equal; f_equal; apply view_strings|]. by eapply ms_keys_ok.
Qed.
(** the set objects a step leaves alone *)
Lemma set_is_other ext d d' k X : dbinv d → set_is ext d k X → sm_get (db_keys d') k = sm_get (db_keys d) k →
  (∀ p s, sm_get (db_keys d) k = Some (VSet p) → db_sets d !! p = Some s → db_sets d' !! p = Some s) → set_is ext d' k X.
Proof.
  intros I Hs Hk Hp. destruct (set_is_obj ext d k X I Hs) as (p & s & dr & [H1 H2] & R). eapply set_is_of; [|done].
  split; [by rewrite Hk|]. by apply Hp.
Qed.
Lemma fresh_other d k p s : dbinv d → sm_get (db_keys d) k = Some (VSet p) → db_sets d !! p = Some s → p ≠ db_fresh d.
Proof. intros I H1 H2. destruct (inv_heap d I p s H2). lia. Qed.
Lemma store_ask ext c d o dst k1 k2 ks X1 X2 Xs : dbinv d → Forall2 (full_set ext d) (k1 :: k2 :: ks) (X1 :: X2 :: Xs) →
  ∃ s', set_rep s' (foldl (apply_op o) X1 (X2 :: Xs)) 0 ∧
    ask ext c (store_name o :: dst :: k1 :: k2 :: ks) d =
    Ret (Db (sm_set (db_keys d) dst (VSet (db_fresh d))) (<[db_fresh d := s']> (db_sets d)) (S (db_fresh d)),
         Some (RInt (Z.of_nat (size (foldl (apply_op o) X1 (X2 :: Xs)))))).
Proof.
  intros I F. destruct (set_fold_top ext (go_op o) c d k1 k2 ks X1 X2 Xs I F) as (s' & E & R). rewrite go_op_of in R. exists s'. split; [done|].
  assert (ask ext c (store_name o :: dst :: k1 :: k2 :: ks) d =
    let* (d', r) := c_setop_store c (go_op o) (dst :: k1 :: k2 :: ks) d in Ret (d', view (reply_of r))) as ->.
  { destruct o; by apply ask_cmd. }
  unfold c_setop_store. change (fewer (dst :: k1 :: k2 :: ks) 2) with false. change (length (dst :: k1 :: k2 :: ks) =? 1)%nat with false. cbv iota.
  change (arg (dst :: k1 :: k2 :: ks) 0) with (Ret dst). change (drop 1 (dst :: k1 :: k2 :: ks)) with (k1 :: k2 :: ks). cbn [obind].
  unfold SOpStore. rewrite E. cbn [obind]. unfold alloc_set. cbn [obind]. unfold put. cbn [db_keys db_sets db_fresh].
  destruct R as (_ & _ & L). rewrite L. unfold counted. rewrite Z.add_0_r. done.
Qed.
Theorem C26_store ext d o dst k1 k2 ks X1 X2 Xs : reachable ext d → Forall2 (full_set ext d) (k1 :: k2 :: ks) (X1 :: X2 :: Xs) →
  ∃ R : gset string, (∀ x, x ∈ R ↔ in_result o X1 (X2 :: Xs) x) ∧
    does ext d (store_name o :: dst :: k1 :: k2 :: ks) (RInt (Z.of_nat (size R)))
      (λ d', set_is ext d' dst R ∧ ∀ k X, k ≠ dst → set_is ext d k X → set_is ext d' k X).
Proof.
  intros Hr F. apply reachable_inv in Hr as I. exists (foldl (apply_op o) X1 (X2 :: Xs)). split; [apply fold_result|]. intros c.
  destruct (store_ask ext c d o dst k1 k2 ks X1 X2 Xs I F) as (s' & R & ->). eexists. split; [done|]. split.
  - eapply set_is_of; [by apply new_set_obj|done].
  - intros k X Hk Hs. eapply set_is_other; [done|done| |].
    + simpl. rewrite sm_get_set by apply I. by rewrite bool_decide_eq_false_2.
    + intros p s H1 H2. simpl. rewrite lookup_insert_ne; [done|]. apply not_eq_sym. by eapply fresh_other.
Qed.
(** computing [set_is] on concrete states *)
Definition holds_set (d : db) (k : string) (X : gset string) : bool :=
  match sm_get (db_keys d) k with
  | Some (VSet p) => match db_sets d !! p with Some s => bool_decide (dom (sm_map (ms_m s)) = X) | None => false end
  | _ => false
  end.
Lemma holds_set_is ext d k X : reachable ext d → holds_set d k X = true → set_is ext d k X.
Proof.
  intros Hr H. apply reachable_inv in Hr as I. unfold holds_set in H. destruct (sm_get (db_keys d) k) as [[]|] eqn:E1; try done.
  destruct (db_sets d !! p) as [s|] eqn:E2; [|done]. apply bool_decide_eq_true in H. destruct (inv_heap _ I p s E2) as [_ (Y & dr & R)].
  assert (Y = X) as -> by (destruct R as (_ & R & _); congruence). by eapply set_is_of.
Qed.
Definition algebra_demo : list (list string) := [["SADD"; "a"; "1"; "2"; "3"]; ["SADD"; "b"; "2"; "3"; "4"]; ["SADD"; "c"; "3"; "9"]].
Example C26_demo :
  Forall2 (full_set ext0 (after algebra_demo)) ["a"; "b"; "c"] [ {["1"; "2"; "3"]}; {["2"; "3"; "4"]}; {["3"; "9"]} ] ∧
  replies (algebra_demo ++ [["SDIFF"; "a"; "b"; "c"]; ["SINTER"; "a"; "b"; "c"]; ["SUNIONSTORE"; "a"; "b"; "c"]; ["SCARD"; "a"]]) =
    Some [Some (RInt 3); Some (RInt 3); Some (RInt 2); Some (bulks ["1"]); Some (bulks ["3"]); Some (RInt 4); Some (RInt 4)].
Proof.
  split; [|by vm_compute]. assert (reachable ext0 (after algebra_demo)) as Hr by (apply after_reachable; eexists; vm_compute; reflexivity).
  repeat (apply Forall2_cons; split); [..|by apply Forall2_nil]; (split; [apply holds_set_is; [done|by vm_compute]|set_solver]).
Qed.
(** a missing key does not count as the empty set, and one key alone gives nothing *)
Theorem C26_missing_refuted :
  replies [["SADD"; "a"; "x"]; ["SUNION"; "a"; "nokey"]; ["SDIFF"; "a"; "nokey"]; ["SUNION"; "a"]; ["SUNIONSTORE"; "b"; "a"; "nokey"]] =
  Some [Some (RInt 1); Some (RArr []); Some (RArr []); Some (RArr []); Some (RError (err_msg ErrNil))].
Proof. by vm_compute. Qed.

(** ** C27: stored results *)
(** With two or more sources the stored set is a copy: whatever happens afterwards to other keys, the stored set keeps
    its members ([touched]: the request writes the key, or shares it as the only source of another STORE). *)
Theorem C27_copy ext d o dst k1 k2 ks X1 X2 Xs c d1 r h d' rs : reachable ext d → Forall2 (full_set ext d) (k1 :: k2 :: ks) (X1 :: X2 :: Xs) →
  ask ext c (store_name o :: dst :: k1 :: k2 :: ks) d = Ret (d1, r) → talk ext h d1 = Ret (d', rs) → Forall (λ x, dst ∉ touched x.2) h →
  ∃ R : gset string, (∀ x, x ∈ R ↔ in_result o X1 (X2 :: Xs) x) ∧ set_is ext d1 dst R ∧ set_is ext d' dst R.
Proof.
  intros Hr F H1 H2 Fh. apply reachable_inv in Hr as I. exists (foldl (apply_op o) X1 (X2 :: Xs)). split; [apply fold_result|].
  destruct (store_ask ext c d o dst k1 k2 ks X1 X2 Xs I F) as (s' & R & E). rewrite E in H1. injection H1 as <- <-.
  split; [eapply set_is_of; [by apply new_set_obj|done]|].
  assert (sim (Db (sm_set (db_keys d) dst (VSet (db_fresh d))) (<[db_fresh d := s']> (db_sets d)) (S (db_fresh d)))
    (<[dst := ASet (foldl (apply_op o) X1 (X2 :: Xs)) 0]> (coarse d))) as Sm.
  { apply sim_new_set; [by apply coarse_sim|by eexists|done]. }
  destruct (talk_behaves_any ext h _ _ d' rs Sm H2) as (m' & B & Sm').
  assert (∀ hs m rs0 m0, behaves ext true m hs rs0 m0 → Forall (λ x, dst ∉ touched x) hs → m0 !! dst = m !! dst) as Same.
  { clear. induction hs as [|req hs IH]; intros m rs0 m0 B F; [by inversion B|]. inversion B as [|? ? r m1 ? rs1 ? V B1]; subst.
    apply Forall_cons in F as [F1 F]. rewrite (IH _ _ _ B1 F). by rewrite (sstep_other _ _ _ _ _ _ dst V). }
  pose proof (Same _ _ _ _ B ltac:(by apply Forall_fmap)) as E'. rewrite lookup_insert in E'.
  pose proof (sim_at d' m' dst Sm') as At. rewrite E' in At. destruct At as (p & st & Hg & Hst & R'). by eapply set_is_of.
Qed.
(** and the sources stay as they are whatever happens to the copy, as long as no set was shared by a STORE from a single
    source (otherwise [C27_refuted]) *)
Theorem C27_sources ext h1 h2 d d' rs1 rs2 k X : talk ext h1 db_new = Ret (d, rs1) → talk ext h2 d = Ret (d', rs2) →
  (∀ req k', req ∈ h2.*2 → k' ∈ writes req → ¬ linked ((h1 ++ h2).*2) k k') → set_is ext d k X → set_is ext d' k X.
Proof.
  intros H1 H2 Fk [Ht Hm]. pose proof (C13_frame_linked ext h1 h2 d d' rs1 rs2 k H1 H2 Fk) as V.
  assert (reachable ext d') as Hr. { exists (h1 ++ h2), (rs1 ++ rs2). rewrite talk_app, H1. cbn [obind]. by rewrite H2. }
  apply reachable_inv in Hr as I'.
  assert (∀ name a r, to_lower name ∈ questions → bool_decide (to_lower name ∈ read_only) = true → answers ext d (name :: k :: a) r → answers ext d' (name :: k :: a) r) as Q.
  { intros name a r Hq Hro Ha c. specialize (Ha c). specialize (V name a c Hq). unfold reply_to in V. rewrite Ha in V. cbn [obind] in V.
    destruct (ask ext c (name :: k :: a) d') as [[d2 r2]| |] eqn:E; try done. cbn [obind] in V. injection V as <-.
    rewrite (ask_reads ext c (name :: k :: a) d' d2 (Some r) I'); [done| | |done]; [unfold writes; by rewrite Hro|by apply read_only_plain]. }
  split; [apply (Q "TYPE"); [by apply (elem_of_list_lookup_2 _ 1)|done|done]|].
  intros v. apply (Q "SISMEMBER"); [by apply (elem_of_list_lookup_2 _ 6)|done|done].
Qed.
Theorem C27_single_source ext d o dst k X : reachable ext d → full_set ext d k X →
  does ext d [store_name o; dst; k] (RInt (Z.of_nat (size X))) (λ d', set_is ext d' dst X ∧ set_is ext d' k X) ∨
  ∃ n, does ext d [store_name o; dst; k] (RInt n) (λ d', set_is ext d' dst X ∧ set_is ext d' k X) ∧ Z.of_nat (size X) < n.
Proof.
  intros Hr Hf. apply reachable_inv in Hr as I. destruct (full_load ext d k X I Hf) as (p & s & dr & [O1 O2] & R & E).
  assert (does ext d [store_name o; dst; k] (RInt (ms_len s)) (λ d', set_is ext d' dst X ∧ set_is ext d' k X)) as D.
  { intros c. assert (ask ext c [store_name o; dst; k] d = let* (d', r) := c_setop_store c (go_op o) [dst; k] d in Ret (d', view (reply_of r))) as ->.
    { destruct o; by apply ask_cmd. }
    unfold c_setop_store. change (fewer [dst; k] 2) with false. change (length [dst; k] =? 1)%nat with false. cbv iota.
    change (arg [dst; k] 0) with (Ret dst). change (drop 1 [dst; k]) with [k]. cbn [obind]. unfold SOpStore. cbn [set_fold]. rewrite E.
    cbn [obind acc_set set_fold]. eexists. split; [done|].
    assert (∀ k', sm_get (sm_set (db_keys d) dst (VSet p)) k' = if bool_decide (k' = dst) then Some (VSet p) else sm_get (db_keys d) k') as G by (intros k'; by apply sm_get_set, I).
    split; (eapply set_is_of; [split; [simpl; rewrite G|done]|done]); [by rewrite bool_decide_eq_true_2|by case_bool_decide]. }
  destruct R as (_ & _ & L). rewrite L in D. unfold counted in D. destruct dr as [|dr].
  - left. by rewrite Z.add_0_r in D.
  - right. eexists. split; [done|]. lia.
Qed.
(** From then on the two keys are one set: every question about the one is answered as about the other, until one of
    them is replaced. *)
Theorem C27_one_set ext d o dst src X c d1 r h d2 rs name a c' : reachable ext d → full_set ext d src X →
  ask ext c [store_name o; dst; src] d = Ret (d1, r) → talk ext h d1 = Ret (d2, rs) →
  Forall (λ x, ¬ replaces dst x.2 ∧ ¬ replaces src x.2) h → to_lower name ∈ questions →
  reply_to ext c' (name :: dst :: a) d2 = reply_to ext c' (name :: src :: a) d2.
Proof.
  intros Hr Hf H1 H2 F Hq. apply reachable_inv in Hr as I. destruct (full_load ext d src X I Hf) as (p & s & dr & [O1 O2] & R & E).
  pose proof (ask_inv _ _ _ _ _ _ I H1) as I1.
  assert (ask ext c [store_name o; dst; src] d = let* (d', r) := c_setop_store c (go_op o) [dst; src] d in Ret (d', view (reply_of r))) as K.
  { destruct o; by apply ask_cmd. }
  rewrite K in H1. unfold c_setop_store in H1. change (fewer [dst; src] 2) with false in H1. change (length [dst; src] =? 1)%nat with false in H1. cbv iota in H1.
  change (arg [dst; src] 0) with (Ret dst) in H1. change (drop 1 [dst; src]) with [src] in H1. cbn [obind] in H1. unfold SOpStore in H1. cbn [set_fold] in H1. rewrite E in H1.
  cbn [obind acc_set set_fold] in H1. injection H1 as <- _.
  assert (sm_get (db_keys (put dst (VSet p) d)) dst = Some (VSet p) ∧ sm_get (db_keys (put dst (VSet p) d)) src = Some (VSet p)) as [G1 G2].
  { unfold put. cbn [db_keys]. rewrite !sm_get_set by apply I. rewrite bool_decide_eq_true_2 by done. split; [done|]. by case_bool_decide. }
  remember (put dst (VSet p) d) as d0 eqn:Ed. clear Ed.
  assert (dbinv d2 ∧ sm_get (db_keys d2) dst = Some (VSet p) ∧ sm_get (db_keys d2) src = Some (VSet p)) as (I2 & K1 & K2).
  { clear K O1 O2 E R I Hf Hr d. revert d0 rs I1 G1 G2 H2. induction h as [|[c1 req] h IH]; intros d rs I1 G1 G2 H2; [by injection H2 as <- _|]. cbn [talk] in H2.
    apply obind_ret in H2 as ([d3 r3] & E1 & H2). apply obind_ret in H2 as ([d4 rs3] & E2 & H2). injection H2 as <- _.
    apply Forall_cons in F as [[F1 F2] F]. eapply (IH F d3); [by eapply ask_inv|by eapply set_stays|by eapply set_stays|done]. }
  symmetry. apply held_same; [done|done| |done]. unfold held. by rewrite K1, K2.
Qed.
Example C27_demo : Forall (λ x, "b"%string ∉ touched x.2) (plain_history [["SREM"; "a"; "1"]; ["DEL"; "c"]]) ∧
  replies [["SADD"; "a"; "1"; "2"]; ["SADD"; "c"; "2"]; ["SUNIONSTORE"; "b"; "a"; "c"]; ["SREM"; "a"; "1"]; ["DEL"; "c"]; ["SMEMBERS"; "b"]; ["SADD"; "b"; "9"]; ["SMEMBERS"; "a"]] =
  Some [Some (RInt 2); Some (RInt 1); Some (RInt 2); Some (RInt 1); Some (RInt 1); Some (bulks ["2"; "1"]); Some (RInt 1); Some (bulks ["2"])].
Proof.
  split; [|by vm_compute]. unfold plain_history. rewrite !fmap_cons, fmap_nil. repeat (apply Forall_cons; split); [..|by apply Forall_nil]; cbn [snd];
    (apply (bool_decide_eq_false_1 _); by vm_compute).
Qed.
Example C27_one_set_demo : full_set ext0 (after [["SADD"; "a"; "1"]]) "a" {["1"]} ∧
  Forall (λ x, ¬ replaces "b" x.2 ∧ ¬ replaces "a" x.2) (plain_history [["SADD"; "b"; "2"]; ["SET"; "c"; "x"]; ["SREM"; "a"; "1"]]) ∧
  replies [["SADD"; "a"; "1"]; ["SUNIONSTORE"; "b"; "a"]; ["SADD"; "b"; "2"]; ["SET"; "c"; "x"]; ["SREM"; "a"; "1"]; ["SMEMBERS"; "b"]; ["SMEMBERS"; "a"]] =
  Some [Some (RInt 1); Some (RInt 1); Some (RInt 1); Some (RStatus "OK"); Some (RInt 1); Some (bulks ["2"]); Some (bulks ["2"])].
Proof.
  split; [|split; [|by vm_compute]].
  - assert (reachable ext0 (after [["SADD"; "a"; "1"]])) as Hr by (apply after_reachable; eexists; vm_compute; reflexivity).
    split; [apply holds_set_is; [done|by vm_compute]|set_solver].
  - unfold plain_history. rewrite !fmap_cons, fmap_nil. repeat (apply Forall_cons; split); [..|by apply Forall_nil]; cbn [snd];
      (split; intros [H1 H2]; first [revert H1; apply (bool_decide_eq_false_1 _); by vm_compute|revert H2; apply (bool_decide_eq_false_1 _); by vm_compute]).
Qed.
Theorem C27_refuted : replies [["SADD"; "a"; "1"]; ["SUNIONSTORE"; "b"; "a"]; ["SADD"; "b"; "2"]; ["SISMEMBER"; "a"; "2"]] =
  Some [Some (RInt 1); Some (RInt 1); Some (RInt 1); Some (RInt 1)].
Proof. by vm_compute. Qed.

(** ** C28: SPOP and SMOVE *)
Theorem C28_spop ext d k X a n c : reachable ext d → set_is ext d k X → parse_int a = Some n →
  ∃ l d', ask ext c ["SPOP"; k; a] d = Ret (d', Some (bulks l)) ∧ NoDup l ∧ (∀ x, x ∈ l → x ∈ X) ∧
    length l = Nat.min (Z.to_nat n) (size X) ∧ set_is ext d' k (X ∖ list_to_set l).
Proof.
  intros Hr Hs Ha. apply reachable_inv in Hr as I. destruct (set_is_obj ext d k X I Hs) as (p & s & dr & O & R).
  rewrite (ask_cmd ext c "SPOP" [k; a] d _ eq_refl). unfold c_spop. change (fewer [k; a] 1) with false. cbv iota.
  assert (opt_count [k; a] 0 = Ret (Ok n)) as -> by (unfold opt_count; simpl; by rewrite Ha). change (arg [k; a] 0) with (Ret k). cbn [obind].
  unfold SPop. rewrite (load_set_obj d k p s true O). cbn [andb obind]. destruct (Z.eqb_spec (ms_len s) 0) as [E|E].
  - destruct (rep_len0 s X dr R E) as [-> ->]. cbn [obind]. exists [], d. split; [done|]. split; [constructor|].
    split; [intros x Hx; by apply elem_of_nil in Hx|]. split; [rewrite (size_empty (C := gset string)); cbn [length]; lia|].
    assert (∅ ∖ list_to_set [] = (∅ : gset string)) as -> by set_solver. done.
  - destruct (ms_pop_ok (ch_ord c 0%nat) n s X dr R) as (s' & l & E' & Hn & Hsub & Hlen & R'). cbn [obind]. rewrite E'. cbn [obind]. exists l, (put_set p s' d).
    split; [unfold reply; cbn [obind]; f_equal; f_equal; apply view_strings|]. split; [done|]. split; [done|]. split; [done|].
    eapply set_is_of; [by eapply put_set_obj|done].
Qed.
(** every member can be the one popped: the choice is the scheduler's *)
Theorem C28_smove ext h d rs src dst v X : talk ext h db_new = Ret (d, rs) → ¬ linked h.*2 src dst →
  set_is ext d src X → v ∈ X →
  (∀ Y, set_is ext d dst Y → does ext d ["SMOVE"; src; dst; v] (RInt (if bool_decide (v ∈ Y) then 0 else 1))
      (λ d', set_is ext d' src (X ∖ {[v]}) ∧ set_is ext d' dst (Y ∪ {[v]}))) ∧
  (answers ext d ["EXISTS"; dst] (RInt 0) → does ext d ["SMOVE"; src; dst; v] (RInt 1)
      (λ d', set_is ext d' src (X ∖ {[v]}) ∧ set_is ext d' dst {[v]})).
Proof.
  intros Ht F Hs Hv. assert (reachable ext d) as Hr by (by exists h, rs). apply reachable_inv in Hr as I.
  assert (src ≠ dst) as Hne by (intros ->; apply F, rtc_refl).
  assert (shared_within (linked h.*2) d) as U by (by eapply talk_linked).
  destruct (set_is_obj ext d src X I Hs) as (p & s & dr & O & R). pose proof O as [O1 O2].
  pose proof (ms_take_rep s X dr v R Hv) as R1. set (s1 := MSet (sm_delete (ms_m s) v) (ms_len s)) in *.
  assert (E0 : SMove src dst v d = SAdd dst [v] (put_set p s1 d)).
  { unfold SMove. rewrite (load_set_obj d src p s true O). cbn [andb obind]. destruct (Z.eqb_spec (ms_len s) 0) as [E|E].
    - destruct (rep_len0 s X dr R E) as [-> _]. set_solver.
    - cbn [obind]. rewrite sm_delete_if_exists_map by apply R. apply (set_rep_in _ _ _ v R) in Hv as [u Hu]. by rewrite Hu. }
  split.
  - intros Y HY c. destruct (set_is_obj ext d dst Y I HY) as (q & t & dr2 & [P1 P2] & R2). assert (q ≠ p) as Hqp by (intros ->; apply F; by eapply U).
    rewrite (ask_cmd ext c "SMOVE" [src; dst; v] d _ eq_refl). unfold c_smove. change (fewer [src; dst; v] 3) with false.
    change (arg [src; dst; v] 0) with (Ret src). change (arg [src; dst; v] 1) with (Ret dst). change (arg [src; dst; v] 2) with (Ret v). cbn [obind]. rewrite E0.
    assert (set_obj (put_set p s1 d) dst q t) as O' by (split; [done|]; simpl; by rewrite lookup_insert_ne).
    destruct (sadd_set (put_set p s1 d) dst q t Y dr2 [v] O' R2) as (t' & E & R'). rewrite E. cbn [obind]. eexists. split.
    { unfold reply. cbn [obind]. f_equal. f_equal. cbn [view]. assert (size ((list_to_set [v] : gset string) ∖ Y) = if bool_decide (v ∈ Y) then 0%nat else 1%nat) as ->; [|by case_bool_decide].
      case_bool_decide; [replace ((list_to_set [v] : gset string) ∖ Y) with (∅ : gset string) by set_solver; apply size_empty|].
      replace ((list_to_set [v] : gset string) ∖ Y) with ({[v]} : gset string) by set_solver. apply size_singleton. }
    split.
    + eapply (set_is_of ext _ src p s1); [|done]. split; [done|]. simpl. rewrite lookup_insert_ne by done. by rewrite lookup_insert.
    + replace (Y ∪ {[v]}) with (Y ∪ list_to_set [v]) by set_solver. eapply set_is_of; [by eapply put_set_obj|done].
  - intros Ha c. apply absent_get in Ha.
    rewrite (ask_cmd ext c "SMOVE" [src; dst; v] d _ eq_refl). unfold c_smove. change (fewer [src; dst; v] 3) with false.
    change (arg [src; dst; v] 0) with (Ret src). change (arg [src; dst; v] 1) with (Ret dst). change (arg [src; dst; v] 2) with (Ret v). cbn [obind]. rewrite E0.
    destruct (sadd_none (put_set p s1 d) dst [v] Ha) as (t' & E & R'). rewrite E. cbn [obind]. eexists. split.
    { unfold reply. cbn [obind]. f_equal. f_equal. cbn [view]. replace (list_to_set [v] : gset string) with ({[v]} : gset string) by set_solver. by rewrite size_singleton. }
    split.
    + eapply (set_is_of ext _ src p s1); [|done]. split; [simpl; rewrite sm_get_set by apply I; by rewrite bool_decide_eq_false_2|]. simpl.
      rewrite lookup_insert_ne; [by rewrite lookup_insert|]. apply not_eq_sym. by eapply fresh_other.
    + replace ({[v]} : gset string) with (list_to_set [v] : gset string) by set_solver. eapply set_is_of; [|done].
      split; simpl; [rewrite sm_get_set by apply I; by rewrite bool_decide_eq_true_2|by rewrite lookup_insert].
Qed.
(** a member that is not there, or a missing source: an error, and nothing changes *)
Theorem C28_smove_absent ext d src dst v X : reachable ext d → set_is ext d src X → v ∉ X →
  answers ext d ["SMOVE"; src; dst; v] (RError (err_msg ErrNil)).
Proof.
  intros Hr Hs Hv c. apply reachable_inv in Hr as I. destruct (set_is_obj ext d src X I Hs) as (p & s & dr & O & R).
  rewrite (ask_cmd ext c "SMOVE" [src; dst; v] d _ eq_refl). unfold c_smove. change (fewer [src; dst; v] 3) with false.
  change (arg [src; dst; v] 0) with (Ret src). change (arg [src; dst; v] 1) with (Ret dst). change (arg [src; dst; v] 2) with (Ret v). cbn [obind].
  unfold SMove. rewrite (load_set_obj d src p s true O). cbn [andb obind]. destruct (Z.eqb_spec (ms_len s) 0) as [E|E]; [done|].
  cbn [obind]. rewrite sm_delete_if_exists_map by apply R. destruct (sm_map (ms_m s) !! v) eqn:Ev; [|done].
  exfalso. apply Hv. apply (set_rep_in _ _ _ v R). eauto.
Qed.
Example C28_demo : ¬ linked [["SADD"; "k"; "a"; "b"; "c"]] "k" "j" ∧ set_is ext0 (after [["SADD"; "k"; "a"; "b"; "c"]]) "k" {[ "a"; "b"; "c" ]} ∧
  replies [["SADD"; "k"; "a"; "b"; "c"]; ["SADD"; "j"; "x"]; ["SMOVE"; "k"; "j"; "b"]; ["SMEMBERS"; "j"]; ["SMOVE"; "k"; "j"; "zz"]; ["SPOP"; "k"; "9"]; ["SPOP"; "k"; "9"]] =
  Some [Some (RInt 3); Some (RInt 1); Some (RInt 1); Some (bulks ["x"; "b"]); Some (RError (err_msg ErrNil)); Some (bulks ["c"; "a"]); Some (RArr [])].
Proof.
  split.
  { intros Hl. apply rtc_inv in Hl as [?|(y & Hxy & _)]; [done|].
    destruct Hxy as [(n & Hi & _)|(n & Hi & _)]; apply elem_of_list_singleton in Hi; discriminate Hi. }
  split; [|by vm_compute]. pose proof (set_is_sadd "a" ["b"; "c"]) as H.
  replace ({[ "a"; "b"; "c" ]} : gset string) with (list_to_set ["a"; "b"; "c"] : gset string) by set_solver. done.
Qed.
(** without a count SPOP pops nothing *)
Theorem C28_spop_default ext d k X : reachable ext d → set_is ext d k X → does ext d ["SPOP"; k] (RArr []) (λ d', set_is ext d' k X).
Proof.
  intros Hr Hs c. apply reachable_inv in Hr as I. destruct (set_is_obj ext d k X I Hs) as (p & s & dr & O & R).
  rewrite (ask_cmd ext c "SPOP" [k] d _ eq_refl). unfold c_spop, opt_count. change (fewer [k] 1) with false. cbn [length Nat.ltb Nat.leb arg lookup list_lookup deref obind].
  unfold SPop. rewrite (load_set_obj d k p s true O). cbn [andb obind]. destruct (Z.eqb_spec (ms_len s) 0) as [E|E].
  - cbn [obind]. by exists d.
  - destruct (ms_pop_ok (ch_ord c 0%nat) 0 s X dr R) as (s' & l & E' & Hn & Hsub & Hlen & R'). cbn [obind]. rewrite E'. cbn [obind].
    rewrite Nat.min_0_l in Hlen. apply nil_length_inv in Hlen as ->. exists (put_set p s' d). split; [done|].
    replace X with (X ∖ list_to_set []) by set_solver. eapply set_is_of; [by eapply put_set_obj|done].
Qed.
(** SMOVE to a key of another type: an error, and the member is lost *)
Theorem C28_smove_lost ext d src dst v X t : reachable ext d → set_is ext d src X → v ∈ X →
  type_is ext d dst t → t ≠ "none"%string → t ≠ "setIfNotExists"%string →
  does ext d ["SMOVE"; src; dst; v] (RError (err_msg ErrTypeMismatch)) (λ d', set_is ext d' src (X ∖ {[v]})).
Proof.
  intros Hr Hs Hv Ht H1 H2 c. apply reachable_inv in Hr as I. destruct (set_is_obj ext d src X I Hs) as (p & s & dr & O & R). pose proof O as [O1 O2].
  pose proof (ms_take_rep s X dr v R Hv) as R1. set (s1 := MSet (sm_delete (ms_m s) v) (ms_len s)) in *.
  assert (E0 : SMove src dst v d = SAdd dst [v] (put_set p s1 d)).
  { unfold SMove. rewrite (load_set_obj d src p s true O). cbn [andb obind]. destruct (Z.eqb_spec (ms_len s) 0) as [E|E].
    - destruct (rep_len0 s X dr R E) as [-> _]. set_solver.
    - cbn [obind]. rewrite sm_delete_if_exists_map by apply R. apply (set_rep_in _ _ _ v R) in Hv as [u Hu]. by rewrite Hu. }
  rewrite (ask_cmd ext c "SMOVE" [src; dst; v] d _ eq_refl). unfold c_smove. change (fewer [src; dst; v] 3) with false.
  change (arg [src; dst; v] 0) with (Ret src). change (arg [src; dst; v] 1) with (Ret dst). change (arg [src; dst; v] 2) with (Ret v). cbn [obind]. rewrite E0.
  unfold SAdd, load_set. apply type_is_get in Ht. change (db_keys (put_set p s1 d)) with (db_keys d).
  destruct (sm_get (db_keys d) dst) as [w|] eqn:Ed; [|done].
  exists (put_set p s1 d). split; [by destruct w; subst|]. eapply set_is_of; [by eapply put_set_obj|done].
Qed.
(** SMOVE from a set to itself keeps the member *)
Theorem C28_smove_self ext d k v X : reachable ext d → set_is ext d k X → v ∈ X → does ext d ["SMOVE"; k; k; v] (RInt 1) (λ d', set_is ext d' k X).
Proof.
  intros Hr Hs Hv c. apply reachable_inv in Hr as I. destruct (set_is_obj ext d k X I Hs) as (p & s & dr & O & R). pose proof O as [O1 O2].
  pose proof (ms_take_rep s X dr v R Hv) as R1. set (s1 := MSet (sm_delete (ms_m s) v) (ms_len s)) in *.
  assert (E0 : SMove k k v d = SAdd k [v] (put_set p s1 d)).
  { unfold SMove. rewrite (load_set_obj d k p s true O). cbn [andb obind]. destruct (Z.eqb_spec (ms_len s) 0) as [E|E].
    - destruct (rep_len0 s X dr R E) as [-> _]. set_solver.
    - cbn [obind]. rewrite sm_delete_if_exists_map by apply R. apply (set_rep_in _ _ _ v R) in Hv as [u Hu]. by rewrite Hu. }
  rewrite (ask_cmd ext c "SMOVE" [k; k; v] d _ eq_refl). unfold c_smove. change (fewer [k; k; v] 3) with false.
  change (arg [k; k; v] 0) with (Ret k). change (arg [k; k; v] 1) with (Ret k). change (arg [k; k; v] 2) with (Ret v). cbn [obind]. rewrite E0.
  assert (set_obj (put_set p s1 d) k p s1) as O' by (split; [done|]; simpl; by rewrite lookup_insert).
  destruct (sadd_set (put_set p s1 d) k p s1 (X ∖ {[v]}) _ [v] O' R1) as (t' & E & R'). rewrite E. cbn [obind]. eexists. split.
  { unfold reply. cbn [obind]. f_equal. f_equal. cbn [view]. assert (size ((list_to_set [v] : gset string) ∖ (X ∖ {[v]})) = 1%nat) as ->; [|done].
    replace ((list_to_set [v] : gset string) ∖ (X ∖ {[v]})) with ({[v]} : gset string) by set_solver. apply size_singleton. }
  assert (X = X ∖ {[v]} ∪ list_to_set [v]) as ->; [|eapply set_is_of; [by eapply put_set_obj|done]].
  apply set_eq. intros x. rewrite elem_of_union, elem_of_difference, elem_of_list_to_set, elem_of_list_singleton, elem_of_singleton. destruct (decide (x = v)) as [->|]; tauto.
Qed.
(** SPOP without a count pops nothing; SMOVE to a key of another type answers an error and loses the member *)
Theorem C28_refuted :
  replies [["SADD"; "k"; "a"; "b"]; ["SPOP"; "k"]] = Some [Some (RInt 2); Some (RArr [])] ∧
  replies [["SADD"; "k"; "a"; "b"]; ["SET"; "s"; "v"]; ["SMOVE"; "k"; "s"; "a"]; ["SISMEMBER"; "k"; "a"]] =
    Some [Some (RInt 2); Some (RStatus "OK"); Some (RError (err_msg ErrTypeMismatch)); Some (RInt 0)].
Proof. by vm_compute. Qed.
