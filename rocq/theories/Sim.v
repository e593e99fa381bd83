(** The relation between the model's database and the abstract keyspace of SpecServer.v, and the basic
    steps that keep it. *)
From Verif Require Import GoBase GoBaseProofs ShardMap ShardMapProofs Float64 Float64Proofs DList DListProofs
  SkipList SkipListProofs SkipListOps SkipListMore Db Protocol Redis SpecCmd SpecResp SpecList SpecZSet SpecServer
  SetRep DbInv ExecSteps Obs RespProofs.

(** a sorted set object: the skip list holds the pairs; the dictionary points to their nodes, and the
    entries of ghosts to nodes no longer in the list *)
Record zrep_with (z : zset) (es : list zkey) (gh : gmap string float) (ents : list ent) : Prop := {
  zr_keys : e_key <$> ents = es;
  zr_inv : zinv (zs_sl z) ents;
  zr_low : (sl_level (zs_sl z) < max_level)%nat;
  zr_wf : sm_wf (zs_m z);
  zr_uniq : NoDup (e_val <$> ents);
  zr_in : ∀ e, e ∈ ents → sm_map (zs_m z) !! e_val e = Some (e_id e);
  zr_out : ∀ v p, sm_map (zs_m z) !! v = Some p →
    (∃ e, e ∈ ents ∧ e_val e = v ∧ e_id e = p) ∨
    (∃ f, gh !! v = Some f ∧ zi_score <$> sl_nodes (zs_sl z) !! p = Some f ∧ p ∉ (e_id <$> ents));
  zr_gh : ∀ v f, gh !! v = Some f → v ∉ (e_val <$> ents) ∧ is_Some (sm_map (zs_m z) !! v)
}.
Definition zrep (z : zset) (es : list zkey) (gh : gmap string float) : Prop := ∃ ents, zrep_with z es gh ents.

Definition list_rep (l : dlist) (xs : list string) (w : wear) : Prop :=
  match w with
  | Sound => Rep l xs
  | HeadLost => xs = [] ∧ HEmpty l
  | TailLost => xs = [] ∧ TEmpty l
  end.
Definition rep_val (v : content) (a : aval) : Prop :=
  match v, a with
  | CStr s, AStr s' => s = s'
  | CList l, AList xs w => list_rep l xs w
  | CSet s, ASet X dr => set_rep s X dr
  | CZSet z, AZSet es gh => zrep z es gh
  | _, ADamaged => True
  | _, _ => False
  end.
Definition rep_key (v : option content) (a : option aval) : Prop :=
  match v, a with
  | None, None => True
  | Some v, Some a => rep_val v a
  | _, _ => False
  end.
(** only damaged keys may share a set object with another key *)
Record sim (d : db) (m : kspace) : Prop := {
  sim_inv : dbinv d;
  sim_un : ∀ k1 k2 p, sm_get (db_keys d) k1 = Some (VSet p) → sm_get (db_keys d) k2 = Some (VSet p) →
    k1 = k2 ∨ m !! k1 = Some ADamaged;
  sim_rep : ∀ k, rep_key (held d k) (m !! k)
}.

Lemma sim_new : sim db_new ∅.
Proof.
  split; [apply dbinv_new| |].
  - intros k1 k2 p H1 H2. left. by apply (unaliased_new k1 k2 p).
  - intros k. unfold held. simpl.
    rewrite sm_get_map by apply sm_wf_new. rewrite sm_new_map, lookup_empty. by rewrite lookup_empty.
Qed.

(** ** reading *)
Lemma sim_at d m k : sim d m → match m !! k with
  | None => sm_get (db_keys d) k = None
  | Some (AStr s) => sm_get (db_keys d) k = Some (VStr s)
  | Some (AList xs w) => ∃ l, sm_get (db_keys d) k = Some (VList l) ∧ list_rep l xs w
  | Some (ASet X dr) => ∃ p s, sm_get (db_keys d) k = Some (VSet p) ∧ db_sets d !! p = Some s ∧ set_rep s X dr
  | Some (AZSet es gh) => ∃ z, sm_get (db_keys d) k = Some (VZSet z) ∧ zrep z es gh
  | Some ADamaged => ∃ v, sm_get (db_keys d) k = Some v
  end.
Proof.
  intros [I U R]. specialize (R k). unfold held in R.
  destruct (sm_get (db_keys d) k) as [[s|l|p|z|h]|] eqn:E, (m !! k) as [[]|]; simpl in R; try done; eauto;
    try (destruct (db_sets d !! p) eqn:Ep; simpl in R; done || eauto).
  - by subst.
  - exfalso. destruct (inv_ptr d I k p E) as [s Hs]. congruence.
Qed.

Lemma sim_not_hash d m k h : sim d m → sm_get (db_keys d) k ≠ Some (VHash h).
Proof. intros S. apply (inv_nohash d (sim_inv _ _ S)). Qed.

(** a present key has a content *)
Lemma held_some d k v : dbinv d → sm_get (db_keys d) k = Some v → is_Some (held d k).
Proof.
  intros I E. unfold held. rewrite E. destruct v; try (by eexists).
  destruct (inv_ptr d I k p E) as [s ->]. by eexists.
Qed.
Lemma rep_damaged v : is_Some v → rep_key v (Some ADamaged).
Proof. intros [x ->]. by destruct x. Qed.

(** ** writing *)
Definition content_of (v : value) : option content :=
  match v with VStr s => Some (CStr s) | VList l => Some (CList l) | VZSet z => Some (CZSet z) | _ => None end.

Lemma held_put k v c d : dbinv d → content_of v = Some c → held (put k v d) k = Some c.
Proof.
  intros I Hc. unfold held, put. simpl. rewrite sm_get_set by apply I. rewrite bool_decide_eq_true_2 by done.
  destruct v; simpl in Hc; try discriminate Hc; by injection Hc as <-.
Qed.
Lemma held_other d d' k k' : dbinv d → db_sets d' = db_sets d → sm_get (db_keys d') k = sm_get (db_keys d) k →
  k' = k → held d' k' = held d k'.
Proof. intros I E1 E2 ->. unfold held. by rewrite E2, E1. Qed.

Lemma sim_put k v c a d m : sim d m → content_of v = Some c → rep_val c a → sim (put k v d) (<[k := a]> m).
Proof.
  intros [I U R] Hc Ha. split.
  - eapply (dstep_inv true false [k]); [|done]. apply (st_put _ _ d k v); [by left|]. by destruct v.
  - intros k1 k2 p. unfold put. simpl. rewrite !sm_get_set by apply I.
    case_bool_decide; [intros [= ->]; done|]. case_bool_decide; [intros _ [= ->]; done|].
    intros H1 H2. destruct (U _ _ _ H1 H2) as [->|H3]; [by left|right]. by rewrite lookup_insert_ne.
  - intros k'. destruct (decide (k' = k)) as [->|Hk].
    + rewrite lookup_insert, (held_put k v c) by done. done.
    + rewrite lookup_insert_ne by done. specialize (R k'). unfold held, put in *. simpl.
      rewrite sm_get_set by apply I. by rewrite bool_decide_eq_false_2.
Qed.
Lemma sim_put_str k s d m : sim d m → sim (put k (VStr s) d) (<[k := AStr s]> m).
Proof. intros S. by apply (sim_put k (VStr s) (CStr s)). Qed.
Lemma sim_put_list k l xs w d m : sim d m → list_rep l xs w → sim (put k (VList l) d) (<[k := AList xs w]> m).
Proof. intros S H. by apply (sim_put k (VList l) (CList l)). Qed.
Lemma sim_put_zset k z es gh d m : sim d m → zrep z es gh → sim (put k (VZSet z) d) (<[k := AZSet es gh]> m).
Proof. intros S H. by apply (sim_put k (VZSet z) (CZSet z)). Qed.

Lemma held_put_set_ne d k p s : dbinv d → sm_get (db_keys d) k ≠ Some (VSet p) → held (put_set p s d) k = held d k.
Proof.
  intros I H. unfold held, put_set. simpl. destruct (sm_get (db_keys d) k) as [[]|] eqn:E; try done.
  rewrite lookup_insert_ne; [done|]. congruence.
Qed.
Lemma sim_put_set k p s a d m : sim d m → sm_get (db_keys d) k = Some (VSet p) → set_ok s →
  rep_val (CSet s) a → (m !! k = Some ADamaged → a = ADamaged) →
  sim (put_set p s d) (<[k := a]> m).
Proof.
  intros [I U R] Hg Hw Hs Hd. assert (I' : dbinv (put_set p s d)).
  { eapply (dstep_inv true false [k]); [|done]. destruct (inv_ptr d I k p Hg) as [s0 Hs0]. by apply (st_set _ _ d k p s0 s); [left|..]. }
  split; [done| |].
  - intros k1 k2 q H1 H2. simpl in H1, H2. destruct (U _ _ _ H1 H2) as [->|H3]; [by left|right].
    destruct (decide (k1 = k)) as [->|]; [rewrite lookup_insert; by rewrite Hd|by rewrite lookup_insert_ne].
  - intros k'. destruct (decide (k' = k)) as [->|Hk].
    + rewrite lookup_insert. unfold held, put_set. simpl. rewrite Hg, lookup_insert. done.
    + rewrite lookup_insert_ne by done. assert (sm_get (db_keys d) k' = Some (VSet p) ∨ sm_get (db_keys d) k' ≠ Some (VSet p)) as [E|E].
      { destruct (sm_get (db_keys d) k') as [[| |q| |]|]; try (by right).
        destruct (decide (q = p)) as [->|]; [by left|right; congruence]. }
      * destruct (U _ _ _ E Hg) as [->|H3]; [done|]. rewrite H3. apply rep_damaged. by eapply held_some.
      * rewrite held_put_set_ne by done. apply R.
Qed.

Lemma sim_new_set k s a d m : sim d m → tight s → rep_val (CSet s) a →
  sim (Db (sm_set (db_keys d) k (VSet (db_fresh d))) (<[db_fresh d := s]> (db_sets d)) (S (db_fresh d)))
      (<[k := a]> m).
Proof.
  intros [I U R] Hw Hs. assert (NF : ∀ k', sm_get (db_keys d) k' = Some (VSet (db_fresh d)) → False).
  { intros k' H. destruct (inv_ptr d I _ _ H) as [s1 H2]. pose proof (inv_heap d I _ _ H2) as [? _]. lia. }
  split.
  - eapply (dstep_inv true false [k]); [|done]. apply (st_new _ _ d k s); [by left|done].
  - intros k1 k2 q. simpl. rewrite !sm_get_set by apply I. repeat case_bool_decide; subst; [by left| | |].
    + intros [= <-] HN. by apply NF in HN.
    + intros HN [= <-]. by apply NF in HN.
    + intros H1 H2. rewrite lookup_insert_ne by done. by eapply U.
  - intros k'. destruct (decide (k' = k)) as [->|Hk].
    + rewrite lookup_insert. unfold held. simpl. rewrite sm_get_set by apply I.
      rewrite bool_decide_eq_true_2 by done. rewrite lookup_insert. done.
    + rewrite lookup_insert_ne by done. specialize (R k'). unfold held in *. simpl.
      rewrite sm_get_set by apply I. rewrite bool_decide_eq_false_2 by done.
      destruct (sm_get (db_keys d) k') as [[]|] eqn:E; try done.
      rewrite lookup_insert_ne; [done|]. intros <-. by apply NF in E.
Qed.

Lemma sim_del k d m : sim d m → sim (Db (sm_delete (db_keys d) k) (db_sets d) (db_fresh d)) (delete k m).
Proof.
  intros [I U R]. split.
  - eapply (dstep_inv true false [k]); [|done]. apply (st_del _ _ d k); by left.
  - intros k1 k2 p. simpl. rewrite !sm_get_delete by apply I. case_bool_decide; [done|]. case_bool_decide; [done|].
    intros H1 H2. rewrite lookup_delete_ne by done. by eapply U.
  - intros k'. destruct (decide (k' = k)) as [->|Hk].
    + rewrite lookup_delete. unfold held. simpl. rewrite sm_get_delete by apply I. by rewrite bool_decide_eq_true_2.
    + rewrite lookup_delete_ne by done. specialize (R k'). unfold held in *. simpl.
      rewrite sm_get_delete by apply I. by rewrite bool_decide_eq_false_2.
Qed.

(** ** damage *)
Lemma damages_refl m : damages [] m m.
Proof. intros k. by rewrite bool_decide_eq_false_2 by apply not_elem_of_nil. Qed.
Lemma damages_nil m m0 : damages [] m m0 → m0 = m.
Proof. intros H. apply map_eq. intros k. specialize (H k). by rewrite bool_decide_eq_false_2 in H by apply not_elem_of_nil. Qed.
Lemma damages_trans W m m1 m2 : damages W m m1 → damages W m1 m2 → damages W m m2.
Proof.
  intros H1 H2 k. specialize (H1 k). specialize (H2 k). destruct (bool_decide (k ∈ W)); [done|]. congruence.
Qed.
Lemma damages_at W k a m m1 : k ∈ W → (a = None ∨ a = Some ADamaged) → damages W m m1 → 
  damages W m (match a with Some x => <[k := x]> m1 | None => delete k m1 end).
Proof.
  intros Hk Ha H k'. specialize (H k'). destruct (decide (k' = k)) as [->|].
  - rewrite bool_decide_eq_true_2 by done. destruct Ha as [-> | ->]; [rewrite lookup_delete; by left|rewrite lookup_insert; by right].
  - destruct a; [by rewrite lookup_insert_ne|by rewrite lookup_delete_ne].
Qed.

(** forgetting what is known about a key *)
Lemma sim_forget k d m : sim d m → is_Some (m !! k) → sim d (<[k := ADamaged]> m).
Proof.
  intros [I U R] [a Ha]. split; [done| |].
  - intros k1 k2 p H1 H2. destruct (U _ _ _ H1 H2) as [->|H3]; [by left|right].
    destruct (decide (k1 = k)) as [->|]; [by rewrite lookup_insert|by rewrite lookup_insert_ne].
  - intros k'. specialize (R k'). destruct (decide (k' = k)) as [->|]; [|by rewrite lookup_insert_ne].
    rewrite lookup_insert. apply rep_damaged. rewrite Ha in R. by destruct (held d k).
Qed.
Lemma sim_forget_all W d m : sim d m → ∃ m', damages W m m' ∧ sim d m'.
Proof.
  induction W as [|k W IH]; intros S; [exists m; split; [apply damages_refl|done]|].
  destruct (IH S) as (m1 & D & S1). destruct (m1 !! k) as [a|] eqn:E.
  - exists (<[k := ADamaged]> m1). split; [|apply sim_forget; [done|by exists a]].
    intros k'. specialize (D k'). destruct (decide (k' = k)) as [->|Hk].
    + rewrite bool_decide_eq_true_2 by (by left). rewrite lookup_insert. by right.
    + rewrite lookup_insert_ne by done. rewrite (bool_decide_ext (k' ∈ k :: W) (k' ∈ W)); [done|].
      rewrite elem_of_cons. naive_solver.
  - exists m1. split; [|done]. intros k'. specialize (D k'). destruct (decide (k' = k)) as [->|Hk].
    + rewrite bool_decide_eq_true_2 by (by left). by left.
    + rewrite (bool_decide_ext (k' ∈ k :: W) (k' ∈ W)); [done|]. rewrite elem_of_cons. naive_solver.
Qed.
Lemma damaged_in W m m1 k a : damages W m m1 → k ∈ W → m1 !! k = Some a → a = ADamaged.
Proof. intros D Hk E. specialize (D k). rewrite bool_decide_eq_true_2 in D by done. destruct D; congruence. Qed.
Lemma damage_step W d d' m m1 : dstep false W d d' → damages W m m1 → sim d m1 → ∃ m2, damages W m m2 ∧ sim d' m2.
Proof.
  intros St D S. destruct St as [d k v Hk Hv|d k p s Hk Hg Hs|d k s Hk Hs|d k k' p Hk Hal Hg|d k Hk]; try done.
  - exists (<[k := ADamaged]> m1). split; [by apply (damages_at W k (Some ADamaged)); auto|].
    destruct v; simpl in Hv; try done; by eapply sim_put.
  - exists (<[k := ADamaged]> m1). split; [by apply (damages_at W k (Some ADamaged)); auto|].
    by apply sim_put_set.
  - exists (<[k := ADamaged]> m1). split; [by apply (damages_at W k (Some ADamaged)); auto|].
    by apply sim_new_set.
  - exists (delete k m1). split; [by apply (damages_at W k None); auto|]. by apply sim_del.
Qed.
Lemma damage_steps W d d' m : dsteps false W d d' → sim d m → ∃ m', damages W m m' ∧ sim d' m'.
Proof.
  intros St S. destruct (sim_forget_all W d m S) as (m1 & D & S1). clear S. revert m1 D S1.
  induction St as [|d d1 d2 S1 _ IH]; intros m1 D Sm; [by exists m1|].
  destruct (damage_step _ _ _ _ _ S1 D Sm) as (m2 & D2 & S2). by eapply IH.
Qed.
(** two keys that share a set object *)
Lemma sim_share k k' p d m : sim d m → sm_get (db_keys d) k' = Some (VSet p) →
  ∃ m', damages [k; k'] m m' ∧ sim (put k (VSet p) d) m'.
Proof.
  intros S Hg. destruct (sim_forget_all [k; k'] d m S) as (m1 & D & S1). clear S. destruct S1 as [I U R].
  exists (<[k := ADamaged]> m1). split; [apply (damages_at [k; k'] k (Some ADamaged)); [by left|by right|done]|].
  assert (I' : dbinv (put k (VSet p) d)).
  { eapply (dstep_inv true true [k]); [|done]. apply (st_share _ _ d k k' p); [by left|done|done]. }
  assert (Hk' : m1 !! k' = Some ADamaged).
  { pose proof (R k') as Rk. destruct (held_some d k' _ I Hg) as [c Hc]. rewrite Hc in Rk.
    destruct (m1 !! k') as [a|] eqn:Ea; [|done].
    f_equal. eapply (damaged_in [k; k']); [done| |done]. by right; left. }
  split; [done| |].
  - intros k1 k2 q. unfold put. simpl. rewrite !sm_get_set by apply I.
    case_bool_decide as H1; [subst k1; intros _ _; right; by rewrite lookup_insert|].
    intros E1. case_bool_decide as H2.
    + intros [= <-]. right. rewrite lookup_insert_ne by done. destruct (U _ _ _ E1 Hg) as [->|]; done.
    + intros E2. rewrite lookup_insert_ne by done. by eapply U.
  - intros k1. destruct (decide (k1 = k)) as [->|Hk].
    + rewrite lookup_insert. apply rep_damaged. eapply held_some; [done|]. unfold put. simpl. rewrite sm_get_set by apply I.
      by rewrite bool_decide_eq_true_2.
    + rewrite lookup_insert_ne by done. specialize (R k1). unfold held, put in *. simpl.
      rewrite sm_get_set by apply I. by rewrite bool_decide_eq_false_2.
Qed.

(** ** a command against its verdict *)
Definition meets (cr : cmd_result) (v : verdict) : Prop :=
  (v_safe v → ∃ x, cr = Ret x) ∧
  ∀ d' q, cr = Ret (d', q) → ∃ m', v_does v (view (reply_of q)) m' ∧ sim d' m'.

Lemma meets_ret d' rsp v m' : v_does v (view rsp) m' → sim d' m' → meets (reply rsp d') v.
Proof. intros Hv S. split; [intros _; by eexists|]. intros d1 q [= <- <-]. by exists m'. Qed.
Lemma meets_says rsp r d m : sim d m → view rsp = Some r → meets (reply rsp d) (says r m).
Proof. intros S Hv. apply (meets_ret _ _ _ m); [|done]. simpl. by rewrite Hv. Qed.
Lemma meets_fails e d m : sim d m → meets (fail e d) (fails e m).
Proof. intros S. split; [intros _; by eexists|]. intros d1 q [= <- <-]. by exists m. Qed.
Lemma meets_damage W cr d m : sim d m → (∀ d' q, cr = Ret (d', q) → dsteps false W d d') → meets cr (unspecified W m).
Proof.
  intros S H. split; [done|]. intros d' q E. destruct (damage_steps W d d' m (H _ _ E) S) as (m' & D & S'). by exists m'.
Qed.
Lemma meets_read cr d m : sim d m → (∀ d' q, cr = Ret (d', q) → d' = d) → meets cr (unspecified [] m).
Proof. intros S H. split; [done|]. intros d' q E. rewrite (H _ _ E). exists m. split; [apply damages_refl|done]. Qed.
Lemma meets_guard (G : Prop) cr v d m : sim d m → (∀ d' q, cr = Ret (d', q) → d' = d) →
  (∀ r m0, v_does v r m0 → m0 = m) → (G → meets cr v) → meets cr (guarded G v m).
Proof.
  intros S Hro Hm H. split; [intros [HG HS]; by apply H|]. intros d' q E. rewrite (Hro _ _ E).
  exists m. split; [|done]. split; [done|]. intros HG. destruct (H HG) as [_ H2].
  destruct (H2 _ _ E) as (m0 & V & _). by rewrite <- (Hm _ _ V).
Qed.

Lemma meets_answered (F : Prop) (R : resp → Prop) cr d m : sim d m → (∀ d' q, cr = Ret (d', q) → d' = d) →
  (F → ∃ q r, cr = Ret (d, Ok q) ∧ view q = Some r ∧ R r) → meets cr (answered F R m).
Proof.
  intros S Hro H. split; [intros HF; destruct (H HF) as (q & r & -> & _); by eexists|]. intros d' q E. rewrite (Hro _ _ E).
  exists m. split; [|done]. split; [done|]. intros HF. destruct (H HF) as (q' & r & E' & V & HR). rewrite E' in E. injection E as _ <-.
  by exists r.
Qed.

Lemma mapM_bulks l : mapM view_item ((λ v, RI (IStr v) TBulk) <$> l) = Some (RBulk <$> l).
Proof. apply mapM_Some. induction l as [|x l IH]; constructor; done. Qed.
Lemma view_strings l : view (rsp_strings l) = Some (bulks l).
Proof.
  destruct l as [|x l]; [done|]. pose proof (mapM_bulks (x :: l)) as H.
  change (RArr <$> mapM view_item ((λ v, RI (IStr v) TBulk) <$> (x :: l)) = Some (bulks (x :: l))).
  by rewrite H.
Qed.

Lemma meets_array l P d m : sim d m → NoDup l → (∀ x, x ∈ l ↔ P x) → meets (reply (rsp_strings l) d) (lists_all P m).
Proof.
  intros S Hn Hl. apply (meets_ret _ _ _ m); [|done].
  simpl. split; [done|]. exists l. by rewrite view_strings.
Qed.

(** a command known to change nothing but the keys [W] *)
Definition fmeets (W : list string) (d : db) (cr : cmd_result) (v : verdict) : Prop :=
  (∀ d' q, cr = Ret (d', q) → dsteps false W d d') → meets cr v.
Lemma framed W d cr v : (∀ d' q, cr = Ret (d', q) → dsteps false W d d') → fmeets W d cr v → meets cr v.
Proof. intros H F. by apply F. Qed.
Lemma framed_ro d cr v : (∀ d' q, cr = Ret (d', q) → d' = d) → fmeets [] d cr v → meets cr v.
Proof. intros H F. apply F. intros d' q E. rewrite (H _ _ E). apply rtc_refl. Qed.
Lemma fm W d cr v : meets cr v → fmeets W d cr v.
Proof. by intros H _. Qed.
Lemma fm_damage W d m cr : sim d m → fmeets W d cr (unspecified W m).
Proof. intros S F. by apply (meets_damage W cr d). Qed.
Lemma dsteps_nil al d d' : dsteps al [] d d' → d' = d.
Proof. induction 1 as [|d d1 d2 S1 _ IH]; [done|]. destruct S1; by match goal with H : _ ∈ [] |- _ => apply elem_of_nil in H end. Qed.
Lemma fm_guard (G : Prop) cr v d m : sim d m →
  (∀ r m0, v_does v r m0 → m0 = m) → (G → fmeets [] d cr v) → fmeets [] d cr (guarded G v m).
Proof.
  intros S Hm H F. apply (meets_guard G cr v d m); try done; [intros d' q E; by eapply dsteps_nil, F|].
  intros HG. by apply H.
Qed.
Lemma fm_answered (F : Prop) (R : resp → Prop) cr d m : sim d m →
  (F → ∃ q r, cr = Ret (d, Ok q) ∧ view q = Some r ∧ R r) → fmeets [] d cr (answered F R m).
Proof. intros S H Hf. apply (meets_answered F R cr d m); try done. intros d' q E; by eapply dsteps_nil, Hf. Qed.
