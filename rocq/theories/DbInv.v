(** Invariants of the keyspace kept by every command, and what a command may change. *)
From Verif Require Import GoBase GoBaseProofs ShardMap ShardMapProofs Float64 DList SkipList Db Protocol Redis SpecCmd SpecServer SetRep.

(** What a key holds, with the set object in place of its address. *)
Inductive content := CStr (s : string) | CList (l : dlist) | CSet (s : mset) | CZSet (z : zset) | CHash (h : htable).
Definition held (d : db) (k : string) : option content :=
  match sm_get (db_keys d) k with
  | None => None
  | Some (VStr s) => Some (CStr s)
  | Some (VList l) => Some (CList l)
  | Some (VSet p) => CSet <$> db_sets d !! p
  | Some (VZSet z) => Some (CZSet z)
  | Some (VHash h) => Some (CHash h)
  end.

Record dbinv (d : db) : Prop := {
  inv_wf : sm_wf (db_keys d);
  inv_ptr : ∀ k p, sm_get (db_keys d) k = Some (VSet p) → is_Some (db_sets d !! p);
  inv_heap : ∀ p s, db_sets d !! p = Some s → (p < db_fresh d)%nat ∧ set_ok s;
  inv_nohash : ∀ k h, sm_get (db_keys d) k ≠ Some (VHash h)
}.

Definition unaliased (d : db) : Prop :=
  ∀ k1 k2 p, sm_get (db_keys d) k1 = Some (VSet p) → sm_get (db_keys d) k2 = Some (VSet p) → k1 = k2.

Definition plain (v : value) : Prop :=
  match v with VStr _ | VList _ | VZSet _ => True | _ => False end.

(** the elementary changes; [pp] allows removing members without counting, [al] allows sharing a set object,
    [W] are the keys written *)
Inductive gstep (pp al : bool) (W : list string) : db → db → Prop :=
| st_put d k v : k ∈ W → plain v → gstep pp al W d (put k v d)
| st_set d k p s0 s : k ∈ W → sm_get (db_keys d) k = Some (VSet p) → db_sets d !! p = Some s0 → set_ok s →
    (pp = false → tight s0 → tight s) → gstep pp al W d (put_set p s d)
| st_new d k s : k ∈ W → tight s →
    gstep pp al W d (Db (sm_set (db_keys d) k (VSet (db_fresh d))) (<[db_fresh d := s]> (db_sets d)) (S (db_fresh d)))
| st_share d k k' p : k ∈ W → al = true → sm_get (db_keys d) k' = Some (VSet p) → gstep pp al W d (put k (VSet p) d)
| st_del d k : k ∈ W → gstep pp al W d (Db (sm_delete (db_keys d) k) (db_sets d) (db_fresh d)).
Arguments st_put {_} _ _ _ _ _. Arguments st_set {_} _ _ _ _ _ _ _. Arguments st_new {_} _ _ _ _ _.
Arguments st_share {_} _ _ _ _ _ _. Arguments st_del {_} _ _ _ _ _.

Definition gsteps pp al W := rtc (gstep pp al W).
Notation dstep := (gstep true).
Notation dsteps := (gsteps true).

Lemma sm_get_set {A} (m : smap A) k v k' : sm_wf m →
  sm_get (sm_set m k v) k' = if bool_decide (k' = k) then Some v else sm_get m k'.
Proof.
  intros H. rewrite !sm_get_map by eauto using sm_set_wf. rewrite sm_set_map by done.
  case_bool_decide; subst; [by rewrite lookup_insert|by rewrite lookup_insert_ne].
Qed.
Lemma sm_get_delete {A} (m : smap A) k k' : sm_wf m →
  sm_get (sm_delete m k) k' = if bool_decide (k' = k) then None else sm_get m k'.
Proof.
  intros H. rewrite !sm_get_map by eauto using sm_delete_wf. rewrite sm_delete_map by done.
  case_bool_decide; subst; [by rewrite lookup_delete|by rewrite lookup_delete_ne].
Qed.

Lemma dstep_inv pp al W d d' : gstep pp al W d d' → dbinv d → dbinv d'.
Proof.
  intros St [Hwf Hptr Hheap Hno]. destruct St as [d k v Hk Hv|d k p s00 s Hk Hg Hs00 Hs Ht00|d k s Hk Hs|d k k' p Hk Hal Hg|d k Hk].
  - split; simpl; [by apply sm_set_wf| | |].
    + intros k1 p. rewrite sm_get_set by done. case_bool_decide; [|eauto]. intros [= ->]. done.
    + eauto.
    + intros k1 h. rewrite sm_get_set by done. case_bool_decide; [|eauto]. intros [= ->]. done.
  - split; simpl; [done| | |done].
    + intros k1 p1 H1. destruct (decide (p1 = p)) as [->|]; [rewrite lookup_insert; eauto|].
      rewrite lookup_insert_ne by done. eauto.
    + intros p1 s1. destruct (decide (p1 = p)) as [->|].
      * rewrite lookup_insert. intros [= <-]. split; [|done].
        destruct (Hptr _ _ Hg) as [s2 H2]. by apply Hheap in H2 as [? _].
      * rewrite lookup_insert_ne by done. eauto.
  - split; simpl; [by apply sm_set_wf| | |].
    + intros k1 p. rewrite sm_get_set by done. case_bool_decide.
      * intros [= <-]. rewrite lookup_insert. eauto.
      * intros H1. destruct (Hptr _ _ H1) as [s1 H2]. pose proof (Hheap _ _ H2) as [? _].
        rewrite lookup_insert_ne by lia. eauto.
    + intros p s1. destruct (decide (p = db_fresh d)) as [->|].
      * rewrite lookup_insert. intros [= <-]. split; [lia|by apply tight_ok].
      * rewrite lookup_insert_ne by done. intros H1. apply Hheap in H1 as [? ?]. split; [lia|done].
    + intros k1 h. rewrite sm_get_set by done. case_bool_decide; [done|eauto].
  - split; simpl; [by apply sm_set_wf| |eauto|].
    + intros k1 p1. rewrite sm_get_set by done. case_bool_decide; [|eauto]. intros [= <-]. eauto.
    + intros k1 h. rewrite sm_get_set by done. case_bool_decide; [done|eauto].
  - split; simpl; [by apply sm_delete_wf| |eauto|].
    + intros k1 p1. rewrite sm_get_delete by done. case_bool_decide; [done|eauto].
    + intros k1 h. rewrite sm_get_delete by done. case_bool_decide; [done|eauto].
Qed.

Lemma dsteps_inv pp al W d d' : gsteps pp al W d d' → dbinv d → dbinv d'.
Proof. induction 1; eauto using dstep_inv. Qed.

Lemma dstep_unaliased pp W d d' : gstep pp false W d d' → dbinv d → unaliased d → unaliased d'.
Proof.
  intros St [Hwf Hptr Hheap Hno] U. destruct St as [d k v Hk Hv|d k p s00 s Hk Hg Hs00 Hs Ht00|d k s Hk Hs|d k k' p Hk Hal Hg|d k Hk];
    intros k1 k2 q; simpl; try done.
  - rewrite !sm_get_set by done. case_bool_decide; [intros [= ->]; done|].
    case_bool_decide; [intros _ [= ->]; done|]. apply U.
  - apply U.
  - assert (NF : ∀ k', sm_get (db_keys d) k' = Some (VSet (db_fresh d)) → False).
    { intros k' H. destruct (Hptr _ _ H) as [s1 H2]. pose proof (Hheap _ _ H2) as [? _]. lia. }
    rewrite !sm_get_set by done. repeat case_bool_decide; subst; try done.
    + intros [= <-] HN. by apply NF in HN.
    + intros HN [= <-]. by apply NF in HN.
    + apply U.
  - rewrite !sm_get_delete by done. repeat case_bool_decide; try done. apply U.
Qed.

Lemma dsteps_unaliased pp W d d' : gsteps pp false W d d' → dbinv d → unaliased d → unaliased d'.
Proof. induction 1; eauto using dstep_unaliased, dstep_inv. Qed.

(** keys not written keep their value, up to mutation of a shared set object *)
Lemma dstep_get pp al W d d' k : gstep pp al W d d' → dbinv d → k ∉ W → sm_get (db_keys d') k = sm_get (db_keys d) k.
Proof.
  intros St [Hwf Hptr Hheap Hno] Hk. destruct St; simpl; try done;
    rewrite ?sm_get_set, ?sm_get_delete by done; case_bool_decide; subst; done.
Qed.
Lemma dsteps_get pp al W d d' k : gsteps pp al W d d' → dbinv d → k ∉ W → sm_get (db_keys d') k = sm_get (db_keys d) k.
Proof.
  induction 1 as [|d d1 d2 S1 _ IH]; [done|]. intros I Hk. rewrite IH by eauto using dstep_inv. by eapply dstep_get.
Qed.

Lemma dstep_held pp W d d' k : gstep pp false W d d' → dbinv d → unaliased d → k ∉ W → held d' k = held d k.
Proof.
  intros St I U Hk. unfold held. rewrite (dstep_get _ _ _ _ _ _ St I Hk). pose proof I as [Hwf Hptr Hheap Hno].
  destruct (sm_get (db_keys d) k) as [[]|] eqn:E; try done.
  destruct St as [d k0 v Hk0 Hv|d k0 p0 s00 s Hk0 Hg Hs00 Hs Ht00|d k0 s Hk0 Hs|d k0 k' p0 Hk0 Hal Hg|d k0 Hk0]; simpl; try done.
  - destruct (decide (p = p0)) as [->|]; [|by rewrite lookup_insert_ne].
    assert (k = k0) by eauto. subst. done.
  - destruct (Hptr _ _ E) as [s1 H2]. pose proof (Hheap _ _ H2) as [? _]. rewrite lookup_insert_ne by lia. done.
Qed.
Lemma dsteps_held pp W d d' k : gsteps pp false W d d' → dbinv d → unaliased d → k ∉ W → held d' k = held d k.
Proof.
  induction 1 as [|d d1 d2 S1 _ IH]; [done|]. intros I U Hk.
  rewrite IH by eauto using dstep_inv, dstep_unaliased. by eapply dstep_held.
Qed.

Lemma dbinv_new : dbinv db_new.
Proof.
  assert (N : ∀ k, sm_get (db_keys db_new) k = None).
  { intros k. simpl. rewrite sm_get_map by apply sm_wf_new. by rewrite sm_new_map, lookup_empty. }
  split; simpl.
  - apply sm_wf_new.
  - intros k p. rewrite N. done.
  - intros p s. rewrite lookup_empty. done.
  - intros k h. rewrite N. done.
Qed.
Lemma unaliased_new : unaliased db_new.
Proof.
  intros k1 k2 p H. exfalso. revert H. simpl. rewrite sm_get_map by apply sm_wf_new.
  by rewrite sm_new_map, lookup_empty.
Qed.


(** as long as nothing is popped the counters stay exact *)
Definition all_tight (d : db) : Prop := ∀ p s, db_sets d !! p = Some s → tight s.
Lemma gstep_tight al W d d' : gstep false al W d d' → all_tight d → all_tight d'.
Proof.
  intros St T. destruct St as [d k v Hk Hv|d k p s0 s Hk Hg Hs0 Hs Ht|d k s Hk Hs|d k k' p Hk Hal Hg|d k Hk]; intros q u Hq; simpl in Hq; try (by eapply T).
  - destruct (decide (q = p)) as [->|]; [rewrite lookup_insert in Hq; injection Hq as <-; apply Ht; [done|by eapply T]|].
    rewrite lookup_insert_ne in Hq by done. by eapply T.
  - destruct (decide (q = db_fresh d)) as [->|]; [rewrite lookup_insert in Hq; by injection Hq as <-|].
    rewrite lookup_insert_ne in Hq by done. by eapply T.
Qed.
Lemma gsteps_tight al W d d' : gsteps false al W d d' → all_tight d → all_tight d'.
Proof. induction 1; eauto using gstep_tight. Qed.
Lemma all_tight_new : all_tight db_new.
Proof. intros p s. simpl. by rewrite lookup_empty. Qed.

(** sharing limited by an equivalence [L] of keys *)
Section limited.
Context (L : string → string → Prop) (Lr : ∀ k, L k k) (Ls : ∀ k1 k2, L k1 k2 → L k2 k1) (Lt : ∀ k1 k2 k3, L k1 k2 → L k2 k3 → L k1 k3).
Definition shared_within (d : db) : Prop :=
  ∀ k1 k2 p, sm_get (db_keys d) k1 = Some (VSet p) → sm_get (db_keys d) k2 = Some (VSet p) → L k1 k2.
Lemma gstep_within pp W d d' : gstep pp false W d d' → dbinv d → shared_within d → shared_within d'.
Proof using Lr.
  intros St [Hwf Hptr Hheap Hno] U. destruct St as [d k v Hk Hv|d k p s00 s Hk Hg Hs00 Hs Ht00|d k s Hk Hs|d k k' p Hk Hal Hg|d k Hk];
    intros k1 k2 q; simpl; try done.
  - rewrite !sm_get_set by done. case_bool_decide; [intros [= ->]; done|].
    case_bool_decide; [intros _ [= ->]; done|]. apply U.
  - apply U.
  - assert (NF : ∀ k', sm_get (db_keys d) k' = Some (VSet (db_fresh d)) → False).
    { intros k' H. destruct (Hptr _ _ H) as [s1 H2]. pose proof (Hheap _ _ H2) as [? _]. lia. }
    rewrite !sm_get_set by done. repeat case_bool_decide; subst; try done.
    + intros [= <-] HN. by apply NF in HN.
    + intros HN [= <-]. by apply NF in HN.
    + apply U.
  - rewrite !sm_get_delete by done. repeat case_bool_decide; try done. apply U.
Qed.
Lemma gsteps_within pp W d d' : gsteps pp false W d d' → dbinv d → shared_within d → shared_within d'.
Proof using Lr. induction 1; eauto using gstep_within, dstep_inv. Qed.
Lemma share_within d dst src p : dbinv d → sm_get (db_keys d) src = Some (VSet p) → L dst src → shared_within d →
  shared_within (put dst (VSet p) d).
Proof using All.
  intros I Hs Hl U k1 k2 q. cbn [put db_keys]. rewrite !sm_get_set by apply I. repeat case_bool_decide; subst; eauto.
  - intros [= <-] H2. eauto.
  - intros H1 [= <-]. eauto.
Qed.
Lemma gstep_held_within pp W d d' k : gstep pp false W d d' → dbinv d → shared_within d → (∀ k', k' ∈ W → ¬ L k k') → held d' k = held d k.
Proof using Lr.
  intros St I U Hk. assert (k ∉ W) as Hkw by (intros Hin; by apply (Hk k)).
  unfold held. rewrite (dstep_get _ _ _ _ _ _ St I Hkw). pose proof I as [Hwf Hptr Hheap Hno].
  destruct (sm_get (db_keys d) k) as [[]|] eqn:E; try done.
  destruct St as [d k0 v Hk0 Hv|d k0 p0 s00 s Hk0 Hg Hs00 Hs Ht00|d k0 s Hk0 Hs|d k0 k' p0 Hk0 Hal Hg|d k0 Hk0]; simpl; try done.
  - destruct (decide (p = p0)) as [->|]; [|by rewrite lookup_insert_ne]. exfalso. eapply Hk; [done|]. by eapply U.
  - destruct (Hptr _ _ E) as [s1 H2]. pose proof (Hheap _ _ H2) as [? _]. rewrite lookup_insert_ne by lia. done.
Qed.
Lemma gsteps_held_within pp W d d' k : gsteps pp false W d d' → dbinv d → shared_within d → (∀ k', k' ∈ W → ¬ L k k') → held d' k = held d k.
Proof using Lr.
  induction 1 as [|d d1 d2 S1 _ IH]; [done|]. intros I U Hk.
  rewrite IH by eauto using dstep_inv, gstep_within. by eapply gstep_held_within.
Qed.
End limited.
