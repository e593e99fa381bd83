(** The key and string commands behave as SpecServer.v says. *)
From Verif Require Import GoBase GoBaseProofs ShardMap ShardMapProofs Float64 DList SkipList Db Protocol Redis SpecCmd SpecResp
  SpecServer DbInv ExecSteps Obs Sim.

(** case analysis on what a key holds *)
Ltac at_key S k :=
  let H := fresh "At" in
  pose proof (sim_at _ _ k S) as H;
  match type of H with context [?m !! k] => destruct (m !! k) as [[?s|?xs ?w|?X ?dr|?es ?gh|]|] eqn:? end;
  [|destruct H as (?l & H & ?Hl)|destruct H as (?p & ?st & H & ?Hp & ?Hs)|destruct H as (?z & H & ?Hz)
   |destruct H as (?v & H); try (by apply fm_damage)|].

Lemma mapM_fmap_ext {A B C} (f : B → option C) (h : A → B) (g : A → option C) l :
  (∀ x, f (h x) = g x) → mapM f (h <$> l) = mapM g l.
Proof.
  intros H. apply option_eq. intros r. rewrite !mapM_Some, Forall2_fmap_l.
  split; intros F; (eapply Forall2_impl; [exact F|]); intros x y; simpl; by rewrite H.
Qed.

Lemma mapM_fmap_ext_in {A B C} (f : B → option C) (h : A → B) (g : A → option C) l :
  (∀ x, x ∈ l → f (h x) = g x) → mapM f (h <$> l) = mapM g l.
Proof.
  intros H. induction l as [|x l IH]; [done|].
  rewrite fmap_cons. cbn [mapM]. rewrite H by (by left). rewrite IH; [done|].
  intros y Hy. apply H. by right.
Qed.

Section str.
Context (ext : Ext) (c : choices) (d : db) (m : kspace) (S : sim d m).

Lemma sim_exists a : meets (c_exists a d) (s_exists a m).
Proof.
  destruct a as [|k a]; [by apply meets_fails|]. apply meets_says; [done|]. unfold Exists_.
  rewrite sm_has_map by apply S. at_key S k; rewrite sm_get_map in At by apply S; rewrite At; done.
Qed.
Lemma sim_delete a : meets (c_del a d) (s_del a m).
Proof.
  destruct a as [|k a]; [by apply meets_fails|]. unfold c_del, Del. simpl.
  rewrite sm_delete_if_exists_map by apply S. at_key S k; rewrite sm_get_map in At by apply S; rewrite At;
    try (apply meets_says; [by apply sim_del|done]).
  rewrite delete_notin by done. destruct d. by apply meets_says.
Qed.
Lemma sim_type a : meets (c_type a d) (s_type a m).
Proof.
  destruct a as [|k a]; [by apply meets_fails|]. unfold c_type, s_type, Type_. simpl.
  at_key S k; rewrite At; try (by apply meets_says). apply (meets_ret _ _ _ m); [|done]. split; [done|].
  exists (type_name v). split; [|by destruct v]. unfold type_names. pose proof (sim_not_hash d m k) as N.
  destruct v; simpl; set_solver.
Qed.
Lemma range_filter {A} (g : string → bool) (l : list (string * A)) acc :
  range_loop (λ acc k (_ : A), ((if g k then acc ++ [k] else acc), true)) acc l = acc ++ filter (λ k, g k = true) l.*1.
Proof.
  revert acc. induction l as [|[k v] l IH]; intros acc; simpl; [by rewrite app_nil_r|]. rewrite IH.
  destruct (g k) eqn:E.
  - rewrite filter_cons_True by done. by rewrite <- app_assoc.
  - rewrite filter_cons_False by (by rewrite E). done.
Qed.
Lemma sim_keys a : meets (c_keys ext c a d) (s_keys ext a m).
Proof.
  destruct a as [|p a]; [by apply meets_fails|]. unfold c_keys, Keys. simpl.
  destruct (glob_compile ext p) as [g|]; [|split; [done|intros ?? [=]]]. simpl. unfold sm_range. rewrite range_filter. simpl.
  apply meets_array; [done|apply NoDup_filter, sm_entries_nodup, S|].
  intros k. rewrite elem_of_list_filter. split; [intros [Hg H]; split; [|done]|intros [H Hg]; split; [done|]].
  - apply elem_of_list_fmap in H as ([k' v] & -> & H). apply sm_entries_elem in H; [|apply S]. simpl.
    at_key S k'; try (by eexists). rewrite sm_get_map in At by apply S; simpl in At. congruence.
  - destruct H as [x Hx]. at_key S k; try discriminate Hx;
      rewrite sm_get_map in At by apply S; apply (sm_entries_elem (ch_ord c 0%nat)) in At; try apply S;
      apply elem_of_list_fmap; eexists; (split; [|exact At]); done.
Qed.
Lemma sim_ping a : meets (c_ping a d) (s_ping a m).
Proof. by apply meets_says. Qed.
Lemma sim_command a : meets (c_command a d) (s_command a m).
Proof. by apply meets_says. Qed.

Lemma sim_set a : meets (c_set a d) (s_set a m).
Proof.
  destruct a as [|k [|v a]]; [by apply meets_fails..|]. apply meets_says; [by apply sim_put_str|done].
Qed.
Lemma sim_put_pairs : ∀ a d m, sim d m → sim (MSet_ a d) (put_pairs a m).
Proof.
  clear. fix IH 1. intros [|k [|v a]] d m S; [done|done|]. simpl. apply IH. by apply sim_put_str.
Qed.
Lemma sim_mset a : meets (c_mset a d) (s_mset a m).
Proof.
  unfold c_mset, s_mset. destruct a as [|k [|v a]].
  - simpl. apply meets_says; done.
  - by apply meets_fails.
  - replace (fewer (k :: v :: a) 2) with false by done. cbn [andb]. apply meets_says; [|done]. by apply sim_put_pairs.
Qed.
Lemma sim_get a : meets (c_get a d) (s_get a m).
Proof.
  destruct a as [|k a]; [by apply meets_fails|]. apply (framed_ro d); [apply ro_get|]. unfold c_get, s_get, Get. simpl.
  at_key S k; rewrite At; try (by apply fm, meets_fails); by apply fm, meets_says.
Qed.
Lemma sim_mget a : meets (c_mget a d) (s_mget a m).
Proof.
  destruct a as [|k a]; [by apply meets_fails|].
  change (meets (reply (rsp_interfaces true (MGet (k :: a) d)) d)
    (Verdict True (λ r0 m0, m0 = m ∧
      (Forall (λ k, m !! k ≠ Some ADamaged) (k :: a) → r0 = RArr <$> mapM (str_or_nil m) (k :: a))))).
  apply (meets_ret _ _ _ m); [|done]. split; [done|]. intros Nd.
  change (RArr <$> mapM view_item ((λ v, RI v TBulk) <$> MGet (k :: a) d) = RArr <$> mapM (str_or_nil m) (k :: a)).
  f_equal. unfold MGet. rewrite <- list_fmap_compose. apply mapM_fmap_ext_in.
  rewrite Forall_forall in Nd. intros x Hx. specialize (Nd x Hx). simpl. unfold Get, str_or_nil. at_key S x; rewrite At; done.
Qed.
Lemma sim_incr_reply k n : meets (incr_reply k n d) (add_to k n m).
Proof.
  apply (framed [k] d); [intros d' q H; apply (w_incr_reply k n [k] d d' q); [by left|done]|].
  unfold incr_reply, IncrBy, add_to.
  at_key S k; rewrite ?At; try (by apply fm, meets_fails).
  - destruct (parse_int s); [|by apply fm, meets_fails]. apply fm, meets_says; [by apply sim_put_str|done].
  - apply fm, meets_says; [by apply sim_put_str|done].
Qed.
Lemma sim_incr a : meets (c_incr a d) (s_incr a m).
Proof. destruct a as [|k a]; [by apply meets_fails|]. apply sim_incr_reply. Qed.
Lemma sim_decr a : meets (c_decr a d) (s_decr a m).
Proof. destruct a as [|k a]; [by apply meets_fails|]. apply sim_incr_reply. Qed.
Lemma sim_incrby a : meets (c_incrby a d) (s_incrby a m).
Proof.
  destruct a as [|k [|v a]]; [by apply meets_fails..|]. unfold c_incrby, s_incrby. simpl.
  destruct (parse_int v); [apply sim_incr_reply|by apply meets_fails].
Qed.
Lemma sim_decrby a : meets (c_decrby a d) (s_decrby a m).
Proof.
  destruct a as [|k [|v a]]; [by apply meets_fails..|]. unfold c_decrby, s_decrby. simpl.
  destruct (parse_int v); [apply sim_incr_reply|by apply meets_fails].
Qed.
Lemma sim_append a : meets (c_append a d) (s_append a m).
Proof.
  destruct a as [|k [|v a]]; [by apply meets_fails..|]. apply (framed [k] d); [apply (w_append (k :: v :: a))|].
  unfold c_append, s_append, Append. simpl.
  at_key S k; rewrite ?At; try (by apply fm, meets_fails).
  - apply fm, meets_says; [by apply sim_put_str|]. by rewrite slen_app.
  - apply fm, meets_says; [by apply sim_put_str|done].
Qed.
End str.
