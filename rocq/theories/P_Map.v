(** C11: the sharded map is a map. *)
From Verif Require Import GoBase GoBaseProofs ShardMap ShardMapProofs SpecMap.
Section map.
Context {A : Type}.
Implicit Types (m : smap A).
(** one call on the sharded map; [ord] decides the order in which Go walks its maps *)
Definition run_op (ord : order) (o : mop A) m : mans A * smap A :=
  match o with
  | MGet k => (AVal (sm_get m k), m)
  | MHas k => (ABool (sm_has m k), m)
  | MSet k v => (ANone, sm_set m k v)
  | MSetIfAbsent k v => let (m', b) := sm_set_if_absent m k v in (ABool b, m')
  | MDeleteIfExists k => let (m', b) := sm_delete_if_exists m k in (ABool b, m')
  | MLoadAndDelete k => let (m', v) := sm_load_and_delete m k in (AVal v, m')
  | MDelete k => (ANone, sm_delete m k)
  | MUpsert k f =>
      let (m', r) := sm_upsert m k (λ old, let (v, abort) := f old in if abort then inl v else inr v) in
      (match r with inl v => AUpsert v true | inr v => AUpsert v false end, m')
  | MKeys => (AKeys (sm_keys ord m), m)
  | MItems => (AItems (sm_items ord m), m)
  | MRange go => (AShown (sm_range ord m (λ seen k v, (seen ++ [(k, v)], go (seen ++ [(k, v)]))) []), m)
  | MRangeAndDelete del go =>
      let (seen, m') := sm_range_and_delete ord m (λ seen k v, (seen ++ [(k, v)], del (seen ++ [(k, v)]), go (seen ++ [(k, v)]))) [] in (AShown seen, m')
  end.
Fixpoint run_ops (h : list (order * mop A)) m : list (mans A) * smap A :=
  match h with
  | [] => ([], m)
  | (ord, o) :: h => let (a, m1) := run_op ord o m in let (rs, m2) := run_ops h m1 in (a :: rs, m2)
  end.
Lemma range_shown (go : list (string * A) → bool) l : ∀ seen, range_loop (λ seen k v, (seen ++ [(k, v)], go (seen ++ [(k, v)]))) seen l = shown go seen l.
Proof. induction l as [|[k v] l IH]; intros seen; [done|]. cbn [range_loop shown]. by destruct (go (seen ++ [(k, v)])). Qed.
Lemma rad_shown (del go : list (string * A) → bool) l : ∀ seen m, sm_wf m → ∃ m',
  rad_loop (λ seen k v, (seen ++ [(k, v)], del (seen ++ [(k, v)]), go (seen ++ [(k, v)]))) seen m l = (shown go seen l, m') ∧ sm_wf m' ∧ sm_map m' = left_over del go seen (sm_map m) l.
Proof.
  induction l as [|[k v] l IH]; intros seen m W; [by exists m|]. cbn [rad_loop shown left_over fst].
  assert (∃ m1, (if del (seen ++ [(k, v)]) then upd_shard m k (delete k) else m) = m1 ∧ sm_wf m1 ∧ sm_map m1 = (if del (seen ++ [(k, v)]) then delete k (sm_map m) else sm_map m)) as (m1 & -> & W1 & <-).
  { destruct (del _); [|by exists m]. exists (sm_delete m k). split; [done|]. split; [by apply sm_delete_wf|by apply sm_delete_map]. }
  destruct (go _); [by apply IH|by exists m1].
Qed.
Lemma run_op_does ord o m : sm_wf m → map_does o (sm_map m) (run_op ord o m).1 (sm_map (run_op ord o m).2) ∧ sm_wf (run_op ord o m).2.
Proof.
  intros W. destruct o as [k|k|k v|k v|k|k|k|k f| | |go|del go]; cbn [run_op map_does].
  - by rewrite sm_get_map.
  - by rewrite sm_has_map.
  - simpl. split; [split; [done|by apply sm_set_map]|by apply sm_set_wf].
  - unfold sm_set_if_absent. change (get_shard m k !! k) with (sm_get m k). rewrite sm_get_map by done. destruct (sm_map m !! k); simpl; [done|].
    split; [split; [done|by apply sm_set_map]|by apply sm_set_wf].
  - unfold sm_delete_if_exists. change (get_shard m k !! k) with (sm_get m k). rewrite sm_get_map by done. destruct (sm_map m !! k) eqn:E; simpl.
    + split; [split; [done|by apply sm_delete_map]|by apply sm_delete_wf].
    + by rewrite delete_notin.
  - unfold sm_load_and_delete. change (get_shard m k !! k) with (sm_get m k). rewrite sm_get_map by done. destruct (sm_map m !! k) eqn:E; simpl.
    + split; [split; [done|by apply sm_delete_map]|by apply sm_delete_wf].
    + by rewrite delete_notin.
  - simpl. split; [split; [done|by apply sm_delete_map]|by apply sm_delete_wf].
  - unfold sm_upsert. change (get_shard m k !! k) with (sm_get m k). rewrite sm_get_map by done. destruct (f (sm_map m !! k)) as [v [|]]; simpl; [done|].
    split; [split; [done|by apply sm_set_map]|by apply sm_set_wf].
  - simpl. split; [|done]. split; [|done]. eexists. split; [done|]. split; [by apply sm_keys_nodup|]. intros k. by apply sm_keys_elem.
  - by rewrite sm_items_map.
  - simpl. split; [|done]. exists (sm_entries ord m). split; [by apply sm_entries_perm|]. split; [|done]. unfold sm_range. by rewrite range_shown.
  - unfold sm_range_and_delete. destruct (rad_shown del go (sm_entries ord m) [] m W) as (m' & -> & W' & Hm'). simpl. split; [|done].
    exists (sm_entries ord m). split; [by apply sm_entries_perm|]. by rewrite Hm'.
Qed.
(** Every history of calls on a new sharded map, whatever the orders of iteration, is a history of one finite map. *)
Theorem C11_map (h : list (order * mop A)) : ∃ m' : gmap string A, map_history h.*2 ∅ (run_ops h sm_new).1 m'.
Proof.
  assert (∀ m, sm_wf m → map_history h.*2 (sm_map m) (run_ops h m).1 (sm_map (run_ops h m).2)) as H.
  { induction h as [|[ord o] h' IH]; intros m W; [done|]. destruct (run_op_does ord o m W) as [H1 H2]. cbn [run_ops fmap list_fmap snd].
    destruct (run_op ord o m) as [a m1] eqn:E. specialize (IH _ H2). simpl in IH. destruct (run_ops h' m1) as [rs m2]. simpl in *. eauto. }
  exists (sm_map (run_ops h sm_new).2). rewrite <- (sm_new_map (A:=A)). apply H, sm_wf_new.
Qed.
End map.

(** what that means for a lookup: the last value set and not deleted since *)
Fixpoint last_value {A} (k : string) (acc : option A) (h : list (mop A)) : option A :=
  match h with
  | [] => acc
  | MSet k' v :: h => last_value k (if decide (k' = k) then Some v else acc) h
  | MDelete k' :: h | MDeleteIfExists k' :: h | MLoadAndDelete k' :: h => last_value k (if decide (k' = k) then None else acc) h
  | MSetIfAbsent k' v :: h => last_value k (if decide (k' = k) then Some (default v acc) else acc) h
  | MUpsert k' f :: h => last_value k (if decide (k' = k) then if (f acc).2 then acc else Some (f acc).1 else acc) h
  | _ :: h => last_value k acc h
  end.
Lemma last_value_history {A} k (h : list (mop A)) : ∀ m rs m', Forall (λ o, ∀ d g, o ≠ MRangeAndDelete d g) h → map_history h m rs m' → m' !! k = last_value k (m !! k) h.
Proof.
  induction h as [|o h IH]; intros m [|a rs] m' F H; try done.
  - by simpl in H; subst.
  - destruct H as (m1 & H1 & H2). apply Forall_cons in F as [Fo F]. rewrite (IH _ _ _ F H2).
    destruct o; cbn [map_does last_value] in *; try (destruct H1 as [_ ->]; done).
    + destruct H1 as [_ ->]. f_equal. destruct (decide (k0 = k)) as [-> |]; [apply lookup_insert|by apply lookup_insert_ne].
    + destruct H1 as [_ ->]. f_equal. destruct (decide (k0 = k)) as [-> |].
      * destruct (m !! k) eqn:E; [by rewrite E|]. by rewrite lookup_insert.
      * destruct (m !! k0); [done|]. by apply lookup_insert_ne.
    + destruct H1 as [_ ->]. f_equal. destruct (decide (k0 = k)) as [-> |]; [apply lookup_delete|by apply lookup_delete_ne].
    + destruct H1 as [_ ->]. f_equal. destruct (decide (k0 = k)) as [-> |]; [apply lookup_delete|by apply lookup_delete_ne].
    + destruct H1 as [_ ->]. f_equal. destruct (decide (k0 = k)) as [-> |]; [apply lookup_delete|by apply lookup_delete_ne].
    + destruct H1 as [_ ->]. f_equal. destruct (decide (k0 = k)) as [-> |].
      * destruct (f (m !! k)).2; [done|apply lookup_insert].
      * destruct (f (m !! k0)).2; [done|by apply lookup_insert_ne].
    + by destruct H1 as (l & _ & _ & ->).
    + by destruct (Fo del go).
Qed.
Lemma run_ops_get {A} ord k (h : list (order * mop A)) : ∀ m, (run_ops (h ++ [(ord, MGet k)]) m).1 = (run_ops h m).1 ++ [AVal (sm_get (run_ops h m).2 k)].
Proof.
  induction h as [|[o p] h IH]; intros m; [done|]. cbn [app run_ops]. destruct (run_op o p m) as [a m1]. specialize (IH m1).
  destruct (run_ops (h ++ _) m1) as [rs m2]. destruct (run_ops h m1) as [rs' m2']. simpl in *. by rewrite IH.
Qed.
Lemma map_history_app_last {A} (h : list (mop A)) o : ∀ m rs a m', map_history (h ++ [o]) m (rs ++ [a]) m' → length rs = length h → ∃ m1, map_history h m rs m1 ∧ map_does o m1 a m'.
Proof.
  induction h as [|p h IH]; intros m [|b rs] a m' H Hl; try done.
  - destruct H as (m1 & H1 & H2). exists m. simpl in H2. subst. done.
  - cbn [app map_history] in H. destruct H as (m1 & H1 & H2). injection Hl as Hl. destruct (IH _ _ _ _ H2 Hl) as (m2 & H3 & H4).
    exists m2. split; [by exists m1|done].
Qed.
Lemma run_ops_length {A} (h : list (order * mop A)) : ∀ m, length (run_ops h m).1 = length h.
Proof. induction h as [|[o p] h IH]; intros m; [done|]. cbn [run_ops]. destruct (run_op o p m) as [a m1]. specialize (IH m1). destruct (run_ops h m1). simpl in *. lia. Qed.
Theorem C11_lookup {A} (h : list (order * mop A)) ord k : Forall (λ o, ∀ d g, o ≠ MRangeAndDelete d g) h.*2 →
  last (run_ops (h ++ [(ord, MGet k)]) sm_new).1 = Some (AVal (last_value k None h.*2)).
Proof.
  intros F. destruct (C11_map (h ++ [(ord, MGet k)])) as [m' H]. rewrite run_ops_get in *. rewrite last_snoc. rewrite fmap_app in H.
  apply map_history_app_last in H as (m1 & H1 & H2); [|by rewrite run_ops_length, fmap_length]. destruct H2 as [-> ->].
  rewrite (last_value_history k _ _ _ _ F H1). by rewrite lookup_empty.
Qed.
Example C11_demo : let h := [(λ _, [], MSet "a" 1); (λ _, [], MSetIfAbsent "b" 2); (λ _, [], MSetIfAbsent "a" 3); (λ _, [], MUpsert "b" (λ o, (default 0 o + 5, false)));
    (λ _, [], MRangeAndDelete (λ s, bool_decide (last s.*1 = Some "a")) (λ _, true)); (λ _, [], MKeys); (λ _, [], MLoadAndDelete "a"); (λ _, [], MLoadAndDelete "b"); (λ _, [], MHas "b")] : list (order * mop Z) in
  (run_ops h sm_new).1 = [ANone; ABool true; ABool false; AUpsert 7 false; AShown [("b", 7); ("a", 1)]; AKeys ["b"]; AVal None; AVal (Some 7); ABool false]
  ∧ shard_idx "a" ≠ shard_idx "b".
Proof. split; [vm_compute; reflexivity|by vm_compute]. Qed.
