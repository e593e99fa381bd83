(** Insert, delete and score update preserve the representation invariant. *)
From Coq Require Import ZifyBool Sorting.Sorted.
From Verif Require Import GoBase GoBaseProofs DList Float64 Float64Proofs SkipList SkipListProofs.

Lemma oloop_app {S} (l1 l2 : list nat) (f : nat → S → outcome S) s :
  oloop (l1 ++ l2) f s = let* s' := oloop l1 f s in oloop l2 f s'.
Proof. revert s. induction l1 as [|i l1 IH]; intros s; simpl; [done|]. destruct (f i s); simpl; [apply IH|done|done]. Qed.

Notation links := (gmap (loc * nat) zlink).
Implicit Types (s : skiplist) (es : list ent) (level N n m : nat) (x u : loc) (rank : list Z)
  (update : list (option loc)).

(** a loop whose i-th step only changes the links of level i *)
Lemma oloop_lvl (step : nat → skiplist → outcome skiplist) (f : nat → links → links) s a m :
  (∀ i L, (a ≤ i < a + m)%nat → (∀ y, L !! (y, i) = sl_links s !! (y, i)) →
     step i (with_links L s) = Ret (with_links (f i L) s)) →
  (∀ i L y j, j ≠ i → f i L !! (y, j) = L !! (y, j)) →
  (∀ i L L', (∀ y, L !! (y, i) = L' !! (y, i)) → ∀ y, f i L !! (y, i) = f i L' !! (y, i)) →
  ∃ L, oloop (seq a m) step s = Ret (with_links L s) ∧
    (∀ y i, (a ≤ i < a + m)%nat → L !! (y, i) = f i (sl_links s) !! (y, i)) ∧
    (∀ y i, ¬ (a ≤ i < a + m)%nat → L !! (y, i) = sl_links s !! (y, i)).
Proof.
  intros Hstep Hoff Hcong. induction m as [|m IH].
  - exists (sl_links s). split; [by destruct s|]. split; [lia|done].
  - destruct IH as (L & E & Hin & Hout).
    { intros i L Hi. apply Hstep. lia. }
    rewrite seq_S, oloop_app, E. cbn [obind oloop].
    rewrite Hstep; [|lia|intros y; apply Hout; lia].
    cbn [obind]. exists (f (a + m)%nat L). split; [done|]. split.
    + intros y i Hi. destruct (decide (i = a + m)%nat) as [->|Hne].
      * apply Hcong. intros y'. apply Hout. lia.
      * rewrite Hoff by done. apply Hin. lia.
    + intros y i Hi. rewrite Hoff by lia. apply Hout. lia.
Qed.

Lemma with_links_twice L L' s : with_links L (with_links L' s) = with_links L s.
Proof. done. Qed.

(** ** The empty skip list *)
Lemma foldl_links (x : loc) (L : links) m y j :
  foldl (λ L i, <[(x, i) := (None, 0)]> L) L (seq 0 m) !! (y, j) =
  if decide (y = x ∧ (j < m)%nat) then Some (None, 0) else L !! (y, j).
Proof.
  induction m as [|m IH].
  - simpl. rewrite decide_False by lia. done.
  - rewrite seq_S, foldl_app. cbn [foldl]. rewrite Nat.add_0_l.
    destruct (decide ((y, j) = (x, m))) as [E|Hne].
    + simplify_eq. rewrite lookup_insert. rewrite decide_True by lia. done.
    + rewrite lookup_insert_ne by congruence. etransitivity; [exact IH|].
      apply decide_ext. split; [lia|]. intros [-> Hj]. split; [done|].
      destruct (decide (j = m)) as [->|]; [done|lia].
Qed.

Lemma wf_new : wf sl_new [].
Proof.
  split; unfold sl_new; cbn -[foldl seq max_level].
  - apply NoDup_singleton.
  - by rewrite lookup_insert.
  - done.
  - intros p i Hp. destruct p as [|q]; [|by destruct Hp as (e & He & _)].
    simpl in Hp. rewrite foldl_links. rewrite decide_True; [done|]. split; [done|]. unfold max_level. lia.
  - intros i Hi. rewrite foldl_links. rewrite decide_True; [eauto|]. split; [done|lia].
  - done.
  - unfold max_level. lia.
  - done.
  - intros a [n Ha]. destruct (decide (a = 0%nat)) as [->|Hne]; [lia|].
    rewrite lookup_insert_ne in Ha by done. by rewrite lookup_empty in Ha.
Qed.

(** ** Raising the level *)
Lemma wf_raise s es (level : nat) (L : links) :
  wf s es → (sl_level s ≤ level ≤ max_level)%nat →
  (∀ i, (sl_level s ≤ i < level)%nat → L !! (sl_head, i) = Some (None, sl_len s)) →
  (∀ y i, y ≠ sl_head ∨ ¬ (sl_level s ≤ i < level)%nat → L !! (y, i) = sl_links s !! (y, i)) →
  wf (with_level level (with_links L s)) es.
Proof.
  intros Hwf Hlv HL1 HL3.
  pose proof (wf_level _ _ Hwf) as Hlev.
  split; try apply Hwf; simpl.
  - intros p i Hp. destruct p as [|q].
    + simpl in Hp |- *. destruct (decide (i < sl_level s)%nat) as [Hi|Hi].
      * rewrite HL3 by lia. by apply (wf_links _ _ Hwf 0%nat).
      * rewrite HL1 by lia. rewrite hop_none; [by rewrite (wf_len _ _ Hwf)|].
        rewrite drop_0, Forall_lookup. intros p e He. pose proof (wf_hts _ _ Hwf _ _ He). lia.
    + pose proof (lvl_ok_le level es (S q) i Hp) as Hle. destruct Hp as (e & He & Hi).
      rewrite HL3.
      * apply (wf_links _ _ Hwf). by exists e.
      * left. rewrite (nid_S _ _ _ He). intros E.
        pose proof (wf_ids _ _ Hwf) as Hn. apply NoDup_cons in Hn as [Hn _]. apply Hn.
        rewrite <- E. apply elem_of_list_fmap. exists e. split; [done|]. by eapply elem_of_list_lookup_2.
  - intros i Hi. rewrite HL3 by lia. apply (wf_top _ _ Hwf). lia.
  - intros p e He. pose proof (wf_hts _ _ Hwf _ _ He). lia.
  - lia.
Qed.

Lemma grow_loop s es (rank : list Z) (update : list (option loc)) m :
  wf s es → (sl_level s + m ≤ max_level)%nat →
  length rank = max_level → length update = max_level →
  ∃ rank' update' L,
    oloop (seq (sl_level s) m)
      (λ i '(rank, update, s),
         let* (fwd, _) := lk sl_head i s in
         Ret (<[i := 0]> rank, <[i := Some sl_head]> update, set_lk sl_head i (fwd, sl_len s) s))
      (rank, update, s) = Ret (rank', update', with_links L s) ∧
    length rank' = max_level ∧ length update' = max_level ∧
    (∀ i, (sl_level s ≤ i < sl_level s + m)%nat →
       L !! (sl_head, i) = Some (None, sl_len s) ∧ rank' !! i = Some 0 ∧ update' !! i = Some (Some sl_head)) ∧
    (∀ i, ¬ (sl_level s ≤ i < sl_level s + m)%nat → rank' !! i = rank !! i ∧ update' !! i = update !! i) ∧
    (∀ y i, y ≠ sl_head ∨ ¬ (sl_level s ≤ i < sl_level s + m)%nat → L !! (y, i) = sl_links s !! (y, i)).
Proof.
  intros Hwf Hm Hlr Hlu. induction m as [|m IH].
  - exists rank, update, (sl_links s). split; [by destruct s|]. split; [done|]. split; [done|].
    split; [lia|]. split; [done|]. done.
  - destruct IH as (rank' & update' & L & E & Hr & Hu & H1 & H2 & H3); [lia|].
    rewrite seq_S, oloop_app, E. cbn [obind oloop].
    unfold lk. cbn [sl_links with_links]. rewrite H3 by lia.
    destruct (wf_top _ _ Hwf (sl_level s + m)%nat) as [z Hz]; [lia|]. rewrite Hz. cbn [deref obind].
    eexists _, _, _. split; [reflexivity|]. rewrite !insert_length. split; [done|]. split; [done|].
    split; [|split].
    + intros i Hi. destruct (decide (i = sl_level s + m)%nat) as [->|Hne].
      * rewrite lookup_insert. rewrite !list_lookup_insert by lia. done.
      * rewrite lookup_insert_ne by congruence. rewrite !list_lookup_insert_ne by done. apply H1. lia.
    + intros i Hi. rewrite !list_lookup_insert_ne by lia. apply H2. lia.
    + intros y i Hyi. rewrite lookup_insert_ne; [apply H3; lia|]. intros E'. simplify_eq. lia.
Qed.

Lemma grow_level_ok s es level rank update :
  wf s es → (1 ≤ level ≤ max_level)%nat → length rank = max_level → length update = max_level →
  ∃ rank' update' s',
    grow_level level rank update s = Ret (rank', update', s') ∧
    wf s' es ∧ sl_level s' = Nat.max (sl_level s) level ∧
    sl_nodes s' = sl_nodes s ∧ sl_len s' = sl_len s ∧ sl_fresh s' = sl_fresh s ∧
    (∀ i, (i < sl_level s)%nat → rank' !! i = rank !! i ∧ update' !! i = update !! i) ∧
    (∀ i, (sl_level s ≤ i < level)%nat → rank' !! i = Some 0 ∧ update' !! i = Some (Some sl_head)).
Proof.
  intros Hwf Hlev Hlr Hlu. unfold grow_level. destruct (Nat.ltb_spec (sl_level s) level).
  - destruct (grow_loop s es rank update (level - sl_level s)) as
      (rank' & update' & L & E & Hr & Hu & H1 & H2 & H3); try done; [lia|].
    rewrite E. cbn [obind]. eexists _, _, _. split; [reflexivity|].
    split; [|split; [simpl; lia|split; [done|split; [done|split; [done|split]]]]].
    + apply wf_raise; [done|lia| |].
      * intros i Hi. apply H1. lia.
      * intros y i Hyi. apply H3. lia.
    + intros i Hi. apply H2. lia.
    + intros i Hi. apply H1. lia.
  - exists rank, update, s. split; [done|]. split; [done|]. split; [lia|].
    split; [done|]. split; [done|]. split; [done|]. split; [done|]. lia.
Qed.

(** ** Inserting one element at position [N] *)
Definition ins (N : nat) (e : ent) (es : list ent) : list ent := take N es ++ e :: drop N es.

Lemma ins_lt N e es q : (q < N)%nat → (N ≤ length es)%nat → ins N e es !! q = es !! q.
Proof. intros H1 H2. unfold ins. rewrite lookup_app_l by (rewrite take_length; lia). by apply lookup_take. Qed.
Lemma ins_eq N e es : (N ≤ length es)%nat → ins N e es !! N = Some e.
Proof. intros H. unfold ins. apply list_lookup_middle. rewrite take_length. lia. Qed.
Lemma ins_gt N e es q : (N ≤ q)%nat → (N ≤ length es)%nat → ins N e es !! S q = es !! q.
Proof.
  intros H1 H2. unfold ins. rewrite lookup_app_r by (rewrite take_length; lia).
  rewrite take_length. replace (S q - N `min` length es)%nat with (S (q - N)) by lia. simpl.
  rewrite lookup_drop. f_equal. lia.
Qed.
Lemma ins_length N e es : (N ≤ length es)%nat → length (ins N e es) = S (length es).
Proof. intros H. unfold ins. rewrite app_length, take_length. simpl. rewrite drop_length. lia. Qed.
Lemma ins_perm N e es : ins N e es ≡ₚ e :: es.
Proof. unfold ins. rewrite <- Permutation_middle, take_drop. done. Qed.

Lemma ins_nid_le N e es p : (p ≤ N)%nat → (N ≤ length es)%nat → nid (ins N e es) p = nid es p.
Proof. intros. destruct p as [|q]; [done|]. simpl. by rewrite ins_lt by lia. Qed.
Lemma ins_nid_new N e es : (N ≤ length es)%nat → nid (ins N e es) (S N) = e_id e.
Proof. intros. simpl. by rewrite ins_eq. Qed.
Lemma ins_nid_gt N e es p : (N < p)%nat → (N ≤ length es)%nat → nid (ins N e es) (S p) = nid es p.
Proof. intros. destruct p as [|q]; [lia|]. simpl. by rewrite ins_gt by lia. Qed.

Lemma ins_drop_le N e es p : (p ≤ N)%nat → (N ≤ length es)%nat →
  drop p (ins N e es) = drop p (take N es) ++ e :: drop N es.
Proof.
  intros. unfold ins. rewrite drop_app_le; [done|]. rewrite take_length. lia.
Qed.
Lemma drop_take_split N es p : (p ≤ N)%nat → drop p es = drop p (take N es) ++ drop N es.
Proof.
  intros. rewrite <- (take_drop N es) at 1.
  destruct (decide (N ≤ length es)%nat).
  - rewrite drop_app_le; [done|]. rewrite take_length. lia.
  - rewrite (take_ge es N) by lia. rewrite (drop_ge es N) by lia. by rewrite !app_nil_r.
Qed.
Lemma ins_drop_gt N e es p : (N ≤ p)%nat → (N ≤ length es)%nat → drop (S p) (ins N e es) = drop p es.
Proof.
  intros. unfold ins. rewrite drop_app_ge by (rewrite take_length; lia).
  rewrite take_length. replace (S p - N `min` length es)%nat with (S (p - N)) by lia.
  simpl. rewrite drop_drop. f_equal. lia.
Qed.

Lemma upos_flat lvl es N i a :
  upos lvl es N i a → Forall (λ e, e_h e ≤ i)%nat (drop a (take N es)).
Proof.
  intros (Ha & _ & H). rewrite Forall_lookup. intros j e Hj. rewrite lookup_drop in Hj.
  apply lookup_take_Some in Hj as [Hj Hlt]. apply (H (a + j)%nat e); [lia|done].
Qed.
(** a node strictly before the update node at level [i] has its link inside the prefix *)
Lemma upos_before lvl es N i a p :
  upos lvl es N i a → (p ≤ N)%nat → lvl_ok lvl es p i → p ≠ a →
  (p < a)%nat ∧ ¬ Forall (λ e, e_h e ≤ i)%nat (drop p (take N es)).
Proof.
  intros (Ha & Hl & H) Hp Hlp Hne.
  assert (Hpa : (p < a)%nat).
  { destruct (decide (p < a)%nat) as [|Hge]; [done|]. destruct p as [|q]; [lia|].
    destruct Hlp as (e & He & Hi). pose proof (H q e ltac:(lia) He). lia. }
  split; [done|]. intros Hall. destruct a as [|b]; [lia|]. destruct Hl as (e & He & Hi).
  rewrite Forall_lookup in Hall. specialize (Hall (b - p)%nat e).
  rewrite lookup_drop, lookup_take in Hall by lia.
  replace (p + (b - p))%nat with b in Hall by lia. specialize (Hall He). simpl in Hall. lia.
Qed.
Lemma upos_len lvl es N i a : upos lvl es N i a → (N ≤ length es)%nat →
  Z.of_nat (length (drop a (take N es))) = Z.of_nat N - Z.of_nat a.
Proof. intros (Ha & _) HN. rewrite drop_length, take_length. lia. Qed.

(** the old link of the update node *)
Lemma upos_hop lvl es N i a : upos lvl es N i a → (N ≤ length es)%nat →
  hop i (drop a es) = ((hop i (drop N es)).1, (hop i (drop N es)).2 + (Z.of_nat N - Z.of_nat a)).
Proof.
  intros H HN. rewrite (drop_take_split N es a) by apply H.
  rewrite hop_skip by by eapply upos_flat. by erewrite upos_len.
Qed.

Lemma wf_fresh_ne s es p : wf s es → (p ≤ length es)%nat → nid es p ≠ sl_fresh s.
Proof. intros Hwf Hp E. pose proof (wf_fresh _ _ Hwf _ (wf_nid_node _ _ _ Hwf Hp)). lia. Qed.

(** what the nodes' links are after the two linking loops *)
Lemma splice_links s es N level sc v rank update :
  wf s es → (N ≤ length es)%nat → (1 ≤ level ≤ sl_level s)%nat →
  (∀ i, (i < sl_level s)%nat → ∃ a, upos (sl_level s) es N i a ∧
      rank !! i = Some (Z.of_nat a) ∧ update !! i = Some (Some (nid es a))) →
  let x := sl_fresh s in
  let s2 := snd (new_zsl_node level sc v s) in
  ∃ L, (let* s3 := oloop (seq 0 level) (splice_step x rank update) s2 in
        oloop (seq level (sl_level s3 - level)) (bump_step update) s3) = Ret (with_links L s2) ∧
    (∀ i, (i < level)%nat → L !! (x, i) = Some (hop i (drop N es))) ∧
    (∀ p i, (p ≤ N)%nat → lvl_ok (sl_level s) es p i →
        L !! (nid es p, i) = Some (hop i (drop p (ins N (Ent x sc v level) es)))) ∧
    (∀ p i, (N < p)%nat → lvl_ok (sl_level s) es p i → L !! (nid es p, i) = Some (hop i (drop p es))) ∧
    (∀ i, (sl_level s ≤ i)%nat → L !! (sl_head, i) = sl_links s !! (sl_head, i)).
Proof.
  intros Hwf HN Hlev Harr x s2.
  set (pos := λ i, Z.to_nat (default 0 (rank !! i))).
  assert (Hpos : ∀ i, (i < sl_level s)%nat → upos (sl_level s) es N i (pos i) ∧
      rank !! i = Some (Z.of_nat (pos i)) ∧ update !! i = Some (Some (nid es (pos i)))).
  { intros i Hi. destruct (Harr i Hi) as (a & Hu & Hr & Hup). unfold pos. rewrite Hr. simpl.
    rewrite Nat2Z.id. done. }
  clear Harr.
  assert (Hpos0 : pos 0%nat = N).
  { eapply upos_zero; [done|done|]. apply Hpos. lia. }
  assert (Hple : ∀ i, (i < sl_level s)%nat → (pos i ≤ length es)%nat).
  { intros i Hi. destruct (Hpos i Hi) as ((H & _) & _). lia. }
  assert (Hux : ∀ i, (i < sl_level s)%nat → nid es (pos i) ≠ x).
  { intros i Hi. eapply wf_fresh_ne; [done|by apply Hple]. }
  assert (Hlk2 : ∀ y i, y ≠ x → sl_links s2 !! (y, i) = sl_links s !! (y, i)).
  { intros y i Hy. unfold s2, new_zsl_node; cbn [snd sl_links]. rewrite foldl_links.
    rewrite decide_False; [done|]. by intros [? _]. }
  assert (Hlkx : ∀ i, (i < level)%nat → sl_links s2 !! (x, i) = Some (None, 0)).
  { intros i Hi. unfold s2, new_zsl_node; cbn [snd sl_links]. rewrite foldl_links.
    rewrite decide_True; [done|]. split; [done|lia]. }
  assert (Hul : ∀ i, (i < sl_level s)%nat →
      sl_links s !! (nid es (pos i), i) = Some (hop i (drop (pos i) es))).
  { intros i Hi. apply (wf_links _ _ Hwf). apply (Hpos i Hi). }
  (* first loop *)
  set (f1 := λ (i : nat) (L : links),
     <[(nid es (pos i), i) := (Some x, Z.of_nat N - Z.of_nat (pos i) + 1)]>
       (<[(x, i) := ((hop i (drop (pos i) es)).1,
            (hop i (drop (pos i) es)).2 - (Z.of_nat N - Z.of_nat (pos i)))]> L)).
  destruct (oloop_lvl (splice_step x rank update) f1 s2 0 level) as (L1 & E1 & H1in & H1out).
  { intros i L Hi HL. unfold splice_step, upd_at, rank_at, lk.
    destruct (Hpos i) as (Hu & Hr & Hup); [lia|].
    destruct (Hpos 0%nat) as (_ & Hr0 & _); [lia|]. rewrite Hpos0 in Hr0.
    rewrite Hup. cbn [deref obind]. cbn [sl_links with_links].
    rewrite (HL (nid es (pos i))), Hlk2 by (apply Hux; lia). rewrite Hul by lia.
    cbn [deref obind]. destruct (hop i (drop (pos i) es)) as [fw sp] eqn:Eh.
    rewrite Hr0, Hr. cbn [deref obind]. rewrite (HL x), Hlkx by lia. cbn [deref obind].
    unfold f1. rewrite Eh. done. }
  { intros i L y j Hj. unfold f1. rewrite !lookup_insert_ne by congruence. done. }
  { intros i L L' HL y. unfold f1. destruct (decide (y = nid es (pos i))) as [->|Hne].
    { by rewrite !lookup_insert. }
    rewrite !(lookup_insert_ne _ (nid es (pos i), i)) by congruence.
    destruct (decide (y = x)) as [->|Hne']; [by rewrite !lookup_insert|].
    rewrite !lookup_insert_ne by congruence. apply HL. }
  rewrite E1. cbn [obind]. cbn [sl_level with_links].
  change (sl_level s2) with (sl_level s).
  (* second loop *)
  set (f2 := λ (i : nat) (L : links),
     <[(nid es (pos i), i) := ((hop i (drop (pos i) es)).1, (hop i (drop (pos i) es)).2 + 1)]> L).
  destruct (oloop_lvl (bump_step update) f2 (with_links L1 s2) level (sl_level s - level))
    as (L & E2 & H2in & H2out).
  { intros i L Hi HL. unfold bump_step, upd_at, lk.
    destruct (Hpos i) as (Hu & Hr & Hup); [lia|].
    rewrite Hup. cbn [deref obind]. cbn [sl_links with_links].
    rewrite (HL (nid es (pos i))). cbn [sl_links with_links].
    rewrite H1out by lia. rewrite Hlk2 by (apply Hux; lia). rewrite Hul by lia.
    cbn [deref obind]. unfold f2. by destruct (hop i (drop (pos i) es)). }
  { intros i L y j Hj. unfold f2. rewrite !lookup_insert_ne by congruence. done. }
  { intros i L L' HL y. unfold f2. destruct (decide (y = nid es (pos i))) as [->|Hne].
    { by rewrite !lookup_insert. }
    rewrite !lookup_insert_ne by congruence. apply HL. }
  exists L. rewrite E2. split; [done|]. cbn [sl_links with_links] in H2in, H2out.
  split; [|split; [|split]].
  - intros i Hi. rewrite H2out by lia. rewrite H1in by lia. unfold f1.
    rewrite lookup_insert_ne by (intros E; simplify_eq; by apply (Hux i); [lia|]).
    rewrite lookup_insert. f_equal. destruct (Hpos i) as (Hu & _); [lia|].
    rewrite (upos_hop _ _ _ _ _ Hu) by done. cbn [fst snd].
    destruct (hop i (drop N es)) as [fw sp]. cbn [fst snd]. f_equal. lia.
  - intros p i Hp Hlp. pose proof (lvl_ok_le _ _ _ _ Hlp) as Hpl.
    assert (Hi : (i < sl_level s)%nat).
    { destruct p as [|q]; [done|]. destruct Hlp as (e & He & Hi). pose proof (wf_hts _ _ Hwf _ _ He). lia. }
    destruct (Hpos i Hi) as (Hu & _).
    rewrite ins_drop_le by done.
    assert (Hpx : nid es p ≠ x). { by eapply wf_fresh_ne. }
    destruct (decide (p = pos i)) as [->|Hne].
    + destruct (decide (i < level)%nat) as [Hil|Hil].
      * rewrite H2out by lia. rewrite H1in by lia. unfold f1. rewrite lookup_insert.
        rewrite hop_hit; [|by eapply upos_flat|done]. erewrite upos_len by done. done.
      * rewrite H2in by lia. unfold f2. rewrite lookup_insert. f_equal.
        rewrite hop_skip by by eapply upos_flat. erewrite upos_len by done.
        cbn [hop e_h]. replace (i <? level)%nat with false by lia.
        rewrite (upos_hop _ _ _ _ _ Hu) by done.
        destruct (hop i (drop N es)) as [fw sp]. cbn [fst snd]. f_equal. lia.
    + destruct (upos_before _ _ _ _ _ _ Hu Hp Hlp Hne) as [Hlt Hnf].
      assert (Hnn : nid es p ≠ nid es (pos i)).
      { intros E. apply (nid_inj s) in E; [lia|done|done|by apply Hple]. }
      assert (HLs : L !! (nid es p, i) = sl_links s !! (nid es p, i)).
      { destruct (decide (i < level)%nat) as [Hil|Hil].
        - rewrite H2out by lia. rewrite H1in by lia. unfold f1.
          rewrite !lookup_insert_ne by congruence. by apply Hlk2.
        - rewrite H2in by lia. unfold f2. rewrite lookup_insert_ne by congruence.
          rewrite H1out by lia. by apply Hlk2. }
      rewrite HLs, (wf_links _ _ Hwf _ _ Hlp). f_equal.
      rewrite (drop_take_split N es p) by done. by apply hop_inside.
  - intros p i Hp Hlp. pose proof (lvl_ok_le _ _ _ _ Hlp) as Hpl.
    assert (Hi : (i < sl_level s)%nat).
    { destruct p as [|q]; [done|]. destruct Hlp as (e & He & Hi). pose proof (wf_hts _ _ Hwf _ _ He). lia. }
    destruct (Hpos i Hi) as (Hu & _).
    assert (Hpx : nid es p ≠ x). { by eapply wf_fresh_ne. }
    assert (Hnn : nid es p ≠ nid es (pos i)).
    { intros E. apply (nid_inj s) in E; [|done|done|by apply Hple]. destruct Hu as (Hu & _). lia. }
    rewrite <- (wf_links _ _ Hwf _ _ Hlp).
    destruct (decide (i < level)%nat) as [Hil|Hil].
    + rewrite H2out by lia. rewrite H1in by lia. unfold f1.
      rewrite !lookup_insert_ne by congruence. by apply Hlk2.
    + rewrite H2in by lia. unfold f2. rewrite lookup_insert_ne by congruence.
      rewrite H1out by lia. by apply Hlk2.
  - intros i Hi. rewrite H2out by lia. rewrite H1out by lia. apply Hlk2.
    apply (wf_fresh_ne s es 0%nat); [done|lia].
Qed.

Lemma hop0 s es p : wf s es → (hop 0 (drop p es)).1 = e_id <$> es !! p.
Proof.
  intros Hwf. destruct (es !! p) as [e|] eqn:E.
  - erewrite drop_S by done. cbn [hop]. pose proof (wf_hts _ _ Hwf _ _ E).
    replace (0 <? e_h e)%nat with true by lia. done.
  - apply lookup_ge_None in E. rewrite drop_ge by done. done.
Qed.

Lemma sl_insert_ok s es sc v level N :
  wf s es → (sl_level s < max_level)%nat → (1 ≤ level ≤ max_level)%nat → (N ≤ length es)%nat →
  (∀ p e, es !! p = Some e → zlt (e_key e) (sc, v) = bool_decide (p < N)%nat) →
  ∃ s', sl_insert level sc v s = Ret (s', sl_fresh s) ∧
    wf s' (ins N (Ent (sl_fresh s) sc v level) es) ∧
    sl_level s' = Nat.max (sl_level s) level ∧
    (∀ y, y ≠ sl_fresh s → zi_score <$> sl_nodes s' !! y = zi_score <$> sl_nodes s !! y).
Proof.
  intros Hwf Hlt Hlev HN Hsplit. unfold sl_insert. pose proof (wf_level _ _ Hwf) as Hl1.
  destruct (insert_search_ok s es sc v N (sl_level s) 0 (replicate max_level 0) (replicate max_level None))
    as (rank & update & E & Hlr & Hlu & Hlow & Hhigh);
    [done|done|done|done|lia|lia|by rewrite replicate_length|by rewrite replicate_length|done|lia|].
  change (nid es 0) with sl_head in E. rewrite E. cbn [obind].
  destruct (grow_level_ok s es level rank update Hwf Hlev Hlr Hlu)
    as (rank1 & update1 & s1 & E1 & Hwf1 & Hlv1 & Hn1 & Hlen1 & Hfr1 & Hk & Hnew).
  rewrite E1. cbn [obind].
  assert (Harr : ∀ i, (i < sl_level s1)%nat → ∃ a, upos (sl_level s1) es N i a ∧
      rank1 !! i = Some (Z.of_nat a) ∧ update1 !! i = Some (Some (nid es a))).
  { intros i Hi. destruct (decide (i < sl_level s)%nat) as [Hio|Hio].
    - destruct (Hk i Hio) as [-> ->]. destruct (Hlow i Hio) as (a & (Hu1 & Hu2 & Hu3) & Hr & Hup).
      exists a. split; [|done]. split; [done|]. split; [|done].
      destruct a as [|q]; simpl in *; [lia|done].
    - destruct (Hnew i) as [-> ->]; [lia|]. exists 0%nat. split; [|done]. split; [lia|]. split; [simpl; lia|].
      intros j e Hj He. pose proof (wf_hts _ _ Hwf _ _ He). lia. }
  unfold new_zsl_node at 1. cbn [fst snd].
  set (s2 := snd (new_zsl_node level sc v s1)).
  rewrite <- Hfr1 in *. set (x := sl_fresh s1) in *.
  match goal with |- context [oloop (seq 0 level) (splice_step x rank1 update1) ?t] =>
    change t with s2 end.
  destruct (splice_links s1 es N level sc v rank1 update1 Hwf1 HN) as (L & EL & HLx & HLle & HLgt & HLtop);
    [lia|done|].
  fold x s2 in EL.
  destruct (oloop (seq 0 level) (splice_step x rank1 update1) s2) as [s3| |] eqn:E3; cbn [obind] in EL |- *; try done.
  rewrite EL. cbn [obind]. clear E3 EL s3.
  destruct (Harr 0%nat) as (a0 & Hu0 & _ & Hup0); [lia|].
  assert (a0 = N) as -> by (by eapply upos_zero).
  unfold upd_at. rewrite Hup0. cbn [deref obind].
  set (s4 := with_links L s2).
  set (s5 := if Nat.eqb (nid es N) sl_head then s4 else set_back x (Some (nid es N)) s4).
  assert (Hl5 : sl_links s5 = L) by (unfold s5; by destruct (Nat.eqb _ _)).
  unfold lk. rewrite Hl5, HLx by lia. cbn [deref obind].
  pose proof (hop0 s1 es N Hwf1) as Hh0.
  destruct (hop 0 (drop N es)) as [fw sp]. cbn [fst] in Hh0. subst fw.
  eexists. split; [reflexivity|].
  assert (Hfresh : ∀ p, (p ≤ length es)%nat → nid es p ≠ x). { intros p Hp. by apply (wf_fresh_ne s1). }
  assert (Hnx : sl_nodes s5 !! x = Some (ZI v sc (back_of es N))).
  { unfold s5. destruct N as [|q]; simpl.
    - by rewrite lookup_insert.
    - destruct (lookup_lt_is_Some_2 es q) as [e He]; [lia|]. rewrite He. simpl.
      destruct (Nat.eqb_spec (e_id e) sl_head) as [E0|E0].
      + pose proof (wf_ids _ _ Hwf) as Hids. apply NoDup_cons in Hids as [Hids _]. destruct Hids.
        apply elem_of_list_fmap. exists e. split; [by rewrite E0|]. by eapply elem_of_list_lookup_2.
      + simpl. rewrite lookup_alter, lookup_insert. done. }
  assert (Hny : ∀ y, y ≠ x → sl_nodes s5 !! y = sl_nodes s1 !! y).
  { intros y Hy. unfold s5. destruct (Nat.eqb _ _); simpl.
    - by rewrite lookup_insert_ne.
    - rewrite lookup_alter_ne by done. by rewrite lookup_insert_ne. }
  set (s6 := match e_id <$> es !! N with Some y => set_back y (Some x) s5 | None => with_tail (Some x) s5 end).
  assert (Hs6 : sl_links s6 = L ∧ sl_len s6 = sl_len s1 ∧ sl_level s6 = sl_level s1 ∧ sl_fresh s6 = S x).
  { unfold s6. destruct (e_id <$> es !! N); simpl; unfold s5; destruct (Nat.eqb _ _); done. }
  destruct Hs6 as (Hs6a & Hs6b & Hs6c & Hs6d).
  assert (Hn6x : sl_nodes s6 !! x = Some (ZI v sc (back_of es N))).
  { unfold s6. destruct (es !! N) as [e|] eqn:EN; simpl; [|done].
    rewrite lookup_alter_ne; [done|]. rewrite <- (nid_S _ _ _ EN). apply Hfresh.
    apply lookup_lt_Some in EN. lia. }
  assert (Hn6 : ∀ y, y ≠ x → (∀ e, es !! N = Some e → y ≠ e_id e) → sl_nodes s6 !! y = sl_nodes s1 !! y).
  { intros y Hy Hye. unfold s6. destruct (es !! N) as [e|] eqn:EN; simpl; [|by apply Hny].
    rewrite lookup_alter_ne; [by apply Hny|]. intros E'. by apply (Hye e). }
  split; [|split].
  - split; cbn [sl_links sl_nodes sl_len sl_level sl_fresh with_len].
    + rewrite (ins_perm N). cbn [fmap list_fmap e_id].
      pose proof (wf_ids _ _ Hwf) as Hids. apply NoDup_cons in Hids as [Hids1 Hids2].
      rewrite !NoDup_cons. split; [|split; [|done]].
      * rewrite not_elem_of_cons. split; [|done]. apply (Hfresh 0%nat). lia.
      * intros Hin. apply elem_of_list_fmap in Hin as (e & E' & He). apply elem_of_list_lookup in He as [p Hp].
        apply (Hfresh (S p)); [apply lookup_lt_Some in Hp; lia|]. by rewrite (nid_S _ _ _ Hp).
    + rewrite Hn6; [apply (wf_head _ _ Hwf1)| |].
      * apply (Hfresh 0%nat). lia.
      * intros e He E'. pose proof (wf_ids _ _ Hwf) as Hids. apply NoDup_cons in Hids as [Hids1 _].
        apply Hids1. apply elem_of_list_fmap. exists e. split; [done|]. by eapply elem_of_list_lookup_2.
    + intros p e He. destruct (lt_eq_lt_dec p N) as [[Hp|Hp]|Hp].
      * rewrite ins_lt in He by done. rewrite Hn6.
        -- rewrite (wf_nodes _ _ Hwf1 _ _ He). do 2 f_equal. destruct p as [|q]; [done|].
           simpl. by rewrite ins_lt by lia.
        -- rewrite <- (nid_S _ _ _ He). apply Hfresh. lia.
        -- intros f Hf E'. rewrite <- (nid_S _ _ _ He), <- (nid_S _ _ _ Hf) in E'.
           apply (nid_inj s) in E'; [lia|done| |]; apply lookup_lt_Some in Hf; lia.
      * subst p. rewrite ins_eq in He by done. simplify_eq. cbn [e_id e_val e_sc]. rewrite Hn6x. do 2 f_equal.
        destruct N as [|q]; [done|]. simpl. by rewrite ins_lt by lia.
      * destruct p as [|q]; [lia|]. rewrite ins_gt in He by lia.
        destruct (decide (q = N)) as [->|Hne].
        -- unfold s6. rewrite He. simpl. rewrite lookup_alter, Hny.
           ++ rewrite (wf_nodes _ _ Hwf1 _ _ He). simpl. do 2 f_equal. by rewrite ins_eq.
           ++ rewrite <- (nid_S _ _ _ He). apply Hfresh. apply lookup_lt_Some in He. lia.
        -- rewrite Hn6.
           ++ rewrite (wf_nodes _ _ Hwf1 _ _ He). do 2 f_equal. destruct q as [|r]; [lia|].
              simpl. by rewrite ins_gt by lia.
           ++ rewrite <- (nid_S _ _ _ He). apply Hfresh. apply lookup_lt_Some in He. lia.
           ++ intros f Hf E'. rewrite <- (nid_S _ _ _ He), <- (nid_S _ _ _ Hf) in E'.
              apply (nid_inj s) in E'; [lia|done| |].
              { apply lookup_lt_Some in He; lia. } { apply lookup_lt_Some in Hf; lia. }
    + rewrite Hs6a, Hs6c. intros p i Hp. destruct (le_lt_dec p N) as [Hpn|Hpn].
      * rewrite ins_nid_le by done. apply HLle; [done|].
        destruct p as [|q]; simpl in Hp |- *; [done|]. by rewrite ins_lt in Hp by lia.
      * destruct p as [|q]; [lia|]. destruct (decide (q = N)) as [->|Hne].
        -- rewrite ins_nid_new by done. cbn [e_id]. rewrite ins_drop_gt by lia. apply HLx.
           destruct Hp as (e & He & Hi). rewrite ins_eq in He by done. simplify_eq. done.
        -- rewrite ins_nid_gt, ins_drop_gt by lia. apply HLgt; [lia|].
           destruct q as [|r]; [lia|]. destruct Hp as (e & He & Hi). rewrite ins_gt in He by lia. by exists e.
    + rewrite Hs6a, Hs6c. intros i Hi. rewrite HLtop by lia. apply (wf_top _ _ Hwf1). lia.
    + rewrite Hs6c. intros p e He.
      assert (Hin : e ∈ Ent x sc v level :: es).
      { rewrite <- (ins_perm N). by eapply elem_of_list_lookup_2. }
      apply elem_of_cons in Hin as [->|Hin]; [simpl; lia|].
      apply elem_of_list_lookup in Hin as [q Hq]. apply (wf_hts _ _ Hwf1 _ _ Hq).
    + rewrite Hs6c. apply Hwf1.
    + rewrite Hs6b, (wf_len _ _ Hwf1), ins_length by done. lia.
    + rewrite Hs6d. intros a Ha. destruct (decide (a = x)) as [->|Hax]; [lia|].
      assert (Ha1 : is_Some (sl_nodes s1 !! a)).
      { rewrite <- Hny by done. unfold s6 in Ha. destruct (e_id <$> es !! N) as [y|]; [|done].
        destruct Ha as [nd Ha]. simpl in Ha. apply lookup_alter_Some in Ha.
        destruct Ha as [(-> & n' & Hn & _)|[_ Hn]]; rewrite Hn; eauto. }
      pose proof (wf_fresh _ _ Hwf1 _ Ha1). unfold x. lia.
  - cbn [sl_level with_len]. rewrite Hs6c. done.
  - intros y Hy. cbn [sl_nodes with_len]. rewrite <- Hn1, <- (Hny y) by done. unfold s6.
    destruct (e_id <$> es !! N) as [z|]; [|done]. simpl.
    destruct (decide (y = z)) as [->|Hne]; [|by rewrite lookup_alter_ne].
    rewrite lookup_alter. by destruct (sl_nodes s5 !! z).
Qed.

(** ** Removing one element *)
Lemma nat_choice (P : nat → nat → Prop) n :
  (∀ i, (i < n)%nat → ∃ a, P i a) → ∃ f : nat → nat, ∀ i, (i < n)%nat → P i (f i).
Proof.
  induction n as [|n IH]; intros H.
  - exists (λ _, 0%nat). lia.
  - destruct IH as [f Hf]; [intros; apply H; lia|]. destruct (H n) as [a Ha]; [lia|].
    exists (λ i, if decide (i = n) then a else f i). intros i Hi.
    destruct (decide (i = n)) as [->|]; [done|]. apply Hf. lia.
Qed.

Lemma hop_ids i es y : (hop i es).1 = Some y → y ∈ e_id <$> es.
Proof.
  destruct (hop_cases i es) as [H|(A & f & B & -> & HA & Hf)].
  - by rewrite hop_none.
  - rewrite hop_hit by done. simpl. intros ?; simplify_eq. rewrite fmap_app. set_solver.
Qed.

Lemma shrink_ok s n :
  (1 ≤ n)%nat → (∀ i, (i < n)%nat → is_Some (sl_links s !! (sl_head, i))) →
  ∃ lvl, shrink_level n s = Ret lvl ∧ (1 ≤ lvl ≤ n)%nat ∧
    ∀ i, (lvl ≤ i < n)%nat → ∃ z, sl_links s !! (sl_head, i) = Some (None, z).
Proof.
  induction n as [|n IH]; [lia|]. intros _ Hs. destruct n as [|m].
  - exists 1%nat. split; [done|]. split; [lia|]. lia.
  - change (shrink_level (S (S m)) s) with
      (let* (fwd, _) := lk sl_head (S m) s in
       match fwd with None => shrink_level (S m) s | Some _ => Ret (S (S m)) end).
    unfold lk. destruct (Hs (S m)) as [[fwd z] Hz]; [lia|]. rewrite Hz. cbn [deref obind].
    destruct fwd as [y|].
    + exists (S (S m)). split; [done|]. split; [lia|]. lia.
    + destruct IH as (lvl & E & Hl & Hn); [lia|intros; apply Hs; lia|].
      exists lvl. split; [done|]. split; [lia|]. intros i Hi.
      destruct (decide (i = S m)) as [->|]; [by exists z|]. apply Hn. lia.
Qed.

Lemma wf_shrink s es lvl :
  wf s es → (1 ≤ lvl ≤ sl_level s)%nat →
  (∀ i, (lvl ≤ i < sl_level s)%nat → ∃ z, sl_links s !! (sl_head, i) = Some (None, z)) →
  wf (with_level lvl s) es.
Proof.
  intros Hwf Hl Hn. pose proof (wf_level _ _ Hwf) as Hlev. split; try apply Hwf; simpl.
  - intros p i Hp. apply (wf_links _ _ Hwf). destruct p as [|q]; simpl in *; [lia|done].
  - intros i Hi. destruct (decide (i < sl_level s)%nat); [apply Hn; lia|]. apply (wf_top _ _ Hwf). lia.
  - intros p e He. pose proof (wf_hts _ _ Hwf _ _ He) as Hh. split; [lia|].
    destruct (decide (e_h e ≤ lvl)%nat) as [|Hgt]; [done|]. exfalso.
    destruct (Hn lvl) as [z Hz]; [lia|].
    pose proof (wf_links _ _ Hwf 0%nat lvl) as H0. simpl in H0. rewrite Hz in H0 by lia.
    rewrite drop_0 in H0. specialize (H0 ltac:(lia)).
    destruct (hop_cases lvl es) as [Hall|(A & f & B & -> & HA & Hf)].
    + rewrite Forall_lookup in Hall. specialize (Hall _ _ He). simpl in Hall. lia.
    + rewrite hop_hit in H0 by done. simplify_eq.
  - lia.
Qed.

Lemma sl_delete_node_ok s es n (e : ent) update :
  (n ≤ length es)%nat → wf s (ins n e es) →
  (∀ i, (i < sl_level s)%nat → arr_ok (sl_level s) (ins n e es) n i update) →
  ∃ s', sl_delete_node (e_id e) update s = Ret s' ∧ wf s' es ∧
    (sl_level s' ≤ sl_level s)%nat ∧ sl_fresh s' = sl_fresh s ∧
    (∀ y, zi_score <$> sl_nodes s' !! y = zi_score <$> sl_nodes s !! y) ∧
    (∀ y, zi_val <$> sl_nodes s' !! y = zi_val <$> sl_nodes s !! y).
Proof.
  intros Hn Hwf Harr. set (es0 := ins n e es) in *. pose proof (wf_level _ _ Hwf) as Hlev.
  assert (Hlen0 : length es0 = S (length es)) by by apply ins_length.
  destruct (nat_choice (λ i a, upos (sl_level s) es0 n i a ∧ update !! i = Some (Some (nid es0 a)))
    (sl_level s)) as [pos Hpos].
  { intros i Hi. destruct (Harr i Hi) as (a & Ha). by exists a. }
  assert (Hen : es0 !! n = Some e) by by apply ins_eq.
  assert (Hple : ∀ i, (i < sl_level s)%nat → (pos i ≤ n)%nat).
  { intros i Hi. destruct (Hpos i Hi) as ((H & _) & _). done. }
  assert (Hne : ∀ i, (i < sl_level s)%nat → nid es0 (pos i) ≠ e_id e).
  { intros i Hi E. rewrite <- (nid_S _ _ _ Hen) in E. pose proof (Hple i Hi).
    apply (nid_inj s) in E; [lia|done|lia|lia]. }
  assert (Htail : drop (S n) es0 = drop n es) by (apply ins_drop_gt; lia).
  assert (Htake : take n es0 = take n es).
  { unfold es0, ins. rewrite take_app_le by (rewrite take_length; lia). rewrite take_take.
    f_equal. lia. }
  assert (Hu' : ∀ i, (i < sl_level s)%nat → upos (sl_level s) es n i (pos i)).
  { intros i Hi. destruct (Hpos i Hi) as ((H1 & H2 & H3) & _). split; [done|]. split.
    - destruct (pos i) as [|q]; simpl in *; [done|]. unfold es0 in H2. by rewrite ins_lt in H2 by lia.
    - intros j f Hj Hf. apply (H3 j f); [lia|]. unfold es0. by rewrite ins_lt by lia. }
  assert (Hel : ∀ i, (i < e_h e)%nat → sl_links s !! (e_id e, i) = Some (hop i (drop n es))).
  { intros i Hi. rewrite <- Htail, <- (nid_S _ _ _ Hen). apply (wf_links _ _ Hwf). by exists e. }
  assert (Hnotin : ∀ i, (hop i (drop n es)).1 ≠ Some (e_id e)).
  { intros i Hh. apply hop_ids in Hh. pose proof (wf_ids _ _ Hwf) as Hids.
    apply NoDup_cons in Hids as [_ Hids]. unfold es0 in Hids. rewrite (ins_perm n) in Hids.
    cbn [fmap list_fmap] in Hids. apply NoDup_cons in Hids as [Hids _]. apply Hids.
    rewrite <- (take_drop n es), fmap_app. apply elem_of_app. by right. }
  unfold sl_delete_node.
  set (f := λ (i : nat) (L : links), <[(nid es0 (pos i), i) := hop i (drop (pos i) es)]> L).
  destruct (oloop_lvl (unlink_step (e_id e) update) f s 0 (sl_level s)) as (L & EL & Hin & Hout).
  { intros i L Hi HL. unfold unlink_step, upd_at, lk.
    destruct (Hpos i) as (Hu & Hup); [lia|]. rewrite Hup. cbn [deref obind sl_links with_links].
    rewrite (HL (nid es0 (pos i))). rewrite (wf_links _ _ Hwf) by apply Hu.
    pose proof (Hu' i ltac:(lia)) as Hui.
    unfold es0. rewrite ins_drop_le by (try apply Hui; done). fold es0.
    rewrite hop_skip by (eapply upos_flat; exact Hui). rewrite (upos_len _ _ _ _ _ Hui Hn).
    unfold f. rewrite (upos_hop _ _ _ _ _ Hui Hn). cbn [hop].
    destruct (Nat.ltb_spec i (e_h e)) as [Hie|Hie].
    - cbn [fst snd deref obind]. rewrite bool_decide_eq_true_2 by done.
      rewrite (HL (e_id e)), Hel by done. cbn [deref obind].
      destruct (hop i (drop n es)) as [fw sp]. cbn [fst snd]. unfold set_lk. cbn [sl_links with_links].
      rewrite with_links_twice. do 4 f_equal. lia.
    - pose proof (Hnotin i) as Hni. destruct (hop i (drop n es)) as [fw sp]. cbn [fst snd deref obind] in *.
      rewrite bool_decide_eq_false_2 by done. unfold set_lk. cbn [sl_links with_links].
      rewrite with_links_twice. do 4 f_equal. lia. }
  { intros i L y j Hj. unfold f. rewrite !lookup_insert_ne by congruence. done. }
  { intros i L L' HL y. unfold f. destruct (decide (y = nid es0 (pos i))) as [->|Hy].
    { by rewrite !lookup_insert. }
    rewrite !lookup_insert_ne by congruence. apply HL. }
  rewrite EL. cbn [obind].
  assert (He0 : (1 ≤ e_h e ≤ sl_level s)%nat) by by apply (wf_hts _ _ Hwf n).
  assert (HLe : ∀ i, (i < e_h e)%nat → L !! (e_id e, i) = Some (hop i (drop n es))).
  { intros i Hi. rewrite Hin by lia. unfold f. rewrite lookup_insert_ne; [by apply Hel|].
    intros E. simplify_eq. by apply (Hne i); [lia|]. }
  unfold lk at 1. cbn [sl_links with_links]. rewrite HLe by lia. cbn [deref obind].
  assert (Hh0 : (hop 0 (drop n es)).1 = e_id <$> es !! n).
  { rewrite <- Htail, (hop0 s es0 (S n) Hwf). unfold es0. by rewrite ins_gt by lia. }
  destruct (hop 0 (drop n es)) as [fw sp]. cbn [fst] in Hh0. subst fw.
  set (s2 := match es !! n with Some g => set_back (e_id g) (back_of es n) (with_links L s)
                              | None => with_links L s end).
  assert (Hbk : back_of es0 n = back_of es n).
  { destruct n as [|q]; [done|]. simpl. unfold es0. by rewrite ins_lt by lia. }
  replace (match e_id <$> es !! n with
           | Some y => let* nd := zn (e_id e) (with_links L s) in Ret (set_back y (zi_back nd) (with_links L s))
           | None => Ret (with_links L s) end) with (Ret s2).
  2:{ unfold s2. destruct (es !! n) as [g|]; simpl; [|done]. unfold zn. simpl.
      rewrite (wf_nodes _ _ Hwf _ _ Hen). simpl. by rewrite Hbk. }
  cbn [obind].
  assert (Hs2 : sl_links s2 = L ∧ sl_len s2 = sl_len s ∧ sl_level s2 = sl_level s ∧ sl_fresh s2 = sl_fresh s).
  { unfold s2. by destruct (es !! n). }
  destruct Hs2 as (Hs2a & Hs2b & Hs2c & Hs2d).
  assert (Hnid : ∀ p, (p ≤ n)%nat → nid es0 p = nid es p) by (intros; by apply ins_nid_le).
  assert (Hnid' : ∀ p, (n < p)%nat → nid es0 (S p) = nid es p) by (intros; by apply ins_nid_gt).
  (* the state with the old level and the new length represents es *)
  assert (Hwf2 : wf (with_len (sl_len s2 - 1) s2) es).
  { split; cbn [sl_links sl_nodes sl_len sl_level sl_fresh with_len].
    - pose proof (wf_ids _ _ Hwf) as Hids. unfold es0 in Hids. rewrite (ins_perm n) in Hids.
      cbn [fmap list_fmap] in Hids. rewrite !NoDup_cons in Hids. rewrite NoDup_cons.
      destruct Hids as (H1 & H2 & H3). rewrite not_elem_of_cons in H1. split; [apply H1|done].
    - unfold s2. destruct (es !! n) as [g|] eqn:Eg; simpl; [|apply (wf_head _ _ Hwf)].
      rewrite lookup_alter_ne; [apply (wf_head _ _ Hwf)|]. intros E.
      rewrite <- (nid_S _ _ _ Eg), <- Hnid' in E by lia. change sl_head with (nid es0 0) in E.
      apply lookup_lt_Some in Eg. apply (nid_inj s) in E; [lia|done|lia|lia].
    - intros p g Hg. unfold s2.
      assert (Hold : sl_nodes s !! e_id g =
        Some (ZI (e_val g) (e_sc g) (if decide (p = n) then Some (e_id e) else back_of es p))).
      { destruct (decide (p < n)%nat) as [Hp|Hp].
        - rewrite decide_False by lia.
          rewrite (wf_nodes _ _ Hwf p g) by (unfold es0; by rewrite ins_lt by lia).
          do 2 f_equal. destruct p as [|q]; [done|]. simpl. unfold es0. by rewrite ins_lt by lia.
        - rewrite (wf_nodes _ _ Hwf (S p) g) by (unfold es0; by rewrite ins_gt by lia).
          do 2 f_equal. simpl. destruct (decide (p = n)) as [->|Hpn]; [by rewrite Hen|].
          destruct p as [|q]; [lia|]. unfold es0. rewrite ins_gt by lia. done. }
      destruct (decide (p = n)) as [->|Hpn].
      + rewrite Hg. simpl. rewrite lookup_alter, Hold. done.
      + destruct (es !! n) as [g'|] eqn:Eg; simpl; [|done].
        rewrite lookup_alter_ne; [done|]. intros E.
        assert (Hg1 : es !! n = Some g') by done.
        assert (Hdup : NoDup (e_id <$> es)).
        { pose proof (wf_ids _ _ Hwf) as Hids. apply NoDup_cons in Hids as [_ Hids].
          unfold es0 in Hids. rewrite (ins_perm n) in Hids. cbn [fmap list_fmap] in Hids.
          by apply NoDup_cons in Hids as [_ Hids]. }
        apply Hpn. eapply (NoDup_lookup (e_id <$> es)); [done| |].
        * rewrite list_lookup_fmap, Hg. simpl. reflexivity.
        * rewrite list_lookup_fmap, Hg1. simpl. by rewrite E.
    - rewrite Hs2a, Hs2c. intros p i Hp.
      assert (Hi : (i < sl_level s)%nat).
      { destruct p as [|q]; [done|]. destruct Hp as (g & Hg & Hi).
        assert (g ∈ es0). { unfold es0. rewrite (ins_perm n). apply elem_of_cons. right. by eapply elem_of_list_lookup_2. }
        apply elem_of_list_lookup in H as [q' Hq']. pose proof (wf_hts _ _ Hwf _ _ Hq'). lia. }
      pose proof (lvl_ok_le _ _ _ _ Hp) as Hpl.
      pose proof (Hu' i Hi) as Hui.
      destruct (le_lt_dec p n) as [Hpn|Hpn].
      + rewrite <- Hnid by done. rewrite Hin by lia. unfold f.
        destruct (decide (p = pos i)) as [->|Hpi]; [by rewrite lookup_insert|].
        rewrite lookup_insert_ne.
        2:{ intros E. apply (f_equal fst) in E. cbn [fst] in E. apply (nid_inj s) in E; [lia|done| |lia]. pose proof (Hple i Hi). lia. }
        destruct (upos_before _ _ _ _ _ _ Hui Hpn Hp Hpi) as [Hlt Hnf].
        rewrite (wf_links _ _ Hwf).
        * f_equal. unfold es0. rewrite ins_drop_le by done. rewrite (drop_take_split n es p) by done.
          by apply hop_inside.
        * destruct p as [|q]; simpl in *; [done|]. unfold es0. by rewrite ins_lt by lia.
      + rewrite <- Hnid' by done. rewrite Hin by lia. unfold f. rewrite lookup_insert_ne.
        2:{ intros E. apply (f_equal fst) in E. cbn [fst] in E. apply (nid_inj s) in E; [|done|pose proof (Hple i Hi); lia|lia].
            pose proof (Hple i Hi). lia. }
        rewrite (wf_links _ _ Hwf).
        * f_equal. f_equal. apply ins_drop_gt; lia.
        * destruct p as [|q]; [lia|]. destruct Hp as (g & Hg & Hgi). exists g. split; [|done].
          unfold es0. by rewrite ins_gt by lia.
    - rewrite Hs2a, Hs2c. intros i Hi. rewrite Hout by lia. by apply (wf_top _ _ Hwf).
    - rewrite Hs2c. intros p g Hg.
      assert (Hg0 : g ∈ es0). { unfold es0. rewrite (ins_perm n). apply elem_of_cons. right. by eapply elem_of_list_lookup_2. }
      apply elem_of_list_lookup in Hg0 as [q' Hq']. apply (wf_hts _ _ Hwf _ _ Hq').
    - rewrite Hs2c. done.
    - rewrite Hs2b, (wf_len _ _ Hwf), Hlen0. lia.
    - rewrite Hs2d. intros a Ha. apply (wf_fresh _ _ Hwf). unfold s2 in Ha.
      destruct (es !! n) as [g|]; [|done]. simpl in Ha.
      destruct Ha as [nd Ha]. apply lookup_alter_Some in Ha.
      destruct Ha as [(Ea & n' & Hn' & _)|[_ Hn']]; try rewrite Ea in Hn'; rewrite Hn'; eauto. }
  destruct (shrink_ok s2 (sl_level s2)) as (lvl & Es & Hlvl & Hnone).
  { rewrite Hs2c. lia. }
  { intros i Hi. pose proof (wf_links _ _ Hwf2 0%nat i) as H0. simpl in H0. rewrite H0 by done. eauto. }
  rewrite Es. cbn [obind]. eexists. split; [reflexivity|].
  split; [|split; [|split; [|split]]].
  - change (with_len (sl_len (with_level lvl s2) - 1) (with_level lvl s2))
      with (with_level lvl (with_len (sl_len s2 - 1) s2)).
    apply wf_shrink; [done| |].
    + done.
    + done.
  - simpl. rewrite Hs2c in Hlvl. lia.
  - simpl. done.
  - intros y. simpl. unfold s2. destruct (es !! n) as [g|]; simpl; [|done].
    destruct (decide (y = e_id g)) as [->|Hy]; [|by rewrite lookup_alter_ne].
    rewrite lookup_alter. by destruct (sl_nodes s !! e_id g).
  - intros y. simpl. unfold s2. destruct (es !! n) as [g|]; simpl; [|done].
    destruct (decide (y = e_id g)) as [->|Hy]; [|by rewrite lookup_alter_ne].
    rewrite lookup_alter. by destruct (sl_nodes s !! e_id g).
Qed.
