(** Representation invariant of the linked list and correctness of every operation. *)
From Coq Require Import ZifyBool.
From Verif Require Import GoBase GoBaseProofs DList SpecList.

Definition nxt (ls : list loc) (n : option loc) : option loc :=
  match ls with [] => n | b :: _ => Some b end.

Fixpoint dseg (h : gmap loc lnode) (p : option loc) (ls : list loc) (xs : list string)
    (n : option loc) : Prop :=
  match ls, xs with
  | [], [] => True
  | a :: ls', x :: xs' =>
      h !! a = Some (LNode (nxt ls' n) p x) ∧ dseg h (Some a) ls' xs' n
  | _, _ => False
  end.

Definition lst (p : option loc) (ls : list loc) : option loc :=
  match last ls with Some a => Some a | None => p end.

Lemma lst_cons p a ls : lst p (a :: ls) = lst (Some a) ls.
Proof. unfold lst. destruct ls as [|b ls]; [done|]. rewrite last_cons_cons. destruct (last (b :: ls)) eqn:E; [done|]. by apply last_None in E. Qed.
Lemma lst_snoc p ls a : lst p (ls ++ [a]) = Some a.
Proof. unfold lst. by rewrite last_snoc. Qed.
Lemma nxt_app ls1 ls2 n : nxt (ls1 ++ ls2) n = nxt ls1 (nxt ls2 n).
Proof. by destruct ls1. Qed.

Lemma dseg_len h p ls xs n : dseg h p ls xs n → length ls = length xs.
Proof.
  revert p xs. induction ls as [|a ls IH]; intros p [|x xs]; simpl; try done.
  intros [_ H]. f_equal. eauto.
Qed.

Lemma dseg_app h p ls1 ls2 xs1 xs2 n :
  length ls1 = length xs1 →
  dseg h p (ls1 ++ ls2) (xs1 ++ xs2) n ↔
  dseg h p ls1 xs1 (nxt ls2 n) ∧ dseg h (lst p ls1) ls2 xs2 n.
Proof.
  revert p xs1. induction ls1 as [|a ls1 IH]; intros p [|x xs1]; simpl; try done.
  - intros _. unfold lst; simpl. tauto.
  - intros [= Hl]. rewrite IH by done. rewrite nxt_app, lst_cons. tauto.
Qed.

Lemma dseg_app_inv h p ls1 ls2 ys n :
  dseg h p (ls1 ++ ls2) ys n →
  ∃ xs1 xs2, ys = xs1 ++ xs2 ∧ length ls1 = length xs1 ∧ length ls2 = length xs2.
Proof.
  intros H. apply dseg_len in H. rewrite app_length in H.
  exists (take (length ls1) ys), (drop (length ls1) ys).
  rewrite take_drop, take_length, drop_length. split; [done|]. lia.
Qed.

Lemma dseg_frame h p ls xs n a v :
  a ∉ ls → dseg h p ls xs n → dseg (<[a := v]> h) p ls xs n.
Proof.
  revert p xs. induction ls as [|b ls IH]; intros p [|x xs]; simpl; try done.
  rewrite not_elem_of_cons. intros [Hne Hni] [Hb Hd]. split; [|by apply IH].
  rewrite lookup_insert_ne by done. done.
Qed.

Lemma dseg_frame_alter h p ls xs n a f :
  a ∉ ls → dseg h p ls xs n → dseg (alter f a h) p ls xs n.
Proof.
  revert p xs. induction ls as [|b ls IH]; intros p [|x xs]; simpl; try done.
  rewrite not_elem_of_cons. intros [Hne Hni] [Hb Hd]. split; [|by apply IH].
  rewrite lookup_alter_ne by done. done.
Qed.

Lemma dseg_lookup h p ls xs n a : dseg h p ls xs n → a ∈ ls → is_Some (h !! a).
Proof.
  revert p xs. induction ls as [|b ls IH]; intros p [|x xs]; simpl; try done.
  - intros _ H. by apply elem_of_nil in H.
  - intros [Hb Hd] [->|Hin]%elem_of_cons; eauto.
Qed.

(** change of the [prev] field of the first node *)
Lemma dseg_set_prev h p p' a ls x xs n :
  a ∉ ls → dseg h p (a :: ls) (x :: xs) n →
  dseg (alter (λ nd, LNode (ln_next nd) p' (ln_val nd)) a h) p' (a :: ls) (x :: xs) n.
Proof.
  simpl. intros Hni [Ha Hd]. split.
  - by rewrite lookup_alter, Ha.
  - by apply dseg_frame_alter.
Qed.

(** change of the [next] field of the last node *)
Lemma dseg_set_next h p ls a xs x n n' :
  a ∉ ls → length ls = length xs → dseg h p (ls ++ [a]) (xs ++ [x]) n →
  dseg (alter (λ nd, LNode n' (ln_prev nd) (ln_val nd)) a h) p (ls ++ [a]) (xs ++ [x]) n'.
Proof.
  intros Hni Hlen. rewrite !dseg_app by done. simpl. intros [H1 [H2 _]].
  split; [by apply dseg_frame_alter|]. split; [|done]. by rewrite lookup_alter, H2.
Qed.

(** ** Representation *)

Record rep (l : dlist) (ls : list loc) (xs : list string) : Prop := {
  rep_nodup : NoDup ls;
  rep_seg : dseg (dl_heap l) None ls xs None;
  rep_head : dl_head l = nxt ls None;
  rep_tail : dl_tail l = lst None ls;
  rep_len : dl_len l = Z.of_nat (length xs);
}.
(** every allocated address is below the allocation pointer *)
Definition fresh_ok (l : dlist) : Prop := ∀ a, is_Some (dl_heap l !! a) → (a < dl_fresh l)%nat.

(** [l] is a regular list holding the sequence [xs]. *)
Definition Rep (l : dlist) (xs : list string) : Prop := fresh_ok l ∧ ∃ ls, rep l ls xs.

Lemma Rep_new : Rep dl_new [].
Proof.
  split.
  - intros a [? H]. simpl in H. by rewrite lookup_empty in H.
  - exists []. split; try done. constructor.
Qed.

Lemma Rep_len l xs : Rep l xs → dl_len l = Z.of_nat (length xs).
Proof. intros [_ [ls H]]. apply H. Qed.

Lemma fresh_notin l ls xs p n : fresh_ok l → dseg (dl_heap l) p ls xs n → dl_fresh l ∉ ls.
Proof. intros Hf Hd Hin. pose proof (Hf _ (dseg_lookup _ _ _ _ _ _ Hd Hin)). lia. Qed.

(** ** Symmetry: exchanging next/prev and head/tail *)
Definition flip_node (n : lnode) : lnode := LNode (ln_prev n) (ln_next n) (ln_val n).
Definition flip (l : dlist) : dlist :=
  DL (dl_len l) (dl_tail l) (dl_head l) (flip_node <$> dl_heap l) (dl_fresh l).

Lemma flip_node_invol n : flip_node (flip_node n) = n.
Proof. by destruct n. Qed.
Lemma flip_invol l : flip (flip l) = l.
Proof.
  destruct l as [z h t m f]. unfold flip; simpl. f_equal.
  rewrite <- map_fmap_compose. rewrite <- (map_fmap_id m) at 2. apply map_fmap_ext. intros. apply flip_node_invol.
Qed.

Lemma dseg_flip h p ls xs n :
  dseg h p ls xs n → dseg (flip_node <$> h) n (reverse ls) (reverse xs) p.
Proof.
  revert p xs. induction ls as [|a ls IH]; intros p [|x xs]; simpl; try done.
  intros [Ha Hd]. rewrite !reverse_cons. apply dseg_app.
  { rewrite !reverse_length. by apply dseg_len in Hd. }
  split; [by apply IH|]. simpl. split; [|done].
  rewrite lookup_fmap, Ha. simpl. unfold flip_node; simpl. do 2 f_equal.
  unfold lst. rewrite last_reverse. by destruct ls.
Qed.

Lemma rep_flip l ls xs : rep l ls xs → rep (flip l) (reverse ls) (reverse xs).
Proof.
  intros [Hn Hs Hh Ht Hl]. split; simpl.
  - by rewrite reverse_Permutation.
  - by apply dseg_flip.
  - rewrite Ht. unfold lst. destruct ls as [|a ls _] using rev_ind; [done|].
    by rewrite last_snoc, reverse_snoc.
  - rewrite Hh. unfold lst. rewrite last_reverse. by destruct ls.
  - by rewrite reverse_length.
Qed.
Lemma Rep_flip l xs : Rep l xs → Rep (flip l) (reverse xs).
Proof.
  intros [Hf [ls H]]. split.
  - intros a. unfold flip; simpl. rewrite lookup_fmap, fmap_is_Some. apply Hf.
  - exists (reverse ls). by apply rep_flip.
Qed.
Lemma Rep_unflip l xs : Rep (flip l) (reverse xs) → Rep l xs.
Proof. intros H%Rep_flip. by rewrite flip_invol, reverse_involutive in H. Qed.

Definition oflip {A} (o : outcome (dlist * A)) : outcome (dlist * A) :=
  let* (l, a) := o in Ret (flip l, a).
Definition oflip2 {A} (o : outcome (A * dlist)) : outcome (A * dlist) :=
  let* (a, l) := o in Ret (a, flip l).

Lemma fmap_alter_flip f g p (h : gmap loc lnode) :
  (∀ n, flip_node (f n) = g (flip_node n)) →
  flip_node <$> alter f p h = alter g p (flip_node <$> h).
Proof.
  intros Hfg. apply map_eq. intros i. rewrite lookup_fmap.
  destruct (decide (i = p)) as [->|Hne].
  - rewrite !lookup_alter, lookup_fmap. destruct (h !! p); simpl; [by rewrite Hfg|done].
  - rewrite !lookup_alter_ne, lookup_fmap by done. done.
Qed.

Lemma flip_set_next p v l : flip (set_next p v l) = set_prev p v (flip l).
Proof. unfold flip, set_next, set_prev, set_heap; simpl. f_equal. by apply fmap_alter_flip. Qed.
Lemma flip_set_prev p v l : flip (set_prev p v l) = set_next p v (flip l).
Proof. unfold flip, set_next, set_prev, set_heap; simpl. f_equal. by apply fmap_alter_flip. Qed.
Lemma flip_set_val p v l : flip (set_val p v l) = set_val p v (flip l).
Proof. unfold flip, set_val, set_heap; simpl. f_equal. by apply fmap_alter_flip. Qed.
Lemma flip_set_head p l : flip (set_head p l) = set_tail p (flip l).
Proof. done. Qed.
Lemma flip_set_tail p l : flip (set_tail p l) = set_head p (flip l).
Proof. done. Qed.
Lemma flip_set_len p l : flip (set_len p l) = set_len p (flip l).
Proof. done. Qed.
Lemma flip_alloc n l : alloc (flip_node n) (flip l) = (fst (alloc n l), flip (snd (alloc n l))).
Proof. unfold alloc, flip; simpl. do 2 f_equal. by rewrite fmap_insert. Qed.
Lemma flip_alloc0 v l :
  alloc (LNode None None v) (flip l) =
  (fst (alloc (LNode None None v) l), flip (snd (alloc (LNode None None v) l))).
Proof. apply (flip_alloc (LNode None None v)). Qed.
Lemma node_at_flip p l : node_at p (flip l) = let* n := node_at p l in Ret (flip_node n).
Proof. unfold node_at, flip; simpl. rewrite lookup_fmap. by destruct (dl_heap l !! p). Qed.

Lemma alter_swap_next_prev (c : loc) l :
  set_next c None (set_prev c None l) = set_prev c None (set_next c None l).
Proof.
  unfold set_next, set_prev, set_heap; simpl. f_equal.
  rewrite <- !alter_compose. done.
Qed.

Lemma rpush_flip v l : dl_rpush v l = flip (dl_lpush v (flip l)).
Proof.
  unfold dl_rpush, dl_lpush. change (dl_len (flip l)) with (dl_len l).
  rewrite <- flip_set_len. set (l0 := set_len _ _).
  change (dl_head (flip l0)) with (dl_tail l0).
  destruct (dl_tail l0) as [t|] eqn:Et.
  - unfold add_to_tail, add_to_head.
    rewrite flip_alloc0.
    destruct (alloc _ _) as [q l1] eqn:Ea. cbn [fst snd].
    rewrite <- (flip_invol (set_tail _ _)). f_equal.
    rewrite flip_set_tail, flip_set_prev, flip_set_next. done.
  - rewrite flip_alloc0.
    destruct (alloc _ _) as [q l1] eqn:Ea. cbn [fst snd].
    rewrite <- (flip_invol (set_tail _ _)). f_equal.
Qed.

Lemma rpop_flip l : dl_rpop l = oflip2 (dl_lpop (flip l)).
Proof.
  unfold dl_rpop, dl_lpop. change (dl_len (flip l)) with (dl_len l).
  rewrite <- flip_set_len. change (dl_head (flip l)) with (dl_tail l).
  destruct (dl_tail l) as [t|] eqn:Et; [|simpl; by rewrite flip_invol].
  unfold pop_and_prev, pop_and_next. rewrite !node_at_flip.
  destruct (node_at t (set_len (dl_len l - 1) l)) as [nd| |] eqn:En; simpl; try done.
  f_equal. f_equal.
  rewrite <- flip_set_prev.
  destruct (ln_prev nd) as [x|]; simpl.
  - rewrite <- flip_set_next, <- flip_set_tail, flip_invol. done.
  - rewrite <- flip_set_tail, <- flip_set_head, flip_invol. done.
Qed.

Lemma rem_tail_loop_flip fuel v n cnt prev cur next l :
  rem_tail_loop fuel v n cnt prev cur next l =
  (let* (l', p, c) := rem_head_loop fuel v n cnt prev cur next (flip l) in Ret (flip l', p, c)).
Proof.
  revert n cnt prev cur next l. induction fuel as [|f IH]; intros n cnt prev cur next l.
  { destruct cur; simpl; [|by rewrite flip_invol]. destruct (0 <? n); [done|]. simpl. by rewrite flip_invol. }
  destruct cur as [c|]; cbn [rem_tail_loop rem_head_loop].
  2:{ simpl. by rewrite flip_invol. }
  destruct (0 <? n); [|simpl; by rewrite flip_invol].
  rewrite node_at_flip. destruct (node_at c l) as [nd| |]; simpl; try done.
  destruct (String.eqb (ln_val nd) v); simpl.
  - rewrite <- flip_set_prev. destruct next as [x|]; simpl.
    + rewrite alter_swap_next_prev. rewrite <- !flip_set_next, <- flip_set_prev.
      rewrite node_at_flip.
      destruct (node_at x _) as [nx| |]; simpl; try done; apply IH.
    + rewrite alter_swap_next_prev. rewrite <- flip_set_next, <- flip_set_prev. apply IH.
  - rewrite node_at_flip. destruct (node_at prev l) as [pn| |]; simpl; try done.
    destruct (ln_prev pn) as [p'|]; simpl; try done.
    destruct next as [x|]; simpl.
    + rewrite node_at_flip. destruct (node_at x l) as [nx| |]; simpl; try done; apply IH.
    + apply IH.
Qed.

#[local] Arguments rem_head_loop : simpl never.
#[local] Arguments rem_tail_loop : simpl never.

Lemma rem_tail_flip v n l : dl_rem_tail v n l = oflip (dl_rem_head v n (flip l)).
Proof.
  unfold dl_rem_tail, dl_rem_head. simpl dl_head.
  change (LNode (dl_tail l) None EmptyString) with (flip_node (LNode None (dl_tail l) EmptyString)).
  rewrite flip_alloc. destruct (alloc _ l) as [dumb l0] eqn:Ea. cbn [fst snd].
  destruct (dl_tail l) as [t|]; simpl; [|done].
  rewrite node_at_flip. destruct (node_at t l0) as [tn| |]; simpl; try done.
  rewrite map_size_fmap. rewrite rem_tail_loop_flip.
  destruct (rem_head_loop _ _ _ _ _ _ _ _) as [[[l1 prev] cnt]| |]; simpl; try done.
  rewrite node_at_flip. destruct (node_at prev l1) as [pn| |]; simpl; try done.
  destruct (ln_next pn) as [x|]; simpl.
  - rewrite node_at_flip. destruct (node_at dumb l1) as [dn| |]; simpl; try done.
    destruct (ln_next dn); [|done]. by rewrite flip_set_len, flip_set_prev.
  - rewrite <- flip_set_tail, node_at_flip.
    destruct (node_at dumb _) as [dn| |]; simpl; try done.
    destruct (ln_next dn); [|done]. by rewrite flip_set_len, flip_set_prev.
Qed.

(** ** Pushing and popping *)

Lemma fresh_ok_insert l z hd tl n :
  fresh_ok l → fresh_ok (DL z hd tl (<[dl_fresh l := n]> (dl_heap l)) (S (dl_fresh l))).
Proof.
  intros Hf a. simpl. destruct (decide (a = dl_fresh l)) as [->|Hne]; [lia|].
  rewrite lookup_insert_ne by done. intros H%Hf. lia.
Qed.
Lemma fresh_ok_alter l f p : fresh_ok l → fresh_ok (set_heap (alter f p (dl_heap l)) l).
Proof.
  intros Hf a. simpl. intros [n Hn]. apply lookup_alter_Some in Hn.
  destruct Hn as [[-> [n' [H _]]]|[_ H]]; apply Hf; eauto.
Qed.
Lemma fresh_ok_set_next p v l : fresh_ok l → fresh_ok (set_next p v l).
Proof. apply fresh_ok_alter. Qed.
Lemma fresh_ok_set_prev p v l : fresh_ok l → fresh_ok (set_prev p v l).
Proof. apply fresh_ok_alter. Qed.
Lemma fresh_ok_set_val p v l : fresh_ok l → fresh_ok (set_val p v l).
Proof. apply fresh_ok_alter. Qed.

Lemma fresh_ok_ext l l' : fresh_ok l → dl_heap l' = dl_heap l → dl_fresh l' = dl_fresh l → fresh_ok l'.
Proof. unfold fresh_ok. by intros ? -> ->. Qed.

(** The two ways LREM leaves an emptied list: head nil and tail a sentinel, or the mirror image. *)
Definition HEmpty (l : dlist) : Prop :=
  fresh_ok l ∧ dl_len l = 0 ∧ dl_head l = None ∧
  ∃ d, dl_tail l = Some d ∧ dl_heap l !! d = Some (LNode None None EmptyString).
Definition TEmpty (l : dlist) : Prop :=
  fresh_ok l ∧ dl_len l = 0 ∧ dl_tail l = None ∧
  ∃ d, dl_head l = Some d ∧ dl_heap l !! d = Some (LNode None None EmptyString).

Lemma HEmpty_flip l : HEmpty l → TEmpty (flip l).
Proof.
  intros (Hf & Hl & Hh & d & Ht & Hd). repeat split; try done.
  - intros a. unfold flip; simpl. rewrite lookup_fmap, fmap_is_Some. apply Hf.
  - exists d. split; [done|]. simpl. by rewrite lookup_fmap, Hd.
Qed.
Lemma TEmpty_flip l : TEmpty l → HEmpty (flip l).
Proof.
  intros (Hf & Hl & Hh & d & Ht & Hd). repeat split; try done.
  - intros a. unfold flip; simpl. rewrite lookup_fmap, fmap_is_Some. apply Hf.
  - exists d. split; [done|]. simpl. by rewrite lookup_fmap, Hd.
Qed.

Lemma lpush_headnil v l :
  fresh_ok l → dl_head l = None → dl_len l = 0 → Rep (dl_lpush v l) [v].
Proof.
  intros Hf Hh Hl. unfold dl_lpush. simpl. rewrite Hh. simpl. split.
  - apply (fresh_ok_insert l). done.
  - exists [dl_fresh l]. split; simpl; try done.
    + apply NoDup_singleton.
    + by rewrite lookup_insert.
    + lia.
Qed.

Lemma lpush_ok v l xs : Rep l xs → Rep (dl_lpush v l) (v :: xs).
Proof.
  intros [Hf [ls H]]. destruct ls as [|a ls].
  { pose proof (rep_seg _ _ _ H) as Hs. destruct xs; [|done]. apply lpush_headnil; [done| |].
    - by rewrite (rep_head _ _ _ H).
    - by rewrite (rep_len _ _ _ H). }
  destruct H as [Hn Hs Hh Ht Hl]. destruct xs as [|x xs]; [done|].
  pose proof (fresh_notin _ _ _ _ _ Hf Hs) as Hfr.
  unfold dl_lpush. cbn [set_len dl_head]. rewrite Hh. cbn [nxt]. unfold add_to_head.
  cbn [alloc]. split.
  - unfold set_head. eapply fresh_ok_ext; [|reflexivity|reflexivity].
    apply fresh_ok_set_next, fresh_ok_set_prev. apply (fresh_ok_insert l). done.
  - exists (dl_fresh l :: a :: ls). split.
    + by constructor.
    + simpl in Hs |- *. split.
      * rewrite lookup_alter, lookup_alter_ne by set_solver. rewrite lookup_insert. done.
      * apply (dseg_frame_alter _ _ (a :: ls) (x :: xs)); [done|].
        apply (dseg_set_prev _ None); [by apply NoDup_cons in Hn as [? _]|].
        by apply (dseg_frame _ _ (a :: ls) (x :: xs)).
    + done.
    + simpl. rewrite Ht, !lst_cons. done.
    + simpl. rewrite Hl. simpl. lia.
Qed.

Lemma lpop_nil l : dl_head l = None → dl_lpop l = Ret (None, l).
Proof. intros H. unfold dl_lpop. by rewrite H. Qed.
Lemma Rep_nil_head l : Rep l [] → dl_head l = None.
Proof. intros [_ [ls H]]. pose proof (dseg_len _ _ _ _ _ (rep_seg _ _ _ H)).
  destruct ls; [|done]. by rewrite (rep_head _ _ _ H). Qed.
Lemma Rep_nil_tail l : Rep l [] → dl_tail l = None.
Proof. intros [_ [ls H]]. pose proof (dseg_len _ _ _ _ _ (rep_seg _ _ _ H)).
  destruct ls; [|done]. by rewrite (rep_tail _ _ _ H). Qed.

Lemma lpop_ok l x xs : Rep l (x :: xs) → ∃ l', dl_lpop l = Ret (Some x, l') ∧ Rep l' xs.
Proof.
  intros [Hf [ls [Hn Hs Hh Ht Hl]]]. destruct ls as [|a ls]; [done|].
  unfold dl_lpop. rewrite Hh. cbn [nxt]. destruct Hs as [Ha Hs].
  unfold pop_and_next, node_at. cbn [dl_heap set_len]. rewrite Ha. simpl.
  apply NoDup_cons in Hn as [Hni Hn].
  eexists. split; [reflexivity|].
  destruct ls as [|b ls]; simpl.
  - destruct xs; [|done]. split.
    + apply (fresh_ok_ext (set_next a None l)); [by apply fresh_ok_set_next|done|done].
    + exists []. split; try done. simpl. rewrite Hl. simpl. lia.
  - destruct xs as [|y xs]; [done|]. split.
    + apply (fresh_ok_ext (set_prev b None (set_next a None l)));
        [by apply fresh_ok_set_prev, fresh_ok_set_next|done|done].
    + exists (b :: ls). split; try done.
      * simpl dl_heap. apply (dseg_set_prev _ (Some a)); [by apply NoDup_cons in Hn as [? _]|].
        by apply dseg_frame_alter.
      * simpl. rewrite Hl. simpl. lia.
Qed.

Lemma lpush_all_ok vs l xs : Rep l xs → Rep (dl_lpush_all vs l) (reverse vs ++ xs).
Proof.
  unfold dl_lpush_all. revert l xs. induction vs as [|v vs IH]; intros l xs H; simpl; [done|].
  rewrite reverse_cons, <- app_assoc. simpl. apply IH. by apply lpush_ok.
Qed.
Lemma lpush_all_HEmpty v vs l : HEmpty l → Rep (dl_lpush_all (v :: vs) l) (reverse (v :: vs)).
Proof.
  intros (Hf & Hl & Hh & _). unfold dl_lpush_all; simpl.
  rewrite reverse_cons. apply lpush_all_ok. by apply lpush_headnil.
Qed.

Lemma rpush_ok v l xs : Rep l xs → Rep (dl_rpush v l) (xs ++ [v]).
Proof.
  intros H. rewrite rpush_flip. apply Rep_unflip. rewrite flip_invol, reverse_snoc.
  apply lpush_ok. by apply Rep_flip.
Qed.
Lemma rpush_all_ok vs l xs : Rep l xs → Rep (dl_rpush_all vs l) (xs ++ vs).
Proof.
  unfold dl_rpush_all. revert l xs. induction vs as [|v vs IH]; intros l xs H; simpl.
  - by rewrite app_nil_r.
  - replace (xs ++ v :: vs) with ((xs ++ [v]) ++ vs) by by rewrite <- app_assoc.
    apply IH. by apply rpush_ok.
Qed.
Lemma rpush_all_TEmpty v vs l : TEmpty l → Rep (dl_rpush_all (v :: vs) l) (v :: vs).
Proof.
  intros H%TEmpty_flip. unfold dl_rpush_all; simpl.
  change (v :: vs) with ([v] ++ vs). apply rpush_all_ok.
  rewrite rpush_flip. apply Rep_unflip. rewrite flip_invol.
  destruct H as (Hf & Hl & Hh & _). by apply lpush_headnil.
Qed.
Lemma rpop_nil l : dl_tail l = None → dl_rpop l = Ret (None, l).
Proof. intros H. unfold dl_rpop. by rewrite H. Qed.
Lemma rpop_ok l x xs : Rep l (xs ++ [x]) → ∃ l', dl_rpop l = Ret (Some x, l') ∧ Rep l' xs.
Proof.
  intros H%Rep_flip. rewrite reverse_snoc in H.
  destruct (lpop_ok _ _ _ H) as (l' & E & HR). rewrite rpop_flip, E. simpl.
  eexists. split; [done|]. apply Rep_unflip. by rewrite flip_invol.
Qed.

(** LPOP k count *)
Lemma lpop_loop_ok fuel count l xs acc :
  Rep l xs → (length xs ≤ fuel)%nat →
  ∃ l', lpop_loop fuel count l acc = Ret (l', acc ++ take (Z.to_nat count) xs) ∧
        Rep l' (drop (Z.to_nat count) xs).
Proof.
  revert count l xs acc. induction fuel as [|f IH]; intros count l xs acc HR Hlen.
  - destruct xs; [|simpl in Hlen; lia]. simpl. rewrite (Rep_len _ _ HR). simpl.
    rewrite andb_false_r. exists l. by rewrite take_nil, drop_nil, app_nil_r.
  - simpl. rewrite (Rep_len _ _ HR).
    destruct (Z.ltb_spec 0 count); simpl.
    2:{ exists l. replace (Z.to_nat count) with 0%nat by lia. by rewrite take_0, drop_0, app_nil_r. }
    destruct xs as [|x xs]; simpl.
    { exists l. by rewrite take_nil, drop_nil, app_nil_r. }
    destruct (lpop_ok _ _ _ HR) as (l' & E & HR'). rewrite E. simpl.
    destruct (IH (count - 1) l' xs (acc ++ [x]) HR') as (l'' & E' & HR''); [simpl in Hlen; lia|].
    exists l''. rewrite E'. replace (Z.to_nat count) with (S (Z.to_nat (count - 1))) by lia. simpl.
    by rewrite <- app_assoc.
Qed.
Lemma lpop_n_ok count l xs :
  Rep l xs →
  ∃ l', dl_lpop_n count l = Ret (l', take (Z.to_nat count) xs) ∧ Rep l' (drop (Z.to_nat count) xs).
Proof.
  intros H. apply (lpop_loop_ok _ count l xs []); [done|]. rewrite (Rep_len _ _ H). lia.
Qed.

Lemma rpop_loop_flip fuel count l acc :
  rpop_loop fuel count l acc = oflip (lpop_loop fuel count (flip l) acc).
Proof.
  revert count l acc. induction fuel as [|f IH]; intros count l acc; simpl.
  - destruct (_ && _); simpl; [done|]. by rewrite flip_invol.
  - destruct (_ && _); simpl; [|by rewrite flip_invol].
    rewrite rpop_flip. destruct (dl_lpop (flip l)) as [[[v|] l']| |]; simpl; try done.
    by rewrite IH, flip_invol.
Qed.
Lemma rpop_n_ok count l xs :
  Rep l xs →
  ∃ l', dl_rpop_n count l = Ret (l', take (Z.to_nat count) (reverse xs)) ∧
        Rep l' (reverse (drop (Z.to_nat count) (reverse xs))).
Proof.
  intros H%Rep_flip. unfold dl_rpop_n. rewrite rpop_loop_flip.
  destruct (lpop_n_ok count _ _ H) as (l' & E & HR). unfold dl_lpop_n in E. simpl in E. rewrite E.
  simpl. eexists. split; [done|]. apply Rep_unflip. by rewrite flip_invol, reverse_involutive.
Qed.

(** ** LRANGE *)
Lemma lrange_loop_ok fuel l start stop idx p ls xs acc :
  dseg (dl_heap l) p ls xs None → (length xs ≤ fuel)%nat →
  lrange_loop fuel l start stop idx (nxt ls None) acc =
  Ret (acc ++ take (Z.to_nat (stop + 1 - Z.max idx start)) (drop (Z.to_nat (start - idx)) xs)).
Proof.
  revert idx p ls xs acc. induction fuel as [|f IH]; intros idx p ls xs acc Hs Hlen.
  - destruct xs; [|simpl in Hlen; lia]. destruct ls; [|done]. simpl.
    by rewrite drop_nil, take_nil, app_nil_r.
  - destruct ls as [|a ls].
    { destruct xs; [|done]. simpl. by rewrite drop_nil, take_nil, app_nil_r. }
    destruct xs as [|x xs]; [done|]. destruct Hs as [Ha Hs]. cbn [nxt lrange_loop].
    destruct (Z.leb_spec idx stop).
    2:{ replace (Z.to_nat (stop + 1 - Z.max idx start)) with 0%nat by lia. by rewrite take_0, app_nil_r. }
    unfold node_at. rewrite Ha. simpl.
    rewrite (IH _ _ _ xs _ Hs) by (simpl in Hlen; lia).
    destruct (Z.leb_spec start idx).
    + replace (Z.to_nat (start - idx)) with 0%nat by lia.
      replace (Z.to_nat (start - (idx + 1))) with 0%nat by lia. rewrite !drop_0.
      replace (Z.to_nat (stop + 1 - Z.max idx start))
        with (S (Z.to_nat (stop + 1 - Z.max (idx + 1) start))) by lia.
      simpl. by rewrite <- app_assoc.
    + replace (Z.to_nat (start - idx)) with (S (Z.to_nat (start - (idx + 1)))) by lia.
      replace (Z.max idx start) with start by lia. replace (Z.max (idx + 1) start) with start by lia.
      done.
Qed.

Lemma window_nil {A} a b : window a b (@nil A) = [].
Proof. unfold window. by rewrite drop_nil, take_nil. Qed.

Lemma lrange_ok a b l xs : Rep l xs → dl_lrange a b l = Ret (window a b xs).
Proof.
  intros [Hf [ls [Hn Hs Hh Ht Hl]]]. unfold dl_lrange. rewrite Hh.
  destruct ls as [|c ls].
  { destruct xs; [|done]. simpl. by rewrite window_nil. }
  cbn [nxt]. rewrite Hl. unfold window, norm_index.
  set (len := Z.of_nat (length xs)).
  set (lo := if a <? 0 then if a + len <? 0 then 0 else a + len else a).
  set (hi := if b <? 0 then b + len else b).
  assert (Hlo : lo = Z.max 0 (if a <? 0 then a + len else a)).
  { subst lo. destruct (Z.ltb_spec a 0); [|lia]. destruct (Z.ltb_spec (a + len) 0); lia. }
  rewrite <- Hlo. assert (0 ≤ lo) by lia.
  destruct (Z.ltb_spec hi lo); simpl.
  { replace (Z.to_nat (Z.min (hi + 1) len - lo)) with 0%nat by lia. done. }
  destruct (Z.ltb_spec len lo); simpl.
  { replace (Z.to_nat (Z.min (hi + 1) len - lo)) with 0%nat by lia. done. }
  rewrite (lrange_loop_ok _ _ _ _ _ _ (c :: ls) xs _ Hs) by (subst len; lia). simpl. f_equal.
  replace (Z.min lo len) with lo by lia. replace (lo - 0) with lo by lia. f_equal.
  destruct (Z.leb_spec len hi); lia.
Qed.

(** ** LREM *)
Definition lrem_inv (h : gmap loc lnode) (dumb : loc) (p0 : option loc) (ks rs : list loc)
    (K R : list string) : Prop :=
  NoDup (dumb :: ks ++ rs) ∧
  h !! dumb = Some (LNode (nxt (ks ++ rs) None) None EmptyString) ∧
  dseg h p0 (ks ++ rs) (K ++ R) None ∧ length ks = length K.

Definition nn (rs : list loc) : option loc := match rs with [] => None | _ :: r => nxt r None end.
Definition lastd (d : loc) (ks : list loc) : loc := default d (last ks).

Lemma dseg_relink h p p' rs R n :
  NoDup rs → dseg h p rs R n →
  dseg (match nxt rs None with
        | Some b => alter (λ nd, LNode (ln_next nd) p' (ln_val nd)) b h
        | None => h end) p' rs R n.
Proof.
  intros Hn Hs. destruct rs as [|b rs]; [by destruct R|].
  destruct R as [|y R]; [done|]. cbn [nxt]. eapply dseg_set_prev; [|done].
  by apply NoDup_cons in Hn as [? _].
Qed.

Lemma set_prev_opt_heap next q l :
  dl_heap (match next with Some x => set_prev x (Some q) l | None => l end) =
  match next with
  | Some b => alter (λ nd, LNode (ln_next nd) (Some q) (ln_val nd)) b (dl_heap l)
  | None => dl_heap l end.
Proof. by destruct next. Qed.

Lemma nxt_in rs b : nxt rs None = Some b → b ∈ rs.
Proof. destruct rs; simpl; [done|]. intros [= ->]. left. Qed.

Lemma lrem_step_remove h dumb p0 ks a rs K x R :
  lrem_inv h dumb p0 ks (a :: rs) K (x :: R) →
  let q := lastd dumb ks in
  let h1 := alter (λ nd, LNode (nxt rs None) (ln_prev nd) (ln_val nd)) q h in
  let h2 := match nxt rs None with
            | Some b => alter (λ nd, LNode (ln_next nd) (Some q) (ln_val nd)) b h1
            | None => h1 end in
  let h3 := alter (λ nd, LNode None (ln_prev nd) (ln_val nd)) a
             (alter (λ nd, LNode (ln_next nd) None (ln_val nd)) a h2) in
  ∃ p0', lrem_inv h3 dumb p0' ks rs K R.
Proof.
  intros (Hn & Hd & Hs & Hlen). cbv zeta.
  assert (Hda : dumb ≠ a ∧ dumb ∉ ks ∧ dumb ∉ rs).
  { apply NoDup_cons in Hn as [Hni _]. rewrite not_elem_of_app, not_elem_of_cons in Hni. naive_solver. }
  destruct Hda as (Hda & Hdk & Hdr).
  apply NoDup_cons in Hn as [_ Hn]. apply NoDup_app in Hn as (Hnk & Hdisj & Hnr).
  apply NoDup_cons in Hnr as [Har Hnr].
  assert (Hak : a ∉ ks). { intros Hin. apply (Hdisj _ Hin). left. }
  assert (Hkr : ∀ k, k ∈ ks → k ∉ rs). { intros k Hk Hr. apply (Hdisj _ Hk). by right. }
  rewrite dseg_app in Hs by done. destruct Hs as [Hsk [Ha Hsr]].
  set (q := lastd dumb ks).
  assert (Hqr : q ∉ rs).
  { unfold q, lastd. destruct (last ks) as [k|] eqn:E; simpl; [|done]. apply Hkr. by apply last_Some_elem_of in E. }
  assert (Hqa : q ≠ a).
  { unfold q, lastd. destruct (last ks) as [k|] eqn:E; simpl; [|done].
    intros ->. apply Hak. by apply last_Some_elem_of in E. }
  set (h1 := alter _ q h).
  assert (Hsr1 : dseg h1 (Some a) rs R None). { by apply dseg_frame_alter. }
  pose proof (dseg_relink _ _ (Some q) _ _ _ Hnr Hsr1) as Hsr2.
  set (h2 := match nxt rs None with Some b => _ | None => _ end) in *.
  assert (Hh2 : ∀ k, k ∉ rs → h2 !! k = h1 !! k).
  { intros k Hk. unfold h2. destruct (nxt rs None) as [b|] eqn:E; [|done].
    rewrite lookup_alter_ne; [done|]. intros ->. by apply nxt_in in E. }
  assert (Hsk2 : ∀ p Ks n, dseg h1 p ks Ks n → dseg h2 p ks Ks n).
  { intros p Ks n. unfold h2. destruct (nxt rs None) as [b|] eqn:E; [|done].
    apply dseg_frame_alter. intros Hb. apply (Hkr b Hb). by apply nxt_in in E. }
  set (h3 := alter _ a _).
  assert (Hh3 : ∀ k, k ≠ a → h3 !! k = h2 !! k).
  { intros k Hk. unfold h3. rewrite !lookup_alter_ne by done. done. }
  exists (match ks with [] => Some dumb | _ => p0 end).
  split; [|split; [|split]]; [| | |done].
  - apply NoDup_cons. split; [rewrite not_elem_of_app; done|]. apply NoDup_app. split_and!; try done.
  - rewrite Hh3, Hh2 by done. unfold h1, q, lastd.
    destruct ks as [|k0 ks']; simpl.
    + by rewrite lookup_alter, Hd.
    + rewrite lookup_alter_ne; [by rewrite Hd|]. intros Heq.
      apply Hdk. rewrite <- Heq. destruct (last (k0 :: ks')) eqn:E; [|by apply last_None in E].
      by apply last_Some_elem_of in E.
  - apply dseg_app; [done|]. split.
    + unfold h3. apply dseg_frame_alter; [done|]. apply dseg_frame_alter; [done|].
      apply Hsk2. destruct ks as [|k0 ks0 _] using rev_ind.
      { destruct K; done. }
      destruct K as [|y K _] using rev_ind; [rewrite !app_length in Hlen; simpl in Hlen; lia|].
      rewrite !app_length in Hlen. simpl in Hlen.
      unfold h1, q, lastd. rewrite last_snoc. simpl.
      replace (match ks0 ++ [k0] with [] => Some dumb | _ => p0 end) with p0 by by destruct ks0.
      apply (dseg_set_next _ _ _ _ _ _ (Some a)); [|lia|done].
      rewrite NoDup_app in Hnk. intros Hin. destruct Hnk as (_ & Hk & _). apply (Hk _ Hin). left.
    + unfold h3. apply dseg_frame_alter; [done|]. apply dseg_frame_alter; [done|].
      replace (lst _ ks) with (Some q); [done|]. unfold q, lst, lastd.
      destruct ks as [|k0 ks']; [done|]. destruct (last (k0 :: ks')) eqn:E; [done|]. by apply last_None in E.
Qed.

Lemma lrem_loop_ok fuel v n cnt dumb p0 ks rs K R l :
  lrem_inv (dl_heap l) dumb p0 ks rs K R → fresh_ok l → (length rs ≤ fuel)%nat →
  ∃ l' p0' ks' rs' K' R' pre,
    rem_head_loop fuel v n cnt (lastd dumb ks) (nxt rs None) (nn rs) l =
      Ret (l', lastd dumb ks', cnt + (Z.of_nat (length R) - Z.of_nat (length (remove_first n v R)))) ∧
    lrem_inv (dl_heap l') dumb p0' ks' rs' K' R' ∧
    K' ++ R' = K ++ remove_first n v R ∧ rs = pre ++ rs' ∧ fresh_ok l' ∧
    dl_head l' = dl_head l ∧ dl_tail l' = dl_tail l ∧ dl_len l' = dl_len l ∧ dl_fresh l' = dl_fresh l.
Proof.
  revert n cnt p0 ks rs K R l. induction fuel as [|f IH]; intros n cnt p0 ks rs K R l HI Hf Hlen.
  { destruct rs; [|simpl in Hlen; lia]. destruct R as [|? ?].
    2:{ destruct HI as (_ & _ & Hs & Hl). apply dseg_len in Hs. rewrite !app_length in Hs. simpl in Hs. lia. }
    exists l, p0, ks, [], K, [], []. simpl. rewrite Z.add_0_r. unfold rem_head_loop; simpl. done. }
  destruct rs as [|a rs].
  { destruct R as [|? ?].
    2:{ destruct HI as (_ & _ & Hs & Hl). apply dseg_len in Hs. rewrite !app_length in Hs. simpl in Hs. lia. }
    exists l, p0, ks, [], K, [], []. simpl. rewrite Z.add_0_r. unfold rem_head_loop; simpl. done. }
  destruct R as [|x R].
  { destruct HI as (_ & _ & Hs & Hl). apply dseg_len in Hs. rewrite !app_length in Hs. simpl in Hs. lia. }
  cbn [nxt nn]. unfold rem_head_loop; fold rem_head_loop.
  assert (Hcase : (0 <? n) = false ∨ (0 <? n) = true) by (destruct (0 <? n); auto).
  destruct Hcase as [Hz|Hz]; rewrite Hz.
  { exists l, p0, ks, (a :: rs), K, (x :: R), []. simpl.
    replace (n <=? 0) with true by lia.
    split_and!; try done. do 2 f_equal. cbn [length]. lia. }
  pose proof HI as (Hn & Hd & Hs & Hlk).
  rewrite dseg_app in Hs by done. destruct Hs as [Hsk [Ha Hsr]].
  unfold node_at at 1. rewrite Ha. cbn [deref obind ln_val].
  cbn [remove_first]. replace (n <=? 0) with false by lia.
  destruct (String.eqb_spec x v) as [Hxv|Hxv].
  - cbn [obind].
    set (l3 := set_next a None _).
    assert (HI3 : ∃ p0', lrem_inv (dl_heap l3) dumb p0' ks rs K R).
    { destruct (lrem_step_remove _ _ _ _ _ _ _ _ _ HI) as [p0' HI']. exists p0'.
      unfold l3, set_next at 1, set_prev at 1. cbn [dl_heap set_heap].
      rewrite set_prev_opt_heap. unfold set_next. cbn [dl_heap set_heap]. exact HI'. }
    destruct HI3 as [p0' HI3].
    assert (Hf3 : fresh_ok l3).
    { unfold l3. apply fresh_ok_set_next, fresh_ok_set_prev.
      destruct (nxt rs None); [apply fresh_ok_set_prev|]; by apply fresh_ok_set_next. }
    assert (Hnext : (match nxt rs None with
              | Some x0 => let* nx := node_at x0 l3 in Ret (ln_next nx)
              | None => Ret None end) = Ret (nn rs)).
    { destruct rs as [|b rs]; [done|]. cbn [nxt nn].
      destruct HI3 as (_ & _ & Hs3 & _). destruct R as [|y R].
      { apply dseg_len in Hsr. simpl in Hsr. lia. }
      rewrite dseg_app in Hs3 by done. destruct Hs3 as [_ [Hb _]].
      unfold node_at. rewrite Hb. done. }
    rewrite Hnext. cbn [obind].
    destruct (IH (n - 1) (cnt + 1) p0' ks rs K R l3 HI3 Hf3) as
      (l' & p0'' & ks' & rs' & K' & R' & pre & E & HI' & HKR & Hpre & Hf' & Hhd & Htl & Hln & Hfr);
      [simpl in Hlen; lia|].
    exists l', p0'', ks', rs', K', R', (a :: pre).
    split_and!; try done.
    + rewrite E. do 2 f_equal. cbn [length]. lia.
    + simpl. by rewrite Hpre.
    + rewrite Hhd. unfold l3. by destruct (nxt rs None).
    + rewrite Htl. unfold l3. by destruct (nxt rs None).
    + rewrite Hln. unfold l3. by destruct (nxt rs None).
    + rewrite Hfr. unfold l3. by destruct (nxt rs None).
  - assert (Hprev : (let* pn := node_at (lastd dumb ks) l in
                     let* p' := deref (ln_next pn) in Ret (p', l, n, cnt)) = Ret (a, l, n, cnt)).
    { unfold lastd. destruct ks as [|k0 ks0 _] using rev_ind; simpl.
      - unfold node_at. rewrite Hd. done.
      - rewrite last_snoc. simpl. destruct K as [|y K _] using rev_ind.
        { rewrite app_length in Hlk; simpl in Hlk; lia. }
        rewrite !app_length in Hlk. simpl in Hlk.
        rewrite dseg_app in Hsk by lia. destruct Hsk as [_ [Hk0 _]].
        unfold node_at. rewrite Hk0. done. }
    rewrite Hprev. cbn [obind].
    assert (Hnext : (match nxt rs None with
              | Some x0 => let* nx := node_at x0 l in Ret (ln_next nx)
              | None => Ret None end) = Ret (nn rs)).
    { destruct rs as [|b rs]; [done|]. cbn [nxt nn]. destruct R as [|y R].
      { apply dseg_len in Hsr. simpl in Hsr. lia. }
      destruct Hsr as [Hb _]. unfold node_at. rewrite Hb. done. }
    rewrite Hnext. cbn [obind].
    assert (HI3 : lrem_inv (dl_heap l) dumb p0 (ks ++ [a]) rs (K ++ [x]) R).
    { destruct HI as (HI1 & HI2 & HI3 & HI4). unfold lrem_inv.
      rewrite <- !app_assoc. simpl. rewrite !app_length, HI4. done. }
    destruct (IH n cnt p0 (ks ++ [a]) rs (K ++ [x]) R l HI3 Hf) as
      (l' & p0'' & ks' & rs' & K' & R' & pre & E & HI' & HKR & Hpre & Hf' & Hhd & Htl & Hln & Hfr);
      [simpl in Hlen; lia|].
    exists l', p0'', ks', rs', K', R', (a :: pre).
    split_and!; try done.
    + unfold lastd in E at 1. rewrite last_snoc in E. simpl in E. rewrite E. do 2 f_equal. cbn [length]. lia.
    + rewrite HKR. by rewrite <- app_assoc.
    + simpl. by rewrite Hpre.
Qed.

(** LREM from the head on a non-empty list. If anything is left the result is a regular list;
    otherwise it is the half-empty state. *)
Lemma seg_len_size h p ls xs n : NoDup ls → dseg h p ls xs n → (length ls ≤ size h)%nat.
Proof.
  intros Hn Hs.
  assert (Hsub : (list_to_set ls : gset loc) ⊆ dom h).
  { intros a Ha. apply elem_of_list_to_set in Ha. apply elem_of_dom. by eapply dseg_lookup. }
  apply subseteq_size in Hsub. rewrite size_list_to_set in Hsub by done.
  by rewrite size_dom in Hsub.
Qed.

Lemma rem_head_ok v n l xs :
  Rep l xs → xs ≠ [] →
  ∃ l', dl_rem_head v n l =
          Ret (l', Z.of_nat (length xs) - Z.of_nat (length (remove_first n v xs))) ∧
        (remove_first n v xs ≠ [] → Rep l' (remove_first n v xs)) ∧
        (remove_first n v xs = [] → HEmpty l').
Proof.
  intros [Hf [ls [Hn Hs Hh Ht Hl]]] Hne.
  destruct ls as [|a ls]; [by destruct xs|]. destruct xs as [|x xs]; [done|].
  unfold dl_rem_head. rewrite Hh. cbn [nxt alloc deref obind].
  pose proof (fresh_notin _ _ _ _ _ Hf Hs) as Hfr.
  set (dumb := dl_fresh l) in *.
  set (l0 := DL _ _ _ _ _).
  assert (HI0 : lrem_inv (dl_heap l0) dumb None [] (a :: ls) [] (x :: xs)).
  { unfold lrem_inv. simpl app. split_and!; [by constructor| |by apply dseg_frame|done].
    unfold l0; simpl. by rewrite lookup_insert. }
  assert (Hf0 : fresh_ok l0). { by apply (fresh_ok_insert l). }
  assert (Hna : node_at a l0 = Ret (LNode (nxt ls None) None x)).
  { unfold node_at, l0. simpl. rewrite lookup_insert_ne by set_solver. destruct Hs as [Ha _]. by rewrite Ha. }
  rewrite Hna. cbn [obind ln_next].
  destruct (lrem_loop_ok (S (size (dl_heap l))) v n 0 dumb None [] (a :: ls) [] (x :: xs) l0 HI0 Hf0)
    as (l' & p0 & ks & rs & K & R & pre & E & HI & HKR & Hpre & Hf' & Hhd & Htl & Hln & Hfr').
  { pose proof (seg_len_size _ _ _ _ _ Hn Hs). lia. }
  change (lastd dumb []) with dumb in E. cbn [nxt nn] in E. rewrite E. cbn [obind].
  rewrite Z.add_0_l. rewrite app_nil_l in HKR.
  set (XS := remove_first n v (x :: xs)) in *.
  destruct HI as (HIn & HId & HIs & HIl).
  assert (Hprev : ∃ pv w, dl_heap l' !! lastd dumb ks = Some (LNode (nxt rs None) pv w)).
  { unfold lastd. destruct ks as [|k0 ks0 _] using rev_ind; simpl.
    - rewrite HId. eauto.
    - rewrite last_snoc. simpl. destruct K as [|y K _] using rev_ind.
      { rewrite app_length in HIl; simpl in HIl; lia. }
      rewrite !app_length in HIl. simpl in HIl. rewrite <- !app_assoc in HIs.
      rewrite dseg_app in HIs by lia. destruct HIs as [_ [Hk0 _]]. rewrite Hk0. eauto. }
  destruct Hprev as (pv & w & Hprev). unfold node_at at 1. rewrite Hprev. cbn [deref obind ln_next].
  set (l2 := match nxt rs None with Some _ => l' | None => _ end).
  assert (Hl2 : dl_heap l2 = dl_heap l' ∧ dl_len l2 = dl_len l' ∧ dl_fresh l2 = dl_fresh l').
  { unfold l2. by destruct (nxt rs None). }
  destruct Hl2 as (Hl2h & Hl2l & Hl2f).
  unfold node_at. rewrite Hl2h, HId. cbn [deref obind ln_next].
  eexists. split; [reflexivity|].
  assert (Htail2 : dl_tail l2 = Some (lastd dumb (ks ++ rs))).
  { unfold l2. destruct rs as [|b rs]; simpl.
    - by rewrite app_nil_r.
    - rewrite Htl. unfold l0; simpl. rewrite Ht. unfold lst, lastd. rewrite Hpre, !last_app.
      destruct (last (b :: rs)) eqn:El; [done|]. by apply last_None in El. }
  split.
  - intros HXne. destruct (ks ++ rs) as [|b bs] eqn:Eb.
    { apply dseg_len in HIs. rewrite HKR in HIs. destruct XS; done. }
    rewrite HKR in HIs. destruct XS as [|y XS']; [done|].
    assert (Hnb : NoDup (b :: bs)). { by apply NoDup_cons in HIn as [_ ?]. }
    cbn [nxt dl_head set_head]. split.
    + eapply (fresh_ok_ext (set_prev b None l')).
      * by apply fresh_ok_set_prev.
      * simpl. by rewrite Hl2h.
      * simpl. by rewrite Hl2f.
    + exists (b :: bs). split; [done| |done| |].
      * simpl dl_heap. rewrite Hl2h. apply (dseg_set_prev _ p0); [|done].
        by apply NoDup_cons in Hnb as [? _].
      * simpl. rewrite Htail2. unfold lastd, lst. destruct (last (b :: bs)) eqn:El; [done|]. by apply last_None in El.
      * simpl dl_len. rewrite Hl2l, Hln. unfold l0; simpl dl_len. rewrite Hl. cbn [length]. lia.
  - intros HXe. rewrite HXe in HKR. apply app_eq_nil in HKR as [-> ->].
    apply dseg_len in HIs. destruct (ks ++ rs) as [|? ?] eqn:Eb; [|done].
    cbn [nxt dl_head set_head]. split_and!.
    + eapply (fresh_ok_ext l'); [done| |]; simpl; [by rewrite Hl2h|by rewrite Hl2f].
    + simpl dl_len. rewrite Hl2l, Hln. unfold l0; simpl dl_len. rewrite Hl, HXe. cbn [length]. lia.
    + done.
    + exists dumb. simpl. rewrite Htail2, Hl2h, HId. done.
Qed.

Lemma rem_tail_ok v n l xs :
  Rep l xs → xs ≠ [] →
  ∃ l', dl_rem_tail v n l =
          Ret (l', Z.of_nat (length xs) - Z.of_nat (length (remove_last n v xs))) ∧
        (remove_last n v xs ≠ [] → Rep l' (remove_last n v xs)) ∧
        (remove_last n v xs = [] → TEmpty l').
Proof.
  intros HR%Rep_flip Hne. rewrite rem_tail_flip.
  destruct (rem_head_ok v n _ _ HR) as (l' & E & H1 & H2).
  { destruct xs; [done|]. rewrite reverse_cons. by destruct (reverse xs). }
  rewrite E. simpl. eexists. split; [|split].
  - unfold remove_last. by rewrite !reverse_length.
  - intros Hn. apply Rep_unflip. rewrite flip_invol. unfold remove_last. rewrite reverse_involutive.
    apply H1. intros E'. apply Hn. unfold remove_last. by rewrite E'.
  - intros Hn. apply HEmpty_flip, H2. unfold remove_last in Hn.
    rewrite <- (reverse_involutive (remove_first _ _ _)), Hn. done.
Qed.

(** ** Indexing *)
Lemma dseg_nth h p ls xs n j a :
  dseg h p ls xs n → ls !! j = Some a →
  ∃ x, xs !! j = Some x ∧
    h !! a = Some (LNode (match ls !! S j with Some b => Some b | None => n end)
                         (match j with O => p | S j' => ls !! j' end) x).
Proof.
  revert p xs j. induction ls as [|b ls IH]; intros p [|y xs] j; simpl; try done.
  intros [Hb Hs]. destruct j as [|j]; simpl.
  - intros [= ->]. exists y. split; [done|]. rewrite Hb. do 2 f_equal. by destruct ls.
  - intros Hj. destruct (IH _ _ _ Hs Hj) as (x & Hx & Ha). exists x. split; [done|].
    rewrite Ha. do 2 f_equal; by destruct j.
Qed.

Lemma index_fwd_ok fuel l ls xs (i j : nat) :
  dseg (dl_heap l) None ls xs None → (j ≤ i < length ls)%nat → (i - j ≤ fuel)%nat →
  index_loop fuel l false (Z.of_nat i) (Z.of_nat j) (ls !! j) = Ret (ls !! i).
Proof.
  intros Hs. revert j. induction fuel as [|f IH]; intros j Hj Hfu; cbn [index_loop].
  - replace j with i by lia. by rewrite Z.eqb_refl.
  - destruct (Z.eqb_spec (Z.of_nat i) (Z.of_nat j)) as [E|E].
    { by replace j with i by lia. }
    destruct (lookup_lt_is_Some_2 ls j) as [a Ha]; [lia|].
    destruct (dseg_nth _ _ _ _ _ _ _ Hs Ha) as (x & _ & Hn).
    rewrite Ha. simpl. unfold node_at. rewrite Hn. simpl.
    replace (Z.of_nat j + 1) with (Z.of_nat (S j)) by lia.
    replace (match ls !! S j with Some b => Some b | None => None end) with (ls !! S j) by by destruct (ls !! S j).
    apply IH; lia.
Qed.

Lemma index_bwd_ok fuel l ls xs (i j : nat) :
  dseg (dl_heap l) None ls xs None → (i ≤ j < length ls)%nat → (j - i ≤ fuel)%nat →
  index_loop fuel l true (Z.of_nat i) (Z.of_nat j) (ls !! j) = Ret (ls !! i).
Proof.
  intros Hs. revert j. induction fuel as [|f IH]; intros j Hj Hfu; cbn [index_loop].
  - replace j with i by lia. by rewrite Z.eqb_refl.
  - destruct (Z.eqb_spec (Z.of_nat i) (Z.of_nat j)) as [E|E].
    { by replace j with i by lia. }
    destruct (lookup_lt_is_Some_2 ls j) as [a Ha]; [lia|].
    destruct (dseg_nth _ _ _ _ _ _ _ Hs Ha) as (x & _ & Hn).
    rewrite Ha. simpl. unfold node_at. rewrite Hn. simpl.
    destruct j as [|j]; [lia|].
    replace (Z.of_nat (S j) - 1) with (Z.of_nat j) by lia.
    apply IH; lia.
Qed.

Lemma index_node_ok i l ls xs :
  rep l ls xs →
  dl_index_node i l =
  Ret (let i := norm_index (Z.of_nat (length xs)) i in
       if i <? 0 then None else if Z.of_nat (length xs) <=? i then None else ls !! Z.to_nat i).
Proof.
  intros [Hn Hs Hh Ht Hl]. unfold dl_index_node. rewrite Hh, Hl. fold (norm_index (Z.of_nat (length xs)) i).
  pose proof (dseg_len _ _ _ _ _ Hs) as Hlen. cbv zeta.
  set (k := norm_index _ i). destruct ls as [|a ls].
  { simpl in *. rewrite lookup_nil. destruct (k <? 0); [done|]. by destruct (_ <=? k). }
  cbn [nxt]. rewrite orb_comm. destruct (Z.ltb_spec k 0); simpl orb; [done|].
  destruct (Z.leb_spec (Z.of_nat (length xs)) k); [done|].
  clearbody k. assert (∃ kn, k = Z.of_nat kn) as [kn ->] by (exists (Z.to_nat k); lia).
  rewrite !Nat2Z.id.
  destruct (Z.ltb_spec (Z.of_nat (length xs) / 2 + 1) (Z.of_nat kn)).
  - rewrite Ht. replace (lst None (a :: ls)) with ((a :: ls) !! (length xs - 1)%nat).
    2:{ unfold lst. rewrite <- Hlen. replace (length (a :: ls) - 1)%nat with (pred (length (a :: ls))) by lia.
        rewrite <- last_lookup. by destruct (last (a :: ls)). }
    replace (Z.of_nat (length xs) - 1) with (Z.of_nat (length xs - 1)) by (simpl in Hlen; lia).
    eapply index_bwd_ok; [done| |]; simpl in *; lia.
  - change (Some a) with ((a :: ls) !! 0%nat). change 0 with (Z.of_nat 0).
    eapply index_fwd_ok; [done| |]; simpl in *; lia.
Qed.

Lemma lindex_ok i l xs : Rep l xs → dl_lindex i l = Ret (nth_elem i xs).
Proof.
  intros [Hf [ls H]]. unfold dl_lindex, nth_elem. rewrite (index_node_ok _ _ _ _ H). simpl.
  set (k := norm_index _ i). destruct (Z.ltb_spec k 0); [done|].
  destruct (Z.leb_spec (Z.of_nat (length xs)) k); [done|].
  destruct H as [Hn Hs Hh Ht Hl]. pose proof (dseg_len _ _ _ _ _ Hs) as Hlen.
  destruct (lookup_lt_is_Some_2 ls (Z.to_nat k)) as [a Ha]; [lia|]. rewrite Ha.
  destruct (dseg_nth _ _ _ _ _ _ _ Hs Ha) as (x & Hx & E). unfold node_at. rewrite E. simpl. by rewrite Hx.
Qed.

Lemma dseg_set_val h p ls xs n j a v :
  NoDup ls → dseg h p ls xs n → ls !! j = Some a →
  dseg (alter (λ nd, LNode (ln_next nd) (ln_prev nd) v) a h) p ls (<[j := v]> xs) n.
Proof.
  revert p xs j. induction ls as [|b ls IH]; intros p [|y xs] j; simpl; try done.
  intros [Hni Hn]%NoDup_cons [Hb Hs]. destruct j as [|j]; simpl.
  - intros [= ->]. split; [by rewrite lookup_alter, Hb|]. by apply dseg_frame_alter.
  - intros Hj. assert (a ≠ b). { intros ->. apply Hni. by eapply elem_of_list_lookup_2. }
    rewrite lookup_alter_ne by done. split; [done|]. by apply IH.
Qed.

Lemma lset_ok i v l xs :
  Rep l xs →
  match set_elem i v xs with
  | None => dl_lset i v l = Ret (l, false)
  | Some ys => ∃ l', dl_lset i v l = Ret (l', true) ∧ Rep l' ys
  end.
Proof.
  intros [Hf [ls H]]. unfold dl_lset, set_elem. rewrite (index_node_ok _ _ _ _ H). simpl.
  set (k := norm_index _ i). destruct (Z.ltb_spec k 0); [done|].
  destruct (Z.leb_spec (Z.of_nat (length xs)) k); [done|].
  destruct H as [Hn Hs Hh Ht Hl]. pose proof (dseg_len _ _ _ _ _ Hs) as Hlen.
  destruct (lookup_lt_is_Some_2 ls (Z.to_nat k)) as [a Ha]; [lia|]. rewrite Ha.
  eexists. split; [done|]. split; [by apply fresh_ok_set_val|].
  exists ls. split; try done.
  - simpl dl_heap. by apply dseg_set_val.
  - by rewrite insert_length.
Qed.

(** ** LINSERT *)
Lemma find_loop_ok fuel t l p ls xs :
  dseg (dl_heap l) p ls xs None → (length ls ≤ fuel)%nat →
  (t ∉ xs → find_loop fuel t l (nxt ls None) = Ret None) ∧
  (∀ A B, xs = A ++ t :: B → t ∉ A → find_loop fuel t l (nxt ls None) = Ret (ls !! length A)).
Proof.
  revert p ls xs. induction fuel as [|f IH]; intros p ls xs Hs Hlen.
  - destruct ls; [|simpl in Hlen; lia]. destruct xs; [|done]. split; [done|].
    intros A B E. by destruct A.
  - destruct ls as [|a ls]; destruct xs as [|x xs]; try done.
    destruct Hs as [Ha Hs]. cbn [nxt find_loop]. unfold node_at. rewrite Ha. simpl.
    destruct (IH _ _ _ Hs) as [IH1 IH2]; [simpl in Hlen; lia|].
    destruct (String.eqb_spec x t) as [->|Hne]; split.
    + intros Hni. set_solver.
    + intros A B E HA. destruct A as [|y A]; [done|]. simplify_eq. set_solver.
    + intros Hni. apply IH1. intros Hin. apply Hni. by right.
    + intros A B E HA. destruct A as [|y A]; simplify_eq/=. apply (IH2 A B); [done|].
      intros Hin. apply HA. by right.
Qed.

Definition insert_after_at (p : loc) (v : string) (l : dlist) : outcome dlist :=
  let (q, l1) := alloc (LNode None None v) l in
  let l2 := set_len (dl_len l1 + 1) l1 in
  let* nd := node_at p l2 in
  let l3 := set_prev q (Some p) (set_next p (Some q) l2) in
  Ret (match ln_next nd with
       | None => set_tail (Some q) l3
       | Some x => set_prev x (Some q) (set_next q (Some x) l3) end).
Definition insert_before_at (p : loc) (v : string) (l : dlist) : outcome dlist :=
  let (q, l1) := alloc (LNode None None v) l in
  let l2 := set_len (dl_len l1 + 1) l1 in
  let* nd := node_at p l2 in
  let l3 := set_next q (Some p) (set_prev p (Some q) l2) in
  Ret (match ln_prev nd with
       | None => set_head (Some q) l3
       | Some x => set_next x (Some q) (set_prev q (Some x) l3) end).

Lemma insert_before_flip p v l :
  insert_before_at p v l = let* l' := insert_after_at p v (flip l) in Ret (flip l').
Proof.
  unfold insert_before_at, insert_after_at. rewrite flip_alloc0.
  destruct (alloc _ l) as [q l1] eqn:E. cbn [fst snd].
  change (dl_len (flip l1)) with (dl_len l1). rewrite <- flip_set_len.
  set (l2 := set_len _ l1). rewrite node_at_flip. destruct (node_at p l2) as [nd| |]; simpl; try done.
  f_equal. destruct (ln_prev nd) as [x|].
  - rewrite <- flip_set_prev, <- flip_set_next, <- flip_set_prev, <- flip_set_next, flip_invol. done.
  - rewrite <- flip_set_prev, <- flip_set_next, <- flip_set_head, flip_invol. done.
Qed.

Lemma insert_after_ok l la p lb A t B v :
  fresh_ok l → rep l (la ++ p :: lb) (A ++ t :: B) → length la = length A →
  ∃ l', insert_after_at p v l = Ret l' ∧ fresh_ok l' ∧
        rep l' (la ++ p :: dl_fresh l :: lb) (A ++ t :: v :: B).
Proof.
  intros Hf [Hn Hs Hh Ht Hl] HlA. unfold insert_after_at. cbn [alloc].
  pose proof (fresh_notin _ _ _ _ _ Hf Hs) as Hfr.
  set (q := dl_fresh l) in *.
  rewrite not_elem_of_app, not_elem_of_cons in Hfr. destruct Hfr as (Hqa & Hqp & Hqb).
  apply NoDup_app in Hn as (Hna & Hdisj & Hnb). apply NoDup_cons in Hnb as [Hpb Hnb].
  assert (Hpa : p ∉ la). { intros Hin. apply (Hdisj _ Hin). left. }
  assert (Hab : ∀ k, k ∈ la → k ∉ lb). { intros k Hk Hr. apply (Hdisj _ Hk). by right. }
  rewrite dseg_app in Hs by done. destruct Hs as [Hsa [Hp Hsb]].
  unfold node_at. cbn [dl_heap set_len]. rewrite lookup_insert_ne by done. rewrite Hp.
  cbn [deref obind ln_next]. eexists. split; [reflexivity|]. split.
  - destruct (nxt lb None).
    + apply fresh_ok_set_prev, fresh_ok_set_next, fresh_ok_set_prev, fresh_ok_set_next.
      by apply (fresh_ok_insert l).
    + eapply fresh_ok_ext; [|reflexivity|reflexivity].
      apply fresh_ok_set_prev, fresh_ok_set_next. by apply (fresh_ok_insert l).
  - split.
    + rewrite NoDup_app, !NoDup_cons, not_elem_of_cons.
      assert (∀ k, k ∈ la → k ∉ p :: q :: lb).
      { intros k Hk. rewrite !not_elem_of_cons. split_and!; [| |by apply Hab]; intros ->; done. }
      naive_solver.
    + apply dseg_app; [done|]. destruct lb as [|b lb].
      * destruct B; [|done]. simpl. split_and!; try done.
        -- apply dseg_frame_alter; [done|]. apply dseg_frame_alter; [done|]. by apply dseg_frame.
        -- rewrite lookup_alter_ne by done. rewrite lookup_alter, lookup_insert_ne, Hp by done. done.
        -- rewrite lookup_alter, lookup_alter_ne, lookup_insert by done. done.
      * destruct B as [|y B]; [done|].
        rewrite not_elem_of_cons in Hpb. destruct Hpb as [Hpb Hpb'].
        rewrite not_elem_of_cons in Hqb. destruct Hqb as [Hqb Hqb'].
        apply NoDup_cons in Hnb as [Hbb Hnb].
        assert (Hba : b ∉ la). { intros Hin. apply (Hab _ Hin). left. }
        cbn [nxt]. cbn [dl_heap set_prev set_next set_heap set_len].
        split; [|split; [|split]].
        -- repeat (apply dseg_frame_alter; [done|]). by apply dseg_frame.
        -- rewrite lookup_alter_ne, lookup_alter_ne, lookup_alter_ne by done.
           rewrite lookup_alter, lookup_insert_ne, Hp by done. done.
        -- rewrite lookup_alter_ne by done. rewrite lookup_alter.
           rewrite lookup_alter, lookup_alter_ne, lookup_insert by done. done.
        -- apply (dseg_set_prev _ (Some p)); [done|].
           repeat (apply dseg_frame_alter; [set_solver|]). apply dseg_frame; [set_solver|]. done.
    + destruct (nxt lb None); simpl; rewrite Hh; by destruct la.
    + destruct lb as [|b lb]; cbn [nxt dl_tail set_tail].
      * unfold lst. rewrite last_app. done.
      * rewrite Ht. unfold lst. rewrite !last_app, !last_cons_cons.
        destruct (last (b :: lb)) eqn:E; [done|]. by apply last_None in E.
    + rewrite app_length in Hl |- *. simpl in Hl |- *. destruct (nxt lb None); simpl; rewrite Hl; lia.
Qed.

Lemma insert_before_ok l la p lb A t B v :
  fresh_ok l → rep l (la ++ p :: lb) (A ++ t :: B) → length la = length A →
  ∃ l', insert_before_at p v l = Ret l' ∧ fresh_ok l' ∧
        rep l' (la ++ dl_fresh l :: p :: lb) (A ++ v :: t :: B).
Proof.
  intros Hf Hr Hlen. rewrite insert_before_flip. pose proof (rep_flip _ _ _ Hr) as Hr'.
  rewrite !reverse_app, !reverse_cons, <- !app_assoc in Hr'. simpl in Hr'.
  destruct (insert_after_ok (flip l) (reverse lb) p (reverse la) (reverse B) t (reverse A) v)
    as (l' & E & Hf' & Hr''); [|done| |].
  - intros a. unfold flip; simpl. rewrite lookup_fmap, fmap_is_Some. apply Hf.
  - rewrite !reverse_length. apply rep_seg, dseg_len in Hr. rewrite !app_length in Hr. simpl in Hr. lia.
  - rewrite E. simpl. eexists. split; [done|]. split.
    + intros a. unfold flip; simpl. rewrite lookup_fmap, fmap_is_Some. apply Hf'.
    + apply rep_flip in Hr''. rewrite !reverse_app, !reverse_cons, !reverse_involutive, <- !app_assoc in Hr''.
      done.
Qed.

Lemma insert_before_split t v A B : t ∉ A → insert_before t v (A ++ t :: B) = Some (A ++ v :: t :: B).
Proof.
  induction A as [|x A IH]; simpl; intros Hni.
  - by rewrite String.eqb_refl.
  - rewrite not_elem_of_cons in Hni. destruct Hni as [Hne Hni].
    destruct (String.eqb_spec x t); [congruence|]. by rewrite IH.
Qed.
Lemma insert_after_split t v A B : t ∉ A → insert_after t v (A ++ t :: B) = Some (A ++ t :: v :: B).
Proof.
  induction A as [|x A IH]; simpl; intros Hni.
  - by rewrite String.eqb_refl.
  - rewrite not_elem_of_cons in Hni. destruct Hni as [Hne Hni].
    destruct (String.eqb_spec x t); [congruence|]. by rewrite IH.
Qed.
Lemma insert_before_none t v xs : t ∉ xs → insert_before t v xs = None.
Proof.
  induction xs as [|x A IH]; simpl; intros Hni; [done|].
  rewrite not_elem_of_cons in Hni. destruct Hni as [Hne Hni].
  destruct (String.eqb_spec x t); [congruence|]. by rewrite IH.
Qed.
Lemma insert_after_none t v xs : t ∉ xs → insert_after t v xs = None.
Proof.
  induction xs as [|x A IH]; simpl; intros Hni; [done|].
  rewrite not_elem_of_cons in Hni. destruct Hni as [Hne Hni].
  destruct (String.eqb_spec x t); [congruence|]. by rewrite IH.
Qed.
Lemma first_split (t : string) xs : t ∈ xs → ∃ A B, xs = A ++ t :: B ∧ t ∉ A.
Proof.
  induction xs as [|x xs IH]; intros Hin; [by apply elem_of_nil in Hin|].
  destruct (decide (x = t)) as [->|Hne].
  - exists [], xs. split; [done|]. apply not_elem_of_nil.
  - apply elem_of_cons in Hin as [->|Hin]; [done|].
    destruct (IH Hin) as (A & B & -> & HA). exists (x :: A), B. split; [done|].
    rewrite not_elem_of_cons. done.
Qed.

Lemma linsert_ok t v flag l xs :
  Rep l xs → flag = 1 ∨ flag = -1 →
  match (if 0 <? flag then insert_after t v xs else insert_before t v xs) with
  | None => dl_linsert t v flag l = Ret (l, false)
  | Some ys => ∃ l', dl_linsert t v flag l = Ret (l', true) ∧ Rep l' ys
  end.
Proof.
  intros [Hf [ls Hr]] Hflag. pose proof Hr as [Hn Hs Hh Ht Hl]. unfold dl_linsert.
  destruct ls as [|c cs].
  { destruct xs; [|done]. rewrite Hh. simpl. by destruct (0 <? flag). }
  rewrite Hh. cbn [nxt]. unfold dl_find. rewrite Hh.
  destruct (find_loop_ok (S (size (dl_heap l))) t l None (c :: cs) xs Hs) as [F1 F2].
  { pose proof (seg_len_size _ _ _ _ _ Hn Hs). lia. }
  destruct (decide (t ∈ xs)) as [Hin|Hni].
  - destruct (first_split _ _ Hin) as (A & B & -> & HA).
    rewrite (F2 A B) by done. cbn [obind].
    rewrite insert_after_split, insert_before_split by done.
    pose proof (dseg_len _ _ _ _ _ Hs) as Hlen. rewrite app_length in Hlen. simpl length in Hlen.
    destruct (lookup_lt_is_Some_2 (c :: cs) (length A)) as [p Hp]; [simpl; lia|].
    rewrite Hp. pose proof (take_drop_middle _ _ _ Hp) as Esp. rewrite <- Esp in Hr.
    destruct Hflag as [-> | ->]; simpl.
    + destruct (insert_after_ok l _ p _ A t B v Hf Hr) as (l' & E & Hf' & Hr').
      { rewrite take_length. simpl. lia. }
      unfold insert_after_at in E. simpl in E.
      match type of E with (let* nd := ?e in _) = _ => destruct e as [nd| |] end; simpl in E; try done.
      simplify_eq/=. eexists. split; [done|]. split; [done|]. eauto.
    + destruct (insert_before_ok l _ p _ A t B v Hf Hr) as (l' & E & Hf' & Hr').
      { rewrite take_length. simpl. lia. }
      unfold insert_before_at in E. simpl in E.
      match type of E with (let* nd := ?e in _) = _ => destruct e as [nd| |] end; simpl in E; try done.
      simplify_eq/=. eexists. split; [done|]. split; [done|]. eauto.
  - rewrite F1 by done. cbn [obind]. rewrite insert_after_none, insert_before_none by done.
    by destruct (0 <? flag).
Qed.

Lemma remove_first_all n v xs : Z.of_nat (length xs) ≤ n → remove_first n v xs = remove_all v xs.
Proof.
  unfold remove_all. revert n. induction xs as [|x xs IH]; intros n Hn; [done|].
  cbn [remove_first]. cbn [length] in Hn. replace (n <=? 0) with false by lia.
  rewrite filter_cons. destruct (String.eqb_spec x v) as [->|Hne].
  - rewrite decide_False by tauto. apply IH. lia.
  - rewrite decide_True by done. f_equal. apply IH. lia.
Qed.

Lemma lrem_ok count v l xs :
  Rep l xs → xs ≠ [] → - two63 < count < two63 →
  ∃ l', dl_lrem count v l =
          Ret (l', Z.of_nat (length xs) - Z.of_nat (length (lrem_result count v xs))) ∧
        (lrem_result count v xs ≠ [] → Rep l' (lrem_result count v xs)) ∧
        (lrem_result count v xs = [] → if count <? 0 then TEmpty l' else HEmpty l').
Proof.
  intros HR Hne Hc. unfold dl_lrem, lrem_result.
  destruct (Z.ltb_spec 0 count).
  - destruct (rem_head_ok v count l xs HR Hne) as (l' & E & H1 & H2). exists l'.
    replace (count <? 0) with false by lia. done.
  - destruct (Z.ltb_spec count 0).
    + rewrite wrap64_small by (unfold two63 in *; lia).
      destruct (rem_tail_ok v (- count) l xs HR Hne) as (l' & E & H1 & H2). exists l'. done.
    + rewrite (Rep_len _ _ HR).
      destruct (rem_head_ok v (Z.of_nat (length xs)) l xs HR Hne) as (l' & E & H1 & H2).
      rewrite remove_first_all in * by lia. exists l'. done.
Qed.
(** the least int64 as count: Go's negation overflows, nothing is removed *)
Lemma lrem_min v l xs : Rep l xs → xs ≠ [] → ∃ l', dl_lrem (- two63) v l = Ret (l', 0) ∧ Rep l' xs.
Proof.
  intros HR Hne. unfold dl_lrem. change (0 <? - two63) with false. change (- two63 <? 0) with true. cbv iota.
  change (wrap64 (- - two63)) with (- two63).
  assert (remove_last (- two63) v xs = xs) as Er.
  { unfold remove_last. assert (∀ l, remove_first (- two63) v l = l) as -> by (by intros []). by rewrite reverse_involutive. }
  destruct (rem_tail_ok v (- two63) l xs HR Hne) as (l' & E & H1 & _). rewrite Er in *. exists l'. split; [|by apply H1].
  rewrite E. do 2 f_equal. lia.
Qed.
