(** The chained list follows SpecEnds.v in every state. *)
From Coq Require Import ZifyBool.
From Verif Require Import GoBase GoBaseProofs DList DListProofs SpecList SpecServer SpecEnds.

Record lrep (l : dlist) (s : chain) (ls : list loc) : Prop := {
  lr_fresh : fresh_ok l;
  lr_nodup : NoDup ls;
  lr_seg : dseg (dl_heap l) None ls (c_items s) None;
  lr_head : dl_head l = match c_ends s with OnlyBack => None | _ => nxt ls None end;
  lr_tail : dl_tail l = match c_ends s with OnlyFront => None | _ => lst None ls end;
  lr_len : dl_len l = c_count s;
  lr_ok : chain_ok s
}.
Definition chained (l : dlist) (s : chain) : Prop := ∃ ls, lrep l s ls.

Lemma chained_new : chained dl_new (sound []).
Proof. exists []. split; try done; [|by constructor|by left]. intros a [? H]. simpl in H. by rewrite lookup_empty in H. Qed.
Lemma chained_count l s : chained l s → dl_len l = c_count s.
Proof. intros [ls H]. apply H. Qed.

(** ** mirror images *)
Lemma mirror_invol s : mirror (mirror s) = s.
Proof. destruct s as [e xs n]. unfold mirror; simpl. rewrite reverse_involutive. by destruct e. Qed.
Lemma mirror_ok s : chain_ok s → chain_ok (mirror s).
Proof.
  intros [H|H]; [left|right]; simpl; [by rewrite H|]. intros E. apply H. rewrite <- (reverse_involutive (c_items s)), E. done.
Qed.
Lemma lst_nxt ls : lst None ls = nxt (reverse ls) None.
Proof. destruct ls as [|a ls _] using rev_ind; [done|]. rewrite lst_snoc, reverse_snoc. done. Qed.
Lemma fresh_ok_flip l : fresh_ok l → fresh_ok (flip l).
Proof. intros H a. unfold flip; simpl. rewrite lookup_fmap, fmap_is_Some. apply H. Qed.
Lemma lrep_flip l s ls : lrep l s ls → lrep (flip l) (mirror s) (reverse ls).
Proof.
  intros [H1 H2 H3 H4 H5 H6 H7]. split; simpl; try done.
  - by apply fresh_ok_flip.
  - by rewrite reverse_Permutation.
  - by apply dseg_flip.
  - rewrite H5, lst_nxt. by destruct (c_ends s).
  - rewrite H4, lst_nxt, reverse_involutive. by destruct (c_ends s).
  - by apply mirror_ok.
Qed.
Lemma chained_flip l s : chained l s → chained (flip l) (mirror s).
Proof. intros [ls H]. eexists. by apply lrep_flip. Qed.
Lemma chained_unflip l s : chained (flip l) (mirror s) → chained l s.
Proof. intros H%chained_flip. by rewrite flip_invol, mirror_invol in H. Qed.

(** ** pushes *)
Lemma lpush_chained v l s : chained l s → chained (dl_lpush v l) (push_front v s).
Proof.
  intros [ls [Hf Hn Hs Hh Ht Hl Ho]]. unfold dl_lpush. cbn [set_len dl_head].
  pose proof (fresh_notin _ _ _ _ _ Hf Hs) as Hfr.
  assert (dl_head l = None → chained (let (node, l2) := alloc (LNode None None v) (set_len (dl_len l + 1) l) in set_tail (Some node) (set_head (Some node) l2)) (Chain Both [v] (c_count s + 1))) as G.
  { intros _. exists [dl_fresh l]. simpl. split; simpl; try done.
    - by apply (fresh_ok_insert l).
    - apply NoDup_singleton.
    - by rewrite lookup_insert.
    - lia.
    - by left. }
  assert (c_ends s ≠ OnlyBack → ls ≠ [] → chained (match nxt ls None with Some h => let (node, l2) := add_to_head h v (set_len (dl_len l + 1) l) in set_head (Some node) l2 | None => l end)
    (Chain (c_ends s) (v :: c_items s) (c_count s + 1))) as G2.
  { intros He Hls. destruct ls as [|a ls]; [done|]. destruct s as [e [|x xs] n]; [done|]. simpl in *. cbn [nxt]. unfold add_to_head. cbn [alloc].
    exists (dl_fresh l :: a :: ls). split.
    + eapply fresh_ok_ext; [|reflexivity|reflexivity]. apply fresh_ok_set_next, fresh_ok_set_prev. by apply (fresh_ok_insert l).
    + by constructor.
    + simpl in Hs |- *. split.
      * rewrite lookup_alter, lookup_alter_ne by set_solver. by rewrite lookup_insert.
      * apply (dseg_frame_alter _ _ (a :: ls) (x :: xs)); [done|]. apply (dseg_set_prev _ None); [by apply NoDup_cons in Hn as [? _]|].
        by apply (dseg_frame _ _ (a :: ls) (x :: xs)).
    + by destruct e.
    + simpl. rewrite Ht. destruct e; [by rewrite !lst_cons|done..].
    + simpl. lia.
    + by right. }
  rewrite Hh. unfold push_front. destruct s as [e xs n]; simpl in *. destruct ls as [|a ls].
  - destruct xs; [|done]. destruct e; [by apply G|by destruct Ho..].
  - destruct e; [by apply G2|by apply G|by apply G2].
Qed.
Lemma rpush_chained v l s : chained l s → chained (dl_rpush v l) (push_back v s).
Proof. intros H. rewrite rpush_flip. apply chained_unflip. unfold push_back. rewrite flip_invol, mirror_invol. by apply lpush_chained, chained_flip. Qed.
Lemma lpush_all_chained vs l s : chained l s → chained (dl_lpush_all vs l) (foldl (λ s v, push_front v s) s vs).
Proof. unfold dl_lpush_all. revert l s. induction vs; simpl; eauto using lpush_chained. Qed.
Lemma rpush_all_chained vs l s : chained l s → chained (dl_rpush_all vs l) (foldl (λ s v, push_back v s) s vs).
Proof. unfold dl_rpush_all. revert l s. induction vs; simpl; eauto using rpush_chained. Qed.

(** ** pops *)
Lemma lpop_one l s : chained l s →
  match c_ends s, c_items s with
  | OnlyBack, _ | _, [] => dl_lpop l = Ret (None, l)
  | e, x :: xs => ∃ l', dl_lpop l = Ret (Some x, l') ∧ chained l' (Chain (match xs with [] => Both | _ => e end) xs (c_count s - 1))
  end.
Proof.
  intros [ls [Hf Hn Hs Hh Ht Hl Ho]]. unfold dl_lpop. rewrite Hh. destruct s as [e xs n]; simpl in *.
  assert (e ≠ OnlyBack → match xs with
    | [] => nxt ls None = None
    | x :: xs => ∃ l', (match nxt ls None with None => Ret (None, l)
       | Some h => let l1 := set_len (dl_len l - 1) l in
         let* nd := node_at h l1 in let* (next, l2) := pop_and_next h l1 in let l3 := set_head next l2 in
         Ret (Some (ln_val nd), match next with None => set_tail None l3 | Some _ => l3 end) end) = Ret (Some x, l') ∧
         chained l' (Chain (match xs with [] => Both | _ => e end) xs (n - 1)) end) as G.
  { intros He. destruct xs as [|x xs]; [by destruct ls|]. destruct ls as [|a ls]; [done|]. destruct Hs as [Ha Hs]. cbn [nxt]. cbv zeta.
    unfold pop_and_next, node_at. cbn [dl_heap set_len]. rewrite Ha. cbn [deref obind ln_next ln_val]. apply NoDup_cons in Hn as [Hni Hn].
    eexists. split; [reflexivity|]. destruct ls as [|b ls]; simpl nxt; cbv iota.
    - destruct xs; [|done]. exists []. split; simpl; try done; try lia; try (by constructor); try (by left).
      apply (fresh_ok_ext (set_next a None l)); [by apply fresh_ok_set_next|done|done].
    - destruct xs as [|y xs]; [done|]. exists (b :: ls). split; simpl.
      + apply (fresh_ok_ext (set_prev b None (set_next a None l))); [by apply fresh_ok_set_prev, fresh_ok_set_next|done|done].
      + done.
      + apply (dseg_set_prev _ (Some a) None b ls y xs); [by apply NoDup_cons in Hn as [? _]|]. by apply (dseg_frame_alter _ _ (b :: ls) (y :: xs)).
      + by destruct e.
      + rewrite Ht. destruct e; [by rewrite !lst_cons|done|done].
      + lia.
      + by right. }
  destruct e; [| by destruct xs|].
  - specialize (G ltac:(done)). destruct xs; [by rewrite G|exact G].
  - specialize (G ltac:(done)). destruct xs; [by rewrite G|exact G].
Qed.
Lemma chained_chain l s : chained l s → chain_ok s.
Proof. intros [ls H]. apply H. Qed.
Lemma pop_front_stop n s : chain_ok s → Z.min n (c_count s) ≤ 0 → pop_front n s = ([], s).
Proof.
  intros Ho Hn. unfold pop_front. replace (Z.to_nat (Z.min n (c_count s))) with 0%nat by lia. rewrite take_0, drop_0. destruct s as [e xs c]; simpl in *.
  unfold zlen; simpl. rewrite Z.sub_0_r. destruct e; [by destruct xs|done|]. destruct xs; [by destruct Ho|done].
Qed.
Lemma lpop_loop_chained f : ∀ n l s acc, chained l s → (c_count s ≤ Z.of_nat f) →
  ∃ l', lpop_loop f n l acc = Ret (l', acc ++ (pop_front n s).1) ∧ chained l' (pop_front n s).2.
Proof.
  induction f as [|f IH]; intros n l s acc H Hc; cbn [lpop_loop]; rewrite (chained_count _ _ H).
  - rewrite pop_front_stop by (try (by eapply chained_chain); lia). replace (0 <? c_count s) with false by lia. rewrite andb_false_r. exists l. by rewrite app_nil_r.
  - destruct ((0 <? n) && (0 <? c_count s)) eqn:E.
    2:{ rewrite pop_front_stop by (try (by eapply chained_chain); lia). exists l. by rewrite app_nil_r. }
    assert (0 < n ∧ 0 < c_count s) as [Hn Hc0] by lia. clear E. pose proof (lpop_one l s H) as P. pose proof (chained_chain _ _ H) as Ho. destruct s as [e xs c]; simpl in *.
    assert (Hm : Z.to_nat (Z.min n c) = S (Z.to_nat (Z.min (n - 1) (c - 1)))) by lia.
    assert (e = OnlyBack ∨ xs = [] ∨ (e ≠ OnlyBack ∧ ∃ x ys, xs = x :: ys)) as [->|[->|(He & x & ys & ->)]].
    { destruct e; destruct xs; eauto 10. all: right; right; split; [done|]; eauto. }
    + rewrite P. cbn [obind]. exists l. split; [simpl; by rewrite app_nil_r|done].
    + destruct e; [|by destruct Ho|by destruct Ho]. rewrite P. cbn [obind]. exists l. unfold pop_front; cbn [c_ends c_items c_count]. rewrite take_nil, drop_nil. simpl.
      rewrite app_nil_r. split; [done|]. by rewrite Z.sub_0_r.
    + assert (∃ l', dl_lpop l = Ret (Some x, l') ∧ chained l' (Chain (match ys with [] => Both | _ => e end) ys (c - 1))) as (l' & E & L') by (by destruct e). clear P.
      rewrite E. cbn [obind]. destruct (IH (n - 1) l' _ (acc ++ [x]) L') as (l'' & E' & L''); [simpl; lia|]. exists l''. rewrite E'. clear IH E E'.
      assert (pop_front n (Chain e (x :: ys) c) = let (vs, s') := pop_front (n - 1) (Chain (match ys with [] => Both | _ => e end) ys (c - 1)) in (x :: vs, s')) as ->.
      { unfold pop_front. cbn [c_ends c_items c_count]. rewrite Hm. cbn [take drop]. destruct e; [|done|]; destruct ys as [|y ys]; rewrite ?take_nil, ?drop_nil; cbn [app]; f_equal; f_equal; unfold zlen; simpl length; try lia; done. }
      destruct (pop_front (n - 1) _) as [vs s'']. simpl in *. by rewrite <- app_assoc.
Qed.
Lemma lpop_chained n l s : chained l s → ∃ l', dl_lpop_n n l = Ret (l', (pop_front n s).1) ∧ chained l' (pop_front n s).2.
Proof. intros H. apply (lpop_loop_chained _ n l s []); [done|]. rewrite (chained_count _ _ H). lia. Qed.
Lemma rpop_chained n l s : chained l s → ∃ l', dl_rpop_n n l = Ret (l', (pop_back n s).1) ∧ chained l' (pop_back n s).2.
Proof.
  intros H%chained_flip. unfold dl_rpop_n. rewrite rpop_loop_flip. destruct (lpop_chained n _ _ H) as (l' & E & L). unfold dl_lpop_n in E. cbn [flip dl_len] in E. rewrite E.
  unfold pop_back. destruct (pop_front n (mirror s)) as [vs s']. simpl in *. eexists. split; [done|]. apply chained_unflip. by rewrite flip_invol, mirror_invol.
Qed.

(** ** LRANGE *)
Lemma lrange_seg fuel l start stop idx p ls xs acc : dseg (dl_heap l) p ls xs None → stop - idx < Z.of_nat fuel →
  lrange_loop fuel l start stop idx (nxt ls None) acc =
  Ret (acc ++ take (Z.to_nat (stop + 1 - Z.max idx start)) (drop (Z.to_nat (start - idx)) xs)).
Proof.
  revert idx p ls xs acc. induction fuel as [|f IH]; intros idx p ls xs acc Hs Hf.
  - assert (stop + 1 - Z.max idx start ≤ 0) as E by lia. replace (Z.to_nat _) with 0%nat by lia. rewrite take_0, app_nil_r.
    destruct (nxt ls None); cbn [lrange_loop]; [|done]. by replace (idx <=? stop) with false by lia.
  - destruct ls as [|a ls].
    { destruct xs; [|done]. simpl. by rewrite drop_nil, take_nil, app_nil_r. }
    destruct xs as [|x xs]; [done|]. destruct Hs as [Ha Hs]. cbn [nxt lrange_loop].
    destruct (Z.leb_spec idx stop).
    2:{ replace (Z.to_nat (stop + 1 - Z.max idx start)) with 0%nat by lia. by rewrite take_0, app_nil_r. }
    unfold node_at. rewrite Ha. simpl. rewrite (IH _ _ _ xs _ Hs) by lia.
    destruct (Z.leb_spec start idx).
    + replace (Z.to_nat (start - idx)) with 0%nat by lia. replace (Z.to_nat (start - (idx + 1))) with 0%nat by lia. rewrite !drop_0.
      replace (Z.to_nat (stop + 1 - Z.max idx start)) with (S (Z.to_nat (stop + 1 - Z.max (idx + 1) start))) by lia.
      simpl. by rewrite <- app_assoc.
    + replace (Z.to_nat (start - idx)) with (S (Z.to_nat (start - (idx + 1)))) by lia.
      replace (Z.max idx start) with start by lia. by replace (Z.max (idx + 1) start) with start by lia.
Qed.
Lemma lrange_chained a b l s : chained l s → dl_lrange a b l = Ret (range a b s).
Proof.
  intros [ls [Hf Hn Hs Hh Ht Hl Ho]]. unfold dl_lrange, range. rewrite Hh, Hl. destruct s as [e xs n]; simpl in *.
  assert (match nxt ls None with
          | None => Ret []
          | Some _ => let start := if a <? 0 then (let s := a + n in if s <? 0 then 0 else s) else a in
              let stop := if b <? 0 then b + n else b in
              if (stop <? start) || (n <? start) then Ret []
              else let stop := if n <=? stop then n - 1 else stop in lrange_loop (Z.to_nat (n + 1)) l start stop 0 (nxt ls None) [] end =
          Ret (take (Z.to_nat (Z.min (norm_index n b) (n - 1) + 1 - Z.max 0 (norm_index n a))) (drop (Z.to_nat (Z.max 0 (norm_index n a))) xs))) as G.
  { destruct ls as [|c ls]; [destruct xs; [|done]; simpl; by rewrite drop_nil, take_nil|]. cbn [nxt]. unfold norm_index. cbv zeta.
    set (lo := if a <? 0 then if a + n <? 0 then 0 else a + n else a). set (hi := if b <? 0 then b + n else b).
    assert (Z.max 0 (if a <? 0 then a + n else a) = lo) as -> by (unfold lo; destruct (Z.ltb_spec a 0); [destruct (Z.ltb_spec (a + n) 0)|]; lia).
    assert (0 ≤ lo) by (unfold lo; destruct (Z.ltb_spec a 0); [destruct (Z.ltb_spec (a + n) 0)|]; lia).
    destruct (Z.ltb_spec hi lo); cbn [orb]; [replace (Z.to_nat (_ - lo)) with 0%nat by lia; by rewrite take_0|].
    destruct (Z.ltb_spec n lo); [replace (Z.to_nat (_ - lo)) with 0%nat by lia; by rewrite take_0|].
    change (Some c) with (nxt (c :: ls) None). rewrite (lrange_seg _ _ _ _ _ _ (c :: ls) xs _ Hs) by (destruct (Z.leb_spec n hi); lia).
    simpl app. rewrite Z.sub_0_r. f_equal. f_equal. destruct (Z.leb_spec n hi); lia. }
  destruct e; [|done|]; exact G.
Qed.

(** ** LREM *)
Lemma lrem_loop_seen fuel v n cnt dumb p0 ks rs K R l :
  lrem_inv (dl_heap l) dumb p0 ks rs K R → fresh_ok l → (length rs ≤ fuel)%nat →
  ∃ l' p0' ks' rs' K' R' pre,
    rem_head_loop fuel v n cnt (lastd dumb ks) (nxt rs None) (nn rs) l =
      Ret (l', lastd dumb ks', cnt + (Z.of_nat (length R) - Z.of_nat (length (remove_first n v R)))) ∧
    lrem_inv (dl_heap l') dumb p0' ks' rs' K' R' ∧
    K' ++ R' = K ++ remove_first n v R ∧ rs = pre ++ rs' ∧ fresh_ok l' ∧
    dl_head l' = dl_head l ∧ dl_tail l' = dl_tail l ∧ dl_len l' = dl_len l ∧ dl_fresh l' = dl_fresh l ∧ R' = unseen n v R.
Proof.
  revert n cnt p0 ks rs K R l. induction fuel as [|f IH]; intros n cnt p0 ks rs K R l HI Hf Hlen.
  { destruct rs; [|simpl in Hlen; lia]. destruct R as [|? ?].
    2:{ destruct HI as (_ & _ & Hs & Hl). apply dseg_len in Hs. rewrite !app_length in Hs. simpl in Hs. lia. }
    exists l, p0, ks, [], K, [], []. simpl. rewrite Z.add_0_r. unfold rem_head_loop; simpl. done. }
  destruct rs as [|a rs].
  { destruct R as [|? ?].
    2:{ destruct HI as (_ & _ & Hs & Hl). apply dseg_len in Hs. rewrite !app_length in Hs. simpl in Hs. lia. }
    exists l, p0, ks, [], K, [], []. simpl. rewrite Z.add_0_r. unfold rem_head_loop; simpl. done. }
  destruct R as [|x R].
  { destruct HI as (_ & _ & Hs & Hl). apply dseg_len in Hs. rewrite !app_length in Hs. simpl in Hs. lia. }
  cbn [nxt nn]. unfold rem_head_loop; fold rem_head_loop.
  assert (Hcase : (0 <? n) = false ∨ (0 <? n) = true) by (destruct (0 <? n); auto).
  destruct Hcase as [Hz|Hz]; rewrite Hz.
  { exists l, p0, ks, (a :: rs), K, (x :: R), []. simpl.
    replace (n <=? 0) with true by lia.
    split_and!; try done. do 2 f_equal. cbn [length]. lia. }
  pose proof HI as (Hn & Hd & Hs & Hlk).
  rewrite dseg_app in Hs by done. destruct Hs as [Hsk [Ha Hsr]].
  unfold node_at at 1. rewrite Ha. cbn [deref obind ln_val].
  cbn [remove_first unseen]. replace (n <=? 0) with false by lia.
  destruct (String.eqb_spec x v) as [Hxv|Hxv].
  - cbn [obind].
    set (l3 := set_next a None _).
    assert (HI3 : ∃ p0', lrem_inv (dl_heap l3) dumb p0' ks rs K R).
    { destruct (lrem_step_remove _ _ _ _ _ _ _ _ _ HI) as [p0' HI']. exists p0'.
      unfold l3, set_next at 1, set_prev at 1. cbn [dl_heap set_heap].
      rewrite set_prev_opt_heap. unfold set_next. cbn [dl_heap set_heap]. exact HI'. }
    destruct HI3 as [p0' HI3].
    assert (Hf3 : fresh_ok l3).
    { unfold l3. apply fresh_ok_set_next, fresh_ok_set_prev.
      destruct (nxt rs None); [apply fresh_ok_set_prev|]; by apply fresh_ok_set_next. }
    assert (Hnext : (match nxt rs None with
              | Some x0 => let* nx := node_at x0 l3 in Ret (ln_next nx)
              | None => Ret None end) = Ret (nn rs)).
    { destruct rs as [|b rs]; [done|]. cbn [nxt nn].
      destruct HI3 as (_ & _ & Hs3 & _). destruct R as [|y R].
      { apply dseg_len in Hsr. simpl in Hsr. lia. }
      rewrite dseg_app in Hs3 by done. destruct Hs3 as [_ [Hb _]].
      unfold node_at. rewrite Hb. done. }
    rewrite Hnext. cbn [obind].
    destruct (IH (n - 1) (cnt + 1) p0' ks rs K R l3 HI3 Hf3) as
      (l' & p0'' & ks' & rs' & K' & R' & pre & E & HI' & HKR & Hpre & Hf' & Hhd & Htl & Hln & Hfr & Hun);
      [simpl in Hlen; lia|].
    exists l', p0'', ks', rs', K', R', (a :: pre).
    split_and!; try done.
    + rewrite E. do 2 f_equal. cbn [length]. lia.
    + simpl. by rewrite Hpre.
    + rewrite Hhd. unfold l3. by destruct (nxt rs None).
    + rewrite Htl. unfold l3. by destruct (nxt rs None).
    + rewrite Hln. unfold l3. by destruct (nxt rs None).
    + rewrite Hfr. unfold l3. by destruct (nxt rs None).
  - assert (Hprev : (let* pn := node_at (lastd dumb ks) l in
                     let* p' := deref (ln_next pn) in Ret (p', l, n, cnt)) = Ret (a, l, n, cnt)).
    { unfold lastd. destruct ks as [|k0 ks0 _] using rev_ind; simpl.
      - unfold node_at. rewrite Hd. done.
      - rewrite last_snoc. simpl. destruct K as [|y K _] using rev_ind.
        { rewrite app_length in Hlk; simpl in Hlk; lia. }
        rewrite !app_length in Hlk. simpl in Hlk.
        rewrite dseg_app in Hsk by lia. destruct Hsk as [_ [Hk0 _]].
        unfold node_at. rewrite Hk0. done. }
    rewrite Hprev. cbn [obind].
    assert (Hnext : (match nxt rs None with
              | Some x0 => let* nx := node_at x0 l in Ret (ln_next nx)
              | None => Ret None end) = Ret (nn rs)).
    { destruct rs as [|b rs]; [done|]. cbn [nxt nn]. destruct R as [|y R].
      { apply dseg_len in Hsr. simpl in Hsr. lia. }
      destruct Hsr as [Hb _]. unfold node_at. rewrite Hb. done. }
    rewrite Hnext. cbn [obind].
    assert (HI3 : lrem_inv (dl_heap l) dumb p0 (ks ++ [a]) rs (K ++ [x]) R).
    { destruct HI as (HI1 & HI2 & HI3 & HI4). unfold lrem_inv.
      rewrite <- !app_assoc. simpl. rewrite !app_length, HI4. done. }
    destruct (IH n cnt p0 (ks ++ [a]) rs (K ++ [x]) R l HI3 Hf) as
      (l' & p0'' & ks' & rs' & K' & R' & pre & E & HI' & HKR & Hpre & Hf' & Hhd & Htl & Hln & Hfr & Hun);
      [simpl in Hlen; lia|].
    exists l', p0'', ks', rs', K', R', (a :: pre).
    split_and!; try done.
    + unfold lastd in E at 1. rewrite last_snoc in E. simpl in E. rewrite E. do 2 f_equal. cbn [length]. lia.
    + rewrite HKR. by rewrite <- app_assoc.
    + simpl. by rewrite Hpre.
Qed.

Lemma rem_head_chained v n l s : chained l s →
  match remove_front n v s with
  | None => dl_rem_head v n l = Panic
  | Some (s', c) => ∃ l', dl_rem_head v n l = Ret (l', c) ∧ chained l' s'
  end.
Proof.
  intros [ls [Hf Hn Hs Hh Ht Hl Ho]]. destruct s as [e xs cn]; simpl in *. unfold remove_front. cbn [c_ends c_items c_count].
  assert (dl_head l = None → dl_rem_head v n l = Panic) as Gp by (intros E; unfold dl_rem_head; by rewrite E).
  destruct xs as [|x xs]; [destruct ls; [|done]; destruct e; by apply Gp|]. destruct ls as [|a ls]; [done|].
  assert (e ≠ OnlyBack → let ys := remove_first n v (x :: xs) in let c := zlen (x :: xs) - zlen ys in
    ∃ l', dl_rem_head v n l = Ret (l', c) ∧ chained l' (match ys with [] => Chain OnlyBack [""%string] (cn - c)
      | _ => Chain (match unseen n v (x :: xs) with [] => Both | _ => e end) ys (cn - c) end)) as G; [|destruct e; [by apply G|by apply Gp|by apply G]].
  intros He. cbv zeta. clear Gp. assert (dl_head l = Some a) as Hh' by (destruct e; [exact Hh|done|exact Hh]). clear Hh. rename Hh' into Hh.
  unfold dl_rem_head. rewrite Hh. cbn [nxt alloc deref obind].
  pose proof (fresh_notin _ _ _ _ _ Hf Hs) as Hfr.
  set (dumb := dl_fresh l) in *.
  set (l0 := DL _ _ _ _ _).
  assert (HI0 : lrem_inv (dl_heap l0) dumb None [] (a :: ls) [] (x :: xs)).
  { unfold lrem_inv. simpl app. split_and!; [by constructor| |by apply dseg_frame|done].
    unfold l0; simpl. by rewrite lookup_insert. }
  assert (Hf0 : fresh_ok l0). { by apply (fresh_ok_insert l). }
  assert (Hna : node_at a l0 = Ret (LNode (nxt ls None) None x)).
  { unfold node_at, l0. simpl. rewrite lookup_insert_ne by set_solver. destruct Hs as [Ha _]. by rewrite Ha. }
  rewrite Hna. cbn [obind ln_next].
  destruct (lrem_loop_seen (S (size (dl_heap l))) v n 0 dumb None [] (a :: ls) [] (x :: xs) l0 HI0 Hf0)
    as (l' & p0 & ks & rs & K & R & pre & E & HI & HKR & Hpre & Hf' & Hhd & Htl & Hln & Hfr' & Hun).
  { pose proof (seg_len_size _ _ _ _ _ Hn Hs). lia. }
  change (lastd dumb []) with dumb in E. cbn [nxt nn] in E. rewrite E. cbn [obind].
  rewrite Z.add_0_l. rewrite app_nil_l in HKR.
  set (XS := remove_first n v (x :: xs)) in *.
  destruct HI as (HIn & HId & HIs & HIl).
  assert (Hprev : ∃ pv w, dl_heap l' !! lastd dumb ks = Some (LNode (nxt rs None) pv w)).
  { unfold lastd. destruct ks as [|k0 ks0 _] using rev_ind; simpl.
    - rewrite HId. eauto.
    - rewrite last_snoc. simpl. destruct K as [|y K _] using rev_ind.
      { rewrite app_length in HIl; simpl in HIl; lia. }
      rewrite !app_length in HIl. simpl in HIl. rewrite <- !app_assoc in HIs.
      rewrite dseg_app in HIs by lia. destruct HIs as [_ [Hk0 _]]. rewrite Hk0. eauto. }
  destruct Hprev as (pv & w & Hprev). unfold node_at at 1. rewrite Hprev. cbn [deref obind ln_next].
  set (l2 := match nxt rs None with Some _ => l' | None => _ end).
  assert (Hl2 : dl_heap l2 = dl_heap l' ∧ dl_len l2 = dl_len l' ∧ dl_fresh l2 = dl_fresh l').
  { unfold l2. by destruct (nxt rs None). }
  destruct Hl2 as (Hl2h & Hl2l & Hl2f).
  unfold node_at. rewrite Hl2h, HId. cbn [deref obind ln_next].
  eexists. split; [reflexivity|].
  assert (length rs = length R) as HrR. { apply dseg_len in HIs. rewrite !app_length in HIs. lia. }
  assert (Htail2 : dl_tail l2 = match e, rs with OnlyFront, _ :: _ => None | _, _ => Some (lastd dumb (ks ++ rs)) end).
  { unfold l2. destruct rs as [|b rs]; simpl.
    - rewrite app_nil_r. by destruct e.
    - rewrite Htl. unfold l0; simpl. rewrite Ht. destruct e; [|done|done]. unfold lst, lastd. rewrite Hpre, !last_app.
      destruct (last (b :: rs)) eqn:El; [done|]. by apply last_None in El. }
  destruct XS as [|y XS'] eqn:EX.
  - apply app_eq_nil in HKR as [-> ->]. apply dseg_len in HIs. destruct (ks ++ rs) as [|? ?] eqn:Eb; [|done]. apply app_eq_nil in Eb as [-> ->].
    cbn [nxt dl_head set_head]. exists [dumb]. split; simpl.
    + eapply (fresh_ok_ext l'); done.
    + apply NoDup_singleton.
    + by rewrite HId.
    + done.
    + done.
    + rewrite Hln. unfold l0; simpl dl_len. unfold zlen. cbn [length]. lia.
    + by right.
  - destruct (ks ++ rs) as [|b bs] eqn:Eb.
    { apply dseg_len in HIs. by rewrite HKR in HIs. }
    rewrite HKR in HIs. assert (Hnb : NoDup (b :: bs)). { by apply NoDup_cons in HIn as [_ ?]. }
    cbn [nxt dl_head set_head]. exists (b :: bs). split.
    + eapply (fresh_ok_ext (set_prev b None l')).
      * by apply fresh_ok_set_prev.
      * simpl. by rewrite Hl2h.
      * simpl. by rewrite Hl2f.
    + done.
    + simpl dl_heap. rewrite Hl2h. apply (dseg_set_prev _ p0); [|done]. by apply NoDup_cons in Hnb as [? _].
    + cbn [dl_head set_len set_prev set_heap set_head c_ends]. rewrite <- Hun. destruct e; by destruct R.
    + assert (Some (lastd dumb (b :: bs)) = lst None (b :: bs)) as El.
      { unfold lastd, lst. destruct (last (b :: bs)) eqn:El; [done|]. by apply last_None in El. }
      cbn [dl_tail set_len set_prev set_heap set_head c_ends]. rewrite Htail2, <- El, <- Hun. destruct rs as [|r0 rs]; destruct R as [|z R]; try done; by destruct e.
    + simpl dl_len. rewrite Hl2l, Hln. unfold l0; simpl dl_len. simpl c_count. unfold zlen. cbn [length]. lia.
    + by right.
Qed.
Lemma rem_tail_chained v n l s : chained l s →
  match remove_back n v s with
  | None => dl_rem_tail v n l = Panic
  | Some (s', c) => ∃ l', dl_rem_tail v n l = Ret (l', c) ∧ chained l' s'
  end.
Proof.
  intros H%chained_flip. rewrite rem_tail_flip. unfold remove_back. pose proof (rem_head_chained v n _ _ H) as G.
  destruct (remove_front n v (mirror s)) as [[s' c]|]; [|by rewrite G]. destruct G as (l' & -> & L). simpl. eexists. split; [done|].
  apply chained_unflip. by rewrite flip_invol, mirror_invol.
Qed.
Lemma lrem_chained n v l s : chained l s → - two63 ≤ n < two63 →
  match remove n v s with
  | None => dl_lrem n v l = Panic
  | Some (s', c) => ∃ l', dl_lrem n v l = Ret (l', c) ∧ chained l' s'
  end.
Proof.
  intros H Hn. unfold dl_lrem, remove. destruct (0 <? n) eqn:E1; [by apply rem_head_chained|]. destruct (n <? 0) eqn:E2.
  - assert (wrap64 (- n) = (if n =? - two63 then n else - n)) as ->.
    { destruct (Z.eqb_spec n (- two63)) as [->|]; [done|]. apply wrap64_small. unfold two63 in *. lia. }
    by apply rem_tail_chained.
  - rewrite (chained_count _ _ H). by apply rem_head_chained.
Qed.

(** ** LINDEX and LSET *)
Lemma index_fwd_any fuel l ls xs (i j : nat) :
  dseg (dl_heap l) None ls xs None → (j ≤ i)%nat → (j ≤ length ls)%nat → (i - j ≤ fuel)%nat →
  index_loop fuel l false (Z.of_nat i) (Z.of_nat j) (ls !! j) = if (i <=? length ls)%nat then Ret (ls !! i) else Panic.
Proof.
  intros Hs. revert j. induction fuel as [|f IH]; intros j Hj Hl Hfu; cbn [index_loop].
  - replace j with i by lia. rewrite Z.eqb_refl. by rewrite (proj2 (Nat.leb_le _ _)) by lia.
  - destruct (Z.eqb_spec (Z.of_nat i) (Z.of_nat j)) as [E|E].
    { replace j with i by lia. by rewrite (proj2 (Nat.leb_le _ _)) by lia. }
    destruct (decide (j = length ls)) as [->|Hne].
    { rewrite lookup_ge_None_2 by lia. simpl. by rewrite (proj2 (Nat.leb_gt _ _)) by lia. }
    destruct (lookup_lt_is_Some_2 ls j) as [a Ha]; [lia|].
    destruct (dseg_nth _ _ _ _ _ _ _ Hs Ha) as (x & _ & Hn).
    rewrite Ha. simpl. unfold node_at. rewrite Hn. simpl.
    replace (Z.of_nat j + 1) with (Z.of_nat (S j)) by lia.
    replace (match ls !! S j with Some b => Some b | None => None end) with (ls !! S j) by by destruct (ls !! S j).
    apply IH; lia.
Qed.
(** the element below place [m] *)
Definition under (ls : list loc) (m : nat) : option loc := match m with O => None | S q => ls !! q end.
Lemma index_bwd_any fuel l ls xs (i : Z) (k m : nat) :
  dseg (dl_heap l) None ls xs None → (m ≤ length ls)%nat → (k ≤ fuel)%nat →
  index_loop fuel l true i (i + Z.of_nat k) (under ls m) = if (k <=? m)%nat then Ret (under ls (m - k)) else Panic.
Proof.
  intros Hs. revert k m. induction fuel as [|f IH]; intros k m Hm Hfu; cbn [index_loop].
  - replace k with 0%nat by lia. rewrite Nat.sub_0_r. replace (i =? i + Z.of_nat 0) with true by lia. done.
  - destruct k as [|k]; [rewrite Nat.sub_0_r; by replace (i =? i + Z.of_nat 0) with true by lia|].
    replace (i =? i + Z.of_nat (S k)) with false by lia. destruct m as [|m]; [done|]. cbn [under].
    destruct (lookup_lt_is_Some_2 ls m) as [a Ha]; [lia|].
    destruct (dseg_nth _ _ _ _ _ _ _ Hs Ha) as (x & _ & Hn).
    rewrite Ha. simpl. unfold node_at. rewrite Hn. simpl.
    replace (i + Z.of_nat (S k) - 1) with (i + Z.of_nat k) by lia.
    change (match m with 0%nat => None | S j' => ls !! j' end) with (under ls m). rewrite IH by lia. done.
Qed.
Lemma lst_under ls : lst None ls = under ls (length ls).
Proof.
  unfold lst. rewrite last_lookup. destruct ls as [|a ls]; [done|]. simpl. destruct ((a :: ls) !! length ls) eqn:E; [done|]. apply lookup_ge_None_1 in E. simpl in E. lia.
Qed.
Lemma index_chained i l s ls : lrep l s ls →
  match place_of i s with
  | None => dl_index_node i l = Panic
  | Some None => dl_index_node i l = Ret None
  | Some (Some p) => dl_index_node i l = Ret (ls !! p) ∧ (p < length (c_items s))%nat
  end.
Proof.
  intros [Hf Hn Hs Hh Ht Hl Ho]. unfold dl_index_node. rewrite Hh, Hl. destruct s as [e xs n]; simpl in *. pose proof (dseg_len _ _ _ _ _ Hs) as Hlen.
  fold (norm_index n i). unfold place_of. cbn [c_ends c_items c_count]. set (k := norm_index n i). clearbody k.
  destruct xs as [|x xs]; [destruct ls; [|done]; by destruct e|]. destruct ls as [|a ls]; [done|].
  set (ys := x :: xs) in *. set (qs := a :: ls) in *.
  assert (e ≠ OnlyBack → match (let along (j : Z) (p : Z) := if j <? zlen ys then Some (Some (Z.to_nat p)) else if j =? zlen ys then Some None else None in
      if (k <? 0) || (n <=? k) then Some None
      else if n / 2 + 1 <? k then (let j := n - 1 - k in match e with OnlyFront => if j =? 0 then Some None else None | _ => along j (zlen ys - 1 - j) end)
      else along k k) with
    | None => (let i := k in if (n <=? i) || (i <? 0) then Ret None
              else let reverse := n / 2 + 1 <? i in
              if reverse then index_loop (Z.to_nat n) l true i (n - 1) (dl_tail l) else index_loop (Z.to_nat n) l false i 0 (nxt qs None)) = Panic
    | Some None => (let i := k in if (n <=? i) || (i <? 0) then Ret None
              else let reverse := n / 2 + 1 <? i in
              if reverse then index_loop (Z.to_nat n) l true i (n - 1) (dl_tail l) else index_loop (Z.to_nat n) l false i 0 (nxt qs None)) = Ret None
    | Some (Some p) => (let i := k in if (n <=? i) || (i <? 0) then Ret None
              else let reverse := n / 2 + 1 <? i in
              if reverse then index_loop (Z.to_nat n) l true i (n - 1) (dl_tail l) else index_loop (Z.to_nat n) l false i 0 (nxt qs None)) = Ret (qs !! p) ∧ (p < length ys)%nat
    end) as G.
  { intros He. cbv zeta. rewrite (orb_comm (n <=? k)). destruct ((k <? 0) || (n <=? k)) eqn:E1; [done|]. assert (0 ≤ k < n) as Hk by lia. clear E1.
    destruct (n / 2 + 1 <? k).
    - (* from the back *) assert (∃ m, n - 1 - k = Z.of_nat m) as [m Em] by (exists (Z.to_nat (n - 1 - k)); lia). rewrite Em.
      replace (n - 1) with (k + Z.of_nat m) by lia. destruct e; [|done|].
      + rewrite Ht, lst_under, (index_bwd_any _ _ _ _ _ _ _ Hs) by lia. rewrite Hlen. unfold zlen.
        destruct (Z.ltb_spec (Z.of_nat m) (Z.of_nat (length ys))).
        * rewrite (proj2 (Nat.leb_le _ _)) by lia. assert (length ys - m = S (Z.to_nat (Z.of_nat (length ys) - 1 - Z.of_nat m)))%nat as -> by lia. split; [done|lia].
        * destruct (Z.eqb_spec (Z.of_nat m) (Z.of_nat (length ys))).
          -- rewrite (proj2 (Nat.leb_le _ _)) by lia. by replace (length ys - m)%nat with 0%nat by lia.
          -- by rewrite (proj2 (Nat.leb_gt _ _)) by lia.
      + assert (index_loop (Z.to_nat n) l true k (k + Z.of_nat m) (under qs 0) = if (m <=? 0)%nat then Ret (under qs (0 - m)) else Panic) as X
          by (apply (index_bwd_any _ _ _ _ _ _ _ Hs); lia).
        rewrite Ht. cbn [under] in X. rewrite X.
        destruct (Z.eqb_spec (Z.of_nat m) 0) as [E|E]; [assert (m = 0%nat) as -> by lia; done|]. by rewrite (proj2 (Nat.leb_gt _ _)) by lia.
    - assert (∃ m, k = Z.of_nat m) as [m ->] by (exists (Z.to_nat k); lia). change (nxt qs None) with (qs !! 0%nat). change 0 with (Z.of_nat 0).
      rewrite (index_fwd_any _ _ _ _ _ _ Hs) by lia. rewrite Hlen. unfold zlen. destruct (Z.ltb_spec (Z.of_nat m) (Z.of_nat (length ys))).
      + rewrite (proj2 (Nat.leb_le _ _)), Nat2Z.id by lia. split; [done|lia].
      + destruct (Z.eqb_spec (Z.of_nat m) (Z.of_nat (length ys))).
        * rewrite (proj2 (Nat.leb_le _ _)) by lia. by rewrite lookup_ge_None_2 by lia.
        * by rewrite (proj2 (Nat.leb_gt _ _)) by lia. }
  destruct e; [by apply G|done|by apply G].
Qed.
Lemma lindex_chained i l s : chained l s →
  dl_lindex i l = match place_of i s with
                  | None => Panic
                  | Some None => Ret None
                  | Some (Some p) => Ret (c_items s !! p) end.
Proof.
  intros [ls H]. pose proof (index_chained i l s ls H) as G. unfold dl_lindex. destruct (place_of i s) as [[p|]|]; [|by rewrite G|by rewrite G].
  destruct G as [-> Hp]. destruct H as [Hf Hn Hs Hh Ht Hl Ho]. pose proof (dseg_len _ _ _ _ _ Hs) as Hlen. cbn [obind].
  destruct (lookup_lt_is_Some_2 ls p) as [a Ha]; [lia|]. rewrite Ha. destruct (dseg_nth _ _ _ _ _ _ _ Hs Ha) as (x & Hx & E). unfold node_at. rewrite E. simpl. by rewrite Hx.
Qed.
Lemma place_in i s p l : chained l s → place_of i s = Some (Some p) → (p < length (c_items s))%nat.
Proof. intros [ls H] E. pose proof (index_chained i l s ls H) as G. rewrite E in G. apply G. Qed.
Lemma lset_chained i v l s : chained l s →
  match place_of i s with
  | None => dl_lset i v l = Panic
  | Some None => dl_lset i v l = Ret (l, false)
  | Some (Some p) => ∃ l', dl_lset i v l = Ret (l', true) ∧ chained l' (Chain (c_ends s) (<[p := v]> (c_items s)) (c_count s))
  end.
Proof.
  intros [ls H]. pose proof (index_chained i l s ls H) as G. unfold dl_lset. destruct (place_of i s) as [[p|]|]; [|by rewrite G|by rewrite G].
  destruct G as [-> Hp]. destruct H as [Hf Hn Hs Hh Ht Hl Ho]. pose proof (dseg_len _ _ _ _ _ Hs) as Hlen. cbn [obind].
  destruct (lookup_lt_is_Some_2 ls p) as [a Ha]; [lia|]. rewrite Ha. eexists. split; [done|]. exists ls. split; simpl; try done.
  - by apply fresh_ok_set_val.
  - by apply dseg_set_val.
  - destruct Ho as [Ho|Ho]; [by left|right]. simpl. intros E. apply (f_equal length) in E. rewrite insert_length in E. destruct (c_items s); [done|simpl in E; lia].
Qed.

(** ** LINSERT *)
Lemma insert_after_chain l la p lb A t B v e n :
  lrep l (Chain e (A ++ t :: B) n) (la ++ p :: lb) → e ≠ OnlyBack → length la = length A →
  ∃ l', insert_after_at p v l = Ret l' ∧
        lrep l' (Chain (match lb with [] => Both | _ => e end) (A ++ t :: v :: B) (n + 1)) (la ++ p :: dl_fresh l :: lb).
Proof.
  intros [Hf Hn Hs Hh Ht Hl Ho] He HlA. simpl in *. unfold insert_after_at. cbn [alloc].
  pose proof (fresh_notin _ _ _ _ _ Hf Hs) as Hfr.
  set (q := dl_fresh l) in *.
  rewrite not_elem_of_app, not_elem_of_cons in Hfr. destruct Hfr as (Hqa & Hqp & Hqb).
  apply NoDup_app in Hn as (Hna & Hdisj & Hnb). apply NoDup_cons in Hnb as [Hpb Hnb].
  assert (Hpa : p ∉ la). { intros Hin. apply (Hdisj _ Hin). left. }
  assert (Hab : ∀ k, k ∈ la → k ∉ lb). { intros k Hk Hr. apply (Hdisj _ Hk). by right. }
  rewrite dseg_app in Hs by done. destruct Hs as [Hsa [Hp Hsb]].
  unfold node_at. cbn [dl_heap set_len]. rewrite lookup_insert_ne by done. rewrite Hp.
  cbn [deref obind ln_next]. eexists. split; [reflexivity|]. split.
  - destruct (nxt lb None).
    + apply fresh_ok_set_prev, fresh_ok_set_next, fresh_ok_set_prev, fresh_ok_set_next.
      by apply (fresh_ok_insert l).
    + eapply fresh_ok_ext; [|reflexivity|reflexivity].
      apply fresh_ok_set_prev, fresh_ok_set_next. by apply (fresh_ok_insert l).
  - rewrite NoDup_app, !NoDup_cons, not_elem_of_cons.
    assert (∀ k, k ∈ la → k ∉ p :: q :: lb).
    { intros k Hk. rewrite !not_elem_of_cons. split_and!; [| |by apply Hab]; intros ->; done. }
    naive_solver.
  - apply dseg_app; [done|]. destruct lb as [|b lb].
    * destruct B; [|done]. simpl. split_and!; try done.
      -- apply dseg_frame_alter; [done|]. apply dseg_frame_alter; [done|]. by apply dseg_frame.
      -- rewrite lookup_alter_ne by done. rewrite lookup_alter, lookup_insert_ne, Hp by done. done.
      -- rewrite lookup_alter, lookup_alter_ne, lookup_insert by done. done.
    * destruct B as [|y B]; [done|].
      rewrite not_elem_of_cons in Hpb. destruct Hpb as [Hpb Hpb'].
      rewrite not_elem_of_cons in Hqb. destruct Hqb as [Hqb Hqb'].
      apply NoDup_cons in Hnb as [Hbb Hnb].
      assert (Hba : b ∉ la). { intros Hin. apply (Hab _ Hin). left. }
      cbn [nxt]. cbn [dl_heap set_prev set_next set_heap set_len].
      split; [|split; [|split]].
      -- repeat (apply dseg_frame_alter; [done|]). by apply dseg_frame.
      -- rewrite lookup_alter_ne, lookup_alter_ne, lookup_alter_ne by done.
         rewrite lookup_alter, lookup_insert_ne, Hp by done. done.
      -- rewrite lookup_alter_ne by done. rewrite lookup_alter.
         rewrite lookup_alter, lookup_alter_ne, lookup_insert by done. done.
      -- apply (dseg_set_prev _ (Some p)); [done|].
         repeat (apply dseg_frame_alter; [set_solver|]). apply dseg_frame; [set_solver|]. done.
  - assert (nxt (la ++ p :: q :: lb) None = nxt (la ++ p :: lb) None) as En by (by destruct la).
    simpl c_ends. rewrite En. destruct lb; simpl; rewrite Hh; by destruct e.
  - destruct lb as [|b lb]; cbn [nxt dl_tail set_tail c_ends].
    * unfold lst. by rewrite last_app.
    * cbn [dl_tail set_prev set_next set_heap set_len]. rewrite Ht. destruct e; [|done|done]. unfold lst. rewrite !last_app, !last_cons_cons.
      destruct (last (b :: lb)) eqn:E; [done|]. by apply last_None in E.
  - destruct (nxt lb None); simpl; rewrite Hl; lia.
  - right. simpl. by destruct A.
Qed.
Lemma insert_before_chain l la p lb A t B v e n :
  lrep l (Chain e (A ++ t :: B) n) (la ++ p :: lb) → e ≠ OnlyBack → length la = length A →
  ∃ l', insert_before_at p v l = Ret l' ∧ lrep l' (Chain e (A ++ v :: t :: B) (n + 1)) (la ++ dl_fresh l :: p :: lb).
Proof.
  intros [Hf Hn Hs Hh Ht Hl Ho] He HlA. simpl in *.
  (* as a list that knows both ends *)
  set (l0 := DL (Z.of_nat (length (A ++ t :: B))) (nxt (la ++ p :: lb) None) (lst None (la ++ p :: lb)) (dl_heap l) (dl_fresh l)).
  assert (rep l0 (la ++ p :: lb) (A ++ t :: B)) as R0 by (by split).
  assert (fresh_ok l0) as F0 by (by apply (fresh_ok_ext l)).
  destruct (insert_before_ok l0 la p lb A t B v F0 R0 HlA) as (l1 & E1 & F1 & R1).
  assert (dl_head l = nxt (la ++ p :: lb) None) as Hh0 by (destruct e; done).
  unfold insert_before_at in *. cbn [alloc l0 dl_fresh dl_heap dl_head dl_tail dl_len] in E1 |- *.
  unfold node_at in *. cbn [set_len dl_heap] in *. destruct (deref (<[dl_fresh l:=LNode None None v]> (dl_heap l) !! p)) as [nd| |] eqn:En; try done.
  cbn [obind] in *. eexists. split; [reflexivity|]. injection E1 as <-. destruct R1 as [Rn Rs Rh Rt Rl].
  split.
  - destruct (ln_prev nd); (eapply fresh_ok_ext; [exact F1|done|done]).
  - done.
  - destruct (ln_prev nd); exact Rs.
  - destruct (ln_prev nd); simpl in Rh |- *; [rewrite Hh0|]; destruct e; done.
  - assert (lst None (la ++ dl_fresh l :: p :: lb) = lst None (la ++ p :: lb)) as El.
    { unfold lst. rewrite !last_app, last_cons_cons. destruct (last (p :: lb)) eqn:E; [done|]. by apply last_None in E. }
    simpl c_ends. rewrite El. destruct (ln_prev nd); simpl; rewrite Ht; by destruct e.
  - destruct (ln_prev nd); simpl; lia.
  - right. simpl. by destruct A.
Qed.
Lemma insert_after_spec t v xs : insert_after t v xs = None ↔ t ∉ xs.
Proof.
  split.
  - intros H Hin. apply first_split in Hin as (A & B & -> & HA). by rewrite insert_after_split in H.
  - apply insert_after_none.
Qed.
Lemma linsert_chained t v flag l s : chained l s → flag = 1 ∨ flag = -1 →
  match insert_at (0 <? flag) t v s with
  | None => dl_linsert t v flag l = Ret (l, false)
  | Some s' => ∃ l', dl_linsert t v flag l = Ret (l', true) ∧ chained l' s'
  end.
Proof.
  intros [ls Hr] Hflag. pose proof Hr as [Hf Hn Hs Hh Ht Hl Ho]. destruct s as [e xs n]; simpl in *. unfold dl_linsert, insert_at. cbn [c_ends c_items c_count].
  rewrite Hh. assert (e = OnlyBack ∨ e ≠ OnlyBack) as [->|He] by (destruct e; auto); [done|].
  assert (∀ X (a b : X), match e with OnlyBack => a | _ => b end = b) as Hm by (by destruct e). rewrite Hm.
  destruct ls as [|c cs].
  { destruct xs; [|done]. cbn [nxt]. destruct Hflag as [-> | ->]; simpl; by destruct e. }
  cbn [nxt]. unfold dl_find. rewrite Hh, Hm.
  destruct (find_loop_ok (S (size (dl_heap l))) t l None (c :: cs) xs Hs) as [F1 F2].
  { pose proof (seg_len_size _ _ _ _ _ Hn Hs). lia. }
  destruct (decide (t ∈ xs)) as [Hin|Hni].
  - destruct (first_split _ _ Hin) as (A & B & -> & HA).
    rewrite (F2 A B) by done. cbn [obind].
    rewrite insert_after_split, insert_before_split by done.
    pose proof (dseg_len _ _ _ _ _ Hs) as Hlen. rewrite app_length in Hlen. simpl length in Hlen.
    destruct (lookup_lt_is_Some_2 (c :: cs) (length A)) as [p Hp]; [simpl; lia|].
    rewrite Hp. pose proof (take_drop_middle _ _ _ Hp) as Esp. rewrite <- Esp in Hr.
    destruct Hflag as [-> | ->]; simpl.
    + destruct (insert_after_chain l _ p _ A t B v e n Hr He) as (l' & E & Hr').
      { rewrite take_length. simpl. lia. }
      unfold insert_after_at in E. simpl in E.
      match type of E with (let* nd := ?e in _) = _ => destruct e as [nd| |] end; simpl in E; try done.
      assert ((if negb (bool_decide (t ∈ take (length (A ++ t :: B) - 1) (A ++ t :: B))) then Both else e) =
        match drop (S (length A)) (c :: cs) with [] => Both | _ => e end) as Ee.
      { destruct B as [|y B].
        - assert (drop (S (length A)) (c :: cs) = []) as ->. { apply drop_ge. simpl in Hlen |- *. lia. }
          rewrite bool_decide_eq_false_2; [done|]. rewrite app_length. simpl. replace (length A + 1 - 1)%nat with (length A) by lia. by rewrite take_app.
        - destruct (drop (S (length A)) (c :: cs)) as [|z zs] eqn:Ed.
          { apply (f_equal length) in Ed. rewrite drop_length in Ed. simpl in Hlen, Ed. lia. }
          rewrite bool_decide_eq_true_2; [done|]. rewrite app_length. simpl. rewrite take_app_ge by lia. apply elem_of_app. right.
          replace (length A + S (S (length B)) - 1 - length A)%nat with (S (length B)) by lia. simpl. left. }
      destruct e; try done; rewrite Ee; simplify_eq/=; eexists; (split; [done|]); eexists; exact Hr'.
    + destruct (insert_before_chain l _ p _ A t B v e n Hr He) as (l' & E & Hr').
      { rewrite take_length. simpl. lia. }
      unfold insert_before_at in E. simpl in E.
      match type of E with (let* nd := ?e in _) = _ => destruct e as [nd| |] end; simpl in E; try done.
      destruct e; try done; simplify_eq/=; eexists; (split; [done|]); eexists; exact Hr'.
  - rewrite F1 by done. cbn [obind]. rewrite insert_after_none, insert_before_none by done.
    destruct (0 <? flag); by destruct e.
Qed.

(** ** whatever a command makes of a chain is a chain *)
Lemma lpop_any n l s l' vs : chained l s → dl_lpop_n n l = Ret (l', vs) → ∃ s', chained l' s'.
Proof. intros H E. destruct (lpop_chained n l s H) as (l1 & E1 & H1). rewrite E1 in E. injection E as <- _. eauto. Qed.
Lemma rpop_any n l s l' vs : chained l s → dl_rpop_n n l = Ret (l', vs) → ∃ s', chained l' s'.
Proof. intros H E. destruct (rpop_chained n l s H) as (l1 & E1 & H1). rewrite E1 in E. injection E as <- _. eauto. Qed.
Lemma lrem_any n v l s l' c : chained l s → dl_lrem n v l = Ret (l', c) → ∃ s', chained l' s'.
Proof.
  intros H. assert (∀ m, dl_rem_head v m l = Ret (l', c) → ∃ s', chained l' s') as G.
  { intros m E. pose proof (rem_head_chained v m l s H) as G. destruct (remove_front m v s) as [[s' c']|]; [|congruence]. destruct G as (l1 & E1 & H1). rewrite E1 in E. injection E as <- _. eauto. }
  unfold dl_lrem. destruct (0 <? n); [apply G|]. destruct (n <? 0); [|apply G]. intros E.
  pose proof (rem_tail_chained v (wrap64 (- n)) l s H) as G'. destruct (remove_back (wrap64 (- n)) v s) as [[s' c']|]; [|congruence]. destruct G' as (l1 & E1 & H1). rewrite E1 in E. injection E as <- _. eauto.
Qed.
Lemma lset_any i v l s l' b : chained l s → dl_lset i v l = Ret (l', b) → ∃ s', chained l' s'.
Proof.
  intros H E. pose proof (lset_chained i v l s H) as G. destruct (place_of i s) as [[p|]|]; [|rewrite G in E; injection E as <- _; eauto|congruence].
  destruct G as (l1 & E1 & H1). rewrite E1 in E. injection E as <- _. eauto.
Qed.
Lemma linsert_any t v f l s l' b : chained l s → f = 1 ∨ f = -1 → dl_linsert t v f l = Ret (l', b) → ∃ s', chained l' s'.
Proof.
  intros H Hf E. pose proof (linsert_chained t v f l s H Hf) as G. destruct (insert_at (0 <? f) t v s) as [s'|]; [|rewrite G in E; injection E as <- _; eauto].
  destruct G as (l1 & E1 & H1). rewrite E1 in E. injection E as <- _. eauto.
Qed.
