(** Representation invariant of the skip list: every link is determined by the tower heights
    of the sequence it represents.  Correctness of the search loops. *)
From Coq Require Import ZifyBool Sorting.Sorted.
From Verif Require Import GoBase GoBaseProofs DList Float64 Float64Proofs SkipList.

(** one element of the represented sequence: address, score, member, tower height *)
Record ent := Ent { e_id : loc; e_sc : float; e_val : string; e_h : nat }.
Definition e_key (e : ent) : zkey := (e_sc e, e_val e).

(** the (forward, span) a level-[i] link must have when [es] is what follows the node *)
Fixpoint hop (i : nat) (es : list ent) : zlink :=
  match es with
  | [] => (None, 0)
  | e :: r => if (i <? e_h e)%nat then (Some (e_id e), 1)
              else let '(f, d) := hop i r in (f, d + 1)
  end.

(** the node at position [p]: 0 is the head, [S q] is element [q] *)
Definition nid (es : list ent) (p : nat) : loc :=
  match p with O => sl_head | S q => from_option e_id sl_head (es !! q) end.
Definition lvl_ok (lvl : nat) (es : list ent) (p i : nat) : Prop :=
  match p with
  | O => (i < lvl)%nat
  | S q => ∃ e, es !! q = Some e ∧ (i < e_h e)%nat
  end.
Definition back_of (es : list ent) (p : nat) : option loc :=
  match p with O => None | S q => e_id <$> (es !! q) end.

Record wf (s : skiplist) (es : list ent) : Prop := {
  wf_ids : NoDup (sl_head :: (e_id <$> es));
  wf_head : sl_nodes s !! sl_head = Some (ZI EmptyString (S754_zero false) None);
  wf_nodes : ∀ p e, es !! p = Some e →
    sl_nodes s !! e_id e = Some (ZI (e_val e) (e_sc e) (back_of es p));
  wf_links : ∀ p i, lvl_ok (sl_level s) es p i →
    sl_links s !! (nid es p, i) = Some (hop i (drop p es));
  wf_top : ∀ i, (sl_level s ≤ i < max_level)%nat → ∃ z, sl_links s !! (sl_head, i) = Some (None, z);
  wf_hts : ∀ p e, es !! p = Some e → (1 ≤ e_h e ≤ sl_level s)%nat;
  wf_level : (1 ≤ sl_level s ≤ max_level)%nat;
  wf_len : sl_len s = Z.of_nat (length es);
  wf_fresh : ∀ a, is_Some (sl_nodes s !! a) → (a < sl_fresh s)%nat;
}.

(** ** hop *)
Lemma hop_none i es : Forall (λ e, e_h e ≤ i)%nat es → hop i es = (None, Z.of_nat (length es)).
Proof.
  induction es as [|e es IH]; intros H; [done|]. apply Forall_cons in H as [H1 H2]. cbn [hop length].
  replace (i <? e_h e)%nat with false by lia. rewrite IH by done. f_equal. lia.
Qed.
Lemma hop_skip i A B :
  Forall (λ e, e_h e ≤ i)%nat A → hop i (A ++ B) = ((hop i B).1, (hop i B).2 + Z.of_nat (length A)).
Proof.
  induction A as [|e A IH]; intros H; cbn [app hop length].
  - destruct (hop i B); simpl. f_equal. lia.
  - apply Forall_cons in H as [H1 H2]. replace (i <? e_h e)%nat with false by lia.
    rewrite IH by done. f_equal. lia.
Qed.
Lemma hop_hit i A e B :
  Forall (λ e, e_h e ≤ i)%nat A → (i < e_h e)%nat →
  hop i (A ++ e :: B) = (Some (e_id e), Z.of_nat (length A) + 1).
Proof.
  intros HA He. rewrite hop_skip by done. cbn [hop]. replace (i <? e_h e)%nat with true by lia.
  simpl. f_equal. lia.
Qed.
Lemma hop_cases i es :
  Forall (λ e, e_h e ≤ i)%nat es ∨
  ∃ A e B, es = A ++ e :: B ∧ Forall (λ e, e_h e ≤ i)%nat A ∧ (i < e_h e)%nat.
Proof.
  induction es as [|e es IH]; [left; constructor|].
  destruct (decide (e_h e ≤ i)%nat) as [Hle|Hgt].
  - destruct IH as [IH|(A & f & B & -> & HA & Hf)].
    + left. by constructor.
    + right. exists (e :: A), f, B. split; [done|]. split; [by constructor|done].
  - right. exists [], e, es. split; [done|]. split; [constructor|lia].
Qed.
(** a link that stops inside [A] does not depend on what follows *)
Lemma hop_inside i A B B' :
  ¬ Forall (λ e, e_h e ≤ i)%nat A → hop i (A ++ B) = hop i (A ++ B').
Proof.
  destruct (hop_cases i A) as [H|(A1 & e & A2 & -> & HA & He)]; [done|]. intros _.
  rewrite <- !app_assoc. simpl. by rewrite !hop_hit.
Qed.

Lemma lvl_ok_mono lvl es p i j : (j ≤ i)%nat → lvl_ok lvl es p i → lvl_ok lvl es p j.
Proof. destruct p as [|q]; simpl; [lia|]. intros Hji (e & He & Hi). exists e. split; [done|lia]. Qed.
Lemma lvl_ok_le lvl es p i : lvl_ok lvl es p i → (p ≤ length es)%nat.
Proof. destruct p as [|q]; simpl; [lia|]. intros (e & He & Hi). by apply lookup_lt_Some in He. Qed.

Lemma nid_S es q e : es !! q = Some e → nid es (S q) = e_id e.
Proof. simpl. by intros ->. Qed.

Lemma nid_inj s es p q : wf s es → (p ≤ length es)%nat → (q ≤ length es)%nat →
  nid es p = nid es q → p = q.
Proof.
  intros Hwf Hp Hq E. pose proof (wf_ids _ _ Hwf) as Hn.
  assert (Hlk : ∀ p, (p ≤ length es)%nat → (sl_head :: (e_id <$> es)) !! p = Some (nid es p)).
  { intros [|r] Hr; simpl; [done|]. rewrite list_lookup_fmap.
    destruct (lookup_lt_is_Some_2 es r) as [e ->]; [lia|]. done. }
  eapply NoDup_lookup; [exact Hn|by apply Hlk|]. rewrite E. by apply Hlk.
Qed.

Lemma wf_nid_node s es p : wf s es → (p ≤ length es)%nat → is_Some (sl_nodes s !! nid es p).
Proof.
  intros Hwf Hp. destruct p as [|q]; simpl.
  - rewrite (wf_head _ _ Hwf). eauto.
  - destruct (lookup_lt_is_Some_2 es q) as [e He]; [lia|]. rewrite He. simpl.
    rewrite (wf_nodes _ _ Hwf _ _ He). eauto.
Qed.

Lemma wf_size s es : wf s es → (length es < size (sl_nodes s))%nat.
Proof.
  intros Hwf.
  assert (Hsub : (list_to_set (sl_head :: (e_id <$> es)) : gset loc) ⊆ dom (sl_nodes s)).
  { intros a Ha. apply elem_of_list_to_set in Ha. apply elem_of_dom.
    apply elem_of_cons in Ha as [->|Ha]; [rewrite (wf_head _ _ Hwf); eauto|].
    apply elem_of_list_fmap in Ha as (e & -> & He). apply elem_of_list_lookup in He as [p Hp].
    rewrite (wf_nodes _ _ Hwf _ _ Hp). eauto. }
  apply subseteq_size in Hsub. rewrite size_list_to_set in Hsub by apply (wf_ids _ _ Hwf).
  rewrite size_dom in Hsub. cbn [length] in Hsub. rewrite fmap_length in Hsub. lia.
Qed.

(** ** The inner loop *)

Definition info_of (es : list ent) (p : nat) (e : ent) : zinfo := ZI (e_val e) (e_sc e) (back_of es p).

Lemma drop_split (es : list ent) a A e B :
  drop a es = A ++ e :: B → es !! (a + length A)%nat = Some e ∧ drop (S (a + length A)) es = B ∧
  (∀ j f, (a ≤ j < a + length A)%nat → es !! j = Some f → f ∈ A).
Proof.
  intros E. split; [|split].
  - rewrite <- lookup_drop, E. by apply list_lookup_middle.
  - replace (S (a + length A)) with (a + S (length A))%nat by lia.
    rewrite <- drop_drop, E. rewrite drop_app_ge by lia.
    replace (S (length A) - length A)%nat with 1%nat by lia. done.
  - intros j f Hj Hf. assert (Hf' : drop a es !! (j - a)%nat = Some f).
    { rewrite lookup_drop. by replace (a + (j - a))%nat with j by lia. }
    rewrite E, lookup_app_l in Hf' by lia. by eapply elem_of_list_lookup_2.
Qed.

Lemma walk_ok s es test brk i N off fuel a :
  wf s es → (N ≤ length es)%nat →
  (∀ p e, es !! p = Some e → test (info_of es p e) (off + Z.of_nat p + 1) = bool_decide (p < N)%nat) →
  lvl_ok (sl_level s) es a i → (a ≤ N)%nat → (N - a < fuel)%nat →
  ∃ a' b adj,
    walk fuel s test brk i (nid es a) (off + Z.of_nat a) = Ret (nid es a', off + Z.of_nat a' + adj, b) ∧
    (a ≤ a' ≤ N)%nat ∧ lvl_ok (sl_level s) es a' i ∧
    (b = false → adj = 0 ∧ ∀ j e, (a' ≤ j < N)%nat → es !! j = Some e → (e_h e ≤ i)%nat) ∧
    (b = true → ∃ q e cur, a' = S q ∧ (a ≤ q)%nat ∧ es !! q = Some e ∧
                           brk cur (info_of es q e) = Some adj) ∧
    (b = false → a' = a ∨ ∃ q e cur, a' = S q ∧ es !! q = Some e ∧
                                     brk cur (info_of es q e) = None).
Proof.
  intros Hwf HN Htest. revert a. induction fuel as [|f IH]; intros a Hlvl HaN Hfuel; [lia|].
  cbn [walk]. unfold lk. rewrite (wf_links _ _ Hwf _ _ Hlvl). cbn [deref obind].
  destruct (hop_cases i (drop a es)) as [Hall|(A & e & B & E & HA & He)].
  - rewrite hop_none by done. exists a, false, 0. rewrite Z.add_0_r.
    split; [done|]. split; [lia|]. split; [done|]. split; [|split; [done|]].
    + intros _. split; [done|]. intros j e Hj Hje. rewrite Forall_lookup in Hall.
      apply (Hall (j - a)%nat). rewrite lookup_drop. by replace (a + (j - a))%nat with j by lia.
    + by left.
  - rewrite E. rewrite hop_hit by done.
    destruct (drop_split _ _ _ _ _ E) as (Hq & Hd & Hin).
    set (q := (a + length A)%nat) in *.
    unfold zn. rewrite (wf_nodes _ _ Hwf _ _ Hq). cbn [deref obind].
    fold (info_of es q e).
    replace (off + Z.of_nat a + (Z.of_nat (length A) + 1)) with (off + Z.of_nat q + 1) by lia.
    rewrite (Htest _ _ Hq). case_bool_decide as Hc.
    + destruct (wf_nid_node s es a Hwf) as [cur Hcur]; [lia|]. rewrite Hcur. cbn [deref obind].
      destruct (brk cur (info_of es q e)) as [adj|] eqn:Ebrk.
      * exists (S q), true, adj. rewrite (nid_S _ _ _ Hq). split; [do 3 f_equal; lia|].
        split; [lia|]. split; [by exists e|]. split; [done|]. split; [|done].
        intros _. exists q, e, cur. split; [done|]. split; [lia|]. done.
      * replace (off + Z.of_nat q + 1) with (off + Z.of_nat (S q)) by lia.
        rewrite <- (nid_S _ _ _ Hq).
        destruct (IH (S q)) as (a' & b & adj & Ew & Ha' & Hl' & Hb1 & Hb2 & Hb3);
          [by exists e|lia|lia|].
        exists a', b, adj. split; [done|]. split; [lia|]. split; [done|]. split; [done|]. split.
        -- intros Hb. destruct (Hb2 Hb) as (q' & e' & cur' & -> & Hq' & He' & Hbr).
           exists q', e', cur'. split; [done|]. split; [lia|]. done.
        -- intros Hb. right. destruct (Hb3 Hb) as [->|(q' & e' & cur' & ? & ? & ?)].
           ++ by exists q, e, cur.
           ++ by exists q', e', cur'.
    + exists a, false, 0. rewrite Z.add_0_r. split; [done|]. split; [lia|]. split; [done|].
      split; [|split; [done|]].
      * intros _. split; [done|]. intros j g Hj Hg. rewrite Forall_forall in HA. apply HA.
        apply (Hin j g); [lia|done].
      * by left.
Qed.

(** the version without break *)
Definition upos (lvl : nat) (es : list ent) (N i a : nat) : Prop :=
  (a ≤ N)%nat ∧ lvl_ok lvl es a i ∧ ∀ j e, (a ≤ j < N)%nat → es !! j = Some e → (e_h e ≤ i)%nat.

Lemma walk_nobrk s es test i N off a :
  wf s es → (N ≤ length es)%nat →
  (∀ p e, es !! p = Some e → test (info_of es p e) (off + Z.of_nat p + 1) = bool_decide (p < N)%nat) →
  lvl_ok (sl_level s) es a i → (a ≤ N)%nat →
  ∃ a', walk (sl_fuel s) s test no_brk i (nid es a) (off + Z.of_nat a) =
          Ret (nid es a', off + Z.of_nat a', false) ∧
        (a ≤ a')%nat ∧ upos (sl_level s) es N i a'.
Proof.
  intros Hwf HN Htest Hlvl Ha.
  destruct (walk_ok s es test no_brk i N off (sl_fuel s) a Hwf HN Htest Hlvl Ha)
    as (a' & b & adj & Ew & Ha' & Hl' & Hb1 & Hb2 & _).
  { unfold sl_fuel. pose proof (wf_size _ _ Hwf). lia. }
  destruct b.
  - destruct Hb2 as (q & e & cur & _ & _ & _ & Hbr); [done|]. done.
  - destruct Hb1 as [-> Hall]; [done|]. exists a'. rewrite Z.add_0_r in Ew.
    split; [done|]. split; [lia|]. split; [lia|]. done.
Qed.

Lemma upos_zero s es N a : wf s es → (N ≤ length es)%nat → upos (sl_level s) es N 0 a → a = N.
Proof.
  intros Hwf HN (Ha & _ & Hall). destruct (decide (a = N)) as [|Hne]; [done|].
  destruct (lookup_lt_is_Some_2 es a) as [e He]; [lia|].
  pose proof (Hall a e ltac:(lia) He). pose proof (wf_hts _ _ Hwf _ _ He). lia.
Qed.

(** ** Sequences sorted by (score, member) *)
Definition zsorted (es : list ent) : Prop :=
  StronglySorted (λ a b, zlt (e_key a) (e_key b) = true) es.

Lemma zsorted_lookup es p q e f :
  zsorted es → (p < q)%nat → es !! p = Some e → es !! q = Some f → zlt (e_key e) (e_key f) = true.
Proof.
  intros Hs. revert p q. induction Hs as [|x es Hs IH Hx]; intros p q Hpq He Hf; [done|].
  destruct q as [|q]; [lia|]. destruct p as [|p]; simpl in *.
  - simplify_eq. rewrite Forall_lookup in Hx. by apply (Hx q).
  - apply (IH p q); [lia|done|done].
Qed.

(** a property that holds on an initial segment *)
Lemma split_point (P : ent → bool) es :
  (∀ p q e f, (p < q)%nat → es !! p = Some e → es !! q = Some f → P f = true → P e = true) →
  ∃ N, (N ≤ length es)%nat ∧ ∀ p e, es !! p = Some e → P e = bool_decide (p < N)%nat.
Proof.
  induction es as [|x es IH]; intros Hmono.
  - exists 0%nat. split; [done|]. intros p e H. done.
  - destruct IH as (N & HN & HP).
    { intros p q e f Hpq He Hf. apply (Hmono (S p) (S q)); [lia|done|done]. }
    destruct (P x) eqn:Ex.
    + exists (S N). split; [simpl; lia|]. intros [|p] e He; simpl in *.
      * simplify_eq. by rewrite Ex.
      * rewrite (HP _ _ He). apply bool_decide_ext. lia.
    + exists 0%nat. split; [lia|]. intros p e He. rewrite bool_decide_eq_false_2 by lia.
      destruct p as [|p]; simpl in *; [congruence|].
      destruct (P e) eqn:Ee; [|done]. rewrite (Hmono 0%nat (S p) x e) in Ex; [done|lia|done|done|done].
Qed.

Lemma key_split es k :
  zsorted es →
  ∃ N, (N ≤ length es)%nat ∧ ∀ p e, es !! p = Some e → zlt (e_key e) k = bool_decide (p < N)%nat.
Proof.
  intros Hs. apply (split_point (λ e, zlt (e_key e) k)). intros p q e f Hpq He Hf Hk.
  eapply zlt_trans; [|exact Hk]. by eapply zsorted_lookup.
Qed.

Lemma key_lt_info es p e sc v z : key_lt sc v (info_of es p e) z = zlt (e_key e) (sc, v).
Proof. done. Qed.

(** ** The descents *)
Definition arr_ok (lvl : nat) (es : list ent) (N : nat) (i : nat) (update : list (option loc)) : Prop :=
  ∃ a, upos lvl es N i a ∧ update !! i = Some (Some (nid es a)).

Lemma insert_search_ok s es sc v N n a rank update :
  wf s es → (sl_level s < max_level)%nat → (N ≤ length es)%nat →
  (∀ p e, es !! p = Some e → zlt (e_key e) (sc, v) = bool_decide (p < N)%nat) →
  (n ≤ sl_level s)%nat → (a ≤ N)%nat →
  length rank = max_level → length update = max_level →
  (n = sl_level s → a = 0%nat) →
  ((n < sl_level s)%nat → rank !! n = Some (Z.of_nat a) ∧ lvl_ok (sl_level s) es a n) →
  ∃ rank' update',
    insert_search n s sc v (nid es a) rank update = Ret (rank', update') ∧
    length rank' = max_level ∧ length update' = max_level ∧
    (∀ i, (i < n)%nat → ∃ a', upos (sl_level s) es N i a' ∧
        rank' !! i = Some (Z.of_nat a') ∧ update' !! i = Some (Some (nid es a'))) ∧
    (∀ i, (n ≤ i)%nat → rank' !! i = rank !! i ∧ update' !! i = update !! i).
Proof.
  intros Hwf Hlt HN Hsplit. revert a rank update.
  induction n as [|i IH]; intros a rank update Hn Ha Hlr Hlu Htop Hbelow.
  - exists rank, update. split; [done|]. split; [done|]. split; [done|]. split; [lia|done].
  - cbn [insert_search].
    destruct (lookup_lt_is_Some_2 rank (S i)) as [rk Hrk]; [rewrite Hlr; lia|].
    rewrite Hrk. cbn [deref obind].
    assert (Hr0 : (if Nat.eqb i (sl_level s - 1) then 0 else rk) = 0 + Z.of_nat a).
    { destruct (Nat.eqb_spec i (sl_level s - 1)).
      - rewrite Htop by lia. done.
      - destruct Hbelow as [Hb _]; [lia|]. simplify_eq. lia. }
    rewrite Hr0.
    assert (Hlv : lvl_ok (sl_level s) es a i).
    { destruct (decide (S i = sl_level s)) as [E|E].
      - rewrite Htop by done. simpl. lia.
      - destruct Hbelow as [_ Hb]; [lia|]. by apply (lvl_ok_mono _ _ _ (S i)); [lia|]. }
    destruct (walk_nobrk s es (key_lt sc v) i N 0 a) as (a' & Ew & Haa & Hup); try done.
    rewrite Ew. cbn [obind].
    destruct (IH a' (<[i:=0 + Z.of_nat a']> rank) (<[i:=Some (nid es a')]> update))
      as (rank' & update' & E & Hlr' & Hlu' & Hlow & Hhigh).
    + lia.
    + apply Hup.
    + by rewrite insert_length.
    + by rewrite insert_length.
    + lia.
    + intros _. rewrite list_lookup_insert by lia. split; [done|]. apply Hup.
    + exists rank', update'. split; [done|]. split; [done|]. split; [done|]. split.
      * intros j Hj. destruct (decide (j = i)) as [->|Hne].
        -- exists a'. split; [done|]. destruct (Hhigh i) as [-> ->]; [lia|].
           rewrite !list_lookup_insert by lia. done.
        -- apply Hlow. lia.
      * intros j Hj. destruct (Hhigh j) as [-> ->]; [lia|].
        rewrite !list_lookup_insert_ne by lia. done.
Qed.

Lemma update_search_ok s es sc v N n a update :
  wf s es → (N ≤ length es)%nat →
  (∀ p e, es !! p = Some e → zlt (e_key e) (sc, v) = bool_decide (p < N)%nat) →
  (n ≤ sl_level s)%nat → (a ≤ N)%nat → length update = max_level →
  (n = sl_level s → a = 0%nat) →
  ((n < sl_level s)%nat → upos (sl_level s) es N n a) →
  ∃ a' update',
    update_search n s sc v (nid es a) update = Ret (nid es a', update') ∧
    length update' = max_level ∧
    ((0 < n)%nat → upos (sl_level s) es N 0 a') ∧ (n = 0%nat → a' = a) ∧
    (∀ i, (i < n)%nat → arr_ok (sl_level s) es N i update') ∧
    (∀ i, (n ≤ i)%nat → update' !! i = update !! i).
Proof.
  intros Hwf HN Hsplit. revert a update.
  induction n as [|i IH]; intros a update Hn Ha Hlu Htop Hbelow.
  - exists a, update. split; [done|]. split; [done|]. split; [lia|]. split; [done|]. split; [lia|done].
  - cbn [update_search].
    assert (Hlv : lvl_ok (sl_level s) es a i).
    { destruct (decide (S i = sl_level s)) as [E|E].
      - rewrite Htop by done. simpl. lia.
      - destruct Hbelow as (_ & Hb & _); [lia|]. by apply (lvl_ok_mono _ _ _ (S i)); [lia|]. }
    destruct (walk_nobrk s es (key_lt sc v) i N (- Z.of_nat a) a) as (a' & Ew & Haa & Hup); try done.
    replace (- Z.of_nat a + Z.of_nat a) with 0 in Ew by lia. rewrite Ew. cbn [obind].
    pose proof (wf_level _ _ Hwf) as Hlev.
    destruct (IH a' (<[i:=Some (nid es a')]> update))
      as (a'' & update' & E & Hlu' & Hz & Hz0 & Hlow & Hhigh).
    + lia.
    + apply Hup.
    + by rewrite insert_length.
    + lia.
    + done.
    + exists a'', update'. split; [done|]. split; [done|]. split; [|split; [done|split]].
      * intros _. destruct i as [|i]; [rewrite Hz0; done|]. apply Hz. lia.
      * intros j Hj. destruct (decide (j = i)) as [->|Hne].
        -- exists a'. split; [done|]. rewrite (Hhigh i) by lia.
           rewrite list_lookup_insert by lia. done.
        -- apply Hlow. lia.
      * intros j Hj. rewrite (Hhigh j) by lia. by rewrite list_lookup_insert_ne by lia.
Qed.

(** the one-step descent of delete agrees with the full descent when at most one element
    precedes the target *)
Lemma delete_search_eq s es sc v N n a update :
  wf s es → (N ≤ length es)%nat → (N ≤ 1)%nat →
  (∀ p e, es !! p = Some e → zlt (e_key e) (sc, v) = bool_decide (p < N)%nat) →
  (n ≤ sl_level s)%nat → (a ≤ N)%nat →
  (n = sl_level s → a = 0%nat) →
  ((n < sl_level s)%nat → upos (sl_level s) es N n a) →
  delete_search n s sc v (nid es a) update = update_search n s sc v (nid es a) update.
Proof.
  intros Hwf HN HN1 Hsplit. revert a update.
  induction n as [|i IH]; intros a update Hn Ha Htop Hbelow; [done|].
  cbn [update_search delete_search].
  assert (Hlv : lvl_ok (sl_level s) es a i).
  { destruct (decide (S i = sl_level s)) as [E|E].
    - rewrite Htop by done. simpl. lia.
    - destruct Hbelow as (_ & Hb & _); [lia|]. by apply (lvl_ok_mono _ _ _ (S i)); [lia|]. }
  destruct (walk_nobrk s es (key_lt sc v) i N (- Z.of_nat a) a) as (a' & Ew & Haa & Hup); try done.
  replace (- Z.of_nat a + Z.of_nat a) with 0 in Ew by lia. rewrite Ew. cbn [obind].
  assert (Hstep : (let* (fwd, _) := lk (nid es a) i s in
            let* x' := match fwd with
                       | None => Ret (nid es a)
                       | Some y => let* nd := zn y s in Ret (if key_lt sc v nd 0 then y else nid es a)
                       end in Ret x') = Ret (nid es a')).
  { unfold lk. rewrite (wf_links _ _ Hwf _ _ Hlv). cbn [deref obind].
    destruct (hop_cases i (drop a es)) as [Hall|(A & e & B & E & HA & He)].
    - rewrite hop_none by done. cbn [obind]. f_equal. f_equal.
      destruct (decide (a' = a)) as [->|Hne]; [done|].
      destruct Hup as (Hup1 & Hup2 & Hup3). destruct a' as [|q]; [lia|].
      destruct Hup2 as (e & He & Hie). rewrite Forall_lookup in Hall.
      specialize (Hall (q - a)%nat e). simpl in Hall. rewrite lookup_drop in Hall.
      replace (a + (q - a))%nat with q in Hall by lia. pose proof (Hall He). lia.
    - rewrite E. rewrite hop_hit by done. destruct (drop_split _ _ _ _ _ E) as (Hq & Hd & Hin).
      unfold zn. rewrite (wf_nodes _ _ Hwf _ _ Hq). cbn [deref obind]. f_equal.
      change (key_lt sc v _ 0) with (zlt (e_key e) (sc, v)). rewrite (Hsplit _ _ Hq).
      destruct Hup as (Hup1 & Hup2 & Hup3).
      case_bool_decide as Hc.
      + rewrite <- (nid_S _ _ _ Hq). f_equal. 
        destruct (decide (a' ≤ a + length A)%nat) as [Hle|]; [|lia].
        pose proof (Hup3 (a + length A)%nat e ltac:(lia) Hq). lia.
      + f_equal. destruct (decide (a' = a)) as [->|Hne]; [done|].
        destruct a' as [|q]; [lia|]. destruct Hup2 as (f & Hf & Hif).
        assert (q < a + length A)%nat by lia.
        pose proof (Hin q f ltac:(lia) Hf) as HfA. rewrite Forall_forall in HA. specialize (HA _ HfA). simpl in HA. lia. }
  destruct (lk (nid es a) i s) as [[fwd sp]| |]; simpl in Hstep |- *; try done.
  match goal with |- (let* x' := ?e in _) = _ => destruct e as [x'| |]; simpl in Hstep |- *; try done end.
  simplify_eq. apply IH; try done; [lia|apply Hup|lia].
Qed.
