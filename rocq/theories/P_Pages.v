(** C92: reading a list or a sorted set page by page. *)
From Verif Require Import GoBase GoBaseProofs ShardMap Float64 Float64Proofs Db Protocol Redis Obs SkipList
  SpecList SpecZSet SpecCmd SpecResp SpecServer SpecFrame SpecKey KeyHist DbInv ExecSteps Sim SimZSet SimMain PropBase KeyIs Examples P_Lists P_Sets P_ZSets
  SpecCommute SpecUse SpecPages P_Server SpecWire SpecStream Stream Server SpecServing ServerProofs P_Serve Server1 SpecServing1 Drive1 P_Serve1 Drive P_ServeMore P_Use P_Use4 P_Use5 P_Use6.

Lemma window_page {A} (i p : nat) (xs : list A) : (0 < p)%nat → window (Z.of_nat (i * p)) (Z.of_nat (i * p + p - 1)) xs = take p (drop (i * p) xs).
Proof.
  intros Hp. unfold window, norm_index. rewrite !(proj2 (Z.ltb_ge _ _)) by lia.
  destruct (decide (i * p < length xs)%nat).
  - replace (Z.to_nat (Z.min (Z.max 0 (Z.of_nat (i * p))) (Z.of_nat (length xs)))) with (i * p)%nat by lia.
    destruct (decide (i * p + p ≤ length xs)%nat).
    + f_equal. lia.
    + rewrite !take_ge; rewrite ?drop_length; try lia. done.
  - rewrite !drop_ge by lia. by rewrite !take_nil.
Qed.
Definition pages_of {A} (p n : nat) (xs : list A) : list (list A) := (λ i, take p (drop (i * p) xs)) <$> seq 0 n.
Lemma pages_join {A} p n : ∀ xs : list A, (length xs ≤ n * p)%nat → concat (pages_of p n xs) = xs.
Proof.
  induction n as [|n IH]; intros xs L; [destruct xs; [done|simpl in L; lia]|].
  unfold pages_of. cbn [seq fmap list_fmap concat]. rewrite Nat.mul_0_l, drop_0.
  transitivity (take p xs ++ drop p xs); [|apply take_drop]. f_equal. transitivity (concat (pages_of p n (drop p xs))); [|apply IH; rewrite drop_length; lia].
  unfold pages_of. f_equal. rewrite <- fmap_S_seq, <- list_fmap_compose. apply list_fmap_ext. intros ? x _. cbn. by rewrite drop_drop.
Qed.
Lemma pages_lookup {A} p n (xs : list A) i x : pages_of p n xs !! i = Some x → (i < n)%nat ∧ x = take p (drop (i * p) xs).
Proof. unfold pages_of. rewrite list_lookup_fmap. intros H. destruct (seq 0 n !! i) eqn:E; [|done]. apply lookup_seq in E as [-> ?]. injection H as <-. done. Qed.
Lemma page_bounds (p n i : nat) : (0 < p)%nat → Z.of_nat (n * p) ≤ two63 → (i < n)%nat →
  parse_int (first_of p i) = Some (Z.of_nat (i * p)) ∧ parse_int (last_of p i) = Some (Z.of_nat (i * p + p - 1)).
Proof.
  intros Hp B L. assert (S i * p ≤ n * p)%nat by (apply Nat.mul_le_mono_r; lia). split; apply parse_int_itoa; unfold two63 in *; nia.
Qed.
(** A list read in pages is the whole list: nothing is skipped, nothing read twice. *)
Theorem C92_list ext d k s (p n : nat) : list_is ext d k s → (0 < p)%nat → (length (elems s) ≤ n * p)%nat → Z.of_nat (n * p) ≤ two63 →
  ∃ pages, length pages = n ∧ concat pages = elems s ∧
    ∀ i page, pages !! i = Some page → (length page ≤ p)%nat ∧ answers ext d ["LRANGE"; k; first_of p i; last_of p i] (bulks page).
Proof.
  intros K Hp L B. exists (pages_of p n (elems s)). split; [unfold pages_of; by rewrite fmap_length, seq_length|]. split; [by apply pages_join|].
  intros i page Hi. apply pages_lookup in Hi as [Hi ->]. split; [rewrite take_length; lia|].
  destruct (page_bounds p n i Hp B Hi) as [E1 E2]. rewrite <- window_page by done.
  eapply (list_answers ext d k s "LRANGE"); [done..|by apply about_first|]. row. unfold int_arg. by rewrite E1, E2.
Qed.
(** The same for a sorted set that is not empty. *)
Theorem C92_zset ext d k s (p n : nat) : zset_is ext d k s → pairs s ≠ [] → zlen (pairs s) < two63 - 2 → (0 < p)%nat → (length (pairs s) ≤ n * p)%nat → Z.of_nat (n * p) ≤ two63 →
  ∃ pages, length pages = n ∧ concat pages = pairs s ∧
    ∀ i page, pages !! i = Some page → (length page ≤ p)%nat ∧ answers ext d ["ZRANGE"; k; first_of p i; last_of p i] (bulks page.*2).
Proof.
  intros K Ne Hf Hp L B. exists (pages_of p n (pairs s)). split; [unfold pages_of; by rewrite fmap_length, seq_length|]. split; [by apply pages_join|].
  intros i page Hi. apply pages_lookup in Hi as [Hi ->]. split; [rewrite take_length; lia|].
  destruct (page_bounds p n i Hp B Hi) as [E1 E2]. rewrite <- window_page by done.
  eapply (zset_answers ext d k s "ZRANGE"); [done..|by apply about_first|]. zrow. assert ((two63 - 2 <=? zlen (pairs s)) = false) as -> by lia.
  unfold int_arg. rewrite E1, E2. by destruct (pairs s).
Qed.
(** The same while others talk to the server: the pages may be read at different moments, in any order, by different
    clients, as long as nothing changes the key in between. *)
Section talking.
Context (ext : Ext) (k : string) (s : list_value).
Notation quiet_request := (quiet_request k).
Notation page_read := (page_read k).
Definition is_page (req : list string) (r : option resp) : Prop :=
  ∀ a b i j, req = ["LRANGE"; k; a; b] → parse_int a = Some i → parse_int b = Some j → r = Some (bulks (window i j (elems s))).
Lemma quiet_step (m : kspace) (l : list exchange) (c : choices) req r m1 : quiet_request req = true → list_corr s (m !! k) → sstep ext true m req r m1 → list_corr s (m1 !! k) ∧ is_page req r.
Proof.
  intros Hq I St. unfold quiet_request in Hq. destruct (asks_for "lrange" k req) eqn:Ea.
  - assert (asks_for_any ["lrange"] k req = true) as Ea' by (unfold asks_for_any; cbn [existsb]; by rewrite Ea).
    apply asks_for_any_spec in Ea' as (n & a & -> & Hn). pose proof (sstep_calm _ _ _ _ _ _ St (not_drawing n (k :: a) _ Hn eq_refl)) as V. clear St.
    apply elem_of_list_singleton in Hn. cbn [spec] in V. rewrite Hn in V. unfold list_corr in I.
    destruct a as [|s1 [|s2 a]]; [destruct V as [-> ->]; split; [done|by intros ? ? ? ? [=]]..|].
    cbn -[parse_int window bulks] in V. destruct (parse_int s1) as [i|] eqn:E1; [|destruct V as [-> ->]; split; [done|intros a1 b1 i1 j1 Q X Y; injection Q as; subst; congruence]].
    destruct (parse_int s2) as [j|] eqn:E2; [|destruct V as [-> ->]; split; [done|intros a1 b1 i1 j1 Q X Y; injection Q as; subst; congruence]].
    rewrite I in V. unfold is_page. destruct s as [[xs w]|]; cbn [fmap option_fmap option_map elems fst] in *.
    + destruct V as [-> ->]. split; [done|]. intros a1 b1 i1 j1 Q X Y. injection Q as; subst. assert (i1 = i) as -> by congruence. assert (j1 = j) as -> by congruence. done.
    + destruct V as [-> ->]. split; [done|]. intros a1 b1 i1 j1 _ _ _. unfold window. rewrite drop_nil, take_nil. done.
  - cbn [orb] in Hq. apply negb_true_iff, bool_decide_eq_false in Hq. split; [by erewrite sstep_other|].
    intros a b i j -> _ _. unfold asks_for in Ea. rewrite (String.eqb_refl k) in Ea. by vm_compute in Ea.
Qed.
Theorem C92_conversation (p n : nat) d0 l d pages : list_is ext d0 k s → (0 < p)%nat → (length (elems s) ≤ n * p)%nat → Z.of_nat (n * p) ≤ two63 →
  Forall (λ req, quiet_request req = true) (asked_in l) → talk ext l.*1 d0 = Ret (d, l.*2) →
  length pages = n → (∀ i page, pages !! i = Some page → ∃ c, (c, ["LRANGE"; k; first_of p i; last_of p i], Some (bulks page)) ∈ l) →
  concat pages = elems s.
Proof.
  intros K Hp L B F H Ln Hps. destruct (key_is_corr ext false list_step k list_corr (list_ok ext k true) list_determined list_corr0 s d0 K) as (m & S & C).
  destruct (along_talk ext _ (λ m _, list_corr s (m !! k)) (λ _, is_page) quiet_step l [] d0 m d S C F H) as (_ & _ & _ & A).
  assert (pages = pages_of p n (elems s)) as ->; [|by apply pages_join].
  apply list_eq. intros i. destruct (pages !! i) as [page|] eqn:Ei.
  - pose proof (lookup_lt_Some _ _ _ Ei) as Li. destruct (Hps i page Ei) as [c Hc]. apply elem_of_list_lookup in Hc as [j Hj].
    destruct (page_bounds p n i Hp B ltac:(lia)) as [E1 E2]. pose proof (A _ _ Hj _ _ _ _ eq_refl E1 E2) as E. cbn [snd] in E. rewrite window_page in E by done.
    apply (inj Some), bulks_inj in E. subst page.
    unfold pages_of. rewrite list_lookup_fmap, lookup_seq_lt by lia. done.
  - symmetry. apply lookup_ge_None_2. unfold pages_of. rewrite fmap_length, seq_length. apply lookup_ge_None_1 in Ei. lia.
Qed.
(** Clients of a running server: [h1] made the list, [h2] came after. *)
Lemma deadline_not_bulks l : ¬ is_reply deadline_bytes (bulks l).
Proof. intros H. specialize (H ""). by vm_compute in H. Qed.
Lemma service_pages1 (p n : nat) h1 h2 got d d1 rs1 pages : service ext (h1 ++ h2) got d → talk ext (as_history h1) db_new = Ret (d1, rs1) → list_is ext d1 k s →
  Forall (λ y, quiet_request (what y) = true) h2 → (0 < p)%nat → (length (elems s) ≤ n * p)%nat → Z.of_nat (n * p) ≤ two63 →
  length pages = n → (∀ i page, pages !! i = Some page → page_read h2 got p i page) → concat pages = elems s.
Proof.
  intros (rs & T & L & N & W) T1 K F Hp Ln B Lp Hps.
  apply spoken_talk in T. set (r1 := take (length h1) rs). set (r2 := drop (length h1) rs). rewrite app_length in L.
  assert (length r1 = length h1) as L1 by (unfold r1; rewrite take_length; lia). assert (length r2 = length h2) as L2 by (unfold r2; rewrite drop_length; lia).
  assert (rs = r1 ++ r2) as Ers by (by rewrite <- (take_drop (length h1) rs)).
  assert (spoken (h1 ++ h2) rs = spoken h1 r1 ++ spoken h2 r2) as E.
  { rewrite Ers. unfold spoken, as_history. rewrite fmap_app. apply zip_with_app. by rewrite fmap_length. }
  rewrite E in T. apply talk_prefix in T as (d1' & Ta & Tb). rewrite spoken_1 in Ta by done. rewrite T1 in Ta. injection Ta as <- _.
  apply (C92_conversation p n d1 (spoken h2 r2) d pages K Hp Ln B); [rewrite spoken_asked by done; by apply Forall_fmap|done|done|].
  intros i page Hi. destruct (Hps i page Hi) as (x & b & Hx & Ex & Gx & Rx). exists (how x).
  destruct (W x b _ (proj2 (elem_of_app _ _ _) (or_intror Hx)) Gx Rx) as [->|(j & Hj & Sj)]; [by destruct (deadline_not_bulks page)|].
  rewrite Ex in Sj. rewrite E in Sj. apply elem_of_list_lookup in Hx as [j2 Hj2].
  assert (j = (length h1 + j2)%nat) as ->.
  { eapply (NoDup_lookup (who <$> h1 ++ h2)); [exact N|by rewrite list_lookup_fmap, Hj|]. by rewrite list_lookup_fmap, lookup_app_r, Nat.add_comm, Nat.add_sub, Hj2 by lia. }
  rewrite lookup_app_r in Sj; [by eapply elem_of_list_lookup_2|]. unfold spoken, as_history. rewrite zip_with_length, fmap_length. lia.
Qed.
Theorem C92_clients max ps tr sv (p n : nat) h1 h2 d1 rs1 pages : runs ext max ps tr sv → calls tr = h1 ++ h2 → talk ext (as_history h1) db_new = Ret (d1, rs1) → list_is ext d1 k s →
  Forall (λ y, quiet_request (what y) = true) h2 → (0 < p)%nat → (length (elems s) ≤ n * p)%nat → Z.of_nat (n * p) ≤ two63 →
  length pages = n → (∀ i page, pages !! i = Some page → page_read h2 (λ x b, ∃ c, LWrite (who x) c b ∈ tr) p i page) → concat pages = elems s.
Proof. intros R E. pose proof (service2 _ _ _ _ _ R) as Sv. rewrite E in Sv. exact (service_pages1 _ _ _ _ _ _ _ _ _ Sv). Qed.
Theorem C92_clients1 max tr sv (p n : nat) h1 h2 d1 rs1 pages : runs1 ext max tr sv → calls1 tr = h1 ++ h2 → talk ext (as_history h1) db_new = Ret (d1, rs1) → list_is ext d1 k s →
  Forall (λ y, quiet_request (what y) = true) h2 → (0 < p)%nat → (length (elems s) ≤ n * p)%nat → Z.of_nat (n * p) ≤ two63 →
  length pages = n → (∀ i page, pages !! i = Some page → page_read h2 (λ x b, ∃ j m, written j tr !! m = Some (who x, b)) p i page) → concat pages = elems s.
Proof. intros R E. pose proof (service1 _ _ _ _ R) as Sv. rewrite E in Sv. exact (service_pages1 _ _ _ _ _ _ _ _ _ Sv). Qed.
End talking.
(** A page past the end is empty, for a list; a client stops at the first page that is not full. *)
Theorem C92_past_the_end ext d k s (p i : nat) : list_is ext d k s → (0 < p)%nat → (length (elems s) ≤ i * p)%nat → Z.of_nat (S i * p) ≤ two63 →
  answers ext d ["LRANGE"; k; first_of p i; last_of p i] (bulks []).
Proof.
  intros K Hp L B. destruct (C92_list ext d k s p (S i) K Hp) as (pages & Lp & _ & H); [lia|done|].
  destruct (lookup_lt_is_Some_2 pages i) as [page Hi]; [lia|]. destruct (page_bounds p (S i) i Hp B) as [E1 E2]; [lia|].
  replace (@nil string) with (window (Z.of_nat (i * p)) (Z.of_nat (i * p + p - 1)) (elems s)).
  - eapply (list_answers ext d k s "LRANGE"); [done..|by apply about_first|]. row. unfold int_arg. by rewrite E1, E2.
  - rewrite window_page by done. rewrite drop_ge by done. apply take_nil.
Qed.
(** ZREVRANGE cannot be read in pages: every page is taken from the low end and then turned round. *)
Theorem C92_zrevrange_refuted : replies (zmake ++ [["ZREVRANGE"; "k"; "0"; "-1"]; ["ZREVRANGE"; "k"; first_of 2 0; last_of 2 0]; ["ZREVRANGE"; "k"; first_of 2 1; last_of 2 1]]) =
  Some [Some (RInt 4); Some (bulks ["c"; "bb"; "b"; "a"]); Some (bulks ["b"; "a"]); Some (bulks ["c"; "bb"])].
Proof. by vm_compute. Qed.
Example C92_demo : list_is ext0 (after [["RPUSH"; "k"; "a"; "b"; "c"; "d"; "e"]]) "k" (Some (["a"; "b"; "c"; "d"; "e"], Sound)) ∧
  (first_of 2 <$> seq 0 4) = ["0"; "2"; "4"; "6"] ∧ (last_of 2 <$> seq 0 4) = ["1"; "3"; "5"; "7"] ∧
  replies ([["RPUSH"; "k"; "a"; "b"; "c"; "d"; "e"]] ++ ((λ i, ["LRANGE"; "k"; first_of 2 i; last_of 2 i]) <$> seq 0 4)) =
    Some [Some (RInt 5); Some (bulks ["a"; "b"]); Some (bulks ["c"; "d"]); Some (bulks ["e"]); Some (bulks [])].
Proof. split_and!; [apply list_is_rpush|by vm_compute..]. Qed.
Example C92_zset_demo : zset_is ext0 (after zmake) "k" (Some (zpairs, ∅)) ∧
  replies (zmake ++ ((λ i, ["ZRANGE"; "k"; first_of 3 i; last_of 3 i]) <$> seq 0 3)) =
    Some [Some (RInt 4); Some (bulks ["a"; "b"; "bb"]); Some (bulks ["c"]); Some (bulks [])].
Proof. split_and!; [apply zset_is_zadd|by vm_compute..]. Qed.
