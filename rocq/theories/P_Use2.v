(** C82: keys written by one MSET are read together.  C83: a list as a stack. *)
From Verif Require Import GoBase GoBaseProofs ShardMap Float64 Db Protocol Redis Obs SpecCmd SpecResp SpecServer SpecKey KeyHist
  DbInv ExecSteps Sim SimMain PropBase KeyIs Examples P_Strings P_Lists P_Sets P_Life
  SpecCommute SpecUse P_Server SpecWire SpecStream Stream Server SpecServing ServerProofs P_Serve Server1 SpecServing1 Drive1 P_Serve1 Drive P_ServeMore P_Use.

Lemma ask_case ext c n n' a d : to_lower n = to_lower n' → ask ext c (n :: a) d = ask ext c (n' :: a) d.
Proof. intros E. unfold ask, exec. by rewrite E. Qed.
Lemma in_pairs_flat a : ∀ p, in_pairs a = Some p → a = flat p.
Proof.
  assert (∀ n a p, (length a ≤ n)%nat → in_pairs a = Some p → a = flat p) as G; [|intros p; by apply (G (length a))].
  clear. induction n as [|n IH]; intros [|k [|v a]] p L H; cbn in L; try lia; try done; try by (injection H as <-).
  cbn [in_pairs] in H. destruct (in_pairs a) as [q|] eqn:E; [|done]. injection H as <-. cbn [flat]. f_equal. f_equal. apply IH; [lia|done].
Qed.
Lemma given_last k p : given k p = last_value k p.
Proof.
  unfold given. induction p as [|[k' v] p IH]; [done|]. cbn [last_value]. rewrite filter_cons. cbn [fst]. rewrite <- IH.
  destruct (String.eqb_spec k' k) as [->|N].
  - rewrite decide_True by done. destruct (filter (λ x, x.1 = k) p) as [|x q] eqn:E; [done|]. cbn [last]. destruct (last (x :: q)) eqn:El; [done|]. by apply last_None in El.
  - rewrite decide_False by done. by destruct (last _).
Qed.
Lemma given_some k p : k ∈ p.*1 → is_Some (given k p).
Proof.
  intros H. unfold given. destruct (last (filter (λ x, x.1 = k) p)) eqn:E; [by eexists|]. apply last_None in E. exfalso.
  apply elem_of_list_fmap in H as ([k' v] & -> & H). assert ((k', v) ∈ filter (λ x : string * string, x.1 = k') p) as Hin by (by apply elem_of_list_filter).
  cbn [fst] in E. rewrite E in Hin. by apply elem_of_nil in Hin.
Qed.
Lemma sets_all_spec ks req p : sets_all ks req = Some p → ∃ n, req = n :: flat p ∧ to_lower n = "mset" ∧ ∀ k, k ∈ ks → is_Some (given k p).
Proof.
  unfold sets_all. destruct req as [|n a]; [done|]. destruct (String.eqb_spec (to_lower n) "mset"); [|done]. destruct (in_pairs a) as [q|] eqn:E; [|done].
  cbn. destruct (forallb _ ks) eqn:F; [|done]. intros [= ->]. exists n. split; [f_equal; by apply in_pairs_flat|]. split; [done|]. intros k Hk.
  rewrite forallb_forall in F. apply elem_of_list_In in Hk. apply F, bool_decide_eq_true in Hk. by apply given_some.
Qed.

Section use.
Context (ext : Ext).

(** ** C82 *)
(** what the keys hold after the exchanges *)
Definition version (ks : list string) (v : string → option string) (l : list exchange) : string → option string :=
  foldl (λ v (x : exchange), match sets_all ks x.1.2 with Some p => λ k, given k p | None => v end) v l.
Lemma string_frame c d req d' r k s : dbinv d → string_at ext d k s → ask ext c req d = Ret (d', r) → k ∉ writes req → string_at ext d' k s.
Proof.
  intros I Hs H Hk. apply string_at_coarse in Hs; [|done]. rewrite coarse_at in Hs by done.
  assert (sm_get (db_keys d') k = sm_get (db_keys d) k) as E2.
  { eapply dsteps_get; [by eapply ask_steps|done|done]. }
  assert (dbinv d') as I' by (by eapply ask_inv).
  eapply (string_at_sim ext d' (coarse d') k s); [by apply coarse_sim|]. rewrite coarse_at, E2 by done. exact Hs.
Qed.
Lemma together_talk ks s0 d0 l : ∀ d, reachable ext d0 → (∀ k, k ∈ ks → string_at ext d0 k (s0 k)) → Forall (λ req, together_request ks req = true) (requests l) →
  talk ext l.*1 d0 = Ret (d, l.*2) → reachable ext d ∧ ∀ k, k ∈ ks → string_at ext d k (version ks s0 l k).
Proof.
  induction l as [|x l IH] using rev_ind; intros d Hr H0 F H; [by injection H as <-|].
  apply talk_prefix in H as (d1 & H1 & H2). rewrite requests_app in F. apply Forall_app in F as [F Fx]. apply Forall_cons in Fx as [Fx _].
  destruct (IH d1 Hr H0 F H1) as [R1 S1]. destruct x as [[c req] r]. cbn [fst snd] in *. unfold version. rewrite foldl_app. cbn [foldl fst snd].
  cbn [fmap list_fmap fst snd talk] in H2. apply obind_ret in H2 as ([d2 r2] & Ea & H2). injection H2 as -> ->.
  assert (reachable ext d) as R2.
  { destruct R1 as (h0 & rs0 & T0). exists (h0 ++ [(c, req)]), (rs0 ++ [r]). rewrite talk_app, T0. cbn [obind talk]. by rewrite Ea. }
  split; [done|]. intros k Hk. destruct (sets_all ks req) as [p|] eqn:E.
  - apply sets_all_spec in E as (n & -> & Hn & Hp). rewrite (ask_case ext c n "MSET") in Ea by done.
    destruct (C19_mset ext d1 p R1 c) as (d3 & Ea' & Hm). rewrite Ea in Ea'. injection Ea' as <- _. specialize (Hm k). rewrite <- given_last in Hm.
    destruct (Hp k Hk) as [v Ev]. by rewrite Ev in *.
  - unfold together_request in Fx. rewrite E, orb_false_r in Fx. unfold sets_none in Fx. rewrite forallb_forall in Fx. pose proof (proj1 (elem_of_list_In _ _) Hk) as Hi.
    apply Fx, negb_true_iff, bool_decide_eq_false in Hi. apply (string_frame c d1 req d r); [by eapply reachable_inv|by apply S1|done|done].
Qed.
(** the version is the one that the last MSET wrote *)
Lemma version_last ks s0 l : (version ks s0 l = s0 ∧ ∀ x, x ∈ l → sets_all ks x.1.2 = None) ∨
  ∃ j y p, l !! j = Some y ∧ sets_all ks y.1.2 = Some p ∧ version ks s0 l = (λ k, given k p) ∧
    ∀ m z, (j < m)%nat → l !! m = Some z → sets_all ks z.1.2 = None.
Proof.
  induction l as [|x l IH] using rev_ind; [left; split; [done|]; intros x Hx; by apply elem_of_nil in Hx|].
  unfold version in *. rewrite foldl_app. cbn [foldl]. destruct (sets_all ks x.1.2) as [p|] eqn:E.
  - right. exists (length l), x, p. split; [by apply list_lookup_middle|]. split; [done|]. split; [done|]. intros m z Hm Hz.
    apply lookup_lt_Some in Hz. rewrite app_length in Hz. cbn in Hz. lia.
  - destruct IH as [[-> H]|(j & y & p & Hj & Hp & -> & H)].
    + left. split; [done|]. intros y [Hy| ->%elem_of_list_singleton]%elem_of_app; [by apply H|done].
    + right. exists j, y, p. split; [by apply lookup_app_l_Some|]. split; [done|]. split; [done|]. intros m z Hm [Hz|[Hl Hz]]%lookup_app_Some; [by eapply H|].
      apply list_lookup_singleton_Some in Hz as [_ <-]. done.
Qed.
Lemma asks_rows_spec ks req : asks_rows ks req = true → ∃ n a, req = n :: a ∧ to_lower n = "mget" ∧ a ≠ [] ∧ ∀ k, k ∈ a → k ∈ ks.
Proof.
  unfold asks_rows. destruct req as [|n a]; [done|]. intros [[Hn%String.eqb_eq Ha%negb_true_iff%bool_decide_eq_false]%andb_true_iff F]%andb_true_iff.
  exists n, a. split; [done|]. split; [done|]. split; [done|]. intros k Hk. rewrite forallb_forall in F. apply elem_of_list_In in Hk. by apply F, bool_decide_eq_true in Hk.
Qed.
(** A MGET of the keys answers the values of the last MSET before it, all of them, and never some of one and some of another. *)
Theorem C82_together ks s0 d0 l d i x : reachable ext d0 → (∀ k, k ∈ ks → string_at ext d0 k (s0 k)) →
  Forall (λ req, together_request ks req = true) (asked_in l) → talk ext l.*1 d0 = Ret (d, l.*2) →
  l !! i = Some x → asks_rows ks x.1.2 = true →
  (x.2 = Some (row s0 (drop 1 x.1.2)) ∧ ∀ j y, (j < i)%nat → l !! j = Some y → sets_all ks y.1.2 = None) ∨
  ∃ j y p, (j < i)%nat ∧ l !! j = Some y ∧ sets_all ks y.1.2 = Some p ∧ x.2 = Some (row (λ k, given k p) (drop 1 x.1.2)) ∧
    ∀ m z, (j < m < i)%nat → l !! m = Some z → sets_all ks z.1.2 = None.
Proof.
  intros Hr H0 F H Hi Hx. assert (l = take i l ++ x :: drop (S i) l) as El by (by rewrite take_drop_middle).
  pose proof F as F'. rewrite El in H, F'. apply talk_prefix in H as (d1 & H1 & H2). unfold asked_in in F'. rewrite 2!fmap_app in F'. apply Forall_app in F' as [F1 _].
  destruct (together_talk ks s0 d0 (take i l) d1 Hr H0 F1 H1) as [R1 S1].
  apply asks_rows_spec in Hx as (n & a & Ex & Hn & Ha & Hk). destruct x as [[c req] r]. cbn [fst snd] in *. subst req.
  cbn [fmap list_fmap fst snd talk] in H2. apply obind_ret in H2 as ([d2 r2] & Ea & H2). apply obind_ret in H2 as ([d3 rs3] & _ & H2). injection H2 as _ -> _.
  rewrite (ask_case ext c n "MGET") in Ea by done.
  assert (Forall2 (string_at ext d1) a (version ks s0 (take i l) <$> a)) as F2.
  { apply Forall2_fmap_r. clear -Hk S1. induction a as [|k a IH]; constructor; [apply S1, Hk; by left|apply IH; intros; apply Hk; by right]. }
  rewrite (C19_mget ext d1 a _ R1 Ha F2 c) in Ea. injection Ea as _ <-. change (drop 1 (n :: a)) with (drop 0 a). rewrite drop_0.
  assert (∀ v, RArr ((λ s, match s with Some v => RBulk v | None => RNil end) <$> (v <$> a)) = row v a) as Er.
  { intros v. unfold row. rewrite <- list_fmap_compose. done. }
  rewrite Er. destruct (version_last ks s0 (take i l)) as [[-> N]|(j & y & p & Hj & Hp & -> & N)].
  - left. split; [done|]. intros j y Hj Hy. apply N. eapply (elem_of_list_lookup_2 _ j). by rewrite lookup_take.
  - right. pose proof (lookup_lt_Some _ _ _ Hj) as Lj. rewrite take_length in Lj. exists j, y, p. rewrite lookup_take in Hj by lia. split; [lia|]. split; [done|]. split; [done|]. split; [done|].
    intros m z Hm Hz. apply (N m); [lia|]. rewrite lookup_take by lia. done.
Qed.
(** Clients of a running server: what one MGET gets was written by one MSET (or nothing was ever written). *)
Lemma service_rows h got d ks x b v : service ext h got d → (∀ y, y ∈ h → together_request ks (what y) = true) →
  x ∈ h → asks_rows ks (what x) = true → got x b → is_reply b v →
  b = deadline_bytes ∨ v = row (λ _, None) (drop 1 (what x)) ∨ ∃ y p, y ∈ h ∧ sets_all ks (what y) = Some p ∧ v = row (λ k, given k p) (drop 1 (what x)).
Proof.
  intros (rs & T & L & N & Hc) Q Hx Ax Gx Vx. apply spoken_talk in T.
  destruct (Hc x b _ Hx Gx Vx) as [->|(i & Hi & Si)]; [by left|right].
  assert (Forall (λ req, together_request ks req = true) (asked_in (spoken h rs))) as F.
  { rewrite spoken_asked by done. apply Forall_forall. intros req (y & -> & Hy)%elem_of_list_fmap. by apply Q. }
  assert (reachable ext db_new) as Hr by (by exists [], []).
  destruct (C82_together ks (λ _, None) db_new _ _ i _ Hr ltac:(intros; apply db_new_absent) F T Si Ax) as [[E _]|(j & y & p & _ & Hj & Hp & E & _)]; cbn [fst snd] in E; injection E as ->; [by left|right].
  assert (what <$> h = asked_in (spoken h rs)) as Ea by (by rewrite spoken_asked).
  assert ((what <$> h) !! j = Some y.1.2) as Hw.
  { rewrite Ea. unfold asked_in, exchange in *. by rewrite !list_lookup_fmap, Hj. }
  rewrite list_lookup_fmap in Hw. destruct (h !! j) as [z|] eqn:Hz; [|done]. cbn in Hw. injection Hw as Ew. exists z, p. split; [by eapply elem_of_list_lookup_2|]. by rewrite Ew.
Qed.
Theorem C82_clients max ps tr s ks x c b v : runs ext max ps tr s → (∀ y, y ∈ calls tr → together_request ks (what y) = true) →
  x ∈ calls tr → asks_rows ks (what x) = true → LWrite (who x) c b ∈ tr → is_reply b v →
  b = deadline_bytes ∨ v = row (λ _, None) (drop 1 (what x)) ∨ ∃ y p, y ∈ calls tr ∧ sets_all ks (what y) = Some p ∧ v = row (λ k, given k p) (drop 1 (what x)).
Proof. intros R Q Hx Ax W. apply (service_rows _ _ _ ks x b v (service2 _ _ _ _ _ R) Q Hx Ax). by exists c. Qed.
Theorem C82_clients1 max tr s ks x k1 n1 b v : runs1 ext max tr s → (∀ y, y ∈ calls1 tr → together_request ks (what y) = true) →
  x ∈ calls1 tr → asks_rows ks (what x) = true → written k1 tr !! n1 = Some (who x, b) → is_reply b v →
  b = deadline_bytes ∨ v = row (λ _, None) (drop 1 (what x)) ∨ ∃ y p, y ∈ calls1 tr ∧ sets_all ks (what y) = Some p ∧ v = row (λ k, given k p) (drop 1 (what x)).
Proof. intros R Q Hx Ax W. apply (service_rows _ _ _ ks x b v (service1 _ _ _ _ R) Q Hx Ax). by exists k1, n1. Qed.

(** ** C83: the two ends of a list *)
Ltac find_row n E := unfold list_step; erewrite table_row by (rewrite E; reflexivity); cbv beta iota.
Lemma deque_step k req s : deque_request k req = true → about k req = true → lost s = Sound →
  ∃ r s', list_step req s = exactly r s' ∧ lost s' = Sound ∧
    ∀ c l, as_deque k (elems s) ((c, req, Some r) :: l) = as_deque k (elems s') l.
Proof.
  intros Hq Ha Hl. unfold deque_request in Hq. rewrite Ha in Hq. cbn [negb orb] in Hq. apply orb_true_iff in Hq as [[Hq|Hq]%orb_true_iff|Hq].
  - apply andb_true_iff in Hq as [(n & a & -> & Hn)%asks_for_any_spec Hv%negb_true_iff%bool_decide_eq_false]. change (values (n :: k :: a)) with a in Hv.
    destruct a as [|x a]; [done|]. apply elem_of_cons in Hn as [Hn|Hn%elem_of_list_singleton].
    + find_row n Hn. rewrite Hl. eexists _, _. split; [reflexivity|]. split; [done|]. intros c l. cbn [as_deque]. by rewrite asks_for_name, Hn.
    + find_row n Hn. rewrite Hl. eexists _, _. split; [reflexivity|]. split; [done|]. intros c l. cbn [as_deque]. by rewrite !asks_for_name, Hn.
  - apply andb_true_iff in Hq as [(n & a & -> & Hn)%asks_for_any_spec Hv]. change (values (n :: k :: a)) with a in Hv. destruct (pop_number a) as [z|] eqn:Hz; [clear Hv|discriminate Hv].
    assert (wanted (n :: k :: a) = Z.to_nat z) as Hw by (unfold wanted; change (values (n :: k :: a)) with a; by rewrite Hz).
    apply elem_of_cons in Hn as [Hn|Hn%elem_of_list_singleton].
    + assert (∃ r s', list_step (n :: k :: a) s = exactly r s' ∧ lost s' = Sound ∧ texts (Some r) = take (Z.to_nat z) (elems s) ∧ elems s' = drop (Z.to_nat z) (elems s)) as (r & s' & Hs & Hl' & Ht & He).
      { find_row n Hn. rewrite Hz. destruct s as [[[|x xs] w]|]; cbn [elems lost] in *; subst; eexists _, _; (split; [reflexivity|]); rewrite ?take_nil, ?drop_nil; [done|..|done].
        split; [done|]. split; [apply texts_bulks|done]. }
      exists r, s'. split; [exact Hs|]. split; [done|]. intros c l. cbn [as_deque]. rewrite !asks_for_name, Hn. cbn [String.eqb Ascii.eqb Bool.eqb].
      rewrite Hw, bool_decide_eq_true_2 by done. by rewrite He.
    + assert (∃ r s', list_step (n :: k :: a) s = exactly r s' ∧ lost s' = Sound ∧ texts (Some r) = take (Z.to_nat z) (reverse (elems s)) ∧ elems s' = reverse (drop (Z.to_nat z) (reverse (elems s)))) as (r & s' & Hs & Hl' & Ht & He).
      { find_row n Hn. rewrite Hz. destruct s as [[[|x xs] w]|]; cbn [elems lost] in *; subst; eexists _, _; (split; [reflexivity|]); rewrite ?reverse_nil, ?take_nil, ?drop_nil; [done|..|done].
        split; [done|]. split; [apply texts_bulks|done]. }
      exists r, s'. split; [exact Hs|]. split; [done|]. intros c l. cbn [as_deque]. rewrite !asks_for_name, Hn. cbn [String.eqb Ascii.eqb Bool.eqb].
      rewrite Hw, bool_decide_eq_true_2 by done. by rewrite He.
  - apply asks_for_any_spec in Hq as (n & a & -> & Hn).
    assert (∃ r, list_step (n :: k :: a) s = exactly r s) as [r Hr].
    { repeat (apply elem_of_cons in Hn as [Hn|Hn]; [find_row n Hn; eexists; reflexivity|]). by apply elem_of_nil in Hn. }
    exists r, s. split; [exact Hr|]. split; [done|]. intros c l. cbn [as_deque]. rewrite !asks_for_name.
    repeat (apply elem_of_cons in Hn as [->|Hn]; [done|]). by apply elem_of_nil in Hn.
Qed.
Lemma as_deque_other k xs x l : about k x.1.2 = false → as_deque k xs (x :: l) = as_deque k xs l.
Proof.
  intros Ha. destruct x as [[c req] r]. cbn [fst snd as_deque] in *.
  assert (∀ name, (name, false) ∈ [("lpush", false); ("rpush", false); ("lpop", false); ("rpop", false)] → asks_for name k req = false) as G.
  { intros name Hn. apply not_true_is_false. intros H. apply not_true_iff_false in Ha. apply Ha. apply (asked_about name); [done|..];
      repeat (apply elem_of_cons in Hn as [[= ->]|Hn]; [done|]); by apply elem_of_nil in Hn. }
  by rewrite !G by (repeat ((by left) || right); by left).
Qed.
Lemma as_deque_app k l1 l2 : ∀ xs ys, as_deque k xs l1 = Some ys → as_deque k xs (l1 ++ l2) = as_deque k ys l2.
Proof.
  induction l1 as [|[[c req] r] l1 IH]; intros xs ys H; [by injection H as ->|]. cbn [app as_deque] in *.
  repeat case_match; try done; by apply IH.
Qed.
Definition deque_inv (k : string) (pre : list exchange) (s : list_value) : Prop := lost s = Sound ∧ as_deque k [] pre = Some (elems s).
Lemma deque_conversation k l : Forall (λ req, deque_request k req = true) (requests l) →
  within list_step k None (requests l) ∧ ∀ s', consistent list_step k None (requests l) l.*2 s' → deque_inv k l s'.
Proof.
  intros F. apply (conversation list_step k l (deque_inv k)); [|done]. intros pre x post s E [I1 I2]. destruct (about k x.1.2) eqn:Ea.
  - assert (deque_request k x.1.2 = true) as Hq.
    { rewrite E, requests_app in F. apply Forall_app in F as [_ F]. rewrite requests_cons in F. by apply Forall_cons in F as [F _]. }
    destruct (deque_step k x.1.2 s Hq Ea I1) as (r & s' & Hr & Hl & Hd). eexists. split; [exact Hr|]. intros c r' s1 [-> ->]. split; [done|].
    rewrite (as_deque_app k pre _ _ _ I2). apply (Hd c []).
  - split; [done|]. rewrite (as_deque_app k pre _ _ _ I2). by rewrite as_deque_other.
Qed.
(** The list is a sequence with two ends: each pop gets what is at its end then. *)
Theorem C83_deque k d0 l d : reachable ext d0 → answers ext d0 ["EXISTS"; k] (RInt 0) →
  Forall (λ req, deque_request k req = true) (asked_in l) → talk ext l.*1 d0 = Ret (d, l.*2) →
  ∃ xs, as_deque k [] l = Some xs ∧ answers ext d ["LLEN"; k] (RInt (zlen xs)) ∧ answers ext d ["LRANGE"; k; "0"; "-1"] (bulks xs).
Proof.
  intros Hr Ha F H. destruct (deque_conversation k l F) as [W C].
  destruct (C20_sequence ext d0 k None l.*1 d l.*2 (C20_start ext d0 k Hr Ha) H W) as (s & Cs & K).
  destruct (C s Cs) as [_ I]. exists (elems s). split; [done|]. destruct (C20_shown ext d k s K) as (_ & _ & HL & HR). by split.
Qed.
(** so that with pushes and pops at the same end, what is pushed last is popped first *)
Theorem C83_last_first k d0 l d push pop c1 c2 v r1 r2 : (push, pop) ∈ [("LPUSH", "LPOP"); ("RPUSH", "RPOP")] →
  reachable ext d0 → answers ext d0 ["EXISTS"; k] (RInt 0) →
  Forall (λ req, deque_request k req = true) (asked_in l) → let l' := l ++ [(c1, [push; k; v], r1); (c2, [pop; k], r2)] in
  talk ext l'.*1 d0 = Ret (d, l'.*2) → texts r2 = [v].
Proof.
  intros Hp Hr Ha F l' H.
  assert (Forall (λ req, deque_request k req = true) (asked_in (l ++ [(c1, [push; k; v], r1); (c2, [pop; k], r2)]))) as F2.
  { unfold asked_in in *. rewrite !fmap_app. apply Forall_app. split; [done|]. cbn. repeat constructor; unfold deque_request; apply orb_true_iff; left.
    - apply orb_true_iff; left. apply orb_true_iff; right. cbn. rewrite String.eqb_refl.
      apply elem_of_cons in Hp as [[= -> ->]|[= -> ->]%elem_of_list_singleton]; by vm_compute.
    - apply orb_true_iff; right. cbn. rewrite String.eqb_refl.
      apply elem_of_cons in Hp as [[= -> ->]|[= -> ->]%elem_of_list_singleton]; by vm_compute. }
  subst l'. destruct (C83_deque k d0 _ d Hr Ha F2 H) as (xs & Hx & _). apply talk_prefix in H as (d1 & H & _).
  destruct (C83_deque k d0 l d1 Hr Ha F H) as (ys & Hy & _). rewrite (as_deque_app k l _ _ _ Hy) in Hx.
  apply elem_of_cons in Hp as [[= -> ->]|[= -> ->]%elem_of_list_singleton]; cbn [as_deque] in Hx; rewrite !asks_for_name in Hx.
  - change (String.eqb (to_lower "LPUSH") "lpush") with true in Hx. change (String.eqb (to_lower "LPOP") "lpush") with false in Hx.
    change (String.eqb (to_lower "LPOP") "rpush") with false in Hx. change (String.eqb (to_lower "LPOP") "lpop") with true in Hx. cbv iota in Hx.
    destruct (bool_decide (texts r2 = _)) eqn:E; [|discriminate Hx]. apply bool_decide_eq_true in E. rewrite E. reflexivity.
  - change (String.eqb (to_lower "RPUSH") "lpush") with false in Hx. change (String.eqb (to_lower "RPUSH") "rpush") with true in Hx. change (String.eqb (to_lower "RPOP") "lpush") with false in Hx.
    change (String.eqb (to_lower "RPOP") "rpush") with false in Hx. change (String.eqb (to_lower "RPOP") "lpop") with false in Hx. change (String.eqb (to_lower "RPOP") "rpop") with true in Hx. cbv iota in Hx.
    destruct (bool_decide (texts r2 = _)) eqn:E; [|discriminate Hx]. apply bool_decide_eq_true in E. rewrite E. change (values ["RPUSH"; k; v]) with [v]. rewrite reverse_app. reflexivity.
Qed.
(** Nothing is lost and nothing comes twice, whichever ends are used. *)
Lemma deque_conserved k l : ∀ xs ys, as_deque k xs l = Some ys → xs ++ put_ends k l ≡ₚ handed_ends k l ++ ys.
Proof.
  induction l as [|[[c req] r] l IH]; intros xs ys H; [injection H as ->; by rewrite app_nil_r|]. cbn [as_deque] in H.
  unfold put_ends, handed_ends in *. cbn [fmap list_fmap concat fst snd]. unfold asks_for_any. cbn [existsb]. rewrite !orb_false_r.
  destruct (asks_for "lpush" k req) eqn:E1; [|destruct (asks_for "rpush" k req) eqn:E2; [|destruct (asks_for "lpop" k req) eqn:E3; [|destruct (asks_for "rpop" k req) eqn:E4]]].
  - assert (asks_for "lpop" k req = false ∧ asks_for "rpop" k req = false) as [-> ->].
    { apply asks_for_spec in E1 as (n & a & -> & Hn). by rewrite !asks_for_name, Hn. }
    apply IH in H. cbn [orb app]. rewrite <- H. rewrite reverse_Permutation. clear. solve_Permutation.
  - assert (asks_for "lpop" k req = false ∧ asks_for "rpop" k req = false) as [-> ->].
    { apply asks_for_spec in E2 as (n & a & -> & Hn). by rewrite !asks_for_name, Hn. }
    apply IH in H. cbn [orb app]. rewrite <- H. by rewrite app_assoc.
  - destruct (bool_decide _) eqn:Eb; [|done]. apply bool_decide_eq_true in Eb. apply IH in H. cbn [orb app].
    rewrite <- app_assoc, <- H, Eb, app_assoc, take_drop. done.
  - destruct (bool_decide _) eqn:Eb; [|done]. apply bool_decide_eq_true in Eb. apply IH in H. cbn [orb app].
    rewrite <- app_assoc, <- H, Eb, app_assoc. apply Permutation_app_tail. rewrite (reverse_Permutation (drop _ _)), take_drop. by rewrite reverse_Permutation.
  - cbn [orb app]. by apply IH.
Qed.
Theorem C83_conserved k d0 l d : reachable ext d0 → answers ext d0 ["EXISTS"; k] (RInt 0) →
  Forall (λ req, deque_request k req = true) (asked_in l) → talk ext l.*1 d0 = Ret (d, l.*2) →
  ∃ xs, put_ends k l ≡ₚ handed_ends k l ++ xs ∧ answers ext d ["LRANGE"; k; "0"; "-1"] (bulks xs).
Proof.
  intros Hr Ha F H. destruct (C83_deque k d0 l d Hr Ha F H) as (xs & Hx & _ & HR). exists xs. split; [|done]. by apply deque_conserved in Hx.
Qed.
(** Clients of a running server, at either end: nobody gets what another gets, and all was pushed. *)
Lemma pushed_put_ends k h rs : length rs = length h → put_ends k (spoken h rs) = pushed_ends k h.
Proof.
  intros L. pose proof (spoken_asked h rs L) as E. unfold put_ends, pushed_ends. f_equal. revert E. generalize (spoken h rs). clear. intros l.
  revert h. induction l as [|x l IH]; intros [|y h] E; try done. cbn in E. injection E as E1 E2. rewrite !fmap_cons, E1. f_equal. by apply IH.
Qed.
Lemma service_ends h got d k x1 b1 v1 : service ext h got d →
  (∀ x, x ∈ h → deque_request k (what x) = true) →
  x1 ∈ h → asks_for_any ["lpop"; "rpop"] k (what x1) = true → got x1 b1 → is_reply b1 v1 →
  (∀ job, job ∈ texts (Some v1) → job ∈ pushed_ends k h) ∧
  (NoDup (pushed_ends k h) → ∀ x2 b2 v2 job, x2 ∈ h → who x1 ≠ who x2 → asks_for_any ["lpop"; "rpop"] k (what x2) = true → got x2 b2 →
     is_reply b2 v2 → job ∈ texts (Some v1) → job ∉ texts (Some v2)).
Proof.
  intros R Q Hx1 P1 W1 V1. destruct R as (rs & T & L & N & Hc). apply spoken_talk in T.
  assert (Forall (λ req, deque_request k req = true) (asked_in (spoken h rs))) as F.
  { rewrite spoken_asked by done. apply Forall_forall. intros req (x & -> & Hx)%elem_of_list_fmap. by apply Q. }
  assert (reachable ext db_new) as Hr by (by exists [], []). assert (answers ext db_new ["EXISTS"; k] (RInt 0)) as Ha by apply db_new_absent.
  destruct (C83_conserved k db_new _ _ Hr Ha F T) as (w & Hp & _). rewrite pushed_put_ends in Hp by done.
  destruct (Hc x1 b1 v1 Hx1 W1 V1) as [->|(i & Hi & Si)].
  { rewrite (deadline_texts v1 V1). split; [intros job Hj; by apply elem_of_nil in Hj|]. intros _ x2 b2 v2 job _ _ _ _ _ Hj. by apply elem_of_nil in Hj. }
  split.
  - intros job Hj. rewrite Hp. apply elem_of_app. left. unfold handed_ends. apply elem_of_list_In, in_concat. exists (texts (Some v1)). split; apply elem_of_list_In; [|done].
    apply elem_of_list_fmap. exists (how x1, what x1, Some v1). cbn [fst snd]. rewrite P1. split; [done|]. by eapply elem_of_list_lookup_2.
  - intros ND x2 b2 v2 job Hx2 D P2 W2 V2 J1. destruct (Hc x2 b2 v2 Hx2 W2 V2) as [->|(j & Hj & Sj)]; [rewrite (deadline_texts v2 V2); apply not_elem_of_nil|].
    rewrite Hp in ND. apply NoDup_app in ND as (ND & _). unfold handed_ends in ND.
    apply (nodup_concat _ i j (texts (Some v1)) (texts (Some v2)) job ND); [..|done].
    + unfold exchange in *. rewrite list_lookup_fmap, Si. cbn [fmap option_fmap option_map fst snd]. by rewrite P1.
    + unfold exchange in *. rewrite list_lookup_fmap, Sj. cbn [fmap option_fmap option_map fst snd]. by rewrite P2.
    + intros ->. rewrite Hi in Hj. congruence.
Qed.
Theorem C83_clients max ps tr s k x1 c1 b1 v1 : runs ext max ps tr s → (∀ x, x ∈ calls tr → deque_request k (what x) = true) →
  x1 ∈ calls tr → asks_for_any ["lpop"; "rpop"] k (what x1) = true → LWrite (who x1) c1 b1 ∈ tr → is_reply b1 v1 →
  (∀ job, job ∈ texts (Some v1) → job ∈ pushed_ends k (calls tr)) ∧
  (NoDup (pushed_ends k (calls tr)) → ∀ x2 c2 b2 v2 job, x2 ∈ calls tr → who x1 ≠ who x2 → asks_for_any ["lpop"; "rpop"] k (what x2) = true →
     LWrite (who x2) c2 b2 ∈ tr → is_reply b2 v2 → job ∈ texts (Some v1) → job ∉ texts (Some v2)).
Proof.
  intros R Q Hx1 P1 W1 V1. destruct (service_ends _ _ _ k x1 b1 v1 (service2 _ _ _ _ _ R) Q Hx1 P1 ltac:(by exists c1) V1) as [H1 H2]. split; [done|].
  intros ND x2 c2 b2 v2 job Hx2 D P2 W2. apply (H2 ND x2 b2 v2 job Hx2 D P2). by exists c2.
Qed.
Theorem C83_clients1 max tr s k x1 k1 n1 b1 v1 : runs1 ext max tr s → (∀ x, x ∈ calls1 tr → deque_request k (what x) = true) →
  x1 ∈ calls1 tr → asks_for_any ["lpop"; "rpop"] k (what x1) = true → written k1 tr !! n1 = Some (who x1, b1) → is_reply b1 v1 →
  (∀ job, job ∈ texts (Some v1) → job ∈ pushed_ends k (calls1 tr)) ∧
  (NoDup (pushed_ends k (calls1 tr)) → ∀ x2 k2 n2 b2 v2 job, x2 ∈ calls1 tr → who x1 ≠ who x2 → asks_for_any ["lpop"; "rpop"] k (what x2) = true →
     written k2 tr !! n2 = Some (who x2, b2) → is_reply b2 v2 → job ∈ texts (Some v1) → job ∉ texts (Some v2)).
Proof.
  intros R Q Hx1 P1 W1 V1. destruct (service_ends _ _ _ k x1 b1 v1 (service1 _ _ _ _ R) Q Hx1 P1 ltac:(by exists k1, n1) V1) as [H1 H2]. split; [done|].
  intros ND x2 k2 n2 b2 v2 job Hx2 D P2 W2. apply (H2 ND x2 b2 v2 job Hx2 D P2). by exists k2, n2.
Qed.
End use.

(** ** examples *)
Definition settings : list (list string) :=
  [["MGET"; "a"; "b"]; ["MSET"; "a"; "1"; "b"; "2"]; ["INCR"; "n"]; ["mget"; "b"; "a"; "b"]; ["MSET"; "b"; "3"; "c"; "9"; "a"; "4"; "b"; "5"]; ["MGET"; "a"; "b"]].
Example C82_demo : forallb (together_request ["a"; "b"]) settings = true ∧ string_at ext0 db_new "a" None ∧ string_at ext0 db_new "b" None ∧
  talk ext0 (dialogue settings).*1 db_new = Ret (after settings, (dialogue settings).*2) ∧
  replies settings = Some [Some (RArr [RNil; RNil]); Some (RStatus "OK"); Some (RInt 1); Some (RArr [RBulk "2"; RBulk "1"; RBulk "2"]); Some (RStatus "OK"); Some (RArr [RBulk "4"; RBulk "5"])].
Proof.
  split; [by vm_compute|]. split; [apply db_new_absent|]. split; [apply db_new_absent|].
  split; [apply dialogue_talk; by exists (default [] (replies settings)); vm_compute|]. by vm_compute.
Qed.
(** Who asks for the keys one after the other may get a value of each version. *)
Theorem C82_gets_refuted : forallb (together_request ["a"; "b"]) [["MSET"; "a"; "1"; "b"; "1"]; ["GET"; "a"]; ["MSET"; "a"; "2"; "b"; "2"]; ["GET"; "b"]] = true ∧
  replies [["MSET"; "a"; "1"; "b"; "1"]; ["GET"; "a"]; ["MSET"; "a"; "2"; "b"; "2"]; ["GET"; "b"]] =
    Some [Some (RStatus "OK"); Some (RBulk "1"); Some (RStatus "OK"); Some (RBulk "2")].
Proof. split; by vm_compute. Qed.
Definition reading : list action :=
  whole 1 7 (frame ["MSET"; "a"; "1"; "b"; "1"]) ++ whole 2 8 (frame ["MGET"; "a"; "b"]) ++ whole 3 7 (frame ["MSET"; "a"; "2"; "b"; "2"]) ++ whole 4 8 (frame ["MGET"; "a"; "b"]).
Example C82_clients_demo : runs ext0 1000 8 (trace reading) (final reading) ∧
  got reading = [(1%nat, crlf ["+OK"]); (2%nat, crlf ["*2"; "$1"; "1"; "$1"; "1"]); (3%nat, crlf ["+OK"]); (4%nat, crlf ["*2"; "$1"; "2"; "$1"; "2"])] ∧
  forallb (λ x, together_request ["a"; "b"] (what x)) (calls (trace reading)) = true.
Proof. split; [apply trace_runs; by vm_compute|]. split; by vm_compute. Qed.
Definition ends : list (list string) :=
  [["LPUSH"; "l"; "a"; "b"]; ["RPUSH"; "l"; "c"]; ["LPOP"; "l"]; ["SET"; "x"; "1"]; ["rpop"; "l"; "5"]; ["LPOP"; "l"]; ["RPUSH"; "l"; "d"]; ["RPOP"; "l"]; ["LPUSH"; "l"; "e"]].
Example C83_demo : forallb (deque_request "l") ends = true ∧ talk ext0 (dialogue ends).*1 db_new = Ret (after ends, (dialogue ends).*2) ∧
  put_ends "l" (dialogue ends) = ["a"; "b"; "c"; "d"; "e"] ∧ handed_ends "l" (dialogue ends) = ["b"; "c"; "a"; "d"] ∧ as_deque "l" [] (dialogue ends) = Some ["e"].
Proof.
  split; [by vm_compute|]. split; [apply dialogue_talk; by exists (default [] (replies ends)); vm_compute|]. split; [by vm_compute|]. split; by vm_compute.
Qed.
Definition stealing : list action :=
  whole 1 7 (frame ["RPUSH"; "l"; "a"; "b"]) ++ whole 2 8 (frame ["LPOP"; "l"]) ++ whole 3 7 (frame ["RPOP"; "l"]).
Example C83_clients_demo : runs ext0 1000 8 (trace stealing) (final stealing) ∧
  got stealing = [(1%nat, crlf [":2"]); (2%nat, crlf ["*1"; "$1"; "a"]); (3%nat, crlf ["*1"; "$1"; "b"])] ∧
  forallb (λ x, deque_request "l" (what x)) (calls (trace stealing)) = true ∧ pushed_ends "l" (calls (trace stealing)) = ["a"; "b"].
Proof. split; [apply trace_runs; by vm_compute|]. split; [by vm_compute|]. split; by vm_compute. Qed.
