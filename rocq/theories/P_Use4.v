(** C86: a sorted set as a scoreboard. *)
From Coq Require Import Sorted.
From Verif Require Import GoBase GoBaseProofs ShardMap Float64 Float64Proofs Db Protocol Redis Obs SpecCmd SpecResp SpecServer SpecList SpecZSet SpecKey KeyHist
  DbInv ExecSteps Sim SimZSet SimMain SafeSpec SkipListMore PropBase KeyIs Examples P_Strings P_Lists P_Sets P_ZSets P_Life
  SpecCommute SpecUse SpecBoard P_Server SpecWire SpecStream Stream Server SpecServing ServerProofs P_Serve Server1 SpecServing1 Drive1 P_Serve1 Drive P_ServeMore P_Use P_Use2 P_Use3.
Notation pairs := SpecKey.pairs.

Section use.
Context (ext : Ext).
Definition scored_as (p es : list zkey) : Prop := ∀ v, match last_score v p with
  | Some f => ∃ g, zfind v es = Some g ∧ feq g f = true
  | None => zfind v es = None end.
Definition board_inv (k : string) (pre : list exchange) (s : option (list zkey * gmap string float)) : Prop :=
  gone s = ∅ ∧ scored_as (submitted ext k pre) (pairs s) ∧ (length (pairs s) ≤ length (submitted ext k pre))%nat.

Lemma submitted_app k l1 l2 : submitted ext k (l1 ++ l2) = submitted ext k l1 ++ submitted ext k l2.
Proof. unfold submitted. by rewrite fmap_app, concat_app. Qed.
Lemma submitted_one k x : submitted ext k [x] = submits ext k x.1.2.
Proof. unfold submitted. cbn. by rewrite app_nil_r. Qed.
Lemma last_score_snoc v p f w : last_score v (p ++ [(f, w)]) = if decide (w = v) then Some f else last_score v p.
Proof.
  unfold last_score. rewrite filter_app. destruct (decide (w = v)) as [->|].
  - rewrite filter_cons_True, filter_nil by done. by rewrite last_snoc.
  - rewrite filter_cons_False, filter_nil by done. by rewrite app_nil_r.
Qed.
Lemma add_pair_scored p es f v : is_nan f = false → scored_as p es → ∃ es' o, add_pair false false false f v es ∅ = Some (es', o) ∧
  scored_as (p ++ [(f, v)]) es' ∧ (length es' ≤ S (length es))%nat.
Proof.
  intros Hn H. destruct (add_pair_plain f v es ∅ ltac:(set_solver) Hn) as (es' & o & E & (g & Hg & Hf) & Hv). exists es', o. split; [done|]. split.
  - intros w. rewrite last_score_snoc. destruct (decide (v = w)) as [<-|]; [by exists g|]. rewrite Hv by done. apply H.
  - unfold add_pair in E. rewrite bool_decide_eq_false_2 in E by set_solver. rewrite Hn in E. destruct (zfind v es).
    + cbv zeta in E. destruct (feq f f0); injection E as <- <-; [lia|]. rewrite zplace_length. pose proof (zdrop_length v es). lia.
    + injection E as <- <-. by rewrite zplace_length.
Qed.
Lemma add_pairs_scored fl l : o_incr fl = false → o_nx fl = false → o_xx fl = false → ∀ p es, Forall (λ e : zkey, is_nan e.1 = false) l → scored_as p es →
  ∃ es' n, add_pairs fl l es ∅ = Some (es', n) ∧ scored_as (p ++ l) es' ∧ (length es' ≤ length es + length l)%nat.
Proof.
  intros F1 F2 F3. induction l as [|[f v] l IH]; intros p es N H.
  - exists es, 0. rewrite app_nil_r. split_and!; [done..|cbn; lia].
  - apply Forall_cons in N as [Nf N]. destruct (add_pair_scored p es f v Nf H) as (es1 & o & E1 & H1 & L1).
    destruct (IH _ _ N H1) as (es2 & n & E2 & H2 & L2). exists es2. eexists. split; [|split].
    + cbn [add_pairs]. rewrite F1, F2, F3, E1, E2. reflexivity.
    + by rewrite <- app_assoc in H2.
    + cbn [length] in *. lia.
Qed.
Lemma in_scores_parse n : ∀ a p fl, (length a ≤ n)%nat → in_scores ext a = Some p → zadd_parse ext a fl = Some (fl, p) ∧ Forall (λ e : zkey, is_nan e.1 = false) p.
Proof.
  induction n as [|n IH]; intros a p fl L H.
  - destruct a; [|cbn in L; lia]. injection H as <-. done.
  - destruct a as [|x [|v r]]; [by injection H as <-|done|]. cbn [in_scores] in H. case_bool_decide as Hx; [done|].
    destruct (parse_float ext x) as [f|] eqn:Ef; [|done]. destruct (is_nan f) eqn:En; [done|].
    destruct (in_scores ext r) as [q|] eqn:Er; [|done]. injection H as <-. destruct (IH r q fl ltac:(cbn in L; lia) Er) as [E F].
    rewrite (parse_plain ext x v r f fl Hx Ef), E. split; [done|]. by constructor.
Qed.
Ltac find_row n E := unfold zset_step; erewrite table_row by (rewrite E; reflexivity); cbv beta iota.
Lemma submits_none k n a : to_lower n ≠ "zadd" → submits ext k (n :: k :: a) = [].
Proof. intros H. unfold submits. rewrite asks_for_name. by destruct (String.eqb_spec (to_lower n) "zadd"). Qed.
Lemma board_same k pre s req r c : submits ext k req = [] → board_inv k pre s → board_inv k (pre ++ [(c, req, r)]) s.
Proof. intros H (G & S & L). unfold board_inv. rewrite submitted_app, submitted_one. cbn [fst snd]. by rewrite H, app_nil_r. Qed.
Lemma board_step k pre req s : board_request ext k req = true → about k req = true → board_inv k pre s →
  zlen (submitted ext k pre) < two63 - 2 →
  ∃ r s', zset_step ext req s = exactly r s' ∧ (∀ c, board_inv k (pre ++ [(c, req, Some r)]) s') ∧
    (∀ p, rows_request k req = Some p → texts (Some r) = page_of p (pairs s).*2) ∧
    (∀ v, req = "ZSCORE" :: k :: [v] → r = match zfind v (pairs s) with Some f => RBulk (format_float ext f) | None => RNil end).
Proof.
  intros Hq Ha I Hz. pose proof I as (G & S & L). unfold board_request in Hq. rewrite Ha in Hq. cbn [negb orb] in Hq.
  assert ((two63 - 2 <=? zlen (pairs s)) = false) as Hf. { unfold zlen in *. apply Z.leb_gt. lia. }
  assert (∀ n a, to_lower n ≠ "zrange" → rows_request k (n :: k :: a) = None) as NR.
  { intros n a Hn. unfold rows_request. destruct a as [|x [|y [|]]]; try done. by destruct (String.eqb_spec (to_lower n) "zrange"). }
  apply orb_true_iff in Hq as [[[Hq|Hq]%orb_true_iff|Hq]%orb_true_iff|Hq].
  - apply andb_true_iff in Hq as [[(n & a & -> & Hn)%asks_for_spec Hv%negb_true_iff%bool_decide_eq_false]%andb_true_iff Hp]. change (values (n :: k :: a)) with a in *.
    destruct (in_scores ext a) as [l|] eqn:El; [|done]. destruct (in_scores_parse (length a) a l (ZO false false false) ltac:(done) El) as [E N].
    destruct (add_pairs_scored (ZO false false false) l eq_refl eq_refl eq_refl (submitted ext k pre) (pairs s) N S) as (es & m & Em & S' & L').
    exists (RInt m), (Some (es, ∅)). split; [|split; [|split]].
    + find_row n Hn. destruct a as [|x [|v a]]; [done|by cbn in El|]. rewrite E. unfold popped. rewrite G, dom_empty_L, Em. reflexivity.
    + intros c. unfold board_inv. rewrite submitted_app, submitted_one. cbn [fst snd gone pairs]. unfold submits. rewrite asks_for_name, Hn.
      cbn [String.eqb Ascii.eqb Bool.eqb]. change (values (n :: k :: a)) with a. rewrite El. cbn [default]. rewrite app_length. change (SpecKey.pairs (Some (es, ∅))) with es. split_and!; [done..|]. etrans; [exact L'|]. apply Nat.add_le_mono_r, L.
    + intros p. by rewrite NR by (by rewrite Hn).
    + intros v [= -> ->]. done.
  - apply andb_true_iff in Hq as [(n & a & -> & Hn)%asks_for_any_spec Hv]. change (values (n :: k :: a)) with a in *.
    destruct a as [|x [|y [|]]]; try done. unfold is_int in Hv. destruct (parse_int x) as [i|] eqn:Ex; [|done]. destruct (parse_int y) as [j|] eqn:Ey; [|done].
    assert (submits ext k [n; k; x; y] = []) as NS. { apply submits_none. intros E. rewrite E in Hn. repeat (apply elem_of_cons in Hn as [[=]|Hn]). by apply elem_of_nil in Hn. }
    apply elem_of_cons in Hn as [Hn|Hn%elem_of_list_singleton].
    + find_row n Hn. rewrite Hf. unfold int_arg. rewrite Ex, Ey.
      eexists _, s. split; [reflexivity|]. split; [intros c; by apply board_same|]. split; [|by intros v [=]].
      intros p Hp. unfold rows_request in Hp. rewrite Hn in Hp. cbn [String.eqb Ascii.eqb Bool.eqb] in Hp.
      destruct (page_spec k _ p Hp) as (n' & x' & y' & a' & [= <- <- <- <-] & _ & i' & j' & Hx & Hy & Hw).
      rewrite Ex in Hx. rewrite Ey in Hy. injection Hx as <-. injection Hy as <-.
      rewrite <- Hw, window_fmap. destruct (pairs s); [by rewrite window_nil|]. by rewrite texts_bulks.
    + rewrite NR by (by rewrite Hn). find_row n Hn. rewrite Hf. unfold int_arg. rewrite Ex, Ey.
      eexists _, s; split; [reflexivity|]; split; [intros c; by apply board_same|]; split; [done|by intros v [=]].
  - apply andb_true_iff in Hq as [(n & a & -> & Hn)%asks_for_any_spec Hv%negb_true_iff%bool_decide_eq_false]. change (values (n :: k :: a)) with a in *.
    destruct a as [|v a]; [done|].
    assert (to_lower n ≠ "zadd" ∧ to_lower n ≠ "zrange") as [N1 N2].
    { split; intros E; rewrite E in Hn; repeat (apply elem_of_cons in Hn as [[=]|Hn]); by apply elem_of_nil in Hn. }
    rewrite (NR n (v :: a) N2). pose proof (submits_none k n (v :: a) N1) as NS.
    apply elem_of_cons in Hn as [Hn|Hn%elem_of_list_singleton]; find_row n Hn; rewrite ?Hf.
    + eexists _, s. split; [reflexivity|]. split; [intros c; by apply board_same|]. split; [done|]. intros v' [= -> -> ->]. rewrite G, lookup_empty.
      by destruct (pairs s) as [|e es]; [|destruct (zfind v' (e :: es))].
    + eexists _, s. split; [reflexivity|]. split; [intros c; by apply board_same|]. split; [done|]. intros v' [= -> -> ->]. done.
  - apply asks_for_any_spec in Hq as (n & a & -> & Hn).
    assert (to_lower n ≠ "zadd" ∧ to_lower n ≠ "zrange" ∧ to_lower n ≠ "zscore") as (N1 & N2 & N3).
    { split_and!; intros E; rewrite E in Hn; repeat (apply elem_of_cons in Hn as [[=]|Hn]); by apply elem_of_nil in Hn. }
    assert (∃ r, zset_step ext (n :: k :: a) s = exactly r s) as [r Hr].
    { repeat (apply elem_of_cons in Hn as [Hn|Hn]; [find_row n Hn; eexists; reflexivity|]). by apply elem_of_nil in Hn. }
    exists r, s. split; [exact Hr|]. rewrite (NR n a N2). split; [intros c; apply board_same; [by apply submits_none|done]|]. split; [done|].
    intros v' [= -> ->]. by destruct N3.
Qed.
Lemma submitted_requests k l : submitted ext k l = concat (submits ext k <$> requests l).
Proof. unfold submitted, requests. f_equal. by rewrite <- !list_fmap_compose. Qed.
Lemma board_conversation k l : zlen (submitted ext k l) < two63 - 2 → Forall (λ req, board_request ext k req = true) (requests l) →
  within (zset_step ext) k None (requests l) ∧ ∀ s', consistent (zset_step ext) k None (requests l) l.*2 s' → board_inv k l s'.
Proof.
  intros Hz F. apply (conversation (zset_step ext) k l (board_inv k)); [|split_and!; [done|done|cbn; lia]]. intros pre x post s E I. destruct (about k x.1.2) eqn:Ea.
  - assert (board_request ext k x.1.2 = true) as Hq.
    { rewrite E, requests_app in F. apply Forall_app in F as [_ F]. rewrite requests_cons in F. by apply Forall_cons in F as [F _]. }
    assert (zlen (submitted ext k pre) < two63 - 2) as Hp.
    { rewrite submitted_requests, E, <- submitted_requests, submitted_app in Hz. unfold zlen in *. rewrite app_length in Hz. lia. }
    destruct (board_step k pre x.1.2 s Hq Ea I Hp) as (r & s' & Hr & Hi & _). eexists. split; [exact Hr|]. intros c r' s1 [-> ->]. apply Hi.
  - destruct x as [[c req] r]. apply board_same; [|done]. unfold submits. destruct (asks_for "zadd" k req) eqn:E1; [|done].
    cbn [fst snd] in Ea. by rewrite (asked_about _ _ _ E1) in Ea.
Qed.
Lemma zfind_in v f (es : list zkey) : zfind v es = Some f → (f, v) ∈ es.
Proof.
  unfold zfind. intros H. apply fmap_Some in H as ([g w] & H & ->). apply head_Some_elem_of in H. apply elem_of_list_filter in H as [<- H]. done.
Qed.
Lemma board_ranking d k l s : zset_is ext d k s → board_inv k l s → ranking (submitted ext k l) (pairs s).
Proof.
  intros K (G & S & L). destruct (C29_sorted ext d k s K) as (So & Nd & _). split; [exact So|exact Nd|]. intros v. specialize (S v).
  destruct (last_score v (submitted ext k l)) as [f|]; [|by apply zfind_None]. destruct S as (g & Hg & Hf). exists g. split; [by apply zfind_in|done].
Qed.
(** what the server answers when [es] is the ranking *)
Definition shows_ranking (d : db) (k : string) (es : list zkey) : Prop :=
  answers ext d ["ZCARD"; k] (RInt (zlen es)) ∧
  answers ext d ["ZRANGE"; k; "0"; "-1"] (if bool_decide (es = []) then RNil else bulks es.*2) ∧
  answers ext d ["ZREVRANGE"; k; "0"; "-1"] (if bool_decide (es = []) then RNil else bulks (reverse es.*2)) ∧
  (∀ i f v, es !! i = Some (f, v) → answers ext d ["ZRANK"; k; v] (RInt (Z.of_nat i + 1)) ∧ answers ext d ["ZSCORE"; k; v] (RBulk (format_float ext f))) ∧
  (∀ v, v ∉ es.*2 → answers ext d ["ZRANK"; k; v] RNil ∧ answers ext d ["ZSCORE"; k; v] RNil).
Lemma board_shows d k s : zset_is ext d k s → gone s = ∅ → zlen (pairs s) < two63 - 2 → shows_ranking d k (pairs s).
Proof.
  intros K G Hz. assert (∀ v, v ∉ popped s) as NP. { intros v. unfold popped. rewrite G, dom_empty_L. apply not_elem_of_empty. }
  destruct (C29_sorted ext d k s K) as (_ & Nd & _). unfold shows_ranking. split_and!.
  - apply (C29_shown ext d k s K).
  - case_bool_decide as E.
    + destruct (C29_zrange ext d k s "0" "-1" 0 (-1) K Hz eq_refl eq_refl) as (ys & _ & A). rewrite E in A. exact A.
    + by apply C29_zrange_all.
  - destruct (C35_zrevrange ext d k s "0" "-1" 0 (-1) K Hz eq_refl eq_refl) as (ys & Cy & A).
    case_bool_decide as E; [rewrite E in A; exact A|]. assert (ys = pairs s) as ->.
    { destruct Cy as (pre & post & Ey & Hp). assert (pre = [] ∧ post = []) as [-> ->]; [|by rewrite Ey, app_nil_r].
      pose proof (f_equal length Ey) as Le. rewrite !app_length in Le. unfold position, zlen in Hp.
      assert (length (pairs s) ≠ 0%nat) as Ln by (by destruct (pairs s)).
      pose proof (proj2 (Hp 0%nat ltac:(lia))) as H0. pose proof (proj2 (Hp (length (pairs s) - 1)%nat ltac:(lia))) as H1.
      cbn [Z.ltb Z.compare] in *. specialize (H0 ltac:(lia)). specialize (H1 ltac:(lia)).
      split; apply length_zero_iff_nil; lia. }
    destruct (pairs s); [done|exact A].
  - intros i f v Hi. split; [by eapply C31_zrank|]. pose proof (C30_zscore ext d k s v K (NP v)) as A.
    assert (zfind v (pairs s) = Some f) as Ef; [|by rewrite Ef in A].
    destruct (zfind v (pairs s)) as [g|] eqn:Eg.
    + apply zfind_in, elem_of_list_lookup in Eg as [j Hj]. assert (i = j) as <-; [|unfold zkey in *; rewrite Hi in Hj; by injection Hj as ->].
      unfold zkey in *. eapply (NoDup_lookup (pairs s).*2); [exact Nd|by rewrite list_lookup_fmap, Hi|by rewrite list_lookup_fmap, Hj].
    + apply zfind_None in Eg. destruct Eg. apply elem_of_list_fmap. exists (f, v). split; [done|]. by eapply elem_of_list_lookup_2.
  - intros v Hv. split; [exact (C31_missing ext d k s v K Hz Hv (NP v))|]. pose proof (C30_zscore ext d k s v K (NP v)) as A. apply zfind_None in Hv. by rewrite Hv in A.
Qed.
(** After any submissions the server shows their ranking. *)
Theorem C86_board k d0 l d : reachable ext d0 → answers ext d0 ["EXISTS"; k] (RInt 0) →
  Forall (λ req, board_request ext k req = true) (asked_in l) → calm l.*1 → zlen (submitted ext k l) < two63 - 2 →
  talk ext l.*1 d0 = Ret (d, l.*2) → ∃ es, ranking (submitted ext k l) es ∧ shows_ranking d k es.
Proof.
  intros Hr Ha F C Hz H. destruct (board_conversation k l Hz F) as [W Cn].
  destruct (C29_history ext d0 k None l.*1 d l.*2 (C29_start ext d0 k Hr Ha) C H W) as (s & Cs & K). pose proof (Cn s Cs) as I.
  exists (pairs s). split; [by eapply board_ranking|]. destruct I as (G & _ & L). apply board_shows; [done..|]. unfold zlen in *. lia.
Qed.
(** Any page of it, and any score, is that of the ranking at that moment. *)
Theorem C86_told k d0 l d i x : reachable ext d0 → answers ext d0 ["EXISTS"; k] (RInt 0) →
  Forall (λ req, board_request ext k req = true) (asked_in l) → calm l.*1 → zlen (submitted ext k l) < two63 - 2 →
  talk ext l.*1 d0 = Ret (d, l.*2) → l !! i = Some x →
  ∃ es, ranking (submitted ext k (take i l)) es ∧
    (∀ p, rows_request k x.1.2 = Some p → texts x.2 = page_of p es.*2) ∧
    (∀ v, x.1.2 = ["ZSCORE"; k; v] → ∃ r, x.2 = Some r ∧ score_shown ext v es r).
Proof.
  intros Hr Ha F C Hz H Hi. assert (l = take i l ++ x :: drop (S i) l) as El by (by rewrite take_drop_middle). rewrite El in H, Hz, C.
  rewrite fmap_app in C. apply Forall_app in C as [C Cx]. cbn [fmap list_fmap] in Cx. apply Forall_cons in Cx as [Cx _].
  rewrite submitted_app in Hz. assert (zlen (submitted ext k (take i l)) < two63 - 2) as Hz1. { unfold zlen in *. rewrite app_length in Hz. lia. }
  apply talk_prefix in H as (d1 & H1 & H2). unfold asked_in in F. rewrite El, 2!fmap_app in F. apply Forall_app in F as [F Fx].
  cbn [fmap list_fmap] in Fx. apply Forall_cons in Fx as [Fx _].
  destruct (board_conversation k (take i l) Hz1 F) as [W Cn].
  destruct (C29_history ext d0 k None _ d1 _ (C29_start ext d0 k Hr Ha) C H1 W) as (s & Cs & K). pose proof (Cn s Cs) as I.
  exists (pairs s). pose proof (board_ranking d1 k _ s K I) as Rk. split; [exact Rk|].
  destruct x as [[c req] r0]. cbn [fst snd] in *. destruct (about k req) eqn:Ea.
  - destruct (board_step k _ req s Fx Ea I Hz1) as (r & s' & Hs & _ & T & V). cbn [fmap list_fmap fst snd talk] in H2.
    apply obind_ret in H2 as ([d2 r2] & Eq & H2). apply obind_ret in H2 as ([d3 rs3] & _ & H2). injection H2 as _ -> _.
    destruct (C29_history ext d1 k s [(c, req)] d2 [r0] K) as (s2 & C2 & _); [by constructor|cbn; by rewrite Eq|cbn; by rewrite Ea, Hs|].
    inversion C2 as [|? ? R0 r1 s1 ? ? ? Ea' Es HR C'|? ? ? ? ? ? Ea' C']; subst; [|cbn in Ea'; congruence].
    rewrite Hs in Es. injection Es as <-. destruct HR as [-> _]. split; [exact T|]. intros v ->. exists r. split; [done|]. rewrite (V v eq_refl).
    destruct (zfind v (pairs s)) as [f|] eqn:Ef; cbn [score_shown]; [|by apply zfind_None]. exists f. split; [by apply zfind_in|done].
  - split.
    + intros p Hp. unfold rows_request in Hp. destruct req as [|n [|k' [|x0 [|y0 [|]]]]]; try done. destruct (String.eqb_spec (to_lower n) "zrange") as [Hn|]; [|done].
      destruct (page_spec k _ p Hp) as (n' & x' & y' & a' & [= <- -> <- <- <-] & _). by rewrite (asked_about "zrange") in Ea by (rewrite ?asks_for_name, ?Hn; done).
    + intros v ->. by rewrite (asked_about "zscore") in Ea by (rewrite ?asks_for_name; done).
Qed.
(** Clients of a running server: the server shows the ranking of all executed submissions, and who has asked was told
    the ranking of those executed before. *)
Lemma entered_submitted k h rs : length rs = length h → submitted ext k (spoken h rs) = entered ext k h.
Proof.
  intros L. pose proof (spoken_asked h rs L) as E. unfold submitted, entered. f_equal. revert E. generalize (spoken h rs). clear. intros l.
  revert h. induction l as [|x l IH]; intros [|y h] E; try done. cbn in E. injection E as E1 E2. rewrite !fmap_cons, E1. f_equal. by apply IH.
Qed.
Lemma spoken_take h rs i : take i (spoken h rs) = spoken (take i h) (take i rs).
Proof. unfold spoken, as_history. by rewrite fmap_take, zip_with_take. Qed.
Definition told_ranking (k : string) (p : list zkey) (req : list string) (v : resp) : Prop :=
  ∃ es, ranking p es ∧ (∀ q, rows_request k req = Some q → texts (Some v) = page_of q es.*2) ∧ (∀ m, req = ["ZSCORE"; k; m] → score_shown ext m es v).
Lemma service_board h got d k : service ext h got d → (∀ y, y ∈ h → board_request ext k (what y) = true ∧ low_towers (how y)) → zlen (entered ext k h) < two63 - 2 →
  (∃ es, ranking (entered ext k h) es ∧ shows_ranking d k es) ∧
  ∀ x b v, x ∈ h → got x b → is_reply b v → b = deadline_bytes ∨ ∃ i, h !! i = Some x ∧ told_ranking k (entered ext k (take i h)) (what x) v.
Proof.
  intros (rs & T & L & N & Hc) Q Hz. apply spoken_talk in T.
  assert (Forall (λ req, board_request ext k req = true) (asked_in (spoken h rs))) as F.
  { rewrite spoken_asked by done. apply Forall_forall. intros req (y & -> & Hy)%elem_of_list_fmap. by apply Q. }
  assert (reachable ext db_new) as Hr by (by exists [], []). assert (answers ext db_new ["EXISTS"; k] (RInt 0)) as Ha by apply db_new_absent.
  assert (calm (spoken h rs).*1) as C.
  { apply Forall_forall. intros y Hy _. unfold spoken in Hy. apply elem_of_list_fmap in Hy as ([y1 y2] & -> & Hy). apply elem_of_zip_l in Hy. cbn [fst].
    unfold as_history in Hy. apply elem_of_list_fmap in Hy as (z & -> & Hy). by apply Q. }
  rewrite <- (entered_submitted k h rs L) in Hz. split.
  - rewrite <- (entered_submitted k h rs L). by eapply C86_board.
  - intros x b v Hx Gx Vx. destruct (Hc x b v Hx Gx Vx) as [->|(i & Hi & Si)]; [by left|right]. exists i. split; [done|].
    destruct (C86_told k db_new _ d i _ Hr Ha F C Hz T Si) as (es & Rk & P & S). cbn [fst snd] in *.
    rewrite spoken_take, entered_submitted in Rk by (rewrite !take_length; lia). exists es. split; [done|]. split; [exact P|].
    intros m Hm. destruct (S m Hm) as (r & [= <-] & Sh). done.
Qed.
Theorem C86_clients max ps tr s k : runs ext max ps tr s → (∀ y, y ∈ calls tr → board_request ext k (what y) = true ∧ low_towers (how y)) →
  zlen (entered ext k (calls tr)) < two63 - 2 →
  (∃ es, ranking (entered ext k (calls tr)) es ∧ shows_ranking (c_db s) k es) ∧
  ∀ x c b v, x ∈ calls tr → LWrite (who x) c b ∈ tr → is_reply b v →
    b = deadline_bytes ∨ ∃ i, calls tr !! i = Some x ∧ told_ranking k (entered ext k (take i (calls tr))) (what x) v.
Proof.
  intros R Q Hz. destruct (service_board _ _ _ k (service2 _ _ _ _ _ R) Q Hz) as [A B]. split; [exact A|].
  intros x c b v Hx Hw Hv. apply B; [done| |done]. by exists c.
Qed.
Theorem C86_clients1 max tr s k : runs1 ext max tr s → (∀ y, y ∈ calls1 tr → board_request ext k (what y) = true ∧ low_towers (how y)) →
  zlen (entered ext k (calls1 tr)) < two63 - 2 →
  (∃ es, ranking (entered ext k (calls1 tr)) es ∧ shows_ranking (c_db (v_pool s)) k es) ∧
  ∀ x k1 n b v, x ∈ calls1 tr → written k1 tr !! n = Some (who x, b) → is_reply b v →
    b = deadline_bytes ∨ ∃ i, calls1 tr !! i = Some x ∧ told_ranking k (entered ext k (take i (calls1 tr))) (what x) v.
Proof.
  intros R Q Hz. destruct (service_board _ _ _ k (service1 _ _ _ _ R) Q Hz) as [A B]. split; [exact A|].
  intros x k1 n b v Hx Hw Hv. apply B; [done| |done]. by exists k1, n.
Qed.
End use.

(** A ranking is determined by the submissions: the same players in the same order, with equal scores. *)
Lemma ranking_score p es v g : ranking p es → (g, v) ∈ es → ∃ f, last_score v p = Some f ∧ feq g f = true.
Proof.
  intros [_ Nd Sc] Hg. specialize (Sc v). destruct (last_score v p) as [f|].
  - exists f. split; [done|]. destruct Sc as (g' & Hg' & Hf). apply elem_of_list_lookup in Hg as [i Hi]. apply elem_of_list_lookup in Hg' as [j Hj].
    unfold zkey in *. assert (i = j) as <-; [|rewrite Hi in Hj; by injection Hj as ->].
    eapply (NoDup_lookup es.*2); [exact Nd|by rewrite list_lookup_fmap, Hi|by rewrite list_lookup_fmap, Hj].
  - destruct Sc. apply elem_of_list_fmap. by exists (g, v).
Qed.
Definition same_entry (a b : zkey) : Prop := a.2 = b.2 ∧ feq a.1 b.1 = true.
Theorem C86_unique p es1 es2 : ranking p es1 → ranking p es2 → Forall2 same_entry es1 es2.
Proof.
  intros R1 R2.
  assert (∀ es es', ranking p es → ranking p es' → ∀ a, a ∈ es → ∃ b, b ∈ es' ∧ same_entry a b) as M.
  { intros es es' R R' [g v] Ha. destruct (ranking_score p es v g R Ha) as (f & Hf & Eg). pose proof (rk_score p es' R' v) as S'. rewrite Hf in S'.
    destruct S' as (g' & Hg' & Ef). exists (g', v). split; [done|]. split; [done|]. cbn [fst]. rewrite (feq_feq_l _ _ _ Eg). by rewrite feq_sym. }
  pose proof (M _ _ R1 R2) as M1. pose proof (M _ _ R2 R1) as M2.
  pose proof (rk_order _ _ R1) as O1. pose proof (rk_order _ _ R2) as O2. clear M.
  assert (∀ a b c, zlt a b = true → same_entry b c → zlt a c = true) as Zr.
  { intros [a1 a2] [b1 b2] [c1 c2] H [E F]. cbn [fst snd] in *. subst c2. unfold zlt in *. cbn [fst snd] in *. by rewrite <- (flt_feq_r _ _ a1 F), (feq_sym a1 c1), <- (feq_feq_l _ _ a1 F), (feq_sym b1 a1). }
  assert (∀ l : list zkey, (∀ i j a b, (i < j)%nat → l !! i = Some a → l !! j = Some b → flt a.1 b.1 = true ∨ feq a.1 b.1 = true ∧ str_ltb a.2 b.2 = true) → StronglySorted (λ a b, zlt a b = true) l) as SS.
  { induction l as [|x l IH]; intros O; constructor.
    - apply IH. intros i j a b Hij Ha Hb. by apply (O (S i) (S j)); [lia|..].
    - apply Forall_forall. intros y Hy. apply elem_of_list_lookup in Hy as [j Hj]. specialize (O 0%nat (S j) x y ltac:(lia) eq_refl Hj). unfold zlt.
      destruct O as [->|[-> ->]]; [done|]. by rewrite orb_true_r. }
  apply SS in O1, O2. clear SS R1 R2. revert es2 M1 M2 O2. induction O1 as [|x l1 O1 IH F1]; intros es2 M1 M2 O2.
  - destruct es2 as [|y es2]; [constructor|]. destruct (M2 y ltac:(by left)) as (z & Hz & _). by apply elem_of_nil in Hz.
  - destruct O2 as [|y l2 O2 F2].
    { destruct (M1 x ltac:(by left)) as (z & Hz & _). by apply elem_of_nil in Hz. }
    rewrite Forall_forall in F1, F2.
    assert (∀ a b, same_entry a b → same_entry b a) as Sym. { intros a b [E F]. split; [done|]. by rewrite feq_sym. }
    assert (same_entry x y) as Sxy.
    { destruct (M1 x ltac:(by left)) as (x' & Hx' & Sx). apply elem_of_cons in Hx' as [->|Hx']; [done|].
      destruct (M2 y ltac:(by left)) as (y' & Hy' & Sy). apply elem_of_cons in Hy' as [->|Hy']; [by apply Sym|].
      pose proof (Zr _ _ _ (F2 x' Hx') (Sym _ _ Sx)) as A. pose proof (Zr _ _ _ (F1 y' Hy') (Sym _ _ Sy)) as B.
      rewrite (zlt_asym _ _ A) in B. done. }
    constructor; [done|]. apply IH; [| |done].
    + intros a Ha. destruct (M1 a ltac:(by right)) as (b & Hb & Sb). exists b. split; [|done]. apply elem_of_cons in Hb as [->|Hb]; [|done].
      pose proof (F1 a Ha) as A. pose proof (Zr _ _ _ A Sb) as B. pose proof (Zr _ _ _ B (Sym _ _ Sxy)) as D. by rewrite zlt_irrefl in D.
    + intros b Hb. destruct (M2 b ltac:(by right)) as (a & Ha & Sa). exists a. split; [|done]. apply elem_of_cons in Ha as [->|Ha]; [|done].
      pose proof (F2 b Hb) as A. pose proof (Zr _ _ _ A Sa) as B. pose proof (Zr _ _ _ B Sxy) as D. by rewrite zlt_irrefl in D.
Qed.

(** ** examples *)
Definition scoring : list (list string) :=
  [["ZADD"; "b"; "10"; "ann"; "7"; "bob"]; ["ZRANGE"; "b"; "0"; "1"]; ["SET"; "x"; "1"]; ["zadd"; "b"; "12"; "bob"]; ["ZADD"; "b"; "10"; "cyd"];
   ["ZSCORE"; "b"; "bob"]; ["ZRANGE"; "b"; "1"; "-1"]; ["ZREVRANGE"; "b"; "0"; "-1"]; ["ZSCORE"; "b"; "dan"]; ["ZRANK"; "b"; "bob"]].
Lemma dialogue_calm h : calm (dialogue h).*1.
Proof.
  apply Forall_forall. intros x Hx _. unfold dialogue in Hx. apply elem_of_list_fmap in Hx as ([y r] & -> & Hx). apply elem_of_zip_l in Hx. cbn [fst].
  unfold plain_history in Hx. apply elem_of_list_fmap in Hx as (z & -> & _). apply low_c0.
Qed.
Example C86_demo : forallb (board_request ext0 "b") scoring = true ∧ calm (dialogue scoring).*1 ∧
  talk ext0 (dialogue scoring).*1 db_new = Ret (after scoring, (dialogue scoring).*2) ∧
  submitted ext0 "b" (dialogue scoring) = [(f_of_Z 10, "ann"); (f_of_Z 7, "bob"); (f_of_Z 12, "bob"); (f_of_Z 10, "cyd")] ∧
  ranking (submitted ext0 "b" (dialogue scoring)) [(f_of_Z 10, "ann"); (f_of_Z 10, "cyd"); (f_of_Z 12, "bob")] ∧
  (dialogue scoring).*2 = Some <$> [RInt 2; bulks ["bob"; "ann"]; RStatus "OK"; RInt 1; RInt 1; RBulk "12"; bulks ["cyd"; "bob"]; bulks ["bob"; "cyd"; "ann"]; RNil; RInt 3].
Proof.
  split; [by vm_compute|]. split; [apply dialogue_calm|]. split; [apply dialogue_talk; by exists (default [] (replies scoring)); vm_compute|].
  split; [by vm_compute|]. split; [|by vm_compute].
  replace (submitted ext0 "b" (dialogue scoring)) with [(f_of_Z 10, "ann"); (f_of_Z 7, "bob"); (f_of_Z 12, "bob"); (f_of_Z 10, "cyd")] by (by vm_compute). split.
  - intros i j a b Hij Ha Hb. destruct i as [|[|[|i]]]; destruct j as [|[|[|j]]]; try lia; try done; injection Ha as <-; injection Hb as <-;
      first [left; by vm_compute|right; split; by vm_compute].
  - apply (bool_decide_eq_true_1 _). by vm_compute.
  - intros v. unfold last_score. destruct (decide (v = "ann")) as [->|N1]; [eexists; split; [by left|by vm_compute]|].
    destruct (decide (v = "bob")) as [->|N2]; [eexists; split; [right; right; by left|by vm_compute]|].
    destruct (decide (v = "cyd")) as [->|N3]; [eexists; split; [right; by left|by vm_compute]|].
    rewrite !filter_cons_False by (cbn [snd]; congruence). cbn. rewrite !not_elem_of_cons. split_and!; [done..|apply not_elem_of_nil].
Qed.
(** Who was popped can never enter again (see C33): with ZPOPMIN among the requests a submission is lost. *)
Theorem C86_pop_refuted : replies [["ZADD"; "b"; "1"; "ann"; "2"; "bob"]; ["ZPOPMIN"; "b"; "1"]; ["ZADD"; "b"; "5"; "ann"]; ["ZRANGE"; "b"; "0"; "-1"]] =
  Some [Some (RInt 2); Some (bulks ["ann"; "1"]); Some (RInt 0); Some (bulks ["bob"])].
Proof. by vm_compute. Qed.
Definition playing : list action :=
  whole 1 7 (frame ["ZADD"; "b"; "3"; "ann"]) ++ whole 2 8 (frame ["ZADD"; "b"; "2"; "bob"]) ++ whole 3 7 (frame ["ZRANGE"; "b"; "0"; "-1"]) ++ whole 4 8 (frame ["ZADD"; "b"; "9"; "bob"]) ++
  whole 5 7 (frame ["ZRANGE"; "b"; "0"; "-1"]).
Lemma playing_low : how <$> calls (trace playing) = [c0; c0; c0; c0; c0].
Proof. by vm_compute. Qed.
Lemma playing_calm y : y ∈ calls (trace playing) → low_towers (how y).
Proof.
  intros Hy. assert (how y ∈ [c0; c0; c0; c0; c0]) as H. { rewrite <- playing_low. by apply elem_of_list_fmap_1. }
  clear Hy. repeat (apply elem_of_cons in H as [->|H]; [apply low_c0|]). by apply elem_of_nil in H.
Qed.
Example C86_clients_demo : runs ext0 1000 8 (trace playing) (final playing) ∧
  got playing = [(1%nat, crlf [":1"]); (2%nat, crlf [":1"]); (3%nat, crlf ["*2"; "$3"; "bob"; "$3"; "ann"]); (4%nat, crlf [":1"]); (5%nat, crlf ["*2"; "$3"; "ann"; "$3"; "bob"])] ∧
  forallb (λ x, board_request ext0 "b" (what x)) (calls (trace playing)) = true ∧ (∀ y, y ∈ calls (trace playing) → low_towers (how y)) ∧
  entered ext0 "b" (calls (trace playing)) = [(f_of_Z 3, "ann"); (f_of_Z 2, "bob"); (f_of_Z 9, "bob")].
Proof.
  split; [apply trace_runs; by vm_compute|]. split; [by vm_compute|]. split; [by vm_compute|]. split; [exact playing_calm|by vm_compute].
Qed.
