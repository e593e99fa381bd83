(** C84: a list that only grows can be read in pages. *)
From Verif Require Import GoBase GoBaseProofs ShardMap Float64 Db Protocol Redis Obs SpecCmd SpecResp SpecServer SpecList SpecKey KeyHist
  DbInv ExecSteps Sim SimMain PropBase KeyIs Examples P_Strings P_Lists P_Sets P_Life
  SpecCommute SpecUse P_Server SpecWire SpecStream Stream Server SpecServing ServerProofs P_Serve Server1 SpecServing1 Drive1 P_Serve1 Drive P_ServeMore P_Use P_Use2.

Lemma page_window a b (xs : list string) : 0 ≤ a → 0 ≤ b → window a b xs = take (Z.to_nat (b + 1 - a)) (drop (Z.to_nat a) xs).
Proof.
  intros Ha Hb. unfold window, norm_index. rewrite !(proj2 (Z.ltb_ge _ 0)) by lia.
  destruct (decide (Z.of_nat (length xs) ≤ a)).
  - rewrite !drop_ge by lia. by rewrite !take_nil.
  - replace (Z.to_nat (Z.min (Z.max 0 a) (Z.of_nat (length xs)))) with (Z.to_nat a) by lia.
    destruct (decide (b + 1 ≤ Z.of_nat (length xs))); [f_equal; lia|]. rewrite !take_ge; [done|rewrite drop_length; lia..].
Qed.
Lemma rest_window a (xs : list string) : 0 ≤ a → window a (-1) xs = drop (Z.to_nat a) xs.
Proof.
  intros Ha. unfold window, norm_index. rewrite (proj2 (Z.ltb_ge a 0)) by lia. change (-1 <? 0) with true. cbv iota.
  destruct (decide (Z.of_nat (length xs) ≤ a)).
  - rewrite !drop_ge by lia. by rewrite take_nil.
  - replace (Z.to_nat (Z.min (Z.max 0 a) (Z.of_nat (length xs)))) with (Z.to_nat a) by lia. rewrite take_ge; [done|rewrite drop_length; lia].
Qed.
Lemma page_prefix p xs : page_of p xs `prefix_of` drop p.1 xs.
Proof. unfold page_of. destruct p as [a [n|]]; cbn [fst snd]; [|done]. exists (drop n (drop a xs)). by rewrite take_drop. Qed.

Section use.
Context (ext : Ext).
Definition growing_inv (k : string) (pre : list exchange) (s : list_value) : Prop := lost s = Sound ∧ elems s = put_in "rpush" k pre.
Lemma page_spec k req p : page_request k req = Some p → ∃ n x y a, req = n :: k :: x :: y :: a ∧ to_lower n = "lrange" ∧
  ∃ i j, parse_int x = Some i ∧ parse_int y = Some j ∧ ∀ xs, window i j xs = page_of p xs.
Proof.
  unfold page_request. destruct req as [|n [|k' [|x [|y a]]]]; try done. destruct (String.eqb_spec (to_lower n) "lrange"); [|done]. destruct (String.eqb_spec k' k) as [->|]; [|done].
  cbn [andb]. destruct (parse_int x) as [i|] eqn:Ex; [|done]. destruct (parse_int y) as [j|] eqn:Ey; [|done]. destruct (Z.ltb_spec i 0); [done|].
  destruct (Z.eqb_spec j (-1)) as [->|]; [|destruct (Z.ltb_spec j 0); [done|]]; intros [= <-]; exists n, x, y, a; (split; [done|]; split; [done|]);
    eexists _, _; (split; [done|]; split; [done|]); intros xs; [by apply rest_window|by apply page_window].
Qed.
Ltac find_row n E := unfold list_step; erewrite table_row by (rewrite E; reflexivity); cbv beta iota.
Lemma growing_step k pre req s : growing_request k req = true → about k req = true → growing_inv k pre s →
  ∃ r s', list_step req s = exactly r s' ∧ (∀ c, growing_inv k (pre ++ [(c, req, Some r)]) s') ∧
    ∀ p, page_request k req = Some p → texts (Some r) = page_of p (elems s).
Proof.
  intros Hq Ha [Hl He]. unfold growing_request in Hq. rewrite Ha in Hq. cbn [negb orb] in Hq. unfold growing_inv.
  assert (∀ n a, to_lower n ≠ "lrange" → page_request k (n :: k :: a) = None) as NP.
  { intros n a Hn. unfold page_request. destruct a as [|x [|y a]]; try done. destruct (String.eqb_spec (to_lower n) "lrange"); done. }
  apply orb_true_iff in Hq as [[Hq|Hq]%orb_true_iff|Hq].
  - apply andb_true_iff in Hq as [(n & a & -> & Hn)%asks_for_spec Hv%negb_true_iff%bool_decide_eq_false]. change (values (n :: k :: a)) with a in Hv.
    destruct a as [|x a]; [done|]. find_row n Hn. rewrite Hl. eexists _, _. split; [reflexivity|]. split.
    + intros c. split; [done|]. cbn [elems]. rewrite put_in_app, put_in_one. cbn [fst snd]. by rewrite asks_for_name, Hn, He.
    + intros p. rewrite NP by (by rewrite Hn). done.
  - destruct (page_request k req) as [p|] eqn:Hp; [|done]. destruct (page_spec k req p Hp) as (n & x & y & a & -> & Hn & i & j & Hx & Hy & Hw).
    find_row n Hn. unfold int_arg. rewrite Hx, Hy. eexists _, _. split; [reflexivity|]. split.
    + intros c. split; [done|]. rewrite put_in_app, put_in_one. cbn [fst snd]. by rewrite asks_for_name, Hn, app_nil_r.
    + intros p' [= <-]. rewrite texts_bulks. apply Hw.
  - apply asks_for_any_spec in Hq as (n & a & -> & Hn).
    assert (∃ r, list_step (n :: k :: a) s = exactly r s) as [r Hr].
    { repeat (apply elem_of_cons in Hn as [Hn|Hn]; [find_row n Hn; eexists; reflexivity|]). by apply elem_of_nil in Hn. }
    exists r, s. split; [exact Hr|]. split.
    + intros c. split; [done|]. rewrite put_in_app, put_in_one. cbn [fst snd]. rewrite asks_for_name.
      repeat (apply elem_of_cons in Hn as [->|Hn]; [by rewrite app_nil_r|]). by apply elem_of_nil in Hn.
    + intros p. rewrite NP; [done|]. intros E. rewrite E in Hn. repeat (apply elem_of_cons in Hn as [[=]|Hn]). by apply elem_of_nil in Hn.
Qed.
Lemma growing_conversation k l : Forall (λ req, growing_request k req = true) (requests l) →
  within list_step k None (requests l) ∧ ∀ s', consistent list_step k None (requests l) l.*2 s' → growing_inv k l s'.
Proof.
  intros F. apply (conversation list_step k l (growing_inv k)); [|done]. intros pre x post s E I. destruct (about k x.1.2) eqn:Ea.
  - assert (growing_request k x.1.2 = true) as Hq.
    { rewrite E, requests_app in F. apply Forall_app in F as [_ F]. rewrite requests_cons in F. by apply Forall_cons in F as [F _]. }
    destruct (growing_step k pre x.1.2 s Hq Ea I) as (r & s' & Hr & Hi & _). eexists. split; [exact Hr|]. intros c r' s1 [-> ->]. apply Hi.
  - destruct I as [Hl He]. split; [done|]. rewrite put_in_app, put_in_one.
    destruct (asks_for "rpush" k x.1.2) eqn:E1; [by rewrite (asked_about _ _ _ E1) in Ea|]. by rewrite app_nil_r.
Qed.
(** The list is what was appended, and a page is that part of what was appended before. *)
Theorem C84_list k d0 l d : reachable ext d0 → answers ext d0 ["EXISTS"; k] (RInt 0) →
  Forall (λ req, growing_request k req = true) (asked_in l) → talk ext l.*1 d0 = Ret (d, l.*2) →
  answers ext d ["LRANGE"; k; "0"; "-1"] (bulks (put_in "rpush" k l)).
Proof.
  intros Hr Ha F H. destruct (growing_conversation k l F) as [W C].
  destruct (C20_sequence ext d0 k None l.*1 d l.*2 (C20_start ext d0 k Hr Ha) H W) as (s & Cs & K).
  destruct (C s Cs) as [_ <-]. by destruct (C20_shown ext d k s K) as (_ & _ & _ & HR).
Qed.
Theorem C84_page k d0 l d i x p : reachable ext d0 → answers ext d0 ["EXISTS"; k] (RInt 0) →
  Forall (λ req, growing_request k req = true) (asked_in l) → talk ext l.*1 d0 = Ret (d, l.*2) →
  l !! i = Some x → page_request k x.1.2 = Some p → texts x.2 = page_of p (put_in "rpush" k (take i l)).
Proof.
  intros Hr Ha F H Hi Hp. assert (l = take i l ++ x :: drop (S i) l) as El by (by rewrite take_drop_middle). rewrite El in H.
  apply talk_prefix in H as (d1 & H1 & H2). unfold asked_in in F. rewrite El, 2!fmap_app in F. apply Forall_app in F as [F Fx].
  cbn [fmap list_fmap] in Fx. apply Forall_cons in Fx as [Fx _].
  destruct (growing_conversation k (take i l) F) as [W C].
  destruct (C20_sequence ext d0 k None _ d1 _ (C20_start ext d0 k Hr Ha) H1 W) as (s & Cs & K). pose proof (C s Cs) as I.
  destruct x as [[c req] r0]. cbn [fst snd] in *.
  assert (about k req = true) as Ea.
  { destruct (page_spec k req p Hp) as (n & x & y & a & -> & Hn & _). by apply (asked_about "lrange"); [rewrite asks_for_name, Hn|..]. }
  destruct (growing_step k _ req s Fx Ea I) as (r & s' & Hs & _ & T). cbn [fmap list_fmap fst snd talk] in H2.
  apply obind_ret in H2 as ([d2 r2] & Eq & H2). apply obind_ret in H2 as ([d3 rs3] & _ & H2). injection H2 as _ -> _.
  destruct (C20_sequence ext d1 k s [(c, req)] d2 [r0] K) as (s2 & C2 & _); [cbn; by rewrite Eq|cbn; by rewrite Ea, Hs|].
  inversion C2 as [|? ? R0 r1 s1 ? ? ? Ea' Es HR C'|? ? ? ? ? ? Ea' C']; subst; [|cbn in Ea'; congruence].
  rewrite Hs in Es. injection Es as <-. destruct HR as [-> _]. rewrite (T p Hp). by destruct I as [_ ->].
Qed.
Lemma read_on_prefix k (ws : list string) ps : ∀ from, (∀ x p, x ∈ ps → page_request k x.1.2 = Some p → texts x.2 `prefix_of` drop p.1 ws) →
  reads_on k from ps → read_in ps `prefix_of` drop from ws.
Proof.
  induction ps as [|x ps IH]; intros from H R; [apply prefix_nil|]. cbn [reads_on] in R. destruct R as [[n Hn] R]. unfold read_in. cbn [fmap list_fmap concat].
  destruct (H x (from, n) ltac:(by left) Hn) as [rest Hx]. cbn [fst] in Hx. rewrite Hx. apply prefix_app.
  apply (IH (from + length (texts x.2))%nat) in R; [|intros; apply H; [by right|done]]. rewrite <- drop_drop, Hx, drop_app in R. exact R.
Qed.
Lemma page_grows p (l1 l2 ts : list string) : ts = page_of p l1 → ts `prefix_of` drop p.1 (l1 ++ l2).
Proof.
  intros ->. etrans; [apply page_prefix|]. destruct (decide (p.1 ≤ length l1)%nat).
  - rewrite drop_app_le by done. by apply prefix_app_r.
  - rewrite (drop_ge l1) by lia. apply prefix_nil.
Qed.
(** A reader who goes on where the last page ended gets what was appended, in order: nothing is left out, nothing comes twice. *)
Theorem C84_read_on k d0 l d ps : reachable ext d0 → answers ext d0 ["EXISTS"; k] (RInt 0) →
  Forall (λ req, growing_request k req = true) (asked_in l) → talk ext l.*1 d0 = Ret (d, l.*2) →
  (∀ x, x ∈ ps → x ∈ l) → reads_on k 0 ps → read_in ps `prefix_of` put_in "rpush" k l.
Proof.
  intros Hr Ha F H Hps R. rewrite <- (drop_0 (put_in "rpush" k l)). eapply read_on_prefix; [|exact R]. intros x p Hx Hp. apply Hps in Hx.
  apply elem_of_list_lookup in Hx as [i Hi]. pose proof (C84_page k d0 l d i x p Hr Ha F H Hi Hp) as E.
  rewrite <- (take_drop i l), put_in_app. by apply page_grows.
Qed.
Lemma reads_on_app k ps1 ps2 : ∀ from, reads_on k from (ps1 ++ ps2) ↔ reads_on k from ps1 ∧ reads_on k (from + length (read_in ps1)) ps2.
Proof.
  induction ps1 as [|x ps1 IH]; intros from; cbn [app reads_on]; [rewrite Nat.add_0_r; tauto|].
  rewrite IH. unfold read_in. cbn [fmap list_fmap concat]. rewrite app_length, Nat.add_assoc. tauto.
Qed.
(** Who has just read to the end has everything that was appended before. *)
Theorem C84_up_to_date k d0 l1 x l2 d ps a : reachable ext d0 → answers ext d0 ["EXISTS"; k] (RInt 0) →
  Forall (λ req, growing_request k req = true) (asked_in (l1 ++ x :: l2)) → talk ext (l1 ++ x :: l2).*1 d0 = Ret (d, (l1 ++ x :: l2).*2) →
  (∀ y, y ∈ ps → y ∈ l1) → reads_on k 0 (ps ++ [x]) → page_request k x.1.2 = Some (a, None) → read_in (ps ++ [x]) = put_in "rpush" k l1.
Proof.
  intros Hr Ha F H Hps R Hx. apply reads_on_app in R as [R1 R2]. cbn [reads_on] in R2. destruct R2 as [[n Hn] _]. rewrite Hx in Hn. injection Hn as -> <-.
  pose proof (C84_page k d0 _ d (length l1) x _ Hr Ha F H ltac:(by apply list_lookup_middle) Hx) as Ex. rewrite take_app in Ex. unfold page_of in Ex. cbn [fst snd] in Ex.
  apply talk_prefix in H as (d1 & H & _). unfold asked_in in F. rewrite 2!fmap_app in F. apply Forall_app in F as [F _].
  destruct (C84_read_on k d0 l1 d1 ps Hr Ha F H Hps R1) as [rest E].
  unfold read_in in *. rewrite fmap_app, concat_app. cbn [fmap list_fmap concat]. rewrite app_nil_r, Ex, E. cbn [Nat.add]. by rewrite drop_app.
Qed.
(** A client of a running server who reads on where the last page ended, while others append. *)
Lemma service_pages h got d k (ps : list (call * string * resp)) : service ext h got d → (∀ y, y ∈ h → growing_request k (what y) = true) →
  (∀ x b v, (x, b, v) ∈ ps → x ∈ h ∧ got x b ∧ is_reply b v) →
  let seen := (λ y, (how y.1.1, what y.1.1, Some y.2)) <$> ps in
  reads_on k 0 seen → read_in seen `prefix_of` pushed "rpush" k h ∧ answers ext d ["LRANGE"; k; "0"; "-1"] (bulks (pushed "rpush" k h)).
Proof.
  intros (rs & T & L & N & Hc) Q Hps seen R. apply spoken_talk in T.
  assert (Forall (λ req, growing_request k req = true) (asked_in (spoken h rs))) as F.
  { rewrite spoken_asked by done. apply Forall_forall. intros req (y & -> & Hy)%elem_of_list_fmap. by apply Q. }
  assert (reachable ext db_new) as Hr by (by exists [], []). assert (answers ext db_new ["EXISTS"; k] (RInt 0)) as Ha by apply db_new_absent.
  rewrite <- (pushed_put_in "rpush" k h rs L). split; [|by eapply C84_list].
  rewrite <- (drop_0 (put_in _ _ _)). eapply read_on_prefix; [|exact R]. intros y p Hy Hp. unfold seen in Hy. apply elem_of_list_fmap in Hy as ([[x b] v] & -> & Hy).
  destruct (Hps x b v Hy) as (Hx & Gx & Vx). cbn [fst snd] in *.
  destruct (Hc x b v Hx Gx Vx) as [->|(i & Hi & Si)]; [rewrite (deadline_texts v Vx); apply prefix_nil|].
  pose proof (C84_page k db_new _ d i _ p Hr Ha F T Si Hp) as E. cbn [snd] in E.
  rewrite <- (take_drop i (spoken h rs)), put_in_app. by apply page_grows.
Qed.
Theorem C84_clients max ps tr s k (pages : list (call * string * resp)) : runs ext max ps tr s → (∀ y, y ∈ calls tr → growing_request k (what y) = true) →
  (∀ x b v, (x, b, v) ∈ pages → x ∈ calls tr ∧ (∃ c, LWrite (who x) c b ∈ tr) ∧ is_reply b v) →
  let seen := (λ y, (how y.1.1, what y.1.1, Some y.2)) <$> pages in
  reads_on k 0 seen → read_in seen `prefix_of` pushed "rpush" k (calls tr) ∧ answers ext (c_db s) ["LRANGE"; k; "0"; "-1"] (bulks (pushed "rpush" k (calls tr))).
Proof. intros R Q Hps. exact (service_pages _ _ _ k pages (service2 _ _ _ _ _ R) Q Hps). Qed.
Theorem C84_clients1 max tr s k (pages : list (call * string * resp)) : runs1 ext max tr s → (∀ y, y ∈ calls1 tr → growing_request k (what y) = true) →
  (∀ x b v, (x, b, v) ∈ pages → x ∈ calls1 tr ∧ (∃ k1 n, written k1 tr !! n = Some (who x, b)) ∧ is_reply b v) →
  let seen := (λ y, (how y.1.1, what y.1.1, Some y.2)) <$> pages in
  reads_on k 0 seen → read_in seen `prefix_of` pushed "rpush" k (calls1 tr) ∧ answers ext (c_db (v_pool s)) ["LRANGE"; k; "0"; "-1"] (bulks (pushed "rpush" k (calls1 tr))).
Proof. intros R Q Hps. exact (service_pages _ _ _ k pages (service1 _ _ _ _ R) Q Hps). Qed.
End use.

(** ** examples *)
Definition paging : list (list string) :=
  [["RPUSH"; "l"; "a"; "b"; "c"]; ["LRANGE"; "l"; "0"; "1"]; ["RPUSH"; "l"; "d"]; ["SET"; "x"; "1"]; ["lrange"; "l"; "2"; "10"]; ["LRANGE"; "l"; "4"; "5"];
   ["rpush"; "l"; "e"]; ["LRANGE"; "l"; "4"; "-1"]; ["RPUSH"; "l"; "f"]].
Definition nth_exchanges (l : list exchange) (is : list nat) : list exchange := omap (λ i, l !! i) is.
Example C84_demo : forallb (growing_request "l") paging = true ∧ talk ext0 (dialogue paging).*1 db_new = Ret (after paging, (dialogue paging).*2) ∧
  let ps := nth_exchanges (dialogue paging) [1; 4; 5; 7]%nat in
  reads_on "l" 0 ps ∧ read_in ps = ["a"; "b"; "c"; "d"; "e"] ∧ put_in "rpush" "l" (dialogue paging) = ["a"; "b"; "c"; "d"; "e"; "f"].
Proof.
  split; [by vm_compute|]. split; [apply dialogue_talk; by exists (default [] (replies paging)); vm_compute|].
  split; [|split; by vm_compute]. vm_compute. repeat (split; [by eexists|]). done.
Qed.
(** If values come in at the front, a reader gets some twice and misses others. *)
Theorem C84_front_refuted : replies [["RPUSH"; "l"; "a"; "b"; "c"]; ["LRANGE"; "l"; "0"; "1"]; ["LPUSH"; "l"; "z"]; ["LRANGE"; "l"; "2"; "-1"]] =
  Some [Some (RInt 3); Some (bulks ["a"; "b"]); Some (RInt 4); Some (bulks ["b"; "c"])].
Proof. by vm_compute. Qed.
Definition tailing : list action :=
  whole 1 7 (frame ["RPUSH"; "l"; "a"; "b"]) ++ whole 2 8 (frame ["LRANGE"; "l"; "0"; "-1"]) ++ whole 3 7 (frame ["RPUSH"; "l"; "c"]) ++ whole 4 8 (frame ["LRANGE"; "l"; "2"; "-1"]).
Example C84_clients_demo : runs ext0 1000 8 (trace tailing) (final tailing) ∧
  got tailing = [(1%nat, crlf [":2"]); (2%nat, crlf ["*2"; "$1"; "a"; "$1"; "b"]); (3%nat, crlf [":3"]); (4%nat, crlf ["*1"; "$1"; "c"])] ∧
  forallb (λ x, growing_request "l" (what x)) (calls (trace tailing)) = true ∧ pushed "rpush" "l" (calls (trace tailing)) = ["a"; "b"; "c"].
Proof. split; [apply trace_runs; by vm_compute|]. split; [by vm_compute|]. split; by vm_compute. Qed.
