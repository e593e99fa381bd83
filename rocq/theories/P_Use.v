(** C78-C80: a list as a queue, a counter as a source of numbers, a set as a lock. *)
From Verif Require Import GoBase GoBaseProofs ShardMap Float64 Db Protocol Redis Obs SpecCmd SpecResp SpecServer SpecKey KeyHist
  DbInv ExecSteps Sim SimMain PropBase KeyIs Examples P_Strings P_Lists P_Sets P_Life
  SpecCommute SpecUse P_Server SpecWire SpecStream Stream Server SpecServing ServerProofs P_Serve Server1 SpecServing1 Drive1 P_Serve1 Drive P_ServeMore.

(** ** conversations that a key specification covers *)
(** [Inv pre s]: after the exchanges [pre] the key holds [s] *)
Definition requests (l : list exchange) : list (list string) := l.*1.*2.
Lemma requests_app l1 l2 : requests (l1 ++ l2) = requests l1 ++ requests l2.
Proof. unfold requests. by rewrite !fmap_app. Qed.
Lemma requests_cons x l : requests (x :: l) = x.1.2 :: requests l.
Proof. done. Qed.
Lemma conversation {A} (step : list string → A → option (resp → A → Prop)) (k : string) (l : list exchange) (Inv : list exchange → A → Prop) :
  (∀ pre x post s, requests l = requests (pre ++ x :: post) → Inv pre s →
     if about k x.1.2 then ∃ R, step x.1.2 s = Some R ∧ ∀ c r s', R r s' → Inv (pre ++ [(c, x.1.2, Some r)]) s' else Inv (pre ++ [x]) s) →
  ∀ s, Inv [] s → within step k s (requests l) ∧ ∀ s', consistent step k s (requests l) l.*2 s' → Inv l s'.
Proof.
  intros H. assert (∀ post pre s, requests l = requests (pre ++ post) → Inv pre s →
    within step k s (requests post) ∧ ∀ s', consistent step k s (requests post) post.*2 s' → Inv (pre ++ post) s') as G.
  { induction post as [|x post IH]; intros pre s E I.
    - split; [done|]. intros s' C. inversion C; subst. rewrite app_nil_r. done.
    - pose proof (H pre x post s E I) as Hx. destruct x as [[c req] r]. rewrite requests_cons, fmap_cons. cbn [fst snd] in *. split.
      + cbn [within]. destruct (about k req) eqn:Ea.
        * destruct Hx as (R & -> & Hx). intros r' s' HR. eapply (IH (pre ++ [(c, req, Some r')])); [|by apply Hx].
          rewrite E, !requests_app, !requests_cons. cbn [requests fst snd]. by rewrite <- app_assoc.
        * apply (IH (pre ++ [(c, req, r)])); [|done]. by rewrite <- app_assoc.
      + intros s' C. assert (∀ y, Inv ((pre ++ [y]) ++ post) s' → Inv (pre ++ y :: post) s') as Hs by (intros y; by rewrite <- app_assoc). apply Hs.
        inversion C as [|? ? R0 r0 s1 ? ? ? Ea Es HR C'|? ? ? ? ? ? Ea C']; subst; rewrite Ea in Hx.
        * destruct Hx as (R & ER & Hx). rewrite ER in Es. injection Es as ->.
          apply (IH (pre ++ [(c, req, Some r0)]) s1); [by rewrite <- app_assoc|by apply Hx|done].
        * apply (IH (pre ++ [(c, req, r)]) s); [by rewrite <- app_assoc|done|done]. }
  intros s I. apply (G l [] s); done.
Qed.
Lemma asks_for_spec name k req : asks_for name k req = true ↔ ∃ n a, req = n :: k :: a ∧ to_lower n = name.
Proof.
  unfold asks_for. split.
  - intros H. destruct req as [|n [|k' a]]; try done. apply andb_true_iff in H as [H1%String.eqb_eq H2%String.eqb_eq]. subst. by exists n, a.
  - intros (n & a & -> & <-). by rewrite !String.eqb_refl.
Qed.
Lemma asks_for_any_spec names k req : asks_for_any names k req = true ↔ ∃ n a, req = n :: k :: a ∧ to_lower n ∈ names.
Proof.
  unfold asks_for_any. rewrite existsb_exists. split.
  - intros (x & Hin & (n & a & -> & Hn)%asks_for_spec). exists n, a. split; [done|]. rewrite Hn. by apply elem_of_list_In.
  - intros (n & a & -> & Hn). exists (to_lower n). split; [by apply elem_of_list_In|]. apply asks_for_spec. by exists n, a.
Qed.
(** a request about nothing but questions and changes *)
Lemma asked_about name k req : asks_for name k req = true → (bool_decide (name ∈ questions) || negb (bool_decide (name ∈ read_only))) = true →
  String.eqb name "mset" = false → about k req = true.
Proof.
  intros (n & a & -> & <-)%asks_for_spec H Hm. apply about_first. apply orb_true_iff in H as [->|H]; [done|]. apply orb_true_iff. right.
  apply bool_decide_eq_true. unfold writes. apply negb_true_iff in H. rewrite H, Hm. destruct (String.eqb (to_lower n) "smove"); by left.
Qed.

Section use.
Context (ext : Ext).

(** ** C78: a list as a queue *)
Lemma put_in_app push k l1 l2 : put_in push k (l1 ++ l2) = put_in push k l1 ++ put_in push k l2.
Proof. unfold put_in. by rewrite fmap_app, concat_app. Qed.
Lemma handed_out_app pop k l1 l2 : handed_out pop k (l1 ++ l2) = handed_out pop k l1 ++ handed_out pop k l2.
Proof. unfold handed_out. by rewrite fmap_app, concat_app. Qed.
Lemma texts_bulks l : texts (Some (bulks l)) = l.
Proof. unfold texts, bulks. induction l as [|x l IH]; [done|]. cbn. by rewrite IH. Qed.
(** the list that holds the waiting values *)
Definition line (push : string) (waiting : list string) : list string := if String.eqb push "lpush" then reverse waiting else waiting.
Definition queue_inv (push pop k : string) (pre : list exchange) (s : list_value) : Prop :=
  lost s = Sound ∧ ∃ waiting, elems s = line push waiting ∧ put_in push k pre = handed_out pop k pre ++ waiting.
Lemma asks_for_name name k n a : asks_for name k (n :: k :: a) = String.eqb (to_lower n) name.
Proof. cbn [asks_for]. by rewrite String.eqb_refl, andb_true_r. Qed.
Lemma put_in_one push k x : put_in push k [x] = if asks_for push k x.1.2 then values x.1.2 else [].
Proof. unfold put_in. cbn. by rewrite app_nil_r. Qed.
Lemma handed_out_one pop k x : handed_out pop k [x] = if asks_for pop k x.1.2 then texts x.2 else [].
Proof. unfold handed_out. cbn. by rewrite app_nil_r. Qed.
Ltac find_row n E := unfold list_step; erewrite table_row by (rewrite E; reflexivity); cbv beta iota.
Lemma queue_step push pop k pre req s : (push, pop) ∈ queue_ends → queue_request push pop k req = true → about k req = true → queue_inv push pop k pre s →
  ∃ r s', list_step req s = exactly r s' ∧ (∀ c, queue_inv push pop k (pre ++ [(c, req, Some r)]) s') ∧
    (asks_for pop k req = true → length (texts (Some r)) = (wanted req `min` length (elems s))%nat).
Proof.
  intros Hends Hq Ha (Hl & w & Hw & Hp). unfold queue_request in Hq. rewrite Ha in Hq. cbn [negb orb] in Hq.
  apply orb_true_iff in Hq as [[Hq|Hq]%orb_true_iff|Hq].
  - apply andb_true_iff in Hq as [(n & a & -> & Hn)%asks_for_spec Hv%negb_true_iff%bool_decide_eq_false]. change (values (n :: k :: a)) with a in Hv.
    assert (∃ r, list_step (n :: k :: a) s = exactly r (Some (line push (w ++ a), Sound))) as [r Hr].
    { unfold queue_ends in Hends. apply elem_of_cons in Hends as [[= -> ->]|Hends]; [|apply elem_of_list_singleton in Hends as [= -> ->]].
      - find_row n Hn. destruct a as [|x a]; [done|]. rewrite Hl, Hw. eexists. unfold line. cbn [String.eqb Ascii.eqb Bool.eqb]. rewrite <- reverse_app. reflexivity.
      - find_row n Hn. destruct a as [|x a]; [done|]. rewrite Hl, Hw. eexists. unfold line. reflexivity. }
    assert (asks_for pop k (n :: k :: a) = false) as Hpop.
    { rewrite asks_for_name, Hn. unfold queue_ends in Hends. by apply elem_of_cons in Hends as [[= -> ->]|[= -> ->]%elem_of_list_singleton]. }
    exists r. eexists. split; [exact Hr|]. rewrite Hpop. split; [|done]. intros c. split; [done|]. exists (w ++ a). split; [done|].
    rewrite put_in_app, handed_out_app, put_in_one, handed_out_one. cbn [fst snd]. rewrite Hpop, asks_for_name, Hn, String.eqb_refl, app_nil_r.
    change (values (n :: k :: a)) with a. by rewrite Hp, app_assoc.
  - apply andb_true_iff in Hq as [(n & a & -> & Hn)%asks_for_spec Hv]. change (values (n :: k :: a)) with a in Hv. destruct (pop_number a) as [z|] eqn:Hz; [clear Hv|discriminate Hv].
    assert (∃ r s', list_step (n :: k :: a) s = exactly r s' ∧ texts (Some r) = take (Z.to_nat z) w ∧ lost s' = Sound ∧ elems s' = line push (drop (Z.to_nat z) w)) as (r & s' & Hr & Ht & Hs & He).
    { unfold queue_ends in Hends. apply elem_of_cons in Hends as [[= -> ->]|Hends]; [|apply elem_of_list_singleton in Hends as [= -> ->]]; unfold line in *;
        cbn [String.eqb Ascii.eqb Bool.eqb] in *; find_row n Hn; rewrite Hz; destruct s as [[xs wr]|]; cbn [elems lost] in *; subst.
      - destruct (reverse w) as [|y ys] eqn:Ew.
        + assert (w = []) as -> by (apply (f_equal reverse) in Ew; by rewrite reverse_involutive in Ew). do 2 eexists. split; [reflexivity|]. by rewrite take_nil, drop_nil.
        + rewrite <- Ew, reverse_involutive. do 2 eexists. split; [reflexivity|]. by rewrite texts_bulks.
      - assert (w = []) as -> by (symmetry in Hw; apply (f_equal reverse) in Hw; by rewrite reverse_involutive in Hw). do 2 eexists. split; [reflexivity|]. by rewrite take_nil, drop_nil.
      - destruct w as [|y ys].
        + do 2 eexists. split; [reflexivity|]. by rewrite take_nil, drop_nil.
        + do 2 eexists. split; [reflexivity|]. by rewrite texts_bulks.
      - do 2 eexists. split; [reflexivity|]. by rewrite take_nil, drop_nil. }
    assert (asks_for push k (n :: k :: a) = false) as Hpush.
    { rewrite asks_for_name, Hn. unfold queue_ends in Hends. by apply elem_of_cons in Hends as [[= -> ->]|[= -> ->]%elem_of_list_singleton]. }
    exists r, s'. split; [exact Hr|]. split.
    + intros c. split; [done|]. exists (drop (Z.to_nat z) w). split; [done|].
      rewrite put_in_app, handed_out_app, put_in_one, handed_out_one. cbn [fst snd]. rewrite Hpush, asks_for_name, Hn, String.eqb_refl, app_nil_r, Ht, Hp, <- app_assoc.
      by rewrite take_drop.
    + intros _. rewrite Ht, Hw, take_length. unfold wanted. change (values (n :: k :: a)) with a. rewrite Hz. cbn [default]. unfold line. by destruct (String.eqb push "lpush"); rewrite ?reverse_length.
  - apply asks_for_any_spec in Hq as (n & a & -> & Hn).
    assert (asks_for push k (n :: k :: a) = false ∧ asks_for pop k (n :: k :: a) = false) as [Hpush Hpop].
    { rewrite !asks_for_name. unfold queue_ends in Hends.
      apply elem_of_cons in Hends as [[= -> ->]|[= -> ->]%elem_of_list_singleton]; repeat (apply elem_of_cons in Hn as [->|Hn]; [done|]); by apply elem_of_nil in Hn. }
    assert (∃ r, list_step (n :: k :: a) s = exactly r s) as [r Hr].
    { repeat (apply elem_of_cons in Hn as [Hn|Hn]; [find_row n Hn; eexists; reflexivity|]). by apply elem_of_nil in Hn. }
    exists r, s. split; [exact Hr|]. rewrite Hpop. split; [|done]. intros c. split; [done|]. exists w. split; [done|].
    rewrite put_in_app, handed_out_app, put_in_one, handed_out_one. cbn [fst snd]. by rewrite Hpush, Hpop, !app_nil_r.
Qed.
Lemma queue_other push pop k pre x s : (push, pop) ∈ queue_ends → about k x.1.2 = false → queue_inv push pop k pre s → queue_inv push pop k (pre ++ [x]) s.
Proof.
  intros Hends Ha (Hl & w & Hw & Hp). split; [done|]. exists w. split; [done|].
  assert (∀ name, (name, false) ∈ [("lpush", false); ("rpush", false); ("lpop", false); ("rpop", false)] → asks_for name k x.1.2 = false) as G.
  { intros name Hn. apply not_true_is_false. intros H. apply not_true_iff_false in Ha. apply Ha. apply (asked_about name); [done|..];
      repeat (apply elem_of_cons in Hn as [[= ->]|Hn]; [done|]); by apply elem_of_nil in Hn. }
  rewrite put_in_app, handed_out_app, put_in_one, handed_out_one.
  unfold queue_ends in Hends. apply elem_of_cons in Hends as [[= -> ->]|[= -> ->]%elem_of_list_singleton];
    rewrite !G by (repeat ((by left) || right); by left); by rewrite !app_nil_r.
Qed.

Lemma queue_conversation push pop k l : (push, pop) ∈ queue_ends → Forall (λ req, queue_request push pop k req = true) (requests l) →
  within list_step k None (requests l) ∧ ∀ s', consistent list_step k None (requests l) l.*2 s' → queue_inv push pop k l s'.
Proof.
  intros Hends F. apply (conversation list_step k l (queue_inv push pop k)); [|split; [done|]; exists []; split; [unfold line; by destruct (String.eqb push "lpush")|done]].
  intros pre x post s E I. destruct (about k x.1.2) eqn:Ea; [|by apply queue_other].
  assert (queue_request push pop k x.1.2 = true) as Hq.
  { rewrite E, requests_app in F. apply Forall_app in F as [_ F]. rewrite requests_cons in F. by apply Forall_cons in F as [F _]. }
  destruct (queue_step push pop k pre x.1.2 s Hends Hq Ea I) as (r & s' & Hr & Hi & _).
  eexists. split; [exact Hr|]. intros c r' s1 [-> ->]. apply Hi.
Qed.

(** First in, first out, nothing lost and nothing twice: the values put in are those handed out followed by those waiting. *)
Theorem C78_queue push pop k d0 l d : (push, pop) ∈ queue_ends → reachable ext d0 → answers ext d0 ["EXISTS"; k] (RInt 0) →
  Forall (λ req, queue_request push pop k req = true) (asked_in l) → talk ext l.*1 d0 = Ret (d, l.*2) →
  ∃ waiting, put_in push k l = handed_out pop k l ++ waiting ∧ answers ext d ["LLEN"; k] (RInt (zlen waiting)) ∧
    answers ext d ["LRANGE"; k; "0"; "-1"] (bulks (line push waiting)).
Proof.
  intros Hends Hr Ha F H. destruct (queue_conversation push pop k l Hends F) as [W C].
  destruct (C20_sequence ext d0 k None l.*1 d l.*2 (C20_start ext d0 k Hr Ha) H W) as (s & Cs & K).
  destruct (C s Cs) as (_ & w & Hw & Hp). exists w. split; [done|]. destruct (C20_shown ext d k s K) as (_ & _ & HL & HR). rewrite Hw in HL, HR. split; [|done].
  assert (zlen (line push w) = zlen w) as E by (unfold line, zlen; by destruct (String.eqb push "lpush"); rewrite ?reverse_length). by rewrite <- E.
Qed.
Lemma nodup_concat {B} (L : list (list B)) : ∀ i j a b x, NoDup (concat L) → L !! i = Some a → L !! j = Some b → i ≠ j → x ∈ a → x ∉ b.
Proof.
  induction L as [|c L IH]; intros i j a b x N Hi Hj D Ha Hb; [done|]. cbn [concat] in N. apply NoDup_app in N as (N1 & N2 & N3).
  assert (∀ y m e, L !! m = Some e → y ∈ e → y ∈ concat L) as G.
  { intros y m e Hm Hy. apply elem_of_list_In, in_concat. exists e. split; apply elem_of_list_In; [by eapply elem_of_list_lookup_2|done]. }
  destruct i as [|i], j as [|j]; cbn in Hi, Hj; [done| | |].
  - injection Hi as ->. eapply N2; [exact Ha|by eapply G].
  - injection Hj as ->. eapply N2; [exact Hb|by eapply G].
  - eapply (IH i j); try done. congruence.
Qed.
(** No value is handed out twice (if none was put in twice). *)
Theorem C78_once push pop k d0 l d i j x y job : (push, pop) ∈ queue_ends → reachable ext d0 → answers ext d0 ["EXISTS"; k] (RInt 0) →
  Forall (λ req, queue_request push pop k req = true) (asked_in l) → talk ext l.*1 d0 = Ret (d, l.*2) → NoDup (put_in push k l) →
  l !! i = Some x → l !! j = Some y → i ≠ j → asks_for pop k x.1.2 = true → asks_for pop k y.1.2 = true →
  job ∈ texts x.2 → job ∉ texts y.2.
Proof.
  intros Hends Hr Ha F H N Hi Hj D Px Py. destruct (C78_queue push pop k d0 l d Hends Hr Ha F H) as (w & Hp & _). rewrite Hp in N.
  apply NoDup_app in N as (N & _). unfold handed_out in N.
  apply (nodup_concat _ i j (texts x.2) (texts y.2) job N); [| |done].
  - unfold exchange in *. rewrite list_lookup_fmap, Hi. cbn. by rewrite Px.
  - unfold exchange in *. rewrite list_lookup_fmap, Hj. cbn. by rewrite Py.
Qed.
Lemma talk_prefix l1 l2 d0 d : talk ext (l1 ++ l2).*1 d0 = Ret (d, (l1 ++ l2).*2) → ∃ d1, talk ext l1.*1 d0 = Ret (d1, l1.*2) ∧ talk ext l2.*1 d1 = Ret (d, l2.*2).
Proof.
  rewrite !fmap_app, talk_app. intros H. apply obind_ret in H as ([d1 r1] & T1 & H). apply obind_ret in H as ([d2 r2] & T2 & H). injection H as -> E.
  apply talk_length in T1 as L1. rewrite fmap_length in L1. apply app_inj_1 in E as [-> ->]; [|by rewrite fmap_length]. by exists d1.
Qed.
(** Whatever a request gets out of the queue was put in by an earlier one. *)
Theorem C78_from_push push pop k d0 l d i x job : (push, pop) ∈ queue_ends → reachable ext d0 → answers ext d0 ["EXISTS"; k] (RInt 0) →
  Forall (λ req, queue_request push pop k req = true) (asked_in l) → talk ext l.*1 d0 = Ret (d, l.*2) →
  l !! i = Some x → asks_for pop k x.1.2 = true → job ∈ texts x.2 →
  ∃ j y, (j < i)%nat ∧ l !! j = Some y ∧ asks_for push k y.1.2 = true ∧ job ∈ values y.1.2.
Proof.
  intros Hends Hr Ha F H Hi Px Hx. rewrite <- (take_drop (S i) l) in H, F. apply talk_prefix in H as (d1 & H & _).
  unfold asked_in in F. rewrite !fmap_app in F. apply Forall_app in F as [F _].
  destruct (C78_queue push pop k d0 _ d1 Hends Hr Ha F H) as (w & Hp & _).
  assert (job ∈ put_in push k (take (S i) l)) as Hj.
  { rewrite Hp. apply elem_of_app. left. erewrite take_S_r by exact Hi. rewrite handed_out_app, handed_out_one, Px. apply elem_of_app. by right. }
  unfold put_in in Hj. apply elem_of_list_In, in_concat in Hj as (e & He & Hj). apply elem_of_list_In in He, Hj.
  apply elem_of_list_fmap in He as (y & -> & Hy). destruct (asks_for push k y.1.2) eqn:Py; [|by apply elem_of_nil in Hj].
  apply elem_of_list_lookup in Hy as (j & Hy). apply lookup_lt_Some in Hy as Lt. rewrite take_length in Lt. rewrite lookup_take in Hy by lia.
  destruct (decide (j = i)) as [->|]; [|exists j, y; split; [lia|done]].
  assert (y = x) as -> by (unfold exchange in *; rewrite Hy in Hi; congruence). exfalso. apply asks_for_spec in Py as (n & a & E & Hn). rewrite E, asks_for_name, Hn in Px.
  unfold queue_ends in Hends. by apply elem_of_cons in Hends as [[= -> ->]|[= -> ->]%elem_of_list_singleton].
Qed.
(** A request gets as many values as it asks for, or all that wait. *)
Theorem C78_size push pop k d0 l x d : (push, pop) ∈ queue_ends → reachable ext d0 → answers ext d0 ["EXISTS"; k] (RInt 0) →
  Forall (λ req, queue_request push pop k req = true) (asked_in (l ++ [x])) → talk ext (l ++ [x]).*1 d0 = Ret (d, (l ++ [x]).*2) →
  asks_for pop k x.1.2 = true →
  length (texts x.2) = (wanted x.1.2 `min` (length (put_in push k l) - length (handed_out pop k l)))%nat.
Proof.
  intros Hends Hr Ha F H Px. apply talk_prefix in H as (d1 & H1 & H2).
  unfold asked_in in F. rewrite !fmap_app in F. apply Forall_app in F as [F Fx]. cbn in Fx. apply Forall_cons in Fx as [Fx _].
  destruct (queue_conversation push pop k l Hends F) as [W C].
  destruct (C20_sequence ext d0 k None l.*1 d1 l.*2 (C20_start ext d0 k Hr Ha) H1 W) as (s & Cs & K). pose proof (C s Cs) as I.
  assert (about k x.1.2 = true) as Eab.
  { unfold queue_ends in Hends. apply elem_of_cons in Hends as [[= -> ->]|[= -> ->]%elem_of_list_singleton]; by apply (asked_about _ _ _ Px). }
  destruct (queue_step push pop k l x.1.2 s Hends Fx Eab I) as (r & s' & Hs & _ & L).
  destruct x as [[c req] r0]. cbn [fst snd] in *.
  destruct (C20_sequence ext d1 k s [(c, req)] d [r0] K H2) as (s2 & C2 & _).
  { cbn. rewrite Eab, Hs. done. }
  inversion C2 as [|? ? R0 r1 s1 ? ? ? Ea Es HR C'|? ? ? ? ? ? Ea C']; subst; [|cbn in Ea; congruence].
  rewrite Hs in Es. injection Es as <-. destruct HR as [-> _]. rewrite (L Px). f_equal. destruct I as (_ & w & Hw & Hp).
  rewrite Hp, Hw, app_length. unfold line. destruct (String.eqb push "lpush"); rewrite ?reverse_length; lia.
Qed.

(** ** running servers *)
Lemma spoken_1 h rs : length rs = length h → (spoken h rs).*1 = as_history h.
Proof. intros L. unfold spoken. apply fst_zip. unfold as_history. rewrite fmap_length. lia. Qed.
Lemma spoken_2 h rs : length rs = length h → (spoken h rs).*2 = rs.
Proof. intros L. unfold spoken. apply snd_zip. unfold as_history. rewrite fmap_length. lia. Qed.
Lemma spoken_talk h d rs : talk ext (as_history h) db_new = Ret (d, rs) → talk ext (spoken h rs).*1 db_new = Ret (d, (spoken h rs).*2).
Proof.
  intros T. apply talk_length in T as L. unfold as_history in L. rewrite fmap_length in L. by rewrite spoken_1, spoken_2.
Qed.
Lemma spoken_asked h rs : length rs = length h → asked_in (spoken h rs) = what <$> h.
Proof. intros L. unfold asked_in. rewrite spoken_1 by done. unfold as_history. rewrite <- list_fmap_compose. done. Qed.
Lemma spoken_at h rs i x r : h !! i = Some x → rs !! i = Some r → spoken h rs !! i = Some (how x, what x, r).
Proof. intros H1 H2. unfold spoken. rewrite lookup_zip_with. unfold as_history. rewrite list_lookup_fmap, H1. cbn. by rewrite H2. Qed.
Lemma reply_unique b v v' : is_reply b v → is_reply b v' → v = v'.
Proof. intros H H'. specialize (H ""). specialize (H' ""). rewrite H in H'. by injection H' as ->. Qed.
Lemma deadline_texts v : is_reply deadline_bytes v → texts (Some v) = [].
Proof. intros H. specialize (H ""). vm_compute in H. injection H as <-. done. Qed.

(** what a request got, if not the message of the deadline, is its reply in the conversation *)
Definition service (h : list call) (got : call → string → Prop) (d : db) : Prop :=
  ∃ rs, talk ext (as_history h) db_new = Ret (d, rs) ∧ length rs = length h ∧ NoDup (who <$> h) ∧
  ∀ x b v, x ∈ h → got x b → is_reply b v → b = deadline_bytes ∨ ∃ i, h !! i = Some x ∧ spoken h rs !! i = Some (how x, what x, Some v).
Definition got2 (tr : list label) (x : call) (b : string) : Prop := ∃ c, LWrite (who x) c b ∈ tr.
Lemma service2 max ps tr s : runs ext max ps tr s → service (calls tr) (got2 tr) (c_db s).
Proof.
  intros R. destruct (C07_serial _ _ _ _ _ R) as (rs & T & N & _ & _ & _ & W). exists rs. split; [exact T|].
  pose proof (talk_length _ _ _ _ _ T) as L. unfold as_history in L. rewrite fmap_length in L. split; [done|]. split; [done|].
  intros x b v Hx [c Hw] Hv. destruct (W _ _ _ Hw) as (f & _ & [[-> _]|(i & y & v' & Hi & Hy & _ & Hr & Hv')]); [by left|right].
  pose proof (reply_unique b v v' Hv Hv') as <-. apply elem_of_list_lookup in Hx as [j Hj].
  assert (j = i) as ->. { eapply (NoDup_lookup (who <$> calls tr)); [exact N|by rewrite list_lookup_fmap, Hj|rewrite list_lookup_fmap, Hi; cbn; by rewrite Hy]. }
  rewrite Hi in Hj. injection Hj as ->. exists i. split; [done|]. by apply spoken_at.
Qed.
Definition got1 (tr : list vlabel) (x : call) (b : string) : Prop := ∃ k n, written k tr !! n = Some (who x, b).
Lemma service1 max tr s : runs1 ext max tr s → service (calls1 tr) (got1 tr) (c_db (v_pool s)).
Proof.
  intros R. destruct (C57_in_order _ _ _ _ R) as (rs & T & N & _ & W). exists rs. split; [exact T|].
  pose proof (talk_length _ _ _ _ _ T) as L. unfold as_history in L. rewrite fmap_length in L. split; [done|]. split; [done|].
  intros x b v Hx (k & n & Hw) Hv. destruct (W _ _ _ _ Hw) as (q & _ & [[-> _]|(i & y & v' & Hi & Hy & _ & Hr & Hv')]); [by left|right].
  pose proof (reply_unique b v v' Hv Hv') as <-. apply elem_of_list_lookup in Hx as [j Hj].
  assert (j = i) as ->. { eapply (NoDup_lookup (who <$> calls1 tr)); [exact N|by rewrite list_lookup_fmap, Hj|rewrite list_lookup_fmap, Hi; cbn; by rewrite Hy]. }
  rewrite Hi in Hj. injection Hj as ->. exists i. split; [done|]. by apply spoken_at.
Qed.
Lemma pushed_put_in push k h rs : length rs = length h → put_in push k (spoken h rs) = pushed push k h.
Proof.
  intros L. pose proof (spoken_asked h rs L) as E. unfold put_in, pushed. f_equal. revert E. generalize (spoken h rs). clear. intros l.
  revert h. induction l as [|x l IH]; intros [|y h] E; try done. cbn in E. injection E as E1 E2. rewrite !fmap_cons, E1. f_equal. by apply IH.
Qed.
Lemma service_jobs h got d push pop k x1 b1 v1 : service h got d → (push, pop) ∈ queue_ends →
  (∀ x, x ∈ h → queue_request push pop k (what x) = true) →
  x1 ∈ h → asks_for pop k (what x1) = true → got x1 b1 → is_reply b1 v1 →
  (∀ job, job ∈ texts (Some v1) → job ∈ pushed push k h) ∧
  (NoDup (pushed push k h) → ∀ x2 b2 v2 job, x2 ∈ h → who x1 ≠ who x2 → asks_for pop k (what x2) = true → got x2 b2 →
     is_reply b2 v2 → job ∈ texts (Some v1) → job ∉ texts (Some v2)).
Proof.
  intros R Hends Q Hx1 P1 W1 V1. destruct R as (rs & T & L & N & Hc). apply spoken_talk in T.
  assert (Forall (λ req, queue_request push pop k req = true) (asked_in (spoken h rs))) as F.
  { rewrite spoken_asked by done. apply Forall_forall. intros req (x & -> & Hx)%elem_of_list_fmap. by apply Q. }
  assert (reachable ext db_new) as Hr by (by exists [], []). assert (answers ext db_new ["EXISTS"; k] (RInt 0)) as Ha by apply db_new_absent.
  destruct (Hc x1 b1 v1 Hx1 W1 V1) as [->|(i & Hi & Si)].
  { rewrite (deadline_texts v1 V1). split; [intros job Hj; by apply elem_of_nil in Hj|]. intros _ x2 b2 v2 job _ _ _ _ _ Hj. by apply elem_of_nil in Hj. }
  split.
  - intros job Hj. destruct (C78_queue push pop k db_new _ _ Hends Hr Ha F T) as (w & Hp & _). rewrite pushed_put_in in Hp by done. rewrite Hp.
    apply elem_of_app. left. unfold handed_out. apply elem_of_list_In, in_concat. exists (texts (Some v1)). split; apply elem_of_list_In; [|done].
    apply elem_of_list_fmap. exists (how x1, what x1, Some v1). cbn. rewrite P1. split; [done|]. by eapply elem_of_list_lookup_2.
  - intros ND x2 b2 v2 job Hx2 D P2 W2 V2 J1. destruct (Hc x2 b2 v2 Hx2 W2 V2) as [->|(j & Hj & Sj)]; [rewrite (deadline_texts v2 V2); apply not_elem_of_nil|].
    rewrite <- (pushed_put_in push k h rs L) in ND. eapply (C78_once push pop k db_new _ _ i j _ _ job Hends Hr Ha F T ND Si Sj); try done.
    intros ->. rewrite Hi in Hj. congruence.
Qed.
(** Clients of a running server: what one gets out of the queue no other gets, and somebody put it in. *)
Theorem C78_clients max ps tr s push pop k x1 c1 b1 v1 : runs ext max ps tr s → (push, pop) ∈ queue_ends →
  (∀ x, x ∈ calls tr → queue_request push pop k (what x) = true) →
  x1 ∈ calls tr → asks_for pop k (what x1) = true → LWrite (who x1) c1 b1 ∈ tr → is_reply b1 v1 →
  (∀ job, job ∈ texts (Some v1) → job ∈ pushed push k (calls tr)) ∧
  (NoDup (pushed push k (calls tr)) → ∀ x2 c2 b2 v2 job, x2 ∈ calls tr → who x1 ≠ who x2 → asks_for pop k (what x2) = true → LWrite (who x2) c2 b2 ∈ tr →
     is_reply b2 v2 → job ∈ texts (Some v1) → job ∉ texts (Some v2)).
Proof.
  intros R Hends Q Hx1 P1 W1 V1. destruct (service_jobs _ _ _ push pop k x1 b1 v1 (service2 _ _ _ _ R) Hends Q Hx1 P1 ltac:(by exists c1) V1) as [H1 H2]. split; [done|].
  intros ND x2 c2 b2 v2 job Hx2 D P2 W2. apply (H2 ND x2 b2 v2 job Hx2 D P2). by exists c2.
Qed.
(** The same for the other server. *)
Theorem C78_clients1 max tr s push pop k x1 k1 n1 b1 v1 : runs1 ext max tr s → (push, pop) ∈ queue_ends →
  (∀ x, x ∈ calls1 tr → queue_request push pop k (what x) = true) →
  x1 ∈ calls1 tr → asks_for pop k (what x1) = true → written k1 tr !! n1 = Some (who x1, b1) → is_reply b1 v1 →
  (∀ job, job ∈ texts (Some v1) → job ∈ pushed push k (calls1 tr)) ∧
  (NoDup (pushed push k (calls1 tr)) → ∀ x2 k2 n2 b2 v2 job, x2 ∈ calls1 tr → who x1 ≠ who x2 → asks_for pop k (what x2) = true →
     written k2 tr !! n2 = Some (who x2, b2) → is_reply b2 v2 → job ∈ texts (Some v1) → job ∉ texts (Some v2)).
Proof.
  intros R Hends Q Hx1 P1 W1 V1. destruct (service_jobs _ _ _ push pop k x1 b1 v1 (service1 _ _ _ R) Hends Q Hx1 P1 ltac:(by exists k1, n1) V1) as [H1 H2]. split; [done|].
  intros ND x2 k2 n2 b2 v2 job Hx2 D P2 W2. apply (H2 ND x2 b2 v2 job Hx2 D P2). by exists k2, n2.
Qed.

(** ** C79: INCR hands out each number once *)
Definition counts (z : Z) (s : option string) : Prop := s = Some (itoa z) ∨ s = None ∧ z = 0.
Lemma numbers_S z n : numbers z (S n) = numbers z n ++ [z + 1 + Z.of_nat n].
Proof. unfold numbers. rewrite seq_S, fmap_app. done. Qed.
Lemma replies_to_app name k l1 l2 : replies_to name k (l1 ++ l2) = replies_to name k l1 ++ replies_to name k l2.
Proof. unfold replies_to. apply omap_app. Qed.
Lemma replies_to_count name k l1 l2 : requests l1 = requests l2 → length (replies_to name k l1) = length (replies_to name k l2).
Proof.
  unfold requests. revert l2. induction l1 as [|x l1 IH]; intros [|y l2] H; try done. rewrite !fmap_cons in H. injection H as H1 H2.
  specialize (IH l2 H2). unfold replies_to in *. cbn. rewrite H1. destruct (asks_for name k y.1.2); cbn; congruence.
Qed.
Definition counter_inv (k : string) (z : Z) (pre : list exchange) (s : option string) : Prop :=
  let n := length (replies_to "incr" k pre) in
  replies_to "incr" k pre = (λ i, Some (RInt i)) <$> numbers z n ∧ counts (z + Z.of_nat n) s.
Lemma counter_step k z l pre x post s : requests l = requests (pre ++ x :: post) → in_int64 z = true →
  in_int64 (z + Z.of_nat (length (replies_to "incr" k l))) = true →
  counter_request k x.1.2 = true → counter_inv k z pre s →
  if about k x.1.2 then ∃ R, string_step x.1.2 s = Some R ∧ ∀ c r s', R r s' → counter_inv k z (pre ++ [(c, x.1.2, Some r)]) s' else counter_inv k z (pre ++ [x]) s.
Proof.
  intros E Z0 Hz Hq [Hp Hs]. destruct (about k x.1.2) eqn:Ea.
  - unfold counter_request in Hq. rewrite Ea in Hq. cbn [negb orb] in Hq. apply asks_for_any_spec in Hq as (n & a & Ex & Hn). rewrite Ex.
    apply elem_of_cons in Hn as [Hn|Hn].
    + assert (∃ v, string_step (n :: k :: a) s = exactly (RInt (z + 1 + Z.of_nat (length (replies_to "incr" k pre)))) v ∧ counts (z + Z.of_nat (S (length (replies_to "incr" k pre)))) v) as (v & Hv & Cv).
      { assert (S (length (replies_to "incr" k pre)) ≤ length (replies_to "incr" k l))%nat as Hle.
        { rewrite (replies_to_count "incr" k l _ E), replies_to_app, app_length. unfold replies_to at 3. cbn [omap list_omap]. rewrite Ex, asks_for_name, Hn. cbn. lia. }
        apply in_int64_spec in Z0, Hz. assert (∀ m, z ≤ m ≤ z + Z.of_nat (length (replies_to "incr" k l)) → in_int64 m = true) as G.
        { intros m Hm. apply in_int64_spec. lia. }
        unfold string_step. erewrite table_row by (rewrite Hn; reflexivity). cbv beta iota. unfold add_int.
        destruct Hs as [->|[-> H0]].
        - rewrite parse_int_itoa by (apply in_int64_spec, G; lia). rewrite G by lia. eexists. split; [f_equal; f_equal; lia|]. left. do 2 f_equal. lia.
        - rewrite (G 1) by lia. eexists. split; [f_equal; f_equal; lia|]. left. do 2 f_equal. lia. }
      eexists. split; [exact Hv|]. intros c r s' [-> ->]. unfold counter_inv.
      assert (replies_to "incr" k (pre ++ [(c, n :: k :: a, Some (RInt (z + 1 + Z.of_nat (length (replies_to "incr" k pre)))))]) =
        replies_to "incr" k pre ++ [Some (RInt (z + 1 + Z.of_nat (length (replies_to "incr" k pre))))]) as Er.
      { rewrite replies_to_app. f_equal. unfold replies_to. cbn [omap list_omap fst snd]. rewrite asks_for_name, Hn. done. }
      rewrite Er, app_length. cbn [length]. rewrite Nat.add_1_r. split; [|done]. rewrite numbers_S, fmap_app, <- Hp. done.
    + assert (asks_for "incr" k (n :: k :: a) = false) as Hi.
      { rewrite asks_for_name. repeat (apply elem_of_cons in Hn as [->|Hn]; [done|]). by apply elem_of_nil in Hn. }
      assert (∃ r, string_step (n :: k :: a) s = exactly r s) as [r Hr].
      { unfold string_step. repeat (apply elem_of_cons in Hn as [Hn|Hn]; [erewrite table_row by (rewrite Hn; reflexivity); cbv beta iota; eexists; reflexivity|]). by apply elem_of_nil in Hn. }
      eexists. split; [exact Hr|]. intros c r' s' [-> ->]. unfold counter_inv.
      assert (replies_to "incr" k (pre ++ [(c, n :: k :: a, Some r)]) = replies_to "incr" k pre) as ->; [|done].
      rewrite replies_to_app. unfold replies_to at 2. cbn [omap list_omap fst snd]. rewrite Hi. apply app_nil_r.
  - unfold counter_inv. assert (replies_to "incr" k (pre ++ [x]) = replies_to "incr" k pre) as ->; [|done].
    rewrite replies_to_app. unfold replies_to at 2. cbn [omap list_omap].
    destruct (asks_for "incr" k x.1.2) eqn:Ei; [|apply app_nil_r]. by rewrite (asked_about _ _ _ Ei) in Ea.
Qed.
Lemma counter_conversation k z s l : in_int64 z = true → counts z s → in_int64 (z + Z.of_nat (length (replies_to "incr" k l))) = true →
  Forall (λ req, counter_request k req = true) (requests l) →
  within string_step k s (requests l) ∧ ∀ s', consistent string_step k s (requests l) l.*2 s' → counter_inv k z l s'.
Proof.
  intros Z0 Cs Hz F. apply (conversation string_step k l (counter_inv k z)).
  - intros pre x post s0 E I. eapply counter_step; try done. rewrite E, requests_app in F. apply Forall_app in F as [_ F]. rewrite requests_cons in F. by apply Forall_cons in F as [F _].
  - split; [done|]. cbn. by rewrite Z.add_0_r.
Qed.
Lemma counts_at d k z : in_int64 z = true → number_at ext d k z ↔ ∃ s, string_at ext d k s ∧ counts z s.
Proof.
  intros Hz. split.
  - intros [_ [H|[H ->]]]; [exists (Some (itoa z)); split; [done|by left]|exists None; split; [done|by right]].
  - intros (s & H & [->|[-> ->]]); (split; [done|]); [by left|by right].
Qed.
(** As long as the numbers are 64-bit integers, the INCR requests get the numbers after [z], one after the other. *)
Theorem C79_numbers k z d0 l d : reachable ext d0 → number_at ext d0 k z → Forall (λ req, counter_request k req = true) (asked_in l) →
  talk ext l.*1 d0 = Ret (d, l.*2) → let n := length (replies_to "incr" k l) in in_int64 (z + Z.of_nat n) = true →
  replies_to "incr" k l = (λ i, Some (RInt i)) <$> numbers z n ∧ number_at ext d k (z + Z.of_nat n).
Proof.
  intros Hr Hn F H n Hz. pose proof Hn as [Z0 _]. apply counts_at in Hn as (s & Hs & Cs); [|done].
  destruct (counter_conversation k z s l Z0 Cs Hz F) as [W C].
  destruct (C16_string_variable ext d0 k s l.*1 d l.*2 Hr Hs H W) as (s' & Cs' & S'). destruct (C s' Cs') as [I1 I2].
  split; [exact I1|]. apply counts_at; [done|]. by exists s'.
Qed.
Lemma numbers_nodup z n : NoDup ((λ i, Some (RInt i)) <$> numbers z n).
Proof.
  apply NoDup_fmap_2; [intros ? ? [=]; done|]. unfold numbers. apply NoDup_fmap_2; [intros ? ? ?; lia|]. apply NoDup_seq.
Qed.
Lemma service_numbers h got d k x1 x2 b1 b2 n1 n2 : service h got d → Z.of_nat (length h) < two63 →
  (∀ x, x ∈ h → counter_request k (what x) = true) →
  x1 ∈ h → x2 ∈ h → who x1 ≠ who x2 → asks_for "incr" k (what x1) = true → asks_for "incr" k (what x2) = true →
  got x1 b1 → got x2 b2 → is_reply b1 (RInt n1) → is_reply b2 (RInt n2) →
  n1 ≠ n2 ∧ 0 < n1 ≤ Z.of_nat (length h).
Proof.
  intros R Hlen Q Hx1 Hx2 D P1 P2 W1 W2 V1 V2. destruct R as (rs & T & L & N & Hc). apply spoken_talk in T.
  assert (∀ v, is_reply deadline_bytes (RInt v) → False) as DL by (intros v H; specialize (H ""); vm_compute in H; discriminate H).
  destruct (Hc x1 b1 _ Hx1 W1 V1) as [->|(i & Hi & Si)]; [by apply DL in V1|]. destruct (Hc x2 b2 _ Hx2 W2 V2) as [->|(j & Hj & Sj)]; [by apply DL in V2|].
  assert (length (replies_to "incr" k (spoken h rs)) ≤ length h)%nat as Hle.
  { assert (length (spoken h rs) = length h) as <- by (unfold spoken, as_history; rewrite zip_with_length, fmap_length; lia).
    unfold replies_to. generalize (spoken h rs). intros l. induction l as [|y l IH]; [done|]. cbn. destruct (asks_for "incr" k y.1.2); cbn; lia. }
  destruct (C79_numbers k 0 db_new (spoken h rs) d) as [E _].
  { by exists [], []. }
  { split; [done|]. right. split; [|done]. apply db_new_absent. }
  { rewrite spoken_asked by done. apply Forall_forall. intros req (x & -> & Hx)%elem_of_list_fmap. by apply Q. }
  { exact T. }
  { apply in_int64_spec. unfold two63 in *. lia. }
  pose proof (numbers_nodup 0 (length (replies_to "incr" k (spoken h rs)))) as ND. rewrite <- E in ND. split.
  - intros <-. assert (i = j) as ->; [|rewrite Hi in Hj; congruence].
    eapply (unique_lookup (λ x : exchange, if asks_for "incr" k x.1.2 then Some x.2 else None)); [exact ND|exact Si|exact Sj|cbn; by rewrite P1|cbn; by rewrite P2].
  - assert (Some (RInt n1) ∈ replies_to "incr" k (spoken h rs)) as Hin.
    { unfold replies_to. apply elem_of_list_omap. exists (how x1, what x1, Some (RInt n1)). split; [by eapply elem_of_list_lookup_2|]. cbn [fst snd]. by rewrite P1. }
    rewrite E in Hin. apply elem_of_list_fmap in Hin as (m & [= ->] & Hm). unfold numbers in Hm. apply elem_of_list_fmap in Hm as (y & -> & Hy%elem_of_seq). lia.
Qed.
(** Clients of a running server never get the same number. *)
Theorem C79_clients max ps tr s k x1 x2 c1 c2 b1 b2 n1 n2 : runs ext max ps tr s → Z.of_nat (length (calls tr)) < two63 →
  (∀ x, x ∈ calls tr → counter_request k (what x) = true) →
  x1 ∈ calls tr → x2 ∈ calls tr → who x1 ≠ who x2 → asks_for "incr" k (what x1) = true → asks_for "incr" k (what x2) = true →
  LWrite (who x1) c1 b1 ∈ tr → LWrite (who x2) c2 b2 ∈ tr → is_reply b1 (RInt n1) → is_reply b2 (RInt n2) →
  n1 ≠ n2 ∧ 0 < n1 ≤ Z.of_nat (length (calls tr)).
Proof.
  intros R Hl Q Hx1 Hx2 D P1 P2 W1 W2. apply (service_numbers _ _ _ k x1 x2 b1 b2 n1 n2 (service2 _ _ _ _ R)); try done; [by exists c1|by exists c2].
Qed.
Theorem C79_clients1 max tr s k x1 x2 k1 k2 i1 i2 b1 b2 n1 n2 : runs1 ext max tr s → Z.of_nat (length (calls1 tr)) < two63 →
  (∀ x, x ∈ calls1 tr → counter_request k (what x) = true) →
  x1 ∈ calls1 tr → x2 ∈ calls1 tr → who x1 ≠ who x2 → asks_for "incr" k (what x1) = true → asks_for "incr" k (what x2) = true →
  written k1 tr !! i1 = Some (who x1, b1) → written k2 tr !! i2 = Some (who x2, b2) → is_reply b1 (RInt n1) → is_reply b2 (RInt n2) →
  n1 ≠ n2 ∧ 0 < n1 ≤ Z.of_nat (length (calls1 tr)).
Proof.
  intros R Hl Q Hx1 Hx2 D P1 P2 W1 W2. apply (service_numbers _ _ _ k x1 x2 b1 b2 n1 n2 (service1 _ _ _ R)); try done; [by exists k1, i1|by exists k2, i2].
Qed.

(** ** C80: adding one token to a set is taking a lock *)
Lemma turns_app k t l1 l2 : turns k t (l1 ++ l2) = turns k t l1 ++ turns k t l2.
Proof. unfold turns. apply omap_app. Qed.
Lemma alternate_snoc l x : ∀ b, alternate b l → x = (match last l with Some y => negb y | None => b end) → alternate b (l ++ [x]).
Proof.
  induction l as [|y l IH]; intros b H E; [done|]. cbn [app alternate] in *. destruct H as [-> H]. split; [done|]. apply IH; [done|]. rewrite E.
  destruct l as [|z l]; [reflexivity|]. cbn [last]. destruct (last (z :: l)) eqn:El; [done|]. by apply last_None in El.
Qed.
Lemma alternate_held l x : alternate true l → x = negb (held l) → alternate true (l ++ [x]).
Proof. intros H E. apply alternate_snoc; [done|]. rewrite E. unfold held. by destruct (last l). Qed.
Lemma held_snoc l x : held (l ++ [x]) = x.
Proof. unfold held. by rewrite last_snoc. Qed.
Definition lock_inv (k t : string) (pre : list exchange) (s : set_value) : Prop :=
  alternate true (turns k t pre) ∧ bool_decide (t ∈ members s) = held (turns k t pre).
(** the turn that one exchange makes *)
Definition turn (k t : string) (x : exchange) : list bool :=
  if succeeded x.2 then if takes k t x.1.2 then [true] else if frees k t x.1.2 then [false] else [] else [].
Lemma turns_one k t x : turns k t [x] = turn k t x.
Proof. unfold turns, turn. cbn. destruct (succeeded x.2), (takes k t x.1.2), (frees k t x.1.2); done. Qed.
Lemma lock_stay k t pre x s s' : lock_inv k t pre s → turn k t x = [] → (t ∈ members s' ↔ t ∈ members s) → lock_inv k t (pre ++ [x]) s'.
Proof.
  intros [H1 H2] E Hm. unfold lock_inv. rewrite turns_app, turns_one, E, app_nil_r. split; [done|]. rewrite <- H2. by apply bool_decide_ext.
Qed.
Lemma lock_turn k t pre x s s' b : lock_inv k t pre s → turn k t x = [b] → bool_decide (t ∈ members s) = negb b → bool_decide (t ∈ members s') = b → lock_inv k t (pre ++ [x]) s'.
Proof.
  intros [H1 H2] E Hm Hm'. unfold lock_inv. rewrite turns_app, turns_one, E, held_snoc. split; [|done]. apply alternate_held; [done|]. rewrite <- H2, Hm. by rewrite negb_involutive.
Qed.
Lemma one_member (t y : string) : y ∈ (list_to_set [t] : gset string) ↔ y = t.
Proof. cbn. set_solver. Qed.
Lemma size_in (t : string) (X : gset string) : size ((list_to_set [t] : gset string) ∖ X) = if bool_decide (t ∈ X) then 0%nat else 1%nat.
Proof.
  cbn. rewrite union_empty_r_L. case_bool_decide as H.
  - replace ({[t]} ∖ X) with (∅ : gset string) by set_solver. apply size_empty.
  - replace ({[t]} ∖ X) with ({[t]} : gset string) by set_solver. apply size_singleton.
Qed.
Lemma size_of (t : string) (X : gset string) : size (X ∩ (list_to_set [t] : gset string)) = if bool_decide (t ∈ X) then 1%nat else 0%nat.
Proof.
  cbn. rewrite union_empty_r_L. case_bool_decide as H.
  - replace (X ∩ {[t]}) with ({[t]} : gset string) by set_solver. apply size_singleton.
  - replace (X ∩ {[t]}) with (∅ : gset string) by set_solver. apply size_empty.
Qed.
Lemma lock_step k t pre req s : lock_request k req = true → respects k t req = true → about k req = true → lock_inv k t pre s →
  ∃ r s', set_step req s = exactly r s' ∧ (∀ c, lock_inv k t (pre ++ [(c, req, Some r)]) s') ∧
    (takes k t req = true → r = RInt (if held (turns k t pre) then 0 else 1)) ∧ (frees k t req = true → r = RInt (if held (turns k t pre) then 1 else 0)).
Proof.
  intros Hq Hr Ha I. unfold lock_request in Hq. rewrite Ha in Hq. cbn [negb orb] in Hq. pose proof I as [I1 I2]. apply orb_true_iff in Hq as [Hq|Hq].
  - apply andb_true_iff in Hq as [(n & a & -> & Hn)%asks_for_any_spec Hv%negb_true_iff%bool_decide_eq_false]. change (values (n :: k :: a)) with a in Hv.
    unfold respects in Hr. change (values (n :: k :: a)) with a in Hr. cbn [asks_for_any existsb] in Hr.
    assert (∀ r c, turn k t (c, n :: k :: a, Some r) = if succeeded (Some r) then if String.eqb (to_lower n) "sadd" && bool_decide (a = [t]) then [true] else
      if String.eqb (to_lower n) "srem" && bool_decide (a = [t]) then [false] else [] else []) as Et.
    { intros r c. unfold turn, takes, frees. cbn [fst snd]. by rewrite !asks_for_name. }
    unfold takes, frees. rewrite !asks_for_name in *. change (values (n :: k :: a)) with a.
    apply elem_of_cons in Hn as [Hn|Hn]; [|apply elem_of_cons in Hn as [Hn|Hn]; [|apply elem_of_list_singleton in Hn]]; rewrite Hn in *; cbn in Hr.
    + (* SADD *) assert (set_step (n :: k :: a) s = exactly (RInt (Z.of_nat (size ((list_to_set a : gset string) ∖ members s)))) (Some (members s ∪ list_to_set a, surplus s))) as Es.
      { unfold set_step. erewrite table_row by (rewrite Hn; reflexivity). cbv beta iota. by destruct a. }
      destruct (decide (a = [t])) as [->|Na].
      * rewrite size_in in Es.
        eexists _, _. split; [exact Es|]. split; [|split; [intros _; rewrite <- I2; by destruct (bool_decide (t ∈ members s))|intros [=]]].
        intros c. clear I2. destruct (bool_decide (t ∈ members s)) eqn:Hm; [apply bool_decide_eq_true in Hm|apply bool_decide_eq_false in Hm].
        -- eapply lock_stay; [exact I|by rewrite Et|]. cbn [members]. rewrite elem_of_union, one_member. clear -Hm. tauto.
        -- eapply (lock_turn _ _ _ _ _ _ true); [exact I|rewrite Et; cbn; by rewrite bool_decide_eq_true_2|by apply bool_decide_eq_false_2|apply bool_decide_eq_true_2; cbn [members]; rewrite elem_of_union, one_member; by right].
      * rewrite (bool_decide_eq_false_2 _ Na) in *. eexists _, _. split; [exact Es|]. cbn [andb orb String.eqb Ascii.eqb Bool.eqb]. split; [|split; intros [=]].
        intros c. eapply lock_stay; [exact I|rewrite Et; match goal with |- (if ?b then _ else _) = _ => by destruct b end|].
        assert (t ∉ a) as Nt. { cbn in Hr. rewrite orb_false_r in Hr. by apply negb_true_iff, bool_decide_eq_false in Hr. }
        cbn [members]. rewrite elem_of_union, elem_of_list_to_set. clear -Nt. tauto.
    + (* SREM *) assert (set_step (n :: k :: a) s = exactly (RInt (Z.of_nat (size (members s ∩ (list_to_set a : gset string)))))
        (match s with Some (X, dr) => Some (X ∖ list_to_set a, dr) | None => None end)) as Es.
      { unfold set_step. erewrite table_row by (rewrite Hn; reflexivity). cbv beta iota. by destruct a. }
      assert (∀ y, y ∈ members (match s with Some (X, dr) => Some (X ∖ list_to_set a, dr) | None => None end) ↔ y ∈ members s ∧ y ∉ (list_to_set a : gset string)) as Em.
      { intros y. destruct s as [[X dr]|]; cbn [members]; clear; set_solver. }
      destruct (decide (a = [t])) as [->|Na].
      * rewrite size_of in Es.
        eexists _, _. split; [exact Es|]. split; [|split; [intros [=]|intros _; rewrite <- I2; by destruct (bool_decide (t ∈ members s))]].
        intros c. clear I2. destruct (bool_decide (t ∈ members s)) eqn:Hm; [apply bool_decide_eq_true in Hm|apply bool_decide_eq_false in Hm].
        -- eapply (lock_turn _ _ _ _ _ _ false); [exact I|rewrite Et; cbn; by rewrite bool_decide_eq_true_2|by apply bool_decide_eq_true_2|apply bool_decide_eq_false_2; rewrite Em, one_member; clear; tauto].
        -- eapply lock_stay; [exact I|by rewrite Et|]. rewrite Em, one_member. clear -Hm. tauto.
      * rewrite (bool_decide_eq_false_2 _ Na) in *. eexists _, _. split; [exact Es|]. cbn [andb orb String.eqb Ascii.eqb Bool.eqb]. split; [|split; intros [=]].
        intros c. eapply lock_stay; [exact I|rewrite Et; match goal with |- (if ?b then _ else _) = _ => by destruct b end|].
        assert (t ∉ a) as Nt. { cbn in Hr. rewrite orb_false_r in Hr. by apply negb_true_iff, bool_decide_eq_false in Hr. }
        rewrite Em, elem_of_list_to_set. clear -Nt. tauto.
    + (* SISMEMBER *) destruct a as [|v a]; [done|]. eexists _, s. split; [unfold set_step; erewrite table_row by (rewrite Hn; reflexivity); reflexivity|].
      split; [|split; intros [=]]. intros c. eapply lock_stay; [exact I| |done]. rewrite Et. by match goal with |- (if ?b then _ else _) = _ => destruct b end.
  - apply asks_for_any_spec in Hq as (n & a & -> & Hn).
    assert (∃ r, set_step (n :: k :: a) s = exactly r s) as [r Hs].
    { unfold set_step. repeat (apply elem_of_cons in Hn as [Hn|Hn]; [erewrite table_row by (rewrite Hn; reflexivity); cbv beta iota; eexists; reflexivity|]). by apply elem_of_nil in Hn. }
    assert (takes k t (n :: k :: a) = false ∧ frees k t (n :: k :: a) = false) as [E1 E2].
    { unfold takes, frees. rewrite !asks_for_name. repeat (apply elem_of_cons in Hn as [->|Hn]; [done|]). by apply elem_of_nil in Hn. }
    exists r, s. split; [exact Hs|]. rewrite E1, E2. split; [|done]. intros c. eapply lock_stay; [exact I| |done]. unfold turn. cbn [fst snd]. rewrite E1, E2. by match goal with |- (if ?b then _ else _) = _ => destruct b end.
Qed.
Lemma lock_conversation k t l : Forall (λ req, lock_request k req = true ∧ respects k t req = true) (requests l) →
  within set_step k None (requests l) ∧ ∀ s', consistent set_step k None (requests l) l.*2 s' → lock_inv k t l s'.
Proof.
  intros F. apply (conversation set_step k l (lock_inv k t)); [|done]. intros pre x post s E I.
  assert (lock_request k x.1.2 = true ∧ respects k t x.1.2 = true) as [Hq Hr].
  { rewrite E, requests_app in F. apply Forall_app in F as [_ F]. rewrite requests_cons in F. by apply Forall_cons in F as [F _]. }
  destruct (about k x.1.2) eqn:Ea.
  - destruct (lock_step k t pre x.1.2 s Hq Hr Ea I) as (r & s' & Hs & Hi & _). eexists. split; [exact Hs|]. intros c r' s1 [-> ->]. apply Hi.
  - eapply lock_stay; [exact I| |done]. unfold turn, takes, frees.
    destruct (asks_for "sadd" k x.1.2) eqn:E1; [by rewrite (asked_about _ _ _ E1) in Ea|].
    destruct (asks_for "srem" k x.1.2) eqn:E2; [by rewrite (asked_about _ _ _ E2) in Ea|]. by match goal with |- (if ?b then _ else _) = _ => destruct b end.
Qed.
(** The lock is taken, released, taken, and so on: nobody gets it while another has it. *)
Theorem C80_lock k t d0 l d : reachable ext d0 → answers ext d0 ["EXISTS"; k] (RInt 0) →
  Forall (λ req, lock_request k req = true ∧ respects k t req = true) (asked_in l) → talk ext l.*1 d0 = Ret (d, l.*2) →
  alternate true (turns k t l) ∧ answers ext d ["SISMEMBER"; k; t] (RInt (if held (turns k t l) then 1 else 0)).
Proof.
  intros Hr Ha F H. destruct (lock_conversation k t l F) as [W C].
  pose proof (key_is_absent ext false set_step k d0 Hr Ha) as K.
  destruct (key_is_next ext false set_step k set_corr (KeyHist.set_ok ext k true) set_determined eq_refl None d0 l.*1 d l.*2 K ltac:(done) H W) as (s & Cs & K').
  destruct (C s Cs) as [I1 I2]. split; [done|].
  eapply (key_is_answers ext false set_step k set_corr (KeyHist.set_ok ext k true) set_determined eq_refl s d "SISMEMBER" [k; t]); [exact K'|done|done|by apply about_first|].
  unfold set_step. erewrite table_row by reflexivity. cbv beta iota. by rewrite I2.
Qed.
(** What a client is told: 1 if it has got the lock, 0 if another has it. *)
Theorem C80_told k t d0 l x d : reachable ext d0 → answers ext d0 ["EXISTS"; k] (RInt 0) →
  Forall (λ req, lock_request k req = true ∧ respects k t req = true) (asked_in (l ++ [x])) → talk ext (l ++ [x]).*1 d0 = Ret (d, (l ++ [x]).*2) →
  (takes k t x.1.2 = true → x.2 = Some (RInt (if held (turns k t l) then 0 else 1))) ∧
  (frees k t x.1.2 = true → x.2 = Some (RInt (if held (turns k t l) then 1 else 0))).
Proof.
  intros Hr Ha F H. apply talk_prefix in H as (d1 & H1 & H2).
  unfold asked_in in F. rewrite !fmap_app in F. apply Forall_app in F as [F Fx]. cbn in Fx. apply Forall_cons in Fx as [[Fq Fr] _].
  destruct (lock_conversation k t l F) as [W C]. pose proof (key_is_absent ext false set_step k d0 Hr Ha) as K.
  destruct (key_is_next ext false set_step k set_corr (KeyHist.set_ok ext k true) set_determined eq_refl None d0 l.*1 d1 l.*2 K ltac:(done) H1 W) as (s & Cs & K').
  pose proof (C s Cs) as I. destruct x as [[c req] r0]. cbn [fst snd] in *.
  assert (takes k t req || frees k t req = true → ∃ r s', set_step req s = exactly r s' ∧ r0 = Some r ∧
    (takes k t req = true → r = RInt (if held (turns k t l) then 0 else 1)) ∧ (frees k t req = true → r = RInt (if held (turns k t l) then 1 else 0))) as G.
  { intros Ht. assert (about k req = true) as Ea.
    { unfold takes, frees in Ht. apply orb_true_iff in Ht as [[Ht _]%andb_true_iff|[Ht _]%andb_true_iff]; by apply (asked_about _ _ _ Ht). }
    destruct (lock_step k t l req s Fq Fr Ea I) as (r & s' & Hs & _ & T1 & T2). exists r, s'. split; [done|]. split; [|done].
    destruct (key_is_next ext false set_step k set_corr (KeyHist.set_ok ext k true) set_determined eq_refl s d1 [(c, req)] d [r0] K' ltac:(done) H2) as (s2 & C2 & _).
    { cbn. rewrite Ea, Hs. done. }
    inversion C2 as [|? ? R0 r1 s1 ? ? ? Ea' Es HR C'|? ? ? ? ? ? Ea' C']; subst; [|cbn in Ea'; congruence].
    rewrite Hs in Es. injection Es as <-. by destruct HR as [-> _]. }
  split; intros Ht.
  - destruct G as (r & s' & _ & -> & T & _); [by rewrite Ht|]. by rewrite T.
  - destruct G as (r & s' & _ & -> & _ & T); [by rewrite Ht, orb_true_r|]. by rewrite T.
Qed.
(** Whoever gets the lock after another got it, gets it after a release. *)
Lemma all_true_held l1 l2 : (∀ b, b ∈ l2 → b = true) → held (l1 ++ true :: l2) = true.
Proof.
  intros H. unfold held. destruct (last (l1 ++ true :: l2)) as [b|] eqn:E; [|apply last_None in E; by destruct l1]. cbn.
  rewrite last_app_cons in E. apply last_Some in E as [l' E]. assert (b ∈ true :: l2) as Hb by (rewrite E; apply elem_of_app; right; by left).
  apply elem_of_cons in Hb as [->|Hb]; [done|by apply H].
Qed.
Theorem C80_exclusive k t d0 l d i j x y : reachable ext d0 → answers ext d0 ["EXISTS"; k] (RInt 0) →
  Forall (λ req, lock_request k req = true ∧ respects k t req = true) (asked_in l) → talk ext l.*1 d0 = Ret (d, l.*2) →
  l !! i = Some x → l !! j = Some y → (i < j)%nat → takes k t x.1.2 = true → takes k t y.1.2 = true → x.2 = Some (RInt 1) → y.2 = Some (RInt 1) →
  ∃ m z, (i < m < j)%nat ∧ l !! m = Some z ∧ frees k t z.1.2 = true ∧ z.2 = Some (RInt 1).
Proof.
  intros Hr Ha F H Hi Hj Hij Tx Ty Rx Ry.
  assert (l = take i l ++ x :: drop (S i) l) as E1 by (by rewrite take_drop_middle).
  assert (drop (S i) l !! (j - S i)%nat = Some y) as Hj' by (rewrite lookup_drop; by replace (S i + (j - S i))%nat with j by lia).
  set (mid := take (j - S i) (drop (S i) l)). set (post := drop (S (j - S i)) (drop (S i) l)).
  assert (drop (S i) l = mid ++ y :: post) as E2 by (unfold mid, post; by rewrite take_drop_middle).
  destruct (decide (Exists (λ z : exchange, frees k t z.1.2 && succeeded z.2 = true) mid)) as [X|N].
  - apply Exists_exists in X as (z & Hz & [Fz Sz]%andb_true_iff). apply elem_of_list_lookup in Hz as [m Hm]. exists (S i + m)%nat, z.
    apply lookup_lt_Some in Hm as Lt. unfold mid in Lt. rewrite take_length in Lt. unfold mid in Hm. rewrite lookup_take, lookup_drop in Hm by lia.
    split; [lia|]. split; [done|]. split; [done|]. unfold succeeded in Sz. destruct (z.2) as [[| |n| | |]|]; try done. destruct n as [|[]|]; try done.
  - exfalso. rewrite E2 in E1. rewrite E1 in H, F.
    assert (take i l ++ x :: mid ++ y :: post = ((take i l ++ x :: mid) ++ [y]) ++ post) as E3 by (rewrite <- !app_assoc; done).
    rewrite E3 in H, F. apply talk_prefix in H as (d1 & H & _). unfold asked_in in F. rewrite 2!fmap_app in F. apply Forall_app in F as [F _].
    destruct (C80_told k t d0 _ y d1 Hr Ha F H) as [Told _]. specialize (Told Ty). rewrite Ry in Told. revert Told.
    rewrite turns_app. change (x :: mid) with ([x] ++ mid). rewrite turns_app, turns_one. unfold turn. rewrite Rx, Tx. cbn [succeeded app].
    rewrite all_true_held; [done|]. intros b Hb. unfold turns in Hb. apply elem_of_list_omap in Hb as (z & Hz & Eb).
    destruct (succeeded z.2) eqn:Sz; [|done]. destruct (takes k t z.1.2); [congruence|]. destruct (frees k t z.1.2) eqn:Fz; [|done].
    destruct N. apply Exists_exists. exists z. split; [done|]. by rewrite Fz, Sz.
Qed.
Lemma service_lock h got d k t x1 x2 b1 b2 : service h got d →
  (∀ x, x ∈ h → lock_request k (what x) = true ∧ respects k t (what x) = true) →
  x1 ∈ h → x2 ∈ h → who x1 ≠ who x2 → takes k t (what x1) = true → takes k t (what x2) = true →
  got x1 b1 → got x2 b2 → is_reply b1 (RInt 1) → is_reply b2 (RInt 1) →
  ∃ i j m z, h !! i = Some x1 ∧ h !! j = Some x2 ∧ h !! m = Some z ∧ frees k t (what z) = true ∧ (i < m < j ∨ j < m < i)%nat.
Proof.
  intros R Q Hx1 Hx2 D T1 T2 W1 W2 V1 V2. destruct R as (rs & T & L & N & Hc). apply spoken_talk in T.
  assert (∀ v, is_reply deadline_bytes (RInt v) → False) as DL by (intros v H; specialize (H ""); vm_compute in H; discriminate H).
  destruct (Hc x1 b1 _ Hx1 W1 V1) as [->|(i & Hi & Si)]; [by apply DL in V1|]. destruct (Hc x2 b2 _ Hx2 W2 V2) as [->|(j & Hj & Sj)]; [by apply DL in V2|].
  assert (Forall (λ req, lock_request k req = true ∧ respects k t req = true) (asked_in (spoken h rs))) as F.
  { rewrite spoken_asked by done. apply Forall_forall. intros req (x & -> & Hx)%elem_of_list_fmap. by apply Q. }
  assert (∀ m z, spoken h rs !! m = Some z → ∃ y, h !! m = Some y ∧ what y = z.1.2) as G.
  { intros m z Hm. unfold spoken in Hm. apply lookup_zip_with_Some in Hm as (p & r & -> & Hp & _). unfold as_history in Hp.
    rewrite list_lookup_fmap in Hp. destruct (h !! m) as [y|]; [|done]. injection Hp as <-. by exists y. }
  assert (i ≠ j) as Dij by (intros ->; rewrite Hi in Hj; congruence).
  assert (reachable ext db_new) as Hr by (by exists [], []).
  destruct (decide (i < j)%nat).
  - destruct (C80_exclusive k t db_new _ _ i j _ _ Hr (db_new_absent _ _) F T Si Sj) as (m & z & Hm & Hz & Fz & _); try done.
    destruct (G m z Hz) as (y & Hy & Ey). exists i, j, m, y. rewrite Ey. split_and!; try done. by left.
  - destruct (C80_exclusive k t db_new _ _ j i _ _ Hr (db_new_absent _ _) F T Sj Si) as (m & z & Hm & Hz & Fz & _); try done; [lia|].
    destruct (G m z Hz) as (y & Hy & Ey). exists i, j, m, y. rewrite Ey. split_and!; try done. by right.
Qed.
Theorem C80_clients max ps tr s k t x1 x2 c1 c2 b1 b2 : runs ext max ps tr s →
  (∀ x, x ∈ calls tr → lock_request k (what x) = true ∧ respects k t (what x) = true) →
  x1 ∈ calls tr → x2 ∈ calls tr → who x1 ≠ who x2 → takes k t (what x1) = true → takes k t (what x2) = true →
  LWrite (who x1) c1 b1 ∈ tr → LWrite (who x2) c2 b2 ∈ tr → is_reply b1 (RInt 1) → is_reply b2 (RInt 1) →
  ∃ i j m z, calls tr !! i = Some x1 ∧ calls tr !! j = Some x2 ∧ calls tr !! m = Some z ∧ frees k t (what z) = true ∧ (i < m < j ∨ j < m < i)%nat.
Proof.
  intros R Q Hx1 Hx2 D T1 T2 W1 W2. apply (service_lock _ _ _ k t x1 x2 b1 b2 (service2 _ _ _ _ R)); try done; [by exists c1|by exists c2].
Qed.
Theorem C80_clients1 max tr s k t x1 x2 k1 k2 i1 i2 b1 b2 : runs1 ext max tr s →
  (∀ x, x ∈ calls1 tr → lock_request k (what x) = true ∧ respects k t (what x) = true) →
  x1 ∈ calls1 tr → x2 ∈ calls1 tr → who x1 ≠ who x2 → takes k t (what x1) = true → takes k t (what x2) = true →
  written k1 tr !! i1 = Some (who x1, b1) → written k2 tr !! i2 = Some (who x2, b2) → is_reply b1 (RInt 1) → is_reply b2 (RInt 1) →
  ∃ i j m z, calls1 tr !! i = Some x1 ∧ calls1 tr !! j = Some x2 ∧ calls1 tr !! m = Some z ∧ frees k t (what z) = true ∧ (i < m < j ∨ j < m < i)%nat.
Proof.
  intros R Q Hx1 Hx2 D T1 T2 W1 W2. apply (service_lock _ _ _ k t x1 x2 b1 b2 (service1 _ _ _ R)); try done; [by exists k1, i1|by exists k2, i2].
Qed.

(** ** C81: APPEND writes a log *)
Lemma sconcat_app l1 l2 : sconcat (l1 ++ l2) = sconcat l1 +:+ sconcat l2.
Proof. induction l1 as [|x l1 IH]; [done|]. cbn [app sconcat]. by rewrite IH, app_assoc_s. Qed.
Lemma records_app k l1 l2 : records k (l1 ++ l2) = records k l1 +:+ records k l2.
Proof. unfold records. by rewrite fmap_app, sconcat_app. Qed.
Lemma records_one k x : records k [x] = record k x.1.2.
Proof. unfold records. cbn. apply string_app_nil_r. Qed.
Definition appended (k : string) (l : list exchange) : bool := existsb (λ x : exchange, asks_for "append" k x.1.2) l.
Definition log_inv (k v0 : string) (pre : list exchange) (s : option string) : Prop := default "" s = v0 +:+ records k pre ∧ (appended k pre = true → s ≠ None).
Lemma appended_app k l1 l2 : appended k (l1 ++ l2) = appended k l1 || appended k l2.
Proof. apply existsb_app. Qed.
Lemma log_step k v0 pre req s : log_request k req = true → about k req = true → log_inv k v0 pre s →
  ∃ r s', string_step req s = exactly r s' ∧ (∀ c, log_inv k v0 (pre ++ [(c, req, Some r)]) s') ∧
    (asks_for "append" k req = true → r = RInt (slen (v0 +:+ records k pre +:+ record k req))) ∧
    (asks_for "get" k req = true → s ≠ None → r = RBulk (v0 +:+ records k pre)).
Proof.
  unfold log_inv. intros Hq Ha [I I2]. unfold log_request in Hq. rewrite Ha in Hq. cbn [negb orb] in Hq. apply orb_true_iff in Hq as [Hq|Hq].
  - apply andb_true_iff in Hq as [(n & a & -> & Hn)%asks_for_spec Hv%negb_true_iff%bool_decide_eq_false]. change (values (n :: k :: a)) with a in Hv.
    destruct a as [|v a]; [done|]. assert (record k (n :: k :: v :: a) = v) as Er by (unfold record; by rewrite asks_for_name, Hn).
    eexists _, _. split; [unfold string_step; erewrite table_row by (rewrite Hn; reflexivity); cbv beta iota zeta; reflexivity|]. rewrite I, Er. split; [|split].
    + intros c. cbn [default]. rewrite records_app, records_one. cbn [fst snd]. split; [by rewrite Er, app_assoc_s|done].
    + intros _. by rewrite app_assoc_s.
    + rewrite asks_for_name, Hn. by intros [=].
  - apply asks_for_any_spec in Hq as (n & a & -> & Hn).
    assert (asks_for "append" k (n :: k :: a) = false) as Hi.
    { rewrite asks_for_name. repeat (apply elem_of_cons in Hn as [->|Hn]; [done|]). by apply elem_of_nil in Hn. }
    assert (∃ r, string_step (n :: k :: a) s = exactly r s ∧ (asks_for "get" k (n :: k :: a) = true → s ≠ None → r = RBulk (v0 +:+ records k pre))) as (r & Hr & Hg).
    { unfold string_step. rewrite <- I, asks_for_name.
      repeat (apply elem_of_cons in Hn as [Hn|Hn]; [erewrite table_row by (rewrite Hn; reflexivity); cbv beta iota; eexists; split; [reflexivity|]; rewrite Hn; cbn; by destruct s|]).
      by apply elem_of_nil in Hn. }
    exists r, s. split; [exact Hr|]. split; [|split; [by rewrite Hi|exact Hg]]. intros c. rewrite records_app, records_one, appended_app. cbn [fst snd appended existsb]. unfold record. rewrite Hi. rewrite string_app_nil_r, !orb_false_r. by split.
Qed.
Lemma log_conversation k v0 s l : default "" s = v0 → Forall (λ req, log_request k req = true) (requests l) →
  within string_step k s (requests l) ∧ ∀ s', consistent string_step k s (requests l) l.*2 s' → log_inv k v0 l s'.
Proof.
  intros E0 F. apply (conversation string_step k l (log_inv k v0)).
  - intros pre x post s0 E I. assert (log_request k x.1.2 = true) as Hq.
    { rewrite E, requests_app in F. apply Forall_app in F as [_ F]. rewrite requests_cons in F. by apply Forall_cons in F as [F _]. }
    destruct (about k x.1.2) eqn:Ea.
    + destruct (log_step k v0 pre x.1.2 s0 Hq Ea I) as (r & s' & Hs & Hi & _). eexists. split; [exact Hs|]. intros c r' s1 [-> ->]. apply Hi.
    + destruct I as [I I2]. unfold log_inv. rewrite records_app, records_one, appended_app. cbn [appended existsb]. unfold record.
      destruct (asks_for "append" k x.1.2) eqn:E1; [by rewrite (asked_about _ _ _ E1) in Ea|]. rewrite string_app_nil_r, !orb_false_r. by split.
  - unfold log_inv, records. cbn. rewrite string_app_nil_r. by split.
Qed.
(** The string is what it was followed by all the records, in order. *)
Theorem C81_log k s d0 l d : reachable ext d0 → string_at ext d0 k s → Forall (λ req, log_request k req = true) (asked_in l) →
  talk ext l.*1 d0 = Ret (d, l.*2) →
  ∃ s', string_at ext d k s' ∧ default "" s' = default "" s +:+ records k l ∧ ((∃ x, x ∈ l ∧ asks_for "append" k x.1.2 = true) → s' ≠ None).
Proof.
  intros Hr Hs F H. destruct (log_conversation k (default "" s) s l eq_refl F) as [W C].
  destruct (C16_string_variable ext d0 k s l.*1 d l.*2 Hr Hs H W) as (s' & Cs & S'). exists s'. split; [done|]. destruct (C s' Cs) as [I1 I2]. split; [done|].
  intros (x & Hx & Ax). apply I2. unfold appended. apply existsb_exists. exists x. split; [by apply elem_of_list_In|done].
Qed.
(** APPEND answers the length of the log with its record. *)
Theorem C81_told k s d0 l x d : reachable ext d0 → string_at ext d0 k s → Forall (λ req, log_request k req = true) (asked_in (l ++ [x])) →
  talk ext (l ++ [x]).*1 d0 = Ret (d, (l ++ [x]).*2) → asks_for "append" k x.1.2 = true →
  x.2 = Some (RInt (slen (default "" s +:+ records k (l ++ [x])))).
Proof.
  intros Hr Hs F H Ax. apply talk_prefix in H as (d1 & H1 & H2).
  unfold asked_in in F. rewrite !fmap_app in F. apply Forall_app in F as [F Fx]. cbn in Fx. apply Forall_cons in Fx as [Fq _].
  destruct (log_conversation k (default "" s) s l eq_refl F) as [W C].
  destruct (C16_string_variable ext d0 k s l.*1 d1 l.*2 Hr Hs H1 W) as (s' & Cs & S'). pose proof (C s' Cs) as I.
  destruct x as [[c req] r0]. cbn [fst snd] in *. assert (about k req = true) as Ea by (by apply (asked_about _ _ _ Ax)).
  destruct (log_step k _ l req s' Fq Ea I) as (r & s2 & Hs2 & _ & T & _).
  assert (reachable ext d1) as Hr1.
  { destruct Hr as (h0 & rs0 & H0). exists (h0 ++ l.*1), (rs0 ++ l.*2). by rewrite talk_app, H0; cbn [obind]; rewrite H1. }
  destruct (C16_string_variable ext d1 k s' [(c, req)] d [r0] Hr1 S' H2) as (s3 & C3 & _).
  { cbn. rewrite Ea, Hs2. done. }
  inversion C3 as [|? ? R0 r1 s1 ? ? ? Ea' Es HR C'|? ? ? ? ? ? Ea' C']; subst; [|cbn in Ea'; congruence].
  rewrite Hs2 in Es. injection Es as <-. destruct HR as [-> _]. rewrite (T Ax), records_app, records_one. done.
Qed.
(** Where the record of one exchange is to be found, then and ever after. *)
Theorem C81_found k s d0 l d i x n : reachable ext d0 → string_at ext d0 k s → Forall (λ req, log_request k req = true) (asked_in l) →
  talk ext l.*1 d0 = Ret (d, l.*2) → l !! i = Some x → asks_for "append" k x.1.2 = true → x.2 = Some (RInt n) →
  ∃ w, string_at ext d k (Some w) ∧ found_at (n - slen (record k x.1.2)) (record k x.1.2) w.
Proof.
  intros Hr Hs F H Hi Ax Rx. destruct (C81_log k s d0 l d Hr Hs F H) as (s' & S' & E & Ne).
  assert (is_Some s') as [w ->].
  { destruct s'; [done|]. exfalso. apply Ne; [|done]. exists x. split; [by eapply elem_of_list_lookup_2|done]. }
  assert (l = (take i l ++ [x]) ++ drop (S i) l) as El by (rewrite <- app_assoc; cbn; by rewrite take_drop_middle).
  rewrite El in H, F. apply talk_prefix in H as (d1 & H & _). unfold asked_in in F. rewrite 2!fmap_app in F. apply Forall_app in F as [F _].
  pose proof (C81_told k s d0 _ x d1 Hr Hs F H Ax) as T. rewrite Rx in T. injection T as ->.
  exists w. split; [done|]. exists (default "" s +:+ records k (take i l)), (records k (drop (S i) l)). cbn [default] in E. split.
  - rewrite E, El at 1. rewrite !records_app, records_one. by rewrite !app_assoc_s.
  - rewrite records_app, records_one, !slen_app. lia.
Qed.
(** What different records are found at does not overlap: in particular no record overwrites another. *)
Theorem C81_apart k s d0 l d i j x y n m : reachable ext d0 → string_at ext d0 k s → Forall (λ req, log_request k req = true) (asked_in l) →
  talk ext l.*1 d0 = Ret (d, l.*2) → l !! i = Some x → l !! j = Some y → (i < j)%nat → asks_for "append" k x.1.2 = true → asks_for "append" k y.1.2 = true →
  x.2 = Some (RInt n) → y.2 = Some (RInt m) → n ≤ m - slen (record k y.1.2).
Proof.
  intros Hr Hs F H Hi Hj Hij Ax Ay Rx Ry.
  assert (∀ i x n, l !! i = Some x → asks_for "append" k x.1.2 = true → x.2 = Some (RInt n) →
    n = slen (default "" s +:+ records k (take i l)) + slen (record k x.1.2)) as G.
  { clear -Hr Hs F H. intros i x n Hi Ax Rx. assert (l = (take i l ++ [x]) ++ drop (S i) l) as El by (rewrite <- app_assoc; cbn; by rewrite take_drop_middle).
    rewrite El in H, F. apply talk_prefix in H as (d1 & H & _). unfold asked_in in F. rewrite 2!fmap_app in F. apply Forall_app in F as [F _].
    pose proof (C81_told k s d0 _ x d1 Hr Hs F H Ax) as T. rewrite Rx in T. injection T as ->. rewrite records_app, records_one, !slen_app. lia. }
  pose proof (G i x n Hi Ax Rx) as En. pose proof (G j y m Hj Ay Ry) as Em.
  assert (take j l = take i l ++ x :: drop (S i) (take j l)) as Ej.
  { rewrite <- (take_drop_middle (take j l) i x) at 1; [|rewrite lookup_take by lia; exact Hi]. rewrite take_take. f_equal. f_equal. lia. }
  rewrite Ej in Em. change (x :: drop (S i) (take j l)) with ([x] ++ drop (S i) (take j l)) in Em. rewrite !records_app, records_one, !slen_app in Em.
  rewrite slen_app in En. unfold slen in *. lia.
Qed.
(** Clients of a running server: each finds its record where the reply says, whatever the others append. *)
Lemma service_log h got d k x b n : service h got d → (∀ y, y ∈ h → log_request k (what y) = true) →
  x ∈ h → asks_for "append" k (what x) = true → got x b → is_reply b (RInt n) →
  (∃ w, answers ext d ["GET"; k] (RBulk w) ∧ found_at (n - slen (record k (what x))) (record k (what x)) w) ∧
  ∀ y b' m, y ∈ h → who y ≠ who x → asks_for "append" k (what y) = true → got y b' → is_reply b' (RInt m) →
    n ≤ m - slen (record k (what y)) ∨ m ≤ n - slen (record k (what x)).
Proof.
  intros (rs & T & L & N & Hc) Q Hx Ax Gx Vx. apply spoken_talk in T.
  assert (∀ v, is_reply deadline_bytes (RInt v) → False) as DL by (intros v H; specialize (H ""); vm_compute in H; discriminate H).
  destruct (Hc x b _ Hx Gx Vx) as [->|(i & Hi & Si)]; [by apply DL in Vx|].
  assert (Forall (λ req, log_request k req = true) (asked_in (spoken h rs))) as F.
  { rewrite spoken_asked by done. apply Forall_forall. intros req (y & -> & Hy)%elem_of_list_fmap. by apply Q. }
  assert (reachable ext db_new) as Hr by (by exists [], []). assert (string_at ext db_new k None) as S0 by apply db_new_absent. split.
  - destruct (C81_found k None db_new _ _ i _ n Hr S0 F T Si) as (w & Hw & Hf); [done..|]. by exists w.
  - intros y b' m Hy D Ay Gy Vy. destruct (Hc y b' _ Hy Gy Vy) as [->|(j & Hj & Sj)]; [by apply DL in Vy|].
    assert (i ≠ j) as Dij by (intros ->; rewrite Hi in Hj; congruence). destruct (decide (i < j)%nat).
    + left. by apply (C81_apart k None db_new _ _ i j _ _ n m Hr S0 F T Si Sj).
    + right. apply (C81_apart k None db_new _ _ j i _ _ m n Hr S0 F T Sj Si); try done. lia.
Qed.
Theorem C81_clients max ps tr s k x c b n : runs ext max ps tr s → (∀ y, y ∈ calls tr → log_request k (what y) = true) →
  x ∈ calls tr → asks_for "append" k (what x) = true → LWrite (who x) c b ∈ tr → is_reply b (RInt n) →
  (∃ w, answers ext (c_db s) ["GET"; k] (RBulk w) ∧ found_at (n - slen (record k (what x))) (record k (what x)) w) ∧
  ∀ y c' b' m, y ∈ calls tr → who y ≠ who x → asks_for "append" k (what y) = true → LWrite (who y) c' b' ∈ tr → is_reply b' (RInt m) →
    n ≤ m - slen (record k (what y)) ∨ m ≤ n - slen (record k (what x)).
Proof.
  intros R Q Hx Ax W V. destruct (service_log _ _ _ k x b n (service2 _ _ _ _ R) Q Hx Ax ltac:(by exists c) V) as [H1 H2]. split; [done|].
  intros y c' b' m Hy D Ay Wy. apply (H2 y b' m Hy D Ay). by exists c'.
Qed.
Theorem C81_clients1 max tr s k x k1 i1 b n : runs1 ext max tr s → (∀ y, y ∈ calls1 tr → log_request k (what y) = true) →
  x ∈ calls1 tr → asks_for "append" k (what x) = true → written k1 tr !! i1 = Some (who x, b) → is_reply b (RInt n) →
  (∃ w, answers ext (c_db (v_pool s)) ["GET"; k] (RBulk w) ∧ found_at (n - slen (record k (what x))) (record k (what x)) w) ∧
  ∀ y k2 i2 b' m, y ∈ calls1 tr → who y ≠ who x → asks_for "append" k (what y) = true → written k2 tr !! i2 = Some (who y, b') → is_reply b' (RInt m) →
    n ≤ m - slen (record k (what y)) ∨ m ≤ n - slen (record k (what x)).
Proof.
  intros R Q Hx Ax W V. destruct (service_log _ _ _ k x b n (service1 _ _ _ R) Q Hx Ax ltac:(by exists k1, i1) V) as [H1 H2]. split; [done|].
  intros y k2 i2 b' m Hy D Ay Wy. apply (H2 y b' m Hy D Ay). by exists k2, i2.
Qed.
End use.

(** ** Examples *)
(** a conversation as a list of exchanges, with its replies *)
Definition dialogue (h : list (list string)) : list exchange := zip (plain_history h) (default [] (replies h)).
Lemma dialogue_talk h : is_Some (replies h) → talk ext0 (dialogue h).*1 db_new = Ret (after h, (dialogue h).*2).
Proof.
  unfold dialogue, replies, after. intros [rs H]. destruct (talk ext0 (plain_history h) db_new) as [[d rs']| |] eqn:E; try done. cbn [default id].
  apply talk_length in E as L. rewrite fst_zip, snd_zip by lia. done.
Qed.
Definition jobs : list (list string) :=
  [["LPUSH"; "jobs"; "a"; "b"]; ["RPOP"; "jobs"]; ["set"; "other"; "x"]; ["lpush"; "jobs"; "c"; "d"; "e"]; ["llen"; "jobs"]; ["Rpop"; "jobs"; "3"]; ["LPUSH"; "jobs"; "f"]].
Example C78_demo : ("lpush", "rpop") ∈ queue_ends ∧ forallb (queue_request "lpush" "rpop" "jobs") (asked_in (dialogue jobs)) = true ∧
  talk ext0 (dialogue jobs).*1 db_new = Ret (after jobs, (dialogue jobs).*2) ∧
  replies jobs = Some [Some (RInt 2); Some (bulks ["a"]); Some (RStatus "OK"); Some (RInt 4); Some (RInt 4); Some (bulks ["b"; "c"; "d"]); Some (RInt 2)] ∧
  put_in "lpush" "jobs" (dialogue jobs) = ["a"; "b"; "c"; "d"; "e"; "f"] ∧ handed_out "rpop" "jobs" (dialogue jobs) = ["a"; "b"; "c"; "d"] ∧
  NoDup (put_in "lpush" "jobs" (dialogue jobs)).
Proof.
  split; [by left|]. split; [by vm_compute|]. split; [apply dialogue_talk; by exists (default [] (replies jobs)); vm_compute|].
  split; [by vm_compute|]. split; [by vm_compute|]. split; [by vm_compute|]. apply (bool_decide_unpack _). by vm_compute.
Qed.
(** Once LREM has emptied the list (from its tail), a value put in waits forever: the queue is only a queue without LREM (see C22). *)
Theorem C78_lrem_refuted :
  replies [["LPUSH"; "jobs"; "a"]; ["LREM"; "jobs"; "-1"; "a"]; ["LPUSH"; "jobs"; "b"]; ["LLEN"; "jobs"]; ["RPOP"; "jobs"]; ["LLEN"; "jobs"]; ["RPOP"; "jobs"; "5"]] =
    Some [Some (RInt 1); Some (RInt 1); Some (RInt 1); Some (RInt 1); Some (RArr []); Some (RInt 1); Some (RArr [])] ∧
  replies [["RPUSH"; "jobs"; "a"]; ["LREM"; "jobs"; "1"; "a"]; ["RPUSH"; "jobs"; "b"]; ["LLEN"; "jobs"]; ["LPOP"; "jobs"]; ["LLEN"; "jobs"]; ["LPOP"; "jobs"; "5"]] =
    Some [Some (RInt 1); Some (RInt 1); Some (RInt 1); Some (RInt 1); Some (RArr []); Some (RInt 1); Some (RArr [])].
Proof. split; by vm_compute. Qed.
(** A served queue: two workers, of whom the second does not wait for its job: the job is handed out, but nobody gets it. *)
Definition late (g : gid) (k : nat) (f : string) : list action :=
  [ADeliver g k f; ADecode g; AAdd g; AExpire g; ATimeout g; AWrite g] ++ serve g.
Definition workers : list action :=
  whole 1 7 (frame ["LPUSH"; "jobs"; "a"; "b"]) ++ whole 2 8 (frame ["RPOP"; "jobs"]) ++ late 3 9 (frame ["RPOP"; "jobs"]) ++ whole 4 8 (frame ["RPOP"; "jobs"]).
Definition got (l : list action) : list (gid * string) := omap (λ l, match l with LWrite g _ b => Some (g, b) | _ => None end) (trace l).
Lemma got_in l g c b : LWrite g c b ∈ trace l → (g, b) ∈ got l.
Proof. intros H. unfold got. apply elem_of_list_omap. by exists (LWrite g c b). Qed.
Definition reply_in (b : string) : option resp := match read_reply 2 b with Some (v, _) => Some v | None => None end.
Lemma reply_in_is b v : is_reply b v → reply_in b = Some v.
Proof. intros H. specialize (H ""). unfold reply_in. rewrite string_app_nil_r in H. by rewrite H. Qed.
Theorem C78_missed : ∃ tr s, runs ext0 1000 8 tr s ∧ c_crashed s = false ∧ (∀ x, x ∈ calls tr → queue_request "lpush" "rpop" "jobs" (what x) = true) ∧
  pushed "lpush" "jobs" (calls tr) = ["a"; "b"] ∧ answers ext0 (c_db s) ["LLEN"; "jobs"] (RInt 0) ∧
  (∃ g c b v, LWrite g c b ∈ tr ∧ is_reply b v ∧ texts (Some v) = ["a"]) ∧
  ∀ g c b v, LWrite g c b ∈ tr → is_reply b v → "b" ∉ texts (Some v).
Proof.
  exists (trace workers), (final workers). assert (runs ext0 1000 8 (trace workers) (final workers)) as R by (apply trace_runs; by vm_compute).
  assert (∀ x, x ∈ calls (trace workers) → queue_request "lpush" "rpop" "jobs" (what x) = true) as Q.
  { assert (forallb (λ x, queue_request "lpush" "rpop" "jobs" (what x)) (calls (trace workers)) = true) as F by (by vm_compute). rewrite forallb_forall in F.
    intros x Hx. apply F. by apply elem_of_list_In. }
  split; [done|]. split; [by vm_compute|]. split; [done|]. split; [by vm_compute|]. split; [|split].
  - destruct (service2 ext0 _ _ _ _ R) as (rs & T & L & _ & _). pose proof T as T0. apply spoken_talk in T.
    assert (Forall (λ req, queue_request "lpush" "rpop" "jobs" req = true) (asked_in (spoken (calls (trace workers)) rs))) as F.
    { rewrite spoken_asked by done. apply Forall_forall. intros req (x & -> & Hx)%elem_of_list_fmap. by apply Q. }
    destruct (C78_queue ext0 "lpush" "rpop" "jobs" db_new _ _ ltac:(by left) ltac:(by exists [], []) (db_new_absent _ _) F T) as (w & Hp & Hl & _).
    assert (Some rs = Some [Some (RInt 2); Some (bulks ["a"]); Some (bulks ["b"]); Some (RArr [])]) as [= ->].
    { transitivity (match talk ext0 (as_history (calls (trace workers))) db_new with Ret (_, r) => Some r | _ => None end); [by rewrite T0|by vm_compute]. }
    assert (w = []) as ->; [|exact Hl]. clear -Hp.
    assert (put_in "lpush" "jobs" (spoken (calls (trace workers)) [Some (RInt 2); Some (bulks ["a"]); Some (bulks ["b"]); Some (RArr [])]) = ["a"; "b"]) as E1 by (by vm_compute).
    assert (handed_out "rpop" "jobs" (spoken (calls (trace workers)) [Some (RInt 2); Some (bulks ["a"]); Some (bulks ["b"]); Some (RArr [])]) = ["a"; "b"]) as E2 by (by vm_compute).
    rewrite E1, E2 in Hp. by injection Hp as <-.
  - exists 2%nat, 8%nat, (crlf ["*1"; "$1"; "a"]), (bulks ["a"]). split; [apply (at_index _ 19); by vm_compute|]. split; [|by vm_compute]. intros t. by vm_compute.
  - intros g c b v Hw Hv. apply got_in in Hw. apply reply_in_is in Hv.
    assert (forallb (λ x, match reply_in x.2 with Some v => negb (bool_decide ("b" ∈ texts (Some v))) | None => true end) (got workers) = true) as F by (by vm_compute).
    rewrite forallb_forall in F. apply elem_of_list_In in Hw. specialize (F _ Hw). cbn [snd] in F. rewrite Hv in F. by apply negb_true_iff, bool_decide_eq_false in F.
Qed.

Definition tickets : list (list string) := [["INCR"; "n"]; ["get"; "n"]; ["SADD"; "s"; "x"]; ["Incr"; "n"]; ["INCR"; "m"]; ["incr"; "n"; "extra"]; ["GET"; "n"]].
Example C79_demo : forallb (counter_request "n") (asked_in (dialogue tickets)) = true ∧ number_at ext0 db_new "n" 0 ∧
  talk ext0 (dialogue tickets).*1 db_new = Ret (after tickets, (dialogue tickets).*2) ∧
  replies_to "incr" "n" (dialogue tickets) = [Some (RInt 1); Some (RInt 2); Some (RInt 3)] ∧ numbers 0 3 = [1; 2; 3].
Proof.
  split; [by vm_compute|]. split; [split; [done|]; right; split; [apply db_new_absent|done]|].
  split; [apply dialogue_talk; by exists (default [] (replies tickets)); vm_compute|]. split; by vm_compute.
Qed.
(** At the end of the 64-bit integers the numbers start again from the other end (see C17). *)
Theorem C79_wraps_refuted :
  replies [["SET"; "n"; "9223372036854775806"]; ["INCR"; "n"]; ["INCR"; "n"]] = Some [Some (RStatus "OK"); Some (RInt 9223372036854775807); Some (RInt (-9223372036854775808))].
Proof. by vm_compute. Qed.

Definition locking : list (list string) :=
  [["SADD"; "lock"; "t"]; ["SADD"; "lock"; "t"]; ["SADD"; "lock"; "u"]; ["srem"; "lock"; "t"]; ["SREM"; "lock"; "t"]; ["sismember"; "lock"; "t"]; ["sadd"; "lock"; "t"]].
Example C80_demo : forallb (λ req, lock_request "lock" req && respects "lock" "t" req) (asked_in (dialogue locking)) = true ∧
  talk ext0 (dialogue locking).*1 db_new = Ret (after locking, (dialogue locking).*2) ∧
  replies locking = Some [Some (RInt 1); Some (RInt 0); Some (RInt 1); Some (RInt 1); Some (RInt 0); Some (RInt 0); Some (RInt 1)] ∧
  turns "lock" "t" (dialogue locking) = [true; false; true] ∧ turns "lock" "u" (dialogue locking) = [true].
Proof.
  split; [by vm_compute|]. split; [apply dialogue_talk; by exists (default [] (replies locking)); vm_compute|]. split; [by vm_compute|]. split; by vm_compute.
Qed.
(** Who adds the token together with another one is told 1 although another has the lock. *)
Theorem C80_pair_refuted : replies [["SADD"; "lock"; "t"]; ["SADD"; "lock"; "t"; "x"]] = Some [Some (RInt 1); Some (RInt 1)] ∧
  lock_request "lock" ["SADD"; "lock"; "t"; "x"] = true ∧ respects "lock" "t" ["SADD"; "lock"; "t"; "x"] = false.
Proof. split; [by vm_compute|]. split; by vm_compute. Qed.
(** A client that does not wait for the answer may have got the lock: nobody is told so, and nobody else gets it. *)
Definition forgotten : list action := late 1 7 (frame ["SADD"; "lock"; "t"]) ++ whole 2 8 (frame ["SADD"; "lock"; "t"]).
Theorem C80_forgotten : runs ext0 1000 8 (trace forgotten) (final forgotten) ∧ c_crashed (final forgotten) = false ∧
  got forgotten = [(1%nat, deadline_bytes); (2%nat, crlf [":0"])] ∧
  forallb (λ x, lock_request "lock" (what x) && respects "lock" "t" (what x)) (calls (trace forgotten)) = true.
Proof. split; [apply trace_runs; by vm_compute|]. split; [by vm_compute|]. split; by vm_compute. Qed.
(** two clients take the lock one after the other *)
Definition polite : list action :=
  whole 1 7 (frame ["SADD"; "lock"; "t"]) ++ whole 2 8 (frame ["SADD"; "lock"; "t"]) ++ whole 3 7 (frame ["SREM"; "lock"; "t"]) ++ whole 4 8 (frame ["SADD"; "lock"; "t"]).
Example C80_clients_demo : runs ext0 1000 8 (trace polite) (final polite) ∧
  got polite = [(1%nat, crlf [":1"]); (2%nat, crlf [":0"]); (3%nat, crlf [":1"]); (4%nat, crlf [":1"])] ∧
  forallb (λ x, lock_request "lock" (what x) && respects "lock" "t" (what x)) (calls (trace polite)) = true ∧
  is_reply (crlf [":1"]) (RInt 1).
Proof. split; [apply trace_runs; by vm_compute|]. split; [by vm_compute|]. split; [by vm_compute|]. intros t. by vm_compute. Qed.

Definition logging : list (list string) := [["SET"; "log"; "#"]; ["APPEND"; "log"; "one;"]; ["get"; "log"]; ["INCR"; "n"]; ["append"; "log"; "two;"; "ignored"]; ["APPEND"; "log"; ""]; ["GET"; "log"]].
Example C81_demo : string_at ext0 (after (take 1 logging)) "log" (Some "#") ∧
  replies logging = Some [Some (RStatus "OK"); Some (RInt 5); Some (RBulk "#one;"); Some (RInt 1); Some (RInt 9); Some (RInt 9); Some (RBulk "#one;two;")] ∧
  forallb (log_request "log") (asked_in (drop 1 (dialogue logging))) = true ∧ records "log" (drop 1 (dialogue logging)) = "one;two;" ∧
  found_at (9 - slen "two;") "two;" "#one;two;".
Proof.
  split.
  { destruct (C16_get_after_set ext0 db_new "log" "#" ltac:(by exists [], []) c0) as (d1 & E & H).
    assert (after (take 1 logging) = d1) as ->; [unfold after, plain_history; cbn [logging take fmap list_fmap talk]; by rewrite E|].
    by apply (H [] d1 []). }
  split; [by vm_compute|]. split; [by vm_compute|]. split; [by vm_compute|]. exists "#one;", "". by split.
Qed.
(** clients that append at the same time, over the network *)
Definition writing : list action := whole 1 7 (frame ["APPEND"; "log"; "one;"]) ++ whole 2 8 (frame ["APPEND"; "log"; "two;"]).
Example C81_clients_demo : runs ext0 1000 8 (trace writing) (final writing) ∧ got writing = [(1%nat, crlf [":4"]); (2%nat, crlf [":8"])] ∧
  forallb (λ x, log_request "log" (what x)) (calls (trace writing)) = true ∧ is_reply (crlf [":8"]) (RInt 8).
Proof. split; [apply trace_runs; by vm_compute|]. split; [by vm_compute|]. split; [by vm_compute|]. intros t. by vm_compute. Qed.
(** clients that take numbers at the same time *)
Definition counting : list action := whole 1 7 (frame ["INCR"; "n"]) ++ whole 2 8 (frame ["incr"; "n"]).
Example C79_clients_demo : runs ext0 1000 8 (trace counting) (final counting) ∧ got counting = [(1%nat, crlf [":1"]); (2%nat, crlf [":2"])] ∧
  forallb (λ x, counter_request "n" (what x)) (calls (trace counting)) = true ∧ is_reply (crlf [":2"]) (RInt 2).
Proof. split; [apply trace_runs; by vm_compute|]. split; [by vm_compute|]. split; [by vm_compute|]. intros t. by vm_compute. Qed.
(** the same for the other server *)
Definition counting1 : list action1 :=
  [BOpen 7; BOpen 8; BArrive 7 (request_bytes ["INCR"; "n"]); BArrive 8 (request_bytes ["INCR"; "n"])] ++ answer 8 1 ++ answer 7 2.
Example C79_clients1_demo : runs1 ext0 big1 (trace1 counting1) (final1 counting1) ∧
  written 7 (trace1 counting1) = [(2%nat, crlf [":2"])] ∧ written 8 (trace1 counting1) = [(1%nat, crlf [":1"])] ∧
  forallb (λ x, counter_request "n" (what x)) (calls1 (trace1 counting1)) = true.
Proof. split; [apply trace1_runs; by vm_compute|]. split; [by vm_compute|]. split; by vm_compute. Qed.
