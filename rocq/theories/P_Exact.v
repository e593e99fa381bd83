(** C61, C62: what the code does where it differs from Redis, exactly: members that ZPOPMIN and ZPOPMAX popped, and
    the count SCARD keeps. *)
From Verif Require Import GoBase GoBaseProofs ShardMap ShardMapProofs Float64 Float64Proofs SkipList SkipListProofs Db Protocol Redis Obs SpecCmd SpecZSet SpecResp SpecServer SpecKey KeyHist
  SetRep DbInv ExecSteps Sim SimSet SimZSet SimMain PropBase KeyIs Examples P_Keys P_Requests P_Frame P_Lists P_Sets P_ZSets.

(** ** C61: what becomes of a popped member *)
(** [last_score s v]: the score the member had when it was popped, if it was and has not been forgotten since *)
Definition last_score (s : option (list zkey * gmap string float)) (v : string) : option float := gone s !! v.
Lemma popped_score s v : v ∈ popped s ↔ ∃ f, last_score s v = Some f.
Proof. unfold popped, last_score. by rewrite elem_of_dom. Qed.
Lemma pop_in gh out f v : NoDup out.*2 → (f, v) ∈ out → pop gh out !! v = Some f.
Proof.
  unfold pop. revert gh. induction out as [|e out IH]; intros gh Hn Hi; [by apply elem_of_nil in Hi|]. cbn [foldl]. rewrite fmap_cons in Hn. apply NoDup_cons in Hn as [He Hn].
  apply elem_of_cons in Hi as [<-|Hi]; [|by apply IH]. cbn [fst snd]. clear IH Hn.
  assert (∀ g : gmap string float, g !! v = Some f → foldl (λ g (e : zkey), <[e.2:=e.1]> g) g out !! v = Some f) as G; [|apply G; by rewrite lookup_insert].
  induction out as [|e out IH]; intros g Hg; [done|]. cbn [foldl]. rewrite fmap_cons in He. apply not_elem_of_cons in He as [H1 H2].
  apply IH; [done|]. rewrite lookup_insert_ne by (by apply not_eq_sym). done.
Qed.
Lemma pop_notin gh out v : v ∉ out.*2 → pop gh out !! v = gh !! v.
Proof.
  unfold pop. revert gh. induction out as [|e out IH]; intros gh Hi; [done|]. cbn [foldl]. rewrite fmap_cons in Hi. apply not_elem_of_cons in Hi as [H1 H2].
  rewrite IH by done. by rewrite lookup_insert_ne by (by apply not_eq_sym).
Qed.
(** ZPOPMIN leaves behind the scores of exactly the members it pops *)
Theorem C61_zpopmin ext d k es P a n : zset_is ext d k (Some (es, P)) → zlen es < two63 - 2 → parse_int a = Some n →
  ∃ low rest P', es = low ++ rest ∧ length low = Nat.min (Z.to_nat n) (length es) ∧
    (∀ f v, (f, v) ∈ low → P' !! v = Some f) ∧ (∀ v, v ∉ low.*2 → P' !! v = P !! v) ∧
    does ext d ["ZPOPMIN"; k; a] (shown_with_scores ext low) (λ d', zset_is ext d' k (Some (rest, P'))).
Proof.
  intros K Hf Ha. destruct (C29_sorted ext d k _ K) as (_ & Hn & _). cbn [pairs] in Hn.
  destruct (C33_zpopmin_partial ext d k es P a n K Hf Ha) as (low & rest & -> & Hl & D). exists low, rest, (pop P low).
  split_and!; [done|done| |by intros; apply pop_notin|done]. intros f v Hv. apply pop_in; [|done]. rewrite fmap_app in Hn. by apply NoDup_app in Hn as (H & _ & _).
Qed.
Lemma last_score_out ext d k s v f : zset_is ext d k s → last_score s v = Some f → v ∉ (pairs s).*2.
Proof.
  intros K Hv Hi. apply elem_of_list_fmap in Hi as (e & -> & He). destruct (C29_sorted ext d k s K) as (_ & _ & Hp). destruct (Hp e He) as [_ H].
  apply H. apply popped_score. by exists f.
Qed.
(** A popped member is in no range (the ranges show [pairs s], C29), but ZSCORE still tells its last score... *)
Theorem C61_zscore ext d k s v f : zset_is ext d k s → last_score s v = Some f → pairs s ≠ [] →
  answers ext d ["ZSCORE"; k; v] (RBulk (format_float ext f)).
Proof.
  intros K Hv Hne. pose proof (last_score_out _ _ _ _ _ _ K Hv) as Ho. apply zfind_None in Ho. unfold last_score in Hv.
  eapply zset_answers; [done..|by apply about_first|]. zrow. rewrite Hv. destruct (pairs s) as [|e es]; [done|]. by rewrite Ho.
Qed.
(** ... and ZRANK how many members come before the place it had *)
Theorem C61_zrank ext d k s v f : zset_is ext d k s → last_score s v = Some f → zlen (pairs s) < two63 - 2 → pairs s ≠ [] →
  ∃ low rest, pairs s = low ++ rest ∧ Forall (λ e, before e (f, v)) low ∧ Forall (λ e, ¬ before e (f, v)) rest ∧
    answers ext d ["ZRANK"; k; v] (RInt (zlen low)).
Proof.
  intros K Hv Hf Hne.
  assert (∀ e : zkey, zlt e (f, v) = true ↔ before e (f, v)) as Hz.
  { intros e. unfold zlt, before. by rewrite orb_true_iff, andb_true_iff. }
  assert (∃ low rest, pairs s = low ++ rest ∧ Forall (λ e, before e (f, v)) low ∧ Forall (λ e, ¬ before e (f, v)) rest) as (low & rest & E & H1 & H2).
  { destruct (pairs_ents ext d k s K) as (es & -> & So & Nu).
    unfold zsorted in So. clear Nu. induction So as [|e es So IH Hd]; [by exists [], []|]. rewrite fmap_cons. destruct (zlt (e_key e) (f, v)) eqn:Ee.
    - destruct IH as (low & rest & -> & H1 & H2). exists (e_key e :: low), rest. split_and!; [done| |done]. constructor; [by apply Hz|done].
    - exists [], (e_key e :: (e_key <$> es)). split_and!; [done|constructor|]. constructor; [by rewrite <- Hz, Ee|].
      apply Forall_fmap. eapply Forall_impl; [exact Hd|]. intros e' He' Hb. apply Hz in Hb. rewrite (zlt_trans _ _ _ He' Hb) in Ee. done. }
  exists low, rest. split_and!; [done..|]. unfold last_score in Hv.
  eapply zset_answers; [done..|by apply about_first|]. zrow. assert ((two63 - 2 <=? zlen (pairs s)) = false) as -> by lia. rewrite Hv.
  assert (filter (λ e, zlt e (f, v) = true) (pairs s) = low) as Hlow.
  { rewrite E, filter_app. assert (filter (λ e, zlt e (f, v) = true) low = low) as ->.
    { clear -H1 Hz. induction H1; [done|]. rewrite filter_cons_True by (by apply Hz). by f_equal. }
    assert (filter (λ e, zlt e (f, v) = true) rest = []) as ->; [|by rewrite app_nil_r].
    clear -H2 Hz. induction H2 as [|e l He _ IH]; [done|]. rewrite filter_cons_False; [done|]. by rewrite Hz. }
  destruct (pairs s) as [|e es]; [done|]. cbv zeta. by rewrite Hlow.
Qed.
(** ZSCORE and ZRANK of a set that has become empty tell nothing *)
Theorem C61_empty ext d k s v : zset_is ext d k s → pairs s = [] →
  answers ext d ["ZSCORE"; k; v] RNil ∧ answers ext d ["ZRANK"; k; v] RNil.
Proof. intros K E. split; (eapply zset_answers; [done..|by apply about_first|]); zrow; by rewrite E. Qed.
(** No ZADD of popped members has an effect, whatever the scores and options (INCR, NX, XX); nor has ZINCR *)
Lemma add_pairs_popped fl l es P : (∀ f v, (f, v) ∈ l → v ∈ P) → add_pairs fl l es P = Some (es, 0).
Proof.
  induction l as [|[f v] l IH]; intros H; [done|]. cbn [add_pairs]. unfold add_pair. rewrite bool_decide_eq_true_2 by (by eapply H; left).
  rewrite IH; [done|]. intros f' v' H'. eapply H. by right.
Qed.
Theorem C61_zadd ext d k s x y r fl l : zset_is ext d k s → zadd_parse ext (x :: y :: r) (ZO false false false) = Some (fl, l) →
  l ≠ [] → (∀ f v, (f, v) ∈ l → v ∈ popped s) →
  does_calm ext d ("ZADD" :: k :: x :: y :: r) (RInt 0) (λ d', zset_is ext d' k s).
Proof.
  intros K Hp Hl H. destruct s as [[es P]|]; cycle 1.
  { destruct l as [|[f v] l]; [done|]. specialize (H f v ltac:(by left)). unfold popped in H. cbn [gone] in H. set_solver. }
  eapply zset_calm; [done|about_write|]. zrow. rewrite Hp, (add_pairs_popped fl l _ _ H). done.
Qed.
Theorem C61_zincr ext d k s x f v : zset_is ext d k s → parse_float ext x = Some f → v ∈ popped s →
  does_calm ext d ["ZINCR"; k; x; v] (RInt 0) (λ d', zset_is ext d' k s).
Proof.
  intros K Hp H. destruct s as [[es P]|]; cycle 1. { unfold popped in H. cbn [gone] in H. set_solver. }
  eapply zset_calm; [done|about_write|]. zrow. rewrite Hp. unfold add_pair. by rewrite bool_decide_eq_true_2.
Qed.
(** ZREM of it answers 1 and forgets it, after which it can be added (C30) -- if the set has members; else it has no
    effect at all *)
Theorem C61_zrem ext d k es P v : zset_is ext d k (Some (es, P)) → v ∈ popped (Some (es, P)) →
  (es ≠ [] → does ext d ["ZREM"; k; v] (RInt 1) (λ d', zset_is ext d' k (Some (es, delete v P))) ∧ v ∉ popped (Some (es, delete v P))) ∧
  (es = [] → does ext d ["ZREM"; k; v] (RInt 0) (λ d', zset_is ext d' k (Some (es, P)))).
Proof.
  intros K Hv. split; [intros Hne; split|intros ->].
  - apply popped_score in Hv as [f Hv]. unfold last_score in Hv. cbn [gone] in Hv. eapply zset_does; [done..|about_write|]. zrow. cbn [pairs gone remove_low].
    destruct es; [done|]. cbv zeta. by rewrite Hv.
  - unfold popped. cbn [gone]. rewrite dom_delete_L. set_solver.
  - eapply zset_does; [done..|about_write|]. by zrow.
Qed.
Lemma after_snoc h req d' r : is_Some (replies h) → ask ext0 c0 req (after h) = Ret (d', r) → after (h ++ [req]) = d'.
Proof.
  unfold replies, after, plain_history. intros [rs H] E. rewrite fmap_app, talk_app. destruct (talk ext0 _ db_new) as [[d rs']| |]; try done.
  cbn [obind fmap list_fmap talk]. rewrite E. done.
Qed.
Example C61_demo : ∃ P, zset_is ext0 (after (zmake ++ [["ZPOPMIN"; "k"; "2"]])) "k" (Some (drop 2 zpairs, P)) ∧ P !! "a"%string = Some (f_of_Z 1) ∧ P !! "b"%string = Some (f_of_Z 2) ∧
  replies (zmake ++ [["ZPOPMIN"; "k"; "2"]; ["ZSCORE"; "k"; "b"]; ["ZRANK"; "k"; "b"]; ["ZADD"; "k"; "9"; "b"; "8"; "a"]; ["ZINCR"; "k"; "1"; "a"]; ["ZREM"; "k"; "b"]; ["ZADD"; "k"; "9"; "b"];
    ["ZRANGE"; "k"; "0"; "-1"]; ["ZPOPMIN"; "k"; "9"]; ["ZADD"; "k"; "9"; "b"; "8"; "a"]; ["ZREM"; "k"; "b"]; ["ZCARD"; "k"]]) =
  Some [Some (RInt 4); Some (bulks ["a"; "1"; "b"; "2"]); Some (RBulk "2"); Some (RInt 0); Some (RInt 0); Some (RInt 0); Some (RInt 1); Some (RInt 1);
    Some (bulks ["bb"; "c"; "b"]); Some (bulks ["bb"; "2"; "c"; "3"; "b"; "9"]); Some (RInt 0); Some (RInt 0); Some (RInt 0)].
Proof.
  destruct (C61_zpopmin ext0 (after zmake) "k" zpairs ∅ "2" 2 zset_is_zadd ltac:(by vm_compute) ltac:(by vm_compute)) as (low & rest & P & E & Hl & H1 & H2 & D).
  destruct low as [|e1 [|e2 [|]]]; try discriminate Hl. injection E as <- <- <-. destruct (D c0) as (d' & E' & K). exists P. split_and!.
  - rewrite (after_snoc zmake ["ZPOPMIN"; "k"; "2"] d' _ ltac:(eexists; by vm_compute) E'). exact K.
  - apply (H1 _ "a"%string). by left.
  - apply (H1 _ "b"%string). by right; left.
  - by vm_compute.
Qed.

(** ** C62: what SCARD counts *)
Definition counts (ext : Ext) (d : db) (k : string) (n : Z) : Prop := answers ext d ["SCARD"; k] (RInt n).
Lemma counts_obj ext d k p s : set_obj d k p s → counts ext d k (ms_len s).
Proof.
  intros O c. rewrite (ask_cmd ext c "SCARD" [k] d _ eq_refl). unfold c_scard. change (fewer [k] 1) with false. change (arg [k] 0) with (Ret k). cbn [obind].
  unfold SCard. rewrite (load_set_obj d k p s true O). cbn [andb obind]. destruct (Z.eqb_spec (ms_len s) 0) as [->|E]; done.
Qed.
Lemma counts_fun ext d k n p s : counts ext d k n → set_obj d k p s → n = ms_len s.
Proof. intros H O. pose proof (answers_fun _ _ _ _ _ H (counts_obj ext d k p s O)). congruence. Qed.
(** SADD adds its answer to the count, and SREM subtracts it *)
Theorem C62_sadd ext d k X n v vs : reachable ext d → set_is ext d k X → counts ext d k n →
  let Y : gset string := list_to_set (v :: vs) in let a := Z.of_nat (size (Y ∖ X)) in
  does ext d ("SADD" :: k :: v :: vs) (RInt a) (λ d', set_is ext d' k (X ∪ Y) ∧ counts ext d' k (n + a)).
Proof.
  intros Hr Hs Hn Y a c. apply reachable_inv in Hr as I. destruct (set_is_obj ext d k X I Hs) as (p & s & dr & O & R).
  destruct (sadd_set d k p s X dr (v :: vs) O R) as (s' & E & R'). rewrite (ask_cmd ext c "SADD" (k :: v :: vs) d _ eq_refl). unfold c_sadd.
  change (fewer (k :: v :: vs) 2) with false. change (arg (k :: v :: vs) 0) with (Ret k). change (drop 1 (k :: v :: vs)) with (v :: vs). cbn [obind].
  rewrite E. cbn [obind]. eexists. split; [done|]. split; [eapply set_is_of; [by eapply put_set_obj|done]|].
  rewrite (counts_fun ext d k n p s Hn O). replace (ms_len s + a) with (ms_len s'); [apply (counts_obj ext _ k p), put_set_obj with (s := s); done|].
  destruct R as (_ & _ & ->), R' as (_ & _ & ->). unfold counted, a, Y. rewrite size_union_alt. lia.
Qed.
Theorem C62_srem ext d k X n v vs : reachable ext d → set_is ext d k X → counts ext d k n →
  let Y : gset string := list_to_set (v :: vs) in let a := Z.of_nat (size (X ∩ Y)) in
  does ext d ("SREM" :: k :: v :: vs) (RInt a) (λ d', set_is ext d' k (X ∖ Y) ∧ counts ext d' k (n - a)).
Proof.
  intros Hr Hs Hc Y a c. apply reachable_inv in Hr as I. destruct (set_is_obj ext d k X I Hs) as (p & s & dr & O & R).
  rewrite (counts_fun ext d k n p s Hc O).
  rewrite (ask_cmd ext c "SREM" (k :: v :: vs) d _ eq_refl). unfold c_srem.
  change (fewer (k :: v :: vs) 2) with false. change (arg (k :: v :: vs) 0) with (Ret k). change (drop 1 (k :: v :: vs)) with (v :: vs). cbn [obind].
  unfold SRem. rewrite (load_set_obj d k p s true O). cbn [andb obind]. destruct (Z.eqb_spec (ms_len s) 0) as [E|E].
  - destruct (rep_len0 s X dr R E) as [-> ->]. cbn [obind]. exists d. unfold a. assert (∅ ∩ Y = ∅) as -> by set_solver. split; [done|].
    assert (∅ ∖ Y = ∅) as -> by set_solver. split; [done|]. rewrite size_empty, Z.sub_0_r. by eapply counts_obj.
  - destruct (ms_rem_all_ok (v :: vs) s X dr 0 R) as (s' & E' & R'). cbn [obind]. rewrite E'. cbn [obind]. eexists. split; [done|].
    split; [eapply set_is_of; [by eapply put_set_obj|done]|].
    replace (ms_len s - a) with (ms_len s'); [apply (counts_obj ext _ k p), put_set_obj with (s := s); done|].
    destruct R as (_ & _ & ->), R' as (_ & _ & ->). unfold counted, a, Y. pose proof (size_difference_alt X (list_to_set (v :: vs))). 
    pose proof (subseteq_size (X ∩ list_to_set (v :: vs)) X ltac:(set_solver)). lia.
Qed.
(** SPOP leaves it as it is, however many members it pops *)
Theorem C62_spop ext d k X n a z c : reachable ext d → set_is ext d k X → counts ext d k n → parse_int a = Some z →
  ∃ l d', ask ext c ["SPOP"; k; a] d = Ret (d', Some (bulks l)) ∧ length l = Nat.min (Z.to_nat z) (size X) ∧
    set_is ext d' k (X ∖ list_to_set l) ∧ counts ext d' k n.
Proof.
  intros Hr Hs Hc Ha. apply reachable_inv in Hr as I. destruct (set_is_obj ext d k X I Hs) as (p & s & dr & O & R).
  rewrite (counts_fun ext d k n p s Hc O).
  rewrite (ask_cmd ext c "SPOP" [k; a] d _ eq_refl). unfold c_spop. change (fewer [k; a] 1) with false. cbv iota.
  assert (opt_count [k; a] 0 = Ret (Ok z)) as -> by (unfold opt_count; simpl; by rewrite Ha). change (arg [k; a] 0) with (Ret k). cbn [obind].
  unfold SPop. rewrite (load_set_obj d k p s true O). cbn [andb obind]. destruct (Z.eqb_spec (ms_len s) 0) as [E|E].
  - destruct (rep_len0 s X dr R E) as [-> ->]. cbn [obind]. exists [], d. split; [done|].
    split; [rewrite (size_empty (C := gset string)); cbn [length]; lia|].
    assert (∅ ∖ list_to_set [] = (∅ : gset string)) as -> by set_solver. split; [done|]. by eapply counts_obj.
  - destruct (ms_pop_ok (ch_ord c 0%nat) z s X dr R) as (s' & l & E' & Hn & Hsub & Hlen & R'). cbn [obind]. rewrite E'. cbn [obind]. exists l, (put_set p s' d).
    split; [unfold reply; cbn [obind]; f_equal; f_equal; apply view_strings|]. split; [done|].
    split; [eapply set_is_of; [by eapply put_set_obj|done]|].
    replace (ms_len s) with (ms_len s'); [apply (counts_obj ext _ k p), put_set_obj with (s := s); done|].
    destruct R as (_ & _ & ->), R' as (_ & _ & ->). unfold counted.
    assert (size (X ∖ list_to_set l) + length l = size X)%nat; [|lia].
    rewrite <- (size_list_to_set (C := gset string) l Hn). rewrite size_difference by set_solver. pose proof (subseteq_size (list_to_set l) X ltac:(set_solver)). lia.
Qed.
(** SMOVE leaves the count of its source as it is, and adds its answer to that of its target *)
Theorem C62_smove ext h d rs src dst v X n : talk ext h db_new = Ret (d, rs) → ¬ linked h.*2 src dst →
  set_is ext d src X → counts ext d src n → v ∈ X →
  (∀ Y m, set_is ext d dst Y → counts ext d dst m → let a := if bool_decide (v ∈ Y) then 0 else 1 in does ext d ["SMOVE"; src; dst; v] (RInt a)
      (λ d', set_is ext d' src (X ∖ {[v]}) ∧ counts ext d' src n ∧ set_is ext d' dst (Y ∪ {[v]}) ∧ counts ext d' dst (m + a))) ∧
  (answers ext d ["EXISTS"; dst] (RInt 0) → does ext d ["SMOVE"; src; dst; v] (RInt 1)
      (λ d', set_is ext d' src (X ∖ {[v]}) ∧ counts ext d' src n ∧ set_is ext d' dst {[v]} ∧ counts ext d' dst 1)).
Proof.
  intros Ht F Hs Hc Hv. assert (reachable ext d) as Hr by (by exists h, rs). apply reachable_inv in Hr as I.
  assert (src ≠ dst) as Hne by (intros ->; apply F, rtc_refl).
  assert (shared_within (linked h.*2) d) as U by (by eapply talk_linked).
  destruct (set_is_obj ext d src X I Hs) as (p & s & dr & O & R). pose proof O as [O1 O2]. rewrite (counts_fun ext d src n p s Hc O).
  pose proof (ms_take_rep s X dr v R Hv) as R1. set (s1 := MSet (sm_delete (ms_m s) v) (ms_len s)) in *. change (ms_len s) with (ms_len s1).
  assert (E0 : SMove src dst v d = SAdd dst [v] (put_set p s1 d)).
  { unfold SMove. rewrite (load_set_obj d src p s true O). cbn [andb obind]. destruct (Z.eqb_spec (ms_len s) 0) as [E|E].
    - destruct (rep_len0 s X dr R E) as [-> _]. set_solver.
    - cbn [obind]. rewrite sm_delete_if_exists_map by apply R. apply (set_rep_in _ _ _ v R) in Hv as [u Hu]. by rewrite Hu. }
  split.
  - intros Y m HY Hm a c. destruct (set_is_obj ext d dst Y I HY) as (q & t & dr2 & [P1 P2] & R2). assert (q ≠ p) as Hqp by (intros ->; apply F; by eapply U).
    rewrite (counts_fun ext d dst m q t Hm ltac:(done)).
    rewrite (ask_cmd ext c "SMOVE" [src; dst; v] d _ eq_refl). unfold c_smove. change (fewer [src; dst; v] 3) with false.
    change (arg [src; dst; v] 0) with (Ret src). change (arg [src; dst; v] 1) with (Ret dst). change (arg [src; dst; v] 2) with (Ret v). cbn [obind]. rewrite E0.
    assert (set_obj (put_set p s1 d) dst q t) as O' by (split; [done|]; simpl; by rewrite lookup_insert_ne).
    destruct (sadd_set (put_set p s1 d) dst q t Y dr2 [v] O' R2) as (t' & E & R'). rewrite E. cbn [obind].
    assert (Z.of_nat (size ((list_to_set [v] : gset string) ∖ Y)) = a) as Ea.
    { unfold a. case_bool_decide; [replace ((list_to_set [v] : gset string) ∖ Y) with (∅ : gset string) by set_solver; by rewrite size_empty|].
      replace ((list_to_set [v] : gset string) ∖ Y) with ({[v]} : gset string) by set_solver. by rewrite size_singleton. }
    eexists. split; [unfold reply; cbn [obind view]; f_equal; f_equal; by rewrite Ea|].
    assert (set_obj (put_set q t' (put_set p s1 d)) src p s1) as Os. { split; [done|]. simpl. rewrite lookup_insert_ne by done. by rewrite lookup_insert. }
    assert (set_obj (put_set q t' (put_set p s1 d)) dst q t') as Ot by (by eapply put_set_obj).
    split_and!; [by eapply set_is_of|by eapply counts_obj| |].
    + replace (Y ∪ {[v]}) with (Y ∪ list_to_set [v]) by set_solver. by eapply set_is_of.
    + replace (ms_len t + a) with (ms_len t'); [by eapply counts_obj|]. destruct R2 as (_ & _ & ->), R' as (_ & _ & ->). unfold counted. rewrite size_union_alt. lia.
  - intros Ha c. apply absent_get in Ha.
    rewrite (ask_cmd ext c "SMOVE" [src; dst; v] d _ eq_refl). unfold c_smove. change (fewer [src; dst; v] 3) with false.
    change (arg [src; dst; v] 0) with (Ret src). change (arg [src; dst; v] 1) with (Ret dst). change (arg [src; dst; v] 2) with (Ret v). cbn [obind]. rewrite E0.
    destruct (sadd_none (put_set p s1 d) dst [v] Ha) as (t' & E & R'). rewrite E. cbn [obind].
    assert (size (list_to_set [v] : gset string) = 1%nat) as E1. { replace (list_to_set [v] : gset string) with ({[v]} : gset string) by set_solver. by rewrite size_singleton. }
    eexists. split; [unfold reply; cbn [obind view]; f_equal; f_equal; by rewrite E1|].
    match goal with |- set_is ?e ?d' src _ ∧ _ => assert (set_obj d' src p s1) as Os; [|assert (set_obj d' dst (db_fresh d) t') as Ot] end.
    { split; [simpl; rewrite sm_get_set by apply I; by rewrite bool_decide_eq_false_2|]. simpl.
      rewrite lookup_insert_ne; [by rewrite lookup_insert|]. apply not_eq_sym. by eapply fresh_other. }
    { split; simpl; [rewrite sm_get_set by apply I; by rewrite bool_decide_eq_true_2|by rewrite lookup_insert]. }
    split_and!; [by eapply set_is_of|by eapply counts_obj| |].
    + replace ({[v]} : gset string) with (list_to_set [v] : gset string) by set_solver. by eapply set_is_of.
    + replace 1 with (ms_len t'); [by eapply counts_obj|]. destruct R' as (_ & _ & ->). unfold counted. lia.
Qed.
(** a STORE from two or more sources starts a new count, which is exact; from a single source the count is shared
    with everything else (C27_one_set) *)
Theorem C62_store ext d o dst k1 k2 ks X1 X2 Xs : reachable ext d → Forall2 (full_set ext d) (k1 :: k2 :: ks) (X1 :: X2 :: Xs) →
  ∃ R : gset string, does ext d (store_name o :: dst :: k1 :: k2 :: ks) (RInt (Z.of_nat (size R)))
      (λ d', set_is ext d' dst R ∧ counts ext d' dst (Z.of_nat (size R))).
Proof.
  intros Hr F. apply reachable_inv in Hr as I. exists (foldl (apply_op o) X1 (X2 :: Xs)). intros c.
  destruct (store_ask ext c d o dst k1 k2 ks X1 X2 Xs I F) as (s' & R & ->). eexists. split; [done|].
  pose proof (new_set_obj d dst s' I) as O. split; [by eapply set_is_of|]. pose proof R as (_ & _ & L). unfold counted in L. rewrite Z.add_0_r in L. rewrite <- L.
  by eapply counts_obj.
Qed.
(** The life of one set key (see [C24_history]): SCARD tells the number of members plus the number of members SPOP
    took since the key came into being. *)
Theorem C62_history ext d k h d' rs : reachable ext d → answers ext d ["EXISTS"; k] (RInt 0) → talk ext h d = Ret (d', rs) →
  within set_step k None (h.*2) →
  ∃ s, consistent set_step k None (h.*2) rs s ∧
    match s with
    | Some (X, taken) => set_is ext d' k X ∧ counts ext d' k (Z.of_nat (size X + taken))
    | None => answers ext d' ["EXISTS"; k] (RInt 0) ∧ counts ext d' k 0 end.
Proof.
  intros Hr Ha H W. pose proof (key_is_absent ext false set_step k d Hr Ha) as K.
  destruct (key_is_next ext false set_step k set_corr (KeyHist.set_ok ext k true) set_determined eq_refl None d h d' rs K ltac:(done) H W) as (s & C & K').
  exists s. split; [done|]. destruct (key_is_corr ext false set_step k set_corr (KeyHist.set_ok ext k true) set_determined eq_refl s d' K') as (m & Sm & Co).
  unfold set_corr in Co. destruct s as [[X dr]|].
  - pose proof (sim_at d' m k Sm) as At. rewrite Co in At. destruct At as (p & st & H1 & H2 & R).
    assert (set_obj d' k p st) as O by done. split; [by eapply set_is_of|]. pose proof R as (_ & _ & L). unfold counted in L. rewrite Nat2Z.inj_add, <- L. by eapply counts_obj.
  - pose proof (exists_answer ext d' m k Sm) as E. rewrite Co in E. split; [done|]. by apply C25_missing.
Qed.
Definition count_demo : list (list string) :=
  [["SADD"; "k"; "a"; "b"; "c"]; ["SPOP"; "k"; "2"]; ["SCARD"; "k"]; ["SADD"; "k"; "x"; "y"]; ["SCARD"; "k"]; ["SPOP"; "k"; "9"]; ["SCARD"; "k"]; ["SMEMBERS"; "k"]].
Example C62_demo : within set_step "k" None count_demo ∧ set_is ext0 (after [["SADD"; "k"; "a"; "b"; "c"]]) "k" {[ "a"; "b"; "c" ]} ∧
  counts ext0 (after [["SADD"; "k"; "a"; "b"; "c"]]) "k" 3 ∧
  replies (count_demo ++ [["SREM"; "k"; "x"]; ["SADD"; "k"; "y"]; ["SCARD"; "k"]; ["SMOVE"; "k"; "j"; "y"]; ["SCARD"; "k"]; ["SCARD"; "j"]]) =
  Some [Some (RInt 3); Some (bulks ["c"; "b"]); Some (RInt 3); Some (RInt 2); Some (RInt 5); Some (bulks ["y"; "x"; "a"]); Some (RInt 5); Some (RArr []); Some (RInt 0); Some (RInt 1); Some (RInt 6);
    Some (RInt 1); Some (RInt 6); Some (RInt 1)].
Proof.
  assert (set_is ext0 (after [["SADD"; "k"; "a"; "b"; "c"]]) "k" {[ "a"; "b"; "c" ]}) as Hs.
  { pose proof (set_is_sadd "a" ["b"; "c"]) as H. replace ({[ "a"; "b"; "c" ]} : gset string) with (list_to_set ["a"; "b"; "c"] : gset string) by set_solver. done. }
  split; [|split; [done|split]].
  - generalize (@None (gset string * nat)). unfold count_demo.
    repeat first
      [ apply within_next;
        [ reflexivity
        | intros st; (eexists; unfold set_step; erewrite table_row by reflexivity; cbv beta iota; unfold exactly; reflexivity)
        | ]
      | intros st; apply within_other; [reflexivity|]; revert st ].
    done.
  - change 3 with (Z.of_nat (size ({["a"; "b"; "c"]} : gset string))).
    apply (C25_scard_partial ext0 (plain_history [["SADD"; "k"; "a"; "b"; "c"]]) _ [Some (RInt 3)] "k" {[ "a"; "b"; "c" ]}); [|by repeat constructor|done].
    unfold after. by vm_compute.
  - by vm_compute.
Qed.
