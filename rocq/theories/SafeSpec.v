(** Harmless requests are safe and keep the values of the abstract server tame. *)
From Coq Require Import SpecFloat.
From Verif Require Import GoBase GoBaseProofs Float64 Float64Proofs SpecResp SpecList SpecZSet SpecCmd SpecServer SpecSafe.

(** ** sums of floats *)
Lemma shr_1_nonneg r : 0 ≤ shr_m r → 0 ≤ shr_m (shr_1 r).
Proof. destruct r as [m r s]. destruct m as [|[p|p|]|[p|p|]]; simpl; intros H; try exact H; try lia. Qed.
Lemma iter_shr_nonneg p : ∀ r, 0 ≤ shr_m r → 0 ≤ shr_m (iter_pos shr_1 p r).
Proof. induction p as [p IH|p IH|]; intros r H; cbn [iter_pos]; [apply IH, IH, shr_1_nonneg, H|apply IH, IH, H|apply shr_1_nonneg, H]. Qed.
Lemma shr_nonneg r e n : 0 ≤ shr_m r → 0 ≤ shr_m (shr r e n).1.
Proof. intros H. unfold shr. destruct n; try exact H. by apply iter_shr_nonneg. Qed.
Lemma shr_fexp_nonneg prec emax m e l : 0 ≤ m → 0 ≤ shr_m (shr_fexp prec emax m e l).1.
Proof. intros H. unfold shr_fexp. apply shr_nonneg. by destruct l as [|[]]. Qed.
Lemma round_nonneg m l : 0 ≤ m → 0 ≤ round_nearest_even m l.
Proof. intros H. destruct l as [|[]]; simpl; try lia. destruct (Z.even m); lia. Qed.
Lemma binary_round_num prec emax sx mx ex : is_nan (binary_round prec emax sx mx ex) = false.
Proof.
  unfold binary_round. destruct (shl_align _ _ _) as [mz ez]. unfold binary_round_aux.
  pose proof (shr_fexp_nonneg prec emax (Zpos mz) ez loc_Exact) as H1. destruct (shr_fexp _ _ (Zpos mz) _ _) as [r1 e1]. simpl in H1.
  set (m2 := round_nearest_even (shr_m r1) (loc_of_shr_record r1)).
  pose proof (shr_fexp_nonneg prec emax m2 e1 loc_Exact) as H2. destruct (shr_fexp _ _ m2 _ _) as [r2 e2]. simpl in H2.
  assert (0 ≤ shr_m r2). { apply H2. unfold m2. apply round_nonneg. apply H1. lia. }
  destruct (shr_m r2); [done| |lia]. by destruct (Z.leb _ _).
Qed.
Lemma fadd_num f g : is_nan f = false → is_inf f = false → is_nan g = false → is_nan (fadd f g) = false.
Proof.
  intros F1 F2 G. unfold fadd, SFadd. destruct f as [sf|sf| |sf mf ef], g as [sg|sg| |sg mg eg]; try done.
  - by destruct (Bool.eqb sf sg).
  - unfold binary_normalize. destruct (Z.add _ _); [done|apply binary_round_num..].
Qed.

(** ** tame values *)
Definition allowed (hb : habit) (w : wear) : Prop :=
  match w with Sound => True | HeadLost => hb = HeadLrem | TailLost => hb = TailLrem end.
Definition numbers (es : list zkey) : Prop := Forall (λ e : zkey, is_nan e.1 = false) es.
Definition tame (hb : habit) (n : Z) (x : option aval) : Prop :=
  match x with
  | None | Some (AStr _) => True
  | Some (AList _ w) => allowed hb w
  | Some (AZSet es _) => zlen es ≤ n ∧ numbers es
  | Some (ASet _ _) | Some ADamaged => False
  end.
Lemma tame_mono hb n n' x : n ≤ n' → tame hb n x → tame hb n' x.
Proof. intros H. destruct x as [[]|]; simpl; try done. intros [? ?]. split; [lia|done]. Qed.

Definition vfine hb n k (v : verdict) : Prop := v_safe v ∧ ∀ r m', v_does v r m' → tame hb n (m' !! k).
Section vf.
Context (hb : habit) (n : Z) (k : string).
Lemma vf_same r m : tame hb n (m !! k) → vfine hb n k (says r m).
Proof. intros T. split; [done|]. by intros r0 m' [_ ->]. Qed.
Lemma vf_fails e m : tame hb n (m !! k) → vfine hb n k (fails e m).
Proof. apply vf_same. Qed.
Lemma vf_few m : tame hb n (m !! k) → vfine hb n k (too_few m).
Proof. apply vf_same. Qed.
Lemma vf_mismatch m : tame hb n (m !! k) → vfine hb n k (mismatch m).
Proof. apply vf_same. Qed.
Lemma vf_put r m a : tame hb n (Some a) → vfine hb n k (says r (<[k := a]> m)).
Proof. intros T. split; [done|]. intros r0 m' [_ ->]. by rewrite lookup_insert. Qed.
Lemma vf_del r m : vfine hb n k (says r (delete k m)).
Proof. split; [done|]. intros r0 m' [_ ->]. by rewrite lookup_delete. Qed.
Lemma vf_guard (G : Prop) r m : tame hb n (m !! k) → G → vfine hb n k (guarded G (says r m) m).
Proof. intros T HG. split; [done|]. by intros r0 m' [-> _]. Qed.
Lemma vf_known (F : Prop) (R : resp → Prop) m : tame hb n (m !! k) → F → vfine hb n k (answered F R m).
Proof. intros T HG. split; [done|]. by intros r0 m' [-> _]. Qed.
Lemma vf_other x W m : tame hb n (m !! k) → x ≠ ADamaged → vfine hb n k (other x W m).
Proof. intros T Hx. destruct x; try done; by apply vf_mismatch. Qed.
Lemma vf_absent r m : tame hb n (m !! k) → vfine hb n k (absent_or r k m).
Proof. intros T. unfold absent_or. destruct (m !! k) eqn:E; [apply vf_mismatch|apply vf_same]; by rewrite E. Qed.
End vf.

(** ** sorted sets *)
Lemma zplace_length e es : length (zplace e es) = S (length es).
Proof. induction es as [|x es IH]; [done|]. simpl. destruct (zlt x e); simpl; [by rewrite IH|done]. Qed.
Lemma zplace_numbers e es : is_nan e.1 = false → numbers es → numbers (zplace e es).
Proof.
  intros He H. induction H as [|x es Hx H IH]; [by repeat constructor|]. simpl.
  destruct (zlt x e); constructor; try done. by constructor.
Qed.
Lemma zdrop_length v es : (length (zdrop v es) ≤ length es)%nat.
Proof. apply filter_length. Qed.
Lemma zdrop_numbers v es : numbers es → numbers (zdrop v es).
Proof. intros H. unfold numbers, zdrop in *. rewrite Forall_forall in *. intros e He. apply elem_of_list_filter in He as [_ He]. by apply H. Qed.
Lemma zfind_number v es f : numbers es → zfind v es = Some f → is_nan f = false.
Proof.
  intros H Hz. unfold zfind in Hz. match type of Hz with context [head ?l] => destruct l as [|e l'] eqn:E end; [discriminate Hz|].
  injection Hz as <-. match type of E with ?l = _ => assert (e ∈ l) as He by (rewrite E; by left) end.
  apply elem_of_list_filter in He as [_ He]. unfold numbers in H. rewrite Forall_forall in H. by apply H.
Qed.
Lemma zadd_one_tame fl e es gh : numbers es → is_nan e.1 = false → (o_incr fl = true → is_inf e.1 = false) →
  ∃ es' o, zadd_one fl e es gh = Some (es', o) ∧ numbers es' ∧ (length es' ≤ S (length es))%nat.
Proof.
  intros N He Hi. unfold zadd_one. destruct (gh !! e.2); [eexists _, _; split; [done|]; split; [done|lia]|].
  destruct (zfind e.2 es) as [old|] eqn:Ef.
  - destruct (o_nx fl); [eexists _, _; split; [done|]; split; [done|lia]|]. cbv zeta.
    assert (is_nan (if o_incr fl then fadd e.1 old else e.1) = false) as Hn.
    { destruct (o_incr fl); [|done]. apply fadd_num; [done|by apply Hi|by eapply zfind_number]. }
    rewrite Hn. destruct (feq _ _); eexists _, _; (split; [done|]); [split; [done|lia]|].
    split; [apply zplace_numbers; [done|by apply zdrop_numbers]|]. rewrite zplace_length. pose proof (zdrop_length e.2 es). lia.
  - destruct (o_xx fl); [eexists _, _; split; [done|]; split; [done|lia]|]. rewrite He. eexists _, _. split; [done|].
    split; [by apply zplace_numbers|]. by rewrite zplace_length.
Qed.
Lemma zadd_many_tame fl ks : ∀ es gh, numbers es → Forall (λ e : zkey, is_nan e.1 = false ∧ (o_incr fl = true → is_inf e.1 = false)) ks →
  ∃ es' n, zadd_many fl ks es gh = Some (es', n) ∧ numbers es' ∧ (length es' ≤ length ks + length es)%nat.
Proof.
  induction ks as [|e ks IH]; intros es gh N H; [by exists es, 0|]. apply Forall_cons in H as [[H1 H2] H]. cbn [zadd_many].
  destruct (zadd_one_tame fl e es gh N H1 H2) as (es1 & o & -> & N1 & L1).
  destruct (IH es1 gh N1 H) as (es2 & n2 & -> & N2 & L2). eexists _, _. split; [done|]. split; [done|]. simpl. lia.
Qed.
(** what the pairs of ZADD come from *)
Lemma zadd_parse_pairs ext l : ∀ fl0 fl ks, zadd_parse ext l fl0 = Some (fl, ks) →
  (length ks ≤ length l)%nat ∧ (∀ e, e ∈ ks → ∃ x, x ∈ l ∧ parse_float ext x = Some e.1) ∧
  (o_incr fl = true → o_incr fl0 = true ∨ ∃ y, y ∈ l ∧ to_lower y = "incr"%string).
Proof.
  remember (length l) as len eqn:Hlen. revert l Hlen. induction (lt_wf len) as [len _ IH]. intros l -> fl0 fl ks.
  destruct l as [|x [|y r]]; cbn [zadd_parse]; [intros [= <- <-]..|].
  { split; [simpl; lia|]. split; [by intros e He%elem_of_nil|by left]. }
  { split; [simpl; lia|]. split; [by intros e He%elem_of_nil|by left]. }
  assert (Flag : ∀ fl1, zadd_parse ext (y :: r) fl1 = Some (fl, ks) →
    (length ks ≤ length (x :: y :: r))%nat ∧ (∀ e, e ∈ ks → ∃ x0, x0 ∈ x :: y :: r ∧ parse_float ext x0 = Some e.1) ∧
    (o_incr fl = true → o_incr fl1 = true ∨ ∃ y0, y0 ∈ x :: y :: r ∧ to_lower y0 = "incr"%string)).
  { intros fl1 H. destruct (IH (length (y :: r)) ltac:(simpl; lia) (y :: r) eq_refl _ _ _ H) as (H1 & H2 & H3). split_and!.
    - simpl in *. lia.
    - intros e He. destruct (H2 e He) as (x0 & Hx & Hp). exists x0. split; [by right|done].
    - intros Hi. destruct (H3 Hi) as [|(y0 & Hy & Hl)]; [by left|right]. exists y0. split; [by right|done]. }
  destruct (String.eqb_spec (to_lower x) "xx"); [intros H; exact (Flag _ H)|]. destruct (String.eqb_spec (to_lower x) "nx"); [intros H; exact (Flag _ H)|].
  destruct (String.eqb_spec (to_lower x) "incr") as [Hx|_].
  { intros H. apply Flag in H as (H1 & H2 & H3). split; [done|]. split; [done|]. intros _. right. exists x. split; [by left|done]. }
  destruct (parse_float ext x) as [f|] eqn:Ef; [|done]. destruct (zadd_parse ext r fl0) as [[fl' ms]|] eqn:Er; [|done]. intros [= <- <-].
  destruct (IH (length r) ltac:(simpl; lia) r eq_refl _ _ _ Er) as (H1 & H2 & H3). split_and!.
  - simpl. lia.
  - intros e [->|He]%elem_of_cons; [exists x; split; [by left|done]|]. destruct (H2 e He) as (x0 & Hx & Hp). exists x0. split; [by do 2 right|done].
  - intros Hi. destruct (H3 Hi) as [|(y0 & Hy & Hl)]; [by left|right]. exists y0. split; [by do 2 right|done].
Qed.

(** ** every harmless request about one key *)
Lemma fits_small n (es : list zkey) : zlen es ≤ n → n < two63 - 2 → fits es.
Proof. unfold fits. lia. Qed.

(** the commands about the key in their first argument, without sets *)
Definition simple : list string :=
  [ "hdel"; "hexists"; "hget"; "hgetall"; "hincrby"; "hincrbyfloat"; "hkeys"; "hlen"; "hmget"; "hmset"; "hset"; "hsetnx"; "hvals";
    "exists"; "del"; "type"; "lpush"; "lpop"; "rpush"; "rpop"; "llen"; "lrange"; "lrem"; "lset"; "linsert";
    "zadd"; "zscore"; "zrank"; "zcard"; "zcount"; "zincr"; "zrange"; "zrangebyscore"; "zrevrange"; "zpopmin";
    "set"; "get"; "incr"; "incrby"; "decr"; "decrby"; "append" ].

Lemma range_fine ext hb n n' b ws k s1 s2 m : tame hb n' (m !! k) → (∀ es, zlen es ≤ n → fits es) →
  match zset_at m k with Some (es, gh) => zlen es ≤ n ∧ numbers es | None => ∃ x, m !! k = Some x ∧ x ≠ ADamaged end →
  vfine hb n' k (range_spec ext b ws k s1 s2 m).
Proof.
  intros T' Fit Z. unfold range_spec.
  destruct (zset_at m k) as [[[|e es] gh]|] eqn:Ez; [by apply vf_same| |destruct Z as (z & E & Hx); unfold not_zset; rewrite E; by apply vf_other].
  destruct Z as [Z1 _]. destruct b.
  - destruct (bound_of ext s1) as [[mn mo]|]; [|by apply vf_fails]. destruct (bound_of ext s2) as [[mx mxo]|]; [|by apply vf_fails].
    apply vf_known; [done|by apply Fit].
  - destruct (parse_int s1); [|by apply vf_fails]. destruct (parse_int s2); [|by apply vf_fails]. apply vf_guard; [done|by apply Fit].
Qed.
Ltac vf1 T :=
  first [ apply vf_put | apply vf_del | apply vf_same | apply vf_fails | apply vf_few | apply vf_mismatch
        | apply vf_absent | apply vf_guard | apply vf_known | apply vf_other ].
Lemma simple_fine ext hb n low a k m g : low ∈ simple → find_spec low (spec_table ext) = Some g →
  harmless ext hb (low :: k :: a) → to_lower low = low → 0 ≤ n < two63 - 2 → tame hb n (m !! k) →
  vfine hb (n + zlen a) k (g (k :: a) m).
Proof.
  intros Hin Hg (H1 & H2 & H3 & H4 & H5 & H6 & H7 & H8) Hl Hn T. rewrite Hl in *.
  assert (T' : tame hb (n + zlen a) (m !! k)) by (eapply tame_mono; [|done]; unfold zlen; lia).
  assert (Fit : ∀ es, zlen es ≤ n → fits es) by (intros es ?; eapply fits_small; [done|lia]).
  unfold simple in Hin. rewrite !elem_of_cons, elem_of_nil in Hin. 
  repeat (destruct Hin as [-> | Hin]; [injection Hg as <-; clear Hl|]); [..|done]; clear H2 H3.
  all: try (clear H1 H4 H5 H6 H7 H8; unfold s_hdel, s_hget, s_hgetall, s_hkeys, s_hlen, s_hmget, s_hset, s_hmset, s_hsetnx, s_hincrby, s_hincrbyfloat;
    repeat (vf1 T || case_match); done).
  all: assert (Z : match zset_at m k with Some (es, gh) => zlen es ≤ n ∧ numbers es | None => ∃ x, m !! k = Some x ∧ x ≠ ADamaged end)
    by (unfold zset_at; destruct (m !! k) as [[]|]; try done; first [by eexists|done|split; [unfold zlen in *; simpl; lia|constructor]]).
  all: assert (Nn : n ≤ n + zlen a) by (unfold zlen; lia).
  all: try (clear H1 H4 H5 H6 H7 H8 Z;
    unfold s_type, s_pop, s_llen, s_lrange, s_lset, s_linsert, s_set, s_get, s_incr, s_incrby, s_decr, s_decrby, s_append, add_to; cbv zeta;
    destruct (m !! k) as [[]|] eqn:E; try done; repeat (case_match; try done);
    vf1 T; first [done | by rewrite E]).
  - unfold s_push. destruct a as [|v vs]; [by apply vf_few|]. destruct (m !! k) as [[]|] eqn:E; try done; [by apply vf_other; [rewrite E|]| |by apply vf_other; [rewrite E|]|by apply vf_put].
    destruct w; [by apply vf_put..|]. by destruct (H8 eq_refl).
  - unfold s_push. destruct a as [|v vs]; [by apply vf_few|]. destruct (m !! k) as [[]|] eqn:E; try done; [by apply vf_other; [rewrite E|]| |by apply vf_other; [rewrite E|]|by apply vf_put].
    destruct w; [by apply vf_put| |by apply vf_put]. by destruct (H7 eq_refl).
  - unfold s_lrem. destruct a as [|s1 [|v a]]; [by apply vf_few..|]. destruct (parse_int s1) as [i|] eqn:Ei; [|by apply vf_fails].
    destruct (m !! k) as [[s|xs w|X dr|es gh|]|] eqn:E; try done; [by apply vf_other; [rewrite E|]| |by apply vf_other; [rewrite E|]|by apply vf_same; rewrite E].
    destruct xs as [|x xs]; [by apply vf_same; rewrite E|]. cbv zeta. specialize (H6 eq_refl). destruct hb; [done|..].
    + specialize (H6 s1 i eq_refl Ei). replace (i =? - two63) with false by (symmetry; apply Z.eqb_neq; unfold two63 in *; lia). replace (i <? 0) with false by lia. apply vf_put.
      by destruct (lrem_result _ _ _).
    + specialize (H6 s1 i eq_refl Ei). destruct (i =? - two63); [by apply vf_same; rewrite E|]. replace (i <? 0) with true by lia. apply vf_put.
      by destruct (lrem_result _ _ _).
  - unfold s_zadd. destruct a as [|x [|y r]]; [by apply vf_few..|].
    destruct (zadd_parse ext (x :: y :: r) (ZO false false false)) as [[fl ks]|] eqn:Ep; [|by apply vf_fails].
    destruct (zset_at m k) as [[es gh]|] eqn:Ez; [|destruct Z as (z & E & Hx); unfold not_zset; rewrite E; by apply vf_other].
    destruct (zadd_parse_pairs ext _ _ _ _ Ep) as (P1 & P2 & P3). destruct Z as [Z1 Z2].
    destruct (zadd_many_tame fl ks es gh Z2) as (es' & c & -> & N' & L').
    { apply Forall_forall. intros e He. destruct (P2 e He) as (u & Hu & Hp). destruct (H4 eq_refl u e.1) as [Q1 Q2]; [by right|done|].
      split; [done|]. intros Hi. destruct (is_inf e.1) eqn:Hinf; [|done]. exfalso. destruct (P3 Hi) as [?|(w & Hw & Hl)]; [done|].
      by apply (Q2 eq_refl w); [right|]. }
    apply vf_put. split; [|done]. unfold zlen in *. lia.
  - unfold s_zscore. destruct a as [|v a]; [by apply vf_few|].
    destruct (zset_at m k) as [[[|e es] gh]|] eqn:Ez; [by apply vf_same|by apply vf_same|destruct Z as (z & E & Hx); unfold not_zset; rewrite E; by apply vf_other].
  - unfold s_zrank. destruct a as [|v a]; [by apply vf_few|].
    destruct (zset_at m k) as [[[|e es] gh]|] eqn:Ez; [by apply vf_same| |destruct Z as (z & E & Hx); unfold not_zset; rewrite E; by apply vf_other].
    destruct Z as [Z1 _]. destruct (gh !! v); (apply vf_guard; [done|by apply Fit]).
  - unfold s_zcard.
    destruct (zset_at m k) as [[es gh]|] eqn:Ez; [by apply vf_same|destruct Z as (z & E & Hx); unfold not_zset; rewrite E; by apply vf_other].
  - unfold s_zcount. destruct a as [|s1 [|s2 a]]; [by apply vf_few..|].
    destruct (zset_at m k) as [[[|e es] gh]|] eqn:Ez; [by apply vf_same| |destruct Z as (z & E & Hx); unfold not_zset; rewrite E; by apply vf_other].
    destruct Z as [Z1 _]. destruct (bound_of ext (to_lower s1)) as [[mn mo]|]; [|by apply vf_fails].
    destruct (bound_of ext (to_lower s2)) as [[mx mxo]|]; [|by apply vf_fails]. apply vf_known; [done|by apply Fit].
  - unfold s_zincr. destruct a as [|s1 [|v a]]; [by apply vf_few..|]. destruct (parse_float ext s1) as [f|] eqn:Ef; [|by apply vf_fails].
    destruct (zset_at m k) as [[es gh]|] eqn:Ez; [|destruct Z as (z & E & Hx); unfold not_zset; rewrite E; by apply vf_other].
    destruct Z as [Z1 Z2]. destruct (H5 eq_refl s1 f) as [Q1 Q2]; [right; by left|done|].
    destruct (zadd_one_tame (ZO true false false) (f, v) es gh Z2) as (es' & o & -> & N' & L'); [done|done|].
    apply vf_put. split; [|done]. unfold zlen in *. simpl. lia.
  - unfold s_zrange. destruct a as [|s1 [|s2 a]]; [by apply vf_few..|]. by apply (range_fine ext hb n).
  - unfold s_zrangebyscore. destruct a as [|s1 [|s2 a]]; [by apply vf_few..|]. by apply (range_fine ext hb n).
  - unfold s_zrevrange. destruct a as [|s1 [|s2 a]]; [by apply vf_few..|].
    destruct (zset_at m k) as [[[|e es] gh]|] eqn:Ez; [by apply vf_same| |destruct Z as (z & E & Hx); unfold not_zset; rewrite E; by apply vf_other].
    destruct Z as [Z1 _]. destruct (parse_int s1); [|by apply vf_fails]. destruct (parse_int s2); [|by apply vf_fails].
    apply vf_guard; [done|by apply Fit].
  - unfold s_zpop. destruct (match a with [] => _ | _ => _ end) as [c|]; [|by apply vf_fails].
    destruct (zset_at m k) as [[[|e es] gh]|] eqn:Ez.
    + by apply vf_same.
    + destruct Z as [Z1 Z2]. cbv zeta. replace (zpop_ok false (Z.to_nat c) (e :: es)) with true.
      2:{ symmetry. unfold zpop_ok. rewrite andb_true_r. lia. }
      apply vf_put. split; [unfold zlen in *; rewrite drop_length; lia|]. unfold numbers in *. by apply Forall_drop.
    + destruct Z as (z & E & Hx). rewrite E. destruct z; try done; by apply vf_same.
Qed.
