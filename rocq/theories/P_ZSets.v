(** C29-C36: sorted sets. *)
From Verif Require Import GoBase GoBaseProofs ShardMap Float64 Float64Proofs Db Protocol Redis Obs SkipList SkipListProofs SkipListOps SkipListMore SkipListScores
  SpecList SpecZSet SpecCmd SpecResp SpecServer SpecKey KeyHist DbInv ExecSteps Sim SimZSet SimMain PropBase KeyIs Examples P_Lists P_Sets.

(** Key [k] came into being as a sorted set (or does not exist) and holds the pairs of [s] in order; no tower of
    the maximal height 32 was drawn (the odds of one are 1 to 4^31 per member added); see KeyIs.v. *)
Definition zset_is (ext : Ext) (d : db) (k : string) (s : option (list zkey * gmap string float)) : Prop := key_is ext true (zset_step ext) k s d.
(** whatever the towers drawn, up to height 31 *)
Definition does_calm (ext : Ext) (d : db) (req : list string) (r : resp) (P : db → Prop) : Prop :=
  ∀ c, low_towers c → ∃ d', ask ext c req d = Ret (d', Some r) ∧ P d'.
Ltac zrow := unfold zset_step; erewrite table_row by reflexivity; cbv beta iota.
Lemma zset_corr0 : zset_corr None None. Proof. done. Qed.
Lemma zset_does ext d k s name a r s' : zset_is ext d k s → not_tossing name → about k (name :: a) = true →
  zset_step ext (name :: a) s = exactly r s' → does ext d (name :: a) r (λ d', zset_is ext d' k s').
Proof. apply (key_is_does ext true (zset_step ext) k zset_corr (zset_ok ext k) (zset_determined ext) zset_corr0). Qed.
Lemma zset_answers ext d k s name a r s' : zset_is ext d k s → not_tossing name → bool_decide (to_lower name ∈ read_only) = true →
  about k (name :: a) = true → zset_step ext (name :: a) s = exactly r s' → answers ext d (name :: a) r.
Proof. apply (key_is_answers ext true (zset_step ext) k zset_corr (zset_ok ext k) (zset_determined ext) zset_corr0). Qed.
Lemma zset_calm ext d k s req r s' : zset_is ext d k s → about k req = true →
  zset_step ext req s = exactly r s' → does_calm ext d req r (λ d', zset_is ext d' k s').
Proof.
  intros K Ea Es c Lo.
  destruct (key_is_step ext true (zset_step ext) k zset_corr (zset_ok ext k) (zset_determined ext) zset_corr0 s d c req (λ r' s1, r' = r ∧ s1 = s') K)
    as (d' & r' & s1 & E & [-> ->] & K'); [by intros _ _|done|done|]. by exists d'.
Qed.
Lemma zset_sim ext d k s : zset_is ext d k s → ∃ m, sim d m ∧ zset_corr s (m !! k).
Proof. apply (key_is_corr ext true (zset_step ext) k zset_corr (zset_ok ext k) (zset_determined ext) zset_corr0). Qed.

Lemma ask_answered ext d m name a (F : Prop) (R : resp → Prop) : sim d m → not_tossing name → bool_decide (to_lower name ∈ read_only) = true → F →
  spec ext (name :: a) m = answered F R m → ∀ c, ∃ r, R r ∧ ask ext c (name :: a) d = Ret (d, Some r).
Proof.
  intros Sm Ht Hr HF E c. destruct (ask_meets ext c (name :: a) d m Sm (calm_other c name a Ht)) as [A1 A2]. rewrite E in A1, A2.
  destruct A1 as (d' & r' & Ha); [done|]. destruct (A2 _ _ Ha) as (m' & V & S'). destruct V as [-> V]. destruct (V HF) as (r & -> & HR).
  assert (Hw : writes (name :: a) = []) by (unfold writes; by rewrite Hr).
  exists r. split; [done|]. by rewrite Ha, (ask_reads ext c (name :: a) d d' _ (sim_inv _ _ Sm) Hw (read_only_plain name a Hr) Ha).
Qed.
Lemma ask_guarded ext d m name a (G : Prop) r : sim d m → not_tossing name → bool_decide (to_lower name ∈ read_only) = true → G →
  spec ext (name :: a) m = guarded G (says r m) m → ∀ c, ask ext c (name :: a) d = Ret (d, Some r).
Proof.
  intros Sm Ht Hr HG E c. destruct (ask_meets ext c (name :: a) d m Sm (calm_other c name a Ht)) as [A1 A2]. rewrite E in A1, A2.
  destruct A1 as (d' & r' & Ha); [by split|]. destruct (A2 _ _ Ha) as (m' & V & S'). destruct V as [-> V]. destruct (V HG) as [-> _].
  assert (Hw : writes (name :: a) = []) by (unfold writes; by rewrite Hr).
  by rewrite Ha, (ask_reads ext c (name :: a) d d' _ (sim_inv _ _ Sm) Hw (read_only_plain name a Hr) Ha).
Qed.

(** ** C29: sorted sets stay sorted and indexable *)
Theorem C29_start ext d k : reachable ext d → answers ext d ["EXISTS"; k] (RInt 0) → zset_is ext d k None.
Proof. apply key_is_absent. Qed.
Theorem C29_history ext d k s h d' rs : zset_is ext d k s → calm h → talk ext h d = Ret (d', rs) → within (zset_step ext) k s (h.*2) →
  ∃ s', consistent (zset_step ext) k s (h.*2) rs s' ∧ zset_is ext d' k s'.
Proof.
  intros K C H W. by apply (key_is_next ext true (zset_step ext) k zset_corr (zset_ok ext k) (zset_determined ext) zset_corr0 s d h d' rs).
Qed.
Theorem C29_served ext d k s h : zset_is ext d k s → calm h → within (zset_step ext) k s (h.*2) → Forall (λ x, about k x.2 = true) h →
  ∃ d' rs, talk ext h d = Ret (d', rs).
Proof.
  intros K C W F. by apply (key_is_served ext true (zset_step ext) k zset_corr (zset_ok ext k) (zset_determined ext) zset_corr0 s d h).
Qed.
(** by score, equal scores by member (bytewise) *)
Definition before (a b : zkey) : Prop := flt a.1 b.1 = true ∨ feq a.1 b.1 = true ∧ str_ltb a.2 b.2 = true.
Theorem C29_sorted ext d k s : zset_is ext d k s →
  (∀ i j a b, (i < j)%nat → pairs s !! i = Some a → pairs s !! j = Some b → before a b) ∧
  NoDup (pairs s).*2 ∧ ∀ a, a ∈ pairs s → is_nan a.1 = false ∧ a.2 ∉ popped s.
Proof.
  intros K. destruct (zset_sim ext d k s K) as (m & Sm & C). destruct s as [[es gh]|]; cbn [pairs gone] in *; unfold popped; cbn [gone].
  - unfold zset_corr in C. pose proof (sim_at d m k Sm) as At. rewrite C in At. destruct At as (z & _ & ents & R).
    pose proof (zr_keys _ _ _ _ R) as <-. destruct (zr_inv _ _ _ _ R) as [_ So Nu]. split_and!.
    + intros i j a b Hij Ha Hb. apply list_lookup_fmap_inv in Ha as (e & -> & He). apply list_lookup_fmap_inv in Hb as (f & -> & Hf).
      pose proof (zsorted_lookup _ _ _ _ _ So Hij He Hf) as L. unfold zlt in L. apply orb_true_iff in L as [L|L]; [by left|].
      right. by apply andb_true_iff in L.
    + rewrite vals_keys. apply R.
    + intros a Ha. apply elem_of_list_fmap in Ha as (e & -> & He). rewrite Forall_forall in Nu. split; [by apply Nu|]. cbn [e_key snd].
      intros Hd. apply elem_of_dom in Hd as [f Hf]. destruct (zr_gh _ _ _ _ R _ _ Hf) as [Hn _]. apply Hn. by apply elem_of_list_fmap_1.
  - split; [by intros|]. split; [constructor|]. intros a Ha. by apply elem_of_nil in Ha.
Qed.
(** ZCARD counts; ZRANGE shows exactly the positions asked for, counted from either end and clipped (C23) *)
Theorem C29_shown ext d k s : zset_is ext d k s →
  answers ext d ["TYPE"; k] (RStatus (if s then "sortedSet" else "none")) ∧ answers ext d ["ZCARD"; k] (RInt (zlen (pairs s))).
Proof.
  intros K. split; (eapply zset_answers; [done..|by apply about_first|]); by zrow.
Qed.
Theorem C29_zrange ext d k s a b i j : zset_is ext d k s → zlen (pairs s) < two63 - 2 → parse_int a = Some i → parse_int b = Some j →
  ∃ ys, clipped i j (pairs s) ys ∧ answers ext d ["ZRANGE"; k; a; b] (if pairs s then RNil else bulks ys.*2).
Proof.
  intros K Hf Ha Hb. exists (window i j (pairs s)). split; [apply C23_window|].
  eapply zset_answers; [done..|by apply about_first|]. zrow. assert ((two63 - 2 <=? zlen (pairs s)) = false) as -> by lia.
  unfold int_arg. rewrite Ha, Hb. by destruct (pairs s).
Qed.
Lemma window_all {A} (es : list A) : window 0 (-1) es = es.
Proof.
  unfold window, norm_index. cbn [Z.ltb Z.compare].
  match goal with |- take _ (drop ?x _) = _ => replace x with 0%nat by lia end. rewrite drop_0, take_ge; [done|]. lia.
Qed.
Theorem C29_zrange_all ext d k s : zset_is ext d k s → zlen (pairs s) < two63 - 2 → pairs s ≠ [] →
  answers ext d ["ZRANGE"; k; "0"; "-1"] (bulks (pairs s).*2).
Proof.
  intros K Hf Hn. eapply zset_answers; [done..|by apply about_first|]. zrow. assert ((two63 - 2 <=? zlen (pairs s)) = false) as -> by lia.
  unfold int_arg. change (parse_int "0") with (Some 0). change (parse_int "-1") with (Some (-1)). cbv iota. destruct (pairs s) as [|e es]; [done|]. by rewrite window_all.
Qed.

(** ** C30: scores *)
Lemma zfind_place_eq f v es : v ∉ es.*2 → zfind v (zplace (f, v) es) = Some f.
Proof.
  unfold zfind. induction es as [|e es IH]; intros Hv; cbn [zplace]; [by rewrite filter_cons_True|].
  rewrite fmap_cons in Hv. apply not_elem_of_cons in Hv as [H1 H2]. destruct (zlt e (f, v)).
  - rewrite filter_cons_False by congruence. by apply IH.
  - by rewrite filter_cons_True.
Qed.
Lemma zfind_place_ne f v v' es : v' ≠ v → zfind v' (zplace (f, v) es) = zfind v' es.
Proof.
  intros Hv. unfold zfind. induction es as [|e es IH]; cbn [zplace]; [by rewrite filter_cons_False by (simpl; congruence)|].
  destruct (zlt e (f, v)).
  - destruct (decide (e.2 = v')); [by rewrite !filter_cons_True|by rewrite !filter_cons_False].
  - by rewrite (filter_cons_False _ (f, v)) by (simpl; congruence).
Qed.
Lemma zfind_drop_ne v v' es : v' ≠ v → zfind v' (zdrop v es) = zfind v' es.
Proof.
  intros Hv. unfold zfind, zdrop. rewrite list_filter_filter. f_equal. f_equal. apply list_filter_iff. intros x. split; [by intros [? ?]|].
  intros <-. by split.
Qed.
Lemma zdrop_out v es : v ∉ (zdrop v es).*2.
Proof. intros H. apply elem_of_list_fmap in H as (e & -> & He). unfold zdrop in He. apply elem_of_list_filter in He as [He _]. by apply He. Qed.
(** the score a pair of ZADD gives to its member *)
Lemma add_pair_plain f v es P : v ∉ P → is_nan f = false → ∃ es' o, add_pair false false false f v es P = Some (es', o) ∧
  (∃ g, zfind v es' = Some g ∧ feq g f = true) ∧ ∀ v', v' ≠ v → zfind v' es' = zfind v' es.
Proof.
  intros Hp Hn. unfold add_pair. rewrite bool_decide_eq_false_2 by done. destruct (zfind v es) as [old|] eqn:Ez; rewrite Hn.
  - cbv zeta. destruct (feq f old) eqn:Ef.
    + eexists _, _. split; [done|]. split; [|done]. exists old. split; [done|]. by rewrite feq_sym.
    + eexists _, _. split; [done|]. split.
      * exists f. split; [apply zfind_place_eq, zdrop_out|]. by apply feq_refl.
      * intros v' Hv. rewrite zfind_place_ne by done. by apply zfind_drop_ne.
  - eexists _, _. split; [done|]. split.
    + exists f. split; [apply zfind_place_eq; by apply zfind_None|]. by apply feq_refl.
    + intros v' Hv. by apply zfind_place_ne.
Qed.
Definition no_option (x : string) : Prop := to_lower x ∉ ["xx"; "nx"; "incr"]%string.
Lemma parse_plain ext x v r f fl : no_option x → parse_float ext x = Some f →
  zadd_parse ext (x :: v :: r) fl = match zadd_parse ext r fl with Some (fl', ms) => Some (fl', (f, v) :: ms) | None => None end.
Proof.
  unfold no_option. intros Hx Hf. cbn [zadd_parse]. rewrite !not_elem_of_cons in Hx. destruct Hx as (H1 & H2 & H3 & _).
  destruct (String.eqb_spec (to_lower x) "xx"); [done|]. destruct (String.eqb_spec (to_lower x) "nx"); [done|].
  destruct (String.eqb_spec (to_lower x) "incr"); [done|]. by rewrite Hf.
Qed.
(** ZSCORE tells the score *)
Theorem C30_zscore ext d k s v : zset_is ext d k s → v ∉ popped s →
  answers ext d ["ZSCORE"; k; v] (match zfind v (pairs s) with Some f => RBulk (format_float ext f) | None => RNil end).
Proof.
  intros K Hp. unfold popped in Hp. apply not_elem_of_dom in Hp. eapply zset_answers; [done..|by apply about_first|]. zrow. rewrite Hp. by destruct (pairs s) as [|e es]; [|destruct (zfind v (e :: es))].
Qed.
(** ZADD sets it (to the number given, or leaves it if it is that number already), whether the member is new or not *)
Theorem C30_zadd ext d k s x f v : zset_is ext d k s → no_option x → parse_float ext x = Some f → is_nan f = false → v ∉ popped s →
  ∃ es n, does_calm ext d ["ZADD"; k; x; v] (RInt n) (λ d', zset_is ext d' k (Some (es, gone s))) ∧
    (∃ g, zfind v es = Some g ∧ feq g f = true) ∧ ∀ v', v' ≠ v → zfind v' es = zfind v' (pairs s).
Proof.
  intros K Hx Hf Hn Hp. destruct (add_pair_plain f v (pairs s) (popped s) Hp Hn) as (es & o & E & H1 & H2).
  exists es, ((if o then 1 else 0) + 0). split; [|done]. eapply zset_calm; [done|about_write|]. zrow.
  rewrite (parse_plain ext x v [] f _ Hx Hf). cbn [zadd_parse add_pairs o_incr o_nx o_xx]. by rewrite E.
Qed.
(** ZINCR adds to it, a missing member counting as 0 *)
Theorem C30_zincr ext d k s x f v : zset_is ext d k s → parse_float ext x = Some f → v ∉ popped s →
  let g := match zfind v (pairs s) with Some old => fadd f old | None => f end in is_nan g = false →
  ∃ es r, does_calm ext d ["ZINCR"; k; x; v] r (λ d', zset_is ext d' k (Some (es, gone s))) ∧
    (∃ g', zfind v es = Some g' ∧ feq g' g = true) ∧ (∀ v', v' ≠ v → zfind v' es = zfind v' (pairs s)) ∧
    (if match zfind v (pairs s) with Some old => feq g old | None => false end then r = RInt 0 else r = RBulk (format_float ext g)).
Proof.
  intros K Hf Hp g Hg. assert (∃ es o, add_pair true false false f v (pairs s) (popped s) = Some (es, o) ∧
      (∃ g', zfind v es = Some g' ∧ feq g' g = true) ∧ (∀ v', v' ≠ v → zfind v' es = zfind v' (pairs s)) ∧
      o = if match zfind v (pairs s) with Some old => feq g old | None => false end then None else Some g) as (es & o & E & H1 & H2 & H3).
  { unfold add_pair. rewrite bool_decide_eq_false_2 by done. subst g. destruct (zfind v (pairs s)) as [old|] eqn:Ez; cbv zeta; rewrite Hg.
    - destruct (feq (fadd f old) old) eqn:Ef.
      + eexists _, _. split; [done|]. split; [|done]. exists old. split; [done|]. by rewrite feq_sym.
      + eexists _, _. split; [done|]. split_and!; [|intros v' Hv; rewrite zfind_place_ne by done; by apply zfind_drop_ne|done].
        eexists. split; [apply zfind_place_eq, zdrop_out|]. by apply feq_refl.
    - eexists _, _. split; [done|]. split_and!; [|intros v' Hv; by apply zfind_place_ne|done].
      eexists. split; [apply zfind_place_eq; by apply zfind_None|]. by apply feq_refl. }
  exists es, (match o with Some g => RBulk (format_float ext g) | None => RInt 0 end). split.
  - eapply zset_calm; [done|about_write|]. zrow. rewrite Hf, E. by destruct o.
  - split; [done|]. split; [done|]. rewrite H3. by destruct (match zfind v (pairs s) with Some old => feq g old | None => false end).
Qed.

(** a concrete sorted set *)
Definition zpairs : list zkey := [(f_of_Z 1, "a"); (f_of_Z 2, "b"); (f_of_Z 2, "bb"); (f_of_Z 3, "c")]%string.
Definition zmake : list (list string) := [["ZADD"; "k"; "1"; "a"; "2"; "b"; "3"; "c"; "2"; "bb"]].
Lemma low_c0 : low_towers c0. Proof. intros j. unfold low_draw, max_level. vm_compute. lia. Qed.
Lemma zset_is_zadd : zset_is ext0 (after zmake) "k" (Some (zpairs, ∅)).
Proof.
  destruct (zset_calm ext0 db_new "k" None ["ZADD"; "k"; "1"; "a"; "2"; "b"; "3"; "c"; "2"; "bb"] (RInt 4) (Some (zpairs, ∅))
    (C29_start _ _ _ (db_new_reachable _) (db_new_absent _ _)) ltac:(about_write) ltac:(zrow; lazy -[exactly]; reflexivity) c0 low_c0) as (d' & E & K).
  unfold after, zmake, plain_history. rewrite fmap_cons, fmap_nil. cbn [talk]. rewrite E. cbn [obind]. done.
Qed.
Example C29_demo : zset_is ext0 (after zmake) "k" (Some (zpairs, ∅)) ∧
  replies (zmake ++ [["ZRANGE"; "k"; "0"; "-1"]; ["ZRANGE"; "k"; "1"; "2"]; ["ZADD"; "k"; "5"; "a"]; ["ZINCR"; "k"; "-4"; "c"]; ["ZRANGE"; "k"; "0"; "-1"]; ["ZCARD"; "k"]]) =
  Some [Some (RInt 4); Some (bulks ["a"; "b"; "bb"; "c"]); Some (bulks ["b"; "bb"]); Some (RInt 1); Some (RBulk "-1"); Some (bulks ["c"; "b"; "bb"; "a"]); Some (RInt 4)].
Proof. split; [apply zset_is_zadd|by vm_compute]. Qed.
Example C30_demo : no_option "5" ∧ parse_float ext0 "5" = Some (f_of_Z 5) ∧ is_nan (f_of_Z 5) = false ∧
  replies (zmake ++ [["ZSCORE"; "k"; "c"]; ["ZADD"; "k"; "5"; "a"]; ["ZSCORE"; "k"; "a"]; ["ZINCR"; "k"; "-4"; "a"]; ["ZSCORE"; "k"; "a"]; ["ZSCORE"; "k"; "zz"]]) =
  Some [Some (RInt 4); Some (RBulk "3"); Some (RInt 1); Some (RBulk "5"); Some (RBulk "1"); Some (RBulk "1"); Some RNil].
Proof. split_and!; [apply (bool_decide_eq_true_1 _); by vm_compute|by vm_compute..]. Qed.
(** a tower of the maximal height, and the next ZADD crashes the server *)
Theorem C29_high_tower_refuted :
  let c := Ch (λ _ _, []) (λ _, 32%nat) in talk ext0 [(c, ["ZADD"; "k"; "1"; "a"]); (c, ["ZADD"; "k"; "2"; "b"])] db_new = Panic.
Proof. by vm_compute. Qed.

(** ** C31: ranks *)
Lemma zindex_at v es i f : NoDup es.*2 → es !! i = Some (f, v) → zindex v es = Some i.
Proof.
  revert i. unfold zindex. induction es as [|e es IH]; intros i Hn Hi; [done|]. rewrite fmap_cons in Hn. apply NoDup_cons in Hn as [He Hn].
  cbn [list_find]. destruct i as [|i].
  - injection Hi as ->. by rewrite decide_True.
  - simpl in Hi. assert (e.2 ≠ v) as Hne. { intros <-. apply He. change e.2 with (f, e.2).2. apply elem_of_list_fmap_1. by eapply elem_of_list_lookup_2. }
    rewrite decide_False by done. specialize (IH i Hn Hi). destruct (list_find (λ k : zkey, k.2 = v) es) as [[j y]|]; [|done]. simpl in IH |- *. congruence.
Qed.
Theorem C31_zrank ext d k s i f v : zset_is ext d k s → zlen (pairs s) < two63 - 2 → pairs s !! i = Some (f, v) →
  answers ext d ["ZRANK"; k; v] (RInt (Z.of_nat i + 1)).
Proof.
  intros K Hf Hi. destruct (C29_sorted ext d k s K) as (_ & Hn & Hp). destruct (Hp (f, v)) as [_ Hv]; [by eapply elem_of_list_lookup_2|].
  eapply zset_answers; [done..|by apply about_first|]. zrow. assert ((two63 - 2 <=? zlen (pairs s)) = false) as -> by lia.
  unfold popped in Hv. apply not_elem_of_dom in Hv. cbn [snd] in Hv. rewrite Hv. pose proof (zindex_at v (pairs s) i f Hn Hi) as E. destruct (pairs s); [done|]. cbv zeta. by rewrite E.
Qed.
Theorem C31_missing ext d k s v : zset_is ext d k s → zlen (pairs s) < two63 - 2 → v ∉ (pairs s).*2 → v ∉ popped s →
  answers ext d ["ZRANK"; k; v] RNil.
Proof.
  intros K Hf Hi Hv. apply zindex_None in Hi. eapply zset_answers; [done..|by apply about_first|]. zrow. assert ((two63 - 2 <=? zlen (pairs s)) = false) as -> by lia.
  unfold popped in Hv. apply not_elem_of_dom in Hv. rewrite Hv. destruct (pairs s); [done|]. cbv zeta. by rewrite Hi.
Qed.
Example C31_demo : zset_is ext0 (after zmake) "k" (Some (zpairs, ∅)) ∧ zpairs !! 2%nat = Some (f_of_Z 2, "bb"%string) ∧
  replies (zmake ++ [["ZRANK"; "k"; "bb"]; ["ZRANK"; "k"; "zz"]]) = Some [Some (RInt 4); Some (RInt 3); Some RNil].
Proof. split_and!; [apply zset_is_zadd|done|by vm_compute]. Qed.

(** ** C32: ZREM *)
(** The full property, for every member.  It fails from the third member on ([C32_refuted]); proved for the two
    lowest. *)
Theorem C32_zrem_partial ext d k es P i f v : zset_is ext d k (Some (es, P)) → es !! i = Some (f, v) → (i ≤ 1)%nat →
  ∃ es', es' = delete i es ∧ (∀ v', v' ≠ v → zfind v' es' = zfind v' es) ∧ zfind v es' = None ∧
    does ext d ["ZREM"; k; v] (RInt 1) (λ d', zset_is ext d' k (Some (es', P))).
Proof.
  intros K Hi Hle. destruct (C29_sorted ext d k _ K) as (_ & Hn & Hp). cbn [pairs] in *. destruct (Hp (f, v)) as [_ Hv]; [by eapply elem_of_list_lookup_2|]. unfold popped in Hv. cbn [snd gone] in Hv. apply not_elem_of_dom in Hv.
  assert (zdrop v es = delete i es) as Ed.
  { clear -Hn Hi. revert i Hi. induction es as [|e es IH]; intros i Hi; [done|]. rewrite fmap_cons in Hn. apply NoDup_cons in Hn as [He Hn]. destruct i as [|i].
    - injection Hi as ->. unfold zdrop. rewrite filter_cons_False by (intros Hx; by apply Hx). simpl. apply (zdrop_notin v es). done.
    - simpl in Hi. rewrite zdrop_cons_ne; [by rewrite (IH Hn i Hi)|]. intros <-. apply He. change e.2 with (f, e.2).2. apply elem_of_list_fmap_1. by eapply elem_of_list_lookup_2. }
  exists (delete i es). split; [done|]. rewrite <- Ed. split_and!; [intros v' Hne; by apply zfind_drop_ne|apply zfind_None, zdrop_out|].
  eapply zset_does; [done..|about_write|]. zrow. cbn [pairs gone remove_low]. pose proof (zindex_at v es i f Hn Hi) as Ei. destruct es as [|e0 es]; [done|]. cbv zeta. rewrite Hv, Ei.
  destruct (Nat.leb_spec i 1); [done|lia].
Qed.
Theorem C32_missing ext d k s v : zset_is ext d k s → v ∉ (pairs s).*2 → v ∉ popped s →
  does ext d ["ZREM"; k; v] (RInt 0) (λ d', zset_is ext d' k s).
Proof.
  intros K Hi Hv. apply zindex_None in Hi. eapply zset_does; [done..|about_write|]. zrow. cbn [remove_low]. unfold popped in Hv. apply not_elem_of_dom in Hv. rewrite Hv.
  destruct s as [[es P]|]; [|done]. cbn [pairs gone] in *. destruct es; [done|]. cbv zeta. by rewrite Hi.
Qed.
Example C32_demo : zset_is ext0 (after zmake) "k" (Some (zpairs, ∅)) ∧ zpairs !! 1%nat = Some (f_of_Z 2, "b"%string) ∧
  replies (zmake ++ [["ZREM"; "k"; "b"; "a"]; ["ZRANGE"; "k"; "0"; "-1"]; ["ZCARD"; "k"]; ["ZSCORE"; "k"; "b"]]) =
    Some [Some (RInt 4); Some (RInt 2); Some (bulks ["bb"; "c"]); Some (RInt 2); Some RNil].
Proof. split_and!; [apply zset_is_zadd|done|by vm_compute]. Qed.
(** the third member: counted as removed, without a score, and still in every range *)
Theorem C32_refuted :
  replies (zmake ++ [["ZREM"; "k"; "c"]; ["ZRANGE"; "k"; "0"; "-1"]; ["ZCARD"; "k"]; ["ZSCORE"; "k"; "c"]]) =
  Some [Some (RInt 4); Some (RInt 1); Some (bulks ["a"; "b"; "bb"; "c"]); Some (RInt 4); Some RNil].
Proof. by vm_compute. Qed.

(** ** C33: ZPOPMIN and ZPOPMAX *)
Definition shown_with_scores (ext : Ext) (l : list zkey) : resp := bulks (concat ((λ e : zkey, [e.2; format_float ext e.1]) <$> l)).
(** The n lowest are returned and leave the ranges, the rest stays.  (Missing: they are forgotten by ZSCORE and can be
    added again, see [C33_refuted].) *)
Theorem C33_zpopmin_partial ext d k es P a n : zset_is ext d k (Some (es, P)) → zlen es < two63 - 2 → parse_int a = Some n →
  ∃ low rest, es = low ++ rest ∧ length low = Nat.min (Z.to_nat n) (length es) ∧
    does ext d ["ZPOPMIN"; k; a] (shown_with_scores ext low) (λ d', zset_is ext d' k (Some (rest, pop P low))).
Proof.
  intros K Hf Ha. exists (take (Z.to_nat n) es), (drop (Z.to_nat n) es). split; [by rewrite take_drop|]. split; [apply take_length|].
  eapply zset_does; [done..|about_write|]. zrow. cbn [pairs]. assert ((two63 - 2 <=? zlen es) = false) as -> by lia. unfold int_arg. by rewrite Ha.
Qed.
(** ZPOPMAX, only for sets of at most two members and counts within them *)
Theorem C33_zpopmax_partial ext d k es P a n : zset_is ext d k (Some (es, P)) → parse_int a = Some n → n ≤ zlen es → zlen es ≤ 2 →
  ∃ rest high, es = rest ++ high ∧ length high = Z.to_nat n ∧
    does ext d ["ZPOPMAX"; k; a] (shown_with_scores ext (reverse high)) (λ d', zset_is ext d' k (Some (rest, pop P (reverse high)))).
Proof.
  intros K Ha Hn Hs. exists (reverse (drop (Z.to_nat n) (reverse es))), (reverse (take (Z.to_nat n) (reverse es))).
  split; [by rewrite <- reverse_app, take_drop, reverse_involutive|]. split; [rewrite reverse_length, take_length, reverse_length; unfold zlen in Hn; lia|].
  rewrite reverse_involutive.
  eapply zset_does; [done..|about_write|]. zrow. cbn [pairs]. unfold int_arg. rewrite Ha.
  assert (((zlen es <? two63 - 2) && ((n <=? 0) || ((n <=? zlen es) && (zlen es <=? 2)))) = true) as ->; [|done].
  apply andb_true_iff. split; [unfold two63; lia|]. apply orb_true_iff. right. apply andb_true_iff. split; lia.
Qed.
Example C33_demo : zset_is ext0 (after zmake) "k" (Some (zpairs, ∅)) ∧
  replies (zmake ++ [["ZPOPMIN"; "k"; "2"]; ["ZRANGE"; "k"; "0"; "-1"]; ["ZCARD"; "k"]; ["ZPOPMAX"; "k"; "1"]; ["ZRANGE"; "k"; "0"; "-1"]]) =
    Some [Some (RInt 4); Some (bulks ["a"; "1"; "b"; "2"]); Some (bulks ["bb"; "c"]); Some (RInt 2); Some (bulks ["c"; "3"]); Some (bulks ["bb"])].
Proof. split_and!; [apply zset_is_zadd|by vm_compute]. Qed.
(** a popped member keeps its score and cannot come back; ZPOPMAX of three or more members pops nothing (or the same
    member again and again); of a single member and count 2 it invents a member *)
Theorem C33_refuted :
  replies (zmake ++ [["ZPOPMIN"; "k"; "1"]; ["ZSCORE"; "k"; "a"]; ["ZADD"; "k"; "7"; "a"]; ["ZRANGE"; "k"; "0"; "-1"]]) =
    Some [Some (RInt 4); Some (bulks ["a"; "1"]); Some (RBulk "1"); Some (RInt 0); Some (bulks ["b"; "bb"; "c"])] ∧
  replies (zmake ++ [["ZPOPMAX"; "k"; "2"]; ["ZRANGE"; "k"; "0"; "-1"]; ["ZCARD"; "k"]]) =
    Some [Some (RInt 4); Some (bulks ["c"; "3"; "c"; "3"]); Some (bulks ["a"; "b"; "bb"; "c"]); Some (RInt 4)] ∧
  replies [["ZADD"; "k"; "1"; "a"]; ["ZPOPMAX"; "k"; "2"]] = Some [Some (RInt 1); Some (bulks ["a"; "1"; ""; "0"])].
Proof. by vm_compute. Qed.

(** ** C54: what ZCOUNT and ZRANGEBYSCORE do on every interval (SpecZSet.v: [lower_rank], [upper_rank]) *)
Theorem C54_zcount ext d k s s1 s2 mn mo mx mxo : zset_is ext d k s → zlen (pairs s) < two63 - 2 →
  bound_of ext (to_lower s1) = Some (mn, mo) → bound_of ext (to_lower s2) = Some (mx, mxo) → pairs s ≠ [] →
  ∀ c, ∃ n, count_answer mn mo mx mxo (pairs s) n ∧ ask ext c ["ZCOUNT"; k; s1; s2] d = Ret (d, Some (RInt n)).
Proof.
  intros K Hf H1 H2 Hne c. destruct (zset_sim ext d k s K) as (m & Sm & C). pose proof (zset_view k s m C) as Ez.
  destruct (pairs s) as [|e es] eqn:Ep; [done|].
  destruct (ask_answered ext d m "ZCOUNT" [k; s1; s2] (fits (e :: es)) (λ r, ∃ n, count_answer mn mo mx mxo (e :: es) n ∧ r = RInt n) Sm)
    with (c := c) as (r & (n & Hn & ->) & E); [done|done|done| |by exists n].
  spc. cbn [s_zcount]. rewrite Ez, H1, H2. done.
Qed.
Theorem C54_zrangebyscore ext d k s s1 s2 mn mo mx mxo : zset_is ext d k s → zlen (pairs s) < two63 - 2 →
  bound_of ext s1 = Some (mn, mo) → bound_of ext s2 = Some (mx, mxo) → pairs s ≠ [] →
  ∀ c, ∃ ys, select_answer mn mo mx mxo (pairs s) ys ∧ ask ext c ["ZRANGEBYSCORE"; k; s1; s2] d = Ret (d, Some (bulks ys.*2)).
Proof.
  intros K Hf H1 H2 Hne c. destruct (zset_sim ext d k s K) as (m & Sm & C). pose proof (zset_view k s m C) as Ez.
  destruct (pairs s) as [|e es] eqn:Ep; [done|].
  destruct (ask_answered ext d m "ZRANGEBYSCORE" [k; s1; s2] (fits (e :: es)) (λ r, ∃ ys, select_answer mn mo mx mxo (e :: es) ys ∧ r = shown ext false ys) Sm)
    with (c := c) as (r & (ys & Hn & ->) & E); [done|done|done| |].
  { spc. cbn [s_zrangebyscore]. unfold range_spec. rewrite Ez, H1, H2. done. }
  exists ys. split; [done|]. rewrite E. unfold shown. by rewrite show_plain.
Qed.
(** Finite closed ends: the number of members up to the upper end, less those up to the lower end, plus one unless there are none of the latter *)
Theorem C54_closed ext d k s s1 s2 mn mx : zset_is ext d k s → zlen (pairs s) < two63 - 2 →
  bound_of ext (to_lower s1) = Some (mn, false) → bound_of ext (to_lower s2) = Some (mx, false) → is_inf mn = false → is_inf mx = false → pairs s ≠ [] →
  answers ext d ["ZCOUNT"; k; s1; s2] (RInt (zlen (up_to mx (pairs s)) - zlen (up_to mn (pairs s)) + (if up_to mn (pairs s) then 0 else 1))).
Proof.
  intros K Hf H1 H2 I1 I2 Hne c. destruct (C54_zcount ext d k s s1 s2 mn false mx false K Hf H1 H2 Hne c) as (n & Hn & E). rewrite E. do 3 f_equal.
  unfold count_answer in Hn. replace (is_ninf mn && is_pinf mx) with false in Hn by (by destruct mn as [|[]| |]).
  destruct Hn as (lo & hi & L & U & ->). destruct L; [congruence| |done]. destruct U; [congruence| |done]. unfold rank_count, zlen.
  f_equal. destruct (up_to mn (pairs s)) as [|e l]; simpl.
  - lia.
  - replace (Z.pos (Pos.of_succ_nat (length l)) <=? 0) with false by lia. destruct (Z.ltb_spec (Z.of_nat (length (up_to mx (pairs s)))) 0); lia.
Qed.
(** An open lower end that several members share: the answer depends on the heights of the towers. *)
Lemma talk_replies h rs : (match talk ext0 h db_new with Ret (_, x) => Some x | _ => None end) = Some rs → ∃ d, talk ext0 h db_new = Ret (d, rs).
Proof. destruct (talk ext0 h db_new) as [[d x]| |]; [|done..]. intros [= ->]. by exists d. Qed.
Definition tall (n : nat) : choices := Ch (ch_ord c0) (λ _, n).
Definition tied (n : nat) : list (choices * list string) :=
  [(c0, ["ZADD"; "k"; "2"; "a"]); (c0, ["ZADD"; "k"; "2"; "b"]); (tall n, ["ZADD"; "k"; "2"; "c"]); (c0, ["ZCOUNT"; "k"; "(2"; "9"])].
Theorem C54_towers : calm (tied 0) ∧ calm (tied 5) ∧ (tied 0).*2 = (tied 5).*2 ∧
  (∃ d, talk ext0 (tied 0) db_new = Ret (d, [Some (RInt 1); Some (RInt 1); Some (RInt 1); Some (RInt 2)])) ∧
  (∃ d, talk ext0 (tied 5) db_new = Ret (d, [Some (RInt 1); Some (RInt 1); Some (RInt 1); Some (RInt 0)])).
Proof.
  assert (∀ n, low_draw n → calm (tied n)) as Hc.
  { intros n Hn. unfold calm, tied. rewrite !Forall_cons. split_and!; [..|by constructor]; intros _; first [apply low_c0|by intros j]. }
  split_and!; [apply Hc; unfold low_draw, max_level; vm_compute; lia..|done| |]; apply talk_replies; by vm_compute.
Qed.

(** ** C34: selecting by score *)
(** the sorted sequence behind the pairs *)
Lemma pairs_ents ext d k s : zset_is ext d k s → ∃ es, pairs s = e_key <$> es ∧ zsorted es ∧ Forall (λ e, is_nan (e_sc e) = false) es.
Proof.
  intros K. destruct (zset_sim ext d k s K) as (m & Sm & C). destruct s as [[es P]|]; cbn [pairs]; [|by exists []; repeat split; constructor].
  pose proof (sim_at d m k Sm) as At. rewrite C in At. destruct At as (z & _ & ents & R).
  exists ents. destruct (zr_inv _ _ _ _ R) as [_ So Nu]. by rewrite (zr_keys _ _ _ _ R).
Qed.
(** The full property is this without the last hypothesis; the code is wrong on other intervals ([C34_refuted]). *)
Theorem C34_zcount_partial ext d k s s1 s2 mn mo mx mxo : zset_is ext d k s → zlen (pairs s) < two63 - 2 →
  bound_of ext (to_lower s1) = Some (mn, mo) → bound_of ext (to_lower s2) = Some (mx, mxo) →
  count_specified mn mo mx mxo (pairs s) →
  answers ext d ["ZCOUNT"; k; s1; s2] (RInt (zlen (select_scores mn mo mx mxo (pairs s)))).
Proof.
  intros K Hf H1 H2 Hc. destruct (decide (pairs s = [])) as [Ep|Hne].
  - destruct (zset_sim ext d k s K) as (m & Sm & C). pose proof (zset_view k s m C) as Ez. rewrite Ep in *.
    eapply question; [done|done|done|]. spc. cbn [s_zcount]. rewrite Ez. done.
  - intros c. destruct (C54_zcount ext d k s s1 s2 mn mo mx mxo K Hf H1 H2 Hne c) as (n & Hn & ->). do 4 f_equal.
    destruct (pairs_ents ext d k s K) as (es & Ep & So & Nu). rewrite Ep in *. unfold count_answer, zlen in *. rewrite fmap_length in Hn.
    destruct Hc as [(M1 & M2 & M3 & M4)|[(M1 & M2 & M3 & M4 & ->)|(M1 & M2 & -> & ->)]].
    + replace (is_ninf mn && is_pinf mx) with false in Hn by (destruct M2 as (_ & M2 & _); destruct mx as [|[]| |]; simpl; by rewrite ?andb_false_r).
      destruct Hn as (lo & hi & L & U & ->). by apply count_right.
    + replace (is_ninf mn && is_pinf mx) with false in Hn by (by destruct mn as [|[]| |]).
      destruct Hn as (lo & hi & L & U & ->). by apply count_right_pinf.
    + rewrite M1, M2 in Hn. cbn [andb] in Hn. rewrite select_all by done. by rewrite fmap_length.
Qed.
Theorem C34_zrangebyscore_partial ext d k s s1 s2 mn mo mx mxo : zset_is ext d k s → zlen (pairs s) < two63 - 2 →
  bound_of ext s1 = Some (mn, mo) → bound_of ext s2 = Some (mx, mxo) → select_specified mn mo mx mxo (pairs s) → pairs s ≠ [] →
  answers ext d ["ZRANGEBYSCORE"; k; s1; s2] (bulks (select_scores mn mo mx mxo (pairs s)).*2).
Proof.
  intros K Hf H1 H2 Hc Hne c. destruct (C54_zrangebyscore ext d k s s1 s2 mn mo mx mxo K Hf H1 H2 Hne c) as (ys & Hn & ->). do 4 f_equal.
  destruct (pairs_ents ext d k s K) as (es & Ep & So & Nu). rewrite Ep in *. unfold select_answer, zlen in *. rewrite fmap_length in Hn.
  destruct Hc as [(M1 & M2 & M3 & M4 & M5)|(M1 & M2 & -> & ->)].
  - replace (is_ninf mn && is_pinf mx) with false in Hn by (destruct M2 as (_ & M2 & _); destruct mx as [|[]| |]; simpl; by rewrite ?andb_false_r).
    destruct Hn as (lo & hi & L & U & ->). f_equal; by apply (window_right es mn mo mx mxo lo hi).
  - rewrite M1, M2 in Hn. cbn [andb] in Hn. rewrite Hn. symmetry. rewrite select_all by done. done.
Qed.
(** everything *)
Theorem C34_all ext d k s : zset_is ext d k s → zlen (pairs s) < two63 - 2 →
  answers ext d ["ZCOUNT"; k; "-inf"; "+inf"] (RInt (zlen (pairs s))) ∧
  (pairs s ≠ [] → answers ext d ["ZRANGEBYSCORE"; k; "-inf"; "+inf"] (bulks (pairs s).*2)).
Proof.
  intros K Hf. destruct (C29_sorted ext d k s K) as (_ & _ & Hp).
  assert (select_scores ninf false pinf false (pairs s) = pairs s) as E.
  { unfold select_scores. generalize (pairs s) Hp. clear. induction l as [|e l IH]; intros H; [done|]. rewrite filter_cons_True.
    - f_equal. apply IH. intros a Ha. apply H. by right.
    - destruct (H e ltac:(by left)) as [H1 _]. unfold in_interval, above_min, below_max. destruct e as [[[]|[]| |[] m e] v]; done. }
  split.
  - rewrite <- E at 1. apply C34_zcount_partial; [done|done|done|done|]. right. right. done.
  - intros Hn. rewrite <- E at 1. apply C34_zrangebyscore_partial; [done|done|done|done| |done]. right. done.
Qed.
(** a closed interval that starts at the score of exactly one member, whatever its upper end *)
Theorem C34_from_member ext d k s s1 s2 mn mx : zset_is ext d k s → zlen (pairs s) < two63 - 2 →
  bound_of ext (to_lower s1) = Some (mn, false) → bound_of ext (to_lower s2) = Some (mx, false) →
  is_nan mn = false → is_inf mn = false → is_nan mx = false → is_inf mx = false → fle mn mx = true → length (at_score mn (pairs s)) = 1%nat →
  answers ext d ["ZCOUNT"; k; s1; s2] (RInt (zlen (select_scores mn false mx false (pairs s)))).
Proof.
  intros K Hf H1 H2 N1 I1 N2 I2 Hle Ha. apply C34_zcount_partial; [done..|]. left. split_and!; try done.
  - split; [done|]. right. split; [done|]. by right.
Qed.
Example C34_demo : zset_is ext0 (after zmake) "k" (Some (zpairs, ∅)) ∧ length (at_score (f_of_Z 1) zpairs) = 1%nat ∧
  bound_of ext0 (to_lower "1") = Some (f_of_Z 1, false) ∧ fle (f_of_Z 1) (f_of_Z 2) = true ∧
  select_scores (f_of_Z 1) false (f_of_Z 2) false zpairs = take 3 zpairs ∧
  replies (zmake ++ [["ZCOUNT"; "k"; "1"; "2"]; ["ZCOUNT"; "k"; "-inf"; "+inf"]; ["ZRANGEBYSCORE"; "k"; "0"; "2"]; ["ZCOUNT"; "k"; "(1"; "(3"]]) =
    Some [Some (RInt 4); Some (RInt 3); Some (RInt 4); Some (bulks ["a"; "b"; "bb"]); Some (RInt 2)].
Proof. split_and!; [apply zset_is_zadd|by vm_compute..]. Qed.
(** a lower end that several members share, an empty interval, a lower end that is no score, an interval above all *)
Theorem C34_refuted :
  replies (zmake ++ [["ZCOUNT"; "k"; "2"; "3"]; ["ZCOUNT"; "k"; "5"; "1"]; ["ZCOUNT"; "k"; "0"; "+inf"]; ["ZCOUNT"; "k"; "4"; "9"]; ["ZRANGEBYSCORE"; "k"; "4"; "9"]; ["ZRANGEBYSCORE"; "k"; "-5"; "0"]]) =
    Some [Some (RInt 4); Some (RInt 2); Some (RInt (-2)); Some (RInt (-1)); Some (RInt 1); Some (bulks ["c"]); Some (bulks ["a"; "b"; "bb"; "c"])].
Proof. by vm_compute. Qed.

(** ** C35: ZREVRANGE *)
(** What it does: the positions asked for, counted from the low end, in descending order. *)
Theorem C35_zrevrange ext d k s a b i j : zset_is ext d k s → zlen (pairs s) < two63 - 2 → parse_int a = Some i → parse_int b = Some j →
  ∃ ys, clipped i j (pairs s) ys ∧ answers ext d ["ZREVRANGE"; k; a; b] (if pairs s then RNil else bulks (reverse ys.*2)).
Proof.
  intros K Hf Ha Hb. exists (window i j (pairs s)). split; [apply C23_window|].
  eapply zset_answers; [done..|by apply about_first|]. zrow. assert ((two63 - 2 <=? zlen (pairs s)) = false) as -> by lia.
  unfold int_arg. rewrite Ha, Hb. destruct (pairs s); [done|]. by rewrite fmap_reverse.
Qed.
(** Counting from the high end, it is right for the whole set and for windows that are their own mirror images
    (the full property, for all windows, fails: [C50_refuted]). *)
Theorem C50_descending_partial ext d k s a b i j : zset_is ext d k s → zlen (pairs s) < two63 - 2 → parse_int a = Some i → parse_int b = Some j →
  position i (pairs s) + position j (pairs s) = zlen (pairs s) - 1 →
  ∃ ys, clipped i j (reverse (pairs s)) ys ∧ answers ext d ["ZREVRANGE"; k; a; b] (if pairs s then RNil else bulks ys.*2).
Proof.
  intros K Hf Ha Hb Hm. destruct (C35_zrevrange ext d k s a b i j K Hf Ha Hb) as (ys & (pre & post & E & H) & A).
  exists (reverse ys). split; [|by rewrite fmap_reverse]. exists (reverse post), (reverse pre).
  split; [rewrite E, !reverse_app; by rewrite (assoc_L app)|]. intros p Hp. rewrite reverse_length in Hp.
  assert (∀ i, position i (reverse (pairs s)) = position i (pairs s)) as -> by (intros z; unfold position, zlen; by rewrite reverse_length).
  assert (∀ i, position i (reverse (pairs s)) = position i (pairs s)) as -> by (intros z; unfold position, zlen; by rewrite reverse_length).
  assert (length (pairs s) = length pre + length ys + length post)%nat as L by (rewrite E, !app_length; lia).
  specialize (H (length (pairs s) - 1 - p)%nat ltac:(lia)). rewrite !reverse_length. unfold zlen in *. lia.
Qed.
Theorem C50_all ext d k s : zset_is ext d k s → zlen (pairs s) < two63 - 2 → pairs s ≠ [] →
  answers ext d ["ZREVRANGE"; k; "0"; "-1"] (bulks (reverse (pairs s)).*2).
Proof.
  intros K Hf Hn. eapply zset_answers; [done..|by apply about_first|]. zrow. assert ((two63 - 2 <=? zlen (pairs s)) = false) as -> by lia.
  unfold int_arg. change (parse_int "0") with (Some 0). change (parse_int "-1") with (Some (-1)). cbv iota. destruct (pairs s) as [|e es]; [done|]. by rewrite window_all.
Qed.
Example C35_demo : zset_is ext0 (after zmake) "k" (Some (zpairs, ∅)) ∧ position 1 zpairs + position 2 zpairs = zlen zpairs - 1 ∧
  replies (zmake ++ [["ZREVRANGE"; "k"; "0"; "-1"]; ["ZREVRANGE"; "k"; "1"; "2"]]) = Some [Some (RInt 4); Some (bulks ["c"; "bb"; "b"; "a"]); Some (bulks ["bb"; "b"])].
Proof. split_and!; [apply zset_is_zadd|by vm_compute..]. Qed.
Theorem C50_refuted : replies (zmake ++ [["ZREVRANGE"; "k"; "0"; "0"]]) = Some [Some (RInt 4); Some (bulks ["a"])].
Proof. by vm_compute. Qed.

(** ** C36: the options of ZADD *)
(** The arguments after the key: option words, then pairs of a score and a member ([zadd_parse]). *)
Theorem C36_parse ext x r fl : 
  (to_lower x = "nx"%string → r ≠ [] → zadd_parse ext (x :: r) fl = zadd_parse ext r (ZO (o_incr fl) true (o_xx fl))) ∧
  (to_lower x = "xx"%string → r ≠ [] → zadd_parse ext (x :: r) fl = zadd_parse ext r (ZO (o_incr fl) (o_nx fl) true)) ∧
  (to_lower x = "incr"%string → r ≠ [] → zadd_parse ext (x :: r) fl = zadd_parse ext r (ZO true (o_nx fl) (o_xx fl))) ∧
  (∀ f v r', no_option x → parse_float ext x = Some f → r = v :: r' →
     zadd_parse ext (x :: r) fl = match zadd_parse ext r' fl with Some (fl', ms) => Some (fl', (f, v) :: ms) | None => None end).
Proof.
  split_and!.
  - intros Hx Hr. destruct r as [|y r]; [done|]. cbn [zadd_parse]. by rewrite Hx.
  - intros Hx Hr. destruct r as [|y r]; [done|]. cbn [zadd_parse]. by rewrite Hx.
  - intros Hx Hr. destruct r as [|y r]; [done|]. cbn [zadd_parse]. by rewrite Hx.
  - intros f v r' Hx Hf ->. by apply parse_plain.
Qed.
Lemma zfind_in v es : v ∈ es.*2 ↔ zfind v es ≠ None.
Proof. rewrite zfind_None. split; [intros H H'; by apply H'|]. intros H. destruct (decide (v ∈ es.*2)); done. Qed.
Lemma add_pair_nx incr xx f v es P es' o : add_pair incr true xx f v es P = Some (es', o) → ∀ w, w ∈ es.*2 → zfind w es' = zfind w es ∧ w ∈ es'.*2.
Proof.
  unfold add_pair. case_bool_decide; [by intros [= <- <-]|]. destruct (zfind v es) as [old|] eqn:Ez; [by intros [= <- <-]|].
  destruct xx; [by intros [= <- <-]|]. destruct (is_nan f); [done|]. intros [= <- <-] w Hw.
  assert (w ≠ v) as Hne by (intros ->; by apply zfind_None in Ez).
  rewrite zfind_in, zfind_place_ne by done. split; [done|]. by apply zfind_in.
Qed.
Lemma add_pair_xx incr nx f v es P es' o : add_pair incr nx true f v es P = Some (es', o) → ∀ w, w ∈ es'.*2 ↔ w ∈ es.*2.
Proof.
  unfold add_pair. case_bool_decide; [by intros [= <- <-]|]. destruct (zfind v es) as [old|] eqn:Ez; [|by intros [= <- <-]].
  destruct nx; [by intros [= <- <-]|]. cbv zeta. destruct (is_nan _); [done|]. destruct (feq _ _); [by intros [= <- <-]|]. intros [= <- <-] w.
  rewrite !zfind_in. destruct (decide (w = v)) as [->|Hne].
  - rewrite zfind_place_eq by apply zdrop_out. by rewrite Ez.
  - by rewrite zfind_place_ne, zfind_drop_ne.
Qed.
Lemma add_pairs_nx fl l : o_nx fl = true → ∀ es P es' n, add_pairs fl l es P = Some (es', n) → ∀ w, w ∈ es.*2 → zfind w es' = zfind w es ∧ w ∈ es'.*2.
Proof.
  intros Hx. induction l as [|[f v] l IH]; intros es P es' n; cbn [add_pairs]; [by intros [= <- <-]|].
  rewrite Hx. destruct (add_pair _ _ _ _ _ _ _) as [[es1 o]|] eqn:E1; [|done]. destruct (add_pairs fl l es1 P) as [[es2 n2]|] eqn:E2; [|done].
  intros [= <- <-] w Hw. destruct (add_pair_nx _ _ _ _ _ _ _ _ E1 w Hw) as [H1 H1']. destruct (IH _ _ _ _ E2 w H1') as [H2 H2']. by rewrite H2.
Qed.
Lemma add_pairs_xx fl l : o_xx fl = true → ∀ es P es' n, add_pairs fl l es P = Some (es', n) → ∀ w, w ∈ es'.*2 ↔ w ∈ es.*2.
Proof.
  intros Hx. induction l as [|[f v] l IH]; intros es P es' n; cbn [add_pairs]; [by intros [= <- <-]|].
  rewrite Hx. destruct (add_pair _ _ _ _ _ _ _) as [[es1 o]|] eqn:E1; [|done]. destruct (add_pairs fl l es1 P) as [[es2 n2]|] eqn:E2; [|done].
  intros [= <- <-] w. by rewrite (IH _ _ _ _ E2 w), (add_pair_xx _ _ _ _ _ _ _ _ E1 w).
Qed.
Lemma add_pairs_some fl l : o_incr fl = false → ∀ es P, (∀ f v, (f, v) ∈ l → is_nan f = false ∧ v ∉ P) →
  ∃ es' n, add_pairs fl l es P = Some (es', n) ∧ 0 ≤ n ≤ zlen l.
Proof.
  intros Hi. induction l as [|[f v] l IH]; intros es P H; cbn [add_pairs]; [eexists _, _; split; [done|]; unfold zlen; simpl; lia|].
  destruct (H f v) as [Hf Hv]; [by left|]. rewrite Hi.
  assert (∃ es1 o, add_pair false (o_nx fl) (o_xx fl) f v es P = Some (es1, o)) as (es1 & o & ->).
  { unfold add_pair. rewrite bool_decide_eq_false_2 by done. destruct (zfind v es) as [old|], (o_nx fl), (o_xx fl); cbv zeta; rewrite ?Hf; eauto; destruct (feq f old); eauto. }
  destruct (IH es1 P) as (es2 & n & -> & Hn). { intros f' v' H'. apply H. by right. }
  eexists _, _. split; [done|]. unfold zlen in *. cbn [length]. destruct o; lia.
Qed.
(** Every well-formed ZADD of numbers, without INCR: it is served; with NX no existing member changes, with XX no member
    is added. *)
Theorem C36_options ext d k s x y r fl l : zset_is ext d k s → zadd_parse ext (x :: y :: r) (ZO false false false) = Some (fl, l) →
  o_incr fl = false → (∀ f v, (f, v) ∈ l → is_nan f = false ∧ v ∉ popped s) →
  ∃ es n, does_calm ext d ("ZADD" :: k :: x :: y :: r) (RInt n) (λ d', zset_is ext d' k (Some (es, gone s))) ∧ 0 ≤ n ≤ zlen l ∧
    (o_nx fl = true → ∀ v, v ∈ (pairs s).*2 → v ∈ es.*2 ∧ zfind v es = zfind v (pairs s)) ∧
    (o_xx fl = true → ∀ v, v ∈ es.*2 ↔ v ∈ (pairs s).*2).
Proof.
  intros K Hp Hi Hl. destruct (add_pairs_some fl l Hi (pairs s) (popped s) Hl) as (es & n & E & Hn). exists es, n. split_and!.
  - eapply zset_calm; [done|about_write|]. zrow. rewrite Hp, E. done.
  - lia.
  - lia.
  - intros Hx v Hv. by destruct (add_pairs_nx fl l Hx _ _ _ _ E v Hv).
  - intros Hx v. by apply (add_pairs_xx fl l Hx _ _ _ _ E).
Qed.
(** The answer of ZADD with one pair: 1 if the member is new or gets another score, else 0. *)
Theorem C36_count ext d k s x f v : zset_is ext d k s → no_option x → parse_float ext x = Some f → is_nan f = false → v ∉ popped s →
  ∃ es, does_calm ext d ["ZADD"; k; x; v] (RInt (match zfind v (pairs s) with Some old => if feq f old then 0 else 1 | None => 1 end))
          (λ d', zset_is ext d' k (Some (es, gone s))).
Proof.
  intros K Hx Hf Hn Hp. 
  assert (∃ es o, add_pair false false false f v (pairs s) (popped s) = Some (es, o) ∧
    (if o then 1 else 0) + 0 = match zfind v (pairs s) with Some old => if feq f old then 0 else 1 | None => 1 end) as (es & o & E & <-).
  { unfold add_pair. rewrite bool_decide_eq_false_2 by done. rewrite Hn. destruct (zfind v (pairs s)) as [old|]; cbv zeta; [destruct (feq f old)|]; eauto. }
  exists es. eapply zset_calm; [done|about_write|]. zrow.
  rewrite (parse_plain ext x v [] f _ Hx Hf). cbn [zadd_parse add_pairs o_incr o_nx o_xx]. by rewrite E.
Qed.
(** INCR adds *)
Theorem C36_incr ext d k s w x f v : zset_is ext d k s → to_lower w = "incr"%string → no_option x → parse_float ext x = Some f → v ∉ popped s →
  let g := match zfind v (pairs s) with Some old => fadd f old | None => f end in is_nan g = false →
  ∃ es n, does_calm ext d ["ZADD"; k; w; x; v] (RInt n) (λ d', zset_is ext d' k (Some (es, gone s))) ∧
    (∃ g', zfind v es = Some g' ∧ feq g' g = true) ∧ (∀ v', v' ≠ v → zfind v' es = zfind v' (pairs s)).
Proof.
  intros K Hw Hx Hf Hp g Hg. assert (∃ es o, add_pair true false false f v (pairs s) (popped s) = Some (es, o) ∧
      (∃ g', zfind v es = Some g' ∧ feq g' g = true) ∧ (∀ v', v' ≠ v → zfind v' es = zfind v' (pairs s))) as (es & o & E & H1 & H2).
  { unfold add_pair. rewrite bool_decide_eq_false_2 by done. subst g. destruct (zfind v (pairs s)) as [old|] eqn:Ez; cbv zeta; rewrite Hg.
    - destruct (feq (fadd f old) old) eqn:Ef.
      + eexists _, _. split; [done|]. split; [|done]. exists old. split; [done|]. by rewrite feq_sym.
      + eexists _, _. split; [done|]. split; [|intros v' Hv; rewrite zfind_place_ne by done; by apply zfind_drop_ne].
        eexists. split; [apply zfind_place_eq, zdrop_out|]. by apply feq_refl.
    - eexists _, _. split; [done|]. split; [|intros v' Hv; by apply zfind_place_ne].
      eexists. split; [apply zfind_place_eq; by apply zfind_None|]. by apply feq_refl. }
  exists es, ((if o then 1 else 0) + 0). split; [|done].
  eapply zset_calm; [done|about_write|]. zrow. destruct (C36_parse ext w [x; v] (ZO false false false)) as (_ & _ & Hi & _). rewrite (Hi Hw) by done.
  cbn [o_incr o_nx o_xx]. rewrite (parse_plain ext x v [] f _ Hx Hf). cbn [zadd_parse add_pairs o_incr o_nx o_xx]. by rewrite E.
Qed.
Example C36_demo : zset_is ext0 (after zmake) "k" (Some (zpairs, ∅)) ∧
  zadd_parse ext0 ["NX"; "9"; "a"; "9"; "n"] (ZO false false false) = Some (ZO false true false, [(f_of_Z 9, "a"); (f_of_Z 9, "n")]%string) ∧
  replies (zmake ++ [["ZADD"; "k"; "NX"; "9"; "a"; "9"; "n"]; ["ZADD"; "k"; "XX"; "8"; "a"; "8"; "m"]; ["ZADD"; "k"; "INCR"; "1"; "a"];
                     ["ZRANGE"; "k"; "0"; "-1"]; ["ZSCORE"; "k"; "a"]]) =
    Some [Some (RInt 4); Some (RInt 1); Some (RInt 1); Some (RInt 1); Some (bulks ["b"; "bb"; "c"; "a"; "n"]); Some (RBulk "9")].
Proof. split_and!; [apply zset_is_zadd|by vm_compute..]. Qed.
(** with XX a missing key comes into being, empty *)
Theorem C36_xx_creates_refuted : replies [["ZADD"; "q"; "XX"; "1"; "z"]; ["EXISTS"; "q"]] = Some [Some (RInt 0); Some (RInt 1)].
Proof. by vm_compute. Qed.
