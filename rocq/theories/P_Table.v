(** C63: the scores of a sorted set, in every state that can be reached, damaged or not. *)
From Verif Require Import GoBase GoBaseProofs ShardMap ShardMapProofs Float64 Float64Proofs SkipList Db Protocol Redis Obs SpecCmd SpecZSet SpecResp SpecServer SpecKey SpecTable KeyHist
  DbInv ExecSteps Sim SimZSet PropBase KeyIs ScoreTable Term Examples P_Keys P_Requests P_Frame P_Lists P_Sets P_ZSets.

(** ** the model follows the table *)
Definition holds (d : db) (k : string) (s : option table) : Prop :=
  match s with
  | None => sm_get (db_keys d) k = None
  | Some t => ∃ z, sm_get (db_keys d) k = Some (VZSet z) ∧ tabled z t
  end.
Lemma load_holds d k s b : holds d k s → 
  load_zset k b d = match s with
                    | None => Err ErrNil
                    | Some (T, n) => match sm_get (db_keys d) k with
                                     | Some (VZSet z) => if b && (n =? 0) then Err ErrNil else Ok z
                                     | _ => Err ErrNil end end.
Proof.
  unfold load_zset. destruct s as [[T n]|]; cbn [holds]; [|by intros ->]. intros (z & -> & Tb). pose proof (tb_len _ _ Tb) as E. cbn [snd] in E. by rewrite E.
Qed.
Lemma holds_put d k z t : sm_wf (db_keys d) → tabled z t → holds (put k (VZSet z) d) k (Some t).
Proof. intros W Tb. exists z. split; [|done]. simpl. rewrite sm_get_set by done. by rewrite bool_decide_eq_true_2. Qed.
Lemma view_strings_some l : ∃ r, view (rsp_strings l) = Some r.
Proof. eexists. apply view_strings. Qed.
Lemma range_view r d d' x : range_reply r d = Ret (d', x) → d' = d ∧ ∃ v, view (reply_of x) = Some v.
Proof.
  unfold range_reply, reply, fail. intros H. destruct r as [vs|[]]; crush H; (split; [done|]); try (eexists; reflexivity). apply view_strings_some.
Qed.
Section rows.
Context (ext : Ext) (c : choices) (k : string) (d : db) (s : option table) (I : dbinv d) (H0 : holds d k s).
Notation ok cmd a R := (∀ d' x, cmd (cons k a) d = Ret (d', x) → ∃ r' s', view (reply_of x) = Some r' ∧ R r' s' ∧ holds d' k s').

Lemma t_zadd_at a o l : match a with _ :: _ :: _ => True | _ => False end → zadd_parse ext a (ZO false false false) = Some (o, l) →
  ok (c_zadd ext c) a (λ r s', ∃ t m, put_pairs o l (as_table s) t m ∧ r = RInt m ∧ s' = Some t).
Proof.
  intros Ha Hp d' x H. unfold c_zadd in H. assert (fewer (k :: a) 3 = false) as Hf by (by destruct a as [|? [|? a]]). rewrite Hf in H.
  change (arg (k :: a) 0) with (Ret k) in H. change (drop 1 (k :: a)) with a in H. cbn [obind] in H.
  change (ZF false false false) with (zf_of (ZO false false false)) in H. rewrite (zadd_args_parse ext (length a)), Hp in H by done. cbn [app] in H.
  apply obind_ret in H as (q & H & Hq). unfold ZAdd in H. rewrite (load_holds d k s false H0) in H.
  destruct s as [[T n]|]; cbn [holds] in H0.
  - destruct H0 as (z & Ez & Tb). rewrite Ez in H. cbn [andb] in H. apply obind_ret in H as ([z' m] & E & H). injection H as <-.
    apply (add_all_table _ _ _ _ _ (T, n)) in E as (t' & m' & Tb' & P & ->); [|done]. unfold reply in Hq. injection Hq as <- <-.
    eexists _, (Some t'). split; [done|]. split; [|apply holds_put; [apply I|done]]. exists t', m'. split_and!; [done|f_equal; lia|done].
  - apply obind_ret in H as ([z' m] & E & H). injection H as <-.
    apply (add_all_table _ _ _ _ _ (∅, 0)) in E as (t' & m' & Tb' & P & ->); [|apply tabled_new]. unfold reply in Hq. injection Hq as <- <-.
    eexists _, (Some t'). split; [done|]. split; [|apply holds_put; [apply I|done]]. exists t', m'. split_and!; [done|f_equal; lia|done].
Qed.
Lemma t_zincr_at x v a f : parse_float ext x = Some f →
  ok (c_zincr ext c) (x :: v :: a) (λ r s', ∃ t b, put_pair (ZO true false false) f v (as_table s) t b ∧ s' = Some t ∧
    if b : bool then ∃ g, t.1 !! v = Some g ∧ r = RBulk (format_float ext g) else r = RInt 0).
Proof.
  intros Hp d' y H. unfold c_zincr in H. change (fewer (k :: x :: v :: a) 3) with false in H. cbv iota in H.
  change (arg (k :: x :: v :: a) 0) with (Ret k) in H. change (arg (k :: x :: v :: a) 1) with (Ret x) in H. change (arg (k :: x :: v :: a) 2) with (Ret v) in H. cbn [obind] in H.
  rewrite Hp in H. apply obind_ret in H as (q & H & Hq). unfold ZIncr in H. rewrite (load_holds d k s false H0) in H. cbv zeta in H.
  assert (∀ z t, tabled z t →
    (let* (z', o) := zs_add (ch_lvl c 0%nat) f v (ZF true false false) z in
       match o with
       | Some x => let* f0 := entry_score x z' in Ret (put k (VZSet z') d, Ok f0)
       | None => Ret (put k (VZSet z') d, Err ErrNil) end) = Ret q →
    ∃ r' s', view (reply_of y) = Some r' ∧ (∃ t' b, put_pair (ZO true false false) f v t t' b ∧ s' = Some t' ∧
      if b : bool then ∃ g, t'.1 !! v = Some g ∧ r' = RBulk (format_float ext g) else r' = RInt 0) ∧ holds d' k s') as G.
  { clear H. intros z t Tb H. apply obind_ret in H as ([z' o] & E & H). change (ZF true false false) with (zf_of (ZO true false false)) in E.
    apply (add_table _ _ _ _ _ t) in E as (t' & Tb' & P & Hx); [|done]. destruct o as [p|].
    - destruct Hx as (g & Hg & He). rewrite He in H. cbn [obind] in H. injection H as <-. unfold reply in Hq. injection Hq as <- <-.
      eexists _, (Some t'). split; [done|]. split; [|apply holds_put; [apply I|done]]. eexists t', true. split_and!; [done|done|]. by exists g.
    - injection H as <-. unfold reply in Hq. injection Hq as <- <-.
      eexists _, (Some t'). split; [done|]. split; [|apply holds_put; [apply I|done]]. by exists t', false. }
  destruct s as [[T n]|]; cbn [holds] in H0.
  - destruct H0 as (z & Ez & Tb). rewrite Ez in H. cbn [andb] in H. by apply (G z (T, n)) in H.
  - apply (G zs_new (∅, 0)) in H; [done|apply tabled_new].
Qed.
Lemma t_zrem a : match a with [] => False | _ => True end → ok c_zrem a (λ r s', if counter s =? 0 then r = RInt 0 ∧ s' = s
  else ∃ m n, m = Z.of_nat (size (scores s)) - Z.of_nat (size (forget a (scores s))) ∧ counter s - m <= n <= counter s ∧ r = RInt m ∧ s' = Some (forget a (scores s), n)).
Proof.
  intros Ha d' x H. unfold c_zrem in H. assert (fewer (k :: a) 2 = false) as Hf by (by destruct a). rewrite Hf in H.
  change (arg (k :: a) 0) with (Ret k) in H. change (drop 1 (k :: a)) with a in H. cbn [obind] in H.
  apply obind_ret in H as (q & H & Hq). unfold ZRem in H. rewrite (load_holds d k s true H0) in H.
  destruct s as [[T n]|] eqn:Es; cbn [holds counter scores] in *.
  - destruct H0 as (z & Ez & Tb). rewrite Ez in H. cbn [andb] in H. destruct (n =? 0) eqn:En.
    + injection H as <-. unfold reply in Hq. injection Hq as <- <-. eexists _, (Some (T, n)). split; [done|]. split; [done|]. by exists z.
    + apply obind_ret in H as ([z' m] & E & H). injection H as <-. apply (rem_all_table a z T n 0 z' m Tb) in E as (n' & Tb' & Em & Hn).
      unfold reply in Hq. injection Hq as <- <-. eexists _, (Some (forget a T, n')). split; [done|]. split; [|apply holds_put; [apply I|done]].
      exists m, n'. split_and!; [lia|lia|lia|done|done].
  - injection H as <-. unfold reply in Hq. injection Hq as <- <-. eexists _, None. by split.
Qed.
Lemma t_zpop mx a : ok (c_zpop ext mx) a (λ _ s', match s with None => s' = None | Some (T, n) => ∃ n', s' = Some (T, n') ∧ n' <= n end).
Proof.
  intros d' x H. unfold c_zpop in H. change (fewer (k :: a) 1) with false in H. cbv iota in H. apply obind_ret in H as (o & _ & H).
  assert (match s with None => s = None | Some (T, n) => ∃ n', s = Some (T, n') ∧ n' <= n end) as Same.
  { destruct s as [[T n]|]; [|done]. exists n. split; [done|lia]. }
  destruct o as [cnt|e]; [|unfold fail in H; injection H as <- <-; by eexists _, s].
  change (arg (k :: a) 0) with (Ret k) in H. cbn [obind] in H. apply obind_ret in H as (q & H & Hq). unfold ZPop in H. rewrite (load_holds d k s true H0) in H.
  assert (∀ d2 vs, q = (d2, Ok vs) → d' = d2 ∧ ∃ r, view (reply_of x) = Some r) as V.
  { intros d2 vs ->. unfold reply in Hq. destruct vs; injection Hq as <- <-; (split; [done|]); [by eexists|apply view_strings_some]. }
  destruct s as [[T n]|] eqn:Es; cbn [holds] in *.
  - destruct H0 as (z & Ez & Tb). rewrite Ez in H. cbn [andb] in H. destruct (n =? 0) eqn:En.
    + injection H as <-. unfold reply in Hq. injection Hq as <- <-. eexists _, (Some (T, n)). split; [done|]. split; [done|]. by exists z.
    + apply obind_ret in H as ([s' vs] & E & H). injection H as <-. destruct (V _ _ eq_refl) as (-> & r & Hr). apply pop_table in E as (A1 & A2 & A3).
      exists r, (Some (T, sl_len s')). split; [done|]. split.
      * exists (sl_len s'). split; [done|]. pose proof (tb_len _ _ Tb) as L. cbn [snd] in L. lia.
      * apply holds_put; [apply I|]. eapply tabled_pop; [done|done|]. by apply A2, Tb.
  - injection H as <-. unfold reply in Hq. injection Hq as <- <-. eexists _, None. by split.
Qed.
Lemma zscore_holds v a : c_zscore ext (k :: v :: a) d =
  reply (if counter s =? 0 then rsp_nil else match scores s !! v with Some f => rsp_bulk (format_float ext f) | None => rsp_nil end) d.
Proof.
  unfold c_zscore. change (fewer (k :: v :: a) 2) with false. cbv iota. change (arg (k :: v :: a) 0) with (Ret k). change (arg (k :: v :: a) 1) with (Ret v). cbn [obind].
  unfold ZScore. rewrite (load_holds d k s true H0). destruct s as [[T n]|]; cbn [holds counter scores] in *; [|done].
  destruct H0 as (z & -> & Tb). cbn [andb]. destruct (n =? 0); [done|]. pose proof (tabled_score z T n v Tb) as Hv. destruct (sm_get (zs_m z) v) as [p|]; [|by rewrite Hv].
  destruct Hv as (f & -> & ->). done.
Qed.
Lemma zcard_holds a : c_zcard (k :: a) d = reply (rsp_int (counter s)) d.
Proof.
  unfold c_zcard. change (fewer (k :: a) 1) with false. cbv iota. change (arg (k :: a) 0) with (Ret k). cbn [obind].
  unfold ZCard. rewrite (load_holds d k s true H0). destruct s as [[T n]|]; cbn [holds counter scores] in *; [|done].
  destruct H0 as (z & -> & Tb). cbn [andb]. destruct (Z.eqb_spec n 0) as [->|]; [done|]. pose proof (tb_len _ _ Tb) as L. cbn [snd] in L. by rewrite L.
Qed.
Lemma t_zrank v a : ok c_zrank (v :: a) (λ r s', s' = s ∧ if (counter s =? 0) || bool_decide (scores s !! v = None) then r = RNil else ∃ z, r = RInt z).
Proof.
  intros d' x H. apply ro_zrank in H as Hd. subst d'. unfold c_zrank in H. change (fewer (k :: v :: a) 2) with false in H. cbv iota in H.
  change (arg (k :: v :: a) 0) with (Ret k) in H. change (arg (k :: v :: a) 1) with (Ret v) in H. cbn [obind] in H.
  unfold ZRank in H. rewrite (load_holds d k s true H0) in H. destruct s as [[T n]|] eqn:Es; cbn [holds counter scores] in *.
  2:{ unfold reply in H. injection H as <-. by exists RNil, None. }
  destruct H0 as (z & Ez & Tb). rewrite Ez in H. cbn [andb] in H. assert (holds d k (Some (T, n))) as Hh by (by exists z).
  destruct (n =? 0); cbn [orb]; [unfold reply in H; injection H as <-; by exists RNil, (Some (T, n))|].
  pose proof (tabled_score z T n v Tb) as Hv. destruct (sm_get (zs_m z) v) as [p|].
  - destruct Hv as (f & Hf & He). rewrite He in H. cbn [obind] in H. rewrite bool_decide_eq_false_2 by congruence.
    apply obind_ret in H as (q & H & Hq). apply obind_ret in H as (i & _ & H). injection H as <-. unfold reply in Hq. injection Hq as <-. eexists _, (Some (T, n)). split; [done|]. by eauto.
  - rewrite bool_decide_eq_true_2 by done. unfold reply in H. injection H as <-. by exists RNil, (Some (T, n)).
Qed.
End rows.

Lemma cmd_row ext c name k a d s f R d' r : lookup_command (to_lower name) (implemented_commands ext c) = Some f →
  (∀ d' x, f (k :: a) d = Ret (d', x) → ∃ r' s', view (reply_of x) = Some r' ∧ R r' s' ∧ holds d' k s') →
  ask ext c (name :: k :: a) d = Ret (d', r) → holds d k s → ∃ r' s', r = Some r' ∧ R r' s' ∧ holds d' k s'.
Proof.
  intros Hc Hf H _. rewrite (ask_cmd ext c name (k :: a) d f Hc) in H. apply obind_ret in H as ([d1 x] & E & H). injection H as <- <-. by apply Hf.
Qed.
Lemma step_table ext c k req s R d d' r : dbinv d → holds d k s → about k req = true → score_step ext req s = Some R →
  ask ext c req d = Ret (d', r) → ∃ r' s', r = Some r' ∧ R r' s' ∧ holds d' k s'.
Proof.
  intros I H0 Ea Es H. destruct req as [|name [|k' a]]; try done. unfold score_step in Es. cbn [table_step] in Es.
  destruct (find_cmd (to_lower name) _) as [f|] eqn:Ef; [|done]. unfold key_commands, table_commands in Ef.
  assert (k' = k) as ->.
  { eapply about_key; [done|]. intros Hn. clear -Ef Hn.
    assert (∀ t : ktable (option table), Forall (λ nf, nf.1 ≠ to_lower name) t → find_cmd (to_lower name) t = None) as G.
    { clear. induction t as [|[n g] t IH]; [done|]. intros Hf. apply Forall_cons in Hf as [H1 H2]. cbn [find_cmd]. destruct (String.eqb_spec n (to_lower name)); [done|by apply IH]. }
    rewrite G in Ef; [done|]. repeat (apply elem_of_cons in Hn as [->|Hn]; [by repeat constructor|]). by apply elem_of_nil in Hn. }
  assert (∀ a' : list string, s = s) as _ by done.
  repeat (cbn [app find_cmd] in Ef;
    match type of Ef with (if String.eqb ?n ?x then _ else _) = _ => destruct (String.eqb_spec n x) as [Hn|_] end; [injection Ef as <-; symmetry in Hn|]); try done;
    (eapply cmd_row; [rewrite Hn; reflexivity| |done|done]); clear H.
  - (* del *) apply (inj Some) in Es; subst R. intros d1 x H. unfold c_del in H. change (fewer (k :: a) 1) with false in H. change (arg (k :: a) 0) with (Ret k) in H. cbn [obind] in H.
    unfold Del in H. rewrite sm_delete_if_exists_map, <- sm_get_map in H by apply I.
    destruct s as [t|]; cbn [holds] in H0; [destruct H0 as (z & E & _); rewrite E in H|rewrite H0 in H]; unfold reply in H; injection H as <- <-; eexists _, None; (split; [done|]); (split; [done|]); [|done].
    cbn [holds]. simpl. rewrite sm_get_delete by apply I. by rewrite bool_decide_eq_true_2.
  - (* exists *) apply (inj Some) in Es; subst R. intros d1 x H. unfold c_exists in H. change (fewer (k :: a) 1) with false in H. change (arg (k :: a) 0) with (Ret k) in H. cbn [obind] in H.
    unfold Exists_ in H. rewrite sm_has_get in H. unfold reply in H. injection H as <- <-. eexists _, s. split; [reflexivity|]. split; [|done]. split; [|done].
    destruct s as [t|]; cbn [holds] in H0; [destruct H0 as (z & E & _); rewrite E|rewrite H0]; [rewrite bool_decide_eq_true_2 by eauto|rewrite bool_decide_eq_false_2 by (by intros [])]; done.
  - (* type *) apply (inj Some) in Es; subst R. intros d1 x H. unfold c_type in H. change (fewer (k :: a) 1) with false in H. change (arg (k :: a) 0) with (Ret k) in H. cbn [obind] in H.
    unfold Type_ in H. destruct s as [t|]; cbn [holds] in H0; [pose proof H0 as (z & E & _); rewrite E in H|rewrite H0 in H]; unfold reply in H; injection H as <- <-; by eexists _, _.
  - (* zadd *) destruct a as [|x [|y a]]; try done. destruct (zadd_parse ext (x :: y :: a) _) as [[o l]|] eqn:Ep.
    + apply (inj Some) in Es; subst R. by apply t_zadd_at.
    + apply (inj Some) in Es; subst R. intros d1 q H. unfold c_zadd in H. change (fewer (k :: x :: y :: a) 3) with false in H. change (arg (k :: x :: y :: a) 0) with (Ret k) in H.
      change (drop 1 (k :: x :: y :: a)) with (x :: y :: a) in H. cbn [obind] in H.
      change (ZF false false false) with (zf_of (ZO false false false)) in H. rewrite (zadd_args_parse ext (length (x :: y :: a))), Ep in H by done.
      unfold fail in H. injection H as <- <-. by eexists _, s.
  - (* zincr *) destruct a as [|x [|v a]]; try done. destruct (parse_float ext x) as [f|] eqn:Ep.
    + apply (inj Some) in Es; subst R. by apply t_zincr_at.
    + apply (inj Some) in Es; subst R. intros d1 q H. unfold c_zincr in H. change (fewer (k :: x :: v :: a) 3) with false in H. cbv iota in H.
      change (arg (k :: x :: v :: a) 0) with (Ret k) in H. change (arg (k :: x :: v :: a) 1) with (Ret x) in H. change (arg (k :: x :: v :: a) 2) with (Ret v) in H. cbn [obind] in H.
      rewrite Ep in H. unfold fail in H. injection H as <- <-. by eexists _, s.
  - (* zrem *) destruct a as [|x a]; [done|]. apply (inj Some) in Es; subst R. by apply t_zrem.
  - (* zscore *) destruct a as [|v a]; [done|]. apply (inj Some) in Es; subst R. intros d1 q H. rewrite (zscore_holds ext k d s H0) in H. unfold reply in H. injection H as <- <-.
    exists (if counter s =? 0 then RNil else match scores s !! v with Some f => RBulk (format_float ext f) | None => RNil end), s.
    split; [|done]. destruct (counter s =? 0); [done|]. by destruct (scores s !! v).
  - (* zrank *) destruct a as [|v a]; [done|]. apply (inj Some) in Es; subst R. by apply t_zrank.
  - (* zcard *) apply (inj Some) in Es; subst R. intros d1 q H. rewrite (zcard_holds k d s H0) in H. unfold reply in H. injection H as <- <-. by eexists _, s.
  - (* zcount *) apply (inj Some) in Es; subst R. intros d1 q H. apply ro_zcount in H as Hd. subst d1. unfold c_zcount, reply, fail in H. crush H; by eexists _, s.
  - apply (inj Some) in Es; subst R. intros d1 q H. unfold c_zrange in H. destruct (fewer _ _); [unfold fail in H; injection H as <- <-; by eexists _, s|].
    repeat (apply obind_ret in H as (? & _ & H)). apply range_view in H as (-> & v & Hv). by exists v, s.
  - apply (inj Some) in Es; subst R. intros d1 q H. unfold c_zrangebyscore in H. destruct (fewer _ _); [unfold fail in H; injection H as <- <-; by eexists _, s|].
    repeat (apply obind_ret in H as (? & _ & H)). apply range_view in H as (-> & v & Hv). by exists v, s.
  - apply (inj Some) in Es; subst R. intros d1 q H. unfold c_zrevrange in H. destruct (fewer _ _); [unfold fail in H; injection H as <- <-; by eexists _, s|].
    repeat (apply obind_ret in H as (? & _ & H)). apply range_view in H as (-> & v & Hv). by exists v, s.
  - apply (inj Some) in Es; subst R. by apply t_zpop.
  - apply (inj Some) in Es; subst R. by apply t_zpop.
Qed.
Lemma talk_table ext k h : ∀ d s d' rs, dbinv d → holds d k s → talk ext h d = Ret (d', rs) → within (score_step ext) k s (h.*2) →
  ∃ s', consistent (score_step ext) k s (h.*2) rs s' ∧ holds d' k s'.
Proof.
  induction h as [|[c req] h IH]; intros d s d' rs I H0 H W; cbn [talk] in H; [injection H as <- <-; exists s; split; [constructor|done]|].
  apply obind_ret in H as ([d1 r] & E1 & H). apply obind_ret in H as ([d2 rs2] & E2 & H). injection H as <- <-.
  rewrite fmap_cons in W. cbn [within snd] in W. rewrite fmap_cons. cbn [snd]. pose proof (ask_inv _ _ _ _ _ _ I E1) as I1. destruct (about k req) eqn:Ea.
  - destruct (score_step ext req s) as [R|] eqn:Es; [|done]. destruct (step_table ext c k req s R d d1 r I H0 Ea Es E1) as (r' & s1 & -> & HR & H1).
    destruct (IH d1 s1 d2 rs2 I1 H1 E2 (W _ _ HR)) as (s' & C & H'). exists s'. split; [by eapply cs_about|done].
  - assert (holds d1 k s) as H1.
    { assert (sm_get (db_keys d1) k = sm_get (db_keys d) k) as E.
      { eapply dsteps_get; [by eapply ask_steps|done|]. unfold about in Ea. apply orb_false_iff in Ea as [Ea _]. apply bool_decide_eq_false in Ea. unfold touched in Ea. set_solver. }
      destruct s; cbn [holds] in *; by rewrite E. }
    destruct (IH d1 s d2 rs2 I1 H1 E2 W) as (s' & C & H'). exists s'. split; [by eapply cs_other|done].
Qed.

(** ** C63 *)
(** what the client sees of the table: everything if the counter is not 0 *)
Definition shows (ext : Ext) (d : db) (k : string) (s : option table) : Prop :=
  match s with
  | None => answers ext d ["EXISTS"; k] (RInt 0)
  | Some (T, n) =>
      type_is ext d k "sortedSet" ∧ answers ext d ["ZCARD"; k] (RInt n) ∧
      ∀ v, answers ext d ["ZSCORE"; k; v] (if n =? 0 then RNil else match T !! v with Some f => RBulk (format_float ext f) | None => RNil end)
  end.
Lemma holds_shows ext d k s : dbinv d → holds d k s → shows ext d k s.
Proof.
  intros I H0. destruct s as [[T n]|]; cbn [shows].
  - split_and!.
    + destruct H0 as (z & E & _). pose proof (type_get ext d k) as Ht. by rewrite E in Ht.
    + intros c. rewrite (ask_cmd ext c "ZCARD" [k] d _ eq_refl). by rewrite (zcard_holds k d _ H0).
    + intros v c. rewrite (ask_cmd ext c "ZSCORE" [k; v] d _ eq_refl). rewrite (zscore_holds ext k d _ H0). cbn [counter scores]. unfold reply. cbn [obind]. f_equal. f_equal.
      destruct (n =? 0); [done|]. by destruct (T !! v).
  - pose proof (exists_get ext d k I) as H. by rewrite H0 in H.
Qed.
Lemma reachable_holds ext d k : reachable ext d → type_is ext d k "none" ∨ type_is ext d k "sortedSet" → ∃ s, holds d k s ∧ (s = None ↔ type_is ext d k "none").
Proof.
  intros Hr Ht. pose proof (reachable_tidy _ _ Hr) as T. pose proof (type_get ext d k) as G.
  destruct (sm_get (db_keys d) k) as [v|] eqn:E.
  - assert (∃ z, v = VZSet z) as [z ->]. { destruct Ht as [Ht|Ht]; apply type_is_get in Ht; rewrite E in Ht; destruct v; try done. by eexists. }
    destruct (tidy_zset k z d T E) as [_ [t Tb]]. exists (Some t). split; [by exists z|]. split; [done|]. intros H. apply type_is_get in H. by rewrite E in H.
  - exists None. by split.
Qed.
(** In every reachable state, every sorted set has a table of scores, and everything that happens to the key later
    follows SpecTable.v, up to the end of the history or a crash. *)
Theorem C63_history ext d k : reachable ext d → type_is ext d k "none" ∨ type_is ext d k "sortedSet" →
  ∃ s, shows ext d k s ∧ ∀ h d' rs, talk ext h d = Ret (d', rs) → within (score_step ext) k s (h.*2) →
    ∃ s', consistent (score_step ext) k s (h.*2) rs s' ∧ shows ext d' k s'.
Proof.
  intros Hr Ht. pose proof (reachable_inv _ _ Hr) as I. destruct (reachable_holds ext d k Hr Ht) as (s & H0 & _). exists s. split; [by apply holds_shows|].
  intros h d' rs H W. destruct (talk_table ext k h d s d' rs I H0 H W) as (s' & C & H'). exists s'. split; [done|]. apply holds_shows; [|done]. by eapply talk_inv.
Qed.
(** asking for a score or for the number of members never crashes, whatever has happened to the set *)
Theorem C63_total ext d k v : reachable ext d → type_is ext d k "sortedSet" →
  ∃ n r, answers ext d ["ZCARD"; k] (RInt n) ∧ answers ext d ["ZSCORE"; k; v] r ∧ (n = 0 → r = RNil).
Proof.
  intros Hr Ht. destruct (C63_history ext d k Hr (or_intror Ht)) as ([[T n]|] & Sh & _).
  - destruct Sh as (_ & Hc & Hs). eexists n, _. split_and!; [done|apply Hs|by intros ->].
  - apply absent_get in Sh. apply type_is_get in Ht. by rewrite Sh in Ht.
Qed.
(** ZADD of one member: the answer tells whether the score is now the new one *)
Definition score_is (ext : Ext) (d : db) (k v : string) (r : resp) : Prop := answers ext d ["ZSCORE"; k; v] r.
Definition live (ext : Ext) (d : db) (k : string) : Prop := ∃ n, n ≠ 0 ∧ answers ext d ["ZCARD"; k] (RInt n).
Lemma live_counter ext d k s : dbinv d → holds d k s → live ext d k → counter s ≠ 0.
Proof.
  intros I H (n & Hn & Ha). assert (answers ext d ["ZCARD"; k] (RInt (counter s))) as Hc; [|pose proof (answers_fun _ _ _ _ _ Ha Hc); congruence].
  intros c. rewrite (ask_cmd ext c "ZCARD" [k] d _ eq_refl). by rewrite (zcard_holds k d _ H).
Qed.
Lemma score_of ext d k s v : holds d k s → counter s ≠ 0 → score_is ext d k v (match scores s !! v with Some f => RBulk (format_float ext f) | None => RNil end).
Proof.
  intros H0 Hn c. rewrite (ask_cmd ext c "ZSCORE" [k; v] d _ eq_refl). rewrite (zscore_holds ext k d _ H0). apply Z.eqb_neq in Hn. rewrite Hn.
  unfold reply. cbn [obind]. f_equal. f_equal. by destruct (scores s !! v).
Qed.
Lemma score_dead ext d k s v : holds d k s → counter s = 0 → score_is ext d k v RNil.
Proof.
  intros H0 Hn c. rewrite (ask_cmd ext c "ZSCORE" [k; v] d _ eq_refl). by rewrite (zscore_holds ext k d _ H0), Hn.
Qed.
Lemma table_ask ext c k name a d d' r R s : reachable ext d → holds d k s → about k (name :: k :: a) = true → score_step ext (name :: k :: a) s = Some R →
  ask ext c (name :: k :: a) d = Ret (d', r) → ∃ r' s', r = Some r' ∧ R r' s' ∧ holds d' k s'.
Proof. intros Hr H0 Ea Es H. apply reachable_inv in Hr as I. by eapply step_table. Qed.
(** what is the same before and after, as far as it can be seen *)
Definition same_score (ext : Ext) (d d' : db) (k v : string) : Prop :=
  live ext d k → live ext d' k → ∀ r, score_is ext d k v r → score_is ext d' k v r.
Lemma same_score_of ext d d' k v s s' : dbinv d → dbinv d' → holds d k s → holds d' k s' → scores s' !! v = scores s !! v → same_score ext d d' k v.
Proof.
  intros I I' H H' E L L' r Hr. pose proof (score_of ext d k s v H (live_counter _ _ _ _ I H L)) as S1. rewrite (answers_fun _ _ _ _ _ Hr S1), <- E.
  apply score_of; [done|]. by apply (live_counter ext d' k).
Qed.
Theorem C63_zadd ext c d k x f v d' r : reachable ext d → type_is ext d k "none" ∨ type_is ext d k "sortedSet" →
  no_option x → parse_float ext x = Some f → ask ext c ["ZADD"; k; x; v] d = Ret (d', r) →
  (r = Some (RInt 1) ∧ (live ext d' k → score_is ext d' k v (RBulk (format_float ext f))) ∨ r = Some (RInt 0) ∧ same_score ext d d' k v) ∧
  (∀ w, w ≠ v → same_score ext d d' k w).
Proof.
  intros Hr Ht Hx Hf H. destruct (reachable_holds ext d k Hr Ht) as (s & H0 & _). apply reachable_inv in Hr as I. pose proof (ask_inv _ _ _ _ _ _ I H) as I'.
  destruct (table_ask ext c k "ZADD" [x; v] d d' r (λ r s', ∃ t m, put_pairs (ZO false false false) [(f, v)] (as_table s) t m ∧ r = RInt m ∧ s' = Some t) s Hr H0) as (r' & s' & -> & (t & m & P & -> & ->) & H1);
    [about_write| |done|].
  { unfold score_step. erewrite table_row by reflexivity. cbv beta iota. by rewrite (parse_plain ext x v [] f _ Hx Hf). }
  inversion P as [|? ? ? ? t2 ? b m' P1 P2]; subst. inversion P2; subst. clear P P2.
  assert (same_score ext d d' k v ∨ t.1 !! v = Some f ∧ b = true) as Hv.
  { unfold as_table in P1. inversion P1; subst; cbn [fst]; try (left; by eapply same_score_of). all: right; by rewrite lookup_insert. }
  split.
  - destruct b; [left|right].
    + split; [done|]. intros L. assert (t.1 !! v = Some f) as Ev. { unfold as_table in P1. inversion P1; subst; cbn [fst]; by rewrite lookup_insert. }
      pose proof (score_of ext d' k (Some t) v H1 (live_counter _ _ _ _ I' H1 L)) as S. destruct t as [T n]. cbn [scores fst] in *. by rewrite Ev in S.
    + split; [done|]. destruct Hv as [Hv|[_ ?]]; done.
  - intros w Hw. eapply same_score_of; [done|done|done|done|]. unfold as_table in P1. inversion P1; subst; cbn [scores]; rewrite ?lookup_insert_ne by done; done.
Qed.
(** ZINCR of a member: the score is the one answered *)
Theorem C63_zincr ext c d k x f v d' r : reachable ext d → type_is ext d k "none" ∨ type_is ext d k "sortedSet" →
  parse_float ext x = Some f → ask ext c ["ZINCR"; k; x; v] d = Ret (d', r) →
  ((∃ g, r = Some (RBulk (format_float ext g)) ∧ (live ext d' k → score_is ext d' k v (RBulk (format_float ext g)))) ∨ r = Some (RInt 0) ∧ same_score ext d d' k v) ∧
  (∀ w, w ≠ v → same_score ext d d' k w).
Proof.
  intros Hr Ht Hf H. destruct (reachable_holds ext d k Hr Ht) as (s & H0 & _). apply reachable_inv in Hr as I. pose proof (ask_inv _ _ _ _ _ _ I H) as I'.
  destruct (table_ask ext c k "ZINCR" [x; v] d d' r (λ r s', ∃ t b, put_pair (ZO true false false) f v (as_table s) t b ∧ s' = Some t ∧
     if b : bool then ∃ g, t.1 !! v = Some g ∧ r = RBulk (format_float ext g) else r = RInt 0) s Hr H0) as (r' & s' & -> & (t & b & P & -> & Hb) & H1);
    [about_write| |done|].
  { unfold score_step. erewrite table_row by reflexivity. cbv beta iota. by rewrite Hf. }
  split.
  - destruct b; [left|right].
    + destruct Hb as (g & Hg & ->). exists g. split; [done|]. intros L. pose proof (score_of ext d' k (Some t) v H1 (live_counter _ _ _ _ I' H1 L)) as S. destruct t as [T n]. cbn [scores fst] in *. by rewrite Hg in S.
    + subst r'. split; [done|]. unfold as_table in P. inversion P; subst; by eapply same_score_of.
  - intros w Hw. eapply same_score_of; [done|done|done|done|]. unfold as_table in P. inversion P; subst; cbn [scores]; rewrite ?lookup_insert_ne by done; done.
Qed.
(** After ZREM the named members have no score, whatever they were; the others keep theirs *)
Theorem C63_zrem ext c d k v vs d' r : reachable ext d → type_is ext d k "sortedSet" → ask ext c ("ZREM" :: k :: v :: vs) d = Ret (d', r) →
  (∃ n, r = Some (RInt n)) ∧ (∀ w, w ∈ v :: vs → score_is ext d' k w RNil) ∧ (∀ w, w ∉ v :: vs → same_score ext d d' k w).
Proof.
  intros Hr Ht H. destruct (reachable_holds ext d k Hr (or_intror Ht)) as (s & H0 & _). apply reachable_inv in Hr as I. pose proof (ask_inv _ _ _ _ _ _ I H) as I'.
  edestruct (table_ask ext c k "ZREM" (v :: vs) d d' r) as (r' & s' & -> & P & H1); [done|done|about_write| |done|].
  { unfold score_step. erewrite table_row by reflexivity. cbv beta iota. reflexivity. }
  cbv beta in P. destruct (Z.eqb_spec (counter s) 0) as [En|En].
  - destruct P as [-> ->]. split_and!; [by eexists| |].
    + intros w _. by eapply score_dead.
    + intros w _. by eapply same_score_of.
  - destruct P as (m & n & _ & _ & -> & ->). split_and!; [by eexists| |].
    + intros w Hw. destruct (Z.eq_dec n 0) as [->|Hn]; [by eapply score_dead|]. pose proof (score_of ext d' k _ w H1 Hn) as S. cbn [scores] in S. rewrite forget_lookup in S. by rewrite bool_decide_eq_true_2 in S.
    + intros w Hw. eapply same_score_of; [done|done|done|done|]. cbn [scores]. rewrite forget_lookup. by rewrite bool_decide_eq_false_2.
Qed.
(** ZPOPMIN and ZPOPMAX change no score at all, not even of what they pop *)
Theorem C63_pop ext c d k max a d' r : reachable ext d → type_is ext d k "sortedSet" →
  ask ext c ((if max : bool then "ZPOPMAX" else "ZPOPMIN") :: k :: a) d = Ret (d', r) → ∀ v, same_score ext d d' k v.
Proof.
  intros Hr Ht H v. destruct (reachable_holds ext d k Hr (or_intror Ht)) as (s & H0 & _). apply reachable_inv in Hr as I. pose proof (ask_inv _ _ _ _ _ _ I H) as I'.
  assert (∀ name, about k (name :: k :: a) = true → score_step ext (name :: k :: a) s = pops a s → ask ext c (name :: k :: a) d = Ret (d', r) →
    ∃ s', holds d' k s' ∧ scores s' = scores s) as G.
  { intros name Ea Es E. destruct (table_ask ext c k name a d d' r _ s Hr H0 Ea Es E) as (r' & s' & -> & P & H1). exists s'. split; [done|].
    destruct s as [[T n]|]; [by destruct P as (n' & -> & _)|by rewrite P]. }
  assert (∃ s', holds d' k s' ∧ scores s' = scores s) as (s' & H1 & E).
  { destruct max; (eapply G; [..|exact H]); try (about_write); (unfold score_step; by erewrite table_row by reflexivity). }
  eapply same_score_of; [done|done|done|done|]. by rewrite E.
Qed.
(** a set whose index is damaged: ZREM of the last member has not removed it from the order *)
Definition damaged : list (list string) := zmake ++ [["ZREM"; "k"; "c"]].
Definition more : list (list string) :=
  [["ZRANGE"; "k"; "0"; "-1"]; ["ZSCORE"; "k"; "c"]; ["ZADD"; "k"; "9"; "c"]; ["ZSCORE"; "k"; "c"]; ["ZCARD"; "k"]; ["ZRANGE"; "k"; "0"; "-1"]; ["ZPOPMAX"; "k"; "1"]; ["SET"; "j"; "x"]; ["ZINCR"; "k"; "2"; "c"];
   ["ZSCORE"; "k"; "c"]; ["ZREM"; "k"; "c"; "b"; "nobody"; "b"]; ["ZSCORE"; "k"; "c"]; ["ZCARD"; "k"]; ["DEL"; "k"]; ["ZCARD"; "k"]].
Lemma within_any ext k s h : Forall (λ req, about k req = true → ∀ s, ∃ R, score_step ext req s = Some R) h → within (score_step ext) k s h.
Proof.
  intros F. revert s. induction F as [|req h H _ IH]; intros s; [done|]. cbn [within]. destruct (about k req); [|apply IH]. destruct (H eq_refl s) as [R ->]. intros r s' _. apply IH.
Qed.
Example C63_demo : reachable ext0 (after damaged) ∧ type_is ext0 (after damaged) "k" "sortedSet" ∧ live ext0 (after damaged) "k" ∧
  (∀ s, within (score_step ext0) "k" s more) ∧
  replies (damaged ++ more) = Some
    [Some (RInt 4); Some (RInt 1); Some (bulks ["a"; "b"; "bb"; "c"]); Some RNil; Some (RInt 1); Some (RBulk "9"); Some (RInt 5); Some (bulks ["a"; "b"; "bb"; "c"; "c"]); Some (bulks ["c"; "9"]);
     Some (RStatus "OK"); Some (RBulk "11"); Some (RBulk "11"); Some (RInt 2); Some RNil; Some (RInt 4); Some (RInt 1); Some (RInt 0)].
Proof.
  split; [apply after_reachable; eexists; by vm_compute|]. split.
  { pose proof (type_get ext0 (after damaged) "k") as H. assert (match sm_get (db_keys (after damaged)) "k" with Some v => type_name v | None => "none"%string end = "sortedSet"%string) as E by (by vm_compute).
    by rewrite E in H. }
  split. { exists 4. split; [done|]. intros c. rewrite (ask_cmd ext0 c "ZCARD" ["k"] _ _ eq_refl). unfold c_zcard. change (fewer ["k"] 1) with false. change (arg ["k"] 0) with (Ret "k"). cbn [obind].
    assert (ZCard "k" (after damaged) = Ok 4) as -> by (by vm_compute). done. }
  split.
  - intros s. apply within_any. unfold more. repeat (apply Forall_cons; split); try (by apply Forall_nil); intros Ea; try discriminate Ea; intros s0;
      (eexists; unfold score_step; erewrite table_row by reflexivity; cbv beta iota; try reflexivity).
  - by vm_compute.
Qed.
