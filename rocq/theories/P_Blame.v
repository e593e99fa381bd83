(** C71: what it takes to crash the server. *)
From Verif Require Import GoBase GoBaseProofs ShardMap Float64 Db Protocol Redis Obs SpecCmd SpecResp SpecServer SetRep DbInv ExecSteps Sim SimMain PropBase
  SpecSafe SafeSpec Safe SpecLife P_Life SpecBlame Blame Examples P_Keys Server SpecServing ServerProofs Drive P_Serve P_ServeMore P_Server P_Term.

Lemma overwrites_makes req k : overwrites req k = true → ∃ t, makes req k = Some t ∧ (t = a_string ∨ t = a_set).
Proof.
  unfold overwrites, makes. destruct req as [|name a]; [done|]. cbv zeta. intros H. apply orb_true_iff in H as [H|H]; apply andb_true_iff in H as [H1 H2].
  - rewrite H1, H2. eauto.
  - apply bool_decide_eq_true in H1. rewrite H2. rewrite !elem_of_cons, elem_of_nil in H1.
    destruct H1 as [-> |[-> |[-> |[-> |[]]]]]; cbn; eauto.
Qed.
Lemma volume_cons req h : volume (req :: h) = zlen req + volume h.
Proof. unfold volume, zlen. cbn [concat]. rewrite app_length. lia. Qed.
Lemma vol_pos h : 0 ≤ volume h.
Proof. unfold volume. lia. Qed.

Section blame.
Context (ext : Ext).
Lemma talk_good k h : ∀ n b d d' rs, dbinv d → 0 ≤ n → n + volume h.*2 < two63 - 2 → calm h → talk ext h d = Ret (d', rs) → (b = false → good n d k) →
  foldl (wounds ext k) b (zip h.*2 rs) = false → good (n + volume h.*2) d' k.
Proof.
  induction h as [|[c req] h IH]; intros n b d d' rs I Hn Hv Hc H G F.
  { injection H as <- <-. cbn in F. eapply kgood_mono; [|by apply G]. unfold volume. cbn. lia. }
  cbn [talk] in H. apply obind_ret in H as ([d1 r] & E1 & H). apply obind_ret in H as ([d2 rs2] & E2 & H). injection H as <- <-.
  rewrite fmap_cons in Hv, F |- *. cbn [snd] in *. rewrite volume_cons in Hv |- *. cbn [zip_with foldl] in F. apply Forall_cons in Hc as [Hc1 Hc].
  pose proof (vol_pos h.*2) as Vp. assert (0 ≤ zlen req) by (unfold zlen; lia). rewrite Z.add_assoc.
  eapply (IH (n + zlen req) (wounds ext k b (req, r)) d1); [by eapply ask_inv|lia|lia|done|done| |done].
  intros W. unfold wounds in W. cbn [fst snd] in W. destruct (negb (is_error r) && (unmakes req k || overwrites req k)) eqn:Ov.
  - apply andb_true_iff in Ov as [Er Ov]. apply negb_true_iff in Er. pose proof (ask_life ext c req d d1 r k I E1) as L. unfold lives in L. cbn [fst snd] in L. rewrite Er in L.
    destruct (unmakes req k) eqn:U.
    + unfold Type_ in L. destruct (sm_get (db_keys d1) k); [done|]. done.
    + destruct (overwrites_makes req k Ov) as (t & M & Ht). rewrite M in L. by eapply get_of_type.
  - apply orb_false_iff in W as [-> W]. eapply keeps_one; [done|exact Hc1|lia|exact E1|by apply G|done].
Qed.
Lemma new_good k : good 0 db_new k.
Proof. by apply (J_new NoLrem). Qed.

(** ** C71 *)
(** A request about a key that no risky request has hurt since it was created, and which is not risky itself, is
    answered, whatever happened to the other keys. *)
Theorem C71_unhurt h d rs c req : talk ext h db_new = Ret (d, rs) → calm (h ++ [(c, req)]) → volume (h.*2 ++ [req]) < two63 - 2 →
  bad_pattern ext req = false →
  (∀ k, k ∈ works_on req → wounded ext k (zip h.*2 rs) = false ∧ risky ext k req None = false) →
  ∃ d' r, ask ext c req d = Ret (d', r).
Proof.
  intros H Hc Hv Hb Hk. apply Forall_app in Hc as [Hc Hc1]. rewrite Forall_singleton in Hc1. cbn [fst snd] in Hc1.
  assert (volume (h.*2 ++ [req]) = volume h.*2 + zlen req) as Ev by (unfold volume, zlen; rewrite concat_app, app_length; cbn [concat]; rewrite app_nil_r; lia).
  rewrite Ev in Hv. pose proof (vol_pos h.*2). assert (0 ≤ zlen req) by (unfold zlen; lia).
  apply (survives_one ext c (volume h.*2)); [eapply talk_inv; [apply dbinv_new|done]|exact Hc1|lia|done|].
  intros k Hw. destruct (Hk k Hw) as [W R]. split; [|done].
  eapply (talk_good k h 0 false db_new); [apply dbinv_new|lia|lia|done|done|intros _; apply new_good|done].
Qed.
(** If a request crashes the server, it is KEYS with a pattern the library rejects; or it is about the list or sorted
    set at a key which a risky request had hurt, or is such a risky request itself. *)
Theorem C71_blame h d rs c req : talk ext h db_new = Ret (d, rs) → calm (h ++ [(c, req)]) → volume (h.*2 ++ [req]) < two63 - 2 →
  ask ext c req d = Panic →
  bad_pattern ext req = true ∨ ∃ k, works_on req = [k] ∧ (wounded ext k (zip h.*2 rs) = true ∨ risky ext k req None = true).
Proof.
  intros H Hc Hv P. destruct (bad_pattern ext req) eqn:B; [by left|right].
  assert (works_on req = [] ∨ ∃ k, works_on req = [k]) as [W|[k W]].
  { unfold works_on. destruct req as [|name a]; [by left|]. cbv zeta.
    repeat case_match; [destruct (drop 1 a)|destruct a|by left]; cbn; eauto. }
  - exfalso. destruct (C71_unhurt h d rs c req H Hc Hv B) as (d' & r & E); [|congruence]. rewrite W. by intros k ?%elem_of_nil.
  - exists k. split; [done|]. destruct (wounded ext k (zip h.*2 rs)) eqn:E1; [by left|]. destruct (risky ext k req None) eqn:E2; [by right|].
    exfalso. destruct (C71_unhurt h d rs c req H Hc Hv B) as (d' & r & E); [|congruence]. rewrite W. intros k' ->%elem_of_list_singleton. done.
Qed.
(** Every conversation that crashes the server has such a request in it. *)
Lemma talk_panic h : ∀ d, dbinv d → talk ext h d = Panic → ∃ h1 c req h2 d1 rs, h = h1 ++ (c, req) :: h2 ∧ talk ext h1 d = Ret (d1, rs) ∧ ask ext c req d1 = Panic.
Proof.
  induction h as [|[c req] h IH]; intros d I H; [done|]. cbn [talk] in H. destruct (ask ext c req d) as [[d1 r]| |] eqn:E; cbn [obind] in H; [|by exists [], c, req, h, d, []|done].
  destruct (talk ext h d1) as [[d2 rs]| |] eqn:E2; cbn [obind] in H; [done| |done].
  destruct (IH d1) as (h1 & c1 & req1 & h2 & d2 & rs & -> & T & P); [by eapply ask_inv|done|].
  exists ((c, req) :: h1), c1, req1, h2, d2, (r :: rs). split; [done|]. split; [|done]. cbn [talk]. rewrite E. cbn [obind]. by rewrite T.
Qed.
Theorem C71_history h : talk ext h db_new = Panic → calm h → volume h.*2 < two63 - 2 →
  ∃ h1 c req h2 d rs, h = h1 ++ (c, req) :: h2 ∧ talk ext h1 db_new = Ret (d, rs) ∧ ask ext c req d = Panic ∧
    (bad_pattern ext req = true ∨ ∃ k, works_on req = [k] ∧ (wounded ext k (zip h1.*2 rs) = true ∨ risky ext k req None = true)).
Proof.
  intros H Hc Hv. destruct (talk_panic h db_new dbinv_new H) as (h1 & c & req & h2 & d & rs & -> & T & P). exists h1, c, req, h2, d, rs. split_and!; try done.
  apply (C71_blame h1 d rs c req); try done.
  - apply Forall_app in Hc as [Hc1 Hc2]. apply Forall_cons in Hc2 as [Hc2 _]. apply Forall_app. split; [done|]. by apply Forall_singleton.
  - rewrite fmap_app, fmap_cons in Hv. unfold volume in *. rewrite concat_app, app_length in Hv. rewrite concat_app, app_length. cbn [concat snd] in *. rewrite app_length in Hv. rewrite app_length. cbn [length]. lia.
Qed.
Lemma wounded_some k h : wounded ext k h = true → ∃ x, x ∈ h ∧ risky ext k x.1 x.2 = true.
Proof.
  unfold wounded. assert (∀ b, foldl (wounds ext k) b h = true → b = true ∨ ∃ x, x ∈ h ∧ risky ext k x.1 x.2 = true) as H.
  { induction h as [|x h IH]; intros b H; [by left|]. cbn [foldl] in H. apply IH in H as [H|(y & Hy & R)]; [|right; exists y; split; [by right|done]].
    unfold wounds in H. destruct (_ && _); [done|]. apply orb_true_iff in H as [H|H]; [by left|right]. exists x. split; [by left|done]. }
  intros W. by destruct (H false W).
Qed.
Lemma risky_any k req r : risky ext k req r = true → risky ext k req (Some (RInt 1)) = true.
Proof.
  unfold risky. destruct req as [|name a]; [done|]. cbv zeta. intros H. apply andb_true_iff in H as [-> H]. cbn [andb].
  destruct (String.eqb (to_lower name) "lrem"); [done|]. done.
Qed.
(** The running server, whatever the schedule: if the request of a frame crashes it, then it is a bad pattern, or a
    client has sent a frame with a risky request about the same list or sorted set. *)
Theorem C71_served max ps tr s g c req : runs ext max ps tr s → LCrash g c req ∈ tr →
  calm (as_history (calls tr)) → calm_req c req → volume ((what <$> calls tr) ++ [req]) < two63 - 2 →
  bad_pattern ext req = true ∨
  ∃ k g' k' f req', works_on req = [k] ∧ LDeliver g' k' f ∈ tr ∧ asks max f req' ∧ risky ext k req' (Some (RInt 1)) = true.
Proof.
  intros R Hin Hc Hcr Hv.
  assert (K : ∃ tr' s' ev, runs ext max ps tr' s' ∧ tr = tr' ++ [LCrash g c req] ∧ c_evs s' !! g = Some ev ∧ ev_cmd ev = req ∧ exec ext c req (c_db s') = Panic).
  { inversion R as [|tr' s' l s2 R' NC St]; subst; [by apply elem_of_nil in Hin|]. apply in_snoc in Hin as [Hin|<-].
    - exfalso. clear -R' NC Hin. induction R' as [|tr' s' l s2 R' IH NC' St]; [by apply elem_of_nil in Hin|]. apply in_snoc in Hin as [Hin|<-].
      + apply IH; [|done]. destruct (c_crashed s') eqn:X; [|done]. done.
      + inversion St; subst. done.
    - inversion St; subst. eexists tr', s', ev. done. }
  destruct K as (tr' & s' & ev & R' & -> & He & <- & P).
  assert (calls (tr' ++ [LCrash g c (ev_cmd ev)]) = calls tr') as Ec by (unfold calls; rewrite omap_app; cbn; by rewrite app_nil_r).
  rewrite Ec in Hc, Hv. destruct (C07_serial _ _ _ _ _ R') as (rs & T & _ & _ & _ & D & _).
  assert (H2 : (as_history (calls tr')).*2 = what <$> calls tr') by (unfold as_history; rewrite <- list_fmap_compose; done).
  destruct (C71_blame (as_history (calls tr')) (c_db s') rs c (ev_cmd ev) T) as [B|(k & W & X)].
  - apply Forall_app. split; [done|by apply Forall_singleton].
  - by rewrite H2.
  - unfold ask. by rewrite P.
  - by left.
  - right. exists k. destruct X as [X|X].
    + apply wounded_some in X as ([req' r] & Hx & Rk). apply elem_of_zip_l in Hx. rewrite H2 in Hx. apply elem_of_list_fmap in Hx as (x & -> & Hx).
      destruct (D x Hx) as (k' & f & HD & HA). exists (who x), k', f, (what x). split_and!; [done| |done|by eapply risky_any]. apply elem_of_app. by left.
    + pose proof (runs_inv _ _ _ _ _ R') as I'. pose proof (i_g _ _ _ _ I' g) as G. unfold gok in G. rewrite He in G. destruct G as (k' & f & G1 & G2 & _).
      exists g, k', f, (ev_cmd ev). split_and!; [done| |done|by eapply risky_any]. apply elem_of_app. by left.
Qed.
End blame.

(** ** examples *)
(** A list and a sorted set are hurt; requests about other keys, and about the same keys once deleted, are not in danger. *)
Definition rough : list (list string) :=
  [["RPUSH"; "l"; "a"]; ["LREM"; "l"; "0"; "a"]; ["ZADD"; "z"; "1"; "a"; "2"; "b"; "3"; "c"]; ["ZPOPMAX"; "z"];
   ["RPUSH"; "m"; "a"; "b"]; ["LREM"; "m"; "0"; "x"]; ["ZADD"; "y"; "1"; "a"]; ["ZPOPMIN"; "y"]; ["RPUSH"; "l"; "b"]]%string.
Theorem C71_demo : ∃ rs, replies rough = Some rs ∧
  (λ k, wounded ext0 k (zip rough rs)) <$> ["l"; "z"; "m"; "y"; "q"]%string = [true; true; false; false; false] ∧
  (λ k, wounded ext0 k (zip (rough ++ [["DEL"; "l"]; ["SET"; "z"; "v"]]%string) (rs ++ [Some (RInt 1); Some (RStatus "OK")]))) <$> ["l"; "z"]%string = [false; false] ∧
  calm (plain_history (rough ++ [["LREM"; "m"; "0"; "b"]]%string)) ∧ volume (rough ++ [["LREM"; "m"; "0"; "b"]]%string) < two63 - 2 ∧
  risky ext0 "m" ["LREM"; "m"; "0"; "b"]%string None = false ∧ works_on ["LREM"; "m"; "0"; "b"]%string = ["m"]%string.
Proof.
  eexists. split; [by vm_compute|]. split_and!; try by vm_compute. apply plain_calm.
Qed.
(** The causes are causes: each of these conversations crashes the server at its last request, because of the one
    before; and does not if the key is deleted in between. *)
Theorem C71_causes :
  crashed [["KEYS"; "["]]%string = true ∧
  crashed (rough ++ [["LREM"; "l"; "0"; "b"]]%string) = true ∧ crashed (rough ++ [["DEL"; "l"]; ["LREM"; "l"; "0"; "b"]]%string) = false ∧
  crashed (rough ++ [["ZRANGE"; "z"; "0"; "-1"]]%string) = true ∧ crashed (rough ++ [["DEL"; "z"]; ["ZRANGE"; "z"; "0"; "-1"]]%string) = false ∧
  crashed [["ZADD"; "z"; "1"; "a"; "2"; "b"; "3"; "c"; "4"; "d"; "5"; "e"]; ["ZREM"; "z"; "c"]; ["ZRANGE"; "z"; "0"; "-1"]]%string = true ∧
  crashed [["ZADD"; "z"; "1"; "a"; "2"; "b"; "3"; "c"; "4"; "d"; "5"; "e"]; ["ZREM"; "z"; "c"]; ["DEL"; "z"]; ["ZADD"; "z"; "1"; "a"]; ["ZRANGE"; "z"; "0"; "-1"]]%string = false.
Proof. by vm_compute. Qed.
