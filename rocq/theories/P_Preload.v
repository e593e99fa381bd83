(** C67: the preset data of debug mode. *)
From Verif Require Import GoBase GoBaseProofs ShardMap ShardMapProofs Float64 Float64Proofs Db Protocol Redis Obs SpecCmd SpecResp SpecList SpecZSet SpecServer SpecFrame KeyHist
  DbInv ExecSteps Sim SimMain PropBase Server SpecServing ServerProofs P_Serve Drive Examples TermList TermZSet Term P_Term P_ServeMore Preload SpecPreload.

Section preload.
Context (ext : Ext) (max : Z) (ps : nat).
Notation druns := (druns ext max ps).
Notation dstep := (dstep ext max ps).

Lemma dhistory_app tr tr' : dhistory (tr ++ tr') = dhistory tr ++ dhistory tr'.
Proof. apply omap_app. Qed.
(** the data is what the executed commands make of an empty database *)
Lemma druns_talk tr s : druns tr s → ∃ rs, talk ext (dhistory tr) db_new = Ret (c_db (d_srv s), rs).
Proof.
  induction 1 as [|tr s l s' R [rs IH] NC St]; [by exists []|]. rewrite dhistory_app, talk_app, IH. cbn [obind].
  destruct St as [i H|i req c d' r H Hp He|i req c H Hp He|l s' St].
  - simpl. eauto.
  - unfold dhistory. cbn [omap list_omap]. rewrite Hp. cbn [fmap option_fmap option_map talk]. unfold ask. rewrite He. cbn [obind]. simpl. eauto.
  - simpl. eauto.
  - destruct St; simpl; eauto. cbn [talk]. unfold ask. rewrite H1. cbn [obind]. simpl. eauto.
Qed.

Definition loaded (tr : list dlabel) : list nat := omap (λ l, match l with DExec i _ => Some i | _ => None end) tr.
Lemma loaded_inv tr s : druns tr s → NoDup (loaded tr) ∧ length (d_pre s) = length preset ∧
  ∀ i, i ∈ loaded tr ↔ ∃ r, d_pre s !! i = Some (PSending r).
Proof.
  induction 1 as [|tr s l s' R (N & L & IH) NC St].
  { split; [constructor|]. split; [done|]. intros i. cbn [loaded omap list_omap]. split; [by intros ?%elem_of_nil|].
    intros [r H]. apply lookup_replicate in H as [[=] _]. }
  unfold loaded in *. rewrite omap_app.
  destruct St as [i H|i req c d' r H Hp He|i req c H Hp He|l s' St]; cbn [omap list_omap]; rewrite ?app_nil_r; cbn [d_pre]; try done.
  - split; [done|]. split; [by rewrite insert_length|]. intros j. rewrite IH. destruct (decide (j = i)) as [->|D].
    + rewrite list_lookup_insert by (by eapply lookup_lt_Some). rewrite H. split; by intros [? [=]].
    + by rewrite list_lookup_insert_ne by done.
  - assert (i ∉ omap (λ l, match l with DExec i _ => Some i | _ => None end) tr) as Hi.
    { intros Hi%IH. destruct Hi as [r0 Hi]. congruence. }
    split; [|split].
    + apply NoDup_app. split; [done|]. split; [|apply NoDup_singleton]. intros x Hx ->%elem_of_list_singleton. done.
    + by rewrite insert_length.
    + intros j. rewrite elem_of_app, IH, elem_of_list_singleton. destruct (decide (j = i)) as [->|D].
      * rewrite list_lookup_insert by (by eapply lookup_lt_Some). split; [eauto|auto].
      * rewrite list_lookup_insert_ne by done. split; [by intros [|]|auto].
Qed.
Lemma loaded_in tr i : i ∈ loaded tr ↔ ∃ c, DExec i c ∈ tr.
Proof.
  unfold loaded. rewrite elem_of_list_omap. split.
  - intros (l & Hl & E). destruct l; try done. injection E as ->. eauto.
  - intros [c H]. by exists (DExec i c).
Qed.

(** The history as seen by one preset key: other requests, the preset command, other requests. *)
Lemma one_writer tr s i c req k : druns tr s → DExec i c ∈ tr → preset !! i = Some req →
  (∀ j r, preset !! j = Some r → j ≠ i → k ∉ touched r) → clients_spare k tr →
  ∃ h1 h2, dhistory tr = h1 ++ (c, req) :: h2 ∧ Forall (λ x, k ∉ touched x.2) h1 ∧ Forall (λ x, k ∉ touched x.2) h2.
Proof.
  intros R Hin Hp Ho Hc. apply elem_of_list_split in Hin as (t1 & t2 & ->). exists (dhistory t1), (dhistory t2).
  destruct (loaded_inv _ _ R) as (N & _). unfold loaded in N. rewrite omap_app in N. cbn [omap list_omap] in N.
  apply NoDup_app in N as (_ & N1 & N2). apply NoDup_cons in N2 as [N2 _].
  split. { rewrite dhistory_app. f_equal. unfold dhistory at 1. cbn [omap list_omap]. by rewrite Hp. }
  assert (∀ t, (∀ l, l ∈ t → l ∈ t1 ++ DExec i c :: t2) → i ∉ loaded t → Forall (λ x, k ∉ touched x.2) (dhistory t)) as F.
  { intros t Ht Hi. apply Forall_forall. intros [c1 q] Hx. apply elem_of_list_omap in Hx as (l & Hl & E).
    destruct l as [|j c2|j c2|l]; try done.
    - destruct (preset !! j) as [r|] eqn:Ej; [|done]. injection E as <- <-. apply (Ho j); [done|]. intros ->. apply Hi, loaded_in. eauto.
    - destruct l; try done. injection E as <- <-. eapply Hc. by apply Ht. }
  split; apply F.
  - intros l Hl. apply elem_of_app. by left.
  - intros Hi. apply (N1 i Hi). by left.
  - intros l Hl. apply elem_of_app. right. by right.
  - done.
Qed.
Lemma behaves_frame u k h : ∀ m rs m', behaves ext u m h rs m' → Forall (λ q, k ∉ touched q) h → m' !! k = m !! k.
Proof.
  induction h as [|q h IH]; intros m rs m' B F; inversion B as [|? ? r m1 ? rs1 ? V B1]; subst; [done|].
  apply Forall_cons in F as [F1 F]. rewrite (IH _ _ _ B1 F). by eapply sstep_other.
Qed.
Lemma behaves_app u h1 h2 : ∀ m rs m', behaves ext u m (h1 ++ h2) rs m' → ∃ rs1 m1 rs2, behaves ext u m h1 rs1 m1 ∧ behaves ext u m1 h2 rs2 m'.
Proof.
  induction h1 as [|q h IH]; intros m rs m' B; [exists [], m, rs; split; [constructor|done]|].
  inversion B as [|? ? r m1 ? rs1 ? V B1]; subst. destruct (IH _ _ _ B1) as (r1 & m2 & r2 & B2 & B3).
  exists (r :: r1), m2, r2. split; [|done]. by econstructor.
Qed.
(** its value in the end *)
Lemma preset_value tr s i c req k x : druns tr s → calm (dhistory tr) → DExec i c ∈ tr → preset !! i = Some req →
  (∀ j r, preset !! j = Some r → j ≠ i → k ∉ touched r) → clients_spare k tr →
  (∀ m r m', m !! k = None → v_does (spec ext req m) r m' → m' !! k = Some x) →
  ∃ m, sim (c_db (d_srv s)) m ∧ m !! k = Some x.
Proof.
  intros R C Hin Hp Ho Hc Hv. destruct (druns_talk _ _ R) as [rs T].
  destruct (talk_behaves ext _ _ ∅ _ _ sim_new C T) as (m & B & S). exists m. split; [done|].
  destruct (one_writer _ _ _ _ _ _ R Hin Hp Ho Hc) as (h1 & h2 & E & F1 & F2). rewrite E, fmap_app, fmap_cons in B.
  destruct (behaves_app _ _ _ _ _ _ B) as (rs1 & m1 & rs2 & B1 & B2). inversion B2 as [|? ? r m2 ? rs3 ? V B3]; subst.
  assert (Forall (λ q, k ∉ touched q) h1.*2) as G1 by (by apply Forall_fmap). assert (Forall (λ q, k ∉ touched q) h2.*2) as G2 by (by apply Forall_fmap).
  rewrite (behaves_frame _ _ _ _ _ _ B3 G2). destruct V as [V|[[=] _]]. cbn [snd] in V. apply (Hv m1 r); [|done].
  by rewrite (behaves_frame _ _ _ _ _ _ B1 G1).
Qed.

Lemma parse_pair x y r fl f : bool_decide (to_lower x ∈ ["xx"; "nx"; "incr"]%string) = false → parse_float ext x = Some f →
  zadd_parse ext (x :: y :: r) fl = match zadd_parse ext r fl with Some (fl', ms) => Some (fl', (f, y) :: ms) | None => None end.
Proof.
  intros H Hf. apply bool_decide_eq_false in H. rewrite !elem_of_cons in H.
  assert (∀ z, to_lower x ≠ z → String.eqb (to_lower x) z = false) as N by (intros z Hz; by apply String.eqb_neq).
  change (zadd_parse ext (x :: y :: r) fl) with (if String.eqb (to_lower x) "xx" then zadd_parse ext (y :: r) (ZO (o_incr fl) (o_nx fl) true)
      else if String.eqb (to_lower x) "nx" then zadd_parse ext (y :: r) (ZO (o_incr fl) true (o_xx fl))
      else if String.eqb (to_lower x) "incr" then zadd_parse ext (y :: r) (ZO true (o_nx fl) (o_xx fl))
      else match parse_float ext x with
           | None => None
           | Some f => match zadd_parse ext r fl with Some (fl', ms) => Some (fl', (f, y) :: ms) | None => None end
           end). rewrite !N, Hf; [done|intros E; apply H; tauto..].
Qed.
Definition five : list zkey := [(f_of_Z 1, "a"); (f_of_Z 2, "b"); (f_of_Z 3, "c"); (f_of_Z 4, "d"); (f_of_Z 5, "e")]%string.
(** When the four commands have been executed, in whatever order and with whatever clients' requests in between, the
    preset keys hold the preset data, as long as no client changes them.  (The executions must not overlap, and the
    towers of the skip list must not be drawn with the maximal height.) *)
Theorem C67_loaded_partial tr s : reads_digits ext → druns tr s → serial (dexecutions tr) → calm (dhistory tr) →
  (∀ i, (i < length preset)%nat → ∃ c, DExec i c ∈ tr) →
  (clients_spare "list1" tr → answers ext (c_db (d_srv s)) ["LRANGE"; "list1"; "0"; "-1"] (bulks ["1"; "2"; "3"; "4"; "5"; "6"])) ∧
  (clients_spare "key1" tr → answers ext (c_db (d_srv s)) ["GET"; "key1"] (RBulk "hello")) ∧
  (clients_spare "key2" tr → answers ext (c_db (d_srv s)) ["GET"; "key2"] (RBulk "10")) ∧
  (clients_spare "zset" tr → answers ext (c_db (d_srv s)) ["ZRANGE"; "zset"; "0"; "-1"] (bulks ["a"; "b"; "c"; "d"; "e"])).
Proof.
  intros Hf R _ C All.
  assert (∀ i k, match i with 0 => k = "list1" | 1 => k = "key1" | 2 => k = "key2" | 3 => k = "zset" | _ => False end%nat%string →
    ∀ j r, preset !! j = Some r → j ≠ i → k ∉ touched r) as Apart.
  { intros i k Hk j r Hj Hn. apply lookup_lt_Some in Hj as Hlt.
    destruct i as [|[|[|[|]]]]; subst; try done; destruct j as [|[|[|[|]]]]; try done; try (simpl in Hlt; lia); injection Hj as <-; by apply (bool_decide_unpack _). }
  assert (∀ i, (i < 4)%nat → ∃ c, DExec i c ∈ tr) as All' by done.
  split_and!; intros Sp.
  - destruct (All' 0%nat ltac:(lia)) as [c Hc].
    destruct (preset_value tr s 0 c _ "list1" (AList ["1"; "2"; "3"; "4"; "5"; "6"] Sound) R C Hc eq_refl (Apart 0%nat _ eq_refl) Sp) as (m & S & E).
    { intros m r m' Hm V. rewrite (spec_cmd ext "rpush" _ _ _ m eq_refl eq_refl) in V. unfold s_push in V. rewrite Hm in V. destruct V as [_ ->]. by rewrite lookup_insert. }
    intros c1. eapply ask_query; [exact S|apply calm_other; done|done|done|]. spc. unfold s_lrange. rewrite E. done.
  - destruct (All' 1%nat ltac:(lia)) as [c Hc].
    destruct (preset_value tr s 1 c _ "key1" (AStr "hello") R C Hc eq_refl (Apart 1%nat _ eq_refl) Sp) as (m & S & E).
    { intros m r m' Hm V. rewrite (spec_cmd ext "set" _ _ _ m eq_refl eq_refl) in V. destruct V as [_ ->]. by rewrite lookup_insert. }
    intros c1. eapply ask_query; [exact S|apply calm_other; done|done|done|]. spc. unfold s_get. rewrite E. done.
  - destruct (All' 2%nat ltac:(lia)) as [c Hc].
    destruct (preset_value tr s 2 c _ "key2" (AStr "10") R C Hc eq_refl (Apart 2%nat _ eq_refl) Sp) as (m & S & E).
    { intros m r m' Hm V. rewrite (spec_cmd ext "set" _ _ _ m eq_refl eq_refl) in V. destruct V as [_ ->]. by rewrite lookup_insert. }
    intros c1. eapply ask_query; [exact S|apply calm_other; done|done|done|]. spc. unfold s_get. rewrite E. done.
  - destruct (All' 3%nat ltac:(lia)) as [c Hc].
    assert (zadd_parse ext ["1"; "a"; "2"; "b"; "3"; "c"; "4"; "d"; "5"; "e"] (ZO false false false) = Some (ZO false false false, five)) as X.
    { pose proof (Hf 1 ltac:(lia)) as F1. pose proof (Hf 2 ltac:(lia)) as F2. pose proof (Hf 3 ltac:(lia)) as F3. pose proof (Hf 4 ltac:(lia)) as F4.
      pose proof (Hf 5 ltac:(lia)) as F5.
      change (itoa 1) with "1" in F1. change (itoa 2) with "2" in F2. change (itoa 3) with "3" in F3. change (itoa 4) with "4" in F4. change (itoa 5) with "5" in F5.
      do 5 (erewrite parse_pair by (first [exact F1|exact F2|exact F3|exact F4|exact F5|by vm_compute])). done. }
    destruct (preset_value tr s 3 c _ "zset" (AZSet five ∅) R C Hc eq_refl (Apart 3%nat _ eq_refl) Sp) as (m & S & E).
    { intros m r m' Hm V. rewrite (spec_cmd ext "zadd" _ _ _ m eq_refl eq_refl) in V. unfold s_zadd in V. rewrite X in V. unfold zset_at in V. rewrite Hm in V.
      assert (zadd_many (ZO false false false) five [] ∅ = Some (five, 5)) as Y by (by vm_compute). rewrite Y in V. destruct V as [_ ->]. by rewrite lookup_insert. }
    intros c1. destruct (ask_meets ext c1 ["ZRANGE"; "zset"; "0"; "-1"] _ m S) as [A1 A2]; [apply calm_other; done|].
    assert (spec ext ["ZRANGE"; "zset"; "0"; "-1"] m = guarded (fits five) (says (bulks ["a"; "b"; "c"; "d"; "e"]) m) m) as Z.
    { rewrite (spec_cmd ext "ZRANGE" _ _ _ m eq_refl eq_refl). unfold s_zrange, range_spec, zset_at. rewrite E. done. }
    rewrite Z in A1, A2. destruct A1 as (d' & r & Ha); [done|]. destruct (A2 _ _ Ha) as (m' & [-> V] & _).
    destruct (V ltac:(done)) as [-> _]. assert (d' = c_db (d_srv s)) as -> by (eapply ask_reads; [apply (sim_inv _ _ S)|..|exact Ha]; done). exact Ha.
Qed.

(** The four commands are executed by the time the process comes to rest, unless it has died. *)
Theorem C67_executed tr s : druns tr s → c_crashed (d_srv s) = false → dquiescent ext max ps s →
  ∀ i, (i < length preset)%nat → ∃ c, DExec i c ∈ tr.
Proof.
  intros R NC Q i Hi. destruct (loaded_inv _ _ R) as (_ & L & H). apply loaded_in, H.
  destruct (lookup_lt_is_Some_2 (d_pre s) i) as [x Hx]; [lia|]. destruct x as [| |r]; [exfalso|exfalso|eauto].
  - by destruct (Q _ _ (ds_begin _ _ _ s i Hx)) as (l & [=] & _).
  - destruct (lookup_lt_is_Some_2 preset i Hi) as [req Hq].
    destruct (druns_talk _ _ R) as [rs T]. assert (reachable ext (c_db (d_srv s))) as Hr by (by exists (dhistory tr), rs).
    destruct (exec ext c1 req (c_db (d_srv s))) as [[d' o]| |] eqn:E.
    + assert (req ≠ []) as Hn by (intros ->; by destruct i as [|[|[|[|]]]]).
      destruct (exec_reply _ _ _ _ _ _ Hn E) as [r ->]. by destruct (Q _ _ (ds_exec _ _ _ s i req c1 d' r Hx Hq E)) as (l & [=] & _).
    + by destruct (Q _ _ (ds_crash _ _ _ s i req c1 Hx Hq E)) as (l & [=] & _).
    + by apply (fin_fuel _ _ (fin_exec ext c1 req (c_db (d_srv s)) (reachable_tidy _ _ Hr))) in E.
Qed.
End preload.

(** ** schedules *)
Inductive daction := PBegin (i : nat) | PExec (i : nat) | PSrv (a : action).
Definition do_dstep (a : daction) (s : dconfig) : option (dlabel * dconfig) :=
  match a with
  | PBegin i => match d_pre s !! i with Some PReady => Some (DBegin i, DCfg (d_srv s) (<[i := PRunning]> (d_pre s))) | _ => None end
  | PExec i =>
      match d_pre s !! i, preset !! i with
      | Some PRunning, Some req =>
          match exec ext0 c0 req (c_db (d_srv s)) with
          | Ret (d', Some r) => Some (DExec i c0, DCfg (set_db (d_srv s) d') (<[i := PSending r]> (d_pre s)))
          | _ => None
          end
      | _, _ => None
      end
  | PSrv a => match do_step ext0 1000 8 a (d_srv s) with Some (l, s') => Some (DSrv l, DCfg s' (d_pre s)) | None => None end
  end.
Lemma do_dstep_ok a s l s' : do_dstep a s = Some (l, s') → dstep ext0 1000 8 s l s'.
Proof.
  destruct a as [i|i|a]; cbn [do_dstep].
  - destruct (d_pre s !! i) as [[]|] eqn:E; try done. intros [= <- <-]. by constructor.
  - destruct (d_pre s !! i) as [[]|] eqn:E; try done. destruct (preset !! i) as [req|] eqn:Eq; [|done].
    destruct (exec ext0 c0 req (c_db (d_srv s))) as [[d' [r|]]| |] eqn:Ex; try done. intros [= <- <-]. by eapply ds_exec.
  - destruct (do_step ext0 1000 8 a (d_srv s)) as [[l0 s0]|] eqn:E; [|done]. intros [= <- <-]. constructor. by eapply do_step_ok.
Qed.
Fixpoint ddrive (l : list daction) (s : dconfig) (tr : list dlabel) : option (list dlabel * dconfig) :=
  match l with
  | [] => Some (tr, s)
  | a :: r => if c_crashed (d_srv s) then None else match do_dstep a s with Some (x, s') => ddrive r s' (tr ++ [x]) | None => None end
  end.
Lemma ddrive_runs l : ∀ s tr tr' s', druns ext0 1000 8 tr s → ddrive l s tr = Some (tr', s') → druns ext0 1000 8 tr' s'.
Proof.
  induction l as [|a l IH]; intros s tr tr' s' R H; cbn [ddrive] in H; [by injection H as <- <-|].
  destruct (c_crashed (d_srv s)) eqn:Ec; [done|]. destruct (do_dstep a s) as [[x s1]|] eqn:E; [|done]. eapply IH; [|exact H].
  by eapply druns_step; [..|apply (do_dstep_ok a)].
Qed.
Definition dplayed (l : list daction) : option (list dlabel * dconfig) := ddrive l dcfg_init [].
Definition dtrace (l : list daction) : list dlabel := match dplayed l with Some (tr, _) => tr | None => [] end.
Definition dfinal (l : list daction) : dconfig := match dplayed l with Some (_, s) => s | None => dcfg_init end.
Lemma dtrace_runs l : bool_decide (is_Some (dplayed l)) = true → druns ext0 1000 8 (dtrace l) (dfinal l).
Proof.
  intros H. apply bool_decide_eq_true in H as [[tr s] E]. unfold dtrace, dfinal. rewrite E. eapply ddrive_runs; [constructor|exact E].
Qed.
Definition load (i : nat) : list daction := [PBegin i; PExec i].

(** a client's request is executed, and answered, before the data is there *)
Definition too_early : list daction := PSrv <$> whole 1 7 (frame ["GET"; "key1"]).
Theorem C67_first_refuted : ¬ (∀ tr s g k b, druns ext0 1000 8 tr s → DSrv (LWrite g k b) ∈ tr →
  ∀ i, (i < length preset)%nat → ∃ c, DExec i c ∈ tr).
Proof.
  intros H. destruct (H (dtrace too_early) (dfinal too_early) 1%nat 7%nat (crlf ["$-1"])) with (i := 1%nat) as [c Hc].
  - apply dtrace_runs. by vm_compute.
  - apply (elem_of_list_lookup_2 _ 9). by vm_compute.
  - simpl. lia.
  - assert (1%nat ∈ loaded (dtrace too_early)) as K by (apply loaded_in; eauto). clear Hc. rename K into Hc. assert (loaded (dtrace too_early) = []) as E by (by vm_compute). rewrite E in Hc. by apply elem_of_nil in Hc.
Qed.
(** two preset commands, and a preset command and a client's, execute at the same time *)
Definition overlapping : list daction :=
  [PBegin 0; PBegin 3; PExec 0; PExec 3; PBegin 1] ++ (PSrv <$> [ADeliver 1 7 (frame ["SET"; "key1"; "x"]); ADecode 1; AAdd 1; ATake; ABegin 1; AExec 1 c0]) ++ [PExec 1].
Theorem C67_exclusive_refuted : ¬ (∀ tr s, druns ext0 1000 8 tr s → serial (dexecutions tr)) ∧
  dexecutions (dtrace overlapping) = [(true, inl 0); (true, inl 3); (false, inl 0); (false, inl 3); (true, inl 1); (true, inr 1); (false, inr 1); (false, inl 1)]%nat.
Proof.
  assert (dexecutions (dtrace overlapping) = [(true, inl 0); (true, inl 3); (false, inl 0); (false, inl 3); (true, inl 1); (true, inr 1); (false, inr 1); (false, inl 1)]%nat) as E
    by (by vm_compute).
  split; [|exact E]. intros H. specialize (H (dtrace overlapping) (dfinal overlapping)). rewrite E in H.
  destruct H as (_ & [=] & _). apply dtrace_runs. by vm_compute.
Qed.
(** A run that meets the hypotheses of C67_loaded_partial, with a client in between; and what it shows. *)
Definition loading : list daction :=
  load 3 ++ load 1 ++ (PSrv <$> whole 1 7 (frame ["SET"; "mine"; "1"])) ++ load 0 ++ (PSrv <$> whole 2 7 (frame ["GET"; "key1"])) ++ load 2.
Theorem C67_demo : reads_digits ext0 ∧ druns ext0 1000 8 (dtrace loading) (dfinal loading) ∧ serial (dexecutions (dtrace loading)) ∧
  calm (dhistory (dtrace loading)) ∧ (∀ i, (i < length preset)%nat → ∃ c, DExec i c ∈ dtrace loading) ∧
  Forall (λ k, clients_spare k (dtrace loading)) ["list1"; "key1"; "key2"; "zset"] ∧
  c_crashed (d_srv (dfinal loading)) = false ∧ dquiescent ext0 1000 8 (dfinal loading) ∧
  DSrv (LWrite 2 7 (crlf ["$5"; "hello"])) ∈ dtrace loading.
Proof.
  assert (druns ext0 1000 8 (dtrace loading) (dfinal loading)) as R by (apply dtrace_runs; by vm_compute).
  split_and!; [|exact R|..].
  - intros z Hz. assert (z = 0 ∨ z = 1 ∨ z = 2 ∨ z = 3 ∨ z = 4 ∨ z = 5 ∨ z = 6 ∨ z = 7 ∨ z = 8 ∨ z = 9) as D by lia.
    destruct D as [->|[->|[->|[->|[->|[->|[->|[->|[->| ->]]]]]]]]]; by vm_compute.
  - vm_compute. repeat split.
  - assert (dhistory (dtrace loading) = (λ x, (c0, x)) <$> (dhistory (dtrace loading)).*2) as -> by (by vm_compute).
    apply Forall_fmap, Forall_true. intros x _ j. vm_compute. lia.
  - intros i Hi. apply loaded_in. assert (loaded (dtrace loading) = [3; 1; 0; 2]%nat) as -> by (by vm_compute). simpl in Hi.
    clear -Hi. destruct i as [|[|[|[|]]]]; [by apply (bool_decide_unpack _)..|lia].
  - assert (∀ g c req, DSrv (LExec g c req) ∈ dtrace loading → req = ["SET"; "mine"; "1"] ∨ req = ["GET"; "key1"]) as K.
    { intros g c req H. assert (req ∈ omap (λ l, match l with DSrv (LExec _ _ q) => Some q | _ => None end) (dtrace loading)) as H'
        by (apply elem_of_list_omap; by exists (DSrv (LExec g c req))).
      assert (omap (λ l, match l with DSrv (LExec _ _ q) => Some q | _ => None end) (dtrace loading) = [["SET"; "mine"; "1"]; ["GET"; "key1"]]) as E by (by vm_compute).
      rewrite E in H'. clear -H'. apply elem_of_cons in H' as [->|H']; [by left|]. apply elem_of_list_singleton in H' as ->. by right. }
    repeat (apply Forall_cons; split); [..|by apply Forall_nil]; intros g c req H; destruct (K _ _ _ H) as [-> | ->]; by apply (bool_decide_unpack _).
  - by vm_compute.
  - intros l s' St. assert (d_pre (dfinal loading) !! 0%nat ≠ Some PReady) as _ by (by vm_compute).
    assert (∀ i x, d_pre (dfinal loading) !! i = Some x → ∃ r, x = PSending r) as Ps.
    { intros i x Hx. destruct (loaded_inv _ _ _ _ _ R) as (_ & L & H). assert (i ∈ loaded (dtrace loading)) as Hi.
      { assert (loaded (dtrace loading) = [3; 1; 0; 2]%nat) as -> by (by vm_compute). apply lookup_lt_Some in Hx. rewrite L in Hx. simpl in Hx.
        clear -Hx. destruct i as [|[|[|[|]]]]; [by apply (bool_decide_unpack _)..|lia]. }
      apply H in Hi as [r Hr]. exists r. congruence. }
    inversion St as [i Hi|i req c d' r Hi|i req c Hi|l0 s0 St0]; subst; try (by destruct (Ps _ _ Hi)).
    exists l0. split; [done|]. eapply (idle_quiescent ext0 1000 8); [|exact St0]. by vm_compute.
  - apply (elem_of_list_lookup_2 _ 25). by vm_compute.
Qed.
