(** C38: which requests can crash the server.  C39: the whole server against the specification. *)
From Verif Require Import GoBase GoBaseProofs ShardMap Float64 Db Protocol Redis SpecResp SpecServer Obs DbInv Sim SimZSet SimMain PropBase Examples SpecSafe SafeSpec Safe
  Server SpecServing ServerProofs P_Wire P_Serve Drive P_ServeMore.

Section server.
Context (ext : Ext).

(** ** C38 *)
Lemma volume_cons req h : volume (req :: h) = zlen req + volume h.
Proof. unfold volume, zlen. cbn [concat]. rewrite app_length. lia. Qed.
Lemma volume_pos h : 0 ≤ volume h.
Proof. unfold volume. lia. Qed.
Lemma harmless_J hb h : ∀ n d, J hb n d → 0 ≤ n → n + volume h.*2 < two63 - 2 → calm h → Forall (harmless ext hb) h.*2 →
  ∃ d' rs, talk ext h d = Ret (d', rs) ∧ J hb (n + volume h.*2) d'.
Proof.
  induction h as [|[c req] h IH]; intros n d HJ Hn Hv Hc Hh.
  { exists d, []. split; [done|]. unfold volume. simpl. by rewrite Z.add_0_r. }
  rewrite fmap_cons in *. cbn [snd] in *. rewrite volume_cons in *. apply Forall_cons in Hc as [Hc1 Hc2]. apply Forall_cons in Hh as [Hh1 Hh2]. cbn [fst snd] in Hc1.
  assert (0 ≤ zlen req) by (unfold zlen; lia). pose proof (volume_pos h.*2) as Hp.
  destruct (harmless_step ext c hb n req d Hh1 Hc1 HJ) as (d1 & r & E1 & J1); [lia|].
  destruct (IH (n + zlen req) d1 J1) as (d2 & rs & E2 & J2); [lia|lia|done|done|].
  exists d2, (r :: rs). cbn [talk]. rewrite E1. cbn [obind]. rewrite E2. split; [done|]. by rewrite Z.add_assoc.
Qed.
(** A server that is only asked harmless requests survives all of them. *)
Theorem C38_harmless_partial hb h : Forall (harmless ext hb) h.*2 → calm h → volume h.*2 < two63 - 2 →
  ∃ d rs, talk ext h db_new = Ret (d, rs).
Proof.
  intros Hh Hc Hv. destruct (harmless_J hb h 0 db_new) as (d & rs & E & _); [apply J_new|lia|lia|done|done|eauto].
Qed.
(** Beyond them: requests whose effect the specification describes never crash it. *)
Theorem C38_specified_partial h : calm h → specified ext ∅ h.*2 → ∃ d rs, talk ext h db_new = Ret (d, rs).
Proof. intros Hc Hs. by apply (talk_survives ext h db_new ∅ sim_new). Qed.

(** The same for the running server: whatever the schedule of its goroutines, when every frame that asks anything asks
    something harmless, no command panics, unless its coin flips reach the maximal tower height. *)
Theorem C38_server_partial max ps hb tr s : runs ext max ps tr s →
  (∀ g k f req, LDeliver g k f ∈ tr → asks max f req → harmless ext hb req) →
  calm (as_history (calls tr)) → volume (what <$> calls tr) < two63 - 2 →
  (∀ g c req, LCrash g c req ∈ tr → ¬ calm_req c req).
Proof.
  intros R Hh Hc Hv.
  assert (K : ∀ tr' s', runs ext max ps tr' s' → tr' `prefix_of` tr → ∀ g ev c, c_evs s' !! g = Some ev → calm_req c (ev_cmd ev) →
    ∃ d r, exec ext c (ev_cmd ev) (c_db s') = Ret (d, r)).
  { intros tr' s' R' [l ->] g ev c He Hcr. pose proof (runs_inv _ _ _ _ _ R') as I'. destruct (i_db _ _ _ _ I') as [rs Hrs].
    assert (as_history (calls (tr' ++ l)) = as_history (calls tr') ++ as_history (calls l)) as Eh.
    { unfold as_history, calls. by rewrite omap_app, fmap_app. }
    assert ((what <$> calls (tr' ++ l)) = (what <$> calls tr') ++ (what <$> calls l)) as Ew.
    { unfold calls. by rewrite omap_app, fmap_app. }
    assert (E2 : (as_history (calls tr')).*2 = what <$> calls tr').
    { unfold as_history. rewrite <- list_fmap_compose. done. }
    assert (volume ((what <$> calls tr') ++ (what <$> calls l)) = volume (what <$> calls tr') + volume (what <$> calls l)) as Ev.
    { unfold volume. rewrite concat_app, app_length. lia. }
    rewrite Eh in Hc. apply Forall_app in Hc as [Hc _]. rewrite Ew, Ev in Hv. pose proof (volume_pos (what <$> calls l)) as Hp1. pose proof (volume_pos (what <$> calls tr')) as Hp2.
    destruct (harmless_J hb (as_history (calls tr')) 0 db_new) as (d & rs' & Et & HJ); [apply J_new|lia|rewrite E2; lia|done| |].
    { rewrite E2, Forall_fmap. apply Forall_forall. intros x Hx. apply calls_in in Hx. destruct (exec_facts _ _ _ _ _ R' _ _ _ Hx) as (k & f & B & A).
      apply before_in in B as [B _]. eapply Hh; [|done]. apply elem_of_app. by left. }
    rewrite run_talk, Hrs in Et. cbn [obind] in Et. injection Et as <- <-. rewrite E2 in HJ.
    pose proof (i_g _ _ _ _ I' g) as G. unfold gok in G. rewrite He in G. destruct G as (k & f & G1 & G2 & _).
    destruct (harmless_step ext c hb (0 + volume (what <$> calls tr')) (ev_cmd ev) (c_db s')) as (d1 & r & E1 & _); [|done|done|lia|].
    { eapply Hh; [|done]. apply elem_of_app. by left. }
    unfold ask in E1. destruct (exec ext c (ev_cmd ev) (c_db s')) as [[d2 r2]| |]; try done. eauto. }
  assert (K2 : ∀ tr' s', runs ext max ps tr' s' → tr' `prefix_of` tr → ∀ g c req, LCrash g c req ∈ tr' → ¬ calm_req c req).
  { induction 1 as [|tr' s' l s2 R' IH NC St]; intros P g c req Hin; [by apply elem_of_nil in Hin|].
    assert (tr' `prefix_of` tr) as P' by (etrans; [by eexists|done]).
    apply in_snoc in Hin as [Hin|<-]; [by eapply IH|]. inversion St; subst. intros Hcr.
    destruct (K tr' s' R' P' g ev c) as (d & r & E); [done..|]. congruence. }
  by apply (K2 tr s R).
Qed.

End server.

(** ** examples *)
Definition small_history : list (list string) :=
  [["RPUSH"; "l"; "a"; "b"]; ["LREM"; "l"; "-2"; "b"]; ["ZADD"; "z"; "1"; "x"; "2"; "y"]; ["ZPOPMIN"; "z"]; ["SADD"; "s"; "u"]; ["KEYS"; "*"]; ["SPOP"; "s"; "1"]; ["INCR"; "l"]; ["DEL"; "l"]]%string.
Lemma plain_calm h : calm (plain_history h).
Proof. apply Forall_forall. intros x Hx. unfold plain_history in Hx. apply elem_of_list_fmap in Hx as (y & -> & _). intros _ j. vm_compute. lia. Qed.
Example C38_demo : Forall (harmless ext0 TailLrem) (plain_history small_history).*2 ∧ calm (plain_history small_history) ∧
  volume (plain_history small_history).*2 < two63 - 2.
Proof.
  rewrite plain_history_2. split; [|split; [apply plain_calm|by vm_compute]].
  unfold small_history. repeat (apply Forall_cons; split); [..|by apply Forall_nil]; unfold harmless.
  all: split; [intros E; try (by vm_compute in E)|split; [by vm_compute|split; [by vm_compute|split; [intros E; try (by vm_compute in E)|split; [intros E; try (by vm_compute in E)|
    split; [intros E; try (by vm_compute in E)|split; intros E; try (by vm_compute in E)]]]]]].
  - intros x i [= <-] H. vm_compute in H. injection H as <-. by vm_compute.
  - intros x f Hx. rewrite !elem_of_cons, elem_of_nil in Hx.
    destruct Hx as [-> |[-> |[-> |[-> |[-> |[]]]]]]; intros Hp; vm_compute in Hp; try discriminate Hp; injection Hp as <-; by vm_compute.
  - intros x [= <-]. by eexists.
Qed.
(** ... and beyond them there are requests that crash it: a pattern that does not compile; LREM on a list that it had
    emptied before and that was refilled; ZRANGE after a ZREM of a member that is not among the first two; a tower of
    the maximal height *)
Theorem C38_requests_refuted :
  crashed [["KEYS"; "["]] = true ∧
  crashed [["RPUSH"; "l"; "a"]; ["LREM"; "l"; "0"; "a"]; ["RPUSH"; "l"; "b"]; ["LREM"; "l"; "0"; "b"]] = true ∧
  crashed [["ZADD"; "z"; "1"; "a"; "2"; "b"; "3"; "c"; "4"; "d"; "5"; "e"]; ["ZREM"; "z"; "c"]; ["ZRANGE"; "z"; "0"; "-1"]] = true ∧
  talk ext0 [(Ch (λ _ _, []) (λ _, 32%nat), ["ZADD"; "k"; "1"; "a"]); (c0, ["ZADD"; "k"; "2"; "b"])] db_new = Panic.
Proof. by vm_compute. Qed.
(** A request of one client kills the server while another client waits for its reply. *)
Definition killed : list action :=
  [ADeliver 1 7 (frame ["KEYS"; "["]); ADeliver 2 8 (frame ["SET"; "k"; "v"]); ADecode 2; ADecode 1; AAdd 1; ATake; AAdd 2; ABegin 1]%string.
Theorem C38_refuted : ∃ tr s, runs ext0 1000 8 tr s ∧ c_crashed s = true ∧ LCrash 1 c0 ["KEYS"; "["]%string ∈ tr ∧
  LDeliver 2 8 (frame ["SET"; "k"; "v"]%string) ∈ tr ∧ 2%nat ∉ writers tr.
Proof.
  exists (trace killed ++ [LCrash 1 c0 ["KEYS"; "["]%string]), (set_crashed (final killed)). split_and!.
  - apply (runs_step _ _ _ _ (final killed)); [apply trace_runs; by vm_compute|by vm_compute|].
    apply (st_crash _ _ _ (final killed) 1%nat (Ev ["KEYS"; "["]%string None false) c0); by vm_compute.
  - done.
  - apply elem_of_app. right. by left.
  - apply elem_of_app. left. apply (at_index _ 1). by vm_compute.
  - assert (writers (trace killed ++ [LCrash 1 c0 ["KEYS"; "["]%string]) = []) as -> by (by vm_compute). apply not_elem_of_nil.
Qed.

(** Not even a request is needed: a frame of six bytes that announces an argument of a hundred, or of any number that
    the machine cannot provide, kills the server. *)
Definition oversized : string := "$100" +:+ CRLF.
Theorem C38_no_request_refuted : ∃ tr s, runs ext0 1000 8 tr s ∧ c_crashed s = true ∧ calls tr = [] ∧
  (∀ g k f, LDeliver g k f ∈ tr → f = oversized) ∧ slen oversized = 6 ∧ ¬ (∃ req, asks 1000 oversized req).
Proof.
  exists [LDeliver 1 7 oversized; LExhaust 1], (set_crashed (set_g cfg_init 1%nat (GFrame 7 oversized))). split_and!.
  - change [LDeliver 1 7 oversized; LExhaust 1] with ([LDeliver 1 7 oversized] ++ [LExhaust 1]).
    apply (runs_step _ _ _ _ (set_g cfg_init 1%nat (GFrame 7 oversized))); [|done|].
    + apply (runs_step _ _ _ [] cfg_init); [constructor|done|]. constructor; [done|]. vm_compute. lia.
    + apply (st_exhaust _ _ _ _ 1%nat 7%nat oversized); by vm_compute.
  - done.
  - done.
  - intros g k f Hin. apply elem_of_cons in Hin as [[= -> -> ->]|Hin]; [done|]. by apply elem_of_list_singleton in Hin.
  - done.
  - intros (req & _ & org & rest & E). by vm_compute in E.
Qed.

(** ** C39: the whole server is the abstract one of SpecServer.v *)
Section whole.
Context (ext : Ext).
(** Every conversation the server survives is a conversation of the abstract server: the replies are those of some run
    of it.  With any coin flips a ZADD or ZINCR may also damage the key it writes; with calm ones it may not. *)
Theorem C39_refines h d rs : talk ext h db_new = Ret (d, rs) → ∃ m, behaves ext true ∅ h.*2 rs m.
Proof. intros E. destruct (talk_behaves_any ext h db_new ∅ d rs sim_new E) as (m & B & _). eauto. Qed.
Theorem C39_refines_calm h d rs : calm h → talk ext h db_new = Ret (d, rs) → ∃ m, behaves ext false ∅ h.*2 rs m.
Proof. intros Hc E. destruct (talk_behaves ext h db_new ∅ d rs sim_new Hc E) as (m & B & _). eauto. Qed.
(** ... and a specified conversation is carried to its end. *)
Theorem C39_complete h : calm h → specified ext ∅ h.*2 → ∃ d rs m, talk ext h db_new = Ret (d, rs) ∧ behaves ext false ∅ h.*2 rs m.
Proof.
  intros Hc Hs. destruct (talk_survives ext h db_new ∅ sim_new Hc Hs) as (d & rs & E). destruct (C39_refines_calm h d rs Hc E) as [m B]. eauto.
Qed.
(** The running server, whatever the schedule: one sequence of the abstract server explains all replies that were
    written.  Each reply is the one of its own request, and of a request that was sent on that connection. *)
Theorem C39_server max ps tr s : runs ext max ps tr s → ∃ rs m, behaves ext true ∅ (what <$> calls tr) rs m ∧
  (calm (as_history (calls tr)) → ∃ m', behaves ext false ∅ (what <$> calls tr) rs m') ∧
  ∀ g k b, LWrite g k b ∈ tr → ∃ f, LDeliver g k f ∈ tr ∧
    ((b = deadline_bytes ∧ LExpire g ∈ tr) ∨
      ∃ i x v, calls tr !! i = Some x ∧ who x = g ∧ asks max f (what x) ∧ rs !! i = Some (Some v) ∧ is_reply b v).
Proof.
  intros R. destruct (C07_serial _ _ _ _ _ R) as (rs & E & _ & _ & _ & _ & W).
  assert (E2 : (as_history (calls tr)).*2 = what <$> calls tr). { unfold as_history. by rewrite <- list_fmap_compose. }
  destruct (C39_refines _ _ _ E) as [m B]. rewrite E2 in B. exists rs, m. split; [done|]. split; [|done].
  intros Hc. destruct (C39_refines_calm _ _ _ Hc E) as [m' B']. rewrite E2 in B'. eauto.
Qed.
End whole.

(** A specified conversation whose replies the abstract server determines. *)
Definition conversation : list (list string) :=
  [["SET"; "a"; "5"]; ["INCR"; "a"]; ["GET"; "a"]; ["RPUSH"; "l"; "x"; "y"]; ["LPOP"; "l"]; ["GET"; "l"]; ["NO"]]%string.
Example C39_demo : specified ext0 ∅ (plain_history conversation).*2 ∧ calm (plain_history conversation) ∧
  (∀ rs m, behaves ext0 true ∅ conversation rs m →
    rs = Some <$> [RStatus "OK"; RInt 6; RBulk "6"; RInt 2; bulks ["x"]; RError (err_msg ErrTypeMismatch); RError (err_msg ErrUnknownCommand)]%string).
Proof.
  rewrite plain_history_2. split_and!; [|apply plain_calm|].
  - unfold conversation. cbn [specified].
    repeat (split; [by vm_compute|]; intros r0 m0 Hd; vm_compute in Hd; destruct Hd as [-> ->]). done.
  - unfold conversation. intros rs m B.
    repeat (match goal with H : behaves _ _ _ (_ :: _) _ _ |- _ => inversion H; clear H; subst end;
      match goal with H : _ ∨ _ |- _ => destruct H as [Hd|(_ & Hd & _)]; [|vm_compute in Hd; destruct Hd as [Hd|Hd]; discriminate Hd] end; vm_compute in Hd; destruct Hd as [-> ->]).
    match goal with H : behaves _ _ _ [] _ _ |- _ => inversion H; subst end. done.
Qed.
