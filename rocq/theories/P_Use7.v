(** C90: a key as a register. *)
From Verif Require Import GoBase GoBaseProofs ShardMap Float64 Float64Proofs Db Protocol Redis Obs SpecCmd SpecResp SpecServer SpecFrame SpecKey KeyHist
  DbInv ExecSteps Sim SimSet SimMain PropBase KeyIs Examples P_Keys P_Sets P_Life
  SpecCommute SpecUse SpecRegister P_Server SpecWire SpecStream Stream Server SpecServing ServerProofs P_Serve Server1 SpecServing1 Drive1 P_Serve1 Drive P_ServeMore P_Use P_Use4 P_Use5 P_Use6.

Section register.
Context (ext : Ext) (k : string).
Definition register_at (m : kspace) (l : list exchange) : Prop := m !! k = AStr <$> register (writes_in k l).
Lemma writes_snoc l x : writes_in k (l ++ [x]) = writes_in k l ++ match rewritten k x.1.2 with Some o => [o] | None => [] end.
Proof. unfold writes_in. rewrite omap_app. cbn [omap list_omap]. by destruct (rewritten k x.1.2). Qed.
Lemma register_same m m1 l x : rewritten k x.1.2 = None → m1 !! k = m !! k → register_at m l → register_at m1 (l ++ [x]).
Proof. unfold register_at. intros N E C. by rewrite writes_snoc, N, app_nil_r, E. Qed.
Lemma register_set m1 l x o : rewritten k x.1.2 = Some o → m1 !! k = AStr <$> o → register_at m1 (l ++ [x]).
Proof. unfold register_at, register. intros N E. by rewrite writes_snoc, N, last_snoc, E. Qed.
Lemma writing_named n a : rewritten k (n :: k :: a) =
  if String.eqb (to_lower n) "set" then match a with v :: _ => Some (Some v) | [] => None end else if String.eqb (to_lower n) "del" then Some None else None.
Proof. unfold rewritten. rewrite !asks_for_name. done. Qed.
Lemma register_step m l c req r m1 : register_request k req = true → register_at m l → sstep ext true m req r m1 →
  register_at m1 (l ++ [(c, req, r)]) ∧ register_answer k (register (writes_in k l)) req r.
Proof.
  intros Hq I St. unfold register_request in Hq. set (o := register (writes_in k l)) in *. assert (m !! k = AStr <$> o) as Ek by exact I.
  destruct (asks_for_any _ k req) eqn:Ea.
  - apply asks_for_any_spec in Ea as (n & a & -> & Hn). pose proof (sstep_calm _ _ _ _ _ _ St (not_drawing n (k :: a) _ Hn eq_refl)) as V. clear St.
    pose proof (writing_named n a) as Wr. unfold register_answer. rewrite !asks_for_name. rewrite Wr.
    repeat (apply elem_of_cons in Hn as [Hn|Hn]; [cbn [spec] in V; rewrite Hn in Wr, V |- *; cbn [String.eqb Ascii.eqb Bool.eqb] in Wr |- *; cbn in V|]); [..|by apply elem_of_nil in Hn].
    + destruct a as [|v a]; destruct V as [-> ->]; [by split; [by apply (register_same m)|]|].
      split; [eapply register_set; [exact Wr|by rewrite lookup_insert]|done].
    + destruct V as [-> ->]. split; [eapply register_set; [exact Wr|by rewrite lookup_delete]|]. split_and!; try done. intros _. rewrite Ek. by destruct o.
    + rewrite Ek in V. assert (r = Some (register_shown o) ∧ m1 = m) as [-> ->] by (by destruct o). split; [by apply (register_same m)|]. done.
    + rewrite Ek in V. destruct V as [-> ->]. split; [by apply (register_same m)|]. split_and!; try done. intros _. by destruct o.
    + rewrite Ek in V. assert (m1 = m) as -> by (destruct o; by destruct V as [_ ->]). split; [by apply (register_same m)|]. done.
  - cbn [orb] in Hq. apply negb_true_iff, bool_decide_eq_false in Hq.
    unfold asks_for_any in Ea. cbn [existsb] in Ea. repeat apply orb_false_iff in Ea as [? Ea].
    assert (rewritten k req = None) as Wn by (unfold rewritten; by repeat match goal with H : asks_for _ k req = false |- _ => rewrite H; clear H end).
    split; [apply (register_same m); [done|by eapply sstep_other|done]|]. split; [by rewrite Wn|]. split_and!; congruence.
Qed.
(** At every moment the key is what the last write made of it. *)
Theorem C90_register d0 l d : reachable ext d0 → answers ext d0 ["EXISTS"; k] (RInt 0) → Forall (λ req, register_request k req = true) (asked_in l) →
  talk ext l.*1 d0 = Ret (d, l.*2) →
  answers ext d ["GET"; k] (register_shown (register (writes_in k l))) ∧
  ∀ i x, l !! i = Some x → register_answer k (register (writes_in k (take i l))) x.1.2 x.2.
Proof.
  intros Hr Ha F H. apply reachable_inv in Hr as Hi. pose proof (absent_coarse ext d0 k Hi Ha) as E0.
  destruct (along_talk ext _ register_at (λ p, register_answer k (register (writes_in k p))) register_step l [] d0 (coarse d0) d (coarse_sim d0 Hi) E0 F H) as (m & S & I & A).
  split; [|exact A]. eapply (question ext d m "GET"); [exact S|split; by vm_compute|by vm_compute|]. spc. cbn [s_get]. unfold register_at in I. rewrite I. by destruct (register _).
Qed.
Lemma writes_spoken h rs : length rs = length h → writes_in k (spoken h rs) = writes_of k h.
Proof.
  intros L. pose proof (spoken_asked h rs L) as E. unfold writes_in, writes_of. revert E. generalize (spoken h rs). clear. intros l.
  revert h. induction l as [|x l IH]; intros [|y h] E; try done. cbn in E. injection E as E1 E2. cbn [omap list_omap]. rewrite E1. by rewrite (IH h E2).
Qed.
(** Clients: all executed requests in one order explain what everybody was told. *)
Definition agreed (h : list call) (got : call → string → Prop) : Prop :=
  ∀ x b v, x ∈ h → got x b → is_reply b v → b = deadline_bytes ∨ ∃ i, h !! i = Some x ∧ register_answer k (register (writes_of k (take i h))) (what x) (Some v).
Lemma service_register h got d : service ext h got d → Forall (λ y, register_request k (what y) = true) h → agreed h got.
Proof.
  intros Sv F. destruct (along_service ext _ register_at (λ p, register_answer k (register (writes_in k p))) register_step h got d Sv F) as (rs & m & L & S & I & _ & _ & A); [done|].
  intros x b v Hx Gx Hb. destruct (A x b v Hx Gx Hb) as [->|(i & Hi & Ai)]; [by left|right]. exists i. split; [done|].
  rewrite spoken_take, writes_spoken in Ai by (rewrite !take_length; lia). done.
Qed.
Theorem C90_clients max ps tr s : runs ext max ps tr s → Forall (λ y, register_request k (what y) = true) (calls tr) →
  agreed (calls tr) (λ x b, ∃ c, LWrite (who x) c b ∈ tr).
Proof. intros R F. eapply service_register; [|done]. exact (service2 _ _ _ _ _ R). Qed.
Theorem C90_clients1 max tr s : runs1 ext max tr s → Forall (λ y, register_request k (what y) = true) (calls1 tr) →
  agreed (calls1 tr) (λ x b, ∃ j n, written j tr !! n = Some (who x, b)).
Proof. intros R F. eapply service_register; [|done]. exact (service1 _ _ _ _ R). Qed.
Lemma register_since h i j x o : (i < j)%nat → (j ≤ length h)%nat → h !! i = Some x → rewritten k (what x) = Some o →
  ∃ n y o', (i ≤ n < j)%nat ∧ h !! n = Some y ∧ rewritten k (what y) = Some o' ∧ register (writes_of k (take j h)) = o'.
Proof.
  induction j as [|j IH]; [lia|]. intros Hij Hl Hi Wx.
  destruct (lookup_lt_is_Some_2 h j ltac:(lia)) as [y Hy]. rewrite (take_S_r h j y Hy). unfold writes_of. rewrite omap_app. cbn [omap list_omap].
  destruct (rewritten k (what y)) as [o'|] eqn:Wy.
  - exists j, y, o'. split; [lia|]. split; [done|]. split; [done|]. unfold register. by rewrite last_snoc.
  - rewrite app_nil_r. destruct (decide (i = j)) as [->|Nij]; [rewrite Hi in Hy; injection Hy as ->; congruence|].
    destruct (IH ltac:(lia) ltac:(lia) Hi Wx) as (n & z & o' & Hn & Hz & Wz & E). exists n, z, o'. split; [lia|]. done.
Qed.
(** A client that reads after a write was answered sees that write, or one executed after it. *)
Theorem C90_fresh max ps tr s g1 k1 b1 g2 k2 f i1 i2 x1 x2 o c b2 r : runs ext max ps tr s → Forall (λ y, register_request k (what y) = true) (calls tr) →
  before tr (LWrite g1 k1 b1) (LDeliver g2 k2 f) → b1 ≠ deadline_bytes →
  calls tr !! i1 = Some x1 → who x1 = g1 → rewritten k (what x1) = Some o →
  calls tr !! i2 = Some x2 → who x2 = g2 → asks_for "get" k (what x2) = true → LWrite g2 c b2 ∈ tr → b2 ≠ deadline_bytes → is_reply b2 r →
  ∃ n y o', (i1 ≤ n < i2)%nat ∧ calls tr !! n = Some y ∧ rewritten k (what y) = Some o' ∧ r = register_shown o'.
Proof.
  intros R F Hb N1 H1 W1 Wx H2 W2 G Hw N2 Hr.
  pose proof (C08_real_time _ _ _ _ _ g1 k1 b1 g2 k2 f i1 i2 x1 x2 R Hb N1 H1 W1 H2 W2) as Hlt.
  destruct (C90_clients max ps tr s R F x2 b2 r) as [?|(i & Hi & (_ & _ & A & _))]; [by eapply elem_of_list_lookup_2|exists c; by rewrite W2|done|done|].
  assert (i = i2) as ->.
  { destruct (C07_serial _ _ _ _ _ R) as (_ & _ & Nd & _). eapply (NoDup_lookup (who <$> calls tr)); [exact Nd|by rewrite list_lookup_fmap, Hi|by rewrite list_lookup_fmap, H2]. }
  specialize (A G). injection A as ->.
  destruct (register_since (calls tr) i1 i2 x1 o Hlt ltac:(by eapply Nat.lt_le_incl, lookup_lt_Some) H1 Wx) as (n & y & o' & Hn & Hy & Wy & ->). exists n, y, o'. done.
Qed.
End register.

(** ** examples *)
Definition rewriting : list (list string) :=
  [["GET"; "k"]; ["SET"; "k"; "v"]; ["SET"; "x"; "1"]; ["GET"; "k"]; ["set"; "k"; "w"]; ["EXISTS"; "k"]; ["GET"; "k"]; ["SET"; "k"]; ["DEL"; "k"]; ["DEL"; "k"]; ["GET"; "k"]].
Example C90_demo : forallb (register_request "k") rewriting = true ∧ talk ext0 (dialogue rewriting).*1 db_new = Ret (after rewriting, (dialogue rewriting).*2) ∧
  writes_in "k" (dialogue rewriting) = [Some "v"; Some "w"; None; None] ∧
  (dialogue rewriting).*2 = Some <$> [RNil; RStatus "OK"; RStatus "OK"; RBulk "v"; RStatus "OK"; RInt 1; RBulk "w"; RError (err_msg ErrArgsNotEnough); RInt 1; RInt 0; RNil].
Proof. split; [by vm_compute|]. split; [apply dialogue_talk; by exists (default [] (replies rewriting)); vm_compute|]. split; by vm_compute. Qed.
(** The third client reads after the first was answered, and is told what the second wrote. *)
Definition sharing : list action :=
  whole 1 7 (frame ["SET"; "k"; "v"]) ++ whole 2 8 (frame ["SET"; "k"; "w"]) ++ whole 3 9 (frame ["GET"; "k"]).
Example C90_clients_demo : runs ext0 1000 8 (trace sharing) (final sharing) ∧
  before (trace sharing) (LWrite 1 7 (crlf ["+OK"])) (LDeliver 3 9 (frame ["GET"; "k"])) ∧ crlf ["+OK"] ≠ deadline_bytes ∧
  (who <$> calls (trace sharing)) = [1; 2; 3]%nat ∧ rewritten "k" <$> (what <$> calls (trace sharing)) = [Some (Some "v"); Some (Some "w"); None] ∧
  forallb (λ x, register_request "k" (what x)) (calls (trace sharing)) = true ∧
  LWrite 3 9 (crlf ["$1"; "w"]) ∈ trace sharing ∧ is_reply (crlf ["$1"; "w"]) (RBulk "w") ∧ crlf ["$1"; "w"] ≠ deadline_bytes.
Proof.
  split; [apply trace_runs; by vm_compute|]. split; [exists 9%nat, 20%nat; split; [lia|split; by vm_compute]|]. split; [by vm_compute|].
  split; [by vm_compute|]. split; [by vm_compute|]. split; [by vm_compute|]. split; [apply (at_index _ 29); by vm_compute|].
  split; [intros rest; by vm_compute|by vm_compute].
Qed.
