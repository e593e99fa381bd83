(** C68: clients that use different keys do not notice each other. *)
From Verif Require Import GoBase GoBaseProofs ShardMap ShardMapProofs Float64 Db Protocol Redis Obs SpecCmd SpecResp SpecServer SpecTenants
  DbInv ExecSteps PropBase Examples P_Keys P_Requests P_Frame Twin Server SpecServing P_Serve Drive P_ServeMore.

Lemma writes_named req k : k ∈ writes req → k ∈ names_keys req.
Proof.
  destruct req as [|name a]; [done|]. unfold writes, names_keys. remember (to_lower name) as low eqn:El. clear El name.
  destruct (bool_decide (low ∈ read_only)) eqn:Er; [by rewrite elem_of_nil|].
  assert (bool_decide (low ∈ ["ping"; "command"; "keys"]%string) = false) as ->.
  { apply bool_decide_eq_false. apply bool_decide_eq_false in Er. intros H. apply Er.
    rewrite !elem_of_cons, elem_of_nil in H. destruct_or? H; subst; try done; apply (bool_decide_unpack _); by vm_compute. }
  destruct (String.eqb_spec low "mset") as [->|Hm]; [done|].
  destruct (String.eqb_spec low "smove") as [->|Hs]; [done|].
  intros H. assert (k ∈ take 2 a ∧ k ∈ a) as [H2 Ha].
  { destruct a as [|x a]; [done|]. cbn [take] in *. apply elem_of_list_singleton in H as ->. split; by left. }
  by repeat case_bool_decide.
Qed.
Lemma store_named name dst src : one_source_store [name; dst; src] = true → dst ∈ names_keys [name; dst; src] ∧ src ∈ names_keys [name; dst; src].
Proof.
  unfold one_source_store, names_keys. remember (to_lower name) as low eqn:El. clear El name. intros H.
  assert (low ∈ ["sdiffstore"; "sinterstore"; "sunionstore"]%string) as Hl.
  { rewrite !elem_of_cons, elem_of_nil. destruct (String.eqb_spec low "sdiffstore"); [auto|]. destruct (String.eqb_spec low "sinterstore"); [auto|].
    destruct (String.eqb_spec low "sunionstore"); [auto|done]. }
  rewrite !elem_of_cons, elem_of_nil in Hl. destruct_or? Hl; subst; try done.
  all: rewrite (bool_decide_eq_false_2 (_ ∈ ["ping"; "command"; "keys"]%string)) by (apply (bool_decide_eq_false_1 _); by vm_compute).
  all: rewrite (bool_decide_eq_true_2 (_ ∈ all_args)) by (apply (bool_decide_unpack _); by vm_compute).
  all: split; [by left|right; by left].
Qed.

Section tenants.
Context (ext : Ext) (K : string → bool).
Definition side (k1 k2 : string) : Prop := K k1 = K k2.

Lemma ask_side (b : bool) c req d d' r : dbinv d → shared_within side d → (∀ k, k ∈ names_keys req → K k = b) →
  ask ext c req d = Ret (d', r) → shared_within side d' ∧ ∀ k, K k ≠ b → held d' k = held d k.
Proof.
  intros I Sh HK H.
  destruct (ask_within ext side c req d d' r) as [Sh' Hh]; try done; unfold side; try congruence.
  - intros name dst src -> Ho. destruct (store_named _ _ _ Ho) as [H1 H2]. by rewrite (HK _ H1), (HK _ H2).
  - split; [done|]. intros k Hk. apply Hh. intros k' Hk' E. apply writes_named, HK in Hk'. congruence.
Qed.
Lemma ask_others c req d d' r e : dbinv d → shared_within side d → twin K d e → (∀ k, k ∈ names_keys req → K k = false) →
  ask ext c req d = Ret (d', r) → twin K d' e.
Proof.
  intros I Sh T HK H. destruct (ask_side false c req d d' r I Sh HK H) as [Sh' Hh].
  pose proof (ask_inv _ _ _ _ _ _ I H) as I'. pose proof (ask_steps ext c req d d' r I H) as St.
  assert (G : ∀ k, K k = true → sm_get (db_keys d') k = sm_get (db_keys d) k).
  { intros k Hk. eapply dsteps_get; [exact St|done|]. intros Hw. apply writes_named, HK in Hw. congruence. }
  split; [by apply lite_inv|apply T| |].
  - intros k Hk. pose proof (t_val _ _ _ T k Hk) as V. specialize (Hh k ltac:(congruence)). rewrite (G k Hk).
    unfold held in Hh. rewrite (G k Hk) in Hh. unfold same_value in *. destruct (sm_get (db_keys d) k) as [[| |p| |]|] eqn:E1; try done.
    destruct (sm_get (db_keys e) k) as [[]|]; try done. rewrite <- V. destruct (inv_ptr d I k p E1) as [s Hs]. rewrite Hs in *.
    destruct (db_sets d' !! p) as [s'|]; [|done]. by injection Hh as ->.
  - intros k1 k2 p1 p2 q1 q2 H1 H2. rewrite (G k1 H1), (G k2 H2). by apply (t_sh _ _ _ T).
Qed.
Lemma talk_alone h : ∀ marks d e d' rs, dbinv d → shared_within side d → twin K d e → keeps_apart K marks h.*2 →
  talk ext h d = Ret (d', rs) → ∃ e', talk ext (marked marks h) e = Ret (e', marked marks rs) ∧ twin K d' e'.
Proof.
  induction h as [|[c req] h IH]; intros marks d e d' rs I Sh T HF H.
  { injection H as <- <-. exists e. destruct marks; done. }
  cbn [talk] in H. apply obind_ret in H as ([d1 r] & E1 & H). apply obind_ret in H as ([d2 rs2] & E2 & H). injection H as <- <-.
  rewrite fmap_cons in HF. cbn [snd] in HF. destruct marks as [|b marks]; [by apply Forall2_nil_inv_l in HF|].
  apply Forall2_cons in HF as [HK HF]. pose proof (ask_inv _ _ _ _ _ _ I E1) as I1. cbn [marked]. destruct b.
  - destruct HK as [HK Hl]. destruct (ask_side true c req d d1 r I Sh HK E1) as [Sh1 _].
    pose proof (ask_same K ext c d e req T HK Hl) as Sm. rewrite E1 in Sm. destruct (ask ext c req e) as [[e1 r']| |] eqn:E3; try done.
    destruct Sm as [<- T1]. destruct (IH marks d1 e1 d2 rs2 I1 Sh1 T1 HF E2) as (e' & E4 & T'). exists e'. split; [|done].
    cbn [talk]. rewrite E3. cbn [obind]. by rewrite E4.
  - destruct (ask_side false c req d d1 r I Sh HK E1) as [Sh1 _]. pose proof (ask_others c req d d1 r e I Sh T HK E1) as T1. by apply (IH marks d1 e d2 rs2).
Qed.
Lemma twin_new : twin K db_new db_new.
Proof.
  assert (N : ∀ k, sm_get (db_keys db_new) k = None).
  { intros k. simpl. rewrite sm_get_map by apply sm_wf_new. by rewrite sm_new_map, lookup_empty. }
  split; [apply lite_inv, dbinv_new..| |]; intros *; rewrite !N; done.
Qed.

(** A group of clients whose requests name only keys in [K], in whatever way they are mixed with the requests of
    others that name only keys outside [K]: they get exactly the replies they would get alone, with the same random
    choices, on a server of their own. *)
Theorem C68_alone marks h d rs : keeps_apart K marks h.*2 → talk ext h db_new = Ret (d, rs) →
  ∃ d', talk ext (marked marks h) db_new = Ret (d', marked marks rs).
Proof.
  intros HF H. destruct (talk_alone h marks db_new db_new d rs) as (e' & E & _); try done.
  - apply dbinv_new.
  - intros k1 k2 p. cbn [db_new db_keys]. rewrite !sm_get_map, sm_new_map, !lookup_empty by apply sm_wf_new. done.
  - apply twin_new.
  - by exists e'.
Qed.
(** So nothing that the others do can be told from the replies: if the group asks the same in two conversations, it
    reads the same. *)
Theorem C68_unnoticed marks1 h1 d1 rs1 marks2 h2 d2 rs2 :
  keeps_apart K marks1 h1.*2 → keeps_apart K marks2 h2.*2 →
  talk ext h1 db_new = Ret (d1, rs1) → talk ext h2 db_new = Ret (d2, rs2) →
  marked marks1 h1 = marked marks2 h2 → marked marks1 rs1 = marked marks2 rs2.
Proof.
  intros F1 F2 H1 H2 E. destruct (C68_alone _ _ _ _ F1 H1) as [e1 E1]. destruct (C68_alone _ _ _ _ F2 H2) as [e2 E2]. congruence.
Qed.
(** The running server, whatever the schedule: the group are the clients of the connections [P].  Taken alone, in the
    order of their execution, the requests of the group are a conversation on a server of its own, and every reply
    written to one of its connections is the reply of that conversation to the frame's own request (or says that the
    deadline has passed). *)
Definition of_group (P : nat → bool) (tr : list label) (x : call) : bool :=
  existsb (λ l, match l with LDeliver g k _ => bool_decide (g = who x) && P k | _ => false end) tr.
Lemma of_group_true P tr x : of_group P tr x = true ↔ ∃ k f, LDeliver (who x) k f ∈ tr ∧ P k = true.
Proof.
  unfold of_group. rewrite existsb_exists. split.
  - intros (l & Hl & H). destruct l; try done. apply andb_true_iff in H as [H1 H2]. apply bool_decide_eq_true in H1 as ->.
    apply elem_of_list_In in Hl. eauto.
  - intros (k & f & Hl & H). exists (LDeliver (who x) k f). split; [by apply elem_of_list_In|]. by rewrite bool_decide_eq_true_2.
Qed.
Lemma marked_sub {A} (marks : list bool) (l : list A) : marked marks l `sublist_of` l.
Proof.
  revert l. induction marks as [|[] marks IH]; intros [|x l]; cbn [marked]; try apply sublist_nil_l; [by apply sublist_skip|by apply sublist_cons].
Qed.
Lemma marked_in {A} (f : A → bool) l x : x ∈ marked (f <$> l) l ↔ x ∈ l ∧ f x = true.
Proof.
  induction l as [|y l IH]; [cbn; rewrite elem_of_nil; naive_solver|]. rewrite fmap_cons. cbn [marked].
  destruct (f y) eqn:E; rewrite ?elem_of_cons, IH; naive_solver congruence.
Qed.
Lemma marked_lookup {A B} (marks : list bool) : ∀ i (l : list A) (l' : list B) x y, marks !! i = Some true → l !! i = Some x → l' !! i = Some y →
  ∃ j, marked marks l !! j = Some x ∧ marked marks l' !! j = Some y.
Proof.
  induction marks as [|b marks IH]; intros i l l' x y Hm Hl Hl'; [done|]. destruct l as [|u l]; [done|]. destruct l' as [|u' l']; [done|].
  destruct i as [|i].
  - injection Hm as ->. injection Hl as ->. injection Hl' as ->. by exists 0%nat.
  - destruct (IH i l l' x y Hm Hl Hl') as (j & H1 & H2). cbn [marked]. destruct b; [by exists (S j)|by exists j].
Qed.
Lemma marked_fmap {A B} (f : A → B) marks l : f <$> marked marks l = marked marks (f <$> l).
Proof. revert l. induction marks as [|[] marks IH]; intros [|x l]; try done; rewrite !fmap_cons; cbn [marked]; rewrite ?fmap_cons; by rewrite IH. Qed.
Theorem C68_served max ps tr s (P : nat → bool) : runs ext max ps tr s →
  (∀ g k f req, LDeliver g k f ∈ tr → asks max f req →
     if P k then (∀ x, x ∈ names_keys req → K x = true) ∧ lists_keys req = false else ∀ x, x ∈ names_keys req → K x = false) →
  ∃ mine rs d, mine `sublist_of` calls tr ∧
    (∀ x, x ∈ mine ↔ x ∈ calls tr ∧ ∃ k f, LDeliver (who x) k f ∈ tr ∧ P k = true) ∧
    talk ext (as_history mine) db_new = Ret (d, rs) ∧
    ∀ g k b, LWrite g k b ∈ tr → P k = true → (b = deadline_bytes ∧ LExpire g ∈ tr) ∨
      ∃ f i x v, LDeliver g k f ∈ tr ∧ mine !! i = Some x ∧ who x = g ∧ asks max f (what x) ∧ rs !! i = Some (Some v) ∧ is_reply b v.
Proof.
  intros R HF. destruct (C07_serial _ _ _ _ _ R) as (rs & E & Nw & _ & Ns & HC & W).
  assert (U : ∀ g k1 f1 k2 f2, LDeliver g k1 f1 ∈ tr → LDeliver g k2 f2 ∈ tr → k1 = k2).
  { intros g k1 f1 k2 f2 H1 H2. clear -Ns H1 H2. unfold started in Ns. induction tr as [|l tr IH]; [by apply elem_of_nil in H1|].
    cbn [omap list_omap] in Ns.
    assert (∀ k f, LDeliver g k f ∈ tr → g ∈ omap (λ l, match l with LDeliver g _ _ => Some g | _ => None end) tr) as Hin.
    { intros k f H. apply elem_of_list_omap. by exists (LDeliver g k f). }
    apply elem_of_cons in H1, H2. destruct H1 as [H1|H1], H2 as [H2|H2].
    - congruence.
    - subst l. apply NoDup_cons in Ns as [Ns _]. exfalso. by eapply Ns, Hin.
    - subst l. apply NoDup_cons in Ns as [Ns _]. exfalso. by eapply Ns, Hin.
    - apply IH; [|done|done]. destruct l; try done. by apply NoDup_cons in Ns as [_ ?]. }
  assert (E2 : (as_history (calls tr)).*2 = what <$> calls tr). { unfold as_history. by rewrite <- list_fmap_compose. }
  set (marks := of_group P tr <$> calls tr).
  assert (keeps_apart K marks (what <$> calls tr)) as HA.
  { unfold keeps_apart, marks. apply Forall2_fmap_2, Forall_Forall2_diag, Forall_forall. intros x Hx. destruct (HC x Hx) as (k & f & Hd & Ha).
    pose proof (HF _ _ _ _ Hd Ha) as H. destruct (of_group P tr x) eqn:Eg.
    - apply of_group_true in Eg as (k' & f' & Hd' & Hp). by rewrite (U _ _ _ _ _ Hd Hd'), Hp in H.
    - destruct (P k) eqn:Ep; [|done]. exfalso. assert (of_group P tr x = true) by (apply of_group_true; eauto). congruence. }
  destruct (C68_alone marks _ _ _ ltac:(by rewrite E2) E) as [d' E'].
  exists (marked marks (calls tr)), (marked marks rs), d'. split_and!.
  - apply marked_sub.
  - intros x. unfold marks. rewrite marked_in. by rewrite of_group_true.
  - unfold as_history. by rewrite marked_fmap.
  - intros g k b Hw Hp. destruct (W g k b Hw) as (f & Hd & [?|(i & x & v & Hx & Hg & Ha & Hr & Hi)]); [by left|]. right.
    destruct (marked_lookup marks i (calls tr) rs x (Some v)) as (j & Hj & Hj'); [|done|done|].
    { unfold marks. rewrite list_lookup_fmap, Hx. cbn. f_equal. apply of_group_true. subst g. eauto. }
    by exists f, j, x, v.
Qed.
End tenants.

(** ** examples *)
Definition mine (k : string) : bool := String.prefix "a" k.
Definition mixed : list (bool * list string) :=
  [(true, ["SADD"; "a1"; "x"]); (false, ["SADD"; "b1"; "x"; "y"]); (true, ["SUNIONSTORE"; "a2"; "a1"]); (false, ["SUNIONSTORE"; "b2"; "b1"]);
   (false, ["SADD"; "b2"; "z"]); (true, ["SADD"; "a2"; "v"]); (false, ["KEYS"; "*"]); (true, ["SCARD"; "a1"]); (false, ["SCARD"; "b1"]); (true, ["PING"])]%string.
Lemma named_side (b : bool) l : forallb (λ k, Bool.eqb (mine k) b) l = true → ∀ k, k ∈ l → mine k = b.
Proof. intros H k Hk. apply elem_of_list_In in Hk. rewrite forallb_forall in H. apply H in Hk. by apply Bool.eqb_prop. Qed.
(** Both groups use aliased sets; what one reads is what it reads alone. *)
Theorem C68_demo : keeps_apart mine mixed.*1 (plain_history mixed.*2).*2 ∧
  replies mixed.*2 = Some (Some <$> [RInt 1; RInt 2; RInt 1; RInt 2; RInt 1; RInt 1; bulks ["a2"; "a1"; "b2"; "b1"]; RInt 2; RInt 3; RStatus "PONG"])%string ∧
  replies (marked mixed.*1 mixed.*2) = Some (Some <$> [RInt 1; RInt 1; RInt 1; RInt 2; RStatus "PONG"])%string.
Proof.
  split_and!; [|by vm_compute|by vm_compute]. rewrite plain_history_2. unfold keeps_apart, mixed. cbn [fmap list_fmap fst snd].
  repeat (apply Forall2_cons; split; [first [split; [apply named_side; by vm_compute|by vm_compute] | apply named_side; by vm_compute]|]). apply Forall2_nil_2.
Qed.
(** KEYS notices the keys of others. *)
Theorem C68_keys_refuted : ¬ ∀ h marks, Forall2 (λ (b : bool) req, ∀ k, k ∈ names_keys req → mine k = b) marks h.*2 →
  ∀ d rs d' rs', talk ext0 h db_new = Ret (d, rs) → talk ext0 (marked marks h) db_new = Ret (d', rs') → rs' = marked marks rs.
Proof.
  intros H. specialize (H (plain_history [["SET"; "b"; "1"]; ["KEYS"; "*"]]) [false; true]).
  rewrite plain_history_2 in H. eassert (_ = _) as E; [eapply H| ].
  - repeat (apply Forall2_cons; split; [apply named_side; by vm_compute|]). apply Forall2_nil_2.
  - by vm_compute.
  - by vm_compute.
  - vm_compute in E. discriminate E.
Qed.
(** A request that crashes the server takes everybody with it. *)
Theorem C68_crash_refuted : keeps_apart mine [true; false; true] [["SET"; "a"; "1"]; ["KEYS"; "["]; ["GET"; "a"]]%string ∧
  crashed [["SET"; "a"; "1"]; ["KEYS"; "["]; ["GET"; "a"]]%string = true ∧
  replies [["SET"; "a"; "1"]; ["GET"; "a"]]%string = Some (Some <$> [RStatus "OK"; RBulk "1"])%string.
Proof.
  split_and!; [|by vm_compute|by vm_compute]. unfold keeps_apart.
  repeat (apply Forall2_cons; split; [first [split; [apply named_side; by vm_compute|by vm_compute] | apply named_side; by vm_compute]|]). apply Forall2_nil_2.
Qed.
(** Two connections on the running server, their requests interleaved. *)
Definition two_tenants : list action :=
  [ADeliver 1 7 (frame ["SET"; "a"; "1"]); ADeliver 2 8 (frame ["SET"; "b"; "2"]); ADecode 1; ADecode 2; AAdd 2] ++ serve 2 ++ [AAdd 1] ++ serve 1 ++
  [ADone 1; AWrite 1; ADone 2; AWrite 2] ++ whole 3 7 (frame ["GET"; "a"]).
Theorem C68_served_demo : runs ext0 1000 8 (trace two_tenants) (final two_tenants) ∧
  (∀ g k f req, LDeliver g k f ∈ trace two_tenants → asks 1000 f req →
    if (k =? 7)%nat then (∀ x, x ∈ names_keys req → mine x = true) ∧ lists_keys req = false else ∀ x, x ∈ names_keys req → mine x = false) ∧
  seen two_tenants = Some (true, [(2%nat, ["SET"; "b"; "2"]); (1%nat, ["SET"; "a"; "1"]); (3%nat, ["GET"; "a"])],
    [(1%nat, 7%nat, crlf ["+OK"]); (2%nat, 8%nat, crlf ["+OK"]); (3%nat, 7%nat, crlf ["$1"; "1"])],
    [frame ["SET"; "a"; "1"]; frame ["SET"; "b"; "2"]; frame ["GET"; "a"]])%string.
Proof.
  split_and!; [apply trace_runs; by vm_compute| |by vm_compute].
  intros g k f req Hd (_ & org & rest & Ha).
  assert ((g, k, f) ∈ omap (λ l, match l with LDeliver g k f => Some (g, k, f) | _ => None end) (trace two_tenants)) as Hin.
  { apply elem_of_list_omap. by exists (LDeliver g k f). }
  assert (omap (λ l, match l with LDeliver g k f => Some (g, k, f) | _ => None end) (trace two_tenants) =
    [(1%nat, 7%nat, frame ["SET"; "a"; "1"]); (2%nat, 8%nat, frame ["SET"; "b"; "2"]); (3%nat, 7%nat, frame ["GET"; "a"])]%string) as E by (by vm_compute).
  rewrite E in Hin. clear E Hd. rewrite !elem_of_cons, elem_of_nil in Hin. destruct_or? Hin; try done; injection Hin as -> -> ->.
  - vm_compute in Ha. injection Ha as <- _ _. cbn [Nat.eqb]. split; [apply named_side; by vm_compute|by vm_compute].
  - vm_compute in Ha. injection Ha as <- _ _. cbn [Nat.eqb]. apply named_side; by vm_compute.
  - vm_compute in Ha. injection Ha as <- _ _. cbn [Nat.eqb]. split; [apply named_side; by vm_compute|by vm_compute].
Qed.
