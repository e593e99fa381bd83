(** C69: what the random choices of the server can show. *)
From Verif Require Import GoBase GoBaseProofs ShardMap Float64 Db Protocol Redis Obs SpecCmd SpecResp SpecServer SpecChoices
  DbInv ExecSteps Sim SimZSet SimMain PropBase Examples Choices Settled Server SpecServing P_Serve Drive P_ServeMore.

Section choices.
Context (ext : Ext).
(** Without SPOP, ZADD and ZINCR: the same requests lead to the same state and the same replies, up to the order of
    collections, or crash the server at the same point, whatever the choices. *)
Theorem C69_replay h h' : h'.*2 = h.*2 → Forall (λ req, ¬ draws_at_random req) h.*2 →
  match talk ext h db_new, talk ext h' db_new with
  | Ret (d, rs), Ret (d', rs') => d = d' ∧ Forall3 alike h.*2 rs rs'
  | Panic, Panic | OutOfFuel, OutOfFuel => True
  | _, _ => False
  end.
Proof. apply talk_alike, dbinv_new. Qed.

Lemma settled_alike h : ∀ h' d d' m, sim d m → sim d' m → undamaged m → calm h → calm h' → h'.*2 = h.*2 →
  specified ext m h.*2 → Forall settled h.*2 →
  ∃ e rs e' rs', talk ext h d = Ret (e, rs) ∧ talk ext h' d' = Ret (e', rs') ∧ Forall3 alike h.*2 rs rs'.
Proof.
  induction h as [|[c req] h IH]; intros [|[c' req'] h'] d d' m S S' U C C' E Sp F; try done.
  { exists d, [], d', []. split; [done|]. split; [done|constructor]. }
  rewrite !fmap_cons in E. cbn [snd] in E. injection E as -> E. rewrite fmap_cons in *. cbn [snd] in *.
  apply Forall_cons in F as [F1 F]. apply Forall_cons in C as [C1 C]. apply Forall_cons in C' as [C1' C'].
  destruct Sp as [Sf Sp].
  destruct (ask_meets ext c req d m S C1) as [A1 A2]. destruct (A1 Sf) as (d1 & r & E1). destruct (A2 _ _ E1) as (m1 & V1 & S1).
  destruct (ask_meets ext c' req d' m S' C1') as [B1 B2]. destruct (B1 Sf) as (d2 & r' & E2). destruct (B2 _ _ E2) as (m2 & V2 & S2).
  destruct (spec_crisp ext req m U F1 Sf _ _ _ _ V1 V2) as (<- & U1 & Ha).
  destruct (IH h' d1 d2 m1 S1 S2 U1 C C' E (Sp _ _ V1) F) as (e & rs & e' & rs' & T1 & T2 & Hr).
  exists e, (r :: rs), e', (r' :: rs'). cbn [talk]. rewrite E1, E2. cbn [obind]. rewrite T1, T2. cbn [obind].
  split; [done|]. split; [done|]. by constructor.
Qed.
(** Sorted sets as well: if every request is specified on its keyspace (the abstract server of SpecServer.v leaves nothing
    open), no tower reaches the maximal height, and nobody uses SPOP or an interval of scores with an open end, both
    servers survive and give the same replies, up to the order of collections. *)
Theorem C69_settled_partial h h' : h'.*2 = h.*2 → calm h → calm h' → specified ext ∅ h.*2 → Forall settled h.*2 →
  ∃ d rs d' rs', talk ext h db_new = Ret (d, rs) ∧ talk ext h' db_new = Ret (d', rs') ∧ Forall3 alike h.*2 rs rs'.
Proof. intros E C C' Sp F. by apply (settled_alike h h' db_new db_new ∅ sim_new sim_new). Qed.

(** Two runs of the server, with different schedules, that execute the same requests in the same order: what two
    clients read as the replies to the i-th request is alike (unless it is the message that the deadline passed). *)
Theorem C69_served max ps ps' tr tr' s s' : runs ext max ps tr s → runs ext max ps' tr' s' →
  what <$> calls tr' = what <$> calls tr → Forall (λ req, ¬ draws_at_random req) (what <$> calls tr) →
  ∃ rs rs', Forall3 alike (what <$> calls tr) rs rs' ∧
    (∀ g k b, LWrite g k b ∈ tr → (b = deadline_bytes ∧ LExpire g ∈ tr) ∨
      ∃ i x v, calls tr !! i = Some x ∧ who x = g ∧ rs !! i = Some (Some v) ∧ is_reply b v) ∧
    (∀ g k b, LWrite g k b ∈ tr' → (b = deadline_bytes ∧ LExpire g ∈ tr') ∨
      ∃ i x v, calls tr' !! i = Some x ∧ who x = g ∧ rs' !! i = Some (Some v) ∧ is_reply b v).
Proof.
  intros R R' E F. destruct (C07_serial _ _ _ _ _ R) as (rs & T & _ & _ & _ & _ & W).
  destruct (C07_serial _ _ _ _ _ R') as (rs' & T' & _ & _ & _ & _ & W').
  assert (H2 : ∀ l, (as_history l).*2 = what <$> l) by (intros l; unfold as_history; rewrite <- list_fmap_compose; done).
  pose proof (C69_replay (as_history (calls tr)) (as_history (calls tr'))) as H. rewrite !H2, T, T' in H.
  destruct (H E F) as [_ HF]. exists rs, rs'. split; [done|]. split.
  - intros g k b Hw. destruct (W _ _ _ Hw) as (f & _ & [?|(i & x & v & ? & ? & _ & ? & ?)]); [by left|]. right. by exists i, x, v.
  - intros g k b Hw. destruct (W' _ _ _ Hw) as (f & _ & [?|(i & x & v & ? & ? & _ & ? & ?)]); [by left|]. right. by exists i, x, v.
Qed.
End choices.

(** ** The cases left out *)
(** the heights of the towers drawn, in order; 1 if there are no more *)
Definition coins (l : list nat) : choices := Ch (λ _ _, []) (λ j, nth j l 1%nat).
Definition drawn (l : list nat) (h : list (list string)) : list (choices * list string) := (λ r, (coins l, r)) <$> h.
Lemma drawn_2 l h : (drawn l h).*2 = h.
Proof. unfold drawn. rewrite <- list_fmap_compose. apply list_fmap_id. Qed.
Lemma is_fine {A} (x : outcome (db * A)) : match x with Ret _ => true | _ => false end = true → ∃ d r, x = Ret (d, r).
Proof. destruct x as [[]| |]; try done. eauto. Qed.
Lemma is_panic {A} (x : outcome (db * A)) : match x with Panic => true | _ => false end = true → x = Panic.
Proof. by destruct x. Qed.
(** whether the server survives a ZREM can depend on the heights of the towers *)
Theorem C69_towers_refuted : ∃ h : list (list string),
  (∃ d rs, talk ext0 (drawn [1; 2]%nat h) db_new = Ret (d, rs)) ∧ talk ext0 (drawn [] h) db_new = Panic ∧
  calm (drawn [1; 2]%nat h) ∧ calm (drawn [] h) ∧ Forall settled h.
Proof.
  exists [["ZADD"; "z"; "1"; "a"; "2"; "b"; "3"; "c"; "4"; "d"]; ["ZREM"; "z"; "c"]; ["ZRANGE"; "z"; "0"; "-1"]]%string.
  split_and!.
  - apply is_fine. by vm_compute.
  - apply is_panic. by vm_compute.
  - unfold calm, drawn. apply Forall_fmap, Forall_true. intros req _ j. by destruct j as [|[|[|j]]]; apply (bool_decide_unpack _); vm_compute.
  - unfold calm, drawn. apply Forall_fmap, Forall_true. intros req _ j. by destruct j as [|j]; apply (bool_decide_unpack _); vm_compute.
  - apply (bool_decide_unpack _). by vm_compute.
Qed.
(** the answer to an interval with an open end can depend on them as well: how many members have a score above 1, up to 9 *)
Theorem C69_open_refuted :
  let h := [["ZADD"; "z"; "1"; "a"; "1"; "b"; "1"; "c"]; ["ZCOUNT"; "z"; "(1"; "9"]]%string in
  (∃ d, talk ext0 (drawn [] h) db_new = Ret (d, [Some (RInt 3); Some (RInt 2)])) ∧
  (∃ d, talk ext0 (drawn [1; 2]%nat h) db_new = Ret (d, [Some (RInt 3); Some (RInt 1)])) ∧
  (∃ d, talk ext0 (drawn [1; 1; 2]%nat h) db_new = Ret (d, [Some (RInt 3); Some (RInt 0)])).
Proof.
  assert (G : ∀ (x : outcome (db * list (option resp))) rs, match x with Ret (_, rs) => Some rs | _ => None end = Some rs → ∃ d, x = Ret (d, rs)).
  { intros x rs. destruct x as [[d rs']| |]; try done. intros [= ->]. by exists d. }
  split_and!; apply G; by vm_compute.
Qed.

(** ** Examples *)
(** A set and the keyspace walked in two orders: the replies differ in order only, as C69_replay says. *)
Definition ordered (l : list nat) : choices := Ch (λ _ _, l) (λ _, 1%nat).
Definition walk : list (list string) :=
  [["SADD"; "bb"; "bb"; "dd"]; ["SADD"; "dd"; "dd"; "eb"]; ["SUNIONSTORE"; "u"; "bb"; "dd"]; ["SMEMBERS"; "u"]; ["KEYS"; "*"]; ["SCARD"; "u"]]%string.
Definition walk1 : list (choices * list string) := plain_history walk.
Definition walk2 : list (choices * list string) := (λ r, (ordered [1; 0]%nat, r)) <$> walk.
Definition said (h : list (choices * list string)) : option (list (option resp)) :=
  match talk ext0 h db_new with Ret (_, rs) => Some rs | _ => None end.
Theorem C69_replay_demo : walk2.*2 = walk1.*2 ∧ Forall (λ req, ¬ draws_at_random req) walk1.*2 ∧
  said walk1 = Some [Some (RInt 2); Some (RInt 2); Some (RInt 3); Some (bulks ["dd"; "bb"; "eb"]); Some (bulks ["dd"; "bb"; "u"]); Some (RInt 3)]%string ∧
  said walk2 = Some [Some (RInt 2); Some (RInt 2); Some (RInt 3); Some (bulks ["bb"; "dd"; "eb"]); Some (bulks ["bb"; "dd"; "u"]); Some (RInt 3)]%string.
Proof. split_and!; [done| |by vm_compute..]. apply (bool_decide_unpack _). by vm_compute. Qed.

(** A sorted set with two choices of towers: the states differ, the replies do not, as C69_settled_partial says. *)
Definition scored : list (list string) :=
  [["ZADD"; "z"; "1"; "a"; "2"; "b"; "3"; "c"]; ["ZINCR"; "z"; "5"; "a"]; ["ZREM"; "z"; "b"]; ["ZSCORE"; "z"; "a"]; ["ZCARD"; "z"]]%string.
Theorem C69_settled_demo : specified ext0 ∅ scored ∧ calm (drawn [] scored) ∧ calm (drawn [2; 1; 3]%nat scored) ∧ Forall settled scored ∧
  said (drawn [] scored) = Some [Some (RInt 3); Some (RBulk "6"); Some (RInt 1); Some (RBulk "6"); Some (RInt 2)]%string ∧
  said (drawn [2; 1; 3]%nat scored) = said (drawn [] scored).
Proof.
  split_and!.
  - unfold scored. cbn [specified].
    repeat (split; [by vm_compute|]; intros r0 m0 Hd; vm_compute in Hd; destruct Hd as [-> ->]). done.
  - unfold calm, drawn. apply Forall_fmap, Forall_true. intros req _ j. by destruct j as [|j]; apply (bool_decide_unpack _); vm_compute.
  - unfold calm, drawn. apply Forall_fmap, Forall_true. intros req _ j. by destruct j as [|[|[|[|j]]]]; apply (bool_decide_unpack _); vm_compute.
  - apply (bool_decide_unpack _). by vm_compute.
  - by vm_compute.
  - by vm_compute.
Qed.
(** Two schedules of the running server with the same order of execution. *)
Definition one_by_one : list action := whole 1 7 (frame ["SET"; "a"; "1"]) ++ whole 2 8 (frame ["GET"; "a"]).
Definition interleaved : list action :=
  [ADeliver 1 7 (frame ["SET"; "a"; "1"]); ADeliver 2 8 (frame ["GET"; "a"]); ADecode 2; ADecode 1; AAdd 1] ++ serve 1 ++ [AAdd 2] ++ serve 2 ++
  [ADone 2; AWrite 2; ADone 1; AWrite 1].
Theorem C69_served_demo : runs ext0 1000 8 (trace one_by_one) (final one_by_one) ∧ runs ext0 1000 8 (trace interleaved) (final interleaved) ∧
  what <$> calls (trace interleaved) = what <$> calls (trace one_by_one) ∧
  Forall (λ req, ¬ draws_at_random req) (what <$> calls (trace one_by_one)) ∧
  seen one_by_one = Some (true, [(1%nat, ["SET"; "a"; "1"]); (2%nat, ["GET"; "a"])],
    [(1%nat, 7%nat, crlf ["+OK"]); (2%nat, 8%nat, crlf ["$1"; "1"])], [frame ["SET"; "a"; "1"]; frame ["GET"; "a"]])%string ∧
  seen interleaved = Some (true, [(1%nat, ["SET"; "a"; "1"]); (2%nat, ["GET"; "a"])],
    [(2%nat, 8%nat, crlf ["$1"; "1"]); (1%nat, 7%nat, crlf ["+OK"])], [frame ["GET"; "a"]; frame ["SET"; "a"; "1"]])%string.
Proof.
  split_and!; [apply trace_runs; by vm_compute|apply trace_runs; by vm_compute|by vm_compute| |by vm_compute|by vm_compute].
  assert (what <$> calls (trace one_by_one) = [["SET"; "a"; "1"]; ["GET"; "a"]]%string) as -> by (by vm_compute).
  apply (bool_decide_unpack _). by vm_compute.
Qed.
