(** What the random choices of the server can change. *)
From Verif Require Import GoBase GoBaseProofs ShardMap ShardMapProofs Float64 DList SkipList Db Protocol Redis Obs SpecCmd SpecResp SpecServer SpecChoices
  SetRep DbInv ExecSteps.

Definition like (x y : cmd_result) : Prop :=
  x = y ∨ ∃ d l l', x = reply (rsp_strings l) d ∧ y = reply (rsp_strings l') d ∧ l ≡ₚ l'.

Section choices.
Context (ext : Ext) (c c' : choices) (d : db) (I : dbinv d).
Ltac args a := do 3 (try (destruct a as [|? a])); cbn [fewer length Nat.ltb Nat.leb Nat.eqb arg lookup list_lookup deref obind]; try by left.

Lemma keys_like {A} o o' (m : smap A) : sm_wf m → sm_keys o m ≡ₚ sm_keys o' m.
Proof. intros W. by rewrite !sm_keys_perm. Qed.
Lemma range_filter {A} (g : string → bool) (l : list (string * A)) : ∀ acc : list string,
  range_loop (λ acc k _, ((if g k : bool then acc ++ [k] else acc), true)) acc l = acc ++ filter (λ k, g k = true) l.*1.
Proof.
  induction l as [|[k v] l IH]; intros acc; [by rewrite app_nil_r|]. rewrite fmap_cons, filter_cons. cbn. rewrite IH.
  destruct (g k); cbn; [|done]. by rewrite <- app_assoc.
Qed.
Lemma keys_cmd_like a : like (c_keys ext c a d) (c_keys ext c' a d).
Proof using I.
  unfold c_keys, Keys. args a. all: destruct (glob_compile _ _) as [g|]; cbn [deref obind]; [|by left].
  all: right; do 3 eexists; split; [done|split; [done|]]; unfold sm_range; rewrite !range_filter; cbn; by rewrite !sm_entries_perm by apply I.
Qed.
Lemma load_set_sok k ck p s : load_set k ck d = Ret (Ok (p, s)) → set_ok s.
Proof using I.
  unfold load_set. destruct (sm_get _ k) as [[| |p'| |]|]; try done. destruct (db_sets d !! p') as [s'|] eqn:E; [|done].
  cbn [deref obind]. destruct (ck && _); [done|]. intros [= <- <-]. by eapply I.
Qed.
Lemma smembers_like a : like (c_smembers c a d) (c_smembers c' a d).
Proof using I.
  unfold c_smembers, SMembers. args a. all: destruct (load_set _ _ d) as [[[p x]|e]| |] eqn:E; cbn [obind]; try by left.
  all: right; do 3 eexists; split; [done|split; [done|]]; apply keys_like, set_ok_wf; by eapply load_set_sok.
Qed.
Lemma set_rep_inj s1 s2 X dr : set_rep s1 X dr → set_rep s2 X dr → s1 = s2.
Proof.
  destruct s1 as [m1 n1], s2 as [m2 n2]. intros R1 R2.
  assert (n1 = n2) as <- by (destruct R1 as (_ & _ & E1), R2 as (_ & _ & E2); cbn in *; congruence). f_equal.
  apply sm_map_eq; [apply R1|apply R2|]. apply map_eq. intros k.
  pose proof (set_rep_in _ _ _ k R1) as H1. pose proof (set_rep_in _ _ _ k R2) as H2. cbn [ms_m] in *. rewrite H1 in H2. clear H1.
  destruct (sm_map m1 !! k) as [[]|], (sm_map m2 !! k) as [[]|]; try done.
  - destruct H2 as [H _]. by destruct (H (ex_intro _ _ eq_refl)).
  - destruct H2 as [_ H]. by destruct (H (ex_intro _ _ eq_refl)).
Qed.
Lemma ms_op_any o j a b : set_ok a → set_ok b → ms_op o c j a b = ms_op o c' j a b.
Proof.
  intros (X & dx & A) (Y & dy & B). eapply set_rep_inj; by eapply ms_op_ok.
Qed.
Lemma set_fold_any o ks : ∀ j acc, (∀ s, acc_set acc = Some s → set_ok s) → set_fold o c j ks acc d = set_fold o c' j ks acc d.
Proof using I.
  induction ks as [|k ks IH]; intros j acc H; [done|]. cbn [set_fold].
  destruct (load_set k true d) as [[[p s]|e]| |] eqn:E; cbn [obind]; try done. apply load_set_sok in E.
  destruct (acc_set acc) as [a|] eqn:Ea.
  - rewrite (ms_op_any o j a s); [|by apply H|done]. apply IH. cbn. intros ? [= <-]. apply ms_op_sok; [by apply H|done].
  - apply IH. cbn. by intros ? [= <-].
Qed.
Lemma set_fold_sok o ks : ∀ j acc r, (∀ s, acc_set acc = Some s → set_ok s) → set_fold o c j ks acc d = Ret (Ok r) →
  ∀ s, acc_set r = Some s → set_ok s.
Proof using I.
  induction ks as [|k ks IH]; intros j acc r H; [by intros [= <-]|]. cbn [set_fold].
  destruct (load_set k true d) as [[[p s]|e]| |] eqn:E; cbn [obind]; try done. apply load_set_sok in E.
  apply IH. destruct (acc_set acc) as [a|] eqn:Ea; cbn; intros ? [= <-]; [|done]. apply ms_op_sok; [by apply H|done].
Qed.
Lemma setop_like o a : like (c_setop c o a d) (c_setop c' o a d).
Proof using I.
  unfold c_setop, SOp. destruct (fewer a 1); [by left|]. destruct (length a =? 1)%nat; [by left|].
  rewrite <- (set_fold_any o a 0%nat ANil) by done. destruct (set_fold o c 0 a ANil d) as [[r|e]| |] eqn:E; cbn [obind]; try by left.
  destruct (acc_set r) as [s|] eqn:Er; [|by left]. destruct (ms_len s =? 0); [by left|].
  right; do 3 eexists; split; [done|split; [done|]]. apply keys_like, set_ok_wf. by eapply (set_fold_sok o a 0 ANil).
Qed.
Lemma setop_store_any o a : c_setop_store c o a d = c_setop_store c' o a d.
Proof using I.
  unfold c_setop_store, SOpStore. destruct (fewer a 2); [done|]. destruct (length a =? 1)%nat; [done|].
  destruct (arg a 0); cbn [obind]; [|done..]. by rewrite <- (set_fold_any o (drop 1 a) 0%nat ANil).
Qed.
Lemma hgetall_any a : c_hgetall c a d = c_hgetall c' a d.
Proof using I.
  unfold c_hgetall, HGetAll. destruct (fewer a 1); [done|]. destruct (arg a 0) as [k| |]; cbn [obind]; [|done..].
  destruct (load_hash k true d) eqn:E; [|done]. by apply load_hash_never in E.
Qed.
Lemma hkeys_any a : c_hkeys c a d = c_hkeys c' a d.
Proof using I.
  unfold c_hkeys, HKeys. destruct (fewer a 1); [done|]. destruct (arg a 0) as [k| |]; cbn [obind]; [|done..].
  destruct (load_hash k true d) eqn:E; [|done]. by apply load_hash_never in E.
Qed.
Lemma hvals_any a : c_hvals ext c a d = c_hvals ext c' a d.
Proof using I.
  unfold c_hvals, HVals. destruct (fewer a 1); [done|]. destruct (arg a 0) as [k| |]; cbn [obind]; [|done..].
  destruct (load_hash k true d) eqn:E; [|done]. by apply load_hash_never in E.
Qed.

Lemma lookup_command_step name n f t :
  lookup_command name ((n, f) :: t) = if String.eqb n name then Some f else lookup_command name t.
Proof. done. Qed.
Lemma view_bulks l : view (rsp_strings l) = Some (bulks l).
Proof.
  unfold view, rsp_strings, bulks. cbn. destruct l as [|x l]; [done|]. cbn [fmap list_fmap]. cbn.
  assert (mapM view_item ((λ v, RI (IStr v) TBulk) <$> l) = Some (RBulk <$> l)) as ->; [|done].
  apply mapM_Some. induction l; cbn; by constructor.
Qed.
(** one request, with two ways of choosing *)
Lemma ask_alike req : ¬ draws_at_random req →
  match ask ext c req d, ask ext c' req d with
  | Ret (d1, r1), Ret (d2, r2) => d1 = d2 ∧ alike req r1 r2
  | Panic, Panic | OutOfFuel, OutOfFuel => True
  | _, _ => False
  end.
Proof using I.
  intros Hd. destruct req as [|name a]; [by split; [|left]|]. unfold ask, exec, exec_lowered.
  assert (Q : ∀ x y : cmd_result, (x = y ∨ answers_a_collection (name :: a) ∧ like x y) →
    match (let* (d', r) := let* (d', r) := let* (d', r) := x in Ret (d', match r with Err e => rsp_error e | Ok rsp => rsp end) in Ret (d', Some r) in Ret (d', r ≫= view)),
          (let* (d', r) := let* (d', r) := let* (d', r) := y in Ret (d', match r with Err e => rsp_error e | Ok rsp => rsp end) in Ret (d', Some r) in Ret (d', r ≫= view)) with
    | Ret (d1, r1), Ret (d2, r2) => d1 = d2 ∧ alike (name :: a) r1 r2
    | Panic, Panic | OutOfFuel, OutOfFuel => True
    | _, _ => False
    end).
  { intros x y [<-|[Hc [<-|(d1 & l & l' & -> & -> & Hp)]]].
    - destruct x as [[d1 r]| |]; cbn [obind]; [|done..]. split; [done|by left].
    - destruct x as [[d1 r]| |]; cbn [obind]; [|done..]. split; [done|by left].
    - cbn [obind reply]. split; [done|]. right. split; [done|]. exists l, l'. cbn [mbind option_bind]. by rewrite !view_bulks. }
  cbn [draws_at_random named] in Hd. unfold answers_a_collection, named in Q. revert Q Hd. generalize (to_lower name). intros low Q Hd.
  unfold implemented_commands.
  rewrite !lookup_command_step.
  repeat (match goal with |- context [String.eqb ?n low] => destruct (String.eqb_spec n low) as [<-|_] end;
    [ first [ by apply Q; left | by exfalso; apply Hd; rewrite !elem_of_cons; auto
            | apply Q; right; split; [by apply (bool_decide_unpack _)|];
              first [apply keys_cmd_like | apply smembers_like | apply setop_like]
            | apply Q; left; first [apply setop_store_any | apply hgetall_any | apply hkeys_any | apply hvals_any] ] |]).
  cbn [lookup_command obind]. split; [done|by left].
Qed.
End choices.

(** a conversation, with two ways of choosing *)
Lemma talk_alike ext h : ∀ h' d, dbinv d → h'.*2 = h.*2 → Forall (λ req, ¬ draws_at_random req) h.*2 →
  match talk ext h d, talk ext h' d with
  | Ret (d1, rs), Ret (d2, rs') => d1 = d2 ∧ Forall3 alike h.*2 rs rs'
  | Panic, Panic | OutOfFuel, OutOfFuel => True
  | _, _ => False
  end.
Proof.
  induction h as [|[c req] h IH]; intros [|[c' req'] h'] d I E F; try done.
  { by split; [|constructor]. }
  rewrite !fmap_cons in E. cbn [snd] in E. injection E as -> E. rewrite fmap_cons in F. apply Forall_cons in F as [F1 F]. cbn [snd] in F1.
  cbn [talk]. pose proof (ask_alike ext c c' d I req F1) as A.
  destruct (ask ext c req d) as [[d1 r]| |] eqn:E1, (ask ext c' req d) as [[d2 r']| |] eqn:E2; cbn [obind]; try done.
  destruct A as [<- A].
  assert (I1 : dbinv d1).
  { unfold ask in E1. apply obind_ret in E1 as ([d0 q] & E1 & [= <- <-]). eapply dsteps_inv; [by eapply exec_steps|done]. }
  specialize (IH h' d1 I1 E F).
  destruct (talk ext h d1) as [[d3 rs]| |], (talk ext h' d1) as [[d4 rs']| |]; cbn [obind]; try done.
  destruct IH as [<- IH]. split; [done|]. rewrite fmap_cons. by constructor.
Qed.
