(** The whole server refines the abstract server of SpecServer.v. *)
From Verif Require Import GoBase GoBaseProofs ShardMap Float64 DList SkipList SpecList SpecZSet Db Protocol Redis Obs
  SpecCmd SpecResp SpecServer DbInv ExecSteps Sim SimStr SimList SimSet SimZSet.

Lemma find_spec_cons name n f t :
  find_spec name ((n, f) :: t) = if String.eqb n name then Some f else find_spec name t.
Proof. done. Qed.
Lemma lookup_command_cons name n f t :
  lookup_command name ((n, f) :: t) = if String.eqb n name then Some f else lookup_command name t.
Proof. done. Qed.

(** Only ZADD and ZINCR toss coins: their towers stay below the maximal height. *)
Definition calm_req (c : choices) (req : list string) : Prop :=
  drawing req → low_towers c.
Definition calm (h : list (choices * list string)) : Prop := Forall (λ x, calm_req x.1 x.2) h.

Lemma commands_meet ext c low a d m : sim d m → (low = "zadd"%string ∨ low = "zincr"%string → low_towers c) →
  match lookup_command low (implemented_commands ext c), find_spec low (spec_table ext) with
  | Some f, Some g => meets (f a d) (g a m)
  | None, None => True
  | _, _ => False
  end.
Proof.
  intros S Lo. unfold implemented_commands, spec_table.
  repeat (rewrite lookup_command_cons, find_spec_cons;
    match goal with |- context [String.eqb ?n low] => destruct (String.eqb_spec n low) end;
    [ first [ by apply sim_hdel | by apply sim_hexists | by apply sim_hget | by apply sim_hgetall | by apply sim_hincrby
            | by apply sim_hincrbyfloat | by apply sim_hkeys | by apply sim_hlen | by apply sim_hmget | by apply sim_hmset
            | by apply sim_hset | by apply sim_hsetnx | by apply sim_hvals
            | by apply sim_keys | by apply sim_exists | by apply sim_delete | by apply sim_type | by apply sim_ping | by apply sim_command
            | by apply sim_lpush | by apply sim_lpop | by apply sim_rpush | by apply sim_rpop | by apply sim_llen
            | by apply sim_lrange | by apply sim_lrem | by apply sim_lindex | by apply sim_lset | by apply sim_linsert
            | by apply sim_sadd | by apply sim_scard | by apply sim_sismember | by apply sim_smembers | by apply sim_smove
            | by apply sim_srem | by apply sim_spop
            | by apply (sim_setop c d m S OpDiff) | by apply (sim_setop c d m S OpInter) | by apply (sim_setop c d m S OpUnion)
            | by apply (sim_setop_store c d m S OpDiff) | by apply (sim_setop_store c d m S OpInter) | by apply (sim_setop_store c d m S OpUnion)
            | by apply sim_zadd; [|apply Lo; auto] | by apply sim_zscore | by apply sim_zrank | by apply sim_zrem | by apply sim_zcard
            | by apply sim_zcount | by apply sim_zincr; [|apply Lo; auto] | by apply sim_zrange | by apply sim_zrangebyscore
            | by apply sim_zrevrange | by apply sim_zpop
            | by apply sim_set | by apply sim_mset | by apply sim_get | by apply sim_mget | by apply sim_incr
            | by apply sim_incrby | by apply sim_decr | by apply sim_decrby | by apply sim_append ] |]).
  done.
Qed.

Theorem ask_meets ext c req d m : sim d m → calm_req c req →
  (v_safe (spec ext req m) → ∃ d' r, ask ext c req d = Ret (d', r)) ∧
  ∀ d' r, ask ext c req d = Ret (d', r) → ∃ m', v_does (spec ext req m) r m' ∧ sim d' m'.
Proof.
  intros S Lo. destruct req as [|name a].
  { split; [intros _; by exists d, None|]. intros d' r [= <- <-]. by exists m. }
  unfold calm_req in Lo. simpl in Lo.
  unfold ask, exec, exec_lowered, spec.
  pose proof (commands_meet ext c (to_lower name) a d m S Lo) as M.
  destruct (lookup_command _ _) as [f|], (find_spec _ _) as [g|]; try done.
  - destruct M as [M1 M2]. split.
    + intros Hs. destruct (M1 Hs) as [[d' q] ->]. by eexists _, _.
    + intros d' r H. destruct (f a d) as [[d1 q]| |] eqn:E; [|done..]. cbn [obind] in H. injection H as <- <-.
      destruct (M2 _ _ eq_refl) as (m' & V & S'). exists m'. split; [|done]. by destruct q.
  - split; [intros _; by exists d, (Some (RError (err_msg ErrUnknownCommand)))|].
    intros d' r [= <- <-]. by exists m.
Qed.

(** every conversation the server survives is one of the abstract server *)
Theorem talk_behaves ext h : ∀ d m d' rs, sim d m → calm h →
  talk ext h d = Ret (d', rs) → ∃ m', behaves ext false m (h.*2) rs m' ∧ sim d' m'.
Proof.
  induction h as [|[c req] h IH]; intros d m d' rs S Lo H.
  { injection H as <- <-. exists m. split; [constructor|done]. }
  apply Forall_cons in Lo as [Lo1 Lo2]. cbn [talk] in H.
  destruct (ask ext c req d) as [[d1 r]| |] eqn:E1; [|done..]. cbn [obind] in H.
  destruct (talk ext h d1) as [[d2 rs2]| |] eqn:E2; [|done..]. cbn [obind] in H. injection H as <- <-.
  destruct (ask_meets ext c req d m S Lo1) as [_ A]. destruct (A _ _ E1) as (m1 & V1 & S1).
  destruct (IH _ _ _ _ S1 Lo2 E2) as (m2 & V2 & S2). exists m2. split; [|done]. econstructor; [by left|done].
Qed.
(** the same for all random draws *)
Lemma drawing_dec req : {drawing req} + {¬ drawing req}.
Proof.
  destruct req as [|name a]; [right; intros []|]. cbn [drawing].
  destruct (string_dec (to_lower name) "zadd"); [left; auto|]. destruct (string_dec (to_lower name) "zincr"); [left; auto|].
  right. by intros [?|?].
Qed.
Lemma drawing_plain req : drawing req → one_source_store req = false.
Proof. unfold one_source_store. destruct req as [|n [|x [|y [|]]]]; try done. cbn [drawing]. intros [-> | ->]; done. Qed.
Theorem talk_behaves_any ext h : ∀ d m d' rs, sim d m →
  talk ext h d = Ret (d', rs) → ∃ m', behaves ext true m (h.*2) rs m' ∧ sim d' m'.
Proof.
  induction h as [|[c req] h IH]; intros d m d' rs S H.
  { injection H as <- <-. exists m. split; [constructor|done]. }
  cbn [talk] in H.
  destruct (ask ext c req d) as [[d1 r]| |] eqn:E1; [|done..]. cbn [obind] in H.
  destruct (talk ext h d1) as [[d2 rs2]| |] eqn:E2; [|done..]. cbn [obind] in H. injection H as <- <-.
  assert (∃ m1, (v_does (spec ext req m) r m1 ∨ true = true ∧ drawing req ∧ damages (writes req) m m1) ∧ sim d1 m1) as (m1 & V1 & S1).
  { destruct (drawing_dec req) as [Hd|Hd].
    - assert (St : dsteps (one_source_store req) (writes req) d d1).
      { unfold ask in E1. apply obind_ret in E1 as ([d0 r1] & E1 & [= <- <-]). eapply exec_steps; [apply S|done]. }
      rewrite (drawing_plain _ Hd) in St. destruct (damage_steps _ _ _ m St S) as (m1 & D & S1). exists m1. auto.
    - destruct (ask_meets ext c req d m S) as [_ A]; [by intros ?|]. destruct (A _ _ E1) as (m1 & V1 & S1). exists m1. auto. }
  destruct (IH _ _ _ _ S1 E2) as (m2 & V2 & S2). exists m2. split; [|done]. by econstructor.
Qed.

(** a conversation of which every request is safe is survived *)
Theorem talk_survives ext h : ∀ d m, sim d m → calm h → specified ext m (h.*2) →
  ∃ d' rs, talk ext h d = Ret (d', rs).
Proof.
  induction h as [|[c req] h IH]; intros d m S Lo Sp; [by exists d, []|].
  rewrite fmap_cons in *. cbn [snd specified] in Sp. destruct Sp as [Hs Hn]. apply Forall_cons in Lo as [Lo1 Lo2].
  destruct (ask_meets ext c req d m S Lo1) as [A1 A2]. destruct (A1 Hs) as (d1 & r & E1).
  destruct (A2 _ _ E1) as (m1 & V1 & S1).
  destruct (IH d1 m1 S1 Lo2) as (d2 & rs & E2); [by eapply Hn|].
  exists d2, (r :: rs). cbn [talk]. rewrite E1. cbn [obind]. rewrite E2. done.
Qed.
