(** C16-C19: string keys. *)
From Verif Require Import GoBase GoBaseProofs ShardMap Float64 Db Protocol Redis Obs SpecCmd SpecResp SpecServer SpecKey KeyHist
  DbInv ExecSteps Sim SimMain PropBase Examples.

(** What GET and EXISTS tell about key [k]: it holds the byte string [v], or it is absent. *)
Definition string_at (ext : Ext) (d : db) (k : string) (s : option string) : Prop :=
  match s with
  | Some v => answers ext d ["GET"; k] (RBulk v)
  | None => answers ext d ["EXISTS"; k] (RInt 0)
  end.
Lemma string_at_coarse ext d k s : dbinv d → string_at ext d k s → coarse d !! k = AStr <$> s.
Proof. intros I H. destruct s; [by apply (get_coarse ext)|by apply (absent_coarse ext)]. Qed.
Lemma string_at_sim ext d m k s : sim d m → m !! k = AStr <$> s → string_at ext d k s.
Proof.
  intros S E. destruct s as [v|]; simpl in E.
  - eapply question; try done. spc. cbn [s_get]. by rewrite E.
  - pose proof (exists_answer ext d m k S) as H. by rewrite E in H.
Qed.

(** ** C16: GET returns the last SET *)
Theorem C16_get_after_set ext d k v : reachable ext d →
  does ext d ["SET"; k; v] (RStatus "OK") (λ d1,
    ∀ h d2 rs, talk ext h d1 = Ret (d2, rs) → Forall (λ x, k ∉ writes x.2) h → answers ext d2 ["GET"; k] (RBulk v)).
Proof.
  intros Hr. pose proof (reachable_inv _ _ Hr) as I. pose proof (coarse_sim d I) as S.
  eapply does_mono; [by apply (does_says ext d (coarse d) "SET" [k; v])|]. simpl. intros d1 S1 h d2 rs H F.
  assert (sm_get (db_keys d1) k = Some (VStr v)) as E.
  { pose proof (sim_at _ _ k S1) as Hk. rewrite lookup_insert in Hk. done. }
  assert (sm_get (db_keys d2) k = Some (VStr v)) as E2.
  { apply sim_inv in S1. clear -H F E S1. revert d1 d2 rs H E S1. induction h as [|[c req] h IH]; intros d1 d2 rs H E I; [by injection H as <- _|].
    cbn [talk] in H. apply obind_ret in H as ([d3 r] & E1 & H). apply obind_ret in H as ([d4 rs2] & E2 & H). injection H as <- _.
    apply Forall_cons in F as [Hk F]. eapply IH; [done..| |by eapply ask_inv]. rewrite <- E. eapply dsteps_get; [by eapply ask_steps|done..]. }
  assert (dbinv d2) as I2 by (eapply talk_inv; [|done]; apply S1).
  eapply (string_at_sim ext d2 (coarse d2) k (Some v)); [by apply coarse_sim|]. by rewrite coarse_at, E2.
Qed.

(** Every history from any state: the replies about [k] are those of a string variable, whatever happens to the
    other keys, and [k] ends up holding what the variable holds. *)
Theorem C16_string_variable ext d k s h d' rs : reachable ext d → string_at ext d k s →
  talk ext h d = Ret (d', rs) → within string_step k s (h.*2) →
  ∃ s', consistent string_step k s (h.*2) rs s' ∧ string_at ext d' k s'.
Proof.
  intros Hr Hs H W. pose proof (reachable_inv _ _ Hr) as I. pose proof (string_at_coarse ext d k s I Hs) as E.
  destruct (key_history ext true string_step k str_corr (string_ok ext k true) h d (coarse d) d' rs s) as (s' & m' & C & S' & E');
    [by apply coarse_sim|done..|]. exists s'. split; [done|]. by eapply string_at_sim.
Qed.
(** Requests about [k] alone are all answered. *)
Theorem C16_string_variable_served ext d k s h : reachable ext d → string_at ext d k s →
  within string_step k s (h.*2) → Forall (λ x, about k x.2 = true) h → ∃ d' rs, talk ext h d = Ret (d', rs).
Proof.
  intros Hr Hs W F. pose proof (reachable_inv _ _ Hr) as I. pose proof (string_at_coarse ext d k s I Hs) as E.
  by apply (key_survives ext string_step k str_corr (string_ok ext k true) h d (coarse d) s (coarse_sim d I)).
Qed.

Definition string_demo : list (list string) :=
  [["set"; "k"; "41"]; ["lpush"; "other"; "x"]; ["INCR"; "k"]; ["get"; "other"]; ["APPEND"; "k"; "7"]; ["decrby"; "k"; "20"];
   ["del"; "k"]; ["incrby"; "k"; "-5"]; ["mget"; "k"]; ["get"; "k"]].
Example C16_string_variable_demo :
  string_at ext0 db_new "k" None ∧ within string_step "k" None string_demo ∧
  replies string_demo = Some [Some (RStatus "OK"); Some (RInt 1); Some (RInt 42); Some (RError (err_msg ErrTypeMismatch));
    Some (RInt 3); Some (RInt 407); Some (RInt 1); Some (RInt (-5)); Some (RArr [RBulk "-5"]); Some (RBulk "-5")].
Proof.
  split; [|split].
  - intros c. done.
  - unfold string_demo. within_tac.
  - by vm_compute.
Qed.

(** ** C17: INCR, DECR, INCRBY, DECRBY *)
(** the request means: add [n] to key [k] *)
Definition adds (k : string) (n : Z) (req : list string) : Prop :=
  (req = ["INCR"; k] ∧ n = 1) ∨ (req = ["DECR"; k] ∧ n = -1) ∨
  ∃ a i, parse_int a = Some i ∧ (req = ["INCRBY"; k; a] ∧ n = i ∨ req = ["DECRBY"; k; a] ∧ n = - i).
(** key [k] holds the decimal notation of [z], or is absent and counts as 0 *)
Definition number_at (ext : Ext) (d : db) (k : string) (z : Z) : Prop :=
  in_int64 z = true ∧ (string_at ext d k (Some (itoa z)) ∨ string_at ext d k None ∧ z = 0).

Lemma adds_spec ext k n req m : adds k n req →
  ∃ n', spec ext req m = add_to k n' m ∧ n' mod two64 = n mod two64 ∧ in_int64 n' = true ∧ calm_req some_choices req ∧
        ∃ name a, req = name :: a ∧ not_tossing name.
Proof.
  intros [[-> ->]|[[-> ->]|(a & i & Hi & [[-> ->]|[-> ->]])]].
  - exists 1. repeat split; try done. by intros [?|?]. by exists "INCR"%string, [k].
  - exists (-1). repeat split; try done. by intros [?|?]. by exists "DECR"%string, [k].
  - exists i. repeat split; try done; [|apply in_int64_spec; by eapply parse_int_range|by intros [?|?]|by exists "INCRBY"%string, [k; a]].
    spc. cbn [s_incrby]. by rewrite Hi.
  - exists (wrap64 (- i)). repeat split; try done; [|apply wrap64_mod|apply wrap64_int64|by intros [?|?]|by exists "DECRBY"%string, [k; a]].
    spc. cbn [s_decrby]. by rewrite Hi.
Qed.
Theorem C17_wraps ext d k n req z : reachable ext d → adds k n req → number_at ext d k z →
  does ext d req (RInt (wrap64 (z + n))) (λ d', string_at ext d' k (Some (itoa (wrap64 (z + n))))).
Proof.
  intros Hr Ha [Hz Hn]. pose proof (reachable_inv _ _ Hr) as I. pose proof (coarse_sim d I) as S.
  destruct (adds_spec ext k n req (coarse d) Ha) as (n' & E & Hm & Hi & _ & name & a & -> & Ht).
  assert (wrap64 (z + n') = wrap64 (z + n)) as Ew.
  { apply wrap64_eq_mod. by rewrite <- Zplus_mod_idemp_r, Hm, Zplus_mod_idemp_r. }
  assert (spec ext (name :: a) (coarse d) =
    says (RInt (wrap64 (z + n))) (<[k := AStr (itoa (wrap64 (z + n)))]> (coarse d))) as E'.
  { rewrite E. unfold add_to. destruct Hn as [Hn|[Hn ->]]; rewrite (string_at_coarse ext d k _ I Hn); cbn [fmap option_fmap option_map].
    - rewrite parse_int_itoa by (by apply in_int64_spec). by rewrite Ew.
    - rewrite <- Ew. change (0 + n') with n'. rewrite (wrap_in n') by done. done. }
  eapply does_mono; [by apply (does_says ext d _ name a _ _ S Ht E')|].
  intros d' S'. cbn beta in S'. apply (string_at_sim ext d' _ k (Some _) S'). by rewrite lookup_insert.
Qed.
(** exact as long as the result is a 64-bit integer; see [C17_overflow_refuted] for the rest of the property *)
Theorem C17_exact ext d k n req z : reachable ext d → adds k n req → number_at ext d k z → in_int64 (z + n) = true →
  does ext d req (RInt (z + n)) (λ d', number_at ext d' k (z + n)).
Proof.
  intros Hr Ha Hz Hi. rewrite <- (wrap_in (z + n)) by done. eapply does_mono; [by apply C17_wraps|].
  intros d' Hd. split; [apply wrap64_int64|]. by left.
Qed.
Theorem C17_not_integer ext d k n req v : reachable ext d → adds k n req →
  string_at ext d k (Some v) → parse_int v = None → answers ext d req (RError (err_msg ErrNotInteger)).
Proof.
  intros Hr Ha Hs Hp. pose proof (reachable_inv _ _ Hr) as I. pose proof (coarse_sim d I) as S.
  destruct (adds_spec ext k n req (coarse d) Ha) as (n' & E & _ & _ & _ & name & a & -> & Ht). intros c.
  unfold add_to in E. rewrite (string_at_coarse ext d k _ I Hs) in E. cbn [fmap option_fmap option_map] in E. rewrite Hp in E.
  clear E S. assert (∀ z, incr_reply k z d = Ret (d, Err ErrNotInteger)) as Hi.
  { intros z. pose proof (string_at_coarse ext d k _ I Hs) as Ek. rewrite coarse_at in Ek by done.
    unfold incr_reply, IncrBy. destruct (sm_get (db_keys d) k) as [[]|]; simpl in Ek; try done. injection Ek as ->.
    by rewrite Hp. }
  destruct Ha as [[[= -> ->] ->]|[[[= -> ->] ->]|(s & i & Hsi & [[[= -> ->] ->]|[[= -> ->] ->]])]].
  - rewrite (ask_cmd ext c "INCR" [k] d c_incr eq_refl). unfold c_incr. change (fewer [k] 1) with false. change (arg [k] 0) with (Ret k).
    cbn [obind]. by rewrite Hi.
  - rewrite (ask_cmd ext c "DECR" [k] d c_decr eq_refl). unfold c_decr. change (fewer [k] 1) with false. change (arg [k] 0) with (Ret k).
    cbn [obind]. by rewrite Hi.
  - rewrite (ask_cmd ext c "INCRBY" [k; s] d c_incrby eq_refl). unfold c_incrby. change (fewer [k; s] 2) with false.
    change (arg [k; s] 0) with (Ret k). change (arg [k; s] 1) with (Ret s). cbn [obind]. by rewrite Hsi, Hi.
  - rewrite (ask_cmd ext c "DECRBY" [k; s] d c_decrby eq_refl). unfold c_decrby. change (fewer [k; s] 2) with false.
    change (arg [k; s] 0) with (Ret k). change (arg [k; s] 1) with (Ret s). cbn [obind]. by rewrite Hsi, Hi.
Qed.
(** "an out-of-range result is refused rather than stored" is false: the sum wraps around *)
Theorem C17_overflow_refuted : ∃ d k n req z, reachable ext0 d ∧ adds k n req ∧ number_at ext0 d k z ∧ in_int64 (z + n) = false ∧
  does ext0 d req (RInt (-9223372036854775808)) (λ d', answers ext0 d' ["GET"; k] (RBulk "-9223372036854775808")).
Proof.
  set (d := after [["SET"; "k"; "9223372036854775807"]]).
  assert (reachable ext0 d) as Hr by (apply after_reachable; by eexists).
  assert (number_at ext0 d "k" 9223372036854775807) as Hn by (split; [done|left; intros c; by vm_compute]).
  exists d, "k"%string, 1, ["INCR"; "k"], 9223372036854775807. split; [done|]. split; [by left|]. split; [done|]. split; [done|].
  eapply does_mono; [apply (C17_wraps ext0 d "k" 1 ["INCR"; "k"] 9223372036854775807); [done|by left|done]|]. intros d' H. exact H.
Qed.
Example C17_demo : number_at ext0 (after [["SET"; "k"; "-17"]]) "k" (-17) ∧ adds "k" (-9223372036854775791) ["DECRBY"; "k"; "9223372036854775791"].
Proof. split; [split; [done|left; intros c; by vm_compute]|]. right. right. exists "9223372036854775791"%string, 9223372036854775791. split; [done|]. by right. Qed.

(** ** C18: APPEND *)
Theorem C18_append ext d k v s : reachable ext d → string_at ext d k s →
  does ext d ["APPEND"; k; v] (RInt (slen (default "" s +:+ v))) (λ d', string_at ext d' k (Some (default "" s +:+ v))).
Proof.
  intros Hr Hs. pose proof (reachable_inv _ _ Hr) as I. pose proof (coarse_sim d I) as S.
  pose proof (string_at_coarse ext d k s I Hs) as E.
  eapply does_mono; [apply (does_says ext d (coarse d) "APPEND" [k; v] _ (<[k := AStr (default "" s +:+ v)]> (coarse d))); [done|done|]|].
  - spc. cbn [s_append]. rewrite E. by destruct s.
  - intros d' S'. cbn beta in S'. apply (string_at_sim ext d' _ k (Some _) S'). by rewrite lookup_insert.
Qed.
Example C18_demo : string_at ext0 (after [["SET"; "k"; "ab"]]) "k" (Some "ab"%string) ∧ string_at ext0 (after [["SET"; "k"; "ab"]]) "q" None.
Proof. split; intros c; by vm_compute. Qed.

(** ** C19: MSET and MGET *)
Fixpoint flat (l : list (string * string)) : list string :=
  match l with [] => [] | (k, v) :: r => k :: v :: flat r end.
(** the value the last pair for [k] gives *)
Fixpoint last_value (k : string) (l : list (string * string)) : option string :=
  match l with
  | [] => None
  | (k', v) :: r => match last_value k r with Some w => Some w | None => if String.eqb k' k then Some v else None end
  end.
Lemma put_pairs_flat l k : ∀ m, put_pairs (flat l) m !! k = match last_value k l with Some v => Some (AStr v) | None => m !! k end.
Proof.
  induction l as [|[k' v] l IH]; intros m; [done|]. cbn [flat put_pairs last_value]. rewrite IH. destruct (last_value k l); [done|].
  destruct (String.eqb_spec k' k) as [->|]; [by rewrite lookup_insert|by rewrite lookup_insert_ne].
Qed.
Theorem C19_mset ext d l : reachable ext d →
  does ext d ("MSET" :: flat l) (RStatus "OK") (λ d', ∀ k,
    match last_value k l with
    | Some v => string_at ext d' k (Some v)
    | None => ∀ s, string_at ext d k s → string_at ext d' k s
    end).
Proof.
  intros Hr. pose proof (reachable_inv _ _ Hr) as I. pose proof (coarse_sim d I) as S.
  eapply does_mono; [apply (does_says ext d (coarse d) "MSET" (flat l) (RStatus "OK") (put_pairs (flat l) (coarse d))); [done|done|]|].
  - spc. by destruct l as [|[k v] l].
  - intros d' S' k. cbn beta in S'. destruct (last_value k l) as [v|] eqn:E.
    + eapply string_at_sim; [done|]. by rewrite put_pairs_flat, E.
    + intros s Hs. eapply string_at_sim; [done|]. rewrite put_pairs_flat, E. by apply (string_at_coarse ext).
Qed.
(** one entry per key in order, nil for an absent key, provided no key holds a value of another type *)
Theorem C19_mget ext d ks vs : reachable ext d → ks ≠ [] → Forall2 (string_at ext d) ks vs →
  answers ext d ("MGET" :: ks) (RArr ((λ s, match s with Some v => RBulk v | None => RNil end) <$> vs)).
Proof.
  intros Hr Hk F. pose proof (reachable_inv _ _ Hr) as I. pose proof (coarse_sim d I) as S.
  assert (Forall (λ k, coarse d !! k ≠ Some ADamaged) ks) as Fd.
  { clear Hk. induction F as [|k s ks vs Hs _ IH]; constructor; [|done]. rewrite (string_at_coarse ext d k s I Hs). by destruct s. }
  assert (mapM (str_or_nil (coarse d)) ks = Some ((λ s, match s with Some v => RBulk v | None => RNil end) <$> vs)) as E.
  { apply mapM_Some. clear Hk Fd. induction F as [|k s ks vs Hs _ IH]; constructor; [|done].
    unfold str_or_nil. rewrite (string_at_coarse ext d k s I Hs). by destruct s. }
  intros c. destruct (ask_meets ext c ("MGET" :: ks) d (coarse d) S) as [A1 A2]; [by apply calm_other|].
  rewrite (spec_cmd ext "MGET" "mget" s_mget ks _ eq_refl eq_refl) in A1, A2. destruct ks as [|k ks]; [done|].
  destruct A1 as (d' & r & Ha); [done|]. destruct (A2 _ _ Ha) as (m' & [-> Hm] & S'). rewrite (Hm Fd), E in Ha.
  rewrite Ha. rewrite (ask_reads ext c ("MGET" :: k :: ks) d d' _ I eq_refl) with (2 := Ha); [done|]. by destruct ks as [|? [|? ?]].
Qed.
(** "always gets a reply" is false: with a key of another type the client gets none *)
Theorem C19_mget_no_reply_refuted : ∃ d, reachable ext0 d ∧ ∀ c, ask ext0 c ["MGET"; "l"] d = Ret (d, None).
Proof.
  exists (after [["LPUSH"; "l"; "x"]]). split; [apply after_reachable; by eexists|]. intros c. by vm_compute.
Qed.
Example C19_demo : Forall2 (string_at ext0 (after [["MSET"; "a"; "1"; "b"; "2"; "a"; "3"]])) ["b"; "a"; "zz"] [Some "2"; Some "3"; None]%string.
Proof. repeat constructor; intros c; by vm_compute. Qed.
