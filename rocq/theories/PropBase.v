(** Tools for the property theorems: histories from the empty server, and what is known after them. *)
From Verif Require Import GoBase GoBaseProofs ShardMap ShardMapProofs Float64 DList SkipList SpecList SpecZSet Db Protocol Redis Obs
  SpecCmd SpecResp SpecServer SpecFrame SpecKey KeyHist DbInv ExecSteps Sim SimMain.

Lemma ask_cmd ext c name a d f : lookup_command (to_lower name) (implemented_commands ext c) = Some f →
  ask ext c (name :: a) d = let* (d', r) := f a d in Ret (d', view (reply_of r)).
Proof. intros H. unfold ask, exec, exec_lowered. rewrite H. destruct (f a d) as [[d' r]| |]; [|done..]. by destruct r. Qed.
Lemma ask_steps ext c req d d' r : dbinv d → ask ext c req d = Ret (d', r) →
  dsteps (one_source_store req) (writes req) d d'.
Proof. intros I H. unfold ask in H. apply obind_ret in H as ([d1 r1] & H & [= <- <-]). by eapply exec_steps. Qed.
Lemma ask_inv ext c req d d' r : dbinv d → ask ext c req d = Ret (d', r) → dbinv d'.
Proof. intros I H. eapply dsteps_inv; [by eapply ask_steps|done]. Qed.
Lemma talk_inv ext h : ∀ d d' rs, dbinv d → talk ext h d = Ret (d', rs) → dbinv d'.
Proof.
  induction h as [|[c req] h IH]; intros d d' rs I H; [by injection H as <- _|]. cbn [talk] in H.
  apply obind_ret in H as ([d1 r] & E1 & H). apply obind_ret in H as ([d2 rs2] & E2 & H). injection H as <- _.
  eapply IH; [|done]. by eapply ask_inv.
Qed.
Lemma reachable_inv ext d : reachable ext d → dbinv d.
Proof. intros (h & rs & H). eapply talk_inv; [apply dbinv_new|done]. Qed.

Lemma talk_app ext h1 h2 d : talk ext (h1 ++ h2) d =
  let* (d1, r1) := talk ext h1 d in let* (d2, r2) := talk ext h2 d1 in Ret (d2, r1 ++ r2).
Proof.
  revert d. induction h1 as [|[c req] h1 IH]; intros d; cbn [app talk].
  - cbn [obind]. by destruct (talk ext h2 d) as [[]| |].
  - destruct (ask ext c req d) as [[d1 r]| |]; [|done..]. cbn [obind]. rewrite IH.
    destruct (talk ext h1 d1) as [[d2 r2]| |]; [|done..]. cbn [obind].
    by destruct (talk ext h2 d2) as [[d3 r3]| |].
Qed.

(** a state about which nothing is known but its strings *)
Definition coarse (d : db) : kspace :=
  (λ v, match v with VStr s => AStr s | _ => ADamaged end) <$> sm_map (db_keys d).
Lemma coarse_sim d : dbinv d → sim d (coarse d).
Proof.
  intros I. split; [done| |].
  - intros k1 k2 p H1 _. right. unfold coarse. rewrite lookup_fmap, <- sm_get_map by apply I. by rewrite H1.
  - intros k. unfold coarse. rewrite lookup_fmap, <- sm_get_map by apply I. unfold held.
    destruct (sm_get (db_keys d) k) as [[]|] eqn:E; try done. simpl. destruct (inv_ptr d I k p E) as [s ->]. done.
Qed.
Lemma coarse_at d k : dbinv d → coarse d !! k =
  (λ v, match v with VStr s => AStr s | _ => ADamaged end) <$> sm_get (db_keys d) k.
Proof. intros I. unfold coarse. by rewrite lookup_fmap, <- sm_get_map by apply I. Qed.

(** a request whose verdict is known *)
Lemma ask_says ext c req d m r m1 : sim d m → calm_req c req → spec ext req m = says r m1 →
  ∃ d', ask ext c req d = Ret (d', Some r) ∧ sim d' m1.
Proof.
  intros S Lo E. destruct (ask_meets ext c req d m S Lo) as [A1 A2]. rewrite E in A1, A2. destruct A1 as (d' & r' & Ha); [done|].
  destruct (A2 _ _ Ha) as (m' & [-> ->] & S'). by exists d'.
Qed.
Lemma ask_reads ext c req d d' r : dbinv d → writes req = [] → one_source_store req = false →
  ask ext c req d = Ret (d', r) → d' = d.
Proof. intros I Hw Ho H. eapply dsteps_nil. rewrite <- Hw. by eapply ask_steps. Qed.
Lemma ask_query ext c req d m r : sim d m → calm_req c req → writes req = [] → one_source_store req = false →
  spec ext req m = says r m → ask ext c req d = Ret (d, Some r).
Proof.
  intros S Lo Hw Ho E. destruct (ask_says ext c req d m r m S Lo E) as (d' & Ha & _).
  by rewrite Ha, (ask_reads ext c req d d' _ (sim_inv _ _ S) Hw Ho Ha).
Qed.
Lemma ask_query_all ext c req d m P : sim d m → calm_req c req → writes req = [] → one_source_store req = false →
  spec ext req m = lists_all P m → ∃ l, ask ext c req d = Ret (d, Some (bulks l)) ∧ NoDup l ∧ ∀ x, x ∈ l ↔ P x.
Proof.
  intros S Lo Hw Ho E. destruct (ask_meets ext c req d m S Lo) as [A1 A2]. rewrite E in A1, A2. destruct A1 as (d' & r' & Ha); [done|].
  destruct (A2 _ _ Ha) as (m' & [-> (l & -> & Hn & Hl)] & S'). exists l.
  by rewrite Ha, (ask_reads ext c req d d' _ (sim_inv _ _ S) Hw Ho Ha).
Qed.
Definition not_tossing (name : string) : Prop := to_lower name ≠ "zadd"%string ∧ to_lower name ≠ "zincr"%string.
Lemma calm_other c name a : not_tossing name → calm_req c (name :: a).
Proof. intros [H1 H2] [H|H]; done. Qed.

(** what follows from a history *)
Lemma history ext u h d rs : (u = false → calm h) → talk ext h db_new = Ret (d, rs) →
  ∃ m, behaves ext u ∅ (h.*2) rs m ∧ sim d m.
Proof. intros Lo H. destruct u; [by apply (talk_behaves_any ext h db_new ∅ d rs sim_new)|]. by apply (talk_behaves ext h db_new ∅ d rs sim_new); [apply Lo|]. Qed.

Ltac spc := match goal with |- spec ?ext (?n :: ?a) ?m = _ => rewrite (spec_cmd ext n _ _ a m eq_refl eq_refl) end.

(** ** questions *)
Definition some_choices : choices := Ch (λ _ _, []) (λ _, 1%nat).
Lemma answers_fun ext d req r r' : answers ext d req r → answers ext d req r' → r = r'.
Proof. intros H H'. specialize (H some_choices). rewrite (H' some_choices) in H. congruence. Qed.
Lemma question ext d m name a r : sim d m → not_tossing name → bool_decide (to_lower name ∈ read_only) = true →
  spec ext (name :: a) m = says r m → answers ext d (name :: a) r.
Proof.
  intros S Ht Hr E c. assert (Hw : writes (name :: a) = []) by (unfold writes; by rewrite Hr).
  assert (Ho : one_source_store (name :: a) = false).
  { unfold one_source_store. destruct a as [|x [|y [|]]]; try done.
    destruct (String.eqb_spec (to_lower name) "sdiffstore") as [Hn|_]; [rewrite Hn in Hr; by vm_compute in Hr|].
    destruct (String.eqb_spec (to_lower name) "sinterstore") as [Hn|_]; [rewrite Hn in Hr; by vm_compute in Hr|].
    destruct (String.eqb_spec (to_lower name) "sunionstore") as [Hn|_]; [rewrite Hn in Hr; by vm_compute in Hr|done]. }
  eapply ask_query; try done. by apply calm_other.
Qed.
Lemma does_says ext d m name a r m1 : sim d m → not_tossing name → spec ext (name :: a) m = says r m1 →
  does ext d (name :: a) r (λ d', sim d' m1).
Proof. intros S Ht E c. eapply ask_says; [done| |done]. by apply calm_other. Qed.
Lemma does_mono ext d req r (P Q : db → Prop) : does ext d req r P → (∀ d', P d' → Q d') → does ext d req r Q.
Proof. intros H HQ c. destruct (H c) as (d' & E & HP). exists d'. auto. Qed.

(** ** single keys *)
Lemma exists_answer ext d m k : sim d m → answers ext d ["EXISTS"; k] (RInt (if m !! k then 1 else 0)).
Proof. intros S. by eapply question. Qed.
Lemma absent_coarse ext d k : dbinv d → answers ext d ["EXISTS"; k] (RInt 0) → coarse d !! k = None.
Proof.
  intros I H. pose proof (exists_answer ext d (coarse d) k (coarse_sim d I)) as H'. pose proof (answers_fun _ _ _ _ _ H H') as E.
  by destruct (coarse d !! k).
Qed.
Lemma get_coarse ext d k v : dbinv d → answers ext d ["GET"; k] (RBulk v) → coarse d !! k = Some (AStr v).
Proof.
  intros I H. pose proof (coarse_sim d I) as S. destruct (coarse d !! k) as [x|] eqn:Ex.
  - destruct x as [s| | | |].
    + assert (answers ext d ["GET"; k] (RBulk s)) as H'.
      { eapply question; try done. spc. cbn [s_get]. by rewrite Ex. }
      pose proof (answers_fun _ _ _ _ _ H H') as [= ->]. done.
    + unfold coarse in Ex. rewrite lookup_fmap in Ex. by destruct (sm_map (db_keys d) !! k) as [[]|].
    + unfold coarse in Ex. rewrite lookup_fmap in Ex. by destruct (sm_map (db_keys d) !! k) as [[]|].
    + unfold coarse in Ex. rewrite lookup_fmap in Ex. by destruct (sm_map (db_keys d) !! k) as [[]|].
    + exfalso. (* not a string: GET is an error *)
      specialize (H some_choices). rewrite (ask_cmd ext some_choices "GET" [k] d c_get eq_refl) in H. unfold c_get in H.
      change (fewer [k] 1) with false in H. change (arg [k] 0) with (Ret k) in H. cbn [obind] in H. unfold Get in H.
      rewrite coarse_at in Ex by done. destruct (sm_get (db_keys d) k) as [[]|]; done.
  - assert (answers ext d ["GET"; k] RNil) as H'.
    { eapply question; try done. spc. cbn [s_get]. by rewrite Ex. }
    by pose proof (answers_fun _ _ _ _ _ H H').
Qed.

Lemma key_history ext u {A} (step : list string → A → option (resp → A → Prop)) k (corr : A → option aval → Prop) :
  (∀ req s R m, corr s (m !! k) → about k req = true → step req s = Some R → promise ext u k corr req s R m) →
  ∀ h d m d' rs s, sim d m → (u = false → calm h) → talk ext h d = Ret (d', rs) → corr s (m !! k) → within step k s (h.*2) →
  ∃ s' m', consistent step k s (h.*2) rs s' ∧ sim d' m' ∧ corr s' (m' !! k).
Proof.
  intros Hok h d m d' rs s Sm Lo H C W.
  assert (∃ m', behaves ext u m (h.*2) rs m' ∧ sim d' m') as (m' & B & S').
  { destruct u; [by eapply talk_behaves_any|]. eapply talk_behaves; try done. auto. }
  destruct (behaves_consistent ext u step k corr Hok _ _ _ _ _ B C W) as (s' & Cs & C'). exists s', m'. auto.
Qed.
Lemma key_survives ext {A} (step : list string → A → option (resp → A → Prop)) k (corr : A → option aval → Prop) :
  (∀ req s R m, corr s (m !! k) → about k req = true → step req s = Some R → promise ext true k corr req s R m) →
  ∀ h d m s, sim d m → corr s (m !! k) → within step k s (h.*2) → Forall (λ x, about k x.2 = true) h →
  ∃ d' rs, talk ext h d = Ret (d', rs).
Proof.
  intros Hok. induction h as [|[c req] h IH]; intros d m s Sm C W F; [by exists d, []|].
  apply Forall_cons in F as [Ea F]. rewrite fmap_cons in W. cbn [snd within] in *. rewrite Ea in W.
  destruct (step req s) as [R|] eqn:Es; [|done]. destruct (Hok req s R m C Ea Es) as (Hs & Hd & Hp).
  destruct (ask_meets ext c req d m Sm) as [A1 A2]; [intros D; by destruct (Hd eq_refl)|].
  destruct (A1 Hs) as (d1 & r & E1). destruct (A2 _ _ E1) as (m1 & V1 & S1).
  destruct (Hp r m1 (or_introl V1)) as (r' & s1 & -> & HR & C1).
  destruct (IH d1 m1 s1 S1 C1 (W _ _ HR) F) as (d2 & rs & E2). exists d2, (Some r' :: rs). cbn [talk]. rewrite E1. cbn [obind]. by rewrite E2.
Qed.
Lemma key_survives_calm ext {A} (step : list string → A → option (resp → A → Prop)) k (corr : A → option aval → Prop) :
  (∀ req s R m, corr s (m !! k) → about k req = true → step req s = Some R → promise ext false k corr req s R m) →
  ∀ h d m s, sim d m → calm h → corr s (m !! k) → within step k s (h.*2) → Forall (λ x, about k x.2 = true) h →
  ∃ d' rs, talk ext h d = Ret (d', rs).
Proof.
  intros Hok h d m s Sm Lo C W F. eapply talk_survives; [done..|].
  eapply (within_specified ext false step k corr Hok); try done. by apply Forall_fmap.
Qed.
