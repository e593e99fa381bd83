(** C64: what a list does, in every state that can be reached, damaged or not, crashes included. *)
From Verif Require Import GoBase GoBaseProofs ShardMap ShardMapProofs Float64 DList DListProofs Db Protocol Redis Obs SpecCmd SpecResp SpecList SpecServer SpecKey SpecEnds KeyHist
  DbInv ExecSteps Sim PropBase KeyIs ListEnds Term Examples P_Keys P_Requests P_Frame P_Lists P_Sets.

Definition holds (d : db) (k : string) (s : option chain) : Prop :=
  match s with
  | None => sm_get (db_keys d) k = None
  | Some s => ∃ l, sm_get (db_keys d) k = Some (VList l) ∧ chained l s
  end.
Lemma load_any d k s : holds d k s →
  match s with None => load_list k false d = Err ErrNil | Some s => ∃ l, load_list k false d = Ok l ∧ chained l s end.
Proof. unfold load_list. destruct s as [s|]; cbn [holds]; [|by intros ->]. intros (l & -> & H). by exists l. Qed.
Lemma load_full d k s : holds d k s →
  if nothing s then load_list k true d = Err ErrNil else ∃ l, load_list k true d = Ok l ∧ chained l (as_chain s) ∧ is_Some s.
Proof.
  unfold load_list. destruct s as [s|]; cbn [holds]; [|by intros ->]. intros (l & -> & H). unfold nothing. cbn [as_chain andb].
  rewrite (chained_count _ _ H). destruct (c_count s =? 0); [done|]. exists l. by split_and!.
Qed.
Lemma holds_put d k l s : sm_wf (db_keys d) → chained l s → holds (put k (VList l) d) k (Some s).
Proof. intros W H. exists l. split; [|done]. simpl. rewrite sm_get_set by done. by rewrite bool_decide_eq_true_2. Qed.
Lemma view_empty : view rsp_empty_array = Some (bulks []).
Proof. done. Qed.

(** the command does what the automaton says *)
Definition done_as (o : outcome (db * res response)) (k : string) (x : deed) : Prop :=
  match x with
  | Crash => o = Panic
  | Does r s' => ∃ d' y, o = Ret (d', y) ∧ view (reply_of y) = Some r ∧ holds d' k s'
  end.
Ltac now_as := eexists _, _; split; [reflexivity|]; split; [done|].
Section rows.
Context (k : string) (d : db) (s : option chain) (I : dbinv d) (H0 : holds d k s).

Lemma e_lpush v a : done_as (c_lpush (k :: v :: a) d) k
  (let s' := foldl (λ s v, push_front v s) (as_chain s) (v :: a) in Does (RInt (c_count s')) (Some s')).
Proof.
  unfold c_lpush. change (fewer (k :: v :: a) 2) with false. change (arg (k :: v :: a) 0) with (Ret k). change (drop 1 (k :: v :: a)) with (v :: a). cbn [obind]. unfold LPush.
  set (vs := v :: a). cbv zeta. cbn [done_as]. pose proof (load_any d k s H0) as L. destruct s as [s0|].
  - destruct L as (l & -> & L). apply (lpush_all_chained vs) in L. cbv zeta. rewrite (chained_count _ _ L). now_as. by apply holds_put; [apply I|].
  - rewrite L. pose proof (lpush_all_chained vs _ _ chained_new) as L'. cbv zeta. rewrite (chained_count _ _ L'). now_as. by apply holds_put; [apply I|].
Qed.
Lemma e_rpush v a : done_as (c_rpush (k :: v :: a) d) k
  (let s' := foldl (λ s v, push_back v s) (as_chain s) (v :: a) in Does (RInt (c_count s')) (Some s')).
Proof.
  unfold c_rpush. change (fewer (k :: v :: a) 2) with false. change (arg (k :: v :: a) 0) with (Ret k). change (drop 1 (k :: v :: a)) with (v :: a). cbn [obind]. unfold RPush.
  set (vs := v :: a). cbv zeta. cbn [done_as]. pose proof (load_any d k s H0) as L. destruct s as [s0|].
  - destruct L as (l & -> & L). apply (rpush_all_chained vs) in L. cbv zeta. rewrite (chained_count _ _ L). now_as. by apply holds_put; [apply I|].
  - rewrite L. pose proof (rpush_all_chained vs _ _ chained_new) as L'. cbv zeta. rewrite (chained_count _ _ L'). now_as. by apply holds_put; [apply I|].
Qed.
Lemma pop_count_at a : pop_count (k :: a) = Ret (match pop_arg a with None => Err ErrValueOutOfRange | Some n => Ok n end).
Proof.
  destruct a as [|x a]; [done|]. unfold pop_count. change ((1 <? length (k :: x :: a))%nat) with true. cbv iota. change (arg (k :: x :: a) 1) with (Ret x). cbn [obind pop_arg].
  destruct (parse_int x) as [n|]; [|done]. by destruct (n <=? 0).
Qed.
Lemma e_lpop a : done_as (c_lpop (k :: a) d) k
  match pop_arg a with
  | None => refuse ErrValueOutOfRange s
  | Some n => if nothing s then Does RNil s else let (vs, s') := pop_front n (as_chain s) in Does (bulks vs) (Some s') end.
Proof.
  unfold c_lpop. change (fewer (k :: a) 1) with false. cbv iota. rewrite pop_count_at. cbn [obind]. destruct (pop_arg a) as [n|]; [|by now_as].
  change (arg (k :: a) 0) with (Ret k). cbn [obind]. unfold LPop. pose proof (load_full d k s H0) as L. destruct (nothing s); [rewrite L; by now_as|].
  destruct L as (l & -> & L & _). destruct (lpop_chained n l _ L) as (l' & -> & L'). destruct (pop_front n (as_chain s)) as [vs s']. cbn [obind fst snd] in *.
  eexists _, _. split; [reflexivity|]. split; [apply view_strings|]. by apply holds_put; [apply I|].
Qed.
Lemma e_rpop a : done_as (c_rpop (k :: a) d) k
  match pop_arg a, s with
  | None, _ => refuse ErrValueOutOfRange s
  | Some _, None => Does RNil None
  | Some n, Some s => let (vs, s') := pop_back n s in Does (bulks vs) (Some s') end.
Proof.
  unfold c_rpop. change (fewer (k :: a) 1) with false. cbv iota. rewrite pop_count_at. cbn [obind]. destruct (pop_arg a) as [n|]; [|by now_as].
  change (arg (k :: a) 0) with (Ret k). cbn [obind]. unfold RPop. pose proof (load_any d k s H0) as L. destruct s as [s0|]; [|rewrite L; by now_as].
  destruct L as (l & -> & L). destruct (rpop_chained n l _ L) as (l' & -> & L'). destruct (pop_back n s0) as [vs s']. cbn [obind fst snd] in *.
  eexists _, _. split; [reflexivity|]. split; [apply view_strings|]. by apply holds_put; [apply I|].
Qed.
Lemma e_llen a : done_as (c_llen (k :: a) d) k (Does (RInt (c_count (as_chain s))) s).
Proof.
  unfold c_llen. change (fewer (k :: a) 1) with false. change (arg (k :: a) 0) with (Ret k). cbn [obind]. unfold LLen. pose proof (load_any d k s H0) as L.
  destruct s as [s0|]; [|rewrite L; by now_as]. destruct L as (l & -> & L). rewrite (chained_count _ _ L). by now_as.
Qed.
Lemma e_lrange x y a : done_as (c_lrange (k :: x :: y :: a) d) k
  match parse_int x, parse_int y with
  | Some i, Some j => Does (bulks (if nothing s then [] else range i j (as_chain s))) s
  | _, _ => refuse ErrValueOutOfRange s end.
Proof.
  unfold c_lrange. change (fewer (k :: x :: y :: a) 3) with false. change (arg (k :: x :: y :: a) 0) with (Ret k). change (arg (k :: x :: y :: a) 1) with (Ret x).
  change (arg (k :: x :: y :: a) 2) with (Ret y). cbn [obind]. destruct (parse_int x) as [i|]; [|by now_as]. destruct (parse_int y) as [j|]; [|by now_as].
  unfold LRange. pose proof (load_full d k s H0) as L. destruct (nothing s); [rewrite L; by now_as|]. destruct L as (l & -> & L & _).
  rewrite (lrange_chained i j l _ L). cbn [obind]. destruct (range i j (as_chain s)) as [|v vs] eqn:E; [by now_as|]. cbv zeta. rewrite <- E.
  eexists _, _. split; [reflexivity|]. split; [apply view_strings|done].
Qed.
Lemma e_lrem x v a : done_as (c_lrem (k :: x :: v :: a) d) k
  match parse_int x with
  | None => refuse ErrValueOutOfRange s
  | Some n => if nothing s then Does (RInt 0) s else match remove n v (as_chain s) with Some (s', c) => Does (RInt c) (Some s') | None => Crash end end.
Proof.
  unfold c_lrem. change (fewer (k :: x :: v :: a) 3) with false. change (arg (k :: x :: v :: a) 0) with (Ret k). change (arg (k :: x :: v :: a) 1) with (Ret x).
  change (arg (k :: x :: v :: a) 2) with (Ret v). cbn [obind]. destruct (parse_int x) as [n|] eqn:Ep; [|by now_as].
  unfold LRem. pose proof (load_full d k s H0) as L. destruct (nothing s); [rewrite L; by now_as|]. destruct L as (l & -> & L & _).
  pose proof (lrem_chained n v l _ L (parse_int_range _ _ Ep)) as G. destruct (remove n v (as_chain s)) as [[s' c]|]; [|by rewrite G].
  destruct G as (l' & -> & L'). cbn [obind]. now_as. by apply holds_put; [apply I|].
Qed.
Lemma e_lset x v a : done_as (c_lset (k :: x :: v :: a) d) k
  match parse_int x with
  | None => refuse ErrValueOutOfRange s
  | Some i => if nothing s then refuse ErrNil s
              else match place_of i (as_chain s) with
                   | Some (Some p) => Does (RStatus "OK") (Some (Chain (c_ends (as_chain s)) (<[p := v]> (c_items (as_chain s))) (c_count (as_chain s))))
                   | Some None => refuse ErrNil s
                   | None => Crash end end.
Proof.
  unfold c_lset. change (fewer (k :: x :: v :: a) 3) with false. change (arg (k :: x :: v :: a) 0) with (Ret k). change (arg (k :: x :: v :: a) 1) with (Ret x).
  change (arg (k :: x :: v :: a) 2) with (Ret v). cbn [obind]. destruct (parse_int x) as [i|] eqn:Ep; [|by now_as].
  unfold LSet. pose proof (load_full d k s H0) as L. destruct (nothing s); [rewrite L; by now_as|]. destruct L as (l & -> & L & Hs).
  pose proof (lset_chained i v l _ L) as G. destruct (place_of i (as_chain s)) as [[p|]|]; [| |by rewrite G].
  - destruct G as (l' & -> & L'). cbn [obind]. now_as. by apply holds_put; [apply I|].
  - rewrite G. cbn [obind]. now_as. destruct Hs as [s0 ->]. by apply holds_put; [apply I|].
Qed.
Lemma e_linsert w p v a : done_as (c_linsert (k :: w :: p :: v :: a) d) k
  (let go after := if nothing s then refuse ErrNil s
                   else match insert_at after p v (as_chain s) with
                        | Some s' => Does (RInt (c_count s')) (Some s')
                        | None => refuse ErrNil s end in
   if String.eqb (to_lower w) "after" then go true
   else if String.eqb (to_lower w) "before" then go false else refuse ErrArgsNotEnough s).
Proof.
  unfold c_linsert. change (fewer (k :: w :: p :: v :: a) 4) with false. change (arg (k :: w :: p :: v :: a) 0) with (Ret k). change (arg (k :: w :: p :: v :: a) 1) with (Ret w).
  change (arg (k :: w :: p :: v :: a) 2) with (Ret p). change (arg (k :: w :: p :: v :: a) 3) with (Ret v). cbn [obind]. cbv zeta.
  assert (∀ f, f = 1 ∨ f = -1 → done_as (let* r := LInsert k p v f d in match r with (d', Err e) => fail e d' | (d', Ok z) => reply (rsp_int z) d' end) k
    (if nothing s then refuse ErrNil s else match insert_at (0 <? f) p v (as_chain s) with Some s' => Does (RInt (c_count s')) (Some s') | None => refuse ErrNil s end)) as G.
  { intros f Hf. unfold LInsert. pose proof (load_full d k s H0) as L. destruct (nothing s); [rewrite L; by now_as|]. destruct L as (l & -> & L & Hs).
    pose proof (linsert_chained p v f l _ L Hf) as G. destruct (insert_at (0 <? f) p v (as_chain s)) as [s'|].
    - destruct G as (l' & -> & L'). cbn [obind]. rewrite (chained_count _ _ L'). now_as. by apply holds_put; [apply I|].
    - rewrite G. cbn [obind]. now_as. destruct Hs as [s0 ->]. by apply holds_put; [apply I|]. }
  destruct (String.eqb _ "after"); [apply (G 1); by left|]. destruct (String.eqb _ "before"); [apply (G (-1)); by right|by now_as].
Qed.
Lemma e_del a : done_as (c_del (k :: a) d) k (Does (flag (if s then true else false)) None).
Proof.
  unfold c_del. change (fewer (k :: a) 1) with false. change (arg (k :: a) 0) with (Ret k). cbn [obind].
  unfold Del. rewrite sm_delete_if_exists_map, <- sm_get_map by apply I.
  destruct s as [t|]; cbn [holds] in H0; [destruct H0 as (z & -> & _)|rewrite H0]; now_as; [|done].
  cbn [holds]. simpl. rewrite sm_get_delete by apply I. by rewrite bool_decide_eq_true_2.
Qed.
Lemma e_exists a : done_as (c_exists (k :: a) d) k (Does (flag (if s then true else false)) s).
Proof.
  unfold c_exists. change (fewer (k :: a) 1) with false. change (arg (k :: a) 0) with (Ret k). cbn [obind]. unfold Exists_. rewrite sm_has_get.
  eexists _, _. split; [reflexivity|]. split; [|done].
  destruct s as [t|]; cbn [holds] in H0; [destruct H0 as (z & -> & _)|rewrite H0]; [rewrite bool_decide_eq_true_2 by eauto|rewrite bool_decide_eq_false_2 by (by intros [])]; done.
Qed.
Lemma e_type a : done_as (c_type (k :: a) d) k (Does (RStatus (if s then "list" else "none")) s).
Proof.
  unfold c_type. change (fewer (k :: a) 1) with false. change (arg (k :: a) 0) with (Ret k). cbn [obind]. unfold Type_.
  destruct s as [t|]; cbn [holds] in H0; [pose proof H0 as (z & E & _); rewrite E|rewrite H0]; by now_as.
Qed.
End rows.

Definition asked_as (o : outcome (db * option resp)) (k : string) (x : deed) : Prop :=
  match x with
  | Crash => o = Panic
  | Does r s' => ∃ d', o = Ret (d', Some r) ∧ holds d' k s'
  end.
Lemma deed_row ext c name k a d f x : lookup_command (to_lower name) (implemented_commands ext c) = Some f →
  done_as (f (k :: a) d) k x →
  asked_as (ask ext c (name :: k :: a) d) k x.
Proof.
  intros Hc Hf. rewrite (ask_cmd ext c name (k :: a) d f Hc). destruct x as [|r s']; cbn [done_as asked_as] in *; [by rewrite Hf|].
  destruct Hf as (d' & y & -> & V & H). cbn [obind]. exists d'. by rewrite V.
Qed.
Lemma step_chain ext c k name a s x d : dbinv d → holds d k s → deed_of (name :: k :: a) s = Some x →
  asked_as (ask ext c (name :: k :: a) d) k x.
Proof.
  intros I H0 Es. unfold deed_of in Es. destruct (find_deed (to_lower name) _) as [f|] eqn:Ef; [|done]. injection Es as <-. unfold chain_commands in Ef.
  repeat (cbn [find_deed] in Ef;
    match type of Ef with (if String.eqb ?n ?x then _ else _) = _ => destruct (String.eqb_spec n x) as [Hn|_] end; [injection Ef as <-; symmetry in Hn|]); try done;
    (eapply deed_row; [rewrite Hn; reflexivity|]).
  - destruct a as [|v a]; [by now_as|]. by apply e_lpush.
  - destruct a as [|v a]; [by now_as|]. by apply e_rpush.
  - by apply e_lpop.
  - by apply e_rpop.
  - by apply e_llen.
  - destruct a as [|v [|w a]]; [by now_as..|]. by apply e_lrange.
  - destruct a as [|v [|w a]]; [by now_as..|]. by apply e_lrem.
  - destruct a as [|v [|w a]]; [by now_as..|]. by apply e_lset.
  - destruct a as [|v [|w [|y a]]]; [by now_as..|]. by apply e_linsert.
  - by apply e_del.
  - by apply e_exists.
  - by apply e_type.
Qed.
Lemma step_lindex ext c k y a i s d : holds d k s → parse_int k = Some i →
  ask ext c ("LINDEX" :: y :: k :: a) d = match element i s with Some r => Ret (d, Some r) | None => Panic end.
Proof.
  intros H0 Hp. rewrite (ask_cmd ext c "LINDEX" (y :: k :: a) d _ eq_refl). unfold c_lindex. change (fewer (y :: k :: a) 2) with false. cbv iota.
  change (arg (y :: k :: a) 1) with (Ret k). cbn [obind]. rewrite Hp. unfold LIndex, element. pose proof (load_full d k s H0) as L. destruct (nothing s); [by rewrite L|].
  destruct L as (l & -> & L & _). rewrite (lindex_chained i l _ L). pose proof (place_in i (as_chain s)) as Hi. destruct (place_of i (as_chain s)) as [[p|]|]; [|done..].
  cbn [obind]. specialize (Hi p l L eq_refl). apply lookup_lt_is_Some_2 in Hi as [v ->]. done.
Qed.
Lemma step_deed ext c k req s x d : dbinv d → holds d k s → about k req = true → deed_of req s = Some x → asked_as (ask ext c req d) k x.
Proof.
  intros I H0 Ea Es. destruct req as [|name [|k' a]]; try done. assert (k' = k) as ->; [|by apply (step_chain ext c k name a s)].
  eapply about_key; [done|]. intros Hn. unfold deed_of in Es. assert (find_deed (to_lower name) chain_commands = None) as Hf; [|by rewrite Hf in Es].
  clear -Hn. repeat (apply elem_of_cons in Hn as [->|Hn]; [done|]). by apply elem_of_nil in Hn.
Qed.
Lemma holds_other ext c k req s d d' r : dbinv d → holds d k s → about k req = false → ask ext c req d = Ret (d', r) → holds d' k s.
Proof.
  intros I H0 Ea E. assert (sm_get (db_keys d') k = sm_get (db_keys d) k) as G; [|destruct s; cbn [holds] in *; by rewrite G].
  eapply dsteps_get; [by eapply ask_steps|done|]. unfold about in Ea. apply orb_false_iff in Ea as [Ea _]. apply bool_decide_eq_false in Ea. unfold touched in Ea. set_solver.
Qed.
Lemma talk_chain ext k h : ∀ d s d' rs, dbinv d → holds d k s → talk ext h d = Ret (d', rs) → within chain_step k s (h.*2) →
  ∃ s', consistent chain_step k s (h.*2) rs s' ∧ holds d' k s'.
Proof.
  induction h as [|[c req] h IH]; intros d s d' rs I H0 H W; cbn [talk] in H; [injection H as <- <-; exists s; split; [constructor|done]|].
  apply obind_ret in H as ([d1 r] & E1 & H). apply obind_ret in H as ([d2 rs2] & E2 & H). injection H as <- <-.
  rewrite fmap_cons in W. cbn [within snd] in W. rewrite fmap_cons. cbn [snd]. pose proof (ask_inv _ _ _ _ _ _ I E1) as I1. destruct (about k req) eqn:Ea.
  - unfold chain_step in W at 1. destruct (deed_of req s) as [x|] eqn:Es; [|done]. pose proof (step_deed ext c k req s x d I H0 Ea Es) as G.
    destruct x as [|r' s1]; cbn [asked_as] in G; [congruence|]. destruct G as (d3 & E3 & H1). rewrite E3 in E1. injection E1 as <- <-.
    destruct (IH d3 s1 d2 rs2 I1 H1 E2 (W _ _ eq_refl)) as (s' & C & H'). exists s'. split; [|done]. eapply cs_about; [done|unfold chain_step; by rewrite Es|done|done].
  - destruct (IH d1 s d2 rs2 I1 (holds_other _ _ _ _ _ _ _ _ I H0 Ea E1) E2 W) as (s' & C & H'). exists s'. split; [by eapply cs_other|done].
Qed.
Lemma reachable_holds ext d k : reachable ext d → type_is ext d k "none" ∨ type_is ext d k "list" → ∃ s, holds d k s ∧ chain_ok (as_chain s).
Proof.
  intros Hr Ht. pose proof (reachable_tidy _ _ Hr) as T.
  destruct (sm_get (db_keys d) k) as [v|] eqn:E; [|exists None; split; [done|by left]].
  assert (∃ l, v = VList l) as [l ->]. { destruct Ht as [Ht|Ht]; apply type_is_get in Ht; rewrite E in Ht; destruct v; try done. by eexists. }
  destruct (tidy_list k l d T E) as [_ [s C]]. exists (Some s). split; [by exists l|by eapply chained_chain].
Qed.

(** ** C64 *)
(** [s] tells what every request of the table does now, crash or answer, and what LINDEX does (which takes its position as the key, C49) *)
Definition follows (ext : Ext) (d : db) (k : string) (s : option chain) : Prop :=
  (∀ c name a x, deed_of (name :: k :: a) s = Some x →
     match x with
     | Crash => ask ext c (name :: k :: a) d = Panic
     | Does r _ => ∃ d', ask ext c (name :: k :: a) d = Ret (d', Some r)
     end) ∧
  (∀ c y a i, parse_int k = Some i →
     ask ext c ("LINDEX" :: y :: k :: a) d = match element i s with Some r => Ret (d, Some r) | None => Panic end).
Lemma holds_follows ext d k s : dbinv d → holds d k s → follows ext d k s.
Proof.
  intros I H0. split.
  - intros c name a x E. pose proof (step_chain ext c k name a s x d I H0 E) as G. destruct x as [|r s']; [done|]. destruct G as (d' & G & _). by exists d'.
  - intros c y a i Hp. by apply step_lindex.
Qed.
(** In every reachable state, for a key that is absent or a list, there is a state of the automaton that tells what every
    list command does, and everything that happens to the key later follows the automaton. *)
Theorem C64_history ext d k : reachable ext d → type_is ext d k "none" ∨ type_is ext d k "list" →
  ∃ s, chain_ok (as_chain s) ∧ follows ext d k s ∧ ∀ h d' rs, talk ext h d = Ret (d', rs) → within chain_step k s (h.*2) →
    ∃ s', consistent chain_step k s (h.*2) rs s' ∧ follows ext d' k s'.
Proof.
  intros Hr Ht. pose proof (reachable_inv _ _ Hr) as I. destruct (reachable_holds ext d k Hr Ht) as (s & H0 & Ho). exists s. split; [done|]. split; [by apply holds_follows|].
  intros h d' rs H W. destruct (talk_chain ext k h d s d' rs I H0 H W) as (s' & C & H'). exists s'. split; [done|]. apply holds_follows; [|done]. by eapply talk_inv.
Qed.
(** From a state in which the key is absent, the automaton starts with no list *)
Theorem C64_start ext d k h d' rs : reachable ext d → answers ext d ["EXISTS"; k] (RInt 0) → talk ext h d = Ret (d', rs) → within chain_step k None (h.*2) →
  ∃ s', consistent chain_step k None (h.*2) rs s' ∧ follows ext d' k s'.
Proof.
  intros Hr Hn H W. apply absent_get in Hn. apply reachable_inv in Hr as I. destruct (talk_chain ext k h d None d' rs I Hn H W) as (s' & C & H'). exists s'. split; [done|]. apply holds_follows; [|done]. by eapply talk_inv.
Qed.
(** A conversation about one list: the answers are those of [run], and the process dies exactly when [run] does *)
Lemma run_from ext k h : ∀ d s, dbinv d → holds d k s → Forall (listed k) (h.*2) →
  match run s (h.*2) with None => talk ext h d = Panic | Some rs => ∃ d', talk ext h d = Ret (d', Some <$> rs) end.
Proof.
  induction h as [|[c req] h IH]; intros d s I H0 F; [by exists d|]. rewrite fmap_cons in *. apply Forall_cons in F as [F1 F]. cbn [snd] in *.
  destruct req as [|name [|k' a]]; try done. destruct F1 as [-> F1]. cbn [run talk].
  destruct (deed_of (name :: k :: a) s) as [x|] eqn:Es; [|unfold deed_of in Es; by destruct (find_deed (to_lower name) chain_commands)].
  pose proof (step_chain ext c k name a s x d I H0 Es) as G. destruct x as [|r s']; cbn [asked_as] in G; [by rewrite G|]. destruct G as (d1 & E1 & H1).
  rewrite E1. cbn [obind]. pose proof (IH d1 s' (ask_inv _ _ _ _ _ _ I E1) H1 F) as G. destruct (run s' (h.*2)) as [rs|]; [|by rewrite G].
  destruct G as (d' & ->). cbn [obind]. by exists d'.
Qed.
Theorem C64_run ext d k h : reachable ext d → answers ext d ["EXISTS"; k] (RInt 0) → Forall (listed k) (h.*2) →
  match run None (h.*2) with None => talk ext h d = Panic | Some rs => ∃ d', talk ext h d = Ret (d', Some <$> rs) end.
Proof. intros Hr Hn F. apply (run_from ext k); [by eapply reachable_inv|by apply absent_get in Hn|done]. Qed.
(** A list that counts elements which LRANGE does not show: LPOP gives nothing, LREM from the front kills the process,
    and LPUSH starts a new list while LLEN counts on. *)
Lemma range_all n e xs : 0 < n → range 0 (-1) (Chain e xs n) = match e with OnlyBack => [] | _ => take (Z.to_nat n) xs end.
Proof.
  intros Hn. unfold range. cbn [c_ends c_items c_count]. assert (norm_index n 0 = 0 ∧ norm_index n (-1) = n - 1) as [-> ->] by (unfold norm_index; simpl; lia).
  replace (Z.to_nat (Z.max 0 0)) with 0%nat by lia. rewrite drop_0. by replace (Z.to_nat (Z.min (n - 1) (n - 1) + 1 - Z.max 0 0)) with (Z.to_nat n) by lia.
Qed.
Lemma llen_holds ext d k s : dbinv d → holds d k s → answers ext d ["LLEN"; k] (RInt (c_count (as_chain s))).
Proof.
  intros I H0 c. rewrite (ask_cmd ext c "LLEN" [k] d _ eq_refl). destruct (e_llen k d s H0 []) as (d' & y & E & V & _). apply ro_llen in E as Ed. subst d'. rewrite E. cbn [obind]. by rewrite V.
Qed.
Lemma lrange_holds ext d k s : dbinv d → holds d k s → answers ext d ["LRANGE"; k; "0"; "-1"] (bulks (if nothing s then [] else range 0 (-1) (as_chain s))).
Proof.
  intros I H0 c. rewrite (ask_cmd ext c "LRANGE" [k; "0"; "-1"] d _ eq_refl). destruct (e_lrange k d s H0 "0" "-1" []) as (d' & y & E & V & _). apply ro_lrange in E as Ed. subst d'. rewrite E. cbn [obind]. by rewrite V.
Qed.
Theorem C64_lost_front ext d k n : reachable ext d → type_is ext d k "list" → answers ext d ["LLEN"; k] (RInt n) → 0 < n →
  answers ext d ["LRANGE"; k; "0"; "-1"] (bulks []) →
  (∀ c, ∃ d', ask ext c ["LPOP"; k] d = Ret (d', Some (bulks []))) ∧
  (∀ c x v m, parse_int x = Some m → 0 ≤ m → ask ext c ["LREM"; k; x; v] d = Panic) ∧
  (∀ c v, ∃ d', ask ext c ["LPUSH"; k; v] d = Ret (d', Some (RInt (n + 1))) ∧
     answers ext d' ["LLEN"; k] (RInt (n + 1)) ∧ answers ext d' ["LRANGE"; k; "0"; "-1"] (bulks [v])).
Proof.
  intros Hr Ht Hl Hn Hg. apply reachable_inv in Hr as I. destruct (reachable_holds ext d k Hr (or_intror Ht)) as (s & H0 & Ho).
  assert (∃ e xs m, s = Some (Chain e xs m)) as (e & xs & m & ->).
  { destruct s as [[e xs m]|]; [by eauto|]. apply type_is_get in Ht. cbn [holds] in H0. by rewrite H0 in Ht. }
  assert (m = n) as ->. { pose proof (answers_fun _ _ _ _ _ Hl (llen_holds ext d k _ I H0)) as E. by injection E. }
  assert (nothing (Some (Chain e xs n)) = false) as En by (unfold nothing; simpl; lia).
  assert (e = OnlyBack ∨ e = Both ∧ xs = []) as Hs.
  { pose proof (answers_fun _ _ _ _ _ Hg (lrange_holds ext d k _ I H0)) as E. rewrite En in E. cbn [as_chain] in E. rewrite (range_all n e xs Hn) in E.
    destruct (Z.to_nat n) eqn:Z; [lia|]. destruct e; [right|by left|]; destruct xs; try done. by destruct Ho. }
  split_and!.
  - intros c. assert (deed_of ["LPOP"; k] (Some (Chain e xs n)) = Some (Does (bulks []) (Some (Chain e xs n)))) as E.
    { change (deed_of ["LPOP"; k] (Some (Chain e xs n))) with (Some (if nothing (Some (Chain e xs n)) then Does RNil (Some (Chain e xs n)) else let (vs, s') := pop_front 1 (Chain e xs n) in Does (bulks vs) (Some s'))).
      rewrite En. destruct Hs as [->|[-> ->]]; [done|]. unfold pop_front. cbn [c_ends c_items c_count]. rewrite take_nil, drop_nil. unfold zlen. simpl. do 4 f_equal. lia. }
    destruct (step_chain ext c k "LPOP" [] _ _ d I H0 E) as (d' & G & _). by exists d'.
  - intros c x v m Hp Hm. assert (deed_of ["LREM"; k; x; v] (Some (Chain e xs n)) = Some Crash) as E.
    { change (deed_of ["LREM"; k; x; v] (Some (Chain e xs n))) with (Some (match parse_int x with None => refuse ErrValueOutOfRange (Some (Chain e xs n)) | Some m => if nothing (Some (Chain e xs n)) then Does (RInt 0) (Some (Chain e xs n))
        else match remove m v (Chain e xs n) with Some (s', c) => Does (RInt c) (Some s') | None => Crash end end)).
      rewrite Hp, En. unfold remove. replace (m <? 0) with false by lia. assert (∀ m, remove_front m v (Chain e xs n) = None) as R by (intros m'; by destruct Hs as [->|[-> ->]]). rewrite !R. by destruct (0 <? m). }
    apply (step_chain ext c k "LREM" [x; v] _ _ d I H0 E).
  - intros c v. assert (deed_of ["LPUSH"; k; v] (Some (Chain e xs n)) = Some (Does (RInt (n + 1)) (Some (Chain Both [v] (n + 1))))) as E by (by destruct Hs as [->|[-> ->]]).
    destruct (step_chain ext c k "LPUSH" [v] _ _ d I H0 E) as (d' & G & H1). exists d'. split; [done|]. pose proof (ask_inv _ _ _ _ _ _ I G) as I'.
    split; [by apply (llen_holds ext d' k _ I' H1)|]. pose proof (lrange_holds ext d' k _ I' H1) as R. unfold nothing in R. cbn [as_chain c_count] in R. replace (n + 1 =? 0) with false in R by lia.
    rewrite range_all in R by lia. replace (Z.to_nat (n + 1)) with (S (Z.to_nat n)) in R by lia. cbn [take] in R. by rewrite take_nil in R.
Qed.
(** a list emptied by LREM, and what becomes of it *)
Definition emptied : list (list string) := [["RPUSH"; "k"; "a"; "b"; "a"]; ["LREM"; "k"; "0"; "a"]; ["LREM"; "k"; "1"; "b"]; ["RPUSH"; "k"; "x"; "y"]].
Definition later : list (list string) :=
  [["LLEN"; "k"]; ["LRANGE"; "k"; "0"; "-1"]; ["LPOP"; "k"; "5"]; ["RPOP"; "k"]; ["LINSERT"; "k"; "AFTER"; "x"; "z"]; ["RPUSH"; "k"; "w"]; ["LREM"; "k"; "-1"; "w"]; ["LPUSH"; "k"; "n"]; ["LLEN"; "k"];
   ["LRANGE"; "k"; "0"; "-1"]; ["LREM"; "k"; "-2"; "n"]; ["RPUSH"; "k"; "m"]; ["LRANGE"; "k"; "0"; "-1"]; ["LSET"; "k"; "1"; "q"]; ["TYPE"; "k"]; ["LPOP"; "k"; "x"]; ["LREM"; "k"]].
Example C64_demo : reachable ext0 (after emptied) ∧ type_is ext0 (after emptied) "k" "list" ∧ Forall (listed "k") (emptied ++ later) ∧
  run None (emptied ++ later) = Some
    [RInt 3; RInt 2; RInt 1; RInt 2; RInt 2; bulks []; bulks []; bulks ["y"]; RError "redis: not found"; RInt 2; RInt 1; RInt 2; RInt 2; bulks ["n"]; RInt 1; RInt 2; bulks ["m"];
     RError "redis: not found"; RStatus "list"; RError " ERR value is out of range, must be positive"; RError "command args not enough"] ∧
  replies (emptied ++ later) = match run None (emptied ++ later) with Some rs => Some (map Some rs) | None => None end ∧
  run None (emptied ++ [["LREM"; "k"; "1"; "x"]]) = None ∧ crashed (emptied ++ [["LREM"; "k"; "1"; "x"]]) = true.
Proof.
  split; [apply after_reachable; eexists; by vm_compute|]. split.
  { pose proof (type_get ext0 (after emptied) "k") as H. assert (match sm_get (db_keys (after emptied)) "k" with Some v => type_name v | None => "none"%string end = "list"%string) as E by (by vm_compute).
    by rewrite E in H. }
  split. { unfold emptied, later. repeat (apply Forall_cons; split; [by split|]). by apply Forall_nil. }
  split_and!; by vm_compute.
Qed.
(** ... and it meets the hypotheses of C64_lost_front *)
Example C64_lost_demo : answers ext0 (after emptied) ["LLEN"; "k"] (RInt 2) ∧ answers ext0 (after emptied) ["LRANGE"; "k"; "0"; "-1"] (bulks []).
Proof.
  assert (∃ l, sm_get (db_keys (after emptied)) "k" = Some (VList l) ∧ dl_len l = 2 ∧ dl_lrange 0 (-1) l = Ret []) as (l & E & E2 & E3) by (eexists; by vm_compute).
  split; intros c.
  - rewrite (ask_cmd ext0 c "LLEN" ["k"] _ _ eq_refl). unfold c_llen. change (fewer ["k"] 1) with false. change (arg ["k"] 0) with (Ret "k"). cbn [obind]. unfold LLen, load_list. rewrite E. cbn [andb]. by rewrite E2.
  - rewrite (ask_cmd ext0 c "LRANGE" ["k"; "0"; "-1"] _ _ eq_refl). unfold c_lrange. change (fewer ["k"; "0"; "-1"] 3) with false. change (arg ["k"; "0"; "-1"] 0) with (Ret "k").
    change (arg ["k"; "0"; "-1"] 1) with (Ret "0"). change (arg ["k"; "0"; "-1"] 2) with (Ret "-1"). cbn [obind]. change (parse_int "0") with (Some 0). change (parse_int "-1") with (Some (-1)). cbv iota.
    unfold LRange, load_list. rewrite E, E2. change (true && (2 =? 0)) with false. cbv iota. by rewrite E3.
Qed.
