(** The abstract server keeps the promises of the single-key specifications. *)
From Verif Require Import GoBase GoBaseProofs Float64 Float64Proofs SpecResp SpecList SpecZSet SpecCmd SpecServer SpecFrame SpecKey.

(** a step of the abstract server *)
Definition sstep (ext : Ext) (u : bool) (m : kspace) (req : list string) (r : option resp) (m1 : kspace) : Prop :=
  v_does (spec ext req m) r m1 ∨ u = true ∧ drawing req ∧ damages (writes req) m m1.
Lemma sstep_other ext u m req r m1 k : sstep ext u m req r m1 → k ∉ touched req → m1 !! k = m !! k.
Proof.
  intros [V|(_ & _ & D)] Hk; [by eapply spec_keeps|]. eapply damages_other; [done|]. intros H. apply Hk. apply elem_of_app. by left.
Qed.

Section generic.
Context (ext : Ext) (u : bool) {A : Type} (step : list string → A → option (resp → A → Prop)) (k : string).
Context (corr : A → option aval → Prop).
Definition promise (req : list string) (s : A) (R : resp → A → Prop) (m : kspace) : Prop :=
  v_safe (spec ext req m) ∧ (u = true → ¬ drawing req) ∧
  ∀ r m1, sstep ext u m req r m1 → ∃ r' s1, r = Some r' ∧ R r' s1 ∧ corr s1 (m1 !! k).
Context (ok : ∀ req s R m, corr s (m !! k) → about k req = true → step req s = Some R → promise req s R m).

Lemma behaves_consistent h : ∀ m rs m' s, behaves ext u m h rs m' → corr s (m !! k) → within step k s h →
  ∃ s', consistent step k s h rs s' ∧ corr s' (m' !! k).
Proof.
  induction h as [|req h IH]; intros m rs m' s B C W.
  { inversion B; subst. exists s. split; [constructor|done]. }
  inversion B as [|? ? r m1 ? rs1 ? V B1]; subst. cbn [within] in W.
  destruct (about k req) eqn:Ea.
  - destruct (step req s) as [R|] eqn:Es; [|done]. destruct (ok req s R m C Ea Es) as (_ & _ & H).
    destruct (H r m1 V) as (r' & s1 & -> & HR & C1). destruct (IH _ _ _ _ B1 C1 (W _ _ HR)) as (s2 & Cs & C2).
    exists s2. split; [|done]. by econstructor.
  - assert (m1 !! k = m !! k) as E.
    { eapply sstep_other; [exact V|]. unfold about in Ea. apply orb_false_iff in Ea as [Ea _]. by apply bool_decide_eq_false in Ea. }
    rewrite <- E in C. destruct (IH _ _ _ _ B1 C W) as (s2 & Cs & C2). exists s2. split; [|done]. by constructor.
Qed.
(** requests about [k] only are certain to be executed *)
Lemma within_specified h : ∀ m s, Forall (λ req, about k req = true) h → corr s (m !! k) → within step k s h → specified ext m h.
Proof.
  induction h as [|req h IH]; intros m s F C W; [done|]. apply Forall_cons in F as [Ea F]. cbn [within specified] in *. rewrite Ea in W.
  destruct (step req s) as [R|] eqn:Es; [|done]. destruct (ok req s R m C Ea Es) as (Hs & _ & H). split; [done|].
  intros r m1 V. destruct (H r m1 (or_introl V)) as (r' & s1 & -> & HR & C1). eapply IH; [done..|]. by eapply W.
Qed.
End generic.

(** showing [within] on concrete histories *)
Lemma within_exact {A} (step : list string → A → option (resp → A → Prop)) k s req h r s1 :
  about k req = true → step req s = exactly r s1 → within step k s1 h → within step k s (req :: h).
Proof. intros Ea E W. cbn [within]. rewrite Ea, E. unfold exactly. by intros r' s' [-> ->]. Qed.
Lemma within_other {A} (step : list string → A → option (resp → A → Prop)) k s req h :
  about k req = false → within step k s h → within step k s (req :: h).
Proof. intros Ea W. cbn [within]. by rewrite Ea. Qed.
Ltac within_tac := repeat first
  [ exact I
  | eapply within_other; [vm_compute; reflexivity|]
  | eapply within_exact; [vm_compute; reflexivity|lazy -[exactly]; reflexivity|] ].

Lemma about_key k name k' a : about k (name :: k' :: a) = true →
  to_lower name ∉ ["mset"; "smove"; "sdiffstore"; "sinterstore"; "sunionstore"]%string → k' = k.
Proof.
  unfold about. intros H Hn. apply orb_true_iff in H as [H|H].
  - apply bool_decide_eq_true in H. unfold touched, writes, one_source_store in H.
    destruct (bool_decide _); simpl in H.
    + destruct a as [|x []]; simpl in H; try by apply elem_of_nil in H.
      repeat (match type of H with context [String.eqb ?a ?b] => destruct (String.eqb_spec a b) as [E|_]; [rewrite E in Hn; set_solver|]; cbn [orb app] in H end).
      by apply elem_of_nil in H.
    + repeat (match type of H with context [String.eqb ?a ?b] => destruct (String.eqb_spec a b) as [E|_]; [rewrite E in Hn; set_solver|]; cbn [orb app] in H end).
      destruct a as [|x []]; set_solver.
  - apply andb_true_iff in H as [_ H]. by apply String.eqb_eq in H.
Qed.
(** a verdict that keeps the promise *)
Definition vpromise {A} (k : string) (corr : A → option aval → Prop) (v : verdict) (R : resp → A → Prop) : Prop :=
  v_safe v ∧ ∀ r m1, v_does v r m1 → ∃ r' s1, r = Some r' ∧ R r' s1 ∧ corr s1 (m1 !! k).
Lemma vp_says {A} k (corr : A → option aval → Prop) r m1 s1 : corr s1 (m1 !! k) → vpromise k corr (says r m1) (λ r' s', r' = r ∧ s' = s1).
Proof. intros C. split; [done|]. intros r0 m0 [-> ->]. by exists r, s1. Qed.
Lemma spec_cmd ext name n f a m : to_lower name = n → find_spec n (spec_table ext) = Some f → spec ext (name :: a) m = f a m.
Proof. intros E H. unfold spec. by rewrite E, H. Qed.

(** from the tables to [promise] *)
Lemma table_promise {A} ext u k (corr : A → option aval → Prop) (t : ktable A) :
  (∀ n f, find_cmd n t = Some f →
     n ∉ ["mset"; "smove"; "sdiffstore"; "sinterstore"; "sunionstore"]%string ∧
     (u = true → n ≠ "zadd"%string ∧ n ≠ "zincr"%string) ∧
     ∃ g, find_spec n (spec_table ext) = Some g ∧
          ∀ a s R m, corr s (m !! k) → f a s = Some R → vpromise k corr (g (k :: a) m) R) →
  ∀ req s R m, corr s (m !! k) → about k req = true → table_step t req s = Some R → promise ext u k corr req s R m.
Proof.
  intros H req s R m C Ea E. destruct req as [|name [|k' a]]; try done. cbn [table_step] in E.
  destruct (find_cmd (to_lower name) t) as [f|] eqn:Ef; [|done]. destruct (H _ _ Ef) as (Hn & Hu & g & Eg & Hg).
  pose proof (about_key _ _ _ _ Ea Hn) as ->. destruct (Hg a s R m C E) as [V1 V2]. unfold promise, sstep.
  rewrite (spec_cmd ext name _ g (k :: a) m eq_refl Eg). split; [done|].
  split; [intros Hu' D; destruct (Hu Hu') as [N1 N2]; by destruct D|].
  intros r m1 [V|(Hu' & D & _)]; [by apply V2|]. destruct (Hu Hu') as [N1 N2]. by destruct D.
Qed.

Lemma wrap_in z : in_int64 z = true → wrap64 z = z.
Proof. intros H. apply wrap64_small. by apply in_int64_spec. Qed.

Ltac rows H := repeat (cbn [app find_cmd] in H;
  match type of H with (if String.eqb ?n ?x then _ else _) = _ => destruct (String.eqb_spec n x) as [<-|_] end;
  [injection H as <-; split; [by vm_compute; set_solver|]; split; [done|]; eexists; split; [reflexivity|]; intros a s R m C E |]); try done.
Ltac ex E := unfold exactly in E; apply (inj Some) in E; match type of E with _ = ?R => subst R end.

Lemma window_nil {A} i j : window i j (@nil A) = [].
Proof. unfold window. by rewrite drop_nil, take_nil. Qed.
Lemma set_elem_nil i v : set_elem i v [] = None.
Proof.
  unfold set_elem, norm_index. cbn [length]. change (Z.of_nat 0) with 0.
  destruct (i <? 0) eqn:E1.
  - by destruct (i + 0 <? 0) eqn:E2; [|lia].
  - destruct (0 <=? i) eqn:E2; [by rewrite E1|lia].
Qed.
Lemma lrem_nil n v : lrem_result n v [] = [].
Proof. unfold lrem_result. by destruct (0 <? n), (n <? 0). Qed.

(** a number is not a word *)
Lemma number_not_word y j w : parse_int y = Some j → (w = "byscore" ∨ w = "withscores")%string → to_lower y = w → False.
Proof.
  intros H Hw E. destruct y as [|c y]; [done|].
  assert (Hc : is_byte c 196 = false ∧ is_byte c 226 = false ∧ Ascii.eqb (lower_ascii c) "b" = false ∧ Ascii.eqb (lower_ascii c) "w" = false).
  { cbn [parse_int] in H. destruct (Ascii.eqb_spec c "-") as [->|_]; [done|]. destruct (Ascii.eqb_spec c "+") as [->|_]; [done|].
    cbn [parse_uint parse_digits] in H. destruct (digit_val c) eqn:Ed; [|done]. clear -Ed.
    destruct c as [[] [] [] [] [] [] [] []]; try discriminate Ed; done. }
  destruct Hc as (H1 & H2 & H3 & H4).
  assert (∃ r, to_lower (String c y) = String (lower_ascii c) r) as [r Er].
  { cbn [to_lower]. destruct y as [|c1 y]; [by eexists|]. rewrite H1. cbn [andb]. destruct y as [|c2 y]; [by eexists|]. rewrite H2. by eexists. }
  rewrite Er in E. destruct Hw as [-> | ->]; injection E as E _; by rewrite E in *.
Qed.
Lemma show_plain ext l : concat (show_ent ext false <$> l) = l.*2.
Proof. induction l as [|e l IH]; [done|]. rewrite !fmap_cons. cbn [concat show_ent]. by rewrite IH. Qed.

Section types.
Context (ext : Ext) (k : string).

(** *** strings *)
Definition str_corr (s : option string) (x : option aval) : Prop := x = AStr <$> s.

Lemma add_wrap n n' s R m : str_corr s (m !! k) → add_int n s = Some R → n' mod two64 = n mod two64 → in_int64 n' = true → vpromise k str_corr (add_to k n' m) R.
Proof.
  unfold str_corr, add_int, add_to. intros C E Hn Hi. rewrite C. destruct s as [v|]; cbn [fmap option_fmap option_map].
  - destruct (parse_int v) as [i|]; [|ex E; by apply vp_says].
    destruct (in_int64 (i + n)) eqn:Hr; [|done]. ex E. rewrite <- (wrap_in _ Hr).
    replace (wrap64 (i + n)) with (wrap64 (i + n')) by (apply wrap64_eq_mod; rewrite <- Zplus_mod_idemp_r, Hn, Zplus_mod_idemp_r; done).
    apply vp_says. unfold str_corr. by rewrite lookup_insert.
  - destruct (in_int64 n) eqn:Hr; [|done]. ex E. assert (n' = n) as ->.
    { rewrite <- (wrap_in _ Hr), <- (wrap_in _ Hi). by apply wrap64_eq_mod. }
    apply vp_says. unfold str_corr. by rewrite lookup_insert.
Qed.
Lemma add_ok n s R m : str_corr s (m !! k) → add_int n s = Some R → in_int64 n = true → vpromise k str_corr (add_to k n m) R.
Proof. intros. by eapply add_wrap. Qed.
Lemma string_ok u : ∀ req s R m, str_corr s (m !! k) → about k req = true → string_step req s = Some R →
  promise ext u k str_corr req s R m.
Proof.
  apply table_promise. intros n f H. unfold key_commands, string_commands in H.
  rows H; unfold str_corr in C; cbn beta in E.
  - ex E. cbn [s_del]. rewrite C. destruct s; apply vp_says; unfold str_corr; by rewrite lookup_delete.
  - ex E. cbn [s_exists]. rewrite C. destruct s; by apply vp_says.
  - ex E. cbn [s_type]. rewrite C. destruct s; by apply vp_says.
  - destruct a as [|v a]; [done|]. ex E. apply vp_says. unfold str_corr. by rewrite lookup_insert.
  - ex E. cbn [s_get]. rewrite C. destruct s; by apply vp_says.
  - destruct a as [|v a]; [done|]. ex E. cbn [s_append]. rewrite C. destruct s; apply vp_says; unfold str_corr; by rewrite lookup_insert.
  - by eapply add_ok.
  - by eapply add_ok.
  - destruct a as [|x a]; [done|]. unfold int_arg in E. cbn [s_incrby]. destruct (parse_int x) as [i|] eqn:Ei; [|done]. eapply add_ok; [done..|]. apply in_int64_spec. by eapply parse_int_range.
  - destruct a as [|x a]; [done|]. unfold int_arg in E. cbn [s_decrby]. destruct (parse_int x) as [i|]; [|done].
    eapply add_wrap; [done..| |]; [apply wrap64_mod|apply wrap64_int64].
Qed.
(** *** lists *)
Definition list_corr (s : option (list string * wear)) (x : option aval) : Prop := x = (λ xw : list string * wear, AList xw.1 xw.2) <$> s.
Ltac sayl := apply vp_says; unfold list_corr; rewrite ?lookup_insert, ?lookup_delete; done.

Lemma list_ok u : ∀ req s R m, list_corr s (m !! k) → about k req = true → list_step req s = Some R →
  promise ext u k list_corr req s R m.
Proof.
  apply table_promise. intros n f H. unfold key_commands, list_commands in H.
  rows H; unfold list_corr in C; cbn beta in E.
  - ex E. cbn [s_del]. rewrite C. destruct s as [[xs w]|]; sayl.
  - ex E. cbn [s_exists]. rewrite C. destruct s as [[xs w]|]; sayl.
  - ex E. cbn [s_type]. rewrite C. destruct s as [[xs w]|]; sayl.
  - destruct a as [|v a]; [done|]. cbn [s_push]. rewrite C. destruct s as [[xs []]|]; cbn [lost elems] in E; try done; ex E; unfold push_to; sayl.
  - destruct a as [|v a]; [done|]. cbn [s_push]. rewrite C. destruct s as [[xs []]|]; cbn [lost elems] in E; try done; ex E; unfold push_to; sayl.
  - assert (pop_arg a = pop_number a) as Ep.
    { destruct a as [|x a]; [done|]. unfold pop_arg, pop_number, int_arg. destruct (parse_int x) as [z|]; [|done].
      destruct (z <=? 0) eqn:?, (0 <? z) eqn:?; lia || done. }
    cbn [s_pop]. rewrite Ep. destruct (pop_number a) as [z|]; [|done]. rewrite C.
    destruct s as [[[|x xs] w]|]; ex E; sayl.
  - assert (pop_arg a = pop_number a) as Ep.
    { destruct a as [|x a]; [done|]. unfold pop_arg, pop_number, int_arg. destruct (parse_int x) as [z|]; [|done].
      destruct (z <=? 0) eqn:?, (0 <? z) eqn:?; lia || done. }
    cbn [s_pop]. rewrite Ep. destruct (pop_number a) as [z|]; [|done]. rewrite C.
    destruct s as [[[|x xs] w]|]; ex E; sayl.
  - ex E. cbn [s_llen]. rewrite C. destruct s as [[xs w]|]; sayl.
  - destruct a as [|x [|y a]]; [done..|]. unfold int_arg in E. cbn [s_lrange].
    destruct (parse_int x) as [i|], (parse_int y) as [j|]; try done. rewrite C. ex E. destruct s as [[xs w]|]; cbn [elems fmap option_fmap option_map]; [sayl|].
    rewrite window_nil. sayl.
  - destruct a as [|x [|v a]]; [done..|]. unfold int_arg in E. cbn [s_lset]. destruct (parse_int x) as [i|]; [|done]. rewrite C.
    destruct s as [[xs w]|]; cbn [elems fst snd fmap option_fmap option_map] in *.
    + destruct (set_elem i v xs); ex E; sayl.
    + rewrite set_elem_nil in E. ex E. sayl.
  - destruct a as [|w0 [|p [|v a]]]; [done..|]. cbn [s_linsert]. rewrite C.
    destruct (String.eqb (to_lower w0) "before") eqn:Eb.
    + apply String.eqb_eq in Eb. rewrite Eb. change (String.eqb "before" "after") with false. cbv iota.
      destruct s as [[xs w]|]; cbn [elems fst snd fmap option_fmap option_map insert_before insert_after] in *; [destruct (insert_before p v xs)|]; ex E; sayl.
    + destruct (String.eqb (to_lower w0) "after"); [|done].
      destruct s as [[xs w]|]; cbn [elems fst snd fmap option_fmap option_map insert_before insert_after] in *; [destruct (insert_after p v xs)|]; ex E; sayl.
  - destruct a as [|x [|v a]]; [done..|]. unfold int_arg in E. cbn [s_lrem]. destruct (parse_int x) as [z|]; [|done]. rewrite C. cbv zeta in E.
    destruct (z =? - two63) eqn:Eg.
    { destruct s as [[[|y xs] w]|]; cbn [elems fst snd fmap option_fmap option_map] in *; ex E; sayl. }
    destruct s as [[[|y xs] w]|]; cbn [elems fst snd fmap option_fmap option_map] in *; ex E; [sayl| |sayl].
    sayl.
Qed.

(** *** sets *)
Definition set_corr (s : option (gset string * nat)) (x : option aval) : Prop :=
  x = match s with None => None | Some (X, dr) => Some (ASet X dr) end.
Lemma counted_0 X dr : counted X dr = 0 ↔ X = ∅ ∧ dr = 0%nat.
Proof.
  unfold counted. split.
  - intros H. split; [|lia]. apply leibniz_equiv, size_empty_iff. lia.
  - intros [-> ->]. by rewrite size_empty.
Qed.
Lemma set_ok u : ∀ req s R m, set_corr s (m !! k) → about k req = true → set_step req s = Some R →
  promise ext u k set_corr req s R m.
Proof.
  apply table_promise. intros n f H. unfold key_commands, set_commands in H. unfold set_corr.
  rows H; cbn beta in E.
  - ex E. cbn [s_del]. destruct s as [[X dr]|]; rewrite C; apply vp_says; by rewrite lookup_delete.
  - ex E. cbn [s_exists]. destruct s as [[X dr]|]; rewrite C; by apply vp_says.
  - ex E. cbn [s_type]. destruct s as [[X dr]|]; rewrite C; by apply vp_says.
  - destruct a as [|v a]; [done|]. ex E. cbn [s_sadd]. unfold add_members.
    destruct s as [[X dr]|]; rewrite C; apply vp_says; by rewrite lookup_insert.
  - destruct a as [|v a]; [done|]. ex E. cbn [s_srem].
    destruct s as [[X dr]|]; rewrite C.
    + apply vp_says. by rewrite lookup_insert.
    + assert (∀ Y : gset string, size (members None ∩ Y) = 0%nat) as -> by (intros Y; cbn [members]; by rewrite intersection_empty_l_L, size_empty).
      by apply vp_says.
  - destruct a as [|v a]; [done|]. ex E. cbn [s_sismember].
    destruct s as [[X dr]|]; rewrite C; cbn [members].
    + by apply vp_says.
    + rewrite bool_decide_eq_false_2 by set_solver. by apply vp_says.
  - ex E. cbn [s_scard]. destruct s as [[X dr]|]; rewrite C; cbn [surplus members].
    + unfold counted. rewrite Nat2Z.inj_add. by apply vp_says.
    + rewrite size_empty. by apply vp_says.
  - ex E. cbn [s_smembers]. destruct s as [[X dr]|]; rewrite C; cbn [members surplus].
    + destruct (counted X dr =? 0) eqn:Ec.
      * apply Z.eqb_eq, counted_0 in Ec as [-> ->]. rewrite bool_decide_eq_true_2 by done. split; [done|]. intros r m1 [-> ->].
        by eexists _, (Some (∅, 0%nat)).
      * split; [done|]. intros r m1 [-> (l & -> & Hl & Hx)]. eexists _, (Some (X, dr)). split; [done|]. split; [|done]. split; [done|].
        assert (bool_decide (X = ∅) && (dr =? 0)%nat = false) as ->; [|by exists l].
        apply andb_false_iff. case_bool_decide as HX; [right|by left]. apply Nat.eqb_neq. intros ->.
        subst X. unfold counted in Ec. rewrite size_empty in Ec. done.
    + rewrite bool_decide_eq_true_2 by done. split; [done|]. intros r m1 [-> ->]. by eexists _, None.
  - destruct a as [|x a]; [done|]. unfold int_arg in E. cbn [s_spop]. destruct (parse_int x) as [z|]; [|done]. ex E.
    destruct s as [[X dr]|]; rewrite C; cbn [members].
    + split; [done|]. intros r m1 (l & -> & Hn & Hl & Hlen & ->). eexists _, _. split; [done|]. split; [by exists l|].
      by rewrite lookup_insert.
    + split; [done|]. intros r m1 [-> ->]. eexists _, None. split; [done|]. split; [|done]. exists []. split; [done|]. split; [constructor|].
      split; [set_solver|]. rewrite size_empty. split; [|done]. simpl. lia.
Qed.

(** *** sorted sets *)
Definition zset_corr (s : option (list zkey * gmap string float)) (x : option aval) : Prop :=
  x = match s with None => None | Some (es, gh) => Some (AZSet es gh) end.
Lemma add_pair_ok fl f v es gh : add_pair (o_incr fl) (o_nx fl) (o_xx fl) f v es (dom gh) = zadd_one fl (f, v) es gh.
Proof.
  unfold add_pair, zadd_one. cbn [fst snd]. destruct (gh !! v) eqn:Eg.
  - rewrite bool_decide_eq_true_2; [done|]. by eapply elem_of_dom_2.
  - rewrite bool_decide_eq_false_2; [done|]. by apply not_elem_of_dom.
Qed.
Lemma add_pairs_ok fl l : ∀ es gh, add_pairs fl l es (dom gh) = zadd_many fl l es gh.
Proof.
  induction l as [|[f v] l IH]; intros es gh; [done|]. cbn [add_pairs zadd_many]. rewrite add_pair_ok.
  destruct (zadd_one _ _ _ _) as [[es' o]|]; [|done]. by rewrite IH.
Qed.
Lemma zset_view s m : zset_corr s (m !! k) → zset_at m k = Some (pairs s, gone s).
Proof. unfold zset_at. intros ->. by destruct s as [[es gh]|]. Qed.
Lemma fits_dec es : (two63 - 2 <=? zlen es) = false → fits es.
Proof. unfold fits. lia. Qed.
Lemma vp_guarded {A} (corr : A → option aval → Prop) (G : Prop) v m R : G → vpromise k corr v R → vpromise k corr (guarded G v m) R.
Proof. intros HG [V1 V2]. split; [done|]. intros r m1 [-> HV]. by apply V2, HV. Qed.

Lemma remove_low_ok vs : ∀ es gh, remove_low vs es gh = zrem_many vs es gh.
Proof.
  induction vs as [|v vs IH]; intros es gh; cbn [remove_low zrem_many]; [done|].
  destruct (gh !! v); [by rewrite IH|]. destruct (zindex v es) as [i|]; rewrite ?IH; [done|]. by destruct (zrem_many vs es gh) as [[[? ?] ?]|].
Qed.
Lemma zset_ok : ∀ req s R m, zset_corr s (m !! k) → about k req = true → zset_step ext req s = Some R →
  promise ext false k zset_corr req s R m.
Proof.
  apply table_promise. intros n f H. unfold key_commands, zset_commands in H.
  rows H; cbn beta in E.
  - ex E. cbn [s_del]. unfold zset_corr in C. destruct s as [[X b]|]; rewrite C; apply vp_says; by rewrite lookup_delete.
  - ex E. cbn [s_exists]. unfold zset_corr in C. destruct s as [[X b]|]; rewrite C; by apply vp_says.
  - ex E. cbn [s_type]. unfold zset_corr in C. destruct s as [[X b]|]; rewrite C; by apply vp_says.
  - destruct a as [|x [|y a]]; [done..|]. cbn [s_zadd].
    destruct (zadd_parse ext (x :: y :: a) _) as [[fl l]|]; [|ex E; by apply vp_says].
    rewrite (zset_view s m C). unfold popped in E. rewrite add_pairs_ok in E. destruct (zadd_many fl l (pairs s) (gone s)) as [[es n]|]; [|done]. ex E.
    apply vp_says. by rewrite lookup_insert.
  - destruct a as [|x [|v a]]; [done..|]. cbn [s_zincr].
    destruct (parse_float ext x) as [f|]; [|ex E; by apply vp_says]. rewrite (zset_view s m C). unfold popped in E.
    rewrite <- (add_pair_ok (ZO true false false) f v (pairs s) (gone s)). cbn [o_incr o_nx o_xx].
    destruct (add_pair true false false f v (pairs s) (dom (gone s))) as [[es [g|]]|]; [| |done]; ex E; apply vp_says; by rewrite lookup_insert.
  - cbn [s_zcard]. rewrite (zset_view s m C). ex E. by apply vp_says.
  - destruct a as [|v a]; [done|]. cbn [s_zscore]. rewrite (zset_view s m C). ex E.
    destruct (pairs s) as [|e es] eqn:Ee; by apply vp_says.
  - destruct a as [|v a]; [done|]. cbn [s_zrank]. rewrite (zset_view s m C).
    destruct (two63 - 2 <=? zlen (pairs s)) eqn:Ef; [done|]. ex E.
    destruct (pairs s) as [|e es] eqn:Ee; [by apply vp_says|]. destruct (gone s !! v); (apply vp_guarded; [by apply fits_dec|]); by apply vp_says.
  - destruct a as [|x [|y [|? ?]]]; [done..| |done]. cbn [s_zrange]. unfold range_spec, int_arg in *.
    rewrite (zset_view s m C).
    destruct (two63 - 2 <=? zlen (pairs s)) eqn:Ef; [done|].
    destruct (parse_int x) as [i|] eqn:Ei; [|done]. destruct (parse_int y) as [j|] eqn:Ej; [|done]. ex E.
    assert (∀ w, (w = "byscore" ∨ w = "withscores")%string → mentions w [y] = false) as Hm.
    { intros w Hw. unfold mentions. simpl. rewrite orb_false_r. apply String.eqb_neq. intros Ey. by apply (number_not_word y j w). }
    rewrite !Hm by auto.
    destruct (pairs s) as [|e es] eqn:Ee; [by apply vp_says|].
    apply vp_guarded; [by apply fits_dec|]. unfold shown. rewrite (show_plain ext). by apply vp_says.
  - destruct a as [|x [|? ?]]; [done| |done]. cbn [s_zpop]. unfold int_arg in E. rewrite (zset_view s m C).
    destruct (two63 - 2 <=? zlen (pairs s)) eqn:Ef; [done|].
    destruct (parse_int x) as [z|]; [|done]. ex E.
    destruct s as [[es P]|].
    + cbn [pairs gone] in *. destruct es as [|e es].
      * rewrite take_nil, drop_nil. by apply vp_says.
      * assert (zpop_ok false (Z.to_nat z) (e :: es) = true) as ->.
        { unfold zpop_ok. destruct (zlen (e :: es) <? two63 - 2) eqn:E1; [done|]. lia. }
        apply vp_says. by rewrite lookup_insert.
    + cbn [pairs]. rewrite take_nil. by apply vp_says.
  - destruct a as [|x [|? ?]]; [done| |done]. cbn [s_zpop]. unfold int_arg in E. rewrite (zset_view s m C).
    destruct (parse_int x) as [z|]; [|done].
    destruct ((zlen (pairs s) <? two63 - 2) && ((z <=? 0) || ((z <=? zlen (pairs s)) && (zlen (pairs s) <=? 2)))) eqn:Eg; [|done]. ex E.
    destruct s as [[es P]|].
    + cbn [pairs gone] in *. destruct es as [|e es].
      * change (reverse (@nil zkey)) with (@nil zkey). rewrite take_nil, drop_nil. by apply vp_says.
      * assert (zpop_ok true (Z.to_nat z) (e :: es) = true) as ->.
        { unfold zpop_ok, zlen in *. apply andb_true_iff in Eg as [-> Eg]. cbn [andb]. apply orb_true_iff in Eg as [Eg|Eg]; apply orb_true_iff.
          - left. apply Nat.eqb_eq. lia.
          - right. apply andb_true_iff in Eg as [E1 E2]. apply andb_true_iff. split; apply Nat.leb_le; lia. }
        apply vp_says. by rewrite lookup_insert.
    + cbn [pairs]. change (reverse (@nil zkey)) with (@nil zkey). rewrite take_nil. by apply vp_says.
  - destruct a as [|v vs]; [done|]. cbn [s_zrem]. rewrite (zset_view s m C).
    destruct (pairs s) as [|e es] eqn:Ep; [ex E; by apply vp_says|]. rewrite remove_low_ok in E.
    destruct (zrem_many (v :: vs) (e :: es) (gone s)) as [[[es' gh'] n]|] eqn:Er; [|done]. ex E. apply vp_says. by rewrite lookup_insert.
  - destruct a as [|x [|y [|? ?]]]; [done..| |done]. cbn [s_zrevrange]. unfold int_arg in *.
    rewrite (zset_view s m C).
    destruct (two63 - 2 <=? zlen (pairs s)) eqn:Ef; [done|].
    destruct (parse_int x) as [i|] eqn:Ei; [|done]. destruct (parse_int y) as [j|] eqn:Ej; [|done]. ex E.
    assert (mentions "withscores" [y] = false) as Hm.
    { unfold mentions. simpl. rewrite orb_false_r. apply String.eqb_neq. intros Ey. apply (number_not_word y j "withscores"); auto. }
    rewrite Hm.
    destruct (pairs s) as [|e es] eqn:Ee; [by apply vp_says|].
    apply vp_guarded; [by apply fits_dec|]. unfold shown. rewrite (show_plain ext). by apply vp_says.
Qed.
End types.
