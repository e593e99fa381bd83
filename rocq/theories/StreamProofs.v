(** Facts about the decoder on a stream (Stream.v). *)
From Verif Require Import GoBase GoBaseProofs Db Protocol SpecWire SpecStream P_Wire Stream.

(** all the bytes that have arrived and are not consumed *)
Definition flat (rd : reader) : string := rd_buf rd +:+ sconcat (rd_in rd).
(** more bytes arrive, or the connection ends *)
Definition grow (more : list string) (e : option ending) (rd : reader) : reader := Rd (rd_buf rd) (rd_in rd ++ more) e.

Lemma unread_flat rd : unread rd = String.length (flat rd).
Proof.
  unfold unread, flat. rewrite length_app_s. f_equal. induction (rd_in rd) as [|c l IH]; [done|]. cbn [fmap list_fmap sum_list sconcat].
  change (sum_list (String.length <$> c :: l)) with (String.length c + sum_list (String.length <$> l))%nat. by rewrite length_app_s, IH.
Qed.
Lemma read_line_more b l t x : read_line b = Some (l, t) → read_line (b +:+ x) = Some (l, t +:+ x).
Proof. intros H. destruct (read_line_shape _ _ _ H) as (c & l' & _ & -> & _). rewrite <- app_assoc_s. by eapply read_line_swap. Qed.
Lemma line_from_got ins : ∀ b e l rd1, line_from b ins e = Got l rd1 → read_line (b +:+ sconcat ins) = Some (l, flat rd1) ∧ rd_end rd1 = e.
Proof.
  induction ins as [|c ins IH]; intros b e l rd1; cbn [line_from sconcat].
  - destruct (read_line b) as [[l1 t]|] eqn:E; [|by destruct e]. intros [= -> <-]. split; [|done]. unfold flat. cbn [rd_buf rd_in sconcat]. by apply read_line_more.
  - destruct (read_line b) as [[l1 t]|] eqn:E.
    + intros [= -> <-]. split; [|done]. unfold flat. cbn [rd_buf rd_in sconcat]. by apply read_line_more.
    + intros H. apply IH in H as [H ->]. split; [|done]. by rewrite app_assoc_s.
Qed.
Lemma stream_line_got rd l rd1 : stream_line rd = Got l rd1 → read_line (flat rd) = Some (l, flat rd1) ∧ rd_end rd1 = rd_end rd.
Proof. apply line_from_got. Qed.
Lemma line_from_fail ins : ∀ b e x rd1, line_from b ins e = Fail x rd1 → ∃ y, x = Ended y ∧ e = Some y ∧ rd1 = Rd "" [] e.
Proof.
  induction ins as [|c ins IH]; intros b e x rd1; cbn [line_from].
  - destruct (read_line b) as [[]|]; [done|]. destruct e as [y|]; [|done]. intros [= <- <-]. by exists y.
  - destruct (read_line b) as [[]|]; [done|]. apply IH.
Qed.
Lemma line_from_wait ins : ∀ b e, line_from b ins e = Wait → e = None.
Proof.
  induction ins as [|c ins IH]; intros b e; cbn [line_from].
  - destruct (read_line b) as [[]|]; [done|]. by destruct e.
  - destruct (read_line b) as [[]|]; [done|]. apply IH.
Qed.
Lemma line_from_grow ins : ∀ b e l rd1 more e', line_from b ins e = Got l rd1 → line_from b (ins ++ more) e' = Got l (grow more e' rd1).
Proof.
  induction ins as [|c ins IH]; intros b e l rd1 more e'; cbn [line_from app].
  - destruct (read_line b) as [[l1 t]|] eqn:E; [|by destruct e]. intros [= -> <-]. unfold grow. cbn [rd_buf rd_in app]. destruct more as [|m more]; cbn [line_from]; by rewrite E.
  - destruct (read_line b) as [[l1 t]|] eqn:E; [|apply IH]. by intros [= -> <-].
Qed.
Lemma take_pad_length n : ∀ b v t, take_pad n b = (v, t) → String.length v = n.
Proof.
  induction n as [|n IH]; intros b v t; cbn [take_pad]; [by intros [= <- <-]|]. destruct b as [|c b]; destruct (take_pad n _) as [v1 t1] eqn:E; intros [= <- <-]; cbn [String.length]; f_equal; by eapply IH.
Qed.
Lemma stream_full_got n rd v rd1 : stream_full n rd = Got v rd1 → String.length v = n ∧ (∃ u, flat rd = u +:+ flat rd1) ∧ rd_end rd1 = rd_end rd.
Proof.
  unfold stream_full. destruct rd as [b ins e]. cbn [rd_buf rd_in rd_end]. destruct b as [|c b].
  - destruct ins as [|c ins]; [by destruct e|]. destruct (take_pad n c) as [v1 t] eqn:E. intros [= -> <-]. split; [by eapply take_pad_length|].
    destruct (take_pad_split _ _ _ _ E) as (u & -> & _). split; [|done]. exists u. unfold flat. cbn [rd_buf rd_in sconcat]. by rewrite sapp_nil_l, app_assoc_s.
  - destruct (take_pad n (String c b)) as [v1 t] eqn:E. intros [= -> <-]. split; [by eapply take_pad_length|].
    destruct (take_pad_split _ _ _ _ E) as (u & -> & _). split; [|done]. exists u. unfold flat. cbn [rd_buf rd_in sconcat]. by rewrite app_assoc_s.
Qed.
Lemma stream_full_fail n rd x rd1 : stream_full n rd = Fail x rd1 → ∃ y, x = Ended y ∧ rd_end rd = Some y ∧ rd1 = Rd "" [] (rd_end rd).
Proof.
  unfold stream_full. destruct rd as [b ins e]. cbn [rd_buf rd_in rd_end]. destruct b as [|c b].
  - destruct ins as [|c ins]; [|by destruct (take_pad n c)]. destruct e as [y|]; [|done]. intros [= <- <-]. by exists y.
  - by destruct (take_pad n (String c b)).
Qed.
Lemma stream_full_wait n rd : stream_full n rd = Wait → rd_end rd = None.
Proof.
  unfold stream_full. destruct rd as [b ins e]. cbn [rd_buf rd_in rd_end]. destruct b as [|c b]; [|by destruct (take_pad n (String c b))].
  destruct ins as [|c ins]; [|by destruct (take_pad n c)]. by destruct e.
Qed.
Lemma stream_full_grow n rd v rd1 more e' : stream_full n rd = Got v rd1 → stream_full n (grow more e' rd) = Got v (grow more e' rd1).
Proof.
  unfold stream_full, grow. destruct rd as [b ins e]. cbn [rd_buf rd_in rd_end]. destruct b as [|c b].
  - destruct ins as [|c ins]; [by destruct e|]. cbn [app]. destruct (take_pad n c) as [v1 t]. by intros [= -> <-].
  - destruct (take_pad n (String c b)) as [v1 t]. by intros [= -> <-].
Qed.

Lemma length_loop_bound s : ∀ z n, z < two63 → length_loop s z = Ret n → n < two63.
Proof.
  induction s as [|c s IH]; intros z n Hz; cbn [length_loop]; [done|]. destruct (Ascii.eqb c CR); [by intros [= <-]|]. apply IH.
  unfold wrap64. pose proof (Z.mod_pos_bound (z * 10 + (byte_val c - 48) mod 256 + two63) two64 ltac:(done)). unfold two63, two64 in *. lia.
Qed.
Lemma single_bound l r n d r2 : decode_single_line l r = Ret (DOk (n, d, r2)) → n < two63.
Proof.
  unfold decode_single_line. destruct (slen l <? 3); [done|]. cbv zeta. destruct l as [|c l]; [done|]. destruct (_ || _).
  - destruct (read_length (String c l)) as [m| |] eqn:E; [|done..]. intros [= <- _ _]. cbn [read_length] in E. destruct (Ascii.eqb c "-"); [by injection E as <-|].
    by eapply length_loop_bound in E.
  - destruct (_ || _ || _); [by intros [= <- _ _]|]. destruct (String.eqb _ _); [by intros [= <- _ _]|done].
Qed.

(** what is used up, piece by piece *)
Definition pieces (rd : reader) : list string := rd_buf rd :: rd_in rd.
Lemma used_up_app p v1 q v2 r : used_up p v1 q → used_up q v2 r → used_up p (v1 +:+ v2) r.
Proof.
  induction 1 as [ps|a b ps v rest H IH|ps v rest H IH|ps v rest H IH]; intros H2.
  - by rewrite sapp_nil_l.
  - rewrite <- app_assoc_s. apply tk_part. auto.
  - apply tk_next. auto.
  - rewrite sapp_cons. apply tk_pad. auto.
Qed.
Lemma used_up_all a ps v rest : used_up ps v rest → used_up (a :: ps) (a +:+ v) rest.
Proof. intros H. rewrite <- (string_app_nil_r a) at 1. by apply tk_part, tk_next. Qed.
Lemma used_up_prefix a b ps : used_up ((a +:+ b) :: ps) a (b :: ps).
Proof. rewrite <- (string_app_nil_r a) at 2. apply tk_part, tk_done. Qed.
Lemma used_up_exact p v rest : used_up p v rest → no_nul v → sconcat p = v +:+ sconcat rest.
Proof.
  induction 1 as [ps|a b ps v rest H IH|ps v rest H IH|ps v rest H IH]; cbn [sconcat]; intros N.
  - done.
  - assert (∀ x y, no_nul (x +:+ y) → no_nul y) as K by (induction x as [|c x IHx]; intros y; [done|rewrite sapp_cons; intros [_ Hn]; auto]).
    cbn [sconcat] in IH. rewrite <- !app_assoc_s, IH; [done|]. by eapply K.
  - auto.
  - by destruct N.
Qed.
Lemma read_line_later b c l t : read_line b = None → read_line (b +:+ c) = Some (l, t) → ∃ l2, l = b +:+ l2 ∧ c = l2 +:+ t.
Proof.
  revert l. induction b as [|x b IH]; intros l H E.
  - exists l. split; [done|]. destruct (read_line_shape _ _ _ E) as (c0 & l' & -> & Hc & _). done.
  - rewrite sapp_cons in E. cbn [read_line] in H, E. destruct (Ascii.eqb x LF) eqn:Ex; [done|]. destruct (read_line b) as [[]|]; [done|].
    destruct (read_line (b +:+ c)) as [[l1 t1]|] eqn:E1; [|done]. injection E as <- <-. destruct (IH l1 eq_refl eq_refl) as (l2 & -> & ->). by exists l2.
Qed.
Lemma line_from_later ins : ∀ b e l rd1, read_line b = None → line_from b ins e = Got l rd1 → ∃ l2, l = b +:+ l2 ∧ used_up ins l2 (pieces rd1).
Proof.
  induction ins as [|c ins IH]; intros b e l rd1 Hb; cbn [line_from]; rewrite Hb; [by destruct e|].
  destruct (read_line (b +:+ c)) as [[l1 t]|] eqn:E.
  - destruct ins; cbn [line_from]; rewrite E; intros [= <- <-]; destruct (read_line_later _ _ _ _ Hb E) as (l2 & -> & ->); exists l2; (split; [done|]); apply used_up_prefix.
  - intros H. destruct (IH _ _ _ _ E H) as (l2 & -> & T). exists (c +:+ l2). split; [by rewrite app_assoc_s|]. by apply used_up_all.
Qed.
Lemma stream_line_taken rd l rd1 : stream_line rd = Got l rd1 → used_up (pieces rd) l (pieces rd1).
Proof.
  destruct rd as [b ins e]. unfold stream_line, pieces at 1. cbn [rd_buf rd_in rd_end]. intros H. destruct (read_line b) as [[l1 t]|] eqn:E.
  - assert (line_from b ins e = Got l1 (Rd t ins e)) as E2 by (destruct ins; cbn [line_from]; by rewrite E). rewrite E2 in H. injection H as <- <-.
    destruct (read_line_shape _ _ _ E) as (c0 & l' & -> & -> & _). unfold pieces. cbn [rd_buf rd_in]. apply used_up_prefix.
  - destruct (line_from_later _ _ _ _ _ E H) as (l2 & -> & T). by apply used_up_all.
Qed.
Lemma take_pad_taken n : ∀ b ps v t, take_pad n b = (v, t) → used_up (b :: ps) v (t :: ps).
Proof.
  induction n as [|n IH]; intros b ps v t; cbn [take_pad]; [intros [= <- <-]; apply tk_done|]. destruct b as [|c b].
  - destruct (take_pad n EmptyString) as [v1 t1] eqn:E. intros [= <- <-]. by apply tk_pad, IH.
  - destruct (take_pad n b) as [v1 t1] eqn:E. intros [= <- <-]. apply (tk_part (String c EmptyString) b ps v1 (t1 :: ps)). by apply IH.
Qed.
Lemma stream_full_taken n rd v rd1 : stream_full n rd = Got v rd1 → used_up (pieces rd) v (pieces rd1).
Proof.
  destruct rd as [b ins e]. unfold stream_full, pieces. cbn [rd_buf rd_in rd_end]. destruct b as [|c b].
  - destruct ins as [|c ins]; [by destruct e|]. destruct (take_pad n c) as [v1 t] eqn:E. intros [= -> <-]. by apply tk_next, take_pad_taken with n.
  - destruct (take_pad n (String c b)) as [v1 t] eqn:E. intros [= -> <-]. by apply take_pad_taken with n.
Qed.

Section facts.
Context (max : Z).

(** what the outcome [x] of decoding from [rd] can be; [plain]: the decoder on a buffer *)
Definition explained (rd : reader) (plain : string → outcome (dres (receive * string))) (x : outcome (rres receive)) : Prop :=
  match x with
  | Ret (Got r rd1) => (∃ u, flat rd = u +:+ flat rd1) ∧ rd_end rd1 = rd_end rd ∧ ∃ v, used_up (pieces rd) v (pieces rd1) ∧ ∀ t, plain (v +:+ t) = Ret (DOk (r, t))
  | Ret (Fail (Ended y) rd1) => rd_end rd = Some y ∧ rd1 = Rd "" [] (Some y)
  | Ret (Fail BadInput rd1) => (∃ u, flat rd = u +:+ flat rd1) ∧ rd_end rd1 = rd_end rd ∧
      ∃ v, used_up (pieces rd) v (pieces rd1) ∧ ∀ t, ∃ e, plain (v +:+ t) = Ret (DErr e)
  | Ret Wait => rd_end rd = None
  | Panic => max < two63 → ∃ c mid, header_in (flat rd) c mid ∧ bad_header max c mid
  | OutOfFuel => False
  end.

Lemma stream_bulk_ok ln r rd : ln < two63 →
  match stream_bulk max ln r rd with
  | Ret (Got r' rd1) => (∃ u, flat rd = u +:+ flat rd1) ∧ rd_end rd1 = rd_end rd ∧ ∃ v, used_up (pieces rd) v (pieces rd1) ∧ ∀ t, read_bulk max ln r (v +:+ t) = Ret (DOk (r', t))
  | Ret (Fail (Ended y) rd1) => rd_end rd = Some y ∧ rd1 = Rd "" [] (Some y)
  | Ret (Fail BadInput rd1) => rd1 = rd ∧ ∀ b, ∃ e, read_bulk max ln r b = Ret (DErr e)
  | Ret Wait => rd_end rd = None
  | Panic => ∀ b, read_bulk max ln r b = Panic
  | OutOfFuel => False
  end.
Proof.
  intros Hln. unfold stream_bulk, read_bulk. destruct (Z.ltb_spec ln 0) as [H0|H0]; [split; [done|]; eauto|]. cbv zeta. destruct (Z.ltb_spec (wrap64 (ln + 2)) 0) as [Hn|Hn]; [done|].
  cbn [orb]. destruct (max <? wrap64 (ln + 2)) eqn:Em; [done|]. destruct (stream_full (Z.to_nat (wrap64 (ln + 2))) rd) as [v rd1|e rd1|] eqn:E; cbn [rbind].
  - pose proof (stream_full_taken _ _ _ _ E) as Tk. apply stream_full_got in E as (Hv & Hu & He). split; [done|]. split; [done|]. destruct v as [|c v].
    + exfalso. cbn [String.length] in Hv. assert (wrap64 (ln + 2) = 0) as Hz by lia. destruct (Z.ltb_spec (ln + 2) two63) as [H2|H2].
      * rewrite wrap64_small in Hz by (unfold two63 in *; lia). lia.
      * unfold wrap64 in Hz. pose proof (Z.mod_pos_bound (ln + 2 + two63) two64 ltac:(done)). replace (ln + 2 + two63) with (ln + 2 - two63 + 1 * two64) in Hz by (unfold two63, two64; lia).
        rewrite Z.mod_add, Z.mod_small in Hz by (unfold two63, two64 in *; lia). unfold two63 in *. lia.
    + exists (String c v). split; [done|]. intros t. rewrite sapp_cons. cbn [read_full]. rewrite <- sapp_cons, <- Hv, take_pad_app. done.
  - apply stream_full_fail in E as (y & -> & Hy & ->). by rewrite Hy.
  - by apply stream_full_wait in E.
Qed.

Lemma header_suffix b x : (∃ u, b = u +:+ x) → (∃ c mid, header_in x c mid ∧ bad_header max c mid) → ∃ c mid, header_in b c mid ∧ bad_header max c mid.
Proof. intros [u ->] (c & mid & H1 & H2). exists c, mid. split; [by apply header_in_app|done]. Qed.
Lemma suffix_trans (a b c : string) : (∃ u, a = u +:+ b) → (∃ u, b = u +:+ c) → ∃ u, a = u +:+ c.
Proof. intros [u ->] [v ->]. exists (u +:+ v). by rewrite app_assoc_s. Qed.

Lemma stream_array_ok f : ∀ ln r rd, (unread rd < f)%nat →
  explained rd (λ b, read_array max (S (String.length b)) ln r b) (stream_array max f ln r rd).
Proof.
  induction f as [|f IH]; intros ln r rd Hf; [lia|]. cbn [stream_array]. destruct (ln <=? 0) eqn:Eln.
  { simpl. split; [by exists EmptyString|]. split; [done|]. exists EmptyString. split; [constructor|]. intros t. cbn [read_array]. by rewrite Eln. }
  destruct (stream_line rd) as [l rd1|e rd1|] eqn:El; cbn [rbind].
  2: { apply line_from_fail in El as (y & -> & Hy & ->). simpl. by rewrite Hy. }
  2: { by apply line_from_wait in El. }
  pose proof (stream_line_taken _ _ _ El) as Tl. apply stream_line_got in El as [El He1]. destruct (read_line_shape _ _ _ El) as (c & l' & -> & Efl & Hlt). rewrite unread_flat in Hf.
  assert (∃ u, flat rd = u +:+ flat rd1) as Hs1 by (rewrite Efl; by eexists).
  set (sub := if Ascii.eqb c "*" then _ else _).
  assert (explained rd1 (λ b, if Ascii.eqb c "*" then let* n := read_length (String c l') in read_array max (S (String.length b)) n r b else Ret (DOk (r, b))) sub ∨
          (sub = Panic ∧ ∃ c mid, header_in (flat rd) c mid ∧ bad_header max c mid)) as Hsub.
  { subst sub. destruct (Ascii.eqb_spec c "*") as [->|].
    - pose proof (read_length_fuel (String "*" l')). destruct (read_length (String "*" l')) as [n| |] eqn:En; cbn [obind].
      + left. apply IH. rewrite unread_flat. lia.
      + right. split; [done|]. exists "*"%char. eapply read_length_panic; [exact El|by right|done].
      + done.
    - left. simpl. split; [by exists EmptyString|]. split; [done|]. exists EmptyString. split; [constructor|done]. }
  destruct Hsub as [Hsub|[-> Hp]]; [|by simpl].
  destruct sub as [[r1 rd2|[y|] rd2|]| |]; cbn [rbind]; cbn [explained] in Hsub.
  2: { simpl. by rewrite <- He1. }
  2: { cbn [explained]. destruct Hsub as (H1 & H2 & v1 & Tk1 & K1). split; [by eapply suffix_trans|]. split; [by rewrite H2|]. exists (String c l' +:+ v1).
       split; [by eapply used_up_app|]. intros t. destruct (K1 t) as [e K]. exists e. cbv beta in K. rewrite <- app_assoc_s. cbn [read_array]. rewrite Eln, (read_line_swap _ _ _ (v1 +:+ t) El).
       destruct (Ascii.eqb c "*"); [|discriminate K]. destruct (read_length (String c l')) as [m| |]; cbn [obind] in *; [|done|done].
       rewrite (read_array_fuel max (S (String.length (v1 +:+ t)))); [by rewrite K| |by rewrite K]. rewrite (length_app_s (String c l')). cbn [String.length]. lia. }
  2: { simpl. by rewrite <- He1. }
  2: { simpl. intros Hm. eapply header_suffix; [exact Hs1|by apply Hsub]. }
  2: { done. }
  destruct Hsub as (Hs2 & He2 & v1 & Tk1 & K1). assert (∃ u, flat rd = u +:+ flat rd2) as Hs by (by eapply suffix_trans).
  assert (String.length (flat rd2) < f)%nat as Hf2 by (destruct Hs2 as [u E2]; rewrite E2, length_app_s in Hlt; lia).
  assert (∀ b2, let b := String c l' +:+ v1 +:+ b2 in (String.length b2 < String.length b)%nat ∧
    read_array max (S (String.length b)) ln r b =
      let* dl := decode_single_line (String c l') r1 in
      match dl with
      | DErr e => Ret (DErr e)
      | DOk (n, desc, r2) =>
          if Ascii.eqb desc "$" then let* bs := read_bulk max n r2 b2 in match bs with DErr e => Ret (DErr e) | DOk (r3, rest2) => read_array max (String.length b) (ln - 1) r3 rest2 end
          else read_array max (String.length b) (ln - 1) r2 b2
      end) as Go.
  { intros b2 b. assert (String.length b2 ≤ String.length (v1 +:+ b2) < String.length b)%nat as Hb.
    { subst b. rewrite (length_app_s (String c l')). cbn [String.length]. rewrite length_app_s. lia. }
    split; [lia|]. pose proof (read_line_swap _ _ _ (v1 +:+ b2) El) as Rl. fold b in Rl. cbn [read_array]. rewrite Eln, Rl.
    assert ((if Ascii.eqb c "*" then let* n := read_length (String c l') in read_array max (String.length b) n r (v1 +:+ b2) else Ret (DOk (r, v1 +:+ b2))) = Ret (DOk (r1, b2))) as ->; [|done].
    specialize (K1 b2). destruct (Ascii.eqb c "*"); [|done]. destruct (read_length (String c l')) as [m| |]; cbn [obind] in *; [|done|done].
    rewrite <- K1. apply read_array_fuel; [lia|]. by rewrite K1. }
  destruct (decode_single_line (String c l') r1) as [[[[n de] r2]|e]| |] eqn:Ed; cbn [obind] in Go |- *.
  2: { cbn [explained]. split; [done|]. split; [by rewrite He2|]. exists (String c l' +:+ v1). split; [by eapply used_up_app|]. intros t. exists e. rewrite <- app_assoc_s. apply Go. }
  2: { simpl. intros Hm. by eapply single_panic. }
  2: { by apply single_fuel in Ed. }
  assert (∀ rd3 r3 rest, (∃ u, flat rd2 = u +:+ flat rd3) → rd_end rd3 = rd_end rd2 →
    (∃ v2, used_up (pieces rd2) v2 (pieces rd3) ∧ ∀ t, (if Ascii.eqb de "$" then let* bs := read_bulk max n r2 (v2 +:+ t) in match bs with DErr e => Ret (DErr e) | DOk (r3, rest2) => rest r3 rest2 end else rest r2 (v2 +:+ t)) = rest r3 t) →
    rest = (λ r3 b, read_array max (S (String.length b)) (ln - 1) r3 b) →
    explained rd (λ b, read_array max (S (String.length b)) ln r b) (stream_array max f (ln - 1) r3 rd3)) as K.
  { intros rd3 r3 rest Hs3 He3 (v2 & Tk2 & K2) ->. assert (String.length (flat rd3) < f)%nat as Hf3 by (destruct Hs3 as [u E3]; rewrite E3, length_app_s in Hf2; lia).
    assert (∃ u, flat rd = u +:+ flat rd3) as Hs' by (by eapply suffix_trans). rewrite <- unread_flat in Hf3. specialize (IH (ln - 1) r3 rd3 Hf3).
    assert (∀ t, read_array max (S (String.length t)) (ln - 1) r3 t ≠ OutOfFuel → let b := String c l' +:+ v1 +:+ v2 +:+ t in
      read_array max (S (String.length b)) ln r b = read_array max (S (String.length t)) (ln - 1) r3 t) as Gone.
    { intros t Ht b. destruct (Go (v2 +:+ t)) as [Hb G]. subst b. rewrite G. clear G. specialize (K2 t). cbv beta in K2. rewrite <- K2 in Ht |- *. destruct (Ascii.eqb de "$").
      - destruct (read_bulk max n r2 (v2 +:+ t)) as [[[r5 rest5]|e]| |] eqn:Ebk; cbn [obind] in *; [|done|done|done]. apply read_array_fuel; [|done].
        destruct (read_bulk_split _ _ _ _ _ _ Ebk) as (u5 & E5 & _).
        assert (String.length rest5 ≤ String.length (v2 +:+ t))%nat by (rewrite E5, length_app_s; lia). lia.
      - apply read_array_fuel; [lia|done]. }
    destruct (stream_array max f (ln - 1) r3 rd3) as [[r4 rd4|[y|] rd4|]| |]; cbn [explained] in IH |- *.
    - destruct IH as (Hs4 & He4 & v3 & Tk3 & K3). split; [by eapply suffix_trans|]. split; [congruence|]. exists (String c l' +:+ v1 +:+ v2 +:+ v3).
      split; [by repeat (eapply used_up_app; [eassumption|])|]. intros t.
      rewrite <- !app_assoc_s. rewrite Gone by (by rewrite K3). apply K3.
    - destruct IH as [H1 H2]. split; [congruence|done].
    - destruct IH as (Hs4 & He4 & v3 & Tk3 & K3). split; [by eapply suffix_trans|]. split; [congruence|]. exists (String c l' +:+ v1 +:+ v2 +:+ v3).
      split; [by repeat (eapply used_up_app; [eassumption|])|]. intros t. destruct (K3 t) as [e K4]. exists e.
      rewrite <- !app_assoc_s. rewrite Gone by (by rewrite K4). apply K4.
    - congruence.
    - intros Hm. eapply header_suffix; [exact Hs'|by apply IH].
    - done. }
  destruct (Ascii.eqb_spec de "$") as [->|Hde].
  - pose proof (stream_bulk_ok n r2 rd2 (single_bound _ _ _ _ _ Ed)) as B. destruct (stream_bulk max n r2 rd2) as [[r3 rd3|[y|] rd3|]| |]; cbn [rbind].
    + destruct B as (Hs3 & He3 & v2 & Tk2 & K2). eapply K; [done|done| |reflexivity]. exists v2. split; [done|]. intros t. change (Ascii.eqb "$" "$") with true. cbv iota. by rewrite K2.
    + simpl. destruct B as [B1 B2]. split; [congruence|done].
    + simpl. destruct B as [-> B]. split; [done|]. split; [congruence|]. exists (String c l' +:+ v1). split; [by eapply used_up_app|]. intros t. destruct (B t) as [e B1]. exists e.
      rewrite <- app_assoc_s. destruct (Go t) as [_ G]. cbv zeta in G. change (Ascii.eqb "$" "$") with true in G. cbv iota in G. rewrite B1 in G. exact G.
    + simpl. congruence.
    + simpl. intros Hm. by eapply (bulk_panic _ Hm _ _ _ _ _ _ _ r2 "" El Ed).
    + done.
  - eapply K; [by exists EmptyString|done| |reflexivity]. exists EmptyString. split; [constructor|]. intros t. destruct (Ascii.eqb_spec de "$") as [->|_]; [done|]. done.
Qed.

(** Whatever the decoder returns from a stream, it returns from some buffer; it fails at the end of the stream, or on bad
    input; its panics are those of C44. *)
Lemma stream_decode_ok rd : explained rd (decode max) (stream_decode max rd).
Proof.
  unfold stream_decode. destruct (stream_line rd) as [l rd1|e rd1|] eqn:El; cbn [rbind].
  2: { apply line_from_fail in El as (y & -> & Hy & ->). simpl. by rewrite Hy. }
  2: { by apply line_from_wait in El. }
  pose proof (stream_line_taken _ _ _ El) as Tl. apply stream_line_got in El as [El He1]. destruct (read_line_shape _ _ _ El) as (c & l' & -> & Efl & Hlt).
  assert (∃ u, flat rd = u +:+ flat rd1) as Hs1 by (rewrite Efl; by eexists).
  destruct (decode_single_line (String c l') (Rec [] "")) as [[[[n de] r]|e]| |] eqn:Ed; cbn [obind].
  2: { simpl. split; [done|]. split; [done|]. exists (String c l'). split; [done|]. intros t. exists e. unfold decode. by rewrite (read_line_swap _ _ _ t El), Ed. }
  2: { simpl. intros Hm. by eapply single_panic. }
  2: { by apply single_fuel in Ed. }
  destruct (Ascii.eqb_spec de "$") as [->|Hde]; [|destruct (Ascii.eqb_spec de "*") as [->|Hde2]].
  - pose proof (stream_bulk_ok n r rd1 (single_bound _ _ _ _ _ Ed)) as B. destruct (stream_bulk max n r rd1) as [[r3 rd3|[y|] rd3|]| |]; simpl.
    + destruct B as (Hs3 & He3 & v2 & Tk2 & K2). split; [by eapply suffix_trans|]. split; [congruence|]. exists (String c l' +:+ v2).
      split; [by eapply used_up_app|]. intros t.
      rewrite <- app_assoc_s. unfold decode. rewrite (read_line_swap _ _ _ (v2 +:+ t) El), Ed. cbn [obind]. apply K2.
    + destruct B as [B1 B2]. split; [congruence|done].
    + destruct B as [-> B]. split; [done|]. split; [congruence|]. exists (String c l'). split; [done|]. intros t. destruct (B t) as [e B1]. exists e.
      unfold decode. rewrite (read_line_swap _ _ _ t El), Ed. cbn [obind]. apply B1.
    + congruence.
    + intros Hm. by eapply (bulk_panic _ Hm _ _ _ _ _ _ _ r "" El Ed).
    + done.
  - pose proof (stream_array_ok (S (unread rd1)) n r rd1 ltac:(lia)) as B. destruct (stream_array max (S (unread rd1)) n r rd1) as [[r3 rd3|[y|] rd3|]| |]; cbn [explained] in B |- *.
    + destruct B as (Hs3 & He3 & v2 & Tk2 & K2). split; [by eapply suffix_trans|]. split; [congruence|]. exists (String c l' +:+ v2).
      split; [by eapply used_up_app|]. intros t.
      rewrite <- app_assoc_s. unfold decode. rewrite (read_line_swap _ _ _ (v2 +:+ t) El), Ed. cbn [obind]. apply K2.
    + destruct B as [B1 B2]. split; [congruence|done].
    + destruct B as (Hs3 & He3 & v2 & Tk2 & K2). split; [by eapply suffix_trans|]. split; [congruence|]. exists (String c l' +:+ v2).
      split; [by eapply used_up_app|]. intros t. destruct (K2 t) as [e K]. exists e.
      rewrite <- app_assoc_s. unfold decode. rewrite (read_line_swap _ _ _ (v2 +:+ t) El), Ed. cbn [obind]. apply K.
    + congruence.
    + intros Hm. eapply header_suffix; [exact Hs1|by apply B].
    + done.
  - simpl. split; [done|]. split; [done|]. exists (String c l'). split; [done|]. intros t. unfold decode. rewrite (read_line_swap _ _ _ t El), Ed. cbn [obind].
    destruct (Ascii.eqb_spec de "$"); [done|]. by destruct (Ascii.eqb_spec de "*").
Qed.

(** ** what has been read does not depend on what comes later *)
Definition settled (x : outcome (rres receive)) (more : list string) (e : option ending) (y : outcome (rres receive)) : Prop :=
  match x with
  | Ret (Got r rd) => y = Ret (Got r (grow more e rd))
  | Ret (Fail BadInput rd) => y = Ret (Fail BadInput (grow more e rd))
  | Panic => y = Panic
  | _ => True
  end.
Lemma stream_bulk_grow ln r rd more e : settled (stream_bulk max ln r rd) more e (stream_bulk max ln r (grow more e rd)).
Proof.
  unfold stream_bulk. destruct (ln <? 0); [done|]. cbv zeta. destruct (_ || _); [done|]. destruct (stream_full _ rd) as [v rd1|x rd1|] eqn:E; cbn [rbind settled].
  - by rewrite (stream_full_grow _ _ _ _ more e E).
  - by apply stream_full_fail in E as (y & -> & _).
  - done.
Qed.
Lemma stream_array_grow f : ∀ f' ln r rd more e, (f ≤ f')%nat → settled (stream_array max f ln r rd) more e (stream_array max f' ln r (grow more e rd)).
Proof.
  induction f as [|f IH]; intros f' ln r rd more e Hf; [done|]. destruct f' as [|f']; [lia|]. cbn [stream_array]. destruct (ln <=? 0); [done|].
  destruct (stream_line rd) as [l rd1|x rd1|] eqn:El; cbn [rbind].
  2: { by apply line_from_fail in El as (y & -> & _). }
  2: { done. }
  assert (stream_line (grow more e rd) = Got l (grow more e rd1)) as -> by (by eapply line_from_grow). cbn [rbind]. destruct l as [|c l']; [done|].
  set (sub := if Ascii.eqb c "*" then _ else _). set (sub' := if Ascii.eqb c "*" then _ else _).
  assert (settled sub more e sub') as Hsub.
  { subst sub sub'. destruct (Ascii.eqb c "*"); [|done]. destruct (read_length (String c l')) as [n| |]; cbn [obind]; [|done|done]. apply IH. lia. }
  destruct sub as [[r1 rd2|[y|] rd2|]| |]; cbn [rbind settled] in Hsub |- *; [|done|by rewrite Hsub|done|by rewrite Hsub|done].
  rewrite Hsub. cbn [rbind]. destruct (decode_single_line (String c l') r1) as [[[[n de] r2]|x]| |]; cbn [obind]; [|done|done|done].
  destruct (Ascii.eqb de "$"); [|apply IH; lia]. pose proof (stream_bulk_grow n r2 rd2 more e) as B.
  destruct (stream_bulk max n r2 rd2) as [[r3 rd3|[y|] rd3|]| |]; cbn [rbind settled] in B |- *; [|done|by rewrite B|done|by rewrite B|done].
  rewrite B. cbn [rbind]. apply IH. lia.
Qed.
Lemma stream_decode_grow rd more e : settled (stream_decode max rd) more e (stream_decode max (grow more e rd)).
Proof.
  unfold stream_decode. destruct (stream_line rd) as [l rd1|x rd1|] eqn:El; cbn [rbind].
  2: { by apply line_from_fail in El as (y & -> & _). }
  2: { done. }
  assert (stream_line (grow more e rd) = Got l (grow more e rd1)) as -> by (by eapply line_from_grow). cbn [rbind].
  destruct (decode_single_line l (Rec [] "")) as [[[[n de] r]|x]| |]; cbn [obind]; [|done|done|done].
  destruct (Ascii.eqb de "$"); [apply stream_bulk_grow|]. destruct (Ascii.eqb de "*"); [|done]. apply stream_array_grow.
  rewrite !unread_flat. unfold flat, grow. cbn [rd_buf rd_in]. rewrite !length_app_s. assert (String.length (sconcat (rd_in rd1)) ≤ String.length (sconcat (rd_in rd1 ++ more)))%nat; [|lia].
  rewrite sconcat_app, length_app_s. lia.
Qed.

End facts.

(** ** streams of requests that are not split inside a value *)
Lemma chars_concat s : sconcat (chars s) = s.
Proof. induction s as [|c s IH]; [done|]. cbn [chars sconcat]. by rewrite IH. Qed.
Lemma chars_app s t : chars (s +:+ t) = chars s ++ chars t.
Proof. induction s as [|c s IH]; [done|]. rewrite sapp_cons. cbn [chars app]. by rewrite IH. Qed.
Lemma chars_split s : ∀ a b, chars s = a ++ b → ∃ p q, s = p +:+ q ∧ a = chars p ∧ b = chars q.
Proof.
  induction s as [|c s IH]; intros a b; cbn [chars].
  - intros E. symmetry in E. apply app_eq_nil in E as [-> ->]. by exists EmptyString, EmptyString.
  - destruct a as [|x a]; cbn [app].
    + intros <-. exists EmptyString, (String c s). done.
    + intros [= <- E]. destruct (IH _ _ E) as (p & q & -> & -> & ->). exists (String c p), q. done.
Qed.
(** the reader has the parts [l] before it *)
Definition holds (rd : reader) (l : list string) : Prop :=
  ∃ g gs, rd_buf rd = sconcat g ∧ rd_in rd = sconcat <$> gs ∧ Forall (λ x, x ≠ []) gs ∧ l = g ++ concat gs ∧ Forall (λ x, x ≠ EmptyString) l.
Lemma no_lf_app a b : no_lf (a +:+ b) = no_lf a && no_lf b.
Proof. induction a as [|c a IH]; [done|]. rewrite sapp_cons. cbn [no_lf]. by rewrite IH, andb_assoc. Qed.
Lemma holds_line_aux line (Hl : no_lf line = true) rest e : ∀ gs g, chars (line +:+ String LF EmptyString) ++ rest = g ++ concat gs →
  ∃ g1 gs1, line_from (sconcat g) (sconcat <$> gs) e = Got (line +:+ String LF EmptyString) (Rd (sconcat g1) (sconcat <$> gs1) e) ∧
    rest = g1 ++ concat gs1 ∧ ∃ p, gs = p ++ gs1.
Proof.
  assert (∀ g t, chars (line +:+ String LF EmptyString) ++ rest = g ++ t →
    (∃ g1, g = chars (line +:+ String LF EmptyString) ++ g1 ∧ rest = g1 ++ t) ∨ (read_line (sconcat g) = None ∧ (length g < length (chars (line +:+ String LF EmptyString)))%nat)) as K.
  { intros g t E. destruct (decide (length g < length (chars (line +:+ String LF EmptyString)))%nat) as [Hlt|Hge].
    - right. split; [|done]. assert (∃ b, b ≠ [] ∧ chars (line +:+ String LF EmptyString) = g ++ b) as (b & Hb & Eb).
      { exists (drop (length g) (chars (line +:+ String LF EmptyString))). split; [intros H; apply (f_equal length) in H; rewrite drop_length in H; simpl in H; lia|].
        assert (g = take (length g) (chars (line +:+ String LF EmptyString))) as Eg.
        { apply (f_equal (take (length g))) in E. rewrite take_app_le in E by lia. rewrite E, take_app. done. }
        rewrite Eg at 1. by rewrite take_drop. }
      destruct (chars_split _ _ _ Eb) as (p & q & Epq & -> & ->). rewrite chars_concat. apply read_line_none.
      destruct (app_split _ _ _ _ (eq_sym Epq)) as [(c & Hc1 & Hc2)|(c & _ & -> & _)].
      + destruct c as [|c0 c]; [by rewrite Hc1, string_app_nil_r|]. rewrite sapp_cons in Hc2. injection Hc2 as -> Hc2. destruct c, q; try discriminate Hc2. done.
      + rewrite no_lf_app in Hl. by apply andb_true_iff in Hl as [? _].
    - left. exists (drop (length (chars (line +:+ String LF EmptyString))) g).
      assert (chars (line +:+ String LF EmptyString) = take (length (chars (line +:+ String LF EmptyString))) g) as Eg.
      { apply (f_equal (take (length (chars (line +:+ String LF EmptyString))))) in E. rewrite take_app in E. rewrite take_app_le in E by lia. done. }
      split; [rewrite Eg at 1; by rewrite take_drop|].
      apply (f_equal (drop (length (chars (line +:+ String LF EmptyString))))) in E. rewrite drop_app in E. rewrite drop_app_le in E by lia. done. }
  induction gs as [|g0 gs IH]; intros g E; cbn [concat] in E; rewrite ?app_nil_r in E.
  - destruct (K g []) as [(g1 & -> & Er)|[_ Hlt]]; [by rewrite app_nil_r| |].
    + rewrite app_nil_r in Er. subst rest. exists g1, []. rewrite app_nil_r. split; [|split; [done|by exists []]]. rewrite sconcat_app, chars_concat. cbn [fmap list_fmap line_from].
      rewrite <- app_assoc_s. change (String LF EmptyString +:+ sconcat g1) with (String LF (sconcat g1)). by rewrite read_line_app.
    + exfalso. apply (f_equal length) in E. rewrite app_length in E. lia.
  - destruct (K g (g0 ++ concat gs) E) as [(g1 & -> & Er)|[Hn _]].
    + exists g1, (g0 :: gs). split; [|split; [done|by exists []]]. rewrite sconcat_app, chars_concat. cbn [fmap list_fmap line_from].
      rewrite <- app_assoc_s. change (String LF EmptyString +:+ sconcat g1) with (String LF (sconcat g1)). by rewrite read_line_app.
    + rewrite app_assoc in E. destruct (IH (g ++ g0) E) as (g1 & gs1 & H1 & H2 & p & ->). exists g1, gs1. rewrite sconcat_app in H1. cbn [fmap list_fmap line_from]. rewrite Hn.
      split; [exact H1|]. split; [done|]. by exists (g0 :: p).
Qed.
Lemma holds_line rd line rest : no_lf line = true → holds rd (chars (line +:+ String LF EmptyString) ++ rest) →
  ∃ rd1, stream_line rd = Got (line +:+ String LF EmptyString) rd1 ∧ holds rd1 rest ∧ rd_end rd1 = rd_end rd.
Proof.
  intros Hl (g & gs & H1 & H2 & H3 & H4 & H5). destruct (holds_line_aux line Hl rest (rd_end rd) gs g H4) as (g1 & gs1 & E & Er & p & ->).
  exists (Rd (sconcat g1) (sconcat <$> gs1) (rd_end rd)). unfold stream_line. rewrite H1, H2. split; [done|]. split; [|done].
  exists g1, gs1. cbn. repeat (split; [done|]). split; [by apply Forall_app in H3 as [_ ?]|]. split; [done|]. by apply Forall_app in H5 as [_ ?].
Qed.
Lemma holds_value rd v rest : holds rd (v :: rest) → ∃ rd1, stream_full (String.length v) rd = Got v rd1 ∧ holds rd1 rest ∧ rd_end rd1 = rd_end rd.
Proof.
  intros (g & gs & H1 & H2 & H3 & H4 & H5). apply Forall_cons in H5 as [Hv H5].
  destruct g as [|x g].
  - destruct gs as [|g gs]; [done|]. apply Forall_cons in H3 as [Hg H3]. destruct g as [|x g]; [done|]. injection H4 as <- H4.
    exists (Rd (sconcat g) (sconcat <$> gs) (rd_end rd)). unfold stream_full. rewrite H1, H2. cbn [sconcat fmap list_fmap]. rewrite take_pad_app. split; [done|]. split; [|done]. by exists g, gs.
  - injection H4 as <- H4. exists (Rd (sconcat g) (sconcat <$> gs) (rd_end rd)). unfold stream_full. rewrite H1. cbn [sconcat]. destruct (v +:+ sconcat g) eqn:E; [by destruct v|].
    rewrite <- E, take_pad_app, H2. split; [done|]. split; [|done]. by exists g, gs.
Qed.

Section whole.
Context (max : Z).
Definition fitting (s : string) : Prop := slen s + 2 ≤ max ∧ slen s + 2 < two63.

Lemma header_chars c n : ∃ line, header c n = line +:+ String LF EmptyString.
Proof. exists (String c (itoa n +:+ String CR EmptyString)). unfold header. rewrite sapp_cons, <- app_assoc_s. done. Qed.
Lemma holds_header rd c n rest : Ascii.eqb c LF = false → 0 ≤ n → holds rd (chars (header c n) ++ rest) →
  ∃ rd1, stream_line rd = Got (header c n) rd1 ∧ holds rd1 rest ∧ rd_end rd1 = rd_end rd.
Proof.
  intros Hc Hn H. destruct (header_chars c n) as [line E]. rewrite E in H |- *. apply holds_line; [|done].
  pose proof (header_no_lf c n line (String LF EmptyString) Hc Hn (eq_sym E)). by apply H0.
Qed.
Lemma stream_array_args args : ∀ f r rd rest, Forall fitting args → (length args < f)%nat → holds rd (concat (arg_parts <$> args) ++ rest) →
  ∃ rd1, stream_array max f (Z.of_nat (length args)) r rd = Ret (Got (Rec (elements r ++ args) (org_str r +:+ sconcat (bulk_bytes <$> args))) rd1) ∧ holds rd1 rest ∧ rd_end rd1 = rd_end rd.
Proof.
  induction args as [|s args IH]; intros f r rd rest Hs Hf Hh.
  - destruct f as [|f]; [simpl in Hf; lia|]. exists rd. cbn [length fmap list_fmap sconcat]. rewrite app_nil_r, string_app_nil_r. by destruct r.
  - apply Forall_cons in Hs as [Hs1 Hs]. destruct f as [|f]; [simpl in Hf; lia|]. cbn [length] in Hf. pose proof (small_len max s Hs1) as Hlen.
    change (concat (arg_parts <$> s :: args)) with (arg_parts s ++ concat (arg_parts <$> args)) in Hh. unfold arg_parts at 1 in Hh. rewrite <- !app_assoc in Hh.
    rewrite bulk_header_eq in Hh. destruct (holds_header rd "$" (slen s) _ eq_refl ltac:(lia) Hh) as (rd1 & E1 & H1 & Ee1).
    destruct (holds_value rd1 (s +:+ CRLF) (concat (arg_parts <$> args) ++ rest) H1) as (rd2 & E2 & H2 & Ee2).
    destruct (IH f (rec_append s (s +:+ CRLF) (rec_add_org (header "$" (slen s)) r)) rd2 rest Hs ltac:(lia) H2) as (rd3 & E3 & H3 & Ee3).
    exists rd3. split; [|split; [done|congruence]]. cbn [stream_array length]. destruct (Z.leb_spec (Z.of_nat (S (length args))) 0); [lia|].
    rewrite E1. cbn [rbind].
    match goal with |- rbind ?x ?k = _ => assert (x = Ret (Got r rd1)) as -> by done; change (k r rd1 = Ret (Got (Rec (elements r ++ s :: args) (org_str r +:+ sconcat (bulk_bytes <$> s :: args))) rd3)); cbv beta end.
    rewrite single_header by (auto || lia). cbn [obind].
    change (Ascii.eqb "$" "$") with true. cbv iota. unfold stream_bulk. destruct (Z.ltb_spec (slen s) 0); [lia|]. cbv zeta.
    rewrite wrap64_small by (destruct Hs1; unfold two63 in *; lia). destruct (Z.ltb_spec (slen s + 2) 0); [lia|]. cbn [orb]. destruct Hs1 as [Hs1 Hs2]. destruct (Z.ltb_spec max (slen s + 2)); [lia|].
    assert (Z.to_nat (slen s + 2) = String.length (s +:+ CRLF)) as -> by (rewrite length_app_s; unfold slen; simpl; lia). rewrite E2. cbn [rbind].
    assert (sprefix (Z.to_nat (slen s)) (s +:+ CRLF) = s) as -> by (unfold slen; rewrite Nat2Z.id; apply sprefix_app).
    replace (Z.of_nat (S (length args)) - 1) with (Z.of_nat (length args)) by lia. rewrite E3. do 2 f_equal. f_equal; [|].
    + unfold rec_append, rec_add_org. cbn [elements]. by rewrite <- app_assoc.
    + unfold rec_append, rec_add_org. cbn [org_str fmap list_fmap sconcat]. unfold bulk_bytes. rewrite bulk_header_eq. rewrite <- !app_assoc_s. done.
Qed.
Lemma holds_length rd l : holds rd l → (length l ≤ unread rd)%nat.
Proof.
  intros (g & gs & H1 & H2 & H3 & -> & H5). rewrite unread_flat. unfold flat. rewrite H1, H2.
  assert (sconcat (sconcat <$> gs) = sconcat (concat gs)) as ->. { clear. induction gs as [|g gs IH]; [done|]. cbn [fmap list_fmap sconcat concat]. by rewrite sconcat_app, <- IH. }
  rewrite <- sconcat_app. induction (g ++ concat gs) as [|x l IH]; [simpl; lia|]. apply Forall_cons in H5 as [Hx H5]. cbn [sconcat length]. rewrite length_app_s. specialize (IH H5). destruct x; [done|]. cbn [String.length]. lia.
Qed.
Lemma stream_request args rd rest : Forall fitting args → Z.of_nat (length args) < two63 → holds rd (request_parts args ++ rest) →
  ∃ rd1, stream_decode max rd = Ret (Got (Rec args (request_bytes args)) rd1) ∧ holds rd1 rest ∧ rd_end rd1 = rd_end rd.
Proof.
  intros Hs Hn Hh. unfold request_parts in Hh. rewrite <- app_assoc, array_header_eq in Hh.
  destruct (holds_header rd "*" (Z.of_nat (length args)) _ eq_refl ltac:(lia) Hh) as (rd1 & E1 & H1 & Ee1).
  destruct (stream_array_args args (S (unread rd1)) (rec_add_org (header "*" (Z.of_nat (length args))) (Rec [] "")) rd1 rest Hs) as (rd2 & E2 & H2 & Ee2); [|done|].
  { pose proof (holds_length _ _ H1) as K. rewrite app_length in K. assert (length args ≤ length (concat (arg_parts <$> args)))%nat; [|lia].
    clear. induction args as [|s args IH]; [done|]. change (concat (arg_parts <$> s :: args)) with (arg_parts s ++ concat (arg_parts <$> args)). rewrite app_length. unfold arg_parts at 1. rewrite app_length. simpl. lia. }
  exists rd2. split; [|split; [done|congruence]]. unfold stream_decode. rewrite E1. cbn [rbind]. rewrite single_header by (auto || lia). cbn [obind].
  change (Ascii.eqb "*" "$") with false. change (Ascii.eqb "*" "*") with true. cbv iota. rewrite E2. done.
Qed.

(** the requests read so far, one after the other, bad lines skipped *)
Inductive streams : reader → list receive → reader → Prop :=
| sm_nil rd : streams rd [] rd
| sm_got rd rs rd1 r rd2 : streams rd rs rd1 → stream_decode max rd1 = Ret (Got r rd2) → streams rd (rs ++ [r]) rd2
| sm_bad rd rs rd1 rd2 : streams rd rs rd1 → stream_decode max rd1 = Ret (Fail BadInput rd2) → streams rd rs rd2.
Lemma streams_grow more e rd rs rd1 : streams rd rs rd1 → streams (grow more e rd) rs (grow more e rd1).
Proof.
  induction 1 as [|rd rs rd1 r rd2 H IH E|rd rs rd1 rd2 H IH E]; [constructor|..]; pose proof (stream_decode_grow max rd1 more e) as G; rewrite E in G; simpl in G.
  - by eapply sm_got. - by eapply sm_bad.
Qed.
Definition to_rec (args : list string) : receive := Rec args (request_bytes args).
Definition fits1 (args : list string) : Prop := Forall fitting args ∧ Z.of_nat (length args) < two63.
(** [segs]: what has been used up, cut into requests and refused bytes *)
Definition segments (segs : list (string * option receive)) : Prop :=
  Forall (λ x, match x.2 with Some r => ∀ t, decode max (x.1 +:+ t) = Ret (DOk (r, t)) | None => ∀ t, ∃ e, decode max (x.1 +:+ t) = Ret (DErr e) end) segs.
Lemma streams_segments rd rs rd1 : streams rd rs rd1 → ∃ segs, segments segs ∧ used_up (pieces rd) (sconcat segs.*1) (pieces rd1) ∧ omap snd segs = rs.
Proof.
  assert (∀ (l : list (string * option receive)) x, sconcat (l ++ [x]).*1 = sconcat l.*1 +:+ x.1) as Ec.
  { intros l x. rewrite fmap_app, sconcat_app. cbn [fmap list_fmap sconcat]. by rewrite string_app_nil_r. }
  induction 1 as [rd|rd rs rd1 r rd2 H (segs & S & U & E) D|rd rs rd1 rd2 H (segs & S & U & E) D].
  - exists []. split; [constructor|]. split; [constructor|done].
  - pose proof (stream_decode_ok max rd1) as X. rewrite D in X. destruct X as (_ & _ & v & Tk & K). exists (segs ++ [(v, Some r)]).
    split; [apply Forall_app; split; [done|]; by constructor|]. split; [rewrite Ec; by eapply used_up_app|]. rewrite omap_app, E. done.
  - pose proof (stream_decode_ok max rd1) as X. rewrite D in X. destruct X as (_ & _ & v & Tk & K). exists (segs ++ [(v, None)]).
    split; [apply Forall_app; split; [done|]; by constructor|]. split; [rewrite Ec; by eapply used_up_app|]. rewrite omap_app, E. simpl. by rewrite app_nil_r.
Qed.
Lemma streams_whole rd rs rd1 : streams rd rs rd1 → ∀ reqs l, Forall fits1 reqs → holds rd l → l = concat (request_parts <$> reqs) →
  ∃ done todo, reqs = done ++ todo ∧ rs = to_rec <$> done ∧ holds rd1 (concat (request_parts <$> todo)) ∧ rd_end rd1 = rd_end rd.
Proof.
  induction 1 as [|rd rs rd1 r rd2 H IH E|rd rs rd1 rd2 H IH E]; intros reqs l Hf Hh El.
  - exists [], reqs. subst l. done.
  - destruct (IH _ _ Hf Hh El) as (d & todo & -> & -> & H2 & H3). apply Forall_app in Hf as [_ Hf]. destruct todo as [|a todo].
    + exfalso. cbn [fmap list_fmap concat] in H2. destruct H2 as (g & gs & A1 & A2 & A3 & A4 & _). symmetry in A4. apply app_eq_nil in A4 as [-> A4].
      assert (gs = []) as -> by (destruct gs as [|x gs]; [done|]; apply Forall_cons in A3 as [A3 _]; cbn [concat] in A4; by destruct x). destruct rd1 as [b ins en]. cbn in A1, A2. subst b ins.
      unfold stream_decode, stream_line in E. cbn in E. by destruct en.
    + apply Forall_cons in Hf as [[Hf1 Hf2] Hf]. cbn [fmap list_fmap concat] in H2. destruct (stream_request a rd1 _ Hf1 Hf2 H2) as (rd3 & E3 & H4 & H5).
      rewrite E in E3. injection E3 as -> ->. exists (d ++ [a]), todo. rewrite <- app_assoc, fmap_app. split; [done|]. split; [done|]. split; [done|congruence].
  - destruct (IH _ _ Hf Hh El) as (d & todo & -> & -> & H2 & H3). exfalso. apply Forall_app in Hf as [_ Hf]. destruct todo as [|a todo].
    + cbn [fmap list_fmap concat] in H2. destruct H2 as (g & gs & A1 & A2 & A3 & A4 & _). symmetry in A4. apply app_eq_nil in A4 as [-> A4].
      assert (gs = []) as -> by (destruct gs as [|x gs]; [done|]; apply Forall_cons in A3 as [A3 _]; cbn [concat] in A4; by destruct x). destruct rd1 as [b ins en]. cbn in A1, A2. subst b ins.
      unfold stream_decode, stream_line in E. cbn in E. by destruct en.
    + apply Forall_cons in Hf as [[Hf1 Hf2] Hf]. cbn [fmap list_fmap concat] in H2. destruct (stream_request a rd1 _ Hf1 Hf2 H2) as (rd3 & E3 & _). congruence.
Qed.
Lemma parts_nonempty reqs : Forall (λ x, x ≠ EmptyString) (concat (request_parts <$> reqs)).
Proof.
  assert (∀ s, Forall (λ x, x ≠ EmptyString) (chars s)) as K by (induction s; simpl; by constructor).
  induction reqs as [|a reqs IH]; [constructor|]. cbn [fmap list_fmap concat]. apply Forall_app. split; [|done]. unfold request_parts. apply Forall_app. split; [apply K|].
  induction a as [|s a IHa]; [constructor|]. cbn [fmap list_fmap concat]. apply Forall_app. split; [|done]. unfold arg_parts. apply Forall_app. split; [apply K|]. repeat constructor. by destruct s.
Qed.
Lemma reads_holds reads l e : reads_of reads l → Forall (λ x, x ≠ EmptyString) l → holds (Rd "" reads e) l.
Proof. intros (gs & -> & <- & H) Hl. by exists [], gs. Qed.
(** with the rest of the stream still to come *)
Lemma streams_from reads reqs rs rd1 : Forall fits1 reqs → reads_from reads (concat (request_parts <$> reqs)) → streams (Rd "" reads None) rs rd1 →
  ∃ todo, (to_rec <$> reqs) = rs ++ todo.
Proof.
  intros Hf (l' & rest & El & Hr) Hs. pose proof (parts_nonempty reqs) as Hn. rewrite El in Hn.
  pose proof (streams_grow rest None _ _ _ Hs) as Hg. unfold grow in Hg at 1. cbn [rd_buf rd_in] in Hg.
  destruct (streams_whole _ _ _ Hg reqs (concat (request_parts <$> reqs))) as (d & todo & -> & -> & _); [done| |done|].
  - rewrite El. apply reads_holds; [|done]. destruct Hr as (gs & -> & <- & H). exists (gs ++ ((λ x, [x]) <$> rest)). split; [|split].
    + rewrite fmap_app. f_equal. clear. induction rest as [|x rest IH]; [done|]. cbn [fmap list_fmap sconcat]. rewrite string_app_nil_r. by f_equal.
    + rewrite concat_app. f_equal. clear. induction rest as [|x rest IH]; [done|]. cbn [fmap list_fmap concat app]. by f_equal.
    + apply Forall_app. split; [done|]. apply Forall_fmap. apply Forall_forall. done.
  - exists (to_rec <$> todo). by rewrite fmap_app.
Qed.
End whole.
