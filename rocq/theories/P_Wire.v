(** C01, C03-C05: decoding requests; C02: replies. *)
From Verif Require Import GoBase GoBaseProofs Float64 Db Protocol Redis SpecResp SpecWire Obs RespProofs Examples.

(** ** header lines *)
Lemma read_line_app l t : no_lf l = true → read_line (l +:+ String LF t) = Some (l +:+ String LF EmptyString, t).
Proof.
  induction l as [|c l IH]; [done|]. intros H. cbn [no_lf] in H. apply andb_true_iff in H as [H1 H2]. rewrite !sapp_cons. cbn [read_line].
  destruct (Ascii.eqb c LF); [done|]. by rewrite IH.
Qed.
Lemma read_line_split s l t : read_line s = Some (l, t) → ∃ l', l = l' +:+ String LF EmptyString ∧ no_lf l' = true ∧ s = l +:+ t.
Proof.
  revert l t. induction s as [|c s IH]; intros l t; cbn [read_line]; [done|]. destruct (Ascii.eqb_spec c LF) as [->|Hc].
  - intros [= <- <-]. by exists EmptyString.
  - destruct (read_line s) as [[l1 t1]|] eqn:E; [|done]. intros [= <- <-]. destruct (IH _ _ eq_refl) as (l' & -> & Hl & ->).
    exists (String c l'). rewrite !sapp_cons. split; [done|]. split; [|done]. cbn [no_lf]. rewrite Hl. by destruct (Ascii.eqb_spec c LF).
Qed.
Lemma read_line_none s : read_line s = None ↔ no_lf s = true.
Proof.
  induction s as [|c s IH]; [done|]. cbn [read_line no_lf]. destruct (Ascii.eqb c LF); [done|]. cbn [negb andb].
  rewrite <- IH. destruct (read_line s) as [[]|]; split; by intros.
Qed.
Lemma digit_byte c v : digit_val c = Some v → (byte_val c - 48) mod 256 = v ∧ 0 ≤ v ∧ Ascii.eqb c CR = false ∧ Ascii.eqb c LF = false.
Proof.
  unfold digit_val, byte_val. intros H. destruct (N.leb_spec 48 (N_of_ascii c)) as [H1|H1]; [|done]. destruct (N.leb_spec (N_of_ascii c) 57) as [H2|H2]; [|done].
  injection H as <-. rewrite Z.mod_small by lia. split; [done|]. split; [lia|].
  split; apply Ascii.eqb_neq; intros ->; by vm_compute in H1.
Qed.
Lemma parse_digits_ge s : ∀ acc z, 0 ≤ acc → parse_digits s acc = Some z → acc ≤ z.
Proof.
  induction s as [|c s IH]; intros acc z Ha; cbn [parse_digits]; [intros [= <-]; lia|]. destruct (digit_val c) as [v|] eqn:E; [|done].
  destruct (digit_byte c v E) as (_ & Hv & _). intros H. apply IH in H; lia.
Qed.
Lemma length_loop_digits s t : ∀ acc z, 0 ≤ acc → parse_digits s acc = Some z → z < two63 → length_loop (s +:+ String CR t) acc = Ret z.
Proof.
  induction s as [|c s IH]; intros acc z Ha; cbn [parse_digits].
  - intros [= <-] _. by rewrite sapp_nil_l.
  - destruct (digit_val c) as [v|] eqn:E; [|done]. destruct (digit_byte c v E) as (Hb & Hv & Hc & _). intros H Hz. rewrite sapp_cons. cbn [length_loop].
    rewrite Hc, Hb. assert (0 ≤ acc * 10 + v) as Hn by lia. pose proof (parse_digits_ge _ _ _ Hn H). rewrite wrap64_small by (unfold two63 in *; lia). by apply IH.
Qed.
Lemma parse_digits_no_lf s : ∀ acc z, parse_digits s acc = Some z → no_lf s = true.
Proof.
  induction s as [|c s IH]; intros acc z H; [done|]. cbn [parse_digits] in H. destruct (digit_val c) as [v|] eqn:E; [|done].
  destruct (digit_byte c v E) as (_ & _ & _ & Hl). cbn [no_lf]. rewrite Hl. by eapply IH.
Qed.
Lemma itoa_digits n : 0 ≤ n → parse_digits (itoa n) 0 = Some n.
Proof.
  intros Hn. unfold itoa. destruct (Z.ltb_spec n 0); [lia|]. destruct (itoa_N_spec (Z.to_N n)) as [Hp _]. unfold parse_uint in Hp.
  destruct (itoa_N (Z.to_N n)); [done|]. rewrite Hp. f_equal. lia.
Qed.
Lemma itoa_length n : (1 ≤ String.length (itoa n))%nat.
Proof. unfold itoa. destruct (n <? 0); [simpl; lia|]. destruct (itoa_N_spec (Z.to_N n)) as [_ (c & r & -> & _)]. simpl. lia. Qed.
Definition header (c : ascii) (n : Z) : string := String c (itoa n +:+ CRLF).
Lemma bulk_header_eq s : bulk_header s = header "$" (slen s). Proof. done. Qed.
Lemma array_header_eq n : array_header n = header "*" (Z.of_nat n). Proof. done. Qed.
Lemma header_line c n t : Ascii.eqb c LF = false → 0 ≤ n → read_line (header c n +:+ t) = Some (header c n, t).
Proof.
  intros Hc Hn. unfold header, CRLF. rewrite sapp_cons.
  assert ((itoa n +:+ String CR (String LF EmptyString)) +:+ t = (itoa n +:+ String CR EmptyString) +:+ String LF t) as ->.
  { rewrite <- !app_assoc_s. f_equal. }
  replace (String c (itoa n +:+ String CR (String LF EmptyString))) with (String c (itoa n +:+ String CR EmptyString) +:+ String LF EmptyString)
    by (rewrite sapp_cons, <- app_assoc_s; done).
  rewrite <- (sapp_cons c). apply read_line_app. cbn [no_lf]. rewrite Hc. cbn [negb andb].
  assert (no_lf (itoa n) = true) as H by (eapply parse_digits_no_lf, itoa_digits; done). revert H. generalize (itoa n). clear.
  induction s as [|c s IH]; [done|]. rewrite sapp_cons. cbn [no_lf]. intros [-> H]%andb_true_iff. by rewrite IH.
Qed.
Lemma header_length c n : Ascii.eqb c "-" = false → 0 ≤ n < two63 → read_length (header c n) = Ret n.
Proof.
  intros Hc [H0 H1]. unfold header, read_length. rewrite Hc. unfold CRLF. apply (length_loop_digits (itoa n) (String LF EmptyString) 0 n); [done|by apply itoa_digits|done].
Qed.
Lemma header_long c n : (slen (header c n) <? 3) = false.
Proof. unfold header, slen. cbn [String.length]. rewrite length_app_s. pose proof (itoa_length n). apply Z.ltb_ge. change (String.length CRLF) with 2%nat. lia. Qed.
Lemma header_no_lf c n p q : Ascii.eqb c LF = false → 0 ≤ n → p +:+ q = header c n → q ≠ EmptyString → no_lf p = true.
Proof.
  intros Hc Hn E Hq. destruct (no_lf p) eqn:Hp; [done|]. exfalso. assert (read_line p ≠ None) as H by (rewrite read_line_none; congruence).
  destruct (read_line p) as [[l t]|] eqn:El; [|done]. apply read_line_split in El as (l' & -> & Hl & ->).
  pose proof (header_line c n EmptyString Hc Hn) as H1. rewrite string_app_nil_r, <- E in H1.
  replace (((l' +:+ String LF "") +:+ t) +:+ q) with (l' +:+ String LF (t +:+ q)) in H1 by (rewrite <- !app_assoc_s; done).
  rewrite read_line_app in H1 by done. injection H1 as _ H1. destruct t; done.
Qed.
Lemma single_header c n r : (c = "$" ∨ c = "*")%char → 0 ≤ n < two63 → decode_single_line (header c n) r = Ret (DOk (n, c, rec_add_org (header c n) r)).
Proof.
  intros Hc Hn. unfold decode_single_line. rewrite header_long. cbv zeta. rewrite header_length; [|by destruct Hc as [-> | ->]|done].
  unfold header. destruct Hc as [-> | ->]; done.
Qed.

(** ** payloads *)
Lemma take_pad_app s : ∀ t, take_pad (String.length s) (s +:+ t) = (s, t).
Proof. induction s as [|c s IH]; intros t; [done|]. rewrite sapp_cons. cbn [String.length take_pad]. by rewrite IH. Qed.
Lemma sprefix_app s t : sprefix (String.length s) (s +:+ t) = s.
Proof. unfold sprefix. induction s as [|c s IH]; [by destruct t|]. rewrite sapp_cons. cbn [String.length substring]. by rewrite IH. Qed.
Section wire.
Context (max : Z).
Lemma read_bulk_ok s r t : slen s + 2 ≤ max → slen s + 2 < two63 → read_bulk max (slen s) r (s +:+ CRLF +:+ t) = Ret (DOk (rec_append s (s +:+ CRLF) r, t)).
Proof.
  intros H1 H2. unfold read_bulk. pose proof (slen_nonneg s). assert ((slen s <? 0) = false) as -> by lia. cbv zeta.
  rewrite wrap64_small by (unfold two63 in *; lia). assert ((slen s + 2 <? 0) || (max <? slen s + 2) = false) as -> by (apply orb_false_iff; lia).
  unfold read_full. destruct (s +:+ CRLF +:+ t) eqn:E; [by destruct s|]. rewrite <- E, app_assoc_s.
  replace (Z.to_nat (slen s + 2)) with (String.length (s +:+ CRLF)) by (rewrite length_app_s; unfold slen; simpl; lia).
  rewrite take_pad_app. unfold slen. by rewrite Nat2Z.id, sprefix_app.
Qed.
Definition small (s : string) : Prop := slen s + 2 ≤ max ∧ slen s + 2 < two63.
Lemma small_len s : small s → 0 ≤ slen s < two63.
Proof. intros [_ H]. pose proof (slen_nonneg s). lia. Qed.
(** one argument *)
Lemma read_array_arg f ln r s t : 0 < ln → small s →
  read_array max (S f) ln r (bulk_bytes s +:+ t) = read_array max f (ln - 1) (rec_append s (s +:+ CRLF) (rec_add_org (bulk_header s) r)) t.
Proof.
  intros Hl Hs. cbn [read_array]. assert ((ln <=? 0) = false) as -> by lia.
  assert (bulk_bytes s +:+ t = header "$" (slen s) +:+ s +:+ CRLF +:+ t) as ->.
  { unfold bulk_bytes. rewrite bulk_header_eq, <- !app_assoc_s. done. }
  pose proof (small_len s Hs). rewrite header_line by (done || lia). unfold header at 1. change (Ascii.eqb "$" "*") with false. cbv iota. cbn [obind].
  rewrite single_header by (auto || lia). cbn [obind]. change (Ascii.eqb "$" "$") with true. cbv iota. rewrite read_bulk_ok by apply Hs. done.
Qed.
Lemma rec_eq r1 r2 : elements r1 = elements r2 → org_str r1 = org_str r2 → r1 = r2.
Proof. destruct r1, r2. simpl. by intros -> ->. Qed.
Lemma read_array_args args : ∀ f r t, Forall small args → (length args < f)%nat →
  read_array max f (Z.of_nat (length args)) r (sconcat (bulk_bytes <$> args) +:+ t) =
  Ret (DOk (Rec (elements r ++ args) (org_str r +:+ sconcat (bulk_bytes <$> args)), t)).
Proof.
  induction args as [|a args IH]; intros f r t F Hf.
  - destruct f; [simpl in Hf; lia|]. cbn [read_array]. rewrite fmap_nil. cbn [sconcat length]. rewrite sapp_nil_l. f_equal. f_equal. f_equal. apply rec_eq; simpl; [by rewrite app_nil_r|by rewrite string_app_nil_r].
  - apply Forall_cons in F as [Ha F]. destruct f as [|f]; [simpl in Hf; lia|]. rewrite fmap_cons. cbn [sconcat]. rewrite <- app_assoc_s.
    rewrite read_array_arg by (done || simpl; lia). cbn [length]. replace (Z.of_nat (S (length args)) - 1) with (Z.of_nat (length args)) by lia.
    rewrite IH by (done || simpl in Hf; lia). f_equal. f_equal. f_equal. apply rec_eq; simpl.
    + by rewrite <- (assoc_L app).
    + rewrite <- !app_assoc_s. f_equal. unfold bulk_bytes. rewrite <- !app_assoc_s. done.
Qed.
Lemma decode_array n t : 0 ≤ Z.of_nat n < two63 →
  decode max (array_header n +:+ t) = read_array max (S (String.length t)) (Z.of_nat n) (Rec [] (array_header n)) t.
Proof.
  intros Hn. unfold decode. rewrite array_header_eq, header_line by (done || lia). rewrite single_header by (auto || lia). done.
Qed.
Lemma bulks_length args : (length args ≤ String.length (sconcat (bulk_bytes <$> args)))%nat.
Proof.
  induction args as [|a args IH]; [simpl; lia|]. rewrite fmap_cons. cbn [sconcat]. rewrite length_app_s.
  assert (1 ≤ String.length (bulk_bytes a))%nat by (unfold bulk_bytes; rewrite !length_app_s; simpl; lia). simpl. lia.
Qed.

(** ** C01: requests survive the wire *)
(** [max]: the largest payload the machine can allocate *)
Theorem C01_request args t : Forall (λ s, slen s + 2 ≤ max ∧ slen s + 2 < two63) args → Z.of_nat (length args) < two63 →
  decode max (request_bytes args +:+ t) = Ret (DOk (Rec args (request_bytes args), t)).
Proof.
  intros F Hn. unfold request_bytes. rewrite <- app_assoc_s, decode_array by lia.
  rewrite read_array_args; [done|done|]. rewrite length_app_s. pose proof (bulks_length args). lia.
Qed.
(** two requests are never confused: nothing is lost by encoding *)
Theorem C01_injective a1 a2 t1 t2 : Forall (λ s, slen s + 2 ≤ max ∧ slen s + 2 < two63) a1 → Forall (λ s, slen s + 2 ≤ max ∧ slen s + 2 < two63) a2 →
  Z.of_nat (length a1) < two63 → Z.of_nat (length a2) < two63 → request_bytes a1 +:+ t1 = request_bytes a2 +:+ t2 → a1 = a2 ∧ t1 = t2.
Proof. intros F1 F2 H1 H2 E. pose proof (C01_request a1 t1 F1 H1) as D. rewrite E, C01_request in D by done. by injection D as -> _ ->. Qed.

(** ** C05: termination, progress, locality *)
Lemma take_pad_split n : ∀ b v t, take_pad n b = (v, t) → ∃ u, b = u +:+ t ∧ (t ≠ EmptyString → v = u ∧ String.length u = n).
Proof.
  induction n as [|n IH]; intros b v t; cbn [take_pad]; [intros [= <- <-]; by exists EmptyString|]. destruct b as [|c b].
  - destruct (take_pad n EmptyString) as [v1 t1] eqn:E. intros [= <- <-]. destruct (IH _ _ _ E) as (u & Hu & _).
    destruct u, t1; try discriminate Hu. by exists EmptyString.
  - destruct (take_pad n b) as [v1 t1] eqn:E. intros [= <- <-]. destruct (IH _ _ _ E) as (u & -> & H). exists (String c u). rewrite sapp_cons. split; [done|].
    intros [-> Hu]%H. split; [done|]. simpl. by rewrite Hu.
Qed.
Lemma read_bulk_split ln r b r' t : read_bulk max ln r b = Ret (DOk (r', t)) → ∃ u, b = u +:+ t ∧ (t ≠ EmptyString → ∀ t', t' ≠ EmptyString → read_bulk max ln r (u +:+ t') = Ret (DOk (r', t'))).
Proof.
  unfold read_bulk. destruct (ln <? 0); [done|]. cbv zeta. destruct ((wrap64 (ln + 2) <? 0) || (max <? wrap64 (ln + 2))); [done|].
  destruct (read_full (Z.to_nat (wrap64 (ln + 2))) b) as [[v t1]|] eqn:E; [|done]. intros [= <- <-]. unfold read_full in E. destruct b as [|c b]; [done|].
  injection E as E. destruct (take_pad_split _ _ _ _ E) as (u & Hu & H). exists u. split; [done|]. intros [-> Hl]%H t' Ht'.
  unfold read_full. destruct (u +:+ t') eqn:E1; [destruct u, t'; done|]. by rewrite <- E1, <- Hl, take_pad_app.
Qed.
Lemma read_bulk_fuel ln r b : read_bulk max ln r b ≠ OutOfFuel.
Proof. unfold read_bulk. destruct (ln <? 0); [done|]. cbv zeta. destruct (_ || _); [done|]. by destruct (read_full _ _) as [[]|]. Qed.
Lemma length_loop_fuel s : ∀ z, length_loop s z ≠ OutOfFuel.
Proof. induction s as [|c s IH]; intros z; cbn [length_loop]; [done|]. destruct (Ascii.eqb c CR); [done|apply IH]. Qed.
Lemma read_length_fuel s : read_length s ≠ OutOfFuel.
Proof. destruct s as [|c s]; [done|]. cbn [read_length]. destruct (Ascii.eqb c "-"); [done|apply length_loop_fuel]. Qed.
Lemma single_fuel l r : decode_single_line l r ≠ OutOfFuel.
Proof.
  unfold decode_single_line. destruct (slen l <? 3); [done|]. cbv zeta. destruct l as [|c l]; [done|].
  pose proof (read_length_fuel (String c l)) as H. destruct (_ || _); [by destruct (read_length (String c l))|]. destruct (_ || _ || _); [done|]. by destruct (String.eqb _ _).
Qed.
Lemma read_line_shape b l t : read_line b = Some (l, t) → ∃ c l', l = String c l' ∧ b = l +:+ t ∧ (String.length t < String.length b)%nat.
Proof.
  intros (l' & -> & _ & ->)%read_line_split. assert (∃ c l0, l' +:+ String LF EmptyString = String c l0) as (c & l0 & ->).
  { destruct l'; [by eexists _, _|]. rewrite sapp_cons. by eexists _, _. }
  exists c, l0. split; [done|]. split; [done|]. rewrite length_app_s. simpl. lia.
Qed.
Lemma read_array_total f : ∀ ln r b, (String.length b < f)%nat → read_array max f ln r b ≠ OutOfFuel ∧ ∀ r' t, read_array max f ln r b = Ret (DOk (r', t)) → ∃ u, b = u +:+ t.
Proof.
  induction f as [|f IH]; intros ln r b Hf; [lia|]. cbn [read_array]. destruct (ln <=? 0).
  { split; [done|]. intros r' t [= <- <-]. by exists EmptyString. }
  destruct (read_line b) as [[l rest]|] eqn:El; [|done]. destruct (read_line_shape _ _ _ El) as (c & l' & -> & -> & Hl).
  set (sub := if Ascii.eqb c "*" then _ else _).
  assert (sub ≠ OutOfFuel ∧ ∀ r1 t1, sub = Ret (DOk (r1, t1)) → ∃ u, rest = u +:+ t1) as [Hs1 Hs2].
  { subst sub. destruct (Ascii.eqb c "*"); [|split; [done|]; intros r1 t1 [= <- <-]; by exists EmptyString].
    pose proof (read_length_fuel (String c l')). destruct (read_length (String c l')) as [n| |]; [|done|done]. cbn [obind]. apply IH. lia. }
  destruct sub as [[[r1 rest1]|e]| |]; cbn [obind]; [|done|done|done]. destruct (Hs2 _ _ eq_refl) as [u1 ->].
  pose proof (single_fuel (String c l') r1). destruct (decode_single_line (String c l') r1) as [[[[n de] r2]|e]| |]; cbn [obind]; [|done|done|done].
  assert (String.length rest1 < f)%nat as Hr1 by (rewrite length_app_s in Hl; lia).
  destruct (Ascii.eqb de "$").
  - pose proof (read_bulk_fuel n r2 rest1). destruct (read_bulk max n r2 rest1) as [[[r3 rest2]|e]| |] eqn:Eb; cbn [obind]; [|done|done|done].
    destruct (read_bulk_split _ _ _ _ _ Eb) as (u2 & -> & _). destruct (IH (ln - 1) r3 rest2) as [H1 H2]; [rewrite length_app_s in Hr1; lia|].
    split; [done|]. intros r' t [u3 ->]%H2. exists (String c l' +:+ u1 +:+ u2 +:+ u3). by rewrite <- !app_assoc_s.
  - destruct (IH (ln - 1) r2 rest1 Hr1) as [H1 H2]. split; [done|]. intros r' t [u3 ->]%H2. exists (String c l' +:+ u1 +:+ u3). by rewrite <- !app_assoc_s.
Qed.
(** every input is refused, accepted leaving a strictly shorter remainder of it, or (C03) a panic *)
Theorem C05_total b : decode max b = Panic ∨ (∃ e, decode max b = Ret (DErr e)) ∨
  ∃ r used rest, decode max b = Ret (DOk (r, rest)) ∧ b = used +:+ rest ∧ used ≠ EmptyString.
Proof.
  unfold decode. destruct (read_line b) as [[l rest]|] eqn:El; [|eauto]. destruct (read_line_shape _ _ _ El) as (c & l' & -> & -> & Hl).
  pose proof (single_fuel (String c l') (Rec [] "")). destruct (decode_single_line (String c l') (Rec [] "")) as [[[[n de] r2]|e]| |]; cbn [obind]; [|eauto|eauto|done].
  assert (∀ x, (∃ u, rest = u +:+ x) → ∃ used, String c l' +:+ rest = used +:+ x ∧ used ≠ EmptyString) as K.
  { intros x [u ->]. exists (String c l' +:+ u). rewrite app_assoc_s. split; [done|]. by rewrite sapp_cons. }
  destruct (Ascii.eqb de "$"); [|destruct (Ascii.eqb de "*")].
  - pose proof (read_bulk_fuel n r2 rest). destruct (read_bulk max n r2 rest) as [[[r3 rest2]|e]| |] eqn:Eb; [|eauto|eauto|done].
    destruct (read_bulk_split _ _ _ _ _ Eb) as (u2 & E2 & _). destruct (K rest2) as (used & H1 & H2); [eauto|]. right. right. by exists r3, used, rest2.
  - destruct (read_array_total (S (String.length rest)) n r2 rest) as [H1 H2]; [lia|].
    destruct (read_array max (S (String.length rest)) n r2 rest) as [[[r3 rest2]|e]| |] eqn:Eb; [|eauto|eauto|done].
    destruct (K rest2 (H2 _ _ eq_refl)) as (used & H3 & H4). right. right. by exists r3, used, rest2.
  - destruct (K rest) as (used & H1 & H2); [by exists EmptyString|]. right. right. by exists r2, used, rest.
Qed.
Lemma read_array_fuel f : ∀ f' ln r b, (f ≤ f')%nat → read_array max f ln r b ≠ OutOfFuel → read_array max f' ln r b = read_array max f ln r b.
Proof.
  induction f as [|f IH]; intros f' ln r b Hf H; [done|]. destruct f' as [|f']; [lia|]. cbn [read_array] in *. destruct (ln <=? 0); [done|].
  destruct (read_line b) as [[l rest]|] eqn:El; [|done]. destruct l as [|c l']; [done|].
  set (sub := if Ascii.eqb c "*" then let* n := read_length (String c l') in read_array max f n r rest else Ret (DOk (r, rest))) in *.
  assert ((if Ascii.eqb c "*" then let* n := read_length (String c l') in read_array max f' n r rest else Ret (DOk (r, rest))) = sub) as ->.
  { assert (sub ≠ OutOfFuel) as Hs by (by destruct sub). subst sub. destruct (Ascii.eqb c "*"); [|done].
    destruct (read_length (String c l')); cbn [obind] in *; [|done|done]. apply IH; [lia|done]. }
  destruct sub as [[[r1 rest1]|e]| |]; cbn [obind] in *; [|done|done|done].
  destruct (decode_single_line (String c l') r1) as [[[[n de] r2]|e]| |]; cbn [obind] in *; [|done|done|done].
  destruct (Ascii.eqb de "$").
  - destruct (read_bulk max n r2 rest1) as [[[r3 rest2]|e]| |] eqn:Eb; cbn [obind] in *; [|done|done|done]. apply IH; [lia|done].
  - apply IH; [lia|done].
Qed.
Lemma app_inj_len u1 u2 t : u1 +:+ t = u2 +:+ t → u1 = u2.
Proof.
  revert u2. induction u1 as [|c u1 IH]; intros [|c2 u2] E.
  - done.
  - apply (f_equal String.length) in E. rewrite !length_app_s in E. simpl in E. lia.
  - apply (f_equal String.length) in E. rewrite !length_app_s in E. simpl in E. lia.
  - rewrite !sapp_cons in E. injection E as -> E. f_equal. by apply IH.
Qed.
Lemma suffix_ne u t : t ≠ EmptyString → u +:+ t ≠ EmptyString.
Proof. by destruct u, t. Qed.
Lemma read_line_swap b l t t' : read_line b = Some (l, t) → read_line (l +:+ t') = Some (l, t').
Proof. intros (l' & -> & Hl & _)%read_line_split. rewrite <- app_assoc_s. change (String LF EmptyString +:+ t') with (String LF t'). by apply read_line_app. Qed.
Lemma read_array_local f : ∀ ln r b r' t, (String.length b < f)%nat → read_array max f ln r b = Ret (DOk (r', t)) → t ≠ EmptyString →
  ∃ u, b = u +:+ t ∧ ∀ f' t', t' ≠ EmptyString → (String.length (u +:+ t') < f')%nat → read_array max f' ln r (u +:+ t') = Ret (DOk (r', t')).
Proof.
  induction f as [|f IH]; intros ln r b r' t Hf H Ht; [lia|]. cbn [read_array] in H. destruct (ln <=? 0) eqn:Eln.
  { injection H as <- <-. exists EmptyString. split; [done|]. intros [|f'] t' Ht' Hf'; [lia|]. cbn [read_array]. by rewrite Eln, sapp_nil_l. }
  destruct (read_line b) as [[l rest]|] eqn:El; [|done]. destruct (read_line_shape _ _ _ El) as (c & l' & -> & -> & Hl).
  set (sub := if Ascii.eqb c "*" then _ else _) in H.
  destruct sub as [[[r1 rest1]|e]| |] eqn:Es; cbn [obind] in H; [|done|done|done].
  destruct (decode_single_line (String c l') r1) as [[[[n de] r2]|e]| |] eqn:Ed; cbn [obind] in H; [|done|done|done].
  assert (rest1 ≠ EmptyString → ∃ u, rest = u +:+ rest1 ∧ ∀ f' t', t' ≠ EmptyString → (String.length (u +:+ t') < f')%nat →
     (if Ascii.eqb c "*" then let* n := read_length (String c l') in read_array max f' n r (u +:+ t') else Ret (DOk (r, u +:+ t'))) = Ret (DOk (r1, t'))) as Ks.
  { intros Hr1. subst sub. destruct (Ascii.eqb c "*").
    - destruct (read_length (String c l')) as [m| |]; cbn [obind] in *; [|done|done]. eapply IH; [|exact Es|done]. lia.
    - injection Es as <- <-. exists EmptyString. by split. }
  assert (∀ u1, rest = u1 +:+ rest1 → (String.length rest1 < f)%nat) as Kl by (intros u1 ->; rewrite length_app_s in Hl; lia).
  assert (∃ u1, rest = u1 +:+ rest1) as Hsuf.
  { subst sub. destruct (Ascii.eqb c "*"); [|injection Es as _ <-; by exists EmptyString]. destruct (read_length (String c l')) as [m| |]; cbn [obind] in Es; [|done|done].
    by apply (read_array_total f m r rest) in Es; [|lia]. }
  destruct Hsuf as [u0 Hsuf]. specialize (Kl _ Hsuf).
  destruct (Ascii.eqb de "$") eqn:Ede.
  - destruct (read_bulk max n r2 rest1) as [[[r3 rest2]|e]| |] eqn:Eb; cbn [obind] in H; [|done|done|done].
    destruct (read_bulk_split _ _ _ _ _ Eb) as (u2 & E2 & Kb).
    destruct (IH (ln - 1) r3 rest2 r' t) as (u3 & E3 & K3); [subst rest1; rewrite length_app_s in Kl; lia|done|done|].
    assert (rest2 ≠ EmptyString) as Hr2 by (subst rest2; by apply suffix_ne).
    assert (rest1 ≠ EmptyString) as Hr1 by (subst rest1; by apply suffix_ne).
    destruct (Ks Hr1) as (u1 & E1 & K1). exists (String c l' +:+ u1 +:+ u2 +:+ u3).
    split; [by rewrite E1, E2, E3, <- !app_assoc_s|]. intros [|f'] t' Ht' Hf'; [lia|]. rewrite <- !app_assoc_s in *. rewrite !length_app_s in Hf'. cbn [String.length] in Hf'.
    cbn [read_array]. rewrite Eln, (read_line_swap _ _ _ _ El). rewrite K1; [|by repeat apply suffix_ne|rewrite !length_app_s; lia]. cbn [obind].
    rewrite Ed. cbn [obind]. rewrite Ede, Kb by (done || by apply suffix_ne). cbn [obind]. apply K3; [done|]. rewrite length_app_s. lia.
  - destruct (IH (ln - 1) r2 rest1 r' t) as (u3 & E3 & K3); [done..|].
    assert (rest1 ≠ EmptyString) as Hr1 by (subst rest1; by apply suffix_ne).
    destruct (Ks Hr1) as (u1 & E1 & K1). exists (String c l' +:+ u1 +:+ u3).
    split; [by rewrite E1, E3, <- !app_assoc_s|]. intros [|f'] t' Ht' Hf'; [lia|]. rewrite <- !app_assoc_s in *. rewrite !length_app_s in Hf'. cbn [String.length] in Hf'.
    cbn [read_array]. rewrite Eln, (read_line_swap _ _ _ _ El). rewrite K1; [|by repeat apply suffix_ne|rewrite !length_app_s; lia]. cbn [obind].
    rewrite Ed. cbn [obind]. rewrite Ede. apply K3; [done|]. rewrite length_app_s. lia.
Qed.
(** the decoder looks at nothing but the bytes it consumes: whatever follows them, same request *)
Theorem C05_local used rest r : rest ≠ EmptyString → decode max (used +:+ rest) = Ret (DOk (r, rest)) →
  ∀ rest', rest' ≠ EmptyString → decode max (used +:+ rest') = Ret (DOk (r, rest')).
Proof.
  intros Ht H t' Ht'. unfold decode in H. destruct (read_line (used +:+ rest)) as [[l rest0]|] eqn:El; [|done].
  destruct (read_line_shape _ _ _ El) as (c & l' & -> & E0 & Hl).
  destruct (decode_single_line (String c l') (Rec [] "")) as [[[[n de] r2]|e]| |] eqn:Ed; cbn [obind] in H; [|done|done|done].
  assert (∀ u, rest0 = u +:+ rest → used = String c l' +:+ u) as K.
  { intros u ->. rewrite app_assoc_s in E0. by apply app_inj_len in E0. }
  destruct (Ascii.eqb de "$") eqn:Ede; [|destruct (Ascii.eqb de "*") eqn:Ede2].
  - destruct (read_bulk_split _ _ _ _ _ H) as (u & Eu & Kb). rewrite (K u Eu). rewrite <- app_assoc_s. unfold decode. rewrite (read_line_swap _ _ _ _ El), Ed. cbn [obind].
    rewrite Ede. by apply Kb.
  - destruct (read_array_local _ _ _ _ _ _ (Nat.lt_succ_diag_r (String.length rest0)) H Ht) as (u & Eu & Kb). rewrite (K u Eu). rewrite <- app_assoc_s. unfold decode. rewrite (read_line_swap _ _ _ _ El), Ed. cbn [obind].
    rewrite Ede, Ede2. apply Kb; [done|]. lia.
  - injection H as <- ->. rewrite (K EmptyString eq_refl), string_app_nil_r. unfold decode. rewrite (read_line_swap _ _ _ _ El), Ed. cbn [obind]. by rewrite Ede, Ede2.
Qed.

(** nested arrays are flattened, arguments in order *)
Fixpoint item_size (i : item) : nat := match i with Arg _ => 1 | Group l => S (foldr Nat.add O (map item_size l)) end.
Definition items_size (l : list item) : nat := foldr Nat.add O (map item_size l).
Lemma items_size_cons i l : items_size (i :: l) = (item_size i + items_size l)%nat. Proof. done. Qed.
Lemma group_size l : item_size (Group l) = S (items_size l). Proof. done. Qed.
Definition all_fit (l : list item) : Prop := (fix all l := match l with [] => True | x :: r => item_fits max x ∧ all r end) l.
Lemma sconcat_app l1 l2 : sconcat (l1 ++ l2) = sconcat l1 +:+ sconcat l2.
Proof. induction l1 as [|x l1 IH]; [done|]. rewrite <- app_comm_cons. cbn [sconcat]. by rewrite IH, app_assoc_s. Qed.
Lemma read_array_items (Hmax : max < two63) k : ∀ l f r t, (items_size l < k)%nat → all_fit l → (String.length (sconcat (map item_bytes l) +:+ t) < f)%nat →
  ∃ org, read_array max f (Z.of_nat (length l)) r (sconcat (map item_bytes l) +:+ t) = Ret (DOk (Rec (elements r ++ concat (map item_args l)) org, t)).
Proof.
  induction k as [|k IH]; intros l f r t Hk F Hf; [lia|]. destruct f as [|f]; [lia|]. destruct l as [|i l].
  { exists (org_str r). cbn [map sconcat concat length read_array]. rewrite sapp_nil_l, app_nil_r. by destruct r. }
  destruct F as [Fi F]. cbn [map sconcat concat length] in *. rewrite <- app_assoc_s in *. rewrite items_size_cons in Hk. destruct i as [s|l1].
  - cbn [item_bytes item_args item_size item_fits] in *. rewrite read_array_arg; [|lia|split; lia].
    replace (Z.of_nat (S (length l)) - 1) with (Z.of_nat (length l)) by lia.
    edestruct (IH l f) as [org E]; [lia|done| |exists org; rewrite E; simpl; by rewrite <- (assoc_L app)].
    rewrite length_app_s in Hf. assert (1 ≤ String.length (bulk_bytes s))%nat by (unfold bulk_bytes, bulk_header; rewrite !length_app_s; simpl; lia). lia.
  - cbn [item_bytes item_args] in *. destruct Fi as [Hl Fi]. rewrite array_header_eq, <- app_assoc_s in *. rewrite group_size in Hk.
    cbn [read_array]. assert ((Z.of_nat (S (length l)) <=? 0) = false) as -> by (apply Z.leb_gt; lia). rewrite header_line by (done || lia). unfold header at 1.
    change (Ascii.eqb "*" "*") with true. cbv iota. change (String "*" (itoa (Z.of_nat (length l1)) +:+ CRLF)) with (header "*" (Z.of_nat (length l1))).
    rewrite header_length by (done || lia). cbn [obind]. rewrite length_app_s in Hf. assert (1 ≤ String.length (header "*" (Z.of_nat (length l1))))%nat by (simpl; lia).
    destruct (IH l1 f r (sconcat (map item_bytes l) +:+ t)) as [org1 E1]; [lia|done|lia|]. rewrite E1. cbn [obind].
    rewrite single_header by (auto || lia). cbn [obind]. change (Ascii.eqb "*" "$") with false. cbv iota.
    replace (Z.of_nat (S (length l)) - 1) with (Z.of_nat (length l)) by lia.
    edestruct (IH l f) as [org E]; [lia|done| |exists org; rewrite E; simpl; by rewrite <- (assoc_L app)]. rewrite length_app_s in Hf. lia.
Qed.
Theorem C05_nested (Hmax : max < two63) l t : item_fits max (Group l) →
  ∃ org, decode max (item_bytes (Group l) +:+ t) = Ret (DOk (Rec (item_args (Group l)) org, t)).
Proof.
  intros [Hl F]. cbn [item_bytes]. rewrite <- app_assoc_s, decode_array by lia.
  destruct (read_array_items Hmax (S (items_size l)) l (S (String.length (sconcat (map item_bytes l) +:+ t))) (Rec [] (array_header (length l))) t) as [org E]; [lia|done|lia|].
  exists org. exact E.
Qed.

(** ** C04: cut requests *)
Lemma app_split (p q a b : string) : p +:+ q = a +:+ b → (∃ c, p = a +:+ c ∧ c +:+ q = b) ∨ (∃ c, c ≠ EmptyString ∧ a = p +:+ c ∧ q = c +:+ b).
Proof.
  revert a. induction p as [|x p IH]; intros a E.
  - rewrite sapp_nil_l in E. subst q. destruct a as [|y a].
    + left. exists EmptyString. by rewrite sapp_nil_l.
    + right. by exists (String y a).
  - destruct a as [|y a].
    + left. exists (String x p). by rewrite sapp_nil_l in *.
    + rewrite !sapp_cons in E. injection E as -> E. destruct (IH _ E) as [(c & -> & Hc)|(c & H1 & -> & H2)]; [left|right]; exists c; by rewrite sapp_cons.
Qed.
Lemma take_pad_short n : ∀ x, (String.length x ≤ n)%nat → take_pad n x = (nul_padded n x, EmptyString).
Proof.
  induction n as [|n IH]; intros x Hx; [by destruct x; simpl in Hx; [|lia]|]. destruct x as [|c x]; cbn [take_pad nul_padded].
  - by rewrite IH by (simpl; lia).
  - rewrite IH by (simpl in Hx; lia). done.
Qed.
Lemma sprefix_pad m : ∀ n x, (m ≤ n)%nat → sprefix m (nul_padded n x) = nul_padded m x.
Proof.
  unfold sprefix. induction m as [|m IH]; intros n x Hn; [by destruct (nul_padded n x)|]. destruct n as [|n]; [lia|]. destruct x as [|c x]; cbn [nul_padded substring]; f_equal; apply IH; lia.
Qed.
Lemma read_array_cut args : ∀ f r p q, Forall small args → (String.length p < f)%nat → p +:+ q = sconcat (bulk_bytes <$> args) → q ≠ EmptyString →
  read_array max f (Z.of_nat (length args)) r p = Ret (DErr EOF) ∨
  ∃ init s x org, args = init ++ [s] ∧ x ≠ EmptyString ∧ x +:+ q = s +:+ CRLF ∧ p = sconcat (bulk_bytes <$> init) +:+ bulk_header s +:+ x ∧
    read_array max f (Z.of_nat (length args)) r p = Ret (DOk (Rec (elements r ++ init ++ [nul_padded (String.length s) x]) org, EmptyString)).
Proof.
  induction args as [|a args IH]; intros f r p q F Hf E Hq; [by destruct p, q|]. apply Forall_cons in F as [Ha F]. destruct f as [|f]; [lia|].
  rewrite fmap_cons in E. cbn [sconcat] in E. unfold bulk_bytes at 1 in E. rewrite <- !app_assoc_s in E. pose proof (small_len a Ha) as Hla.
  destruct (app_split _ _ _ _ E) as [(c & -> & E1)|(c & Hc & E1 & _)].
  2: { left. cbn [read_array]. assert ((Z.of_nat (length (a :: args)) <=? 0) = false) as -> by done.
       rewrite bulk_header_eq in E1. apply eq_sym, header_no_lf in E1; [|done|lia|done]. apply read_line_none in E1. by rewrite E1. }
  rewrite app_assoc_s in E1. destruct (app_split _ _ _ _ E1) as [(c' & -> & E2)|(y & Hy & E2 & E3)].
  - (* the whole argument is there *)
    assert (bulk_header a +:+ (a +:+ CRLF) +:+ c' = bulk_bytes a +:+ c') as EE by (unfold bulk_bytes; by rewrite <- !app_assoc_s). rewrite EE in *.
    rewrite read_array_arg by (done || simpl; lia). cbn [length]. replace (Z.of_nat (S (length args)) - 1) with (Z.of_nat (length args)) by lia.
    destruct (IH f (rec_append a (a +:+ CRLF) (rec_add_org (bulk_header a) r)) c' q) as [H|(init & s & x & org & -> & Hx & Hq1 & -> & H)]; [done| |done|done|by left|].
    + rewrite length_app_s in Hf. assert (1 ≤ String.length (bulk_bytes a))%nat by (unfold bulk_bytes, bulk_header; rewrite !length_app_s; simpl; lia). lia.
    + right. exists (a :: init), s, x, org. split; [done|]. split; [done|]. split; [done|]. split.
      { rewrite fmap_cons. cbn [sconcat]. by rewrite <- !app_assoc_s. }
      rewrite H. simpl. by rewrite <- (assoc_L app).
  - (* cut in this argument's payload *)
    assert (read_bulk max (slen a) (rec_add_org (bulk_header a) r) c = if String.eqb c EmptyString then Ret (DErr EOF)
            else Ret (DOk (rec_append (nul_padded (String.length a) c) (nul_padded (String.length a + 2) c) (rec_add_org (bulk_header a) r), EmptyString))) as Hb.
    { unfold read_bulk. destruct Ha as [Ha1 Ha2]. assert ((slen a <? 0) = false) as -> by lia. cbv zeta.
      rewrite wrap64_small by (unfold two63 in *; lia). assert ((slen a + 2 <? 0) || (max <? slen a + 2) = false) as -> by (apply orb_false_iff; lia).
      destruct c as [|c0 c]; [done|]. cbn [read_full String.eqb]. replace (Z.to_nat (slen a + 2)) with (String.length a + 2)%nat by (unfold slen; lia).
      rewrite take_pad_short. 2: { apply (f_equal String.length) in E2. rewrite !length_app_s in E2. change (String.length CRLF) with 2%nat in E2. lia. }
      unfold slen. rewrite Nat2Z.id, sprefix_pad by lia. done. }
    assert (read_array max (S f) (Z.of_nat (length (a :: args))) r (bulk_header a +:+ c) =
            if String.eqb c EmptyString then Ret (DErr EOF) else read_array max f (Z.of_nat (length args))
              (rec_append (nul_padded (String.length a) c) (nul_padded (String.length a + 2) c) (rec_add_org (bulk_header a) r)) EmptyString) as HR.
    { cbn [read_array]. assert ((Z.of_nat (length (a :: args)) <=? 0) = false) as -> by done.
      rewrite bulk_header_eq, header_line by (done || lia). unfold header at 1. change (Ascii.eqb "$" "*") with false. cbv iota. cbn [obind].
      rewrite single_header by (auto || lia). cbn [obind]. change (Ascii.eqb "$" "$") with true. cbv iota. rewrite <- bulk_header_eq, Hb.
      destruct (String.eqb c EmptyString); [done|]. cbn [obind]. f_equal. simpl. lia. }
    rewrite HR. destruct (String.eqb_spec c EmptyString) as [->|Hc]; [by left|].
    assert (1 ≤ f)%nat as Hf1. { rewrite length_app_s in Hf. assert (1 ≤ String.length (bulk_header a))%nat by (unfold bulk_header; rewrite !length_app_s; simpl; lia). lia. }
    destruct f as [|f]; [lia|]. destruct args as [|a2 args].
    + right. exists [], a, c. eexists. cbn [fmap list_fmap sconcat] in *. rewrite string_app_nil_r in E1. rewrite !sapp_nil_l. split; [done|]. split; [done|]. split; [done|]. split; [done|]. reflexivity.
    + left. cbn [read_array]. by assert ((Z.of_nat (length (a2 :: args)) <=? 0) = false) as -> by done.
Qed.
(** Cut anywhere, a request is refused or differs from the one sent in at most its last argument, which is then what
    arrived of it, filled up with NUL bytes to the announced length. *)
Theorem C45_cut args p q : Forall (λ s, slen s + 2 ≤ max ∧ slen s + 2 < two63) args → Z.of_nat (length args) < two63 → p +:+ q = request_bytes args → q ≠ EmptyString →
  decode max p = Ret (DErr EOF) ∨
  ∃ init s x org, args = init ++ [s] ∧ x ≠ EmptyString ∧ x +:+ q = s +:+ CRLF ∧
    decode max p = Ret (DOk (Rec (init ++ [nul_padded (String.length s) x]) org, EmptyString)).
Proof.
  intros F Hn E Hq. unfold request_bytes in E. destruct (app_split _ _ _ _ E) as [(c & -> & E1)|(c & Hc & E1 & _)].
  - rewrite decode_array by lia. destruct (read_array_cut args (S (String.length c)) (Rec [] (array_header (length args))) c q F ltac:(lia) E1 Hq) as [H|(init & s & x & org & H1 & H2 & H3 & _ & H4)]; [by left|].
    right. by exists init, s, x, org.
  - left. rewrite array_header_eq in E1. apply eq_sym, header_no_lf in E1; [|done|lia|done]. apply read_line_none in E1. unfold decode. by rewrite E1.
Qed.
(** so a request cut before the bytes of its last argument is refused *)
Theorem C04_refused_partial init s p q : Forall (λ s, slen s + 2 ≤ max ∧ slen s + 2 < two63) (init ++ [s]) → Z.of_nat (length (init ++ [s])) < two63 →
  p +:+ q = request_bytes (init ++ [s]) → slen s + 2 ≤ slen q → decode max p = Ret (DErr EOF).
Proof.
  intros F Hn E Hq. destruct (C45_cut _ p q F Hn E) as [H|(init' & s' & x & org & H1 & H2 & H3 & _)]; [|done|].
  - intros ->. unfold slen in Hq. simpl in Hq. lia.
  - exfalso. apply app_inj_tail in H1 as [_ <-]. apply (f_equal String.length) in H3. rewrite !length_app_s in H3. change (String.length CRLF) with 2%nat in H3.
    unfold slen in Hq. destruct x; [done|]. simpl in H3. lia.
Qed.
(** and a request of which only (part of) the final CR LF is missing is executed as it was sent *)
Lemma nul_padded_app s x : nul_padded (String.length s) (s +:+ x) = s.
Proof. induction s as [|c s IH]; [done|]. rewrite sapp_cons. cbn [String.length nul_padded]. by rewrite IH. Qed.

(** ** C03: what makes the decoder panic *)
Lemma length_loop_panic s : ∀ z, length_loop s z = Panic → has_cr s = false.
Proof. induction s as [|c s IH]; intros z; cbn [length_loop has_cr]; [done|]. destruct (Ascii.eqb c CR); [done|]. apply IH. Qed.
Lemma length_loop_no_cr s : ∀ z, has_cr s = false → length_loop s z = Panic.
Proof. induction s as [|c s IH]; intros z; cbn [length_loop has_cr]; [done|]. destruct (Ascii.eqb c CR); [done|]. apply IH. Qed.
(** bad: without a carriage return, or announcing a payload that cannot be allocated *)
Definition bad_header (c : ascii) (mid : string) : Prop :=
  has_cr mid = false ∨ c = "$"%char ∧ ∃ n, length_loop mid 0 = Ret n ∧ ¬ (n + 2 ≤ max).
Lemma header_in_app u b c mid : header_in b c mid → header_in (u +:+ b) c mid.
Proof. intros (pre & post & -> & H). exists (u +:+ pre), post. by rewrite app_assoc_s. Qed.
Lemma length_loop_app s x : ∀ z n, has_cr s = true → length_loop (s +:+ x) z = n → length_loop s z = n.
Proof. induction s as [|c s IH]; intros z n; [done|]. rewrite sapp_cons. cbn [has_cr length_loop]. destruct (Ascii.eqb c CR); [done|]. apply IH. Qed.
Lemma has_cr_app s x : has_cr (s +:+ x) = has_cr s || has_cr x.
Proof. induction s as [|c s IH]; [done|]. rewrite sapp_cons. cbn [has_cr]. by rewrite IH, orb_assoc. Qed.
(** the first line of a buffer *)
Lemma first_line b c l t : read_line b = Some (String c l, t) → (c = "$" ∨ c = "*")%char → ∃ mid, l = mid +:+ String LF EmptyString ∧ header_in b c mid.
Proof.
  intros H Hc. destruct (read_line_split _ _ _ H) as (l' & E & Hl & ->). destruct l' as [|c' mid].
  - rewrite sapp_nil_l in E. injection E as -> _. by destruct Hc as [Hc|Hc].
  - rewrite sapp_cons in E. injection E as <- ->. cbn [no_lf] in Hl. apply andb_true_iff in Hl as [_ Hl]. exists mid. split; [done|].
    exists EmptyString, t. split; [|done]. rewrite sapp_nil_l, sapp_cons, <- app_assoc_s. done.
Qed.
Lemma read_length_panic b c l t : read_line b = Some (String c l, t) → (c = "$" ∨ c = "*")%char → read_length (String c l) = Panic → ∃ mid, header_in b c mid ∧ bad_header c mid.
Proof.
  intros H Hc Hp. destruct (first_line _ _ _ _ H Hc) as (mid & -> & Hm). exists mid. split; [done|]. left.
  cbn [read_length] in Hp. assert (Ascii.eqb c "-" = false) as E by (by destruct Hc as [-> | ->]). rewrite E in Hp. apply length_loop_panic in Hp. rewrite has_cr_app in Hp. by apply orb_false_iff in Hp as [? _].
Qed.
Lemma single_panic b c l t r : read_line b = Some (String c l, t) → decode_single_line (String c l) r = Panic → ∃ c mid, header_in b c mid ∧ bad_header c mid.
Proof.
  intros H. unfold decode_single_line. destruct (slen _ <? 3); [done|]. cbv zeta. destruct (Ascii.eqb c "$" || Ascii.eqb c "*") eqn:Ec.
  - destruct (read_length (String c l)) as [n| |] eqn:El; [done| |done]. intros _. exists c. eapply read_length_panic; [done| |done].
    apply orb_true_iff in Ec as [Ec|Ec]; apply Ascii.eqb_eq in Ec; auto.
  - destruct (_ || _ || _); [done|]. by destruct (String.eqb _ _).
Qed.
Lemma bulk_panic (Hmax : max < two63) b c l t r n r2 r3 x : read_line b = Some (String c l, t) → decode_single_line (String c l) r = Ret (DOk (n, "$"%char, r2)) → read_bulk max n r3 x = Panic →
  ∃ c mid, header_in b c mid ∧ bad_header c mid.
Proof.
  intros H Hd Hb. unfold decode_single_line in Hd. destruct (slen _ <? 3); [done|]. cbv zeta in Hd. destruct (Ascii.eqb c "$" || Ascii.eqb c "*") eqn:Ec.
  - destruct (read_length (String c l)) as [m| |] eqn:El; cbn [obind] in Hd; [|done|done]. injection Hd as -> -> _.
    destruct (first_line _ _ _ _ H (or_introl eq_refl)) as (mid & -> & Hm). exists "$"%char, mid. split; [done|].
    destruct (has_cr mid) eqn:Hcr; [|by left]. right. split; [done|]. exists n. cbn [read_length] in El. change (Ascii.eqb "$" "-") with false in El. cbv iota in El.
    split; [by eapply length_loop_app|]. unfold read_bulk in Hb. destruct (Z.ltb_spec n 0) as [Hn|Hn]; [done|]. cbv zeta in Hb.
    destruct (Z.ltb_spec (n + 2) two63) as [H2|H2]; [|lia]. rewrite wrap64_small in Hb by (unfold two63 in *; lia).
    destruct (Z.ltb_spec (n + 2) 0); [lia|]. cbn [orb] in Hb. destruct (Z.ltb_spec max (n + 2)); [lia|]. by destruct (read_full _ _) as [[]|].
  - destruct (_ || _ || _) eqn:E2.
    + injection Hd as _ -> _. by vm_compute in Ec.
    + destruct (String.eqb _ _); [|done]. by injection Hd as _ Hd _.
Qed.
Lemma read_array_panic (Hmax : max < two63) f : ∀ ln r b, (String.length b < f)%nat → read_array max f ln r b = Panic → ∃ c mid, header_in b c mid ∧ bad_header c mid.
Proof.
  induction f as [|f IH]; intros ln r b Hf H; [lia|]. cbn [read_array] in H. destruct (ln <=? 0); [done|].
  destruct (read_line b) as [[l rest]|] eqn:El; [|done]. destruct (read_line_shape _ _ _ El) as (c & l' & -> & Eb & Hl).
  assert (∀ x, (∃ u, rest = u +:+ x) → (∃ c mid, header_in x c mid ∧ bad_header c mid) → ∃ c mid, header_in b c mid ∧ bad_header c mid) as K.
  { intros x [u ->] (c1 & mid & H1 & H2). exists c1, mid. split; [|done]. rewrite Eb. do 2 apply header_in_app. done. }
  set (sub := if Ascii.eqb c "*" then _ else _) in H.
  destruct sub as [[[r1 rest1]|e]| |] eqn:Es; cbn [obind] in H; [|done| |done].
  2: { subst sub. destruct (Ascii.eqb_spec c "*") as [->|]; [|done]. destruct (read_length _) as [m| |] eqn:Em; cbn [obind] in Es; [| |done].
       - apply (K rest); [by exists EmptyString|]. eapply IH; [|exact Es]. lia.
       - destruct (read_length_panic _ _ _ _ El) as (mid & ?); [by right|done|]. by exists "*"%char, mid. }
  assert (∃ u1, rest = u1 +:+ rest1) as Hsuf.
  { subst sub. destruct (Ascii.eqb c "*"); [|injection Es as _ <-; by exists EmptyString]. destruct (read_length (String c l')) as [m| |]; cbn [obind] in Es; [|done|done].
    by apply (read_array_total f m r rest) in Es; [|lia]. }
  destruct (decode_single_line (String c l') r1) as [[[[n de] r2]|e]| |] eqn:Ed; cbn [obind] in H; [|done| |done].
  2: { by eapply single_panic. }
  destruct (Ascii.eqb_spec de "$") as [->|Hde].
  - destruct (read_bulk max n r2 rest1) as [[[r3 rest2]|e]| |] eqn:Ebk; cbn [obind] in H; [|done| |done].
    + destruct (read_bulk_split _ _ _ _ _ Ebk) as (u2 & E2 & _). destruct Hsuf as [u1 Hsuf]. apply (K rest2); [exists (u1 +:+ u2); by rewrite Hsuf, E2, app_assoc_s|].
      eapply IH; [|exact H]. rewrite Hsuf, E2, !length_app_s in Hl. lia.
    + by eapply bulk_panic.
  - apply (K rest1); [done|]. eapply IH; [|exact H]. destruct Hsuf as [u1 Hsuf]. rewrite Hsuf, length_app_s in Hl. lia.
Qed.
Theorem C44_panic_cause (Hmax : max < two63) b : decode max b = Panic → ∃ c mid, header_in b c mid ∧ bad_header c mid.
Proof.
  unfold decode. destruct (read_line b) as [[l rest]|] eqn:El; [|done]. destruct (read_line_shape _ _ _ El) as (c & l' & -> & Eb & Hl).
  destruct (decode_single_line (String c l') (Rec [] "")) as [[[[n de] r2]|e]| |] eqn:Ed; cbn [obind]; [|done|intros _; by eapply single_panic|done].
  destruct (Ascii.eqb_spec de "$") as [->|]; [intros; by eapply bulk_panic|]. destruct (Ascii.eqb de "*"); [|done]. intros H.
  destruct (read_array_panic Hmax (S (String.length rest)) n r2 rest) as (c1 & mid & H1 & H2); [lia|done|]. exists c1, mid. split; [|done]. rewrite Eb. by apply header_in_app.
Qed.
(** Input whose headers are well formed never panics, however the rest of it looks: stars followed by a CR before the
    line ends, dollar signs followed by a decimal number of at most [max - 2] and a CR. *)
Theorem C03_no_panic_partial (Hmax : max < two63) b :
  (∀ c mid, header_in b c mid → ∃ digits post, mid = digits +:+ String CR post ∧ (c = "$"%char → ∃ n, parse_digits digits 0 = Some n ∧ n + 2 ≤ max)) →
  decode max b ≠ Panic.
Proof.
  intros Hh Hp. apply C44_panic_cause in Hp as (c & mid & Hm & Hbad); [|done]. destruct (Hh _ _ Hm) as (ds & post & -> & Hd). destruct Hbad as [Hbad|(-> & n & Hn & Hlt)].
  - rewrite has_cr_app in Hbad. cbn [has_cr] in Hbad. change (Ascii.eqb CR CR) with true in Hbad. by rewrite orb_true_r in Hbad.
  - destruct (Hd eq_refl) as (m & Hm1 & Hm2). rewrite (length_loop_digits _ _ _ m) in Hn by (done || lia). by injection Hn as ->.
Qed.
(** and a first line that is a header without CR always panics *)
Theorem C03_no_cr_refuted c mid t : (c = "$" ∨ c = "*")%char → no_lf mid = true → has_cr mid = false → mid ≠ EmptyString → decode max (String c (mid +:+ String LF t)) = Panic.
Proof.
  intros Hc Hl Hr Hm. unfold decode. rewrite <- (sapp_cons c), read_line_app. 2: { cbn [no_lf]. rewrite Hl. by destruct Hc as [-> | ->]. }
  rewrite sapp_cons. unfold decode_single_line. assert ((slen (String c (mid +:+ String LF "")) <? 3) = false) as ->.
  { apply Z.ltb_ge. unfold slen. cbn [String.length]. rewrite length_app_s. destruct mid; [done|]. cbn [String.length]. lia. }
  cbv zeta. assert (Ascii.eqb c "$" || Ascii.eqb c "*" = true) as -> by (by destruct Hc as [-> | ->]). cbn [read_length].
  assert (Ascii.eqb c "-" = false) as -> by (by destruct Hc as [-> | ->]). rewrite length_loop_no_cr; [done|]. rewrite has_cr_app, Hr. done.
Qed.
End wire.

(** somewhere in [b] a header announces an argument of [n] bytes, as the decoder reads it *)
Definition announces (b : string) (n : Z) : Prop := ∃ mid, header_in b "$"%char mid ∧ length_loop mid 0 = Ret n.
(** ** what a smaller limit on memory changes *)
Section two_limits.
Context (m max : Z).
Definition too_much (b : string) : Prop := ∃ n, announces b n ∧ m < n + 2.
Lemma bulk_two n r x : read_bulk max n r x ≠ Panic → read_bulk m n r x = read_bulk max n r x ∨ (0 ≤ n ∧ m < n + 2).
Proof.
  unfold read_bulk. destruct (Z.ltb_spec n 0) as [Hn|Hn]; [by left|]. cbv zeta. destruct (Z.ltb_spec (wrap64 (n + 2)) 0) as [H0|H0]; [done|]. cbn [orb].
  destruct (Z.ltb_spec max (wrap64 (n + 2))) as [H1|H1]; [done|]. intros _. destruct (Z.ltb_spec m (wrap64 (n + 2))) as [H2|H2]; [right|by left].
  split; [done|]. assert (wrap64 (n + 2) ≤ n + 2); [|lia]. unfold wrap64.
  pose proof (Z.mod_le (n + 2 + two63) two64). assert (0 < two64 ∧ 0 < two63) by done. lia.
Qed.
Lemma too_much_app u b : too_much b → too_much (u +:+ b).
Proof. intros (n & (mid & H1 & H2) & H3). exists n. split; [|done]. exists mid. split; [by apply header_in_app|done]. Qed.
Lemma line_two b c l t r n r2 r3 x : read_line b = Some (String c l, t) → decode_single_line (String c l) r = Ret (DOk (n, "$"%char, r2)) →
  read_bulk max n r3 x ≠ Panic → read_bulk m n r3 x = read_bulk max n r3 x ∨ too_much b.
Proof.
  intros H Hd Hb. destruct (bulk_two n r3 x Hb) as [E|[Hn Hm]]; [by left|right]. exists n. split; [|done].
  unfold decode_single_line in Hd. destruct (slen _ <? 3); [done|]. cbv zeta in Hd. destruct (Ascii.eqb c "$" || Ascii.eqb c "*") eqn:Ec.
  - destruct (read_length (String c l)) as [m0| |] eqn:El; cbn [obind] in Hd; [|done|done]. injection Hd as -> -> _.
    destruct (first_line _ _ _ _ H (or_introl eq_refl)) as (mid & -> & Hmid). exists mid. split; [done|].
    cbn [read_length] in El. change (Ascii.eqb "$" "-") with false in El. cbv iota in El. eapply length_loop_app; [|exact El].
    destruct (has_cr mid) eqn:Hcr; [done|]. rewrite length_loop_no_cr in El; [done|]. by rewrite has_cr_app, Hcr.
  - destruct (_ || _ || _) eqn:E2.
    + injection Hd as _ -> _. by vm_compute in Ec.
    + destruct (String.eqb _ _); [|done]. by injection Hd as _ Hd _.
Qed.
Lemma read_array_two f : ∀ ln r b, (String.length b < f)%nat → read_array max f ln r b ≠ Panic → read_array m f ln r b = read_array max f ln r b ∨ too_much b.
Proof.
  induction f as [|f IH]; intros ln r b Hf H; [lia|]. cbn [read_array] in *. destruct (ln <=? 0); [by left|].
  destruct (read_line b) as [[l rest]|] eqn:El; [|by left]. destruct (read_line_shape _ _ _ El) as (c & l' & -> & Eb & Hl).
  assert (∀ x, (∃ u, rest = u +:+ x) → too_much x → too_much b) as K.
  { intros x [u ->] Ht. rewrite Eb. by do 2 apply too_much_app. }
  assert (∀ k r x, (∃ u, rest = u +:+ x) → read_array max f k r x ≠ Panic → read_array m f k r x = read_array max f k r x ∨ too_much b) as K0.
  { intros k r0 x [u Hu] Hk. assert (String.length x < f)%nat by (rewrite Hu, length_app_s in Hl; lia).
    destruct (IH k r0 x ltac:(lia) Hk) as [E|E]; [by left|right]. apply (K x); [by exists u|done]. }
  assert (∀ sub : outcome (dres (receive * string)), (∀ r1 rest1, sub = Ret (DOk (r1, rest1)) → ∃ u1, rest = u1 +:+ rest1) →
    (let* o := sub in match o with
       | DErr e => Ret (DErr e)
       | DOk (r1, rest1) =>
           let* dl := decode_single_line (String c l') r1 in
           match dl with
           | DErr e => Ret (DErr e)
           | DOk (n, desc, r2) =>
               if Ascii.eqb desc "$" then
                 let* bs := read_bulk max n r2 rest1 in
                 match bs with DErr e => Ret (DErr e) | DOk (r3, rest2) => read_array max f (ln - 1) r3 rest2 end
               else read_array max f (ln - 1) r2 rest1
           end
       end) ≠ Panic →
    (let* o := sub in match o with
       | DErr e => Ret (DErr e)
       | DOk (r1, rest1) =>
           let* dl := decode_single_line (String c l') r1 in
           match dl with
           | DErr e => Ret (DErr e)
           | DOk (n, desc, r2) =>
               if Ascii.eqb desc "$" then
                 let* bs := read_bulk m n r2 rest1 in
                 match bs with DErr e => Ret (DErr e) | DOk (r3, rest2) => read_array m f (ln - 1) r3 rest2 end
               else read_array m f (ln - 1) r2 rest1
           end
       end) =
    (let* o := sub in match o with
       | DErr e => Ret (DErr e)
       | DOk (r1, rest1) =>
           let* dl := decode_single_line (String c l') r1 in
           match dl with
           | DErr e => Ret (DErr e)
           | DOk (n, desc, r2) =>
               if Ascii.eqb desc "$" then
                 let* bs := read_bulk max n r2 rest1 in
                 match bs with DErr e => Ret (DErr e) | DOk (r3, rest2) => read_array max f (ln - 1) r3 rest2 end
               else read_array max f (ln - 1) r2 rest1
           end
       end) ∨ too_much b) as K1.
  { intros sub Hsub Hs. destruct sub as [[[r1 rest1]|e]| |]; cbn [obind] in *; [|by left..]. specialize (Hsub _ _ eq_refl).
    destruct (decode_single_line (String c l') r1) as [[[[n de] r2]|e]| |] eqn:Ed; cbn [obind] in *; [|by left..].
    destruct (Ascii.eqb_spec de "$") as [->|Hde]; [|by apply K0].
    destruct (line_two b c l' rest r1 n r2 r2 rest1 El Ed) as [->|?]; [by intros E; rewrite E in Hs| |by right].
    destruct (read_bulk max n r2 rest1) as [[[r3 rest2]|e]| |] eqn:Ebk; cbn [obind] in *; [|by left..]. apply K0; [|done].
    destruct (read_bulk_split _ _ _ _ _ _ Ebk) as (u2 & -> & _). destruct Hsub as [u1 ->]. exists (u1 +:+ u2). by rewrite app_assoc_s. }
  destruct (Ascii.eqb c "*") eqn:Ec.
  2: { apply (K1 (Ret (DOk (r, rest)))); [|done]. intros ? ? [= <- <-]. by exists EmptyString. }
  destruct (read_length (String c l')) as [k| |]; [|by left..].
  assert (read_array max f k r rest ≠ Panic) as Hk by (intros E; cbn [obind] in H; by rewrite E in H).
  destruct (K0 k r rest ltac:(by exists EmptyString) Hk) as [E|?]; [|by right]. cbn [obind] in H |- *. rewrite E.
  apply (K1 (read_array max f k r rest)); [|done]. intros r1 rest1 E1. by apply (read_array_total max f k r rest) in E1; [|lia].
Qed.
(** An input that is decoded with one limit and not with another announces an argument that is too long for the other. *)
Lemma decode_two b : decode max b ≠ Panic → decode m b = decode max b ∨ too_much b.
Proof.
  unfold decode. destruct (read_line b) as [[l rest]|] eqn:El; [|by left]. destruct (read_line_shape _ _ _ El) as (c & l' & -> & Eb & Hl).
  destruct (decode_single_line (String c l') (Rec [] "")) as [[[[n de] r2]|e]| |] eqn:Ed; cbn [obind]; [|by left..].
  destruct (Ascii.eqb_spec de "$") as [->|]; [intros; by eapply line_two|]. destruct (Ascii.eqb de "*"); [|by left]. intros H.
  destruct (read_array_two (S (String.length rest)) n r2 rest ltac:(lia) H) as [E|E]; [by left|right]. rewrite Eb. by apply too_much_app.
Qed.
End two_limits.

(** ** C02: replies *)
(** what a client reads off the wire, whatever follows, is the value that [ask] (the observation used everywhere else)
    says; and it reads nothing exactly if [ask] says there is no reply *)
Theorem C02_reply ext c req d d' r : exec ext c req d = Ret (d', Some r) →
  match view r with
  | Some v => ∃ b, encode r = Ret b ∧ ∀ t, read_reply 2 (b +:+ t) = Some (v, t)
  | None => ∀ b, encode r ≠ Ret b
  end.
Proof.
  intros H. pose proof (exec_rsp_ok _ _ _ _ _ _ H) as Hok. destruct (view r) as [v|] eqn:Ev.
  - destruct (proj2 (encode_view r)) as [b Hb]; [by rewrite Ev|]. exists b. split; [done|]. intros t. destruct (reply_read r b t Hb Hok) as (v' & Hv' & Hr). congruence.
  - intros b Hb. destruct (proj1 (encode_view r)) as [? ?]; [by exists b|congruence].
Qed.
(** so two replies are never confused, also in a stream *)
Theorem C02_injective ext c1 c2 q1 q2 d1 d2 d1' d2' r1 r2 b1 b2 t1 t2 : exec ext c1 q1 d1 = Ret (d1', Some r1) → exec ext c2 q2 d2 = Ret (d2', Some r2) →
  encode r1 = Ret b1 → encode r2 = Ret b2 → b1 +:+ t1 = b2 +:+ t2 → view r1 = view r2 ∧ t1 = t2.
Proof.
  intros H1 H2 E1 E2 E. destruct (reply_read r1 b1 t1 E1 (exec_rsp_ok _ _ _ _ _ _ H1)) as (v1 & V1 & R1).
  destruct (reply_read r2 b2 t2 E2 (exec_rsp_ok _ _ _ _ _ _ H2)) as (v2 & V2 & R2). rewrite E, R2 in R1. injection R1 as -> ->. by rewrite V1, V2.
Qed.

(** ** concrete cases *)
Definition big : Z := 2 ^ 47.
Example C01_demo :
  let req := ["SET"; String CR (String LF (String NUL "$5")); ""] in
  Forall (λ s, slen s + 2 ≤ big ∧ slen s + 2 < two63) req ∧ Z.of_nat (length req) < two63 ∧
  request_bytes ["GET"; "a"] = "*2" +:+ CRLF +:+ "$3" +:+ CRLF +:+ "GET" +:+ CRLF +:+ "$1" +:+ CRLF +:+ "a" +:+ CRLF ∧
  decode big (request_bytes req +:+ "rest") = Ret (DOk (Rec req (request_bytes req), "rest")).
Proof.
  intros req. assert (Forall (λ s, slen s + 2 ≤ big ∧ slen s + 2 < two63) req) as F by (repeat constructor; vm_compute; congruence).
  split; [done|]. split; [done|]. split; [done|]. by apply C01_request.
Qed.
(** a binary value comes back as it is, in a stream *)
Example C02_demo : let v := String CR (String LF "+OK") in
  ∃ d b1 b2 r1 r2, exec ext0 c0 ["SET"; "k"; v] db_new = Ret (d, Some r1) ∧ exec ext0 c0 ["GET"; "k"] d = Ret (d, Some r2) ∧
    encode r1 = Ret b1 ∧ encode r2 = Ret b2 ∧ read_reply 2 (b1 +:+ b2 +:+ "x") = Some (RStatus "OK", b2 +:+ "x") ∧ read_reply 2 (b2 +:+ "x") = Some (RBulk v, "x").
Proof. intros v. eexists _, _, _, _, _. repeat split; vm_compute; reflexivity. Qed.
Example C03_demo : decode big ("$5" +:+ String LF "hello") = Panic ∧
  decode big ("$9223372036854775807" +:+ CRLF) = Panic ∧
  decode big ("*1" +:+ CRLF +:+ "hello" +:+ CRLF) = Ret (DErr Unsupported) ∧
  decode big ("$-1" +:+ CRLF +:+ "x") = Ret (DOk (Rec [nul_padded 2531 "x"] ("$-1" +:+ CRLF +:+ nul_padded 2533 "x"), "")).
Proof. split; [by vm_compute|]. split; [by vm_compute|]. split; [by vm_compute|]. by vm_compute. Qed.
(** a cut request that is executed with bytes the client did not send *)
Theorem C04_refuted : let sent := request_bytes ["SET"; "k"; "hello"] in
  ∃ p q, sent = p +:+ q ∧ q ≠ EmptyString ∧ ∃ org, decode big p = Ret (DOk (Rec ["SET"; "k"; "he" +:+ String NUL (String NUL (String NUL ""))] org, "")).
Proof.
  exists ("*3" +:+ CRLF +:+ "$3" +:+ CRLF +:+ "SET" +:+ CRLF +:+ "$1" +:+ CRLF +:+ "k" +:+ CRLF +:+ "$5" +:+ CRLF +:+ "he"), ("llo" +:+ CRLF).
  split; [by vm_compute|]. split; [done|]. eexists. vm_compute. reflexivity.
Qed.
Example C04_demo : decode big ("*3" +:+ CRLF +:+ "$3" +:+ CRLF +:+ "SET" +:+ CRLF +:+ "$1" +:+ CRLF +:+ "k" +:+ CRLF +:+ "$5") = Ret (DErr EOF) ∧
  decode big ("*3" +:+ CRLF +:+ "$3" +:+ CRLF +:+ "SE") = Ret (DErr EOF).
Proof. by vm_compute. Qed.
Example C05_demo : let it := Group [Arg "MGET"; Group [Arg "a"; Group [Arg "b"]]; Group []; Arg "c"] in
  item_fits big it ∧ item_args it = ["MGET"; "a"; "b"; "c"] ∧
  ∃ org, decode big (item_bytes it +:+ "rest") = Ret (DOk (Rec ["MGET"; "a"; "b"; "c"] org, "rest")).
Proof.
  intros it. assert (item_fits big it) as F by (vm_compute; repeat split; congruence). split; [done|]. split; [done|].
  destruct (C05_nested big ltac:(by vm_compute) [Arg "MGET"; Group [Arg "a"; Group [Arg "b"]]; Group []; Arg "c"] "rest" F) as [org E]. exists org. exact E.
Qed.
