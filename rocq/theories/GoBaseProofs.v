(** Facts about GoBase: permutation oracle, integers, integer formatting and parsing,
    string order. *)
From Verif Require Import GoBase.

(** ** Strings as sequences (std++ makes [String.append] opaque to [simpl]) *)
Lemma sapp_cons c s t : String c s +:+ t = String c (s +:+ t).
Proof. reflexivity. Qed.
Lemma sapp_nil_l s : EmptyString +:+ s = s.
Proof. reflexivity. Qed.
Lemma app_assoc_s a b c : a +:+ (b +:+ c) = (a +:+ b) +:+ c.
Proof. induction a as [|x a IH]; [done|]. by rewrite !sapp_cons, IH. Qed.
Lemma string_app_nil_r s : s +:+ EmptyString = s.
Proof. induction s as [|c s IH]; [done|]. by rewrite sapp_cons, IH. Qed.
Lemma length_app_s a b : String.length (a +:+ b) = (String.length a + String.length b)%nat.
Proof. induction a as [|x a IH]; [done|]. rewrite sapp_cons. simpl. by rewrite IH. Qed.
Lemma slen_app a b : slen (a +:+ b) = slen a + slen b.
Proof. unfold slen. rewrite length_app_s. lia. Qed.
Lemma slen_nonneg a : 0 ≤ slen a.
Proof. unfold slen. lia. Qed.

(** ** Shuffle is exactly "some permutation" *)

Lemma take_nth_perm {A} n (l : list A) x r :
  take_nth n l = Some (x, r) → l ≡ₚ x :: r.
Proof.
  revert n r. induction l as [|y l IH]; intros n r H; simpl in H; [done|].
  destruct n as [|n]; [by simplify_eq|].
  destruct (take_nth n l) as [[z r']|] eqn:E; [|done].
  simplify_eq. rewrite (IH _ _ E). apply Permutation_swap.
Qed.

Lemma shuffle_fuel_perm {A} f seed (l : list A) : shuffle_fuel f seed l ≡ₚ l.
Proof.
  revert seed l. induction f as [|f IH]; intros seed l; simpl; [done|].
  destruct seed as [|n seed]; [done|].
  destruct (take_nth _ l) as [[x r]|] eqn:E; [|done].
  rewrite IH. symmetry. by eapply take_nth_perm.
Qed.

Lemma shuffle_perm {A} seed (l : list A) : shuffle seed l ≡ₚ l.
Proof. apply shuffle_fuel_perm. Qed.

Lemma take_nth_app {A} (l1 : list A) x l2 :
  take_nth (length l1) (l1 ++ x :: l2) = Some (x, l1 ++ l2).
Proof. induction l1 as [|y l1 IH]; simpl; [done|]. by rewrite IH. Qed.

Lemma shuffle_complete {A} (l l' : list A) : l' ≡ₚ l → ∃ seed, shuffle seed l = l'.
Proof.
  unfold shuffle. intros Hp.
  assert (∃ seed, shuffle_fuel (length l') seed l = l') as [seed Hs].
  { revert l Hp. induction l' as [|x l' IH]; intros l Hp.
    - exists []. simpl. by apply Permutation_nil in Hp.
    - assert (x ∈ l) as Hin by (rewrite <- Hp; apply elem_of_list_here).
      apply elem_of_list_split in Hin as (l1 & l2 & ->).
      assert (l' ≡ₚ l1 ++ l2) as Hp'.
      { apply (Permutation_cons_inv (a:=x)). rewrite Hp. symmetry. apply Permutation_middle. }
      destruct (IH _ Hp') as [seed Hs].
      exists (length l1 :: seed). simpl.
      rewrite Nat.mod_small by (rewrite app_length; simpl; lia).
      rewrite take_nth_app. by rewrite Hs. }
  exists seed. rewrite <- (Permutation_length Hp). done.
Qed.

(** ** 64-bit wrap-around *)

Lemma in_int64_spec z : in_int64 z = true ↔ - two63 ≤ z < two63.
Proof. unfold in_int64. rewrite andb_true_iff, Z.leb_le, Z.ltb_lt. lia. Qed.

Lemma wrap64_small z : - two63 ≤ z < two63 → wrap64 z = z.
Proof.
  intros H. unfold wrap64. unfold two63, two64 in *. rewrite Z.mod_small; lia.
Qed.

Lemma wrap64_range z : - two63 ≤ wrap64 z < two63.
Proof.
  unfold wrap64, two63, two64.
  pose proof (Z.mod_pos_bound (z + 9223372036854775808) 18446744073709551616). lia.
Qed.

Lemma wrap64_mod z : wrap64 z mod two64 = z mod two64.
Proof.
  unfold wrap64. rewrite Zminus_mod_idemp_l. f_equal. lia.
Qed.

Lemma wrap64_eq_mod a b : a mod two64 = b mod two64 → wrap64 a = wrap64 b.
Proof.
  intros H. unfold wrap64. f_equal.
  rewrite <- (Zplus_mod_idemp_l a), <- (Zplus_mod_idemp_l b), H. done.
Qed.

Lemma wrap64_add_l a b : wrap64 (wrap64 a + b) = wrap64 (a + b).
Proof.
  apply wrap64_eq_mod.
  rewrite <- Zplus_mod_idemp_l, wrap64_mod, Zplus_mod_idemp_l. done.
Qed.

Lemma wrap64_add_r a b : wrap64 (a + wrap64 b) = wrap64 (a + b).
Proof. rewrite (Z.add_comm a (wrap64 b)), wrap64_add_l. f_equal. lia. Qed.

Lemma wrap64_int64 z : in_int64 (wrap64 z) = true.
Proof. apply in_int64_spec, wrap64_range. Qed.

(** ** Decimal formatting and parsing *)

Lemma N_of_digit_char n : (n < 10)%N → N_of_ascii (digit_char n) = (48 + n)%N.
Proof. intros H. unfold digit_char. apply N_ascii_embedding. lia. Qed.

Lemma digit_val_digit_char n : (n < 10)%N → digit_val (digit_char n) = Some (Z.of_N n).
Proof.
  intros H. unfold digit_val. rewrite (N_of_digit_char n H).
  destruct (_ && _)%N eqn:E.
  - f_equal. lia.
  - rewrite andb_false_iff, !N.leb_gt in E. lia.
Qed.

Lemma parse_digits_app s1 s2 acc :
  parse_digits (s1 +:+ s2) acc = match parse_digits s1 acc with Some a => parse_digits s2 a | None => None end.
Proof.
  revert acc. induction s1 as [|c s1 IH]; intros acc; simpl; [done|].
  destruct (digit_val c); [apply IH|done].
Qed.

(** [dec_digits] puts in front of [acc] a digit string denoting [n]. *)
Lemma dec_digits_spec f n acc :
  (n < 2 ^ N.of_nat f)%N → (0 < f)%nat →
  ∃ ds, dec_digits f n acc = ds +:+ acc ∧ parse_digits ds 0 = Some (Z.of_N n) ∧ ds ≠ EmptyString ∧
        (∀ c r, ds = String c r → is_Some (digit_val c)).
Proof.
  revert n acc. induction f as [|f IH]; intros n acc Hn Hf; [lia|]. cbn [dec_digits].
  assert (n mod 10 < 10)%N as Hm by (apply N.mod_lt; lia).
  destruct (N.ltb_spec n 10) as [Hlt|Hge].
  - exists (String (digit_char (n mod 10)) EmptyString). rewrite N.mod_small by done.
    split_and!; [done| |done|].
    + simpl. rewrite digit_val_digit_char by done. f_equal.
    + intros c r [= <- <-]. rewrite digit_val_digit_char by done. eauto.
  - assert (n / 10 < 2 ^ N.of_nat f)%N as Hd.
    { apply N.div_lt_upper_bound; [lia|].
      rewrite Nat2N.inj_succ, N.pow_succ_r' in Hn. lia. }
    assert (0 < f)%nat as Hf'.
    { destruct f; [|lia]. simpl in Hd. assert (1 <= n / 10)%N; [|lia].
      apply N.div_le_lower_bound; lia. }
    destruct (IH (n / 10)%N (String (digit_char (n mod 10)) acc) Hd Hf') as (ds & Hds & Hp & Hne & Hfirst).
    exists (ds +:+ String (digit_char (n mod 10)) EmptyString).
    split_and!.
    + rewrite Hds. by rewrite <- app_assoc_s.
    + rewrite parse_digits_app, Hp. simpl. rewrite digit_val_digit_char by done.
      f_equal. pose proof (N.div_mod n 10). lia.
    + destruct ds; done.
    + intros c r Heq. destruct ds as [|d ds]; [done|]. simpl in Heq. injection Heq as <- _. eauto.
Qed.

Lemma itoa_N_spec n :
  parse_uint (itoa_N n) = Some (Z.of_N n) ∧
  (∃ c r, itoa_N n = String c r ∧ is_Some (digit_val c)).
Proof.
  unfold itoa_N.
  destruct (dec_digits_spec (S (N.size_nat n)) n EmptyString) as (ds & Hds & Hp & Hne & Hf); [|lia|].
  { rewrite Nat2N.inj_succ, N.pow_succ_r'.
    assert (n < 2 ^ N.of_nat (N.size_nat n))%N; [|lia].
    destruct n as [|p]; [simpl; lia|].
    pose proof (N.size_gt (N.pos p)) as H. simpl in *.
    assert (N.of_nat (Pos.size_nat p) = N.pos (Pos.size p)) as ->; [|done].
    clear. induction p as [p IH|p IH|]; simpl Pos.size_nat; simpl Pos.size; [..|done];
      rewrite Nat2N.inj_succ, IH; lia. }
  rewrite string_app_nil_r in Hds. rewrite Hds. destruct ds as [|c ds]; [done|].
  split; [exact Hp|]. exists c, ds. split; [done|]. eapply Hf. done.
Qed.

Lemma digit_not_sign c : is_Some (digit_val c) → Ascii.eqb c "-" = false ∧ Ascii.eqb c "+" = false.
Proof.
  intros [d Hd]. split; apply not_true_is_false; intros E%Ascii.eqb_eq; subst c; vm_compute in Hd; done.
Qed.

Lemma parse_int_itoa z : - two63 ≤ z < two63 → parse_int (itoa z) = Some z.
Proof.
  intros Hz. pose proof Hz as Hb. apply in_int64_spec in Hb. unfold itoa.
  destruct (Z.ltb_spec z 0) as [Hneg|Hpos].
  - destruct (itoa_N_spec (Z.to_N (- z))) as [Hp _].
    cbn [parse_int]. change (Ascii.eqb "-" "-") with true. cbv iota.
    rewrite Hp. cbn [option_map]. replace (- Z.of_N (Z.to_N (- z))) with z by lia. by rewrite Hb.
  - destruct (itoa_N_spec (Z.to_N z)) as [Hp (c & r & Heq & Hd)].
    rewrite Heq in *. apply digit_not_sign in Hd as [H1 H2].
    cbn [parse_int]. rewrite H1, H2, Hp.
    replace (Z.of_N (Z.to_N z)) with z by lia. by rewrite Hb.
Qed.

Lemma parse_int_range s z : parse_int s = Some z → - two63 ≤ z < two63.
Proof.
  unfold parse_int. destruct s as [|c r]; [done|].
  destruct (if Ascii.eqb c "-" then _ else _) as [y|]; [|done].
  destruct (in_int64 y) eqn:E; [|done]. intros [= ->]. by apply in_int64_spec.
Qed.

(** ** String order *)

Lemma N_of_ascii_inj a b : N_of_ascii a = N_of_ascii b → a = b.
Proof. intros H. by rewrite <- (ascii_N_embedding a), <- (ascii_N_embedding b), H. Qed.

Lemma str_ltb_irrefl a : str_ltb a a = false.
Proof. induction a as [|c a IH]; simpl; [done|]. by rewrite !N.ltb_irrefl. Qed.

Lemma str_ltb_trans a b c : str_ltb a b = true → str_ltb b c = true → str_ltb a c = true.
Proof.
  revert b c. induction a as [|x a IH]; intros [|y b] [|z c]; simpl; try done.
  destruct (N.ltb_spec (N_of_ascii x) (N_of_ascii y)), (N.ltb_spec (N_of_ascii y) (N_of_ascii x)),
    (N.ltb_spec (N_of_ascii y) (N_of_ascii z)), (N.ltb_spec (N_of_ascii z) (N_of_ascii y)),
    (N.ltb_spec (N_of_ascii x) (N_of_ascii z)), (N.ltb_spec (N_of_ascii z) (N_of_ascii x));
    try done; try lia. eauto.
Qed.

Lemma str_ltb_total a b : str_ltb a b = false → str_ltb b a = false → a = b.
Proof.
  revert b. induction a as [|x a IH]; intros [|y b]; simpl; try done.
  destruct (N.ltb_spec (N_of_ascii x) (N_of_ascii y)), (N.ltb_spec (N_of_ascii y) (N_of_ascii x));
    try done; try lia.
  intros H1 H2. f_equal; [|by apply IH]. apply N_of_ascii_inj. lia.
Qed.

Lemma str_ltb_asym a b : str_ltb a b = true → str_ltb b a = false.
Proof.
  intros H. destruct (str_ltb b a) eqn:E; [|done].
  pose proof (str_ltb_trans _ _ _ H E). by rewrite str_ltb_irrefl in *.
Qed.
