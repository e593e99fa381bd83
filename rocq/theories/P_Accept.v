(** C72: exactly which bytes the decoder accepts as which request, and which make it panic. *)
From Verif Require Import GoBase GoBaseProofs Float64 Db Protocol Redis SpecResp SpecWire SpecAccept Obs RespProofs Examples P_Wire Server SpecServing ServerProofs P_Serve.

Scheme accepts_ind2 := Induction for accepts Sort Prop with accepts_all_ind2 := Induction for accepts_all Sort Prop.
Combined Scheme accepts_mut from accepts_ind2, accepts_all_ind2.
Scheme chokes_ind2 := Induction for chokes Sort Prop with chokes_in_ind2 := Induction for chokes_in Sort Prop.
Combined Scheme chokes_mut from chokes_ind2, chokes_in_ind2.

Lemma no_lf_app a b : no_lf (a +:+ b) = no_lf a && no_lf b.
Proof. induction a as [|c a IH]; [done|]. rewrite sapp_cons. cbn [no_lf]. by rewrite IH, andb_assoc. Qed.
Lemma take_pad_eq n : ∀ b, take_pad n b = (nul_padded n b, beyond n b).
Proof. induction n as [|n IH]; intros b; [by destruct b|]. destruct b as [|c b]; cbn [take_pad nul_padded beyond]; rewrite IH; [|done]. by destruct n. Qed.
Lemma length_loop_spelled digits t : ∀ z, has_cr digits = false → length_loop (digits +:+ String CR t) z = Ret (spelled digits z).
Proof.
  induction digits as [|c s IH]; intros z H; [done|]. rewrite sapp_cons. cbn [has_cr length_loop spelled] in *. apply orb_false_iff in H as [-> H]. by apply IH.
Qed.
Lemma cr_split s : has_cr s = true → ∃ a b, s = a +:+ String CR b ∧ has_cr a = false.
Proof.
  induction s as [|c s IH]; [done|]. cbn [has_cr]. destruct (Ascii.eqb_spec c CR) as [->|Hc]; cbn [orb].
  - intros _. by exists EmptyString, s.
  - intros (a & b & -> & H)%IH. exists (String c a), b. rewrite sapp_cons. split; [done|]. cbn [has_cr]. rewrite H. by destruct (Ascii.eqb_spec c CR).
Qed.
Lemma slen_cons c s : slen (String c s) = 1 + slen s. Proof. unfold slen. simpl. lia. Qed.
Lemma last_split s : s ≠ EmptyString → ∃ a x, s = a +:+ String x EmptyString.
Proof.
  induction s as [|c s IH]; [done|]. intros _. destruct s as [|d s]; [by exists EmptyString, c|]. destruct IH as (a & x & ->); [done|]. exists (String c a), x. by rewrite sapp_cons.
Qed.
Lemma sprefix_but2 text x : sprefix (String.length (text +:+ String x (String LF EmptyString)) - 2) (text +:+ String x (String LF EmptyString)) = text.
Proof. rewrite length_app_s. cbn [String.length]. replace (String.length text + 2 - 2)%nat with (String.length text) by lia. apply sprefix_app. Qed.

(** ** lines *)
Lemma line_kinds c mid : no_lf mid = true → length_line c (spelled mid 0) (String c (mid +:+ String LF EmptyString)) ∨ (∃ n, length_line c n (String c (mid +:+ String LF EmptyString))) ∨ headless_line c (String c (mid +:+ String LF EmptyString)).
Proof.
  intros H. right. destruct (has_cr mid) eqn:E; [left|right; by constructor]. destruct (cr_split _ E) as (a & b & -> & Ha). rewrite no_lf_app in H. apply andb_true_iff in H as [H1 H2].
  cbn [no_lf] in H2. apply andb_true_iff in H2 as [_ H2]. exists (spelled a 0). rewrite <- app_assoc_s, sapp_cons. by constructor.
Qed.
Lemma length_line_read c n l t : c ≠ LF → length_line c n l → read_line (l +:+ t) = Some (l, t).
Proof.
  intros Hc [digits junk H1 H2 H3]. pose proof (read_line_app (String c (digits +:+ String CR junk)) t) as R. rewrite !sapp_cons, <- !app_assoc_s, !sapp_cons in R.
  rewrite !sapp_cons, <- !app_assoc_s, !sapp_cons, <- !app_assoc_s, sapp_cons, sapp_nil_l. apply R. cbn [no_lf]. rewrite no_lf_app. cbn [no_lf]. rewrite H2, H3. by destruct (Ascii.eqb_spec c LF).
Qed.
Lemma headless_read c l t : c ≠ LF → headless_line c l → read_line (l +:+ t) = Some (l, t).
Proof.
  intros Hc [mid H1 H2]. pose proof (read_line_app (String c mid) t) as R. rewrite !sapp_cons in R. rewrite sapp_cons, <- app_assoc_s, sapp_cons, sapp_nil_l. apply R. cbn [no_lf]. rewrite H2.
  by destruct (Ascii.eqb_spec c LF).
Qed.
Lemma length_line_length c n l : Ascii.eqb c "-" = false → length_line c n l → read_length l = Ret n.
Proof. intros Hc [digits junk H1 H2 H3]. cbn [read_length]. rewrite Hc. by apply length_loop_spelled. Qed.
Lemma headless_length c l : Ascii.eqb c "-" = false → headless_line c l → read_length l = Panic.
Proof. intros Hc [mid H1 H2]. cbn [read_length]. rewrite Hc. apply length_loop_no_cr. rewrite has_cr_app, H1. done. Qed.
Lemma length_line_slen c n l : length_line c n l → 3 ≤ slen l.
Proof. intros [digits junk _ _ _]. rewrite slen_cons, slen_app, slen_cons, slen_app, slen_cons. pose proof (slen_nonneg digits). pose proof (slen_nonneg junk). pose proof (slen_nonneg EmptyString). lia. Qed.
Lemma length_line_single c n l r : (c = "$" ∨ c = "*")%char → length_line c n l → decode_single_line l r = Ret (DOk (n, c, rec_add_org l r)).
Proof.
  intros Hc H. unfold decode_single_line. pose proof (length_line_slen _ _ _ H). assert ((slen l <? 3) = false) as -> by lia. cbv zeta.
  pose proof (length_line_length c n l ltac:(by destruct Hc as [-> | ->]) H) as Hl. destruct H. rewrite Hl. by destruct Hc as [-> | ->].
Qed.
Lemma headless_single c l r : (c = "$" ∨ c = "*")%char → headless_line c l → 3 ≤ slen l → decode_single_line l r = Panic.
Proof.
  intros Hc H Hs. unfold decode_single_line. assert ((slen l <? 3) = false) as -> by lia. cbv zeta.
  pose proof (headless_length c l ltac:(by destruct Hc as [-> | ->]) H) as Hl. destruct H. rewrite Hl. by destruct Hc as [-> | ->].
Qed.
Lemma text_single c text x r : (c = "+" ∨ c = "-" ∨ c = ":")%char →
  decode_single_line (String c (text +:+ String x (String LF EmptyString))) r =
  Ret (DOk (0, c, Rec (elements r ++ [text]) (org_str r +:+ String c (text +:+ String x (String LF EmptyString))))).
Proof.
  intros Hc. unfold decode_single_line. set (l := String c _). assert ((slen l <? 3) = false) as ->.
  { subst l. rewrite slen_cons, slen_app, !slen_cons. pose proof (slen_nonneg text). pose proof (slen_nonneg EmptyString). lia. }
  cbv zeta. unfold l at 1 2. cbv iota. assert (Ascii.eqb c "$" || Ascii.eqb c "*" = false) as -> by (by destruct Hc as [-> |[-> | ->]]).
  assert (Ascii.eqb c "+" || Ascii.eqb c "-" || Ascii.eqb c ":" = true) as -> by (by destruct Hc as [-> |[-> | ->]]). cbv iota. rewrite sprefix_but2. unfold rec_append, rec_add_org. cbn [elements org_str].
  by rewrite string_app_nil_r.
Qed.

Section accept.
Context (max : Z) (Hmax : max < two63).
Notation accepts := (accepts max). Notation accepts_all := (accepts_all max). Notation chokes := (chokes max). Notation chokes_in := (chokes_in max).

Lemma bulk_accept n r body : 0 ≤ n → n + 2 ≤ max → body ≠ EmptyString →
  read_bulk max n r body = Ret (DOk (rec_append (nul_padded (Z.to_nat n) body) (nul_padded (Z.to_nat (n + 2)) body) r, beyond (Z.to_nat (n + 2)) body)).
Proof.
  intros H1 H2 H3. unfold read_bulk. destruct (Z.ltb_spec n 0); [lia|]. cbv zeta. rewrite wrap64_small by (unfold two63 in *; lia).
  destruct (Z.ltb_spec (n + 2) 0); [lia|]. destruct (Z.ltb_spec max (n + 2)); [lia|]. cbn [orb]. unfold read_full. destruct body as [|c b]; [done|]. rewrite take_pad_eq, sprefix_pad by lia. done.
Qed.
Lemma bulk_large n r body : 0 ≤ n < two63 → max < n + 2 → read_bulk max n r body = Panic.
Proof.
  intros H1 H2. unfold read_bulk. destruct (Z.ltb_spec n 0); [lia|]. cbv zeta. destruct (Z.ltb_spec (n + 2) two63) as [H3|H3].
  - rewrite wrap64_small by (unfold two63 in *; lia). destruct (Z.ltb_spec max (n + 2)); [|lia]. by rewrite orb_true_r.
  - assert (wrap64 (n + 2) < 0) as H4.
    { unfold wrap64, two64, two63 in *. replace (n + 2 + 9223372036854775808) with (n + 2 - 9223372036854775808 + 1 * 18446744073709551616) by lia. rewrite Z.mod_add, Z.mod_small by lia. lia. }
    destruct (Z.ltb_spec (wrap64 (n + 2)) 0); [done|lia].
Qed.
Lemma spelled_range s : ∀ z, - two63 ≤ z < two63 → - two63 ≤ spelled s z < two63.
Proof. induction s as [|c s IH]; intros z Hz; cbn [spelled]; [done|]. apply IH, wrap64_range. Qed.
Lemma line_range c n l : length_line c n l → - two63 ≤ n < two63.
Proof. intros [digits junk _ _ _]. apply spelled_range. unfold two63. lia. Qed.

(** the rest is shorter *)
Lemma beyond_length n : ∀ b, (String.length (beyond n b) ≤ String.length b)%nat.
Proof. induction n as [|n IH]; intros b; [by destruct b|]. destruct b as [|c b]; cbn [beyond String.length]; [done|]. specialize (IH b). lia. Qed.
Lemma line_length c n l : length_line c n l → (3 ≤ String.length l)%nat.
Proof. intros H%length_line_slen. unfold slen in H. lia. Qed.
Lemma accepts_shorter : (∀ top b ws org t, accepts top b ws org t → (String.length t < String.length b)%nat) ∧
  (∀ n b ws org t, accepts_all n b ws org t → (String.length t ≤ String.length b)%nat).
Proof.
  apply (accepts_mut max (λ top b ws org t _, String.length t < String.length b)%nat (λ n b ws org t _, String.length t ≤ String.length b)%nat).
  - intros. cbn [String.length]. rewrite length_app_s. cbn [String.length]. lia.
  - intros. rewrite !length_app_s. simpl. lia.
  - intros top n line body H _ _ _. apply line_length in H. rewrite length_app_s. pose proof (beyond_length (Z.to_nat (n + 2)) body). lia.
  - intros top n line body ws org rest H _ IH. apply line_length in H. rewrite length_app_s. lia.
  - done.
  - intros. lia.
Qed.

(** ** the decoder does what the grammar says *)
Lemma rec_assoc r ws1 ws2 o1 o2 : Rec (elements (Rec (elements r ++ ws1) (org_str r +:+ o1)) ++ ws2) (org_str (Rec (elements r ++ ws1) (org_str r +:+ o1)) +:+ o2) = Rec (elements r ++ ws1 ++ ws2) (org_str r +:+ o1 +:+ o2).
Proof. cbn [elements org_str]. by rewrite <- (assoc_L app), app_assoc_s. Qed.
Lemma read_array_done f ln r b : ln ≤ 0 → read_array max (S f) ln r b = Ret (DOk (r, b)).
Proof. intros H. cbn [read_array]. destruct (Z.leb_spec ln 0); [done|lia]. Qed.
Lemma accepted : (∀ top b ws org t, accepts top b ws org t →
    if top then decode max b = Ret (DOk (Rec ws org, t))
    else ∀ f ln r, 0 < ln → (String.length b < S f)%nat → read_array max (S f) ln r b = read_array max f (ln - 1) (Rec (elements r ++ ws) (org_str r +:+ org)) t) ∧
  (∀ n b ws org t, accepts_all n b ws org t → ∀ f ln r, Z.to_nat ln = n → (String.length b < f)%nat →
    read_array max f ln r b = Ret (DOk (Rec (elements r ++ ws) (org_str r +:+ org), t))).
Proof.
  apply (accepts_mut max (λ top b ws org t _, if top then decode max b = Ret (DOk (Rec ws org, t))
      else ∀ f ln r, 0 < ln → (String.length b < S f)%nat → read_array max (S f) ln r b = read_array max f (ln - 1) (Rec (elements r ++ ws) (org_str r +:+ org)) t)
    (λ n b ws org t _, ∀ f ln r, Z.to_nat ln = n → (String.length b < f)%nat → read_array max f ln r b = Ret (DOk (Rec (elements r ++ ws) (org_str r +:+ org), t)))).
  - intros top c text x rest Hc Ht Hx.
    assert (read_line (String c (text +:+ String x (String LF rest))) = Some (String c (text +:+ String x (String LF EmptyString)), rest)) as R.
    { pose proof (read_line_app (String c (text +:+ String x EmptyString)) rest) as R. rewrite !sapp_cons, <- !app_assoc_s, !sapp_cons, !sapp_nil_l in R. apply R.
      cbn [no_lf]. rewrite no_lf_app. cbn [no_lf]. rewrite Ht. destruct (Ascii.eqb_spec x LF); [done|]. by destruct Hc as [-> |[-> | ->]]. }
    destruct top.
    + unfold decode. rewrite R, text_single by done. cbn [obind elements org_str]. by destruct Hc as [-> |[-> | ->]].
    + intros f ln r Hl Hf. cbn [read_array]. destruct (Z.leb_spec ln 0); [lia|]. rewrite R.
      assert (Ascii.eqb c "*" = false) as -> by (by destruct Hc as [-> |[-> | ->]]). cbn [obind]. rewrite text_single by done. cbn [obind]. assert (Ascii.eqb c "$" = false) as -> by (by destruct Hc as [-> |[-> | ->]]). done.
  - intros top rest. assert (read_line ("PING" +:+ CRLF +:+ rest) = Some ("PING" +:+ CRLF, rest)) as R by done.
    assert (∀ r, decode_single_line ("PING" +:+ CRLF) r = Ret (DOk (0, "+"%char, rec_append "PING" ("PING" +:+ CRLF) (rec_add_org ("PING" +:+ CRLF) r)))) as D by done. destruct top.
    + unfold decode. rewrite R, D. done.
    + intros f ln r Hl Hf. cbn [read_array]. destruct (Z.leb_spec ln 0); [lia|]. rewrite R. change ("PING" +:+ CRLF) with (String "P" ("ING" +:+ CRLF)) at 1. cbv iota. change (Ascii.eqb "P" "*") with false. cbv iota. cbn [obind].
      rewrite D. cbn [obind]. change (Ascii.eqb "+" "$") with false. cbv iota. f_equal. unfold rec_append, rec_add_org. cbn [elements org_str]. f_equal. rewrite <- !app_assoc_s. done.
  - intros top n line body H H0 H1 H2. pose proof (length_line_read "$" _ _ body ltac:(done) H) as R. destruct top.
    + unfold decode. rewrite R, (length_line_single "$" n) by auto. cbn [obind]. change (Ascii.eqb "$" "$") with true. cbv iota. rewrite bulk_accept by done. done.
    + intros f ln r Hl Hf. cbn [read_array]. destruct (Z.leb_spec ln 0); [lia|]. rewrite R. pose proof H as Hs. destruct Hs as [digits junk ? ? ?]. change (Ascii.eqb "$" "*") with false. cbv iota. cbn [obind].
      rewrite (length_line_single "$" _ _ _ (or_introl eq_refl) H). cbn [obind]. change (Ascii.eqb "$" "$") with true. cbv iota. rewrite bulk_accept by done. cbn [obind]. f_equal.
      unfold rec_append, rec_add_org. cbn [elements org_str]. by rewrite <- app_assoc_s.
  - intros top n line body ws org rest H HA IH. pose proof (length_line_read "*" _ _ body ltac:(done) H) as R. destruct top.
    + unfold decode. rewrite R, (length_line_single "*" n) by auto. cbn [obind]. change (Ascii.eqb "*" "$") with false. change (Ascii.eqb "*" "*") with true. cbv iota. rewrite IH by (done || lia). done.
    + intros f ln r Hl Hf. cbn [read_array]. destruct (Z.leb_spec ln 0); [lia|]. rewrite R. pose proof (line_length _ _ _ H). rewrite length_app_s in Hf.
      pose proof (length_line_length "*" n line eq_refl H) as L. pose proof (length_line_single "*" n line) as S1. specialize (S1 (Rec (elements r ++ ws) (org_str r +:+ org)) (or_intror eq_refl) H).
      assert (∃ l', line = String "*" l') as [l' ->] by (destruct H; eauto). change (Ascii.eqb "*" "*") with true. cbv iota. rewrite L. cbn [obind]. rewrite IH by (done || lia). cbn [obind]. rewrite S1. cbn [obind].
      change (Ascii.eqb "*" "$") with false. cbv iota. unfold rec_add_org. cbn [elements org_str]. by rewrite <- app_assoc_s.
  - intros b f ln r Hl Hf. destruct f; [lia|]. rewrite read_array_done by lia. rewrite app_nil_r, string_app_nil_r. by destruct r.
  - intros n b ws1 org1 b1 ws2 org2 b2 H1 IH1 H2 IH2 f ln r Hl Hf. destruct f as [|f]; [lia|]. pose proof (proj1 accepts_shorter _ _ _ _ _ H1). rewrite IH1 by lia. rewrite IH2 by lia. by rewrite rec_assoc.
Qed.
Lemma choked : (∀ top b, chokes top b → if top then decode max b = Panic else ∀ f ln r, 0 < ln → (String.length b < S f)%nat → read_array max (S f) ln r b = Panic) ∧
  (∀ n b, chokes_in n b → ∀ f ln r, Z.to_nat ln = n → (String.length b < f)%nat → read_array max f ln r b = Panic).
Proof.
  apply (chokes_mut max (λ top b _, if top then decode max b = Panic else ∀ f ln r, 0 < ln → (String.length b < S f)%nat → read_array max (S f) ln r b = Panic)
    (λ n b _, ∀ f ln r, Z.to_nat ln = n → (String.length b < f)%nat → read_array max f ln r b = Panic)).
  - intros top line rest H H0. pose proof (headless_read "$" _ rest ltac:(done) H) as R. destruct top.
    + unfold decode. by rewrite R, (headless_single "$") by auto.
    + intros f ln r Hl Hf. cbn [read_array]. destruct (Z.leb_spec ln 0); [lia|]. rewrite R. pose proof (headless_single "$" line r (or_introl eq_refl) H H0) as Sl.
      assert (∃ l', line = String "$" l') as [l' ->] by (destruct H; eauto). change (Ascii.eqb "$" "*") with false. cbv iota. cbn [obind]. by rewrite Sl.
  - intros top line rest H H0. pose proof (headless_read "*" _ rest ltac:(done) H) as R. destruct top.
    + unfold decode. by rewrite R, (headless_single "*") by auto.
    + intros f ln r Hl Hf. cbn [read_array]. destruct (Z.leb_spec ln 0); [lia|]. rewrite R. pose proof (headless_length "*" line eq_refl H) as L.
      assert (∃ l', line = String "*" l') as [l' ->] by (destruct H; eauto). change (Ascii.eqb "*" "*") with true. cbv iota. by rewrite L.
  - intros top n line rest H H0 H1. pose proof (length_line_read "$" _ _ rest ltac:(done) H) as R. pose proof (line_range _ _ _ H) as Hn. destruct top.
    + unfold decode. rewrite R, (length_line_single "$" n) by auto. cbn [obind]. change (Ascii.eqb "$" "$") with true. cbv iota. by rewrite bulk_large by lia.
    + intros f ln r Hl Hf. cbn [read_array]. destruct (Z.leb_spec ln 0); [lia|]. rewrite R. pose proof (length_line_single "$" n line r (or_introl eq_refl) H) as Sl.
      assert (∃ l', line = String "$" l') as [l' ->] by (destruct H; eauto). change (Ascii.eqb "$" "*") with false. cbv iota. cbn [obind]. rewrite Sl. cbn [obind]. change (Ascii.eqb "$" "$") with true. cbv iota. by rewrite bulk_large by lia.
  - intros top n line body H HC IH. pose proof (length_line_read "*" _ _ body ltac:(done) H) as R. destruct top.
    + unfold decode. rewrite R, (length_line_single "*" n) by auto. cbn [obind]. change (Ascii.eqb "*" "$") with false. change (Ascii.eqb "*" "*") with true. cbv iota. by rewrite IH by (done || lia).
    + intros f ln r Hl Hf. cbn [read_array]. destruct (Z.leb_spec ln 0); [lia|]. rewrite R. pose proof (line_length _ _ _ H). rewrite length_app_s in Hf.
      pose proof (length_line_length "*" n line eq_refl H) as L.
      assert (∃ l', line = String "*" l') as [l' ->] by (destruct H; eauto). change (Ascii.eqb "*" "*") with true. cbv iota. rewrite L. cbn [obind]. by rewrite IH by (done || lia).
  - intros n b H IH f ln r Hl Hf. destruct f as [|f]; [lia|]. by apply IH; lia.
  - intros n b ws org b1 HA HC IH f ln r Hl Hf. destruct f as [|f]; [lia|]. pose proof (proj1 accepts_shorter _ _ _ _ _ HA).
    rewrite (proj1 accepted _ _ _ _ _ HA) by lia. apply IH; lia.
Qed.

(** ** and nothing else *)
(** what a line can be *)
Lemma single_cases l' r : no_lf l' = true → let l := l' +:+ String LF EmptyString in
  match decode_single_line l r with
  | Ret (DOk (n, c, r2)) =>
      ((c = "$" ∨ c = "*")%char ∧ length_line c n l ∧ r2 = rec_add_org l r) ∨
      (Ascii.eqb c "$" = false ∧ Ascii.eqb c "*" = false ∧ (∃ d s, l = String d s ∧ Ascii.eqb d "*" = false) ∧
        ∃ ws org, r2 = Rec (elements r ++ ws) (org_str r +:+ org) ∧ ∀ top rest, accepts top (l +:+ rest) ws org rest)
  | Panic => ∃ c, (c = "$" ∨ c = "*")%char ∧ headless_line c l ∧ 3 ≤ slen l
  | _ => True
  end.
Proof.
  intros Hl. cbv zeta. destruct (Z.ltb_spec (slen (l' +:+ String LF EmptyString)) 3) as [Hs|Hs].
  { unfold decode_single_line. by destruct (Z.ltb_spec (slen (l' +:+ String LF EmptyString)) 3); [|lia]. }
  destruct l' as [|c mid]; [by vm_compute in Hs|]. rewrite !sapp_cons in *. pose proof Hl as Hl0. cbn [no_lf] in Hl. apply andb_true_iff in Hl as [_ Hm].
  destruct (decide (c = "$" ∨ c = "*")%char) as [Hc|Hc].
  { destruct (line_kinds c mid Hm) as [H|[[n H]|H]].
    - rewrite (length_line_single c _ _ _ Hc H). by left.
    - rewrite (length_line_single c _ _ _ Hc H). by left.
    - rewrite (headless_single c _ _ Hc H Hs). by exists c. }
  destruct (decide (c = "+" ∨ c = "-" ∨ c = ":")%char) as [Ht|Ht].
  { destruct (last_split mid) as (text & x & ->); [by intros ->; vm_compute in Hs|]. rewrite <- app_assoc_s, sapp_cons, sapp_nil_l. rewrite text_single by done. right. split_and!.
    - by destruct Ht as [-> |[-> | ->]].
    - by destruct Ht as [-> |[-> | ->]].
    - eexists c, _. split; [done|]. by destruct Ht as [-> |[-> | ->]].
    - exists [text], (String c (text +:+ String x (String LF EmptyString))). split; [done|]. intros top rest. rewrite sapp_cons, <- app_assoc_s, !sapp_cons, sapp_nil_l. rewrite no_lf_app in Hm. apply andb_true_iff in Hm as [Hm Hx].
      constructor; [done|done|]. intros ->. done. }
  unfold decode_single_line. destruct (Z.ltb_spec (slen (String c (mid +:+ String LF EmptyString))) 3) as [?|_]; [lia|]. cbv zeta.
  assert (Ascii.eqb c "$" || Ascii.eqb c "*" = false) as ->.
  { destruct (Ascii.eqb_spec c "$") as [->|]; [by destruct Hc; left|]. destruct (Ascii.eqb_spec c "*") as [->|]; [by destruct Hc; right|done]. }
  assert (Ascii.eqb c "+" || Ascii.eqb c "-" || Ascii.eqb c ":" = false) as ->.
  { destruct (Ascii.eqb_spec c "+") as [->|]; [by destruct Ht; left|]. destruct (Ascii.eqb_spec c "-") as [->|]; [by destruct Ht; right; left|]. destruct (Ascii.eqb_spec c ":") as [->|]; [by destruct Ht; right; right|done]. }
  destruct (String.eqb_spec (String c (mid +:+ String LF EmptyString)) ("PING" ++ CRLF)%string) as [->|]; [|done]. right. split; [done|]. split; [done|]. split; [by eexists _, _|].
  exists ["PING"]%string, ("PING" +:+ CRLF +:+ "PING" +:+ CRLF). split; [|intros top rest; rewrite <- app_assoc_s; constructor].
  unfold rec_append, rec_add_org. cbn [elements org_str]. f_equal. rewrite <- !app_assoc_s. done.
Qed.
Lemma bulk_cases n r body : - two63 ≤ n < two63 → match read_bulk max n r body with
  | Ret (DOk (r2, t)) => 0 ≤ n ∧ n + 2 ≤ max ∧ body ≠ EmptyString ∧ t = beyond (Z.to_nat (n + 2)) body ∧ r2 = rec_append (nul_padded (Z.to_nat n) body) (nul_padded (Z.to_nat (n + 2)) body) r
  | Panic => 0 ≤ n ∧ max < n + 2
  | _ => True end.
Proof.
  intros Hn. destruct (Z.ltb_spec n 0) as [H0|H0]; [unfold read_bulk; by destruct (Z.ltb_spec n 0); [|lia]|].
  destruct (Z.ltb_spec max (n + 2)) as [H1|H1]; [rewrite bulk_large by lia; done|]. destruct body as [|c b]; [|by rewrite bulk_accept].
  unfold read_bulk. destruct (Z.ltb_spec n 0); [lia|]. cbv zeta. rewrite wrap64_small by (unfold two63 in *; lia). destruct (Z.ltb_spec (n + 2) 0); [lia|]. by destruct (Z.ltb_spec max (n + 2)); [lia|].
Qed.
Lemma array_cases f : ∀ ln r b, (String.length b < f)%nat → match read_array max f ln r b with
  | Ret (DOk (r2, t)) => ∃ ws org, r2 = Rec (elements r ++ ws) (org_str r +:+ org) ∧ accepts_all (Z.to_nat ln) b ws org t
  | Panic => chokes_in (Z.to_nat ln) b
  | _ => True end.
Proof.
  induction f as [|f IH]; intros ln r b Hf; [lia|]. cbn [read_array]. destruct (Z.leb_spec ln 0) as [Hl|Hl].
  { exists [], EmptyString. rewrite app_nil_r, string_app_nil_r. split; [by destruct r|]. replace (Z.to_nat ln) with 0%nat by lia. constructor. }
  replace (Z.to_nat ln) with (S (Z.to_nat (ln - 1))) by lia.
  destruct (read_line b) as [[l rest]|] eqn:El; [|done]. destruct (read_line_split _ _ _ El) as (l' & -> & Hl' & ->). clear El.
  assert (String.length rest < f)%nat as Hr by (rewrite !length_app_s in Hf; simpl in Hf; lia).
  (* one value, then the others *)
  assert (∀ r1 ws org rest1, r1 = Rec (elements r ++ ws) (org_str r +:+ org) → accepts false ((l' +:+ String LF EmptyString) +:+ rest) ws org rest1 → (String.length rest1 < f)%nat →
    match read_array max f (ln - 1) r1 rest1 with
    | Ret (DOk (r2, t)) => ∃ ws org, r2 = Rec (elements r ++ ws) (org_str r +:+ org) ∧ accepts_all (S (Z.to_nat (ln - 1))) ((l' +:+ String LF EmptyString) +:+ rest) ws org t
    | Panic => chokes_in (S (Z.to_nat (ln - 1))) ((l' +:+ String LF EmptyString) +:+ rest)
    | _ => True end) as K.
  { intros r1 ws org rest1 Er Ha H1. specialize (IH (ln - 1) r1 rest1 H1). destruct (read_array max f (ln - 1) r1 rest1) as [[[r2 t]|e]| |]; [|done| |done].
    - destruct IH as (ws2 & org2 & -> & IH). exists (ws ++ ws2), (org +:+ org2). split; [by rewrite Er, rec_assoc|]. by econstructor.
    - by econstructor. }
  destruct (l' +:+ String LF EmptyString) as [|c l] eqn:E; [by destruct l'|]. destruct (Ascii.eqb_spec c "*") as [->|Hc].
  - destruct l' as [|c' mid]; [by injection E as E _|]. rewrite sapp_cons in E. injection E as -> E. subst l. cbn [no_lf] in Hl'. apply andb_true_iff in Hl' as [_ Hm].
    assert ((∃ n, length_line "*" n (String "*" (mid +:+ String LF EmptyString))) ∨ headless_line "*" (String "*" (mid +:+ String LF EmptyString))) as [[n H]|H].
    { destruct (line_kinds "*" mid Hm) as [?|[?|?]]; eauto. }
    + rewrite (length_line_length "*" n _ eq_refl H). cbn [obind]. specialize (IH n r rest Hr) as I1. destruct (read_array max f n r rest) as [[[r1 rest1]|e]| |]; cbn [obind]; [|done| |done].
      * destruct I1 as (ws & org & -> & I1). rewrite (length_line_single "*" n _ _ (or_intror eq_refl) H). cbn [obind]. change (Ascii.eqb "*" "$") with false. cbv iota. eapply K.
        -- unfold rec_add_org. cbn [elements org_str]. by rewrite <- app_assoc_s.
        -- by apply (acc_array max false n).
        -- pose proof (proj2 accepts_shorter _ _ _ _ _ I1). lia.
      * constructor. by eapply ch_inside.
    + rewrite (headless_length "*" _ eq_refl H). cbn [obind]. constructor. by apply ch_array.
  - cbn [obind]. pose proof (single_cases l' r Hl') as Sc. cbv zeta in Sc. rewrite E in Sc. destruct (decode_single_line (String c l) r) as [[[[n de] r2]|e]| |]; cbn [obind]; [|done| |done].
    + destruct Sc as [(Hd & Hll & ->)|(-> & _ & _ & ws & org & -> & Ha)].
      * assert (de = c) as -> by (by inversion Hll). destruct Hd as [->| ->]; [|done]. change (Ascii.eqb "$" "$") with true. cbv iota. pose proof (bulk_cases n (rec_add_org (String "$" l) r) rest (line_range _ _ _ Hll)) as B.
        destruct (read_bulk max n _ rest) as [[[r3 rest2]|e]| |]; cbn [obind]; [|done| |done].
        -- destruct B as (B1 & B2 & B3 & -> & ->). eapply K; [|by apply acc_bulk|pose proof (beyond_length (Z.to_nat (n + 2)) rest); lia]. unfold rec_append, rec_add_org. cbn [elements org_str]. by rewrite <- app_assoc_s.
        -- destruct B as [B1 B2]. constructor. by eapply ch_large.
      * eapply K; [done|apply Ha|done].
    + destruct Sc as (d & Hd & Hh & Hs). assert (d = c) as -> by (by inversion Hh). destruct Hd as [->| ->]; [|done]. constructor. by apply ch_bulk.
Qed.
Lemma decode_cases b : match decode max b with
  | Ret (DOk (r, t)) => accepts true b (elements r) (org_str r) t
  | Panic => chokes true b
  | _ => True end.
Proof.
  unfold decode. destruct (read_line b) as [[l rest]|] eqn:El; [|done]. destruct (read_line_split _ _ _ El) as (l' & -> & Hl' & ->). clear El.
  pose proof (single_cases l' (Rec [] "") Hl') as Sc. cbv zeta in Sc. set (l := l' +:+ String LF EmptyString) in *.
  destruct (decode_single_line l (Rec [] "")) as [[[[n de] r2]|e]| |]; cbn [obind]; [|done| |done].
  - destruct Sc as [(Hd & Hll & ->)|(-> & -> & _ & ws & org & -> & Ha)].
    + destruct Hd as [->| ->].
      * change (Ascii.eqb "$" "$") with true. cbv iota. pose proof (bulk_cases n (rec_add_org l (Rec [] "")) rest (line_range _ _ _ Hll)) as B. destruct (read_bulk max n _ rest) as [[[r3 rest2]|e]| |]; [|done| |done].
        -- destruct B as (B1 & B2 & B3 & -> & ->). cbn [rec_append rec_add_org elements org_str]. rewrite sapp_nil_l. by apply acc_bulk.
        -- destruct B as [B1 B2]. by eapply ch_large.
      * change (Ascii.eqb "*" "$") with false. change (Ascii.eqb "*" "*") with true. cbv iota. pose proof (array_cases (S (String.length rest)) n (rec_add_org l (Rec [] "")) rest ltac:(lia)) as A.
        destruct (read_array max _ n _ rest) as [[[r3 rest2]|e]| |]; [|done| |done].
        -- destruct A as (ws & org & -> & A). cbn [rec_append rec_add_org elements org_str]. rewrite sapp_nil_l. by apply (acc_array max true n).
        -- by eapply ch_inside.
    + cbn [elements org_str]. rewrite sapp_nil_l. apply Ha.
  - destruct Sc as (d & [->| ->] & Hh & Hs); [by apply ch_bulk|by apply ch_array].
Qed.

(** ** C72 *)
Theorem C72_accepted b ws org rest : decode max b = Ret (DOk (Rec ws org, rest)) ↔ accepts true b ws org rest.
Proof.
  split; intros H; [|by apply (proj1 accepted true)]. pose proof (decode_cases b) as C. by rewrite H in C.
Qed.
Theorem C72_panics b : decode max b = Panic ↔ chokes true b.
Proof. split; intros H; [|by apply (proj1 choked true)]. pose proof (decode_cases b) as C. by rewrite H in C. Qed.
(** everything else is refused *)
Theorem C72_refused b : (∃ e, decode max b = Ret (DErr e)) ↔ ¬ chokes true b ∧ ∀ ws org rest, ¬ accepts true b ws org rest.
Proof.
  split.
  - intros [e H]. split; [rewrite <- C72_panics; congruence|]. intros ws org rest. rewrite <- C72_accepted. congruence.
  - intros [H1 H2]. destruct (C05_total max b) as [H|[H|(r & used & rest & H & _)]]; [by apply C72_panics in H|done|]. destruct r as [ws org]. by apply C72_accepted, H2 in H.
Qed.
(** the words, and how much is used, are determined by the bytes *)
Theorem C72_unambiguous b ws1 org1 rest1 ws2 org2 rest2 : accepts true b ws1 org1 rest1 → accepts true b ws2 org2 rest2 → ws1 = ws2 ∧ org1 = org2 ∧ rest1 = rest2.
Proof. rewrite <- !C72_accepted. intros ->. by intros [= -> -> ->]. Qed.
End accept.

Section served.
Context (max : Z) (Hmax : max < two63).
(** The running server: what it executes, and what it logs, is what the grammar says that the bytes of a delivered frame
    stand for.  (A panic while decoding loses the frame, no more.)  The machine's memory is exhausted only by a frame that
    announces an argument longer than itself. *)
Lemma frame_delivered ext ps tr s g k f : runs ext max ps tr s → c_gs s !! g = Some (GFrame k f) → LDeliver g k f ∈ tr.
Proof.
  intros R H. pose proof (i_g _ _ _ _ (runs_inv _ _ _ _ _ R) g) as G. unfold gok in G. destruct (c_evs s !! g) as [ev|].
  - destruct G as (k' & f' & _ & _ & G & _). unfold gor_ok in G. by rewrite H in G.
  - destruct G as (_ & _ & _ & _ & G). by rewrite H in G.
Qed.
Theorem C72_served ext ps tr s : runs ext max ps tr s →
  (∀ g c req, LExec g c req ∈ tr → req ≠ [] ∧ ∃ k f org rest, LDeliver g k f ∈ tr ∧ accepts max true f req org rest) ∧
  (∀ g org, LPrint g org ∈ tr → ∃ k f ws rest, LDeliver g k f ∈ tr ∧ accepts max true f ws org rest) ∧
  (∀ g, LExhaust g ∈ tr → ∃ k f, LDeliver g k f ∈ tr ∧ ¬ chokes max true f ∧ (slen f < two63 → chokes (slen f) true f)).
Proof.
  intros R. split; [|split].
  - intros g c req H. destruct (C07_serial _ _ _ _ _ R) as (rs & _ & _ & _ & _ & D & _).
    assert (Call g c req ∈ calls tr) as Hc by (apply elem_of_list_omap; by exists (LExec g c req)). destruct (D _ Hc) as (k & f & HD & Hn & org & rest & E). split; [done|].
    exists k, f, org, rest. split; [done|]. by apply C72_accepted.
  - intros g org. induction R as [|tr s l s' R IH NC St]; [by intros ?%elem_of_nil|]. intros [H|H]%in_snoc.
    + destruct (IH H) as (k & f & ws & rest & H1 & H2). exists k, f, ws, rest. split; [apply elem_of_app; by left|done].
    + subst l. inversion St; subst; eexists k, f, _, _; (split; [apply elem_of_app; left; by eapply frame_delivered|by apply C72_accepted]).
  - intros g. induction R as [|tr s l s' R IH NC St]; [by intros ?%elem_of_nil|]. intros [H|H]%in_snoc.
    + destruct (IH H) as (k & f & H1 & H2). exists k, f. split; [apply elem_of_app; by left|done].
    + subst l. inversion St; subst. exists k, f. split; [apply elem_of_app; left; by eapply frame_delivered|]. split; [by rewrite <- C72_panics|]. intros Hf. by apply C72_panics.
Qed.
End served.

(** A header that spells a number in decimal, as clients do, means that number. *)
Theorem C72_decimal n c junk : 0 ≤ n < two63 → no_lf junk = true → length_line c n (String c (itoa n +:+ String CR (junk +:+ String LF EmptyString))).
Proof.
  intros Hn Hj. pose proof (itoa_digits n ltac:(lia)) as D.
  assert (has_cr (itoa n) = false) as Hc.
  { destruct (has_cr (itoa n)) eqn:E; [|done]. exfalso. revert D E. generalize 0. generalize (itoa n). intros s. induction s as [|x s IH]; intros z; [done|]. cbn [parse_digits has_cr].
    destruct (digit_val x) as [v|] eqn:Ev; [|done]. destruct (digit_byte x v Ev) as (_ & _ & -> & _). cbn [orb]. apply IH. }
  assert (spelled (itoa n) 0 = n) as E.
  { pose proof (length_loop_spelled (itoa n) EmptyString 0 Hc) as L. rewrite (length_loop_digits _ _ _ n) in L by (done || lia). by injection L. }
  pose proof (a_length c (itoa n) junk Hc (parse_digits_no_lf _ _ _ D) Hj) as L. by rewrite E in L.
Qed.
(** ** examples *)
Definition much : Z := 1000.
Local Definition nl : string := CRLF.
(** inline values, a nested array, PING without an array, a truncated argument, an empty request, trailing bytes *)
Theorem C72_demo :
  accepts much true ("*3" +:+ nl +:+ "+SET" +:+ nl +:+ "-k" +:+ nl +:+ ":5" +:+ nl +:+ "tail") ["SET"; "k"; "5"]%string ("*3" +:+ nl +:+ "+SET" +:+ nl +:+ "-k" +:+ nl +:+ ":5" +:+ nl) "tail" ∧
  accepts much true ("*2" +:+ nl +:+ "*1" +:+ nl +:+ "$3" +:+ nl +:+ "GET" +:+ nl +:+ "+k" +:+ nl) ["GET"; "k"]%string ("*2" +:+ nl +:+ "$3" +:+ nl +:+ "GET" +:+ nl +:+ "*1" +:+ nl +:+ "+k" +:+ nl) "" ∧
  accepts much true ("PING" +:+ nl +:+ "PING" +:+ nl) ["PING"]%string ("PING" +:+ nl +:+ "PING" +:+ nl) ("PING" +:+ nl) ∧
  accepts much true ("$4" +:+ nl +:+ "ab") [nul_padded 4 "ab"] ("$4" +:+ nl +:+ nul_padded 6 "ab") "" ∧
  accepts much true ("*0" +:+ nl +:+ "x") [] ("*0" +:+ nl) "x" ∧
  chokes much true ("*2" +:+ nl +:+ "+GET" +:+ nl +:+ "$1" +:+ String LF "k") ∧
  chokes much true ("$999" +:+ nl +:+ "k") ∧ chokes much true ("*1" +:+ nl +:+ "*" +:+ String LF "") ∧
  ¬ chokes much true ("*" +:+ String LF "") ∧ (∀ ws org rest, ¬ accepts much true ("*" +:+ String LF "") ws org rest) ∧
  ¬ chokes much true ("GET k" +:+ nl) ∧ (∀ ws org rest, ¬ accepts much true ("GET k" +:+ nl) ws org rest).
Proof.
  rewrite <- !C72_accepted by done. rewrite <- !C72_panics by done. split_and!; try (by vm_compute); intros; try (rewrite <- C72_accepted by done); by vm_compute.
Qed.
