(** The generator of Gen.v against SpecGen.v. *)
From Verif Require Import GoBase GoBaseProofs Gen SpecGen.

(** ** Strings *)
Lemma strip_prefix_app p s : strip_prefix p (p +:+ s) = Some s.
Proof. induction p as [|c p IH]; [done|]. rewrite sapp_cons. simpl. by rewrite Ascii.eqb_refl. Qed.
Lemma strip_prefix_Some p s r : strip_prefix p s = Some r → s = p +:+ r.
Proof.
  revert s. induction p as [|c p IH]; intros s; simpl; [intros [= ->]; done|]. destruct s as [|d s]; [done|].
  destruct (Ascii.eqb_spec c d) as [->|]; [|done]. intros ->%IH. by rewrite sapp_cons.
Qed.
Lemma strip_prefix_iff p s r : strip_prefix p s = Some r ↔ s = p +:+ r.
Proof. split; [apply strip_prefix_Some|intros ->; apply strip_prefix_app]. Qed.
Lemma srev_acc s acc : srev s acc = srev s "" +:+ acc.
Proof.
  revert acc. induction s as [|c s IH]; intros acc; [done|]. simpl. rewrite IH, (IH (String c "")), <-app_assoc_s. done.
Qed.
Lemma srev_app a b : srev (a +:+ b) "" = srev b "" +:+ srev a "".
Proof.
  induction a as [|c a IH]; [simpl; by rewrite sapp_nil_l, string_app_nil_r|].
  rewrite sapp_cons. simpl. rewrite srev_acc, IH, (srev_acc a (String c "")). by rewrite app_assoc_s.
Qed.
Lemma srev_invol s : srev (srev s "") "" = s.
Proof. induction s as [|c s IH]; [done|]. simpl. rewrite (srev_acc s (String c "")), srev_app, IH. done. Qed.
Lemma srev_inj a b : srev a "" = srev b "" → a = b.
Proof. intros H. by rewrite <-(srev_invol a), H, srev_invol. Qed.
Lemma strip_suffix_iff p s r : strip_suffix p s = Some r ↔ s = r +:+ p.
Proof.
  unfold strip_suffix. split.
  - destruct (strip_prefix (srev p "") (srev s "")) as [r'|] eqn:E; [|done]. intros [= <-]. apply strip_prefix_iff in E.
    apply srev_inj. by rewrite E, srev_app, srev_invol.
  - intros ->. rewrite srev_app, strip_prefix_app. by rewrite srev_invol.
Qed.
Lemma has_suffix_iff p s : has_suffix p s = true ↔ ∃ r, s = r +:+ p.
Proof.
  unfold has_suffix. destruct (strip_suffix p s) as [r|] eqn:E; split; try done.
  - intros _. exists r. by apply strip_suffix_iff.
  - intros [r ->]. assert (strip_suffix p (r +:+ p) = Some r) by (by apply strip_suffix_iff). congruence.
Qed.
Lemma bytes_app a b : bytes_of (a +:+ b) = bytes_of a ++ bytes_of b.
Proof. induction a as [|c a IH]; [done|]. rewrite sapp_cons. unfold bytes_of in *. simpl. by rewrite IH. Qed.
Lemma app_inv_s a b c : a +:+ b = a +:+ c → b = c.
Proof. induction a as [|x a IH]; [done|]. rewrite !sapp_cons. intros [= ?]. by apply IH. Qed.
Lemma app_inv_tail_s a b c : a +:+ c = b +:+ c → a = b.
Proof. intros H. apply srev_inj. apply (app_inv_s (srev c "")). by rewrite <-!srev_app, H. Qed.

(** ** Spaces and words *)
Lemma all_ascii (P : ascii → bool) : (∀ n, (n < 256)%nat → P (ascii_of_nat n) = true) → ∀ c, P c = true.
Proof. intros H c. rewrite <-(ascii_nat_embedding c). apply H. apply nat_ascii_bounded. Qed.
Definition mem (c : ascii) (l : list ascii) : bool := existsb (Ascii.eqb c) l.
Lemma mem_iff c l : mem c l = true ↔ c ∈ l.
Proof.
  unfold mem. rewrite existsb_exists. split.
  - intros (x & H & E). apply Ascii.eqb_eq in E as ->. by apply elem_of_list_In.
  - intros H. exists c. split; [by apply elem_of_list_In|apply Ascii.eqb_refl].
Qed.
Lemma by_table (p : ascii → bool) l : (forallb (λ n, eqb (p (ascii_of_nat n)) (mem (ascii_of_nat n) l)) (seq 0 256)) = true → ∀ c, p c = true ↔ c ∈ l.
Proof.
  intros H c. rewrite <-mem_iff. assert (E : eqb (p c) (mem c l) = true); [|apply eqb_prop in E; by rewrite E].
  revert c. apply all_ascii. intros n Hn. rewrite forallb_forall in H. apply H. apply in_seq. lia.
Qed.
Lemma re_space_iff c : re_space c = true ↔ white c.
Proof. unfold white. apply by_table. by vm_compute. Qed.
Lemma re_letter_iff c : re_letter c = true ↔ letter c.
Proof. unfold letter. apply by_table. by vm_compute. Qed.
Lemma is_space_iff c : is_space c = true ↔ c ∈ [chr 9; chr 10; chr 11; chr 12; chr 13; chr 32].
Proof. apply by_table. by vm_compute. Qed.

Lemma span_spec p s a b : span p s = (a, b) ↔ s = a +:+ b ∧ Forall (λ c, p c = true) (bytes_of a) ∧ (∀ c r, b = String c r → p c = false).
Proof.
  revert a b. induction s as [|c s IH]; intros a b; simpl.
  - split; [intros [= <- <-]; repeat split; [constructor|done]|]. intros (E & _). destruct a; [|done]. by destruct b.
  - destruct (p c) eqn:Ec.
    + destruct (span p s) as [a' b'] eqn:Es. destruct (IH a' b') as [H _]. destruct (H eq_refl) as (E1 & E2 & E3). split.
      * intros [= <- <-]. split; [by rewrite sapp_cons, <-E1|]. split; [by constructor|done].
      * intros (F1 & F2 & F3). destruct a as [|c0 a].
        { rewrite sapp_nil_l in F1. subst b. specialize (F3 _ _ eq_refl). congruence. }
        rewrite sapp_cons in F1. injection F1 as <- F1. assert (E : (a', b') = (a, b)).
        { apply IH. split; [done|]. split; [by inversion F2|done]. }
        congruence.
    + split.
      * intros [= <- <-]. split; [done|]. split; [constructor|]. by intros ? ? [= <- _].
      * intros (F1 & F2 & F3). destruct a as [|c0 a]; [by rewrite F1|]. rewrite sapp_cons in F1. injection F1 as <- F1. inversion F2; congruence.
Qed.
Lemma span1_spec p s a b : span1 p s = Some (a, b) ↔ s = a +:+ b ∧ a ≠ "" ∧ Forall (λ c, p c = true) (bytes_of a) ∧ (∀ c r, b = String c r → p c = false).
Proof.
  unfold span1. destruct (span p s) as [a' b'] eqn:E. split.
  - intros H. destruct a' as [|c0 a0]; [done|]. injection H as <- <-. apply span_spec in E as (? & ? & ?). by repeat split.
  - intros (H1 & H2 & H3 & H4). assert (E' : span p s = (a, b)) by (apply span_spec; by repeat split).
    rewrite E in E'. injection E' as -> ->. by destruct a.
Qed.
Lemma spaces_span w s : spaces w → (∀ c r, s = String c r → re_space c = false) → span1 re_space (w +:+ s) = Some (w, s).
Proof. intros [H1 H2] H. apply span1_spec. split; [done|]. split; [done|]. split; [|done]. eapply Forall_impl; [done|]. intros c. apply re_space_iff. Qed.
Lemma word_span w s : word w → (∀ c r, s = String c r → re_letter c = false) → span1 re_letter (w +:+ s) = Some (w, s).
Proof. intros [H1 H2] H. apply span1_spec. split; [done|]. split; [done|]. split; [|done]. eapply Forall_impl; [done|]. intros c. apply re_letter_iff. Qed.
Lemma word_first f s c r : word f → f +:+ s = String c r → re_space c = false.
Proof.
  intros [H1 H2]. destruct f as [|d f]; [done|]. rewrite sapp_cons. intros [= -> _]. inversion H2 as [|? ? Hl]; subst.
  apply re_letter_iff in Hl. destruct (re_space c) eqn:E; [|done]. exfalso. revert Hl E.
  clear H1 H2. assert (Hx : ∀ c, negb (re_letter c && re_space c) = true).
  { apply all_ascii. assert (HH : forallb (λ n, negb (re_letter (ascii_of_nat n) && re_space (ascii_of_nat n))) (seq 0 256) = true) by (by vm_compute).
    intros n Hn. rewrite forallb_forall in HH. apply HH, in_seq. lia. }
  specialize (Hx c). intros E1 E2. rewrite E1, E2 in Hx. done.
Qed.

(** ** The pattern *)
Lemma match_here_iff s f : match_here s = Some f ↔ declares_at "" s f.
Proof.
  unfold match_here, declares_at. split.
  - intros H.
    apply bind_Some in H as (s1 & E1 & H). apply bind_Some in H as ([w1 s2] & E2 & H). apply bind_Some in H as ([f' s3] & E3 & H).
    apply bind_Some in H as (s4 & E4 & H). apply bind_Some in H as ([w2 s5] & E5 & H). apply bind_Some in H as (s6 & E6 & H).
    apply bind_Some in H as (s7 & E7 & H). apply bind_Some in H as (s8 & E8 & H). apply bind_Some in H as ([w3 s9] & E9 & H).
    apply bind_Some in H as (s10 & E10 & [= ->]).
    apply strip_prefix_iff in E1, E4, E6, E8, E10. apply span1_spec in E2 as (-> & N2 & F2 & _), E3 as (-> & N3 & F3 & _), E5 as (-> & N5 & F5 & _), E9 as (-> & N9 & F9 & _).
    unfold re_any in E7. destruct s6 as [|dot s6]; [done|]. destruct (is_byte dot 10) eqn:Ed; [done|]. injection E7 as ->.
    exists w1, w2, w3, dot, s10. subst. split.
    { rewrite sapp_nil_l. repeat f_equal. }
    assert (forall w, w ≠ "" → Forall (λ c, re_space c = true) (bytes_of w) → spaces w) as Hsp.
    { intros w Hw HF. split; [done|]. eapply Forall_impl; [done|]. intros c. apply re_space_iff. }
    split; [by apply Hsp|]. split; [split; [done|]; eapply Forall_impl; [done|]; intros c; apply re_letter_iff|].
    split; [by apply Hsp|]. split; [by apply Hsp|]. intros ->. done.
  - intros (w1 & w2 & w3 & dot & post & -> & H1 & H2 & H3 & H4 & H5). rewrite sapp_nil_l, strip_prefix_app. cbn [mbind option_bind].
    rewrite spaces_span by (done || (intros; by eapply word_first)). cbn [mbind option_bind].
    rewrite word_span by (done || by intros ? ? [= <- _]). cbn [mbind option_bind].
    rewrite strip_prefix_app. cbn [mbind option_bind].
    rewrite spaces_span by (done || by intros ? ? [= <- _]). cbn [mbind option_bind].
    rewrite (app_assoc_s "(" "*protocol"), strip_prefix_app. cbn [mbind option_bind].
    unfold re_any. destruct (is_byte dot 10) eqn:Ed.
    { exfalso. apply H5. unfold is_byte in Ed. apply N.eqb_eq in Ed. apply N_of_ascii_inj. by rewrite Ed. }
    cbn [mbind option_bind]. rewrite strip_prefix_app. cbn [mbind option_bind].
    rewrite spaces_span by (done || by intros ? ? [= <- _]). cbn [mbind option_bind].
    rewrite strip_prefix_app. done.
Qed.
Lemma declares_at_cons c pre s f : declares_at (String c pre) (String c s) f ↔ declares_at pre s f.
Proof.
  unfold declares_at. split; intros (w1 & w2 & w3 & dot & post & E & H); exists w1, w2, w3, dot, post; (split; [|done]).
  - rewrite sapp_cons in E. by injection E.
  - by rewrite sapp_cons, <-E.
Qed.
Lemma declares_at_cons_inv c pre s f : declares_at pre (String c s) f → pre = "" ∨ ∃ pre', pre = String c pre' ∧ declares_at pre' s f.
Proof.
  intros H. destruct pre as [|d pre]; [by left|]. right. exists pre. destruct H as (w1 & w2 & w3 & dot & post & E & H).
  rewrite sapp_cons in E. injection E as <- E. split; [done|]. by exists w1, w2, w3, dot, post.
Qed.
Lemma declares_at_fun pre s f f' : declares_at pre s f → declares_at pre s f' → f = f'.
Proof.
  revert s. induction pre as [|c pre IH]; intros s H H'.
  - apply match_here_iff in H, H'. congruence.
  - destruct s as [|d s]; [destruct H as (? & ? & ? & ? & ? & E & _); by rewrite sapp_cons in E|].
    assert (c = d) as -> by (destruct H as (? & ? & ? & ? & ? & E & _); rewrite sapp_cons in E; by injection E).
    apply (proj1 (declares_at_cons _ _ _ _)) in H, H'. by eapply IH.
Qed.
Lemma cmd_func_iff s f : cmd_func s = Some f ↔ declares s f.
Proof.
  revert f. induction s as [|c s IH]; intros f; cbn [cmd_func].
  - replace (match_here "") with (@None string) by (by vm_compute). split; [done|].
    intros (pre & (w1 & w2 & w3 & dot & post & E & _) & _). apply (f_equal String.length) in E. rewrite !length_app_s in E. simpl in E. lia.
  - destruct (match_here (String c s)) as [f'|] eqn:E.
    + apply match_here_iff in E. split.
      * intros [= <-]. exists "". split; [done|]. intros pre' f1 _. simpl. lia.
      * intros (pre & H1 & H2). specialize (H2 _ _ E). destruct pre; [|simpl in H2; lia]. f_equal. by eapply declares_at_fun.
    + assert (Hn : ∀ f', ¬ declares_at "" (String c s) f') by (intros f' H%match_here_iff; congruence).
      rewrite IH. split; intros (pre & H1 & H2).
      * exists (String c pre). split; [by apply declares_at_cons|]. intros pre' f' H. destruct (declares_at_cons_inv _ _ _ _ H) as [->|(p' & -> & H')]; [by apply Hn in H|].
        simpl. apply le_n_S. by eapply H2.
      * destruct (declares_at_cons_inv _ _ _ _ H1) as [->|(p' & -> & H)]; [by apply Hn in H1|]. exists p'. split; [done|].
        intros pre' f' H'. apply (proj2 (declares_at_cons c _ _ _)) in H'. apply H2 in H'. simpl in H'. lia.
Qed.
Lemma cmd_func_None s : cmd_func s = None ↔ ∀ f, ¬ declares s f.
Proof.
  split.
  - intros E f H%cmd_func_iff. congruence.
  - intros H. destruct (cmd_func s) as [f|] eqn:E; [|done]. by apply cmd_func_iff, H in E.
Qed.

(** ** Names *)
Lemma blank_app a b : blank (a +:+ b) ↔ blank a ∧ blank b.
Proof. unfold blank. rewrite bytes_app. apply Forall_app. Qed.
Lemma blank_cons c s : blank (String c s) ↔ is_space c = true ∧ blank s.
Proof. unfold blank, bytes_of. simpl. rewrite Forall_cons, is_space_iff. done. Qed.
Lemma blank_nil : blank "".
Proof. constructor. Qed.
Lemma blank_srev w : blank w → blank (srev w "").
Proof.
  induction w as [|c w IH]; [done|]. rewrite blank_cons. intros [H1 H2]. simpl. rewrite srev_acc. apply blank_app. split; [by apply IH|].
  apply blank_cons. split; [done|apply blank_nil].
Qed.
Lemma trim_left_app w s : blank w → trim_left (w +:+ s) = trim_left s.
Proof. induction w as [|c w IH]; [done|]. rewrite blank_cons, sapp_cons. intros [H1 H2]. simpl. rewrite H1. by apply IH. Qed.
Lemma trim_left_id s : (∀ c r, s = String c r → ¬ blank (String c "")) → trim_left s = s.
Proof.
  destruct s as [|c s]; [done|]. intros H. simpl. destruct (is_space c) eqn:E; [|done]. exfalso. apply (H _ _ eq_refl). apply blank_cons.
  split; [done|apply blank_nil].
Qed.
Lemma srev_last s c r : srev s "" = String c r → s = srev r "" +:+ String c "".
Proof. intros E. apply srev_inj. by rewrite srev_app, srev_invol, E. Qed.
Lemma trim_space_blank w : blank w → trim_space w = "".
Proof. intros H. unfold trim_space. by rewrite <-(string_app_nil_r w), trim_left_app. Qed.
Lemma trim_space_core w s w' : blank w → trimmed s → blank w' → trim_space (w +:+ s +:+ w') = s.
Proof.
  intros H1 (H2 & H3 & H4) H5. unfold trim_space. rewrite trim_left_app by done. rewrite (trim_left_id (s +:+ w')).
  2:{ destruct s as [|c s]; [done|]. intros c' r. rewrite sapp_cons. intros [= <- _]. by eapply H3. }
  rewrite srev_app, trim_left_app by by apply blank_srev. rewrite trim_left_id; [apply srev_invol|].
  intros c r E. eapply H4. by apply srev_last.
Qed.
Lemma last_inj a b c d : a +:+ String c "" = b +:+ String d "" → a = b ∧ c = d.
Proof. intros E. apply (f_equal (λ s, srev s "")) in E. rewrite !srev_app in E. simpl in E. rewrite !sapp_cons, !sapp_nil_l in E. injection E as -> E. split; [by apply srev_inj|done]. Qed.
Lemma split_last s : s ≠ "" → ∃ r c, s = r +:+ String c "".
Proof.
  intros H. destruct (srev s "") as [|c r] eqn:E; [|exists (srev r ""), c; by apply srev_last].
  exfalso. apply H. by rewrite <-(srev_invol s), E.
Qed.
Lemma trimmed_pre p s : trimmed s → (∀ c r, p = String c r → ¬ blank (String c "")) → trimmed (p +:+ s).
Proof.
  intros (H1 & H2 & H3) Hp. destruct p as [|d p]; [done|]. rewrite sapp_cons. split; [done|]. split.
  - intros c r [= <- _]. by eapply Hp.
  - intros c r E. destruct (split_last s H1) as (r' & c' & ->). rewrite <-sapp_cons, app_assoc_s in E. apply last_inj in E as [_ <-]. by eapply H3.
Qed.
Lemma named_ok prev f n : named prev f n → cmd_name (trim_space prev) f = n.
Proof.
  assert (Hslash : ∀ c r s, String "/" s = String c r → ¬ blank (String c "")).
  { intros c r s [= <- _] [H _]%blank_cons. done. }
  intros [[H ->]|(w1 & w2 & w3 & w4 & N & dot & -> & -> & B1 & B2 & B3 & B4 & HN & Hd)].
  { by rewrite trim_space_blank. }
  destruct HN as (N1 & N2 & N3) eqn:EN. clear EN. assert (HN' : trimmed N) by done.
  destruct Hd as [->|[-> Hd]].
  - assert (Hcore : trimmed ("//" +:+ w2 +:+ N +:+ w3 +:+ ".")).
    { rewrite !app_assoc_s. split; [|split].
      - by intros E%(f_equal String.length); rewrite !length_app_s in E; simpl in E; lia.
      - intros c r E. rewrite <-!app_assoc_s in E. by eapply Hslash.
      - intros c r E. apply last_inj in E as [_ <-]. intros [H _]%blank_cons. done. }
    replace (w1 +:+ "//" +:+ w2 +:+ N +:+ w3 +:+ "." +:+ w4) with (w1 +:+ ("//" +:+ w2 +:+ N +:+ w3 +:+ ".") +:+ w4) by (by rewrite !app_assoc_s).
    rewrite trim_space_core by done. unfold cmd_name.
    replace (trim_suffix "." ("//" +:+ w2 +:+ N +:+ w3 +:+ ".")) with ("//" +:+ w2 +:+ N +:+ w3).
    2:{ unfold trim_suffix. assert (E : strip_suffix "." ("//" +:+ w2 +:+ N +:+ w3 +:+ ".") = Some ("//" +:+ w2 +:+ N +:+ w3)); [|by rewrite E].
        apply strip_suffix_iff. by rewrite !app_assoc_s. }
    unfold trim_prefix. rewrite strip_prefix_app, trim_space_core by done. done.
  - rewrite sapp_nil_l. assert (Hcore : trimmed ("//" +:+ w2 +:+ N)).
    { rewrite app_assoc_s. apply trimmed_pre; [done|]. intros c r E. by eapply Hslash. }
    replace (w1 +:+ "//" +:+ w2 +:+ N +:+ w3 +:+ w4) with (w1 +:+ ("//" +:+ w2 +:+ N) +:+ (w3 +:+ w4)) by (by rewrite !app_assoc_s).
    rewrite trim_space_core by (done || by apply blank_app). unfold cmd_name.
    replace (trim_suffix "." ("//" +:+ w2 +:+ N)) with ("//" +:+ w2 +:+ N).
    2:{ unfold trim_suffix. destruct (strip_suffix "." ("//" +:+ w2 +:+ N)) as [r|] eqn:E; [|done]. exfalso. apply strip_suffix_iff in E.
        destruct (split_last N N1) as (r' & c' & EN). rewrite EN, !app_assoc_s in E. apply last_inj in E as [_ ->]. by apply (Hd r'). }
    unfold trim_prefix. rewrite strip_prefix_app. replace (w2 +:+ N) with (w2 +:+ N +:+ "") by (by rewrite string_app_nil_r). rewrite trim_space_core by (done || apply blank_nil). done.
Qed.

(** ** Lines *)
Lemma pieces_no_lf l : chr 10 ∉ bytes_of l → pieces l = [l].
Proof.
  induction l as [|c l IH]; [done|]. intros H. unfold bytes_of in H. simpl in H. apply not_elem_of_cons in H as [H1 H2]. simpl.
  destruct (Ascii.eqb_spec c LF) as [->|]; [by exfalso; apply H1|]. by rewrite IH.
Qed.
Lemma pieces_lf l s : chr 10 ∉ bytes_of l → pieces (l +:+ String (chr 10) s) = l :: pieces s.
Proof.
  induction l as [|c l IH]; [done|]. intros H. unfold bytes_of in H. simpl in H. apply not_elem_of_cons in H as [H1 H2]. rewrite sapp_cons. simpl.
  destruct (Ascii.eqb_spec c LF) as [->|]; [by exfalso; apply H1|]. by rewrite IH.
Qed.
Lemma pieces_nonempty s : pieces s ≠ [].
Proof. destruct s as [|c s]; [done|]. simpl. destruct (Ascii.eqb c LF); [done|]. induction s as [|d s IH]; [done|]. simpl. destruct (Ascii.eqb d LF); [done|]. by destruct (pieces s). Qed.
Lemma drop_cr_id l : (∀ r, l ≠ r +:+ String (chr 13) "") → drop_cr l = l.
Proof.
  intros H. unfold drop_cr, trim_suffix. destruct (strip_suffix (String CR "") l) as [r|] eqn:E; [|done]. apply strip_suffix_iff in E. by apply H in E.
Qed.
Lemma drop_cr_cr l : drop_cr (l +:+ String (chr 13) "") = l.
Proof. unfold drop_cr, trim_suffix. assert (E : strip_suffix (String CR "") (l +:+ String (chr 13) "") = Some l) by (by apply strip_suffix_iff). by rewrite E. Qed.
Lemma drop_last_cons l s : drop_last_empty (l :: pieces s) = l :: drop_last_empty (pieces s).
Proof. pose proof (pieces_nonempty s). destruct l; simpl; [|done]. by destruct (pieces s). Qed.
Lemma scan_lines_ok s ls : lines_of s ls → scan_lines s = ls.
Proof.
  unfold scan_lines. induction 1 as [|l (H1 & H2 & H3) Hn|l s ls (H1 & H2 & H3) Hs IH|l s ls (H1 & H2 & H3) Hs IH].
  - done.
  - rewrite pieces_no_lf by done. replace (drop_last_empty [l]) with [l] by (by destruct l). simpl.
    rewrite (proj2 (Z.leb_le (slen l) max_line)) by (unfold max_line; lia). simpl. by rewrite drop_cr_id.
  - rewrite pieces_lf, drop_last_cons by done. simpl.
    rewrite (proj2 (Z.leb_le (slen l) max_line)) by (unfold max_line; lia). rewrite fmap_cons, IH, drop_cr_id; done.
  - replace (l +:+ String (chr 13) (String (chr 10) s)) with ((l +:+ String (chr 13) "") +:+ String (chr 10) s) by (by rewrite <-app_assoc_s).
    assert (HL : chr 10 ∉ bytes_of (l +:+ String (chr 13) "")).
    { rewrite bytes_app, not_elem_of_app. split; [done|]. unfold bytes_of. simpl. by rewrite not_elem_of_cons; split; [|apply not_elem_of_nil]. }
    rewrite pieces_lf, drop_last_cons by done. cbn [fitting].
    rewrite (proj2 (Z.leb_le (slen (l +:+ String (chr 13) "")) max_line)) by (rewrite slen_app; unfold max_line; change (slen (String (chr 13) "")) with 1; lia).
    rewrite fmap_cons, IH, drop_cr_cr. done.
Qed.
