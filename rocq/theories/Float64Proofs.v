(** float64 without NaN is totally (pre)ordered; (score, member) keys are totally ordered. *)
From Verif Require Import GoBase GoBaseProofs Float64.

Definition fkey (f : float) : Z * Z * Z :=
  match f with
  | S754_infinity true => (-2, 0, 0)
  | S754_finite true m e => (-1, - e, Z.neg m)
  | S754_zero _ => (0, 0, 0)
  | S754_finite false m e => (1, e, Z.pos m)
  | S754_infinity false => (2, 0, 0)
  | S754_nan => (3, 0, 0)
  end.

Definition klt (a b : Z * Z * Z) : Prop :=
  let '(a1, a2, a3) := a in let '(b1, b2, b3) := b in
  a1 < b1 ∨ (a1 = b1 ∧ (a2 < b2 ∨ (a2 = b2 ∧ a3 < b3))).

Lemma fcompare_key a b c :
  SFcompare a b = Some c →
  is_nan a = false ∧ is_nan b = false ∧
  match c with
  | Lt => klt (fkey a) (fkey b)
  | Eq => fkey a = fkey b
  | Gt => klt (fkey b) (fkey a)
  end.
Proof.
  destruct a as [[]|[]| |[] ma ea], b as [[]|[]| |[] mb eb]; simpl; try done;
    intros [= <-]; split_and!; try done; simpl; try lia.
  all: destruct (Z.compare_spec ea eb) as [->|?|?]; simpl; try lia.
  all: fold (Pos.compare ma mb); destruct (Pos.compare_spec ma mb) as [->|?|?]; simpl; try done; lia.
Qed.

Lemma fcompare_total a b :
  is_nan a = false → is_nan b = false → ∃ c, SFcompare a b = Some c.
Proof. destruct a as [[]|[]| |[] ma ea], b as [[]|[]| |[] mb eb]; simpl; intros; try done; eauto. Qed.

Lemma klt_irrefl a : ¬ klt a a.
Proof. destruct a as [[??]?]. simpl. lia. Qed.
Lemma klt_trans a b c : klt a b → klt b c → klt a c.
Proof. destruct a as [[??]?], b as [[??]?], c as [[??]?]. simpl. lia. Qed.

Lemma flt_spec a b :
  is_nan a = false → is_nan b = false → flt a b = true ↔ klt (fkey a) (fkey b).
Proof.
  intros Ha Hb. unfold flt, SFltb. destruct (fcompare_total a b Ha Hb) as [c Hc]. rewrite Hc.
  destruct (fcompare_key _ _ _ Hc) as (_ & _ & H). destruct c; try done.
  - rewrite H. split; [done|]. by intros ?%klt_irrefl.
  - split; [done|]. intros H'. destruct (klt_irrefl _ (klt_trans _ _ _ H H')).
Qed.
Lemma feq_spec a b :
  is_nan a = false → is_nan b = false → feq a b = true ↔ fkey a = fkey b.
Proof.
  intros Ha Hb. unfold feq, SFeqb. destruct (fcompare_total a b Ha Hb) as [c Hc]. rewrite Hc.
  destruct (fcompare_key _ _ _ Hc) as (_ & _ & H). destruct c; try done.
  - split; [done|]. intros H'. rewrite H' in H. by apply klt_irrefl in H.
  - split; [done|]. intros H'. rewrite H' in H. by apply klt_irrefl in H.
Qed.
Lemma fle_spec a b :
  is_nan a = false → is_nan b = false → fle a b = true ↔ ¬ klt (fkey b) (fkey a).
Proof.
  intros Ha Hb. unfold fle, SFleb. destruct (fcompare_total a b Ha Hb) as [c Hc]. rewrite Hc.
  destruct (fcompare_key _ _ _ Hc) as (_ & _ & H). destruct c; try done.
  - rewrite H. split; [|done]. intros _. apply klt_irrefl.
  - split; [|done]. intros _ H'. by destruct (klt_irrefl _ (klt_trans _ _ _ H H')).
Qed.

Lemma klt_total a b : klt a b ∨ a = b ∨ klt b a.
Proof.
  destruct a as [[a1 a2] a3], b as [[b1 b2] b3]. simpl.
  destruct (Z.lt_trichotomy a1 b1) as [?|[->|?]]; [lia| |lia].
  destruct (Z.lt_trichotomy a2 b2) as [?|[->|?]]; [lia| |lia].
  destruct (Z.lt_trichotomy a3 b3) as [?|[->|?]]; [lia|auto|lia].
Qed.

(** a NaN operand makes every comparison false *)
Lemma flt_nan a b : flt a b = true → is_nan a = false ∧ is_nan b = false.
Proof. destruct a, b; done. Qed.
Lemma fle_nan a b : fle a b = true → is_nan a = false ∧ is_nan b = false.
Proof. destruct a, b; done. Qed.
Lemma feq_nan a b : feq a b = true → is_nan a = false ∧ is_nan b = false.
Proof. destruct a, b; done. Qed.

Lemma flt_irrefl a : flt a a = false.
Proof.
  destruct (flt a a) eqn:E; [|done]. pose proof (flt_nan _ _ E) as [H _].
  apply flt_spec in E; [|done..]. by apply klt_irrefl in E.
Qed.
Lemma flt_trans a b c : flt a b = true → flt b c = true → flt a c = true.
Proof.
  intros H1 H2. pose proof (flt_nan _ _ H1) as [??]. pose proof (flt_nan _ _ H2) as [??].
  rewrite flt_spec in *; try done. by eapply klt_trans.
Qed.
Lemma feq_refl a : is_nan a = false → feq a a = true.
Proof. intros H. by apply feq_spec. Qed.
Lemma feq_sym a b : feq a b = feq b a.
Proof.
  destruct (is_nan a) eqn:Ha; [destruct a, b; done|].
  destruct (is_nan b) eqn:Hb; [destruct a, b; done|].
  apply Bool.eq_iff_eq_true. rewrite !feq_spec by done. done.
Qed.
Lemma flt_feq_l a b c : feq a b = true → flt a c = flt b c.
Proof.
  intros H. pose proof (feq_nan _ _ H) as [??].
  destruct (is_nan c) eqn:Hc; [destruct c; try done; destruct a, b; done|].
  apply feq_spec in H; [|done..]. apply Bool.eq_iff_eq_true. rewrite !flt_spec by done. by rewrite H.
Qed.
Lemma flt_feq_r a b c : feq a b = true → flt c a = flt c b.
Proof.
  intros H. pose proof (feq_nan _ _ H) as [??].
  destruct (is_nan c) eqn:Hc; [destruct c; try done; destruct a, b; done|].
  apply feq_spec in H; [|done..]. apply Bool.eq_iff_eq_true. rewrite !flt_spec by done. by rewrite H.
Qed.
Lemma feq_feq_l a b c : feq a b = true → feq a c = feq b c.
Proof.
  intros H. pose proof (feq_nan _ _ H) as [??].
  destruct (is_nan c) eqn:Hc; [destruct c; try done; destruct a, b; done|].
  apply feq_spec in H; [|done..]. apply Bool.eq_iff_eq_true. rewrite !feq_spec by done. by rewrite H.
Qed.
Lemma f_trichotomy a b :
  is_nan a = false → is_nan b = false → flt a b = true ∨ feq a b = true ∨ flt b a = true.
Proof. intros Ha Hb. rewrite !flt_spec, !feq_spec by done. apply klt_total. Qed.
Lemma fle_flt a b : is_nan a = false → is_nan b = false → fle a b = negb (flt b a).
Proof.
  intros Ha Hb. apply Bool.eq_iff_eq_true. rewrite negb_true_iff, <- not_true_iff_false.
  rewrite fle_spec, flt_spec by done. done.
Qed.
Lemma flt_not_feq a b : flt a b = true → feq a b = false.
Proof.
  intros H. destruct (feq a b) eqn:E; [|done]. rewrite (flt_feq_l _ _ _ E), flt_irrefl in H. done.
Qed.

(** ** (score, member) keys: the order of a sorted set *)
Definition zkey := (float * string)%type.
Definition zlt (a b : zkey) : bool := flt a.1 b.1 || (feq a.1 b.1 && str_ltb a.2 b.2).
(** same key as Go sees it: equal scores (0 = -0) and the same member *)
Definition zeq (a b : zkey) : bool := feq a.1 b.1 && bool_decide (a.2 = b.2).

Lemma zlt_irrefl a : zlt a a = false.
Proof. unfold zlt. by rewrite flt_irrefl, str_ltb_irrefl, andb_false_r. Qed.

Lemma zlt_trans a b c : zlt a b = true → zlt b c = true → zlt a c = true.
Proof.
  unfold zlt. rewrite !orb_true_iff, !andb_true_iff.
  intros [H1|[H1 H1']] [H2|[H2 H2']].
  - left. by eapply flt_trans.
  - left. by rewrite <- (flt_feq_r _ _ _ H2).
  - left. by rewrite (flt_feq_l _ _ _ H1).
  - right. split; [by rewrite (feq_feq_l _ _ _ H1)|]. by eapply str_ltb_trans.
Qed.

Lemma zlt_total a b :
  is_nan a.1 = false → is_nan b.1 = false → zlt a b = false → zlt b a = false → zeq a b = true.
Proof.
  unfold zlt, zeq. intros Ha Hb H1 H2. apply orb_false_iff in H1 as [H1 H1'], H2 as [H2 H2'].
  destruct (f_trichotomy a.1 b.1 Ha Hb) as [H|[H|H]]; [congruence| |congruence].
  rewrite H in *. rewrite feq_sym, H in H2'. simpl in *.
  apply bool_decide_eq_true_2. by apply str_ltb_total.
Qed.

Lemma zlt_asym a b : zlt a b = true → zlt b a = false.
Proof.
  intros H. destruct (zlt b a) eqn:E; [|done].
  pose proof (zlt_trans _ _ _ H E) as H'. by rewrite zlt_irrefl in H'.
Qed.
