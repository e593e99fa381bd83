(** C20-C23: lists. *)
From Verif Require Import GoBase GoBaseProofs ShardMap Float64 Db Protocol Redis Obs SpecList SpecCmd SpecResp SpecServer SpecKey KeyHist
  DbInv ExecSteps Sim SimMain PropBase KeyIs Examples.

(** key [k] came into being as a list (or does not exist) and holds the sequence [s]; see KeyIs.v *)
Definition list_is (ext : Ext) (d : db) (k : string) (s : option (list string * wear)) : Prop := key_is ext false list_step k s d.
Lemma list_corr0 : list_corr None None. Proof. done. Qed.
Notation lk k := (list_ok _ k true).

Ltac about_write := apply about_first; apply orb_true_iff; right; apply bool_decide_eq_true; by left.
(** ** C20: a list is a sequence *)
Theorem C20_start ext d k : reachable ext d → answers ext d ["EXISTS"; k] (RInt 0) → list_is ext d k None.
Proof. apply key_is_absent. Qed.
(** any further history whatever, all choices: the replies about [k] are those of a plain sequence of byte strings *)
Theorem C20_sequence ext d k s h d' rs : list_is ext d k s → talk ext h d = Ret (d', rs) → within list_step k s (h.*2) →
  ∃ s', consistent list_step k s (h.*2) rs s' ∧ list_is ext d' k s'.
Proof.
  intros K H W. apply (key_is_next ext false list_step k list_corr (list_ok ext k true) list_determined list_corr0 s d h d' rs); try done.
Qed.
Theorem C20_served ext d k s h : list_is ext d k s → within list_step k s (h.*2) → Forall (λ x, about k x.2 = true) h →
  ∃ d' rs, talk ext h d = Ret (d', rs).
Proof.
  intros K W F. by apply (key_is_served ext false list_step k list_corr (list_ok ext k true) list_determined list_corr0 s d h).
Qed.
Lemma list_does ext d k s name a r s' : list_is ext d k s → not_tossing name → about k (name :: a) = true →
  list_step (name :: a) s = exactly r s' → does ext d (name :: a) r (λ d', list_is ext d' k s').
Proof. apply (key_is_does ext false list_step k list_corr (list_ok ext k true) list_determined list_corr0). Qed.
Lemma list_answers ext d k s name a r s' : list_is ext d k s → not_tossing name → bool_decide (to_lower name ∈ read_only) = true →
  about k (name :: a) = true → list_step (name :: a) s = exactly r s' → answers ext d (name :: a) r.
Proof. apply (key_is_answers ext false list_step k list_corr (list_ok ext k true) list_determined list_corr0). Qed.
(** what the value of a list key means to a client *)
Theorem C20_shown ext d k s : list_is ext d k s →
  answers ext d ["EXISTS"; k] (flag (if s then true else false)) ∧
  answers ext d ["TYPE"; k] (RStatus (if s then "list" else "none")) ∧
  answers ext d ["LLEN"; k] (RInt (zlen (elems s))) ∧
  answers ext d ["LRANGE"; k; "0"; "-1"] (bulks (elems s)).
Proof.
  intros K. split_and!.
  - eapply (list_answers ext d k s "EXISTS"); [done..|by apply about_first|]. by destruct s.
  - eapply (list_answers ext d k s "TYPE"); [done..|by apply about_first|]. by destruct s.
  - eapply (list_answers ext d k s "LLEN"); [done..|by apply about_first|]. done.
  - eapply (list_answers ext d k s "LRANGE"); [done..|by apply about_first|].
    assert (window 0 (-1) (elems s) = elems s) as E.
    { unfold window, norm_index. cbn [Z.ltb Z.compare].
      match goal with |- take _ (drop ?x _) = _ => replace x with 0%nat by lia end. rewrite drop_0, take_ge; [done|]. lia. }
    change (list_step ["LRANGE"; k; "0"; "-1"] s) with (exactly (bulks (window 0 (-1) (elems s))) s). by rewrite E.
Qed.
Definition list_demo : list (list string) :=
  [["rpush"; "k"; "b"; "c"]; ["sadd"; "other"; "x"]; ["LPUSH"; "k"; "a"; "z"]; ["linsert"; "k"; "BEFORE"; "c"; "m"]; ["lrange"; "k"; "0"; "-1"];
   ["lset"; "k"; "-1"; "q"]; ["lrem"; "k"; "1"; "a"]; ["lpop"; "k"]; ["rpop"; "k"; "2"]; ["llen"; "k"]].
Example C20_demo : list_is ext0 db_new "k" None ∧ within list_step "k" None list_demo ∧
  replies list_demo = Some [Some (RInt 2); Some (RInt 1); Some (RInt 4); Some (RInt 5);
    Some (bulks ["z"; "a"; "b"; "m"; "c"]); Some (RStatus "OK"); Some (RInt 1); Some (bulks ["z"]); Some (bulks ["q"; "m"]); Some (RInt 1)].
Proof.
  split; [|split].
  - apply C20_start; [by exists [], []|]. intros c. done.
  - unfold list_demo. within_tac.
  - by vm_compute.
Qed.

(** ** C21: LREM *)
Definition occurrences (v : string) (xs : list string) : nat := length (filter (λ x, x = v) xs).
Definition without (v : string) (xs : list string) : list string := filter (λ x, x ≠ v) xs.
(** [ys] is [xs] with the first (last) min([n], occurrences) occurrences of [v] taken out *)
Definition first_gone (n : nat) (v : string) (xs ys : list string) : Prop :=
  ∃ pre post, xs = pre ++ post ∧ ys = without v pre ++ post ∧ occurrences v pre = Nat.min n (occurrences v xs).
Definition last_gone (n : nat) (v : string) (xs ys : list string) : Prop :=
  ∃ pre post, xs = pre ++ post ∧ ys = pre ++ without v post ∧ occurrences v post = Nat.min n (occurrences v xs).
Definition right_ones_gone (n : Z) (v : string) (xs ys : list string) : Prop :=
  if 0 <? n then first_gone (Z.to_nat n) v xs ys
  else if n <? 0 then last_gone (Z.to_nat (- n)) v xs ys
  else ys = without v xs.

Lemma occ_app v a b : occurrences v (a ++ b) = (occurrences v a + occurrences v b)%nat.
Proof. unfold occurrences. by rewrite filter_app, app_length. Qed.
Lemma occ_without v xs : (length (without v xs) + occurrences v xs = length xs)%nat.
Proof.
  unfold without, occurrences. induction xs as [|x xs IH]; [done|]. destruct (decide (x = v)) as [->|Hx].
  - rewrite (filter_cons_False (λ x, x ≠ v)) by (intros Hv0; by apply Hv0). rewrite filter_cons_True by done. simpl. lia.
  - rewrite (filter_cons_True (λ x, x ≠ v)) by done. rewrite filter_cons_False by done. simpl. lia.
Qed.
Lemma remove_first_gone v xs : ∀ n, 0 ≤ n → first_gone (Z.to_nat n) v xs (remove_first n v xs).
Proof.
  induction xs as [|x xs IH]; intros n Hn; [exists [], []; by rewrite Nat.min_0_r|]. cbn [remove_first].
  destruct (Z.leb_spec n 0).
  - exists [], (x :: xs). assert (Z.to_nat n = 0%nat) as -> by lia. done.
  - destruct (String.eqb_spec x v) as [->|Hx].
    + destruct (IH (n - 1)) as (pre & post & -> & E & O); [lia|]. exists (v :: pre), post. rewrite E. repeat split.
      * unfold without. by rewrite filter_cons_False by (intros Hv0; by apply Hv0).
      * change (v :: pre ++ post) with ([v] ++ (pre ++ post)). change (v :: pre) with ([v] ++ pre). rewrite !(occ_app v [v]).
        rewrite O. assert (occurrences v [v] = 1%nat) as -> by (unfold occurrences; by rewrite filter_cons_True).
        replace (Z.to_nat n) with (S (Z.to_nat (n - 1))) by lia. lia.
    + destruct (IH n Hn) as (pre & post & -> & E & O). exists (x :: pre), post. rewrite E. repeat split.
      * unfold without. by rewrite filter_cons_True.
      * change (x :: pre ++ post) with ([x] ++ (pre ++ post)). change (x :: pre) with ([x] ++ pre). rewrite !(occ_app v [x]).
        rewrite O. assert (occurrences v [x] = 0%nat) as -> by (unfold occurrences; by rewrite filter_cons_False). done.
Qed.
Lemma without_reverse v xs : without v (reverse xs) = reverse (without v xs).
Proof.
  unfold without. induction xs as [|x xs IH]; [done|]. rewrite reverse_cons, filter_app, IH. destruct (decide (x = v)) as [->|Hx].
  - rewrite !(filter_cons_False (λ x, x ≠ v)) by (intros Hv0; by apply Hv0). by rewrite filter_nil, app_nil_r.
  - rewrite !(filter_cons_True (λ x, x ≠ v)) by done. by rewrite filter_nil, reverse_cons.
Qed.
Lemma occ_reverse v xs : occurrences v (reverse xs) = occurrences v xs.
Proof. induction xs as [|x xs IH]; [done|]. rewrite reverse_cons, occ_app, IH. change (x :: xs) with ([x] ++ xs). rewrite occ_app. lia. Qed.
Theorem C21_lrem_result n v xs : right_ones_gone n v xs (lrem_result n v xs).
Proof.
  unfold right_ones_gone, lrem_result. destruct (Z.ltb_spec 0 n); [apply remove_first_gone; lia|]. destruct (Z.ltb_spec n 0); [|done].
  unfold remove_last. destruct (remove_first_gone v (reverse xs) (- n)) as (pre & post & E & E' & O); [lia|].
  exists (reverse post), (reverse pre). rewrite E', reverse_app, <- without_reverse. split; [by rewrite <- reverse_app, <- E, reverse_involutive|].
  split; [done|]. by rewrite occ_reverse, O, occ_reverse.
Qed.
Lemma gone_length n v xs ys : right_ones_gone n v xs ys →
  zlen xs - zlen ys = Z.of_nat (if n =? 0 then occurrences v xs else Nat.min (Z.to_nat (Z.abs n)) (occurrences v xs)).
Proof.
  unfold right_ones_gone, zlen. destruct (Z.ltb_spec 0 n).
  - intros (pre & post & E & -> & O). assert ((n =? 0) = false) as -> by (apply Z.eqb_neq; lia). rewrite Z.abs_eq by lia. rewrite <- O.
    rewrite E at 1. rewrite !app_length. pose proof (occ_without v pre). lia.
  - destruct (Z.ltb_spec n 0).
    + intros (pre & post & E & -> & O). assert ((n =? 0) = false) as -> by (apply Z.eqb_neq; lia). rewrite Z.abs_neq by lia. rewrite <- O.
      rewrite E at 1. rewrite !app_length. pose proof (occ_without v post). lia.
    + intros ->. assert (n = 0) as -> by lia. cbn [Z.eqb]. pose proof (occ_without v xs). lia.
Qed.
(** LREM on a list key: the right occurrences go, the answer is their number.  The least int64 as count is
    the exception: [C21_min_count]. *)
Definition number_gone (n : Z) (v : string) (xs : list string) : Z :=
  Z.of_nat (if n =? 0 then occurrences v xs else Nat.min (Z.to_nat (Z.abs n)) (occurrences v xs)).
Lemma gone_nil n v ys : right_ones_gone n v [] ys → ys = [] ∧ number_gone n v [] = 0.
Proof.
  intros G. pose proof (gone_length n v [] ys G) as L. unfold zlen in L. simpl in L. unfold number_gone. simpl. split; [|by destruct (n =? 0); rewrite ?Nat.min_0_r].
  destruct ys; [done|]. simpl in L. lia.
Qed.
Theorem C21_lrem ext d k xs w a n v : list_is ext d k (Some (xs, w)) → parse_int a = Some n → n ≠ - two63 →
  ∃ ys w', right_ones_gone n v xs ys ∧
    does ext d ["LREM"; k; a; v] (RInt (number_gone n v xs)) (λ d', list_is ext d' k (Some (ys, w'))).
Proof.
  intros K Ha Hn. pose proof (C21_lrem_result n v xs) as G. assert ((n =? - two63) = false) as En by (by apply Z.eqb_neq).
  exists (lrem_result n v xs). destruct xs as [|x xs].
  - destruct (gone_nil _ _ _ G) as [Ey ->]. exists w. split; [done|]. rewrite Ey.
    eapply list_does; [done..|about_write|]. row.
    unfold int_arg. rewrite Ha, En. done.
  - exists (match lrem_result n v (x :: xs) with [] => if n <? 0 then TailLost else HeadLost | _ => Sound end). split; [done|].
    unfold number_gone. rewrite <- (gone_length n v _ _ G).
    eapply list_does; [done..|about_write|]. row.
    unfold int_arg. rewrite Ha, En. done.
Qed.
Theorem C21_lrem_missing ext d k a n v : list_is ext d k None → parse_int a = Some n →
  does ext d ["LREM"; k; a; v] (RInt 0) (λ d', list_is ext d' k None).
Proof.
  intros K Ha. eapply list_does; [done..|about_write|]. row.
  unfold int_arg. rewrite Ha. cbv zeta. by destruct (n =? - two63).
Qed.
(** With the least int64 as count nothing is removed, whatever the list. *)
Theorem C21_min_count ext d k xs w v : list_is ext d k (Some (xs, w)) →
  does ext d ["LREM"; k; "-9223372036854775808"; v] (RInt 0) (λ d', list_is ext d' k (Some (xs, w))).
Proof. intros K. eapply list_does; [done..|about_write|]. row. unfold int_arg. assert (parse_int "-9223372036854775808" = Some (- two63)) as -> by (by vm_compute). done. Qed.
(** a list made by one RPUSH *)
Lemma list_is_rpush x xs : list_is ext0 (after ["RPUSH" :: "k" :: x :: xs]) "k" (Some (x :: xs, Sound)).
Proof.
  assert (K0 : list_is ext0 db_new "k" None) by (apply C20_start; [by exists [], []|]; intros c; done).
  destruct (list_does ext0 db_new "k" None "RPUSH" ("k" :: x :: xs) (RInt (zlen (x :: xs))) (Some (x :: xs, Sound)) K0) with (c := c0) as (d' & E & K); [done|by apply about_first|done|].
  unfold after, plain_history. rewrite fmap_cons, fmap_nil. cbn [talk]. rewrite E. cbn [obind]. done.
Qed.
Example C21_demo : let xs := ["a"; "b"; "a"; "c"; "a"] in
  list_is ext0 (after [["RPUSH"; "k"; "a"; "b"; "a"; "c"; "a"]]) "k" (Some (xs, Sound)) ∧
  number_gone (-2) "a" xs = 2 ∧ right_ones_gone (-2) "a" xs ["a"; "b"; "c"] ∧ ¬ right_ones_gone 2 "a" xs ["a"; "b"; "c"] ∧
  replies [["RPUSH"; "k"; "a"; "b"; "a"; "c"; "a"]; ["LREM"; "k"; "-2"; "a"]; ["LRANGE"; "k"; "0"; "-1"]]
    = Some [Some (RInt 5); Some (RInt 2); Some (bulks ["a"; "b"; "c"])].
Proof.
  cbv zeta. split_and!; [apply list_is_rpush|done|exists ["a"; "b"], ["a"; "c"; "a"]; done| |by vm_compute].
  intros (pre & post & E & E' & O). change (Z.to_nat 2) with 2%nat in O.
  assert (occurrences "a" ["a"; "b"; "a"; "c"; "a"] = 3%nat) as Ho by done. rewrite Ho in O. simpl in O.
  destruct pre as [|p0 [|p1 [|p2 [|p3 [|p4 [|]]]]]]; simpl in E; simplify_eq; try done.
Qed.
(** With the least int64 as count nothing is removed (Go's negation overflows). *)
Theorem C21_min_count_refuted :
  replies [["RPUSH"; "k"; "a"; "b"]; ["LREM"; "k"; "-9223372036854775808"; "a"]; ["LRANGE"; "k"; "0"; "-1"]]
  = Some [Some (RInt 2); Some (RInt 0); Some (bulks ["a"; "b"])].
Proof. by vm_compute. Qed.

(** ** C22: a list that was emptied *)
(** However it became empty, a list key that still exists reads as the empty list, and pushing starts a fresh
    list - except at the end that LREM lost when it emptied the list (the head for a count >= 0, the tail for
    a count < 0; see [C22_refuted]). *)
Theorem C22_empty_partial ext d k w v vs : list_is ext d k (Some ([], w)) →
  answers ext d ["LLEN"; k] (RInt 0) ∧ answers ext d ["LRANGE"; k; "0"; "-1"] (RArr []) ∧
  does ext d ["LPOP"; k] RNil (λ d', list_is ext d' k (Some ([], w))) ∧
  does ext d ["RPOP"; k] (RArr []) (λ d', list_is ext d' k (Some ([], w))) ∧
  does ext d ["DEL"; k] (RInt 1) (λ d', list_is ext d' k None) ∧
  (w ≠ TailLost → does ext d ("LPUSH" :: k :: v :: vs) (RInt (zlen (v :: vs))) (λ d', list_is ext d' k (Some (reverse (v :: vs), Sound)))) ∧
  (w ≠ HeadLost → does ext d ("RPUSH" :: k :: v :: vs) (RInt (zlen (v :: vs))) (λ d', list_is ext d' k (Some (v :: vs, Sound)))).
Proof.
  intros K. split_and!.
  - by apply (C20_shown ext d k _ K).
  - by apply (C20_shown ext d k _ K).
  - eapply list_does; [done..|about_write|]. done.
  - eapply list_does; [done..|about_write|]. done.
  - eapply list_does; [done..|about_write|]. done.
  - intros Hw. eapply list_does; [done..|about_write|].
    assert (zlen (v :: vs) = zlen (reverse (v :: vs) ++ [])) as -> by (unfold zlen; by rewrite app_nil_r, reverse_length).
    rewrite <- (app_nil_r (reverse (v :: vs))) at 2. by destruct w.
  - intros Hw. eapply list_does; [done..|about_write|]. by destruct w.
Qed.
(** popping everything loses no end *)
Theorem C22_pop_all ext d k x xs w a n : list_is ext d k (Some (x :: xs, w)) → parse_int a = Some n → zlen (x :: xs) ≤ n →
  does ext d ["LPOP"; k; a] (bulks (x :: xs)) (λ d', list_is ext d' k (Some ([], Sound))) ∧
  does ext d ["RPOP"; k; a] (bulks (reverse (x :: xs))) (λ d', list_is ext d' k (Some ([], Sound))).
Proof.
  intros K Ha Hn. unfold zlen in Hn. rewrite cons_length in Hn. assert ((0 <? n) = true) as En by (apply Z.ltb_lt; lia). split.
  - eapply list_does; [done..|about_write|]. row.
    unfold pop_number, int_arg. rewrite Ha, En. rewrite take_ge by (simpl; lia). by rewrite drop_ge by (simpl; lia).
  - eapply list_does; [done..|about_write|]. row.
    unfold pop_number, int_arg. rewrite Ha, En. rewrite take_ge by (rewrite reverse_length; simpl; lia). by rewrite drop_ge by (rewrite reverse_length; simpl; lia).
Qed.
Example C22_demo : list_is ext0 (after [["RPUSH"; "k"; "a"; "a"]]) "k" (Some (["a"; "a"], Sound)) ∧
  replies [["RPUSH"; "k"; "a"; "a"]; ["LREM"; "k"; "0"; "a"]; ["LRANGE"; "k"; "0"; "-1"]; ["EXISTS"; "k"]; ["LPUSH"; "k"; "b"; "c"]; ["LRANGE"; "k"; "0"; "-1"];
    ["RPOP"; "k"; "5"]; ["RPUSH"; "k"; "z"]; ["LRANGE"; "k"; "0"; "-1"]]
  = Some [Some (RInt 2); Some (RInt 2); Some (RArr []); Some (RInt 1); Some (RInt 2); Some (bulks ["c"; "b"]); Some (bulks ["b"; "c"]); Some (RInt 1); Some (bulks ["z"])].
Proof. split; [apply list_is_rpush|by vm_compute]. Qed.
(** Pushing at the lost end: the element is counted but invisible, and the next LREM crashes the server. *)
Theorem C22_refuted :
  replies [["RPUSH"; "k"; "a"]; ["LREM"; "k"; "0"; "a"]; ["RPUSH"; "k"; "b"]; ["LLEN"; "k"]; ["LRANGE"; "k"; "0"; "-1"]]
    = Some [Some (RInt 1); Some (RInt 1); Some (RInt 1); Some (RInt 1); Some (RArr [])] ∧
  crashed [["RPUSH"; "k"; "a"]; ["LREM"; "k"; "0"; "a"]; ["RPUSH"; "k"; "b"]; ["LREM"; "k"; "0"; "b"]] = true ∧
  crashed [["RPUSH"; "k"; "a"]; ["LREM"; "k"; "-1"; "a"]; ["LPUSH"; "k"; "b"]; ["LREM"; "k"; "-1"; "b"]] = true.
Proof. by vm_compute. Qed.

(** ** C23: index windows *)
(** a user index counts from the front, or from behind if negative *)
Definition position (i : Z) {A} (xs : list A) : Z := if i <? 0 then zlen xs + i else i.
Lemma position_norm i {A} (xs : list A) : norm_index (Z.of_nat (length xs)) i = position i xs.
Proof. unfold norm_index, position, zlen. destruct (i <? 0); lia. Qed.
(** [ys] are the elements of [xs] at the positions from [i] to [j], both ends clipped *)
Definition clipped (i j : Z) {A} (xs ys : list A) : Prop :=
  ∃ pre post, xs = pre ++ ys ++ post ∧
    ∀ p : nat, (p < length xs)%nat → ((length pre ≤ p < length pre + length ys)%nat ↔ position i xs ≤ Z.of_nat p ≤ position j xs).
Theorem C23_window {A} i j (xs : list A) : clipped i j xs (window i j xs).
Proof.
  unfold clipped, window. rewrite !position_norm. set (lo := position i xs). set (hi := position j xs).
  set (o := Z.to_nat (Z.min (Z.max 0 lo) (Z.of_nat (length xs)))). set (n := Z.to_nat _).
  exists (take o xs), (drop n (drop o xs)). rewrite take_drop, take_drop. split; [done|]. intros p Hp.
  rewrite !take_length, drop_length. subst o n. lia.
Qed.
Theorem C23_lrange ext d k s a b i j : list_is ext d k s → parse_int a = Some i → parse_int b = Some j →
  ∃ ys, clipped i j (elems s) ys ∧ answers ext d ["LRANGE"; k; a; b] (bulks ys).
Proof.
  intros K Ha Hb. exists (window i j (elems s)). split; [apply C23_window|].
  eapply (list_answers ext d k s "LRANGE"); [done..|by apply about_first|]. row.
  unfold int_arg. by rewrite Ha, Hb.
Qed.
(** clipping determines the answer *)
Lemma clipped_unique i j {A} (xs ys zs : list A) : clipped i j xs ys → clipped i j xs zs → ys = zs.
Proof.
  intros (pre & post & E & H) (pre' & post' & E' & H').
  assert (L : length xs = (length pre + (length ys + length post))%nat) by (rewrite E, !app_length; done).
  assert (L' : length xs = (length pre' + (length zs + length post'))%nat) by (rewrite E', !app_length; done).
  assert (D : ys = take (length ys) (drop (length pre) xs)) by (by rewrite E, drop_app, take_app).
  assert (D' : zs = take (length zs) (drop (length pre') xs)) by (by rewrite E', drop_app, take_app).
  assert (Hpp : ∀ p, (p < length xs)%nat → ((length pre ≤ p < length pre + length ys)%nat ↔ (length pre' ≤ p < length pre' + length zs)%nat)).
  { intros p Hp. by rewrite (H p Hp), (H' p Hp). }
  destruct ys as [|y ys], zs as [|z zs]; [done| | |].
  - simpl in *. destruct (Hpp (length pre')) as [_ X]; [lia|]. lia.
  - simpl in *. destruct (Hpp (length pre)) as [X _]; [lia|]. lia.
  - assert (length pre = length pre' ∧ length (y :: ys) = length (z :: zs)) as [E1 E2].
    { cbn [length] in *. destruct (Hpp (length pre)) as [X1 _]; [lia|]. destruct (Hpp (length pre')) as [_ X2]; [lia|].
      destruct (Hpp (length pre + length ys)%nat) as [X3 _]; [lia|]. destruct (Hpp (length pre' + length zs)%nat) as [_ X4]; [lia|]. lia. }
    rewrite D, D'. by rewrite E1, E2.
Qed.
(** LSET replaces exactly the element at the position, and refuses positions outside the list *)
Theorem C23_lset ext d k xs w a i v : list_is ext d k (Some (xs, w)) → parse_int a = Some i →
  if bool_decide (0 ≤ position i xs < zlen xs)
  then ∃ pre x post, xs = pre ++ x :: post ∧ zlen pre = position i xs ∧
       does ext d ["LSET"; k; a; v] (RStatus "OK") (λ d', list_is ext d' k (Some (pre ++ v :: post, Sound)))
  else does ext d ["LSET"; k; a; v] (RError (err_msg ErrNil)) (λ d', list_is ext d' k (Some (xs, w))).
Proof.
  intros K Ha. case_bool_decide as Hp.
  - unfold zlen in Hp. destruct (lookup_lt_is_Some_2 xs (Z.to_nat (position i xs))) as [x Hx]; [lia|].
    exists (take (Z.to_nat (position i xs)) xs), x, (drop (S (Z.to_nat (position i xs))) xs). split; [by rewrite take_drop_middle|].
    split; [unfold zlen; rewrite take_length; lia|].
    eapply list_does; [done..|about_write|]. row.
    cbn [elems]. unfold int_arg. rewrite Ha. unfold set_elem. rewrite position_norm.
    destruct (Z.ltb_spec (position i xs) 0); [lia|]. destruct (Z.leb_spec (Z.of_nat (length xs)) (position i xs)); [lia|].
    rewrite (insert_take_drop xs) by lia. done.
  - unfold zlen in Hp. eapply list_does; [done..|about_write|]. row.
    cbn [elems]. unfold int_arg. rewrite Ha. unfold set_elem. rewrite position_norm.
    destruct (Z.ltb_spec (position i xs) 0); [done|]. destruct (Z.leb_spec (Z.of_nat (length xs)) (position i xs)); [done|lia].
Qed.
Example C23_demo : list_is ext0 (after [["RPUSH"; "k"; "a"; "b"; "c"; "d"]]) "k" (Some (["a"; "b"; "c"; "d"], Sound)) ∧
  clipped (-3) 9 ["a"; "b"; "c"; "d"] ["b"; "c"; "d"] ∧ position (-2) ["a"; "b"; "c"; "d"] = 2 ∧
  replies [["RPUSH"; "k"; "a"; "b"; "c"; "d"]; ["LRANGE"; "k"; "-3"; "9"]; ["LRANGE"; "k"; "-9"; "1"]; ["LRANGE"; "k"; "3"; "1"];
           ["LSET"; "k"; "-2"; "x"]; ["LSET"; "k"; "4"; "x"]; ["LRANGE"; "k"; "0"; "-1"]]
  = Some [Some (RInt 4); Some (bulks ["b"; "c"; "d"]); Some (bulks ["a"; "b"]); Some (RArr []); Some (RStatus "OK"); Some (RError (err_msg ErrNil));
          Some (bulks ["a"; "b"; "x"; "d"])].
Proof. split_and!; [apply list_is_rpush|apply (C23_window (-3) 9 ["a"; "b"; "c"; "d"])|done|by vm_compute]. Qed.
(** LINDEX looks at the key named by its second argument *)
Theorem C49_lindex_refuted : replies [["RPUSH"; "l"; "a"]; ["LINDEX"; "l"; "0"]; ["RPUSH"; "0"; "z"]; ["LINDEX"; "l"; "0"]]
  = Some [Some (RInt 1); Some RNil; Some (RInt 1); Some (RBulk "z")].
Proof. by vm_compute. Qed.
Theorem C49_lindex_partial ext d k a i xs w : list_is ext d a (Some (xs, w)) → parse_int a = Some i →
  answers ext d ["LINDEX"; k; a]
    (if bool_decide (0 ≤ position i xs) then match xs !! Z.to_nat (position i xs) with Some v => RBulk v | None => RNil end else RNil).
Proof.
  intros K Ha. destruct (key_is_corr ext false list_step a list_corr (list_ok ext a true) list_determined list_corr0 _ d K) as (m & Sm & C).
  eapply question; [done|done|done|]. spc. cbn [s_lindex]. rewrite Ha. unfold list_corr in C. rewrite C. cbn [fmap option_fmap option_map fst snd].
  unfold nth_elem. rewrite position_norm. case_bool_decide as Hp.
  - destruct (Z.ltb_spec (position i xs) 0); [lia|]. destruct (Z.leb_spec (Z.of_nat (length xs)) (position i xs)); [|done].
    by rewrite lookup_ge_None_2 by lia.
  - by destruct (Z.ltb_spec (position i xs) 0); [|lia].
Qed.
