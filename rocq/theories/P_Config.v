(** C85: package config keeps the last accepted configuration. *)
From stdpp Require Import prelude strings list.
From Coq Require Import ZArith Lia.
From Verif Require Import Config SpecConfig.
Open Scope Z_scope.

(** A program that makes the given calls on the package and notes what they return. *)
Fixpoint perform (decode : string → option config) (cs : list config_call) (c : cfg) : list config_event * cfg :=
  match cs with
  | [] => ([], c)
  | CLoad t :: cs' =>
      let '(c', ok) := InitConfig decode t c in
      let '(h, e) := perform decode cs' c' in (Load t ok :: h, e)
  | CAsk :: cs' =>
      let '(h, e) := perform decode cs' c in (Ask (GetDefaultTimeout c) :: h, e)
  end.

(** Every history of the package, from the start of the program. *)
Definition history_of decode h := ∃ cs, (perform decode cs cfg_start).1 = h.

Lemma timeout_wanted c : GetDefaultTimeout c = wanted c.
Proof.
  destruct c as [x|]; [|reflexivity]. unfold GetDefaultTimeout, wanted, five_seconds.
  case_bool_decide as E; [rewrite E; reflexivity|]. destruct (Z.eqb_spec (default_timeout x) 0); [done|reflexivity].
Qed.

Lemma perform_app decode cs c h1 e h2 :
  (perform decode cs c).1 = h1 ++ e :: h2 →
  match e with
  | Load t ok => ok = bool_decide (is_Some (decode t))
  | Ask n => n = wanted (in_force decode h1 c)
  end.
Proof.
  revert c h1. induction cs as [|[t|] cs IH]; intros c h1; cbn [perform].
  - intros E. by destruct h1.
  - unfold InitConfig. destruct (decode t) as [x|] eqn:D.
    + destruct (perform decode cs (Some x)) as [h f] eqn:P. cbn. destruct h1 as [|e1 h1]; intros E; cbn in E.
      * injection E as <- <-. rewrite D. rewrite bool_decide_true by done. done.
      * injection E as <- E. specialize (IH (Some x) h1). rewrite P in IH. specialize (IH E).
        destruct e; [exact IH|]. cbn [in_force]. rewrite D. exact IH.
    + destruct (perform decode cs c) as [h f] eqn:P. cbn. destruct h1 as [|e1 h1]; intros E; cbn in E.
      * injection E as <- <-. rewrite D. rewrite bool_decide_false; [done|]. by intros [? ?].
      * injection E as <- E. specialize (IH c h1). rewrite P in IH. specialize (IH E).
        destruct e; [exact IH|]. cbn [in_force]. rewrite D. exact IH.
  - destruct (perform decode cs c) as [h f] eqn:P. cbn. destruct h1 as [|e1 h1]; intros E; cbn in E.
    + injection E as <- <-. apply timeout_wanted.
    + injection E as <- E. specialize (IH c h1). rewrite P in IH. specialize (IH E).
      destruct e; [exact IH|]. cbn [in_force]. exact IH.
Qed.

(** The timeout asked for at any moment is that of the last text accepted before. *)
Theorem C85_in_force decode h1 n h2 : history_of decode (h1 ++ Ask n :: h2) → n = wanted (in_force decode h1 None).
Proof. intros [cs E]. exact (perform_app _ _ _ _ _ _ E). Qed.

(** A text is accepted exactly if it is a configuration. *)
Theorem C85_accepted decode h1 t ok h2 : history_of decode (h1 ++ Load t ok :: h2) → ok = true ↔ is_Some (decode t).
Proof.
  intros [cs E]. pose proof (perform_app _ _ _ _ _ _ E) as H. cbn in H. rewrite H. by rewrite bool_decide_eq_true.
Qed.

(** Nobody is ever given the timeout zero. *)
Theorem C85_never_zero decode h1 n h2 : history_of decode (h1 ++ Ask n :: h2) → n ≠ 0.
Proof.
  intros H. rewrite (C85_in_force _ _ _ _ H). unfold wanted, five_seconds.
  destruct (in_force decode h1 None) as [x|]; [|lia]. case_bool_decide; lia.
Qed.

Lemma in_force_app decode h1 h2 c : in_force decode (h1 ++ h2) c = in_force decode h2 (in_force decode h1 c).
Proof. revert c. induction h1 as [|[t ok|n] h1 IH]; intros c; cbn; auto. Qed.

(** Between two questions with no accepted text between them the answer does not change:
    refused texts leave no trace. *)
Theorem C85_refused_leave_no_trace decode h1 n h2 m h3 :
  history_of decode (h1 ++ Ask n :: h2 ++ Ask m :: h3) →
  (∀ t, Load t true ∉ h2) → m = n.
Proof.
  intros H No. pose proof H as H'. rewrite (C85_in_force _ _ _ _ H).
  assert (E : h1 ++ Ask n :: h2 ++ Ask m :: h3 = (h1 ++ Ask n :: h2) ++ Ask m :: h3) by (by rewrite <- app_assoc).
  rewrite E in H'. rewrite (C85_in_force _ _ _ _ H'), in_force_app. cbn [in_force]. f_equal.
  assert (D : ∀ t ok, Load t ok ∈ h2 → decode t = None).
  { intros t ok I. destruct ok; [by destruct (No t)|]. apply elem_of_list_split in I as (a & b & ->).
    assert (H2 : history_of decode ((h1 ++ Ask n :: a) ++ Load t false :: b ++ Ask m :: h3)).
    { eapply (eq_ind _ (history_of decode)); [exact H|]. simplify_list_eq. done. }
    pose proof (C85_accepted _ _ _ _ _ H2) as A. destruct (decode t); [|done]. destruct A as [_ A].
    by specialize (A (ex_intro _ _ eq_refl)). }
  clear -D. generalize (in_force decode h1 None). intros c. induction h2 as [|[t ok|k] h2 IH]; [done|..]; cbn [in_force].
  - rewrite (D t ok) by left. apply IH. intros t' ok' I. eapply D. right. exact I.
  - apply IH. intros t' ok' I. eapply D. right. exact I.
Qed.

(** Right after an accepted text its own timeout is in force, or five seconds if it has none. *)
Theorem C85_takes_effect decode h1 t n h2 x : history_of decode (h1 ++ Load t true :: Ask n :: h2) →
  decode t = Some x → n = if bool_decide (default_timeout x = 0) then five_seconds else default_timeout x.
Proof.
  intros H D. assert (E : h1 ++ Load t true :: Ask n :: h2 = (h1 ++ [Load t true]) ++ Ask n :: h2) by (by rewrite <- app_assoc).
  rewrite E in H. rewrite (C85_in_force _ _ _ _ H), in_force_app. cbn [in_force]. by rewrite D.
Qed.

(** A negative timeout is taken as it is: "never zero" is not "always positive". *)
Theorem C85_positive_refuted : ∃ decode h1 n h2, history_of decode (h1 ++ Ask n :: h2) ∧ n < 0.
Proof.
  exists (λ t, Some (MkConfig (-1) "")), [Load "default_timeout: -1ns" true], (-1), [].
  split; [|lia]. exists [CLoad "default_timeout: -1ns"; CAsk]. reflexivity.
Qed.

(** A program that asks, loads a text without a timeout, one with, and a broken one. *)
Definition some_decoder (t : string) : option config :=
  if String.eqb t "default_timeout: 1s" then Some (MkConfig 1000000000 "")
  else if String.eqb t "persistence: aof" then Some (MkConfig 0 "aof") else None.
Theorem C85_demo : history_of some_decoder
  [Ask 5000000000; Load "persistence: aof" true; Ask 5000000000; Load "default_timeout: 1s" true; Ask 1000000000;
   Load "{" false; Ask 1000000000; Load "persistence: aof" true; Ask 5000000000].
Proof. exists [CAsk; CLoad "persistence: aof"; CAsk; CLoad "default_timeout: 1s"; CAsk; CLoad "{"; CAsk; CLoad "persistence: aof"; CAsk]. reflexivity. Qed.
