(** What C65 says about a run of the process: it is told by the labels of Main.v alone. *)
From Verif Require Import GoBase Main.

Global Instance mlabel_eq_dec : EqDecision mlabel.
Proof. solve_decision. Defined.
Definition times (l : mlabel) (tr : list mlabel) : nat := length (filter (λ x, x = l) tr).
(** the world decides these: a signal is sent, the address can be served or not, the network layer fails *)
Definition outside (l : mlabel) : Prop := l = MSignal ∨ l = MUp ∨ l = MFail ∨ l = MBreak.
(** nothing is left for the process to do by itself *)
Definition settled (s : life) : Prop := ∀ l s', mstep s l s' → outside l.
(** no signal is sent before the server begins to serve *)
Definition no_early_signal (tr : list mlabel) : Prop := ∀ t1 t2, tr = t1 ++ MUp :: t2 → MSignal ∉ t1.
