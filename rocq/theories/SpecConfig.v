(** What a user of package config expects, said without its variable: the
    setting in force is that of the last text that was accepted. *)
From stdpp Require Import prelude strings list.
From Coq Require Import ZArith.
From Verif Require Import Config.
Open Scope Z_scope.

(** a call made on the package, and what came back from it *)
Inductive config_event :=
  | Load (text : string) (ok : bool)
  | Ask (timeout : Z).

(** what a program calls *)
Inductive config_call := CLoad (text : string) | CAsk.

Definition five_seconds : Z := 5000000000.

(** the last configuration accepted in a history, latest event last *)
Fixpoint in_force (decode : string → option config) (h : list config_event) (now : option config) : option config :=
  match h with
  | [] => now
  | Load t _ :: h' => in_force decode h' (match decode t with Some c => Some c | None => now end)
  | Ask _ :: h' => in_force decode h' now
  end.

(** the timeout that configuration asks for: a missing or zero one means five seconds *)
Definition wanted (c : option config) : Z :=
  match c with
  | Some x => if bool_decide (default_timeout x = 0) then five_seconds else default_timeout x
  | None => five_seconds
  end.
