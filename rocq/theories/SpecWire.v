(** Requests on the wire, written from the RESP specification.  Nothing here refers to the model. *)
From Verif Require Import GoBase.

(** a bulk string: dollar sign, length, CR LF, the bytes, CR LF *)
Definition bulk_header (s : string) : string := "$" +:+ itoa (slen s) +:+ CRLF.
Definition bulk_bytes (s : string) : string := bulk_header s +:+ s +:+ CRLF.
Definition array_header (n : nat) : string := "*" +:+ itoa (Z.of_nat n) +:+ CRLF.
Fixpoint sconcat (l : list string) : string := match l with [] => "" | x :: r => x +:+ sconcat r end.
(** a request: an array of bulk strings *)
Definition request_bytes (args : list string) : string := array_header (length args) +:+ sconcat (bulk_bytes <$> args).

(** arrays nested in arrays *)
Inductive item := Arg (s : string) | Group (l : list item).
Fixpoint item_bytes (i : item) : string :=
  match i with
  | Arg s => bulk_bytes s
  | Group l => array_header (length l) +:+ sconcat (map item_bytes l)
  end.
Fixpoint item_args (i : item) : list string :=
  match i with
  | Arg s => [s]
  | Group l => concat (map item_args l)
  end.
(** the lengths in it, payloads and arrays, are at most [n] *)
Fixpoint item_fits (n : Z) (i : item) : Prop :=
  match i with
  | Arg s => slen s + 2 ≤ n
  | Group l => Z.of_nat (length l) < n ∧ (fix all l := match l with [] => True | x :: r => item_fits n x ∧ all r end) l
  end.

(** no line feed in it; a carriage return in it *)
Fixpoint no_lf (s : string) : bool := match s with EmptyString => true | String c r => negb (Ascii.eqb c LF) && no_lf r end.
Fixpoint has_cr (s : string) : bool := match s with EmptyString => false | String c r => Ascii.eqb c CR || has_cr r end.
(** a header line: a dollar sign or star, and what follows it up to a line feed *)
Definition header_in (b : string) (c : ascii) (mid : string) : Prop :=
  ∃ pre post, b = pre +:+ String c (mid +:+ String LF post) ∧ no_lf mid = true ∧ (c = "$" ∨ c = "*")%char.
(** [x], filled up with NUL bytes to length [n] *)
Fixpoint nul_padded (n : nat) (x : string) : string :=
  match n, x with
  | O, _ => EmptyString
  | S m, EmptyString => String NUL (nul_padded m EmptyString)
  | S m, String c y => String c (nul_padded m y)
  end.
