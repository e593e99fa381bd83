(** Requests on a connection that delivers its bytes in pieces.  Nothing here refers to the model. *)
From Verif Require Import GoBase SpecWire.

Fixpoint chars (s : string) : list string := match s with EmptyString => [] | String c r => String c EmptyString :: chars r end.
(** the parts of a request that arrive together: single bytes of the headers; each value with its CR LF *)
Definition arg_parts (s : string) : list string := chars (bulk_header s) ++ [s +:+ CRLF].
Definition request_parts (args : list string) : list string := chars (array_header (length args)) ++ concat (arg_parts <$> args).
(** [reads]: the results of successive reads, together the parts [l], no value split over two reads *)
Definition reads_of (reads : list string) (l : list string) : Prop :=
  ∃ groups, reads = sconcat <$> groups ∧ concat groups = l ∧ Forall (λ g, g ≠ []) groups.
(** so far *)
Definition reads_from (reads : list string) (l : list string) : Prop := ∃ l' rest, l = l' ++ rest ∧ reads_of reads l'.

(** [used_up pieces v rest]: of the pieces that arrive, those up to [rest] are used up, as the bytes [v]: every byte in its
    place, none left out, and nothing added but NUL bytes at the end of a piece *)
Inductive used_up : list string → string → list string → Prop :=
| tk_done ps : used_up ps EmptyString ps
| tk_part a b ps v rest : used_up (b :: ps) v rest → used_up ((a +:+ b) :: ps) (a +:+ v) rest
| tk_next ps v rest : used_up ps v rest → used_up (EmptyString :: ps) v rest
| tk_pad ps v rest : used_up (EmptyString :: ps) v rest → used_up (EmptyString :: ps) (String NUL v) rest.
Fixpoint no_nul (s : string) : Prop := match s with EmptyString => True | String c r => c ≠ NUL ∧ no_nul r end.
