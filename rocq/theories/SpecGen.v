(** What C66 says, in terms of the text of a source file. *)
From Verif Require Import GoBase.

Definition bytes_of (s : string) : list ascii := list_ascii_of_string s.
Definition white (c : ascii) : Prop := c ∈ [chr 9; chr 10; chr 12; chr 13; chr 32].
Definition letter (c : ascii) : Prop := c ∈ bytes_of "ABCDEFGHIJKLMNOPQRSTUVWXYZabcdefghijklmnopqrstuvwxyz".
Definition spaces (s : string) : Prop := s ≠ "" ∧ Forall white (bytes_of s).
Definition word (s : string) : Prop := s ≠ "" ∧ Forall letter (bytes_of s).

(** The line declares the command function [f] after the text [pre]:
    "func f(c *Command) ( *protocol.Response, error)" without the space after "(", and with any byte for the dot. *)
Definition declares_at (pre line f : string) : Prop :=
  ∃ w1 w2 w3 dot post,
    line = pre +:+ "func" +:+ w1 +:+ f +:+ "(c *Command)" +:+ w2 +:+ "(" +:+ "*protocol" +:+ String dot ("Response," +:+ w3 +:+ "error)" +:+ post)
    ∧ spaces w1 ∧ word f ∧ spaces w2 ∧ spaces w3 ∧ dot ≠ chr 10.
(** of several declarations in one line the first counts *)
Definition declares (line f : string) : Prop :=
  ∃ pre, declares_at pre line f ∧ ∀ pre' f', declares_at pre' line f' → (String.length pre ≤ String.length pre')%nat.

(** The name of a command whose function is declared below the line [prev]: below an empty line the function's own name,
    below a comment [// Name .] or [// Name] that name; in lower case. *)
Definition blank (s : string) : Prop := Forall (λ c, c ∈ [chr 9; chr 10; chr 11; chr 12; chr 13; chr 32]) (bytes_of s).
Definition trimmed (s : string) : Prop :=
  s ≠ "" ∧ (∀ c r, s = String c r → ¬ blank (String c "")) ∧ (∀ c r, s = r +:+ String c "" → ¬ blank (String c "")).
Definition named (prev f n : string) : Prop :=
  (blank prev ∧ n = to_lower f) ∨
  (∃ w1 w2 w3 w4 N dot, prev = w1 +:+ "//" +:+ w2 +:+ N +:+ w3 +:+ dot +:+ w4 ∧ n = to_lower N
     ∧ blank w1 ∧ blank w2 ∧ blank w3 ∧ blank w4 ∧ trimmed N
     ∧ (dot = "." ∨ (dot = "" ∧ ∀ r, N ≠ r +:+ "."))).

(** The lines of a text. Lines end with a line feed, or a carriage return and a line feed; the last need not. *)
Definition line (l : string) : Prop := chr 10 ∉ bytes_of l ∧ (∀ r, l ≠ r +:+ String (chr 13) "") ∧ slen l < 65535.
Inductive lines_of : string → list string → Prop :=
| lines_nil : lines_of "" []
| lines_last l : line l → l ≠ "" → lines_of l [l]
| lines_lf l s ls : line l → lines_of s ls → lines_of (l +:+ String (chr 10) s) (l :: ls)
| lines_crlf l s ls : line l → lines_of s ls → lines_of (l +:+ String (chr 13) (String (chr 10) s)) (l :: ls).
Definition above (ls : list string) (i : nat) : string := match i with O => "" | S j => default "" (ls !! j) end.
