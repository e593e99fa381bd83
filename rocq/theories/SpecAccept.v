(** The language of the decoder: which bytes it takes for which request, how many of them it uses, and which bytes make
    it panic.  Nothing here refers to the model of the code. *)
From Verif Require Import GoBase SpecWire.

(** the number that the bytes of a length header spell: decimal digits as usual; any other byte counts for its distance
    from '0' among the bytes; all in 64 bits *)
Fixpoint spelled (s : string) (acc : Z) : Z :=
  match s with EmptyString => acc | String c r => spelled r (wrap64 (acc * 10 + (byte_val c - 48) mod 256)) end.
(** what follows the first [n] bytes *)
Fixpoint beyond (n : nat) (s : string) : string :=
  match n, s with S m, String _ r => beyond m r | _, _ => s end.
(** a line [c digits CR ... LF]; the CR is the first one, the LF too *)
Inductive length_line (c : ascii) : Z → string → Prop :=
| a_length digits junk : has_cr digits = false → no_lf digits = true → no_lf junk = true →
    length_line c (spelled digits 0) (String c (digits +:+ String CR (junk +:+ String LF EmptyString))).
(** the same without a CR *)
Inductive headless_line (c : ascii) : string → Prop :=
| a_headless mid : has_cr mid = false → no_lf mid = true → headless_line c (String c (mid +:+ String LF EmptyString)).

Section accept.
Context (max : Z).   (* the largest number of bytes that can be allocated at once *)

(** [accepts top bytes words org rest]: the bytes begin with a value that stands for these words; [rest] follows it.
    [org] is what goes to the command log; [top] is false inside an array. *)
Inductive accepts : bool → string → list string → string → string → Prop :=
| acc_text top c text x rest : (c = "+" ∨ c = "-" ∨ c = ":")%char → no_lf text = true → x ≠ LF →
    accepts top (String c (text +:+ String x (String LF rest))) [text] (String c (text +:+ String x (String LF EmptyString))) rest
| acc_ping top rest : accepts top ("PING" +:+ CRLF +:+ rest) ["PING"]%string ("PING" +:+ CRLF +:+ "PING" +:+ CRLF) rest
| acc_bulk top n line body : length_line "$" n line → 0 ≤ n → n + 2 ≤ max → body ≠ EmptyString →
    accepts top (line +:+ body) [nul_padded (Z.to_nat n) body] (line +:+ nul_padded (Z.to_nat (n + 2)) body) (beyond (Z.to_nat (n + 2)) body)
| acc_array (top : bool) n line body ws org rest : length_line "*" n line → accepts_all (Z.to_nat n) body ws org rest →
    accepts top (line +:+ body) ws (if top then line +:+ org else org +:+ line) rest
with accepts_all : nat → string → list string → string → string → Prop :=
| all_none b : accepts_all 0 b [] EmptyString b
| all_more n b ws1 org1 b1 ws2 org2 b2 : accepts false b ws1 org1 b1 → accepts_all n b1 ws2 org2 b2 →
    accepts_all (S n) b (ws1 ++ ws2) (org1 +:+ org2) b2.

(** [chokes top bytes]: a length header without CR, or one that announces more bytes than can be allocated, at a place
    where the decoder comes to read it *)
Inductive chokes : bool → string → Prop :=
| ch_bulk top line rest : headless_line "$" line → 3 ≤ slen line → chokes top (line +:+ rest)
| ch_array (top : bool) line rest : headless_line "*" line → (top = true → 3 ≤ slen line) → chokes top (line +:+ rest)
| ch_large top n line rest : length_line "$" n line → 0 ≤ n → max < n + 2 → chokes top (line +:+ rest)
| ch_inside top n line body : length_line "*" n line → chokes_in (Z.to_nat n) body → chokes top (line +:+ body)
with chokes_in : nat → string → Prop :=
| ch_here n b : chokes false b → chokes_in (S n) b
| ch_later n b ws org b1 : accepts false b ws org b1 → chokes_in n b1 → chokes_in (S n) b.
End accept.
