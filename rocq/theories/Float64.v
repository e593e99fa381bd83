(** float64 scores: Coq's executable IEEE-754 model [spec_float] (53-bit precision, emax 1024).
    Values that godis handles are canonical; the order below does not need that fact.
    Also the record [Ext] of external functions whose code is not in the repository. *)
From Coq Require Export SpecFloat.
From Verif Require Import GoBase.

Definition float := spec_float.

(** Go's float64 operators [<], [<=], [==] (false on NaN) and [+]. *)
Definition flt (a b : float) : bool := SFltb a b.
Definition fle (a b : float) : bool := SFleb a b.
Definition feq (a b : float) : bool := SFeqb a b.
Definition fadd (a b : float) : float := SFadd 53 1024 a b.

Definition is_nan (f : float) : bool := match f with S754_nan => true | _ => false end.
(** math.IsInf(f, 1), math.IsInf(f, -1), math.IsInf(f, 0) *)
Definition is_pinf (f : float) : bool := match f with S754_infinity false => true | _ => false end.
Definition is_ninf (f : float) : bool := match f with S754_infinity true => true | _ => false end.
Definition is_inf (f : float) : bool := match f with S754_infinity _ => true | _ => false end.
Definition pinf : float := S754_infinity false.
Definition ninf : float := S754_infinity true.
(** small integers as floats (for examples) *)
Definition f_of_Z (z : Z) : float := binary_normalize 53 1024 z 0 false.

(** External functions: strconv.ParseFloat(s, 64) (None = error),
    strconv.FormatFloat(f, 'g', -1, 64), and github.com/yusank/glob:
    MustCompile(pattern) panics (None) or gives a matcher. Every theorem quantifies over them;
    none assumes anything about them unless its statement says so. *)
Record Ext := mkExt {
  parse_float : string → option float;
  format_float : float → string;
  glob_compile : string → option (string → bool)
}.
