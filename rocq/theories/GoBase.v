(** Common Go notions used by every model file: outcomes (normal return / panic),
    64-bit integers, byte strings, and the integer parts of package strconv.
    A Go [string] / [[]byte] is Coq's [string] (a sequence of bytes). *)
From Coq Require Export ZArith Lia Ascii String.
From stdpp Require Export base list gmap strings.
Export ListNotations.
#[global] Open Scope string_scope.
#[global] Open Scope list_scope.
#[global] Open Scope Z_scope.

(** ** Outcomes *)

(** A Go function either returns, panics (nil dereference, index out of range,
    failed type assertion, ...) or, only in the model, runs out of loop fuel.
    Every theorem about a looping function excludes [OutOfFuel]. *)
Inductive outcome (A : Type) : Type :=
| Ret (a : A)
| Panic
| OutOfFuel.
Arguments Ret {A} _.
Arguments Panic {A}.
Arguments OutOfFuel {A}.

Definition obind {A B} (o : outcome A) (f : A → outcome B) : outcome B :=
  match o with Ret a => f a | Panic => Panic | OutOfFuel => OutOfFuel end.

Notation "'let*' x ':=' e 'in' k" := (obind e (fun x => k))
  (at level 200, x pattern, e at level 100, k at level 200, right associativity).

(** Dereference of something that may be nil / out of range. *)
Definition deref {A} (o : option A) : outcome A :=
  match o with Some a => Ret a | None => Panic end.

(** ** 64-bit integers (int, int64; a 64-bit platform is assumed) *)

Definition two63 : Z := 9223372036854775808.
Definition two64 : Z := 18446744073709551616.

(** Two's-complement wrap-around of Go's int64/int arithmetic. *)
Definition wrap64 (z : Z) : Z := (z + two63) mod two64 - two63.

Definition in_int64 (z : Z) : bool := (- two63 <=? z) && (z <? two63).

(** ** Bytes *)

Definition byte_val (c : ascii) : Z := Z.of_N (N_of_ascii c).
Definition chr (n : nat) : ascii := ascii_of_nat n.
Definition CR : ascii := Eval compute in chr 13.
Definition LF : ascii := Eval compute in chr 10.
Definition NUL : ascii := Eval compute in chr 0.
Definition CRLF : string := String CR (String LF EmptyString).   (* protocol/consts.go:12 *)

Definition slen (s : string) : Z := Z.of_nat (String.length s).

(** strings.ToLower, as used on command names, flags and score bounds
    (redis/command.go:28, redis/list.go:207, redis/sorted_set.go:26,137,188,239,
    datastruct/sorted_set.go:826).  ASCII letters are lowered; U+0130 (C4 B0) lowers to
    'i' and U+212A (E2 84 AA) to 'k', the only non-ASCII runes whose lower case is ASCII
    (Go unicode.ToLower).  Simplification: other non-ASCII bytes are kept as they are; Go may
    map them to other non-ASCII bytes, which cannot matter because the results are only
    compared with ASCII names or passed to ParseFloat. *)
Definition lower_ascii (c : ascii) : ascii :=
  let n := N_of_ascii c in
  if ((65 <=? n) && (n <=? 90))%N then ascii_of_N (n + 32) else c.

Definition is_byte (c : ascii) (n : N) : bool := (N_of_ascii c =? n)%N.

Fixpoint to_lower (s : string) : string :=
  match s with
  | EmptyString => EmptyString
  | String c r =>
      match r with
      | String c1 r1 =>
          if is_byte c 196 && is_byte c1 176 then String "i" (to_lower r1)
          else match r1 with
               | String c2 r2 =>
                   if is_byte c 226 && is_byte c1 132 && is_byte c2 170
                   then String "k" (to_lower r2)
                   else String (lower_ascii c) (to_lower r)
               | EmptyString => String (lower_ascii c) (to_lower r)
               end
      | EmptyString => String (lower_ascii c) (to_lower r)
      end
  end.

(** strings.TrimPrefix(s, "(") together with the test [tmp != s]
    (datastruct/sorted_set.go:834-837). *)
Definition trim_paren (s : string) : string * bool :=
  match s with
  | String c r => if Ascii.eqb c "(" then (r, true) else (s, false)
  | EmptyString => (s, false)
  end.

(** Go's [<] on strings: bytewise lexicographic. *)
Fixpoint str_ltb (a b : string) : bool :=
  match a, b with
  | EmptyString, EmptyString => false
  | EmptyString, String _ _ => true
  | String _ _, EmptyString => false
  | String c a', String d b' =>
      if (N_of_ascii c <? N_of_ascii d)%N then true
      else if (N_of_ascii d <? N_of_ascii c)%N then false
      else str_ltb a' b'
  end.

Definition str_leb (a b : string) : bool := negb (str_ltb b a).

(** ** strconv, integers *)

(** strconv.FormatInt(_, 10) / strconv.Itoa. *)
Definition digit_char (n : N) : ascii := ascii_of_N (48 + n).

Fixpoint dec_digits (fuel : nat) (n : N) (acc : string) : string :=
  match fuel with
  | O => acc
  | S f =>
      let acc' := String (digit_char (n mod 10)) acc in
      if (n <? 10)%N then acc' else dec_digits f (n / 10) acc'
  end.

Definition itoa_N (n : N) : string := dec_digits (S (N.size_nat n)) n EmptyString.

Definition itoa (z : Z) : string :=
  if z <? 0 then String "-" (itoa_N (Z.to_N (- z))) else itoa_N (Z.to_N z).

(** strconv.ParseUint with base 10: only decimal digits, at least one. The value is
    accumulated without bound; the range check is made by the callers below, which is
    equivalent because every error is treated alike by godis. *)
Definition digit_val (c : ascii) : option Z :=
  let n := N_of_ascii c in
  if ((48 <=? n) && (n <=? 57))%N then Some (Z.of_N n - 48) else None.

Fixpoint parse_digits (s : string) (acc : Z) : option Z :=
  match s with
  | EmptyString => Some acc
  | String c r =>
      match digit_val c with
      | Some d => parse_digits r (acc * 10 + d)
      | None => None
      end
  end.

Definition parse_uint (s : string) : option Z :=
  match s with EmptyString => None | _ => parse_digits s 0 end.

(** strconv.ParseInt(s, 10, 64) and strconv.Atoi (same language and range on a 64-bit
    platform): optional sign, digits, within int64.  [None] stands for any error. *)
Definition parse_int (s : string) : option Z :=
  match s with
  | EmptyString => None
  | String c r =>
      let signed :=
        if Ascii.eqb c "-" then option_map Z.opp (parse_uint r)
        else if Ascii.eqb c "+" then parse_uint r
        else parse_uint s in
      match signed with
      | Some z => if in_int64 z then Some z else None
      | None => None
      end
  end.

(** ** Error values (datastruct/consts.go:15-20, redis/consts.go:5-9, context.DeadlineExceeded) *)
Inductive err :=
| ErrNil | ErrTypeMismatch | ErrNotInteger | ErrNotFloat
| ErrUnknownCommand | ErrArgsNotEnough | ErrValueOutOfRange.

Definition err_msg (e : err) : string :=
  match e with
  | ErrNil => "redis: not found"
  | ErrTypeMismatch => "key type and command not match"
  | ErrNotInteger => "value is not an integer or out of range"
  | ErrNotFloat => "ERR value is not a valid float"
  | ErrUnknownCommand => "unknown command key"
  | ErrArgsNotEnough => "command args not enough"
  | ErrValueOutOfRange => " ERR value is out of range, must be positive"
  end.

#[global] Instance err_eq_dec : EqDecision err.
Proof. solve_decision. Defined.

(** ** Oracles for nondeterminism *)

(** Go map iteration order: [shuffle seed l] repeatedly picks the (n mod length)-th remaining
    element.  It is always a permutation of [l], and every permutation arises for some seed
    (proved in GoBaseProofs.v). *)
Fixpoint take_nth {A} (n : nat) (l : list A) {struct l} : option (A * list A) :=
  match l, n with
  | [], _ => None
  | x :: r, O => Some (x, r)
  | x :: r, S n' =>
      match take_nth n' r with
      | Some (y, r') => Some (y, x :: r')
      | None => None
      end
  end.

Fixpoint shuffle_fuel {A} (fuel : nat) (seed : list nat) (l : list A) : list A :=
  match fuel with
  | O => l
  | S f =>
      match seed with
      | [] => l
      | n :: seed' =>
          match take_nth (n mod (length l))%nat l with
          | Some (x, r) => x :: shuffle_fuel f seed' r
          | None => l
          end
      end
  end.
Definition shuffle {A} (seed : list nat) (l : list A) : list A :=
  shuffle_fuel (length l) seed l.

(** [ord i] is the seed for the iteration order of shard [i]. *)
Definition order := nat → list nat.
(** The random choices available to one command: the j-th choice point uses [orc j]. *)
Definition oracle := nat → order.
