(** What a client sees: RESP reply values and a client's reader for them, written from the RESP
    specification.  Nothing here refers to the model. *)
From Verif Require Import GoBase.

Inductive resp :=
| RStatus (s : string)      (* +s *)
| RError (s : string)       (* -s *)
| RInt (z : Z)              (* :z *)
| RNil                      (* $-1 *)
| RBulk (s : string)        (* $len s *)
| RArr (l : list resp).     (* *len items *)

Definition bulks (l : list string) : resp := RArr (RBulk <$> l).

(** the bytes up to the first CR LF, and what follows it *)
Fixpoint cut_line (s : string) : option (string * string) :=
  match s with
  | String a r =>
      match r with
      | String b t =>
          if Ascii.eqb a CR && Ascii.eqb b LF then Some (EmptyString, t)
          else match cut_line r with Some (l, t') => Some (String a l, t') | None => None end
      | EmptyString => None
      end
  | EmptyString => None
  end.

(** exactly [n] bytes *)
Fixpoint cut_bytes (n : nat) (s : string) : option (string * string) :=
  match n, s with
  | O, _ => Some (EmptyString, s)
  | S m, String c r => match cut_bytes m r with Some (a, t) => Some (String c a, t) | None => None end
  | S _, EmptyString => None
  end.

(** a decimal integer with optional minus sign *)
Definition read_int (s : string) : option Z :=
  match s with
  | String c r => if Ascii.eqb c "-" then Z.opp <$> parse_uint r else parse_uint s
  | EmptyString => None
  end.

(** a client reading one reply: the value and the unread bytes; None if the bytes are not RESP.
    [depth] bounds the nesting of arrays. *)
Fixpoint read_many (one : string → option (resp * string)) (n : nat) (s : string)
    : option (list resp * string) :=
  match n with
  | O => Some ([], s)
  | S m =>
      match one s with
      | Some (x, t) => match read_many one m t with Some (l, u) => Some (x :: l, u) | None => None end
      | None => None
      end
  end.
Fixpoint read_reply (depth : nat) (s : string) : option (resp * string) :=
  match depth, s with
  | S d, String c r =>
      match cut_line r with
      | None => None
      | Some (line, t) =>
          if Ascii.eqb c "+" then Some (RStatus line, t)
          else if Ascii.eqb c "-" then Some (RError line, t)
          else if Ascii.eqb c ":" then
            match read_int line with Some z => Some (RInt z, t) | None => None end
          else if Ascii.eqb c "$" then
            match read_int line with
            | Some z =>
                if z =? -1 then Some (RNil, t)
                else if z <? 0 then None
                else match cut_bytes (Z.to_nat z) t with
                     | Some (v, String a (String b u)) =>
                         if Ascii.eqb a CR && Ascii.eqb b LF then Some (RBulk v, u) else None
                     | _ => None
                     end
            | None => None
            end
          else if Ascii.eqb c "*" then
            match read_int line with
            | Some z =>
                if z <? 0 then None
                else match read_many (read_reply d) (Z.to_nat z) t with
                     | Some (l, u) => Some (RArr l, u)
                     | None => None
                     end
            | None => None
            end
          else None
      end
  | _, _ => None
  end.
