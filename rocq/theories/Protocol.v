(** Model of package protocol: encode.go (replies) and decode.go (requests). *)
From Verif Require Import GoBase Float64 Db.

(** ** encode.go *)

(** consts.go:18-26 ProtocolDataType *)
Inductive dtype := TSimple | TError | TInteger | TBulk.

(** encode.go:19-22 ResponseItem; the interface{} value is an [ival] (Db.v). *)
Record ritem := RI { ri_val : ival; ri_type : dtype }.

(** encode.go:14-17 Response *)
Record response := Rsp { rsp_items : list ritem; rsp_array : bool }.

(** encode.go:36-46, 48-58, 60-70, 72-75, 77-80, 82-92: the constructors *)
Definition rsp_simple (s : string) : response := Rsp [RI (IStr s) TSimple] false.
Definition rsp_bulk (s : string) : response := Rsp [RI (IStr s) TBulk] false.
Definition rsp_error (e : err) : response := Rsp [RI (IErr e) TError] false.
Definition rsp_nil : response := Rsp [] false.
Definition rsp_empty_array : response := Rsp [] true.
Definition rsp_int (z : Z) : response := Rsp [RI (IInt z) TInteger] false.
(** NewResponse(isArray).AppendBulkInterfaces(...), encode.go:24-34, 98-108 *)
Definition rsp_interfaces (arr : bool) (vs : list ival) : response := Rsp ((λ v, RI v TBulk) <$> vs) arr.
(** NewResponse(true).AppendBulkStrings(...), encode.go:110-120 *)
Definition rsp_strings (vs : list string) : response := Rsp ((λ v, RI (IStr v) TBulk) <$> vs) true.

(** the type assertions .(string), .(error), .(int64) *)
Definition as_string (v : ival) : outcome string := match v with IStr s => Ret s | _ => Panic end.
Definition as_error (v : ival) : outcome err := match v with IErr e => Ret e | _ => Panic end.
Definition as_int (v : ival) : outcome Z := match v with IInt z => Ret z | _ => Panic end.

(** encode.go:148-172 ResponseItem.encode.  util.StringConcat (util/strings.go:7-15) is
    concatenation; its first argument is only a capacity hint. *)
Definition encode_item (ri : ritem) : outcome string :=
  match ri_type ri with
  | TSimple => let* s := as_string (ri_val ri) in Ret ("+" ++ s ++ CRLF)%string
  | TError => let* e := as_error (ri_val ri) in Ret ("-" ++ err_msg e ++ CRLF)%string
  | TInteger => let* z := as_int (ri_val ri) in Ret (":" ++ itoa z ++ CRLF)%string
  | TBulk =>
      match ri_val ri with
      | INil => Ret ("$-1" ++ CRLF)%string
      | v =>
          let* s := as_string v in
          Ret ("$" ++ itoa (slen s) ++ CRLF ++ s ++ CRLF)%string
      end
  end.

Fixpoint encode_items (l : list ritem) : outcome string :=
  match l with
  | [] => Ret ""
  | i :: r => let* a := encode_item i in let* b := encode_items r in Ret (a ++ b)%string
  end.

(** encode.go:122-146 Encode *)
Definition encode (r : response) : outcome string :=
  match rsp_items r with
  | [] => Ret (if rsp_array r then "*0" ++ CRLF else "$-1" ++ CRLF)%string
  | i :: _ =>
      if rsp_array r then
        let* body := encode_items (rsp_items r) in
        Ret ("*" ++ itoa (Z.of_nat (length (rsp_items r))) ++ CRLF ++ body)%string
      else encode_item i
  end.

(** ** decode.go *)

(** decode.go:19-22 Receive *)
Record receive := Rec { elements : list string; org_str : string }.

(** decode.go:39-46, 48-50 append, addOrg *)
Definition rec_append (ele org : string) (r : receive) : receive :=
  Rec (elements r ++ [ele]) (org_str r ++ org)%string.
Definition rec_add_org (s : string) (r : receive) : receive :=
  Rec (elements r) (org_str r ++ s)%string.

(** errors returned by the decoder; only the fact that there is one matters to callers *)
Inductive derr := EOF | Unsupported | BadLength.
Inductive dres (A : Type) : Type := DOk (a : A) | DErr (e : derr).
Arguments DOk {A} _.
Arguments DErr {A} _.

(** The [Reader] of server/v2 is a bytes.Buffer: the state is the unread bytes.
    Buffer.ReadBytes('\n'): the bytes up to and including the delimiter, or io.EOF. *)
Fixpoint read_line (buf : string) : option (string * string) :=
  match buf with
  | EmptyString => None
  | String c r =>
      if Ascii.eqb c LF then Some (String c EmptyString, r)
      else match read_line r with
           | Some (l, rest) => Some (String c l, rest)
           | None => None
           end
  end.

(** Buffer.Read(val) into a zeroed slice of [n] > 0 bytes: EOF if nothing is left, otherwise the bytes
    available, the rest of the slice stays zero. *)
Fixpoint take_pad (n : nat) (buf : string) : string * string :=
  match n with
  | O => (EmptyString, buf)
  | S m =>
      match buf with
      | EmptyString => let (v, r) := take_pad m EmptyString in (String NUL v, r)
      | String c b => let (v, r) := take_pad m b in (String c v, r)
      end
  end.
Definition read_full (n : nat) (buf : string) : option (string * string) :=
  match buf with EmptyString => None | _ => Some (take_pad n buf) end.

(** [s[:n]] *)
Definition sprefix (n : nat) (s : string) : string := String.substring 0 n s.

(** decode.go:147-160 readBulkOrArrayLength (line[0] is '$' or '*' in every call):
    [for i := 1; line[i] != '\r'; i++ { ln = ln*10 + int(line[i]-'0') }], byte arithmetic modulo 256,
    int arithmetic modulo 2^64, index panic at the end of the line. *)
Fixpoint length_loop (s : string) (ln : Z) : outcome Z :=
  match s with
  | EmptyString => Panic
  | String c r =>
      if Ascii.eqb c CR then Ret ln
      else length_loop r (wrap64 (ln * 10 + (byte_val c - 48) mod 256))
  end.
Definition read_length (line : string) : outcome Z :=
  match line with
  | EmptyString => Panic
  | String c r => if Ascii.eqb c "-" then Ret (-1) else length_loop r 0
  end.

Section decode.
(** [max_alloc]: the largest []byte that can be allocated; make with a larger (or negative) length
    panics or exhausts memory.  Theorems quantify over it. *)
Context (max_alloc : Z).

(** decode.go:162-177 readBulkStrings *)
Definition read_bulk (ln : Z) (r : receive) (buf : string) : outcome (dres (receive * string)) :=
  if ln <? 0 then Ret (DErr BadLength)
  else
    let n := wrap64 (ln + 2) in
    if (n <? 0) || (max_alloc <? n) then Panic
    else match read_full (Z.to_nat n) buf with
         | None => Ret (DErr EOF)
         | Some (val, rest) => Ret (DOk (rec_append (sprefix (Z.to_nat ln) val) val r, rest))
         end.

(** decode.go:121-145 decodeSingleLine: (length, desc).  For '+', '-' and ':' lines the element is
    line[1:len-2]; a line that is not one of the five kinds is only accepted if it is PING. *)
Definition decode_single_line (line : string) (r : receive)
    : outcome (dres (Z * ascii * receive)) :=
  if slen line <? 3 then Ret (DErr Unsupported)
  else
    let r1 := rec_add_org line r in
    match line with
    | EmptyString => Ret (DErr Unsupported)
    | String c rest =>
        if Ascii.eqb c "$" || Ascii.eqb c "*" then
          let* n := read_length line in Ret (DOk (n, c, r1))
        else if Ascii.eqb c "+" || Ascii.eqb c "-" || Ascii.eqb c ":" then
          Ret (DOk (0, c, rec_append (sprefix (String.length rest - 2) rest) "" r1))
        else if String.eqb line ("PING" ++ CRLF)%string then
          Ret (DOk (0, "+"%char, rec_append "PING" ("PING" ++ CRLF)%string r1))
        else Ret (DErr Unsupported)
    end.

(** decode.go:179-208 readArray: each iteration reads a line, so the number of unread bytes bounds the
    depth of the recursion; [fuel] is that bound (proved sufficient). *)
Fixpoint read_array (fuel : nat) (ln : Z) (r : receive) (buf : string)
    : outcome (dres (receive * string)) :=
  match fuel with
  | O => OutOfFuel
  | S f =>
      if ln <=? 0 then Ret (DOk (r, buf))
      else
        match read_line buf with
        | None => Ret (DErr EOF)
        | Some (line, rest) =>
            let* sub :=
              match line with
              | String c _ =>
                  if Ascii.eqb c "*" then let* n := read_length line in read_array f n r rest
                  else Ret (DOk (r, rest))
              | EmptyString => Panic
              end in
            match sub with
            | DErr e => Ret (DErr e)
            | DOk (r1, rest1) =>
                let* dl := decode_single_line line r1 in
                match dl with
                | DErr e => Ret (DErr e)
                | DOk (n, desc, r2) =>
                    if Ascii.eqb desc "$" then
                      let* bs := read_bulk n r2 rest1 in
                      match bs with
                      | DErr e => Ret (DErr e)
                      | DOk (r3, rest2) => read_array f (ln - 1) r3 rest2
                      end
                    else read_array f (ln - 1) r2 rest1
                end
            end
        end
  end.

(** decode.go:87-119 DecodeFromReader *)
Definition decode (buf : string) : outcome (dres (receive * string)) :=
  match read_line buf with
  | None => Ret (DErr EOF)
  | Some (line, rest) =>
      let* dl := decode_single_line line (Rec [] "") in
      match dl with
      | DErr e => Ret (DErr e)
      | DOk (n, desc, r) =>
          if Ascii.eqb desc "$" then read_bulk n r rest
          else if Ascii.eqb desc "*" then read_array (S (String.length rest)) n r rest
          else Ret (DOk (r, rest))
      end
  end.

End decode.
