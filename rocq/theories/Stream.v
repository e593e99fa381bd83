(** Model of protocol.DecodeFromReader over a network connection (protocol/decode.go), as used by the v1 server
    (server/v1/server.go:93-94): the Reader is a bufio.Reader around the connection.

    bufio.Reader is not part of the repository.  Modelled of it: the unread bytes in its buffer; ReadBytes('\n') reads
    from the connection until the buffer has a newline; Read(val) returns what is in the buffer, at most len(val)
    bytes, and reads from the connection (once) only if the buffer is empty.  How the bytes of the connection are split
    over its successive reads is arbitrary (the list [rd_in]). *)
From Verif Require Import GoBase Db Protocol.

(** how a connection ends: io.EOF, another network error, net.ErrClosed; errors of DecodeFromReader *)
Inductive ending := PeerClosed | NetError | WeClosed.
Inductive rerr := Ended (x : ending) | BadInput.

Record reader := Rd {
  rd_buf : string;          (* read from the connection, not yet consumed *)
  rd_in : list string;      (* results of the next reads of the connection that will not block *)
  rd_end : option ending     (* the error after them, if the connection has ended *)
}.

(** what a call does: a value, an error, or wait for more bytes *)
Inductive rres (A : Type) := Got (a : A) (rd : reader) | Fail (e : rerr) (rd : reader) | Wait.
Arguments Got {A} _ _.
Arguments Fail {A} _ _.
Arguments Wait {A}.

(** [if err != nil { return err }] after a read *)
Definition rbind {A B} (x : outcome (rres A)) (f : A → reader → outcome (rres B)) : outcome (rres B) :=
  match x with
  | Ret (Got a rd) => f a rd
  | Ret (Fail e rd) => Ret (Fail e rd)
  | Ret Wait => Ret Wait
  | Panic => Panic
  | OutOfFuel => OutOfFuel
  end.

(** ReadBytes('\n') *)
Fixpoint line_from (buf : string) (ins : list string) (e : option ending) : rres string :=
  match read_line buf with
  | Some (l, t) => Got l (Rd t ins e)
  | None =>
      match ins with
      | c :: r => line_from (buf ++ c) r e
      | [] => match e with Some x => Fail (Ended x) (Rd "" [] e) | None => Wait end
      end
  end.
Definition stream_line (rd : reader) : rres string := line_from (rd_buf rd) (rd_in rd) (rd_end rd).

(** Read(val), val a zeroed slice of [n] > 0 bytes: a short read leaves zeros *)
Definition stream_full (n : nat) (rd : reader) : rres string :=
  match rd_buf rd with
  | String _ _ => let (v, t) := take_pad n (rd_buf rd) in Got v (Rd t (rd_in rd) (rd_end rd))
  | EmptyString =>
      match rd_in rd with
      | c :: r => let (v, t) := take_pad n c in Got v (Rd t r (rd_end rd))
      | [] => match rd_end rd with Some x => Fail (Ended x) rd | None => Wait end
      end
  end.

(** the number of bytes that have arrived and are not consumed *)
Definition unread (rd : reader) : nat := (String.length (rd_buf rd) + sum_list (String.length <$> rd_in rd))%nat.

Section stream.
Context (max_alloc : Z).

(** decode.go:162-177 readBulkStrings *)
Definition stream_bulk (ln : Z) (r : receive) (rd : reader) : outcome (rres receive) :=
  if ln <? 0 then Ret (Fail BadInput rd)
  else
    let n := wrap64 (ln + 2) in
    if (n <? 0) || (max_alloc <? n) then Panic
    else rbind (Ret (stream_full (Z.to_nat n) rd)) (λ val rd1, Ret (Got (rec_append (sprefix (Z.to_nat ln) val) val r) rd1)).

(** decode.go:179-208 readArray *)
Fixpoint stream_array (fuel : nat) (ln : Z) (r : receive) (rd : reader) : outcome (rres receive) :=
  match fuel with
  | O => OutOfFuel
  | S f =>
      if ln <=? 0 then Ret (Got r rd)
      else
        rbind (Ret (stream_line rd)) (λ line rd1,
        rbind (match line with
               | String c _ => if Ascii.eqb c "*" then let* n := read_length line in stream_array f n r rd1 else Ret (Got r rd1)
               | EmptyString => Panic
               end) (λ r1 rd2,
        let* dl := decode_single_line line r1 in
        match dl with
        | DErr _ => Ret (Fail BadInput rd2)
        | DOk (n, desc, r2) =>
            if Ascii.eqb desc "$" then rbind (stream_bulk n r2 rd2) (λ r3 rd3, stream_array f (ln - 1) r3 rd3)
            else stream_array f (ln - 1) r2 rd2
        end))
  end.

(** decode.go:87-119 DecodeFromReader *)
Definition stream_decode (rd : reader) : outcome (rres receive) :=
  rbind (Ret (stream_line rd)) (λ line rd1,
  let* dl := decode_single_line line (Rec [] "") in
  match dl with
  | DErr _ => Ret (Fail BadInput rd1)
  | DOk (n, desc, r) =>
      if Ascii.eqb desc "$" then stream_bulk n r rd1
      else if Ascii.eqb desc "*" then stream_array (S (unread rd1)) n r rd1
      else Ret (Got r rd1)
  end).

End stream.
