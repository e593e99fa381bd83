(** Observable behaviour: the RESP value behind a response, requests as question and answer. *)
From Verif Require Import GoBase Float64 Db Protocol Redis SpecResp.

(** The value a response stands for; None if encoding it panics (protocol/encode.go:148-172: a value of the
    wrong dynamic type), in which case the client gets no reply. *)
Definition view_item (i : ritem) : option resp :=
  match ri_type i, ri_val i with
  | TSimple, IStr s => Some (RStatus s)
  | TError, IErr e => Some (RError (err_msg e))
  | TInteger, IInt z => Some (RInt z)
  | TBulk, INil => Some RNil
  | TBulk, IStr s => Some (RBulk s)
  | _, _ => None
  end.
Definition view (r : response) : option resp :=
  match rsp_items r with
  | [] => Some (if rsp_array r then RArr [] else RNil)
  | i :: _ => if rsp_array r then RArr <$> mapM view_item (rsp_items r) else view_item i
  end.

(** One request and the reply the client can read (None: no reply). *)
Definition ask (ext : Ext) (c : choices) (req : list string) (d : db) : outcome (db * option resp) :=
  let* (d', r) := exec ext c req d in Ret (d', r ≫= view).

(** A sequence of requests, executed one after the other. *)
Fixpoint talk (ext : Ext) (h : list (choices * list string)) (d : db)
    : outcome (db * list (option resp)) :=
  match h with
  | [] => Ret (d, [])
  | (c, req) :: h' =>
      let* (d1, r) := ask ext c req d in
      let* (d2, rs) := talk ext h' d1 in
      Ret (d2, r :: rs)
  end.

(** The states a server can be in, starting empty. *)
Definition reachable (ext : Ext) (d : db) : Prop := ∃ h rs, talk ext h db_new = Ret (d, rs).

(** Whatever the choices, the request is answered [r] and changes nothing. *)
Definition answers (ext : Ext) (d : db) (req : list string) (r : resp) : Prop :=
  ∀ c, ask ext c req d = Ret (d, Some r).
(** Whatever the choices, the request is answered [r], and the new state satisfies [P]. *)
Definition does (ext : Ext) (d : db) (req : list string) (r : resp) (P : db → Prop) : Prop :=
  ∀ c, ∃ d', ask ext c req d = Ret (d', Some r) ∧ P d'.
