(** Specification for C87: sets as the columns of a task board.  Tasks are added to a column with SADD and moved between
    columns with SMOVE.  Everything is read off the requests and their replies. *)
From Verif Require Import GoBase SpecResp Db Redis Obs SpecCmd SpecKey Server SpecServing SpecCommute SpecUse.

Section tasks.
(** the keys of the columns *)
Context (K : list string).
Definition column (k : string) : bool := bool_decide (k ∈ K).
(** the tasks a request adds, and to which column *)
Definition adds (req : list string) : option (string * list string) :=
  match req with n :: k :: vs => if String.eqb (to_lower n) "sadd" && column k then Some (k, vs) else None | _ => None end.
(** source, target and task of a request that moves a task to another column *)
Definition moves (req : list string) : option (string * string * string) :=
  match req with
  | n :: s :: t :: v :: _ => if String.eqb (to_lower n) "smove" && column s && column t && negb (String.eqb s t) then Some (s, t, v) else None
  | _ => None
  end.
(** the request adds tasks, moves a task, or cannot change a column *)
Definition task_request (req : list string) : bool :=
  match adds req with Some (_, vs) => negb (bool_decide (vs = [])) | None => false end ||
  match moves req with Some _ => true | None => false end ||
  forallb (λ k, negb (column k)) (touched req).
Definition new_tasks (req : list string) : list string := match adds req with Some (_, vs) => vs | None => [] end.
(** all tasks added, in order; by a conversation and by the executed requests of a server *)
Definition tasks (l : list exchange) : list string := concat ((λ x : exchange, new_tasks x.1.2) <$> l).
Definition task_names (h : list call) : list string := concat ((λ x, new_tasks (what x)) <$> h).
(** a request was answered 1 *)
Definition moved (r : option resp) : bool := match r with Some (RInt 1) => true | _ => false end.
(** the column in which task [v] arrives by this request: it is added there, or moved there with success *)
Definition arrives (v : string) (x : exchange) : option string :=
  match adds x.1.2 with
  | Some (k, vs) => if bool_decide (v ∈ vs) then Some k else None
  | None => match moves x.1.2 with
            | Some (_, t, w) => if bool_decide (w = v) && moved x.2 then Some t else None
            | None => None
            end
  end.
(** where task [v] is after the conversation: in the column where it arrived last *)
Definition place (v : string) (l : list exchange) : option string := last (omap (arrives v) l).
(** the answer to a request to move [v] from [s] *)
Definition move_answer (s v : string) (l : list exchange) : resp :=
  if bool_decide (place v l = Some s) then RInt 1 else RError (err_msg ErrNil).
End tasks.
