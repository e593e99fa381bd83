(** What a random choice of the server may show in a reply: the heights of the towers of a sorted set, the order in
    which a set or the keyspace is walked.  Nothing here refers to the model of the code. *)
From Verif Require Import GoBase SpecResp.

Definition named (names : list string) (req : list string) : Prop :=
  match req with name :: _ => to_lower name ∈ names | [] => False end.
Global Instance named_dec names req : Decision (named names req).
Proof. destruct req; unfold named; apply _. Defined.
(** ZADD and ZINCR draw the height of a tower, SPOP draws members *)
Definition draws_at_random : list string → Prop := named ["zadd"; "zincr"; "spop"]%string.
(** The commands that answer an unordered collection. *)
Definition answers_a_collection : list string → Prop := named ["keys"; "smembers"; "sdiff"; "sinter"; "sunion"]%string.
(** Two answers to the same request: equal, or the same array in another order if it stands for a collection. *)
Definition alike (req : list string) (r s : option resp) : Prop :=
  r = s ∨ answers_a_collection req ∧ ∃ l l', r = Some (bulks l) ∧ s = Some (bulks l') ∧ l ≡ₚ l'.

(** An argument that is an open end of an interval of scores *)
Definition open_end (s : string) : bool :=
  match s with String c _ => Ascii.eqb c "(" | EmptyString => false end.
Definition asks_open_interval (req : list string) : Prop :=
  named ["zcount"; "zrange"; "zrangebyscore"]%string req ∧ existsb open_end req = true.
(** A request whose answer leaves no choice to the server: neither SPOP nor an interval of scores with an open end *)
Definition settled (req : list string) : Prop := ¬ named ["spop"]%string req ∧ ¬ asks_open_interval req.
Global Instance settled_dec req : Decision (settled req).
Proof. unfold settled, asks_open_interval. apply _. Defined.
