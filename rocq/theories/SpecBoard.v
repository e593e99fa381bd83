(** Specification for C86: a sorted set as a scoreboard.  Everything is read off the requests and their replies. *)
From Verif Require Import GoBase Float64 Float64Proofs SpecResp SpecZSet Db Redis Obs SpecCmd SpecKey Server SpecServing SpecCommute SpecUse.

Section board.
Context (ext : Ext).
(** pairs of a number and a player; a number is not NaN *)
Fixpoint in_scores (a : list string) : option (list zkey) :=
  match a with
  | [] => Some []
  | x :: v :: r =>
      if bool_decide (to_lower x ∈ ["xx"; "nx"; "incr"]%string) then None
      else match parse_float ext x with
           | Some f => if is_nan f then None else cons (f, v) <$> in_scores r
           | None => None
           end
  | _ => None
  end.
Definition is_int (s : string) : bool := match parse_int s with Some _ => true | None => false end.
(** the request submits scores (ZADD without options), asks, or is not about the key *)
Definition board_request (k : string) (req : list string) : bool :=
  negb (about k req) ||
  asks_for "zadd" k req && negb (bool_decide (values req = [])) && (match in_scores (values req) with Some _ => true | None => false end) ||
  asks_for_any ["zrange"; "zrevrange"] k req && (match values req with [x; y] => is_int x && is_int y | _ => false end) ||
  asks_for_any ["zscore"; "zrank"] k req && negb (bool_decide (values req = [])) ||
  asks_for_any ["zcard"; "exists"; "type"] k req.
Definition submits (k : string) (req : list string) : list zkey :=
  if asks_for "zadd" k req then default [] (in_scores (values req)) else [].
(** all scores submitted, in order; by a conversation and by the executed requests of a server *)
Definition submitted (k : string) (l : list exchange) : list zkey := concat ((λ x : exchange, submits k x.1.2) <$> l).
Definition entered (k : string) (h : list call) : list zkey := concat ((λ x, submits k (what x)) <$> h).
End board.
(** the last score of a player *)
Definition last_score (v : string) (p : list zkey) : option float := fst <$> last (filter (λ e : zkey, e.2 = v) p).
(** [es] is the ranking after the submissions [p]: every player who submitted anything once, with the last score, lowest
    score first, equal scores by name.  (0 and -0 are equal numbers: the score shown may be the other one of the two.) *)
Record ranking (p : list zkey) (es : list zkey) : Prop := {
  rk_order : ∀ i j a b, (i < j)%nat → es !! i = Some a → es !! j = Some b →
    flt a.1 b.1 = true ∨ feq a.1 b.1 = true ∧ str_ltb a.2 b.2 = true;
  rk_once : NoDup es.*2;
  rk_score : ∀ v, match last_score v p with
                  | Some f => ∃ g, (g, v) ∈ es ∧ feq g f = true
                  | None => v ∉ es.*2 end }.
(** the answer of ZSCORE *)
Definition score_shown (ext : Ext) (v : string) (es : list zkey) (r : resp) : Prop :=
  match r with
  | RNil => v ∉ es.*2
  | RBulk s => ∃ f, (f, v) ∈ es ∧ s = format_float ext f
  | _ => False
  end.
(** the request asks for the players from position [a] on: [Some n] at most, or to the end *)
Definition rows_request (k : string) (req : list string) : option (nat * option nat) :=
  match req with
  | [n; k'; x; y] => if String.eqb (to_lower n) "zrange" then page_request k ["lrange"; k'; x; y] else None
  | _ => None
  end.
