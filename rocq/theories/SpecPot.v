(** Specification for C97: a set as a pot out of which clients draw. *)
From Verif Require Import GoBase SpecResp SpecWire SpecStream Db Redis Obs SpecCmd SpecKey Server SpecServing SpecCommute SpecUse.

(** the number of members that a SPOP asks for *)
Definition draw_count (req : list string) : option Z := match values req with n :: _ => parse_int n | [] => None end.
(** the request adds at least one string, draws some number of members, only asks, or is not about the key *)
Definition pot_request (k : string) (req : list string) : bool :=
  negb (about k req) || asks_for "sadd" k req && negb (bool_decide (values req = [])) ||
  asks_for "spop" k req && (if draw_count req then true else false) ||
  asks_for "sismember" k req && negb (bool_decide (values req = [])) || asks_for_any ["scard"; "smembers"; "exists"; "type"] k req.
