(** Which requests can break a key so that a later request about it crashes the server.  Nothing here refers to the model
    of the code. *)
From Verif Require Import GoBase Float64 SpecResp SpecLife.

(** the key whose list or sorted set the request is about; LINDEX takes its index for the key (see C49) *)
Definition works_on (req : list string) : list string :=
  match req with
  | [] => []
  | name :: a =>
      let n := to_lower name in
      if String.eqb n "lindex" then take 1 (drop 1 a)
      else if bool_decide (n ∈ ["lpush"; "lpop"; "rpush"; "rpop"; "llen"; "lrange"; "lrem"; "lset"; "linsert";
          "zadd"; "zscore"; "zrank"; "zrem"; "zcard"; "zcount"; "zincr"; "zrange"; "zrangebyscore"; "zrevrange"; "zpopmin"; "zpopmax"]%string)
      then take 1 a else []
  end.
(** KEYS with a pattern that the glob library rejects *)
Definition bad_pattern (ext : Ext) (req : list string) : bool :=
  match req with
  | name :: p :: _ => String.eqb (to_lower name) "keys" && match glob_compile ext p with Some _ => false | None => true end
  | _ => false
  end.
(** an argument that reads as a score which is not a number, or as an infinite increment *)
Definition odd_score (ext : Ext) (increment : bool) (x : string) : bool :=
  match parse_float ext x with Some f => is_nan f || (increment && is_inf f) | None => false end.
(** A request about [k], and its reply: a successful LREM; a ZREM, a ZPOPMAX; a ZADD or ZINCR with an odd score. *)
Definition risky (ext : Ext) (k : string) (req : list string) (r : option resp) : bool :=
  match req with
  | [] => false
  | name :: a =>
      let n := to_lower name in
      bool_decide (k ∈ take 1 a) &&
      ((String.eqb n "lrem" && match r with Some (RInt c) => 0 <? c | _ => false end) ||
       String.eqb n "zrem" || String.eqb n "zpopmax" ||
       (String.eqb n "zadd" && existsb (odd_score ext (existsb (λ y, String.eqb (to_lower y) "incr") a)) a) ||
       (String.eqb n "zincr" && existsb (odd_score ext true) a))
  end.
(** Since the key was last deleted or replaced as a whole, there was a risky request about it. *)
Definition wounds (ext : Ext) (k : string) (b : bool) (x : list string * option resp) : bool :=
  if negb (is_error x.2) && (unmakes x.1 k || overwrites x.1 k) then false else b || risky ext k x.1 x.2.
Definition wounded (ext : Ext) (k : string) (h : list (list string * option resp)) : bool := foldl (wounds ext k) false h.
