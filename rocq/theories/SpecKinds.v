(** What each command may reply: the forms of its answers and the texts of its errors.  Nothing here refers to the model
    of the code. *)
From Verif Require Import GoBase SpecResp.

Inductive form :=
| FInt                     (* a number *)
| FText                    (* a string *)
| FNil                     (* the null reply *)
| FWords                   (* an array of strings *)
| FNils                    (* one null for each argument but the first *)
| FEntries                 (* one string or null for each argument *)
| FStatus (l : list string).   (* one of these words *)
Definition has_form (args : list string) (r : resp) (f : form) : Prop :=
  match f with
  | FInt => ∃ z, r = RInt z
  | FText => ∃ s, r = RBulk s
  | FNil => r = RNil
  | FWords => ∃ l, r = bulks l
  | FNils => r = RArr (replicate (length args - 1) RNil)
  | FEntries => ∃ l, r = RArr ((λ o : option string, match o with Some s => RBulk s | None => RNil end) <$> l) ∧ length l = length args
  | FStatus l => ∃ s, s ∈ l ∧ r = RStatus s
  end.

Definition few : string := "command args not enough".
Definition mismatch : string := "key type and command not match".
Definition no_integer : string := "value is not an integer or out of range".
Definition no_float : string := "ERR value is not a valid float".
Definition no_range : string := " ERR value is out of range, must be positive".
Definition absent : string := "redis: not found".
Definition unknown : string := "unknown command key".

Record promise := Promise { p_names : list string; p_forms : list form; p_errors : list string }.
Definition promises : list promise := [
  Promise ["exists"; "del"] [FInt] [few];
  Promise ["keys"] [FWords] [few];
  Promise ["type"] [FStatus ["none"; "string"; "list"; "setIfNotExists"; "sortedSet"]] [few];
  Promise ["ping"] [FStatus ["PONG"]] [];
  Promise ["command"] [FStatus ["COMMAND"]] [];
  Promise ["set"; "mset"] [FStatus ["OK"]] [few];
  Promise ["get"] [FText; FNil] [few; mismatch];
  Promise ["mget"] [FEntries] [few];
  Promise ["incr"; "decr"; "incrby"; "decrby"] [FInt] [few; mismatch; no_integer];
  Promise ["append"; "lpush"; "rpush"; "llen"; "sadd"; "scard"; "sismember"; "srem"; "zrem"; "zcard"] [FInt] [few; mismatch];
  Promise ["lpop"; "rpop"] [FWords; FNil] [few; mismatch; no_range];
  Promise ["lrange"] [FWords] [few; mismatch; no_range];
  Promise ["lrem"] [FInt] [few; mismatch; no_range];
  Promise ["lindex"] [FText; FNil] [few; mismatch; no_range];
  Promise ["lset"] [FStatus ["OK"]] [few; mismatch; no_range; absent];
  Promise ["linsert"] [FInt] [few; mismatch; absent];
  Promise ["sdiff"; "sinter"; "sunion"] [FWords] [few; mismatch];
  Promise ["sdiffstore"; "sinterstore"; "sunionstore"; "smove"] [FInt] [few; mismatch; absent];
  Promise ["smembers"] [FWords] [few; mismatch; absent];
  Promise ["spop"] [FWords] [few; mismatch; no_integer];
  Promise ["zadd"] [FInt] [few; mismatch; no_range];
  Promise ["zincr"] [FText; FInt] [few; mismatch; no_range];
  Promise ["zscore"] [FText; FNil] [few; mismatch];
  Promise ["zrank"] [FInt; FNil] [few; mismatch];
  Promise ["zcount"] [FInt] [few; mismatch; no_float];
  Promise ["zrange"] [FWords; FNil] [few; mismatch; no_integer; no_float];
  Promise ["zrangebyscore"] [FWords; FNil] [few; mismatch; no_float];
  Promise ["zrevrange"] [FWords; FNil] [few; mismatch; no_integer];
  Promise ["zpopmin"; "zpopmax"] [FWords] [few; no_integer];
  Promise ["hdel"; "hexists"; "hlen"; "hset"; "hsetnx"] [FInt] [few; mismatch];
  Promise ["hincrby"] [FInt] [few; mismatch; no_integer];
  Promise ["hincrbyfloat"] [FText] [few; mismatch; no_integer];
  Promise ["hget"] [FNil] [few; mismatch];
  Promise ["hgetall"] [FNil] [few];
  Promise ["hmget"] [FNils] [few; mismatch];
  Promise ["hmset"] [FStatus ["OK"]] [few; mismatch];
  Promise ["hkeys"; "hvals"] [FWords] [few; mismatch] ]%string.
(** a reply that keeps a promise, to a request with these arguments *)
Definition keeps (p : promise) (args : list string) (r : resp) : Prop :=
  match r with
  | RError e => e ∈ p_errors p
  | _ => Exists (has_form args r) (p_forms p)
  end.
(** Every command has a promise; anything else is unknown. *)
Definition promised (req : list string) (r : resp) : Prop :=
  match req with
  | [] => False
  | name :: args =>
      (∃ p, p ∈ promises ∧ to_lower name ∈ p_names p ∧ keeps p args r) ∨
      ((∀ p, p ∈ promises → to_lower name ∉ p_names p) ∧ r = RError unknown)
  end.
