(** What the documentation of a Redis-like server says about its commands, independent of the model:
    names, minimal numbers of arguments, which arguments must be integers, which type of value a
    command works on, and which keys it may write. *)
From Verif Require Import GoBase.

Inductive family := FString | FList | FSet | FZSet | FHash.

(** [cs_type]: the type the key in the first argument must have, if the command is tied to one;
    [cs_args]: the minimal number of arguments after the name; [cs_ints]: argument positions that must be
    64-bit decimal integers when present. *)
Record csig := Sig { cs_name : string; cs_type : option family; cs_args : nat; cs_ints : list nat }.

Definition signatures : list csig :=
  [ Sig "set" None 2 []; Sig "get" (Some FString) 1 []; Sig "mget" None 1 [];
    Sig "incr" (Some FString) 1 []; Sig "incrby" (Some FString) 2 [1%nat];
    Sig "decr" (Some FString) 1 []; Sig "decrby" (Some FString) 2 [1%nat];
    Sig "append" (Some FString) 2 [];
    Sig "keys" None 1 []; Sig "exists" None 1 []; Sig "del" None 1 []; Sig "type" None 1 [];
    Sig "lpush" (Some FList) 2 []; Sig "rpush" (Some FList) 2 [];
    Sig "lpop" (Some FList) 1 [1%nat]; Sig "rpop" (Some FList) 1 [1%nat];
    Sig "llen" (Some FList) 1 []; Sig "lrange" (Some FList) 3 [1%nat; 2%nat];
    Sig "lrem" (Some FList) 3 [1%nat]; Sig "lindex" (Some FList) 2 [1%nat];
    Sig "lset" (Some FList) 3 [1%nat]; Sig "linsert" (Some FList) 4 [];
    Sig "sadd" (Some FSet) 2 []; Sig "scard" (Some FSet) 1 []; Sig "srem" (Some FSet) 2 [];
    Sig "sismember" (Some FSet) 2 []; Sig "smembers" (Some FSet) 1 []; Sig "smove" (Some FSet) 3 [];
    Sig "spop" (Some FSet) 1 [1%nat];
    Sig "sdiff" (Some FSet) 1 []; Sig "sinter" (Some FSet) 1 []; Sig "sunion" (Some FSet) 1 [];
    Sig "sdiffstore" None 2 []; Sig "sinterstore" None 2 []; Sig "sunionstore" None 2 [];
    Sig "zadd" (Some FZSet) 3 []; Sig "zscore" (Some FZSet) 2 []; Sig "zrank" (Some FZSet) 2 [];
    Sig "zrem" (Some FZSet) 2 []; Sig "zcard" (Some FZSet) 1 []; Sig "zcount" (Some FZSet) 3 [];
    Sig "zincr" (Some FZSet) 3 []; Sig "zrange" (Some FZSet) 3 []; Sig "zrangebyscore" (Some FZSet) 3 [];
    Sig "zrevrange" (Some FZSet) 3 []; Sig "zpopmin" (Some FZSet) 1 [1%nat];
    Sig "zpopmax" (Some FZSet) 1 [1%nat];
    Sig "hdel" (Some FHash) 2 []; Sig "hexists" (Some FHash) 2 []; Sig "hget" (Some FHash) 2 [];
    Sig "hgetall" (Some FHash) 1 []; Sig "hincrby" (Some FHash) 3 [2%nat];
    Sig "hincrbyfloat" (Some FHash) 3 []; Sig "hkeys" (Some FHash) 1 []; Sig "hlen" (Some FHash) 1 [];
    Sig "hmget" (Some FHash) 2 []; Sig "hmset" (Some FHash) 3 []; Sig "hset" (Some FHash) 3 [];
    Sig "hsetnx" (Some FHash) 3 []; Sig "hvals" (Some FHash) 1 [] ].

(** commands that never write *)
Definition read_only : list string :=
  [ "get"; "mget"; "keys"; "exists"; "type"; "ping"; "command"; "llen"; "lrange"; "lindex"; "scard";
    "sismember"; "smembers"; "sdiff"; "sinter"; "sunion"; "zscore"; "zrank"; "zcard"; "zcount";
    "zrange"; "zrangebyscore"; "zrevrange"; "hexists"; "hget"; "hgetall"; "hkeys"; "hlen"; "hmget";
    "hvals" ].

(** the elements at positions 0, 2, 4, ... *)
Fixpoint evens {A} (l : list A) : list A :=
  match l with
  | [] => []
  | [x] => [x]
  | x :: _ :: r => x :: evens r
  end.

(** The keys a request may write: none for read-only commands, every other argument for MSET, source and
    destination for SMOVE, otherwise the first argument. *)
Definition writes (req : list string) : list string :=
  match req with
  | [] => []
  | name :: a =>
      let n := to_lower name in
      if bool_decide (n ∈ read_only) then []
      else if String.eqb n "mset" then evens a
      else if String.eqb n "smove" then take 2 a
      else take 1 a
  end.

(** a STORE command with a single source key *)
Definition one_source_store (req : list string) : bool :=
  match req with
  | [name; _; _] =>
      let n := to_lower name in
      String.eqb n "sdiffstore" || String.eqb n "sinterstore" || String.eqb n "sunionstore"
  | _ => false
  end.

(** The keys a request may change: with a single source a STORE command also involves its source (see C27). *)
Definition touched (req : list string) : list string :=
  writes req ++ (if one_source_store req then drop 2 req else []).

(** Two keys that may hold one and the same set: connected by STORE commands with a single source (see C13, C27). *)
Definition stored_from (h : list (list string)) (dst src : string) : Prop :=
  ∃ name, [name; dst; src] ∈ h ∧ one_source_store [name; dst; src] = true.
Definition linked (h : list (list string)) : string → string → Prop :=
  rtc (λ k1 k2, stored_from h k1 k2 ∨ stored_from h k2 k1).
(** The request gives the key another value, rather than changing the value it has. *)
Definition replaces (k : string) (req : list string) : Prop :=
  match req with
  | name :: _ => to_lower name ∈ ["set"; "mset"; "del"; "sdiffstore"; "sinterstore"; "sunionstore"]%string ∧ k ∈ writes req
  | [] => False
  end.
