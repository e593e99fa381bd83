(** Model of package redis: the command functions (redis/*.go), the command table (redis/*.cmd.go) and
    ExecuteAsync (redis/command.go). *)
From Verif Require Import GoBase ShardMap Float64 DList SkipList Db Protocol.

(** command.go:18 ExecuteFunc; every command function returns a non-nil response or an error. *)
Definition cmd_result := outcome (db * res response).

Section commands.
Context (ext : Ext) (c : choices).
Implicit Types (a : list string) (d : db).

Definition fail (e : err) (d : db) : cmd_result := Ret (d, Err e).
Definition reply (r : response) (d : db) : cmd_result := Ret (d, Ok r).

(** [len(c.Values) < n] *)
Definition fewer (a : list string) (n : nat) : bool := (length a <? n)%nat.
(** [c.Values[i]]: an index panic if out of range *)
Definition arg (a : list string) (i : nat) : outcome string := deref (a !! i).

(** *** keys.go *)

(** keys.go:12-19 *)
Definition c_keys a d : cmd_result :=
  if fewer a 1 then fail ErrArgsNotEnough d else
  let* p := arg a 0 in let* vs := Keys ext c p d in reply (rsp_strings vs) d.
(** keys.go:21-33 *)
Definition c_exists a d : cmd_result :=
  if fewer a 1 then fail ErrArgsNotEnough d else
  let* k := arg a 0 in reply (rsp_int (if Exists_ k d then 1 else 0)) d.
(** keys.go:36-43 *)
Definition c_del a d : cmd_result :=
  if fewer a 1 then fail ErrArgsNotEnough d else
  let* k := arg a 0 in let (d', n) := Del k d in reply (rsp_int n) d'.
(** keys.go:46-59 *)
Definition c_type a d : cmd_result :=
  if fewer a 1 then fail ErrArgsNotEnough d else
  let* k := arg a 0 in
  reply (rsp_simple (match Type_ k d with None => "none" | Some t => t end)) d.
(** keys.go:61-63 *)
Definition c_ping a d : cmd_result := reply (rsp_simple "PONG") d.
(** keys.go:65-67 *)
Definition c_command a d : cmd_result := reply (rsp_simple "COMMAND") d.

(** *** string.go *)

(** string.go:12-19 *)
Definition c_set a d : cmd_result :=
  if fewer a 2 then fail ErrArgsNotEnough d else
  let* k := arg a 0 in let* v := arg a 1 in reply (rsp_simple "OK") (Set_ k v d).
(** string.go:22-29 (the test uses &&) *)
Definition c_mset a d : cmd_result :=
  if fewer a 2 && negb (Nat.even (length a)) then fail ErrArgsNotEnough d
  else reply (rsp_simple "OK") (MSet_ a d).
(** string.go:31-46 *)
Definition c_get a d : cmd_result :=
  if fewer a 1 then fail ErrArgsNotEnough d else
  let* k := arg a 0 in
  match Get k d with
  | Err ErrNil => reply rsp_nil d
  | Err e => fail e d
  | Ok v => reply (rsp_interfaces false [IStr v]) d
  end.
(** string.go:48-56 *)
Definition c_mget a d : cmd_result :=
  if fewer a 1 then fail ErrArgsNotEnough d else
  reply (rsp_interfaces true (MGet a d)) d.
(** [i64, err := datastruct.IncrBy(key, n); if err ...; NewResponseWithInteger] *)
Definition incr_reply (k : string) (n : Z) d : cmd_result :=
  match IncrBy k n d with
  | (d', Err e) => fail e d'
  | (d', Ok z) => reply (rsp_int z) d'
  end.
(** string.go:58-69 *)
Definition c_incr a d : cmd_result :=
  if fewer a 1 then fail ErrArgsNotEnough d else
  let* k := arg a 0 in incr_reply k 1 d.
(** string.go:71-87 *)
Definition c_incrby a d : cmd_result :=
  if fewer a 2 then fail ErrArgsNotEnough d else
  let* k := arg a 0 in let* v := arg a 1 in
  match parse_int v with None => fail ErrNotInteger d | Some n => incr_reply k n d end.
(** string.go:89-100 *)
Definition c_decr a d : cmd_result :=
  if fewer a 1 then fail ErrArgsNotEnough d else
  let* k := arg a 0 in incr_reply k (-1) d.
(** string.go:102-118: the negation wraps on the least int64 *)
Definition c_decrby a d : cmd_result :=
  if fewer a 2 then fail ErrArgsNotEnough d else
  let* k := arg a 0 in let* v := arg a 1 in
  match parse_int v with None => fail ErrNotInteger d | Some n => incr_reply k (wrap64 (- n)) d end.
(** string.go:121-132 *)
Definition c_append a d : cmd_result :=
  if fewer a 2 then fail ErrArgsNotEnough d else
  let* k := arg a 0 in let* v := arg a 1 in
  match Append k v d with
  | (d', Err e) => fail e d'
  | (d', Ok z) => reply (rsp_int z) d'
  end.

(** *** list.go *)

(** list.go:14-25 *)
Definition c_lpush a d : cmd_result :=
  if fewer a 2 then fail ErrArgsNotEnough d else
  let* k := arg a 0 in
  match LPush k (drop 1 a) d with
  | (d', Err e) => fail e d'
  | (d', Ok z) => reply (rsp_int z) d'
  end.
(** list.go:55-66 *)
Definition c_rpush a d : cmd_result :=
  if fewer a 2 then fail ErrArgsNotEnough d else
  let* k := arg a 0 in
  match RPush k (drop 1 a) d with
  | (d', Err e) => fail e d'
  | (d', Ok z) => reply (rsp_int z) d'
  end.
(** the count argument of LPOP and RPOP, list.go:33-41, 75-83 *)
Definition pop_count a : outcome (res Z) :=
  if (1 <? length a)%nat then
    let* v := arg a 1 in
    Ret (match parse_int v with
         | None => Err ErrValueOutOfRange
         | Some n => if n <=? 0 then Err ErrValueOutOfRange else Ok n
         end)
  else Ret (Ok 1).
Definition pop_reply (r : db * res (list string)) : cmd_result :=
  match r with
  | (d', Err ErrNil) => reply rsp_nil d'
  | (d', Err e) => fail e d'
  | (d', Ok vs) => reply (rsp_strings vs) d'
  end.
(** list.go:28-53 *)
Definition c_lpop a d : cmd_result :=
  if fewer a 1 then fail ErrArgsNotEnough d else
  let* n := pop_count a in
  match n with
  | Err e => fail e d
  | Ok n => let* k := arg a 0 in let* r := LPop k n d in pop_reply r
  end.
(** list.go:70-95 *)
Definition c_rpop a d : cmd_result :=
  if fewer a 1 then fail ErrArgsNotEnough d else
  let* n := pop_count a in
  match n with
  | Err e => fail e d
  | Ok n => let* k := arg a 0 in let* r := RPop k n d in pop_reply r
  end.
(** list.go:98-109 *)
Definition c_llen a d : cmd_result :=
  if fewer a 1 then fail ErrArgsNotEnough d else
  let* k := arg a 0 in
  match LLen k d with
  | Err ErrNil => reply (rsp_int 0) d
  | Err e => fail e d
  | Ok z => reply (rsp_int z) d
  end.
(** list.go:112-137 *)
Definition c_lrange a d : cmd_result :=
  if fewer a 3 then fail ErrArgsNotEnough d else
  let* k := arg a 0 in let* s1 := arg a 1 in let* s2 := arg a 2 in
  match parse_int s1, parse_int s2 with
  | Some start, Some stop =>
      let* r := LRange k start stop d in
      match r with
      | Err ErrNil => reply rsp_empty_array d
      | Err e => fail e d
      | Ok [] => reply rsp_empty_array d
      | Ok vs => reply (rsp_strings vs) d
      end
  | _, _ => fail ErrValueOutOfRange d
  end.
(** list.go:140-156 *)
Definition c_lrem a d : cmd_result :=
  if fewer a 3 then fail ErrArgsNotEnough d else
  let* k := arg a 0 in let* s1 := arg a 1 in let* v := arg a 2 in
  match parse_int s1 with
  | None => fail ErrValueOutOfRange d
  | Some n =>
      let* r := LRem k n v d in
      match r with
      | (d', Err ErrNil) => reply (rsp_int 0) d'
      | (d', Err e) => fail e d'
      | (d', Ok z) => reply (rsp_int z) d'
      end
  end.
(** list.go:159-179: the key passed on is c.Values[1], the index *)
Definition c_lindex a d : cmd_result :=
  if fewer a 2 then fail ErrArgsNotEnough d else
  let* s1 := arg a 1 in
  match parse_int s1 with
  | None => fail ErrValueOutOfRange d
  | Some i =>
      let* r := LIndex s1 i d in
      match r with
      | Err ErrNil => reply rsp_nil d
      | Err e => fail e d
      | Ok v => reply (rsp_bulk v) d
      end
  end.
(** list.go:182-198 *)
Definition c_lset a d : cmd_result :=
  if fewer a 3 then fail ErrArgsNotEnough d else
  let* k := arg a 0 in let* s1 := arg a 1 in let* v := arg a 2 in
  match parse_int s1 with
  | None => fail ErrValueOutOfRange d
  | Some i =>
      let* r := LSet k i v d in
      match r with
      | (d', Err e) => fail e d'
      | (d', Ok _) => reply (rsp_simple "OK") d'
      end
  end.
(** list.go:201-222 *)
Definition c_linsert a d : cmd_result :=
  if fewer a 4 then fail ErrArgsNotEnough d else
  let* k := arg a 0 in let* w := arg a 1 in let* t := arg a 2 in let* v := arg a 3 in
  let flag := if String.eqb (to_lower w) "after" then Some 1
              else if String.eqb (to_lower w) "before" then Some (-1) else None in
  match flag with
  | None => fail ErrArgsNotEnough d
  | Some fl =>
      let* r := LInsert k t v fl d in
      match r with
      | (d', Err e) => fail e d'
      | (d', Ok z) => reply (rsp_int z) d'
      end
  end.

(** *** set.go *)

(** set.go:13-25 *)
Definition c_sadd a d : cmd_result :=
  if fewer a 2 then fail ErrArgsNotEnough d else
  let* k := arg a 0 in let* r := SAdd k (drop 1 a) d in
  match r with
  | (d', Err e) => fail e d'
  | (d', Ok z) => reply (rsp_int z) d'
  end.
(** set.go:28-39 *)
Definition c_scard a d : cmd_result :=
  if fewer a 1 then fail ErrArgsNotEnough d else
  let* k := arg a 0 in let* r := SCard k d in
  match r with
  | Err ErrNil => reply (rsp_int 0) d
  | Err e => fail e d
  | Ok z => reply (rsp_int z) d
  end.
(** set.go:42-61 sDiff, 82-101 sInter, 122-141 sUnion: one key alone answers the empty array *)
Definition c_setop (o : setop) a d : cmd_result :=
  if fewer a 1 then fail ErrArgsNotEnough d else
  if (length a =? 1)%nat then reply rsp_empty_array d else
  let* r := SOp o c a d in
  match r with
  | Err ErrNil => reply rsp_empty_array d
  | Err e => fail e d
  | Ok vs => reply (rsp_strings vs) d
  end.
(** set.go:64-80 sDiffStore, 104-120 sInterStore, 144-160 sUnionStore *)
Definition c_setop_store (o : setop) a d : cmd_result :=
  if fewer a 2 then fail ErrArgsNotEnough d else
  if (length a =? 1)%nat then reply rsp_empty_array d else
  let* k := arg a 0 in let* r := SOpStore o c k (drop 1 a) d in
  match r with
  | (d', Err e) => fail e d'
  | (d', Ok z) => reply (rsp_int z) d'
  end.
(** set.go:162-173 *)
Definition c_sismember a d : cmd_result :=
  if fewer a 2 then fail ErrArgsNotEnough d else
  let* k := arg a 0 in let* v := arg a 1 in let* r := SIsMember k v d in
  match r with
  | Err ErrNil => reply (rsp_int 0) d
  | Err e => fail e d
  | Ok z => reply (rsp_int z) d
  end.
(** set.go:176-187 *)
Definition c_smembers a d : cmd_result :=
  if fewer a 1 then fail ErrArgsNotEnough d else
  let* k := arg a 0 in let* r := SMembers c k d in
  match r with
  | Err e => fail e d
  | Ok vs => reply (rsp_strings vs) d
  end.
(** set.go:190-207 *)
Definition c_smove a d : cmd_result :=
  if fewer a 3 then fail ErrArgsNotEnough d else
  let* s := arg a 0 in let* t := arg a 1 in let* v := arg a 2 in
  let* r := SMove s t v d in
  match r with
  | (d', Err e) => fail e d'
  | (d', Ok z) => reply (rsp_int z) d'
  end.
(** set.go:210-221 *)
Definition c_srem a d : cmd_result :=
  if fewer a 2 then fail ErrArgsNotEnough d else
  let* k := arg a 0 in let* r := SRem k (drop 1 a) d in
  match r with
  | (d', Err ErrNil) => reply (rsp_int 0) d'
  | (d', Err e) => fail e d'
  | (d', Ok z) => reply (rsp_int z) d'
  end.
(** an optional integer argument at position 1 with default [dflt] (SPOP, ZPOPMIN, ZPOPMAX) *)
Definition opt_count a (dflt : Z) : outcome (res Z) :=
  if (1 <? length a)%nat then
    let* v := arg a 1 in
    Ret (match parse_int v with None => Err ErrNotInteger | Some n => Ok n end)
  else Ret (Ok dflt).
(** set.go:224-251: the default count is 0 *)
Definition c_spop a d : cmd_result :=
  if fewer a 1 then fail ErrArgsNotEnough d else
  let* n := opt_count a 0 in
  match n with
  | Err e => fail e d
  | Ok n =>
      let* k := arg a 0 in let* r := SPop c k n d in
      match r with
      | (d', Err ErrNil) => reply rsp_empty_array d'
      | (d', Err e) => fail e d'
      | (d', Ok vs) => reply (rsp_strings vs) d'
      end
  end.

(** *** sorted_set.go *)

(** sorted_set.go:25-49: the argument loop of ZADD, over Values[1:]; it stops at the last argument *)
Fixpoint zadd_args (l : list string) (fl : zflags) (ms : list (float * string))
    : res (zflags * list (float * string)) :=
  match l with
  | x :: ((y :: r) as t) =>
      if String.eqb (to_lower x) "xx" then zadd_args t (ZF (zf_incr fl) (zf_nx fl) true) ms
      else if String.eqb (to_lower x) "nx" then zadd_args t (ZF (zf_incr fl) true (zf_xx fl)) ms
      else if String.eqb (to_lower x) "incr" then zadd_args t (ZF true (zf_nx fl) (zf_xx fl)) ms
      else match parse_float ext x with
           | None => Err ErrValueOutOfRange
           | Some f => zadd_args r fl (ms ++ [(f, y)])
           end
  | _ => Ok (fl, ms)
  end.
(** sorted_set.go:14-57 *)
Definition c_zadd a d : cmd_result :=
  if fewer a 3 then fail ErrArgsNotEnough d else
  let* k := arg a 0 in
  match zadd_args (drop 1 a) (ZF false false false) [] with
  | Err e => fail e d
  | Ok (fl, ms) =>
      let* r := ZAdd c k ms fl d in
      match r with
      | (d', Err e) => fail e d'
      | (d', Ok n) => reply (rsp_int n) d'
      end
  end.
(** sorted_set.go:60-75 *)
Definition c_zscore a d : cmd_result :=
  if fewer a 2 then fail ErrArgsNotEnough d else
  let* k := arg a 0 in let* v := arg a 1 in let* r := ZScore k v d in
  match r with
  | Err ErrNil => reply rsp_nil d
  | Err e => fail e d
  | Ok f => reply (rsp_bulk (format_float ext f)) d
  end.
(** sorted_set.go:78-93; int64(rank) of a uint wraps *)
Definition c_zrank a d : cmd_result :=
  if fewer a 2 then fail ErrArgsNotEnough d else
  let* k := arg a 0 in let* v := arg a 1 in let* r := ZRank k v d in
  match r with
  | Err ErrNil => reply rsp_nil d
  | Err e => fail e d
  | Ok z => reply (rsp_int (wrap64 z)) d
  end.
(** sorted_set.go:96-110 *)
Definition c_zrem a d : cmd_result :=
  if fewer a 2 then fail ErrArgsNotEnough d else
  let* k := arg a 0 in let* r := ZRem k (drop 1 a) d in
  match r with
  | (d', Err ErrNil) => reply (rsp_int 0) d'
  | (d', Err e) => fail e d'
  | (d', Ok z) => reply (rsp_int z) d'
  end.
(** sorted_set.go:113-127 *)
Definition c_zcard a d : cmd_result :=
  if fewer a 1 then fail ErrArgsNotEnough d else
  let* k := arg a 0 in
  match ZCard k d with
  | Err ErrNil => reply (rsp_int 0) d
  | Err e => fail e d
  | Ok z => reply (rsp_int z) d
  end.
(** sorted_set.go:130-150 *)
Definition c_zcount a d : cmd_result :=
  if fewer a 3 then fail ErrArgsNotEnough d else
  let* k := arg a 0 in let* s1 := arg a 1 in let* s2 := arg a 2 in
  let* r := ZCount ext k (to_lower s1) (to_lower s2) d in
  match r with
  | Err ErrNil => reply (rsp_int 0) d
  | Err e => fail e d
  | Ok z => reply (rsp_int z) d
  end.
(** sorted_set.go:153-172 *)
Definition c_zincr a d : cmd_result :=
  if fewer a 3 then fail ErrArgsNotEnough d else
  let* k := arg a 0 in let* s1 := arg a 1 in let* v := arg a 2 in
  match parse_float ext s1 with
  | None => fail ErrValueOutOfRange d
  | Some f =>
      let* r := ZIncr c k f v d in
      match r with
      | (d', Err ErrNil) => reply (rsp_int 0) d'
      | (d', Err e) => fail e d'
      | (d', Ok g) => reply (rsp_bulk (format_float ext g)) d'
      end
  end.
(** [for _, s := range c.Values[2:] { switch strings.ToLower(s) ... }] *)
Definition has_flag (name : string) (l : list string) : bool :=
  existsb (λ s, String.eqb (to_lower s) name) l.
Definition range_reply (r : res (list string)) d : cmd_result :=
  match r with
  | Err ErrNil => reply rsp_nil d
  | Err e => fail e d
  | Ok vs => reply (rsp_strings vs) d
  end.
(** sorted_set.go:175-206 *)
Definition c_zrange a d : cmd_result :=
  if fewer a 3 then fail ErrArgsNotEnough d else
  let* k := arg a 0 in let* s1 := arg a 1 in let* s2 := arg a 2 in
  let* r := ZRange ext k s1 s2 (has_flag "byscore" (drop 2 a)) (has_flag "withscores" (drop 2 a)) d in
  range_reply r d.
(** sorted_set.go:209-223 *)
Definition c_zrangebyscore a d : cmd_result :=
  if fewer a 3 then fail ErrArgsNotEnough d else
  let* k := arg a 0 in let* s1 := arg a 1 in let* s2 := arg a 2 in
  let* r := ZRange ext k s1 s2 true false d in
  range_reply r d.
(** sorted_set.go:226-254 *)
Definition c_zrevrange a d : cmd_result :=
  if fewer a 3 then fail ErrArgsNotEnough d else
  let* k := arg a 0 in let* s1 := arg a 1 in let* s2 := arg a 2 in
  let* r := ZRevRange ext k s1 s2 (has_flag "withscores" (drop 2 a)) d in
  range_reply r d.
(** sorted_set.go:257-285 zPopMin, 288-316 zPopMix: an empty result is the empty array even if there
    was an error *)
Definition c_zpop (max : bool) a d : cmd_result :=
  if fewer a 1 then fail ErrArgsNotEnough d else
  let* n := opt_count a 1 in
  match n with
  | Err e => fail e d
  | Ok n =>
      let* k := arg a 0 in let* r := ZPop ext max k n d in
      match r with
      | (d', Err _) => reply rsp_empty_array d'
      | (d', Ok []) => reply rsp_empty_array d'
      | (d', Ok vs) => reply (rsp_strings vs) d'
      end
  end.

(** *** hash_table.go *)

(** util/strconv.go:8-21 ConvertToValidValue *)
Definition convert_value (s : string) : hval :=
  match parse_int s with
  | Some z => HInt z
  | None => match parse_float ext s with Some f => HFloat f | None => HStr s end
  end.
(** hash_table.go:14-25 *)
Definition c_hdel a d : cmd_result :=
  if fewer a 2 then fail ErrArgsNotEnough d else
  let* k := arg a 0 in let* f := arg a 1 in
  match HDel k f d with
  | (d', Err ErrNil) => reply (rsp_int 0) d'
  | (d', Err e) => fail e d'
  | (d', Ok z) => reply (rsp_int z) d'
  end.
(** hash_table.go:28-40 *)
Definition c_hexists a d : cmd_result :=
  if fewer a 2 then fail ErrArgsNotEnough d else
  let* k := arg a 0 in let* f := arg a 1 in
  match HExists k f d with
  | Err ErrNil => reply (rsp_int 0) d
  | Err e => fail e d
  | Ok z => reply (rsp_int z) d
  end.
(** hash_table.go:43-67 *)
Definition c_hget a d : cmd_result :=
  if fewer a 2 then fail ErrArgsNotEnough d else
  let* k := arg a 0 in let* f := arg a 1 in
  match HGet k f d with
  | Err ErrNil => reply rsp_nil d
  | Err e => fail e d
  | Ok v => reply (rsp_bulk (show_hval ext v)) d
  end.
Definition hval_ival (v : hval) : ival :=
  match v with HStr s => IStr s | HInt z => IInt z | HFloat f => IFloat f end.
(** hash_table.go:70-96: values are put in the reply unconverted; an empty map hides any error *)
Definition c_hgetall a d : cmd_result :=
  if fewer a 1 then fail ErrArgsNotEnough d else
  let* k := arg a 0 in
  match HGetAll c k d with
  | Err _ => reply rsp_nil d
  | Ok m =>
      match shuffle (ch_ord c 1%nat 0%nat) (map_to_list m) with
      | [] => reply rsp_nil d
      | l => reply (rsp_interfaces true (concat ((λ kv, [IStr kv.1; hval_ival kv.2]) <$> l))) d
      end
  end.
(** hash_table.go:99-121 *)
Definition c_hincrby a d : cmd_result :=
  if fewer a 3 then fail ErrArgsNotEnough d else
  let* k := arg a 0 in let* f := arg a 1 in let* s := arg a 2 in
  match parse_int s with
  | None => fail ErrNotInteger d
  | Some i =>
      match HIncrBy k f i d with
      | (d', Err e) => fail e d'
      | (d', Ok z) => reply (rsp_int z) d'
      end
  end.
(** hash_table.go:124-146 *)
Definition c_hincrbyfloat a d : cmd_result :=
  if fewer a 3 then fail ErrArgsNotEnough d else
  let* k := arg a 0 in let* f := arg a 1 in let* s := arg a 2 in
  match parse_float ext s with
  | None => fail ErrNotInteger d
  | Some i =>
      match HIncrByFloat k f i d with
      | (d', Err e) => fail e d'
      | (d', Ok z) => reply (rsp_bulk (format_float ext z)) d'
      end
  end.
(** hash_table.go:149-164 *)
Definition c_hkeys a d : cmd_result :=
  if fewer a 1 then fail ErrArgsNotEnough d else
  let* k := arg a 0 in
  match HKeys c k d with
  | Err ErrNil => reply rsp_empty_array d
  | Err e => fail e d
  | Ok vs => reply (rsp_strings vs) d
  end.
(** hash_table.go:167-182 *)
Definition c_hlen a d : cmd_result :=
  if fewer a 1 then fail ErrArgsNotEnough d else
  let* k := arg a 0 in
  match HLen k d with
  | Err ErrNil => reply (rsp_int 0) d
  | Err e => fail e d
  | Ok z => reply (rsp_int z) d
  end.
(** hash_table.go:185-201 *)
Definition c_hmget a d : cmd_result :=
  if fewer a 2 then fail ErrArgsNotEnough d else
  let* k := arg a 0 in
  match HMGet ext k (drop 1 a) d with
  | Err ErrNil => reply (rsp_interfaces true (replicate (length (drop 1 a)) INil)) d
  | Err e => fail e d
  | Ok vs => reply (rsp_interfaces true vs) d
  end.
(** hash_table.go:214-219, 240-245: [for i := 1; i < len(c.Values)-1; i += 2] *)
Fixpoint hset_args (l : list string) : list (string * hval) :=
  match l with
  | f :: v :: r => (f, convert_value v) :: hset_args r
  | _ => []
  end.
(** hash_table.go:204-227 *)
Definition c_hmset a d : cmd_result :=
  if fewer a 3 then fail ErrArgsNotEnough d else
  let* k := arg a 0 in
  match HSet k false (hset_args (drop 1 a)) d with
  | (d', Err e) => fail e d'
  | (d', Ok _) => reply (rsp_simple "OK") d'
  end.
(** hash_table.go:230-253 *)
Definition c_hset a d : cmd_result :=
  if fewer a 3 then fail ErrArgsNotEnough d else
  let* k := arg a 0 in
  match HSet k false (hset_args (drop 1 a)) d with
  | (d', Err e) => fail e d'
  | (d', Ok n) => reply (rsp_int n) d'
  end.
(** hash_table.go:256-277 *)
Definition c_hsetnx a d : cmd_result :=
  if fewer a 3 then fail ErrArgsNotEnough d else
  let* k := arg a 0 in let* f := arg a 1 in let* v := arg a 2 in
  match HSet k true [(f, convert_value v)] d with
  | (d', Err e) => fail e d'
  | (d', Ok n) => reply (rsp_int n) d'
  end.
(** hash_table.go:280-295 *)
Definition c_hvals a d : cmd_result :=
  if fewer a 1 then fail ErrArgsNotEnough d else
  let* k := arg a 0 in
  match HVals ext c k d with
  | Err ErrNil => reply rsp_empty_array d
  | Err e => fail e d
  | Ok vs => reply (rsp_strings vs) d
  end.

(** *** The command table: redis/*.cmd.go *)
Definition implemented_commands : list (string * (list string → db → cmd_result)) :=
  [ ("hdel", c_hdel); ("hexists", c_hexists); ("hget", c_hget); ("hgetall", c_hgetall);
    ("hincrby", c_hincrby); ("hincrbyfloat", c_hincrbyfloat); ("hkeys", c_hkeys); ("hlen", c_hlen);
    ("hmget", c_hmget); ("hmset", c_hmset); ("hset", c_hset); ("hsetnx", c_hsetnx); ("hvals", c_hvals);
    ("keys", c_keys); ("exists", c_exists); ("del", c_del); ("type", c_type); ("ping", c_ping);
    ("command", c_command);
    ("lpush", c_lpush); ("lpop", c_lpop); ("rpush", c_rpush); ("rpop", c_rpop); ("llen", c_llen);
    ("lrange", c_lrange); ("lrem", c_lrem); ("lindex", c_lindex); ("lset", c_lset);
    ("linsert", c_linsert);
    ("sadd", c_sadd); ("scard", c_scard); ("sdiff", c_setop OpDiff);
    ("sdiffstore", c_setop_store OpDiff); ("sinter", c_setop OpInter);
    ("sinterstore", c_setop_store OpInter); ("sunion", c_setop OpUnion);
    ("sunionstore", c_setop_store OpUnion); ("sismember", c_sismember); ("smembers", c_smembers);
    ("smove", c_smove); ("srem", c_srem); ("spop", c_spop);
    ("zadd", c_zadd); ("zscore", c_zscore); ("zrank", c_zrank); ("zrem", c_zrem); ("zcard", c_zcard);
    ("zcount", c_zcount); ("zincr", c_zincr); ("zrange", c_zrange);
    ("zrangebyscore", c_zrangebyscore); ("zrevrange", c_zrevrange); ("zpopmin", c_zpop false);
    ("zpopmax", c_zpop true);
    ("set", c_set); ("mset", c_mset); ("get", c_get); ("mget", c_mget); ("incr", c_incr);
    ("incrby", c_incrby); ("decr", c_decr); ("decrby", c_decrby); ("append", c_append) ].

Fixpoint lookup_command (name : string) (t : list (string * (list string → db → cmd_result)))
    : option (list string → db → cmd_result) :=
  match t with
  | [] => None
  | (n, f) :: r => if String.eqb n name then Some f else lookup_command name r
  end.

(** command.go:53-61, 66-83: the body of the goroutine of ExecuteAsync with setRsp ([c.Ctx] is never
    set by NewCommandFromReceive).  [name] is already lowered. A [Panic] here is not recovered: it
    terminates the process. *)
Definition exec_lowered (name : string) (a : list string) (d : db) : outcome (db * response) :=
  match lookup_command name implemented_commands with
  | None => Ret (d, rsp_error ErrUnknownCommand)
  | Some f =>
      let* (d', r) := f a d in
      Ret (d', match r with Err e => rsp_error e | Ok rsp => rsp end)
  end.

(** command.go:22-33 NewCommandFromReceive followed by the execution of the command; None if there is
    nothing to execute. *)
Definition exec (req : list string) (d : db) : outcome (db * option response) :=
  match req with
  | [] => Ret (d, None)
  | name :: a => let* (d', r) := exec_lowered (to_lower name) a d in Ret (d', Some r)
  end.

End commands.

(** Commands executed one after the other (event/worker.go:21-36: the single worker waits for each
    command to finish before it takes the next).  Each request comes with the choices made during it. *)
Fixpoint run (ext : Ext) (h : list (choices * list string)) (d : db)
    : outcome (db * list (option response)) :=
  match h with
  | [] => Ret (d, [])
  | (c, req) :: h' =>
      let* (d1, r) := exec ext c req d in
      let* (d2, rs) := run ext h' d1 in
      Ret (d2, r :: rs)
  end.
