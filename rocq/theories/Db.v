(** Model of the keyspace and of the typed commands of package datastruct:
    keys.go, string.go, list.go:419-603, set.go, hash_table.go, sorted_set.go:516-846.
    One function per Go function; each returns the new database and the Go results.
    [res A] is the Go result pair (value, error): [Ok v] is a nil error. *)
From Verif Require Import GoBase ShardMap Float64 DList SkipList.

Inductive res (A : Type) : Type := Ok (a : A) | Err (e : err).
Arguments Ok {A} _.
Arguments Err {A} _.

(** ** Values *)

(** set.go:7-16: the members and the separately maintained [length] (a Go int; it moves by one per
    command argument, so it is an unbounded [Z]). *)
Record mset := MSet { ms_m : smap unit; ms_len : Z }.

(** Values in a hash table: what util.ConvertToValidValue (util/strconv.go:8-21) can produce. *)
Inductive hval := HStr (s : string) | HInt (z : Z) | HFloat (f : float).
(** hash_table.go:9-12 *)
Record htable := HT { ht_m : smap hval; ht_len : Z }.

(** sorted_set.go:17-22, 31-45.  The dictionary maps a member to a *dictEntry holding a pointer to the
    [score] field of a skip-list node: here the address of that node.  The dictEntry indirection is
    dropped: an entry is reachable only through the map. *)
Record zset := ZSet { zs_m : smap loc; zs_sl : skiplist }.

(** keys.go:22-25 KeyInfo.  The [Type] tag is the constructor (every KeyInfo literal in the code pairs
    the tag with a value of that type).  Sets are addresses in [db_sets], because the STORE commands
    can make two keys point to the same set object; every other value is owned by its key. *)
Inductive value :=
| VStr (s : string)
| VList (l : dlist)
| VSet (p : loc)
| VZSet (z : zset)
| VHash (h : htable).

(** keys.go:11-20 MemoryCache (the global defaultCache) and the heap of set objects. *)
Record db := Db { db_keys : smap value; db_sets : gmap loc mset; db_fresh : nat }.

(** keys.go:18-20 newMemoryCache *)
Definition db_new : db := Db sm_new ∅ 0.

(** Nondeterministic choices available to one command: iteration orders and random tower heights. *)
Record choices := Ch { ch_ord : oracle; ch_lvl : nat → nat }.

(** defaultCache.keys.Set(key, &KeyInfo{...}); also models the in-place update of the value the key
    holds (info.Value = ..., or mutation of an owned object). *)
Definition put (key : string) (v : value) (d : db) : db :=
  Db (sm_set (db_keys d) key v) (db_sets d) (db_fresh d).

(** mutation of the set object at address [p] *)
Definition put_set (p : loc) (s : mset) (d : db) : db :=
  Db (db_keys d) (<[p := s]> (db_sets d)) (db_fresh d).

(** allocation of a set object *)
Definition alloc_set (s : mset) (d : db) : loc * db :=
  (db_fresh d, Db (db_keys d) (<[db_fresh d := s]> (db_sets d)) (S (db_fresh d))).

(** keys.go:49-51 Exists *)
Definition Exists_ (key : string) (d : db) : bool := sm_has (db_keys d) key.

(** consts.go:10-14 KeyType *)
Definition type_name (v : value) : string :=
  match v with
  | VStr _ => "string" | VList _ => "list" | VSet _ => "setIfNotExists"
  | VZSet _ => "sortedSet" | VHash _ => "hashTable"
  end.

(** keys.go:53-60 Type *)
Definition Type_ (key : string) (d : db) : option string := type_name <$> sm_get (db_keys d) key.

(** keys.go:62-72 Keys: glob.MustCompile panics on a bad pattern. *)
Definition Keys (ext : Ext) (c : choices) (pattern : string) (d : db) : outcome (list string) :=
  let* g := deref (glob_compile ext pattern) in
  Ret (sm_range (ch_ord c 0%nat) (db_keys d)
         (λ acc k _, ((if g k : bool then acc ++ [k] else acc), true)) []).

(** keys.go:74-82 Del *)
Definition Del (key : string) (d : db) : db * Z :=
  let (m, removed) := sm_delete_if_exists (db_keys d) key in
  (Db m (db_sets d) (db_fresh d), if removed : bool then 1 else 0).

(** ** Strings *)

(** string.go:12-14 Set (the options are ignored) *)
Definition Set_ (key v : string) (d : db) : db := put key (VStr v) d.

(** string.go:16-20 MSet: [for i := 0; i < len(kvs)-1; i += 2] *)
Fixpoint MSet_ (kvs : list string) (d : db) : db :=
  match kvs with
  | k :: v :: r => MSet_ r (Set_ k v d)
  | _ => d
  end.

(** string.go:22-38 Append *)
Definition Append (key v : string) (d : db) : db * res Z :=
  match sm_get (db_keys d) key with
  | None => (Set_ key v d, Ok (slen v))
  | Some (VStr s) => (put key (VStr (s ++ v)%string) d, Ok (slen s + slen v))
  | Some _ => (d, Err ErrTypeMismatch)
  end.

(** string.go:40-60 IncrBy *)
Definition IncrBy (key : string) (incr : Z) (d : db) : db * res Z :=
  match sm_get (db_keys d) key with
  | None => (Set_ key (itoa incr) d, Ok incr)
  | Some (VStr s) =>
      match parse_int s with
      | None => (d, Err ErrNotInteger)
      | Some i => let v := wrap64 (i + incr) in (put key (VStr (itoa v)) d, Ok v)
      end
  | Some _ => (d, Err ErrTypeMismatch)
  end.

(** string.go:62-74 Get *)
Definition Get (key : string) (d : db) : res string :=
  match sm_get (db_keys d) key with
  | None => Err ErrNil
  | Some (VStr s) => Ok s
  | Some _ => Err ErrTypeMismatch
  end.

(** An [interface{}] that goes into a reply: nil, a string, an error, an int64 or a float64. *)
Inductive ival := INil | IStr (s : string) | IErr (e : err) | IInt (z : Z) | IFloat (f : float).

(** string.go:76-96 MGet *)
Definition MGet (keys : list string) (d : db) : list ival :=
  (λ k, match Get k d with
        | Err ErrNil => INil
        | Err e => IErr e
        | Ok s => IStr s
        end) <$> keys.

(** ** Lists (list.go:419-603) *)

(** keys.go:31-43 loadKeyInfo with KeyTypeList, then list.go:423-435 loadAndCheckList *)
Definition load_list (key : string) (check : bool) (d : db) : res dlist :=
  match sm_get (db_keys d) key with
  | None => Err ErrNil
  | Some (VList l) => if check && (dl_len l =? 0) then Err ErrNil else Ok l
  | Some _ => Err ErrTypeMismatch
  end.

(** list.go:437-458 LPush *)
Definition LPush (key : string) (values : list string) (d : db) : db * res Z :=
  match load_list key false d with
  | Err ErrNil => let l := dl_lpush_all values dl_new in (put key (VList l) d, Ok (dl_len l))
  | Err e => (d, Err e)
  | Ok l => let l' := dl_lpush_all values l in (put key (VList l') d, Ok (dl_len l'))
  end.

(** list.go:479-500 RPush *)
Definition RPush (key : string) (values : list string) (d : db) : db * res Z :=
  match load_list key false d with
  | Err ErrNil => let l := dl_rpush_all values dl_new in (put key (VList l) d, Ok (dl_len l))
  | Err e => (d, Err e)
  | Ok l => let l' := dl_rpush_all values l in (put key (VList l') d, Ok (dl_len l'))
  end.

(** list.go:460-477 LPop *)
Definition LPop (key : string) (count : Z) (d : db) : outcome (db * res (list string)) :=
  match load_list key true d with
  | Err e => Ret (d, Err e)
  | Ok l => let* (l', vs) := dl_lpop_n count l in Ret (put key (VList l') d, Ok vs)
  end.

(** list.go:502-519 RPop *)
Definition RPop (key : string) (count : Z) (d : db) : outcome (db * res (list string)) :=
  match load_list key false d with
  | Err e => Ret (d, Err e)
  | Ok l => let* (l', vs) := dl_rpop_n count l in Ret (put key (VList l') d, Ok vs)
  end.

(** list.go:521-529 LLen *)
Definition LLen (key : string) (d : db) : res Z :=
  match load_list key false d with Err e => Err e | Ok l => Ok (dl_len l) end.

(** list.go:531-539 LRange *)
Definition LRange (key : string) (start stop : Z) (d : db) : outcome (res (list string)) :=
  match load_list key true d with
  | Err e => Ret (Err e)
  | Ok l => let* vs := dl_lrange start stop l in Ret (Ok vs)
  end.

(** list.go:542-557 LRem *)
Definition LRem (key : string) (count : Z) (v : string) (d : db) : outcome (db * res Z) :=
  match load_list key true d with
  | Err e => Ret (d, Err e)
  | Ok l => let* (l', n) := dl_lrem count v l in Ret (put key (VList l') d, Ok n)
  end.

(** list.go:559-571 LIndex *)
Definition LIndex (key : string) (i : Z) (d : db) : outcome (res string) :=
  match load_list key true d with
  | Err e => Ret (Err e)
  | Ok l =>
      let* o := dl_lindex i l in
      Ret (match o with Some v => Ok v | None => Err ErrNil end)
  end.

(** list.go:573-585 LSet *)
Definition LSet (key : string) (i : Z) (v : string) (d : db) : outcome (db * res unit) :=
  match load_list key true d with
  | Err e => Ret (d, Err e)
  | Ok l =>
      let* (l', ok) := dl_lset i v l in
      Ret (if ok : bool then (put key (VList l') d, Ok tt) else (put key (VList l') d, Err ErrNil))
  end.

(** list.go:592-603 LInsert *)
Definition LInsert (key target newValue : string) (flag : Z) (d : db) : outcome (db * res Z) :=
  match load_list key true d with
  | Err e => Ret (d, Err e)
  | Ok l =>
      let* (l', ok) := dl_linsert target newValue flag l in
      Ret (put key (VList l') d, if ok : bool then Ok (dl_len l') else Err ErrNil)
  end.

(** ** Sets (set.go) *)

(** set.go:12-16 newSet *)
Definition ms_new : mset := MSet sm_new 0.

(** set.go:18-25 sAdd *)
Definition ms_add (k : string) (s : mset) : mset * Z :=
  let (m, absent) := sm_set_if_absent (ms_m s) k tt in
  if absent : bool then (MSet m (ms_len s + 1), 1) else (MSet m (ms_len s), 0).

(** set.go:27-36 sRem *)
Definition ms_rem (k : string) (s : mset) : mset * Z :=
  let (m, exists_) := sm_delete_if_exists (ms_m s) k in
  if exists_ : bool then (MSet m (ms_len s - 1), 1) else (MSet m (ms_len s), 0).

(** set.go:38-53 sPop: the captured variables are (cnt, result); [length] is not updated. *)
Definition ms_pop (ord : order) (cnt : Z) (s : mset) : mset * list string :=
  let '(st, m) :=
    sm_range_and_delete ord (ms_m s)
      (λ st k _, if (st.1 <=? 0) then (st, false, false) else ((st.1 - 1, st.2 ++ [k]), true, true))
      (cnt, []) in
  (MSet m (ms_len s), st.2).

(** set.go:55-66 sDiff *)
Definition ms_diff (ord : order) (s1 s2 : mset) : mset :=
  sm_range ord (ms_m s1)
    (λ acc k _, ((if negb (sm_has (ms_m s2) k) then (ms_add k acc).1 else acc), true)) ms_new.

(** set.go:68-79 sInter *)
Definition ms_inter (ord : order) (s1 s2 : mset) : mset :=
  sm_range ord (ms_m s1)
    (λ acc k _, ((if sm_has (ms_m s2) k then (ms_add k acc).1 else acc), true)) ms_new.

(** set.go:81-92 sUnion (always called with two sets) *)
Definition ms_union (o1 o2 : order) (s1 s2 : mset) : mset :=
  let f := λ (acc : mset) (k : string) (_ : unit), ((ms_add k acc).1, true) in
  sm_range o2 (ms_m s2) f (sm_range o1 (ms_m s1) f ms_new).

(** set.go:98-110 loadAndCheckSet *)
Definition load_set (key : string) (check : bool) (d : db) : outcome (res (loc * mset)) :=
  match sm_get (db_keys d) key with
  | None => Ret (Err ErrNil)
  | Some (VSet p) =>
      let* s := deref (db_sets d !! p) in
      Ret (if check && (ms_len s =? 0) then Err ErrNil else Ok (p, s))
  | Some _ => Ret (Err ErrTypeMismatch)
  end.

(** the loops of SAdd and SRem: [for _, value := range values { cnt += ... }] *)
Fixpoint ms_add_all (vs : list string) (s : mset) (cnt : Z) : mset * Z :=
  match vs with
  | [] => (s, cnt)
  | v :: r => let (s', n) := ms_add v s in ms_add_all r s' (cnt + n)
  end.
Fixpoint ms_rem_all (vs : list string) (s : mset) (cnt : Z) : mset * Z :=
  match vs with
  | [] => (s, cnt)
  | v :: r => let (s', n) := ms_rem v s in ms_rem_all r s' (cnt + n)
  end.

(** set.go:112-133 SAdd *)
Definition SAdd (key : string) (values : list string) (d : db) : outcome (db * res Z) :=
  let* r := load_set key false d in
  match r with
  | Err ErrNil =>
      let (p, d1) := alloc_set ms_new d in
      let d2 := put key (VSet p) d1 in
      let (s', cnt) := ms_add_all values ms_new 0 in
      Ret (put_set p s' d2, Ok cnt)
  | Err e => Ret (d, Err e)
  | Ok (p, s) => let (s', cnt) := ms_add_all values s 0 in Ret (put_set p s' d, Ok cnt)
  end.

(** set.go:135-142 SCard *)
Definition SCard (key : string) (d : db) : outcome (res Z) :=
  let* r := load_set key true d in
  Ret (match r with Err e => Err e | Ok (_, s) => Ok (ms_len s) end).

(** set.go:144-156 SRem *)
Definition SRem (key : string) (values : list string) (d : db) : outcome (db * res Z) :=
  let* r := load_set key true d in
  match r with
  | Err e => Ret (d, Err e)
  | Ok (p, s) => let (s', cnt) := ms_rem_all values s 0 in Ret (put_set p s' d, Ok cnt)
  end.

(** set.go:158-170 SIsMember *)
Definition SIsMember (key v : string) (d : db) : outcome (res Z) :=
  let* r := load_set key true d in
  Ret (match r with
       | Err e => Err e
       | Ok (_, s) => Ok (if sm_has (ms_m s) v then 1 else 0)
       end).

(** set.go:172-179 SMembers *)
Definition SMembers (c : choices) (key : string) (d : db) : outcome (res (list string)) :=
  let* r := load_set key true d in
  Ret (match r with Err e => Err e | Ok (_, s) => Ok (sm_keys (ch_ord c 0%nat) (ms_m s)) end).

(** set.go:182-195 SMove: the source's [length] is not updated. *)
Definition SMove (source target v : string) (d : db) : outcome (db * res Z) :=
  let* r := load_set source true d in
  match r with
  | Err e => Ret (d, Err e)
  | Ok (p, s) =>
      let (m, exists_) := sm_delete_if_exists (ms_m s) v in
      if exists_ : bool then SAdd target [v] (put_set p (MSet m (ms_len s)) d)
      else Ret (d, Err ErrNil)
  end.

Inductive setop := OpDiff | OpInter | OpUnion.

(** one step [result = sXxx(result, s)] of the loops below; [j] numbers the choice points *)
Definition ms_op (o : setop) (c : choices) (j : nat) (a b : mset) : mset :=
  match o with
  | OpDiff => ms_diff (ch_ord c (2 * j)%nat) a b
  | OpInter => ms_inter (ch_ord c (2 * j)%nat) a b
  | OpUnion => ms_union (ch_ord c (2 * j)%nat) (ch_ord c (2 * j + 1)%nat) a b
  end.

(** The common loop of SDiff, SInter, SUnion and their STORE variants (set.go:200-212, 224-236,
    254-266, 278-290, 308-320, 332-344).  [acc] is [result]: nil, an existing set object (after the first
    key), or a fresh set not yet stored anywhere. *)
Inductive setacc := ANil | AObj (p : loc) (s : mset) | AFresh (s : mset).
Definition acc_set (a : setacc) : option mset :=
  match a with ANil => None | AObj _ s => Some s | AFresh s => Some s end.

Fixpoint set_fold (o : setop) (c : choices) (j : nat) (keys : list string) (acc : setacc) (d : db)
    : outcome (res setacc) :=
  match keys with
  | [] => Ret (Ok acc)
  | k :: r =>
      let* l := load_set k true d in
      match l with
      | Err e => Ret (Err e)
      | Ok (p, s) =>
          let acc' := match acc_set acc with
                      | None => AObj p s
                      | Some a => AFresh (ms_op o c j a s)
                      end in
          set_fold o c (S j) r acc' d
      end
  end.

(** set.go:197-219 SDiff, 251-273 SInter, 305-327 SUnion *)
Definition SOp (o : setop) (c : choices) (keys : list string) (d : db) : outcome (res (list string)) :=
  let* r := set_fold o c 0%nat keys ANil d in
  Ret (match r with
       | Err e => Err e
       | Ok acc =>
           match acc_set acc with
           | None => Err ErrNil
           | Some s => if ms_len s =? 0 then Err ErrNil
                       else Ok (sm_keys (ch_ord c (2 * length keys)%nat) (ms_m s))
           end
       end).

(** set.go:221-248 SDiffStore, 275-302 SInterStore, 329-356 SUnionStore: with a single source key the
    stored object is the source object itself. *)
Definition SOpStore (o : setop) (c : choices) (storeKey : string) (keys : list string) (d : db)
    : outcome (db * res Z) :=
  let* r := set_fold o c 0%nat keys ANil d in
  match r with
  | Err e => Ret (d, Err e)
  | Ok (AObj p s) => Ret (put storeKey (VSet p) d, Ok (ms_len s))
  | Ok acc =>
      let s := match acc with AFresh s => s | _ => ms_new end in
      let (p, d1) := alloc_set s d in
      Ret (put storeKey (VSet p) d1, Ok (ms_len s))
  end.

(** set.go:358-365 SPop *)
Definition SPop (c : choices) (key : string) (cnt : Z) (d : db) : outcome (db * res (list string)) :=
  let* r := load_set key true d in
  match r with
  | Err e => Ret (d, Err e)
  | Ok (p, s) => let (s', vs) := ms_pop (ch_ord c 0%nat) cnt s in Ret (put_set p s' d, Ok vs)
  end.

(** ** Hash tables (hash_table.go) *)

(** hash_table.go:20-24 newHashTable *)
Definition ht_new : htable := HT sm_new 0.

(** hash_table.go:26-34 del (the test is inverted in the code) *)
Definition ht_del (f : string) (h : htable) : htable * Z :=
  let (m, deleted) := sm_delete_if_exists (ht_m h) f in
  if negb deleted then (HT m (ht_len h - 1), 1) else (HT m (ht_len h), 0).

(** hash_table.go:36-53 set; [nx] is flag&HSetInNx != 0 *)
Definition ht_set (f : string) (v : hval) (nx : bool) (h : htable) : htable * Z :=
  if nx then
    let (m, absent) := sm_set_if_absent (ht_m h) f v in
    if absent : bool then (HT m (ht_len h + 1), 1) else (HT m (ht_len h), 0)
  else
    let len := if negb (sm_has (ht_m h) f) then ht_len h + 1 else ht_len h in
    (HT (sm_set (ht_m h) f v) len, 1).

(** hash_table.go:67-87 incrBy ([length] is not updated for a new field) *)
Definition ht_incr (f : string) (i : Z) (h : htable) : htable * res Z :=
  let (m, r) := sm_upsert (ht_m h) f
    (λ o, match o with
          | None => inr (HInt i)
          | Some (HInt z) => inr (HInt (wrap64 (z + i)))
          | Some _ => inl ErrNotInteger
          end) in
  (HT m (ht_len h),
   match r with inl e => Err e | inr (HInt z) => Ok z | inr _ => Err ErrNotInteger end).

(** hash_table.go:89-109 incrByFloat *)
Definition ht_incr_float (f : string) (i : float) (h : htable) : htable * res float :=
  let (m, r) := sm_upsert (ht_m h) f
    (λ o, match o with
          | None => inr (HFloat i)
          | Some (HFloat z) => inr (HFloat (fadd z i))
          | Some _ => inl ErrNotFloat
          end) in
  (HT m (ht_len h),
   match r with inl e => Err e | inr (HFloat z) => Ok z | inr _ => Err ErrNotFloat end).

(** the type switches of hash_table.go:124-131, 147-154 and redis/hash_table.go:57-64 *)
Definition show_hval (ext : Ext) (v : hval) : string :=
  match v with HStr s => s | HInt z => itoa z | HFloat f => format_float ext f end.

(** hash_table.go:115-135 mGet *)
Definition ht_mget (ext : Ext) (fs : list string) (h : htable) : list ival :=
  (λ f, match sm_get (ht_m h) f with None => INil | Some v => IStr (show_hval ext v) end) <$> fs.

(** hash_table.go:143-161 values *)
Definition ht_vals (ext : Ext) (ord : order) (h : htable) : list string :=
  sm_range ord (ht_m h) (λ acc _ v, (acc ++ [show_hval ext v], true)) [].

(** hash_table.go:167-179 loadAndCheckHashTable *)
Definition load_hash (key : string) (check : bool) (d : db) : res htable :=
  match sm_get (db_keys d) key with
  | None => Err ErrNil
  | Some (VHash h) => if check && (ht_len h =? 0) then Err ErrNil else Ok h
  | Some _ => Err ErrTypeMismatch
  end.

(** hash_table.go:181-188 HDel *)
Definition HDel (key f : string) (d : db) : db * res Z :=
  match load_hash key true d with
  | Err e => (d, Err e)
  | Ok h => let (h', n) := ht_del f h in (put key (VHash h') d, Ok n)
  end.

(** hash_table.go:190-201 HExists: both branches return 1 *)
Definition HExists (key f : string) (d : db) : res Z :=
  match load_hash key true d with
  | Err e => Err e
  | Ok h => if sm_has (ht_m h) f then Ok 1 else Ok 1
  end.

(** hash_table.go:203-215 HGet *)
Definition HGet (key f : string) (d : db) : res hval :=
  match load_hash key true d with
  | Err e => Err e
  | Ok h => match sm_get (ht_m h) f with None => Err ErrNil | Some v => Ok v end
  end.

(** hash_table.go:217-224 HGetAll *)
Definition HGetAll (c : choices) (key : string) (d : db) : res (gmap string hval) :=
  match load_hash key true d with
  | Err e => Err e
  | Ok h => Ok (sm_items (ch_ord c 0%nat) (ht_m h))
  end.

(** hash_table.go:226-238 HIncrBy: a new table is not stored in the keyspace *)
Definition HIncrBy (key f : string) (i : Z) (d : db) : db * res Z :=
  match load_hash key false d with
  | Err ErrNil => (d, (ht_incr f i ht_new).2)
  | Err e => (d, Err e)
  | Ok h => let (h', r) := ht_incr f i h in (put key (VHash h') d, r)
  end.

(** hash_table.go:240-252 HIncrByFloat *)
Definition HIncrByFloat (key f : string) (i : float) (d : db) : db * res float :=
  match load_hash key false d with
  | Err ErrNil => (d, (ht_incr_float f i ht_new).2)
  | Err e => (d, Err e)
  | Ok h => let (h', r) := ht_incr_float f i h in (put key (VHash h') d, r)
  end.

(** hash_table.go:254-261 HKeys *)
Definition HKeys (c : choices) (key : string) (d : db) : res (list string) :=
  match load_hash key true d with Err e => Err e | Ok h => Ok (sm_keys (ch_ord c 0%nat) (ht_m h)) end.

(** hash_table.go:263-270 HLen *)
Definition HLen (key : string) (d : db) : res Z :=
  match load_hash key true d with Err e => Err e | Ok h => Ok (ht_len h) end.

(** hash_table.go:272-280 HMGet *)
Definition HMGet (ext : Ext) (key : string) (fs : list string) (d : db) : res (list ival) :=
  match load_hash key true d with Err e => Err e | Ok h => Ok (ht_mget ext fs h) end.

(** hash_table.go:294-297: the loop of HSet *)
Fixpoint ht_set_all (kvs : list (string * hval)) (nx : bool) (h : htable) (cnt : Z) : htable * Z :=
  match kvs with
  | [] => (h, cnt)
  | (k, v) :: r => let (h', n) := ht_set k v nx h in ht_set_all r nx h' (cnt + n)
  end.

(** hash_table.go:283-300 HSet: a new table is not stored in the keyspace *)
Definition HSet (key : string) (nx : bool) (kvs : list (string * hval)) (d : db) : db * res Z :=
  match load_hash key false d with
  | Err ErrNil => (d, Ok (ht_set_all kvs nx ht_new 0).2)
  | Err e => (d, Err e)
  | Ok h => let (h', n) := ht_set_all kvs nx h 0 in (put key (VHash h') d, Ok n)
  end.

(** hash_table.go:302-309 HVals *)
Definition HVals (ext : Ext) (c : choices) (key : string) (d : db) : res (list string) :=
  match load_hash key true d with Err e => Err e | Ok h => Ok (ht_vals ext (ch_ord c 0%nat) h) end.

(** ** Sorted sets (sorted_set.go:24-29, 516-846) *)

(** sorted_set.go:24-29 newZSet *)
Definition zs_new : zset := ZSet sm_new sl_new.

(** [*(de.getValue().( *float64))]: the score in the node the entry points to *)
Definition entry_score (p : loc) (z : zset) : outcome float :=
  let* nd := zn p (zs_sl z) in Ret (zi_score nd).

(** the flags of ZADD: consts.go:25-30 *)
Record zflags := ZF { zf_incr : bool; zf_nx : bool; zf_xx : bool }.

(** sorted_set.go:516-553 zAdd; [draw] drives zslRandomLevel *)
Definition zs_add (draw : nat) (score : float) (value : string) (fl : zflags) (z : zset)
    : outcome (zset * option loc) :=
  match sm_get (zs_m z) value with
  | None =>
      if zf_xx fl then Ret (z, None)
      else
        let* (s', x) := sl_insert (random_level draw) score value (zs_sl z) in
        Ret (ZSet (sm_set (zs_m z) value x) s', Some x)
  | Some p =>
      if zf_nx fl then Ret (z, None)
      else
        let* old := entry_score p z in
        let score := if zf_incr fl then fadd score old else score in
        if negb (feq score old) then
          let* (s', o) := sl_update_score (random_level draw) old score value (zs_sl z) in
          match o with
          | None => Ret (ZSet (zs_m z) s', None)
          | Some x => Ret (ZSet (sm_set (zs_m z) value x) s', Some x)
          end
        else Ret (z, None)
  end.

(** sorted_set.go:577-589 loadAndCheckZSet *)
Definition load_zset (key : string) (check : bool) (d : db) : res zset :=
  match sm_get (db_keys d) key with
  | None => Err ErrNil
  | Some (VZSet z) => if check && (sl_len (zs_sl z) =? 0) then Err ErrNil else Ok z
  | Some _ => Err ErrTypeMismatch
  end.

(** sorted_set.go:610-615: the loop of ZAdd *)
Fixpoint zs_add_all (lvl : nat → nat) (j : nat) (ms : list (float * string)) (fl : zflags)
    (z : zset) (cnt : Z) : outcome (zset * Z) :=
  match ms with
  | [] => Ret (z, cnt)
  | (sc, v) :: r =>
      let* (z', o) := zs_add (lvl j) sc v fl z in
      zs_add_all lvl (S j) r fl z' (match o with Some _ => cnt + 1 | None => cnt end)
  end.

(** sorted_set.go:596-618 ZAdd *)
Definition ZAdd (c : choices) (key : string) (ms : list (float * string)) (fl : zflags) (d : db)
    : outcome (db * res Z) :=
  match load_zset key false d with
  | Err ErrNil =>
      let* (z', n) := zs_add_all (ch_lvl c) 0%nat ms fl zs_new 0 in Ret (put key (VZSet z') d, Ok n)
  | Err e => Ret (d, Err e)
  | Ok z => let* (z', n) := zs_add_all (ch_lvl c) 0%nat ms fl z 0 in Ret (put key (VZSet z') d, Ok n)
  end.

(** sorted_set.go:620-632 ZScore *)
Definition ZScore (key v : string) (d : db) : outcome (res float) :=
  match load_zset key true d with
  | Err e => Ret (Err e)
  | Ok z =>
      match sm_get (zs_m z) v with
      | None => Ret (Err ErrNil)
      | Some p => let* f := entry_score p z in Ret (Ok f)
      end
  end.

(** sorted_set.go:634-647 ZRank *)
Definition ZRank (key v : string) (d : db) : outcome (res Z) :=
  match load_zset key true d with
  | Err e => Ret (Err e)
  | Ok z =>
      match sm_get (zs_m z) v with
      | None => Ret (Err ErrNil)
      | Some p => let* f := entry_score p z in let* r := sl_rank f v (zs_sl z) in Ret (Ok r)
      end
  end.

(** sorted_set.go:655-665: the loop of ZRem *)
Fixpoint zs_rem_all (vs : list string) (z : zset) (cnt : Z) : outcome (zset * Z) :=
  match vs with
  | [] => Ret (z, cnt)
  | v :: r =>
      let (m, o) := sm_load_and_delete (zs_m z) v in
      match o with
      | None => zs_rem_all r z cnt
      | Some p =>
          let* f := entry_score p z in
          let* (s', _) := sl_delete f v (zs_sl z) in
          zs_rem_all r (ZSet m s') (cnt + 1)
      end
  end.

(** sorted_set.go:649-668 ZRem *)
Definition ZRem (key : string) (vs : list string) (d : db) : outcome (db * res Z) :=
  match load_zset key true d with
  | Err e => Ret (d, Err e)
  | Ok z => let* (z', n) := zs_rem_all vs z 0 in Ret (put key (VZSet z') d, Ok n)
  end.

(** sorted_set.go:670-677 ZCard *)
Definition ZCard (key : string) (d : db) : res Z :=
  match load_zset key true d with Err e => Err e | Ok z => Ok (sl_len (zs_sl z)) end.

(** sorted_set.go:825-846 handleFloatScoreStr *)
Definition score_bound (ext : Ext) (s : string) : res (float * bool) :=
  let s := to_lower s in
  if String.eqb s "-inf" then Ok (ninf, false)
  else if String.eqb s "+inf" then Ok (pinf, false)
  else
    let (tmp, open) := trim_paren s in
    match parse_float ext tmp with
    | None => Err ErrNotFloat
    | Some f => Ok (f, open)
    end.

(** sorted_set.go:679-696 ZCount *)
Definition ZCount (ext : Ext) (key minStr maxStr : string) (d : db) : outcome (res Z) :=
  match load_zset key true d with
  | Err e => Ret (Err e)
  | Ok z =>
      match score_bound ext minStr with
      | Err e => Ret (Err e)
      | Ok (mn, mno) =>
          match score_bound ext maxStr with
          | Err e => Ret (Err e)
          | Ok (mx, mxo) => let* n := sl_count mn mno mx mxo (zs_sl z) in Ret (Ok n)
          end
      end
  end.

(** sorted_set.go:698-718 ZIncr *)
Definition ZIncr (c : choices) (key : string) (score : float) (v : string) (d : db)
    : outcome (db * res float) :=
  let go (z : zset) : outcome (db * res float) :=
    let* (z', o) := zs_add (ch_lvl c 0%nat) score v (ZF true false false) z in
    let d' := put key (VZSet z') d in
    match o with
    | None => Ret (d', Err ErrNil)
    | Some x => let* f := entry_score x z' in Ret (d', Ok f)
    end in
  match load_zset key false d with
  | Err ErrNil => go zs_new
  | Err e => Ret (d, Err e)
  | Ok z => go z
  end.

(** sorted_set.go:722-756 ZRange; flags ZRangeInByScore, ZRangeInWithScores *)
Definition ZRange (ext : Ext) (key minStr maxStr : string) (byScore withScores : bool) (d : db)
    : outcome (res (list string)) :=
  match load_zset key true d with
  | Err e => Ret (Err e)
  | Ok z =>
      if byScore then
        match score_bound ext minStr with
        | Err e => Ret (Err e)
        | Ok (mn, mno) =>
            match score_bound ext maxStr with
            | Err e => Ret (Err e)
            | Ok (mx, mxo) =>
                let* vs := sl_range_by_score ext mn mno mx mxo withScores (zs_sl z) in Ret (Ok vs)
            end
        end
      else
        match parse_int minStr, parse_int maxStr with
        | Some start, Some stop => let* vs := sl_range ext start stop withScores (zs_sl z) in Ret (Ok vs)
        | _, _ => Ret (Err ErrNotInteger)
        end
  end.

(** sorted_set.go:758-777 ZRevRange *)
Definition ZRevRange (ext : Ext) (key minStr maxStr : string) (withScores : bool) (d : db)
    : outcome (res (list string)) :=
  match load_zset key true d with
  | Err e => Ret (Err e)
  | Ok z =>
      match parse_int minStr, parse_int maxStr with
      | Some start, Some stop => let* vs := sl_rev_range ext start stop withScores (zs_sl z) in Ret (Ok vs)
      | _, _ => Ret (Err ErrNotInteger)
      end
  end.

(** sorted_set.go:785-798 and 807-820: the loops of ZPopMin ([max] = false: rank 1) and ZPopMax
    ([max] = true: rank uint(length)).  [n] counts the remaining iterations.  The dictionary is not
    touched. *)
Fixpoint zs_pop_loop (ext : Ext) (max : bool) (n : nat) (s : skiplist) (acc : list string)
    : outcome (skiplist * list string) :=
  match n with
  | O => Ret (s, acc)
  | S n' =>
      let* o := sl_find_by_rank (if max then u64 (sl_len s) else 1) s in
      match o with
      | None => Ret (s, acc)
      | Some x =>
          let* nd := zn x s in
          let* (s', _) := sl_delete (zi_score nd) (zi_val nd) s in
          let* nd' := zn x s' in
          zs_pop_loop ext max n' s' (acc ++ [zi_val nd'; format_float ext (zi_score nd')])
      end
  end.

(** sorted_set.go:779-799 ZPopMin, 801-821 ZPopMax *)
Definition ZPop (ext : Ext) (max : bool) (key : string) (cnt : Z) (d : db)
    : outcome (db * res (list string)) :=
  match load_zset key true d with
  | Err e => Ret (d, Err e)
  | Ok z =>
      let* (s', vs) := zs_pop_loop ext max (Z.to_nat cnt) (zs_sl z) [] in
      Ret (put key (VZSet (ZSet (zs_m z) s')) d, Ok vs)
  end.
