(** Model of lib/shard_map/shard_map.go: a map split in 32 shards selected by an FNV hash. *)
From Verif Require Import GoBase.

(** shard_map.go:5 *)
Definition shard_count : nat := 32.

(** shard_map.go:8-14.  A [Map] is a slice of 32 Go maps.  Each Go map is a [gmap]; the order
    in which [range] visits it is supplied separately by an [order] oracle. *)
Notation smap A := (list (gmap string A)).

(** shard_map.go:154-163 fnv32: uint32 arithmetic, wrap-around modulo 2^32. *)
Fixpoint fnv32_loop (h : N) (key : string) : N :=
  match key with
  | EmptyString => h
  | String c r =>
      fnv32_loop (N.lxor ((h * 16777619) mod 4294967296) (N_of_ascii c)) r
  end.
Definition fnv32 (key : string) : N := fnv32_loop 2166136261 key.

(** shard_map.go:150-152 GetShard: the index. *)
Definition shard_idx (key : string) : nat := N.to_nat (fnv32 key mod N.of_nat shard_count).

Section smap.
Context {A : Type}.
Implicit Types (m : smap A) (key : string).

(** shard_map.go:16-23 New *)
Definition sm_new : smap A := replicate shard_count ∅.

(** shard_map.go:150-152 GetShard.  Indexing cannot be out of range: every Map comes from New and
    operations keep its length (lemma [sm_wf_*]); the default is never used. *)
Definition get_shard m key : gmap string A := default ∅ (m !! shard_idx key).
(** in-place mutation of the shard under [key] *)
Definition upd_shard m key (f : gmap string A → gmap string A) : smap A :=
  alter f (shard_idx key) m.

(** shard_map.go:25-30 Get *)
Definition sm_get m key : option A := get_shard m key !! key.

(** shard_map.go:32-36 Has *)
Definition sm_has m key : bool := bool_decide (is_Some (get_shard m key !! key)).

(** shard_map.go:38-41 Set *)
Definition sm_set m key (v : A) : smap A := upd_shard m key (λ s, <[key := v]> s).

(** shard_map.go:43-52 SetIfAbsent *)
Definition sm_set_if_absent m key (v : A) : smap A * bool :=
  match get_shard m key !! key with
  | None => (upd_shard m key (λ s, <[key := v]> s), true)
  | Some _ => (m, false)
  end.

(** shard_map.go:54-63 DeleteIfExists *)
Definition sm_delete_if_exists m key : smap A * bool :=
  match get_shard m key !! key with
  | None => (m, false)
  | Some _ => (upd_shard m key (delete key), true)
  end.

(** shard_map.go:65-74 LoadAndDelete *)
Definition sm_load_and_delete m key : smap A * option A :=
  match get_shard m key !! key with
  | None => (m, None)
  | Some v => (upd_shard m key (delete key), Some v)
  end.

(** shard_map.go:76-79 Delete *)
Definition sm_delete m key : smap A := upd_shard m key (delete key).

(** The sequence of entries a full [range] over all shards visits, shard 0 first;
    within shard [i] the order is decided by the oracle. *)
Fixpoint entries_from (i : nat) (ord : order) (m : smap A) : list (string * A) :=
  match m with
  | [] => []
  | s :: r => shuffle (ord i) (map_to_list s) ++ entries_from (S i) ord r
  end.
Definition sm_entries (ord : order) m : list (string * A) := entries_from 0 ord m.

(** shard_map.go:81-90 Range: the callback's captured variables are the state [st]; iteration stops
    when the callback returns false. *)
Fixpoint range_loop {S} (f : S → string → A → S * bool) (st : S) (l : list (string * A)) : S :=
  match l with
  | [] => st
  | (k, v) :: r =>
      let (st', go) := f st k v in
      if go then range_loop f st' r else st'
  end.
Definition sm_range {S} (ord : order) m (f : S → string → A → S * bool) (st : S) : S :=
  range_loop f st (sm_entries ord m).

(** shard_map.go:92-106 RangeAndDelete: the callback answers (del, rng). Only the visited key is
    ever deleted, which Go allows during iteration and which does not disturb the rest of it. *)
Fixpoint rad_loop {S} (f : S → string → A → S * bool * bool)
    (st : S) (m : smap A) (l : list (string * A)) : S * smap A :=
  match l with
  | [] => (st, m)
  | (k, v) :: r =>
      let '(st', del, rng) := f st k v in
      let m' := if del then upd_shard m k (delete k) else m in
      if rng then rad_loop f st' m' r else (st', m')
  end.
Definition sm_range_and_delete {S} (ord : order) m
    (f : S → string → A → S * bool * bool) (st : S) : S * smap A :=
  rad_loop f st m (sm_entries ord m).

(** shard_map.go:112-122 Upsert: [f] answers a value to store or aborts with an error.
    The Go callback's result is an interface{} which is the error when it aborts. *)
Definition sm_upsert {E} m key (f : option A → E + A) : smap A * (E + A) :=
  match f (get_shard m key !! key) with
  | inl e => (m, inl e)
  | inr v => (upd_shard m key (λ s, <[key := v]> s), inr v)
  end.

(** shard_map.go:124-134 Keys *)
Definition sm_keys (ord : order) m : list string := (sm_entries ord m).*1.

(** shard_map.go:137-147 Items: a fresh map with all entries. *)
Definition sm_items (ord : order) m : gmap string A :=
  foldl (λ acc kv, <[kv.1 := kv.2]> acc) ∅ (sm_entries ord m).

End smap.
