# Wrong programs: edits of the model's definitions, each with the claim (property ids) it makes false.
MUTANTS = {}
def mut(id, defn, edits, claim, why):
    if isinstance(edits, tuple): edits = [edits]
    MUTANTS[id] = dict(defn=defn, edits=edits, claim=claim, why=why)

# ---- protocol
mut("w1", "Protocol.decode_single_line", ("Protocol", "if slen line <? 3 then", "if slen line <? 4 then"), ["C05"],
    "lines of three bytes ('$' or '*' header with an empty number, e.g. a '*' CR LF frame) are refused: boundary of the minimum line length")
mut("w2", "Protocol.read_bulk", ("Protocol", "let n := wrap64 (ln + 2) in", "let n := wrap64 (ln + 1) in"), ["C01"],
    "only one byte of the terminator is consumed, so the next argument starts at LF")
mut("w3", "Protocol.read_array", ("Protocol", "| DOk (r3, rest2) => read_array f (ln - 1) r3 rest2", "| DOk (r3, rest2) => read_array f (ln - 1) r2 rest2"), ["C01"],
    "the argument just read is dropped (the receive of before the bulk is passed on)")
mut("w4", "Protocol.encode_item", ("Protocol", 'Ret ("$" ++ itoa (slen s) ++ CRLF ++ s ++ CRLF)%string', 'Ret ("$" ++ itoa (slen s + 2) ++ CRLF ++ s ++ CRLF)%string'), ["C02"],
    "bulk length counts the terminator")
mut("w5", "Protocol.encode", ("Protocol", 'Ret ("*" ++ itoa (Z.of_nat (length (rsp_items r))) ++ CRLF ++ body)%string', 'Ret ("*" ++ itoa (Z.of_nat (length (rsp_items r)) - 1) ++ CRLF ++ body)%string'), ["C02"],
    "array header one too small")
mut("w6", "Protocol.length_loop", ("Protocol", "if Ascii.eqb c CR then Ret ln\n", "if Ascii.eqb c CR || Ascii.eqb c LF then Ret ln\n"), ["C03 (refutation)", "C44"],
    "the fixed program: a header line without CR no longer panics; the refutation must fail, since the program no longer has the bug")
# ---- shard map
mut("sm1", "ShardMap.sm_set_if_absent", ("ShardMap", "| None => (upd_shard m key (λ s, <[key := v]> s), true)\n  | Some _ => (m, false)\n  end.\n\n(** shard_map.go:54-63", "| None => (upd_shard m key (λ s, <[key := v]> s), true)\n  | Some _ => (upd_shard m key (λ s, <[key := v]> s), false)\n  end.\n\n(** shard_map.go:54-63"), ["C11"],
    "SetIfAbsent overwrites a present key")
mut("sm2", "ShardMap.sm_load_and_delete", ("ShardMap", "| Some v => (upd_shard m key (delete key), Some v)", "| Some v => (m, Some v)"), ["C11", "C32"],
    "LoadAndDelete does not delete")
mut("sm3", "ShardMap.entries_from", ("ShardMap", "Definition sm_entries (ord : order) m : list (string * A) := entries_from 0 ord m.", "Definition sm_entries (ord : order) m : list (string * A) := entries_from 0 ord (take 31 m)."), ["C11", "C14"],
    "Range forgets the last shard")
mut("sm4", "ShardMap.rad_loop", ("ShardMap", "if rng then rad_loop f st' m' r else (st', m')", "if rng then rad_loop f st' m' r else (st', m)"), ["C11"],
    "RangeAndDelete: a deletion on the step that also stops the iteration is dropped")
# ---- strings and keys
mut("s1", "Db.IncrBy", ("Db", "let v := wrap64 (i + incr) in", "let v := wrap64 (i - incr) in"), ["C17"],
    "sign of the increment")
mut("s2", "Redis.c_decrby", ("Redis", "incr_reply k (wrap64 (- n)) d end.", "incr_reply k n d end."), ["C17"],
    "DECRBY increments")
mut("s3", "Db.Append", ("Db", "(put key (VStr (s ++ v)%string) d, Ok (slen s + slen v))", "(put key (VStr (v ++ s)%string) d, Ok (slen s + slen v))"), ["C18"],
    "APPEND prepends")
mut("s4", "Db.Append", ("Db", "(put key (VStr (s ++ v)%string) d, Ok (slen s + slen v))", "(put key (VStr (s ++ v)%string) d, Ok (slen v))"), ["C18"],
    "APPEND replies the length of the suffix")
mut("s5", "Db.MSet_", ("Db", "| k :: v :: r => MSet_ r (Set_ k v d)", "| k :: v :: r => Set_ k v (MSet_ r d)"), ["C19"],
    "MSET applies its pairs last to first: a repeated key keeps the first value")
mut("s6", "Db.MGet", ("Db", "        | Err e => IErr e\n        | Ok s => IStr s", "        | Err e => INil\n        | Ok s => IStr s"), ["C19 (exact behaviour of MGET on other types)"],
    "the fixed program: MGET on another type answers nil")
mut("s7", "Redis.c_get", ("Redis", "| Err ErrNil => reply rsp_nil d\n  | Err e => fail e d\n  | Ok v => reply (rsp_interfaces false [IStr v]) d", "| Err ErrNil => reply (rsp_bulk EmptyString) d\n  | Err e => fail e d\n  | Ok v => reply (rsp_interfaces false [IStr v]) d"), ["C16"],
    "GET of a missing key answers the empty string")
mut("k1", "Db.Del", ("Db", "(Db m (db_sets d) (db_fresh d), if removed : bool then 1 else 0).", "(d, if removed : bool then 1 else 0)."), ["C14", "C39"],
    "DEL does not delete")
mut("k2", "Db.Set_", ("Db", "Definition Set_ (key v : string) (d : db) : db := put key (VStr v) d.", "Definition Set_ (key v : string) (d : db) : db :=\n  match sm_get (db_keys d) key with Some (VList l) => d | _ => put key (VStr v) d end."), ["C16", "C39"],
    "SET does not replace a list")
mut("k3", "Redis.c_exists", ("Redis", "reply (rsp_int (if Exists_ k d then 1 else 0)) d.", "reply (rsp_int (if Exists_ k d then 0 else 1)) d."), ["C14"],
    "EXISTS inverted")
mut("k4", "Db.Keys", ("Db", "((if g k : bool then acc ++ [k] else acc), true)) []).", "((if g k : bool then acc ++ [k] else acc), negb (g k))) [])."), ["C14"],
    "KEYS stops at the first match")
mut("k5", "Redis.exec", ("Redis", "exec_lowered (to_lower name) a d in", "exec_lowered name a d in"), ["C39 (names are case insensitive)"],
    "command names become case sensitive")
# ---- lists
mut("l1", "DList.dl_lrange", ("DList", "let stop := if dl_len l <=? stop then dl_len l - 1 else stop in\n        lrange_loop", "let stop := if dl_len l <=? stop then dl_len l - 2 else stop in\n        lrange_loop"), ["C23"],
    "LRANGE with a stop beyond the end loses the last element")
mut("l2", "DList.dl_lpop", ("DList", "Ret (Some (ln_val nd), match next with None => set_tail None l3 | Some _ => l3 end)", "Ret (Some (ln_val nd), l3)"), ["C20"],
    "LPOP of the last element leaves the tail pointer")
mut("l3", "DList.rem_head_loop", ("DList", "                 let l2 := match next with Some x => set_prev x (Some prev) l1 | None => l1 end in\n                 let l3 := set_next c None (set_prev c None l2) in\n                 Ret (prev, l3, n - 1, cnt + 1)\n               else\n                 let* pn := node_at prev l in\n                 let* p' := deref (ln_next pn) in", "                 let l2 := l1 in\n                 let l3 := set_next c None (set_prev c None l2) in\n                 Ret (prev, l3, n - 1, cnt + 1)\n               else\n                 let* pn := node_at prev l in\n                 let* p' := deref (ln_next pn) in"), ["C20", "C21"],
    "LREM from the head does not repair the back pointer of the next node")
mut("l4", "DList.dl_linsert", ("DList", "| None => set_tail (Some q) l3", "| None => l3"), ["C20"],
    "LINSERT AFTER the last element does not move the tail")
mut("l5", "DList.dl_index_node", ("DList", "let reverse := dl_len l / 2 + 1 <? i in", "let reverse := dl_len l / 2 - 1 <? i in"), [],
    "equivalent program: another choice of the direction of the walk (sanity check: no claim is false, proofs may need repair)")
mut("l6", "Db.LPop", ("Db", "Ok l => let* (l', vs) := dl_lpop_n count l in Ret (put key (VList l') d, Ok vs)\n  end.", "Ok l => let* (l', vs) := dl_lpop_n count l in Ret (d, Ok vs)\n  end."), ["C20"],
    "LPOP does not update the list")
mut("l7", "DList.dl_lrem", ("DList", "else dl_rem_head value (dl_len l) l.", "else dl_rem_head value (dl_len l - 1) l."), ["C21"],
    "LREM 0 misses the last occurrence when all elements are equal")
mut("l8", "DList.dl_lset", ("DList", "| Some p => Ret (set_val p val l, true)\n  end.\n\n(** list.go:385", "| Some p => Ret (l, true)\n  end.\n\n(** list.go:385"), ["C23", "C20"],
    "LSET does not store")
mut("l9", "Redis.c_lindex", ("Redis", "let* r := LIndex s1 i d in", "let* k := arg a 0 in let* r := LIndex k i d in"), ["C49 (refutation)"],
    "the fixed program: LINDEX reads the right key; the refutation must fail")
# ---- sets
mut("t1", "Db.ms_diff", ("Db", "((if negb (sm_has (ms_m s2) k) then (ms_add k acc).1 else acc), true)) ms_new.", "((if sm_has (ms_m s2) k then (ms_add k acc).1 else acc), true)) ms_new."), ["C26"],
    "SDIFF computes the intersection")
mut("t2", "Db.ms_union", ("Db", "sm_range o2 (ms_m s2) f (sm_range o1 (ms_m s1) f ms_new).", "sm_range o2 (ms_m s2) f ms_new."), ["C26"],
    "SUNION forgets its first argument")
mut("t3", "Db.ms_rem", ("Db", "if exists_ : bool then (MSet m (ms_len s - 1), 1) else (MSet m (ms_len s), 0).", "if exists_ : bool then (MSet m (ms_len s), 1) else (MSet m (ms_len s), 0)."), ["C25"],
    "SREM does not decrement the counter")
mut("t4", "Db.SMove", ("Db", "if exists_ : bool then SAdd target [v] (put_set p (MSet m (ms_len s)) d)", "if exists_ : bool then SAdd target [v] d"), ["C28"],
    "SMOVE copies instead of moving")
mut("t5", "Db.SOpStore", ("Db", "let (p, d1) := alloc_set s d in\n      Ret (put storeKey (VSet p) d1, Ok (ms_len s))", "let (p, d1) := alloc_set s d in\n      Ret (d1, Ok (ms_len s))"), ["C27"],
    "the STORE commands do not store")
mut("t6", "Db.ms_pop", ("Db", "(λ st k _, if (st.1 <=? 0) then (st, false, false) else ((st.1 - 1, st.2 ++ [k]), true, true))", "(λ st k _, if (st.1 <? 0) then (st, false, false) else ((st.1 - 1, st.2 ++ [k]), true, true))"), ["C28"],
    "SPOP n removes n+1 members")
mut("t7", "Db.SOpStore", ("Db", "| Ok (AObj p s) => Ret (put storeKey (VSet p) d, Ok (ms_len s))", "| Ok (AObj p s) => let (q, d1) := alloc_set s d in Ret (put storeKey (VSet q) d1, Ok (ms_len s))"), ["C27 (C27_one_set: sharing)"],
    "the fixed program: one-source STORE copies; the theorem describing the sharing must fail")
# ---- sorted sets
mut("z1", "SkipList.key_lt", ("SkipList", "flt (zi_score nd) score || (feq (zi_score nd) score && str_ltb (zi_val nd) value).", "flt (zi_score nd) score || (feq (zi_score nd) score && str_ltb value (zi_val nd))."), ["C29", "C30"],
    "ties are ordered by descending member")
mut("z2", "SkipList.splice_step", ("SkipList", "Ret (set_lk u i (Some x, r0 - ri + 1) (set_lk x i (fwd, span - (r0 - ri)) s)).", "Ret (set_lk u i (Some x, r0 - ri) (set_lk x i (fwd, span - (r0 - ri)) s))."), ["C31"],
    "span of the predecessor one too small: ranks are wrong")
mut("z3", "SkipList.bump_step", ("SkipList", "Ret (set_lk u i (fwd, span + 1) s).", "Ret (set_lk u i (fwd, span) s)."), ["C31"],
    "spans above the new node are not bumped")
mut("z4", "SkipList.sl_insert", ("SkipList", "| Some y => set_back y (Some x) s5\n            | None", "| Some y => s5\n            | None"), ["C35"],
    "insert does not set the back pointer of the following node")
mut("z5", "Db.zs_rem_all", ("Db", "zs_rem_all r (ZSet m s') (cnt + 1)", "zs_rem_all r (ZSet (zs_m z) s') (cnt + 1)"), ["C32"],
    "ZREM leaves the dictionary entry")
mut("z6", "SkipList.range_bounds", ("SkipList", "if (stop <? start) || (len <=? start) then None", "if (stop <=? start) || (len <=? start) then None"), ["C29", "C39"],
    "a range of one element is empty")
mut("z7", "Db.zs_add", ("Db", "let score := if zf_incr fl then fadd score old else score in", "let score := if zf_incr fl then fadd old old else score in"), ["C36"],
    "ZINCR adds the old score to itself")
mut("z8", "SkipList.random_level", ("SkipList", "if (S draw <? max_level)%nat then S draw else max_level.", "S draw."), ["C38 (levels stay below 32)"],
    "level not capped at 32")
mut("z9", "SkipList.sl_update_score", ("SkipList", "| Some y => let* yn := zn y s in Ret (flt newScore (zi_score yn))", "| Some y => let* yn := zn y s in Ret true"), ["C29"],
    "a score update in place that passes the successor: order lost")
mut("z10", "SkipList.sl_min_score_rank", ("SkipList", "((if flt (zi_score cur) score && flt score (zi_score nd) then 1 else 0) +", "((if flt (zi_score cur) score && flt score (zi_score nd) then 0 else 0) +"), [],
    "an equivalent program: this branch of minScoreRank is dead (the loop only moves to scores up to the bound), all theorems must still hold")
mut("z14", "SkipList.sl_min_score_rank", ("SkipList", "(if feq (zi_score nd) score && open then 1 else 0))", "(if feq (zi_score nd) score && open then 0 else 0))"), ["C34"],
    "an open lower end includes the member at the end")
mut("z11", "Db.zs_pop_loop", ("Db", "let* o := sl_find_by_rank (if max then u64 (sl_len s) else 1) s in", "let* o := sl_find_by_rank (if max then 1 else u64 (sl_len s)) s in"), ["C33"],
    "ZPOPMIN and ZPOPMAX swapped")
mut("z12", "Redis.zadd_args", ("Redis", "zadd_args r fl (ms ++ [(f, y)])", "zadd_args r fl ((f, y) :: ms)"), ["C30"],
    "ZADD processes its pairs last to first: a repeated member keeps the first score")
mut("z13", "Redis.zadd_args", ("Redis", 'if String.eqb (to_lower x) "xx" then zadd_args t (ZF (zf_incr fl) (zf_nx fl) true) ms', 'if String.eqb (to_lower x) "xx" then zadd_args t (ZF (zf_incr fl) true (zf_xx fl)) ms'), ["C36"],
    "ZADD XX behaves like NX")
# ---- hashes
mut("h1", "Db.ht_set", ("Db", "let len := if negb (sm_has (ht_m h) f) then ht_len h + 1 else ht_len h in", "let len := ht_len h + 1 in"), ["C52"],
    "overwriting a field counts it again")
mut("h2", "Db.ht_incr", ("Db", "| Some (HInt z) => inr (HInt (wrap64 (z + i)))", "| Some (HInt z) => inr (HInt i)"), ["C40"],
    "HINCRBY overwrites")
mut("h3", "Db.HSet", ("Db", "| Err ErrNil => (d, Ok (ht_set_all kvs nx ht_new 0).2)", "| Err ErrNil => let (h, n) := ht_set_all kvs nx ht_new 0 in (put key (VHash h) d, Ok n)"), ["C37", "C51 (refutation)"],
    "the fixed program: HSET creates the hash; 'no reachable state holds a hash' becomes false")
# ---- server
mut("v1", "Server.step st_worker_take", ("Server", "c_worker s = WSelect → c_chan s = e :: rest →\n    step s (LTau e) (set_cmd (set_worker (set_chan s rest) (WAwait e)) e CReady)", "c_chan s = e :: rest →\n    step s (LTau e) (set_cmd (set_worker (set_chan s rest) (WAwait e)) e CReady)"), ["C07"],
    "the worker does not wait for the previous command: two commands can overlap")
mut("v2", "Server.step st_done", ("Server", "(set_g s g (GReply k (ev_rsp e)))", "(set_g s g (GReply (S k) (ev_rsp e)))"), ["C07"],
    "the reply goes to another connection")
mut("v3", "Server.step st_done", ("Server", "c_evs s !! g = Some e → ev_done e = true →\n    step s (LTau g) (set_g s g (GReply k (ev_rsp e)))", "c_evs s !! g = Some e →\n    step s (LTau g) (set_g s g (GReply k (ev_rsp e)))"), ["C42", "C07"],
    "the handler does not wait for done: it may end without a reply")
mut("v4", "Server.step st_write", ("Server", "step s (LWrite g k b) (set_g s g GEnd)\n| st_write_panic", "step s (LWrite g k b) s\n| st_write_panic"), ["C07"],
    "the handler writes its reply again and again")
mut("v5", "Server.step st_exec", ("Server", "step s (LExec e c (ev_cmd ev)) (set_db (set_cmd s e (CSending r)) d')", "step s (LExec e c (ev_cmd ev)) (set_db s d')"), ["C07 (a request is executed at most once)"],
    "the command goroutine may execute its command again")
mut("v6", "Server.step st_stop_wait", ("Server", "| st_stop_wait : c_stop s = SWait → c_worker s = WExit → ", "| st_stop_wait : c_stop s = SWait → "), ["C10"],
    "Stop returns without waiting for the worker: commands execute after shutdown")
mut("v7", "Server.chan_cap", ("Server", "Definition chan_cap : nat := 1.", "Definition chan_cap : nat := 2."), [],
    "capacity 2: sanity check that FIFO etc. do not depend on it")
mut("v8", "Server.step st_add", ("Server", "(set_chan (set_g s g (GSelect k)) (c_chan s ++ [g]))", "(set_chan (set_g s g (GSelect k)) (g :: c_chan s))"), [],
    "events are queued in front (with capacity 1 this is equivalent)")
# ---- the reader of the v1 server
mut("sr1", "Stream.line_from", ("Stream", "line_from (buf ++ c) r e", "line_from (c ++ buf) r e"), ["C56"],
    "bytes of a later read are put in front of those of an earlier one")
mut("sr2", "Stream.stream_full", ("Stream", "let (v, t) := take_pad n c in Got v (Rd t r (rd_end rd))", "let (v, t) := take_pad n c in Got v (Rd \"\" r (rd_end rd))"), ["C56"],
    "the rest of a read is thrown away after a bulk string")
mut("sr3", "Stream.stream_array", ("Stream", "else stream_array f (ln - 1) r2 rd2", "else stream_array f (ln - 2) r2 rd2"), ["C56"],
    "an element that is not a bulk string counts twice")
mut("sr4", "Stream.line_from", ("Stream", "| [] => match e with Some x => Fail (Ended x) (Rd \"\" [] e) | None => Wait end\n      end\n  end.", "| [] => match e with Some x => Fail (Ended x) (Rd \"\" [] e) | None => Fail BadInput (Rd \"\" [] e) end\n      end\n  end."), ["C56"],
    "an incomplete line is an error instead of waiting for more")
mut("sr5", "Stream.stream_bulk", ("Stream", "let n := wrap64 (ln + 2) in", "let n := wrap64 (ln + 1) in"), ["C56"],
    "only one byte of CRLF is consumed")
# ---- the v1 server
mut("u1", "Server1.step1 v1_send", ("Server1", "k_rg c = RSend r → k_rchan c = None →", "k_rg c = RSend r →"), ["C57", "C58"],
    "the receiving goroutine overwrites a request that was not taken: it is lost")
mut("u2", "Server1.step1 v1_start", ("Server1", "k_h c = HLoop → k_rchan c = Some r →", "k_rchan c = Some r →"), ["C57", "C58"],
    "the handler takes a request while one is being handled")
mut("u3", "Server1.step1 v1_write", ("Server1", "step1 s (VWrite k g b) (upd_pool (upd s k (with_h c HLoop)) (set_g (v_pool s) g GEnd))", "step1 s (VWrite k g b) (upd_pool (upd s k (with_h c HLoop)) (v_pool s))"), [],
    "the request's state stays at its reply after the reply; no step can use it again, so all theorems may still hold")
mut("u4", "Server1.step1 v1_write", ("Server1", "step1 s (VWrite k g b) (upd_pool (upd s k (with_h c HLoop)) (set_g (v_pool s) g GEnd))", "step1 s (VWrite k g b) s"), ["C57"],
    "the handler writes its reply again and again")
mut("u5", "Server1.step1 v1_start", ("Server1", "(Cn (k_rd c) (k_rg c) None (k_rclosed c) (k_echan c) (k_eclosed c) (after_start g r))", "(Cn (k_rd c) (k_rg c) (k_rchan c) (k_rclosed c) (k_echan c) (k_eclosed c) (after_start g r))"), ["C57"],
    "a request is not removed from the channel: it is served again")
mut("u6", "Server1.begin_request", ("Server1", "g (Ev (name :: args) None false)", "g (Ev (name :: []) None false)"), ["C57"],
    "the arguments are not passed on")
mut("u7", "Server1.step1 v1_ctx", ("Server1", "k_h c = HLoop → v_cancelled s = true → step1 s (VTau k) (upd s k (with_h c HClose))", "k_h c = HLoop → step1 s (VTau k) (upd s k (with_h c HClose))"), ["C59", "C60"],
    "the server closes a connection for no reason")
mut("u8", "Server1.step1 v1_cancel", ("Server1", "| v1_cancel : c_stop (v_pool s) = SReturned → ", "| v1_cancel : v_listen s = false → "), ["C60"],
    "handlers are told to end before the event pool is stopped")
mut("u9", "Server1.step1 v1_return", ("Server1", "| v1_return : v_listen s = false → map_Forall (λ _ c, k_h c = HEnd) (v_conns s) → ", "| v1_return : v_listen s = false → "), ["C60"],
    "Start returns without waiting for the handlers")
mut("u10", "Server1.step1 v1_write", ("Server1", "step1 s (VWrite k g b) (upd_pool", "step1 s (VWrite (S k) g b) (upd_pool"), ["C57"],
    "the reply goes to another connection")
mut("u11", "Server1.step1 v1_got", ("Server1", "(upd s k (with_rd c rd' (RSend r)))", "(upd s k (with_rd c (k_rd c) (RSend r)))"), ["C57"],
    "the bytes of a request are not consumed: it is decoded again")
mut("u12", "Server1.step1 v1_close", ("Server1", "(Some WeClosed)) (k_rg c)) HEnd))", "(Some WeClosed)) (k_rg c)) HLoop))"), ["C60"],
    "the handler goes on after closing the connection")
mut("u13", "Server1.step1 v1_open", ("Server1", "| v1_open k : v_listen s = true → v_conns s !! k = None →", "| v1_open k : v_conns s !! k = None →"), ["C60"],
    "connections are accepted after Stop has closed the listener")
# ---- ranks, termination
mut("z15", "SkipList.sl_max_score_rank", ("SkipList", "then Some (if feq (zi_score nd) score && open then -1 else 0)", "then Some (if feq (zi_score nd) score && open then 0 else 0)"), ["C34", "C54"],
    "an open upper end includes the member at the end")
mut("z16", "SkipList.walk", ("SkipList", "| None => walk f s test brk i y (r + span)", "| None => walk f s test brk i x (r + span)"), ["C55"],
    "the search does not move on: an endless loop")
mut("z17", "SkipList.splice_step", ("SkipList", "Ret (set_lk u i (Some x, r0 - ri + 1) (set_lk x i (fwd, span - (r0 - ri)) s)).", "Ret (set_lk u i (Some x, r0 - ri + 1) (set_lk x i (Some x, span - (r0 - ri)) s))."), ["C55"],
    "a new node is linked to itself: a cycle")
mut("z18", "Db.ZPop", ("Db", "let* (s', vs) := zs_pop_loop ext max (Z.to_nat cnt) (zs_sl z) [] in", "let* (s', vs) := zs_pop_loop ext (negb max) (Z.to_nat cnt) (zs_sl z) [] in"), ["C33", "C61"],
    "ZPOPMIN takes the greatest")
mut("z19", "SkipList.sl_update_score", ("SkipList", "if stay : bool then Ret (set_score x newScore s, Some x)", "if stay : bool then Ret (s, Some x)"), ["C63", "C30"],
    "a score update in place is forgotten")
mut("z20", "Db.zs_add", ("Db", "| Some x => Ret (ZSet (sm_set (zs_m z) value x) s', Some x)\n          end", "| Some x => Ret (ZSet (zs_m z) s', Some x)\n          end"), ["C63", "C30"],
    "the dictionary keeps the node of the old score")
mut("z21", "Db.zs_rem_all", ("Db", "zs_rem_all r (ZSet m s') (cnt + 1)", "zs_rem_all r (ZSet (zs_m z) s') (cnt + 1)"), ["C63", "C32"],
    "ZREM leaves the member in the dictionary: ZSCORE still answers")
mut("z22", "Db.zs_rem_all", ("Db", "zs_rem_all r (ZSet m s') (cnt + 1)", "zs_rem_all r (ZSet m (zs_sl z)) (cnt + 1)"), ["C32"],
    "ZREM does not remove the member from the ordered list")
mut("z23", "Db.zs_add", ("Db", "let score := if zf_incr fl then fadd score old else score in", "let score := if zf_incr fl then fadd score score else score in"), ["C63", "C36"],
    "ZINCR doubles the increment")
# ---- sets
mut("e1", "Db.ms_pop", ("Db", "(MSet m (ms_len s), st.2).", "(MSet m (ms_len s - Z.of_nat (length st.2)), st.2)."), ["C62", "C27"],
    "the fixed program: SPOP updates the length, 'SCARD still counts popped members' becomes false")
mut("e2", "Db.SMove", ("Db", "SAdd target [v] (put_set p (MSet m (ms_len s)) d)", "SAdd target [v] (put_set p (MSet m (ms_len s - 1)) d)"), ["C62"],
    "the fixed program: SMOVE updates the length")
# ---- the life of the process
mut("m1", "Main.err_cap", ("Main", "Definition err_cap : nat := 1.", "Definition err_cap : nat := 0."), ["C65"],
    "errChan cannot hold the error: the goroutine of Start never ends")
mut("m2", "Main.mstep ms_on_error", ("Main", "f_err s = S n → mstep s MCallStop (Life (f_srv s) TStop (f_sig s) n (f_exit s))", "f_err s = S n → mstep s MStep (Life (f_srv s) TDone (f_sig s) n (f_exit s))"), ["C65"],
    "Stop is not called when Start fails")
mut("m3", "Main.mstep ms_exit", ("Main", "| ms_exit : f_srv s = VDone → f_stop s = TDone →", "| ms_exit : f_stop s = TDone →"), ["C65"],
    "main does not wait for the server (a missing wg.Add)")
mut("m4", "Main.mstep ms_shutdown", ("Main", "f_srv s = VClosing → mstep s MShutdown", "f_srv s = VClosing → mstep s MStep"), ["C65"],
    "the event pool is not stopped when the server shuts down")
mut("m5", "Main.mstep ms_missed", ("Main", "mstep s MMissed (Life (f_srv s) TDone (f_sig s)", "mstep s MMissed (Life (f_srv s) TWait (f_sig s)"), ["C65"],
    "the fixed program: when Stop found no server it is tried again at the next signal; 'no signal ends it any more' becomes false, and so does 'Stop is called once'")
mut("m6", "Main.sig_cap", ("Main", "Definition sig_cap : nat := 1.", "Definition sig_cap : nat := 0."), ["C65"],
    "sigChan has no buffer: a signal is lost")
mut("m7", "Main.mstep ms_missed", ("Main", "(f_srv s ≠ VUp ∧ f_srv s ≠ VClosing) → mstep s MMissed", "(f_srv s ≠ VClosing) → mstep s MMissed"), ["C65"],
    "Stop asks for the wrong address and does not find the server that is up")
mut("m8", "Main.mstep ms_report", ("Main", "mstep s MStep (Life VDone (f_stop s) (f_sig s) (S (f_err s)) (f_exit s))", "mstep s MStep (Life VDone (f_stop s) (f_sig s) (f_err s) (f_exit s))"), ["C65"],
    "the error of Start is not reported")
mut("m9", "Main.mstep ms_stopped", ("Main", "| ms_late : f_stop s = TAwait → mstep s MLate (Life (f_srv s) TDone (f_sig s) (f_err s) (f_exit s))", "| ms_late : f_stop s = TAwait → mstep s MLate (Life (f_srv s) TWait (f_sig s) (f_err s) (f_exit s))"), ["C65"],
    "after five seconds Stop is called again")
# ---- the generator
mut("g1", "Gen.cmd_name", ("Gen", "| _ => to_lower (trim_space", "| _ => (trim_space"), ["C66"], "names are not lowered")
mut("g2", "Gen.parse_lines", ("Gen", "| Some f => (cmd_name last f, f) :: parse_lines (trim_space l) r\n              | None => parse_lines (trim_space l) r", "| Some f => (cmd_name last f, f) :: parse_lines (trim_space l) r\n              | None => parse_lines last r"), ["C66"],
    "the line above is not remembered")
mut("g3", "Gen.cmd_name", ("Gen", '(trim_suffix "." last)', "last"), ["C66"], "the dot stays in the name")
mut("g4", "Gen.cmd_name", ("Gen", '(trim_prefix "//" (trim_suffix', '(trim_prefix "/" (trim_suffix'), ["C66"], "one slash stays in the name")
mut("g5", "Gen.re_letter", ("Gen", "((65 <=? n) && (n <=? 90) || (97 <=? n) && (n <=? 122))%N", "((97 <=? n) && (n <=? 122))%N"), ["C66"], "capital letters are no letters")
mut("g6", "Gen.max_line", ("Gen", "Definition max_line : Z := 65535.", "Definition max_line : Z := 4096."), ["C66"], "the scanner's buffer is smaller")
mut("g7", "Gen.render_entries", ("Gen", '"] = " +:+ f +:+ render_entries r', '"] = " +:+ n +:+ render_entries r'), ["C66"], "the name instead of the function")
mut("g8", "Gen.drop_cr", ("Gen", "Definition scan_lines (s : string) : list string := drop_cr <$> fitting", "Definition scan_lines (s : string) : list string := fitting"), ["C66"], "carriage returns are kept: only white space after the dot, which is trimmed")
mut("g10", "Gen.cmd_func", ("Gen", "  match match_here s with\n  | Some f => Some f\n  | None => match s with String _ r => cmd_func r | EmptyString => None end\n  end.", "  match s with String _ r => match cmd_func r with Some f => Some f | None => match_here s end | EmptyString => None end."), ["C66"],
    "of two declarations in a line the last counts")
mut("g11", "Gen.generate", ("Gen", "Ret (<[out_path p := render kvs]> fs)", "Ret (<[p := render kvs]> fs)"), ["C66"], "the source is overwritten")
mut("g12", "Gen.init_table", ("Gen", "foldl (λ t kv, <[fst kv := snd kv]> t) t kvs", "foldl (λ t kv, <[snd kv := snd kv]> t) t kvs"), ["C66"], "the table is indexed by the functions")
mut("g13", "Gen.match_here", ("Gen", "'(_, s9) ← span1 re_space s8; _ ← strip_prefix \"error)\" s9; Some f.", "'(_, s9) ← span1 re_space s8; Some f."), ["C66"], "functions with another result are registered")
# ---- memory exhaustion
mut("x1", "Server.step st_exhaust", ("Server", "decode max_alloc f ≠ Panic → decode (slen f) f = Panic →", "decode max_alloc f ≠ Panic →"), ["C10"], "any frame may kill the process")
mut("x2", "Server.step st_exhaust", ("Server", "decode max_alloc f ≠ Panic → decode (slen f) f = Panic →", "decode max_alloc f ≠ Panic → False → decode (slen f) f = Panic →"), ["C38"], "the fixed program: memory is never exhausted")
# ---- lists with a lost end
mut("n1", "DList.dl_index_node", ("DList", "let reverse := dl_len l / 2 + 1 <? i in", "let reverse := dl_len l / 2 - 1 <? i in"), ["C64"], "the index search starts from the other end: no difference on an undamaged list (l5), but on one without a tail")
mut("n2", "DList.dl_rem_head", ("DList", "let l2 := match ln_next pn with None => set_tail (Some prev) l1 | Some _ => l1 end in", "let l2 := match ln_next pn with None => set_tail (if Nat.eqb prev dumb then None else Some prev) l1 | Some _ => l1 end in"), ["C22", "C64"], "the fixed program: LREM that empties the list from the front leaves no tail")
mut("n3", "DList.dl_rem_tail", ("DList", "let l2 := match ln_prev pn with None => set_head (Some prev) l1 | Some _ => l1 end in", "let l2 := l1 in"), ["C21", "C64"], "LREM from the back does not move the head")
mut("n4", "DList.dl_rpop", ("DList", "Ret (Some (ln_val nd), match prev with None => set_head None l3 | Some _ => l3 end)", "Ret (Some (ln_val nd), l3)"), ["C20", "C64"], "RPOP of the last element leaves the head")
mut("n5", "DList.dl_rem_head", ("DList", "  let l4 := match dl_head l3 with Some x => set_prev x None l3 | None => l3 end in\n  Ret (set_len (dl_len l4 - cnt) l4, cnt).\n\n(** list.go:245", "  let l4 := l3 in\n  Ret (set_len (dl_len l4 - cnt) l4, cnt).\n\n(** list.go:245"), ["C64"], "the new head still points back to the dummy node")
# ---- the grammar of requests
mut("w7", "Protocol.decode_single_line", ("Protocol", "rec_append (sprefix (String.length rest - 2) rest) \"\" r1", "rec_append (sprefix (String.length rest - 1) rest) \"\" r1"), ["C72"], "the CR stays in an inline value")
mut("w8", "Protocol.read_array", ("Protocol", 'if Ascii.eqb c "*" then let* n := read_length line in read_array f n r rest', 'if Ascii.eqb c "*" then let* n := read_length line in read_array f (n - 1) r rest'), ["C72", "C05"], "a nested array loses its last element")
mut("w9", "Protocol.decode_single_line", ("Protocol", 'if Ascii.eqb c "$" || Ascii.eqb c "*" then\n          let* n := read_length line in Ret (DOk (n, c, r1))', 'if Ascii.eqb c "$" || Ascii.eqb c "*" then\n          let* n := read_length line in Ret (DOk (n, c, r))'), ["C72"], "length headers are not logged")
mut("w10", "Protocol.decode_single_line", ("Protocol", 'if String.eqb line ("PING" ++ CRLF)%string then', 'if String.eqb (to_lower line) ("ping" ++ CRLF)%string then'), ["C72"], "an inline ping in any case is accepted")
mut("w11", "Protocol.decode_single_line", ("Protocol", 'else if Ascii.eqb c "+" || Ascii.eqb c "-" || Ascii.eqb c ":" then', 'else if Ascii.eqb c "+" || Ascii.eqb c ":" then'), ["C72"], "inline errors are refused")
# ---- the life of a key, tenants, choices, blame
mut("q1", "Db.LPush", ("Db", "let l := dl_lpush_all values dl_new in (put key (VList l) d, Ok (dl_len l))\n  | Err e => (d, Err e)", "let l := dl_lpush_all values dl_new in (put key (VList l) d, Ok (dl_len l))\n  | Err e => let l := dl_lpush_all values dl_new in (put key (VList l) d, Ok (dl_len l))"), ["C70", "C12"], "LPUSH replaces a value of another type")
mut("q2", "Db.LPop", ("Db", "Ok l => let* (l', vs) := dl_lpop_n count l in Ret (put key (VList l') d, Ok vs)\n  end.\n\n(** list.go:502", "Ok l => let* (l', vs) := dl_lpop_n count l in Ret (if dl_len l' =? 0 then (Del key d).1 else put key (VList l') d, Ok vs)\n  end.\n\n(** list.go:502"), ["C70"], "a list emptied by LPOP is deleted, as in Redis")
mut("q3", "Db.alloc_set", ("Db", "(<[db_fresh d := s]> (db_sets d)) (S (db_fresh d))).", "(<[db_fresh d := s]> (db_sets d)) (db_fresh d))."), ["C68", "C24"], "all sets share one object")
mut("q4", "Db.SMove", ("Db", "SAdd target [v] (put_set p (MSet m (ms_len s)) d)", "SAdd source [v] (put_set p (MSet m (ms_len s)) d)"), ["C28", "C70"], "SMOVE puts the member back")
mut("q5", "Db.ms_inter", ("Db", "((if sm_has (ms_m s2) k then (ms_add k acc).1 else acc), true)) ms_new.", "((if sm_has (ms_m s2) k then (ms_add k acc).1 else acc), sm_has (ms_m s2) k)) ms_new."), ["C69", "C26"], "SINTER stops at the first member that is not common: the result depends on the order")
mut("q6", "Db.Append", ("Db", "| Some (VStr s) => (put key (VStr (s ++ v)%string) d, Ok (slen s + slen v))\n  | Some _ => (d, Err ErrTypeMismatch)", "| Some (VStr s) => (put key (VStr (s ++ v)%string) d, Ok (slen s + slen v))\n  | Some _ => (Set_ key v d, Ok (slen v))"), ["C70", "C12"], "APPEND replaces a value of another type")
mut("q7", "Db.Keys", ("Db", "(λ acc k _, ((if g k : bool then acc ++ [k] else acc), true)) []).", "(λ acc k v, ((if g k && negb (match v with VList l => dl_len l =? 0 | _ => false end) then acc ++ [k] else acc), true)) [])."), ["C70", "C14"], "KEYS hides empty lists")
mut("q8", "Db.RPop", ("Db", "| Ok l => let* (l', vs) := dl_rpop_n count l in Ret (put key (VList l') d, Ok vs)", "| Ok l => let* (l', vs) := dl_rpop_n count l in Ret (put \"list\" (VList l') d, Ok vs)"), ["C68", "C13", "C20"], "RPOP stores the rest under another key")
mut("q9", "DList.dl_rpop", ("DList", "Ret (Some (ln_val nd), match prev with None => set_head None l3 | Some _ => l3 end)", "Ret (Some (ln_val nd), match prev with None => set_head None l3 | Some _ => set_head None l3 end)"), ["C71", "C20"], "RPOP loses the head: later requests crash")
mut("q10", "Db.load_list", ("Db", "| Some (VList l) => if check && (dl_len l =? 0) then Err ErrNil else Ok l\n  | Some _ => Err ErrTypeMismatch", "| Some (VList l) => if check && (dl_len l =? 0) then Err ErrNil else Ok l\n  | Some _ => Err ErrNil"), ["C12", "C70"], "a value of another type counts as absent for list commands")
# ---- debug mode
mut("d1", "Preload.preset", ("Preload", '["set"; "key2"; "10"];', '["set"; "key1"; "10"];'), ["C67"], "the second string goes to the first key")
mut("d2", "Preload.preset", ("Preload", '["rpush"; "list1"; "1"; "2"; "3"; "4"; "5"; "6"];', '["lpush"; "list1"; "1"; "2"; "3"; "4"; "5"; "6"];'), ["C67"], "the list is loaded backwards")
mut("d3", "Preload.dstep ds_exec", ("Preload", "dstep s (DExec i c) (DCfg (set_db (d_srv s) d') (<[i := PSending r]> (d_pre s)))", "dstep s (DExec i c) (DCfg (d_srv s) (<[i := PSending r]> (d_pre s)))"), ["C67"], "the loaded data is not stored")
mut("d4", "Preload.dstep ds_exec", ("Preload", "dstep s (DExec i c) (DCfg (set_db (d_srv s) d') (<[i := PSending r]> (d_pre s)))", "dstep s (DExec i c) (DCfg (set_db (d_srv s) d') (<[i := PReady]> (d_pre s)))"), ["C67"], "the preset commands are executed again and again")
mut("d5", "Preload.dcfg_init", ("Preload", "DCfg cfg_init (replicate (length preset) PReady).", "DCfg cfg_init (replicate 3 PReady)."), ["C67"], "the last preset command is forgotten")
# ---- the forms of the replies, errors without effect
mut("r1", "Db.LSet", ("Db", "else (put key (VList l') d, Err ErrNil))", "else (put key (VList (set_len 0 l')) d, Err ErrNil))"), ["C74", "C23"], "LSET outside the list empties it before the error")
mut("r2", "Redis.c_hgetall", ("Redis", "  | Err _ => reply rsp_nil d\n  | Ok m =>", "  | Err ErrNil => reply rsp_nil d\n  | Err e => fail e d\n  | Ok m =>"), ["C73", "C12"], "HGETALL reports the type error")
mut("r3", "Redis.pop_reply", ("Redis", "  | (d', Err ErrNil) => reply rsp_nil d'\n  | (d', Err e) => fail e d'\n  | (d', Ok vs) => reply (rsp_strings vs) d'\n  end.\n(** list.go:28", "  | (d', Err e) => fail e d'\n  | (d', Ok vs) => reply (rsp_strings vs) d'\n  end.\n(** list.go:28"), ["C73", "C20"], "LPOP of a missing key is an error")
mut("r4", "Redis.c_incrby", ("Redis", "match parse_int v with None => fail ErrNotInteger d | Some n => incr_reply k n d end.\n(** string.go:89", "match parse_int v with None => fail ErrValueOutOfRange d | Some n => incr_reply k n d end.\n(** string.go:89"), ["C73"], "INCRBY reports another error")
mut("r5", "Db.IncrBy", ("Db", "| None => (d, Err ErrNotInteger)\n      | Some i => let v", "| None => (put key (VStr (itoa incr)) d, Err ErrNotInteger)\n      | Some i => let v"), ["C74", "C17"], "INCR of a text replaces it before the error")
mut("r6", "Redis.c_zrank", ("Redis", "| Ok z => reply (rsp_int (wrap64 z)) d\n  end.\n(** sorted_set.go:96", "| Ok z => reply (rsp_bulk (itoa (wrap64 z))) d\n  end.\n(** sorted_set.go:96"), ["C73", "C31"], "ZRANK answers the number as text")
mut("r7", "Redis.c_hmget", ("Redis", "reply (rsp_interfaces true (replicate (length (drop 1 a)) INil)) d", "reply (rsp_interfaces true (replicate (length a) INil)) d"), ["C73", "C51"], "HMGET answers one null too many")
# ---- overload
mut("o1", "Server.step st_refuse", ("Server", "| st_refuse k f : (pool_size ≤ live_count s)%nat", "| st_refuse k f : (pool_size ≤ S (live_count s))%nat"), ["C75"], "the pool refuses one frame too early")
mut("o2", "Server.step st_deliver", ("Server", "(live_count s < pool_size)%nat →\n    step s (LDeliver", "(live_count s ≤ pool_size)%nat →\n    step s (LDeliver"), ["C75"], "the pool takes one frame too many")
mut("o3", "Server.chan_cap", ("Server", "Definition chan_cap : nat := 1.", "Definition chan_cap : nat := 2."), ["C75"], "the queue holds two events")
mut("o4", "Server.live_count", ("Server", "length (filter (λ x, live x.2 = true) (map_to_list (c_gs s)))", "length (map_to_list (c_gs s))"), ["C75"], "goroutines are never given back to the pool")
mut("o5", "Server.step st_refuse", ("Server", "step s (LRefuse k f) s\n", "step s (LRefuse k f) (set_crashed s)\n"), ["C75", "C38"], "a refused frame panics in the event loop")
mut("o6", "Server.step st_bad", ("Server", "decode max_alloc f = Ret (DErr e) → step s (LLost g) (set_g s g GEnd)", "decode max_alloc f = Ret (DErr e) → step s (LLost g) (set_g s g (GFrame k f))"), ["C75", "C55"], "a frame that is no request keeps its goroutine busy for ever")
# ---- repeated requests, independent requests
mut("y1", "Db.ms_add", ("Db", "if absent : bool then (MSet m (ms_len s + 1), 1) else (MSet m (ms_len s), 0).\n\n(** set.go:27", "if absent : bool then (MSet m (ms_len s + 1), 1) else (MSet m (ms_len s + 1), 0).\n\n(** set.go:27"), ["C76", "C24"], "adding a member that is present counts it again")
mut("y2", "Db.SRem", ("Db", "| Ok (p, s) => let (s', cnt) := ms_rem_all values s 0 in Ret (put_set p s' d, Ok cnt)", "| Ok (p, s) => let (s', cnt) := ms_rem_all values s 0 in Ret (put_set p s' d, Ok (Z.of_nat (length values)))"), ["C76", "C24"], "SREM answers the number of its arguments")
mut("y3", "Db.Set_", ("Db", "Definition Set_ (key v : string) (d : db) : db := put key (VStr v) d.", "Definition Set_ (key v : string) (d : db) : db :=\n  match sm_get (db_keys d) key with Some (VStr w) => put key (VStr (w ++ v)%string) d | _ => put key (VStr v) d end."), ["C76", "C16"], "SET appends to a string")
mut("y4", "Db.LSet", ("Db", "Ret (if ok : bool then (put key (VList l') d, Ok tt)", "Ret (if ok : bool then (put key (VList (dl_lpush v l')) d, Ok tt)"), ["C76", "C23"], "LSET also pushes the value")
mut("y5", "Db.Del", ("Db", "(Db m (db_sets d) (db_fresh d), if removed : bool then 1 else 0).", "(Db (if removed : bool then m else fst (sm_delete_if_exists m EmptyString)) (db_sets d) (db_fresh d), if removed : bool then 1 else 0)."), ["C77", "C13"], "DEL of a missing key deletes the key with the empty name")
mut("y6", "Db.SAdd", ("Db", "let (p, d1) := alloc_set ms_new d in\n      let d2 := put key (VSet p) d1 in\n      let (s', cnt) := ms_add_all values ms_new 0 in", "let (p, d1) := alloc_set ms_new d in\n      let d2 := put key (VSet p) (put \"last\" (VStr key) d1) in\n      let (s', cnt) := ms_add_all values ms_new 0 in"), ["C77", "C13"], "the first SADD to a key notes its name under another key")
mut("y7", "Db.SUnionStore", ("Db", "(ms_add k acc).1, true) in\n  sm_range o2 (ms_m s2) f (sm_range o1 (ms_m s1) f ms_new).", "(ms_add k acc).1, true) in\n  sm_range o1 (ms_m s1) f (sm_range o1 (ms_m s1) f ms_new)."), ["C26", "C69"], "the union leaves out the second set")
# ---- what clients build (C78-C80)
mut("x81", "Db.IncrBy", ("Db", "| None => (Set_ key (itoa incr) d, Ok incr)", "| None => (Set_ key (itoa 0) d, Ok incr)"), ["C79", "C17"], "the first INCR of a missing key stores 0: the next INCR answers the same number again")
mut("x82", "Db.RPop", ("Db", "| Ok l => let* (l', vs) := dl_rpop_n count l in Ret (put key (VList l') d, Ok vs)\n  end.\n\n(** list.go:521", "| Ok l => let* (l', vs) := dl_rpop_n count l in Ret (if count =? 1 then d else put key (VList l') d, Ok vs)\n  end.\n\n(** list.go:521"), ["C78", "C20"], "RPOP of one element leaves it in the list: two workers get the same job")
mut("x83", "Db.SRem", ("Db", "| Ok (p, s) => let (s', cnt) := ms_rem_all values s 0 in Ret (put_set p s' d, Ok cnt)", "| Ok (p, s) => let (s', cnt) := ms_rem_all values s 0 in Ret (put_set p s' d, Ok (Z.max cnt 1))"), ["C80", "C24"], "SREM claims to have removed a member that was not there: a lock is released twice")
mut("x84", "Db.SAdd", ("Db", "| Ok (p, s) => let (s', cnt) := ms_add_all values s 0 in Ret (put_set p s' d, Ok cnt)", "| Ok (p, s) => let (s', cnt) := ms_add_all values s 0 in Ret (d, Ok cnt)"), ["C80", "C24"], "SADD to an existing set answers 1 but does not add: two clients get the lock")
mut("uu1", "Db.MSet_", ("Db", "| k :: v :: r => MSet_ r (Set_ k v d)", "| k :: v :: r => match sm_get (db_keys d) k with Some _ => MSet_ r d | None => MSet_ r (Set_ k v d) end"), ["C82", "C19"],
    "MSET does not replace present values: some keys keep the value of an earlier MSET")
mut("uu2", "Db.MGet", ("Db", "        | Ok s => IStr s\n        end) <$> keys.", "        | Ok s => IStr s\n        end) <$> reverse keys."), ["C82", "C19"], "MGET answers the values in the reverse order")
mut("uu3", "DList.rpop_loop", ("DList", "| Some v => rpop_loop f (count - 1) l' (values ++ [v])", "| Some v => rpop_loop f (count - 1) l' (v :: values)"), ["C83", "C20"], "RPOP with a count answers the values in the order of the list")
mut("uu4", "Db.RPush", ("Db", "| Ok l => let l' := dl_rpush_all values l in (put key (VList l') d, Ok (dl_len l'))\n  end.\n\n(** list.go:460", "| Ok l => let l' := dl_rpush_all (take 1 values) l in (put key (VList l') d, Ok (dl_len l'))\n  end.\n\n(** list.go:460"), ["C83", "C20", "C78"],
    "RPUSH to a present list drops all values but the first")
mut("cc1", "Config.InitConfig", ("Config", "| None => (c, false) ", "| None => (None, false) "), ["C85"], "a refused text forgets the configuration (cfg is assigned before the error is looked at)")
mut("cc2", "Config.GetDefaultTimeout", ("Config", "if default_timeout x =? 0 then 5 * 1000000000 (* line 31, second half *)\n              else default_timeout x ", "default_timeout x "), ["C85"], "a configuration without a timeout makes the timeout zero")
mut("cc3", "Config.InitConfig", ("Config", "| Some tmp => (Some tmp, true) ", "| Some tmp => (match c with None => Some tmp | Some _ => c end, true) "), ["C85"], "only the first configuration is taken (sync.Once)")
mut("cc4", "Config.GetDefaultTimeout", ("Config", "if default_timeout x =? 0 then 5 * 1000000000", "if default_timeout x =? 0 then 5"), ["C85"], "five nanoseconds: the unit is forgotten")
mut("vv1", "DList.dl_rpush_all", ("DList", "foldl (λ l v, dl_rpush v l) l values", "foldl (λ l v, dl_rpush v l) l (reverse values)"), ["C84", "C20"], "RPUSH appends its values in the reverse order")
mut("vv2", "Db.LRange", ("Db", "| Ok l => let* vs := dl_lrange start stop l in Ret (Ok vs)\n", "| Ok l => let* vs := dl_lrange start (stop - 1) l in Ret (Ok vs)\n"), ["C84", "C23"], "LRANGE excludes the last position")
mut("bb1", "Db.zs_add", ("Db", "        if negb (feq score old) then", "        if flt old score then"), ["C86", "C30"], "ZADD keeps the better score instead of the last one")
mut("bb2", "Db.zs_add_all", ("Db", "  | (sc, v) :: r =>\n      let* (z', o) := zs_add (lvl j) sc v fl z in", "  | (sc, v) :: r =>\n      let* (z', o) := zs_add (lvl j) sc v (ZF (zf_incr fl) (zf_nx fl) (zf_xx fl || (0 <? cnt))) z in"), ["C86", "C30"], "after the first counted pair ZADD behaves as with XX: only present members get their scores")
# ---- a task board
mut("kk1", "Db.SMove", ("Db", "if exists_ : bool then SAdd target [v] (put_set p (MSet m (ms_len s)) d)\n      else Ret (d, Err ErrNil)", "if exists_ : bool then SAdd target [v] d\n      else Ret (d, Err ErrNil)"), ["C87", "C28"], "SMOVE leaves the member in the source")
mut("kk2", "Db.SMove", ("Db", "if exists_ : bool then SAdd target [v] (put_set p (MSet m (ms_len s)) d)\n      else Ret (d, Err ErrNil)", "SAdd target [v] (put_set p (MSet m (ms_len s)) d)"), ["C87", "C28"], "SMOVE of a missing member adds it to the target")
mut("kk3", "Redis.c_smove", ("Redis", "let* s := arg a 0 in let* t := arg a 1 in let* v := arg a 2 in\n  let* r := SMove s t v d in", "let* s := arg a 0 in let* t := arg a 1 in let* v := arg a 2 in\n  let* r := SMove t s v d in"), ["C87", "C28"], "SMOVE moves from the target to the source")
mut("kk4", "Db.SMove", ("Db", "      else Ret (d, Err ErrNil)\n  end.\n\nInductive setop", "      else Ret (d, Ok 0)\n  end.\n\nInductive setop"), ["C87", "C28"], "SMOVE of a missing member answers 0: no error")
mut("kk5", "Db.SMove", ("Db", "if exists_ : bool then SAdd target [v] (put_set p (MSet m (ms_len s)) d)\n      else", "if exists_ : bool then SAdd target [target] (put_set p (MSet m (ms_len s)) d)\n      else"), ["C87", "C28"], "SMOVE adds the name of the target")
mut("kk6", "Db.IncrBy", ("Db", "| None => (Set_ key (itoa incr) d, Ok incr)", "| None => (Set_ key (itoa 0) d, Ok incr)"), ["C88", "C17"], "the first amount is answered but not stored")
mut("kk7", "Redis.c_decrby", ("Redis", "match parse_int v with None => fail ErrNotInteger d | Some n => incr_reply k (wrap64 (- n)) d end.", "match parse_int v with None => fail ErrNotInteger d | Some n => incr_reply k n d end."), ["C88", "C17"], "DECRBY adds")
mut("kk8", "Db.SAdd", ("Db", "| Ok (p, s) => let (s', cnt) := ms_add_all values s 0 in Ret (put_set p s' d, Ok cnt)", "| Ok (p, s) => let (s', cnt) := ms_add_all values s 0 in Ret (put_set p s' d, Ok (ms_len s'))"), ["C89", "C24"], "SADD to an existing set answers its size")
mut("ll1", "Db.Del", ("Db", "(Db m (db_sets d) (db_fresh d), if removed : bool then 1 else 0).", "(d, if removed : bool then 1 else 0)."), ["C90", "C91", "C12"], "DEL answers 1 but keeps the key")
mut("ll2", "Redis.c_set", ("Redis", "let* k := arg a 0 in let* v := arg a 1 in reply (rsp_simple \"OK\") (Set_ k v d).", "let* k := arg a 0 in let* v := arg a 1 in reply (rsp_simple \"OK\") (if Exists_ k d then d else Set_ k v d)."), ["C90", "C91", "C16"], "SET keeps a value that is there")
mut("ll3", "Redis.c_get", ("Redis", "  | Err ErrNil => reply rsp_nil d\n  | Err e => fail e d\n  | Ok v => reply (rsp_interfaces false [IStr v]) d", "  | Err ErrNil => fail ErrNil d\n  | Err e => fail e d\n  | Ok v => reply (rsp_interfaces false [IStr v]) d"), ["C90", "C16"], "GET of an absent key is an error")
mut("ll4", "ShardMap.sm_delete_if_exists", ("ShardMap", "  | None => (m, false)\n  | Some _ => (upd_shard m key (delete key), true)\n  end.\n\n(** shard_map.go:65-74", "  | None => (m, true)\n  | Some _ => (upd_shard m key (delete key), true)\n  end.\n\n(** shard_map.go:65-74"), ["C90", "C12"], "DEL of an absent key answers 1")
mut("ll5", "Server1.step1 v1_timeout", ("Server1", "step1 s (VWrite k g deadline_bytes) (upd_pool", "step1 s (VWrite k g (\"+OK\" ++ CRLF)%string) (upd_pool"), ["C57", "C91"], "a request whose deadline has passed is answered OK")
mut("ll6", "Server.step st_timeout", ("Server", "c_gs s !! g = Some (GSelect k) → g ∈ c_expired s → step s (LTau g) (set_g s g (GTimeout k))", "c_gs s !! g = Some (GSelect k) → g ∈ c_expired s → step s (LTau g) (set_g s g (GReply k (Some (rsp_simple \"OK\"))))"), ["C07", "C08", "C91"], "a request whose deadline has passed is answered OK, on both servers")
mut("ll7", "Db.Get", ("Db", "  | Some (VStr s) => Ok s\n  | Some _ => Err ErrTypeMismatch\n  end.\n\n(** An [interface{}]", "  | Some (VStr s) => Ok (if String.eqb s \"\" then key else s)\n  | Some _ => Err ErrTypeMismatch\n  end.\n\n(** An [interface{}]"), ["C90", "C16"], "GET of an empty value answers the key")
mut("mm1", "DList.dl_lrange", ("DList", "if (stop <? start) || (dl_len l <? start) then Ret []", "if (stop <=? start) || (dl_len l <? start) then Ret []"), ["C92", "C23"], "LRANGE of one element is empty: pages of size one, and a last page of one")
mut("mm2", "SkipList.range_bounds", ("SkipList", "else Some (start, if len <=? stop then len - 1 else stop).", "else if len <=? stop then None else Some (start, stop)."), ["C92", "C29"], "ZRANGE past the end is empty: the last page is lost")
mut("mm3", "DList.dl_lrange", ("DList", "(if start <=? idx then values ++ [ln_val nd] else values)", "(if start <? idx then values ++ [ln_val nd] else values)"), ["C92", "C23"], "the first element of every page is skipped")
