(** Model of the skip list in datastruct/sorted_set.go (lines 47-514).
    Nodes live in an arena.  A node's [levels] slice is represented by the entries
    [(node, i)] of [sl_links]; reading a missing entry is Go's index-out-of-range panic.
    [uint] spans and ranks are kept as integers and reduced modulo 2^64 ([u64]) only where they are
    observed (compared or converted); this is exact because the code only adds and subtracts them. *)
From Verif Require Import GoBase DList Float64.

Definition u64 (z : Z) : Z := z mod two64.

(** sorted_set.go:53-58 zSkipListNode without [levels] *)
Record zinfo := ZI { zi_val : string; zi_score : float; zi_back : option loc }.
(** sorted_set.go:60-63 zSkipListLeve: (forward, span) *)
Notation zlink := (option loc * Z)%type (only parsing).

(** sorted_set.go:47-51 zSkipList and the arena.  [head] is the node at address 0. *)
Record skiplist := SL {
  sl_tail : option loc;
  sl_len : Z;
  sl_level : nat;
  sl_nodes : gmap loc zinfo;
  sl_links : gmap (loc * nat) zlink;
  sl_fresh : nat
}.
Definition sl_head : loc := 0%nat.

(** sorted_set.go:69-71 *)
Definition max_level : nat := 32.

Definition with_tail (t : option loc) (s : skiplist) : skiplist :=
  SL t (sl_len s) (sl_level s) (sl_nodes s) (sl_links s) (sl_fresh s).
Definition with_len (z : Z) (s : skiplist) : skiplist :=
  SL (sl_tail s) z (sl_level s) (sl_nodes s) (sl_links s) (sl_fresh s).
Definition with_level (n : nat) (s : skiplist) : skiplist :=
  SL (sl_tail s) (sl_len s) n (sl_nodes s) (sl_links s) (sl_fresh s).
Definition with_nodes (m : gmap loc zinfo) (s : skiplist) : skiplist :=
  SL (sl_tail s) (sl_len s) (sl_level s) m (sl_links s) (sl_fresh s).
Definition with_links (m : gmap (loc * nat) zlink) (s : skiplist) : skiplist :=
  SL (sl_tail s) (sl_len s) (sl_level s) (sl_nodes s) m (sl_fresh s).

(** [x.score], [x.value], [x.backward] *)
Definition zn (x : loc) (s : skiplist) : outcome zinfo := deref (sl_nodes s !! x).
(** [x.levels[i]] *)
Definition lk (x : loc) (i : nat) (s : skiplist) : outcome zlink := deref (sl_links s !! (x, i)).
(** [x.levels[i] = ...] (both fields) *)
Definition set_lk (x : loc) (i : nat) (v : zlink) (s : skiplist) : skiplist :=
  with_links (<[(x, i) := v]> (sl_links s)) s.
(** [x.backward = b], [x.score = f] *)
Definition set_back (x : loc) (b : option loc) (s : skiplist) : skiplist :=
  with_nodes (alter (λ n, ZI (zi_val n) (zi_score n) b) x (sl_nodes s)) s.
Definition set_score (x : loc) (f : float) (s : skiplist) : skiplist :=
  with_nodes (alter (λ n, ZI (zi_val n) f (zi_back n)) x (sl_nodes s)) s.

(** A Go [for] over the given indices. *)
Fixpoint oloop {S} (is : list nat) (f : nat → S → outcome S) (s : S) : outcome S :=
  match is with
  | [] => Ret s
  | i :: r => let* s' := f i s in oloop r f s'
  end.

(** sorted_set.go:95-107 newZslNode: allocate a node with [level] fresh levels (nil, 0). *)
Definition new_zsl_node (level : nat) (score : float) (value : string) (s : skiplist)
    : loc * skiplist :=
  let x := sl_fresh s in
  (x, SL (sl_tail s) (sl_len s) (sl_level s)
         (<[x := ZI value score None]> (sl_nodes s))
         (foldl (λ m i, <[(x, i) := (None, 0)]> m) (sl_links s) (seq 0 level))
         (S x)).

(** sorted_set.go:73-80 newZSkipList *)
Definition sl_new : skiplist :=
  snd (new_zsl_node max_level (S754_zero false) EmptyString (SL None 0 1 ∅ ∅ 0)).

(** sorted_set.go:109-124 zslRandomLevel; [draw] is the number of successful coin flips. *)
Definition random_level (draw : nat) : nat :=
  if (S draw <? max_level)%nat then S draw else max_level.

(** The inner search loop shared by insert, updateScore, rank, minScoreRank, maxScoreRank and
    findElementByRank:  [for x.levels[i].forward != nil && test { rank += span; x = forward; ... }].
    [test nd r] is evaluated on the forward node and on rank+span; [brk cur nd] is evaluated after
    the move, and [Some adj] means: add [adj] to the rank and break out of both loops. *)
Fixpoint walk (fuel : nat) (s : skiplist) (test : zinfo → Z → bool)
    (brk : zinfo → zinfo → option Z) (i : nat) (x : loc) (r : Z) : outcome (loc * Z * bool) :=
  match fuel with
  | O => OutOfFuel
  | S f =>
      let* (fwd, span) := lk x i s in
      match fwd with
      | None => Ret (x, r, false)
      | Some y =>
          let* nd := zn y s in
          if test nd (r + span) then
            let* cur := zn x s in
            match brk cur nd with
            | Some adj => Ret (y, r + span + adj, true)
            | None => walk f s test brk i y (r + span)
            end
          else Ret (x, r, false)
      end
  end.
Definition no_brk : zinfo → zinfo → option Z := λ _ _, None.
(** enough fuel for any acyclic list *)
Definition sl_fuel (s : skiplist) : nat := S (size (sl_nodes s)).

(** forward.score < score || (forward.score == score && forward.value < value):
    sorted_set.go:146-148, 202-204, 265-267 *)
Definition key_lt (score : float) (value : string) (nd : zinfo) (_ : Z) : bool :=
  flt (zi_score nd) score || (feq (zi_score nd) score && str_ltb (zi_val nd) value).

(** sorted_set.go:143-154: the descent of insert; [n] counts down, the current index is [n-1].
    [rank[i+1]] is an argument of a function call (tripleOp) and so is evaluated, with its
    bounds check, even when it is not used. *)
Fixpoint insert_search (n : nat) (s : skiplist) (score : float) (value : string)
    (x : loc) (rank : list Z) (update : list (option loc))
    : outcome (list Z * list (option loc)) :=
  match n with
  | O => Ret (rank, update)
  | S i =>
      let* rk := deref (rank !! S i) in
      let r0 := if Nat.eqb i (sl_level s - 1) then 0 else rk in
      let* (x', r, _) := walk (sl_fuel s) s (key_lt score value) no_brk i x r0 in
      insert_search i s score value x' (<[i := r]> rank) (<[i := Some x']> update)
  end.

(** [update[i]] used as a node: nil dereference or index out of range panics *)
Definition upd_at (update : list (option loc)) (i : nat) : outcome loc :=
  let* o := deref (update !! i) in deref o.
Definition rank_at (rank : list Z) (i : nat) : outcome Z := deref (rank !! i).

(** sorted_set.go:156-165: raising the level of the list *)
Definition grow_level (level : nat) (rank : list Z) (update : list (option loc)) (s : skiplist)
    : outcome (list Z * list (option loc) * skiplist) :=
  if (sl_level s <? level)%nat then
    let* (rank', update', s') :=
      oloop (seq (sl_level s) (level - sl_level s))
        (λ i '(rank, update, s),
           let* (fwd, _) := lk sl_head i s in
           Ret (<[i := 0]> rank, <[i := Some sl_head]> update,
                set_lk sl_head i (fwd, sl_len s) s))
        (rank, update, s) in
    Ret (rank', update', with_level level s')
  else Ret (rank, update, s).

(** sorted_set.go:168-174: linking the new node [x] at levels below [level] *)
Definition splice_step (x : loc) (rank : list Z) (update : list (option loc)) (i : nat) (s : skiplist)
    : outcome skiplist :=
  let* u := upd_at update i in
  let* (fwd, span) := lk u i s in
  let* r0 := rank_at rank 0 in
  let* ri := rank_at rank i in
  let* _ := lk x i s in
  Ret (set_lk u i (Some x, r0 - ri + 1) (set_lk x i (fwd, span - (r0 - ri)) s)).

(** sorted_set.go:176-178 *)
Definition bump_step (update : list (option loc)) (i : nat) (s : skiplist) : outcome skiplist :=
  let* u := upd_at update i in
  let* (fwd, span) := lk u i s in
  Ret (set_lk u i (fwd, span + 1) s).

(** sorted_set.go:134-192 insert.  [level] is the value returned by zslRandomLevel. *)
Definition sl_insert (level : nat) (score : float) (value : string) (s : skiplist)
    : outcome (skiplist * loc) :=
  let* (rank, update) :=
    insert_search (sl_level s) s score value sl_head
      (replicate max_level 0) (replicate max_level None) in
  let* (rank, update, s1) := grow_level level rank update s in
  let (x, s2) := new_zsl_node level score value s1 in
  let* s3 := oloop (seq 0 level) (splice_step x rank update) s2 in
  let* s4 := oloop (seq level (sl_level s3 - level)) (bump_step update) s3 in
  let* u0 := upd_at update 0 in
  let s5 := if Nat.eqb u0 sl_head then s4 else set_back x (Some u0) s4 in
  let* (fwd, _) := lk x 0 s5 in
  let s6 := match fwd with
            | Some y => set_back y (Some x) s5
            | None => with_tail (Some x) s5
            end in
  Ret (with_len (sl_len s6 + 1) s6, x).

(** sorted_set.go:200-208: the descent of updateScore *)
Fixpoint update_search (n : nat) (s : skiplist) (score : float) (value : string)
    (x : loc) (update : list (option loc)) : outcome (loc * list (option loc)) :=
  match n with
  | O => Ret (x, update)
  | S i =>
      let* (x', _, _) := walk (sl_fuel s) s (key_lt score value) no_brk i x 0 in
      update_search i s score value x' (<[i := Some x']> update)
  end.

(** sorted_set.go:230-241: unlinking at one level *)
Definition unlink_step (node : loc) (update : list (option loc)) (i : nat) (s : skiplist)
    : outcome skiplist :=
  let* u := upd_at update i in
  let* (fwd, span) := lk u i s in
  if bool_decide (fwd = Some node) then
    let* (nfwd, nspan) := lk node i s in
    Ret (set_lk u i (nfwd, span + (nspan - 1)) s)
  else Ret (set_lk u i (fwd, span - 1) s).

(** sorted_set.go:249-251 *)
Fixpoint shrink_level (n : nat) (s : skiplist) : outcome nat :=
  match n with
  | S (S m as p) =>
      let* (fwd, _) := lk sl_head p s in
      match fwd with None => shrink_level p s | Some _ => Ret n end
  | _ => Ret n
  end.

(** sorted_set.go:229-254 deleteNode *)
Definition sl_delete_node (node : loc) (update : list (option loc)) (s : skiplist) : outcome skiplist :=
  let* s1 := oloop (seq 0 (sl_level s)) (unlink_step node update) s in
  let* (fwd, _) := lk node 0 s1 in
  let* s2 :=
    match fwd with
    | Some y => let* nd := zn node s1 in Ret (set_back y (zi_back nd) s1)
    | None => Ret s1
    end in
  let* lvl := shrink_level (sl_level s2) s2 in
  let s3 := with_level lvl s2 in
  Ret (with_len (sl_len s3 - 1) s3).

(** sorted_set.go:195-227 updateScore; the result is the node or nil.
    The tests of the backward and forward neighbours are evaluated left to right with
    short-circuit. *)
Definition sl_update_score (level : nat) (curScore newScore : float) (value : string) (s : skiplist)
    : outcome (skiplist * option loc) :=
  let* (x0, update) :=
    update_search (sl_level s) s curScore value sl_head (replicate max_level None) in
  let* (fwd, _) := lk x0 0 s in
  match fwd with
  | None => Ret (s, None)
  | Some x =>
      let* nd := zn x s in
      if negb (feq (zi_score nd) curScore) || negb (String.eqb (zi_val nd) value) then Ret (s, None)
      else
        let* back_ok :=
          match zi_back nd with
          | None => Ret true
          | Some b => let* bn := zn b s in Ret (flt (zi_score bn) newScore)
          end in
        let* stay :=
          (if back_ok : bool then
             let* (xf, _) := lk x 0 s in
             match xf with
             | None => Ret true
             | Some y => let* yn := zn y s in Ret (flt newScore (zi_score yn))
             end
           else Ret false) in
        if stay : bool then Ret (set_score x newScore s, Some x)
        else
          let* s1 := sl_delete_node x update s in
          let* (s2, n) := sl_insert level newScore value s1 in
          Ret (s2, Some n)
  end.

(** sorted_set.go:263-272: the descent of delete: [if], not [for]: at most one move per level *)
Fixpoint delete_search (n : nat) (s : skiplist) (score : float) (value : string)
    (x : loc) (update : list (option loc)) : outcome (loc * list (option loc)) :=
  match n with
  | O => Ret (x, update)
  | S i =>
      let* (fwd, _) := lk x i s in
      let* x' :=
        match fwd with
        | None => Ret x
        | Some y => let* nd := zn y s in Ret (if key_lt score value nd 0 then y else x)
        end in
      delete_search i s score value x' (<[i := Some x']> update)
  end.

(** sorted_set.go:258-286 delete (the [node] out-parameter is nil in every call) *)
Definition sl_delete (score : float) (value : string) (s : skiplist) : outcome (skiplist * Z) :=
  let* (x0, update) :=
    delete_search (sl_level s) s score value sl_head (replicate max_level None) in
  let* (fwd, _) := lk x0 0 s in
  match fwd with
  | None => Ret (s, 0)
  | Some x =>
      let* nd := zn x s in
      if feq (zi_score nd) score && String.eqb (zi_val nd) value then
        let* s1 := sl_delete_node x update s in Ret (s1, 1)
      else Ret (s, 0)
  end.

(** the level loop of rank, minScoreRank and maxScoreRank *)
Fixpoint descend (n : nat) (s : skiplist) (test : zinfo → Z → bool)
    (brk : zinfo → zinfo → option Z) (x : loc) (r : Z) : outcome Z :=
  match n with
  | O => Ret r
  | S i =>
      let* (x', r', b) := walk (sl_fuel s) s test brk i x r in
      if b : bool then Ret r' else descend i s test brk x' r'
  end.

(** sorted_set.go:289-307 rank *)
Definition sl_rank (score : float) (value : string) (s : skiplist) : outcome Z :=
  descend (sl_level s) s
    (λ nd _, flt (zi_score nd) score || (feq (zi_score nd) score && str_leb (zi_val nd) value))
    (λ _ nd, if feq (zi_score nd) score && String.eqb (zi_val nd) value then Some 0 else None)
    sl_head 0.

(** sorted_set.go:333-368 minScoreRank *)
Definition sl_min_score_rank (score : float) (open : bool) (s : skiplist) : outcome Z :=
  if is_inf score then Ret (-1)
  else
    let* r := descend (sl_level s) s
      (λ nd _, fle (zi_score nd) score)
      (λ cur nd,
         if flt score (zi_score nd) || (open && feq (zi_score nd) score)
         then Some ((if flt (zi_score cur) score && flt score (zi_score nd) then 1 else 0) +
                    (if feq (zi_score nd) score && open then 1 else 0))
         else None)
      sl_head 0 in
    Ret (wrap64 r).

(** sorted_set.go:371-399 maxScoreRank *)
Definition sl_max_score_rank (score : float) (open : bool) (s : skiplist) : outcome Z :=
  if is_inf score then Ret (-1)
  else
    let* r := descend (sl_level s) s
      (λ nd _, fle (zi_score nd) score)
      (λ _ nd,
         if flt score (zi_score nd) || (open && feq (zi_score nd) score)
         then Some (if feq (zi_score nd) score && open then -1 else 0)
         else None)
      sl_head 0 in
    Ret (wrap64 r).

(** sorted_set.go:310-330 count (the Println of line 318 only writes to stdout) *)
Definition sl_count (mn : float) (minOpen : bool) (mx : float) (maxOpen : bool) (s : skiplist)
    : outcome Z :=
  if is_ninf mn && is_pinf mx then Ret (sl_len s)
  else
    let* minRank := sl_min_score_rank mn minOpen s in
    let* maxRank := sl_max_score_rank mx maxOpen s in
    if minRank <=? 0 then Ret maxRank
    else if maxRank <? 0 then Ret (sl_len s - minRank + 1)
    else Ret (maxRank - minRank + 1).

(** sorted_set.go:503-511: the loop of findElementByRank *)
Fixpoint find_rank_loop (n : nat) (s : skiplist) (rank : Z) (x : loc) (traversed : Z)
    : outcome (option loc) :=
  match n with
  | O => Ret None
  | S i =>
      let* (x', t', _) := walk (sl_fuel s) s (λ _ r, u64 r <=? u64 rank) no_brk i x traversed in
      if u64 t' =? u64 rank then Ret (Some x') else find_rank_loop i s rank x' t'
  end.
(** sorted_set.go:497-514 findElementByRank *)
Definition sl_find_by_rank (rank : Z) (s : skiplist) : outcome (option loc) :=
  find_rank_loop (sl_level s) s rank sl_head 0.

Section ext.
Context (ext : Ext).

(** sorted_set.go:425-433: the output loop of zRange; [next] follows level-0 forward pointers *)
Fixpoint range_out (n : nat) (s : skiplist) (withScores : bool) (node : option loc)
    (result : list string) : outcome (list string) :=
  match n with
  | O => Ret result
  | S m =>
      let* x := deref node in
      let* nd := zn x s in
      let result := result ++ [zi_val nd] ++
                    (if withScores then [format_float ext (zi_score nd)] else []) in
      let* (fwd, _) := lk x 0 s in
      range_out m s withScores fwd result
  end.
(** sorted_set.go:463-471: the output loop of zRevRange, following backward pointers *)
Fixpoint rev_range_out (n : nat) (s : skiplist) (withScores : bool) (node : option loc)
    (result : list string) : outcome (list string) :=
  match n with
  | O => Ret result
  | S m =>
      let* x := deref node in
      let* nd := zn x s in
      let result := result ++ [zi_val nd] ++
                    (if withScores then [format_float ext (zi_score nd)] else []) in
      rev_range_out m s withScores (zi_back nd) result
  end.

(** sorted_set.go:402-419 and 440-457: the index arithmetic, None = return nil *)
Definition range_bounds (start stop len : Z) : option (Z * Z) :=
  let start := if start <? 0 then
                 let st := start + len in if st <? 0 then 0 else st
               else start in
  let stop := if stop <? 0 then stop + len else stop in
  if (stop <? start) || (len <=? start) then None
  else Some (start, if len <=? stop then len - 1 else stop).

(** sorted_set.go:401-436 zRange *)
Definition sl_range (start stop : Z) (withScores : bool) (s : skiplist) : outcome (list string) :=
  match range_bounds start stop (sl_len s) with
  | None => Ret []
  | Some (start, stop) =>
      let* node := sl_find_by_rank (start + 1) s in
      range_out (Z.to_nat (stop - start + 1)) s withScores node []
  end.

(** sorted_set.go:439-474 zRevRange *)
Definition sl_rev_range (start stop : Z) (withScores : bool) (s : skiplist) : outcome (list string) :=
  match range_bounds start stop (sl_len s) with
  | None => Ret []
  | Some (start, stop) =>
      let* node := sl_find_by_rank (stop + 1) s in
      rev_range_out (Z.to_nat (stop - start + 1)) s withScores node []
  end.

(** sorted_set.go:476-495 zRangeByScore *)
Definition sl_range_by_score (mn : float) (minOpen : bool) (mx : float) (maxOpen : bool)
    (withScores : bool) (s : skiplist) : outcome (list string) :=
  if is_ninf mn && is_pinf mx then sl_range 0 (sl_len s) withScores s
  else
    let* minRank := sl_min_score_rank mn minOpen s in
    let* maxRank := sl_max_score_rank mx maxOpen s in
    if minRank <=? 0 then sl_range 0 (maxRank - 1) withScores s
    else if maxRank <? 0 then sl_range (minRank - 1) (sl_len s) withScores s
    else sl_range (minRank - 1) (maxRank - 1) withScores s.

End ext.
