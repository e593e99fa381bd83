(** Model of datastruct/list.go: the doubly linked list behind the list commands.
    Nodes live in an explicit arena ([dl_heap]); a Go [*listNode] is an [option loc]
    (None = nil); assignment through a pointer is an update of the arena.  Every [List] owns its
    nodes (no list shares a node with another), so the arena is kept per list. *)
From Verif Require Import GoBase.

Notation loc := nat (only parsing).

(** list.go:13-16 *)
Record lnode := LNode { ln_next : option loc; ln_prev : option loc; ln_val : string }.

(** list.go:8-11, plus the arena and its next unused address. [length] is a Go int that only
    counts elements in memory, so it is an unbounded [Z]. *)
Record dlist := DL {
  dl_len : Z;
  dl_head : option loc;
  dl_tail : option loc;
  dl_heap : gmap loc lnode;
  dl_fresh : nat
}.

(** new(List) *)
Definition dl_new : dlist := DL 0 None None ∅ 0.

Definition set_len (z : Z) (l : dlist) : dlist :=
  DL z (dl_head l) (dl_tail l) (dl_heap l) (dl_fresh l).
Definition set_head (p : option loc) (l : dlist) : dlist :=
  DL (dl_len l) p (dl_tail l) (dl_heap l) (dl_fresh l).
Definition set_tail (p : option loc) (l : dlist) : dlist :=
  DL (dl_len l) (dl_head l) p (dl_heap l) (dl_fresh l).
Definition set_heap (h : gmap loc lnode) (l : dlist) : dlist :=
  DL (dl_len l) (dl_head l) (dl_tail l) h (dl_fresh l).

(** list.go:36-40 newListNode, and the composite literals: allocation. *)
Definition alloc (n : lnode) (l : dlist) : loc * dlist :=
  (dl_fresh l,
   DL (dl_len l) (dl_head l) (dl_tail l) (<[dl_fresh l := n]> (dl_heap l)) (S (dl_fresh l))).

(** [p.next], [p.prev], [p.value] for a pointer known not to be nil *)
Definition node_at (p : loc) (l : dlist) : outcome lnode := deref (dl_heap l !! p).
(** [p.next = v], [p.prev = v], [p.value = v] *)
Definition set_next (p : loc) (v : option loc) (l : dlist) : dlist :=
  set_heap (alter (λ n, LNode v (ln_prev n) (ln_val n)) p (dl_heap l)) l.
Definition set_prev (p : loc) (v : option loc) (l : dlist) : dlist :=
  set_heap (alter (λ n, LNode (ln_next n) v (ln_val n)) p (dl_heap l)) l.
Definition set_val (p : loc) (v : string) (l : dlist) : dlist :=
  set_heap (alter (λ n, LNode (ln_next n) (ln_prev n) v) p (dl_heap l)) l.

(** list.go:42-48 addToHead *)
Definition add_to_head (n : loc) (val : string) (l : dlist) : loc * dlist :=
  let (node, l1) := alloc (LNode None None val) l in
  let l2 := set_prev n (Some node) l1 in
  let l3 := set_next node (Some n) l2 in
  (node, l3).

(** list.go:51-60 popAndNext *)
Definition pop_and_next (n : loc) (l : dlist) : outcome (option loc * dlist) :=
  let* nd := node_at n l in
  let next := ln_next nd in
  let l1 := set_next n None l in
  let l2 := match next with Some x => set_prev x None l1 | None => l1 end in
  Ret (next, l2).

(** list.go:63-72 popAndPrev *)
Definition pop_and_prev (n : loc) (l : dlist) : outcome (option loc * dlist) :=
  let* nd := node_at n l in
  let prev := ln_prev nd in
  let l1 := set_prev n None l in
  let l2 := match prev with Some x => set_next x None l1 | None => l1 end in
  Ret (prev, l2).

(** list.go:74-80 addToTail *)
Definition add_to_tail (n : loc) (val : string) (l : dlist) : loc * dlist :=
  let (node, l1) := alloc (LNode None None val) l in
  let l2 := set_next n (Some node) l1 in
  let l3 := set_prev node (Some n) l2 in
  (node, l3).

(** list.go:82-92 LPush *)
Definition dl_lpush (val : string) (l : dlist) : dlist :=
  let l1 := set_len (dl_len l + 1) l in
  match dl_head l1 with
  | Some h => let (node, l2) := add_to_head h val l1 in set_head (Some node) l2
  | None =>
      let (node, l2) := alloc (LNode None None val) l1 in
      set_tail (Some node) (set_head (Some node) l2)
  end.

(** list.go:94-107 LPop: (val, ok) is an option *)
Definition dl_lpop (l : dlist) : outcome (option string * dlist) :=
  match dl_head l with
  | None => Ret (None, l)
  | Some h =>
      let l1 := set_len (dl_len l - 1) l in
      let* nd := node_at h l1 in
      let* (next, l2) := pop_and_next h l1 in
      let l3 := set_head next l2 in
      Ret (Some (ln_val nd), match next with None => set_tail None l3 | Some _ => l3 end)
  end.

(** list.go:109-119 RPush *)
Definition dl_rpush (val : string) (l : dlist) : dlist :=
  let l1 := set_len (dl_len l + 1) l in
  match dl_tail l1 with
  | Some t => let (node, l2) := add_to_tail t val l1 in set_tail (Some node) l2
  | None =>
      let (node, l2) := alloc (LNode None None val) l1 in
      set_tail (Some node) (set_head (Some node) l2)
  end.

(** list.go:121-134 RPop *)
Definition dl_rpop (l : dlist) : outcome (option string * dlist) :=
  match dl_tail l with
  | None => Ret (None, l)
  | Some t =>
      let l1 := set_len (dl_len l - 1) l in
      let* nd := node_at t l1 in
      let* (prev, l2) := pop_and_prev t l1 in
      let l3 := set_tail prev l2 in
      Ret (Some (ln_val nd), match prev with None => set_head None l3 | Some _ => l3 end)
  end.

(** list.go:18-25, 27-34 newListByLPush, newListByRPush *)
Definition dl_lpush_all (values : list string) (l : dlist) : dlist :=
  foldl (λ l v, dl_lpush v l) l values.
Definition dl_rpush_all (values : list string) (l : dlist) : dlist :=
  foldl (λ l v, dl_rpush v l) l values.

(** list.go:165-172: the loop of LRange *)
Fixpoint lrange_loop (fuel : nat) (l : dlist) (start stop idx : Z) (head : option loc)
    (values : list string) : outcome (list string) :=
  match head with
  | Some p =>
      if idx <=? stop then
        match fuel with
        | O => OutOfFuel
        | S f =>
            let* nd := node_at p l in
            lrange_loop f l start stop (idx + 1) (ln_next nd)
              (if start <=? idx then values ++ [ln_val nd] else values)
        end
      else Ret values
  | None => Ret values
  end.

(** list.go:136-175 LRange.  The sums cannot overflow an int: a negative number plus a length. *)
Definition dl_lrange (start stop : Z) (l : dlist) : outcome (list string) :=
  match dl_head l with
  | None => Ret []
  | Some _ =>
      let start :=
        if start <? 0 then
          let s := start + dl_len l in if s <? 0 then 0 else s
        else start in
      let stop := if stop <? 0 then stop + dl_len l else stop in
      if (stop <? start) || (dl_len l <? start) then Ret []
      else
        let stop := if dl_len l <=? stop then dl_len l - 1 else stop in
        lrange_loop (Z.to_nat (dl_len l + 1)) l start stop 0 (dl_head l) []
  end.

(** list.go:193-213: the loop of LRemCountFromHead.  The result is
    (list, prev, cnt). *)
Fixpoint rem_head_loop (fuel : nat) (value : string) (n cnt : Z)
    (prev : loc) (cur next : option loc) (l : dlist) : outcome (dlist * loc * Z) :=
  match cur with
  | Some c =>
      if 0 <? n then
        match fuel with
        | O => OutOfFuel
        | S f =>
            let* nd := node_at c l in
            let* (prev', l', n', cnt') :=
              (if String.eqb (ln_val nd) value then
                 let l1 := set_next prev next l in
                 let l2 := match next with Some x => set_prev x (Some prev) l1 | None => l1 end in
                 let l3 := set_next c None (set_prev c None l2) in
                 Ret (prev, l3, n - 1, cnt + 1)
               else
                 let* pn := node_at prev l in
                 let* p' := deref (ln_next pn) in
                 Ret (p', l, n, cnt)) in
            let* next' :=
              match next with
              | Some x => let* nx := node_at x l' in Ret (ln_next nx)
              | None => Ret None
              end in
            rem_head_loop f value n' cnt' prev' next next' l'
        end
      else Ret (l, prev, cnt)
  | None => Ret (l, prev, cnt)
  end.

(** list.go:183-228 LRemCountFromHead.  [prev = prev.next] yields nil only if [prev.next] is nil,
    which would panic at the next use of [prev]; the model panics at the assignment. *)
Definition dl_rem_head (value : string) (n : Z) (l : dlist) : outcome (dlist * Z) :=
  let (dumb, l0) := alloc (LNode (dl_head l) None EmptyString) l in
  let* h := deref (dl_head l) in
  let* hn := node_at h l0 in
  let* (l1, prev, cnt) :=
    rem_head_loop (S (size (dl_heap l))) value n 0 dumb (dl_head l) (ln_next hn) l0 in
  let* pn := node_at prev l1 in
  let l2 := match ln_next pn with None => set_tail (Some prev) l1 | Some _ => l1 end in
  let* dn := node_at dumb l2 in
  let l3 := set_head (ln_next dn) l2 in
  let l4 := match dl_head l3 with Some x => set_prev x None l3 | None => l3 end in
  Ret (set_len (dl_len l4 - cnt) l4, cnt).

(** list.go:245-265: the loop of LRemCountFromTail *)
Fixpoint rem_tail_loop (fuel : nat) (value : string) (n cnt : Z)
    (prev : loc) (cur next : option loc) (l : dlist) : outcome (dlist * loc * Z) :=
  match cur with
  | Some c =>
      if 0 <? n then
        match fuel with
        | O => OutOfFuel
        | S f =>
            let* nd := node_at c l in
            let* (prev', l', n', cnt') :=
              (if String.eqb (ln_val nd) value then
                 let l1 := set_prev prev next l in
                 let l2 := match next with Some x => set_next x (Some prev) l1 | None => l1 end in
                 let l3 := set_next c None (set_prev c None l2) in
                 Ret (prev, l3, n - 1, cnt + 1)
               else
                 let* pn := node_at prev l in
                 let* p' := deref (ln_prev pn) in
                 Ret (p', l, n, cnt)) in
            let* next' :=
              match next with
              | Some x => let* nx := node_at x l' in Ret (ln_prev nx)
              | None => Ret None
              end in
            rem_tail_loop f value n' cnt' prev' next next' l'
        end
      else Ret (l, prev, cnt)
  | None => Ret (l, prev, cnt)
  end.

(** list.go:231-281 LRemCountFromTail *)
Definition dl_rem_tail (value : string) (n : Z) (l : dlist) : outcome (dlist * Z) :=
  let (dumb, l0) := alloc (LNode None (dl_tail l) EmptyString) l in
  let* t := deref (dl_tail l) in
  let* tn := node_at t l0 in
  let* (l1, prev, cnt) :=
    rem_tail_loop (S (size (dl_heap l))) value n 0 dumb (dl_tail l) (ln_prev tn) l0 in
  let* pn := node_at prev l1 in
  let l2 := match ln_prev pn with None => set_head (Some prev) l1 | Some _ => l1 end in
  let* dn := node_at dumb l2 in
  let l3 := set_tail (ln_prev dn) l2 in
  let l4 := match dl_tail l3 with Some x => set_next x None l3 | None => l3 end in
  Ret (set_len (dl_len l4 - cnt) l4, cnt).

(** list.go:307-315: the loop of lIndexNode *)
Fixpoint index_loop (fuel : nat) (l : dlist) (reverse : bool) (i idx : Z) (cur : option loc)
    : outcome (option loc) :=
  if i =? idx then Ret cur
  else
    match fuel with
    | O => OutOfFuel
    | S f =>
        let* c := deref cur in
        let* nd := node_at c l in
        if reverse then index_loop f l reverse i (idx - 1) (ln_prev nd)
        else index_loop f l reverse i (idx + 1) (ln_next nd)
    end.

(** list.go:283-318 lIndexNode *)
Definition dl_index_node (i : Z) (l : dlist) : outcome (option loc) :=
  match dl_head l with
  | None => Ret None
  | Some _ =>
      let i := if i <? 0 then i + dl_len l else i in
      if (dl_len l <=? i) || (i <? 0) then Ret None
      else
        let reverse := dl_len l / 2 + 1 <? i in
        if reverse then index_loop (Z.to_nat (dl_len l)) l true i (dl_len l - 1) (dl_tail l)
        else index_loop (Z.to_nat (dl_len l)) l false i 0 (dl_head l)
  end.

(** list.go:320-327 LIndex *)
Definition dl_lindex (i : Z) (l : dlist) : outcome (option string) :=
  let* node := dl_index_node i l in
  match node with
  | None => Ret None
  | Some p => let* nd := node_at p l in Ret (Some (ln_val nd))
  end.

(** list.go:329-337 LSet *)
Definition dl_lset (i : Z) (val : string) (l : dlist) : outcome (dlist * bool) :=
  let* node := dl_index_node i l in
  match node with
  | None => Ret (l, false)
  | Some p => Ret (set_val p val l, true)
  end.

(** list.go:385-395 findNode *)
Fixpoint find_loop (fuel : nat) (val : string) (l : dlist) (cur : option loc) : outcome (option loc) :=
  match cur with
  | None => Ret None
  | Some c =>
      match fuel with
      | O => OutOfFuel
      | S f =>
          let* nd := node_at c l in
          if String.eqb (ln_val nd) val then Ret (Some c) else find_loop f val l (ln_next nd)
      end
  end.
Definition dl_find (val : string) (l : dlist) : outcome (option loc) :=
  find_loop (S (size (dl_heap l))) val l (dl_head l).

(** list.go:339-383 LInsert *)
Definition dl_linsert (target newValue : string) (flag : Z) (l : dlist) : outcome (dlist * bool) :=
  match dl_head l with
  | None => Ret (l, false)
  | Some _ =>
      let* node := dl_find target l in
      match node with
      | None => Ret (l, false)
      | Some p =>
          if flag =? 0 then Ret (set_val p newValue l, true)
          else
            let (q, l1) := alloc (LNode None None newValue) l in
            let l2 := set_len (dl_len l1 + 1) l1 in
            let* nd := node_at p l2 in
            if 0 <? flag then
              let next := ln_next nd in
              let l3 := set_prev q (Some p) (set_next p (Some q) l2) in
              Ret (match next with
                   | None => set_tail (Some q) l3
                   | Some x => set_prev x (Some q) (set_next q (Some x) l3)
                   end, true)
            else
              let prev := ln_prev nd in
              let l3 := set_next q (Some p) (set_prev p (Some q) l2) in
              Ret (match prev with
                   | None => set_head (Some q) l3
                   | Some x => set_next x (Some q) (set_prev q (Some x) l3)
                   end, true)
      end
  end.

(** list.go:466-474, the loop of LPop(key, count) (and 508-516 for RPop) *)
Fixpoint lpop_loop (fuel : nat) (count : Z) (l : dlist) (values : list string)
    : outcome (dlist * list string) :=
  if (0 <? count) && (0 <? dl_len l) then
    match fuel with
    | O => OutOfFuel
    | S f =>
        let* (r, l') := dl_lpop l in
        match r with
        | None => Ret (l', values)
        | Some v => lpop_loop f (count - 1) l' (values ++ [v])
        end
    end
  else Ret (l, values).
Definition dl_lpop_n (count : Z) (l : dlist) : outcome (dlist * list string) :=
  lpop_loop (Z.to_nat (dl_len l)) count l [].

Fixpoint rpop_loop (fuel : nat) (count : Z) (l : dlist) (values : list string)
    : outcome (dlist * list string) :=
  if (0 <? count) && (0 <? dl_len l) then
    match fuel with
    | O => OutOfFuel
    | S f =>
        let* (r, l') := dl_rpop l in
        match r with
        | None => Ret (l', values)
        | Some v => rpop_loop f (count - 1) l' (values ++ [v])
        end
    end
  else Ret (l, values).
Definition dl_rpop_n (count : Z) (l : dlist) : outcome (dlist * list string) :=
  rpop_loop (Z.to_nat (dl_len l)) count l [].

(** list.go:548-556, the body of LRem after the key lookup.  [-count] wraps for the
    smallest int. *)
Definition dl_lrem (count : Z) (value : string) (l : dlist) : outcome (dlist * Z) :=
  if 0 <? count then dl_rem_head value count l
  else if count <? 0 then dl_rem_tail value (wrap64 (- count)) l
  else dl_rem_head value (dl_len l) l.
