(** Specification for C78-C80: what clients build from these commands: a queue of jobs, a source of numbers, a lock.
    Everything is read off the conversation: the requests and their replies (SpecCommute.v). *)
From Verif Require Import GoBase SpecResp SpecWire SpecStream Db Redis Obs SpecCmd SpecKey Server SpecServing SpecCommute.

(** the request has this name (in any case) and this first argument *)
Definition asks_for (name k : string) (req : list string) : bool :=
  match req with n :: k' :: _ => String.eqb (to_lower n) name && String.eqb k' k | _ => false end.
Definition asks_for_any (names : list string) (k : string) (req : list string) : bool := existsb (λ n, asks_for n k req) names.
(** the arguments after the first *)
Definition values (req : list string) : list string := drop 2 req.
(** the byte strings of a reply *)
Definition texts (r : option resp) : list string :=
  match r with Some (RArr l) => omap (λ x, match x with RBulk s => Some s | _ => None end) l | _ => [] end.

(** ** a queue: values go in at one end of a list and out at the other *)
Definition queue_ends : list (string * string) := [("lpush", "rpop"); ("rpush", "lpop")].
(** the request pushes at least one value, pops a positive number of values, only asks, or is not about the key *)
Definition queue_request (push pop k : string) (req : list string) : bool :=
  negb (about k req) ||
  asks_for push k req && negb (bool_decide (values req = [])) ||
  asks_for pop k req && (match pop_number (values req) with Some _ => true | None => false end) ||
  asks_for_any ["llen"; "exists"; "type"] k req.
(** the values put in, and those that replies have handed out, in order *)
Definition put_in (push k : string) (l : list exchange) : list string :=
  concat ((λ x, if asks_for push k x.1.2 then values x.1.2 else []) <$> l).
Definition handed_out (pop k : string) (l : list exchange) : list string :=
  concat ((λ x, if asks_for pop k x.1.2 then texts x.2 else []) <$> l).
(** the values that executed requests put in *)
Definition pushed (push k : string) (h : list call) : list string :=
  concat ((λ x, if asks_for push k (what x) then values (what x) else []) <$> h).
(** how many values a pop asks for *)
Definition wanted (req : list string) : nat := Z.to_nat (default 1 (pop_number (values req))).

(** ** a source of numbers *)
Definition counter_request (k : string) (req : list string) : bool :=
  negb (about k req) || asks_for_any ["incr"; "get"; "exists"; "type"] k req.
(** the replies to the requests with this name *)
Definition replies_to (name k : string) (l : list exchange) : list (option resp) :=
  omap (λ x, if asks_for name k x.1.2 then Some x.2 else None) l.
(** the numbers z+1, ..., z+n *)
Definition numbers (z : Z) (n : nat) : list Z := (λ i, z + 1 + Z.of_nat i) <$> seq 0 n.

(** ** a lock: who adds the token to the set has the lock, until the token is removed *)
Definition takes (k t : string) (req : list string) : bool := asks_for "sadd" k req && bool_decide (values req = [t]).
Definition frees (k t : string) (req : list string) : bool := asks_for "srem" k req && bool_decide (values req = [t]).
Definition lock_request (k : string) (req : list string) : bool :=
  negb (about k req) ||
  asks_for_any ["sadd"; "srem"; "sismember"] k req && negb (bool_decide (values req = [])) ||
  asks_for_any ["scard"; "exists"; "type"] k req.
(** neither adds nor removes the token, except alone *)
Definition respects (k t : string) (req : list string) : bool :=
  negb (asks_for_any ["sadd"; "srem"] k req) || negb (bool_decide (t ∈ values req)) || bool_decide (values req = [t]).
(** the reply is 1 *)
Definition succeeded (r : option resp) : bool := match r with Some (RInt 1) => true | _ => false end.
(** the successful takings (true) and releases (false), in order *)
Definition turns (k t : string) (l : list exchange) : list bool :=
  omap (λ x, if succeeded x.2
             then if takes k t x.1.2 then Some true else if frees k t x.1.2 then Some false else None
             else None) l.
(** a taking first, then a release, and so on *)
Fixpoint alternate (b : bool) (l : list bool) : Prop :=
  match l with [] => True | x :: r => x = b ∧ alternate (negb b) r end.
(** the last turn was a taking *)
Definition held (l : list bool) : bool := default false (last l).

(** ** a log: records are appended to one string *)
Definition log_request (k : string) (req : list string) : bool :=
  negb (about k req) || asks_for "append" k req && negb (bool_decide (values req = [])) || asks_for_any ["get"; "exists"; "type"] k req.
(** the record that a request appends (APPEND ignores further arguments) *)
Definition record (k : string) (req : list string) : string := if asks_for "append" k req then default "" (head (values req)) else "".
Definition records (k : string) (l : list exchange) : string := sconcat ((λ x : exchange, record k x.1.2) <$> l).
(** [r] occurs in [w] from byte [n] on *)
Definition found_at (n : Z) (r w : string) : Prop := ∃ p q, w = p +:+ r +:+ q ∧ slen p = n.

(** the conversation behind the executed requests of a running server *)
Definition spoken (h : list call) (rs : list (option resp)) : list exchange := zip (as_history h) rs.

(** ** keys that are written together *)
Fixpoint in_pairs (a : list string) : option (list (string * string)) :=
  match a with
  | [] => Some []
  | k :: v :: r => cons (k, v) <$> in_pairs r
  | _ => None
  end.
(** the value that the pairs give the key: the last one *)
Definition given (k : string) (p : list (string * string)) : option string := snd <$> last (filter (λ x, x.1 = k) p).
(** the request is a MSET of these pairs, among them one for each of the keys *)
Definition sets_all (ks : list string) (req : list string) : option (list (string * string)) :=
  match req with
  | n :: a => if String.eqb (to_lower n) "mset" then p ← in_pairs a; if forallb (λ k, bool_decide (k ∈ p.*1)) ks then Some p else None else None
  | [] => None
  end.
Definition sets_none (ks : list string) (req : list string) : bool := forallb (λ k, negb (bool_decide (k ∈ writes req))) ks.
(** the request gives values to all of the keys, or touches none of them (it may ask for them) *)
Definition together_request (ks : list string) (req : list string) : bool :=
  sets_none ks req || (match sets_all ks req with Some _ => true | None => false end).
(** the answer of a MGET: a value, or nil for an absent key *)
Definition shown (s : option string) : resp := match s with Some v => RBulk v | None => RNil end.
Definition row (v : string → option string) (ks : list string) : resp := RArr ((λ k, shown (v k)) <$> ks).
(** the request is a MGET of keys among [ks], at least one *)
Definition asks_rows (ks : list string) (req : list string) : bool :=
  match req with
  | n :: a => String.eqb (to_lower n) "mget" && negb (bool_decide (a = [])) && forallb (λ k, bool_decide (k ∈ ks)) a
  | [] => false
  end.

(** ** the two ends of a list *)
(** pushes at least one value at an end, pops a positive number of values at an end, only asks, or is not about the key *)
Definition deque_request (k : string) (req : list string) : bool :=
  negb (about k req) ||
  asks_for_any ["lpush"; "rpush"] k req && negb (bool_decide (values req = [])) ||
  asks_for_any ["lpop"; "rpop"] k req && (match pop_number (values req) with Some _ => true | None => false end) ||
  asks_for_any ["llen"; "exists"; "type"] k req.
Definition put_ends (k : string) (l : list exchange) : list string :=
  concat ((λ x : exchange, if asks_for_any ["lpush"; "rpush"] k x.1.2 then values x.1.2 else []) <$> l).
Definition handed_ends (k : string) (l : list exchange) : list string :=
  concat ((λ x : exchange, if asks_for_any ["lpop"; "rpop"] k x.1.2 then texts x.2 else []) <$> l).
Definition pushed_ends (k : string) (h : list call) : list string :=
  concat ((λ x, if asks_for_any ["lpush"; "rpush"] k (what x) then values (what x) else []) <$> h).
(** What the list holds after the exchanges if it held [xs] before: [None] if the reply to a pop is not what was at that end. *)
Fixpoint as_deque (k : string) (xs : list string) (l : list exchange) : option (list string) :=
  match l with
  | [] => Some xs
  | (_, req, r) :: l' =>
      if asks_for "lpush" k req then as_deque k (reverse (values req) ++ xs) l'
      else if asks_for "rpush" k req then as_deque k (xs ++ values req) l'
      else if asks_for "lpop" k req then
        (if bool_decide (texts r = take (wanted req) xs) then as_deque k (drop (wanted req) xs) l' else None)
      else if asks_for "rpop" k req then
        (if bool_decide (texts r = take (wanted req) (reverse xs)) then as_deque k (reverse (drop (wanted req) (reverse xs))) l' else None)
      else as_deque k xs l'
  end.

(** ** a growing list that is read in pages *)
(** LRANGE from position [a] on: of [Some n] values at most, or to the end *)
Definition page_request (k : string) (req : list string) : option (nat * option nat) :=
  match req with
  | n :: k' :: x :: y :: _ =>
      if String.eqb (to_lower n) "lrange" && String.eqb k' k then
        match parse_int x, parse_int y with
        | Some a, Some b =>
            if a <? 0 then None
            else if b =? -1 then Some (Z.to_nat a, None)
            else if b <? 0 then None else Some (Z.to_nat a, Some (Z.to_nat (b + 1 - a)))
        | _, _ => None
        end
      else None
  | _ => None
  end.
Definition page_of (p : nat * option nat) (xs : list string) : list string :=
  match p.2 with Some n => take n (drop p.1 xs) | None => drop p.1 xs end.
(** appends at least one value, reads a page, only asks, or is not about the key *)
Definition growing_request (k : string) (req : list string) : bool :=
  negb (about k req) ||
  asks_for "rpush" k req && negb (bool_decide (values req = [])) ||
  (match page_request k req with Some _ => true | None => false end) ||
  asks_for_any ["llen"; "exists"; "type"] k req.
(** the exchanges are pages, each from where the one before ended *)
Fixpoint reads_on (k : string) (from : nat) (ps : list exchange) : Prop :=
  match ps with
  | [] => True
  | x :: ps' => (∃ n, page_request k x.1.2 = Some (from, n)) ∧ reads_on k (from + length (texts x.2)) ps'
  end.
(** what the reader has got *)
Definition read_in (ps : list exchange) : list string := concat ((λ x : exchange, texts x.2) <$> ps).
