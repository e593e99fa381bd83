(** Specification for C88 and C89: a counter that adds up amounts, and a set that recognises what it has seen.
    Everything is read off the requests and their replies. *)
From Verif Require Import GoBase SpecResp Db Redis Obs SpecCmd SpecKey Server SpecServing SpecCommute SpecUse.

(** ** a counter *)
(** the amount a request adds to the counter *)
Definition amount (k : string) (req : list string) : option Z :=
  if asks_for "incr" k req then Some 1
  else if asks_for "decr" k req then Some (-1)
  else if asks_for "incrby" k req then match values req with v :: _ => parse_int v | [] => None end
  else if asks_for "decrby" k req then match values req with v :: _ => Z.opp <$> parse_int v | [] => None end
  else None.
(** the request adds to the counter (or fails to: the amount is no integer), asks, or cannot change the key *)
Definition total_request (k : string) (req : list string) : bool :=
  asks_for_any ["incr"; "decr"; "incrby"; "decrby"; "get"; "exists"; "type"] k req || negb (bool_decide (k ∈ touched req)).
(** the amounts added, in order; by a conversation and by the executed requests of a server *)
Definition amounts (k : string) (l : list exchange) : list Z := omap (λ x : exchange, amount k x.1.2) l.
Definition paid (k : string) (h : list call) : list Z := omap (λ x, amount k (what x)) h.
Definition sum (l : list Z) : Z := foldr Z.add 0 l.
(** the counter: the sum, in 64 bits *)
Definition total (l : list Z) : Z := wrap64 (sum l).
(** what GET shows after the amounts [p] *)
Definition total_shown (p : list Z) : resp := match p with [] => RNil | _ => RBulk (itoa (total p)) end.
(** the answer to a request after the amounts [p] *)
Definition total_answer (k : string) (p : list Z) (req : list string) (r : option resp) : Prop :=
  (∀ n, amount k req = Some n → r = Some (RInt (total (p ++ [n])))) ∧
  (asks_for "get" k req = true → r = Some (total_shown p)).

(** ** a set of what was seen *)
Definition seen_in (k : string) (req : list string) : list string := if asks_for "sadd" k req then values req else [].
Definition seen_request (k : string) (req : list string) : bool :=
  asks_for "sadd" k req && negb (bool_decide (values req = [])) ||
  asks_for "sismember" k req && negb (bool_decide (values req = [])) || asks_for_any ["scard"; "exists"; "type"] k req || negb (bool_decide (k ∈ touched req)).
Definition seen_so_far (k : string) (l : list exchange) : list string := concat ((λ x : exchange, seen_in k x.1.2) <$> l).
Definition announced (k : string) (h : list call) : list string := concat ((λ x, seen_in k (what x)) <$> h).
(** how many different strings *)
Definition distinct (l : list string) : Z := Z.of_nat (length (remove_dups l)).
(** the answer to a request after the strings [p] were seen: of SADD how many are new, of SCARD how many there are *)
Definition seen_answer (k : string) (p : list string) (req : list string) (r : option resp) : Prop :=
  (asks_for "sadd" k req = true → r = Some (RInt (distinct (p ++ values req) - distinct p))) ∧
  (asks_for "scard" k req = true → r = Some (RInt (distinct p))) ∧
  (∀ v a, asks_for "sismember" k req = true → values req = v :: a → r = Some (RInt (if bool_decide (v ∈ p) then 1 else 0))).
