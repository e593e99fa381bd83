(** Concrete external functions and choices, for the examples. *)
From Verif Require Import GoBase Float64 ShardMap Db Redis Obs.

(** integer-valued scores; the pattern * matches everything, other patterns themselves *)
Definition ext0 : Ext := {|
  parse_float := λ s, match parse_int s with Some z => Some (f_of_Z z) | None => None end;
  format_float := λ f, match f with
                       | S754_zero _ => "0"
                       | S754_finite b m e => itoa ((if b then -1 else 1) * (if (0 <=? e)%Z then Zpos m * 2 ^ e else Zpos m / 2 ^ (- e)))
                       | S754_infinity b => if b then "-Inf" else "+Inf"
                       | S754_nan => "NaN"
                       end;
  glob_compile := λ p, if String.eqb p "*" then Some (λ _, true)
                       else if String.eqb p "[" then None else Some (String.eqb p)
|}.
(** the first elements in Go's iteration order, towers of height 1 *)
Definition c0 : choices := Ch (λ _ _, []) (λ _, 1%nat).
Definition plain_history (h : list (list string)) : list (choices * list string) := (λ r, (c0, r)) <$> h.
Lemma plain_history_2 h : (plain_history h).*2 = h.
Proof. induction h as [|r h IH]; [done|]. unfold plain_history in *. rewrite !fmap_cons. by rewrite IH. Qed.
(** the replies to a history, if the server survives it *)
Definition replies (h : list (list string)) : option (list (option SpecResp.resp)) :=
  match talk ext0 (plain_history h) db_new with Ret (_, rs) => Some rs | _ => None end.
Definition crashed (h : list (list string)) : bool :=
  match talk ext0 (plain_history h) db_new with Panic => true | _ => false end.
(** the state after a history *)
Definition after (h : list (list string)) : db :=
  match talk ext0 (plain_history h) db_new with Ret (d, _) => d | _ => db_new end.
Lemma after_reachable h : is_Some (replies h) → reachable ext0 (after h).
Proof.
  unfold replies, after. intros [rs H]. destruct (talk ext0 (plain_history h) db_new) as [[d rs']| |] eqn:E; try done.
  by exists (plain_history h), rs'.
Qed.
