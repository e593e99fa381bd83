(** Runs of the first server that meet the hypotheses of the theorems about its clients in C78, C80-C84, C86-C98. *)
From Verif Require Import GoBase Float64 ShardMap Db Protocol Redis SpecResp SpecWire SpecCmd Obs SpecServer SpecKey Examples SimZSet P_Lists P_Sets P_ZSets
  SpecCommute SpecUse SpecBoard SpecTasks SpecTotal SpecRegister SpecPages SpecPot SpecStream Stream Server SpecServing ServerProofs P_Serve Server1 SpecServing1 Drive1 P_Serve1 Drive P_ServeMore P_Use P_Use2 P_Use3 P_Use4 P_Use5 P_Use6 P_Use7 P_Pages P_Acked.

(** two clients, 7 and 8; each sends its requests at once; they are executed in the order of the list *)
Definition session1 (l : list (nat * list string)) : list action1 :=
  [BOpen 7; BOpen 8] ++ ((λ x : nat * list string, BArrive x.1 (request_bytes x.2)) <$> l) ++ concat (imap (λ i x, answer x.1 (S i)) l).
Definition got1s (l : list (nat * list string)) : list (list string) := (λ k, (written k (trace1 (session1 l))).*2) <$> [7; 8]%nat.
Definition all1 (p : list string → bool) (l : list (nat * list string)) : bool := forallb (λ x, p (what x)) (calls1 (trace1 (session1 l))).
Definition runs_session1 (l : list (nat * list string)) : Prop := runs1 ext0 big1 (trace1 (session1 l)) (final1 (session1 l)) ∧ what <$> calls1 (trace1 (session1 l)) = l.*2.
Ltac play := split; [split; [apply trace1_runs; by vm_compute|by vm_compute]|].

Definition jobs1 : list (nat * list string) := [(7, ["LPUSH"; "l"; "a"; "b"]); (8, ["RPOP"; "l"]); (7, ["RPOP"; "l"; "5"]); (8, ["LLEN"; "l"])]%nat.
Example C78_clients1_demo : runs_session1 jobs1 ∧ all1 (queue_request "lpush" "rpop" "l") jobs1 = true ∧
  got1s jobs1 = [[crlf [":2"]; crlf ["*1"; "$1"; "b"]]; [crlf ["*1"; "$1"; "a"]; crlf [":0"]]] ∧ pushed "lpush" "l" (calls1 (trace1 (session1 jobs1))) = ["a"; "b"].
Proof. play. split; [by vm_compute|]. split; by vm_compute. Qed.
Definition locking1 : list (nat * list string) := [(7, ["SADD"; "lock"; "t"]); (8, ["SADD"; "lock"; "t"]); (7, ["SREM"; "lock"; "t"]); (8, ["SADD"; "lock"; "t"])]%nat.
Example C80_clients1_demo : runs_session1 locking1 ∧ all1 (λ r, lock_request "lock" r && respects "lock" "t" r) locking1 = true ∧
  got1s locking1 = [[crlf [":1"]; crlf [":1"]]; [crlf [":0"]; crlf [":1"]]].
Proof. play. split; by vm_compute. Qed.
Definition writing1 : list (nat * list string) := [(8, ["APPEND"; "log"; "one;"]); (7, ["APPEND"; "log"; "two;"]); (8, ["GET"; "log"])]%nat.
Example C81_clients1_demo : runs_session1 writing1 ∧ all1 (log_request "log") writing1 = true ∧
  got1s writing1 = [[crlf [":8"]]; [crlf [":4"]; crlf ["$8"; "one;two;"]]].
Proof. play. split; by vm_compute. Qed.
Definition rows1 : list (nat * list string) := [(7, ["MSET"; "a"; "1"; "b"; "1"]); (8, ["MGET"; "b"; "a"]); (7, ["MSET"; "b"; "2"; "a"; "2"]); (8, ["MGET"; "a"; "b"])]%nat.
Example C82_clients1_demo : runs_session1 rows1 ∧ all1 (together_request ["a"; "b"]) rows1 = true ∧
  got1s rows1 = [[crlf ["+OK"]; crlf ["+OK"]]; [crlf ["*2"; "$1"; "1"; "$1"; "1"]; crlf ["*2"; "$1"; "2"; "$1"; "2"]]].
Proof. play. split; by vm_compute. Qed.
Definition stealing1 : list (nat * list string) := [(7, ["RPUSH"; "l"; "a"; "b"]); (8, ["LPOP"; "l"]); (7, ["RPOP"; "l"])]%nat.
Example C83_clients1_demo : runs_session1 stealing1 ∧ all1 (deque_request "l") stealing1 = true ∧
  got1s stealing1 = [[crlf [":2"]; crlf ["*1"; "$1"; "b"]]; [crlf ["*1"; "$1"; "a"]]] ∧ pushed_ends "l" (calls1 (trace1 (session1 stealing1))) = ["a"; "b"].
Proof. play. split; [by vm_compute|]. split; by vm_compute. Qed.
Definition tailing1 : list (nat * list string) :=
  [(7, ["RPUSH"; "l"; "a"; "b"]); (8, ["LRANGE"; "l"; "0"; "-1"]); (7, ["RPUSH"; "l"; "c"]); (8, ["LRANGE"; "l"; "2"; "-1"])]%nat.
Example C84_clients1_demo : runs_session1 tailing1 ∧ all1 (growing_request "l") tailing1 = true ∧
  got1s tailing1 = [[crlf [":2"]; crlf [":3"]]; [crlf ["*2"; "$1"; "a"; "$1"; "b"]; crlf ["*1"; "$1"; "c"]]] ∧ pushed "rpush" "l" (calls1 (trace1 (session1 tailing1))) = ["a"; "b"; "c"].
Proof. play. split; [by vm_compute|]. split; by vm_compute. Qed.
Definition playing1 : list (nat * list string) :=
  [(7, ["ZADD"; "b"; "3"; "ann"]); (8, ["ZADD"; "b"; "2"; "bob"]); (7, ["ZRANGE"; "b"; "0"; "-1"]); (8, ["ZADD"; "b"; "9"; "bob"]); (7, ["ZREVRANGE"; "b"; "0"; "-1"])]%nat.
Lemma playing1_low : how <$> calls1 (trace1 (session1 playing1)) = [c0; c0; c0; c0; c0].
Proof. by vm_compute. Qed.
Lemma playing1_calm y : y ∈ calls1 (trace1 (session1 playing1)) → low_towers (how y).
Proof.
  intros Hy. assert (how y ∈ [c0; c0; c0; c0; c0]) as H. { rewrite <- playing1_low. by apply elem_of_list_fmap_1. }
  clear Hy. repeat (apply elem_of_cons in H as [->|H]; [apply low_c0|]). by apply elem_of_nil in H.
Qed.
Example C86_clients1_demo : runs_session1 playing1 ∧ all1 (board_request ext0 "b") playing1 = true ∧ (∀ y, y ∈ calls1 (trace1 (session1 playing1)) → low_towers (how y)) ∧
  got1s playing1 = [[crlf [":1"]; crlf ["*2"; "$3"; "bob"; "$3"; "ann"]; crlf ["*2"; "$3"; "bob"; "$3"; "ann"]]; [crlf [":1"]; crlf [":1"]]] ∧
  entered ext0 "b" (calls1 (trace1 (session1 playing1))) = [(f_of_Z 3, "ann"); (f_of_Z 2, "bob"); (f_of_Z 9, "bob")].
Proof. play. split; [by vm_compute|]. split; [exact playing1_calm|]. split; by vm_compute. Qed.
Definition claiming1 : list (nat * list string) :=
  [(7, ["SADD"; "todo"; "a"; "b"]); (8, ["SMOVE"; "todo"; "doing"; "a"]); (7, ["SMOVE"; "todo"; "doing"; "a"]); (8, ["SMOVE"; "doing"; "done"; "a"]); (7, ["SMOVE"; "todo"; "doing"; "b"])]%nat.
Example C87_clients1_demo : runs_session1 claiming1 ∧ all1 (task_request ["todo"; "doing"; "done"]) claiming1 = true ∧
  got1s claiming1 = [[crlf [":2"]; crlf ["-" +:+ err_msg ErrNil]; crlf [":1"]]; [crlf [":1"]; crlf [":1"]]] ∧
  task_names ["todo"; "doing"; "done"] (calls1 (trace1 (session1 claiming1))) = ["a"; "b"].
Proof. play. split; [by vm_compute|]. split; by vm_compute. Qed.
Definition tills1 : list (nat * list string) := [(7, ["INCRBY"; "n"; "5"]); (8, ["DECRBY"; "n"; "2"]); (7, ["GET"; "n"])]%nat.
Example C88_clients1_demo : runs_session1 tills1 ∧ all1 (total_request "n") tills1 = true ∧
  got1s tills1 = [[crlf [":5"]; crlf ["$1"; "3"]]; [crlf [":3"]]] ∧ paid "n" (calls1 (trace1 (session1 tills1))) = [5; -2].
Proof. play. split; [by vm_compute|]. split; by vm_compute. Qed.
Definition doors1 : list (nat * list string) := [(7, ["SADD"; "v"; "m1"]); (8, ["SADD"; "v"; "m1"]); (7, ["SCARD"; "v"])]%nat.
Example C89_clients1_demo : runs_session1 doors1 ∧ all1 (seen_request "v") doors1 = true ∧
  got1s doors1 = [[crlf [":1"]; crlf [":1"]]; [crlf [":0"]]] ∧ announced "v" (calls1 (trace1 (session1 doors1))) = ["m1"; "m1"].
Proof. play. split; [by vm_compute|]. split; by vm_compute. Qed.
Definition sharing1 : list (nat * list string) := [(7, ["SET"; "k"; "v"]); (8, ["SET"; "k"; "w"]); (7, ["GET"; "k"]); (8, ["DEL"; "k"])]%nat.
Example C90_clients1_demo : runs_session1 sharing1 ∧ all1 (register_request "k") sharing1 = true ∧
  got1s sharing1 = [[crlf ["+OK"]; crlf ["$1"; "w"]]; [crlf ["+OK"]; crlf [":1"]]].
Proof. play. split; by vm_compute. Qed.
(** the places in a trace at which something is taken from, and written to, a connection *)
Definition places (f : vlabel → bool) (tr : list vlabel) : list nat := omap (λ x : nat * vlabel, if f x.2 then Some x.1 else None) (imap pair tr).
Definition starts1 (k : nat) (l : vlabel) : bool := match l with VStart k' _ _ => Nat.eqb k' k | _ => false end.
Definition writes1 (k : nat) (l : vlabel) : bool := match l with VWrite k' _ _ => Nat.eqb k' k | _ => false end.
(** In [sharing1] the reply to the SET of connection 8 is written before connection 7's GET is taken, and the GET sees it. *)
Example C91_demo : runs_session1 sharing1 ∧ all1 (register_request "k") sharing1 = true ∧
  existsb (λ p, existsb (λ q, Nat.ltb p q) (places (starts1 7) (trace1 (session1 sharing1)))) (places (writes1 8) (trace1 (session1 sharing1))) = true ∧
  (what <$> calls1 (trace1 (session1 sharing1))) = [["SET"; "k"; "v"]; ["SET"; "k"; "w"]; ["GET"; "k"]; ["DEL"; "k"]] ∧
  nth 0 (got1s sharing1) [] = [crlf ["+OK"]; crlf ["$1"; "w"]].
Proof. play. split; [by vm_compute|]. split; [by vm_compute|]. split; by vm_compute. Qed.
Definition leafing1 : list (nat * list string) :=
  [(7, ["RPUSH"; "k"; "a"; "b"; "c"]); (8, ["LRANGE"; "k"; first_of 2 0; last_of 2 0]); (7, ["SET"; "x"; "1"]); (7, ["LRANGE"; "k"; first_of 2 1; last_of 2 1])]%nat.
Example C92_clients1_demo : runs_session1 leafing1 ∧ (λ y, quiet_request "k" (what y)) <$> calls1 (trace1 (session1 leafing1)) = [false; true; true; true] ∧
  (what <$> calls1 (trace1 (session1 leafing1))) = leafing1.*2 ∧ list_is ext0 (after [["RPUSH"; "k"; "a"; "b"; "c"]]) "k" (Some (["a"; "b"; "c"], Sound)) ∧
  got1s leafing1 = [[crlf [":3"]; crlf ["+OK"]; crlf ["*1"; "$1"; "c"]]; [crlf ["*2"; "$1"; "a"; "$1"; "b"]]].
Proof. play. split; [by vm_compute|]. split; [by vm_compute|]. split; [apply list_is_rpush|by vm_compute]. Qed.
Definition visits1 : list (nat * list string) := [(7, ["INCRBY"; "n"; "5"]); (8, ["GET"; "n"]); (7, ["INCR"; "n"])]%nat.
Example C93_counter1_demo : runs_session1 visits1 ∧ all1 (total_request "n") visits1 = true ∧ paid "n" (calls1 (trace1 (session1 visits1))) = [5; 1] ∧
  existsb (λ p, existsb (λ q, Nat.ltb p q) (places (starts1 8) (trace1 (session1 visits1)))) (places (writes1 7) (trace1 (session1 visits1))) = true ∧
  got1s visits1 = [[crlf [":5"]; crlf [":6"]]; [crlf ["$1"; "5"]]].
Proof. play. split; [by vm_compute|]. split; [by vm_compute|]. split; by vm_compute. Qed.
Definition appends1 : list (nat * list string) := [(7, ["RPUSH"; "l"; "a"; "b"]); (8, ["RPUSH"; "l"; "c"]); (7, ["RPUSH"; "l"; "d"])]%nat.
Example C94_in_order1_demo : runs_session1 appends1 ∧ all1 (growing_request "l") appends1 = true ∧
  existsb (λ p, existsb (λ q, Nat.ltb p q) (places (starts1 8) (trace1 (session1 appends1)))) (places (writes1 7) (trace1 (session1 appends1))) = true ∧
  ((asked 7 (trace1 (session1 appends1))).*2 = [["RPUSH"; "l"; "a"; "b"]; ["RPUSH"; "l"; "d"]]) ∧
  pushed "rpush" "l" (calls1 (trace1 (session1 appends1))) = ["a"; "b"; "c"; "d"].
Proof. play. split; [by vm_compute|]. split; [by vm_compute|]. split; by vm_compute. Qed.
Definition fifo1 : list (nat * list string) := [(7, ["LPUSH"; "l"; "u"]); (8, ["LPUSH"; "l"; "v"]); (8, ["RPOP"; "l"]); (7, ["RPOP"; "l"])]%nat.
Example C95_fifo1_demo : runs_session1 fifo1 ∧ all1 (queue_request "lpush" "rpop" "l") fifo1 = true ∧
  existsb (λ p, existsb (λ q, Nat.ltb p q) (places (starts1 8) (trace1 (session1 fifo1)))) (places (writes1 7) (trace1 (session1 fifo1))) = true ∧
  got1s fifo1 = [[crlf [":1"]; crlf ["*1"; "$1"; "v"]]; [crlf [":2"]; crlf ["*1"; "$1"; "u"]]] ∧
  pushed "lpush" "l" (calls1 (trace1 (session1 fifo1))) = ["u"; "v"].
Proof. play. split; [by vm_compute|]. split; [by vm_compute|]. split; by vm_compute. Qed.
(** In [locking1] connection 7 takes the lock and is told so, sends its release, and connection 8 is told only then that it has the lock. *)
Example C96_sections1_demo : runs_session1 locking1 ∧ all1 (λ r, lock_request "lock" r && respects "lock" "t" r) locking1 = true ∧
  (λ y, (takes "lock" "t" (what y), frees "lock" "t" (what y))) <$> calls1 (trace1 (session1 locking1)) = [(true, false); (true, false); (false, true); (true, false)] ∧
  match places (writes1 7) (trace1 (session1 locking1)), places (starts1 7) (trace1 (session1 locking1)), places (writes1 8) (trace1 (session1 locking1)) with
  | [told; _], [_; released], [_; told'] => Nat.ltb told released && Nat.ltb released told'
  | _, _, _ => false
  end = true ∧ got1s locking1 = [[crlf [":1"]; crlf [":1"]]; [crlf [":0"]; crlf [":1"]]].
Proof. play. split; [by vm_compute|]. split; [by vm_compute|]. split; by vm_compute. Qed.
Definition drawing1 : list (nat * list string) := [(7, ["SADD"; "pot"; "a"; "b"]); (8, ["SPOP"; "pot"; "1"]); (7, ["SPOP"; "pot"; "1"]); (8, ["SPOP"; "pot"; "1"])]%nat.
Example C97_clients1_demo : runs_session1 drawing1 ∧ all1 (pot_request "pot") drawing1 = true ∧ pushed "sadd" "pot" (calls1 (trace1 (session1 drawing1))) = ["a"; "b"] ∧
  (got1s drawing1 = [[crlf [":2"]; crlf ["*1"; "$1"; "b"]]; [crlf ["*1"; "$1"; "a"]; crlf ["*0"]]] ∨ got1s drawing1 = [[crlf [":2"]; crlf ["*1"; "$1"; "a"]]; [crlf ["*1"; "$1"; "b"]; crlf ["*0"]]]).
Proof. play. split; [by vm_compute|]. split; [by vm_compute|]. (left; by vm_compute) || (right; by vm_compute). Qed.
Definition diary1 : list (nat * list string) := [(7, ["APPEND"; "log"; "one;"]); (8, ["APPEND"; "log"; "two;"]); (8, ["GET"; "log"])]%nat.
Example C98_logged1_demo : runs_session1 diary1 ∧ all1 (log_request "log") diary1 = true ∧
  existsb (λ p, existsb (λ q, Nat.ltb p q) (places (starts1 8) (trace1 (session1 diary1)))) (places (writes1 7) (trace1 (session1 diary1))) = true ∧
  got1s diary1 = [[crlf [":4"]]; [crlf [":8"]; crlf ["$8"; "one;two;"]]].
Proof. play. split; [by vm_compute|]. split; by vm_compute. Qed.
