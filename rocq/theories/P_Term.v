(** C55: every request comes to an end. *)
From Verif Require Import GoBase Float64 Db Protocol Redis SpecResp Obs Server SpecServing ServerProofs TermList Term P_Serve Examples.

(** An execution that has not run out of the model's loop budget has returned or panicked. *)
Lemma fin_cases {A} (P : A → Prop) o : fin P o → (∃ x, o = Ret x) ∨ o = Panic.
Proof. destruct o; simpl; eauto; done. Qed.

(** Whatever the history, damaged values included, the next request ends, with a result or with a panic: no loop over a
    list, a sorted set, a set or a table runs for ever. *)
Theorem C55_every_request ext d c req : reachable ext d → (∃ d' r, ask ext c req d = Ret (d', r)) ∨ ask ext c req d = Panic.
Proof.
  intros R. destruct (fin_cases _ _ (fin_ask ext c req d (reachable_tidy _ _ R))) as [[[d' r] E]|E]; eauto.
Qed.
(** So does every conversation. *)
Theorem C55_every_history ext h : (∃ d rs, talk ext h db_new = Ret (d, rs)) ∨ talk ext h db_new = Panic.
Proof. destruct (fin_cases _ _ (fin_talk ext h db_new tidy_new)) as [[[d rs] E]|E]; eauto. Qed.
(** In the running server, whatever the schedule, the command that is being executed can return or panic next. *)
Theorem C55_server ext max ps tr s g : runs ext max ps tr s → c_cmds s !! g = Some CRunning →
  ∀ c, ∃ req s', step ext max ps s (LExec g c req) s' ∨ step ext max ps s (LCrash g c req) s'.
Proof.
  intros R Hc c. pose proof (runs_inv _ _ _ _ _ R) as I. destruct (cmd_event _ _ _ _ _ _ I Hc) as [ev He].
  destruct (exec ext c (ev_cmd ev) (c_db s)) as [[d' o]| |] eqn:E.
  - pose proof (i_g _ _ _ _ I g) as G. unfold gok in G. rewrite He in G. destruct G as (k & f & _ & [Hne _] & _).
    destruct (exec_reply _ _ _ _ _ _ Hne E) as [r ->]. eexists _, _. left. by apply (st_exec _ _ _ s g ev c d' r).
  - eexists _, _. right. by apply (st_crash _ _ _ s g ev c).
  - exfalso. by apply (fin_fuel _ _ (fin_exec ext c (ev_cmd ev) (c_db s) (runs_tidy _ _ _ _ _ R))) in E.
Qed.
(** a sorted set with dangling towers and a list with a lost end: commands on them still end *)
Example C55_demo :
  replies [["ZADD"; "z"; "1"; "a"; "2"; "b"; "3"; "c"; "4"; "d"; "5"; "e"]; ["ZREM"; "z"; "c"]; ["ZRANK"; "z"; "e"]; ["ZPOPMAX"; "z"; "3"]; ["ZCOUNT"; "z"; "1"; "9"];
           ["RPUSH"; "l"; "a"]; ["LREM"; "l"; "1"; "a"]; ["RPUSH"; "l"; "b"]; ["LRANGE"; "l"; "0"; "-1"]] ≠ None ∧
  crashed [["RPUSH"; "l"; "a"]; ["LREM"; "l"; "1"; "a"]; ["RPUSH"; "l"; "b"]; ["LREM"; "l"; "1"; "b"]] = true.
Proof. split; [by vm_compute|by vm_compute]. Qed.
