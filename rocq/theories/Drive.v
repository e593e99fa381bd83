(** An executable scheduler for the server machine, for the examples: it follows a given schedule. *)
From Verif Require Import GoBase Float64 Db Protocol Redis Obs Server SpecServing.

Inductive action :=
| ADeliver (g : gid) (k : nat) (f : string) | ADecode (g : gid) | AAdd (g : gid) | AExpire (g : gid) | ATimeout (g : gid)
| ADone (g : gid) | AWrite (g : gid) | AWorkerDone | ATake | AWorkerNil | ABegin (g : gid) | AExec (g : gid) (c : choices)
| ARespond | AClose | AStop | AStopNext.

Section drive.
Context (ext : Ext) (max : Z) (ps : nat).

Definition do_step (a : action) (s : config) : option (label * config) :=
  match a with
  | ADeliver g k f =>
      match c_gs s !! g with
      | None => if (live_count s <? ps)%nat then Some (LDeliver g k f, set_g s g (GFrame k f)) else None
      | Some _ => None
      end
  | ADecode g =>
      match c_gs s !! g with
      | Some (GFrame k f) =>
          match decode max f with
          | Ret (DErr _) | Panic => Some (LLost g, set_g s g GEnd)
          | Ret (DOk (Rec [] org, _)) => Some (LPrint g org, set_g s g GEnd)
          | Ret (DOk (Rec (name :: args) org, _)) => Some (LPrint g org, set_ev (set_g s g (GAdd k)) g (Ev (name :: args) None false))
          | OutOfFuel => None
          end
      | _ => None
      end
  | AAdd g =>
      match c_gs s !! g with
      | Some (GAdd k) =>
          if c_closed s then Some (LLost g, set_g s g GEnd)
          else if (length (c_chan s) <? chan_cap)%nat then Some (LAccept g, set_chan (set_g s g (GSelect k)) (c_chan s ++ [g])) else None
      | _ => None
      end
  | AExpire g => match c_gs s !! g with Some (GAdd _) | Some (GSelect _) => Some (LExpire g, set_expired s g) | _ => None end
  | ATimeout g =>
      match c_gs s !! g with
      | Some (GSelect k) => if bool_decide (g ∈ c_expired s) then Some (LTau g, set_g s g (GTimeout k)) else None
      | _ => None
      end
  | ADone g =>
      match c_gs s !! g, c_evs s !! g with
      | Some (GSelect k), Some e => if ev_done e then Some (LTau g, set_g s g (GReply k (ev_rsp e))) else None
      | _, _ => None
      end
  | AWrite g =>
      match c_gs s !! g with
      | Some (GReply k (Some r)) =>
          match encode r with
          | Ret (String c b) => Some (LWrite g k (String c b), set_g s g GEnd)
          | Panic => Some (LLost g, set_g s g GEnd)
          | _ => None
          end
      | Some (GReply k None) => Some (LLost g, set_g s g GEnd)
      | Some (GTimeout k) => Some (LWrite g k deadline_bytes, set_g s g GEnd)
      | _ => None
      end
  | AWorkerDone =>
      match c_worker s with
      | WSelect => if c_wdone s || c_wclosed s then Some (LTau 0, set_wdone (set_worker s WExit) false) else None
      | _ => None
      end
  | ATake =>
      match c_worker s, c_chan s with
      | WSelect, e :: rest => Some (LTau e, set_cmd (set_worker (set_chan s rest) (WAwait e)) e CReady)
      | _, _ => None
      end
  | AWorkerNil =>
      match c_worker s, c_chan s with
      | WSelect, [] => if c_closed s then Some (LTau 0, set_worker s WExit) else None
      | _, _ => None
      end
  | ABegin e => match c_cmds s !! e with Some CReady => Some (LBegin e, set_cmd s e CRunning) | _ => None end
  | AExec e c =>
      match c_cmds s !! e, c_evs s !! e with
      | Some CRunning, Some ev =>
          match exec ext c (ev_cmd ev) (c_db s) with
          | Ret (d', Some r) => Some (LExec e c (ev_cmd ev), set_db (set_cmd s e (CSending r)) d')
          | Panic => Some (LCrash e c (ev_cmd ev), set_crashed s)
          | _ => None
          end
      | _, _ => None
      end
  | ARespond =>
      match c_worker s with
      | WAwait e =>
          match c_cmds s !! e, c_evs s !! e with
          | Some (CSending r), Some ev => Some (LTau e, set_ev (set_cmd (set_worker s (WClose e)) e CExit) e (Ev (ev_cmd ev) (Some r) (ev_done ev)))
          | _, _ => None
          end
      | _ => None
      end
  | AClose =>
      match c_worker s with
      | WClose e =>
          match c_evs s !! e with
          | Some ev => if ev_done ev then Some (LDie, set_crashed s) else Some (LTau e, set_ev (set_worker s WSelect) e (Ev (ev_cmd ev) (ev_rsp ev) true))
          | None => None
          end
      | _ => None
      end
  | AStop => match c_stop s with SRun => Some (LStop, set_stop s true (c_wdone s) (c_wclosed s) SSend) | _ => None end
  | AStopNext =>
      match c_stop s with
      | SSend => if c_wdone s then None else Some (LTau 0, set_stop s (c_closed s) true (c_wclosed s) SCloseDone)
      | SCloseDone => Some (LTau 0, set_stop s (c_closed s) (c_wdone s) true SWait)
      | SWait => match c_worker s with WExit => Some (LStopped, set_stop s (c_closed s) (c_wdone s) (c_wclosed s) SReturned) | _ => None end
      | _ => None
      end
  end.

Lemma do_step_ok a s l s' : do_step a s = Some (l, s') → step ext max ps s l s'.
Proof.
  destruct a; cbn [do_step]; intros H;
    repeat match type of H with
    | context [match ?x with _ => _ end] => let E := fresh "E" in destruct x eqn:E; try discriminate H
    end; injection H as <- <-; subst; rewrite <- ?E.
  - apply st_deliver; [done|]. by apply Nat.ltb_lt.
  - by eapply st_empty.
  - by eapply st_request.
  - by eapply st_bad.
  - by eapply st_decode_panic.
  - by eapply st_add_closed.
  - apply st_add; [done|done|]. by apply Nat.ltb_lt.
  - eapply st_expire. by left.
  - eapply st_expire. by right.
  - apply st_timeout; [done|]. by apply bool_decide_eq_true_1 in E1.
  - by eapply st_done.
  - by eapply st_write.
  - by eapply st_write_panic.
  - by eapply st_write_nil.
  - by eapply st_write_timeout.
  - apply st_worker_done; [done|]. by apply orb_true_iff.
  - by eapply st_worker_take.
  - by eapply st_worker_nil.
  - by eapply st_begin.
  - by eapply st_exec.
  - by eapply st_crash.
  - by eapply st_respond.
  - by eapply st_close_panic.
  - by eapply st_close.
  - by eapply st_stop.
  - by eapply st_stop_send.
  - by eapply st_stop_close.
  - by eapply st_stop_wait.
Qed.

Fixpoint drive (l : list action) (s : config) (tr : list label) : option (list label * config) :=
  match l with
  | [] => Some (tr, s)
  | a :: r => if c_crashed s then None else match do_step a s with Some (x, s') => drive r s' (tr ++ [x]) | None => None end
  end.
Lemma drive_runs l : ∀ s tr tr' s', runs ext max ps tr s → drive l s tr = Some (tr', s') → runs ext max ps tr' s'.
Proof.
  induction l as [|a l IH]; intros s tr tr' s' R H; cbn [drive] in H; [by injection H as <- <-|].
  destruct (c_crashed s) eqn:Ec; [done|]. destruct (do_step a s) as [[x s1]|] eqn:E; [|done]. eapply IH; [|exact H].
  by eapply runs_step; [..|apply (do_step_ok a)].
Qed.
End drive.
