(** An executable scheduler for the v1 machine, for the examples. *)
From Verif Require Import GoBase Float64 Db Protocol Redis Obs Stream Server SpecServing Drive Server1 SpecServing1.

Inductive action1 :=
| BOpen (k : nat) | BArrive (k : nat) (b : string) | BEnd (k : nat) (x : ending)
| BDecode (k : nat) | BSend (k : nat) | BFinish (k : nat)
| BCtx (k : nat) | BErr (k : nat) | BStart (k : nat) (g : gid) | BNil (k : nat)
| BPool (a : action) | BQueue (k : nat) | BReply (k : nat) (works : bool) | BClose (k n : nat)
| BStop | BStopPool | BCancel | BReturn.

Section drive1.
Context (ext : Ext) (max : Z).

Definition do1 (a : action1) (s : vstate) : option (vlabel * vstate) :=
  let at_conn k f := match v_conns s !! k with Some c => f c | None => None end in
  match a with
  | BOpen k => if v_listen s then match v_conns s !! k with None => Some (VOpen k, upd s k conn_new) | _ => None end else None
  | BArrive k b => at_conn k (λ c,
      match rd_end (k_rd c), b with
      | None, String _ _ => Some (VArrive k b, upd s k (with_rd c (Rd (rd_buf (k_rd c)) (rd_in (k_rd c) ++ [b]) None) (k_rg c)))
      | _, _ => None
      end)
  | BEnd k x => at_conn k (λ c,
      match x, rd_end (k_rd c) with
      | WeClosed, _ => None
      | _, None => Some (VEnd k x, upd s k (with_rd c (Rd (rd_buf (k_rd c)) (rd_in (k_rd c)) (Some x)) (k_rg c)))
      | _, _ => None
      end)
  | BDecode k => at_conn k (λ c,
      match k_rg c with
      | RDecode =>
          match stream_decode max (k_rd c) with
          | Ret (Got r rd') => Some (VTau k, upd s k (with_rd c rd' (RSend r)))
          | Ret (Fail e rd') => Some (VTau k, upd s k (with_rd c rd' (RFail (is_final e))))
          | Panic => Some (VDie k ByDecoder, dead s)
          | _ => None
          end
      | _ => None
      end)
  | BSend k => at_conn k (λ c,
      match k_rg c with
      | RSend r => match k_rchan c with None => Some (VTau k, upd s k (Cn (k_rd c) RDecode (Some r) (k_rclosed c) (k_echan c) (k_eclosed c) (k_h c))) | _ => None end
      | RFail final => if k_echan c then None else Some (VTau k, upd s k (Cn (k_rd c) (if final then RClose1 else RDecode) (k_rchan c) (k_rclosed c) true (k_eclosed c) (k_h c)))
      | _ => None
      end)
  | BFinish k => at_conn k (λ c,
      match k_rg c with
      | RClose1 => Some (VTau k, upd s k (Cn (k_rd c) RClose2 (k_rchan c) true (k_echan c) (k_eclosed c) (k_h c)))
      | RClose2 => Some (VTau k, upd s k (Cn (k_rd c) RDone (k_rchan c) (k_rclosed c) (k_echan c) true (k_h c)))
      | _ => None
      end)
  | BCtx k => at_conn k (λ c, match k_h c with HLoop => if v_cancelled s then Some (VTau k, upd s k (with_h c HClose)) else None | _ => None end)
  | BErr k => at_conn k (λ c,
      match k_h c with
      | HLoop => if k_echan c then Some (VTau k, upd s k (Cn (k_rd c) (k_rg c) (k_rchan c) (k_rclosed c) false (k_eclosed c) HClose)) else None
      | _ => None
      end)
  | BStart k g => at_conn k (λ c,
      match k_h c, k_rchan c, c_gs (v_pool s) !! g with
      | HLoop, Some r, None => Some (VStart k g r, upd_pool (upd s k (Cn (k_rd c) (k_rg c) None (k_rclosed c) (k_echan c) (k_eclosed c) (after_start g r))) (begin_request (v_pool s) k g r))
      | _, _, _ => None
      end)
  | BNil k => at_conn k (λ c, match k_h c, k_rchan c with HLoop, None => if k_rclosed c then Some (VDie k ByNil, dead s) else None | _, _ => None end)
  | BPool a => match do_step ext max 0 a (v_pool s) with Some (l, p') => if inner l then Some (VPool l, upd_pool s p') else None | None => None end
  | BQueue k => at_conn k (λ c,
      match k_h c with
      | HCall g => match c_gs (v_pool s) !! g with Some (GAdd _) => if c_closed (v_pool s) then Some (VDie k ByQueue, dead s) else None | _ => None end
      | _ => None
      end)
  | BReply k works => at_conn k (λ c,
      match k_h c with
      | HCall g =>
          match c_gs (v_pool s) !! g with
          | Some (GReply _ (Some r)) =>
              match encode r with
              | Ret (String a b) => if works then Some (VWrite k g (String a b), upd_pool (upd s k (with_h c HLoop)) (set_g (v_pool s) g GEnd))
                                    else Some (VDrop k g, upd_pool (upd s k (with_h c HClose)) (set_g (v_pool s) g GEnd))
              | Panic => Some (VDie k ByEncoder, dead s)
              | _ => None
              end
          | Some (GTimeout _) => if works then Some (VWrite k g deadline_bytes, upd_pool (upd s k (with_h c HLoop)) (set_g (v_pool s) g GEnd))
                                 else Some (VDrop k g, upd_pool (upd s k (with_h c HClose)) (set_g (v_pool s) g GEnd))
          | _ => None
          end
      | _ => None
      end)
  | BClose k n => at_conn k (λ c,
      match k_h c with
      | HClose => Some (VTau k, upd s k (with_h (with_rd c (Rd (rd_buf (k_rd c)) (take n (rd_in (k_rd c))) (Some WeClosed)) (k_rg c)) HEnd))
      | _ => None
      end)
  | BStop => if v_listen s then Some (VStop, V (v_conns s) (v_pool s) false (v_cancelled s) (v_returned s) (v_dead s)) else None
  | BStopPool => if v_listen s then None else match do_step ext max 0 AStop (v_pool s) with Some (LStop, p') => Some (VPool LStop, upd_pool s p') | _ => None end
  | BCancel => match c_stop (v_pool s) with SReturned => if v_cancelled s then None else Some (VCancel, V (v_conns s) (v_pool s) (v_listen s) true (v_returned s) (v_dead s)) | _ => None end
  | BReturn =>
      if v_listen s || v_returned s || negb (forallb (λ x : nat * conn, match k_h x.2 with HEnd => true | _ => false end) (map_to_list (v_conns s))) then None
      else Some (VReturn, V (v_conns s) (v_pool s) (v_listen s) (v_cancelled s) true (v_dead s))
  end.
Lemma do1_ok a s l s' : do1 a s = Some (l, s') → step1 ext max s l s'.
Proof.
  destruct a; cbn [do1]; cbv zeta; intros H;
    repeat match type of H with
    | context [match ?x with _ => _ end] => let E := fresh "E" in destruct x eqn:E; try discriminate H
    end; injection H as <- <-; subst.
  all: try (by econstructor; eauto).
  - by apply (v1_send_err ext max s k c true).
  - by apply (v1_send_err ext max s k c false).
  - apply v1_pool; [done|]. by eapply do_step_ok.
  - apply v1_stop_pool; [done|]. by eapply do_step_ok.
  - apply orb_false_iff in E as [E E2]. apply orb_false_iff in E as [E0 E1]. rewrite negb_false_iff, forallb_forall in E2. apply v1_return; [done| |done].
    intros k c Hc. specialize (E2 (k, c)). simpl in E2. destruct (k_h c); try done; exfalso; discriminate E2; apply elem_of_list_In; by apply elem_of_map_to_list.
Qed.
Fixpoint drive1 (l : list action1) (s : vstate) (tr : list vlabel) : option (list vlabel * vstate) :=
  match l with
  | [] => Some (tr, s)
  | a :: r => if v_dead s || c_crashed (v_pool s) then None else match do1 a s with Some (x, s') => drive1 r s' (tr ++ [x]) | None => None end
  end.
Lemma drive1_runs l : ∀ s tr tr' s', runs1 ext max tr s → drive1 l s tr = Some (tr', s') → runs1 ext max tr' s'.
Proof.
  induction l as [|a l IH]; intros s tr tr' s' R H; cbn [drive1] in H; [by injection H as <- <-|].
  destruct (v_dead s || c_crashed (v_pool s)) eqn:Ec; [done|]. destruct (do1 a s) as [[x s1]|] eqn:E; [|done]. eapply IH; [|exact H].
  apply orb_false_iff in Ec. eapply runs1_step; [done|done|]. by apply (do1_ok a).
Qed.
End drive1.
