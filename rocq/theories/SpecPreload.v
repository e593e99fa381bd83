(** What debug mode promises: the preset data. *)
From Verif Require Import GoBase Float64 Db Protocol Redis Obs SpecCmd SpecResp Server SpecServing Preload.

(** begins (true) and ends (false) of command executions; a preset command is numbered apart from the clients' *)
Definition dexecutions (tr : list dlabel) : list (bool * (nat + gid)) :=
  omap (λ l, match l with
             | DBegin i => Some (true, inl i)
             | DExec i _ | DCrash i _ => Some (false, inl i)
             | DSrv (LBegin g) => Some (true, inr g)
             | DSrv (LExec g _ _) | DSrv (LCrash g _ _) => Some (false, inr g)
             | _ => None
             end) tr.
(** one begins only after the previous one has ended; the last may still be going on *)
Fixpoint serial (l : list (bool * (nat + gid))) : Prop :=
  match l with
  | [] => True
  | [(b, _)] => b = true
  | (b, g) :: (b', g') :: r => b = true ∧ b' = false ∧ g = g' ∧ serial r
  end.
(** the executed commands, in order, with the random choices they made *)
Definition dhistory (tr : list dlabel) : list (choices * list string) :=
  omap (λ l, match l with
             | DExec i c => (λ req, (c, req)) <$> preset !! i
             | DSrv (LExec _ c req) => Some (c, req)
             | _ => None
             end) tr.
(** no client has had a request executed that may change [k] *)
Definition clients_spare (k : string) (tr : list dlabel) : Prop := ∀ g c req, DSrv (LExec g c req) ∈ tr → k ∉ touched req.
(** nothing can happen any more without something from outside *)
Definition dquiescent (ext : Ext) (max_alloc : Z) (pool_size : nat) (s : dconfig) : Prop :=
  ∀ l s', dstep ext max_alloc pool_size s l s' → ∃ l0, l = DSrv l0 ∧ external l0.
(** strconv.ParseFloat reads the digits *)
Definition reads_digits (ext : Ext) : Prop := ∀ z, 0 ≤ z < 10 → parse_float ext (itoa z) = Some (f_of_Z z).
