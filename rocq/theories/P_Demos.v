(** Concrete, non-trivial cases that meet the hypotheses of theorems whose own files show none. *)
From Verif Require Import GoBase GoBaseProofs Float64 ShardMap Db Protocol Redis SpecResp SpecWire SpecCmd Obs RespProofs Examples SpecServer SpecList SpecZSet SpecHash
  PropBase DbInv KeyIs P_Wire P_Lists P_ZSets P_Hash P_Kinds Server SpecServing ServerProofs P_Serve Drive P_ServeMore.

(** C08: the client of the second goroutine sends after it has seen the first one's reply; both requests are executed *)
Example C08_demo : runs ext0 1000 8 (trace one_by_one) (final one_by_one) ∧
  before (trace one_by_one) (LWrite 1 7 (crlf ["+OK"])) (LDeliver 2 8 (frame ["GET"; "k"])) ∧ crlf ["+OK"] ≠ deadline_bytes ∧
  who <$> calls (trace one_by_one) = [1%nat; 2%nat].
Proof.
  split; [apply trace_runs; by vm_compute|]. split; [|split; [by vm_compute|by vm_compute]].
  exists 9%nat, 10%nat. split; [lia|split; by vm_compute].
Qed.
(** C42, C47: the server has come to rest, was not stopped and has not crashed; one client was told that its deadline has passed *)
Example C42_demo : runs ext0 1000 8 (trace interleaved) (final interleaved) ∧ c_crashed (final interleaved) = false ∧ LStop ∉ trace interleaved ∧
  quiescent ext0 1000 8 (final interleaved) ∧ asks 1000 (frame ["GET"; "k"]) ["GET"; "k"] ∧ LDeliver 2 8 (frame ["GET"; "k"]) ∈ trace interleaved.
Proof.
  assert (runs ext0 1000 8 (trace interleaved) (final interleaved)) as R by (apply trace_runs; by vm_compute).
  split; [exact R|]. split; [by vm_compute|]. split; [|split; [apply idle_quiescent; by vm_compute|split]].
  - intros Hs. apply (stop_label _ _ _ _ _ R) in Hs. apply Hs. by vm_compute.
  - split; [done|]. eexists _, _. by vm_compute.
  - apply (at_index _ 1). by vm_compute.
Qed.
Example C47_demo : runs ext0 1000 8 (trace interleaved) (final interleaved) ∧ LWrite 3 9 deadline_bytes ∈ trace interleaved ∧
  nth_error (calls (trace interleaved)) 1 = Some (Call 3 c0 ["APPEND"; "k"; "w"]).
Proof.
  split; [apply trace_runs; by vm_compute|]. split; [|by vm_compute]. apply (at_index _ 13). by vm_compute.
Qed.
(** C46: the frame holds a second request *)
Example C46_demo : let args := ["SET"; "k"; "v"]%string in runs ext0 1000 8 (trace pipelined) (final pipelined) ∧ args ≠ [] ∧ fits_buffer 1000 args ∧
  LDeliver 1 7 (request_bytes args +:+ request_bytes ["GET"; "k"]%string) ∈ trace pipelined ∧ what <$> calls (trace pipelined) = [args].
Proof.
  cbv zeta. split; [apply trace_runs; by vm_compute|]. split; [done|]. split; [|split; [|by vm_compute]].
  - split; [repeat constructor; by vm_compute|by vm_compute].
  - apply (at_index _ 0). by vm_compute.
Qed.
(** C48, C53: Stop returns; the second of the two accepted events is not executed *)
Example C48_demo : runs ext0 1000 8 (trace stopped) (final stopped) ∧ c_crashed (final stopped) = false ∧ LStopped ∈ trace stopped ∧
  accepted (trace stopped) = [1%nat; 2%nat] ∧ who <$> calls (trace stopped) = [1%nat].
Proof.
  split; [apply trace_runs; by vm_compute|]. split; [by vm_compute|]. split; [apply (at_index _ 20); by vm_compute|]. by split; vm_compute.
Qed.
Example C53_demo : accepted (trace interleaved) = [1%nat; 3%nat; 2%nat] ∧ who <$> calls (trace interleaved) = [1%nat; 3%nat; 2%nat].
Proof. by split; vm_compute. Qed.
(** C44: both kinds of header that make the decoder panic *)
Example C44_demo : decode 1000 ("*2" +:+ CRLF +:+ "$3" +:+ String LF "GET")%string = Panic ∧ decode 1000 ("*1" +:+ CRLF +:+ "$-7" +:+ CRLF)%string = Panic.
Proof. by split; vm_compute. Qed.
(** C45: a request cut in its last argument, and cut earlier *)
Example C45_demo : decode 1000 ("*2" +:+ CRLF +:+ "$3" +:+ CRLF +:+ "GET" +:+ CRLF +:+ "$5" +:+ CRLF +:+ "he")%string =
    Ret (DOk (Rec ["GET"; nul_padded 5 "he"]%string ("*2" +:+ CRLF +:+ "$3" +:+ CRLF +:+ "GET" +:+ CRLF +:+ "$5" +:+ CRLF +:+ nul_padded 7 "he")%string, EmptyString)) ∧
  request_bytes ["GET"; "hello"]%string = ("*2" +:+ CRLF +:+ "$3" +:+ CRLF +:+ "GET" +:+ CRLF +:+ "$5" +:+ CRLF +:+ "he" +:+ ("llo" +:+ CRLF))%string ∧
  decode 1000 ("*2" +:+ CRLF +:+ "$3" +:+ CRLF +:+ "GE")%string = Ret (DErr EOF).
Proof. split_and!; by vm_compute. Qed.
(** C49: the index names a list *)
Lemma list_at_0 : list_is ext0 (after [["RPUSH"; "0"; "z"; "y"]]) "0" (Some (["z"; "y"], Sound)).
Proof.
  assert (K0 : list_is ext0 db_new "0" None) by (apply C20_start; [by exists [], []|]; intros c; done).
  destruct (list_does ext0 db_new "0" None "RPUSH" ["0"; "z"; "y"] (RInt 2) (Some (["z"; "y"], Sound)) K0) with (c := c0) as (d' & E & K); [done|by apply about_first|done|].
  unfold after, plain_history. rewrite fmap_cons, fmap_nil. cbn [talk]. rewrite E. cbn [obind]. done.
Qed.
Example C49_demo : list_is ext0 (after [["RPUSH"; "0"; "z"; "y"]]) "0" (Some (["z"; "y"], Sound)) ∧ parse_int "0" = Some 0 ∧
  position 0 ["z"; "y"]%string = 0 ∧ replies [["RPUSH"; "0"; "z"; "y"]; ["LINDEX"; "l"; "0"]] = Some [Some (RInt 2); Some (RBulk "z")].
Proof. split_and!; [apply list_at_0|by vm_compute..]. Qed.
(** C50: ranks 1 and 2 of four pairs mirror each other *)
Example C50_demo : zset_is ext0 (after zmake) "k" (Some (zpairs, ∅)) ∧ zlen zpairs < two63 - 2 ∧ position 1 zpairs + position 2 zpairs = zlen zpairs - 1 ∧
  replies (zmake ++ [["ZREVRANGE"; "k"; "1"; "2"]]) = Some [Some (RInt 4); Some (bulks (reverse (take 2 (drop 1 zpairs.*2))))].
Proof. split_and!; [apply zset_is_zadd|by vm_compute..]. Qed.
(** C51: on a server with a string and a list, for an absent key and for one of another type *)
Definition mixed : list (list string) := [["SET"; "s"; "v"]; ["RPUSH"; "l"; "a"]]%string.
Example C51_demo : reachable ext0 (after mixed) ∧ answers ext0 (after mixed) ["EXISTS"; "h"] (RInt 0) ∧ answers ext0 (after mixed) ["EXISTS"; "l"] (RInt 1) ∧
  replies (mixed ++ [["HSET"; "h"; "f"; "v"]; ["HGET"; "h"; "f"]; ["HSET"; "l"; "f"; "v"]; ["EXISTS"; "h"]]) =
    Some [Some (RStatus "OK"); Some (RInt 1); Some (RInt 1); Some RNil; Some (RError (err_msg ErrTypeMismatch)); Some (RInt 0)].
Proof.
  split; [apply after_reachable; by eexists|]. split; [intros c; by vm_compute|]. split; [intros c; by vm_compute|by vm_compute].
Qed.
(** C52: a history of sets, no deletion *)
Example C52_demo : let l := [(λ _, [], HoSet "f" (HInt 1)); (λ _, [], HoSet "g" (HInt 2)); (λ _, [], HoSet "f" (HInt 3))] : list (order * hop) in
  Forall (λ o, match o with HoDel _ | HoIncr _ _ | HoIncrFloat _ _ => False | _ => True end) l.*2 ∧ ht_len (run_hops l ht_new).2 = 2.
Proof. split; [repeat constructor|by vm_compute]. Qed.
(** C54: two closed bounds on the scores 1, 2, 2, 3 *)
Example C54_demo : zset_is ext0 (after zmake) "k" (Some (zpairs, ∅)) ∧ zlen zpairs < two63 - 2 ∧
  bound_of ext0 (to_lower "2") = Some (f_of_Z 2, false) ∧ bound_of ext0 (to_lower "3") = Some (f_of_Z 3, false) ∧ is_inf (f_of_Z 2) = false ∧
  replies (zmake ++ [["ZCOUNT"; "k"; "2"; "3"]]) = Some [Some (RInt 4); Some (RInt (zlen (up_to (f_of_Z 3) zpairs) - zlen (up_to (f_of_Z 2) zpairs) + 1))].
Proof. split_and!; [apply zset_is_zadd|by vm_compute..]. Qed.
(** C74: an error reply *)
Example C74_demo : reachable ext0 (after mixed) ∧ to_lower "LPUSH" ≠ "smove"%string ∧
  ask ext0 c0 ["LPUSH"; "s"; "x"] (after mixed) = Ret (after mixed, Some (RError (err_msg ErrTypeMismatch))).
Proof. split; [apply after_reachable; by eexists|]. split; [by vm_compute|by vm_compute]. Qed.
