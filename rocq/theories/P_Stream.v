(** C56: requests read from a connection that delivers its bytes in pieces. *)
From Verif Require Import GoBase GoBaseProofs Db Protocol SpecWire SpecStream RespProofs P_Wire Stream StreamProofs P_ServeMore.

(** successive calls of the decoder return the requests [rs]; [rd']: what they leave *)
Inductive receives (max : Z) : reader → list receive → reader → Prop :=
| rc_nil rd : receives max rd [] rd
| rc_cons rd r rd1 rs rd2 : stream_decode max rd = Ret (Got r rd1) → receives max rd1 rs rd2 → receives max rd (r :: rs) rd2.

Lemma receives_streams max rd rs rd' : receives max rd rs rd' → ∀ rd0 rs0, streams max rd0 rs0 rd → streams max rd0 (rs0 ++ rs) rd'.
Proof.
  induction 1 as [rd|rd r rd1 rs rd2 E H IH]; intros rd0 rs0 S; [by rewrite app_nil_r|]. change (r :: rs) with ([r] ++ rs). rewrite app_assoc. apply IH. by eapply sm_got.
Qed.
Lemma holds_nothing rd : holds rd [] → rd = Rd "" [] (rd_end rd).
Proof.
  intros (g & gs & A1 & A2 & A3 & A4 & _). symmetry in A4. apply app_eq_nil in A4 as [-> A4].
  assert (gs = []) as -> by (destruct gs as [|x gs]; [done|]; apply Forall_cons in A3 as [A3 _]; cbn [concat] in A4; by destruct x). destruct rd as [b ins en]. cbn in A1, A2. by subst b ins.
Qed.
(** The decoder returns the requests that were sent, in order, with the bytes of each, however the bytes are cut into
    reads, provided no value is cut; then it waits for more, or reports how the connection has ended.
    The full property is this for all ways to cut the bytes; it fails when a value is cut ([C56_refuted]). *)
Theorem C56_requests_partial max reqs reads e : Forall (fits_buffer max) reqs → reads_of reads (concat (request_parts <$> reqs)) →
  ∃ rd', receives max (Rd "" reads e) ((λ args, Rec args (request_bytes args)) <$> reqs) rd' ∧
  stream_decode max rd' = match e with None => Ret Wait | Some x => Ret (Fail (Ended x) rd') end.
Proof.
  intros Hf Hr. assert (∀ reqs rd, Forall (fits_buffer max) reqs → holds rd (concat (request_parts <$> reqs)) → rd_end rd = e →
    ∃ rd', receives max rd (to_rec <$> reqs) rd' ∧ rd' = Rd "" [] e) as K.
  { clear. induction reqs as [|a reqs IH]; intros rd Hf Hh He; cbn [fmap list_fmap concat] in Hh.
    - exists rd. split; [constructor|]. rewrite (holds_nothing _ Hh). by rewrite He.
    - apply Forall_cons in Hf as [[Hf1 Hf2] Hf]. destruct (stream_request max a rd _ Hf1 Hf2 Hh) as (rd1 & E1 & H1 & Ee). destruct (IH rd1 Hf H1) as (rd' & H2 & H3); [congruence|]. exists rd'. split; [|done]. by eapply rc_cons. }
  destruct (K reqs (Rd "" reads e) Hf (reads_holds _ _ _ Hr (parts_nonempty reqs)) eq_refl) as (rd' & H1 & ->). exists (Rd "" [] e). split; [done|]. by destruct e.
Qed.
(** While the bytes are still coming it returns the requests that are complete, and nothing else. *)
Theorem C56_so_far_partial max reqs reads rs rd' : Forall (fits_buffer max) reqs → reads_from reads (concat (request_parts <$> reqs)) →
  receives max (Rd "" reads None) rs rd' → ∃ todo, ((λ args, Rec args (request_bytes args)) <$> reqs) = rs ++ todo.
Proof.
  intros Hf Hr H. eapply streams_from; [exact Hf|exact Hr|]. apply (receives_streams _ _ _ _ H _ []). constructor.
Qed.
(** What it has returned does not change when more arrives. *)
Theorem C56_monotone max rd rs rd' more e : receives max rd rs rd' → receives max (Rd (rd_buf rd) (rd_in rd ++ more) e) rs (Rd (rd_buf rd') (rd_in rd' ++ more) e).
Proof.
  induction 1 as [rd|rd r rd1 rs rd2 E H IH]; [constructor|]. eapply rc_cons; [|exact IH]. pose proof (stream_decode_grow max rd more e) as G. by rewrite E in G.
Qed.
(** Every request it returns is one that the frame decoder (C01–C05) returns for some bytes. *)
Theorem C56_as_frame max rd r rd' : stream_decode max rd = Ret (Got r rd') → ∃ v, ∀ t, decode max (v +:+ t) = Ret (DOk (r, t)).
Proof. intros E. pose proof (stream_decode_ok max rd) as X. rewrite E in X. destruct X as (_ & _ & v & _ & X). by exists v. Qed.
(** All bytes are accounted for: the requests it has returned are those that the frame decoder returns for the bytes that
    have arrived, every byte in its place, with nothing added but NUL bytes at the end of a piece. *)
Theorem C56_bytes max rd rs rd' : receives max rd rs rd' → ∃ vs, Forall2 (λ v r, ∀ t, decode max (v +:+ t) = Ret (DOk (r, t))) vs rs ∧
  used_up (rd_buf rd :: rd_in rd) (sconcat vs) (rd_buf rd' :: rd_in rd').
Proof.
  induction 1 as [rd|rd r rd1 rs rd2 E H (vs & F & T)]; [exists []; split; constructor|].
  pose proof (stream_decode_ok max rd) as X. rewrite E in X. destruct X as (_ & _ & v & T1 & D). exists (v :: vs).
  split; [by constructor|]. cbn [sconcat]. by eapply used_up_app.
Qed.
(** If none of these bytes is a NUL then nothing was added: they are the bytes that have arrived. *)
Theorem C56_exact max rd rs rd' : receives max rd rs rd' → ∃ vs, Forall2 (λ v r, ∀ t, decode max (v +:+ t) = Ret (DOk (r, t))) vs rs ∧
  (Forall no_nul vs → rd_buf rd +:+ sconcat (rd_in rd) = sconcat vs +:+ rd_buf rd' +:+ sconcat (rd_in rd')).
Proof.
  intros H. destruct (C56_bytes _ _ _ _ H) as (vs & F & T). exists vs. split; [done|]. intros N. apply (used_up_exact _ _ _ T).
  clear -N. induction N as [|v vs Hv N IH]; [done|]. cbn [sconcat]. induction v as [|c v IHv]; [done|]. destruct Hv as [Hc Hv]. rewrite sapp_cons. split; auto.
Qed.

(** A value that arrives in two pieces is cut at the end of the first, and filled up with NUL bytes; the rest of it is
    taken for the beginning of the next request. *)
Theorem C56_refuted max a b e : slen (a +:+ b) + 2 ≤ max → slen (a +:+ b) + 2 < two63 → a ≠ EmptyString → b ≠ EmptyString →
  let sent := request_bytes [a +:+ b] in
  let first := array_header 1 +:+ bulk_header (a +:+ b) +:+ a in
  sent = first +:+ b +:+ CRLF ∧
  ∃ r rest, stream_decode max (Rd "" [first; b +:+ CRLF] e) = Ret (Got r (Rd "" [rest] e)) ∧ elements r = [nul_padded (String.length (a +:+ b)) a] ∧ rest = b +:+ CRLF ∧
    (no_nul b → elements r ≠ [a +:+ b]).
Proof.
  intros H1 H2 Ha Hb sent first. split.
  { subst sent first. unfold request_bytes, bulk_bytes. cbn [length fmap list_fmap sconcat]. by rewrite string_app_nil_r, <- !app_assoc_s. }
  assert (0 ≤ slen (a +:+ b)) as Hl by (unfold slen; lia).
  assert (∃ org, stream_decode max (Rd "" [first; b +:+ CRLF] e) = Ret (Got (Rec [nul_padded (String.length (a +:+ b)) a] org) (Rd "" [b +:+ CRLF] e))) as [org E].
  { unfold stream_decode, stream_line. cbn [rd_buf rd_in rd_end].
    assert (line_from "" [first; b +:+ CRLF] e = line_from first [b +:+ CRLF] e) as -> by done. subst first.
    assert (∀ c n t ins, Ascii.eqb c LF = false → 0 ≤ n → line_from (header c n +:+ t) ins e = Got (header c n) (Rd t ins e)) as L.
    { intros c n t ins Hc Hn. destruct ins; cbn [line_from]; by rewrite header_line. }
    rewrite array_header_eq, bulk_header_eq. rewrite L by (done || lia). cbn [rbind]. rewrite single_header by (auto || (unfold two63; simpl; lia)). cbn [obind].
    change (Ascii.eqb "*" "$") with false. change (Ascii.eqb "*" "*") with true. cbv iota. cbn [stream_array].
    assert (1 ≤ unread (Rd (header "$" (slen (a +:+ b)) +:+ a) [b +:+ CRLF] e))%nat as Hu.
    { unfold unread. cbn [rd_buf]. unfold header. rewrite sapp_cons. cbn [String.length]. lia. }
    destruct (unread _) as [|u]; [lia|]. change (Z.of_nat 1 <=? 0) with false. cbv iota. unfold stream_line. cbn [rd_buf rd_in rd_end]. rewrite L by (done || lia). cbn [rbind].
    match goal with |- context [rbind ?x ?k] => match x with Ret (Got ?r ?rd) => change (rbind x k) with (k r rd); cbv beta | match header _ _ with _ => _ end => change (rbind x k) with (k (rec_add_org (header "*" (Z.of_nat 1)) (Rec [] "")) (Rd a [b +:+ CRLF] e)); cbv beta end end.
    rewrite single_header by (auto || lia). cbn [obind]. change (Ascii.eqb "$" "$") with true. cbv iota. unfold stream_bulk. destruct (Z.ltb_spec (slen (a +:+ b)) 0); [lia|]. cbv zeta.
    rewrite wrap64_small by (unfold two63 in *; lia). destruct (Z.ltb_spec (slen (a +:+ b) + 2) 0); [lia|]. cbn [orb]. destruct (Z.ltb_spec max (slen (a +:+ b) + 2)); [lia|].
    unfold stream_full. cbn [rd_buf rd_in rd_end]. destruct a as [|c a]; [done|]. rewrite take_pad_short by (unfold slen; rewrite length_app_s; lia). cbn [rbind].
    rewrite sprefix_pad by lia. eexists. cbn [stream_array]. change (Z.of_nat 1 - 1 <=? 0) with true. cbv iota. unfold rec_append, rec_add_org. cbn [elements org_str app].
    unfold slen. by rewrite Nat2Z.id. }
  eexists _, _. split; [exact E|]. cbn [elements]. split; [done|]. split; [done|]. intros Hn [= Heq]. clear -Heq Hb Hn.
  induction a as [|c a IH]; [|apply IH; rewrite !sapp_cons in Heq; cbn [String.length nul_padded] in Heq; by injection Heq].
  rewrite sapp_nil_l in Heq. destruct b as [|c b]; [done|]. cbn [String.length nul_padded] in Heq. injection Heq as <- _. by destruct Hn.
Qed.

(** A concrete case: two requests, the second in three reads, cut inside a header and after a value. *)
Definition C56_reads : list string := [request_bytes ["SET"; "k"; "v"] +:+ "*2" +:+ String CR EmptyString; String LF EmptyString +:+ bulk_bytes "GET" +:+ "$"; "1" +:+ CRLF +:+ "k" +:+ CRLF].
Theorem C56_demo : reads_of C56_reads (concat (request_parts <$> [["SET"; "k"; "v"]; ["GET"; "k"]])) ∧ Forall (fits_buffer 4096) [["SET"; "k"; "v"]; ["GET"; "k"]] ∧
  receives 4096 (Rd "" C56_reads None) [Rec ["SET"; "k"; "v"] (request_bytes ["SET"; "k"; "v"]); Rec ["GET"; "k"] (request_bytes ["GET"; "k"])] (Rd "" [] None) ∧
  stream_decode 4096 (Rd "" [array_header 1 +:+ bulk_header "PING" +:+ "PI"; "NG" +:+ CRLF] None) =
    Ret (Got (Rec ["PI" +:+ String NUL (String NUL EmptyString)] (array_header 1 +:+ bulk_header "PING" +:+ "PI" +:+ nul_padded 4 "")) (Rd "" ["NG" +:+ CRLF] None)).
Proof.
  split; [|split; [|split]].
  - exists [take 22 (concat (request_parts <$> [["SET"; "k"; "v"]; ["GET"; "k"]])); take 7 (drop 22 (concat (request_parts <$> [["SET"; "k"; "v"]; ["GET"; "k"]]))); drop 29 (concat (request_parts <$> [["SET"; "k"; "v"]; ["GET"; "k"]]))].
    split; [by vm_compute|]. split; [by vm_compute|]. repeat constructor; by vm_compute.
  - repeat constructor; by vm_compute.
  - eapply rc_cons; [vm_compute; reflexivity|]. eapply rc_cons; [vm_compute; reflexivity|]. constructor.
  - by vm_compute.
Qed.
