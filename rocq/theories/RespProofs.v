(** Replies are read back by a client exactly as the command produced them. *)
From Verif Require Import GoBase GoBaseProofs Float64 Db Protocol Redis SpecResp Obs.

(** no CR in a line *)
Fixpoint no_cr (s : string) : bool :=
  match s with EmptyString => true | String c r => negb (Ascii.eqb c CR) && no_cr r end.

Lemma cut_line_app l t : no_cr l = true → cut_line (l +:+ CRLF +:+ t) = Some (l, t).
Proof.
  induction l as [|c l IH]; intros H.
  - reflexivity.
  - simpl in H. apply andb_true_iff in H as [Hc Hl]. rewrite sapp_cons. specialize (IH Hl).
    destruct l as [|c' l].
    + rewrite sapp_nil_l in *. unfold CRLF in *. rewrite !sapp_cons, sapp_nil_l in *. simpl in *.
      destruct (Ascii.eqb c CR); [done|]. done.
    + rewrite sapp_cons in *. cbn [cut_line] in *. destruct (Ascii.eqb c CR); [done|]. cbn [andb]. rewrite IH. done.
Qed.

Lemma cut_bytes_app v t : cut_bytes (String.length v) (v +:+ t) = Some (v, t).
Proof. induction v as [|c v IH]; [done|]. rewrite sapp_cons. simpl. by rewrite IH. Qed.

Lemma parse_digits_no_cr s acc z : parse_digits s acc = Some z → no_cr s = true.
Proof.
  revert acc. induction s as [|c s IH]; intros acc H; [done|]. simpl in *.
  destruct (Ascii.eqb_spec c CR) as [->|]; [by vm_compute in H|].
  destruct (digit_val c); [|done]. simpl. by eapply IH.
Qed.
Lemma parse_uint_no_cr s z : parse_uint s = Some z → no_cr s = true.
Proof. destruct s; [done|]. apply parse_digits_no_cr. Qed.
Lemma itoa_no_cr z : no_cr (itoa z) = true.
Proof.
  unfold itoa. destruct (Z.ltb_spec z 0).
  - destruct (itoa_N_spec (Z.to_N (- z))) as [Hp _]. by apply parse_uint_no_cr in Hp.
  - destruct (itoa_N_spec (Z.to_N z)) as [Hp _]. by apply parse_uint_no_cr in Hp.
Qed.
Lemma read_int_itoa z : read_int (itoa z) = Some z.
Proof.
  unfold itoa. destruct (Z.ltb_spec z 0).
  - destruct (itoa_N_spec (Z.to_N (- z))) as [Hp _]. cbn [read_int]. change (Ascii.eqb "-" "-") with true. cbv iota.
    rewrite Hp. simpl. f_equal. lia.
  - destruct (itoa_N_spec (Z.to_N z)) as [Hp (c & r & Heq & Hd)]. rewrite Heq in *.
    apply digit_not_sign in Hd as [H1 H2]. cbn [read_int]. rewrite H1, Hp. f_equal. lia.
Qed.

Lemma err_msg_no_cr e : no_cr (err_msg e) = true.
Proof. destruct e; reflexivity. Qed.

(** status lines carry no CR *)
Definition item_ok (i : ritem) : bool :=
  match ri_type i, ri_val i with TSimple, IStr s => no_cr s | _, _ => true end.
Definition rsp_ok (r : response) : bool := forallb item_ok (rsp_items r).

Lemma encode_item_view i b : encode_item i = Ret b → ∃ v, view_item i = Some v.
Proof.
  destruct i as [v t]. unfold encode_item, view_item. simpl.
  destruct t, v; simpl; intros H; try discriminate H; eauto.
Qed.
Lemma view_item_encode i v : view_item i = Some v → ∃ b, encode_item i = Ret b.
Proof. destruct i as [w t]. unfold encode_item, view_item. simpl. destruct t, w; simpl; intros H; try discriminate H; eauto. Qed.

Lemma read_item n i b t v : encode_item i = Ret b → view_item i = Some v → item_ok i = true →
  read_reply (S n) (b +:+ t) = Some (v, t).
Proof.
  destruct i as [w ty]. unfold encode_item, view_item, item_ok. simpl.
  destruct ty, w; simpl; intros Hb Hv Hok; try discriminate Hb; injection Hb as <-; injection Hv as <-.
  - change "+" with (String "+" EmptyString). rewrite sapp_cons, sapp_nil_l, sapp_cons, <- app_assoc_s.
    cbn [read_reply]. rewrite cut_line_app by done. reflexivity.
  - change "-" with (String "-" EmptyString). rewrite sapp_cons, sapp_nil_l, sapp_cons, <- app_assoc_s.
    cbn [read_reply]. rewrite cut_line_app by apply err_msg_no_cr. reflexivity.
  - change ":" with (String ":" EmptyString). rewrite sapp_cons, sapp_nil_l, sapp_cons, <- app_assoc_s.
    cbn [read_reply]. rewrite cut_line_app by apply itoa_no_cr. simpl. by rewrite read_int_itoa.
  - change ("$-1" +:+ CRLF) with (String "$" ("-1" +:+ CRLF)). rewrite sapp_cons, <- app_assoc_s.
    cbn [read_reply]. rewrite cut_line_app by done. reflexivity.
  - change "$" with (String "$" EmptyString). rewrite sapp_cons, sapp_nil_l, sapp_cons, <- !app_assoc_s.
    cbn [read_reply]. rewrite cut_line_app by apply itoa_no_cr.
    change (Ascii.eqb "$" "+") with false. change (Ascii.eqb "$" "-") with false.
    change (Ascii.eqb "$" ":") with false. change (Ascii.eqb "$" "$") with true. cbv iota.
    rewrite read_int_itoa. pose proof (slen_nonneg s).
    destruct (Z.eqb_spec (slen s) (-1)); [lia|]. destruct (Z.ltb_spec (slen s) 0); [lia|].
    unfold slen. rewrite Nat2Z.id. rewrite cut_bytes_app. reflexivity.
Qed.

Lemma read_items n l b t vs : encode_items l = Ret b → mapM view_item l = Some vs → forallb item_ok l = true →
  read_many (read_reply (S n)) (length l) (b +:+ t) = Some (vs, t).
Proof.
  revert b vs. induction l as [|i l IH]; intros b vs Hb Hv Hok.
  - injection Hb as <-. injection Hv as <-. by rewrite sapp_nil_l.
  - simpl in Hok. apply andb_true_iff in Hok as [Hi Hl].
    cbn [encode_items] in Hb. destruct (encode_item i) as [bi| |] eqn:Ei; try discriminate Hb.
    cbn [obind] in Hb. destruct (encode_items l) as [bl| |] eqn:El; try discriminate Hb. injection Hb as <-.
    apply mapM_Some in Hv. inversion Hv as [|? v ? vs' Hvi Hvl]; subst. apply mapM_Some in Hvl.
    cbn [read_many length]. rewrite <- app_assoc_s.
    rewrite (read_item _ _ _ _ _ Ei Hvi Hi). rewrite (IH _ _ eq_refl Hvl Hl). done.
Qed.

Lemma encode_items_view l b : encode_items l = Ret b → is_Some (mapM view_item l).
Proof.
  revert b. induction l as [|i l IH]; intros b Hb; [by eexists|].
  cbn [encode_items] in Hb. destruct (encode_item i) as [bi| |] eqn:Ei; try discriminate Hb.
  cbn [obind] in Hb. destruct (encode_items l) as [bl| |] eqn:El; try discriminate Hb.
  destruct (encode_item_view _ _ Ei) as [v Hv]. destruct (IH _ eq_refl) as [vs Hvs].
  exists (v :: vs). apply mapM_Some. constructor; [done|]. by apply mapM_Some.
Qed.
Lemma view_items_encode l vs : mapM view_item l = Some vs → ∃ b, encode_items l = Ret b.
Proof.
  revert vs. induction l as [|i l IH]; intros vs H; [by eexists|].
  apply mapM_Some in H. inversion H as [|? v ? vs' Hv Hl]; subst. apply mapM_Some in Hl.
  destruct (IH _ Hl) as [bl Hbl]. destruct (view_item_encode _ _ Hv) as [bi Hbi].
  cbn [encode_items]. rewrite Hbi. cbn [obind]. rewrite Hbl. by eexists.
Qed.

Lemma read_reply_arr d line t z : no_cr line = true → read_int line = Some z → 0 ≤ z →
  read_reply (S d) (String "*" (line +:+ CRLF +:+ t)) =
  match read_many (read_reply d) (Z.to_nat z) t with Some (l, u) => Some (RArr l, u) | None => None end.
Proof.
  intros Hl Hz Hpos. cbn [read_reply]. rewrite cut_line_app by done. simpl. rewrite Hz.
  destruct (Z.ltb_spec z 0); [lia|]. done.
Qed.

(** what the client reads is the view *)
Lemma reply_read r b t : encode r = Ret b → rsp_ok r = true →
  ∃ v, view r = Some v ∧ read_reply 2 (b +:+ t) = Some (v, t).
Proof.
  destruct r as [items arr]. unfold encode, view, rsp_ok. cbn [rsp_items rsp_array]. destruct items as [|i items].
  - intros Hb _. injection Hb as <-. destruct arr; eexists; (split; [reflexivity|]); reflexivity.
  - destruct arr; intros Hb Hok.
    + destruct (encode_items (i :: items)) as [body| |] eqn:E; try discriminate Hb. injection Hb as <-.
      destruct (encode_items_view _ _ E) as [vs Hvs]. exists (RArr vs). rewrite Hvs. split; [done|].
      change "*" with (String "*" EmptyString). rewrite sapp_cons, sapp_nil_l, sapp_cons, <- !app_assoc_s.
      rewrite (read_reply_arr _ _ _ _ (itoa_no_cr _) (read_int_itoa _)) by lia. rewrite Nat2Z.id.
      change (S (length items)) with (length (i :: items)).
      rewrite (read_items 0 _ _ t _ E Hvs Hok). done.
    + destruct (encode_item_view _ _ Hb) as [v Hv]. exists v. split; [done|].
      eapply read_item; [done..|]. simpl in Hok. by apply andb_true_iff in Hok as [? _].
Qed.

(** no reply exactly if encoding fails *)
Lemma encode_view r : (∃ b, encode r = Ret b) ↔ is_Some (view r).
Proof.
  destruct r as [items arr]. unfold encode, view. simpl. destruct items as [|i items].
  - split; intros _; [destruct arr; by eexists|by eexists].
  - destruct arr.
    + split.
      * intros [b Hb]. destruct (encode_items (i :: items)) as [body| |] eqn:E; try discriminate Hb.
        destruct (encode_items_view _ _ E) as [vs ->]. by eexists.
      * intros [v Hv]. destruct (mapM view_item (i :: items)) as [vs|] eqn:E; [|discriminate Hv].
        destruct (view_items_encode _ _ E) as [b ->]. by eexists.
    + split; [intros [b Hb]; destruct (encode_item_view _ _ Hb) as [v ->]; by eexists|].
      intros [v Hv]. by eapply view_item_encode.
Qed.

(** ** Every reply a command builds is of that kind *)
From Verif Require Import SpecCmd DbInv ExecSteps.

Lemma ok_strings vs : rsp_ok (rsp_strings vs) = true.
Proof. unfold rsp_ok, rsp_strings. simpl. induction vs; simpl; auto. Qed.
Lemma ok_interfaces b vs : rsp_ok (rsp_interfaces b vs) = true.
Proof. unfold rsp_ok, rsp_interfaces. simpl. induction vs; simpl; auto. Qed.
Lemma ok_type v : rsp_ok (rsp_simple (type_name v)) = true.
Proof. by destruct v. Qed.

Definition q_ok (q : res response) : Prop := match q with Ok r => rsp_ok r = true | Err _ => True end.

Lemma commands_ok ext c name f a d d' q : (name, f) ∈ implemented_commands ext c → f a d = Ret (d', q) → q_ok q.
Proof.
  intros Hin Hf. unfold implemented_commands in Hin.
  repeat (apply elem_of_cons in Hin as [[= -> ->]|Hin];
    [ unfold c_hdel, c_hexists, c_hget, c_hgetall, c_hincrby, c_hincrbyfloat, c_hkeys, c_hlen, c_hmget, c_hmset, c_hset,
        c_hsetnx, c_hvals, c_keys, c_exists, c_del, c_type, c_ping, c_command, c_lpush, c_lpop, c_rpush, c_rpop, c_llen,
        c_lrange, c_lrem, c_lindex, c_lset, c_linsert, c_sadd, c_scard, c_setop, c_setop_store, c_sismember, c_smembers,
        c_smove, c_srem, c_spop, c_zadd, c_zscore, c_zrank, c_zrem, c_zcard, c_zcount, c_zincr, c_zrange, c_zrangebyscore,
        c_zrevrange, c_zpop, c_set, c_mset, c_get, c_mget, c_incr, c_incrby, c_decr, c_decrby, c_append, incr_reply,
        pop_reply, range_reply, reply, fail in Hf; crush Hf; cbn [q_ok];
      first [ exact I | exact eq_refl | apply ok_strings | apply ok_interfaces
            | unfold Type_; match goal with |- context [fmap _ ?x] => destruct x as [[]|]; reflexivity end ] | ]).
  by apply elem_of_nil in Hin.
Qed.

Lemma exec_rsp_ok ext c req d d' r : exec ext c req d = Ret (d', Some r) → rsp_ok r = true.
Proof.
  intros H. destruct req as [|name a]; [discriminate H|].
  apply exec_inv in H as [(_ & _ & [= ->])|(f & q & Hin & Hf & [= ->])]; [done|].
  pose proof (commands_ok _ _ _ _ _ _ _ _ Hin Hf). destruct q; [done|]. reflexivity.
Qed.
