(** Which requests leave the abstract server no choice. *)
From Verif Require Import GoBase GoBaseProofs Float64 Float64Proofs SpecResp SpecList SpecZSet SpecCmd SpecServer SpecChoices Sim SimMain.

(** no value of the keyspace is damaged *)
Definition undamaged (m : kspace) : Prop := ∀ k, m !! k ≠ Some ADamaged.
Definition same_reply (col : Prop) (r s : option resp) : Prop :=
  r = s ∨ col ∧ ∃ l l', r = Some (bulks l) ∧ s = Some (bulks l') ∧ l ≡ₚ l'.
Definition crisp (col : Prop) (v : verdict) : Prop :=
  v_safe v → ∀ r1 m1 r2 m2, v_does v r1 m1 → v_does v r2 m2 → m1 = m2 ∧ undamaged m1 ∧ same_reply col r1 r2.

Section crisp.
Context (ext : Ext) (col : Prop).
Implicit Types (m : kspace).
Lemma und_insert m k x : undamaged m → x ≠ ADamaged → undamaged (<[k := x]> m).
Proof. intros U H k'. rewrite lookup_insert_Some. intros [[_ ?]|[_ ?]]; [done|by eapply U]. Qed.
Lemma und_delete m k : undamaged m → undamaged (delete k m).
Proof. intros U k'. rewrite lookup_delete_Some. intros [_ ?]. by eapply U. Qed.
Lemma und_pairs a : ∀ m, undamaged m → undamaged (put_pairs a m).
Proof.
  assert (H : ∀ n a m, (length a <= n)%nat → undamaged m → undamaged (put_pairs a m)); [|intros m; by eapply H].
  induction n as [|n IH]; intros [|k [|v r]] m L U; cbn in *; try done; try lia. apply IH; [lia|]. by apply und_insert.
Qed.
Lemma crisp_says r m : undamaged m → crisp col (says r m).
Proof. intros U _ r1 m1 r2 m2 [-> ->] [-> ->]. split; [done|]. split; [done|by left]. Qed.
Lemma crisp_fails e m : undamaged m → crisp col (fails e m).
Proof. apply crisp_says. Qed.
Lemma crisp_few m : undamaged m → crisp col (too_few m).
Proof. apply crisp_says. Qed.
Lemma crisp_mismatch m : undamaged m → crisp col (mismatch m).
Proof. apply crisp_says. Qed.
Lemma crisp_unspec W m : crisp col (unspecified W m).
Proof. intros []. Qed.
Lemma crisp_crashes : crisp col crashes.
Proof. intros []. Qed.
Lemma crisp_other x W m : undamaged m → crisp col (other x W m).
Proof. intros U. destruct x; cbn [other]; by (apply crisp_says || apply crisp_unspec). Qed.
Lemma crisp_guarded G r m : undamaged m → crisp col (guarded G (says r m) m).
Proof.
  intros U [g _] r1 m1 r2 m2 [-> H1] [-> H2]. destruct (H1 g) as [-> _], (H2 g) as [-> _]. split; [done|]. split; [done|by left].
Qed.
Lemma crisp_answered F (R : resp → Prop) m : undamaged m → (∀ r s, R r → R s → r = s) → crisp col (answered F R m).
Proof.
  intros U HR HF r1 m1 r2 m2 [-> H1] [-> H2]. destruct (H1 HF) as (r & -> & Hr), (H2 HF) as (s & -> & Hs).
  split; [done|]. split; [done|]. left. by rewrite (HR r s).
Qed.
Lemma crisp_lists P m : col → undamaged m → crisp col (lists_all P m).
Proof.
  intros Hc U _ r1 m1 r2 m2 (-> & l & -> & N & H) (-> & l' & -> & N' & H'). split; [done|]. split; [done|].
  right. split; [done|]. exists l, l'. do 2 (split; [done|]). apply NoDup_Permutation; [done..|]. intros x. by rewrite H, H'.
Qed.
End crisp.

Ltac und := repeat first [assumption | apply und_insert; [|done] | apply und_delete | apply und_pairs].
Ltac crisp_leaf := first
  [ apply crisp_says; solve [und] | apply crisp_fails; solve [und] | apply crisp_few; assumption | apply crisp_mismatch; assumption
  | apply crisp_unspec | apply crisp_crashes | apply crisp_other; assumption | apply crisp_guarded; assumption
  | apply crisp_lists; [assumption|assumption] ].
Ltac crisp_go := repeat (try crisp_leaf; match goal with
  | |- crisp _ (match ?x with _ => _ end) => lazymatch x with context [match _ with _ => _ end] => fail | _ => destruct x eqn:? end
  | |- crisp _ ((match ?x with _ => _ end) _) => lazymatch x with context [match _ with _ => _ end] => fail | _ => destruct x eqn:? end
  | |- context [match ?x with _ => _ end] => lazymatch x with context [match _ with _ => _ end] => fail | _ => destruct x eqn:? end
  end).

Section commands.
Context (ext : Ext) (col : Prop) (m : kspace) (U : undamaged m).
Implicit Types (a : list string).
Lemma cr_exists a : crisp col (s_exists a m). Proof using U. unfold s_exists. crisp_go. Qed.
Lemma cr_del a : crisp col (s_del a m). Proof using U. unfold s_del. crisp_go. Qed.
Lemma cr_type a : crisp col (s_type a m).
Proof using U. unfold s_type. destruct a as [|k a]; [crisp_go|]. pose proof (U k). destruct (m !! k) as [[]|]; try done; crisp_go. Qed.
Lemma cr_keys a : col → crisp col (s_keys ext a m). Proof using U. intros Hc. unfold s_keys. crisp_go. Qed.
Lemma cr_ping a : crisp col (s_ping a m). Proof using U. unfold s_ping. crisp_go. Qed.
Lemma cr_command a : crisp col (s_command a m). Proof using U. unfold s_command. crisp_go. Qed.
Lemma cr_set a : crisp col (s_set a m). Proof using U. unfold s_set. crisp_go. Qed.
Lemma cr_mset a : crisp col (s_mset a m). Proof using U. unfold s_mset. crisp_go. Qed.
Lemma cr_get a : crisp col (s_get a m). Proof using U. unfold s_get. crisp_go. Qed.
Lemma cr_mget a : crisp col (s_mget a m).
Proof using U.
  unfold s_mget. destruct a as [|k a]; [crisp_go|]. intros _ r1 m1 r2 m2 [-> H1] [-> H2].
  split; [done|]. split; [done|]. left. assert (Forall (λ k, m !! k ≠ Some ADamaged) (k :: a)) as F by (apply Forall_true; intros; apply U).
  by rewrite H1, H2.
Qed.
Lemma cr_add k n : crisp col (add_to k n m). Proof using U. unfold add_to. crisp_go. Qed.
Lemma cr_incr a : crisp col (s_incr a m). Proof using U. unfold s_incr. destruct a; [crisp_go|]. apply cr_add. Qed.
Lemma cr_decr a : crisp col (s_decr a m). Proof using U. unfold s_decr. destruct a; [crisp_go|]. apply cr_add. Qed.
Lemma cr_incrby a : crisp col (s_incrby a m).
Proof using U. unfold s_incrby. destruct a as [|? [|]]; [crisp_go..|]. destruct (parse_int _); [apply cr_add|crisp_go]. Qed.
Lemma cr_decrby a : crisp col (s_decrby a m).
Proof using U. unfold s_decrby. destruct a as [|? [|]]; [crisp_go..|]. destruct (parse_int _); [apply cr_add|crisp_go]. Qed.
Lemma cr_append a : crisp col (s_append a m). Proof using U. unfold s_append. crisp_go. Qed.
Lemma cr_push l a : crisp col (s_push l a m). Proof using U. unfold s_push, push_to. crisp_go. Qed.
Lemma cr_pop l a : crisp col (s_pop l a m). Proof using U. unfold s_pop. crisp_go. Qed.
Lemma cr_llen a : crisp col (s_llen a m). Proof using U. unfold s_llen. crisp_go. Qed.
Lemma cr_lrange a : crisp col (s_lrange a m). Proof using U. unfold s_lrange. crisp_go. Qed.
Lemma cr_lrem a : crisp col (s_lrem a m). Proof using U. unfold s_lrem. crisp_go. Qed.
Lemma cr_lindex a : crisp col (s_lindex a m). Proof using U. unfold s_lindex. crisp_go. Qed.
Lemma cr_lset a : crisp col (s_lset a m). Proof using U. unfold s_lset. crisp_go. Qed.
Lemma cr_linsert a : crisp col (s_linsert a m). Proof using U. unfold s_linsert. crisp_go. Qed.
Lemma cr_sadd a : crisp col (s_sadd a m). Proof using U. unfold s_sadd, add_members. crisp_go. Qed.
Lemma cr_scard a : crisp col (s_scard a m). Proof using U. unfold s_scard. crisp_go. Qed.
Lemma cr_srem a : crisp col (s_srem a m). Proof using U. unfold s_srem. crisp_go. Qed.
Lemma cr_sismember a : crisp col (s_sismember a m). Proof using U. unfold s_sismember. crisp_go. Qed.
Lemma cr_smembers a : col → crisp col (s_smembers a m). Proof using U. intros Hc. unfold s_smembers. crisp_go. Qed.
Lemma cr_smove a : crisp col (s_smove a m).
Proof using U.
  unfold s_smove. destruct a as [|s [|t [|v a]]]; [crisp_go..|]. destruct (m !! s) as [[| |X dr| |]|]; try crisp_leaf.
  case_bool_decide; [|crisp_leaf]. assert (U' : undamaged (<[s:=ASet (X ∖ {[v]}) (S dr)]> m)) by und.
  revert U'. generalize (<[s:=ASet (X ∖ {[v]}) (S dr)]> m). intros m' U'. unfold add_members. crisp_go.
Qed.
Lemma cr_setop o a : col → crisp col (s_setop o a m). Proof using U. intros Hc. unfold s_setop. crisp_go. Qed.
Lemma cr_setop_store o a : crisp col (s_setop_store o a m). Proof using U. unfold s_setop_store. crisp_go. Qed.
Lemma cr_not_zset k W : crisp col (not_zset k W m). Proof using U. unfold not_zset. crisp_go. Qed.
Lemma cr_zadd a : crisp col (s_zadd ext a m).
Proof using U.
  unfold s_zadd. destruct a as [|k [|x [|y a]]]; [crisp_go..|]. destruct (zadd_parse _ _ _) as [[fl ks]|]; [|crisp_leaf].
  destruct (zset_at m k) as [[es gh]|]; [|apply cr_not_zset]. destruct (zadd_many _ _ _ _) as [[es' n]|]; crisp_leaf.
Qed.
Lemma cr_zincr a : crisp col (s_zincr ext a m).
Proof using U.
  unfold s_zincr. destruct a as [|k [|s [|v a]]]; [crisp_go..|]. destruct (parse_float _ _); [|crisp_leaf].
  destruct (zset_at m k) as [[es gh]|]; [|apply cr_not_zset]. destruct (zadd_one _ _ _ _) as [[es' n]|]; crisp_leaf.
Qed.
Lemma cr_zscore a : crisp col (s_zscore ext a m).
Proof using U. unfold s_zscore. destruct a as [|k [|v a]]; [crisp_go..|]. destruct (zset_at m k) as [[[|] gh]|]; [crisp_leaf..|apply cr_not_zset]. Qed.
Lemma cr_zrank a : crisp col (s_zrank a m).
Proof using U.
  unfold s_zrank. destruct a as [|k [|v a]]; [crisp_go..|]. destruct (zset_at m k) as [[[|] gh]|]; [crisp_leaf| |apply cr_not_zset].
  destruct (gh !! v); crisp_leaf.
Qed.
Lemma cr_zrem a : crisp col (s_zrem a m).
Proof using U.
  unfold s_zrem. destruct a as [|k [|v a]]; [crisp_go..|]. destruct (zset_at m k) as [[[|] gh]|]; [crisp_leaf| |apply cr_not_zset].
  destruct (zrem_many _ _ _) as [[[]]|]; crisp_leaf.
Qed.
Lemma cr_zcard a : crisp col (s_zcard a m).
Proof using U. unfold s_zcard. destruct a as [|k a]; [crisp_go..|]. destruct (zset_at m k) as [[]|]; [crisp_leaf|apply cr_not_zset]. Qed.
Lemma lower_fun mn es lo lo' : lower_rank mn false es lo → lower_rank mn false es lo' → lo = lo'.
Proof. destruct 1; inversion 1; congruence. Qed.
Lemma upper_fun mx es hi hi' : upper_rank mx false es hi → upper_rank mx false es hi' → hi = hi'.
Proof. destruct 1; inversion 1; congruence. Qed.
Lemma count_fun mn mx es n n' : count_answer mn false mx false es n → count_answer mn false mx false es n' → n = n'.
Proof.
  unfold count_answer. destruct (is_ninf mn && is_pinf mx); [congruence|].
  intros (lo & hi & H1 & H2 & ->) (lo' & hi' & H1' & H2' & ->). by rewrite (lower_fun _ _ _ _ H1 H1'), (upper_fun _ _ _ _ H2 H2').
Qed.
Lemma select_fun mn mx es ys ys' : select_answer mn false mx false es ys → select_answer mn false mx false es ys' → ys = ys'.
Proof.
  unfold select_answer. destruct (is_ninf mn && is_pinf mx); [congruence|].
  intros (lo & hi & H1 & H2 & ->) (lo' & hi' & H1' & H2' & ->). by rewrite (lower_fun _ _ _ _ H1 H1'), (upper_fun _ _ _ _ H2 H2').
Qed.
Lemma lower_paren c : Ascii.eqb (lower_ascii c) "(" = Ascii.eqb c "(".
Proof. destruct c as [[] [] [] [] [] [] [] []]; done. Qed.
Lemma open_not c n : is_byte c n = true → n ≠ 40%N → Ascii.eqb c "(" = false.
Proof. unfold is_byte. intros E N. apply N.eqb_eq in E. destruct (Ascii.eqb_spec c "("); [|done]. subst c. by destruct N. Qed.
Lemma open_lower s : open_end (to_lower s) = open_end s.
Proof.
  destruct s as [|c s]; [done|]. cbn [to_lower open_end]. destruct s as [|c1 s]; [apply lower_paren|].
  destruct (is_byte c 196) eqn:E1; cbn [andb].
  { destruct (is_byte c1 176); [by rewrite (open_not _ _ E1)|]. destruct s as [|c2 s]; [apply lower_paren|].
    destruct (is_byte c 226) eqn:E2; cbn [andb]; [|apply lower_paren]. destruct (_ && _); [by rewrite (open_not _ _ E2)|apply lower_paren]. }
  destruct s as [|c2 s]; [apply lower_paren|].
  destruct (is_byte c 226) eqn:E2; cbn [andb]; [|apply lower_paren]. destruct (_ && _); [by rewrite (open_not _ _ E2)|apply lower_paren].
Qed.
Lemma bound_closed s f o : bound_of ext s = Some (f, o) → open_end s = false → o = false.
Proof.
  unfold bound_of. rewrite <- (open_lower s). destruct (_ =? _)%string; [by intros [= <- <-]|]. destruct (_ =? _)%string; [by intros [= <- <-]|].
  destruct (to_lower s) as [|c t]; cbn [open_end trim_paren].
  - destruct (parse_float _ _); [by intros [= <- <-]|done].
  - intros H E. rewrite E in H. destruct (parse_float _ _); [by injection H as <- <-|done].
Qed.
Lemma cr_zcount a : existsb open_end a = false → crisp col (s_zcount ext a m).
Proof using U.
  intros E. unfold s_zcount. destruct a as [|k [|s1 [|s2 a]]]; [crisp_go..|]. cbn [existsb] in E.
  apply orb_false_iff in E as [_ E]. apply orb_false_iff in E as [E1 E]. apply orb_false_iff in E as [E2 _].
  destruct (zset_at m k) as [[[|] gh]|]; [crisp_leaf| |apply cr_not_zset].
  destruct (bound_of ext (to_lower s1)) as [[mn mo]|] eqn:B1; [|crisp_leaf]. destruct (bound_of ext (to_lower s2)) as [[mx mxo]|] eqn:B2; [|crisp_leaf].
  apply bound_closed in B1; [|by rewrite open_lower]. apply bound_closed in B2; [|by rewrite open_lower]. subst mo mxo.
  apply crisp_answered; [done|]. intros r s (n & Hn & ->) (n' & Hn' & ->). f_equal. by eapply count_fun.
Qed.
Lemma cr_range bs ws k s1 s2 : open_end s1 = false → open_end s2 = false → crisp col (range_spec ext bs ws k s1 s2 m).
Proof using U.
  intros E1 E2. unfold range_spec. destruct (zset_at m k) as [[[|] gh]|]; [crisp_leaf| |apply cr_not_zset]. destruct bs.
  - destruct (bound_of ext s1) as [[mn mo]|] eqn:B1; [|crisp_leaf]. destruct (bound_of ext s2) as [[mx mxo]|] eqn:B2; [|crisp_leaf].
    apply bound_closed in B1; [|done]. apply bound_closed in B2; [|done]. subst mo mxo.
    apply crisp_answered; [done|]. intros r s (n & Hn & ->) (n' & Hn' & ->). f_equal. by eapply select_fun.
  - destruct (parse_int s1); [|crisp_leaf]. destruct (parse_int s2); crisp_leaf.
Qed.
Lemma cr_zrange a : existsb open_end a = false → crisp col (s_zrange ext a m).
Proof using U.
  intros E. unfold s_zrange. destruct a as [|k [|s1 [|s2 a]]]; [crisp_go..|]. cbn [existsb] in E.
  apply orb_false_iff in E as [_ E]. apply orb_false_iff in E as [E1 E]. apply orb_false_iff in E as [E2 _]. by apply cr_range.
Qed.
Lemma cr_zrangebyscore a : existsb open_end a = false → crisp col (s_zrangebyscore ext a m).
Proof using U.
  intros E. unfold s_zrangebyscore. destruct a as [|k [|s1 [|s2 a]]]; [crisp_go..|]. cbn [existsb] in E.
  apply orb_false_iff in E as [_ E]. apply orb_false_iff in E as [E1 E]. apply orb_false_iff in E as [E2 _]. by apply cr_range.
Qed.
Lemma cr_zrevrange a : crisp col (s_zrevrange ext a m).
Proof using U.
  unfold s_zrevrange. destruct a as [|k [|s1 [|s2 a]]]; [crisp_go..|]. destruct (zset_at m k) as [[[|] gh]|]; [crisp_leaf| |apply cr_not_zset].
  destruct (parse_int s1); [|crisp_leaf]. destruct (parse_int s2); crisp_leaf.
Qed.
Lemma cr_zpop mx a : crisp col (s_zpop ext mx a m).
Proof using U.
  unfold s_zpop. destruct a as [|k a]; [crisp_go|]. destruct (match a with [] => _ | _ => _ end) as [n|]; [|crisp_leaf].
  destruct (zset_at m k) as [[[|] gh]|]; [crisp_leaf| |].
  - destruct (zpop_ok _ _ _); crisp_leaf.
  - destruct (m !! k) as [[]|]; crisp_leaf.
Qed.
Lemma cr_hdel a : crisp col (s_hdel a m). Proof using U. unfold s_hdel, absent_or. crisp_go. Qed.
Lemma cr_hget a : crisp col (s_hget a m). Proof using U. unfold s_hget, absent_or. crisp_go. Qed.
Lemma cr_hgetall a : crisp col (s_hgetall a m). Proof using U. unfold s_hgetall, absent_or. crisp_go. Qed.
Lemma cr_hkeys a : crisp col (s_hkeys a m). Proof using U. unfold s_hkeys, absent_or. crisp_go. Qed.
Lemma cr_hlen a : crisp col (s_hlen a m). Proof using U. unfold s_hlen, absent_or. crisp_go. Qed.
Lemma cr_hmget a : crisp col (s_hmget a m). Proof using U. unfold s_hmget, absent_or. crisp_go. Qed.
Lemma cr_hset a : crisp col (s_hset a m). Proof using U. unfold s_hset, absent_or. crisp_go. Qed.
Lemma cr_hmset a : crisp col (s_hmset a m). Proof using U. unfold s_hmset, absent_or. crisp_go. Qed.
Lemma cr_hsetnx a : crisp col (s_hsetnx a m). Proof using U. unfold s_hsetnx, absent_or. crisp_go. Qed.
Lemma cr_hincrby a : crisp col (s_hincrby a m). Proof using U. unfold s_hincrby, absent_or. crisp_go. Qed.
Lemma cr_hincrbyfloat a : crisp col (s_hincrbyfloat ext a m). Proof using U. unfold s_hincrbyfloat, absent_or. crisp_go. Qed.
End commands.

(** a settled request has one new keyspace and, up to the order of a collection, one answer *)
Lemma spec_crisp ext req m : undamaged m → settled req → crisp (answers_a_collection req) (spec ext req m).
Proof.
  intros U [S1 S2]. destruct req as [|name a].
  { intros _ r1 m1 r2 m2 [-> ->] [-> ->]. split; [done|]. split; [done|by left]. }
  unfold spec. cbn [named] in S1. unfold asks_open_interval in S2. cbn [named] in S2. unfold answers_a_collection, named.
  assert (E : ∀ low, low ∈ ["zcount"; "zrange"; "zrangebyscore"]%string → to_lower name = low → existsb open_end a = false).
  { intros low H1 H2. apply not_true_is_false. intros H. apply S2. split; [by rewrite H2|]. cbn [existsb]. rewrite H. by rewrite orb_true_r. }
  clear S2. revert S1 E. generalize (to_lower name). intros low S1 E. unfold spec_table. rewrite !find_spec_cons.
  repeat (match goal with |- context [String.eqb ?n low] => destruct (String.eqb_spec n low) as [<-|_] end;
    [ first [ by exfalso; apply S1; left
            | by first [ apply cr_hdel | apply cr_hget | apply cr_hgetall | apply cr_hincrby | apply cr_hincrbyfloat | apply cr_hkeys | apply cr_hlen
                | apply cr_hmget | apply cr_hmset | apply cr_hset | apply cr_hsetnx | apply cr_exists | apply cr_del | apply cr_type | apply cr_ping
                | apply cr_command | apply cr_push | apply cr_pop | apply cr_llen | apply cr_lrange | apply cr_lrem | apply cr_lindex | apply cr_lset
                | apply cr_linsert | apply cr_sadd | apply cr_scard | apply cr_setop_store | apply cr_sismember | apply cr_smove | apply cr_srem
                | apply cr_zadd | apply cr_zscore | apply cr_zrank | apply cr_zrem | apply cr_zcard | apply cr_zincr | apply cr_zrevrange | apply cr_zpop
                | apply cr_set | apply cr_mset | apply cr_get | apply cr_mget | apply cr_incr | apply cr_incrby | apply cr_decr | apply cr_decrby | apply cr_append ]
            | first [apply cr_keys | apply cr_smembers | apply cr_setop]; [done|by apply (bool_decide_unpack _)]
            | first [apply cr_zcount | apply cr_zrange | apply cr_zrangebyscore]; [done|eapply E; [|done]; by apply (bool_decide_unpack _)] ] |]).
  by apply crisp_says.
Qed.
