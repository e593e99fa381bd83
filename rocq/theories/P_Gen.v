(** C66: the program that makes the command table. *)
From Coq Require Import Sorting.Sorted.
From Verif Require Import GoBase GoBaseProofs Db Protocol Redis Gen GenSources SpecGen GenProofs.

(** ** Every declaration gives one entry *)
Definition above' (p : string) (ls : list string) (i : nat) : string := match i with O => p | S j => default "" (ls !! j) end.
Lemma parse_lines_spec ls : ∀ p, ∃ idx : list nat,
  StronglySorted lt idx ∧ (∀ i, i ∈ idx ↔ ∃ l f, ls !! i = Some l ∧ declares l f) ∧
  Forall2 (λ i kv, (∃ l, ls !! i = Some l ∧ declares l (snd kv)) ∧ ∀ n, named (above' p ls i) (snd kv) n → fst kv = n) idx (parse_lines (trim_space p) ls).
Proof.
  induction ls as [|l ls IH]; intros p.
  { exists []. split; [constructor|]. split; [|constructor]. intros i. split; [by intros ?%elem_of_nil|]. by intros (? & ? & ? & _). }
  destruct (IH l) as (idx & H1 & H2 & H3).
  assert (HS : StronglySorted lt (S <$> idx)).
  { clear H2 H3. induction H1 as [|i idx H1 IH1 HF]; [constructor|]. rewrite fmap_cons. constructor; [done|]. apply Forall_fmap. eapply Forall_impl; [done|]. simpl. lia. }
  assert (HF : Forall2 (λ i kv, (∃ l0, (l :: ls) !! i = Some l0 ∧ declares l0 (snd kv)) ∧ ∀ n, named (above' p (l :: ls) i) (snd kv) n → fst kv = n)
                 (S <$> idx) (parse_lines (trim_space l) ls)).
  { apply Forall2_fmap_l. eapply Forall2_impl; [done|]. intros i kv (HA & HB). split; [done|]. intros n. simpl. intros Hn. apply HB. by destruct i. }
  assert (HI : ∀ i, S i ∈ S <$> idx ↔ ∃ l0 f, (l :: ls) !! S i = Some l0 ∧ declares l0 f).
  { intros i. rewrite elem_of_list_fmap. simpl. rewrite <-H2. split; [by intros (? & [= <-] & ?)|by eauto]. }
  cbn [parse_lines]. destruct (cmd_func l) as [f|] eqn:E.
  - exists (0%nat :: (S <$> idx)). split; [|split].
    + constructor; [done|]. apply Forall_fmap, Forall_true. simpl. lia.
    + intros [|i]; [|by rewrite elem_of_cons, HI; intuition]. split; [|intros; left]. intros _. exists l, f. split; [done|]. by apply cmd_func_iff.
    + constructor; [|done]. cbn [fst snd]. split; [exists l; split; [done|]; by apply cmd_func_iff|]. intros n Hn. by apply named_ok.
  - exists (S <$> idx). split; [done|]. split; [|done]. intros [|i]; [|done]. split.
    + by intros (? & ? & _)%elem_of_list_fmap.
    + intros (l0 & f & [= <-] & Hd). by apply cmd_func_iff in Hd; congruence.
Qed.
(** The entries made from a source text are those of its declaring lines, one for each, in the order of the lines, and
    each has the declared function and, below an empty line or a comment, the name said there. *)
Theorem C66_declarations src ls : lines_of src ls → ∃ idx : list nat,
  StronglySorted lt idx ∧ (∀ i, i ∈ idx ↔ ∃ l f, ls !! i = Some l ∧ declares l f) ∧
  Forall2 (λ i kv, (∃ l, ls !! i = Some l ∧ declares l (snd kv)) ∧ ∀ n, named (above ls i) (snd kv) n → fst kv = n) idx (parse_source src).
Proof. intros H. unfold parse_source. rewrite (scan_lines_ok _ _ H). apply (parse_lines_spec ls ""). Qed.

(** ** The table *)
Lemma init_table_other kvs t n : n ∉ kvs.*1 → init_table kvs t !! n = t !! n.
Proof.
  unfold init_table. revert t. induction kvs as [|[m f] kvs IH]; intros t; [done|]. rewrite fmap_cons, not_elem_of_cons. intros [H1 H2]. simpl.
  rewrite IH by done. by apply lookup_insert_ne.
Qed.
Lemma init_table_at kvs t n f : NoDup kvs.*1 → (n, f) ∈ kvs → init_table kvs t !! n = Some f.
Proof.
  revert t. induction kvs as [|[m g] kvs IH]; intros t Hn; [by intros ?%elem_of_nil|]. rewrite fmap_cons in Hn. apply NoDup_cons in Hn as [H1 H2].
  intros [[= <- <-]|H]%elem_of_cons; [|by apply IH]. unfold init_table. simpl. change (foldl _ _ _) with (init_table kvs (<[n:=f]> t)).
  rewrite init_table_other by done. apply lookup_insert.
Qed.
(** When the entries have different names, a command declared below a comment or an empty line is found under its name, as
    the declared function, and names that are no entry's are what they were. *)
Theorem C66_callable src ls t : lines_of src ls → NoDup (parse_source src).*1 →
  (∀ i l f n, ls !! i = Some l → declares l f → named (above ls i) f n → init_table (parse_source src) t !! n = Some f) ∧
  (∀ n, n ∉ (parse_source src).*1 → init_table (parse_source src) t !! n = t !! n).
Proof.
  intros Hl Hn. split; [|intros n; apply init_table_other]. intros i l f n Hi Hd Hnm. destruct (C66_declarations _ _ Hl) as (idx & _ & H2 & H3).
  assert (Hin : i ∈ idx) by (apply H2; eauto). apply elem_of_list_lookup in Hin as (k & Hk). destruct (Forall2_lookup_l _ _ _ _ _ H3 Hk) as ([m g] & Hg & (l' & Hl' & Hd') & Hm).
  cbn [fst snd] in *. rewrite Hi in Hl'. injection Hl' as <-. assert (f = g) as -> by (apply cmd_func_iff in Hd, Hd'; congruence).
  rewrite (Hm _ Hnm) in Hg. apply init_table_at; [done|]. by eapply elem_of_list_lookup_2.
Qed.

(** ** The files *)
Lemma replace1_first old new a b : (∀ a' b', a +:+ old +:+ b = a' +:+ old +:+ b' → (String.length a ≤ String.length a')%nat) →
  replace1 old new (a +:+ old +:+ b) = a +:+ new +:+ b.
Proof.
  induction a as [|c a IH]; intros H.
  - rewrite !sapp_nil_l. destruct (old +:+ b) as [|d s] eqn:E; cbn [replace1].
    + rewrite <-E, strip_prefix_app. done.
    + rewrite <-E, strip_prefix_app. done.
  - rewrite !sapp_cons in *. cbn [replace1]. destruct (strip_prefix old (String c (a +:+ old +:+ b))) as [r|] eqn:E.
    + apply strip_prefix_iff in E. specialize (H "" r). rewrite sapp_nil_l in H. apply H in E. simpl in E. lia.
    + f_equal. apply IH. intros a' b' E'. specialize (H (String c a') b'). rewrite sapp_cons in H. simpl in H. rewrite E' in H. specialize (H eq_refl). lia.
Qed.
(** The path names a Go source: ".go" is its end and occurs nowhere else in it, and it is not itself a generated file. *)
Definition source_path (q : string) : Prop :=
  (∀ a b, q +:+ ".go" = a +:+ ".go" +:+ b → b = "") ∧ (∀ r, q ≠ r +:+ ".cmd").
(** Run on a source file, the program writes the generated file beside it and changes no other file. *)
Theorem C66_files q src fs : source_path q → fs !! (q +:+ ".go") = Some src →
  ∃ fs', generate [q +:+ ".go"] fs = Ret fs' ∧ fs' !! (q +:+ ".cmd.go") = Some (render (parse_source src)) ∧
    ∀ p, p ≠ q +:+ ".cmd.go" → fs' !! p = fs !! p.
Proof.
  intros [H1 H2] Hs. assert (E : out_path (q +:+ ".go") = q +:+ ".cmd.go").
  { unfold out_path. replace (q +:+ ".go") with (q +:+ ".go" +:+ "") by (by rewrite string_app_nil_r). rewrite replace1_first; [by rewrite string_app_nil_r|].
    intros a' b' E. rewrite string_app_nil_r in E. pose proof (H1 _ _ E) as ->. rewrite string_app_nil_r in E. by apply app_inv_tail_s in E as ->. }
  exists (<[q +:+ ".cmd.go" := render (parse_source src)]> fs). unfold generate. rewrite (proj2 (has_suffix_iff ".go" (q +:+ ".go"))) by eauto.
  destruct (has_suffix ".cmd.go" (q +:+ ".go")) eqn:Ec.
  { exfalso. apply has_suffix_iff in Ec as [r Ec]. change ".cmd.go" with (".cmd" +:+ ".go") in Ec. rewrite app_assoc_s in Ec. apply app_inv_tail_s in Ec. by eapply H2. }
  cbn [negb]. rewrite Hs. cbn [obind]. rewrite E. split; [done|]. split; [apply lookup_insert|]. intros p Hp. by apply lookup_insert_ne.
Qed.
(** Running it again changes nothing. *)
Theorem C66_again q src fs fs' : source_path q → fs !! (q +:+ ".go") = Some src → generate [q +:+ ".go"] fs = Ret fs' → generate [q +:+ ".go"] fs' = Ret fs'.
Proof.
  intros Hq Hs E. destruct (C66_files _ _ _ Hq Hs) as (f1 & E1 & A1 & B1). rewrite E in E1. injection E1 as <-.
  assert (Hne : q +:+ ".go" ≠ q +:+ ".cmd.go") by (intros Ex%app_inv_s; done).
  assert (Hs' : fs' !! (q +:+ ".go") = Some src) by (by rewrite B1).
  destruct (C66_files _ _ _ Hq Hs') as (f2 & E2 & A2 & B2). rewrite E2. f_equal. apply map_eq. intros p.
  destruct (decide (p = q +:+ ".cmd.go")) as [->|Hp]; [etrans; [exact A2|symmetry; exact A1]|by apply B2].
Qed.
(** What is assumed of the path is needed: any other file is overwritten, and a ".go" inside the path misleads it. *)
Theorem C66_paths_needed :
  (∀ p txt fs, ¬ (∃ a b, p = a +:+ ".go" +:+ b) → fs !! p = Some txt → generate [p] fs = Ret (<[p := render []]> fs)) ∧
  (∀ fs src, fs !! "a.gopher/x.go" = Some src → generate ["a.gopher/x.go"] fs = Ret (<["a.cmd.gopher/x.go" := render (parse_source src)]> fs)).
Proof.
  split.
  - intros p txt fs Hp Hf. unfold generate. destruct (has_suffix ".go" p) eqn:E.
    { exfalso. apply has_suffix_iff in E as [r ->]. apply Hp. exists r, "". by rewrite string_app_nil_r. }
    cbn [negb obind]. replace (out_path p) with p; [done|]. unfold out_path. clear -Hp. symmetry. induction p as [|c p IH]; [done|]. cbn [replace1].
    destruct (strip_prefix ".go" (String c p)) as [r|] eqn:E.
    + exfalso. apply Hp. exists "", r. rewrite sapp_nil_l. by apply strip_prefix_iff.
    + f_equal. apply IH. intros (a & b & ->). apply Hp. exists (String c a), b. by rewrite sapp_cons.
  - intros fs src Hs. unfold generate. replace (has_suffix ".go" "a.gopher/x.go") with true by (by vm_compute).
    replace (has_suffix ".cmd.go" "a.gopher/x.go") with false by (by vm_compute). cbn [negb]. rewrite Hs. cbn [obind]. by replace (out_path "a.gopher/x.go") with "a.cmd.gopher/x.go" by (by vm_compute).
Qed.
(** So is the bound on the lines: nothing that follows a longer line is seen. *)
Lemma ends_lf a s : s = "" ∨ (∃ p, a +:+ s = p +:+ String (chr 10) "") → s = "" ∨ ∃ p, s = p +:+ String (chr 10) "".
Proof.
  intros [->|[p E]]; [by left|]. destruct (decide (s = "")) as [->|Hs]; [by left|]. right. destruct (split_last s Hs) as (r & c & ->).
  rewrite app_assoc_s in E. apply last_inj in E as [_ ->]. by exists r.
Qed.
Lemma scan_long pre ls l s : lines_of pre ls → (pre = "" ∨ ∃ p, pre = p +:+ String (chr 10) "") → chr 10 ∉ bytes_of l → 65535 < slen l →
  scan_lines (pre +:+ l +:+ String (chr 10) s) = scan_lines pre.
Proof.
  intros Hp He Hl Hlen. unfold scan_lines. induction Hp as [|l0 (H1 & H2 & H3) Hn|l0 s0 ls (H1 & H2 & H3) Hs IH|l0 s0 ls (H1 & H2 & H3) Hs IH].
  - rewrite sapp_nil_l, pieces_lf, drop_last_cons by done. cbn [fitting].
    rewrite (proj2 (Z.leb_gt (slen l) max_line)) by (unfold max_line; lia). done.
  - exfalso. destruct He as [->|[p ->]]; [done|]. apply H1. rewrite bytes_app. apply elem_of_app. right. left.
  - rewrite <-app_assoc_s, sapp_cons, !pieces_lf, !drop_last_cons by done. cbn [fitting].
    rewrite (proj2 (Z.leb_le (slen l0) max_line)) by (unfold max_line; lia). rewrite !fmap_cons. f_equal. apply IH.
    destruct He as [E|[p E]]; [by apply (f_equal String.length) in E; rewrite length_app_s in E; simpl in E; lia|].
    apply (ends_lf (l0 +:+ String (chr 10) "")). right. exists p. by rewrite <-app_assoc_s.
  - assert (Hm : ∀ x, l0 +:+ String (chr 13) (String (chr 10) x) = (l0 +:+ String (chr 13) "") +:+ String (chr 10) x) by (intros x; by rewrite <-app_assoc_s).
    assert (HL : chr 10 ∉ bytes_of (l0 +:+ String (chr 13) "")).
    { rewrite bytes_app, not_elem_of_app. split; [done|]. unfold bytes_of. simpl. by rewrite not_elem_of_cons; split; [|apply not_elem_of_nil]. }
    rewrite <-app_assoc_s, !sapp_cons, !Hm, !pieces_lf, !drop_last_cons by done. cbn [fitting].
    rewrite (proj2 (Z.leb_le (slen (l0 +:+ String (chr 13) "")) max_line)) by (rewrite slen_app; unfold max_line; change (slen (String (chr 13) "")) with 1; lia).
    rewrite !fmap_cons. f_equal. apply IH.
    destruct He as [E|[p E]]; [by apply (f_equal String.length) in E; rewrite length_app_s in E; simpl in E; lia|].
    apply (ends_lf (l0 +:+ String (chr 13) (String (chr 10) ""))). right. exists p. by rewrite <-app_assoc_s.
Qed.
Theorem C66_long_line pre l s ls : lines_of pre ls → (pre = "" ∨ ∃ p, pre = p +:+ String (chr 10) "") → chr 10 ∉ bytes_of l → 65535 < slen l →
  parse_source (pre +:+ l +:+ String (chr 10) s) = parse_source pre.
Proof. intros H1 H2 H3 H4. unfold parse_source. by rewrite (scan_long pre ls l s). Qed.

(** ** The repository *)
Definition repo_sources : files := list_to_map
  [("./hash_table.go", hash_table_src); ("./keys.go", keys_src); ("./list.go", list_src); ("./set.go", set_src); ("./sorted_set.go", sorted_set_src); ("./string.go", string_src)].
Definition repo_generated : list (string * string) :=
  [("./hash_table", hash_table_cmd); ("./keys", keys_cmd); ("./list", list_cmd); ("./set", set_cmd); ("./sorted_set", sorted_set_cmd); ("./string", string_cmd)].
(** The generated files in the repository are the ones the program makes from the sources there. *)
Fixpoint only_at_end (s : string) : bool :=
  match strip_prefix ".go" s with
  | Some (String _ _) => false
  | _ => match s with String _ r => only_at_end r | EmptyString => true end
  end.
Lemma only_at_end_ok s a b : only_at_end s = true → s = a +:+ ".go" +:+ b → b = "".
Proof.
  revert a. induction s as [|c s IH]; intros a H E.
  { apply (f_equal String.length) in E. rewrite !length_app_s in E. simpl in E. lia. }
  destruct a as [|d a].
  - rewrite sapp_nil_l in E. cbn [only_at_end] in H. rewrite E, strip_prefix_app in H. by destruct b.
  - rewrite sapp_cons in E. injection E as <- E. apply (IH a); [|done]. cbn [only_at_end] in H. destruct (strip_prefix ".go" (String c s)) as [[|? ?]|]; done.
Qed.
Lemma source_path_ok q : only_at_end (q +:+ ".go") = true → has_suffix ".cmd" q = false → source_path q.
Proof.
  intros H1 H2. split; [intros a b; by apply only_at_end_ok|]. intros r ->. assert (H : has_suffix ".cmd" (r +:+ ".cmd") = true) by (apply has_suffix_iff; eauto). congruence.
Qed.
Theorem C66_repository : Forall (λ qc, ∃ fs', source_path (fst qc) ∧
   generate [fst qc +:+ ".go"] repo_sources = Ret fs' ∧ fs' !! (fst qc +:+ ".cmd.go") = Some (snd qc)) repo_generated.
Proof.
  assert (H : ∀ q src cmd, only_at_end (q +:+ ".go") = true → has_suffix ".cmd" q = false → repo_sources !! (q +:+ ".go") = Some src → render (parse_source src) = cmd →
    ∃ fs', source_path q ∧ generate [q +:+ ".go"] repo_sources = Ret fs' ∧ fs' !! (q +:+ ".cmd.go") = Some cmd).
  { intros q src cmd H1 H2 H3 <-. pose proof (source_path_ok q H1 H2) as Hq. destruct (C66_files q src repo_sources Hq H3) as (fs' & A & B & _). exists fs'. exact (conj Hq (conj A B)). }
  unfold repo_generated.
  repeat first [apply Forall_nil; done | apply Forall_cons; split]; cbn [fst snd].
  - apply (H "./hash_table" hash_table_src); by vm_compute.
  - apply (H "./keys" keys_src); by vm_compute.
  - apply (H "./list" list_src); by vm_compute.
  - apply (H "./set" set_src); by vm_compute.
  - apply (H "./sorted_set" sorted_set_src); by vm_compute.
  - apply (H "./string" string_src); by vm_compute.
Qed.
(** The table they set up has exactly the commands of the model (Redis.v). *)
Definition repo_entries : list (string * string) :=
  parse_source hash_table_src ++ parse_source keys_src ++ parse_source list_src ++ parse_source set_src ++ parse_source sorted_set_src ++ parse_source string_src.
Lemma init_table_dom kvs t n : is_Some (init_table kvs t !! n) ↔ n ∈ kvs.*1 ∨ is_Some (t !! n).
Proof.
  unfold init_table. revert t. induction kvs as [|[m f] kvs IH]; intros t; simpl.
  { split; [by right|]. intros [H|H]; [by apply elem_of_nil in H|done]. }
  rewrite IH. rewrite elem_of_cons. destruct (decide (n = m)) as [->|Hn]; [rewrite lookup_insert|rewrite lookup_insert_ne by done]; intuition eauto.
Qed.
Lemma lookup_command_dom name t : is_Some (lookup_command name t) ↔ name ∈ t.*1.
Proof.
  induction t as [|[m f] t IH]; simpl.
  - split; [by intros [? ?]|by intros ?%elem_of_nil].
  - rewrite elem_of_cons. destruct (String.eqb_spec m name) as [->|Hn]; [intuition eauto|]. rewrite IH. intuition congruence.
Qed.
Theorem C66_commands ext c : NoDup repo_entries.*1 ∧
  ∀ name, is_Some (init_table repo_entries ∅ !! name) ↔ is_Some (lookup_command name (implemented_commands ext c)).
Proof.
  split; [apply (bool_decide_unpack (NoDup repo_entries.*1)); by vm_compute|].
  intros name. rewrite init_table_dom, lookup_command_dom.
  assert (E : repo_entries.*1 = (implemented_commands ext c).*1) by (vm_compute; reflexivity). rewrite E.
  split; [intros [H|H]; [done|rewrite lookup_empty in H; by destruct H]|by left].
Qed.
(** So a request for any other name, and only such a one, is answered with the error for unknown commands. *)
Theorem C66_dispatch ext c name args d : init_table repo_entries ∅ !! to_lower name = None →
  exec ext c (name :: args) d = Ret (d, Some (rsp_error ErrUnknownCommand)).
Proof.
  intros H. assert (E : lookup_command (to_lower name) (implemented_commands ext c) = None).
  { apply eq_None_not_Some. intros Hs. apply (proj2 (C66_commands ext c) (to_lower name)) in Hs. destruct Hs as [x Hx]. rewrite H in Hx. discriminate Hx. }
  unfold exec, exec_lowered. rewrite E. reflexivity.
Qed.

(** ** The hypotheses are met: a text with a comment, an empty line, a carriage return, and no line feed at its end *)
Definition sample : string :=
  "// sAdd ." +:+ String (chr 13) (String (chr 10) ("func sAdd(c *Command) (" +:+ "*protocol.Response, error) {" +:+ String (chr 10) ("}" +:+ String (chr 10) (String (chr 10)
  ("  func  Ping(c *Command)  (" +:+ "*protocol.Response,  error) { return nil, nil }"))))).
Theorem C66_demo : ∃ ls, lines_of sample ls ∧ NoDup (parse_source sample).*1 ∧ parse_source sample = [("sadd", "sAdd"); ("ping", "Ping")] ∧
  named (above ls 1) "sAdd" "sadd" ∧ named (above ls 4) "Ping" "ping".
Proof.
  assert (HL : ∀ l, mem (chr 10) (bytes_of l) = false → has_suffix (String (chr 13) "") l = false → slen l <? 65535 = true → line l).
  { intros l H1 H2 H3. split; [|split; [|lia]].
    - intros H%mem_iff. congruence.
    - intros r ->. assert (H : has_suffix (String (chr 13) "") (r +:+ String (chr 13) "") = true) by (apply has_suffix_iff; eauto). congruence. }
  eexists. split; [|split; [|split; [|split]]].
  - unfold sample. apply lines_crlf; [apply HL; by vm_compute|]. rewrite app_assoc_s. apply lines_lf; [apply HL; by vm_compute|].
    apply lines_lf; [apply HL; by vm_compute|]. apply (lines_lf ""); [apply HL; by vm_compute|].
    apply lines_last; [apply HL; by vm_compute|done].
  - apply (bool_decide_unpack (NoDup (parse_source sample).*1)); by vm_compute.
  - by vm_compute.
  - right. exists "", " ", " ", "", "sAdd", ".". split; [done|]. split; [done|]. split; [constructor|].
    assert (blank " ") by (apply blank_cons; split; [done|apply blank_nil]). do 3 (split; [done||constructor|]). split; [|by left].
    split; [done|]. split.
    + intros c r [= <- _] [H' _]%blank_cons. done.
    + intros c r E. change "sAdd" with ("sAd" +:+ "d") in E. apply last_inj in E as [_ <-]. intros [H' _]%blank_cons. done.
  - left. split; [constructor|done].
Qed.
