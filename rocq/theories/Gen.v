(** Model of cmd/gen_redis_cmd/main.go: the program that makes the command table ([*.cmd.go]) from the sources in redis/.

    Simplifications: bytes above 127 are ordinary bytes, so [.] in the pattern matches one byte and the white space of
    strings.TrimSpace is the ASCII one (the sources it is used on contain no such byte next to a declaration);
    creating a file always succeeds; logging is not modelled. *)
From Verif Require Import GoBase.

(** ** Strings *)
Fixpoint strip_prefix (p s : string) : option string :=
  match p, s with
  | EmptyString, _ => Some s
  | String a p', String b s' => if Ascii.eqb a b then strip_prefix p' s' else None
  | String _ _, EmptyString => None
  end.
Fixpoint srev (s acc : string) : string := match s with EmptyString => acc | String c r => srev r (String c acc) end.
(** strings.HasSuffix, strings.TrimSuffix, strings.TrimPrefix *)
Definition strip_suffix (p s : string) : option string :=
  match strip_prefix (srev p "") (srev s "") with Some r => Some (srev r "") | None => None end.
Definition has_suffix (p s : string) : bool := match strip_suffix p s with Some _ => true | None => false end.
Definition trim_suffix (p s : string) : string := match strip_suffix p s with Some r => r | None => s end.
Definition trim_prefix (p s : string) : string := match strip_prefix p s with Some r => r | None => s end.
(** strings.TrimSpace *)
Definition is_space (c : ascii) : bool := let n := N_of_ascii c in ((9 <=? n) && (n <=? 13) || (n =? 32))%N.
Fixpoint trim_left (s : string) : string := match s with String c r => if is_space c then trim_left r else s | EmptyString => s end.
Definition trim_space (s : string) : string := srev (trim_left (srev (trim_left s) "")) "".
(** strings.Replace(s, old, new, 1) with a non-empty [old] *)
Fixpoint replace1 (old new s : string) : string :=
  match strip_prefix old s with
  | Some r => new +:+ r
  | None => match s with String c r => String c (replace1 old new r) | EmptyString => EmptyString end
  end.

(** ** main.go:116-143, the pattern
    [func\s+([A-Za-z]+)\(c \*Command\)\s+\(\*protocol.Response,\s+error\)] and regexCmdFuncStr *)
(** [\s] *)
Definition re_space (c : ascii) : bool := is_byte c 9 || is_byte c 10 || is_byte c 12 || is_byte c 13 || is_byte c 32.
Definition re_letter (c : ascii) : bool := let n := N_of_ascii c in ((65 <=? n) && (n <=? 90) || (97 <=? n) && (n <=? 122))%N.
(** [p+] up to the first byte that does not fit; what follows in the pattern never begins with one that does *)
Fixpoint span (p : ascii → bool) (s : string) : string * string :=
  match s with
  | String c r => if p c then let '(a, b) := span p r in (String c a, b) else (EmptyString, s)
  | EmptyString => (EmptyString, EmptyString)
  end.
Definition span1 (p : ascii → bool) (s : string) : option (string * string) :=
  let '(a, b) := span p s in match a with EmptyString => None | _ => Some (a, b) end.
Definition re_any (s : string) : option string :=
  match s with String c r => if is_byte c 10 then None else Some r | EmptyString => None end.
Definition match_here (s : string) : option string :=
  s1 ← strip_prefix "func" s; '(_, s2) ← span1 re_space s1; '(f, s3) ← span1 re_letter s2;
  s4 ← strip_prefix "(c *Command)" s3; '(_, s5) ← span1 re_space s4; s6 ← strip_prefix ("(" +:+ "*protocol") s5;
  s7 ← re_any s6; s8 ← strip_prefix "Response," s7; '(_, s9) ← span1 re_space s8; _ ← strip_prefix "error)" s9; Some f.
(** FindStringSubmatch: the leftmost match *)
Fixpoint cmd_func (s : string) : option string :=
  match match_here s with
  | Some f => Some f
  | None => match s with String _ r => cmd_func r | EmptyString => None end
  end.

(** ** main.go:39-86 readAndParseFile *)
(** bufio.Scanner with ScanLines: the pieces between the line feeds, the last one only if it is not empty; one carriage
    return at the end of a line is dropped; a line that does not fit into the buffer of 64 KiB ends the scan (the error
    is not looked at). *)
Fixpoint pieces (s : string) : list string :=
  match s with
  | EmptyString => [EmptyString]
  | String c r => if Ascii.eqb c LF then EmptyString :: pieces r
                  else match pieces r with l :: ls => String c l :: ls | [] => [] end
  end.
Fixpoint drop_last_empty (l : list string) : list string :=
  match l with [] => [] | [EmptyString] => [] | x :: r => x :: drop_last_empty r end.
Definition max_line : Z := 65535.
Fixpoint fitting (l : list string) : list string :=
  match l with [] => [] | x :: r => if slen x <=? max_line then x :: fitting r else [] end.
Definition drop_cr (s : string) : string := trim_suffix (String CR EmptyString) s.
Definition scan_lines (s : string) : list string := drop_cr <$> fitting (drop_last_empty (pieces s)).

Definition cmd_name (last f : string) : string :=
  match last with
  | EmptyString => to_lower f
  | _ => to_lower (trim_space (trim_prefix "//" (trim_suffix "." last)))
  end.
Fixpoint parse_lines (last : string) (ls : list string) : list (string * string) :=
  match ls with
  | [] => []
  | l :: r => match cmd_func l with
              | Some f => (cmd_name last f, f) :: parse_lines (trim_space l) r
              | None => parse_lines (trim_space l) r
              end
  end.
Definition parse_source (src : string) : list (string * string) := parse_lines EmptyString (scan_lines src).

(** ** main.go:88-114 writeFile *)
Definition header : string :=
"// Code generated by gen_redis_cmd. DO NOT EDIT.

package redis

func init() {".
Definition tab : string := String (chr 9) EmptyString.
Definition newline : string := String LF EmptyString.
Definition dq : string := String (chr 34) EmptyString.
Fixpoint render_entries (kvs : list (string * string)) : string :=
  match kvs with
  | [] => EmptyString
  | (n, f) :: r => newline +:+ tab +:+ "implementedCommands[" +:+ dq +:+ n +:+ dq +:+ "] = " +:+ f +:+ render_entries r
  end.
Definition render (kvs : list (string * string)) : string := header +:+ render_entries kvs +:+ newline +:+ "}" +:+ newline.

(** main.go:12-29 main, on a file system *)
Notation files := (gmap string string).
Definition out_path (p : string) : string := replace1 ".go" ".cmd.go" p.
Definition generate (args : list string) (fs : files) : outcome files :=
  match args with
  | [p] =>
      let* kvs := (if negb (has_suffix ".go" p) then Ret []
                   else if has_suffix ".cmd.go" p then Ret []
                   else match fs !! p with None => Panic | Some src => Ret (parse_source src) end) in
      Ret (<[out_path p := render kvs]> fs)
  | _ => Panic
  end.

(** The init functions of the generated files, run one after the other: assignments to the map implementedCommands. *)
Notation table := (gmap string string).
Definition init_table (kvs : list (string * string)) (t : table) : table := foldl (λ t kv, <[fst kv := snd kv]> t) t kvs.
