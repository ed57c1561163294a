(** Command lines: what argparse makes of the words after the name of a program, for the parsers declared in
    nlcodec/__main__.py, learn.py, term_freq.py, bitextdb.py, qestim.py and nlcodec/eval.  argparse itself is
    Python's; the definitions here follow the code of ArgumentParser in Python 3.11 (names of its methods are
    given), for the kinds of options the declarations in /repo use. *)
From Coq Require Import Strings.String.
From Verif Require Import Py PyStr.
Local Open Scope list_scope.

(** The [type=] of a declaration (e.g. __main__.py:41-73): int, float, Path or str (CText, both keep the word),
    FileType('r'), FileType('w'). *)
Inductive ctype : Type := CInt | CFloat | CText | CRead | CWrite.

(** The [action=] and [nargs=] of a declaration: one word, one or more words (nargs='+', learn.py:30), a flag
    that stores a truth value (__main__.py:43), and the actions that print and leave (-h, -v). *)
Inductive akind : Type := KOne (c : ctype) (choices : option (list str)) | KMany (c : ctype) | KFlag (b : bool) | KQuit.

(** What ends up in the namespace.  A float keeps the word it was written as; an opened file is the path. *)
Inductive value : Type :=
| VNone | VBool (b : bool) | VInt (z : Z) | VNum (s : str) | VText (s : str)
| VIn (s : str) | VOut (s : str) | VStdin | VStdout | VMany (l : list value).

(** One call of add_argument.  No names: a positional argument.  [a_group] is the mutually exclusive group
    (utils.py:143-147). *)
Record opt : Type := MkOpt {
  a_names : list str;
  a_dest : str;
  a_kind : akind;
  a_required : bool;
  a_default : value;
  a_group : option nat }.

(** Files by path.  Simplification: a path is its spelling; two spellings of one file are not modelled. *)
Definition files : Type := list (str * list N).

(** What depends on the system: which words float() takes and which paths can be opened for writing. *)
Record env : Type := MkEnv { e_float : str -> bool; e_writable : str -> bool }.

(** How parsing ends: a namespace, or SystemExit (2 for an error, 0 after -h and -v), and the files as the
    FileType arguments seen until then left them. *)
Inductive parsed : Type := Parsed (ns : list (str * value)) (fs : files) | Exited (code : Z) (fs : files).

(** A word as _parse_known_args sees it: 'A' an argument, '-' the word '--', 'O' an option: the action if
    there is one, the option string found, the separator ('=' or nothing) and the attached argument. *)
Inductive tok : Type :=
| TArg (s : str)
| TDash (s : str)
| TOpt (o : option opt) (name : str) (eq : bool) (attached : option str) (raw : str).

Definition DASH : N := 45.

(** ArgumentParser._option_string_actions: the option strings in the order of declaration. *)
Definition option_strings (P : list opt) : list (str * opt) :=
  flat_map (fun o => map (fun n => (n, o)) (a_names o)) P.

Definition find_opt (P : list opt) (s : str) : option opt := dget str_eqb s (option_strings P).

(** s.partition('=') when there is a '='. *)
Fixpoint partition_eq (s : str) : option (str * str) :=
  match s with
  | [] => None
  | c :: s' =>
      if N.eqb c 61 then Some ([], s')
      else match partition_eq s' with Some (a, b) => Some (c :: a, b) | None => None end
  end.

(** _negative_number_matcher, '^-\d+$|^-\d*\.\d+$'.  Simplification: ASCII digits, and no line break at the
    end, which '$' would allow. *)
Fixpoint all_digits (s : str) : bool := match s with [] => true | c :: s' => is_digit c && all_digits s' end.
Fixpoint dot_digits (s : str) : bool :=
  match s with
  | [] => false
  | c :: s' => if N.eqb c 46 then match s' with [] => false | _ => all_digits s' end else is_digit c && dot_digits s'
  end.
Definition negative_like (s : str) : bool :=
  match s with
  | c :: s' => N.eqb c DASH && ((match s' with [] => false | _ => all_digits s' end) || dot_digits s')
  | [] => false
  end.

(** _get_option_tuples: the options a word can abbreviate.  Two dashes: those beginning with the part before
    '='; one dash: the one-letter option with the rest attached, and those beginning with the word. *)
Definition option_tuples (P : list opt) (s : str) : list (opt * str * bool * option str) :=
  match s with
  | _ :: c :: rest =>
      if N.eqb c DASH then
        let '(prefix, eq, attached) :=
          match partition_eq s with Some (a, b) => (a, true, Some b) | None => (s, false, None) end in
        flat_map (fun no : str * opt => if startswith prefix (fst no) then [(snd no, fst no, eq, attached)] else [])
                 (option_strings P)
      else
        flat_map (fun no : str * opt =>
                    if str_eqb (fst no) [DASH; c] then [(snd no, fst no, false, Some rest)]
                    else if startswith s (fst no) then [(snd no, fst no, false, None)] else [])
                 (option_strings P)
  | _ => []
  end.

(** _parse_optional; None for the error 'ambiguous option'.  None of the parsers has an option that looks
    like a negative number. *)
Definition parse_optional (P : list opt) (s : str) : option tok :=
  match s with
  | [] => Some (TArg s)
  | c :: rest =>
      if negb (N.eqb c DASH) then Some (TArg s)
      else match find_opt P s with
           | Some o => Some (TOpt (Some o) s false None s)
           | None =>
               match rest with
               | [] => Some (TArg s)
               | _ =>
                   match (match partition_eq s with
                          | Some (n, e) => match find_opt P n with Some o => Some (TOpt (Some o) n true (Some e) s) | None => None end
                          | None => None
                          end) with
                   | Some t => Some t
                   | None =>
                       match option_tuples P s with
                       | _ :: _ :: _ => None
                       | [(o, n, eq, e)] => Some (TOpt (Some o) n eq e s)
                       | [] =>
                           if negative_like s then Some (TArg s)
                           else if existsb (N.eqb SPACE) s then Some (TArg s)
                           else Some (TOpt None s false None s)
                       end
                   end
               end
           end
  end.

(** The first loop of _parse_known_args: every word after '--' is an argument. *)
Fixpoint classify (P : list opt) (argv : list str) : option (list tok) :=
  match argv with
  | [] => Some []
  | s :: argv' =>
      if str_eqb s [DASH; DASH] then Some (TDash s :: map TArg argv')
      else match parse_optional P s with
           | None => None
           | Some t => match classify P argv' with Some ts => Some (t :: ts) | None => None end
           end
  end.

(** argparse.FileType: '-' is standard input or output; a file opened for writing is emptied. *)
Definition convert (E : env) (c : ctype) (s : str) (fs : files) : option (value * files) :=
  match c with
  | CInt => match int_of_str s with Ok z => Some (VInt z, fs) | Raise _ => None end
  | CFloat => if e_float E s then Some (VNum s, fs) else None
  | CText => Some (VText s, fs)
  | CRead => if str_eqb s [DASH] then Some (VStdin, fs)
             else match dget str_eqb s fs with Some _ => Some (VIn s, fs) | None => None end
  | CWrite => if str_eqb s [DASH] then Some (VStdout, fs)
              else if e_writable E s then Some (VOut s, dset str_eqb s [] fs) else None
  end.

Fixpoint convert_all (E : env) (c : ctype) (l : list str) (fs : files) : option (list value) * files :=
  match l with
  | [] => (Some [], fs)
  | s :: l' =>
      match convert E c s fs with
      | None => (None, fs)
      | Some (v, fs1) => let (r, fs2) := convert_all E c l' fs1 in (match r with Some vs => Some (v :: vs) | None => None end, fs2)
      end
  end.

(** Where parsing stands: the namespace, the actions taken (by dest and names), the files, the words nobody
    wants. *)
Record pstate : Type := MkPstate { p_ns : list (str * value); p_seen : list opt; p_files : files; p_extras : list str }.

Inductive step (X : Type) : Type := Go (x : X) | Quit (code : Z) (fs : files).
Arguments Go {X}. Arguments Quit {X}.

(** Two declarations are the same action when they have the same names and dest; no parser declares one
    twice. *)
Fixpoint strs_eqb (a b : list str) : bool :=
  match a, b with
  | [], [] => true
  | x :: a', y :: b' => str_eqb x y && strs_eqb a' b'
  | _, _ => false
  end.
Definition same_opt (a b : opt) : bool := strs_eqb (a_names a) (a_names b) && str_eqb (a_dest a) (a_dest b).

(** The conflicts of take_action: another action of the same mutually exclusive group was seen.  The groups
    here hold flags only, whose value is never the default object. *)
Definition conflicts (o : opt) (seen : list opt) : bool :=
  match a_group o with
  | None => false
  | Some g => existsb (fun p => match a_group p with Some g' => Nat.eqb g g' | None => false end && negb (same_opt p o)) seen
  end.

(** take_action with _get_values, _get_value, _check_value.  A positional argument loses its first '--'. *)
Definition remove_dashes (l : list str) : list str :=
  (fix go (l : list str) := match l with [] => [] | s :: l' => if str_eqb s [DASH; DASH] then l' else s :: go l' end) l.

Definition take_action (E : env) (o : opt) (args : list str) (st : pstate) : step pstate :=
  let args := match a_names o with [] => remove_dashes args | _ => args end in
  let seen := o :: p_seen st in
  match a_kind o with
  | KQuit => Quit 0 (p_files st)
  | KFlag b =>
      if conflicts o (p_seen st) then Quit 2 (p_files st)
      else Go (MkPstate (dset str_eqb (a_dest o) (VBool b) (p_ns st)) seen (p_files st) (p_extras st))
  | KOne c choices =>
      match args with
      | [s] =>
          match convert E c s (p_files st) with
          | None => Quit 2 (p_files st)
          | Some (v, fs) =>
              if match choices with None => true | Some l => existsb (str_eqb s) l end
              then Go (MkPstate (dset str_eqb (a_dest o) v (p_ns st)) seen fs (p_extras st))
              else Quit 2 fs
          end
      | _ =>
          match convert_all E c args (p_files st) with
          | (None, fs) => Quit 2 fs
          | (Some vs, fs) => Go (MkPstate (dset str_eqb (a_dest o) (VMany vs) (p_ns st)) seen fs (p_extras st))
          end
      end
  | KMany c =>
      match convert_all E c args (p_files st) with
      | (None, fs) => Quit 2 fs
      | (Some vs, fs) => Go (MkPstate (dset str_eqb (a_dest o) (VMany vs) (p_ns st)) seen fs (p_extras st))
      end
  end.

Fixpoint take_all (E : env) (l : list (opt * list str)) (st : pstate) : step pstate :=
  match l with
  | [] => Go st
  | (o, args) :: l' => match take_action E o args st with Go st' => take_all E l' st' | Quit c fs => Quit c fs end
  end.

(** _match_argument for an option: nothing, one argument, or as many as follow. *)
Fixpoint span_args (ts : list tok) : list str * list tok :=
  match ts with
  | TArg s :: ts' => let (a, r) := span_args ts' in (s :: a, r)
  | _ => ([], ts)
  end.
Definition match_argument (k : akind) (ts : list tok) : option (list str * list tok) :=
  match k with
  | KFlag _ | KQuit => Some ([], ts)
  | KOne _ _ => match ts with TArg s :: ts' => Some ([s], ts') | _ => None end
  | KMany _ => match span_args ts with ([], _) => None | r => Some r end
  end.
Definition takes_argument (k : akind) : bool := match k with KFlag _ | KQuit => false | _ => true end.

(** The loop of consume_optional while an argument is attached: letters of flags joined behind one dash.
    The actions to take, the words left over and the words still to read; None for an error. *)
Fixpoint attached_loop (P : list opt) (o : opt) (name : str) (eq : bool) (e : str) (ts : list tok)
    (acts : list (opt * list str)) : option (list (opt * list str) * list str * list tok) :=
  if takes_argument (a_kind o) then Some (acts ++ [(o, [e])], [], ts)
  else
    match e with
    | [] => None
    | c :: e' =>
        if match name with _ :: d :: _ => N.eqb d DASH | _ => true end then None
        else if eq || N.eqb c DASH then None
        else
          let acts := acts ++ [(o, [])] in
          match find_opt P [DASH; c] with
          | None => Some (acts, [DASH :: e], ts)
          | Some o' =>
              match e' with
              | [] => match match_argument (a_kind o') ts with
                      | None => None
                      | Some (args, ts') => Some (acts ++ [(o', args)], [], ts')
                      end
              | d :: e'' => if N.eqb d 61 then attached_loop P o' [DASH; c] true e'' ts acts
                            else attached_loop P o' [DASH; c] false e' ts acts
              end
          end
    end.

(** consume_optional. *)
Definition consume_optional (P : list opt) (E : env) (o : option opt) (name : str) (eq : bool) (attached : option str)
    (raw : str) (ts : list tok) (st : pstate) : step (pstate * list tok) :=
  match o with
  | None => Go (MkPstate (p_ns st) (p_seen st) (p_files st) (p_extras st ++ [raw]), ts)
  | Some o =>
      match (match attached with
             | None => match match_argument (a_kind o) ts with
                       | None => None
                       | Some (args, ts') => Some ([(o, args)], [], ts')
                       end
             | Some e => attached_loop P o name eq e ts []
             end) with
      | None => Quit 2 (p_files st)
      | Some (acts, extra, ts') =>
          let st := MkPstate (p_ns st) (p_seen st) (p_files st) (p_extras st ++ extra) in
          match take_all E acts st with
          | Quit c fs => Quit c fs
          | Go st' => Go (st', ts')
          end
      end
  end.

(** consume_positionals: every positional argument takes one word, with the '--' around it. *)
Fixpoint span_dash (ts : list tok) : list str * list tok :=
  match ts with
  | TDash s :: ts' => let (a, r) := span_dash ts' in (s :: a, r)
  | _ => ([], ts)
  end.
Definition match_positional (ts : list tok) : option (list str * list tok) :=
  let (a, ts1) := span_dash ts in
  match ts1 with
  | TArg s :: ts2 => let (b, ts3) := span_dash ts2 in Some (a ++ s :: b, ts3)
  | _ => None
  end.
Fixpoint consume_positionals (E : env) (pos : list opt) (ts : list tok) (st : pstate) : step (pstate * list opt * list tok) :=
  match pos with
  | [] => Go (st, pos, ts)
  | o :: pos' =>
      match match_positional ts with
      | None => Go (st, pos, ts)
      | Some (args, ts') =>
          match take_action E o args st with
          | Quit c fs => Quit c fs
          | Go st' => consume_positionals E pos' ts' st'
          end
      end
  end.

Definition is_option (t : tok) : bool := match t with TOpt _ _ _ _ _ => true | _ => false end.
Definition raw_of (t : tok) : str := match t with TArg s => s | TDash s => s | TOpt _ _ _ _ s => s end.
Fixpoint span_words (ts : list tok) : list str * list tok :=
  match ts with
  | [] => ([], [])
  | t :: ts' => if is_option t then ([], ts) else let (a, r) := span_words ts' in (raw_of t :: a, r)
  end.

(** The while loop of _parse_known_args and the two statements after it.  Every round reads a word, so one
    round more than there are words is enough (ArgProofs.v); [fuel] is that number. *)
Fixpoint read_words (fuel : nat) (P : list opt) (E : env) (pos : list opt) (ts : list tok) (st : pstate) : option (step pstate) :=
  match fuel with
  | O => None
  | S fuel' =>
      if existsb is_option ts then
        match ts with
        | TOpt o name eq attached raw :: ts' =>
            match consume_optional P E o name eq attached raw ts' st with
            | Quit c fs => Some (Quit c fs)
            | Go (st', ts'') => read_words fuel' P E pos ts'' st'
            end
        | _ =>
            match consume_positionals E pos ts st with
            | Quit c fs => Some (Quit c fs)
            | Go (st', pos', ts') =>
                if Nat.ltb (List.length ts') (List.length ts) then read_words fuel' P E pos' ts' st'
                else let (words, ts'') := span_words ts in
                     read_words fuel' P E pos' ts'' (MkPstate (p_ns st') (p_seen st') (p_files st') (p_extras st' ++ words))
            end
        end
      else
        match consume_positionals E pos ts st with
        | Quit c fs => Some (Quit c fs)
        | Go (st', _, ts') =>
            Some (Go (MkPstate (p_ns st') (p_seen st') (p_files st') (p_extras st' ++ map raw_of ts')))
        end
  end.

(** The defaults of the namespace, set by parse_known_args: the first declaration of a dest wins.  The
    actions that quit have no dest. *)
Fixpoint defaults (P : list opt) (ns : list (str * value)) : list (str * value) :=
  match P with
  | [] => ns
  | o :: P' =>
      defaults P' (match a_kind o with
                   | KQuit => ns
                   | _ => match dget str_eqb (a_dest o) ns with Some _ => ns | None => dset str_eqb (a_dest o) (a_default o) ns end
                   end)
  end.

(** ArgumentParser.parse_args.  The string defaults of /repo ('bpe', 'x', '4g', ...) are converted by str or
    not at all, so that conversion is left out. *)
Definition parse_args (P : list opt) (E : env) (fs : files) (argv : list str) : option parsed :=
  match classify P argv with
  | None => Some (Exited 2 fs)
  | Some ts =>
      let pos := filter (fun o => match a_names o with [] => true | _ => false end) P in
      match read_words (S (List.length ts)) P E pos ts (MkPstate (defaults P []) [] fs []) with
      | None => None
      | Some (Quit c fs') => Some (Exited c fs')
      | Some (Go st) =>
          if existsb (fun o => a_required o && negb (existsb (same_opt o) (p_seen st))) P then Some (Exited 2 (p_files st))
          else match p_extras st with
               | [] => Some (Parsed (p_ns st) (p_files st))
               | _ => Some (Exited 2 (p_files st))
               end
      end
  end.

(** The declarations. *)
Definition one (short long : string) (dest : string) (c : ctype) (required : bool) (d : value) : opt :=
  MkOpt [lit short; lit long] (lit dest) (KOne c None) required d None.
Definition flag (names : list string) (dest : string) (b : bool) (d : value) (g : option nat) : opt :=
  MkOpt (map lit names) (lit dest) (KFlag b) false d g.
(** -h, --help, which argparse declares first; -v, --version (__main__.py:33). *)
Definition help_opt : opt := MkOpt [lit "-h"; lit "--help"] (lit "help") KQuit false VNone None.
Definition version_opt : opt := MkOpt [lit "-v"; lit "--version"] (lit "version") KQuit false VNone None.
(** utils.py:143-147, add_bool_arg. *)
Definition bool_args (name : string) (d : bool) (g : nat) : list opt :=
  [flag [String.append "--" name] name true (VBool d) (Some g);
   flag [String.append "--no-" name] name false (VBool d) (Some g)].

Definition TASKS : list str := map lit ["learn"; "encode"; "decode"; "estimate"]%string.
Definition LEVELS : list str := map lit ["char"; "word"; "bpe"; "class"; "byte"]%string.
(** nlcodec/__init__.py:17,20 *)
Definition DEF_CHAR_COVERAGE_TEXT : str := lit "0.9995".

(** __main__.py:29-77 *)
Definition main_parser : list opt :=
  [help_opt; version_opt;
   MkOpt [] (lit "task") (KOne CText (Some TASKS)) true VNone None;
   one "-i" "--inp" "inp" CRead false VStdin;
   flag ["-tfs"; "--term-freqs"]%string "term_freqs" true (VBool false) None;
   one "-o" "--out" "out" CWrite false VStdout;
   one "-m" "--model" "model" CText true VNone;
   flag ["-idx"; "--indices"]%string "indices" true VNone None;
   one "-vs" "--vocab-size" "vocab_size" CInt false (VInt (-1));
   MkOpt [lit "-l"; lit "--level"] (lit "level") (KOne CText (Some LEVELS)) false VNone None;
   one "-mf" "--min-freq" "min_freq" CInt false VNone;
   one "-cv" "--char-coverage" "char_coverage" CFloat false (VNum DEF_CHAR_COVERAGE_TEXT);
   one "-mce" "--min-co-ev" "min_co_ev" CInt false (VInt 95)].

(** learn.py:21-61 *)
Definition learn_parser : list opt :=
  [help_opt; version_opt;
   MkOpt [lit "-i"; lit "--inp"] (lit "inp") (KMany CText) false VNone None;
   one "-m" "--model" "model" CText true VNone;
   one "-vs" "--vocab-size" "vocab_size" CInt false (VInt (-1));
   MkOpt [lit "-l"; lit "--level"] (lit "level") (KOne CText (Some LEVELS)) false (VText (lit "bpe")) None;
   one "-mf" "--min-freq" "min_freq" CInt false VNone;
   one "-cv" "--char-coverage" "char_coverage" CFloat false (VNum DEF_CHAR_COVERAGE_TEXT);
   one "-mce" "--min-co-ev" "min_co_ev" CInt false (VInt 95);
   one "-spark" "--spark-master" "spark_master" CText false (VText (lit "local[*]"));
   one "-dm" "--driver-mem" "driver_mem" CText false (VText (lit "4g"))]
  ++ bool_args "dedup" false 0.

(** term_freq.py:92-107; the assertion after it is in FreqModel.v. *)
Definition freq_parser : list opt :=
  [help_opt; version_opt;
   MkOpt [lit "-i"; lit "--inp"] (lit "inp") (KMany CText) false VNone None;
   one "-wf" "--word_freqs" "word_freqs" CWrite false VNone;
   one "-cf" "--char_freqs" "char_freqs" CWrite false VNone;
   flag ["-dd"; "--dedup"]%string "dedup" true (VBool true) None;
   flag ["-ndd"; "--no-dedup"]%string "dedup" false (VBool false) None].

(** bitextdb.py:36-65; the assertions after it are in BitextModel.v. *)
Definition bitext_parser : list opt :=
  [help_opt; version_opt;
   one "-sm" "--src-model" "src_model" CText true VNone;
   one "-tm" "--tgt-model" "tgt_model" CText false VNone;
   one "-st" "--src-text" "src_text" CText true VNone;
   one "-tt" "--tgt-text" "tgt_text" CText true VNone;
   one "-db" "--db" "db_path" CText true VNone;
   one "-np" "--num-parts" "num_parts" CInt false (VInt 0);
   one "-sn" "--src-col" "src_col" CText false (VText (lit "x"));
   one "-tn" "--tgt-col" "tgt_col" CText false (VText (lit "y"));
   one "-sl" "--src-len" "src_len" CInt false (VInt 256);
   one "-tl" "--tgt-len" "tgt_len" CInt false (VInt 256)]
  ++ bool_args "truncate" true 0
  ++ [one "-spark" "--spark_master" "spark_master" CText false (VText (lit "local[*]"));
      one "-dm" "--driver_mem" "driver_mem" CText false (VText (lit "4g"))].

(** qestim.py:123-129; eval/bpe_len.py:203-209 declares the same. *)
Definition codec_parser : list opt :=
  [help_opt;
   one "-c" "--codec" "codec_path" CText true VNone;
   one "-d" "--data" "data" CRead false VStdin].

(** eval/oov_count.py:54-60 *)
Definition oov_parser : list opt :=
  [help_opt;
   one "-i" "--inp" "inp" CRead false VStdin;
   one "-m" "--model" "model_path" CText true VNone].

(** eval/termfreq.py:48-57 *)
Definition gram_parser : list opt :=
  [help_opt;
   one "-i" "--inp" "inp" CRead false VStdin;
   one "-o" "--out" "out" CWrite false VStdout;
   one "-m" "--model" "model_path" CText true VNone;
   one "-n" "--n" "n" CInt false (VInt 1)].

(** eval/pr_measure.py:105-125.  VNone as the default of cands, refs and out stands for the UTF-8 wrappers made
    there, which are not the objects '-' stands for. *)
Definition recall_parser : list opt :=
  [help_opt;
   one "-c" "--cands" "cands" CRead false VNone;
   one "-r" "--refs" "refs" CRead false VNone;
   one "-f" "--freqs" "freqs" CRead false VNone;
   one "-n" "--n" "n" CInt false (VInt 1);
   one "-o" "--out" "out" CWrite false VNone;
   one "-m" "--model" "model_path" CText true VNone].

(** experimental/uxdx.py:49-57 *)
Definition ux_parser : list opt :=
  [help_opt;
   one "-i" "--inp" "inp" CRead false VStdin;
   one "-o" "--out" "out" CWrite false VStdout;
   flag ["-d"; "--decode"]%string "decode" true (VBool false) None].

(** experimental/unicode_fix.py:254-262 *)
Definition fix_parser : list opt :=
  ux_parser ++ [MkOpt [lit "-l"; lit "--lang"] (lit "lang") (KOne CText (Some [lit "hin"; lit "devanagari"])) true VNone None].
