(** The program of experimental/bpepp.py from its command line to the files it leaves.  Its parser has
    sub-parsers, and positional arguments with nargs='?' and nargs='+'; what argparse does with these is added here to
    ArgModel.v (ArgumentParser of Python 3.11; names of its methods are given). *)
From Coq Require Import Strings.String.
From Verif Require Import Py PyStr CodecModel BpeppModel ArgModel CmdModel.
Local Open Scope list_scope.
Local Open Scope res_scope.

(** bpepp.py:773, cmd_choices. *)
Inductive pp_sub : Set := SLearn1 | SLearn2 | SLearn | SEncode | SDecode.
Definition pp_subs : list (str * pp_sub) :=
  [(lit "learn1", SLearn1); (lit "learn2", SLearn2); (lit "learn", SLearn); (lit "encode", SEncode); (lit "decode", SDecode)].

(** bpepp.py:799-823, add_iov. *)
Definition pp_vocab_opt : opt := MkOpt [lit "-vf"; lit "--vocab-file"; lit "--vocab"] (lit "vocab") (KOne CText None) true VNone None.
Definition pp_inp_opt : opt := MkOpt [] (lit "inp") (KOne CRead None) false VStdin None.
Definition pp_inps_opt : opt := MkOpt [] (lit "inp") (KMany CText) true VNone None.
Definition pp_out_opt : opt := one "-o" "--out" "out" CWrite false VStdout.
Definition pp_pieces_opt : opt := flag ["-p"; "--pieces"]%string "pieces" true (VBool false) None.
(** bpepp.py:825-848, add_learn_args. *)
Definition pp_mce1_opt : opt := one "-mce1" "--min-co-evidence-l1" "min_co_evidence_l1" CInt false (VInt 5).
Definition pp_vs1_opt : opt := one "-vs1" "--vocab-size-l1" "vocab_size_l1" CInt true VNone.
Definition pp_cmf_opt : opt := one "-cmf" "--char-min-freq" "char_min_freq" CInt false (VInt 20).
Definition pp_wmf_opt : opt := one "-wmf" "--word-min-freq" "word_min_freq" CInt false (VInt 1).
Definition pp_mce2_opt : opt := one "-mce2" "--min-co-evidence-l2" "min_co_evidence_l2" CInt false (VInt 5).
Definition pp_vs2_opt : opt := one "-vs2" "--vocab-size-l2" "vocab_size_l2" CInt true VNone.
Definition pp_vf1_opt : opt := MkOpt [lit "-vf1"; lit "--vocab-file-l1"; lit "--vocab-l1"] (lit "vocab_l1") (KOne CText None) true VNone None.
Definition pp_prepared_opt : opt := flag ["--prepared"]%string "prepared" true (VBool false) None.

(** The positional argument of a sub-parser, and its options in the order of their declaration (787-797). *)
Definition pp_pos (c : pp_sub) : opt := match c with SEncode | SDecode => pp_inp_opt | _ => pp_inps_opt end.
Definition pp_parser (c : pp_sub) : list opt :=
  help_opt :: pp_vocab_opt :: pp_pos c ::
  match c with
  | SEncode => [pp_out_opt; pp_pieces_opt]
  | SDecode => [pp_out_opt]
  | SLearn1 => [pp_mce1_opt; pp_vs1_opt; pp_cmf_opt; pp_wmf_opt]
  | SLearn => [pp_mce1_opt; pp_vs1_opt; pp_cmf_opt; pp_wmf_opt; pp_mce2_opt; pp_vs2_opt]
  | SLearn2 => [pp_mce2_opt; pp_vs2_opt; pp_vf1_opt; pp_prepared_opt]
  end.
(** bpepp.py:779: the options of the parser itself. *)
Definition pp_main_parser : list opt := [help_opt; version_opt].

(** _match_arguments_partial for one positional argument: for nargs='+' any '--', an argument, then arguments
    and '--' as far as they go; for nargs='?' any '--', an argument if there is one, any '--'. *)
Fixpoint span_any (ts : list tok) : list str * list tok :=
  match ts with
  | TArg s :: ts' | TDash s :: ts' => let (a, r) := span_any ts' in (s :: a, r)
  | _ => ([], ts)
  end.
Definition match_pos (o : opt) (ts : list tok) : option (list str * list tok) :=
  let (a, ts1) := span_dash ts in
  match a_kind o, ts1 with
  | KMany _, TArg s :: ts2 => let (b, ts3) := span_any ts2 in Some (a ++ s :: b, ts3)
  | KMany _, _ => None
  | _, TArg s :: ts2 => let (b, ts3) := span_dash ts2 in Some (a ++ s :: b, ts3)
  | _, _ => Some (a, ts1)
  end.

(** take_action for a positional argument.  With nargs='?' and no word the default is stored, which is what the
    namespace holds already; the argument is not required. *)
Definition take_pos_action (E : env) (o : opt) (args : list str) (st : pstate) : step pstate :=
  match a_kind o, remove_dashes args with
  | KOne _ _, [] => Go st
  | _, _ => take_action E o args st
  end.

(** consume_positionals when there is one positional argument, or none left. *)
Definition take_pos (E : env) (pos : option opt) (ts : list tok) (st : pstate) : step (pstate * option opt * list tok) :=
  match pos with
  | None => Go (st, None, ts)
  | Some o =>
      match match_pos o ts with
      | None => Go (st, pos, ts)
      | Some (args, ts') =>
          match take_pos_action E o args st with
          | Quit c fs => Quit c fs
          | Go st' => Go (st', None, ts')
          end
      end
  end.

(** The while loop of _parse_known_args, as ArgModel.read_words. *)
Fixpoint read_sub (fuel : nat) (P : list opt) (E : env) (pos : option opt) (ts : list tok) (st : pstate) : option (step pstate) :=
  match fuel with
  | O => None
  | S fuel' =>
      if existsb is_option ts then
        match ts with
        | TOpt o name eq attached raw :: ts' =>
            match consume_optional P E o name eq attached raw ts' st with
            | Quit c fs => Some (Quit c fs)
            | Go (st', ts'') => read_sub fuel' P E pos ts'' st'
            end
        | _ =>
            match take_pos E pos ts st with
            | Quit c fs => Some (Quit c fs)
            | Go (st', pos', ts') =>
                if Nat.ltb (List.length ts') (List.length ts) then read_sub fuel' P E pos' ts' st'
                else let (words, ts'') := span_words ts in
                     read_sub fuel' P E pos' ts'' (MkPstate (p_ns st') (p_seen st') (p_files st') (p_extras st' ++ words))
            end
        end
      else
        match take_pos E pos ts st with
        | Quit c fs => Some (Quit c fs)
        | Go (st', _, ts') =>
            Some (Go (MkPstate (p_ns st') (p_seen st') (p_files st') (p_extras st' ++ map raw_of ts')))
        end
  end.

(** parse_known_args of the sub-parser, called by _SubParsersAction.  Words it leaves are an error of the main parser. *)
Definition parse_sub (P : list opt) (pos : opt) (E : env) (fs : ArgModel.files) (argv : list str) : option parsed :=
  match classify P argv with
  | None => Some (Exited 2 fs)
  | Some ts =>
      match read_sub (S (List.length ts)) P E (Some pos) ts (MkPstate (defaults P []) [] fs []) with
      | None => None
      | Some (Quit c fs') => Some (Exited c fs')
      | Some (Go st) =>
          if existsb (fun o => a_required o && negb (existsb (same_opt o) (p_seen st))) P then Some (Exited 2 (p_files st))
          else match p_extras st with
               | [] => Some (Parsed (p_ns st) (p_files st))
               | _ => Some (Exited 2 (p_files st))
               end
      end
  end.

(** The same loop for the main parser, whose positional argument is the command with everything after it
    (nargs=PARSER).  [unknown]: an option nobody knows was seen, which is an error in the end.  A '--' in
    front of the command is taken for the command, and is none.  The options here all quit, so that an option either
    quits or is unknown. *)
Fixpoint parse_main (E : env) (fs : ArgModel.files) (unknown : bool) (ts : list tok) : option (pp_sub * parsed) + Z :=
  match ts with
  | TOpt o name eq attached raw :: ts' =>
      match consume_optional pp_main_parser E o name eq attached raw ts' (MkPstate [] [] fs []) with
      | Quit c _ => inr c
      | Go _ => parse_main E fs true ts'
      end
  | TArg s :: ts' =>
      match dget str_eqb s pp_subs with
      | None => inr 2%Z
      | Some c =>
          match parse_sub (pp_parser c) (pp_pos c) E fs (map raw_of ts') with
          | None => inl None
          | Some (Exited z fs') => inl (Some (c, Exited z fs'))
          | Some (Parsed ns fs') => inl (Some (c, if unknown then Exited 2 fs' else Parsed ns fs'))
          end
      end
  | _ => inr 2%Z
  end.

(** bpepp.py:852, ArgParser().parse_args(). *)
Definition pp_parse (E : env) (fs : ArgModel.files) (argv : list str) : option (pp_sub * parsed) + Z :=
  match classify pp_main_parser argv with
  | None => inr 2%Z
  | Some ts => parse_main E fs false ts
  end.

(** How text files are decoded and encoded (the locale), and what the learner takes from outside: the orders of its
    sets and the times written into the files of the two levels. *)
Record pp_world : Type := MkWorld {
  w_env : env;
  w_text : list N -> str;
  w_bytes : str -> list N;
  w_orders1 : nat -> list nat -> list nat;
  w_orders2 : nat -> list nat -> list nat;
  w_now1 : str;
  w_now2 : str }.

(** 365-374, 376-386: the texts of the input files as far as they are there, and whether one is not, which raises
    FileNotFoundError when the reading gets there. *)
Fixpoint pp_texts (W : pp_world) (fs : ArgModel.files) (inps : list value) : list str * bool :=
  match inps with
  | [] => ([], false)
  | VText p :: inps' =>
      match dget str_eqb p fs with
      | Some b => let (ts, missing) := pp_texts W fs inps' in (w_text W b :: ts, missing)
      | None => ([], true)
      end
  | _ => ([], true)
  end.

(** 732-744 with input that breaks off, as BpeppModel.pp_learn2: the sequences are read by BPELearn (738-741). *)
Definition pp_learn2_cut (W : pp_world) (args : pp_args) (l1 : option (list N)) (texts : list str) : res (list Typ) :=
  match l1 with
  | None => Raise AssertionError
  | Some l1 =>
      let* vocab := pp_read_vocab l1 in
      let* seqs :=
        if prepared args then
          Ok (map (fun l => let* s := pp_read_seq l in Ok (s, 1%Z)) (pp_read_lines texts))
        else
          let* root := pp_codec vocab in
          Ok (map (fun l => let* s := pp_encode root l in Ok (s, 1%Z)) (pp_read_lines texts)) in
      pp_learn_codes Replace (w_orders2 W) (seqs ++ [Raise FileNotFound]) vocab (vocab_size_l2 args) (min_co_l2 args) 2
  end.
(** The exception that ends the command then: for level 1 the assertions 724 and 726 come before the reading (508).
    OtherError is never the result (PpCmdChain.v, cut_raises). *)
Definition pp_cut (W : pp_world) (cmd : pp_cmd) (texts : list str) (vocab : str) (l1 : option str) (args : pp_args) (fs : ArgModel.files) : exn :=
  match cmd with
  | Learn2 =>
      match pp_learn2_cut W args (dget str_eqb (match l1 with Some p => p | None => vocab end) fs) texts with
      | Raise e => e
      | Ok _ => OtherError
      end
  | _ =>
      if prepared args then AssertionError
      else if (vocab_size_l1 args >? 0)%Z || (vocab_size_l1 args =? -1)%Z then FileNotFound
      else AssertionError
  end.

(** 723-730 or 732-748 with the input files as they are. *)
Definition pp_stage (W : pp_world) (cmd : pp_cmd) (inps : list value) (vocab : str) (l1 : option str) (args : pp_args)
    (fs : ArgModel.files) : ArgModel.files * option exn :=
  match pp_texts W fs inps with
  | (texts, true) => (fs, Some (pp_cut W cmd texts vocab l1 args fs))
  | (texts, false) => pp_learn (w_orders1 W) (w_orders2 W) (w_now1 W) (w_now2 W) cmd texts vocab l1 args fs
  end.

(** 716-748: the command learn reads its input again for the second level. *)
Definition pp_stages (W : pp_world) (c : pp_sub) (inps : list value) (vocab : str) (l1 : option str) (args : pp_args)
    (fs : ArgModel.files) : ArgModel.files * option exn :=
  match c with
  | SLearn1 => pp_stage W Learn1 inps vocab l1 args fs
  | SLearn2 => pp_stage W Learn2 inps vocab l1 args fs
  | _ => match pp_stage W Learn1 inps vocab l1 args fs with
         | (fs', Some e) => (fs', Some e)
         | (fs', None) => pp_stage W Learn2 inps vocab l1 args fs'
         end
  end.

(** An integer of the namespace, or the default of learn_codes (716-721) when the sub-parser has no such option. *)
Definition int_or (ns : list (str * value)) (d : string) (z : Z) : Z :=
  match get ns d with Some (VInt x) => x | _ => z end.

Definition pp_learn_args (ns : list (str * value)) : pp_args :=
  MkArgs (int_or ns "char_min_freq" 20) (int_or ns "word_min_freq" 1) (int_or ns "vocab_size_l1" 0) (int_or ns "min_co_evidence_l1" 5)
         (int_or ns "vocab_size_l2" 0) (int_or ns "min_co_evidence_l2" 5)
         (match get ns "prepared" with Some (VBool b) => b | _ => false end).

(** Where encode and decode write (766-767), and how it ends. *)
Definition pp_output (W : pp_world) (fs : ArgModel.files) (out : value) (r : str * option exn) : ending :=
  let status := match snd r with None => 0%Z | Some _ => 1%Z end in
  match out with
  | VOut p => MkEnding status (match fst r with [] => fs | t => dset str_eqb p (w_bytes W t) fs end) [] None (snd r)
  | _ => MkEnding status fs (fst r) None (snd r)
  end.

Definition pp_input (W : pp_world) (fs : ArgModel.files) (stdin : str) (v : value) : str :=
  match v with
  | VIn p => match dget str_eqb p fs with Some b => w_text W b | None => [] end
  | _ => stdin
  end.

(** bpepp.py:751-767, run, on the namespace.  None if a value is of another kind (never: PpCmdEnd.v). *)
Definition pp_run (W : pp_world) (c : pp_sub) (fs : ArgModel.files) (stdin : str) (ns : list (str * value)) : option ending :=
  match get ns "vocab", get ns "inp" with
  | Some (VText vocab), Some inp =>
      match c with
      | SEncode | SDecode =>
          match get ns "out" with
          | None => None
          | Some out =>
              Some (pp_output W fs out
                (match dget str_eqb vocab fs with
                 | None => ([], Some FileNotFound)
                 | Some model =>
                     match c with
                     | SEncode => pp_cli_encode model (match get ns "pieces" with Some (VBool b) => b | _ => false end) (pp_input W fs stdin inp)
                     | _ => pp_cli_decode model (pp_input W fs stdin inp)
                     end
                 end))
          end
      | _ =>
          match inp with
          | VMany inps =>
              let (fs', e) := pp_stages W c inps vocab (match get ns "vocab_l1" with Some (VText p) => Some p | _ => None end) (pp_learn_args ns) fs in
              Some (MkEnding (match e with None => 0 | Some _ => 1 end)%Z fs' [] None e)
          | _ => None
          end
      end
  | _, _ => None
  end.

(** bpepp.py:851-853, main. *)
Definition pp_program (W : pp_world) (fs : ArgModel.files) (stdin : str) (argv : list str) : option ending :=
  match pp_parse (w_env W) fs argv with
  | inr z => Some (MkEnding z fs [] None None)
  | inl None => None
  | inl (Some (_, Exited z fs')) => Some (MkEnding z fs' [] None None)
  | inl (Some (c, Parsed ns fs')) => pp_run W c fs' stdin ns
  end.
