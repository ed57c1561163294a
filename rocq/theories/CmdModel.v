(** The program nlcodec (__main__.py) from its command line to the files it leaves. *)
From Coq Require Import Strings.String.
From Verif Require Import Py PyStr CodecModel VocabFileModel LearnModel EvalModel MainModel ArgModel.
Local Open Scope list_scope.

(** What the system adds: the parsing environment, how text files are decoded and encoded (the locale), and
    the number float() makes of a word (None for 0).  Simplification: bytes that do not decode and characters
    that do not encode are not modelled. *)
Record system (A : arith) : Type := MkSystem {
  y_env : env;
  y_text : list N -> str;
  y_bytes : str -> list N;
  y_num : str -> option (num A) }.
Arguments MkSystem {A}. Arguments y_env {A}. Arguments y_text {A}. Arguments y_bytes {A}. Arguments y_num {A}.

(** What is left when the program ends: its status, the files, the text on standard output, the estimation
    printed, and the exception that ended it. *)
Record ending : Type := MkEnding {
  x_status : Z;
  x_files : files;
  x_stdout : str;
  x_printed : option quality;
  x_exc : option exn }.

Definition get (ns : list (str * value)) (d : string) : option value := dget str_eqb (lit d) ns.

(** args['inp'] read to its end, after parsing is over. *)
Definition input_text {A} (Y : system A) (fs : files) (stdin : str) (v : value) : str :=
  match v with
  | VIn p => match dget str_eqb p fs with Some b => y_text Y b | None => [] end
  | _ => stdin
  end.

(** The namespace as the arguments of MainModel.main; None if a value is of another kind (never: CmdProofs.v).
    [indices] is None when not given, which counts as false. *)
Definition options_of {A} (Y : system A) (fs : files) (stdin : str) (ns : list (str * value)) : option (options A * str * value) :=
  match get ns "task", get ns "inp", get ns "term_freqs", get ns "out", get ns "model", get ns "indices" with
  | Some (VText task), Some inp, Some (VBool tfs), Some out, Some (VText model), Some idx =>
      match get ns "vocab_size", get ns "level", get ns "min_freq", get ns "char_coverage", get ns "min_co_ev" with
      | Some (VInt vs), Some level, Some mf, Some (VNum cv), Some (VInt mce) =>
          Some (MkOptions task (input_text Y fs stdin inp) tfs (match idx with VBool b => b | _ => false end) vs
                  (match level with VText l => Some l | _ => None end)
                  (match mf with VInt z => Some z | _ => None end)
                  (y_num Y cv) mce, model, out)
      | _, _, _, _, _ => None
      end
  | _, _, _, _, _, _ => None
  end.

(** __main__.py:80-111 and 114-118: parse, run the task, leave.  An uncaught exception gives status 1; what
    was written to --out before it stays written.  BrokenPipeError is not modelled. *)
Definition program (A : arith) (orders : nat -> list nat -> list nat) (version now : str) (Y : system A)
    (fs : files) (stdin : str) (argv : list str) : option ending :=
  match parse_args main_parser (y_env Y) fs argv with
  | None => None
  | Some (Exited c fs1) => Some (MkEnding c fs1 [] None None)
  | Some (Parsed ns fs1) =>
      match options_of Y fs1 stdin ns with
      | None => None
      | Some (o, model, out) =>
          let r := main A orders version now (dget str_eqb model fs1) o in
          let fs2 := if str_eqb (o_task o) (lit "learn")
                     then match r_model r with Some b => dset str_eqb model b fs1 | None => fs1 end else fs1 in
          let status := match r_exc r with None => 0%Z | Some _ => 1%Z end in
          match out with
          | VOut p => Some (MkEnding status (match r_out r with [] => fs2 | t => dset str_eqb p (y_bytes Y t) fs2 end)
                              [] (r_printed r) (r_exc r))
          | _ => Some (MkEnding status fs2 (r_out r) (r_printed r) (r_exc r))
          end
      end
  end.
