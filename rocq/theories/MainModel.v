(** python -m nlcodec (__main__.py): all four tasks over the model file. *)
From Coq Require Import Strings.String.
From Verif Require Import Py PyStr CodecModel VocabFileModel LearnModel LearnBpeModel DriverModel EvalModel CliModel.
Local Open Scope Z_scope.
Local Open Scope list_scope.

(** What parse_args (__main__.py:29-77) gives.  [o_inp] is the text of the input file, the model is the
    argument of [main] below; [o_coverage] is None for 0.  How argparse comes to these from the words
    of a command line is in ArgModel.v and CmdModel.v. *)
Record options (A : arith) : Type := MkOptions {
  o_task : str;
  o_inp : str;
  o_term_freqs : bool;
  o_indices : bool;
  o_vocab_size : Z;
  o_level : option str;
  o_min_freq : option Z;
  o_coverage : option (num A);
  o_min_co_ev : Z }.
Arguments MkOptions {A}.
Arguments o_task {A}. Arguments o_inp {A}. Arguments o_term_freqs {A}. Arguments o_indices {A}.
Arguments o_vocab_size {A}. Arguments o_level {A}. Arguments o_min_freq {A}. Arguments o_coverage {A}.
Arguments o_min_co_ev {A}.

(** What a run leaves behind: the model file, the text written to --out, the estimation printed, and the
    exception that ended the run. *)
Record run : Type := MkRun {
  r_model : option (list N);
  r_out : str;
  r_printed : option quality;
  r_exc : option exn }.

(** __main__.py:80-111, main.  [model] is the model file before the run, None when there is none.  Left out:
    the measuring of time and memory (__main__.py:86-93), and that --out is opened for every task. *)
Definition main (A : arith) (orders : nat -> list nat -> list nat) (version now : str)
    (model : option (list N)) (o : options A) : run :=
  let task := o_task o in
  if str_eqb task (lit "learn") then
    match o_level o with
    | None | Some [] => MkRun model [] None (Some AssertionError)
    | Some level =>
        let (written, r) := learn_vocab A orders version now (file_lines (o_inp o)) level true (o_vocab_size o)
                              (o_min_freq o) (o_term_freqs o) (o_coverage o) (o_min_co_ev o) in
        MkRun (match written with Some b => Some b | None => model end) [] None
              (match r with Ok _ => None | Raise e => Some e end)
    end
  else if str_eqb task (lit "encode") || str_eqb task (lit "decode") then
    match model with
    | None => MkRun model [] None (Some FileNotFound)
    | Some bytes =>
        let (out, e) := (if str_eqb task (lit "encode") then cli_encode else cli_decode) bytes (o_indices o) (o_inp o) in
        MkRun model out None e
    end
  else if str_eqb task (lit "estimate") then
    match model with
    | None => MkRun model [] None (Some FileNotFound)
    | Some bytes =>
        (* qestim.py:116-120 *)
        match load_scheme bytes with
        | Raise e => MkRun model [] None (Some e)
        | Ok s =>
            match estimate s (file_lines (o_inp o)) with
            | Raise e => MkRun model [] None (Some e)
            | Ok q => MkRun model [] (Some q) None
            end
        end
    end
  else MkRun model [] None (Some OtherError).
