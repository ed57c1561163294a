(** The programs experimental/uxdx.py and experimental/unicode_fix.py from their command lines to what they write. *)
From Coq Require Import Strings.String.
From Verif Require Import Py PyStr Utf8Model VocabFileModel LearnModel EvalModel MainModel ScriptModel ArgModel CmdModel.
Local Open Scope list_scope.

(** uxdx.py:50-54, unicode_fix.py:255-259: named files are UTF-8, with what cannot be decoded or encoded left out; '-'
    and the defaults are sys.stdin and sys.stdout.  Simplification: those are texts here. *)
Definition script_input (fs : files) (stdin : str) (v : value) : str :=
  match v with
  | VIn p => match dget str_eqb p fs with Some b => utf8_decode [] b | None => [] end
  | _ => stdin
  end.
Definition script_output (fs : files) (out : value) (t : str) : ending :=
  match out with
  | VOut p => MkEnding 0 (dset str_eqb p (utf8_encode_ignore t) fs) [] None None
  | _ => MkEnding 0 fs t None None
  end.

(** uxdx.py:39-59 *)
Definition ux_program (E : env) (fs : files) (stdin : str) (argv : list str) : option ending :=
  match parse_args ux_parser E fs argv with
  | None => None
  | Some (Exited c fs1) => Some (MkEnding c fs1 [] None None)
  | Some (Parsed ns fs1) =>
      match get ns "inp", get ns "out", get ns "decode" with
      | Some inp, Some out, Some (VBool d) => Some (script_output fs1 out (ux_main (script_input fs1 stdin inp) d))
      | _, _, _ => None
      end
  end.

(** unicode_fix.py:246-264 *)
Definition fix_program (E : env) (fs : files) (stdin : str) (argv : list str) : option ending :=
  match parse_args fix_parser E fs argv with
  | None => None
  | Some (Exited c fs1) => Some (MkEnding c fs1 [] None None)
  | Some (Parsed ns fs1) =>
      match get ns "inp", get ns "out", get ns "decode", get ns "lang" with
      | Some inp, Some out, Some (VBool d), Some (VText name) =>
          match fix_main (script_input fs1 stdin inp) name d with
          | Raise e => Some (MkEnding 1 fs1 [] None (Some e))
          | Ok t => Some (script_output fs1 out t)
          end
      | _, _, _, _ => None
      end
  end.
