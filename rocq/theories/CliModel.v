(** The command line tools: 'encode' and 'decode' of python -m nlcodec (__main__.py), the functions
    encode and decode they call (codec.py:681-698). *)
From Coq Require Import Strings.String.
From Verif Require Import Py PyStr CodecModel VocabFileModel.
Local Open Scope list_scope.
Local Open Scope res_scope.

(** codec.py:681-687 for one line, followed by __main__.py:100-102: the ids as decimal numbers or the
    pieces, with one space between.  The flag --indices is None when absent (__main__.py:51), which
    counts as false. *)
Definition encode_line (s : scheme) (indices : bool) (line : str) : res str :=
  if indices then let* ids := encode s line in Ok (join [SPACE] (map str_of_Z ids))
  else let* pieces := encode_str s line in Ok (join [SPACE] pieces).

(** codec.py:690-698 for one line. *)
Definition decode_line (s : scheme) (indices : bool) (line : str) : res str :=
  let seq := split line in
  if indices then let* ids := mapM int_of_str seq in decode s ids
  else decode_str s seq.

(** __main__.py:15-18, write_lines over the lazy generators above: the text written and the exception,
    if one ends the loop.  Text written before an exception stays written. *)
Fixpoint write_lines (f : str -> res str) (inp : list str) : str * option exn :=
  match inp with
  | [] => ([], None)
  | line :: inp' =>
      match f line with
      | Raise e => ([], Some e)
      | Ok rec => let (out, e) := write_lines f inp' in (rec ++ [LF] ++ out, e)
      end
  end.

(** __main__.py:94-105, main for task 'encode' or 'decode', from the bytes of the model file and the
    text of the input (a text file or stdin, universal newlines) to the text of the output.
    Simplifications: the bytes of input and output are not modelled (Python decodes and encodes them
    with the locale's encoding); for argparse see CmdModel.v. *)
Definition cli (f : scheme -> bool -> str -> res str) (model : list N) (indices : bool) (inp : str) : str * option exn :=
  match load_scheme model with
  | Raise e => ([], Some e)
  | Ok s => write_lines (f s indices) (file_lines inp)
  end.
Definition cli_encode := cli encode_line.
Definition cli_decode := cli decode_line.
