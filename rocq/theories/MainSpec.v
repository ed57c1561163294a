(** What it means that a text comes back from the command line tool. *)
From Coq Require Import Strings.String.
From Verif Require Import Py PyStr PyLemmas CodecModel CodecSpec LearnModel CliSpec MainModel.
Local Open Scope list_scope.

(** [decodes ... bytes e d Q ls]: with the model [bytes], the run [e] (encode) writes one line per line of
    [ls], and the run [d] (decode) of what was written writes lines that are related to [ls] by [Q]. *)
Definition decodes (A : arith) orders version now (bytes : list N) (e d : options A) (Q : str -> str -> Prop) (ls : list str) : Prop :=
  exists encs outs, main A orders version now (Some bytes) e = MkRun (Some bytes) (unlines encs) None None /\
    length encs = length ls /\
    (o_inp d = unlines encs -> main A orders version now (Some bytes) d = MkRun (Some bytes) (unlines outs) None None) /\
    Forall2 Q ls outs.

(** A word that is among the words learned from, or a reserved name. *)
Definition seen_in (toks : list str) (w : str) : bool := existsb (str_eqb w) (toks ++ reserved_names).
