(** What the documented options of nlcodec ask for (the help texts of __main__.py:33-74), without parsing. *)
From Coq Require Import Strings.String.
From Verif Require Import Py PyStr LearnModel EvalModel MainModel ArgModel ArgSpec CmdModel.
Local Open Scope list_scope.

Inductive setting : Type :=
| SInp (p : str) | STermFreqs | SOut (p : str) | SModel (p : str) | SIndices
| SVocabSize (z : Z) | SLevel (l : str) | SMinFreq (z : Z) | SCoverage (t : str) | SMinCoEv (z : Z).

(** Short name, long name, argument. *)
Definition spelt (s : setting) : string * string * option str :=
  match s with
  | SInp p => ("-i", "--inp", Some p)
  | STermFreqs => ("-tfs", "--term-freqs", None)
  | SOut p => ("-o", "--out", Some p)
  | SModel p => ("-m", "--model", Some p)
  | SIndices => ("-idx", "--indices", None)
  | SVocabSize z => ("-vs", "--vocab-size", Some (str_of_Z z))
  | SLevel l => ("-l", "--level", Some l)
  | SMinFreq z => ("-mf", "--min-freq", Some (str_of_Z z))
  | SCoverage t => ("-cv", "--char-coverage", Some t)
  | SMinCoEv z => ("-mce", "--min-co-ev", Some (str_of_Z z))
  end%string.

(** -x ARG, --long ARG or --long=ARG. *)
Inductive style : Type := Short | Long | Equals.
Definition words_of (ss : style * setting) : list str :=
  let (st, s) := ss in
  let '(short, long, arg) := spelt s in
  match arg, st with
  | None, Short => [lit short]
  | None, _ => [lit long]
  | Some a, Short => [lit short; a]
  | Some a, Long => [lit long; a]
  | Some a, Equals => [lit long ++ lit "=" ++ a]
  end.

(** What was asked; None: standard input or output, no level, no minimum frequency. *)
Record asked : Type := MkAsked {
  q_inp : option str; q_tfs : bool; q_out : option str; q_model : option str; q_idx : bool;
  q_vs : Z; q_level : option str; q_mf : option Z; q_cv : str; q_mce : Z }.

(** The documented defaults. *)
Definition nothing_asked : asked := MkAsked None false None None false (-1) None None (lit "0.9995") 95.

Definition path_of (p : str) : option str := if str_eqb p (lit "-") then None else Some p.
Definition ask (q : asked) (s : setting) : asked :=
  let 'MkAsked inp tfs out model idx vs level mf cv mce := q in
  match s with
  | SInp p => MkAsked (path_of p) tfs out model idx vs level mf cv mce
  | STermFreqs => MkAsked inp true out model idx vs level mf cv mce
  | SOut p => MkAsked inp tfs (path_of p) model idx vs level mf cv mce
  | SModel p => MkAsked inp tfs out (Some p) idx vs level mf cv mce
  | SIndices => MkAsked inp tfs out model true vs level mf cv mce
  | SVocabSize z => MkAsked inp tfs out model idx z level mf cv mce
  | SLevel l => MkAsked inp tfs out model idx vs (Some l) mf cv mce
  | SMinFreq z => MkAsked inp tfs out model idx vs level (Some z) cv mce
  | SCoverage t => MkAsked inp tfs out model idx vs level mf t mce
  | SMinCoEv z => MkAsked inp tfs out model idx vs level mf cv z
  end.

(** The disk once every --out was opened. *)
Definition opens (f : disk) (s : setting) : disk :=
  match s with
  | SOut p => if str_eqb p (lit "-") then f else fun x => if str_eqb x p then Some [] else f x
  | _ => f
  end.

(** Sensible settings: files to read are there, files to write can be written, the level is one of the five,
    the coverage is a number, and a separate argument does not look like an option. *)
Definition sensible (E : env) (f : disk) (ss : style * setting) : Prop :=
  let (st, s) := ss in
  (match s with
   | SInp p => p = lit "-" \/ f p <> None
   | SOut p => p = lit "-" \/ e_writable E p = true
   | SLevel l => In l (map lit ["char"; "word"; "bpe"; "class"; "byte"]%string)
   | SCoverage t => e_float E t = true
   | _ => True
   end) /\
  (st <> Equals -> match s with SInp p | SOut p | SModel p | SLevel p | SCoverage p => plain p | _ => True end).

(** What the program should leave, given what was asked and the disk after opening. *)
Definition asked_input {A} (Y : system A) (f : disk) (stdin : str) (q : asked) : str :=
  match q_inp q with None => stdin | Some p => match f p with Some b => y_text Y b | None => [] end end.
Definition asked_options {A} (Y : system A) (f : disk) (stdin task : str) (q : asked) : options A :=
  MkOptions task (asked_input Y f stdin q) (q_tfs q) (q_idx q) (q_vs q) (q_level q) (q_mf q) (y_num Y (q_cv q)) (q_mce q).
Definition left_on_disk {A} (Y : system A) (f : disk) (task model : str) (q : asked) (r : run) : disk :=
  fun p =>
    if match q_out q with Some o => str_eqb p o && match r_out r with [] => false | _ => true end | None => false end
    then Some (y_bytes Y (r_out r))
    else if str_eqb task (lit "learn") && str_eqb p model then match r_model r with Some b => Some b | None => f p end
    else f p.
