(** What a command line of experimental/bpepp.py says, without any parsing. *)
From Coq Require Import Strings.String.
From Verif Require Import Py PyStr BpeppModel ArgModel ArgSpec ArgProofs ArgSound CmdModel PpArgModel.
Local Open Scope list_scope.

(** The options. *)
Inductive pp_setting : Set :=
| SVocab (p : str) | SOut (p : str) | SPieces
| SMce1 (z : Z) | SVs1 (z : Z) | SCmf (z : Z) | SWmf (z : Z) | SMce2 (z : Z) | SVs2 (z : Z)
| SVocabL1 (p : str) | SPrepared.

Definition spelt (s : pp_setting) : list string :=
  match s with
  | SVocab _ => ["-vf"; "--vocab-file"; "--vocab"]
  | SOut _ => ["-o"; "--out"]
  | SPieces => ["-p"; "--pieces"]
  | SMce1 _ => ["-mce1"; "--min-co-evidence-l1"]
  | SVs1 _ => ["-vs1"; "--vocab-size-l1"]
  | SCmf _ => ["-cmf"; "--char-min-freq"]
  | SWmf _ => ["-wmf"; "--word-min-freq"]
  | SMce2 _ => ["-mce2"; "--min-co-evidence-l2"]
  | SVs2 _ => ["-vs2"; "--vocab-size-l2"]
  | SVocabL1 _ => ["-vf1"; "--vocab-file-l1"; "--vocab-l1"]
  | SPrepared => ["--prepared"]
  end%string.

Definition worded (s : pp_setting) : option str :=
  match s with
  | SVocab p | SOut p | SVocabL1 p => Some p
  | SMce1 z | SVs1 z | SCmf z | SWmf z | SMce2 z | SVs2 z => Some (str_of_Z z)
  | SPieces | SPrepared => None
  end.

(** Which commands have the option. *)
Definition has (c : pp_sub) (s : pp_setting) : Prop :=
  match s with
  | SVocab _ => True
  | SOut _ => c = SEncode \/ c = SDecode
  | SPieces => c = SEncode
  | SMce1 _ | SVs1 _ | SCmf _ | SWmf _ => c = SLearn1 \/ c = SLearn
  | SMce2 _ | SVs2 _ => c = SLearn2 \/ c = SLearn
  | SVocabL1 _ | SPrepared => c = SLearn2
  end.

(** A setting, the name it is given by, and whether its value is joined to the name by '='. *)
Definition spoken : Type := (pp_setting * string * bool)%type.
Definition words_said (x : spoken) : list str :=
  let '(s, n, joined) := x in
  match worded s with
  | None => [lit n]
  | Some v => if joined then [lit n ++ 61%N :: v] else [lit n; v]
  end.
Definition good (E : env) (c : pp_sub) (x : spoken) : Prop :=
  let '(s, n, joined) := x in
  has c s /\ In n (spelt s) /\
  (if joined then worded s <> None else forall v, worded s = Some v -> plain v) /\
  (forall p, s = SOut p -> p = [45%N] \/ e_writable E p = true).

Definition command (c : pp_sub) : str :=
  lit match c with SLearn1 => "learn1" | SLearn2 => "learn2" | SLearn => "learn" | SEncode => "encode" | SDecode => "decode" end.

(** The inputs may follow a '--', and are then any words, and the last ones. *)
Definition dash (d : bool) : list str := if d then [[45; 45]%N] else [].
Definition named (d : bool) (inps : list str) (after : list spoken) : Prop := if d then after = [] else Forall plain inps.
Definition line (c : pp_sub) (before : list spoken) (d : bool) (inps : list str) (after : list spoken) : list str :=
  command c :: flat_map words_said before ++ dash d ++ inps ++ flat_map words_said after.

(** The last value given. *)
Fixpoint last_said {V} (f : pp_setting -> option V) (l : list spoken) (d : V) : V :=
  match l with
  | [] => d
  | (s, _, _) :: l' => last_said f l' (match f s with Some v => v | None => d end)
  end.
Definition vocab_said (l : list spoken) : option str := last_said (fun s => match s with SVocab p => Some (Some p) | _ => None end) l None.
Definition vocab_l1_said (l : list spoken) : option str := last_said (fun s => match s with SVocabL1 p => Some (Some p) | _ => None end) l None.
Definition out_said (l : list spoken) : str := last_said (fun s => match s with SOut p => Some p | _ => None end) l [45%N].
Definition pieces_said (l : list spoken) : bool := last_said (fun s => match s with SPieces => Some true | _ => None end) l false.
Definition vs1_said (l : list spoken) : option Z := last_said (fun s => match s with SVs1 z => Some (Some z) | _ => None end) l None.
Definition vs2_said (l : list spoken) : option Z := last_said (fun s => match s with SVs2 z => Some (Some z) | _ => None end) l None.
Definition or_zero (o : option Z) : Z := match o with Some z => z | None => 0%Z end.
Definition args_said (l : list spoken) : pp_args :=
  MkArgs (last_said (fun s => match s with SCmf z => Some z | _ => None end) l 20%Z)
         (last_said (fun s => match s with SWmf z => Some z | _ => None end) l 1%Z)
         (or_zero (vs1_said l))
         (last_said (fun s => match s with SMce1 z => Some z | _ => None end) l 5%Z)
         (or_zero (vs2_said l))
         (last_said (fun s => match s with SMce2 z => Some z | _ => None end) l 5%Z)
         (last_said (fun s => match s with SPrepared => Some true | _ => None end) l false).

(** The disk once every output file was opened. *)
Definition opened (l : list spoken) (f : disk) : disk :=
  fun p => if existsb (fun x : spoken => match x with (SOut q, _, _) => negb (str_eqb q [45%N]) && str_eqb p q | _ => false end) l then Some [] else f p.

(** Everything the command cannot do without. *)
Definition enough (c : pp_sub) (l : list spoken) : Prop :=
  (c = SLearn1 \/ c = SLearn -> vs1_said l <> None) /\ (c = SLearn2 \/ c = SLearn -> vs2_said l <> None) /\
  (c = SLearn2 -> vocab_l1_said l <> None).

(** The text encode and decode read: standard input, or a file; [f] is the disk before the command, [f1] the disk when the output
    files were opened. *)
Definition input_of (W : pp_world) (f f1 : disk) (stdin : str) (inps : list str) (text : str) : Prop :=
  ((inps = [] \/ inps = [[45%N]]) /\ text = stdin) \/
  (exists p b, inps = [p] /\ p <> [45%N] /\ f p <> None /\ f1 p = Some b /\ text = w_text W b).

(** How encode and decode end: with the text [fst r] in the output, after the exception [snd r] if there is one. *)
Definition coded (W : pp_world) (f1 : disk) (out : str) (r : str * option exn) (e : ending) : Prop :=
  x_exc e = snd r /\ x_status e = match snd r with None => 0%Z | Some _ => 1%Z end /\ x_printed e = None /\
  if str_eqb out [45%N] then x_stdout e = fst r /\ (forall p, dget str_eqb p (x_files e) = f1 p)
  else x_stdout e = [] /\ dget str_eqb out (x_files e) = Some (match fst r with [] => [] | t => w_bytes W t end) /\
       (forall p, p <> out -> dget str_eqb p (x_files e) = f1 p).

(** The texts the learning commands read. *)
Definition texts_of (W : pp_world) (f : disk) (inps texts : list str) : Prop :=
  Forall2 (fun p t => exists b, f p = Some b /\ t = w_text W b) inps texts.

(** How a command that was understood ends on any files: with 0, or with 1 after an exception; it changed files named in its words, or
    the file the level 1 vocabulary is moved to. *)
Definition run_well (fs : ArgModel.files) (argv : list str) (e : ending) : Prop :=
  (x_status e = 0%Z /\ x_exc e = None \/ x_status e = 1%Z /\ x_exc e <> None) /\ x_printed e = None /\
  forall p, lookup (x_files e) p <> lookup fs p -> from argv p \/ exists q, from argv q /\ p = l1_name q.
(** How argparse ends a command line: nothing was done but outputs emptied. *)
Definition refused (fs : ArgModel.files) (argv : list str) (e : ending) : Prop :=
  (x_status e = 0 \/ x_status e = 2)%Z /\ x_exc e = None /\ x_stdout e = [] /\ x_printed e = None /\
  forall p, lookup (x_files e) p = lookup fs p \/ (lookup (x_files e) p = Some [] /\ from argv p).

(** Something is missing from the line, or a word is too many. *)
Definition unfit (c : pp_sub) (l : list spoken) (inps : list str) : Prop :=
  vocab_said l = None \/ ((c = SLearn1 \/ c = SLearn) /\ vs1_said l = None) \/ ((c = SLearn2 \/ c = SLearn) /\ vs2_said l = None) \/
  (c = SLearn2 /\ vocab_l1_said l = None) \/ (c <> SEncode /\ c <> SDecode /\ inps = []) \/ ((c = SEncode \/ c = SDecode) /\ 2 <= List.length inps).
