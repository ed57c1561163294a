(** What the options of the evaluation tools ask for (the help texts of eval/termfreq.py:48-57, eval/pr_measure.py:105-125,
    eval/oov_count.py:54-60, qestim.py:123-129, eval/bpe_len.py:203-209), without parsing, and what the files they write look like. *)
From Coq Require Import Strings.String QArith.
From Verif Require Import Py PyStr Utf8Model CodecModel CodecSpec VocabFileModel LearnModel MainModel ArgModel ArgSpec ArgProofs ArgSound CmdModel CmdSpec EvalModel JsonModel GramModel ToolSpec.
Local Open Scope list_scope.

(** Quality stands for qestim.py and eval/bpe_len.py, whose options are the same. *)
Inductive etool : Type := TermFreq | Recall | Oov | Quality.
Inductive eset : Type :=
| EInp (p : str) | EOut (p : str) | EModel (p : str) | EN (z : Z) | ECands (p : str) | ERefs (p : str) | EFreqs (p : str).
Definition espelt (t : etool) (s : eset) : option string * string * list str :=
  match s, t with
  | EInp p, Quality => (Some "-d", "--data", [p])
  | EInp p, _ => (Some "-i", "--inp", [p])
  | EModel p, Quality => (Some "-c", "--codec", [p])
  | EModel p, _ => (Some "-m", "--model", [p])
  | EOut p, _ => (Some "-o", "--out", [p])
  | EN z, _ => (Some "-n", "--n", [str_of_Z z])
  | ECands p, _ => (Some "-c", "--cands", [p])
  | ERefs p, _ => (Some "-r", "--refs", [p])
  | EFreqs p, _ => (Some "-f", "--freqs", [p])
  end%string.
Definition ehas (t : etool) (s : eset) : Prop :=
  match s, t with
  | EModel _, _ => True
  | EInp _, Recall => False
  | EInp _, _ => True
  | (EOut _ | EN _), (TermFreq | Recall) => True
  | (ECands _ | ERefs _ | EFreqs _), Recall => True
  | _, _ => False
  end.
Definition ewords (t : etool) (ss : style * eset) : list str := let '(short, long, args) := espelt t (snd ss) in said_as (fst ss) short long args.
(** An option the tool has, with an argument that does not look like an option; inputs are there, outputs can be written. *)
Definition esensible (t : etool) (E : env) (f : disk) (ss : style * eset) : Prop :=
  ehas t (snd ss) /\ free (fst ss) (snd (espelt t (snd ss))) /\
  match snd ss with
  | EInp p | ECands p | ERefs p | EFreqs p => p = lit "-" \/ f p <> None
  | EOut p => p = lit "-" \/ e_writable E p = true
  | _ => True
  end.

(** Where a text comes from or goes to. *)
Inductive place : Type := Unset | Dash | Path (p : str).
Definition place_of (p : str) : place := if str_eqb p (lit "-") then Dash else Path p.
Record easked : Type := MkEasked { k_inp : place; k_out : place; k_model : option str; k_n : Z; k_cands : place; k_refs : place; k_freqs : place }.
Definition enothing : easked := MkEasked Unset Unset None 1 Unset Unset Unset.
Definition eask (q : easked) (s : eset) : easked :=
  let 'MkEasked i o m n c r f := q in
  match s with
  | EInp p => MkEasked (place_of p) o m n c r f
  | EOut p => MkEasked i (place_of p) m n c r f
  | EModel p => MkEasked i o (Some p) n c r f
  | EN z => MkEasked i o m z c r f
  | ECands p => MkEasked i o m n (place_of p) r f
  | ERefs p => MkEasked i o m n c (place_of p) f
  | EFreqs p => MkEasked i o m n c r (place_of p)
  end.
(** Naming an output empties it. *)
Definition eopens (f : disk) (s : eset) : disk :=
  match s with
  | EOut p => if str_eqb p (lit "-") then f else fun x => if str_eqb x p then Some [] else f x
  | _ => f
  end.

(** The lines read from an input. *)
Definition plain_lines {A} (Y : system A) (f : disk) (stdin : str) (pl : place) : list str :=
  match pl with
  | Path p => match f p with Some b => file_lines (y_text Y b) | None => [] end
  | _ => file_lines stdin
  end.
(** The same for pr_measure, whose files are UTF-8 and whose standard input can be read once. *)
Definition utf8_lines {A} (Y : system A) (f : disk) (stdin : list N) (used : bool) (pl : place) : list str :=
  match pl, used with
  | Path p, _ => match f p with Some b => file_lines (utf8_decode [] b) | None => [] end
  | _, true => []
  | Dash, false => file_lines (y_text Y stdin)
  | Unset, false => lines_aux [] (utf8_decode [] stdin)
  end.
Definition on_stdin (pl : place) : bool := match pl with Path _ => false | _ => true end.

(** How a run ends that makes a text, or fails. *)
Definition gives {A} (Y : system A) (f : disk) (out : place) (r : res str) (e : ending) : Prop :=
  x_printed e = None /\
  match r with
  | Raise x => x_status e = 1%Z /\ x_exc e = Some x /\ x_stdout e = [] /\ forall p, lookup (x_files e) p = f p
  | Ok t => x_status e = 0%Z /\ x_exc e = None /\
      match out with
      | Path o => x_stdout e = [] /\ forall p, lookup (x_files e) p = if str_eqb p o then Some (y_bytes Y t) else f p
      | _ => x_stdout e = t /\ forall p, lookup (x_files e) p = f p
      end
  end.

(** The scheme a model file holds, or why there is none. *)
Definition model_at (f : disk) (p : str) (r : res scheme) : Prop :=
  match f p with None => r = Raise FileNotFound | Some b => r = load_scheme b end.

(** A line of termfreq's file: [[ids], frequency, [names]], in JSON with only the characters JSON demands escaped. *)
Inductive quoted : str -> str -> Prop :=
| quoted_end : quoted [] []
| quoted_plain c s t : (32 <= c)%N -> c <> 34%N -> c <> 92%N -> quoted s t -> quoted (c :: s) (c :: t)
| quoted_short c e s t : In (c, e) [(34, 34); (92, 92); (10, 110); (13, 114); (9, 116); (12, 102); (8, 98)]%N -> quoted s t -> quoted (c :: s) (92 :: e :: t)%N
| quoted_hex c a b s t : (c < 32)%N -> ~ In c [10; 13; 9; 12; 8]%N -> hexdig (c / 16) = a -> hexdig (c mod 16) = b -> quoted s t ->
    quoted (c :: s) (lit "\u00" ++ [a; b] ++ t).
Definition gram_text (row : list Z * Z * list str) (line : str) : Prop :=
  let '(g, f, names) := row in exists qs, Forall2 quoted names qs /\
    line = lit "[[" ++ join (lit ", ") (map str_of_Z g) ++ lit "], " ++ str_of_Z f ++ lit ", ["
           ++ join (lit ", ") (map (fun q => [34%N] ++ q ++ [34%N]) qs) ++ lit "]]".

(** A row of pr_measure's report. *)
Definition report_text (fmt : Q -> str) (i : nat) (names : list str) (r : EvalModel.row) (line : str) : Prop :=
  let '(g, rank, rf, cf, rec, prec, f1) := r in
  let TAB := [9%N] in
  line = str_of_Z (Z.of_nat i) ++ TAB ++ join (lit ",") (map str_of_Z g) ++ TAB ++ join (lit ",") names ++ TAB ++ str_of_Z rank ++ TAB ++ str_of_Z rf
         ++ TAB ++ str_of_Z cf ++ TAB ++ fmt rec ++ TAB ++ fmt prec ++ TAB ++ fmt f1.
(** The first line of the report. *)
Definition HEAD : str := lit "Rank" ++ [9%N] ++ lit "Gram" ++ [9%N] ++ lit "Name" ++ [9%N] ++ lit "RankF" ++ [9%N] ++ lit "RefF" ++ [9%N] ++ lit "CandF" ++ [9%N]
  ++ lit "Recall" ++ [9%N] ++ lit "Precision" ++ [9%N] ++ lit "F1" ++ [10%N].

(** What oov_count prints: types and tokens in and out of the vocabulary; without tokens it stops before the shares. *)
Definition oov_table (fmt : Q -> str) (ti ni to no : Z) (share : option (Q * Q)) : str :=
  let TAB := [9%N] in let NL := [10%N] in
  lit "*" ++ TAB ++ lit "InVocab" ++ TAB ++ lit "OOV" ++ NL
  ++ lit "Types" ++ TAB ++ str_of_Z ti ++ TAB ++ str_of_Z to ++ NL
  ++ lit "Token Count" ++ TAB ++ str_of_Z ni ++ TAB ++ str_of_Z no ++ NL
  ++ match share with Some (x, y) => lit "Token %" ++ TAB ++ fmt x ++ TAB ++ fmt y ++ NL | None => [] end.

(** How a program with this parser ends: as argparse ends it, with nothing done but outputs emptied, or with 0, or
    with 1 after an exception; what it changed was named in the words, or meets [other]. *)
Definition ends_well (P : list opt) (E : env) (fs : ArgModel.files) (argv : list str) (other : str -> Prop) (e : ending) : Prop :=
  ((exists c fs1, parse_args P E fs argv = Some (Exited c fs1) /\ x_status e = c /\ (c = 0 \/ c = 2)%Z /\ x_exc e = None /\ x_stdout e = [] /\ x_printed e = None /\
     forall p, lookup (x_files e) p = lookup fs p \/ (lookup (x_files e) p = Some [] /\ from argv p)) \/
   (exists ns fs1, parse_args P E fs argv = Some (Parsed ns fs1) /\ (x_status e = 0 /\ x_exc e = None \/ x_status e = 1 /\ x_exc e <> None)%Z)) /\
  forall p, lookup (x_files e) p <> lookup fs p -> from argv p \/ other p.

(** Word, character and BPE schemes. *)
Definition plain_kind (k : kind) (table : list Typ) : Prop := k = KWord \/ k = KChar \/ (k = KBpe /\ well_indexed table).

(** Lines of a frequency file: the JSON value of a row termfreq could have written, and values pr_measure cannot take for one,
    with the exception that unpacking them raises. *)
Definition good_row (j : json) : Prop := exists g f x, j = JArr [JArr (map JInt g); JInt f; x].
Definition lone (j : json) : Prop := match j with JNull | JBool _ | JInt _ => True | _ => False end.
Definition nested (j : json) : Prop := match j with JArr _ | JObj _ => True | _ => False end.
Inductive bad_row : json -> exn -> Prop :=
| BadLone j : lone j -> bad_row j TypeError
| BadLength l : List.length l <> 3%nat -> bad_row (JArr l) ValueError
| BadText s : List.length s <> 3%nat -> bad_row (JStr s) ValueError
| BadGram g f x : lone g -> bad_row (JArr [g; f; x]) TypeError
| BadNested g f x : Exists nested g -> bad_row (JArr [JArr g; f; x]) TypeError.
