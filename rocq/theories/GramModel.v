(** The evaluation tools from their command lines to what they write: nlcodec/eval/termfreq.py,
    nlcodec/eval/pr_measure.py, nlcodec/eval/oov_count.py, nlcodec/qestim.py and nlcodec/eval/bpe_len.py. *)
From Coq Require Import Strings.String QArith.
From Verif Require Import Py PyStr BatchModel Utf8Model JsonModel CodecModel VocabFileModel LearnModel MapredModel EvalModel TrackModel MainModel ArgModel CmdModel.
Local Open Scope list_scope.

(** json.encoder.py_encode_basestring, for json.dumps(.., ensure_ascii=False) (termfreq.py:43): the quote, the
    backslash and the characters below ' ' are escaped. *)
Definition esc_raw (c : N) : str :=
  if N.eqb c 34 then [92; 34]%N
  else if N.eqb c 92 then [92; 92]%N
  else if N.eqb c 10 then [92; 110]%N
  else if N.eqb c 13 then [92; 114]%N
  else if N.eqb c 9 then [92; 116]%N
  else if N.eqb c 12 then [92; 102]%N
  else if N.eqb c 8 then [92; 98]%N
  else if N.ltb c 32 then [92; 117]%N ++ hex4 c
  else [c].
Definition dump_raw_str (s : str) : str := [34%N] ++ flat_map esc_raw s ++ [34%N].
Fixpoint dumps_raw (j : json) : str :=
  match j with
  | JNull => lit "null"
  | JBool true => lit "true"
  | JBool false => lit "false"
  | JInt z => str_of_Z z
  | JStr s => dump_raw_str s
  | JArr l => [91%N] ++ join COMMA_SP (map dumps_raw l) ++ [93%N]
  | JObj m => [123%N] ++ join COMMA_SP
                ((fix go (m : list (str * json)) : list str :=
                    match m with
                    | [] => []
                    | (k, v) :: m' => (dump_raw_str k ++ COLON_SP ++ dumps_raw v) :: go m'
                    end) m) ++ [125%N]
  end.

(** termfreq.py:40-44: the line written for one gram. *)
Definition gram_line (row : gram * Z * list str) : str :=
  let '(g, f, names) := row in dumps_raw (JArr [JArr (map JInt g); JInt f; JArr (map JStr names)]) ++ [10%N].

(** What encode_parallel (codec.py:230-231) gave before it ended, and the exception it ended with: make_n_grams_all
    and list() read it to the end. *)
Definition all_of {B} (s : stream B) : res (list B) := match snd s with None => Ok (fst s) | Some e => Raise e end.

(** termfreq.py:35-44, main; [pool] is what encode_parallel gives for the lines.  The grams are counted while the
    lines arrive: an n below 1 fails at the first line.  Simplification: nothing is written when the name of an id is
    missing (never: EvalProofs.v). *)
Definition termfreq_text (s : scheme) (out : stream (list Z)) (n : Z) : res str :=
  match make_n_grams_all (fst out) n with
  | Raise e => Raise e
  | Ok _ => match all_of out with
            | Raise e => Raise e
            | Ok seqs => match termfreq_rows s seqs n with Raise e => Raise e | Ok rows => Ok (flat_map gram_line rows) end
            end
  end.

(** The text written to --out: to a file, emptied when the command line was parsed, or to standard output. *)
Definition finish {A} (Y : system A) (fs : files) (out : value) (r : res str) : ending :=
  match r with
  | Raise e => MkEnding 1 fs [] None (Some e)
  | Ok t => match out with
            | VOut p => MkEnding 0 (dset str_eqb p (y_bytes Y t) fs) [] None None
            | _ => MkEnding 0 fs t None None
            end
  end.

(** The lines of --inp or --data, a text file in the encoding of the locale. *)
Definition lines_of {A} (Y : system A) (fs : files) (stdin : str) (v : value) : list str := file_lines (input_text Y fs stdin v).

(** load_scheme of a path (codec.py:619-626). *)
Definition load_path (fs : files) (p : str) : res scheme :=
  match dget str_eqb p fs with None => Raise FileNotFound | Some b => load_scheme b end.

(** termfreq.py:35-57 *)
Definition gram_program {A} (Y : system A) (pool : scheme -> list str -> stream (list Z)) (fs : files) (stdin : str) (argv : list str) : option ending :=
  match parse_args gram_parser (y_env Y) fs argv with
  | None => None
  | Some (Exited c fs1) => Some (MkEnding c fs1 [] None None)
  | Some (Parsed ns fs1) =>
      match get ns "inp", get ns "out", get ns "model_path", get ns "n" with
      | Some inp, Some out, Some (VText model), Some (VInt n) =>
          Some (finish Y fs1 out (match load_path fs1 model with
                                  | Raise e => Raise e
                                  | Ok s => termfreq_text s (pool s (lines_of Y fs1 stdin inp)) n
                                  end))
      | _, _, _, _ => None
      end
  end.

(** pr_measure.py:66-67: the value of a line of --freqs.  The value must have three items, the first of them a sequence of
    hashable values; a gram that is not made of numbers is no gram of the texts (None; True counts as 1).
    Simplification: such a True is printed as 1 in the report, not as True.
    Simplification: a frequency that is not an integer is refused here (the sorting at line 90 would, when there is
    something to compare it with). *)
Definition items (j : json) : res (list json) :=
  match j with
  | JArr l => Ok l
  | JStr s => Ok (map (fun c => JStr [c]) s)
  | JObj m => Ok (map (fun kv => JStr (fst kv)) m)
  | _ => Raise TypeError
  end.
Definition number_of (j : json) : option Z := match j with JInt z => Some z | JBool b => Some (if b then 1 else 0)%Z | _ => None end.
Definition unhashable (j : json) : bool := match j with JArr _ | JObj _ => true | _ => false end.
Fixpoint numbers_of (l : list json) : option (list Z) :=
  match l with
  | [] => Some []
  | j :: l' => match number_of j, numbers_of l' with Some z, Some zs => Some (z :: zs) | _, _ => None end
  end.
Definition freq_item (j : json) : res (option gram * Z) :=
  match items j with
  | Raise e => Raise e
  | Ok [g; f; _] =>
      match items g with
      | Raise e => Raise e
      | Ok g => if existsb unhashable g then Raise TypeError
                else match number_of f with Some z => Ok (numbers_of g, z) | None => Raise TypeError end
      end
  | Ok _ => Raise ValueError
  end.
(** pr_measure.py:66-67: all lines are parsed before any is unpacked. *)
Definition read_freqs (lines : list str) : res (list (gram * Z)) :=
  match mapM (fun l => loads (strip l)) lines with
  | Raise e => Raise e
  | Ok js =>
      match mapM freq_item js with
      | Raise e => Raise e
      | Ok l => Ok (flat_map (fun gf : option gram * Z => match fst gf with Some g => [(g, snd gf)] | None => [] end) l)
      end
  end.

(** pr_measure.py:90-102: the report; [fmt] is format(x, 'g').  idx_to_str of an id that was encoded is there. *)
Definition report_line (fmt : Q -> str) (s : scheme) (i : nat) (r : EvalModel.row) : res str :=
  let '(g, rank, rf, cf, rec, prec, f1) := r in
  match mapM (py_nth (s_idx_to_str s)) g with
  | Raise e => Raise e
  | Ok names => Ok (join [9%N] [str_of_Z (Z.of_nat i); join [44%N] (map str_of_Z g); join [44%N] names; str_of_Z rank; str_of_Z rf; str_of_Z cf;
                                fmt rec; fmt prec; fmt f1] ++ [10%N])
  end.
Definition HEADER : str := join [9%N] (map lit ["Rank"; "Gram"; "Name"; "RankF"; "RefF"; "CandF"; "Recall"; "Precision"; "F1"]%string) ++ [10%N].
Fixpoint report_lines (fmt : Q -> str) (s : scheme) (i : nat) (rows : list EvalModel.row) : res (list str) :=
  match rows with
  | [] => Ok []
  | r :: rows' =>
      match report_line fmt s i r with
      | Raise e => Raise e
      | Ok l => match report_lines fmt s (S i) rows' with Raise e => Raise e | Ok ls => Ok (l :: ls) end
      end
  end.

(** pr_measure.py:54-102, main, from the lines of the two sides.  Line 61 does not pass n on; the log messages
    (76-88) are left out.  Simplification: nothing is written when a row fails (never: EvalProofs.v). *)
Definition recall_text (rnd : Q -> Q) (fmt : Q -> str) (s : scheme) (pool : list str -> stream (list Z)) (cands refs : list str) (n : Z)
    (freqs : option (list str)) : res str :=
  if negb (Nat.eqb (List.length cands) (List.length refs)) then Raise AssertionError
  else
    match all_of (pool cands), all_of (pool refs) with
    | Raise e, _ => Raise e
    | _, Raise e => Raise e
    | Ok cs, Ok rs =>
        match (match freqs with None => Ok None | Some ls => match read_freqs ls with Ok fs => Ok (Some fs) | Raise e => Raise e end end) with
        | Raise e => Raise e
        | Ok fr =>
            match pr_rows rnd cs rs n fr with
            | Raise e => Raise e
            | Ok rows => match report_lines fmt s 1 rows with Raise e => Raise e | Ok ls => Ok (HEADER ++ concat ls) end
            end
        end
    end.

(** pr_measure.py:105-113: a file is UTF-8 with bad bytes left out; VNone is the wrapper around standard input, which
    is that and splits lines at '\n' only; '-' is sys.stdin.  [done]: standard input was read to its end before. *)
Definition side {A} (Y : system A) (fs : files) (stdin : list N) (done : bool) (v : value) : list str :=
  match v with
  | VIn p => match dget str_eqb p fs with Some b => file_lines (utf8_decode [] b) | None => [] end
  | VNone => if done then [] else lines_aux [] (utf8_decode [] stdin)
  | _ => if done then [] else file_lines (y_text Y stdin)
  end.
Definition from_stdin (v : value) : bool := match v with VIn _ => false | _ => true end.

(** pr_measure.py:105-133.  Standard input is given as its bytes. *)
Definition recall_program {A} (rnd : Q -> Q) (fmt : Q -> str) (Y : system A) (pool : scheme -> list str -> stream (list Z)) (fs : files) (stdin : list N)
    (argv : list str) : option ending :=
  match parse_args recall_parser (y_env Y) fs argv with
  | None => None
  | Some (Exited c fs1) => Some (MkEnding c fs1 [] None None)
  | Some (Parsed ns fs1) =>
      match get ns "cands", get ns "refs", get ns "freqs", get ns "n", get ns "out", get ns "model_path" with
      | Some cands, Some refs, Some freqs, Some (VInt n), Some out, Some (VText model) =>
          Some (finish Y fs1 out
            (match cands, refs with
             | VNone, VNone => Raise AssertionError
             | _, _ =>
                 match load_path fs1 model with
                 | Raise e => Raise e
                 | Ok s =>
                     recall_text rnd fmt s (pool s) (side Y fs1 stdin false cands) (side Y fs1 stdin (from_stdin cands) refs) n
                       (match freqs with VNone => None | _ => Some (side Y fs1 stdin (from_stdin cands || from_stdin refs) freqs) end)
                 end
             end))
      | _, _, _, _, _, _ => None
      end
  end.

(** oov_count.py:35-61: what is printed; [fmt] is format(x, '.2f').  Without tokens the division in the last line fails,
    after the others were printed. *)
Definition oov_program {A} (fmt : Q -> str) (Y : system A) (fs : files) (stdin : str) (argv : list str) : option ending :=
  match parse_args oov_parser (y_env Y) fs argv with
  | None => None
  | Some (Exited c fs1) => Some (MkEnding c fs1 [] None None)
  | Some (Parsed ns fs1) =>
      match get ns "inp", get ns "model_path" with
      | Some inp, Some (VText model) =>
          let fails e := Some (MkEnding 1 fs1 [] None (Some e)) in
          match load_path fs1 model with
          | Raise e => fails e
          | Ok s =>
              match s_kind s with
              | KByte => fails AssertionError
              | _ =>
                  let '(iv, oov) := partition_vocab_toks (lines_of Y fs1 stdin inp) (dkeys (s_str_to_idx s)) in
                  let a := zsum (dvalues iv) in
                  let b := zsum (dvalues oov) in
                  let show (what : string) (x y : str) := join [9%N] [lit what; x; y] ++ [10%N] in
                  let printed := show "*"%string (lit "InVocab") (lit "OOV")
                    ++ show "Types"%string (str_of_Z (Z.of_nat (List.length iv))) (str_of_Z (Z.of_nat (List.length oov)))
                    ++ show "Token Count"%string (str_of_Z a) (str_of_Z b) in
                  if Z.eqb (a + b) 0 then Some (MkEnding 1 fs1 printed None (Some ZeroDivisionError))
                  else Some (MkEnding 0 fs1
                         (printed ++ show "Token %"%string (fmt (inject_Z (100 * a) / inject_Z (a + b))%Q) (fmt (inject_Z (100 * b) / inject_Z (a + b))%Q))
                         None None)
              end
          end
      | _, _ => None
      end
  end.

(** qestim.py:116-134: the estimation that is printed. *)
Definition quality_program {A} (Y : system A) (fs : files) (stdin : str) (argv : list str) : option ending :=
  match parse_args codec_parser (y_env Y) fs argv with
  | None => None
  | Some (Exited c fs1) => Some (MkEnding c fs1 [] None None)
  | Some (Parsed ns fs1) =>
      match get ns "codec_path", get ns "data" with
      | Some (VText codec), Some data =>
          match load_path fs1 codec with
          | Raise e => Some (MkEnding 1 fs1 [] None (Some e))
          | Ok s =>
              match estimate s (lines_of Y fs1 stdin data) with
              | Raise e => Some (MkEnding 1 fs1 [] None (Some e))
              | Ok q => Some (MkEnding 0 fs1 [] (Some q) None)
              end
          end
      | _, _ => None
      end
  end.

(** bpe_len.py:198-214: the rows track_merges returned, which are logged; None when the command line was refused. *)
Definition lens_program {A} (Y : system A) (orders : nat -> list nat -> list nat) (pool : scheme -> list str -> stream (list Z)) (fs : files) (stdin : str)
    (argv : list str) : option (ending * option (list TrackModel.row)) :=
  match parse_args codec_parser (y_env Y) fs argv with
  | None => None
  | Some (Exited c fs1) => Some (MkEnding c fs1 [] None None, None)
  | Some (Parsed ns fs1) =>
      match get ns "codec_path", get ns "data" with
      | Some (VText codec), Some data =>
          let ends r := match r with
                        | Raise e => Some (MkEnding 1 fs1 [] None (Some e), None)
                        | Ok rows => Some (MkEnding 0 fs1 [] None None, Some rows)
                        end in
          match dget str_eqb codec fs1 with
          | None => ends (Raise FileNotFound)
          | Some b =>
              match codec_xt b with
              | Raise e => ends (Raise e)
              | Ok (s, buffer) => ends (track_merges orders (List.length (s_table s)) buffer (pool s (lines_of Y fs1 stdin data)))
              end
          end
      | _, _ => None
      end
  end.
