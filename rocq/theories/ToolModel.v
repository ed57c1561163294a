(** The other commands from their command lines: nlcodec-learn (learn.py), nlcodec-freq (term_freq.py) and
    nlcodec-bitextdb (bitextdb.py). *)
From Coq Require Import Strings.String.
From Verif Require Import Py PyStr CodecModel VocabFileModel LearnModel EvalModel DriverModel FreqModel MultipartModel BitextModel MainModel ArgModel CmdModel.
Local Open Scope list_scope.

(** Path.with_suffix (learn.py:67-68): the last component without its suffix, and the new suffix.  None is
    ValueError: there is no last component.  Simplification: the path is taken as it is spelled (pathlib drops
    doubled and trailing slashes). *)
Fixpoint last_slash (p : str) : str * str :=
  match p with
  | [] => ([], [])
  | c :: p' => let (d, n) := last_slash p' in
               match d with
               | [] => if N.eqb c 47 then ([c], n) else ([], c :: n)
               | _ => (c :: d, n)
               end
  end.
(** The name up to its last dot; None when it has none. *)
Fixpoint last_dot (n : str) : option (str * str) :=
  match n with
  | [] => None
  | c :: n' => match last_dot n' with
               | Some (a, b) => Some (c :: a, b)
               | None => if N.eqb c 46 then Some ([], n') else None
               end
  end.
Definition with_suffix (p suffix : str) : option str :=
  let (d, n) := last_slash p in
  if str_eqb n [] || str_eqb n (lit ".") then None
  else Some (d ++ match last_dot n with
                  | Some ([], _) | Some (_, []) | None => n
                  | Some (stem, _) => stem
                  end ++ suffix).

(** The lines spark.read.text gives for the bytes of a file (spark.py, term_freq.py:33-36); None: no such path. *)
Definition read_paths (lines : list N -> list str) (fs : ArgModel.files) (ps : list value) : option (list (list str)) :=
  fold_right (fun v acc => match v, acc with
                           | VText p, Some l => match dget str_eqb p fs with Some b => Some (lines b :: l) | None => None end
                           | _, _ => None
                           end) (Some []) ps.

(** learn.py:64-89.  The run itself is DriverModel.learn_main, from which the files that were written are those
    that are there.  A path that is not there ends Spark's reading with an exception.
    Simplification: the statistics are stored as their text, without gzip. *)
Definition learn_program (A : arith) (orders : nat -> list nat -> list nat) (version now : str) (sp : counting) (Y : system A)
    (lines : list N -> list str) (fs : ArgModel.files) (argv : list str) : option ending :=
  match parse_args learn_parser (y_env Y) fs argv with
  | None => None
  | Some (Exited c fs1) => Some (MkEnding c fs1 [] None None)
  | Some (Parsed ns fs1) =>
      let fails e := Some (MkEnding 1 fs1 [] None (Some e)) in
      match get ns "inp", get ns "model", get ns "level", get ns "dedup" with
      | Some inp, Some (VText model), Some (VText level), Some (VBool dedup) =>
          match get ns "vocab_size", get ns "min_freq", get ns "char_coverage", get ns "min_co_ev" with
          | Some (VInt vs), Some mf, Some (VNum cv), Some (VInt mce) =>
              match with_suffix model (lit ".wordfreq.gz"), with_suffix model (lit ".charfreq.gz") with
              | Some w, Some c =>
                  let stats := if str_eqb level (lit "char") then c else w in
                  match dget str_eqb stats fs1 with
                  | Some _ => fails TypeError
                  | None =>
                      match inp with
                      | VMany ps =>
                          match read_paths lines fs1 ps with
                          | None => fails OtherError
                          | Some texts =>
                              let (f, e) := learn_main A orders version now sp (MkFiles None None (dget str_eqb model fs1)) texts level vs
                                              (match mf with VInt z => Some z | _ => None end) (y_num Y cv) mce dedup in
                              let put p t fs := match t with Some b => dset str_eqb p b fs | None => fs end in
                              Some (MkEnding (match e with None => 0%Z | Some _ => 1%Z end)
                                      (put model (f_model f) (put c (option_map (y_bytes Y) (f_chars f)) (put w (option_map (y_bytes Y) (f_words f)) fs1)))
                                      [] None e)
                          end
                      | _ => fails TypeError
                      end
                  end
              | _, _ => fails ValueError
              end
          | _, _, _, _ => None
          end
      | _, _, _, _ => None
      end
  end.

(** term_freq.py:83-111.  The run is FreqModel.freq_main.  Simplification: when both outputs are one file, the
    second text replaces the first. *)
Definition freq_program {A : arith} (sp : counting) (Y : system A) (lines : list N -> list str) (fs : ArgModel.files) (argv : list str) : option ending :=
  match parse_args freq_parser (y_env Y) fs argv with
  | None => None
  | Some (Exited c fs1) => Some (MkEnding c fs1 [] None None)
  | Some (Parsed ns fs1) =>
      match get ns "inp", get ns "word_freqs", get ns "char_freqs", get ns "dedup" with
      | Some inp, Some wf, Some cf, Some (VBool dedup) =>
          let given v := match v with VNone => false | _ => true end in
          let fails e := Some (MkEnding 1 fs1 [] None (Some e)) in
          let texts := match inp with VMany ps => match read_paths lines fs1 ps with Some t => Ok (Some t) | None => Raise OtherError end | _ => Ok None end in
          match texts with
          | Raise e => fails (if given wf || given cf then e else AssertionError)
          | Ok texts =>
              let (f, e) := freq_main sp (MkFreqFiles None None) texts (given wf) (given cf) (negb dedup) in
              match e with
              | Some e => fails e
              | None =>
                  let put v t (x : ArgModel.files * str) : ArgModel.files * str :=
                    match v, t with
                    | VOut p, Some t => (dset str_eqb p (y_bytes Y t) (fst x), snd x)
                    | VStdout, Some t => (fst x, snd x ++ t)
                    | _, _ => x
                    end in
                  let (fs2, out) := put cf (q_chars f) (put wf (q_words f) (fs1, [])) in
                  Some (MkEnding 0 fs2 out None None)
              end
          end
      | _, _, _, _ => None
      end
  end.

(** bitextdb.py:17-65: what is started, with the files named.  Refused: the status; failed: an exception before
    anything is stored; Started: BitextModel.bitextdb, on the directory --db. *)
Inductive started : Type := Refused (code : Z) | Failed (e : exn) | Started (db : str) (run : io mdb).

Definition bitext_program {A : arith} (w : world) (cl : cluster) (pad : nat) (Y : system A) (lines : list N -> list str)
    (fs : ArgModel.files) (argv : list str) : option started :=
  match parse_args bitext_parser (y_env Y) fs argv with
  | None => None
  | Some (Exited c _) => Some (Refused c)
  | Some (Parsed ns _) =>
      match get ns "src_model", get ns "tgt_model", get ns "src_text", get ns "tgt_text", get ns "db_path" with
      | Some (VText sm), Some tm, Some (VText xt), Some (VText yt), Some (VText db) =>
          match get ns "num_parts", get ns "src_col", get ns "tgt_col", get ns "src_len", get ns "tgt_len", get ns "truncate" with
          | Some (VInt np), Some (VText sc), Some (VText tc), Some (VInt sl), Some (VInt tl), Some (VBool trunc) =>
              match dget str_eqb xt fs, dget str_eqb yt fs with
              | Some xs, Some ys =>
                  let run smb tmb := Some (Started db (bitextdb w cl pad smb tmb (lines xs) (lines ys) np sc tc sl tl trunc)) in
                  match dget str_eqb sm fs, tm with
                  | None, _ => Some (Failed FileNotFound)
                  | Some smb, VText p =>
                      match dget str_eqb p fs with
                      | Some tmb => run smb (Some tmb)
                      | None => Some (Failed (match load_scheme smb with Ok _ => FileNotFound | Raise e => e end))
                      end
                  | Some smb, _ => run smb None
                  end
              | _, _ => Some (Failed AssertionError)
              end
          | _, _, _, _, _, _ => None
          end
      | _, _, _, _, _ => None
      end
  end.
