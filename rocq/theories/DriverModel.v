(** The learning drivers: learn_vocab (codec.py:642-664), word counting on Spark (term_freq.py) and the
    tool nlcodec-learn (learn.py). *)
From Coq Require Import Strings.String.
From Verif Require Import Py PyStr JsonModel CodecModel VocabFileModel LearnModel LearnBpeModel.
Local Open Scope Z_scope.
Local Open Scope list_scope.
Local Open Scope res_scope.

(** nlcodec/__init__.py:15-18 *)
Definition DEF_WORD_MIN_FREQ : Z := 1.
Definition DEF_CHAR_MIN_FREQ : Z := 20.
Definition DEF_MIN_CO_EV : Z := 95.

(** codec.py:644-648. None is falsy, and so is 0. *)
Definition effective_min_freq (level : str) (min_freq : option Z) : Z :=
  let dflt := if str_eqb level (lit "word") then DEF_WORD_MIN_FREQ else DEF_CHAR_MIN_FREQ in
  match min_freq with
  | None => dflt
  | Some m => if (m =? 0) || (m <? 1) then dflt else m
  end.

(** codec.py:655-662, the call of Scheme.learn. [coverage] is None for a coverage of 0; a word scheme is
    not given one, and its default (codec.py:395) is 0.  BPEScheme.learn (codec.py:504-505) takes min_freq
    and does not use it; its min_co_evidence is passed for the level 'bpe' only. *)
Definition learn_level (A : arith) (orders : nat -> list nat -> list nat) (inp : list str) (level : str)
    (k : kind) (vocab_size min_freq : Z) (term_freqs : bool) (coverage : option (num A)) (min_co_ev : Z) : res (list Typ) :=
  let coverage := if str_eqb level (lit "word") then None else coverage in
  match k with
  | KBpe => learn_bpe A orders inp vocab_size coverage (if str_eqb level (lit "bpe") then min_co_ev else DEF_MIN_CO_EV) term_freqs
  | _ => learn_flat A k inp vocab_size min_freq coverage term_freqs
  end.

(** codec.py:642-664, learn_vocab: the bytes written to the model file, if it is opened, and the result.
    [model] says whether a path is given; [version] and [now] go into the header of the file. *)
Definition learn_vocab (A : arith) (orders : nat -> list nat -> list nat) (version now : str) (inp : list str)
    (level : str) (model : bool) (vocab_size : Z) (min_freq : option Z) (term_freqs : bool)
    (coverage : option (num A)) (min_co_ev : Z) : option (list N) * res (list Typ) :=
  match dget str_eqb level REGISTRY with
  | None => (None, Raise KeyError)
  | Some k =>
      match learn_level A orders inp level k vocab_size (effective_min_freq level min_freq) term_freqs coverage min_co_ev with
      | Raise e => (None, Raise e)
      | Ok table =>
          if model then
            match make_scheme k table with
            | Raise e => (None, Raise e)
            | Ok s =>
                let (bytes, r) := save version now s in
                (Some bytes, match r with Ok _ => Ok table | Raise e => Raise e end)
            end
          else (None, Ok table)
      end
  end.

(** What Spark is free to choose in word_counts: which rows drop_duplicates keeps and in what order, and
    the order of the entries of the two maps collected. *)
Record counting : Type := MkCounting {
  distinct_rows : list str -> list str;
  collect_words : list (str * Z) -> list (str * Z);
  collect_chars : list (str * Z) -> list (str * Z) }.

(** term_freq.py:43 *)
Definition SENT_TAG : str := lit "<!S!>".
(** reduceByKey with addition (term_freq.py:48-49, 56-57). Addition is applied from left
    to right; that any other order and grouping of the summands gives the same entries is C160. *)
Definition reduce_by_key (pairs : list (str * Z)) : list (str * Z) :=
  fold_left (fun d kv => dadd str_eqb (fst kv) (snd kv) d) pairs [].

(** term_freq.py:17-60, word_counts, from the lines of the files as spark.read.text gives them.  Left out:
    starting and stopping the session. *)
Definition word_counts (sp : counting) (texts : list (list str)) (dedup : bool)
  : res (list (str * Z) * list (str * Z) * Z) :=
  let* df := match texts with [] => Raise IndexError | _ => Ok (concat texts) end in
  let df := if dedup then distinct_rows sp df else df in
  let word_freqs := collect_words sp
    (reduce_by_key (flat_map (fun row => map (fun w => (w, 1)) (SENT_TAG :: split (strip row))) df)) in
  let* line_count := match dget str_eqb SENT_TAG word_freqs with Some n => Ok n | None => Raise KeyError end in
  let word_freqs := ddel str_eqb SENT_TAG word_freqs in
  let char_freqs := collect_chars sp
    (reduce_by_key (flat_map (fun r => map (fun ch => ([ch], snd r)) (fst r)) word_freqs)) in
  Ok (word_freqs, char_freqs, line_count).

(** The files of nlcodec-learn: the two statistics files beside the model, and the model.  Simplification:
    a statistics file is its text (gzip and utf-8 are left out, as the words Spark reads are valid text). *)
Record files : Set := MkFiles { f_words : option str; f_chars : option str; f_model : option (list N) }.

(** learn.py:62-86, main, after parse_args: the files it leaves behind and the exception that ends it.
    When the statistics exist, 'inp' stays in args (learn.py:72-75), so the call in line 86 passes inp twice. *)
Definition learn_main (A : arith) (orders : nat -> list nat -> list nat) (version now : str) (sp : counting)
    (fs : files) (texts : list (list str)) (level : str) (vocab_size : Z) (min_freq : option Z)
    (coverage : option (num A)) (min_co_ev : Z) (dedup : bool) : files * option exn :=
  let is_char := str_eqb level (lit "char") in
  match (if is_char then f_chars fs else f_words fs) with
  | Some _ => (fs, Some TypeError)
  | None =>
      match word_counts sp texts dedup with
      | Raise e => (fs, Some e)
      | Ok (words, chars, line_count) =>
          let meta := [(lit "line_count", JInt line_count)] in
          let wtext := write_stats words meta in
          let ctext := write_stats chars meta in
          let stats := if is_char then ctext else wtext in
          let (model, r) := learn_vocab A orders version now (file_lines stats) level true vocab_size min_freq
                              true coverage min_co_ev in
          (MkFiles (Some wtext) (Some ctext) (match model with Some b => Some b | None => f_model fs end),
           match r with Ok _ => None | Raise e => Some e end)
      end
  end.
