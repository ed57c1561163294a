(** nlcodec-freq (term_freq.py) and the learning from a file of frequencies (nlcodec learn -tfs). *)
From Coq Require Import Strings.String.
From Verif Require Import Py PyStr Utf8Model JsonModel CodecModel VocabFileModel LearnModel LearnBpeModel DriverModel MainModel.
Local Open Scope Z_scope.
Local Open Scope list_scope.

(** The two output files as a run leaves them; None is a file that is not there. *)
Record freq_files : Set := MkFreqFiles { q_words : option str; q_chars : option str }.

(** term_freq.py:83-89 (main) and 92-111 (parse_args).  [wf], [cf]: the options -wf and -cf are given;
    [inp] is None when -i is not given (nargs='+' gives at least one path otherwise); [ndd] is -ndd.
    argparse.FileType('w') opens the outputs, and so empties them, before anything else is done (term_freq.py:99-102).
    --dedup and --no-dedup share a destination, and argparse takes the default of the first (term_freq.py:104-107), True.
    Without -i, the loop over the paths in word_counts (term_freq.py:33) is over None.
    Simplification: the outputs are their text, and are complete when main is left (closed on exit). *)
Definition freq_main (sp : counting) (old : freq_files) (inp : option (list (list str))) (wf cf ndd : bool)
  : freq_files * option exn :=
  let opened := MkFreqFiles (if wf then Some [] else q_words old) (if cf then Some [] else q_chars old) in
  if negb (wf || cf) then (opened, Some AssertionError)
  else
    match inp with
    | None => (opened, Some TypeError)
    | Some texts =>
        match word_counts sp texts (negb ndd) with
        | Raise e => (opened, Some e)
        | Ok (words, chars, line_count) =>
            let meta := [(lit "line_count", JInt line_count)] in
            (MkFreqFiles (if wf then Some (write_stats words meta) else q_words opened)
                         (if cf then Some (write_stats chars meta) else q_chars opened), None)
        end
    end.

(** bytes.decode('utf-8') with errors='strict', as argparse.FileType('r') reads text (__main__.py:41, a utf-8
    locale): ill-formed input is marked by a surrogate, which well-formed input cannot give. *)
Definition utf8_strict (bs : list N) : res str :=
  let s := utf8_decode [0xD800%N] bs in
  if existsb (fun c => N.eqb c 0xD800) s then Raise UnicodeError else Ok s.

(** The options of a run of nlcodec learn on the text [s]. *)
Definition with_inp {A} (o : options A) (s : str) : options A :=
  MkOptions (o_task o) s (o_term_freqs o) (o_indices o) (o_vocab_size o) (o_level o) (o_min_freq o) (o_coverage o) (o_min_co_ev o).

(** nlcodec learn (__main__.py:80-100, codec.py:642-664) where --inp is the file [bytes]; [o_inp] is not used.
    Bytes that are not utf-8 raise when the first line is read: after the checks of __main__.py:97 and codec.py:506-510,
    and never at the level byte, which does not read its input (codec.py:624-628).
    Simplification: the file is decoded in one piece (Python reads pieces of 8 KiB). *)
Definition learn_file (A : arith) (orders : nat -> list nat -> list nat) (version now : str)
    (model : option (list N)) (o : options A) (bytes : list N) : run :=
  match utf8_strict bytes with
  | Ok s => main A orders version now model (with_inp o s)
  | Raise e =>
      let fails e := MkRun model [] None (Some e) in
      match o_level o with
      | None | Some [] => fails AssertionError
      | Some level =>
          match dget str_eqb level REGISTRY with
          | None => fails KeyError
          | Some KByte => main A orders version now model (with_inp o [])
          | Some KBpe =>
              let mco := if str_eqb level (lit "bpe") then o_min_co_ev o else DEF_MIN_CO_EV in
              let vs := if (mco >? 1) && (o_vocab_size o <=? 1) then maxsize else o_vocab_size o in
              if vs >? 0 then fails e else fails AssertionError
          | Some _ => fails e
          end
      end
  end.
