(** experimental/bpepp.py: a second implementation of byte pair encoding, with two levels of merges
    (subwords, phrases), its own learner, its own vocabulary files and its own command line.
    Line numbers without a file name are of experimental/bpepp.py. *)
From Coq Require Import Strings.String.
From Verif Require Import Py PyStr Utf8Model JsonModel CodecModel VocabFileModel LearnModel HeapModel LearnBpeModel.
Local Open Scope Z_scope.
Local Open Scope list_scope.
Local Open Scope res_scope.

(** ** The codec *)
(** 252-264, BpeCodec.__init__ of a list of types: the table must not be empty; 266-274,
    make_vocab_prefix_trie, and 174-186, TrNode.get_node, are line by line those of codec.py:447-455 and
    dstruct.py:92-97. The result is the root of the trie. *)
Definition pp_codec (vocab : list Typ) : res trnode :=
  let* _ := assert_ (match vocab with [] => false | _ => true end) in
  make_vocab_prefix_trie vocab.

(** 309-341, the segmentation loop; line by line that of codec.py:475-493, with unk_idx = 1 (249).
    Fuel as there. *)
Definition pp_segment (root : trnode) (line : str) : res (list Z) :=
  let sq := bpe_text line in
  let n := length sq in
  l_loop (S n * S (S n)) root UNK_IDX (MkL sq 0 root None []).

(** 345-346, decode *)
Definition pp_decode (vocab : list Typ) (ids : list Z) : res (list str) :=
  mapM (fun i => let* t := py_nth vocab i in Ok (t_name t)) ids.

(** 309-343, encode with pieces=False; with pieces=True *)
Definition pp_encode (root : trnode) (line : str) : res (list Z) := pp_segment root line.
Definition pp_encode_pieces (vocab : list Typ) (root : trnode) (line : str) : res (list str) :=
  let* ids := pp_segment root line in pp_decode vocab ids.

(** 348-350, decode_as_str *)
Definition pp_decode_as_str (vocab : list Typ) (ids : list Z) : res str :=
  let* names := pp_decode vocab ids in
  Ok (strip (replace_char MARK SPACE (concat names))).

(** ** Vocabulary files *)
(** 278-287: the header. __version__ is the float 0.2 (28), written by json.dumps as 0.2; there is no
    max_level and no scheme. *)
Definition pp_header (now : str) (vocab : list Typ) : str :=
  lit "{""total"": " ++ str_of_Z (Z.of_nat (length vocab)) ++ lit ", ""version"": 0.2, ""levels"": "
  ++ dumps (JObj (map (fun lc => (str_of_Z (fst lc), JInt (snd lc))) (levels_of vocab)))
  ++ lit ", ""created"": " ++ dumps (JStr now) ++ lit "}".
(** 276-289, write_vocab to a path: the bytes in the file afterwards and the outcome. Type.format
    (224-227) is that of codec.py:77-80. Simplification: as for write_out (VocabFileModel.v). *)
Definition pp_write_vocab (now : str) (vocab : list Typ) : list N * res unit :=
  let '(txt, r) := write_rows 0 vocab in
  (utf8_encode_ignore ([35%N] ++ pp_header now vocab ++ [LF] ++ txt), r).
(** 291-307, read_vocab of a path; the loop 299-303 and Type.parse (229-240) are those of
    codec.py:145-150 and 89-100. A first line that starts with '#' is dropped unread. *)
Definition pp_read_vocab (bytes : list N) : res (list Typ) :=
  match vocab_lines bytes with
  | [] => Raise IndexError
  | l0 :: rest =>
      let lines := if startswith (lit "#") l0 then rest else l0 :: rest in
      let* vocab := read_rows 0 lines (repeat None (length lines)) in
      Ok (filled vocab)
  end.
(** 252-264, BpeCodec.__init__ of a path *)
Definition pp_load (bytes : list N) : res (list Typ * trnode) :=
  let* vocab := pp_read_vocab bytes in
  let* root := pp_codec vocab in
  Ok (vocab, root).

(** ** encode and decode on the command line *)
(** 352-358, encode_all with stringify=True, for one line *)
Definition pp_encode_line (pieces : bool) (vocab : list Typ) (root : trnode) (line : str) : res str :=
  if pieces then let* ps := pp_encode_pieces vocab root line in Ok (join [SPACE] ps)
  else let* ids := pp_encode root line in Ok (join [SPACE] (map str_of_Z ids)).
(** 766-767: [for line in lines: out.write(line + '\n')] over the generator encode_all: the text
    written and the exception that ended the loop, if any. *)
Fixpoint pp_write_lines (f : str -> res str) (inp : list str) : str * option exn :=
  match inp with
  | [] => ([], None)
  | line :: inp' =>
      match f line with
      | Raise e => ([], Some e)
      | Ok txt => let (out, e) := pp_write_lines f inp' in (txt ++ [LF] ++ out, e)
      end
  end.
(** 751-767, run with cmd 'encode'. The input is the text of a file or of stdin (universal newlines).
    Simplifications: the encodings of input and output are not modelled here; argparse is in PpArgModel.v. *)
Definition pp_cli_encode (model : list N) (pieces : bool) (inp : str) : str * option exn :=
  match pp_load model with
  | Raise e => ([], Some e)
  | Ok (vocab, root) => pp_write_lines (pp_encode_line pieces vocab root) (file_lines inp)
  end.
(** 360-363, decode_all with stringify=True: a function with [return] inside its loop, not a generator.
    None when there are no lines. *)
Definition pp_decode_all (vocab : list Typ) (lines : list str) : res (option str) :=
  match lines with
  | [] => Ok None
  | line :: _ =>
      let* ids := mapM int_of_str (split (strip line)) in
      let* txt := pp_decode_as_str vocab ids in
      Ok (Some txt)
  end.
(** 751-767, run with cmd 'decode': the value of decode_all is iterated: a string yields its
    characters, None raises TypeError. *)
Definition pp_cli_decode (model : list N) (inp : str) : str * option exn :=
  match pp_load model with
  | Raise e => ([], Some e)
  | Ok (vocab, _) =>
      match pp_decode_all vocab (file_lines inp) with
      | Raise e => ([], Some e)
      | Ok None => ([], Some TypeError)
      | Ok (Some txt) => pp_write_lines (fun c => Ok c) (map (fun c => [c]) txt)
      end
  end.

(** ** The learner *)
(** 579-593, _is_troublesome_seq *)
Definition is_troublesome_seq (s : list Z) : bool :=
  existsb (fun i => (nth i s 0 =? nth (i - 1) s 0) && (nth (i - 1) s 0 =? nth (i - 2) s 0))
          (List.seq 2 (length s - 2)).
(** 595-603, _replace_trouble: buffer[i] is 1 + buffer[i-1] when seq[i] == seq[i-1], otherwise 1 *)
Definition trouble_buffer (s : list Z) : list nat :=
  fold_left (fun buf i => if nth i s 0 =? nth (i - 1) s 0 then set_nth i (nth (i - 1) buf 0%nat + 1)%nat buf else buf)
            (List.seq 1 (length s - 1)) (repeat 1%nat (length s)).
Definition replace_trouble (s : list Z) : list Z :=
  map fst (filter (fun xf => (snd xf <=? 2)%nat) (combine s (trouble_buffer s))).

(** The parameter troubles (521): 'ignore' or 'replace'; any other value fails the assertion 522. *)
Inductive troubles := Ignore | Replace.

(** 539-571: one round of the loop over the sequences. An element of [seqs] may be an exception: the
    sequences come from a generator that can raise. Without troubles the rest of the body (562-571) is
    that of bpe.py:64-73, index_seq for a sequence that is not the first. *)
Definition pp_index_seq (tr : troubles) (ix : index) (isf : Z * res (list Z * Z)) : res index :=
  let '(idx, rsf) := isf in
  let* (s, freq) := rsf in
  let* _ := if idx =? 0 then py_nth s 0 else Ok 0 in
  match s with
  | [] => Ok ix
  | _ =>
      if is_troublesome_seq s then
        match tr with
        | Ignore => Ok ix
        | Replace => index_seq ix (1, (replace_trouble s, freq))
        end
      else index_seq ix (1, (s, freq))
  end.
(** 520-577, BPELearn.__init__; validate_index (609-639) is that of bpe.py:81-114. *)
Definition pp_init (tr : troubles) (seqs : list (res (list Z * Z))) (vocab : list Typ) : res index :=
  let* _ := assert_ (Nat.eqb (distinct_count Z.eqb (map t_idx vocab))
                             (distinct_count str_eqb (map t_name vocab))) in
  let* _ := foldM (fun _ (iv : Z * Typ) => assert_ (fst iv =? t_idx (snd iv))) (enumerate vocab) tt in
  let* ix := foldM (pp_index_seq tr) (enumerate seqs) (MkIndex [] [] [] []) in
  let* _ := validate_index ix vocab in
  Ok ix.

(** 129-138, LnNode.delete: unlike dstruct.py the node itself keeps its links *)
Definition pp_delete (i : nat) (st : list lnode) : res (list lnode) :=
  let* self := node_at st i in
  let st := upd_opt (n_left self) (set_right (n_right self)) st in
  Ok (upd_opt (n_right self) (set_left (n_left self)) st).

(** [max(bi, key=bi.get)], 655: the first key with the largest value *)
Fixpoint max_key (best : (Z * Z) * Z) (d : list ((Z * Z) * Z)) : (Z * Z) * Z :=
  match d with
  | [] => best
  | e :: d' => max_key (if snd best <? snd e then e else best) d'
  end.
Definition py_max_key (d : list ((Z * Z) * Z)) : res ((Z * Z) * Z) :=
  match d with [] => Raise ValueError | e :: d' => Ok (max_key e d') end.

(** [bi[p]] read from a defaultdict: a missing key is inserted with value 0 *)
Definition dtouch (p : Z * Z) (bi : list ((Z * Z) * Z)) : list ((Z * Z) * Z) := dadd pair_eqb p 0 bi.
(** [bi_ixs[p].remove(i)], 700, 708 *)
Definition pp_ixs_remove (p : Z * Z) (i : nat) (ixs : list ((Z * Z) * list nat))
  : res (list ((Z * Z) * list nat)) :=
  let* s' := set_remove i (dget_def pair_eqb p [] ixs) in
  Ok (dset pair_eqb p s' ixs).

(** The attributes of BPELearn during learn_codes *)
Record ppstate : Set := MkPP {
  pp_nodes : list lnode; pp_uni : list (Z * Z); pp_bi : list ((Z * Z) * Z);
  pp_ixs : list ((Z * Z) * list nat); pp_vocab : list Typ }.

(** 696-703: the left neighbour x; 704-711 is the same for the right neighbour, [old] being the pair
    that goes, [new] the pair that comes, [f] the frequency used, [i] the node that leaves the set of
    [old] and [j] the one that joins the set of [new]. *)
Definition pp_side (old new : Z * Z) (f : Z) (i j : nat) (bx : list ((Z * Z) * Z) * list ((Z * Z) * list nat))
  : res (list ((Z * Z) * Z) * list ((Z * Z) * list nat)) :=
  let '(bi, ixs) := bx in
  let bi := dtouch old bi in
  if dget_def pair_eqb old 0 bi >? 0 then
    let bi := dadd pair_eqb old (- f) bi in
    let* _ := assert_ (dget_def pair_eqb old 0 bi >=? 0) in
    let* ixs := pp_ixs_remove old i ixs in
    Ok (dadd pair_eqb new f bi, ixs_add new j ixs)
  else Ok (bi, ixs).

(** 681-711: one iteration of [for node in update_nodes]. An attribute access on None raises
    AttributeError. When the list is not as expected, validate_index runs first (685) and may raise
    itself. Simplification: the warning printed then (686) is left out. *)
Definition pp_merge_node (a b r : Z) (st : ppstate) (node : nat) : res ppstate :=
  let* nd := node_at (pp_nodes st) node in
  let dirty_stop :=
    let* _ := validate_index (MkIndex (pp_nodes st) (pp_uni st) (pp_bi st) (pp_ixs st)) (pp_vocab st) in
    Raise AssertionError in
  if negb (n_val nd =? a) then dirty_stop
  else
    match n_right nd with
    | None => Raise AttributeError
    | Some bn =>
        let* bd := node_at (pp_nodes st) bn in
        if negb (n_val bd =? b) then dirty_stop
        else
          let* _ := assert_ (n_freq nd =? n_freq bd) in
          let* nodes := pp_delete bn (pp_nodes st) in
          let nodes := upd node (set_val r) nodes in
          let* bx :=
            match n_left nd with
            | None => Ok (pp_bi st, pp_ixs st)
            | Some x =>
                let* xd := node_at nodes x in
                pp_side (n_val xd, a) (n_val xd, r) (n_freq xd) x x (pp_bi st, pp_ixs st)
            end in
          let* (bi, ixs) :=
            match n_right bd with
            | None => Ok bx
            | Some y =>
                let* yd := node_at nodes y in
                pp_side (b, n_val yd) (r, n_val yd) (n_freq bd) bn node bx
            end in
          Ok (MkPP nodes (pp_uni st) bi ixs (pp_vocab st))
    end.

(** 665-711: one merge of the pair (a, b). [order] is the iteration order of the popped node set.
    new_code is always len(vocab) (the assertion 668 holds by construction). Simplification: the log
    line (662-663) is left out. *)
Definition pp_merge_pair (order : list nat -> list nat) (code_level : Z) (a b pair_freq : Z) (st : ppstate)
  : res ppstate :=
  let vocab := pp_vocab st in
  let r := Z.of_nat (length vocab) in
  let* ta := py_nth vocab a in
  let* tb := py_nth vocab b in
  let vocab := vocab ++ [MkType (t_name ta ++ t_name tb) code_level r pair_freq (Some [ta; tb])] in
  let bi := ddel pair_eqb (a, b) (pp_bi st) in
  let uni := dset Z.eqb r pair_freq (pp_uni st) in
  let uni := dadd Z.eqb a (- pair_freq) uni in
  let uni := dadd Z.eqb b (- pair_freq) uni in
  let* _ := assert_ (dget_def Z.eqb a 0 uni >=? 0) in
  let* _ := assert_ (dget_def Z.eqb b 0 uni >=? 0) in
  match dget pair_eqb (a, b) (pp_ixs st) with
  | None => Raise KeyError
  | Some update_nodes =>
      foldM (pp_merge_node a b r) (order update_nodes)
            (MkPP (pp_nodes st) uni bi (ddel pair_eqb (a, b) (pp_ixs st)) vocab)
  end.

(** 653-711: n rounds of [for i in range(n_merges)]; [orders i] is the iteration order of the i-th *)
Fixpoint pp_learn_loop (n : nat) (orders : nat -> list nat -> list nat) (i : nat) (min_co_evidence code_level : Z)
         (st : ppstate) : res ppstate :=
  match n with
  | O => Ok st
  | S n' =>
      let* (max_pair, pair_freq) := py_max_key (pp_bi st) in
      if pair_freq <? min_co_evidence then Ok st
      else
        let* st := pp_merge_pair (orders i) code_level (fst max_pair) (snd max_pair) pair_freq st in
        pp_learn_loop n' orders (S i) min_co_evidence code_level st
  end.

(** 520-577 and 641-713, BPELearn(seqs, vocab, troubles).learn_codes(...) *)
Definition pp_learn_codes (tr : troubles) (orders : nat -> list nat -> list nat) (seqs : list (res (list Z * Z)))
           (vocab : list Typ) (n_merges min_co_evidence code_level : Z) : res (list Typ) :=
  let* ix := pp_init tr seqs vocab in
  let* st := pp_learn_loop (Z.to_nat n_merges) orders 0 min_co_evidence code_level
               (MkPP (ix_nodes ix) (ix_uni ix) (ix_bi ix) (ix_bi_ixs ix) vocab) in
  Ok (pp_vocab st).

(** ** Level 1: subwords of words *)
(** 414-445, _learn_codes without init_list; _make_idxs (402-412) is that of bpe.py:241-251 *)
Definition pp_learn_words (orders : nat -> list nat -> list nat) (term_freqs : list (str * Z))
           (vocab : list Typ) (vocab_size min_co_evidence : Z) : res (list Typ) :=
  let rev_idx := fold_left (fun d t => dset str_eqb (t_name t) (t_idx t) d) vocab [] in
  let* _ := assert_ (Nat.eqb (length rev_idx) (length vocab)) in
  let* _ := assert_ (vocab_size >? Z.of_nat (length vocab)) in
  let* seqs := make_idxs rev_idx term_freqs in
  pp_learn_codes Replace orders (map (fun sf => Ok sf) seqs) vocab
                 (vocab_size - Z.of_nat (length vocab)) min_co_evidence L_subword.
(** 470-492: the initial table: reserved types, then the characters that are frequent enough and not
    reserved names, most frequent first *)
Definition pp_init_vocab (term_freqs : list (str * Z)) (char_min_freq : Z) : list Typ :=
  let alphabet := char_freqs term_freqs in
  let alphabet := if char_min_freq >? 1 then filter (fun cf => char_min_freq <=? snd cf) alphabet else alphabet in
  let alphabet := fold_left (fun d t => ddel str_eqb (t_name t) d) with_reserved_types alphabet in
  with_reserved_types ++
  map (fun icf => MkType (fst (snd icf)) L_char (fst icf) (snd (snd icf)) None)
      (enum_from (Z.of_nat (length with_reserved_types)) (sorted_desc snd alphabet)).
(** 447-500, learn_subwords *)
Definition pp_learn_subwords (orders : nat -> list nat -> list nat) (term_freqs : list (str * Z))
           (vocab_size min_co_evidence char_min_freq word_min_freq : Z) : res (list Typ) :=
  let* _ := assert_ (char_min_freq >=? 1) in
  let* _ := assert_ (word_min_freq >=? 1) in
  let term_freqs := fold_left (fun d wf => if word_min_freq <=? snd wf
                                           then dset str_eqb (prepare_word (fst wf)) (snd wf) d else d)
                              term_freqs [] in
  let init_vocab := pp_init_vocab term_freqs char_min_freq in
  if vocab_size =? -1 then Ok init_vocab
  else pp_learn_words orders term_freqs init_vocab vocab_size min_co_evidence.
(** 502-509, learn_subwords_from_corpus *)
Definition pp_learn_from_corpus (orders : nat -> list nat -> list nat) (lines : list str)
           (vocab_size min_co_evidence char_min_freq word_min_freq : Z) : res (list Typ) :=
  pp_learn_subwords orders (counter_update str_eqb (flat_map (fun l => split (strip l)) lines) [])
                    vocab_size min_co_evidence char_min_freq word_min_freq.

(** ** learn, learn1, learn2 on the command line *)
(** 365-374, read_lines over the texts of the input files *)
Definition pp_read_lines (texts : list str) : list str := map strip (flat_map file_lines texts).
(** 376-386, read_seqs: at max_seqs only a warning is logged. *)
Definition pp_read_seq (line : str) : res (list Z) :=
  let* ids := mapM int_of_str (split (strip line)) in Ok (firstn 1024 ids).

(** Files in the working directory, by name. Simplification: path names have a single component. *)
Definition files := list (str * list N).
(** pathlib.PurePath.suffix and with_suffix: the part from the last dot on, unless that dot is the first or
    the last character of the name. *)
Fixpoint last_dot (name : str) (i : nat) : option nat :=
  match name with
  | [] => None
  | c :: name' =>
      match last_dot name' (S i) with
      | Some j => Some j
      | None => if N.eqb c 46 then Some i else None
      end
  end.
Definition suffix_at (name : str) : nat :=
  match last_dot name 0 with
  | Some i => if ((0 <? i) && (i + 1 <? length name))%nat then i else length name
  | None => length name
  end.
Definition path_suffix (name : str) : str := skipn (suffix_at name) name.
Definition with_suffix (name suffix : str) : str := firstn (suffix_at name) name ++ suffix.
(** 746: the name of the file the level 1 vocabulary is moved to *)
Definition l1_name (name : str) : str := with_suffix name (lit ".l1" ++ path_suffix name).

Record pp_args : Set := MkArgs {
  char_min_freq : Z; word_min_freq : Z; vocab_size_l1 : Z; min_co_l1 : Z; vocab_size_l2 : Z; min_co_l2 : Z;
  prepared : bool }.

(** 723-730. Every step that raises ends the command. Simplification: what an interrupted write_vocab
    leaves in the file is not part of the result (the theorems show that it is never interrupted). *)
Definition pp_learn1 (orders : nat -> list nat -> list nat) (now : str) (args : pp_args) (texts : list str)
  : res (list N) :=
  let* _ := assert_ (negb (prepared args)) in
  let* _ := assert_ ((vocab_size_l1 args >? 0) || (vocab_size_l1 args =? -1)) in
  let* table := pp_learn_from_corpus orders (pp_read_lines texts) (vocab_size_l1 args) (min_co_l1 args)
                                     (char_min_freq args) (word_min_freq args) in
  let (bytes, r) := pp_write_vocab now table in
  let* _ := r in Ok bytes.
(** 732-744 and 748: the table of level 2 from the file of level 1 *)
Definition pp_learn2 (orders : nat -> list nat -> list nat) (now : str) (args : pp_args) (l1 : option (list N))
           (texts : list str) : res (list N) :=
  match l1 with
  | None => Raise AssertionError
  | Some l1 =>
      let* vocab := pp_read_vocab l1 in
      let* seqs :=
        if prepared args then
          Ok (map (fun l => let* s := pp_read_seq l in Ok (s, 1)) (pp_read_lines texts))
        else
          let* root := pp_codec vocab in
          Ok (map (fun l => let* s := pp_encode root l in Ok (s, 1)) (pp_read_lines texts)) in
      let* table := pp_learn_codes Replace orders seqs vocab (vocab_size_l2 args) (min_co_l2 args) 2 in
      let (bytes, r) := pp_write_vocab now table in
      let* _ := r in Ok bytes
  end.

Inductive pp_cmd := Learn | Learn1 | Learn2.
(** 732-748: level 2; [path_l1] is the file of level 1. The rename comes after the learning, before the
    write. *)
Definition pp_second (orders : nat -> list nat -> list nat) (now : str) (args : pp_args) (texts : list str)
           (vocab path_l1 : str) (fs : files) : files * option exn :=
  match pp_learn2 orders now args (dget str_eqb path_l1 fs) texts with
  | Raise e => (fs, Some e)
  | Ok bytes =>
      let fs :=
        if str_eqb path_l1 vocab then
          match dget str_eqb vocab fs with
          | Some old => dset str_eqb (l1_name vocab) old (ddel str_eqb vocab fs)
          | None => fs
          end
        else fs in
      (dset str_eqb vocab bytes fs, None)
  end.
(** 716-748, learn_codes: the files afterwards and the exception that ended the command, if any.
    [vocab_l1] is None when --vocab-l1 is not given. Simplification: the input files are not among
    the files written. *)
Definition pp_learn (orders1 orders2 : nat -> list nat -> list nat) (now1 now2 : str) (cmd : pp_cmd) (texts : list str)
           (vocab : str) (vocab_l1 : option str) (args : pp_args) (fs : files) : files * option exn :=
  let path_l1 := match vocab_l1 with Some p => p | None => vocab end in
  match cmd with
  | Learn2 => pp_second orders2 now2 args texts vocab path_l1 fs
  | Learn1 | Learn =>
      match pp_learn1 orders1 now1 args texts with
      | Raise e => (fs, Some e)
      | Ok bytes =>
          let fs := dset str_eqb path_l1 bytes fs in
          match cmd with
          | Learn1 => (fs, None)
          | _ => pp_second orders2 now2 args texts vocab path_l1 fs
          end
      end
  end.
