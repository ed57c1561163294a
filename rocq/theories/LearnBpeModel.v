(** nlcodec/bpe.py: the BPE learner, over the linked nodes of nlcodec/dstruct.py LnNode and
    MaxHeap; nlcodec/codec.py BPEScheme.learn. *)
From Coq Require Import Strings.String.
From Verif Require Import Py PyStr CodecModel LearnModel HeapModel.
Local Open Scope Z_scope.
Local Open Scope list_scope.
Local Open Scope res_scope.

(** dstruct.py:10-19, LnNode. Nodes live in a store and are named by their position in it (the
    object identity of Python, used by __hash__ and therefore by sets of nodes). The attribute
    data is always None here and is left out. *)
Record lnode : Set := MkNode {
  n_val : Z; n_left : option nat; n_right : option nat; n_freq : Z }.
Definition set_val (v : Z) (n : lnode) : lnode := MkNode v (n_left n) (n_right n) (n_freq n).
Definition set_left (l : option nat) (n : lnode) : lnode := MkNode (n_val n) l (n_right n) (n_freq n).
Definition set_right (r : option nat) (n : lnode) : lnode := MkNode (n_val n) (n_left n) r (n_freq n).
(** Reading and writing the object named i. A name outside the store cannot occur in Python; the
    model then reports OtherError (excluded by the theorems about the learner). *)
Definition node_at (st : list lnode) (i : nat) : res lnode :=
  match nth_error st i with Some n => Ok n | None => Raise OtherError end.
Definition upd (i : nat) (f : lnode -> lnode) (st : list lnode) : list lnode :=
  match nth_error st i with Some n => set_nth i (f n) st | None => st end.
Definition upd_opt (o : option nat) (f : lnode -> lnode) (st : list lnode) : list lnode :=
  match o with Some i => upd i f st | None => st end.

(** dstruct.py:29-40, delete(unlink=True) *)
Definition delete (i : nat) (st : list lnode) : res (list lnode) :=
  let* self := node_at st i in
  let x := n_left self in
  let y := n_right self in
  let st := upd_opt x (set_right y) st in
  let st := upd_opt y (set_left x) st in
  Ok (upd i (fun n => set_left None (set_right None n)) st).

(** dstruct.py:42-44 *)
Definition is_none {A} (o : option A) : bool := match o with None => true | Some _ => false end.
Definition is_unlinked (n : lnode) : bool := is_none (n_right n) && is_none (n_left n).

(** dstruct.py:46-60, from_seq: the new nodes get the names base, base+1, ... *)
Definition from_seq (base : nat) (s : list Z) (freq : Z) : list lnode :=
  map (fun iv =>
         let i := Z.to_nat (fst iv) in
         MkNode (snd iv)
                (if (0 <? i)%nat then Some (base + i - 1)%nat else None)
                (if (i + 1 <? length s)%nat then Some (base + i + 1)%nat else None) freq)
      (enumerate s).

(** Bigrams are pairs of indices, compared like Python tuples. *)
Definition pair_eqb (p q : Z * Z) : bool := (fst p =? fst q) && (snd p =? snd q).
Definition pair_ltb (p q : Z * Z) : bool := (fst p <? fst q) || ((fst p =? fst q) && (snd p <? snd q)).

(** A set of nodes is a duplicate-free list; where the code iterates over it, the order is an
    argument of the model. *)
Definition set_mem (i : nat) (s : list nat) : bool := existsb (Nat.eqb i) s.
Definition set_add (i : nat) (s : list nat) : list nat := if set_mem i s then s else s ++ [i].
(** set.remove: KeyError if absent *)
Definition set_remove (i : nat) (s : list nat) : res (list nat) :=
  if set_mem i s then Ok (filter (fun j => negb (Nat.eqb i j)) s) else Raise KeyError.

(** bpe.py:31-45, the attributes of BPELearn other than vocab; ix_nodes is the node store. *)
Record index : Set := MkIndex {
  ix_nodes : list lnode;
  ix_uni : list (Z * Z);
  ix_bi : list ((Z * Z) * Z);
  ix_bi_ixs : list ((Z * Z) * list nat) }.

(** bpe.py:66-71: one position of a sequence. *)
Definition index_pos (base : nat) (s : list Z) (freq : Z) (ix : index) (i : nat) : res index :=
  let bigm := (nth i s 0, nth (i + 1) s 0) in
  let bi := dadd pair_eqb bigm freq (ix_bi ix) in
  let here := dget_def pair_eqb bigm [] (ix_bi_ixs ix) in
  let* _ := assert_ (negb (set_mem (base + i)%nat here)) in
  Ok (MkIndex (ix_nodes ix) (dadd Z.eqb (fst bigm) freq (ix_uni ix)) bi
              (dset pair_eqb bigm (set_add (base + i)%nat here) (ix_bi_ixs ix))).
(** bpe.py:47-75, create_index over (sequence, frequency) tuples, as produced by _make_idxs. A bare
    sequence stands for frequency 1. The first sequence is probed with seq[0] before the empty
    sequences are skipped. *)
Definition index_seq (ix : index) (isf : Z * (list Z * Z)) : res index :=
  let '(idx, (s, freq)) := isf in
  let* _ := if idx =? 0 then py_nth s 0 else Ok 0 in
  match s with
  | [] => Ok ix
  | _ =>
      let base := length (ix_nodes ix) in
      let ix := MkIndex (ix_nodes ix ++ from_seq base s freq) (ix_uni ix) (ix_bi ix) (ix_bi_ixs ix) in
      let* ix := foldM (index_pos base s freq) (List.seq 0 (length s - 1)) ix in
      Ok (MkIndex (ix_nodes ix) (dadd Z.eqb (last s 0) freq (ix_uni ix)) (ix_bi ix) (ix_bi_ixs ix))
  end.
Definition create_index (seqs : list (list Z * Z)) : res index :=
  foldM index_seq (enumerate seqs) (MkIndex [] [] [] []).

(** bpe.py:81-114, validate_index; every failed check raises ValueError *)
Definition validate_index (ix : index) (vocab : list Typ) : res unit :=
  let* max_code := py_max (dkeys (ix_uni ix)) in
  let* max_idx := py_max (map t_idx vocab) in
  let check := fun b : bool => if b then Ok tt else Raise ValueError in
  let* _ := check ((max_code <? Z.of_nat (length vocab)) && (max_code <=? max_idx)) in
  let* _ := check (Nat.eqb (length (ix_bi ix)) (length (ix_bi_ixs ix))) in
  let* _ := foldM (fun _ (bf : (Z * Z) * Z) =>
                     let '(bigm, freq) := bf in
                     let* _ := check (freq >=? 0) in
                     let* _ := check (dmem pair_eqb bigm (ix_bi_ixs ix)) in
                     let* fs := mapM (fun n => let* x := node_at (ix_nodes ix) n in Ok (n_freq x))
                                     (dget_def pair_eqb bigm [] (ix_bi_ixs ix)) in
                     let* _ := check (freq =? zsum fs) in
                     let* _ := check (freq <=? dget_def Z.eqb (fst bigm) 0 (ix_uni ix)) in
                     check (freq <=? dget_def Z.eqb (snd bigm) 0 (ix_uni ix)))
                  (ix_bi ix) tt in
  foldM (fun _ (uf : Z * Z) => check (snd uf >=? 0)) (ix_uni ix) tt.

(** bpe.py:31-45, BPELearn.__init__ *)
Definition distinct_count {A} (dec : A -> A -> bool) (l : list A) : nat :=
  length (fold_left (fun s x => if existsb (dec x) s then s else s ++ [x]) l []).
Definition bpe_init (seqs : list (list Z * Z)) (vocab : list Typ) : res index :=
  let* _ := assert_ (Nat.eqb (distinct_count Z.eqb (map t_idx vocab))
                             (distinct_count str_eqb (map t_name vocab))) in
  let* _ := foldM (fun _ (iv : Z * Typ) => assert_ (fst iv =? t_idx (snd iv))) (enumerate vocab) tt in
  let* ix := create_index seqs in
  let* _ := validate_index ix vocab in
  Ok ix.

(** The state of learn_codes between merges. *)
Record lstate : Set := MkLS {
  ls_nodes : list lnode;
  ls_uni : list (Z * Z);
  ls_ixs : list ((Z * Z) * list nat);
  ls_heap : list (Z * (Z * Z));
  ls_dirty : list ((Z * Z) * Z);
  ls_vocab : list Typ }.

(** bpe.py:136-143: pop until the popped pair has no pending correction. Every round removes an
    entry of heap_dirty, so its size plus one is enough fuel. *)
Fixpoint pop_clean (fuel : nat) (heap : list (Z * (Z * Z))) (dirty : list ((Z * Z) * Z))
  : res ((Z * Z) * Z * list (Z * (Z * Z)) * list ((Z * Z) * Z)) :=
  match fuel with
  | O => Raise OutOfFuel
  | S fuel' =>
      let* (max_pair, pair_freq, heap) := mh_pop pair_ltb heap in
      match dget pair_eqb max_pair dirty with
      | None => Ok (max_pair, pair_freq, heap, dirty)
      | Some freq_update =>
          let dirty := ddel pair_eqb max_pair dirty in
          let* _ := assert_ (freq_update <? 0) in
          let corr_freq := pair_freq + freq_update in
          let* _ := assert_ (corr_freq >=? 0) in
          let* heap := if corr_freq >? 0 then mh_push pair_ltb heap max_pair corr_freq else Ok heap in
          pop_clean fuel' heap dirty
      end
  end.

(** The part of the state that the loop over update_nodes changes. *)
Record mstate : Set := MkMS {
  ms_nodes : list lnode;
  ms_uni : list (Z * Z);
  ms_ixs : list ((Z * Z) * list nat);
  ms_deltas : list ((Z * Z) * Z) }.

(** [if bi_ixs.get(p): bi_ixs[p].remove(i)], bpe.py:201-203, 211-213 *)
Definition ixs_remove (p : Z * Z) (i : nat) (ixs : list ((Z * Z) * list nat))
  : res (list ((Z * Z) * list nat)) :=
  match dget pair_eqb p ixs with
  | None | Some [] => Ok ixs
  | Some s => let* s' := set_remove i s in Ok (dset pair_eqb p s' ixs)
  end.
(** [bi_ixs[p].add(i)], bpe.py:207, 217 *)
Definition ixs_add (p : Z * Z) (i : nat) (ixs : list ((Z * Z) * list nat))
  : list ((Z * Z) * list nat) :=
  dset pair_eqb p (set_add i (dget_def pair_eqb p [] ixs)) ixs.

(** bpe.py:170-217: one iteration of [for node in update_nodes]. An attribute access on None
    raises AttributeError. *)
Definition merge_node (a b r : Z) (ms : mstate) (node : nat) : res mstate :=
  let* nd := node_at (ms_nodes ms) node in
  let x_node := n_left nd in
  let b_node := n_right nd in
  let skip := Ok (MkMS (ms_nodes ms)
                       (dadd Z.eqb r (- n_freq nd)
                         (dadd Z.eqb b (n_freq nd) (dadd Z.eqb a (n_freq nd) (ms_uni ms))))
                       (ms_ixs ms) (ms_deltas ms)) in
  if is_unlinked nd then skip
  else
    match b_node with
    | None => Raise AttributeError
    | Some bn =>
        let* bd := node_at (ms_nodes ms) bn in
        if (a =? b) && ((r =? n_val nd) || (r =? n_val bd)) then skip
        else
          let y_node := n_right bd in
          let* _ := assert_ (negb (negb (n_val nd =? a) || negb (n_val bd =? b))) in
          let* _ := assert_ (n_freq nd =? n_freq bd) in
          let* nodes := delete bn (ms_nodes ms) in
          let nodes := upd node (set_val r) nodes in
          let* (ixs, deltas) :=
            match x_node with
            | None => Ok (ms_ixs ms, ms_deltas ms)
            | Some x =>
                let* xd := node_at nodes x in
                let deltas := dadd pair_eqb (n_val xd, a) (- n_freq xd) (ms_deltas ms) in
                let* ixs := ixs_remove (n_val xd, a) x (ms_ixs ms) in
                Ok (ixs_add (n_val xd, r) x ixs, dadd pair_eqb (n_val xd, r) (n_freq xd) deltas)
            end in
          let* (ixs, deltas) :=
            match y_node with
            | None => Ok (ixs, deltas)
            | Some y =>
                let* yd := node_at nodes y in
                let deltas := dadd pair_eqb (b, n_val yd) (- n_freq bd) deltas in
                let* ixs := ixs_remove (b, n_val yd) bn ixs in
                Ok (ixs_add (r, n_val yd) node ixs, dadd pair_eqb (r, n_val yd) (n_freq bd) deltas)
            end in
          Ok (MkMS nodes (ms_uni ms) ixs deltas)
    end.

(** bpe.py:223-229: new pairs go to the heap, decrements to heap_dirty *)
Definition apply_delta (r : Z) (hd : list (Z * (Z * Z)) * list ((Z * Z) * Z)) (pd : (Z * Z) * Z)
  : res (list (Z * (Z * Z)) * list ((Z * Z) * Z)) :=
  let '(heap, dirty) := hd in
  let '(pr, delta) := pd in
  let has_r := (r =? fst pr) || (r =? snd pr) in
  if delta >? 0 then
    let* _ := assert_ has_r in
    let* heap := mh_push pair_ltb heap pr delta in Ok (heap, dirty)
  else if delta <? 0 then
    let* _ := assert_ (negb has_r) in
    Ok (heap, dadd pair_eqb pr delta dirty)
  else Ok (heap, dirty).

(** bpe.py:151-229: one merge. [order] is the iteration order of the popped node set. Simplification:
    the log line (bpe.py:153-156) is left out. *)
Definition merge_pair (order : list nat -> list nat) (code_level : Z) (a b pair_freq : Z)
           (heap : list (Z * (Z * Z))) (dirty : list ((Z * Z) * Z)) (st : lstate) : res lstate :=
  let vocab := ls_vocab st in
  let r := Z.of_nat (length vocab) in
  let* ta := py_nth vocab a in
  let* tb := py_nth vocab b in
  let new_type := MkType (t_name ta ++ t_name tb) code_level r pair_freq (Some [ta; tb]) in
  let vocab := vocab ++ [new_type] in
  let uni := dset Z.eqb r pair_freq (ls_uni st) in
  let uni := dadd Z.eqb a (- pair_freq) uni in
  let uni := dadd Z.eqb b (- pair_freq) uni in
  match dget pair_eqb (a, b) (ls_ixs st) with
  | None => Raise KeyError
  | Some update_nodes =>
      let ixs := ddel pair_eqb (a, b) (ls_ixs st) in
      let* ms := foldM (merge_node a b r) (order update_nodes) (MkMS (ls_nodes st) uni ixs []) in
      let* _ := assert_ (dget_def Z.eqb a 0 (ms_uni ms) >=? 0) in
      let* _ := assert_ (dget_def Z.eqb b 0 (ms_uni ms) >=? 0) in
      let* (heap, dirty) := foldM (apply_delta r) (ms_deltas ms) (heap, dirty) in
      Ok (MkLS (ms_nodes ms) (ms_uni ms) (ms_ixs ms) heap dirty vocab)
  end.

(** bpe.py:133-231: [for i in range(n_merges)]. Every merge removes a node, so the number of nodes
    plus one is enough fuel. [orders i] is the iteration order used in the i-th round. *)
Fixpoint learn_loop (fuel : nat) (orders : nat -> list nat -> list nat) (i : nat) (n_merges : Z)
         (min_co_evidence code_level : Z) (st : lstate) : res lstate :=
  if n_merges <=? Z.of_nat i then Ok st
  else
    match fuel with
    | O => Raise OutOfFuel
    | S fuel' =>
        let* (max_pair, pair_freq, heap, dirty) :=
          pop_clean (S (length (ls_dirty st))) (ls_heap st) (ls_dirty st) in
        if pair_freq <? min_co_evidence then
          Ok (MkLS (ls_nodes st) (ls_uni st) (ls_ixs st) heap dirty (ls_vocab st))
        else
          let* st := merge_pair (orders i) code_level (fst max_pair) (snd max_pair) pair_freq heap dirty st in
          learn_loop fuel' orders (S i) n_merges min_co_evidence code_level st
    end.

(** bpe.py:116-231, learn_codes; the final state is returned together with the vocabulary *)
Definition learn_codes_state (orders : nat -> list nat -> list nat) (ix : index) (vocab : list Typ)
           (n_merges min_co_evidence code_level : Z) : res lstate :=
  let* heap := mh_init pair_ltb (ix_bi ix) in
  learn_loop (S (length (ix_nodes ix))) orders 0 n_merges min_co_evidence code_level
             (MkLS (ix_nodes ix) (ix_uni ix) (ix_bi_ixs ix) heap [] vocab).

(** BPELearn(seqs, vocab).learn_codes(n_merges, min_co_evidence, code_level) *)
Definition learn_codes (orders : nat -> list nat -> list nat) (seqs : list (list Z * Z)) (vocab : list Typ)
           (n_merges min_co_evidence code_level : Z) : res (list Typ) :=
  let* ix := bpe_init seqs vocab in
  let* st := learn_codes_state orders ix vocab n_merges min_co_evidence code_level in
  Ok (ls_vocab st).

(** bpe.py:233-239 *)
Definition prepare_word (w : str) : str := w ++ SPACE_TOK.

(** bpe.py:241-251, _make_idxs *)
Definition make_idxs (voc_idx : list (str * Z)) (term_freqs : list (str * Z)) : res (list (list Z * Z)) :=
  match dget str_eqb UNK_TOK voc_idx with
  | None => Raise KeyError
  | Some unk_idx =>
      Ok (map (fun wf =>
                 (match dget str_eqb (fst wf) voc_idx with
                  | Some i => [i]
                  | None => map (fun c => dget_def str_eqb [c] unk_idx voc_idx) (fst wf)
                  end, snd wf)) term_freqs)
  end.

(** bpe.py:253-284, _learn_codes (called without init_list) *)
Definition learn_codes_words (orders : nat -> list nat -> list nat) (term_freqs : list (str * Z))
           (vocab : list Typ) (vocab_size min_co_evidence : Z) : res (list Typ) :=
  let rev_idx := fold_left (fun d t => dset str_eqb (t_name t) (t_idx t) d) vocab [] in
  let* _ := assert_ (Nat.eqb (length rev_idx) (length vocab)) in
  let* _ := assert_ (vocab_size >? Z.of_nat (length vocab)) in
  let* seqs := make_idxs rev_idx term_freqs in
  learn_codes orders seqs vocab (vocab_size - Z.of_nat (length vocab)) min_co_evidence L_subword.

(** bpe.py:286-320, learn_subwords; [factory] is init_vocab_factory *)
Definition char_freqs (term_freqs : list (str * Z)) : list (str * Z) :=
  fold_left (fun d tf => fold_left (fun d c => dadd str_eqb [c] (snd tf) d) (fst tf) d) term_freqs [].
Definition learn_subwords (orders : nat -> list nat -> list nat) (term_freqs : list (str * Z))
           (vocab_size min_co_evidence : Z) (factory : list (str * Z) -> res (list Typ)) : res (list Typ) :=
  let term_freqs := fold_left (fun d wf => dset str_eqb (prepare_word (fst wf)) (snd wf) d) term_freqs [] in
  let* init_vocab := factory (char_freqs term_freqs) in
  if vocab_size =? -1 then Ok init_vocab
  else learn_codes_words orders term_freqs init_vocab vocab_size min_co_evidence.

(** codec.py:504-527, BPEScheme.learn; sys.maxsize is 2^63 - 1 *)
Definition maxsize : Z := 2 ^ 63 - 1.
Definition learn_bpe (A : arith) (orders : nat -> list nat -> list nat) (data : list str) (vocab_size : Z)
           (coverage : option (num A)) (min_co_evidence : Z) (is_tf : bool) : res (list Typ) :=
  let vocab_size := if (min_co_evidence >? 1) && (vocab_size <=? 1) then maxsize else vocab_size in
  let* _ := assert_ (vocab_size >? 0) in
  let* (tfs, line_count) := if is_tf then read_term_freqs data else Ok (term_frequencies KWord data) in
  learn_subwords orders tfs vocab_size min_co_evidence
    (fun char_types => get_init_vocab A L_char char_types coverage (Some line_count) 1 (-1)).
