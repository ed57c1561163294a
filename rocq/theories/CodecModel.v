(** nlcodec/codec.py: types, schemes, encoding and decoding; nlcodec/dstruct.py: the trie. *)
From Coq Require Import Strings.String.
From Verif Require Import Py PyStr Utf8Model.
Local Open Scope Z_scope.
Local Open Scope list_scope.
Local Open Scope res_scope.

(** codec.py:32-46, Reseved *)
Definition PAD_TOK : str := lit "<pad>".
Definition UNK_TOK : str := lit "<unk>".
Definition BOS_TOK : str := lit "<s>".
Definition EOS_TOK : str := lit "</s>".
Definition CLS_TOK : str := lit "<cls>".
Definition SPACE_TOK : str := [MARK].
Definition PAD_IDX : Z := 0.
Definition UNK_IDX : Z := 1.
Definition BOS_IDX : Z := 2.
Definition EOS_IDX : Z := 3.
Definition CLS_IDX : Z := 4.
Definition RESERVED : list (str * Z) :=
  [(PAD_TOK, 0); (UNK_TOK, 1); (BOS_TOK, 2); (EOS_TOK, 3); (CLS_TOK, 4); (SPACE_TOK, 5)].

(** codec.py:58-66, Level *)
Definition L_reserved : Z := -1.
Definition L_char : Z := 0.
Definition L_user : Z := 0.
Definition L_subword : Z := 1.
Definition L_word : Z := 2.
Definition L_clasz : Z := 0.
Definition L_byte : Z := 0.

(** codec.py:69-75, the frozen dataclass Type. kids are references to other Types; since Types
    are immutable and kids are created before their parent, a tree value stands for them.
    Simplification: the kids container (tuple or list) is a list. *)
Inductive Typ : Set :=
  MkType (name : str) (level : Z) (idx : Z) (freq : Z) (kids : option (list Typ)).
Definition t_name (t : Typ) := let 'MkType n _ _ _ _ := t in n.
Definition t_level (t : Typ) := let 'MkType _ l _ _ _ := t in l.
Definition t_idx (t : Typ) := let 'MkType _ _ i _ _ := t in i.
Definition t_freq (t : Typ) := let 'MkType _ _ _ f _ := t in f.
Definition t_kids (t : Typ) := let 'MkType _ _ _ _ k := t in k.
(** the truth value of [self.kids] (codec.py:79, 163, 171, 322): None and the empty list are
    both false *)
Definition kids_of (t : Typ) : list Typ := match t_kids t with Some k => k | None => [] end.

(** codec.py:82-84 *)
Definition is_reserved (t : Typ) : bool := t_level t =? L_reserved.

(** codec.py:54-55 *)
Definition with_reserved_types : list Typ :=
  map (fun ti => MkType (fst ti) L_reserved (snd ti) (-1) None) RESERVED.

(** codec.py:49-51 *)
Definition validate_reserved (table : list Typ) : res unit :=
  foldM (fun _ ti => let* t := py_nth table (snd ti) in assert_ (str_eqb (fst ti) (t_name t)))
        RESERVED tt.

(** codec.py:156-168, Type.get_permutations. [f] is the projection chosen by the [name]
    argument: t_name or t_idx. A kids container that is not a pair raises ValueError on
    unpacking. *)
Fixpoint get_permutations {A} (f : Typ -> A) (t : Typ) : res (list (list A)) :=
  match t with
  | MkType _ _ _ _ None => Ok [[f t]]
  | MkType _ _ _ _ (Some []) => Ok [[f t]]
  | MkType _ _ _ _ (Some [kl; kr]) =>
      let* pl := get_permutations f kl in
      let* pr := get_permutations f kr in
      Ok ([f t] :: flat_map (fun lk => map (fun rk => lk ++ rk) pr) pl)
  | MkType _ _ _ _ (Some _) => Raise ValueError
  end.

(** codec.py:170-176, Type.get_stochastic_split. [draws k] is the outcome of the k-th evaluation
    of [random.random() < split_ratio]; the counter is threaded. The draw happens only if the
    type has kids (short-circuit [and]). *)
Fixpoint get_stochastic_split {A} (f : Typ -> A) (draws : nat -> bool) (t : Typ) (k : nat)
  : res (list A * nat) :=
  match t with
  | MkType _ _ _ _ None => Ok ([f t], k)
  | MkType _ _ _ _ (Some []) => Ok ([f t], k)
  | MkType _ _ _ _ (Some [kl; kr]) =>
      if draws k then
        let* (a, k1) := get_stochastic_split f draws kl (S k) in
        let* (b, k2) := get_stochastic_split f draws kr k1 in
        Ok (a ++ b, k2)
      else Ok ([f t], S k)
  | MkType _ _ _ _ (Some _) => if draws k then Raise ValueError else Ok ([f t], S k)
  end.

(** dstruct.py:80-97, TrNode: payload and children by character. The fields idx, name and
    parent are never read by the encoder and are left out. *)
Inductive trnode : Set := TrNode (data : option Typ) (kids : list (N * trnode)).
Definition tr_data (n : trnode) := let 'TrNode d _ := n in d.
Definition tr_kids (n : trnode) := let 'TrNode _ k := n in k.
Definition tr_empty : trnode := TrNode None [].

(** dstruct.py:92-97 get_node(create_missing=True) followed by the assignment to node.data
    (codec.py:451-453); the mutation of the tree is a new tree. *)
Fixpoint tr_insert (path : str) (t : Typ) (n : trnode) : trnode :=
  match path with
  | [] => TrNode (Some t) (tr_kids n)
  | c :: p =>
      let child := match dget N.eqb c (tr_kids n) with Some k => k | None => tr_empty end in
      TrNode (tr_data n) (dset N.eqb c (tr_insert p t child) (tr_kids n))
  end.

(** dstruct.py:92-97 get_node(create_missing=False): KeyError on a missing child *)
Fixpoint tr_get (path : str) (n : trnode) : res trnode :=
  match path with
  | [] => Ok n
  | c :: p => match dget N.eqb c (tr_kids n) with Some k => tr_get p k | None => Raise KeyError end
  end.

(** dstruct.py:108-115 *)
Fixpoint tr_size (n : trnode) : nat :=
  match n with
  | TrNode _ ks =>
      S ((fix go (l : list (N * trnode)) : nat :=
            match l with [] => 0%nat | (_, k) :: l' => (tr_size k + go l')%nat end) ks)
  end.
Fixpoint tr_data_count (n : trnode) : nat :=
  match n with
  | TrNode d ks =>
      ((match d with Some _ => 1 | None => 0 end) +
       (fix go (l : list (N * trnode)) : nat :=
          match l with [] => 0 | (_, k) :: l' => tr_data_count k + go l' end) ks)%nat
  end.

(** codec.py:448-455 *)
Definition make_vocab_prefix_trie (vocab : list Typ) : res trnode :=
  let root := fold_left (fun n t => tr_insert (t_name t) t n) vocab tr_empty in
  let* _ := assert_ (match tr_data root with Some _ => false | None => true end) in
  Ok root.

(** The five registered schemes (codec.py:632-639). *)
Inductive kind : Set := KWord | KChar | KBpe | KClass | KByte.

(** codec.py:183-209: the attributes of an EncoderScheme; s_unk is None where the attribute
    unk_idx does not exist (ByteScheme); s_root only matters for BPE. *)
Record scheme : Set := MkScheme {
  s_kind : kind;
  s_table : list Typ;
  s_idx_to_str : list str;
  s_str_to_idx : list (str * Z);
  s_unk : option Z;
  s_root : trnode }.

(** codec.py:196 *)
Definition idx_to_str_of (table : list Typ) : list str := map t_name table.
(** codec.py:198: dict comprehension, the last occurrence wins *)
Definition str_to_idx_last (names : list str) : list (str * Z) :=
  fold_left (fun d it => dset str_eqb (snd it) (fst it) d) (enumerate names) [].
(** codec.py:202-208: the first occurrence wins *)
Definition str_to_idx_first (table : list Typ) : list (str * Z) :=
  fold_left (fun d it => if dmem str_eqb (t_name (snd it)) d then d
                         else dset str_eqb (t_name (snd it)) (fst it) d)
            (enumerate table) [].

(** codec.py:183-209 EncoderScheme.__init__ *)
Definition encoder_init (k : kind) (table : list Typ) (has_reserved invertible : bool)
           (cls_unk : option Z) (root : trnode) : res scheme :=
  let* _ := if has_reserved then validate_reserved table else Ok tt in
  let unk := if has_reserved then Some UNK_IDX else cls_unk in
  let names := idx_to_str_of table in
  if invertible then
    let d := str_to_idx_last names in
    let* _ := assert_ (Nat.eqb (length names) (length d)) in
    Ok (MkScheme k table names d unk root)
  else Ok (MkScheme k table names (str_to_idx_first table) unk root).

(** codec.py:616-621 ByteScheme.get_init_vocab *)
Definition byte_vocab : list Typ :=
  map (fun c => MkType (hex_of_byte (N.of_nat c)) L_byte (Z.of_nat c) (-1) None) (seq 0 256)
  ++ [MkType BOS_TOK L_reserved 256 (-1) None; MkType EOS_TOK L_reserved 257 (-1) None].

(** The constructors: WordScheme/CharScheme inherit EncoderScheme.__init__ (codec.py:352, 416);
    BPEScheme codec.py:440-445; ClassScheme codec.py:541-544; ByteScheme codec.py:574-578
    (an empty table is replaced by the byte vocabulary: [table or ...]; encoding and errors keep
    their defaults). *)
Definition make_scheme (k : kind) (table : list Typ) : res scheme :=
  match k with
  | KWord | KChar => encoder_init k table true true None tr_empty
  | KBpe =>
      let* s := encoder_init k table true false None tr_empty in
      let* root := make_vocab_prefix_trie table in
      let* _ := assert_ (match s_unk s with Some u => negb (u =? 0) | None => false end) in
      Ok (MkScheme k table (s_idx_to_str s) (s_str_to_idx s) (s_unk s) root)
  | KClass => encoder_init k table false true (Some (-1)) tr_empty
  | KByte => encoder_init k (match table with [] => byte_vocab | _ => table end)
                          false true None tr_empty
  end.

(** codec.py:476-493: state of the segmentation loop of BPEScheme.encode_str *)
Record lstate : Set := MkL {
  l_seq : str; l_idx : nat; l_prev : trnode; l_data : option (Typ * nat); l_res : list Z }.

(** codec.py:477 loop condition: [seq and idx < len(seq) + 1] *)
Definition l_cond (st : lstate) : bool :=
  match l_seq st with [] => false | _ => Nat.ltb (l_idx st) (length (l_seq st) + 1) end.

(** codec.py:478-493 loop body *)
Definition l_body (root : trnode) (unk : Z) (st : lstate) : lstate :=
  let data := match tr_data (l_prev st) with
              | Some t => Some (t, l_idx st)
              | None => l_data st end in
  let next := if Nat.ltb (l_idx st) (length (l_seq st)) then
                match nth_error (l_seq st) (l_idx st) with
                | Some c => dget N.eqb c (tr_kids (l_prev st))
                | None => None
                end
              else None in
  match next with
  | Some k => MkL (l_seq st) (l_idx st + 1) k data (l_res st)
  | None =>
      match data with
      | Some (t, i) => MkL (skipn i (l_seq st)) 0 root None (l_res st ++ [t_idx t])
      | None => MkL (skipn 1 (l_seq st)) 0 root None (l_res st ++ [unk])
      end
  end.

Fixpoint l_loop (fuel : nat) (root : trnode) (unk : Z) (st : lstate) : res (list Z) :=
  if l_cond st then
    match fuel with
    | O => Raise OutOfFuel
    | S f => l_loop f root unk (l_body root unk st)
    end
  else Ok (l_res st).

(** codec.py:462: whitespace-normalised text with space markers *)
Definition bpe_text (line : str) : str := join [MARK] (split (strip line)) ++ [MARK].

(** codec.py:475-493. Fuel: every pass over a text of length n takes at most n+1 iterations and
    removes at least one character. *)
Definition bpe_segment (s : scheme) (unk : Z) (line : str) : res (list Z) :=
  let sq := bpe_text line in
  let n := length sq in
  l_loop (S n * S (S n)) (s_root s) unk (MkL sq 0 (s_root s) None []).

(** codec.py:529-533 *)
Fixpoint stochastic_split_ids (table : list Typ) (draws : nat -> bool) (ids : list Z) (k : nat)
  : res (list Z) :=
  match ids with
  | [] => Ok []
  | i :: ids' =>
      let* t := py_nth table i in
      let* (a, k1) := get_stochastic_split t_idx draws t k in
      let* r := stochastic_split_ids table draws ids' k1 in
      Ok (a ++ r)
  end.

(** codec.py:461-498 BPEScheme.encode_str. [split] is None for split_ratio <= 0, otherwise the
    random outcomes. *)
Definition bpe_encode_str (s : scheme) (split : option (nat -> bool)) (line : str)
  : res (list str) :=
  match s_unk s with
  | None => Raise AttributeError
  | Some unk =>
      let* ids := bpe_segment s unk line in
      let* ids := match split with
                  | Some draws => stochastic_split_ids (s_table s) draws ids 0
                  | None => Ok ids
                  end in
      mapM (fun i => let* t := py_nth (s_table s) i in Ok (t_name t)) ids
  end.

(** codec.py:589-590 *)
Definition byte_encode_str (line : str) : res (list str) :=
  let* bs := utf8_encode line in Ok (map hex_of_byte bs).

(** encode_str of each scheme: codec.py:357-358, 422-423, 461-498, 548-549, 589-590 *)
Definition encode_str (s : scheme) (line : str) : res (list str) :=
  match s_kind s with
  | KWord => Ok (split line)
  | KChar => Ok (map (fun c => [c]) (join [MARK] (split line)))
  | KBpe => bpe_encode_str s None line
  | KClass => Ok [strip line]
  | KByte => byte_encode_str line
  end.

(** codec.py:222-224 [str_to_idx.get(piece, self.unk_idx)]; the attribute unk_idx is evaluated
    for each piece *)
Definition piece_id (s : scheme) (p : str) : res Z :=
  match s_unk s with
  | None => Raise AttributeError
  | Some u => Ok (dget_def str_eqb p u (s_str_to_idx s))
  end.

(** codec.py:222-224 (word, char, class), 457-459 (bpe), 607-609 (byte) *)
Definition encode (s : scheme) (line : str) : res (list Z) :=
  let* pieces := encode_str s line in
  match s_kind s with
  | KByte => mapM (fun p => match dget str_eqb p (s_str_to_idx s) with
                            | Some i => Ok i | None => Raise KeyError end) pieces
  | _ => mapM (piece_id s) pieces
  end.

(** codec.py:457-459 with split_ratio > 0 *)
Definition bpe_encode_split (s : scheme) (draws : nat -> bool) (line : str) : res (list Z) :=
  let* pieces := bpe_encode_str s (Some draws) line in mapM (piece_id s) pieces.

(** codec.py:585-587 *)
Definition compose_str (pieces : list str) : res str :=
  match fromhex (concat pieces) with
  | None => Raise ValueError
  | Some bs => Ok (utf8_decode [65533%N] bs)
  end.

(** codec.py:592-605: state is (string builder, buffer) *)
Definition byte_piece_reserved (s : scheme) (p : str) : res bool :=
  match dget str_eqb p (s_str_to_idx s) with
  | None => Ok false
  | Some i => let* t := py_nth (s_table s) i in Ok (is_reserved t)
  end.
Definition byte_decode_step (s : scheme) (st : str * list str) (p : str)
  : res (str * list str) :=
  let '(out, buf) := st in
  let* r := byte_piece_reserved s p in
  if r then
    match buf with
    | [] => Ok (out ++ p, [])
    | _ => let* c := compose_str buf in Ok (out ++ c ++ p, [])
    end
  else Ok (out, buf ++ [p]).
Definition byte_decode_str (s : scheme) (pieces : list str) : res str :=
  let* (out, buf) := foldM (byte_decode_step s) pieces ([], []) in
  match buf with
  | [] => Ok out
  | _ => let* c := compose_str buf in Ok (out ++ c)
  end.

(** decode_str: codec.py:361-362, 426-427, 500-501, 551-552, 592-605 *)
Definition decode_str (s : scheme) (pieces : list str) : res str :=
  match s_kind s with
  | KWord => Ok (join [SPACE] pieces)
  | KChar => Ok (replace_char MARK SPACE (concat pieces))
  | KBpe => Ok (strip (replace_char MARK SPACE (concat pieces)))
  | KClass => Ok (join [44%N] pieces)
  | KByte => byte_decode_str s pieces
  end.

(** codec.py:226-228, 611-613 *)
Definition decode (s : scheme) (ids : list Z) : res str :=
  let* pieces := mapM (py_nth (s_idx_to_str s)) ids in decode_str s pieces.
