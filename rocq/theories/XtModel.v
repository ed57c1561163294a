(** nlcodec/eval/bpe_len.py, BPECodecXt: a BPE codec that takes over the merges of its vocabulary one by one, and
    the tracker working on it. *)
From Coq Require Import Strings.String.
From Verif Require Import Py PyStr CodecModel LearnModel LearnBpeModel BatchModel MapredModel TrackModel.
Local Open Scope Z_scope.
Local Open Scope list_scope.
Local Open Scope res_scope.

(** bpe_len.py:22-39: the codec and the attribute merge_buffer. *)
Record xt : Set := MkXt { x_codec : scheme; x_buffer : list Typ }.
(** bpe_len.py:27-39 *)
Definition xt_open (bytes : list N) : res xt :=
  let* (s, buffer) := codec_xt bytes in Ok (MkXt s buffer).
(** bpe_len.py:41-42 *)
Definition merges_remaining (x : xt) : Z := Z.of_nat (length (x_buffer x)).
(** bpe_len.py:44-45 *)
Definition xt_len (x : xt) : Z := Z.of_nat (length (s_table (x_codec x))).
(** bpe_len.py:47-48 *)
Definition total_types (x : xt) : Z := xt_len x + merges_remaining x.
(** bpe_len.py:50-51 *)
Definition peek_merge (x : xt) : res Typ := py_nth (x_buffer x) 0.
(** bpe_len.py:53-63. The attribute vocab_size of the codec is not changed; nothing reads it (__len__ is line 44). *)
Definition xt_merge (x : xt) : res (Typ * xt) :=
  match x_buffer x with
  | [] => Raise AssertionError
  | m :: rest =>
      let s := x_codec x in
      let* _ := assert_ (Nat.eqb (length (s_table s)) (length (s_idx_to_str s)) && (Z.of_nat (length (s_idx_to_str s)) =? t_idx m)) in
      Ok (m, MkXt (MkScheme (s_kind s) (s_table s ++ [m]) (s_idx_to_str s ++ [t_name m])
                            (dset str_eqb (t_name m) (t_idx m) (s_str_to_idx s)) (s_unk s)
                            (tr_insert (t_name m) m (s_root s))) rest)
  end.
(** Calling merge() n times. *)
Fixpoint xt_merges (n : nat) (x : xt) : res xt :=
  match n with
  | O => Ok x
  | S n' => let* (_, x') := xt_merge x in xt_merges n' x'
  end.

(** bpe_len.py:132-195, track_merges, with the codec it changes; the recursion is over the buffer, which every round
    (line 157, merge) shortens by one. *)
Fixpoint track_codec_loop (orders : nat -> list nat -> list nat) (i : nat) (s : scheme) (buffer : list Typ) (st : tstate)
  : res (list row * xt) :=
  let* here := measure (length (s_table s)) st in
  match buffer with
  | [] => Ok ([here], MkXt s [])
  | _ :: rest =>
      let* (new_type, x) := xt_merge (MkXt s buffer) in
      let* st := track_merge (orders i) new_type st in
      let* (rows, x) := track_codec_loop orders (S i) (x_codec x) rest st in
      Ok (here :: rows, x)
  end.
Definition track_codec (orders : nat -> list nat -> list nat) (x : xt) (enc_data : stream (list Z)) : res (list row * xt) :=
  let* st := track_index enc_data in
  track_codec_loop orders 0 (x_codec x) (x_buffer x) st.
