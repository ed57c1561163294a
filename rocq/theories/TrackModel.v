(** nlcodec/eval/bpe_len.py: following how sequence lengths and imbalance change while the merges of
    a BPE vocabulary are applied one by one to a corpus. *)
From Coq Require Import Strings.String QArith Qabs.
From Verif Require Import Py PyStr CodecModel LearnModel HeapModel JsonModel VocabFileModel BatchModel MapredModel LearnBpeModel EvalModel.
Local Open Scope Z_scope.
Local Open Scope list_scope.
Local Open Scope res_scope.

(** codec.py:62, Level.subword *)
Definition SUBWORD : Z := 1.

(** bpe_len.py:30, `meta['max_level'] == Level.subword`: a JSON boolean compares as a number. *)
Definition meta_level (meta : list (str * json)) : res bool :=
  match jget (lit "max_level") meta with
  | None => Raise KeyError
  | Some (JInt z) => Ok (z =? SUBWORD)
  | Some (JBool b) => Ok ((if b then 1 else 0) =? SUBWORD)
  | Some _ => Ok false
  end.
(** bpe_len.py:34: `assert len(m.kids) == 2` *)
Definition two_kids (t : Typ) : res unit :=
  match t_kids t with
  | None => Raise TypeError
  | Some ks => assert_ (Nat.eqb (length ks) 2)
  end.
(** bpe_len.py:27-39, BPECodecXt.__init__: the codec over the types below the subword level, and the
    merges that are still to come. The trie is built by BPEScheme.__init__ and once more (line 37)
    from the same table. *)
Definition codec_xt (bytes : list N) : res (scheme * list Typ) :=
  let* (types, meta) := read_vocab bytes in
  match meta with
  | Some (JObj ((_ :: _) as m)) =>
      let* lev := meta_level m in
      let* _ := assert_ lev in
      let init_table := filter (fun t => t_level t <? SUBWORD) types in
      let merge_buffer := filter (fun t => t_level t >=? SUBWORD) types in
      let* _ := mapM two_kids merge_buffer in
      let* s := make_scheme KBpe init_table in
      Ok (s, merge_buffer)
  | _ => Raise AssertionError
  end.

(** bpe_len.py:69-76, the attributes of BpeTracker; tk_nodes is the store of LnNode objects and
    tk_data their attribute data, which never changes. The array uni has one cell for every type,
    initially 0; here it is a map with default 0 (a type of the table is always inside the array). *)
Record tstate : Set := MkTS {
  tk_nodes : list lnode;
  tk_data : list nat;
  tk_uni : list (Z * Z);
  tk_ixs : list ((Z * Z) * list nat);
  tk_lens : list Z }.

(** bpe_len.py:105-111: one encoded line *)
Definition index_line (st : tstate) (il : Z * list Z) : tstate :=
  let '(idx, s) := il in
  let base := length (tk_nodes st) in
  MkTS (tk_nodes st ++ from_seq base s 1)
       (tk_data st ++ repeat (Z.to_nat idx) (length s))
       (fold_left (fun u v => dadd Z.eqb v 1 u) s (tk_uni st))
       (fold_left (fun ixs i => ixs_add (nth i s 0, nth (i + 1) s 0) (base + i)%nat ixs)
                  (List.seq 0 (length s - 1)) (tk_ixs st))
       (tk_lens st ++ [Z.of_nat (length s)]).
(** bpe_len.py:78-119, create_index over the lines encoded with the initial table. Simplifications:
    the progress bar is left out; counting into a dict that is then copied to the array is counting. *)
Definition track_index (enc_data : stream (list Z)) : res tstate :=
  match snd enc_data with
  | Some e => Raise e
  | None => Ok (fold_left index_line (enumerate (fst enc_data)) (MkTS [] [] [] [] []))
  end.

(** bpe_len.py:121-127, earth_mov_dist, in exact arithmetic; None stands for the NaN or infinity that
    numpy gives when the total is 0. *)
Definition earth_mov_dist (stats : list Z) : res (option Q) :=
  match stats with
  | [] => Raise ZeroDivisionError
  | _ =>
      let k := inject_Z (Z.of_nat (length stats)) in
      let total := zsum stats in
      if total =? 0 then Ok None
      else
        let probs := map (fun s => inject_Z s / inject_Z total)%Q stats in
        Ok (Some ((1 # 2) * fold_right Qplus 0 (map (fun p => Qabs (p - 1 / k)) probs))%Q)
  end.
(** bpe_len.py:129-130, mean_seq_len, in exact arithmetic; None is the NaN of an empty array. *)
Definition mean_seq_len (lens : list Z) : option Q :=
  match lens with
  | [] => None
  | _ => Some (inject_Z (zsum lens) / inject_Z (Z.of_nat (length lens)))%Q
  end.

(** A row of the result: types, imbalance, mean length (bpe_len.py:152). The two last fields are not
    in the result: they are the attributes uni[:k] and seq_lens at that moment. *)
Record row : Set := MkRow {
  r_types : Z; r_emd : option Q; r_mean : option Q;
  r_counts : list Z; r_lens : list Z }.
(** bpe_len.py:149-152 and 190-193 *)
Definition measure (k : nat) (st : tstate) : res row :=
  let counts := map (fun i => dget_def Z.eqb (Z.of_nat i) 0 (tk_uni st)) (List.seq 0 k) in
  let* emd := earth_mov_dist counts in
  Ok (MkRow (Z.of_nat k) emd (mean_seq_len (tk_lens st)) counts (tk_lens st)).

(** bpe_len.py:165-189: one iteration of [for u in update_nodes]. *)
Definition track_node (a b r : Z) (st : tstate) (u : nat) : res tstate :=
  let* nd := node_at (tk_nodes st) u in
  let* skip :=
    if is_unlinked nd then Ok true
    else if a =? b then
      match n_right nd with
      | None => Raise AttributeError
      | Some bn => let* bd := node_at (tk_nodes st) bn in Ok ((r =? n_val nd) || (r =? n_val bd))
      end
    else Ok false in
  if skip : bool then
    Ok (MkTS (tk_nodes st) (tk_data st)
             (dadd Z.eqb b (- n_freq nd) (dadd Z.eqb a (n_freq nd) (dadd Z.eqb r (- n_freq nd) (tk_uni st))))
             (tk_ixs st) (tk_lens st))
  else
    let* _ := assert_ (n_val nd =? a) in
    match n_right nd with
    | None => Raise AttributeError
    | Some bn =>
        let* bd := node_at (tk_nodes st) bn in
        let* _ := assert_ (n_val bd =? b) in
        let* nodes := delete bn (upd u (set_val r) (tk_nodes st)) in
        let* seq_idx := match nth_error (tk_data st) u with Some i => Ok i | None => Raise OtherError end in
        let* len := match nth_error (tk_lens st) seq_idx with Some z => Ok z | None => Raise IndexError end in
        let lens := set_nth seq_idx (len - 1) (tk_lens st) in
        let* _ := assert_ (len - 1 >? 0) in
        let* und := node_at nodes u in
        let* ixs :=
          match n_left und with
          | None => Ok (tk_ixs st)
          | Some x =>
              let* xd := node_at nodes x in
              let* ixs := ixs_remove (n_val xd, a) x (tk_ixs st) in
              Ok (ixs_add (n_val xd, n_val und) x ixs)
          end in
        let* ixs :=
          match n_right und with
          | None => Ok ixs
          | Some y =>
              let* yd := node_at nodes y in
              let* ixs := ixs_remove (b, n_val yd) bn ixs in
              Ok (ixs_add (n_val und, n_val yd) u ixs)
          end in
        Ok (MkTS nodes (tk_data st) (tk_uni st) ixs lens)
    end.

(** bpe_len.py:157-189: one merge; [order] is the iteration order of the popped set. *)
Definition track_merge (order : list nat -> list nat) (t : Typ) (st : tstate) : res tstate :=
  let r := t_idx t in
  match t_kids t with
  | None => Raise TypeError
  | Some [ta; tb] =>
      let a := t_idx ta in
      let b := t_idx tb in
      let ixs := ddel pair_eqb (a, b) (tk_ixs st) in
      match dget pair_eqb (a, b) (tk_ixs st) with
      | None | Some [] => Ok (MkTS (tk_nodes st) (tk_data st) (tk_uni st) ixs (tk_lens st))
      | Some us =>
          let* fs := mapM (fun u => let* nd := node_at (tk_nodes st) u in Ok (n_freq nd)) us in
          let freq := zsum fs in
          let uni := dadd Z.eqb b (- freq) (dadd Z.eqb a (- freq) (dset Z.eqb r freq (tk_uni st))) in
          foldM (track_node a b r) (order us) (MkTS (tk_nodes st) (tk_data st) uni ixs (tk_lens st))
      end
  | Some _ => Raise ValueError
  end.

(** bpe_len.py:53-63 and 132-195: the loop of track_merges; k is the length of the codec's table. The
    merge also enters the new type into the name tables and the trie of the codec, which the
    tracker never reads again; that is left out here and part of track_codec in XtModel.v. *)
Fixpoint track_loop (orders : nat -> list nat -> list nat) (i k : nat) (buffer : list Typ) (st : tstate)
  : res (list row) :=
  let* here := measure k st in
  match buffer with
  | [] => Ok [here]
  | t :: rest =>
      let* _ := assert_ (Z.of_nat k =? t_idx t) in
      let* st := track_merge (orders i) t st in
      let* rows := track_loop orders (S i) (S k) rest st in
      Ok (here :: rows)
  end.
Definition track_merges (orders : nat -> list nat -> list nat) (k : nat) (buffer : list Typ)
           (enc_data : stream (list Z)) : res (list row) :=
  let* st := track_index enc_data in
  track_loop orders 0 k buffer st.

(** bpe_len.py:198-201, estimate, returning what track_merges returned. The lines are encoded in
    parallel; out is what a finished run of encode_parallel gave. *)
Inductive estimate_lens (orders : nat -> list nat -> list nat) (n_cpus : Z) (codec : list N) (lines : stream str)
  : res (list row) -> Prop :=
| el_codec e : codec_xt codec = Raise e -> estimate_lens orders n_cpus codec lines (Raise e)
| el_run s buffer out : codec_xt codec = Ok (s, buffer) ->
    encode_parallel (encode s) lines n_cpus out ->
    estimate_lens orders n_cpus codec lines (track_merges orders (length (s_table s)) buffer out).
