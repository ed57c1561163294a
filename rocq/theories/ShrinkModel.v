(** EncoderScheme.shrink_vocab (codec.py:289-347). *)
From Coq Require Import Strings.String.
From Verif Require Import Py PyStr CodecModel VocabFileModel.
Local Open Scope Z_scope.
Local Open Scope list_scope.
Local Open Scope res_scope.

(** Python list assignment [l[i] = v] *)
Definition py_set {A} (l : list A) (i : Z) (v : A) : res (list A) :=
  match py_index (length l) i with
  | Some k => Ok (firstn k l ++ v :: skipn (S k) l)
  | None => Raise IndexError
  end.

(** codec.py:305-310: the frequencies of ids; [lines] are the lines of all files in order (file
    access itself is not modelled) *)
Definition id_freqs (s : scheme) (lines : list str) : res (list (Z * Z)) :=
  foldM (fun freqs line => let* ids := encode s line in Ok (counter_update Z.eqb ids freqs)) lines [].

(** codec.py:312-316 *)
Definition initial_removals (table : list Typ) (freqs : list (Z * Z)) (min_freq : Z) : list bool :=
  map (fun it : Z * Typ =>
         if t_level (snd it) =? L_reserved then false
         else dget_def Z.eqb (fst it) 0 freqs <? min_freq) (enumerate table).

(** codec.py:320-325: one step of the backward loop *)
Definition spare_piece (removals : list bool) (piece : Typ) : res (list bool) :=
  let* r := py_nth removals (t_idx piece) in
  if r then py_set removals (t_idx piece) false else Ok removals.
Definition spare_kids (removals : list bool) (it : Z * Typ) : res (list bool) :=
  let '(idx, combo) := it in
  let* _ := assert_ (t_idx combo =? idx) in
  let* r := py_nth removals (t_idx combo) in
  if r then Ok removals else foldM spare_piece (kids_of combo) removals.
(** codec.py:319-325 *)
Definition spare_all (table : list Typ) (removals : list bool) : res (list bool) :=
  foldM spare_kids (rev (enumerate table)) removals.

(** codec.py:327-332 *)
Definition mapping_of (removals : list bool) (table : list Typ) : res (list Z) :=
  foldM (fun mapping (it : Z * (bool * Typ)) =>
           let '(idx, (is_remove, typ)) := it in
           let* _ := assert_ (idx =? t_idx typ) in
           if is_remove then Ok mapping else Ok (mapping ++ [idx]))
        (enumerate (combine removals table)) [].

(** codec.py:335 *)
Definition rev_mapping_of (mapping : list Z) : list (Z * Z) :=
  fold_left (fun d (it : Z * Z) => dset Z.eqb (snd it) (fst it) d) (enumerate mapping) [].
(** codec.py:338-344 *)
Definition renumber_step (old_table : list Typ) (rev_mapping : list (Z * Z)) (new_table : list Typ) (it : Z * Z)
  : res (list Typ) :=
  let '(new_idx, old_idx) := it in
  let* _ := assert_ (Z.of_nat (length new_table) =? new_idx) in
  let* old_t := py_nth old_table old_idx in
  let* new_kids :=
    match kids_of old_t with
    | [] => Ok None
    | ks =>
        let* nk := mapM (fun k => match dget Z.eqb (t_idx k) rev_mapping with
                                  | Some j => py_nth new_table j
                                  | None => Raise KeyError end) ks in
        Ok (Some nk)
    end in
  Ok (new_table ++ [MkType (t_name old_t) (t_level old_t) new_idx (t_freq old_t) new_kids]).
Definition renumber (old_table : list Typ) (mapping : list Z) : res (list Typ) :=
  foldM (renumber_step old_table (rev_mapping_of mapping)) (enumerate mapping) [].

(** codec.py:311-344, from the frequencies to the mapping and the new table *)
Definition shrink_table (table : list Typ) (freqs : list (Z * Z)) (min_freq : Z) : res (list Z * list Typ) :=
  let* mx := py_max (dkeys freqs) in
  let* _ := assert_ (Z.of_nat (length table) >? mx) in
  let* removals := spare_all table (initial_removals table freqs min_freq) in
  let* mapping := mapping_of removals table in
  let* new_table := renumber table mapping in
  Ok (mapping, new_table).
(** codec.py:289-347: the mapping, and the table that is written to save_at *)
Definition shrink_vocab (s : scheme) (lines : list str) (min_freq : Z) : res (list Z * list Typ) :=
  let* freqs := id_freqs s lines in
  shrink_table (s_table s) freqs min_freq.
(** codec.py:345-346: the bytes of the saved file (written without the scheme name) *)
Definition shrink_save (version now : str) (new_table : list Typ) : list N * res unit :=
  write_out version now new_table [].
