(** nlcodec/db/batch.py: examples, padded batches, and the batch iterator. *)
From Verif Require Import Py NumpyModel DbModel.
Local Open Scope Z_scope.
Local Open Scope list_scope.
Local Open Scope res_scope.

(** batch.py:18-30, IdExample *)
Record example : Set := MkEx {
  e_id : Z; e_x : array; e_y : option array; e_x_raw : option str; e_y_raw : option str }.
Definition new_example (id : Z) (x : array) (y : option array) : example := MkEx id x y None None.
(** batch.py:62-70, BatchMeta *)
Record meta : Set := MkMeta {
  pad_idx : Z; bos_idx : Z; eos_idx : Z;
  add_bos_x : bool; add_bos_y : bool; add_eos_x : bool; add_eos_y : bool }.
Definition def_meta (pad bos eos : Z) : meta := MkMeta pad bos eos false false true true.

(** batch.py:127-140, val_exists for one sequence; indexing None is a TypeError, indexing an
    empty array an IndexError. np.append ravels and concatenates, so the result has the
    promoted dtype. Simplification: val fits int32. *)
Inductive pos : Set := First | Last.
Definition at_pos (p : pos) (seq : array) : res Z := py_nth (a_vals seq) (match p with First => 0 | Last => -1 end).
Definition np_append (p : pos) (val : Z) (seq : array) : array :=
  match p with
  | First => concatenate (np_array I32 [val]) seq
  | Last => concatenate seq (np_array I32 [val])
  end.
Definition val_exists (p : pos) (exist : bool) (val : Z) (seq : array) : res array :=
  let* v := at_pos p seq in
  if exist then Ok (if v =? val then seq else np_append p val seq)
  else let* _ := assert_ (negb (v =? val)) in Ok seq.
(** batch.py:142-153: both checks for one side of one example *)
Definition check_seq (m : meta) (bos eos : bool) (seq : array) : res array :=
  let* seq := val_exists First bos (bos_idx m) seq in
  val_exists Last eos (eos_idx m) seq.
(** batch.py:142-153. The examples are changed in place; here the changed examples are returned.
    What an exception leaves changed is modelled in ReuseModel.v. *)
Definition check_x (m : meta) (ex : example) : res example :=
  let* x := check_seq m (add_bos_x m) (add_eos_x m) (e_x ex) in
  Ok (MkEx (e_id ex) x (e_y ex) (e_x_raw ex) (e_y_raw ex)).
Definition check_y (m : meta) (ex : example) : res example :=
  match e_y ex with
  | None => Raise TypeError
  | Some y =>
      let* y := check_seq m (add_bos_y m) (add_eos_y m) y in
      Ok (MkEx (e_id ex) (e_x ex) (Some y) (e_x_raw ex) (e_y_raw ex))
  end.

(** The attributes of one side of a Batch *)
Record side : Set := MkSide {
  s_len : list Z; s_toks : Z; s_max : Z; s_seqs : list (list Z); s_raw : option (list (option str)) }.
(** Batch: the order of the examples (their ids, for reference), and the two sides *)
Record batch : Set := MkBatch { ba_len : Z; ba_ids : list Z; ba_x : side; ba_y : option side }.

(** batch.py:99-102, 117-120: np.full of pad values, then the start of row i is assigned; the
    array is int64, so assigned values are converted to it *)
Definition pad_row (width : Z) (pad : Z) (seq : array) : list Z :=
  map (cast I64) (a_vals seq) ++ repeat pad (Z.to_nat width - length (a_vals seq)).
(** np.transpose of a matrix with rows of the given width *)
Definition transpose (width : Z) (rows : list (list Z)) : list (list Z) :=
  map (fun j => map (fun r => nth j r 0) rows) (seq 0 (Z.to_nat width)).
(** `if batch[0].x_raw:` None and the empty string are false *)
Definition raws (l : list (option str)) : option (list (option str)) :=
  match l with
  | Some (_ :: _) :: _ => Some l
  | _ => None
  end.
(** batch.py:95-107 and 113-125 *)
Definition make_side (pad : Z) (batch_first : bool) (seqs : list array) (raw : list (option str)) : res side :=
  let lens := map a_len seqs in
  match lens with
  | [] => Raise ValueError                 (* np.max of an empty array *)
  | _ =>
      let* mx := py_max lens in
      let rows := map (pad_row mx pad) seqs in
      Ok (MkSide lens (zsum lens) mx (if batch_first then rows else transpose mx rows) (raws raw))
  end.
Definition y_arrays (batch : list example) : res (list array) :=
  mapM (fun ex => match e_y ex with Some y => Ok y | None => Raise TypeError end) batch.
(** batch.py:80-125, Batch.__init__ *)
Definition make_batch (m : meta) (sort_dec batch_first : bool) (examples : list example) : res batch :=
  let* examples := mapM (check_x m) examples in
  let examples := if sort_dec then sorted_desc (fun ex => a_len (e_x ex)) examples else examples in
  let* x := make_side (pad_idx m) batch_first (map e_x examples) (map e_x_raw examples) in
  let* y :=
    match examples with
    | ex :: _ =>
        match e_y ex with
        | None => Ok None
        | Some _ =>
            let* examples := mapM (check_y m) examples in
            let* ys := y_arrays examples in
            let* y := make_side (pad_idx m) batch_first ys (map e_y_raw examples) in
            Ok (Some y)
        end
    | [] => Raise IndexError
    end in
  Ok (MkBatch (Z.of_nat (length examples)) (map e_id examples) x y).

(** What a generator produced: the values yielded, and the exception that ended it, if any. *)
Definition stream (A : Type) : Type := (list A * option exn)%type.

(** batch.py:229-253: the loop of read_all; a batch is yielded as the list of its examples.
    max_sents is None for float('inf'). *)
Definition under_sents (n : nat) (max_sents : option Z) : bool :=
  match max_sents with Some s => Z.of_nat n <? s | None => true end.
Fixpoint read_loop (max_toks : Z) (max_sents : option Z) (batch : list example) (max_len : Z) (data : list example) : stream (list example) :=
  match data with
  | [] => (match batch with [] => [] | _ => [batch] end, None)
  | ex :: data' =>
      match e_y ex with
      | None => ([], Some TypeError)
      | Some y =>
          if Z.min (a_len (e_x ex)) (a_len y) =? 0 then read_loop max_toks max_sents batch max_len data'
          else
            let this_len := Z.max (a_len (e_x ex)) (a_len y) in
            if ((Z.of_nat (length batch) + 1) * Z.max max_len this_len <=? max_toks) && under_sents (length batch) max_sents
            then read_loop max_toks max_sents (batch ++ [ex]) (Z.max max_len this_len) data'
            else if max_toks <? this_len then ([], Some OtherError)
            else
              let (yielded, fin) := read_loop max_toks max_sents [ex] this_len data' in
              (batch :: yielded, fin)
      end
  end.
(** the examples are wrapped into a Batch as they are yielded; the first failure ends the generator *)
Fixpoint wrap (m : meta) (sort_dec batch_first : bool) (groups : list (list example)) (fin : option exn) : stream batch :=
  match groups with
  | [] => ([], fin)
  | g :: groups' =>
      match make_batch m sort_dec batch_first g with
      | Ok b => let (bs, fin') := wrap m sort_dec batch_first groups' fin in (b :: bs, fin')
      | Raise e => ([], Some e)
      end
  end.
(** batch.py:229-253 *)
Definition read_all (m : meta) (sort_dec batch_first : bool) (max_toks : Z) (max_sents : option Z) (data : list example) : stream batch :=
  let (groups, fin) := read_loop max_toks max_sents [] 0 data in
  wrap m sort_dec batch_first groups fin.
(** core.py:216-218 with rec_type=IdExample: the two columns are x and y; another number of
    columns is a TypeError *)
Definition to_example (r : record) : res example :=
  match snd r with
  | [x; y] => Ok (new_example (fst r) x (Some y))
  | _ => Raise TypeError
  end.
Definition db_example (d : db) (id : Z) : res example :=
  let* cols := db_cols d id in to_example (id, cols).
(** batch.py:255-259 with core.py:265-276: equal-length batches of a Db *)
Definition eq_len_examples (d : db) (max_toks : Z) (max_sents : option Z) (order : list Z)
  (arranged : list (Z * Z) -> list (Z * Z)) (shuffled : list (list Z) -> list (list Z)) : res (list (list example)) :=
  let* batches := eq_len_batch_ids d max_toks max_sents order arranged in
  match batches with
  | [] => Raise OtherError
  | _ => mapM (mapM (db_example d)) (shuffled batches)
  end.
Definition eq_len_batches (m : meta) (sort_dec batch_first : bool) (d : db) (max_toks : Z) (max_sents : option Z) (order : list Z)
  (arranged : list (Z * Z) -> list (Z * Z)) (shuffled : list (list Z) -> list (list Z)) : stream batch :=
  match eq_len_examples d max_toks max_sents order arranged shuffled with
  | Ok groups => wrap m sort_dec batch_first groups None
  | Raise e => ([], Some e)
  end.
(** batch.py:261-265: sort_by is None or 'random' (both read sequentially) or 'eq_len_rand_batch'.
    A lookup that fails while reading is not possible here: the ids are those of the Db. *)
Definition batch_iter_seq (m : meta) (sort_dec batch_first : bool) (d : db) (max_toks : Z) (max_sents : option Z) (order : list Z) : stream batch :=
  match mapM (db_example d) order with
  | Ok data => read_all m sort_dec batch_first max_toks max_sents data
  | Raise e => ([], Some e)
  end.
(** batch.py:271-273. Simplification: exact division (len and max_toks below 2^53). Division by
    zero is an error. *)
Definition num_batches (n_records max_toks : Z) : res Z :=
  if max_toks =? 0 then Raise ZeroDivisionError else Ok (- (- n_records / max_toks)).
