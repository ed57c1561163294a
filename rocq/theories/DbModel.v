(** nlcodec/db/core.py: SeqField, its Builder, and Db. *)
From Verif Require Import Py NumpyModel.
Local Open Scope Z_scope.
Local Open Scope list_scope.
Local Open Scope res_scope.

(** Ids are only compared for equality (and, for batching, put into an integer array): they are
    integers here. Names are compared for equality only. *)

(** core.py:62-77, SeqField.Builder *)
Record builder : Set := MkBuilder {
  b_name : str;
  b_ids : list (Z * Z);        (* dict: id -> row *)
  b_frozen : array;
  b_buffer : list Z;
  b_refs : list (Z * Z);       (* start, length *)
  b_max_len : Z;
  b_buf_size : Z }.
(** core.py:67: 100_000_000 / 36 = 2777777.78; an integer reaches it iff it is at least 2777778 *)
Definition BUFFER_SIZE : Z := 2777778.
(** core.py:69-77 *)
Definition new_builder (name : str) (buf_size : option Z) : builder :=
  MkBuilder name [] (MkArr I8 []) [] [] 0
    (match buf_size with Some z => if z =? 0 then BUFFER_SIZE else z | None => BUFFER_SIZE end).

(** core.py:89-94 *)
Definition shrink (b : builder) : res builder :=
  match b_buffer b with
  | [] => Ok b
  | _ =>
      let* mn := py_min (b_buffer b) in
      let* mx := py_max (b_buffer b) in
      let* d := best_dtype mn mx in
      let data := np_array d (b_buffer b) in
      Ok (MkBuilder (b_name b) (b_ids b) (concatenate (b_frozen b) data) [] (b_refs b) (b_max_len b) (b_buf_size b))
  end.
(** core.py:79-87. The sequences are integers, so the assertion of line 80 holds. *)
Definition append (b : builder) (id : Z) (arr : list Z) : res builder :=
  let n := Z.of_nat (length arr) in
  let b' := MkBuilder (b_name b)
              (dset Z.eqb id (Z.of_nat (length (b_refs b))) (b_ids b))
              (b_frozen b)
              (b_buffer b ++ arr)
              (b_refs b ++ [(a_len (b_frozen b) + Z.of_nat (length (b_buffer b)), n)])
              (Z.max n (b_max_len b))
              (b_buf_size b) in
  if b_buf_size b <=? Z.of_nat (length (b_buffer b')) then shrink b' else Ok b'.

(** core.py:103-110 *)
Record field : Set := MkField {
  f_name : str; f_ids : list (Z * Z); f_refs_type : dtype; f_refs : list (Z * Z); f_data : array }.
(** core.py:103-110: the assertions of SeqField.__init__. The shape of an array made of an empty
    list is (0,), so it is never (0, 2). *)
Definition seq_field (name : str) (ids : list (Z * Z)) (refs_type : dtype) (refs : list (Z * Z)) (data : array) : res field :=
  match refs with
  | [] => Raise AssertionError
  | _ =>
      let* _ := assert_ (Nat.eqb (length refs) (length ids)) in
      let* _ := assert_ (fst (last refs (0, 0)) <=? a_len data) in
      Ok (MkField name ids refs_type refs data)
  end.
(** core.py:96-101 *)
Definition build (b : builder) : res field :=
  let* b := shrink b in
  let* d := best_dtype 0 (Z.max (a_len (b_frozen b)) (b_max_len b)) in
  seq_field (b_name b) (b_ids b) d (map (fun r => (cast d (fst r), cast d (snd r))) (b_refs b)) (b_frozen b).

(** self.refs[self.ids[item]] *)
Definition ref_of (f : field) (id : Z) : res (Z * Z) :=
  match dget Z.eqb id (f_ids f) with
  | None => Raise KeyError
  | Some i => py_nth (f_refs f) i
  end.
(** core.py:115-117: start + length is computed in the dtype of refs *)
Definition get_item (f : field) (id : Z) : res array :=
  let* r := ref_of f id in
  Ok (slice (f_data f) (fst r) (cast (f_refs_type f) (fst r + snd r))).
(** core.py:119-120 *)
Definition get_len (f : field) (id : Z) : res Z := let* r := ref_of f id in Ok (snd r).
(** core.py:112-113 *)
Definition field_len (f : field) : Z := Z.of_nat (length (f_ids f)).
(** core.py:122-135: keys, values, items (which yields no ids), lengths *)
Definition field_keys (f : field) : list Z := dkeys (f_ids f).
Definition field_values (f : field) : list array :=
  map (fun r => slice (f_data f) (fst r) (cast (f_refs_type f) (fst r + snd r))) (f_refs f).
Definition field_items (f : field) : res (list array) :=
  mapM (fun kv : Z * Z => let* r := py_nth (f_refs f) (snd kv) in
                          Ok (slice (f_data f) (fst r) (cast (f_refs_type f) (fst r + snd r)))) (f_ids f).
Definition field_lengths (f : field) : res (list (Z * Z)) :=
  mapM (fun kv : Z * Z => let* r := py_nth (f_refs f) (snd kv) in Ok (fst kv, snd r)) (f_ids f).

(** core.py:137-142 *)
Definition field_create (name : str) (buf_size : option Z) (recs : list (Z * list Z)) : res field :=
  let* b := foldM (fun b (r : Z * list Z) => append b (fst r) (snd r)) recs (new_builder name buf_size) in
  build b.
(** core.py:147-150: one record *)
Definition append_all (bs : list builder) (r : Z * list (list Z)) : res (list builder) :=
  let* _ := assert_ (Nat.eqb (length (snd r)) (length bs)) in
  mapM (fun bc : builder * list Z => append (fst bc) (fst r) (snd bc)) (combine bs (snd r)).
(** core.py:144-151 *)
Definition create_many (names : list str) (recs : list (Z * list (list Z))) : res (list field) :=
  let* bs := foldM append_all recs (map (fun n => new_builder n None) names) in
  mapM build bs.

(** core.py:156-166. Sets are lists of their elements; the order in which they are iterated is
    an argument of the functions that iterate. *)
Record db : Set := MkDb { db_names : list str; db_fields : list (str * field); db_ids : list Z; db_len : Z }.
Definition same_set (a b : list Z) : bool :=
  forallb (fun x => existsb (Z.eqb x) b) a && forallb (fun x => existsb (Z.eqb x) a) b.
Definition make_db (fields : list field) : res db :=
  match fields with
  | [] => Raise IndexError
  | f0 :: _ =>
      let d := fold_left (fun d f => dset str_eqb (f_name f) f d) fields [] in
      let n := field_len f0 in
      let ids := dkeys (f_ids f0) in
      let* _ := foldM (fun _ (nf : str * field) =>
                         let* _ := assert_ (n =? field_len (snd nf)) in
                         assert_ (same_set ids (dkeys (f_ids (snd nf))))) d tt in
      Ok (MkDb (map f_name fields) d ids n)
  end.
(** core.py:199-214. [path] only adds the pickling, which is not modelled. *)
Definition db_create (names : list str) (recs : list (Z * list (list Z))) : res db :=
  let* fs := create_many names recs in
  make_db fs.
(** core.py:208-209: has_id=False numbers the records *)
Definition db_create_auto (names : list str) (recs : list (list (list Z))) : res db :=
  db_create names (enumerate recs).

(** A record as returned: the id and the columns. *)
Definition record : Set := (Z * list array)%type.
(** core.py:169-172: namedtuple refuses duplicate names. Simplification: names are identifiers
    that namedtuple accepts (not keywords, no leading underscore); "id" counts as a name. *)
Fixpoint no_dup_names (l : list str) : bool :=
  match l with [] => true | x :: l' => negb (existsb (str_eqb x) l') && no_dup_names l' end.
Definition rec_type (names : list str) : res unit :=
  if no_dup_names ([105%N; 100%N] :: names) then Ok tt else Raise ValueError.
(** core.py:217: the columns of a record *)
Definition db_cols (d : db) (id : Z) : res (list array) :=
  mapM (fun fn => match dget str_eqb fn (db_fields d) with Some f => get_item f id | None => Raise KeyError end) (db_names d).
(** core.py:216-218 without a given rec_type *)
Definition db_get (d : db) (id : Z) : res record :=
  let* cols := db_cols d id in
  let* _ := rec_type (db_names d) in
  Ok (id, cols).
(** core.py:220-226. [order] is the order in which the set of ids is iterated. random.shuffle on
    a set fails as soon as it has to swap, i.e. for two or more elements. *)
Definition db_iter (shuffle : bool) (order : list Z) (d : db) : res (list record) :=
  if shuffle && Nat.leb 2 (length order) then Raise TypeError else mapM (db_get d) order.

(** core.py:232-237: usable records with the length of their longest field *)
Definition len_rows (d : db) (min_len : Z) (order : list Z) : res (list (Z * Z)) :=
  foldM (fun rows id =>
           let* lens := mapM (fun nf : str * field => get_len (snd nf) id) (db_fields d) in
           let* mn := py_min lens in
           let* mx := py_max lens in
           if mn <? min_len then Ok rows else Ok (rows ++ [(id, mx)])) order [].
(** core.py:246-260. max_sents is None for float('inf'). Simplification: lengths are integers
    without overflow (they are int64 in the code, as the ids are). *)
Definition over_sents (n : nat) (max_sents : option Z) : bool :=
  match max_sents with Some m => m <? Z.of_nat n | None => false end.
Definition batch_step (max_toks : Z) (max_sents : option Z)
  (st : list (list Z) * list Z * Z) (row : Z * Z) : res (list (list Z) * list Z * Z) :=
  let '(batches, batch, max_len) := st in
  let '(id, len) := row in
  if len <? 1 then Ok st
  else
    let* (batches, batch, max_len) :=
      if (max_toks <? (Z.of_nat (length batch) + 1) * Z.max max_len len) || over_sents (length batch) max_sents
      then if max_toks <? len then Raise OtherError else Ok (batches ++ [batch], [], 0)
      else Ok (batches, batch, max_len) in
    Ok (batches, batch ++ [id], Z.max max_len len).
(** core.py:243-263 *)
Definition batch_ids (max_toks : Z) (max_sents : option Z) (rows : list (Z * Z)) : res (list (list Z)) :=
  let* (batches, batch, _) := foldM (batch_step max_toks max_sents) rows ([], [], 0) in
  Ok (match batch with [] => batches | _ => batches ++ [batch] end).
(** core.py:228-263. [arranged] stands for lines 241-242: a random shuffle followed by an
    unstable sort by length. An array of no rows has no second column (line 242). *)
Definition eq_len_batch_ids (d : db) (max_toks : Z) (max_sents : option Z) (order : list Z)
  (arranged : list (Z * Z) -> list (Z * Z)) : res (list (list Z)) :=
  let* rows := len_rows d 1 order in
  match rows with
  | [] => Raise IndexError
  | _ => batch_ids max_toks max_sents (arranged rows)
  end.
(** core.py:265-276. [shuffled] stands for random.shuffle(batches). *)
Definition eq_len_ran_batches (d : db) (max_toks : Z) (max_sents : option Z) (order : list Z)
  (arranged : list (Z * Z) -> list (Z * Z)) (shuffled : list (list Z) -> list (list Z)) : res (list (list record)) :=
  let* batches := eq_len_batch_ids d max_toks max_sents order arranged in
  match batches with
  | [] => Raise OtherError
  | _ => mapM (mapM (db_get d)) (shuffled batches)
  end.
