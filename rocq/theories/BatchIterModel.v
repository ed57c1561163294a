(** nlcodec/db/batch.py:191-273, BatchIterable from the path to the batches. *)
From Coq Require Import Strings.String.
From Verif Require Import Py PyStr NumpyModel DbModel BatchModel MultipartModel.
Local Open Scope Z_scope.
Local Open Scope list_scope.
Local Open Scope res_scope.

(** What is found at a path: nothing, a plain file, a directory of files, or something else (a device, say). *)
Inductive node : Set := Missing | FileAt (c : content) | DirAt (files : list (str * content)) | SpecialAt.
(** self.data: a Db or a MultipartDb; the parts of the latter are read while iterating.
    Simplification: the files do not change meanwhile. *)
Inductive source : Set := OneDb (p : db) | Parts (files : list (str * content)) (m : mdb).
(** batch_size: a number of tokens, or a pair with the number of sentences *)
Inductive batch_size : Set := Toks (n : Z) | ToksSents (n m : Z).
Inductive strategy : Set := ReadAll | EqLen.
Record iterable : Set := MkIter {
  it_data : source; it_meta : meta; it_toks : Z; it_sents : option Z; it_desc : bool; it_first : bool; it_how : strategy }.

(** batch.py:207-210; float('inf') is None *)
Definition limits (b : batch_size) : Z * option Z := match b with Toks n => (n, None) | ToksSents n m => (n, Some m) end.
(** batch.py:215 and 261-265: which values of sort_by are accepted, and what __iter__ does with them *)
Definition EQ_LEN : str := lit "eq_len_rand_batch".
Definition RANDOM : str := lit "random".
Definition strategy_of (sort_by : option str) : res strategy :=
  match sort_by with
  | None => Ok ReadAll
  | Some s => if str_eqb s EQ_LEN then Ok EqLen else if str_eqb s RANDOM then Ok ReadAll else Raise AssertionError
  end.
(** core.py:187-195, Db.load of a file *)
Definition load_content (c : content) : res db := match c with Pickle p => Ok p | _ => Raise OtherError end.
(** batch.py:194-227, __init__. [is_path] says whether data_path is a Path or a str: line 222 asks the
    value that was given, not the Path made of it, and a str has no is_dir. IdExample has two columns. *)
Definition open_iterable (data_path : node) (is_path : bool) (size : batch_size) (bm : meta)
  (sort_desc batch_first : bool) (sort_by : option str) (keep_in_mem : bool) : res iterable :=
  let (toks, sents) := limits size in
  let* how := strategy_of sort_by in
  let* data :=
    match data_path with
    | Missing => Raise AssertionError
    | FileAt c => let* p := load_content c in Ok (OneDb p)
    | DirAt fs =>
        if is_path then let* m := mdb_load (Some fs) (Some 2%nat) keep_in_mem false in Ok (Parts fs m)
        else Raise AttributeError
    | SpecialAt => if is_path then Raise OtherError else Raise AttributeError
    end in
  Ok (MkIter data bm toks sents sort_desc batch_first how).

(** What chance and set order decide: the order of the parts, the order of the ids of a part, the order of
    the rows before batching, the order of the batches. *)
Record chances : Type := MkChances {
  parts_order : list (str * option db) -> list (str * option db); ids_order : db -> list Z;
  arranged : list (Z * Z) -> list (Z * Z); shuffled : list (list Z) -> list (list Z) }.

(** a generator applied to what another one yields *)
Definition over_stream {A B} (f : A -> res B) (s : stream A) : stream B :=
  match yield_map f (fst s) with
  | (ys, None) => (ys, snd s)
  | (ys, Some e) => (ys, Some e)
  end.
(** iter(self.data), core.py:220-227 and 342-351 *)
Definition examples_of (src : source) (c : chances) : stream example :=
  match src with
  | OneDb p => yield_map (db_example p) (ids_order c p)
  | Parts fs m => over_stream to_example (mdb_iter (Some fs) m (parts_order c) (ids_order c))
  end.
(** batch.py:229-253 as in [read_loop], over a generator: when it raises, the open batch is lost. *)
Fixpoint read_from (max_toks : Z) (max_sents : option Z) (batch : list example) (max_len : Z) (data : list example) (fin : option exn) : stream (list example) :=
  match data with
  | [] => match fin with
          | Some e => ([], Some e)
          | None => (match batch with [] => [] | _ => [batch] end, None)
          end
  | ex :: data' =>
      match e_y ex with
      | None => ([], Some TypeError)
      | Some y =>
          if Z.min (a_len (e_x ex)) (a_len y) =? 0 then read_from max_toks max_sents batch max_len data' fin
          else
            let this_len := Z.max (a_len (e_x ex)) (a_len y) in
            if ((Z.of_nat (length batch) + 1) * Z.max max_len this_len <=? max_toks) && under_sents (length batch) max_sents
            then read_from max_toks max_sents (batch ++ [ex]) (Z.max max_len this_len) data' fin
            else if max_toks <? this_len then ([], Some OtherError)
            else
              let (yielded, fin') := read_from max_toks max_sents [ex] this_len data' fin in
              (batch :: yielded, fin')
      end
  end.
(** self.data.make_eq_len_ran_batches, core.py:265-276 and 353-361 *)
Definition eq_len_of_source (src : source) (max_toks : Z) (max_sents : option Z) (c : chances) : stream (list example) :=
  match src with
  | OneDb p =>
      match eq_len_examples p max_toks max_sents (ids_order c p) (arranged c) (shuffled c) with
      | Ok groups => (groups, None)
      | Raise e => ([], Some e)
      end
  | Parts fs m => over_stream (mapM to_example) (mdb_eq_len (Some fs) m (parts_order c) max_toks max_sents (ids_order c) (arranged c) (shuffled c))
  end.
(** batch.py:229-265: one pass of __iter__ *)
Definition iterate (it : iterable) (c : chances) : stream batch :=
  let (groups, fin) :=
    match it_how it with
    | ReadAll => let (data, fin) := examples_of (it_data it) c in read_from (it_toks it) (it_sents it) [] 0 data fin
    | EqLen => eq_len_of_source (it_data it) (it_toks it) (it_sents it) c
    end in
  wrap (it_meta it) (it_desc it) (it_first it) groups fin.
(** batch.py:267-269, with core.py:176-177 and 339-340 *)
Definition num_items (it : iterable) : Z := match it_data it with OneDb p => db_len p | Parts _ m => mdb_size m end.
