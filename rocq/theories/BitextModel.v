(** Parallel text: spark.py (read_raw_bitext, read_raw_bitext_tok, rdd_as_db) and bitextdb.py. *)
From Coq Require Import Strings.String.
From Verif Require Import Py PyStr CodecModel VocabFileModel NumpyModel DbModel BatchModel MultipartModel.
Local Open Scope Z_scope.
Local Open Scope list_scope.
Local Open Scope res_scope.

(** A row (idx, x, y) of the joined text, and of the encoded text (spark.py:101-104). *)
Definition raw_row : Set := (Z * (str * str))%type.
Definition tok_row : Set := (Z * (list Z * list Z))%type.
(** What Spark is free to choose: the partitions of a join and the order of rows in them; the
    partitions made by repartition(n); the order in which the tasks of a stage are run.  Simplifications:
    a task runs once and not at the same time as another (each task writes files of its own name). *)
Record cluster : Type := MkCluster {
  join_parts : list raw_row -> list (list raw_row);
  repartition : nat -> list (list rec) -> list (list rec);
  task_order : list (Z * stream rec) -> list (Z * stream rec) }.

(** spark.py:73-76, zipWithIndex, and :80, the inner join of the two sides on idx. *)
Definition inner_join (xs ys : list (Z * str)) : list raw_row :=
  flat_map (fun ix => map (fun iy => (fst ix, (snd ix, snd iy))) (filter (fun iy => fst ix =? fst iy) ys)) xs.
(** spark.py:48-83. [xs] and [ys] are the lines of the two files as spark.read.text gives them (one
    plain file a side), in order.  The count n_src is not used by the caller. *)
Definition read_raw_bitext (cl : cluster) (xs ys : list str) : res (list (list raw_row)) :=
  let* _ := assert_ (Nat.eqb (length xs) (length ys)) in
  Ok (join_parts cl (inner_join (enumerate xs) (enumerate ys))).

(** spark.py:100-123. A tokenizer is a function that may raise.  Simplifications: rows are tokenized
    here and not on use, so that an exception of a tokenizer surfaces here; the guess of the column
    types by toDF, which fails on a first row with an empty side (a limit of 0), is left out; arrays
    and lists of numbers are not told apart (lines 118-120). *)
Definition tokenize_row (stok ttok : str -> res (list Z)) (r : raw_row) : res tok_row :=
  let* x := stok (fst (snd r)) in let* y := ttok (snd (snd r)) in Ok (fst r, (x, y)).
Definition both {A B} (r : Z * (list A * list B)) : bool :=
  match snd r with (_ :: _, _ :: _) => true | _ => false end.
Definition read_raw_bitext_tok (cl : cluster) (xs ys : list str) (truncate : bool) (src_len tgt_len : Z) (stok ttok : str -> res (list Z)) : res (list (list tok_row)) :=
  let* raw := read_raw_bitext cl xs ys in
  let* toks := mapM (mapM (tokenize_row stok ttok)) (map (filter both) raw) in
  let kept := map (filter both) toks in
  let out := if truncate then map (map (fun r => (fst r, (py_take (fst (snd r)) src_len, py_take (snd (snd r)) tgt_len)))) kept
             else map (filter (fun r => (Z.of_nat (length (fst (snd r))) <? src_len) && (Z.of_nat (length (snd (snd r))) <? tgt_len))) kept in
  match concat out with
  | [] => Raise IndexError (* take(1)[0] of nothing *)
  | _ => Ok out
  end.

(** spark.py:126-135. The exception of a task ends the block. *)
Definition rdd_as_db (w : world) (cl : cluster) (names : list str) (overwrite : bool) (pad : nat) (n : Z) (rdd : list (list rec)) : io mdb :=
  (let rdd := if 0 <? n then repartition cl (Z.to_nat n) rdd else rdd in
   do _ <- with_writer w names overwrite pad (task_order cl (enumerate (map (fun p => (p, None)) rdd))) None;
   fun d => MkRun [] d (mdb_load d None false false))%io.

(** bitextdb.py:17-35, main, from the bytes of the model files and the lines of the texts.  [pad] is
    the padding of the default max_parts.  Of its arguments --src-col and --tgt-col (lines 57-58) are
    not used, nor are --spark_master and --driver_mem (left out here). *)
Definition bitextdb (w : world) (cl : cluster) (pad : nat) (src_model : list N) (tgt_model : option (list N)) (xs ys : list str)
    (num_parts : Z) (src_col tgt_col : str) (src_len tgt_len : Z) (truncate : bool) : io mdb :=
  (do src_codec <- lift (load_scheme src_model);
   do tgt_codec <- lift (match tgt_model with Some m => load_scheme m | None => Ok src_codec end);
   do df <- lift (read_raw_bitext_tok cl xs ys truncate src_len tgt_len (encode src_codec) (encode tgt_codec));
   let rdd := map (map (fun r => (fst r, [fst (snd r); snd (snd r)]))) df in
   rdd_as_db w cl [lit "x"; lit "y"] false pad num_parts rdd)%io.
