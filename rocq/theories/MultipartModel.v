(** nlcodec/db/core.py:279-407, MultipartDb: a directory of pickled Db parts with a success flag.
    The directory is a value; every change passes through the states in which a crash can leave it. *)
From Coq Require Import Strings.String.
From Verif Require Import Py PyStr JsonModel NumpyModel DbModel BatchModel.
Local Open Scope Z_scope.
Local Open Scope list_scope.
Local Open Scope res_scope.

(** ** files *)
(** What a file holds: text, a pickled Db, or an incomplete pickle. Simplification: pickle.load
    gives back the pickled object, and fails on an incomplete one. *)
Inductive content : Set := Text (s : str) | Pickle (d : db) | Incomplete.
(** The directory at [path]: None if it does not exist, otherwise its files. Simplification: it
    holds no subdirectories, and [path] is not a plain file. *)
Definition dir : Set := option (list (str * content)).
(** What the file system, and the size of a pickle, are free to choose: the order in which a
    directory is listed for removal (shutil.rmtree) and for glob, and stat().st_size. *)
Record world : Set := MkWorld { rm_order : list str -> list str; glob_order : list str -> list str; size_of : db -> Z }.

(** A run: the states passed through, the state at the end, and the result. *)
Record run (A : Type) : Type := MkRun { seen : list dir; now : dir; val : res A }.
Arguments MkRun {A} _ _ _.
Arguments seen {A} _.
Arguments now {A} _.
Arguments val {A} _.
Definition io (A : Type) : Type := dir -> run A.
Definition done {A} (a : A) : io A := fun d => MkRun [] d (Ok a).
Definition fail {A} (e : exn) : io A := fun d => MkRun [] d (Raise e).
Definition lift {A} (r : res A) : io A := fun d => MkRun [] d r.
Definition seq_io {A B} (m : io A) (f : A -> io B) : io B := fun d =>
  let r := m d in
  match val r with
  | Raise e => MkRun (seen r) (now r) (Raise e)
  | Ok a => let r2 := f a (now r) in MkRun (seen r ++ seen r2) (now r2) (val r2)
  end.
Declare Scope io_scope.
Delimit Scope io_scope with io.
Notation "'do' x '<-' e1 ';' e2" := (seq_io e1 (fun x => e2)) (at level 200, x pattern, right associativity) : io_scope.
Local Open Scope io_scope.

(** Path.write_text: the file is created or truncated, then grows; a crash leaves a prefix. *)
Definition write_text (name : str) (s : str) : io unit := fun d =>
  match d with
  | None => MkRun [] d (Raise FileNotFound)
  | Some fs =>
      MkRun (map (fun k => Some (dset str_eqb name (Text (firstn k s)) fs)) (seq 0 (S (length s))))
            (Some (dset str_eqb name (Text s) fs)) (Ok tt)
  end.
(** core.py:181-184, Db.save *)
Definition db_save (name : str) (p : db) : io unit := fun d =>
  match d with
  | None => MkRun [] d (Raise FileNotFound)
  | Some fs =>
      MkRun [Some (dset str_eqb name Incomplete fs); Some (dset str_eqb name (Pickle p) fs)]
            (Some (dset str_eqb name (Pickle p) fs)) (Ok tt)
  end.
(** core.py:187-195, Db.load; rec_type and shuffle are kept by the callers here *)
Definition db_load (d : dir) (name : str) : res db :=
  match d with
  | None => Raise FileNotFound
  | Some fs =>
      match dget str_eqb name fs with
      | None => Raise FileNotFound
      | Some (Pickle p) => Ok p
      | Some _ => Raise OtherError
      end
  end.
(** shutil.rmtree: the files one after the other, then the directory *)
Fixpoint remove_files (names : list str) (fs : list (str * content)) : list dir :=
  match names with
  | [] => []
  | n :: names' => Some (ddel str_eqb n fs) :: remove_files names' (ddel str_eqb n fs)
  end.
Definition rmtree (w : world) : io unit := fun d =>
  match d with
  | None => MkRun [] d (Raise FileNotFound)
  | Some fs => MkRun (remove_files (rm_order w (dkeys fs)) fs ++ [None]) None (Ok tt)
  end.
(** path.mkdir(parents=True, exist_ok=True) *)
Definition mkdir : io unit := fun d =>
  match d with
  | None => MkRun [Some []] (Some []) (Ok tt)
  | Some _ => MkRun [] d (Ok tt)
  end.

(** ** slices *)
(** core.py:281-290. The slices are consumed completely, each before the next is asked for. The
    stream yields [l] and then stops, or raises the exception [fin]; a slice that meets the end
    of the stream passes that exception on to its consumer. The result: the slices, each with the
    exception it ends in, and the exception of the generator itself. *)
Fixpoint slices_loop {A} (fuel : nat) (size : nat) (l : list A) (fin : option exn) : list (stream A) * option exn :=
  match fuel with
  | O => ([], Some OutOfFuel)
  | S f =>
      match l with
      | [] => ([], fin)
      | _ =>
          if Nat.ltb (length l) size then ([(l, fin)], None)
          else let (cs, e) := slices_loop f size (skipn size l) fin in ((firstn size l, None) :: cs, e)
      end
  end.
Definition slices {A} (st : stream A) (size : Z) : list (stream A) * option exn :=
  if size <? 0 then ([], Some ValueError)       (* itertools.islice refuses *)
  else if size =? 0 then ([], None)             (* an empty slice ends the loop *)
  else slices_loop (S (length (fst st))) (Z.to_nat size) (fst st) (snd st).

(** ** writing *)
(** f'part-{part_num:0{pad}d}': zero padding to the width, the sign counts *)
Definition zfill (width : nat) (s : str) : str := repeat 48%N (width - length s) ++ s.
Definition pad_int (width : nat) (n : Z) : str :=
  if n <? 0 then 45%N :: zfill (width - 1) (str_of_N (Z.to_N (- n))) else zfill width (str_of_N (Z.to_N n)).
Definition part_name (pad : nat) (n : Z) : str := lit "part-" ++ pad_int pad n.
(** Path.with_suffix('.meta') of a name without a dot *)
Definition meta_name (part : str) : str := part ++ lit ".meta".
Definition FLAG : str := lit "_SUCCESS".
(** core.py:365-377, Writer.__init__. The padding (core.py:55-56) is an argument [pad] of the
    functions below: any width; max_parts < 1 raises ValueError in math.log10 and is left out. *)
Definition writer_init (w : world) (overwrite : bool) : io unit := fun d =>
  match d with
  | Some (_ :: _) => if overwrite then (do _ <- rmtree w; mkdir) d else fail OtherError d
  | _ => mkdir d
  end.
(** a record: its id and its columns *)
Definition rec : Set := (Z * list (list Z))%type.
(** core.py:381 Db.create(recs, field_names, has_id=True) on a slice that may raise *)
Definition db_of_slice (names : list str) (recs : stream rec) : res db :=
  match snd recs with
  | None => db_create names (fst recs)
  | Some e => (let* _ := foldM append_all (fst recs) (map (fun n => new_builder n None) names) in Raise e)%res
  end.
(** core.py:385-386 *)
Definition part_meta (w : world) (p : db) : json :=
  JObj [(lit "count", JInt (db_len p)); (lit "size", JInt (size_of w p))].
(** core.py:379-388, Writer.__call__ *)
Definition writer_call (w : world) (names : list str) (pad : nat) (n : Z) (recs : stream rec) : io (str * Z) :=
  do p <- lift (db_of_slice names recs);
  do _ <- db_save (part_name pad n) p;
  do _ <- write_text (meta_name (part_name pad n)) (dumps_ind 0 (part_meta w p));
  done (part_name pad n, db_len p).
Fixpoint write_parts (w : world) (names : list str) (pad : nat) (calls : list (Z * stream rec)) : io unit :=
  match calls with
  | [] => done tt
  | (n, recs) :: calls' => do _ <- writer_call w names pad n recs; write_parts w names pad calls'
  end.
(** glob("part-*.meta") *)
Definition endswith (suffix s : str) : bool := startswith (rev suffix) (rev s).
Definition is_part_meta (name : str) : bool :=
  startswith (lit "part-") name && endswith (lit ".meta") name && Nat.leb 10 (length name).
(** core.py:392-394: the part name and the content of a .meta file *)
Definition read_meta (fs : list (str * content)) (name : str) : res (str * json) :=
  match dget str_eqb name fs with
  | Some (Text s) => (let* j := loads s in Ok (rstrip_set (lit ".meta") name, j))%res
  | Some _ => Raise UnicodeError
  | None => Raise FileNotFound
  end.
(** core.py:390-397, Writer.close *)
Definition success_meta (names : list str) (parts : list (str * json)) : json :=
  JObj [(lit "parts", JObj parts); (lit "field_names", JArr (map JStr names))].
Definition close (w : world) (names : list str) : io unit := fun d =>
  match d with
  | None => fail FileNotFound d       (* close is only called after mkdir *)
  | Some fs =>
      match mapM (read_meta fs) (filter is_part_meta (glob_order w (dkeys fs))) with
      | Raise e => fail e d
      | Ok metas =>
          write_text FLAG (dumps_ind 0 (success_meta names (fold_left (fun m kv => dset str_eqb (fst kv) (snd kv) m) metas []))) d
      end
  end.
(** core.py:399-407: the Writer as a context manager. The block makes the given calls and may
    then raise; an exception skips close and is not swallowed. *)
Definition with_writer (w : world) (names : list str) (overwrite : bool) (pad : nat) (calls : list (Z * stream rec)) (fin : option exn) : io unit :=
  do _ <- writer_init w overwrite;
  do _ <- write_parts w names pad calls;
  do _ <- lift (match fin with Some e => Raise e | None => Ok tt end);
  close w names.

(** ** loading and reading *)
(** core.py:327-337. [m_arity] is the number of columns of the record type. *)
Record mdb : Set := MkMdb { m_parts : list str; m_counts : list Z; m_len : Z; m_arity : nat; m_keep : bool; m_shuffle : bool; m_mem : list (option db) }.
Definition to_int (j : json) : res Z := match j with JInt z => Ok z | _ => Raise TypeError end.
Definition to_name (j : json) : res str := match j with JStr s => Ok s | _ => Raise TypeError end.
Definition part_stat (kv : str * json) : res (str * json) :=
  match snd kv with
  | JObj st => match jget (lit "count") st with Some c => Ok (fst kv, c) | None => Raise KeyError end
  | _ => Raise TypeError
  end.
(** core.py:307-325 and 327-337. [arity] is the number of columns of a given rec_type, None to make
    one of the field names. Simplifications: a count that is not an integer and a name that is
    not a string raise TypeError. *)
Definition mdb_load (d : dir) (arity : option nat) (keep shuffle : bool) : res mdb :=
  (match d with
   | None => Raise AssertionError
   | Some fs =>
       match dget str_eqb FLAG fs with
       | None => Raise AssertionError
       | Some (Text s) =>
           let* meta := loads s in
           match meta with
           | JObj top =>
               let* parts := match jget (lit "parts") top with
                             | Some (JObj ps) => mapM part_stat ps
                             | Some _ => Raise AttributeError
                             | None => Raise KeyError end in
               let* n := match jget (lit "field_names") top with
                         | None => Raise KeyError
                         | Some (JArr l) =>
                             match arity with
                             | Some n => Ok n
                             | None => let* names := mapM to_name l in let* _ := rec_type names in Ok (length names)
                             end
                         | Some _ => match arity with Some n => Ok n | None => Raise TypeError end
                         end in
               let* _ := assert_ (negb (Nat.eqb (length parts) 0)) in
               let* counts := mapM (fun kv => to_int (snd kv)) parts in
               let keep := keep || Nat.eqb (length parts) 1 in
               let* mem := if keep then mapM (fun kv => let* p := db_load d (fst kv) in Ok (Some p)) parts
                           else Ok (map (fun _ => None) parts) in
               Ok (MkMdb (map fst parts) counts (zsum counts) n keep shuffle mem)
           | _ => Raise TypeError
           end
       | Some _ => Raise UnicodeError
       end
   end)%res.
(** core.py:339-340 *)
Definition mdb_size (m : mdb) : Z := m_len m.

(** Reading one record with the record type of the MultipartDb *)
Definition read_as (arity : nat) (p : db) (id : Z) : res record :=
  (let* cols := db_cols p id in
   if Nat.eqb (length cols) arity then Ok (id, cols) else Raise TypeError)%res.
(** a generator that maps a function that may raise *)
Fixpoint yield_map {A B} (f : A -> res B) (l : list A) : stream B :=
  match l with
  | [] => ([], None)
  | x :: l' => match f x with
               | Raise e => ([], Some e)
               | Ok y => let (ys, fin) := yield_map f l' in (y :: ys, fin)
               end
  end.
(** one generator after the other: `yield from` in a loop *)
Fixpoint yield_all {A B} (f : A -> stream B) (l : list A) : stream B :=
  match l with
  | [] => ([], None)
  | x :: l' => match f x with
               | (ys, Some e) => (ys, Some e)
               | (ys, None) => let (zs, fin) := yield_all f l' in (ys ++ zs, fin)
               end
  end.
(** core.py:342-351. [parts_order] is random.shuffle of the (index, path) pairs; [ids_order] is the
    order in which the set of ids of a part is iterated. A part that is loaded for iteration takes
    the shuffle flag; random.shuffle on a set of two or more ids raises TypeError (core.py:222-224). *)
Definition mdb_iter (d : dir) (m : mdb) (parts_order : list (str * option db) -> list (str * option db)) (ids_order : db -> list Z) : stream record :=
  let idx_paths := combine (m_parts m) (m_mem m) in
  yield_all (fun pm : str * option db =>
               match (if m_keep m then match snd pm with Some p => Ok p | None => Raise TypeError end else db_load d (fst pm)) with
               | Raise e => ([], Some e)
               | Ok p => if negb (m_keep m) && m_shuffle m && Nat.leb 2 (length (ids_order p)) then ([], Some TypeError)
                         else yield_map (read_as (m_arity m) p) (ids_order p)
               end)
            (if m_shuffle m then parts_order idx_paths else idx_paths).
(** core.py:265-276 with the record type of the MultipartDb *)
Definition part_eq_len (arity : nat) (p : db) (max_toks : Z) (max_sents : option Z) (order : list Z)
  (arranged : list (Z * Z) -> list (Z * Z)) (shuffled : list (list Z) -> list (list Z)) : stream (list record) :=
  match eq_len_batch_ids p max_toks max_sents order arranged with
  | Raise e => ([], Some e)
  | Ok [] => ([], Some OtherError)
  | Ok batches => yield_map (mapM (read_as arity p)) (shuffled batches)
  end.
(** core.py:353-361. join_ratio is not used by the code. *)
Definition mdb_eq_len (d : dir) (m : mdb) (parts_order : list (str * option db) -> list (str * option db)) (max_toks : Z) (max_sents : option Z)
  (ids_order : db -> list Z) (arranged : list (Z * Z) -> list (Z * Z)) (shuffled : list (list Z) -> list (list Z)) : stream (list record) :=
  yield_all (fun pm : str * option db =>
               match (match snd pm with Some p => Ok p | None => db_load d (fst pm) end) with
               | Raise e => ([], Some e)
               | Ok p => part_eq_len (m_arity m) p max_toks max_sents (ids_order p) arranged shuffled
               end)
            (parts_order (combine (m_parts m) (m_mem m))).

(** core.py:292-305, MultipartDb.create with has_id=True; with has_id=False the records are
    numbered first ([enumerate], lines 295-296). *)
Definition mdb_create (w : world) (names : list str) (overwrite : bool) (pad : nat) (part_size : Z) (recs : stream rec) : io mdb :=
  let (cs, fin) := slices recs part_size in
  do _ <- with_writer w names overwrite pad (enumerate cs) fin;
  fun d => MkRun [] d (mdb_load d None false false).
Definition mdb_create_auto (w : world) (names : list str) (overwrite : bool) (pad : nat) (part_size : Z) (recs : stream (list (list Z))) : io mdb :=
  mdb_create w names overwrite pad part_size (enumerate (fst recs), snd recs).
