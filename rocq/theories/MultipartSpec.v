(** Specification vocabulary for multipart databases. *)
From Verif Require Import Py NumpyModel DbModel DbSpec MultipartModel.
From Coq Require Import Permutation.
Local Open Scope Z_scope.
Local Open Scope list_scope.

(** Cutting a list into chunks of [size], the last one possibly shorter. *)
Definition chunked {A} (size : nat) (l : list A) (chunks : list (list A)) : Prop :=
  concat chunks = l /\ (forall c, In c chunks -> c <> [] /\ (length c <= size)%nat) /\
  (forall before c after, chunks = before ++ c :: after -> after <> [] -> length c = size).

(** Records that can be stored: see C40. [105; 100] is "id", the first field of the record type. *)
Definition storable (names : list str) (recs : list (Z * list (list Z))) : Prop :=
  NoDup ([105%N; 100%N] :: names) /\ names <> [] /\ well_shaped (length names) recs /\ columns_ok faithful (length names) recs /\ columns_ok fits_memory (length names) recs.

(** A directory may be listed in any order. *)
Definition lists (w : world) : Prop := (forall l, Permutation l (rm_order w l)) /\ (forall l, Permutation l (glob_order w l)).
(** A set of ids may be iterated in any order. *)
Definition set_order (ids_order : db -> list Z) : Prop := forall p, Permutation (ids_order p) (db_ids p).

(** No way of loading the directory succeeds. *)
Definition refuses (d : dir) : Prop := forall arity keep shuffle, exists e, mdb_load d arity keep shuffle = Raise e.
(** The directory loads, reports the right number of records, and iterating yields each record
    exactly once with its id. Shuffling needs the parts in memory (see C43). *)
Definition complete (n_fields : nat) (recs : list (Z * list (list Z))) (d : dir) : Prop :=
  forall arity keep shuffle, (arity = None \/ arity = Some n_fields) -> (shuffle = true -> keep = true) ->
  exists m, mdb_load d arity keep shuffle = Ok m /\ mdb_size m = Z.of_nat (length recs) /\
    forall parts_order ids_order, shuffles parts_order -> set_order ids_order ->
    exists out recs', mdb_iter d m parts_order ids_order = (out, None) /\ Permutation recs recs' /\ Forall2 same_record recs' out.
(** The same files, some of them removed. *)
Definition files_removed (old new : list (str * content)) : Prop :=
  forall name, dget str_eqb name new = dget str_eqb name old \/ dget str_eqb name new = None.
(** Records that make_eq_len_ran_batches puts into batches of at most max_toks cells. *)
Definition in_budget (max_toks : Z) (g : list (Z * list (list Z))) : Prop :=
  g <> [] /\ Z.of_nat (length g) * longest_of g <= max_toks.
