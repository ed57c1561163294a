(** Specification vocabulary for iterating over stored data in batches. *)
From Verif Require Import Py NumpyModel JsonProofs DbModel DbSpec BatchModel BatchSpec MultipartModel MultipartSpec BatchIterModel.
From Coq Require Import Permutation.
Local Open Scope Z_scope.
Local Open Scope list_scope.

(** Two-column records that can be stored without loss: distinct ids, values within +-2^53. *)
Definition pairs_ok (nx ny : str) (recs : list rec) : Prop :=
  recs <> [] /\ NoDup (map fst recs) /\ NoDup [[105%N; 100%N]; nx; ny] /\ scalars nx /\ scalars ny /\
  well_shaped 2 recs /\ columns_ok exact53 2 recs /\ columns_ok fits_memory 2 recs.
(** The records were stored at this place: as one Db in a file, or as a MultipartDb in parts of the given size. *)
Inductive stored (nx ny : str) (recs : list rec) : option Z -> node -> Prop :=
| stored_file p : db_create [nx; ny] recs = Ok p -> stored nx ny recs None (FileAt (Pickle p))
| stored_dir w ow pad size d0 files : lists w -> 1 <= size -> d0 = None \/ d0 = Some [] \/ ow = true ->
    now (mdb_create w [nx; ny] ow pad size (recs, None) d0) = Some files -> stored nx ny recs (Some size) (DirAt files).
Definition parts_of (size : option Z) (recs : list rec) (parts : list (list rec)) : Prop :=
  match size with None => parts = [recs] | Some s => chunked (Z.to_nat s) recs parts end.
(** No assumption on chance except that rearranging loses nothing. *)
Definition fair (c : chances) : Prop :=
  shuffles (parts_order c) /\ set_order (ids_order c) /\ arranges (arranged c) /\ shuffles (shuffled c).

(** The two sequences of a record, with the markers asked for *)
Definition row_x (m : meta) (r : rec) : list Z := marked (add_bos_x m) (bos_idx m) (add_eos_x m) (eos_idx m) (nth 0 (snd r) []).
Definition row_y (m : meta) (r : rec) : list Z := marked (add_bos_y m) (bos_idx m) (add_eos_y m) (eos_idx m) (nth 1 (snd r) []).
Definition wanted (m : meta) (r : rec) : Prop :=
  acceptable (add_bos_x m) (bos_idx m) (add_eos_x m) (eos_idx m) (nth 0 (snd r) []) /\
  acceptable (add_bos_y m) (bos_idx m) (add_eos_y m) (eos_idx m) (nth 1 (snd r) []).
(** neither side is empty *)
Definition used (r : rec) : bool := forallb (fun c => negb (Nat.eqb (length c) 0)) (snd r).
(** A batch shows the records of a group: a row for each on both sides, in the order of the group or by decreasing length. *)
Definition shows (m : meta) (sort_desc batch_first : bool) (g : list rec) (b : batch) : Prop :=
  exists g' y, (if sort_desc then stable_desc (fun r => Z.of_nat (length (row_x m r))) g g' else g' = g) /\
    ba_len b = Z.of_nat (length g) /\ ba_ids b = map fst g' /\ ba_y b = Some y /\
    padded (pad_idx m) batch_first (map (row_x m) g') (ba_x b) /\ padded (pad_idx m) batch_first (map (row_y m) g') y.
(** The records that go into one batch are within the limits, markers not counted. *)
Definition in_limits (toks : Z) (sents : option Z) (g : list rec) : Prop :=
  g <> [] /\ Z.of_nat (length g) * longest_of g <= toks /\ at_most (length g) sents.
