(** Specification vocabulary for padded batches and sequential batching. *)
From Verif Require Import Py NumpyModel DbSpec BatchModel.
From Coq Require Import Permutation Sorting.Sorted.
Local Open Scope Z_scope.
Local Open Scope list_scope.

(** Arrays whose elements fit their type and are within +-2^53, so that no conversion changes them. *)
Definition sane (a : array) : Prop := Forall (can_hold (a_type a)) (a_vals a) /\ exact53 (a_vals a).
Definition int32 (v : Z) : Prop := - 2 ^ 31 <= v < 2 ^ 31.
Definition sane_meta (m : meta) : Prop := int32 (bos_idx m) /\ int32 (eos_idx m) /\ - 2 ^ 63 <= pad_idx m < 2 ^ 63.

(** Markers at the two ends of a sequence *)
Definition starts_with (b : Z) (s : list Z) : Prop := exists t, s = b :: t.
Definition ends_with (e : Z) (s : list Z) : Prop := exists t, s = t ++ [e].
Definition starts (b : Z) (s : list Z) : bool := match s with x :: _ => x =? b | [] => false end.
(** a sequence with the markers that are asked for, added only where missing *)
Definition marked (bos : bool) (b : Z) (eos : bool) (e : Z) (s : list Z) : list Z :=
  (if bos then if starts b s then [] else [b] else []) ++ s ++ (if eos then if starts e (rev s) then [] else [e] else []).
(** a marker that is not asked for must not be there *)
Definition acceptable (bos : bool) (b : Z) (eos : bool) (e : Z) (s : list Z) : Prop :=
  s <> [] /\ (bos = false -> ~ starts_with b s) /\ (eos = false -> ~ ends_with e s).

Definition y_vals (ex : example) : list Z := match e_y ex with Some y => a_vals y | None => [] end.
Definition marked_x (m : meta) (ex : example) : list Z := marked (add_bos_x m) (bos_idx m) (add_eos_x m) (eos_idx m) (a_vals (e_x ex)).
Definition marked_y (m : meta) (ex : example) : list Z := marked (add_bos_y m) (bos_idx m) (add_eos_y m) (eos_idx m) (y_vals ex).
Definition good_x (m : meta) (ex : example) : Prop :=
  sane (e_x ex) /\ acceptable (add_bos_x m) (bos_idx m) (add_eos_x m) (eos_idx m) (a_vals (e_x ex)).
Definition good_y (m : meta) (ex : example) : Prop :=
  exists y, e_y ex = Some y /\ sane y /\ acceptable (add_bos_y m) (bos_idx m) (add_eos_y m) (eos_idx m) (a_vals y).

(** A stable sort by decreasing key *)
Definition stable_desc {A} (key : A -> Z) (l l' : list A) : Prop :=
  Permutation l' l /\ StronglySorted (fun a b => key b <= key a) l' /\
  forall k, filter (fun a => key a =? k) l' = filter (fun a => key a =? k) l.

(** The element of row i and column j, the matrix being stored by rows or transposed *)
Definition cell (batch_first : bool) (rows : list (list Z)) (i j : nat) : option Z :=
  let (i, j) := if batch_first then (i, j) else (j, i) in
  match nth_error rows i with Some r => nth_error r j | None => None end.
Definition shape (batch_first : bool) (rows : list (list Z)) (height width : nat) : Prop :=
  let (h, w) := if batch_first then (height, width) else (width, height) in
  length rows = h /\ forall r, In r rows -> length r = w.
(** One side of a batch holds the sequences, padded *)
Definition padded (pad : Z) (batch_first : bool) (seqs : list (list Z)) (s : side) : Prop :=
  s_len s = map (fun q => Z.of_nat (length q)) seqs /\
  s_toks s = Z.of_nat (length (concat seqs)) /\
  (exists q, In q seqs /\ s_max s = Z.of_nat (length q)) /\ (forall q, In q seqs -> Z.of_nat (length q) <= s_max s) /\
  shape batch_first (s_seqs s) (length seqs) (Z.to_nat (s_max s)) /\
  forall i q j, nth_error seqs i = Some q -> (j < Z.to_nat (s_max s))%nat ->
    cell batch_first (s_seqs s) i j = Some (nth j q pad).

(** Sequential batching *)
Definition example_size (ex : example) : Z := Z.max (Z.of_nat (length (a_vals (e_x ex)))) (Z.of_nat (length (y_vals ex))).
Definition example_used (ex : example) : bool := negb (Nat.eqb (length (a_vals (e_x ex))) 0) && negb (Nat.eqb (length (y_vals ex)) 0).
Definition max_size (g : list example) : Z := fold_right Z.max 0 (map example_size g).
Definition fits_seq (max_toks : Z) (max_sents : option Z) (g : list example) (r : example) : Prop :=
  (Z.of_nat (length g) + 1) * Z.max (max_size g) (example_size r) <= max_toks /\ at_most (S (length g)) max_sents.
(** The examples of a Db record *)
Definition example_of (r : Z * list (list Z)) (ex : example) : Prop :=
  e_id ex = fst r /\ sane (e_x ex) /\ e_x_raw ex = None /\ e_y_raw ex = None /\
  exists y, e_y ex = Some y /\ sane y /\ snd r = [a_vals (e_x ex); a_vals y].
(** the order of the examples in a batch *)
Definition arranged_as (sort_dec : bool) (m : meta) (exs exs' : list example) : Prop :=
  if sort_dec then stable_desc (fun ex => Z.of_nat (length (marked_x m ex))) exs exs' else exs' = exs.
(** max_sents is at least 1, or unlimited *)
Definition sents_ok (max_sents : option Z) : Prop := match max_sents with Some m => 1 <= m | None => True end.
(** an example that a Batch accepts *)
Definition good (m : meta) (ex : example) : Prop := good_x m ex /\ good_y m ex.
(** the number of markers that may be added to a sequence *)
Definition marks (bos eos : bool) : Z := (if bos then 1 else 0) + (if eos then 1 else 0).
(** The raw texts of a side: all of them when the first is a text that is not empty, and none otherwise *)
Definition raw_column (l : list (option str)) (r : option (list (option str))) : Prop :=
  (forall s l', l = Some s :: l' -> s <> [] -> r = Some l) /\
  ((forall s l', l = Some s :: l' -> s = []) -> r = None).
