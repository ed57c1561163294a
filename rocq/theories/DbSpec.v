(** Specification vocabulary for stored sequences and batches. *)
From Verif Require Import Py NumpyModel.
From Coq Require Import Permutation Sorting.Sorted.
Local Open Scope Z_scope.
Local Open Scope list_scope.

(** What each integer type can hold, written out. *)
Definition can_hold (d : dtype) (v : Z) : Prop :=
  match d with
  | U8 => 0 <= v <= 255 | I8 => -128 <= v <= 127
  | U16 => 0 <= v <= 65535 | I16 => -32768 <= v <= 32767
  | U32 => 0 <= v <= 4294967295 | I32 => -2147483648 <= v <= 2147483647
  | U64 => 0 <= v <= 18446744073709551615 | I64 => -9223372036854775808 <= v <= 9223372036854775807
  | F64 => -9007199254740992 <= v <= 9007199254740992   (* whole numbers up to 2^53 *)
  end.
Definition is_integer_type (d : dtype) : Prop := d <> F64.
Definition width (d : dtype) : Z :=
  match d with U8 | I8 => 8 | U16 | I16 => 16 | U32 | I32 => 32 | U64 | I64 | F64 => 64 end.
Definition is_signed (d : dtype) : Prop := d = I8 \/ d = I16 \/ d = I32 \/ d = I64.

(** Sequences appended to a field: (id, sequence) pairs. *)
Definition all_values (recs : list (Z * list Z)) : list Z := concat (map snd recs).
(** Values for which the choice of a type cannot fail. *)
Definition in_range (vals : list Z) : Prop :=
  Forall (fun v => - 2 ^ 63 <= v < 2 ^ 63) vals \/ Forall (fun v => 0 <= v < 2 ^ 64) vals.
(** Values that float64 represents exactly. *)
Definition exact53 (vals : list Z) : Prop := Forall (fun v => - 2 ^ 53 <= v <= 2 ^ 53) vals.
(** Values that are certain to be read back unchanged: below 2^32, or exact in float64. *)
Definition faithful (vals : list Z) : Prop := Forall (fun v => - 2 ^ 63 <= v < 2 ^ 32) vals \/ exact53 vals.
(** Fewer than 2^64 values in total. *)
Definition fits_memory (vals : list Z) : Prop := Z.of_nat (length vals) < 2 ^ 64.

(** Records of several columns: (id, columns) pairs. *)
Definition column (j : nat) (recs : list (Z * list (list Z))) : list (Z * list Z) :=
  map (fun r => (fst r, nth j (snd r) [])) recs.
Definition well_shaped (n : nat) (recs : list (Z * list (list Z))) : Prop :=
  forall r, In r recs -> length (snd r) = n.
Definition columns_ok (P : list Z -> Prop) (n : nat) (recs : list (Z * list (list Z))) : Prop :=
  forall j, (j < n)%nat -> P (all_values (column j recs)).
(** A returned record holds the columns of the given one. *)
Definition same_record (given : Z * list (list Z)) (got : Z * list array) : Prop :=
  fst got = fst given /\ map a_vals (snd got) = snd given.

(** Packing a sequence of records into batches one after the other: a record joins the current
    batch exactly when it fits, and starts a new one otherwise. [fits g r]: r may join g. *)
Definition greedy {R} (fits : list R -> R -> Prop) (batches : list (list R)) : Prop :=
  (forall g, In g batches -> g <> [] /\ forall p r s, g = p ++ r :: s -> p <> [] -> fits p r) /\
  (forall before g r h after, batches = before ++ g :: (r :: h) :: after -> ~ fits g r).
(** A record is used for batching if no column is empty; its size is that of the longest column. *)
Definition usable (r : Z * list (list Z)) : Prop := forall c, In c (snd r) -> c <> [].
Definition longest (r : Z * list (list Z)) : Z := fold_right Z.max 0 (map (fun c => Z.of_nat (length c)) (snd r)).
Definition longest_of (g : list (Z * list (list Z))) : Z := fold_right Z.max 0 (map longest g).
Definition at_most (n : nat) (limit : option Z) : Prop := match limit with Some m => Z.of_nat n <= m | None => True end.
(** core.py:252: the rule of the equal-length batches, as found in the code *)
Definition fits_eq_len (max_toks : Z) (max_sents : option Z) (g : list (Z * list (list Z))) (r : Z * list (list Z)) : Prop :=
  (Z.of_nat (length g) + 1) * Z.max (longest_of g) (longest r) <= max_toks /\ at_most (length g) max_sents.
(** A random rearrangement that sorts (id, size) rows by size, and a shuffle. *)
Definition arranges (arranged : list (Z * Z) -> list (Z * Z)) : Prop :=
  forall l, Permutation l (arranged l) /\ StronglySorted (fun a b => snd a <= snd b) (arranged l).
Definition shuffles {A} (shuffled : list A -> list A) : Prop := forall l, Permutation l (shuffled l).
