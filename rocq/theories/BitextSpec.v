(** Specification vocabulary for parallel text. *)
From Verif Require Import Py NumpyModel DbModel MultipartModel BitextModel.
From Coq Require Import Permutation.
Local Open Scope Z_scope.
Local Open Scope list_scope.

(** Spark moves rows around but loses and invents none. *)
Definition spark (cl : cluster) : Prop :=
  (forall rows, Permutation rows (concat (join_parts cl rows))) /\
  (forall n parts, (0 < n)%nat -> length (repartition cl n parts) = n /\ Permutation (concat parts) (concat (repartition cl n parts))) /\
  (forall calls, Permutation calls (task_order cl calls)).

(** Line number [i] of the two texts, with both sides tokenized; neither side is empty, before or after. *)
Definition line_pair (xs ys : list str) (stok ttok : str -> res (list Z)) (i : Z) (u v : list Z) : Prop :=
  exists n x y, i = Z.of_nat n /\ nth_error xs n = Some x /\ nth_error ys n = Some y /\ x <> [] /\ y <> [] /\
    stok x = Ok u /\ ttok y = Ok v /\ u <> [] /\ v <> [].
(** Lines whose other side is not empty can be tokenized. *)
Definition tokenizes (xs ys : list str) (stok ttok : str -> res (list Z)) : Prop :=
  forall n x y, nth_error xs n = Some x -> nth_error ys n = Some y -> x <> [] -> y <> [] -> (exists u, stok x = Ok u) /\ (exists v, ttok y = Ok v).
(** The rows are exactly those described, each once. *)
Definition exactly (rows : list tok_row) (P : Z -> list Z -> list Z -> Prop) : Prop :=
  NoDup (map fst rows) /\ forall i u v, In (i, (u, v)) rows <-> P i u v.
(** The limits: the first [sl] and [tl] ids of a pair, or only pairs shorter than the limits. *)
Definition cut_to (sl tl : nat) (P : Z -> list Z -> list Z -> Prop) (i : Z) (u v : list Z) : Prop :=
  exists u0 v0, P i u0 v0 /\ u = firstn sl u0 /\ v = firstn tl v0.
Definition below (sl tl : nat) (P : Z -> list Z -> list Z -> Prop) (i : Z) (u v : list Z) : Prop :=
  P i u v /\ (length u < sl)%nat /\ (length v < tl)%nat.
Definition up_to (sl tl : nat) (P : Z -> list Z -> list Z -> Prop) (i : Z) (u v : list Z) : Prop :=
  P i u v /\ (length u <= sl)%nat /\ (length v <= tl)%nat.
(** Rows as records of two columns. *)
Definition as_rec (r : tok_row) : rec := (fst r, [fst (snd r); snd (snd r)]).
(** The column names of the part files in a directory. *)
Definition part_columns (d : dir) : list (list str) :=
  match d with
  | Some fs => flat_map (fun kv => match snd kv with Pickle p => [db_names p] | _ => [] end) fs
  | None => []
  end.
