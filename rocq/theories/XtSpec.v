(** The entries [new] continue a table of k entries: their indices are k, k + 1, ... *)
From Verif Require Import Py CodecModel.
Local Open Scope Z_scope.
Definition in_place (k : nat) (new : list Typ) : Prop :=
  forall n t, nth_error new n = Some t -> t_idx t = Z.of_nat (k + n).
