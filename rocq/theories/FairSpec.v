(** What is asked of a comparison of texts, independent of how it is computed. *)
From Coq Require Import QArith Sorting.Permutation.
From Verif Require Import Py EvalModel.
Local Open Scope list_scope.

(** The two sides have the same words, line by line. *)
Definition same_words (cands refs : list (list Z)) : Prop := Forall2 (@Permutation Z) cands refs.
(** A row of the report without a fault. *)
Definition perfect (r : row) : Prop := let '(_, _, _, _, rec, prec, _) := r in (rec == 1 /\ prec == 1)%Q.
Definition perfect_f1 (r : row) : Prop := let '(_, _, _, _, _, _, f1) := r in (f1 == 1)%Q.
(** The frequencies of both sides agree. *)
Definition same_counts (r : row) : Prop := let '(_, _, rf, cf, _, _, _) := r in rf = cf /\ (0 < rf)%Z.
