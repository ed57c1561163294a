(** Merges that can be done in more than one way; independent of the models. *)
From Coq Require Import Strings.String.
From Verif Require Import Py PyStr CodecModel CodecSpec BpeSpec BpeppSpec.
Local Open Scope Z_scope.
Local Open Scope list_scope.

(** A symbol is merged with itself while it occurs three times in a row. *)
Definition ambiguous (p : Z * Z) (c : corpus) : Prop := fst p = snd p /\ thrice (fst p) c.
(** None of the first j merges is, each in the corpus it is done in. *)
Definition unambiguous (j : nat) (ps : list (Z * Z)) (cs : list corpus) : Prop :=
  forall i p c, (i < j)%nat -> nth_error ps i = Some p -> nth_error cs i = Some c -> ~ ambiguous p c.
