(** What is said about refused files, failing batches and names of strategies; independent of the models. *)
From Coq Require Import Strings.String.
From Verif Require Import Py PyStr CodecModel JsonModel NumpyModel BatchModel.
Local Open Scope Z_scope.
Local Open Scope list_scope.

(** JSON values that are equal to 1 *)
Definition equals_one (v : json) : Prop := v = JInt 1 \/ v = JBool true.
(** a type made of two parts *)
Definition of_two (t : Typ) : Prop := exists a b, t_kids t = Some [a; b].

(** [f] applied to one value after the other until it raises *)
Inductive until_failure {A B} (f : A -> res B) : list A -> option exn -> list B -> option exn -> Prop :=
| Uf_all xs ys fin : Forall2 (fun x y => f x = Ok y) xs ys -> until_failure f xs fin ys fin
| Uf_fail xs x rest ys e fin : Forall2 (fun x y => f x = Ok y) xs ys -> f x = Raise e ->
    until_failure f (xs ++ x :: rest) fin ys (Some e).
