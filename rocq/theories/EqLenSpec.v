(** What iterating in batches of equal length serves when a part has no batch to give. *)
From Verif Require Import Py DbModel DbSpec MultipartModel MultipartSpec.
Local Open Scope Z_scope.
Local Open Scope list_scope.

(** A part without a usable record, or with a usable one that exceeds the budget, and the exception it ends in. *)
Definition spoilt (max_toks : Z) (c : list rec) (e : exn) : Prop :=
  ((forall r, In r c -> ~ usable r) /\ e = IndexError) \/ ((exists r, In r c /\ usable r /\ max_toks < longest r) /\ e = OtherError).
(** The batches hold every usable record of the visited parts once, no batch crosses parts or exceeds the limits. *)
Definition served (max_toks : Z) (max_sents : option Z) (visited : list (list rec)) (groups : list (list rec)) : Prop :=
  (forall g, In g groups -> in_budget max_toks g /\ match max_sents with Some m => Z.of_nat (length g) <= m + 1 | None => True end) /\
  (forall g, In g groups -> exists c, In c visited /\ incl g c) /\
  NoDup (concat groups) /\ (forall r, In r (concat groups) <-> In r (concat visited) /\ usable r).
