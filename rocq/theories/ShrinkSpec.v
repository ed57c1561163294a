(** Specification vocabulary for shrinking a vocabulary. *)
From Coq Require Import Strings.String.
From Verif Require Import Py PyStr CodecModel CodecSpec.
Local Open Scope Z_scope.
Local Open Scope list_scope.

(** Which positions have to stay: reserved types, types seen often enough, kids of types that stay. *)
Inductive stays (table : list Typ) (count : Z -> Z) (min_freq : Z) : Z -> Prop :=
| st_reserved n t : nth_error table n = Some t -> t_level t = -1 -> stays table count min_freq (Z.of_nat n)
| st_frequent n t : nth_error table n = Some t -> min_freq <= count (Z.of_nat n) -> stays table count min_freq (Z.of_nat n)
| st_kid n t k : stays table count min_freq (Z.of_nat n) -> nth_error table n = Some t -> In k (kids_of t) ->
    stays table count min_freq (t_idx k).

Fixpoint increasing (l : list Z) : Prop :=
  match l with [] => True | x :: l' => (forall y, In y l' -> x < y) /\ increasing l' end.

(** The entry at new position n is the entry at the old position, with the kids at their new
    positions. *)
Definition renumbered (table : list Typ) (mapping : list Z) (new : list Typ) : Prop :=
  length new = length mapping /\
  forall n i, nth_error mapping n = Some i ->
    exists t t', 0 <= i /\ nth_error table (Z.to_nat i) = Some t /\ nth_error new n = Some t' /\
      t_name t' = t_name t /\ t_level t' = t_level t /\ t_freq t' = t_freq t /\ t_idx t' = Z.of_nat n /\
      t_kids t' <> Some [] /\
      Forall2 (fun k k' => exists m, nth_error mapping m = Some (t_idx k) /\ nth_error new m = Some k') (kids_of t) (kids_of t').

(** How often an id occurs in a list of encoded lines. *)
Definition id_count (encoded : list (list Z)) (i : Z) : Z := Z.of_nat (count_occ Z.eq_dec (concat encoded) i).

(** The reserved entries carry the reserved level. *)
Definition reserved_levels (table : list Typ) : Prop :=
  forall n t, nth_error table n = Some t -> (n < 6)%nat -> t_level t = -1.

(** New ids stand for old ids. *)
Definition translates (mapping : list Z) (i' i : Z) : Prop := 0 <= i' /\ nth_error mapping (Z.to_nat i') = Some i.

(** The schemes for text. *)
Definition text_kind (k : kind) : Prop := k = KWord \/ k = KChar \/ k = KBpe.
(** The highest level that occurs in their vocabularies. *)
Definition own_level (k : kind) : Z := match k with KWord => 2 | KBpe => 1 | _ => 0 end.

(** All ids below n. *)
Definition first_ids (n : nat) : list Z := map Z.of_nat (seq 0 n).
