(** What the entries of a table grown by merges are made of, and strings repeated three times in a row. *)
From Coq Require Import Strings.String.
From Verif Require Import Py PyStr CodecModel CodecSpec BpeSpec.
Local Open Scope Z_scope.
Local Open Scope list_scope.

(** The part u occurs in s. *)
Definition part_of {A} (u s : list A) : Prop := exists p q, s = p ++ u ++ q.
(** A non-empty part three times in a row. *)
Definition cube_free {A} (s : list A) : Prop := forall x, x <> [] -> ~ part_of (x ++ x ++ x) s.
Definition cube_free_corpus (c : corpus) : Prop := forall s f, In (s, f) c -> cube_free s.

(** The first k entries of a table stand for themselves; the others are spelled by their two kids. *)
Inductive spelling (k : Z) (table : list Typ) : Z -> list Z -> Prop :=
| sp_given m : 0 <= m < k -> spelling k table m [m]
| sp_joined m ty a b la lb : k <= m -> nth_error table (Z.to_nat m) = Some ty -> t_kids ty = Some [a; b] ->
    spelling k table (t_idx a) la -> spelling k table (t_idx b) lb -> spelling k table m (la ++ lb).

(** Whenever one of the later entries doubles another entry, that one occurs nowhere three times in a row. *)
Definition doubles_apart (k : Z) (table : list Typ) (c : corpus) : Prop :=
  forall m ty x l s f, nth_error table m = Some ty -> k <= Z.of_nat m -> t_kids ty = Some [x; x] ->
    spelling k table (t_idx x) l -> In (s, f) c -> ~ part_of (l ++ l ++ l) s.
