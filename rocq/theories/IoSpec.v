(** Specification vocabulary for files. *)
From Coq Require Import Strings.String.
From Verif Require Import Py PyStr Utf8Model.
Local Open Scope list_scope.

(** The lines of a text, each with its line feed; only the last one may lack it. *)
Inductive lf_lines : str -> list str -> Prop :=
| Lf_end : lf_lines [] []
| Lf_last l : l <> [] -> ~ In 10%N l -> lf_lines l [l]
| Lf_more l rest ls : ~ In 10%N l -> lf_lines rest ls -> lf_lines (l ++ 10%N :: rest) ((l ++ [10%N]) :: ls).

(** Lone surrogates cannot be stored. *)
Definition storable_char (c : N) : N := if is_scalar c then c else 63%N.
(** Every "\r\n" and every other "\r" taken as a line feed. *)
Inductive crs_as_lfs : str -> str -> Prop :=
| Cr_end : crs_as_lfs [] []
| Cr_other c s t : c <> 13%N -> crs_as_lfs s t -> crs_as_lfs (c :: s) (c :: t)
| Cr_lf s t : crs_as_lfs s t -> crs_as_lfs (13%N :: 10%N :: s) (10%N :: t)
| Cr_alone s t : (forall r, s <> 10%N :: r) -> crs_as_lfs s t -> crs_as_lfs (13%N :: s) (10%N :: t).

(** The names of gzip files. *)
Definition gz_name (name : str) : Prop := exists p, name = p ++ lit ".gz".
(** What the bytes of a file are read as: characters in utf-8; a byte that neither begins nor continues a character is
    read as U+FFFD. *)
Inductive stored : list N -> str -> Prop :=
| St_end : stored [] []
| St_char c b bs s : utf8_char c = Some b -> stored bs s -> stored (b ++ bs) (c :: s)
| St_bad b bs s : ((128 <= b < 194) \/ 245 <= b)%N -> stored bs s -> stored (b :: bs) (65533%N :: s).
