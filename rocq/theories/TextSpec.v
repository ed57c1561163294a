(** What separates words and what is a number, spelled out character by character. *)
From Verif Require Import Py.
Local Open Scope N_scope.
Local Open Scope list_scope.

(** the 29 white-space characters *)
Definition white_space : list N :=
  [9; 10; 11; 12; 13; 28; 29; 30; 31; 32; 133; 160; 5760;
   8192; 8193; 8194; 8195; 8196; 8197; 8198; 8199; 8200; 8201; 8202;
   8232; 8233; 8239; 8287; 12288].
Definition white (c : N) : Prop := In c white_space.
Definition plain (w : str) : Prop := w <> [] /\ forall c, In c w -> ~ white c.

(** digits, with single underscores between them *)
Inductive digits : str -> N -> Prop :=
| Di_one d : d < 10 -> digits [48 + d] d
| Di_more s n d : digits s n -> d < 10 -> digits (s ++ [48 + d]) (10 * n + d)
| Di_under s n d : digits s n -> d < 10 -> digits (s ++ [95; 48 + d]) (10 * n + d).
(** a number as it may be written: white space around, an optional sign, digits *)
Definition number_text (s : str) (z : Z) : Prop :=
  exists a b t n, Forall white a /\ Forall white b /\ digits t n /\
    ((s = a ++ t ++ b /\ z = Z.of_N n) \/ (s = a ++ [43] ++ t ++ b /\ z = Z.of_N n) \/ (s = a ++ [45] ++ t ++ b /\ z = (- Z.of_N n)%Z)).

(** a number as it is printed: digits without leading zeros, a minus sign before a negative number *)
Inductive decimal : N -> str -> Prop :=
| De_one d : d < 10 -> decimal d [48 + d]
| De_more n s d : 0 < n -> decimal n s -> d < 10 -> decimal (10 * n + d) (s ++ [48 + d]).
Inductive printed : Z -> str -> Prop :=
| Pr_nonneg n s : decimal n s -> printed (Z.of_N n) s
| Pr_neg n s : 0 < n -> decimal n s -> printed (- Z.of_N n)%Z (45 :: s).
