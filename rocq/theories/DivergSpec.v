(** What distances between distributions should be, independently of the code. *)
From Coq Require Import QArith Reals Qreals.
From Coq Require Import List.
Import ListNotations.
Local Open Scope list_scope.

(** the total mass *)
Fixpoint mass (l : list Q) : Q := match l with [] => 0 | x :: l' => x + mass l' end.
(** a distribution up to the tolerance of the tool *)
Definition distribution (l : list Q) : Prop :=
  (forall x, In x l -> 0 <= x)%Q /\ (1 - (1 # 10000) < mass l < 1 + (1 # 10000))%Q.
(** the mass that has to leave its place to turn [a] into [b] *)
Fixpoint moved (a b : list Q) : Q :=
  match a, b with
  | x :: a', y :: b' => (if Qlt_le_dec y x then x - y else 0) + moved a' b'
  | _, _ => 0
  end%Q.
(** x log x with 0 log 0 = 0, and Shannon's entropy *)
Definition xlogx (x : Q) : R := if Qeq_bool x 0 then 0%R else (Q2R x * ln (Q2R x))%R.
Fixpoint entropy (l : list Q) : R := match l with [] => 0%R | x :: l' => (- xlogx x + entropy l')%R end.
(** the mean of two distributions *)
Fixpoint mean_of (a b : list Q) : list Q :=
  match a, b with
  | x :: a', y :: b' => ((x + y) / 2)%Q :: mean_of a' b'
  | _, _ => []
  end.
(** the sum of p log (p / q) over the outcomes with p > 0 *)
Fixpoint relative_entropy (p q : list Q) : R :=
  match p, q with
  | x :: p', y :: q' => ((if Qlt_le_dec 0 x then Q2R x * (ln (Q2R x) - ln (Q2R y)) else 0) + relative_entropy p' q')%R
  | _, _ => 0%R
  end.
