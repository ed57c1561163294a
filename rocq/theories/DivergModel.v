(** The distances between distributions of nlcodec/qestim.py (39-87). *)
From Coq Require Import QArith Qabs Reals Qreals.
From Verif Require Import Py.
Local Open Scope list_scope.
Local Open Scope res_scope.

(** A one-dimensional numpy array of numbers: whether its dtype is float64, and its values.  Simplification:
    arithmetic is exact (no rounding, no underflow), and inf and nan do not occur. *)
Record farray : Set := MkArray { is_float : bool; vals : list Q }.

(** numpy: sum, elementwise difference and sum of arrays of the same length *)
Definition np_sum (l : list Q) : Q := fold_right Qplus 0%Q l.
Definition np_map2 (f : Q -> Q -> Q) (a b : list Q) : list Q := map (fun xy => f (fst xy) (snd xy)) (combine a b).

(** qestim.py:39-43, validate_distribution.  [alias] says whether numpy has np.float: it has not since 1.24. *)
Definition validate_distribution (alias : bool) (distr : farray) : res unit :=
  let* _ := if alias then Ok tt else Raise AttributeError in
  let* _ := assert_ (is_float distr) in
  let* _ := assert_ (negb (Qle_bool (1 # 10000) (Qabs (np_sum (vals distr) - 1)))) in
  assert_ (forallb (fun x => Qle_bool 0 x) (vals distr)).

(** qestim.py:45-52, earth_mov_dist *)
Definition earth_mov_dist (alias : bool) (before after : farray) (moving_cost : Q) (validate : bool) : res Q :=
  let* _ := if validate then
              let* _ := validate_distribution alias before in validate_distribution alias after
            else Ok tt in
  let* _ := assert_ (Nat.eqb (length (vals before)) (length (vals after))) in
  let* _ := assert_ (negb (Qle_bool moving_cost 0)) in
  Ok (moving_cost * np_sum (map Qabs (np_map2 Qminus (vals after) (vals before))))%Q.

(** qestim.py:73-78, kl_div: the loop over zip(base, distr) *)
Fixpoint kl_loop (total : R) (pairs : list (Q * Q)) : res R :=
  match pairs with
  | [] => Ok total
  | (px, qx) :: pairs' =>
      if Qle_bool px 0 then kl_loop total pairs'
      else
        let* _ := assert_ (negb (Qle_bool qx 0)) in
        kl_loop (total + Q2R px * ln (Q2R (px / qx)))%R pairs'
  end.
(** qestim.py:61-78, kl_div *)
Definition kl_div (base distr : list Q) : res R := kl_loop 0%R (combine base distr).

(** qestim.py:80-87, js_div *)
Definition js_div (alias : bool) (base distr : farray) : res R :=
  let* _ := validate_distribution alias base in
  let* _ := validate_distribution alias distr in
  let* _ := assert_ (Nat.eqb (length (vals base)) (length (vals distr))) in
  let middle := map (Qmult (1 # 2)) (np_map2 Qplus (vals base) (vals distr)) in
  let* a := kl_div (vals base) middle in
  let* b := kl_div (vals distr) middle in
  Ok ((1 / 2) * (a + b))%R.
