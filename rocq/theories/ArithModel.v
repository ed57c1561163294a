(** Instances of the arithmetic used by the coverage filter (utils.py:33-49).
    Python computes [f / tot] with integers f and tot: CPython's int/int division is correctly
    rounded to binary64; [cum += ...] and [cum >= coverage] are binary64 operations. *)
From Coq Require Import QArith.
From Coq Require Import Floats.SpecFloat.
From Verif Require Import Py LearnModel.
Local Open Scope Z_scope.

(** Exact rationals. *)
Definition arithQ : arith := MkArith Q (0 # 1)%Q Qplus
  (fun a b => Qdiv (inject_Z a) (inject_Z b)) Qle_bool
  (fun c => negb (Qle_bool c (0 # 1)%Q) && Qle_bool c (1 # 1)%Q).

(** binary64, on the standard library's executable definition of IEEE 754 (SpecFloat):
    53 bits of precision, emax = 1024. *)
Definition prec64 : Z := 53.
Definition emax64 : Z := 1024.
Definition f64 := spec_float.
Definition f64_add : f64 -> f64 -> f64 := SFadd prec64 emax64.
(** int / int, correctly rounded; the quotient is computed on the integers themselves, so no
    operand is rounded first. Overflow (which Python reports as OverflowError) gives an
    infinity; it needs a quotient of at least 2^1024. *)
Definition f64_div (a b : Z) : f64 :=
  match a, b with
  | Z0, _ => S754_zero (b <? 0)
  | _, Z0 => S754_nan      (* not reached: the model raises ZeroDivisionError first *)
  | _, _ =>
      let '(mz, ez, lz) :=
        SFdiv_core_binary prec64 emax64 (Z.abs a) 0 (Z.abs b) 0 in
      binary_round_aux prec64 emax64 (xorb (a <? 0) (b <? 0)) mz ez lz
  end.
Definition f64_leb (a b : f64) : bool := SFleb a b.
Definition arith64 : arith := MkArith f64 (S754_zero false) f64_add f64_div f64_leb
  (fun c => SFltb (S754_zero false) c && SFleb c (f64_div 1 1)).
