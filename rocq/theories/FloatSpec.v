(** Which floats are doubles, and the numbers they stand for. *)
From Coq Require Import ZArith QArith Floats.SpecFloat.

(** Binary64: 53 bits, exponents that fit (SpecFloat.valid_binary). *)
Definition is_double (f : spec_float) : Prop := valid_binary 53 1024 f = true.
(** The number a finite float stands for. *)
Definition f64_Q (f : spec_float) : Q :=
  match f with
  | S754_finite s m e => ((if s then -1 # 1 else 1 # 1) * inject_Z (Zpos m) * Qpower (2 # 1) e)%Q
  | _ => (0 # 1)%Q
  end.
(** One step of the accumulation adds at most this error to a share (2^-52). *)
Definition slack (n : nat) : Q := (inject_Z (Z.of_nat n) / inject_Z (2 ^ 52))%Q.
