(** What concatenated hex digits without zero padding mean: counting and regrouping of digits. *)
From Verif Require Import Py.
Local Open Scope N_scope.

(** How many numbers of a list are below 16, i.e. are written with a single hex digit. *)
Definition lows (l : list N) : nat := length (filter (fun c => c <? 16) l).
(** The hex digits of a byte, without a leading zero. *)
Definition digits (b : N) : list N := if b <? 16 then [b] else [b / 16; b mod 16].
(** Digits read two by two; None when one is left over. *)
Fixpoint two_by_two (ds : list N) : option (list N) :=
  match ds with
  | [] => Some []
  | [_] => None
  | x :: y :: r => match two_by_two r with Some bs => Some (16 * x + y :: bs) | None => None end
  end.
Definition regrouped (bs : list N) : option (list N) := two_by_two (concat (map digits bs)).

(** A hexadecimal digit and its value. *)
Definition digit (c x : N) : Prop :=
  (48 <= c <= 57 /\ x = c - 48)%N \/ (97 <= c <= 102 /\ x = c - 87)%N \/ (65 <= c <= 70 /\ x = c - 55)%N.
(** Two digits a byte, with white space before and after bytes. *)
Inductive spells : str -> list N -> Prop :=
| spells_end : spells [] []
| spells_blank c s bs : (9 <= c <= 13)%N \/ c = 32%N -> spells s bs -> spells (c :: s) bs
| spells_byte c d x y s bs : digit c x -> digit d y -> spells s bs -> spells (c :: d :: s) ((16 * x + y)%N :: bs).
