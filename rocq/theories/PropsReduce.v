(** Property theorems about reduction with any function (C158). *)
From Verif Require Import Py PyStr BatchModel MapredModel RestModel ReduceSpec ReduceEnd.

(** *** C158: nothing is asked of the function or of the default *)
Theorem C158_level_by_level : forall (T : Type) (f : T -> T -> res T) (default : T) items r,
  ireduce_pure f default (items, None) = Ok r <-> reduced f default items r.
Proof. exact (fun T f d l r => ireduce_any_ok f d l r). Qed.
Theorem C158_brackets : forall (T : Type) (f : T -> T -> res T) (default : T) items r,
  ireduce_pure f default (items, None) = Ok r -> bracketed f default items r.
Proof. intros T f d l r H. apply reduced_bracketed, ireduce_any_ok, H. Qed.
Theorem C158_exceptions : forall (T : Type) (f : T -> T -> res T) (default : T) items fin e,
  ireduce_pure f default (items, fin) = Raise e ->
  items = [] /\ fin = None /\ e = AssertionError \/ fin = Some e \/ exists a b, f a b = Raise e.
Proof. exact (fun T f d l fin e => ireduce_any_raise f d l fin e). Qed.
Theorem C158_broken_input : forall (T : Type) (f : T -> T -> res T) (default : T) items e r,
  ireduce_pure f default (items, Some e) <> Ok r.
Proof. exact (fun T f d l e r => ireduce_any_broken f d l e r). Qed.
Theorem C158_map_reduce : forall (A T : Type) (mapper : A -> res T) (f : T -> T -> res T) (default : T) items r,
  map_reduce mapper f default (items, None) MapPool MapPool = Ok r <->
  exists mapped, Forall2 (fun a t => mapper a = Ok t) items mapped /\ reduced f default mapped r.
Proof. exact (fun A T m f d l r => map_reduce_any m f d l r). Qed.
(* an exception of the first call is the one that comes out *)
Theorem C158_first_call : forall (T : Type) (f : T -> T -> res T) (default : T) x y items fin e,
  f x y = Raise e -> ireduce_pure f default (x :: y :: items, fin) = Raise e.
Proof. exact (fun T f d x y l fin e => ireduce_first_call f d x y l fin e). Qed.
(* subtraction is not associative and 1 is not neutral: the result is ((9-4)-(2-1))-((5-1)-1) *)
Example C158_ex :
  let f a b := if b <=? a then Ok (a - b) else Raise ValueError in
  ireduce_pure f 1 ([9; 4; 2; 1; 5], None) = Ok 1 /\ reduced f 1 [9; 4; 2; 1; 5] 1 /\
  ireduce_pure f 1 ([9; 4; 1; 2; 7], None) = Raise ValueError /\
  map_reduce (fun n => if n =? 3 then Raise KeyError else Ok (n + 1)) f 1 ([8; 3], None) MapPool MapPool = Raise KeyError.
Proof.
  cbv zeta. split; [vm_compute; reflexivity|]. split; [|vm_compute; split; reflexivity].
  apply ireduce_any_ok. vm_compute. reflexivity.
Qed.
Print Assumptions C158_level_by_level.
Print Assumptions C158_brackets.
Print Assumptions C158_exceptions.
Print Assumptions C158_broken_input.
Print Assumptions C158_map_reduce.
Print Assumptions C158_first_call.
