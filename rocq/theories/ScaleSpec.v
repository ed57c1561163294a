(** Corpora in which everything is said k times. *)
From Verif Require Import Py PyStr CodecModel BpeSpec.
Local Open Scope Z_scope.
Local Open Scope list_scope.

(** The lines k times over. *)
Definition copies {A} (k : nat) (data : list A) : list A := concat (repeat data k).
(** A type with k times its frequency, and its parts too; -1 stands for never seen and stays. *)
Fixpoint times (k : Z) (t : Typ) : Typ :=
  match t with
  | MkType n l i f kids => MkType n l i (if f =? -1 then -1 else k * f) (match kids with Some ks => Some (map (times k) ks) | None => None end)
  end.
Definition table_times (k : Z) (r : res (list Typ)) : res (list Typ) :=
  match r with Ok t => Ok (map (times k) t) | Raise e => Raise e end.
(** Items with k times their frequency. *)
Definition weigh {A} (k : Z) (l : list (A * Z)) : list (A * Z) := map (fun e => (fst e, k * snd e)) l.
(** The same result, or at least up to and including the first type that doubles a type (C31). *)
Definition same_until_double (p : list Typ) (r1 r2 : res (list Typ)) : Prop :=
  r1 = r2 \/ exists u ty s, t_kids ty = Some [s; s] /\ extends (p ++ u ++ [ty]) r1 /\ extends (p ++ u ++ [ty]) r2.
