(** Doubly linked lists, as lists. *)
From Verif Require Import Py LearnBpeModel.
Local Open Scope list_scope.

(** [linked st ids]: the objects named ids form one list, in that order, and nothing is linked to its ends. *)
Definition linked (st : list lnode) (ids : list nat) : Prop :=
  NoDup ids /\ forall k i, nth_error ids k = Some i ->
    exists n, nth_error st i = Some n /\
      n_left n = match k with O => None | S k' => nth_error ids k' end /\ n_right n = nth_error ids (S k).
(** Value and frequency of the k-th node of a list. *)
Definition content (st : list lnode) (ids : list nat) (k : nat) : option (Z * Z) :=
  match nth_error ids k with
  | None => None
  | Some i => option_map (fun n => (n_val n, n_freq n)) (nth_error st i)
  end.
(** Values of a list. *)
Definition has_vals (st : list lnode) (ids : list nat) (vs : list Z) : Prop :=
  Forall2 (fun i v => option_map n_val (nth_error st i) = Some v) ids vs.
