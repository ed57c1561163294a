(** What a reduction is for any function, stated without the code's generators. *)
From Verif Require Import Py.

(** One level: neighbours are combined, a last item without a neighbour with the default; every call succeeded. *)
Inductive level {T} (f : T -> T -> res T) (default : T) : list T -> list T -> Prop :=
| level_none : level f default [] []
| level_last x c : f x default = Ok c -> level f default [x] [c]
| level_pair x y c l l' : f x y = Ok c -> level f default l l' -> level f default (x :: y :: l) (c :: l').

(** Level by level until one item is left. *)
Inductive reduced {T} (f : T -> T -> res T) (default : T) : list T -> T -> Prop :=
| reduced_one x : reduced f default [x] x
| reduced_level x y l l' r : level f default (x :: y :: l) l' -> reduced f default l' r -> reduced f default (x :: y :: l) r.

(** The value of some way to put brackets around the items in their order; the default may be put behind anything. *)
Inductive bracketed {T} (f : T -> T -> res T) (default : T) : list T -> T -> Prop :=
| bracketed_item x : bracketed f default [x] x
| bracketed_call l1 l2 a b c : bracketed f default l1 a -> bracketed f default l2 b -> f a b = Ok c -> bracketed f default (l1 ++ l2) c
| bracketed_default l a c : bracketed f default l a -> f a default = Ok c -> bracketed f default l c.
