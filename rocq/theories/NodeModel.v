(** nlcodec/dstruct.py: the rest of LnNode - comparing and printing nodes. The nodes, delete and
    from_seq are in LearnBpeModel.v. *)
From Coq Require Import Strings.String.
From Verif Require Import Py PyStr LearnBpeModel.
Local Open Scope Z_scope.
Local Open Scope list_scope.
Local Open Scope res_scope.

(** dstruct.py:21-24, LnNode.__eq__, with [limit] further calls allowed by the interpreter
    (sys.getrecursionlimit). OtherError stands for RecursionError. [None == None] is true; None
    compared with a node, in either order, ends in [other.val] on None (AttributeError). *)
Fixpoint node_eq (limit : nat) (st : list lnode) (self other : nat) : res bool :=
  match limit with
  | O => Raise OtherError
  | S limit' =>
      let opt_eq a b := match a, b with
                        | None, None => Ok true
                        | Some i, Some j => node_eq limit' st i j
                        | _, _ => Raise AttributeError
                        end in
      let* s := node_at st self in
      let* o := node_at st other in
      if negb (n_val o =? n_val s) then Ok false
      else if negb (n_freq o =? n_freq s) then Ok false
      else
        let* l := opt_eq (n_left o) (n_left s) in
        if negb l then Ok false else opt_eq (n_right o) (n_right s)
  end.

(** dstruct.py:65-68 and 69-72, the loops [while cur] of __repr__: the values met when following
    the links of one side. [fuel] is the number of nodes plus one. *)
Fixpoint follow (fuel : nat) (side : lnode -> option nat) (st : list lnode) (cur : option nat) : res (list str) :=
  match fuel with
  | O => Raise OutOfFuel
  | S fuel' =>
      match cur with
      | None => Ok []
      | Some i => let* n := node_at st i in
                  let* r := follow fuel' side st (side n) in Ok (str_of_Z (n_val n) :: r)
      end
  end.
(** dstruct.py:62-73, LnNode.__repr__ *)
Definition node_repr (st : list lnode) (self : nat) : res str :=
  let* s := node_at st self in
  let* lefts := follow (S (length st)) n_left st (n_left s) in
  let* rights := follow (S (length st)) n_right st (n_right s) in
  Ok (join [SPACE] (rev lefts) ++ (lit " *" ++ str_of_Z (n_val s) ++ lit "* ") ++ join [SPACE] rights).
