(** Base layer: the fragment of Python's built-in values used by nlcodec.
    Nothing here is nlcodec code; each definition cites the Python construct it stands for and,
    where useful, a line of /repo that relies on it. *)
From Coq Require Import Ascii String.
From Coq Require Export List Arith NArith ZArith Bool Lia Permutation.
Export ListNotations.
Local Open Scope list_scope.

(** Exceptions as values: the exception classes nlcodec can raise. *)
Inductive exn : Set :=
| AssertionError | ValueError | IndexError | KeyError | TypeError | AttributeError
| ZeroDivisionError | UnicodeError | FileNotFound | OtherError
| OutOfFuel   (* not Python: a modelling device for loops; proved never to be returned *)
| NoneKid.    (* not Python: marks the one place (codec.py:99, negative kid number) where the code
                goes on with None where a Type is expected; the model stops there *)

Inductive res (A : Type) : Type :=
| Ok (a : A)
| Raise (e : exn).
Arguments Ok {A} _.
Arguments Raise {A} _.

Definition bind {A B} (x : res A) (f : A -> res B) : res B :=
  match x with Ok a => f a | Raise e => Raise e end.

Definition ret {A} (a : A) : res A := Ok a.

Declare Scope res_scope.
Delimit Scope res_scope with res.
Notation "x <- e1 ;; e2" := (bind e1 (fun x => e2))
  (at level 61, e1 at next level, right associativity) : res_scope.
Notation "'let*' x ':=' e1 'in' e2" := (bind e1 (fun x => e2))
  (at level 200, x pattern, right associativity) : res_scope.

(** Python's [assert b]. *)
Definition assert_ (b : bool) : res unit := if b then Ok tt else Raise AssertionError.

(** [x for x in map(f, l)] where f may raise: the first exception wins, left to right. *)
Fixpoint mapM {A B} (f : A -> res B) (l : list A) : res (list B) :=
  match l with
  | [] => Ok []
  | x :: l' =>
      match f x with
      | Raise e => Raise e
      | Ok y => match mapM f l' with Raise e => Raise e | Ok ys => Ok (y :: ys) end
      end
  end.

(** A for-loop with state whose body may raise. *)
Fixpoint foldM {A S} (f : S -> A -> res S) (l : list A) (s : S) : res S :=
  match l with
  | [] => Ok s
  | x :: l' => match f s x with Raise e => Raise e | Ok s' => foldM f l' s' end
  end.

(** Python list indexing [l[i]] with negative indices counting from the end. *)
Definition py_index (n : nat) (i : Z) : option nat :=
  if (0 <=? i)%Z then
    if (i <? Z.of_nat n)%Z then Some (Z.to_nat i) else None
  else
    if (- Z.of_nat n <=? i)%Z then Some (Z.to_nat (Z.of_nat n + i)) else None.

Definition py_nth {A} (l : list A) (i : Z) : res A :=
  match py_index (length l) i with
  | Some k => match nth_error l k with Some a => Ok a | None => Raise IndexError end
  | None => Raise IndexError
  end.

(** Python slicing [l[:i]] and [l[i:]] with i possibly negative or too large. *)
Definition py_bound (n : nat) (i : Z) : nat :=
  if (0 <=? i)%Z then Nat.min (Z.to_nat i) n
  else Z.to_nat (Z.max 0 (Z.of_nat n + i)).
Definition py_take {A} (l : list A) (i : Z) : list A := firstn (py_bound (length l) i) l.
Definition py_drop {A} (l : list A) (i : Z) : list A := skipn (py_bound (length l) i) l.

(** enumerate(l, start=k). *)
Fixpoint enum_from {A} (k : Z) (l : list A) : list (Z * A) :=
  match l with [] => [] | x :: l' => (k, x) :: enum_from (k + 1) l' end.
Definition enumerate {A} (l : list A) : list (Z * A) := enum_from 0 l.

(** sum(l) *)
Definition zsum (l : list Z) : Z := fold_right Z.add 0%Z l.

(** max(l) of a non-empty list; Python raises ValueError on an empty one. *)
Definition py_max (l : list Z) : res Z :=
  match l with [] => Raise ValueError | x :: l' => Ok (fold_left Z.max l' x) end.
Definition py_min (l : list Z) : res Z :=
  match l with [] => Raise ValueError | x :: l' => Ok (fold_left Z.min l' x) end.

(** dict in insertion order: an existing key keeps its position when overwritten. *)
Section Dict.
  Context {K V : Type} (eqb : K -> K -> bool).
  Fixpoint dget (k : K) (d : list (K * V)) : option V :=
    match d with
    | [] => None
    | (k', v) :: d' => if eqb k k' then Some v else dget k d'
    end.
  Fixpoint dset (k : K) (v : V) (d : list (K * V)) : list (K * V) :=
    match d with
    | [] => [(k, v)]
    | (k', v') :: d' => if eqb k k' then (k', v) :: d' else (k', v') :: dset k v d'
    end.
  Fixpoint ddel (k : K) (d : list (K * V)) : list (K * V) :=
    match d with
    | [] => []
    | (k', v') :: d' => if eqb k k' then d' else (k', v') :: ddel k d'
    end.
  Definition dmem (k : K) (d : list (K * V)) : bool :=
    match dget k d with Some _ => true | None => false end.
  Definition dget_def (k : K) (dflt : V) (d : list (K * V)) : V :=
    match dget k d with Some v => v | None => dflt end.
End Dict.
Definition dkeys {K V} (d : list (K * V)) : list K := map fst d.
Definition dvalues {K V} (d : list (K * V)) : list V := map snd d.

(** collections.Counter / defaultdict(int): add n to the count of k. *)
Definition dadd {K} (eqb : K -> K -> bool) (k : K) (n : Z) (d : list (K * Z)) : list (K * Z) :=
  dset eqb k (dget_def eqb k 0%Z d + n)%Z d.
(** Counter.update(iterable) *)
Definition counter_update {K} (eqb : K -> K -> bool) (xs : list K) (d : list (K * Z))
  : list (K * Z) := fold_left (fun d x => dadd eqb x 1%Z d) xs d.

(** sorted(l, key=key, reverse=True): stable, equal keys keep their order. *)
Section SortDesc.
  Context {A : Type} (key : A -> Z).
  Fixpoint insert_desc (x : A) (l : list A) : list A :=
    match l with
    | [] => [x]
    | y :: l' => if (key y <=? key x)%Z then x :: l else y :: insert_desc x l'
    end.
  (* foldr insertion: the element inserted last is the leftmost one, so placing it before
     equal keys keeps the original order. *)
  Definition sorted_desc (l : list A) : list A := fold_right insert_desc [] l.
End SortDesc.

(** Strings: lists of code points. *)
Definition str := list N.
Definition str_eqb (a b : str) : bool :=
  (fix go (a b : str) : bool :=
     match a, b with
     | [], [] => true
     | x :: a', y :: b' => N.eqb x y && go a' b'
     | _, _ => false
     end) a b.
(** ASCII literals. *)
Definition lit (s : string) : str := map N_of_ascii (list_ascii_of_string s).

(** str.__lt__: lexicographic by code point. *)
Fixpoint str_ltb (a b : str) : bool :=
  match a, b with
  | _, [] => false
  | [], _ :: _ => true
  | x :: a', y :: b' => if N.ltb x y then true else if N.eqb x y then str_ltb a' b' else false
  end.
