(** What reduceByKey(lambda a, b: a + b) may do: the order in which a cluster adds the values of a key. *)
From Verif Require Import Py PyStr StrSpec DriverModel DriverSpec.
Local Open Scope Z_scope.
Local Open Scope list_scope.

(** [summing l m]: from the pairs l, in any order, two pairs with the same key may be replaced by one with the
    sum of their values, again and again, until the pairs are those of m. *)
Inductive summing : list (str * Z) -> list (str * Z) -> Prop :=
| sum_end l m : Permutation l m -> summing l m
| sum_two l k a b rest m : Permutation l ((k, a) :: (k, b) :: rest) -> summing ((k, a + b) :: rest) m -> summing l m.

(** The result of reduceByKey is such an m in which every key is there once. *)
Definition summed (l m : list (str * Z)) : Prop := summing l m /\ NoDup (map fst m).

(** The total of a key. *)
Definition total (k : str) (l : list (str * Z)) : Z :=
  fold_right Z.add 0 (map snd (filter (fun kv => str_eqb k (fst kv)) l)).

(** The pairs of the two reductions of word_counts, from the lines and from the words. *)
Definition word_pairs (tag : str) (wss : list (list str)) : list (str * Z) :=
  concat (map (fun ws => (tag, 1) :: map (fun w => (w, 1)) ws) wss).
Definition char_pairs (m : list (str * Z)) : list (str * Z) :=
  concat (map (fun e => map (fun c => ([c], snd e)) (fst e)) m).
(** The words without the tag. *)
Definition without (tag : str) (m : list (str * Z)) : list (str * Z) := filter (fun e => negb (str_eqb (fst e) tag)) m.
