(** What following the merges of a vocabulary over a corpus means; independent of TrackModel.v. *)
From Coq Require Import Strings.String QArith.
From Verif Require Import Py PyStr CodecModel CodecSpec BpeSpec.
Local Open Scope Z_scope.
Local Open Scope list_scope.

(** Every line counts once. *)
Definition once (seqs : list (list Z)) : corpus := map (fun s => (s, 1)) seqs.
Definition lengths (c : corpus) : list Z := map (fun sf => Z.of_nat (length (fst sf))) c.
Definition average (l : list Z) : Q := (inject_Z (zsum l) / inject_Z (Z.of_nat (length l)))%Q.

(** The merges of a vocabulary with k basic types: each takes the next index and joins two earlier
    types. *)
Fixpoint merge_list (k : Z) (ts : list Typ) (ps : list (Z * Z)) : Prop :=
  match ts, ps with
  | [], [] => True
  | t :: ts', (a, b) :: ps' =>
      t_idx t = k /\
      (exists ta tb, t_kids t = Some [ta; tb] /\ t_idx ta = a /\ t_idx tb = b) /\
      0 <= a < k /\ 0 <= b < k /\ merge_list (k + 1) ts' ps'
  | _, _ => False
  end.

(** The corpora that result from one merge after the other. *)
Inductive merging : Z -> corpus -> list (Z * Z) -> list corpus -> Prop :=
| mrg_end k c : merging k c [] [c]
| mrg_step k c a b ps c' cs :
    merged_corpus a b k c c' -> merging (k + 1) c' ps cs -> merging k c ((a, b) :: ps) (c :: cs).

(** The counts of the first k symbols. *)
Definition true_counts (k : nat) (c : corpus) : list Z := map (fun i => symbol_count c (Z.of_nat i)) (seq 0 k).

(** How far the count of x is off after j merges: every merge of x with itself takes away two for
    each of the adjacent x x that could not be merged. *)
Fixpoint drift (x k : Z) (ps : list (Z * Z)) (cs : list corpus) (j : nat) : Z :=
  match j, ps, cs with
  | S j', (a, b) :: ps', c :: cs' =>
      (if (a =? b) && (b =? x)
       then match cs' with c' :: _ => 2 * (pair_count c (a, b) - symbol_count c' k) | [] => 0 end
       else 0) + drift x (k + 1) ps' cs' j'
  | _, _, _ => 0
  end.

(** A vocabulary as a BPE learner leaves it: first k basic types, then the merges. *)
Definition bpe_layout (k : nat) (types : list Typ) (ps : list (Z * Z)) : Prop :=
  (k < length types)%nat /\
  (forall t, In t (firstn k types) -> t_level t < 1) /\
  (forall t, In t (skipn k types) -> t_level t = 1) /\
  merge_list (Z.of_nat k) (skipn k types) ps.

(** No merge joins a type with itself. *)
Definition no_doubles (ps : list (Z * Z)) : Prop := forall a b, In (a, b) ps -> a <> b.
