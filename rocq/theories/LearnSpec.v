(** Specification vocabulary for learning flat vocabularies, independent of LearnModel.v's
    algorithms. *)
From Coq Require Import Strings.String.
From Coq Require Import QArith.
From Verif Require Import Py PyStr PyLemmas StrSpec CodecModel CodecSpec LearnModel ArithModel.
Local Open Scope Z_scope.
Local Open Scope list_scope.

(** [first_seen l ks]: ks lists the items of l without repetition in order of first occurrence. *)
Definition first_seen {A} (l ks : list A) : Prop :=
  NoDup ks /\ (forall x, In x ks <-> In x l) /\
  forall k1 x k2 y, ks = k1 ++ x :: k2 -> In y k2 -> exists l1 l2, l = l1 ++ x :: l2 /\ ~ In y l1.

Definition occurrences (w : str) (l : list str) : Z := Z.of_nat (count_occ str_dec l w).

Definition exact_counts (toks : list str) (stats : list (str * Z)) : Prop :=
  first_seen toks (map fst stats) /\ forall w f, In (w, f) stats -> f = occurrences w toks.

(** The tokens of a corpus for the scheme kinds that count types: words, characters of the
    marked text, or trimmed lines. *)
Definition tokens_of (k : kind) (data : list str) (toks : list str) : Prop :=
  match k with
  | KWord => exists wss, Forall2 words_of data wss /\ toks = concat wss
  | KChar => exists wss, Forall2 words_of data wss /\
                         toks = map (fun c => [c]) (flat_map (spaced MARK) wss)
  | KClass => Forall2 trimmed data toks
  | _ => False
  end.

(** [earlier x y l]: x occurs before y in l. *)
Definition earlier {A} (x y : A) (l : list A) : Prop :=
  exists l1 l2 l3, l = l1 ++ x :: l2 ++ y :: l3.

(** [ranked src out]: the same entries by decreasing frequency, ties in the order of src. *)
Definition ranked (src out : list (str * Z)) : Prop :=
  Permutation out src /\
  forall x y, earlier x y out -> snd y < snd x \/ (snd x = snd y /\ earlier x y src).

Definition reserved_name (w : str) : bool := existsb (str_eqb w) reserved_names.
(** The types that may enter a vocabulary: not reserved, and frequent enough. *)
Definition candidates (min_freq : Z) (tf : list (str * Z)) : list (str * Z) :=
  filter (fun e => negb (reserved_name (fst e)) && ((min_freq <=? 1) || (min_freq <=? snd e))) tf.

(** Recorded frequency of a type, where -1 stands for never seen. *)
Definition mass (t : Typ) : Z := Z.max 0 (t_freq t).
Definition total_mass (table : list Typ) : Z := zsum (map mass table).
Definition freq_sum (l : list (str * Z)) : Z := zsum (map snd l).

(** Frequency a dict gives to a name, 0 if it does not list it. *)
Definition freq_in (tf : list (str * Z)) (w : str) : Z :=
  zsum (map snd (filter (fun e => str_eqb w (fst e)) tf)).
(** Total frequency of the non-reserved types of tf that the table does not list. *)
Definition missing_mass (tf : list (str * Z)) (table : list Typ) : Z :=
  freq_sum (filter (fun e => negb (existsb (fun t => str_eqb (fst e) (t_name t)) table)) tf).

(** The accumulated share of a list of types, and whether it reaches the coverage. *)
Definition share (A : arith) (tot : Z) (l : list (str * Z)) : num A :=
  fold_left (fun c e => a_add A c (a_div A (snd e) tot)) l (a_zero A).
Definition reaches (A : arith) (tot : Z) (c : num A) (l : list (str * Z)) : Prop :=
  a_leb A c (share A tot l) = true.

(** Lexicographic order by code point. *)
Definition lex_lt (a b : str) : Prop :=
  (exists c r, b = a ++ c :: r) \/
  (exists p c d r1 r2, a = p ++ c :: r1 /\ b = p ++ d :: r2 /\ (c < d)%N).
