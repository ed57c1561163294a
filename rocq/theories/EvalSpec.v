(** Specification vocabulary for the evaluation tools, independent of EvalModel.v's algorithms. *)
From Coq Require Import QArith Qabs Qround Lqa.
From Verif Require Import Py.
Local Open Scope Z_scope.
Local Open Scope list_scope.

(** [at_pos sent i g]: g is the contiguous piece of sent that starts at position i. *)
Definition at_pos {A} (sent : list A) (i : nat) (g : list A) : Prop :=
  exists a b, sent = a ++ g ++ b /\ length a = i.
(** gs lists the contiguous pieces of length n from left to right. *)
Definition ngrams_of {A} (n : nat) (sent : list A) (gs : list (list A)) : Prop :=
  forall i g, nth_error gs i = Some g <-> length g = n /\ at_pos sent i g.

(** How often g occurs in sent: the number of suffixes that start with g. *)
Definition starts_with (g sent : list Z) : bool :=
  if list_eq_dec Z.eq_dec (firstn (length g) sent) g then true else false.
Fixpoint times (g sent : list Z) : Z :=
  (if starts_with g sent then 1 else 0) + match sent with [] => 0 | _ :: t => times g t end.
Definition total_times (g : list Z) (sents : list (list Z)) : Z := zsum (map (times g) sents).

(** The share of the occurrences of g in [own] that [other] matches, and the mean of these shares
    over the pairs where g occurs in [own]. *)
Definition share_of (g own other : list Z) : Q :=
  (inject_Z (Z.min (times g own) (times g other)) / inject_Z (times g own))%Q.
Definition having (g : list Z) (pairs : list (list Z * list Z)) : list (list Z * list Z) :=
  filter (fun p => 0 <? times g (fst p)) pairs.
Definition sumQ (l : list Q) : Q := fold_right Qplus 0%Q l.
Definition meanQ (l : list Q) : Q := (sumQ l / inject_Z (Z.of_nat (length l)))%Q.
Definition mean_share (g : list Z) (pairs : list (list Z * list Z)) : Q :=
  meanQ (map (fun p => share_of g (fst p) (snd p)) (having g pairs)).

(** What is assumed of floating point: rounding is monotone, exact on integers up to 2^53 and
    on representable numbers, and doubling a representable number is exact. *)
Definition rounding (rnd : Q -> Q) : Prop :=
  (forall x y, (x <= y)%Q -> (rnd x <= rnd y)%Q) /\
  (forall z, Z.abs z <= 9007199254740992 -> (rnd (inject_Z z) == inject_Z z)%Q) /\
  (forall x, rnd (rnd x) == rnd x)%Q /\
  (forall x, rnd x == x -> rnd (2 * x) == 2 * x)%Q.
(** The score and frequency tables made from pairs (own side, other side): one entry per n-gram of
    the own sides, with its total number of occurrences; [scores] lists the same grams. *)
Definition tabulates (n : nat) (pairs : list (list Z * list Z)) (scores : list (list Z * Q)) (freqs : list (list Z * Z)) : Prop :=
  map fst scores = map fst freqs /\ NoDup (map fst freqs) /\
  forall g f, In (g, f) freqs <-> length g = n /\ 0 < f /\ f = total_times g (map fst pairs).
Definition swap (pairs : list (list Z * list Z)) := map (fun p => (snd p, fst p)) pairs.
Definition unit_range (x : Q) : Prop := (0 <= x /\ x <= 1)%Q.
(** Rounding down to a multiple of 1/8: a coarse rounding, to show the assumptions are loose. *)
Definition eighths (x : Q) : Q := (Qfloor (8 * x) # 8)%Q.

(** Earth mover's distance between the distribution of the counts and the uniform one, with a
    common denominator: half the sum of |k c - S| over k S. *)
Definition emd_of (counts : list Z) : Q :=
  let S := zsum counts in let k := Z.of_nat (length counts) in
  (inject_Z (zsum (map (fun c => Z.abs (k * c - S)) counts)) / inject_Z (2 * k * S))%Q.

Definition count_id (i : Z) (ids : list Z) : Z := Z.of_nat (count_occ Z.eq_dec ids i).

(** The last entry of an association list for a key. *)
Definition last_entry {V} (fs : list (list Z * V)) (g : list Z) (v : V) : Prop :=
  exists a b, fs = a ++ (g, v) :: b /\ ~ In g (map fst b).
(** Rank frequency of a reported gram: its total in the references, or with a frequency file the
    last entry of that file and -1 for a reference gram without an entry. *)
Definition rank_of (refs cands : list (list Z)) (freqs : option (list (list Z * Z))) (g : list Z) (f : Z) : Prop :=
  match freqs with
  | None => 0 < f /\ f = total_times g refs
  | Some fs => (last_entry fs g f /\ (0 < total_times g refs \/ 0 < total_times g cands)) \/
               (f = -1 /\ ~ In g (map fst fs) /\ 0 < total_times g refs)
  end.
Definition or_minus1 (n : Z) : Z := if 0 <? n then n else -1.
(** Harmonic mean, 0 if both are 0. *)
Definition harmonic (p r f : Q) : Prop :=
  ((p + r == 0 -> f == 0) /\ f * (p + r) == 2 * p * r)%Q.
