(** Textbook byte pair encoding over integer sequences, and priority queues as bags; independent of
    the linked lists, indices and arrays of LearnBpeModel.v and HeapModel.v. *)
From Coq Require Import Strings.String.
From Verif Require Import Py PyStr CodecModel CodecSpec.
Local Open Scope Z_scope.
Local Open Scope list_scope.

(** Adjacent items of a list, in order. *)
Definition adjacent {A} (s : list A) : list (A * A) := combine s (tl s).

Definition pair_dec (p q : Z * Z) : {p = q} + {p <> q}.
Proof. decide equality; apply Z.eq_dec. Defined.

(** A corpus: sequences of symbols with their frequency. *)
Definition corpus := list (list Z * Z).

(** How often a pair of symbols is adjacent, weighted by frequency (overlaps count), and how often
    a symbol occurs. *)
Definition pair_count (c : corpus) (p : Z * Z) : Z :=
  zsum (map (fun sf => snd sf * Z.of_nat (count_occ pair_dec (adjacent (fst sf)) p)) c).
Definition symbol_count (c : corpus) (x : Z) : Z :=
  zsum (map (fun sf => snd sf * Z.of_nat (count_occ Z.eq_dec (fst sf) x)) c).

Definition pair_lt (p q : Z * Z) : Prop := fst p < fst q \/ (fst p = fst q /\ snd p < snd q).

(** The most frequent pair; among equally frequent ones the smallest. *)
Definition best (c : corpus) (p : Z * Z) (f : Z) : Prop :=
  pair_count c p = f /\ 0 < f /\
  forall q, q <> p -> pair_count c q < f \/ (pair_count c q = f /\ pair_lt p q).

(** Replacing some disjoint occurrences of a b by r. *)
Inductive replaced (a b r : Z) : list Z -> list Z -> Prop :=
| rep_nil : replaced a b r [] []
| rep_keep x s s' : replaced a b r s s' -> replaced a b r (x :: s) (x :: s')
| rep_merge s s' : replaced a b r s s' -> replaced a b r (a :: b :: s) (r :: s').
(** Replacing as many as possible: none is left. *)
Definition merged (a b r : Z) (s s' : list Z) : Prop :=
  replaced a b r s s' /\ ~ In (a, b) (adjacent s').
Definition merged_corpus (a b r : Z) (c c' : corpus) : Prop :=
  Forall2 (fun x y => snd x = snd y /\ merged a b r (fst x) (fst y)) c c'.

(** Up to n merges of the most frequent pair, as long as it is frequent enough; running out of pairs
    is reported. The new type is appended to the table, with the pair as kids. *)
Inductive bpe (min_co level : Z) : nat -> corpus -> list Typ -> res (list Typ) -> Prop :=
| bpe_done c t : bpe min_co level 0 c t (Ok t)
| bpe_rare n c t p f : best c p f -> f < min_co -> bpe min_co level (S n) c t (Ok t)
| bpe_exhausted n c t : (forall p, pair_count c p = 0) -> bpe min_co level (S n) c t (Raise IndexError)
| bpe_merge n c c' t a b f ta tb r :
    best c (a, b) f -> min_co <= f ->
    0 <= a -> nth_error t (Z.to_nat a) = Some ta -> 0 <= b -> nth_error t (Z.to_nat b) = Some tb ->
    merged_corpus a b (Z.of_nat (length t)) c c' ->
    bpe min_co level n c'
        (t ++ [MkType (t_name ta ++ t_name tb) level (Z.of_nat (length t)) f (Some [ta; tb])]) r ->
    bpe min_co level (S n) c t r.

(** Textbook greedy replacement from left to right. *)
Fixpoint replace_left (a b r : Z) (s : list Z) : list Z :=
  match s with
  | [] => []
  | x :: s1 =>
      match s1 with
      | y :: s2 => if (x =? a) && (y =? b) then r :: replace_left a b r s2 else x :: replace_left a b r s1
      | [] => [x]
      end
  end.

(** Set iteration orders: any order in each round. *)
Definition iteration_orders (orders : nat -> list nat -> list nat) : Prop :=
  forall i l, Permutation (orders i l) l.

(** k merges in a row, each of the most frequent pair, with the corpus and the table they lead to. *)
Inductive merges (min_co level : Z) : nat -> corpus -> list Typ -> corpus -> list Typ -> Prop :=
| mg_none c t : merges min_co level 0 c t c t
| mg_step k c c' t a b f ta tb c2 t2 :
    best c (a, b) f -> min_co <= f ->
    0 <= a -> nth_error t (Z.to_nat a) = Some ta -> 0 <= b -> nth_error t (Z.to_nat b) = Some tb ->
    merged_corpus a b (Z.of_nat (length t)) c c' ->
    merges min_co level k c'
        (t ++ [MkType (t_name ta ++ t_name tb) level (Z.of_nat (length t)) f (Some [ta; tb])]) c2 t2 ->
    merges min_co level (S k) c t c2 t2.

(** The corpus BPE starts from: every word becomes its characters and the end-of-word mark, as
    positions in the table (1 for characters the table does not have). *)
Definition spelled_corpus (table : list Typ) (words : list (str * Z)) (c : corpus) : Prop :=
  Forall2 (fun wf sf => snd sf = snd wf /\ Forall2 (fun i ch => id_of table [ch] i) (fst sf) (fst wf ++ [MARK])) words c.

(** The basic types a type is ultimately made of. *)
Inductive leaf_of : Typ -> Typ -> Prop :=
| lf_self t : kids_of t = [] -> leaf_of t t
| lf_kid t k u : In k (kids_of t) -> leaf_of u k -> leaf_of u t.

(** The placeholders: reserved names that do not stand for text. *)
Definition placeholders : list str :=
  [lit "<pad>"; lit "<unk>"; lit "<s>"; lit "</s>"; lit "<cls>"].

(** What a corpus must satisfy to be learned from: positive frequencies, a first sequence that is
    not empty, and symbols that are positions in a table without duplicate names. *)
Definition nonnegative (c : corpus) : Prop := forall s f, In (s, f) c -> 0 <= f.
Definition positive (c : corpus) : Prop := forall s f, In (s, f) c -> 0 < f.
Definition symbols_below (k : Z) (c : corpus) : Prop := forall s f, In (s, f) c -> forall x, In x s -> 0 <= x < k.
Definition starts_nonempty (c : corpus) : Prop := match c with (s, _) :: _ => s <> [] | [] => False end.
Record learnable (c : corpus) (vocab : list Typ) : Prop := MkLearnable {
  l_wi : well_indexed vocab;
  l_dn : distinct_names vocab;
  l_start : starts_nonempty c;
  l_pos : positive c;
  l_range : symbols_below (Z.of_nat (length vocab)) c }.

(** A returned table starts with the entries p. *)
Definition extends (p : list Typ) (r : res (list Typ)) : Prop := forall t, r = Ok t -> exists rest, t = p ++ rest.

(** The distinct characters of a corpus, other than the end-of-word mark. *)
Definition alphabet (toks : list str) (chars : list N) : Prop :=
  NoDup chars /\ forall ch, In ch chars <-> (exists w, In w toks /\ In ch w) /\ ch <> MARK.
(** The size asked for: with a co-occurrence threshold above 1, a size of at most 1 means no limit
    (sys.maxsize). *)
Definition effective_size (vs mco : Z) : Z := if (mco >? 1) && (vs <=? 1) then 2 ^ 63 - 1 else vs.

(** *** Priority queues *)
Inductive pq_op (T : Type) : Type := Push (x : T) (v : Z) | Pop | Peek.
Arguments Push {T} _ _.
Arguments Pop {T}.
Arguments Peek {T}.
(** The first in line of a bag: maximal value, and among those the smallest item. *)
Definition first_in_line {T} (lt : T -> T -> Prop) (bag : list (T * Z)) (x : T) (v : Z) : Prop :=
  forall y w, In (y, w) bag -> w < v \/ (w = v /\ (y = x \/ lt x y)).
(** Serving a history of operations from a bag. *)
Inductive served {T} (lt : T -> T -> Prop) : list (T * Z) -> list (pq_op T) -> list (res (T * Z)) -> Prop :=
| sv_end bag : served lt bag [] []
| sv_push bag x v ops outs : served lt ((x, v) :: bag) ops outs -> served lt bag (Push x v :: ops) outs
| sv_empty ops outs : served lt [] ops outs -> served lt [] (Pop :: ops) (Raise IndexError :: outs)
| sv_pop bag x v rest ops outs :
    Permutation bag ((x, v) :: rest) -> first_in_line lt bag x v ->
    served lt rest ops outs -> served lt bag (Pop :: ops) (Ok (x, v) :: outs)
| sv_peek_empty ops outs : served lt [] ops outs -> served lt [] (Peek :: ops) (Raise IndexError :: outs)
| sv_peek bag x v ops outs :
    In (x, v) bag -> first_in_line lt bag x v ->
    served lt bag ops outs -> served lt bag (Peek :: ops) (Ok (x, v) :: outs).
