(** What users of experimental/bpepp.py may expect: runs of equal symbols, corpora without long runs,
    merging of a most frequent pair. Independent of the linked lists and indices of the model. *)
From Coq Require Import Strings.String.
From Verif Require Import Py PyStr CodecModel CodecSpec VocabSpec BpeSpec.
Local Open Scope Z_scope.
Local Open Scope list_scope.

(** A symbol three times in a row. *)
Definition run_of_three (x : Z) (s : list Z) : Prop := exists l1 l2, s = l1 ++ x :: x :: x :: l2.
Definition has_run (s : list Z) : Prop := exists x, run_of_three x s.
Definition thrice (x : Z) (c : corpus) : Prop := exists s f, In (s, f) c /\ run_of_three x s.

(** A sequence written as maximal runs. *)
Definition expand (runs : list (Z * nat)) : list Z := flat_map (fun xn => repeat (fst xn) (snd xn)) runs.
Definition maximal_runs (runs : list (Z * nat)) : Prop :=
  (forall x n, In (x, n) runs -> (0 < n)%nat) /\
  forall l1 x n y m l2, runs = l1 ++ (x, n) :: (y, m) :: l2 -> x <> y.
(** Every maximal run cut to length two. *)
Definition capped (s s' : list Z) : Prop :=
  exists runs, maximal_runs runs /\ s = expand runs /\ s' = expand (map (fun xn => (fst xn, Nat.min 2 (snd xn))) runs).

(** The corpus learned from: empty sequences are skipped; sequences with long runs are dropped, or cut. *)
Inductive cleaned (cut : bool) : corpus -> corpus -> Prop :=
| cl_end : cleaned cut [] []
| cl_empty f c c' : cleaned cut c c' -> cleaned cut (([], f) :: c) c'
| cl_keep s f c c' : s <> [] -> ~ has_run s -> cleaned cut c c' -> cleaned cut ((s, f) :: c) ((s, f) :: c')
| cl_cut s s' f c c' : cut = true -> has_run s -> capped s s' -> cleaned cut c c' -> cleaned cut ((s, f) :: c) ((s', f) :: c')
| cl_drop s f c c' : cut = false -> has_run s -> cleaned cut c c' -> cleaned cut ((s, f) :: c) c'.

(** A most frequent pair; ties are open. *)
Definition top (c : corpus) (p : Z * Z) (f : Z) : Prop :=
  pair_count c p = f /\ 0 < f /\ forall q, pair_count c q <= f.

(** Up to n merges of a most frequent pair that occurs often enough, the new type being appended to the table
    with the pair as its kids. When no pair is left, the table is returned or ValueError raised. Nothing is
    said about the rest of the run once a pair (a, a) is merged while a occurs three times in a row. *)
Inductive pp_bpe (min_co level : Z) : nat -> corpus -> list Typ -> res (list Typ) -> Prop :=
| pb_done c t : pp_bpe min_co level 0 c t (Ok t)
| pb_rare n c t p f : top c p f -> f < min_co -> pp_bpe min_co level (S n) c t (Ok t)
| pb_none n c t r : (forall p, pair_count c p = 0) -> r = Ok t \/ r = Raise ValueError -> pp_bpe min_co level (S n) c t r
| pb_merge n c c' t a b f ta tb r :
    top c (a, b) f -> min_co <= f -> (a = b -> ~ thrice a c) ->
    0 <= a -> nth_error t (Z.to_nat a) = Some ta -> 0 <= b -> nth_error t (Z.to_nat b) = Some tb ->
    merged_corpus a b (Z.of_nat (length t)) c c' ->
    pp_bpe min_co level n c'
        (t ++ [MkType (t_name ta ++ t_name tb) level (Z.of_nat (length t)) f (Some [ta; tb])]) r ->
    pp_bpe min_co level (S n) c t r
| pb_thrice n c t a f r : top c (a, a) f -> min_co <= f -> thrice a c -> pp_bpe min_co level (S n) c t r.

(** A table grown by merges: every new entry is the concatenation of two earlier ones, which are its kids. *)
Inductive grown_by (level : Z) : list Typ -> list Typ -> Prop :=
| gr_same t : grown_by level t t
| gr_more t ta tb f t' : In ta t -> In tb t ->
    grown_by level (t ++ [MkType (t_name ta ++ t_name tb) level (Z.of_nat (length t)) f (Some [ta; tb])]) t' ->
    grown_by level t t'.

(** How often a character occurs in weighted words; the table the first level starts from: the reserved types,
    then the characters of the words (each ends with the end-of-word mark) that occur often enough, most
    frequent first. *)
Definition char_weight (words : list (str * Z)) (ch : N) : Z :=
  fold_right Z.add 0 (map (fun wf => snd wf * Z.of_nat (count_occ N.eq_dec (fst wf) ch)) words).
Definition char_table (min_freq : Z) (words : list (str * Z)) (table : list Typ) : Prop :=
  exists chars : list (N * Z),
    (forall n t, nth_error table n = Some t -> t_idx t = Z.of_nat n /\ t_kids t = None) /\
    map (fun t => (t_name t, t_level t)) table =
      map (fun w => (w, -1)) reserved_names ++ map (fun cf => ([fst cf], 0)) chars /\
    skipn 6 (map t_freq table) = map snd chars /\
    NoDup (map fst chars) /\
    (forall i j c f c' f', (i < j)%nat -> nth_error chars i = Some (c, f) -> nth_error chars j = Some (c', f') -> f' <= f) /\
    forall c f, In (c, f) chars <->
      c <> MARK /\ (exists w g, In (w, g) words /\ In c w) /\ f = char_weight words c /\ (1 < min_freq -> min_freq <= f).

(** The last position a name has; the number of a segment: that of its name, 1 for an unknown character. *)
Definition last_id (table : list Typ) (p : str) (i : Z) : Prop := name_at table i p /\ forall j, name_at table j p -> j <= i.
Definition seg_number (table : list Typ) (sg : seg) (i : Z) : Prop :=
  match sg with Known p => last_id table p i | Unknown _ => i = 1 end.
(** A line as a sequence of numbers, counted once. *)
Definition encoded_line (table : list Typ) (line : str) (sf : list Z * Z) : Prop :=
  snd sf = 1 /\ exists text segs, marked line text /\ greedy table text segs /\ Forall2 (seg_number table) segs (fst sf).

(** Words that occur often enough, with the mark that ends a word. *)
Definition often (wmf : Z) (tf : list (str * Z)) : list (str * Z) := filter (fun wf => wmf <=? snd wf) tf.

(** A file name: what comes before its suffix, and the suffix (empty, or a dot and something without dots;
    a name does not start with its suffix). *)
Definition without_dot (s : str) : Prop := ~ In 46%N s.
Definition name_parts (name stem suffix : str) : Prop :=
  name = stem ++ suffix /\
  ((exists ext, suffix = 46%N :: ext /\ ext <> [] /\ without_dot ext /\ stem <> []) \/
   (suffix = [] /\ (without_dot name \/ (exists s, name = 46%N :: s /\ without_dot s) \/ exists s, name = s ++ [46%N]))).

(** A corpus whose first sequence is empty. *)
Definition first_empty (c : corpus) : Prop := exists f rest, c = ([], f) :: rest.
(** A table a file can hold and a codec can be built from. *)
Definition usable (table : list Typ) : Prop := storable table /\ starts_reserved table /\ ~ has_name table [].
