(** Specification vocabulary for the learning drivers. *)
From Coq Require Import Strings.String.
From Verif Require Import Py PyStr StrSpec CodecModel LearnSpec DriverModel.
Local Open Scope Z_scope.
Local Open Scope list_scope.

(** What Spark promises: distinct rows, and maps with the entries they should have, in any order. *)
Definition spark_counting (sp : counting) : Prop :=
  (forall l, NoDup (distinct_rows sp l) /\ forall r, In r (distinct_rows sp l) <-> In r l) /\
  (forall l, Permutation (collect_words sp l) l) /\ (forall l, Permutation (collect_chars sp l) l).

(** The lines that are counted. *)
Definition counted_rows (dedup : bool) (texts : list (list str)) (rows : list str) : Prop :=
  if dedup then NoDup rows /\ forall r, In r rows <-> exists t, In t texts /\ In r t
  else rows = concat texts.

(** [counts toks m]: m lists the items of toks, each once, with its number of occurrences. *)
Definition counts (toks : list str) (m : list (str * Z)) : Prop :=
  NoDup (map fst m) /\ (forall w, In w (map fst m) <-> In w toks) /\
  forall w f, In (w, f) m -> f = occurrences w toks.

Definition letters (toks : list str) : list str := map (fun c => [c]) (concat toks).
Definition entries (table : list Typ) : list (str * Z) := map (fun t => (t_name t, t_freq t)) table.

(** The entries after the reserved ones agree, but for the choice and the order of equally frequent types:
    the frequencies at each position agree, and the types more frequent than the least frequent entry agree. *)
Definition same_but_ties (t t' : list Typ) : Prop :=
  map t_freq (skipn 6 t) = map t_freq (skipn 6 t') /\
  forall w f, (exists r, In r (skipn 6 t) /\ t_freq r < f) ->
    (In (w, f) (entries (skipn 6 t)) <-> In (w, f) (entries (skipn 6 t'))).

(** Gaps between the words of lines. *)
Definition gaps (wss : list (list str)) : Z :=
  zsum (map (fun ws => Z.max 0 (Z.of_nat (length ws) - 1)) wss).
