(** Property theorems about the order in which a cluster sums counts (C160). *)
From Coq Require Import Strings.String.
From Verif Require Import Py PyStr PyLemmas StrSpec PyStrProofs CodecModel LearnSpec LearnProofs DriverModel DriverSpec DriverProofs GroupSpec GroupProofs.
Local Open Scope Z_scope.
Local Open Scope list_scope.

(** *** C160: however the pairs are ordered, split over workers and grouped while their values are added, the
    counts are the same: each key once, with the total of its values. *)
Theorem C160_totals : forall pairs m, summed pairs m ->
  (forall k, In k (map fst m) <-> In k (map fst pairs)) /\ forall k v, In (k, v) m -> v = total k pairs.
Proof. exact summed_exact. Qed.
(* Two runs differ in the order of the entries only, and one of the runs is the one from left to right. *)
Theorem C160_any_order : forall pairs m, summed pairs m -> Permutation m (reduce_by_key pairs).
Proof. exact summed_reduce. Qed.
Theorem C160_left_to_right : forall pairs, summed pairs (reduce_by_key pairs).
Proof. exact reduce_summed. Qed.
(* So what a real run returns, with any order of the sums and of the collected entries, is what word_counts returns
   for some choice of those orders, to which the theorems about all such choices apply (C88-C94); *)
Theorem C160_word_counts : forall texts dedup rows wss freqs chars,
  texts <> [] -> counted_rows dedup texts rows -> Forall2 words_of rows wss ->
  summed (word_pairs SENT_TAG wss) freqs -> summed (char_pairs (without SENT_TAG freqs)) chars ->
  exists sp, spark_counting sp /\ word_counts sp texts dedup =
    match rows with [] => Raise KeyError | _ => Ok (without SENT_TAG freqs, chars, total SENT_TAG (word_pairs SENT_TAG wss)) end.
Proof. exact word_counts_any. Qed.
(* and what word_counts returns for a choice of orders is what some run returns. *)
Theorem C160_only_these : forall sp texts dedup words chars n, spark_counting sp -> word_counts sp texts dedup = Ok (words, chars, n) ->
  exists rows wss freqs, counted_rows dedup texts rows /\ Forall2 words_of rows wss /\ rows <> [] /\
    summed (word_pairs SENT_TAG wss) freqs /\ words = without SENT_TAG freqs /\ summed (char_pairs words) chars /\
    n = total SENT_TAG (word_pairs SENT_TAG wss).
Proof. exact word_counts_some. Qed.

(* Two lines, with the sums taken in another order than from left to right. *)
Example C160_ex : exists freqs chars, summed (word_pairs SENT_TAG [[lit "b"; lit "a"]; [lit "b"]]) freqs /\
  summed (char_pairs (without SENT_TAG freqs)) chars /\
  freqs = [(lit "a", 1); (lit "b", 2); (SENT_TAG, 2)] /\ chars = [(lit "b", 2); (lit "a", 1)] /\
  reduce_by_key (word_pairs SENT_TAG [[lit "b"; lit "a"]; [lit "b"]]) <> freqs.
Proof.
  exists [(lit "a", 1); (lit "b", 2); (SENT_TAG, 2)], [(lit "b", 2); (lit "a", 1)]. repeat split.
  - eapply sum_two with (k := lit "b") (a := 1) (b := 1) (rest := [(SENT_TAG, 1); (lit "a", 1); (SENT_TAG, 1)]).
    + change (Permutation [(SENT_TAG, 1); (lit "b", 1); (lit "a", 1); (SENT_TAG, 1); (lit "b", 1)]
        ([(lit "b", 1); (lit "b", 1)] ++ [(SENT_TAG, 1); (lit "a", 1); (SENT_TAG, 1)])).
      apply (Permutation_cons_app [(lit "b", 1); (lit "b", 1)]). cbn [app]. apply perm_skip.
      symmetry. apply (Permutation_cons_append [(lit "a", 1); (SENT_TAG, 1)] (lit "b", 1)).
    + eapply sum_two with (k := SENT_TAG) (a := 1) (b := 1) (rest := [(lit "b", 2); (lit "a", 1)]).
      * apply (Permutation_cons_app [(SENT_TAG, 1); (SENT_TAG, 1)]). cbn [app]. apply perm_skip. apply perm_swap.
      * apply sum_end. exact (Permutation_rev [(SENT_TAG, 2); (lit "b", 2); (lit "a", 1)]).
  - apply (NoDup_count_occ' str_dec). intros x [<-|[<-|[<-|[]]]]; vm_compute; reflexivity.
  - apply sum_end. change (Permutation [(lit "a", 1); (lit "b", 2)] [(lit "b", 2); (lit "a", 1)]). apply perm_swap.
  - apply (NoDup_count_occ' str_dec). intros x [<-|[<-|[]]]; vm_compute; reflexivity.
  - vm_compute. discriminate.
Qed.

Print Assumptions C160_totals.
Print Assumptions C160_any_order.
Print Assumptions C160_left_to_right.
Print Assumptions C160_word_counts.
Print Assumptions C160_only_these.
