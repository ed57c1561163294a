(** Property theorems about what pr_measure's scores mean (C163). *)
From Coq Require Import QArith Sorting.Permutation.
From Verif Require Import Py PyStr EvalModel EvalSpec EvalProofs FairSpec FairProofs.
Local Open Scope list_scope.

(** *** C163: the report is without a fault exactly when both sides have the same words in every line. *)
Theorem C163_same_words_partial : forall rnd cands refs n freqs,
  rounding rnd -> same_words cands refs -> (Z.of_nat (length refs) <= 9007199254740992)%Z ->
  exists rows, pr_rows rnd cands refs n freqs = Ok rows /\ Forall (fun r => perfect r /\ perfect_f1 r /\ same_counts r) rows.
Proof. exact same_words_perfect. Qed.
(** The other direction, when every word of the candidates is a word of the references. *)
Theorem C163_no_fault_partial : forall cands refs n rows,
  (Z.of_nat (length refs) <= 9007199254740992)%Z -> pr_rows (fun x => x) cands refs n None = Ok rows -> Forall perfect rows ->
  (forall x, In x (concat cands) -> In x (concat refs)) -> same_words cands refs.
Proof. exact perfect_same_words. Qed.
(** Exchanging the sides exchanges recall and precision. *)
Theorem C163_exchange : forall rnd cands refs n,
  count_gram_recall rnd refs cands n =
  match count_gram_recall rnd cands refs n with
  | Ok (recalls, ref_freqs, precs, cand_freqs) => Ok (precs, cand_freqs, recalls, ref_freqs)
  | Raise e => Raise e
  end.
Proof. exact exchanged. Qed.
(** Words that no reference has are not in the report: it is without a fault though the candidates have more words. *)
Theorem C163_no_fault_refuted : exists cands refs rows,
  length cands = length refs /\ pr_rows (fun x => x) cands refs 1 None = Ok rows /\ rows <> [] /\ Forall (fun r => perfect r /\ perfect_f1 r) rows /\ ~ same_words cands refs.
Proof.
  exists [[7; 9; 9; 9]; [8]]%Z, [[7]; [8]]%Z. eexists. split; [reflexivity|]. split; [vm_compute; reflexivity|]. split; [discriminate|]. split.
  - repeat constructor.
  - intros H. inversion H as [|? ? ? ? P _]. apply Permutation_length in P. discriminate P.
Qed.

(** Cases. *)
Example C163_ex : same_words [[7; 8; 7]; [9]]%Z [[7; 7; 8]; [9]]%Z /\
  (exists rows, pr_rows (fun x => x) [[7; 8; 7]; [9]]%Z [[7; 7; 8]; [9]]%Z 1 (Some [([8], 5); ([3], 4)])%Z = Ok rows /\
     map (fun r => (row_gram r, row_rank r)) rows = [([8], 5); ([7], -1); ([9], -1)]%Z) /\
  (exists rows, pr_rows (fun x => x) [[7; 8; 8]; [9]]%Z [[7; 7; 8]; [9]]%Z 1 None = Ok rows /\ ~ Forall perfect rows).
Proof.
  split; [|split].
  - constructor; [|constructor; [apply Permutation_refl|constructor]]. apply perm_skip, perm_swap.
  - eexists. split; vm_compute; reflexivity.
  - eexists. split; [vm_compute; reflexivity|]. intros H. inversion H as [|r l P _]. cbn in P. destruct P as [X _]. vm_compute in X. discriminate X.
Qed.
Example C163_ex_exchange :
  count_gram_recall (fun x => x) [[7; 8]; [7]]%Z [[7; 8; 7; 8]; [9]]%Z 1
    = Ok ([([7], 1 # 2); ([8], 1 # 2); ([9], 0%Q)], [([7], 2); ([8], 2); ([9], 1)], [([7], 1 # 2); ([8], 1%Q)], [([7], 2); ([8], 1)])%Z /\
  count_gram_recall (fun x => x) [[7; 8; 7; 8]; [9]]%Z [[7; 8]; [7]]%Z 1
    = Ok ([([7], 1 # 2); ([8], 1%Q)], [([7], 2); ([8], 1)], [([7], 1 # 2); ([8], 1 # 2); ([9], 0%Q)], [([7], 2); ([8], 2); ([9], 1)])%Z.
Proof. split; vm_compute; reflexivity. Qed.
Print Assumptions C163_same_words_partial.
Print Assumptions C163_no_fault_partial.
Print Assumptions C163_exchange.
Print Assumptions C163_no_fault_refuted.
