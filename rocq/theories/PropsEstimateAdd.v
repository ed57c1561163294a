(** C167: estimates of a text with its lines in another order, and of two texts together. *)
From Coq Require Import Strings.String QArith Sorting.Permutation.
From Verif Require Import Py PyStr StrSpec CodecModel CodecSpec EvalModel EstimateAdd PropsCodec.
Local Open Scope Z_scope.
Local Open Scope list_scope.

(** *** C167: the order of the lines does not matter, *)
Theorem C167_order : forall k table s lines lines' q, (k = KWord \/ k = KChar \/ (k = KBpe /\ well_indexed table)) ->
  make_scheme k table = Ok s -> lines <> [] -> Permutation lines lines' -> estimate s lines = Ok q ->
  exists q', estimate s lines' = Ok q' /\ q_n_types q' = q_n_types q /\ q_n_tokens q' = q_n_tokens q /\ q_unk_count q' = q_unk_count q /\
    (q_mean_seq_len q' == q_mean_seq_len q)%Q /\
    match q_imbalance q, q_imbalance q' with Some v, Some v' => (v == v')%Q | None, None => True | _, _ => False end.
Proof. exact estimate_perm. Qed.
(** and the numbers of two texts add up; the imbalance of both is at most the mean of theirs,
    weighted by their tokens. *)
Theorem C167_together : forall k table s a b qa qb, (k = KWord \/ k = KChar \/ (k = KBpe /\ well_indexed table)) ->
  make_scheme k table = Ok s -> a <> [] -> b <> [] -> estimate s a = Ok qa -> estimate s b = Ok qb ->
  exists q, estimate s (a ++ b) = Ok q /\ q_n_types q = q_n_types qa /\ q_n_tokens q = q_n_tokens qa + q_n_tokens qb /\
    q_unk_count q = q_unk_count qa + q_unk_count qb /\
    (q_mean_seq_len q * inject_Z (Z.of_nat (length (a ++ b))) ==
     q_mean_seq_len qa * inject_Z (Z.of_nat (length a)) + q_mean_seq_len qb * inject_Z (Z.of_nat (length b)))%Q /\
    (forall va vb, q_imbalance qa = Some va -> q_imbalance qb = Some vb -> exists v, q_imbalance q = Some v /\
       (v * inject_Z (q_n_tokens q) <= va * inject_Z (q_n_tokens qa) + vb * inject_Z (q_n_tokens qb))%Q).
Proof. exact estimate_join. Qed.

(** Two texts with different tokens: together they are used more evenly than either. *)
Example C167_ex : make_scheme KBpe ex_bpe = Ok (built KBpe ex_bpe) /\ well_indexed ex_bpe /\
  match estimate (built KBpe ex_bpe) [lit "b b"; lit "x"], estimate (built KBpe ex_bpe) [lit "ab a"],
        estimate (built KBpe ex_bpe) [lit "b b"; lit "x"; lit "ab a"], estimate (built KBpe ex_bpe) [lit "ab a"; lit "x"; lit "b b"] with
  | Ok qa, Ok qb, Ok q, Ok q' =>
      (q_n_tokens qa =? 6) && (q_n_tokens qb =? 4) && (q_n_tokens q =? 10) && (q_n_tokens q' =? 10) &&
      (q_unk_count qa =? 1) && (q_unk_count q =? 1) && (q_unk_count q' =? 1) &&
      match q_imbalance qa, q_imbalance qb, q_imbalance q, q_imbalance q' with
      | Some va, Some vb, Some v, Some v' => negb (Qle_bool va v) && negb (Qle_bool vb v) && Qeq_bool v v'
      | _, _, _, _ => false end
  | _, _, _, _ => false end%bool = true.
Proof. split; [vm_compute; reflexivity|]. split; [apply ex_bpe_indexed|]. vm_compute. reflexivity. Qed.
Print Assumptions C167_order.
Print Assumptions C167_together.
