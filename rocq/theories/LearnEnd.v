(** Vocabulary sizes below the number of reserved types. *)
From Coq Require Import ZArith Lia Bool.
From Verif Require Import Py PyLemmas PyStr StrSpec CodecModel CodecSpec LearnModel LearnSpec LearnProofs.
Local Open Scope Z_scope.
Local Open Scope list_scope.

Theorem init_small A level tf lc mf vs table :
  NoDup (map fst tf) -> 1 <= vs <= 5 -> get_init_vocab A level tf None lc mf vs = Ok table ->
  exists ranking, ranked (candidates mf tf) ranking /\
    map (fun t => (t_name t, t_freq t)) (skipn 6 table) = firstn (length ranking - Z.to_nat (6 - vs)) ranking /\
    length table = (6 + (length ranking - Z.to_nat (6 - vs)))%nat.
Proof.
  intros Hnd Hvs H.
  destruct (init_split A level tf None lc mf vs table Hnd H) as (rst & kept & dropped & cut & _ & _ & -> & Hr & Ek).
  exists cut. split; [apply Hr; reflexivity|].
  assert (E : kept = firstn (length cut - Z.to_nat (6 - vs)) cut).
  { rewrite Ek. replace (vs >? 0) with true by lia. rewrite andb_true_l. replace (6 + Z.of_nat (length cut) >? vs) with true by lia.
    unfold py_take, py_bound. replace (0 <=? vs - 6) with false by lia. f_equal. lia. }
  split.
  - rewrite skipn_app, head_length. change (6 - 6)%nat with 0%nat. simpl skipn. rewrite app_nil_l, rows_pairs. exact E.
  - rewrite app_length, head_length, rows_length, E, firstn_length. lia.
Qed.
