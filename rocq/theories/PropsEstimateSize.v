(** C168: estimates with a smaller and a larger vocabulary. *)
From Coq Require Import Strings.String QArith.
From Verif Require Import Py PyStr StrSpec CodecModel CodecSpec LearnModel ArithModel EvalModel EstimateSize PropsCodec PropsGrow.
Local Open Scope Z_scope.
Local Open Scope list_scope.

(** *** C168: the types that were cut off are what is unknown in addition; the rest of the numbers stays. *)
Theorem C168_cut : forall k t1 t2 s1 s2 n lines, k = KWord \/ k = KChar -> make_scheme k t1 = Ok s1 -> make_scheme k t2 = Ok s2 ->
  map t_name t1 = firstn n (map t_name t2) -> lines <> [] ->
  exists seqs q1 q2, Forall2 (fun line seq => encode s2 line = Ok seq) lines seqs /\ estimate s1 lines = Ok q1 /\ estimate s2 lines = Ok q2 /\
    q_n_tokens q1 = q_n_tokens q2 /\ (q_mean_seq_len q1 == q_mean_seq_len q2)%Q /\
    q_unk_count q1 = q_unk_count q2 + Z.of_nat (length (filter (fun i => Z.of_nat n <=? i) (concat seqs))).
Proof. exact estimate_size. Qed.
(** So learning with a larger size never makes more of any text unknown. *)
Theorem C168_learned : forall A k data cov is_tf mf vs1 vs2 t2, k = KWord \/ k = KChar ->
  vs2 <= 0 /\ (vs1 <= 0 \/ 6 <= vs1) \/ 6 <= vs1 <= vs2 -> learn_flat A k data vs2 mf cov is_tf = Ok t2 ->
  exists t1 n, learn_flat A k data vs1 mf cov is_tf = Ok t1 /\ map t_name t1 = firstn n (map t_name t2) /\
    forall s1 s2 lines, make_scheme k t1 = Ok s1 -> make_scheme k t2 = Ok s2 -> lines <> [] ->
      exists q1 q2, estimate s1 lines = Ok q1 /\ estimate s2 lines = Ok q2 /\ q_n_tokens q1 = q_n_tokens q2 /\ q_unk_count q2 <= q_unk_count q1.
Proof. exact learned_size. Qed.

Example C168_ex : learn_flat arithQ KWord gr_words 0 1 None false = Ok (gr_word 0 1) /\ learn_flat arithQ KWord gr_words 8 1 None false = Ok (gr_word 8 1) /\
  make_scheme KWord (gr_word 0 1) = Ok (built KWord (gr_word 0 1)) /\ make_scheme KWord (gr_word 8 1) = Ok (built KWord (gr_word 8 1)) /\
  map t_name (gr_word 8 1) = firstn 8 (map t_name (gr_word 0 1)) /\
  match estimate (built KWord (gr_word 8 1)) [lit "z x y q"; lit "z"], estimate (built KWord (gr_word 0 1)) [lit "z x y q"; lit "z"] with
  | Ok q1, Ok q2 => (q_n_tokens q1 =? 5) && (q_n_tokens q2 =? 5) && (q_unk_count q1 =? 3) && (q_unk_count q2 =? 1)
  | _, _ => false end%bool = true.
Proof. do 5 (split; [vm_compute; reflexivity|]). vm_compute. reflexivity. Qed.
Print Assumptions C168_cut.
Print Assumptions C168_learned.
