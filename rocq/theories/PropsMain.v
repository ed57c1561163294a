(** Property theorems about the command line tool as a whole (C104-C106). *)
From Coq Require Import Strings.String QArith.
From Verif Require Import Py PyStr PyLemmas StrSpec JsonProofs CodecModel CodecSpec VocabFileModel LearnModel ArithModel LearnSpec
     LearnBpeModel BpeSpec EvalModel CliModel CliSpec DriverModel MainModel MainSpec MainProofs.
Local Open Scope Z_scope.
Local Open Scope list_scope.

Definition as_is : nat -> list nat -> list nat := fun _ l => l.
Lemma as_is_ok : iteration_orders as_is.
Proof. intros i l. reflexivity. Qed.
Definition learn_opts (inp : str) (level : string) (vs : Z) (mf : option Z) (cov : option Q) (mco : Z) : options arithQ :=
  MkOptions (A := arithQ) (lit "learn") inp false false vs (Some (lit level)) mf cov mco.
Definition code_opts (task : string) (inp : str) (idx : bool) : options arithQ :=
  MkOptions (A := arithQ) (lit task) inp false idx (-1) None None None 95.
Definition run_of := main arithQ as_is (lit "0.5.1") (lit "now").
Definition model_of (r : run) : list N := match r_model r with Some b => b | None => [] end.

(** *** C104: learn, then encode and decode any text made of the words (or characters) learned from. *)
Theorem C104_word : forall A orders version now (o : options A) ls old,
  scalars version -> scalars now -> iteration_orders orders ->
  o_task o = lit "learn" -> o_level o = Some (lit "word") -> o_term_freqs o = false -> o_vocab_size o <= 0 ->
  (forall m, o_min_freq o = Some m -> m <= 1) -> lines_of (o_inp o) ls -> scalars (o_inp o) ->
  exists bytes, main A orders version now old o = MkRun (Some bytes) [] None None /\
    forall e d ls', o_task e = lit "encode" -> o_task d = lit "decode" -> o_indices d = o_indices e -> lines_of (o_inp e) ls' ->
      (forall l ws w, In l ls' -> words_of l ws -> In w ws -> exists l0 ws0, In l0 ls /\ words_of l0 ws0 /\ In w ws0) ->
      decodes A orders version now bytes e d normal ls'.
Proof. intros A orders version now o ls old Hv Hn Ho. exact (word_run A orders version now Hv Hn Ho o ls old). Qed.
Theorem C104_char : forall A orders version now (o : options A) ls old,
  scalars version -> scalars now -> iteration_orders orders ->
  o_task o = lit "learn" -> o_level o = Some (lit "char") -> o_term_freqs o = false -> o_vocab_size o <= 0 ->
  o_min_freq o = Some 1 -> o_coverage o = None -> lines_of (o_inp o) ls -> scalars (o_inp o) ->
  exists bytes, main A orders version now old o = MkRun (Some bytes) [] None None /\
    forall e d ls', o_task e = lit "encode" -> o_task d = lit "decode" -> o_indices d = o_indices e -> lines_of (o_inp e) ls' ->
      (forall l c, In l ls' -> In c l -> is_space c = false -> exists l0, In l0 ls /\ In c l0) ->
      decodes A orders version now bytes e d (fun l out => exists norm, normal l norm /\ out = unmark norm) ls'.
Proof. intros A orders version now o ls old Hv Hn Ho. exact (char_run A orders version now Hv Hn Ho o ls old). Qed.
Theorem C104_bpe : forall A orders version now (o : options A) ls old,
  scalars version -> scalars now -> iteration_orders orders ->
  o_task o = lit "learn" -> o_level o = Some (lit "bpe") -> o_term_freqs o = false ->
  o_coverage o = None -> lines_of (o_inp o) ls -> scalars (o_inp o) -> r_exc (main A orders version now old o) = None ->
  exists bytes, main A orders version now old o = MkRun (Some bytes) [] None None /\
    forall e d ls', o_task e = lit "encode" -> o_task d = lit "decode" -> o_indices d = o_indices e -> lines_of (o_inp e) ls' ->
      (forall l c, In l ls' -> In c l -> is_space c = false -> exists l0, In l0 ls /\ In c l0) ->
      decodes A orders version now bytes e d
        (fun l out => exists norm, normal l norm /\ trimmed (unmark norm) out /\ (~ In MARK l -> out = norm)) ls'.
Proof. intros A orders version now o ls old Hv Hn Ho. exact (bpe_run A orders version now Hv Hn Ho o ls old). Qed.
Definition ex_text : str := lit "lol  lo" ++ [10%N] ++ lit "lo lo ol" ++ [10%N].
Definition ex_bytes (level : string) : list N := model_of (run_of None (learn_opts ex_text level (-1) (Some 1) None 2)).
Example C104_ex :
  run_of None (learn_opts ex_text "bpe" (-1) (Some 1) None 2) = MkRun (Some (ex_bytes "bpe")) [] None None /\
  run_of (Some (ex_bytes "bpe")) (code_opts "encode" (lit " ol  lol") true) =
    MkRun (Some (ex_bytes "bpe")) (lit "7 10 8 10" ++ [10%N]) None None /\
  run_of (Some (ex_bytes "bpe")) (code_opts "decode" (lit "7 10 8 10") true) =
    MkRun (Some (ex_bytes "bpe")) (lit "ol lol" ++ [10%N]) None None /\
  run_of (Some (ex_bytes "word")) (code_opts "encode" ex_text true) =
    MkRun (Some (ex_bytes "word")) (lit "7 6" ++ [10%N] ++ lit "6 6 8" ++ [10%N]) None None.
Proof. repeat (match goal with |- _ /\ _ => split end); vm_compute; reflexivity. Qed.
(* with the default least frequency of 20 at level char, a short text comes back as unknowns *)
Example C104_ex_default :
  let bytes := model_of (run_of None (learn_opts (lit "ab") "char" (-1) None None 95)) in
  run_of (Some bytes) (code_opts "encode" (lit "ab") true) = MkRun (Some bytes) (lit "1 1" ++ [10%N]) None None /\
  run_of (Some bytes) (code_opts "decode" (lit "1 1") true) = MkRun (Some bytes) (lit "<unk><unk>" ++ [10%N]) None None.
Proof. split; vm_compute; reflexivity. Qed.

(** *** C105: what estimate prints for a word model learned from a text. *)
Theorem C105_word_estimate : forall A orders version now (o : options A) ls wss old,
  scalars version -> scalars now -> iteration_orders orders ->
  o_task o = lit "learn" -> o_level o = Some (lit "word") -> o_term_freqs o = false -> o_vocab_size o <= 0 ->
  (forall m, o_min_freq o = Some m -> m <= 1) -> lines_of (o_inp o) ls -> scalars (o_inp o) -> Forall2 words_of ls wss ->
  exists bytes, main A orders version now old o = MkRun (Some bytes) [] None None /\
    forall e ls' wss', o_task e = lit "estimate" -> lines_of (o_inp e) ls' -> ls' <> [] -> Forall2 words_of ls' wss' ->
      exists q, main A orders version now (Some bytes) e = MkRun (Some bytes) [] (Some q) None /\
        q_n_types q = 6 + Z.of_nat (length (nodup str_dec (filter (fun w => negb (reserved_name w)) (concat wss)))) /\
        q_n_tokens q = Z.of_nat (length (concat wss')) /\
        q_unk_count q = Z.of_nat (length (filter (fun w => str_eqb w (lit "<unk>") || negb (seen_in (concat wss) w)) (concat wss'))) /\
        (q_mean_seq_len q * inject_Z (Z.of_nat (length ls')) == inject_Z (Z.of_nat (length (concat wss'))))%Q.
Proof. exact word_estimate. Qed.
Example C105_ex : exists q, run_of (Some (ex_bytes "word")) (code_opts "estimate" (lit "lo new lo" ++ [10%N] ++ lit "<unk>") false) =
    MkRun (Some (ex_bytes "word")) [] (Some q) None /\
  q_n_types q = 9 /\ q_n_tokens q = 4 /\ q_unk_count q = 2 /\ (q_mean_seq_len q == 2)%Q.
Proof.
  eexists. split; [vm_compute; reflexivity|].
  repeat (match goal with |- _ /\ _ => split end); vm_compute; reflexivity.
Qed.

(** *** C106: a learn that fails leaves the model file as it was. Full statement: at every level. It holds at
    every level but class: there an input without lines empties the old model file before it fails. *)
Theorem C106_failed_learn_partial : forall A orders version now old (o : options A),
  o_task o = lit "learn" -> o_level o <> Some (lit "class") -> r_exc (main A orders version now old o) <> None ->
  r_model (main A orders version now old o) = old.
Proof. exact failed_learn. Qed.
Theorem C106_failed_learn_refuted : exists old o, o_task o = lit "learn" /\ load_scheme old <> Raise IndexError /\
  r_exc (run_of (Some old) o) = Some ValueError /\ r_model (run_of (Some old) o) = Some [] /\ load_scheme [] = Raise IndexError.
Proof.
  exists (ex_bytes "word"), (learn_opts [] "class" (-1) None None 95). split; [reflexivity|]. split; [vm_compute; discriminate|].
  repeat (match goal with |- _ /\ _ => split end); vm_compute; reflexivity.
Qed.
(* the other tasks never touch it *)
Theorem C106_other_tasks : forall A orders version now old (o : options A),
  o_task o <> lit "learn" -> r_model (main A orders version now old o) = old.
Proof.
  intros A orders version now old o H. unfold main. destruct (str_eqb (o_task o) (lit "learn")) eqn:E.
  { exfalso. apply H. apply PyLemmas.str_eqb_eq. exact E. }
  destruct (str_eqb (o_task o) (lit "encode")); destruct (str_eqb (o_task o) (lit "decode")); cbn [orb];
    try (destruct old as [b|]; [|reflexivity]; match goal with |- context [let (_, _) := ?x in _] => destruct x end; reflexivity).
  destruct (str_eqb (o_task o) (lit "estimate")); [|reflexivity].
  destruct old as [b|]; [|reflexivity]. destruct (load_scheme b) as [s|]; [|reflexivity]. destruct (estimate s _); reflexivity.
Qed.
Example C106_ex : r_exc (run_of (Some (ex_bytes "word")) (learn_opts [] "bpe" 5 None None 1)) = Some AssertionError /\
  r_model (run_of (Some (ex_bytes "word")) (learn_opts [] "bpe" 5 None None 1)) = Some (ex_bytes "word").
Proof. split; vm_compute; reflexivity. Qed.

Print Assumptions C104_word.
Print Assumptions C104_char.
Print Assumptions C104_bpe.
Print Assumptions C105_word_estimate.
Print Assumptions C106_failed_learn_partial.
Print Assumptions C106_failed_learn_refuted.
Print Assumptions C106_other_tasks.
