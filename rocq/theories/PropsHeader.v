(** C17 continued: text after the metadata on the first line of a vocabulary file. *)
From Coq Require Import Strings.String.
From Verif Require Import Py PyStr StrSpec Utf8Model JsonModel JsonProofs CodecModel VocabFileModel VocabSpec VocabFileProofs PropsVocab HeaderProofs.
Local Open Scope list_scope.

Theorem C17_read_refuses_after_header : forall bytes m tail rest,
  json_ok (JObj m) -> vocab_lines bytes = (35%N :: dumps (JObj m) ++ tail) :: rest ->
  Exists (fun c => ~ In c [32%N; 9%N; 10%N; 13%N]) tail -> read_vocab bytes = Raise ValueError.
Proof. exact header_tail. Qed.
(** Blanks there are no reason to refuse. *)
Theorem C17_blanks_after_header : forall m tail, json_ok (JObj m) -> Forall (fun c => In c [32%N; 9%N; 10%N; 13%N]) tail ->
  loads (dumps (JObj m) ++ tail) = Ok (JObj m).
Proof. exact header_blanks. Qed.

Definition ex_header_file : list N := lit "#{""max_level"": 0} x" ++ [10%N] ++ lit "0" ++ [9%N] ++ lit "a" ++ [9%N] ++ lit "0" ++ [9%N] ++ lit "5".
Example C17_ex_header : exists m tail rest, json_ok (JObj m) /\ vocab_lines ex_header_file = (35%N :: dumps (JObj m) ++ tail) :: rest /\
  Exists (fun c => ~ In c [32%N; 9%N; 10%N; 13%N]) tail /\ List.length rest = 1%nat.
Proof.
  exists [(lit "max_level", JInt 0)], (lit " x"). eexists. split; [|split; [vm_compute; reflexivity|split; [|reflexivity]]].
  - apply json_ok_obj. split; [repeat constructor; intros []|]. repeat constructor.
  - apply Exists_exists. exists 120%N. split; [right; left; reflexivity|]. intros H. cbn in H. repeat (destruct H as [H|H]; [discriminate H|]). exact H.
Qed.

Print Assumptions C17_read_refuses_after_header.
Print Assumptions C17_blanks_after_header.
