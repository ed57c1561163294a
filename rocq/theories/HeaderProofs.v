(** Text after the metadata of a vocabulary file. *)
From Coq Require Import Strings.String.
From Verif Require Import Py PyStr StrSpec Utf8Model JsonModel JsonProofs CodecModel VocabFileModel VocabSpec VocabFileProofs.
From Coq Require Import Lia.
Local Open Scope N_scope.
Local Open Scope list_scope.

Lemma parse_obj_rt m f r : json_ok (JObj m) -> (jsize (JObj m) <= f)%nat -> parse_val f (dumps (JObj m) ++ r) = Ok (JObj m, r).
Proof.
  intros Hok Hf. destruct f as [|f]; [simpl in Hf; lia|].
  rewrite jsize_obj in Hf. apply json_ok_obj in Hok. destruct Hok as [Hnd Hok]. rewrite dumps_obj.
  repeat rewrite <- app_assoc. cbn [app parse_val].
  change (123 =? 34) with false. change (123 =? 123) with true. cbv iota.
  destruct m as [|kv m]; [reflexivity|].
  destruct (dump_member_head kv) as (t & Ed).
  destruct (join_head COMMA_SP (dump_member kv) (map dump_member m) 34 t Ed) as (t' & Ej).
  change (dump_member kv :: map dump_member m) with (map dump_member (kv :: m)) in Ej. rewrite Ej. cbn [app].
  rewrite skip_ws_id by reflexivity. change (34 =? 125) with false. cbv iota.
  change (34 :: t' ++ 125 :: r) with ((34 :: t') ++ 125 :: r). rewrite <- Ej.
  rewrite parse_members_rt; [reflexivity|discriminate| |exact Hnd|lia].
  rewrite Forall_forall in *. intros y Hy. specialize (Hok y Hy). destruct Hok as [H1 H2]. split; [exact H1|]. apply parse_val_rt, H2.
Qed.
Lemma skip_ws_nil s : skip_ws s = [] <-> Forall (fun c => json_ws c = true) s.
Proof.
  induction s as [|c s IH]; cbn [skip_ws]; [split; constructor|]. destruct (json_ws c) eqn:E.
  - rewrite IH. split; [intros H; constructor; assumption|intros H; inversion H; assumption].
  - split; [discriminate|]. intros H. inversion H. congruence.
Qed.
Lemma loads_tail m tail : json_ok (JObj m) ->
  loads (dumps (JObj m) ++ tail) = if forallb json_ws tail then Ok (JObj m) else Raise ValueError.
Proof.
  intros H. unfold loads. destruct (dumps_head (JObj m)) as (c & t & E & Hw & _ & _).
  assert (Es : skip_ws (dumps (JObj m) ++ tail) = dumps (JObj m) ++ tail) by (rewrite E; cbn [app]; apply skip_ws_id, Hw). rewrite Es.
  destruct (dumps_length (JObj m)) as [Hl _]. rewrite parse_obj_rt; [|exact H|rewrite app_length; lia].
  destruct (skip_ws tail) as [|d r] eqn:Et.
  - apply skip_ws_nil in Et. rewrite (proj2 (forallb_forall _ _)); [reflexivity|]. apply Forall_forall. exact Et.
  - destruct (forallb json_ws tail) eqn:Ef; [|reflexivity]. rewrite forallb_forall in Ef. rewrite (proj2 (skip_ws_nil tail)) in Et; [discriminate Et|]. apply Forall_forall. exact Ef.
Qed.
Theorem header_tail bytes m tail rest : json_ok (JObj m) -> vocab_lines bytes = (35 :: dumps (JObj m) ++ tail) :: rest ->
  Exists (fun c => ~ In c [32; 9; 10; 13]) tail -> read_vocab bytes = Raise ValueError.
Proof.
  intros Hj Hl Ht. unfold read_vocab. rewrite Hl.
  assert (Eh : startswith (lit "#{") (35 :: dumps (JObj m) ++ tail) = true) by (rewrite dumps_obj; reflexivity). rewrite Eh. cbn [skipn].
  rewrite (loads_tail m tail Hj). destruct (forallb json_ws tail) eqn:E; [exfalso|reflexivity].
  rewrite forallb_forall in E. apply Exists_exists in Ht. destruct Ht as (c & Hc & Hn). apply Hn. specialize (E c Hc). unfold json_ws in E. cbn. lia.
Qed.
Theorem header_blanks m tail : json_ok (JObj m) -> Forall (fun c => In c [32; 9; 10; 13]) tail -> loads (dumps (JObj m) ++ tail) = Ok (JObj m).
Proof.
  intros Hj Ht. rewrite (loads_tail m tail Hj). rewrite (proj2 (forallb_forall _ _)); [reflexivity|]. rewrite Forall_forall in Ht.
  intros c Hc. specialize (Ht c Hc). cbn in Ht. unfold json_ws. lia.
Qed.
