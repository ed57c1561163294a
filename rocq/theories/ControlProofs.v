(** Which texts can produce control ids (C59). *)
From Coq Require Import Strings.String.
From Verif Require Import Py PyLemmas PyStr StrSpec PyStrProofs Utf8Model CodecModel CodecSpec
     FlatProofs TrieProofs BpeProofs.
Local Open Scope Z_scope.
Local Open Scope list_scope.

Definition control_token (i : Z) (tok : str) : Prop :=
  (i = 0 /\ tok = lit "<pad>") \/ (i = 2 /\ tok = lit "<s>") \/
  (i = 3 /\ tok = lit "</s>") \/ (i = 4 /\ tok = lit "<cls>").

Lemma control_token_at table i tok w :
  starts_reserved table -> control_token i tok -> name_at table i w -> w = tok.
Proof.
  unfold starts_reserved. intros Hr Hc Hn. apply name_at_nth in Hn as [_ Hn].
  destruct (map t_name table) as [|a [|b [|c [|d [|e [|f l]]]]]]; try discriminate Hr.
  cbn [firstn] in Hr. injection Hr as -> -> -> -> -> ->.
  destruct Hc as [[-> ->]|[[-> ->]|[[-> ->]|[-> ->]]]]; cbn in Hn; injection Hn as <-; reflexivity.
Qed.
Lemma control_token_long i tok : control_token i tok -> (1 < length tok)%nat /\ i <> 1.
Proof. intros [[-> ->]|[[-> ->]|[[-> ->]|[-> ->]]]]; vm_compute; split; try lia; discriminate. Qed.
Lemma id_of_control table w i tok :
  starts_reserved table -> control_token i tok -> id_of table w i -> w = tok.
Proof.
  intros Hr Hc [H|[-> _]].
  - eapply control_token_at; eauto.
  - apply control_token_long in Hc as [_ Hc]. contradiction.
Qed.
Lemma Forall2_In_r {A B} (P : A -> B -> Prop) l l' y :
  Forall2 P l l' -> In y l' -> exists x, In x l /\ P x y.
Proof.
  induction 1 as [|x y' l l' Hxy _ IH]; [intros []|].
  intros [->|H]; [exists x; simpl; auto|]. destruct (IH H) as (z & Hz & Hp). exists z; simpl; auto.
Qed.
Lemma char_no_control table s line ids i tok :
  make_scheme KChar table = Ok s -> encode s line = Ok ids -> control_token i tok -> ~ In i ids.
Proof.
  intros Hs He Hc Hin.
  destruct (char_ids table s line Hs) as (ws & ids' & outs & _ & He' & Hids & _).
  rewrite He in He'. injection He' as <-.
  apply make_flat_inv in Hs as (Hr & Hd & _); [|auto].
  destruct (Forall2_In_r _ _ _ _ Hids Hin) as (c & _ & Hi).
  apply (id_of_control table _ _ tok Hr Hc) in Hi.
  apply control_token_long in Hc as [Hc _]. subst tok. simpl in Hc. lia.
Qed.
Lemma word_control_spelled table s line ws ids i tok :
  make_scheme KWord table = Ok s -> words_of line ws -> encode s line = Ok ids ->
  control_token i tok -> In i ids -> In tok ws.
Proof.
  intros Hs Hw He Hc Hin.
  destruct (word_ids table s line Hs) as (ws' & ids' & outs & Hws & He' & Hids & _).
  rewrite He in He'. injection He' as <-.
  apply split_words_of in Hw. apply split_words_of in Hws. subst ws' . subst ws.
  apply make_flat_inv in Hs as (Hr & Hd & _); [|auto].
  destruct (Forall2_In_r _ _ _ _ Hids Hin) as (w & Hw & Hi).
  apply (id_of_control table _ _ tok Hr Hc) in Hi. subst w. exact Hw.
Qed.
Lemma bpe_control_spelled table s line text ids i tok :
  make_scheme KBpe table = Ok s -> well_indexed table -> marked line text ->
  encode s line = Ok ids -> control_token i tok -> In i ids ->
  exists a b, text = a ++ tok ++ b.
Proof.
  intros Hs Hw Hm He Hc Hin.
  destruct (bpe_total table s line Hs Hw) as (text' & segs & ids' & Hm' & Ht & _ & _ & He' & Hids & _).
  rewrite He in He'. injection He' as <-.
  apply marked_text in Hm. apply marked_text in Hm'. subst text'. subst text.
  apply make_bpe_inv in Hs as (Hr & _ & _).
  assert (Hx : In tok (map seg_piece segs)).
  { clear -Hids Hin Hr Hc. induction Hids as [|j w l ws Hj _ IH]; [destruct Hin|].
    destruct Hin as [->|Hin]; [left; eapply control_token_at; eauto|right; apply IH, Hin]. }
  apply in_map_iff in Hx as (sg & Esg & Hin2).
  assert (Etx : seg_text sg = tok).
  { destruct sg as [p|c]; simpl in *; [exact Esg|]. exfalso.
    subst tok. destruct Hc as [[_ H]|[[_ H]|[[_ H]|[_ H]]]]; discriminate H. }
  apply in_split in Hin2 as (l1 & l2 & ->).
  rewrite map_app, concat_app in Ht. simpl in Ht. rewrite Etx in Ht. rewrite <- Ht. eauto.
Qed.
