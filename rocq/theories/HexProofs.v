(** Pieces given to the byte scheme in any spelling. *)
From Coq Require Import Strings.String.
From Verif Require Import Py PyLemmas PyStr StrSpec Utf8Model CodecModel CodecSpec FlatProofs ByteSpec ByteProofs.
Local Open Scope Z_scope.
Local Open Scope list_scope.
Local Open Scope res_scope.

Lemma hexval_digit c x : hexval c = Some x <-> digit c x.
Proof.
  unfold hexval, digit.
  destruct (N.leb_spec 48 c); destruct (N.leb_spec c 57); cbn [andb]; try (split; [intros E; injection E as <-; lia|intros H'; f_equal; lia]).
  all: destruct (N.leb_spec 97 c); destruct (N.leb_spec c 102); cbn [andb]; try (split; [intros E; injection E as <-; lia|intros H'; f_equal; lia]).
  all: destruct (N.leb_spec 65 c); destruct (N.leb_spec c 70); cbn [andb]; try (split; [intros E; injection E as <-; lia|intros H'; f_equal; lia]).
  all: split; [discriminate|lia].
Qed.
Lemma blank_ws c : ascii_ws c = true <-> (9 <= c <= 13)%N \/ c = 32%N.
Proof.
  unfold ascii_ws. rewrite orb_true_iff, andb_true_iff, N.eqb_eq, !N.leb_le. tauto.
Qed.
Lemma fromhex_spells s : forall bs, fromhex s = Some bs <-> spells s bs.
Proof.
  assert (G : forall n s, (length s <= n)%nat -> forall bs, fromhex s = Some bs <-> spells s bs).
  2:{ intros bs. apply (G (length s)). lia. }
  clear s. induction n as [|n IH]; intros s Hn bs.
  - destruct s; [|cbn in Hn; lia]. split; [intros E; injection E as <-; constructor|intros H; inversion H; reflexivity].
  - destruct s as [|c s]; [split; [intros E; injection E as <-; constructor|intros H; inversion H; reflexivity]|]. cbn [fromhex].
    destruct (ascii_ws c) eqn:W.
    + rewrite IH by (cbn in Hn; lia). split; [apply spells_blank, blank_ws, W|]. apply blank_ws in W. intros H. inversion H as [|c' s' bs' _ H2|c' d x y s' bs' D]; subst; [exact H2|].
      exfalso. unfold digit in D. lia.
    + assert (NW : ~ ((9 <= c <= 13)%N \/ c = 32%N)) by (rewrite <- blank_ws, W; discriminate).
      destruct s as [|d s]; [split; [discriminate|intros H; inversion H; subst; contradiction]|].
      assert (IHs : forall r, fromhex s = Some r <-> spells s r) by (intros r; apply IH; cbn in Hn; lia).
      split.
      * destruct (hexval c) as [x|] eqn:X; [|discriminate]. destruct (hexval d) as [y|] eqn:Y; [|discriminate]. destruct (fromhex s) as [r|] eqn:F; [|discriminate].
        intros E. injection E as <-. apply spells_byte; [apply hexval_digit, X|apply hexval_digit, Y|]. apply IHs. reflexivity.
      * intros H. inversion H as [|c' s' bs' B _|c' d' x y s' r D1 D2 S]; subst; [contradiction|].
        apply hexval_digit in D1, D2. apply IHs in S. rewrite D1, D2, S. reflexivity.
Qed.

Lemma unmarked p : p <> BOS_TOK -> p <> EOS_TOK -> byte_piece_reserved byte_scheme p = Ok false.
Proof.
  intros H1 H2. destruct (in_dec str_dec p (map t_name byte_vocab)) as [H|H].
  - unfold byte_vocab in H. rewrite map_app, map_map in H. apply in_app_iff in H as [H|H].
    + apply in_map_iff in H as (n & <- & Hn). apply in_seq in Hn. cbn [t_name]. apply byte_not_reserved. lia.
    + cbn in H. destruct H as [H|[H|[]]]; [destruct (H1 (eq_sym H))|destruct (H2 (eq_sym H))].
  - unfold byte_piece_reserved. destruct (dget str_eqb p (s_str_to_idx byte_scheme)) as [i|] eqn:E; [|reflexivity].
    exfalso. apply H. unfold byte_scheme in E. cbn [s_str_to_idx] in E. apply (str_to_idx_last_get (map t_name byte_vocab)) in E as [_ E]; [|apply byte_names_nodup]. apply nth_error_In in E. exact E.
Qed.

Theorem any_spelling s ps : make_scheme KByte [] = Ok s -> (forall p, In p ps -> p <> BOS_TOK /\ p <> EOS_TOK) ->
  (forall bs, spells (concat ps) bs -> decode_str s ps = Ok (utf8_decode [65533%N] bs)) /\
  ((forall bs, ~ spells (concat ps) bs) -> decode_str s ps = Raise ValueError).
Proof.
  intros Hs Hm. rewrite (proj1 make_byte) in Hs. injection Hs as <-.
  assert (E : decode_str byte_scheme ps = match ps with [] => Ok [] | _ => compose_str ps end).
  { unfold decode_str. cbn [s_kind byte_scheme]. rewrite byte_decode_str_run. unfold run.
    assert (F : forall buf, foldM (byte_decode_step byte_scheme) ps ([], buf) = Ok ([], buf ++ ps)).
    { clear - Hm. induction ps as [|p ps IH]; intros buf; cbn [foldM]; [rewrite app_nil_r; reflexivity|].
      destruct (Hm p (or_introl eq_refl)) as [N1 N2]. unfold byte_decode_step at 1. rewrite (unmarked p N1 N2). cbn [bind].
      rewrite IH by (intros x Hx; apply Hm; right; exact Hx). rewrite <- app_assoc. reflexivity. }
    rewrite F. cbn [fst snd app]. unfold finish. destruct ps as [|p ps]; [reflexivity|]. destruct (compose_str (p :: ps)); reflexivity. }
  rewrite E. unfold compose_str. split.
  - intros bs H. apply fromhex_spells in H. destruct ps as [|p ps]; [cbn in H; injection H as <-; reflexivity|]. rewrite H. reflexivity.
  - intros H. destruct ps as [|p ps]; [destruct (H [] spells_end)|]. destruct (fromhex (concat (p :: ps))) as [bs|] eqn:X; [|reflexivity].
    apply fromhex_spells in X. destruct (H bs X).
Qed.
