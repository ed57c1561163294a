(** Lemmas about FreqModel.v. *)
From Coq Require Import Strings.String.
From Verif Require Import Py PyStr PyLemmas StrSpec PyStrProofs Utf8Model Utf8Proofs JsonModel JsonProofs CodecModel NumProofs
     VocabFileModel VocabFileProofs LearnModel LearnSpec LearnProofs LearnBpeModel DriverModel DriverSpec DriverProofs DriverEnd MainModel FreqModel.
Local Open Scope Z_scope.
Local Open Scope list_scope.

(** ** reading strict utf-8 *)
Lemma strict_back s bs : utf8_encode s = Ok bs -> utf8_strict bs = Ok s.
Proof.
  intros H. pose proof (utf8_encode_spec s) as Hs. rewrite H in Hs.
  assert (E : scalars s /\ utf8_decode [0xD800%N] bs = s).
  { clear Hs. revert bs H. induction s as [|c s IH]; intros bs H.
    - cbn in H. injection H as <-. split; [constructor|reflexivity].
    - cbn [utf8_encode] in H. destruct (utf8_char c) as [b|] eqn:Ec; [|discriminate H].
      destruct (utf8_encode s) as [r|] eqn:Er; [|discriminate H]. cbn [bind] in H.
      assert (E0 : b ++ r = bs) by congruence. subst bs. destruct (IH r eq_refl) as [I1 I2].
      rewrite (utf8_decode_char _ c b r Ec), I2. split; [constructor; [|exact I1]|reflexivity].
      destruct (is_scalar c) eqn:Es; [reflexivity|]. apply utf8_char_none in Es. congruence. }
  destruct E as [E1 E2]. unfold utf8_strict. rewrite E2.
  replace (existsb (fun c => N.eqb c 0xD800) s) with false; [reflexivity|]. symmetry.
  apply Bool.not_true_is_false. intros Hx. apply existsb_exists in Hx. destruct Hx as (c & Hc & Ex). apply N.eqb_eq in Ex. subst c.
  unfold scalars in E1. rewrite Forall_forall in E1. specialize (E1 _ Hc). discriminate E1.
Qed.
Lemma gzip_not_text rest : utf8_strict (31%N :: 139%N :: rest) = Raise UnicodeError.
Proof. unfold utf8_strict. cbn [utf8_decode N.ltb N.compare Pos.compare Pos.compare_cont app existsb]. reflexivity. Qed.
Lemma encodable s : scalars s -> exists bs, utf8_encode s = Ok bs.
Proof.
  intros H. destruct (utf8_encode s) as [bs|e] eqn:E; [exists bs; reflexivity|].
  apply utf8_encode_raise in E. destruct E as (_ & c & Hc & Hs). unfold scalars in H. rewrite Forall_forall in H. rewrite (H c Hc) in Hs. discriminate Hs.
Qed.

(** ** statistics are text *)
Lemma printable_scalars s : Forall printable s -> scalars s.
Proof. intros H. eapply Forall_impl; [|exact H]. intros c Hc. unfold printable, is_scalar, is_surrogate in *. lia. Qed.
Lemma stats_scalars stats n : (forall w f, In (w, f) stats -> scalars w) -> scalars (write_stats stats [(lit "line_count", JInt n)]).
Proof.
  intros H. unfold write_stats, scalars. apply Forall_app. split; [constructor; [reflexivity|constructor]|].
  apply Forall_app. split.
  { apply printable_scalars, dumps_printable. cbn [fold_left fst snd].
    match goal with |- json_ok (JObj ?m) => assert (E : m = [(lit "types", JInt (Z.of_nat (length (sorted_desc snd stats))));
       (lit "tokens", JInt (zsum (map snd (sorted_desc snd stats)))); (lit "line_count", JInt n)]) by reflexivity end.
    rewrite E. apply json_ok_obj. split.
    - repeat constructor; simpl; intros Hi; repeat (destruct Hi as [Hi|Hi]; [discriminate Hi|]); exact Hi.
    - repeat constructor; apply lit_scalars. }
  apply Forall_app. split; [constructor; [reflexivity|constructor]|]. apply Forall_flat_map, Forall_forall. intros [w f] Hi. cbn [fst snd].
  apply Forall_app. split.
  { apply (H w f). eapply Permutation_in; [apply sorted_desc_perm|exact Hi]. }
  apply Forall_app. split; [constructor; [reflexivity|constructor]|]. apply Forall_app. split; [|constructor; [reflexivity|constructor]].
  apply printable_scalars, str_of_Z_printable.
Qed.

(** ** the two steps *)
Lemma main_learn A orders version now model (o : options A) level : o_task o = lit "learn" -> o_level o = Some level -> level <> [] ->
  main A orders version now model o =
  let (written, r) := learn_vocab A orders version now (file_lines (o_inp o)) level true (o_vocab_size o)
                        (o_min_freq o) (o_term_freqs o) (o_coverage o) (o_min_co_ev o) in
  MkRun (match written with Some b => Some b | None => model end) [] None (match r with Ok _ => None | Raise e => Some e end).
Proof. intros H1 H2 H3. unfold main. rewrite H1, H2. destruct level; [congruence|reflexivity]. Qed.
Lemma In_filter_letters (p : str -> bool) toks w : In w (letters (filter p toks)) -> In w (letters toks).
Proof.
  intros H. apply in_map_iff in H. destruct H as (c & <- & Hc). apply in_concat in Hc. destruct Hc as (u & Hu & Hc). apply filter_In in Hu.
  apply in_map_iff. exists c. split; [reflexivity|]. apply in_concat. exists u. split; [apply Hu|exact Hc].
Qed.
Theorem freq_then_learn A orders version now sp old texts ndd model (o : options A) level :
  o_task o = lit "learn" -> o_level o = Some level -> level <> [] -> o_term_freqs o = true ->
  spark_counting sp -> texts <> [] -> (forall t l, In t texts -> In l t -> scalars l) ->
  let f := freq_main sp old (Some texts) true true ndd in
  let m := learn_main A orders version now sp (MkFiles None None model) texts level (o_vocab_size o) (o_min_freq o) (o_coverage o) (o_min_co_ev o) (negb ndd) in
  match snd f with
  | Some e => e = KeyError /\ snd m = Some e /\ f_model (fst m) = model
  | None => exists t bytes, (if str_eqb level (lit "char") then q_chars (fst f) else q_words (fst f)) = Some t /\ utf8_encode t = Ok bytes /\
      learn_file A orders version now model o bytes = MkRun (f_model (fst m)) [] None (snd m)
  end.
Proof.
  intros Ht Hl Hne Htf Hs Hx Hsc. cbv zeta. unfold freq_main, learn_main. cbn [orb negb f_chars f_words f_model].
  destruct (word_counts_spec sp texts (negb ndd) Hs Hx) as (rows & Hr & H).
  pose (wss := map split rows). assert (Hw : Forall2 words_of rows wss) by (clear; unfold wss; induction rows; constructor; [apply words_of_iff; reflexivity|assumption]). specialize (H wss Hw).
  assert (Hsr : forall r, In r rows -> scalars r).
  { intros r Hi. unfold counted_rows in Hr. destruct (negb ndd).
    - destruct Hr as [_ Hr]. apply Hr in Hi. destruct Hi as (t & H1 & H2). eapply Hsc; eassumption.
    - subst rows. apply in_concat in Hi. destruct Hi as (t & H1 & H2). eapply Hsc; eassumption. }
  replace (if str_eqb level (lit "char") then @None str else None) with (@None str) by (destruct (str_eqb level (lit "char")); reflexivity).
  destruct (word_counts sp texts (negb ndd)) as [[[words chars] n]|e]; [|destruct H as [_ ->]; repeat split].
  cbv zeta in H. destruct H as (_ & Hcw & Hcc & _). cbn [snd fst q_words q_chars].
  set (wt := write_stats words [(lit "line_count", JInt n)]). set (ct := write_stats chars [(lit "line_count", JInt n)]).
  assert (Hsw : scalars wt).
  { apply stats_scalars. intros w f Hi. apply (in_map fst) in Hi. apply Hcw in Hi. apply filter_In in Hi. eapply words_scalar; [exact Hw|exact Hsr|apply Hi]. }
  assert (Hscc : scalars ct).
  { apply stats_scalars. intros w f Hi. apply (in_map fst) in Hi. apply Hcc in Hi. apply In_filter_letters in Hi. eapply letters_scalar; [exact Hw|exact Hsr|exact Hi]. }
  set (t := if str_eqb level (lit "char") then ct else wt).
  assert (Hst : scalars t) by (unfold t; destruct (str_eqb level (lit "char")); assumption).
  destruct (encodable t Hst) as (bytes & Eb). exists t, bytes. split; [unfold t; destruct (str_eqb level (lit "char")); reflexivity|]. split; [exact Eb|].
  unfold learn_file. rewrite (strict_back t bytes Eb). rewrite (main_learn A orders version now model (with_inp o t) level) by assumption.
  unfold with_inp. cbn [o_inp o_vocab_size o_min_freq o_term_freqs o_coverage o_min_co_ev]. rewrite Htf.
  destruct (learn_vocab A orders version now (file_lines t) level true (o_vocab_size o) (o_min_freq o) true (o_coverage o) (o_min_co_ev o)) as [b r].
  cbn [fst snd f_model]. reflexivity.
Qed.
