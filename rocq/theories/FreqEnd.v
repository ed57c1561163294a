(** What the two steps nlcodec-freq and nlcodec learn -tfs amount to. *)
From Coq Require Import Strings.String.
From Verif Require Import Py PyStr PyLemmas StrSpec PyStrProofs Utf8Model JsonModel JsonProofs CodecModel
     VocabFileModel LearnModel LearnSpec LearnProofs LearnBpeModel DriverModel DriverSpec DriverProofs DriverEnd MainModel FreqModel FreqProofs.
Local Open Scope Z_scope.
Local Open Scope list_scope.

Lemma rows_scalar dedup texts rows : counted_rows dedup texts rows -> (forall t l, In t texts -> In l t -> scalars l) -> forall r, In r rows -> scalars r.
Proof.
  intros Hr Hsc r Hi. unfold counted_rows in Hr. destruct dedup.
  - destruct Hr as [_ Hr]. apply Hr in Hi. destruct Hi as (t & H1 & H2). eapply Hsc; eassumption.
  - subst rows. apply in_concat in Hi. destruct Hi as (t & H1 & H2). eapply Hsc; eassumption.
Qed.

Theorem freq_learn_text A orders version now sp old texts ndd model (o : options A) level :
  o_task o = lit "learn" -> o_level o = Some level -> level = lit "word" \/ level = lit "bpe" \/ level = lit "subword" -> o_term_freqs o = true ->
  spark_counting sp -> texts <> [] -> (forall t l, In t texts -> In l t -> scalars l) ->
  exists rows, counted_rows (negb ndd) texts rows /\ forall wss, Forall2 words_of rows wss -> rows <> [] -> ~ In SENT_TAG (concat wss) ->
  exists t bytes data wss', freq_main sp old (Some texts) true false ndd = (MkFreqFiles (Some t) (q_chars old), None) /\ utf8_encode t = Ok bytes /\
    length data = length rows /\ Forall2 words_of data wss' /\ Permutation (concat wss) (concat wss') /\
    let r := learn_vocab A orders version now data level true (o_vocab_size o) (o_min_freq o) false (o_coverage o) (o_min_co_ev o) in
    learn_file A orders version now model o bytes =
    MkRun (match fst r with Some b => Some b | None => model end) [] None (match snd r with Ok _ => None | Raise e => Some e end).
Proof.
  intros Ht Hl Hlv Htf Hs Hx Hsc.
  destruct (word_counts_plain sp texts (negb ndd) Hs Hx) as (rows & Hr & H). exists rows. split; [exact Hr|].
  intros wss Hw Hne Hno. destruct (H wss Hw Hne Hno) as (words & chars & E & Hc & _).
  assert (Hsr := rows_scalar _ _ _ Hr Hsc).
  assert (Hn : (0 < length rows)%nat) by (destruct rows; [congruence|simpl; lia]).
  assert (Hp : forall w f, In (w, f) words -> is_word w /\ 0 < f).
  { intros w f Hi. split; [|eapply counts_positive; eassumption]. eapply words_are_words; [exact Hw|]. apply Hc. apply (in_map fst) in Hi. exact Hi. }
  set (t := write_stats words [(lit "line_count", JInt (Z.of_nat (length rows)))]).
  assert (Hst : scalars t).
  { apply stats_scalars. intros w f Hi. apply (in_map fst) in Hi. apply Hc in Hi. eapply words_scalar; [exact Hw|exact Hsr|exact Hi]. }
  destruct (encodable t Hst) as (bytes & Eb).
  exists t, bytes, (as_text (sorted_desc snd words) (length rows)), (spread (sorted_desc snd words) :: repeat [] (length rows - 1)).
  split; [unfold freq_main; cbn [orb negb]; rewrite E; reflexivity|]. split; [exact Eb|].
  split; [unfold as_text; cbn [length]; rewrite repeat_length; lia|]. split.
  { apply as_text_words. intros w f Hi. apply (Hp w f). eapply Permutation_in; [apply sorted_desc_perm|exact Hi]. }
  split.
  { cbn [concat]. rewrite concat_repeat_nil, app_nil_r. symmetry. apply counts_spread_perm, sorted_counts, Hc. }
  cbv zeta. unfold learn_file. rewrite (strict_back t bytes Eb).
  rewrite (main_learn A orders version now model (with_inp o t) level) by (try assumption; destruct Hlv as [->|[->| ->]]; discriminate).
  unfold with_inp. cbn [o_inp o_vocab_size o_min_freq o_term_freqs o_coverage o_min_co_ev]. rewrite Htf. unfold t.
  rewrite (learn_vocab_stats A orders version now words (length rows) level true _ _ _ _ Hlv (proj1 Hc) Hp Hn).
  destruct (learn_vocab A orders version now (as_text (sorted_desc snd words) (length rows)) level true (o_vocab_size o) (o_min_freq o) false (o_coverage o) (o_min_co_ev o)) as [b r]. reflexivity.
Qed.

(** What nlcodec-learn left beside its model, read again. *)
Theorem stats_again A orders version now sp texts level vs mf cov mco dedup model' (o : options A) :
  o_task o = lit "learn" -> o_level o = Some level -> level <> [] -> o_term_freqs o = true ->
  o_vocab_size o = vs -> o_min_freq o = mf -> o_coverage o = cov -> o_min_co_ev o = mco ->
  spark_counting sp -> texts <> [] -> (forall t l, In t texts -> In l t -> scalars l) ->
  let m := learn_main A orders version now sp (MkFiles None None model') texts level vs mf cov mco dedup in
  snd m = None ->
  exists t bytes, (if str_eqb level (lit "char") then f_chars (fst m) else f_words (fst m)) = Some t /\ utf8_encode t = Ok bytes /\
    learn_file A orders version now model' o bytes = MkRun (f_model (fst m)) [] None None.
Proof.
  intros Ht Hl Hne Htf <- <- <- <- Hs Hx Hsc. cbv zeta. intros Hm.
  pose proof (freq_then_learn A orders version now sp (MkFreqFiles None None) texts (negb dedup) model' o level Ht Hl Hne Htf Hs Hx Hsc) as H.
  cbv zeta in H. rewrite Bool.negb_involutive in H. rewrite Hm in H.
  destruct (snd (freq_main sp (MkFreqFiles None None) (Some texts) true true (negb dedup))) as [e|] eqn:E; [destruct H as (_ & H & _); discriminate H|].
  destruct H as (t & bytes & H1 & H2 & H3). exists t, bytes. split; [|split; assumption]. rewrite <- H1. clear - E.
  unfold freq_main, learn_main in *. cbn [orb negb f_words f_chars f_model] in *. rewrite Bool.negb_involutive in *.
  replace (if str_eqb level (lit "char") then @None str else None) with (@None str) by (destruct (str_eqb level (lit "char")); reflexivity).
  destruct (word_counts sp texts dedup) as [[[words chars] n]|e]; [|discriminate E].
  destruct (learn_vocab A orders version now _ level true (o_vocab_size o) (o_min_freq o) true (o_coverage o) (o_min_co_ev o)) as [b r]. reflexivity.
Qed.

Theorem freq_complete sp old texts wf cf ndd : spark_counting sp -> texts <> [] -> wf || cf = true ->
  exists rows, counted_rows (negb ndd) texts rows /\ forall wss, Forall2 words_of rows wss -> rows <> [] -> ~ In SENT_TAG (concat wss) ->
  exists q, freq_main sp old (Some texts) wf cf ndd = (q, None) /\
    (if wf then exists t m, q_words q = Some t /\ read_term_freqs (file_lines t) = Ok (m, Z.of_nat (length rows)) /\ counts (concat wss) m else q_words q = q_words old) /\
    (if cf then exists t m, q_chars q = Some t /\ read_term_freqs (file_lines t) = Ok (m, Z.of_nat (length rows)) /\ counts (letters (concat wss)) m else q_chars q = q_chars old).
Proof.
  intros Hs Hx Ho. destruct (word_counts_plain sp texts (negb ndd) Hs Hx) as (rows & Hr & H). exists rows. split; [exact Hr|].
  intros wss Hw Hne Hno. destruct (H wss Hw Hne Hno) as (words & chars & E & Hcw & Hcc).
  eexists. split; [unfold freq_main; rewrite Ho, E; reflexivity|]. cbn [q_words q_chars]. split.
  - destruct wf; [|reflexivity]. eexists. exists (sorted_desc snd words). split; [reflexivity|]. split; [|apply sorted_counts, Hcw].
    apply stats_read; [apply Hcw|]. intros w f Hi. eapply words_are_words; [exact Hw|]. apply Hcw. apply (in_map fst) in Hi. exact Hi.
  - destruct cf; [|reflexivity]. eexists. exists (sorted_desc snd chars). split; [reflexivity|]. split; [|apply sorted_counts, Hcc].
    apply stats_read; [apply Hcc|]. intros w f Hi. eapply letters_words; [exact Hw|]. apply Hcc. apply (in_map fst) in Hi. exact Hi.
Qed.

Theorem freq_failures sp old inp wf cf ndd : spark_counting sp -> inp <> Some [] ->
  let e := snd (freq_main sp old inp wf cf ndd) in
  (wf || cf = false -> e = Some AssertionError) /\
  (wf || cf = true -> inp = None -> e = Some TypeError) /\
  (wf || cf = true -> forall texts, inp = Some texts -> concat texts = [] -> e = Some KeyError) /\
  (wf || cf = true -> forall texts, inp = Some texts -> concat texts <> [] -> e = None).
Proof.
  intros Hs Hi. cbv zeta. unfold freq_main.
  split; [intros ->; reflexivity|]. split; [intros -> ->; reflexivity|].
  assert (G : forall texts, texts <> [] -> (concat texts = [] <-> exists e, word_counts sp texts (negb ndd) = Raise e) /\
                            (forall e, word_counts sp texts (negb ndd) = Raise e -> e = KeyError)).
  { intros texts Hx. destruct (word_counts_spec sp texts (negb ndd) Hs Hx) as (rows & Hr & H).
    specialize (H (map split rows)).
    assert (Hw : Forall2 words_of rows (map split rows)) by (clear; induction rows; constructor; [apply words_of_iff; reflexivity|assumption]).
    specialize (H Hw).
    assert (Hrc : rows = [] <-> concat texts = []).
    { unfold counted_rows in Hr. destruct (negb ndd); [|subst rows; reflexivity]. destruct Hr as [_ Hr]. split.
      - intros ->. destruct (concat texts) as [|x l] eqn:E; [reflexivity|].
        assert (Hin : In x (concat texts)) by (rewrite E; left; reflexivity). apply in_concat in Hin. destruct Hin as (t & H1 & H2).
        exfalso. apply (proj2 (Hr x)). exists t. auto.
      - intros E. destruct rows as [|r rows]; [reflexivity|]. exfalso. destruct (proj1 (Hr r) (or_introl eq_refl)) as (t & H1 & H2).
        assert (Hin : In r (concat texts)) by (apply in_concat; exists t; auto). rewrite E in Hin. exact Hin. }
    destruct (word_counts sp texts (negb ndd)) as [[[words chars] n]|e]; cbv zeta in H.
    - split; [|discriminate]. split; [|intros (e & He); discriminate He]. intros E. apply Hrc in E. tauto.
    - split; [|intros e' He; destruct H; congruence]. split; [exists e; reflexivity|]. intros _. apply Hrc. apply H. }
  split; intros Ho texts -> Hc; assert (Hx : texts <> []) by congruence; destruct (G texts Hx) as [G1 G2]; rewrite Ho; cbn [negb].
  - apply G1 in Hc. destruct Hc as (e & E). rewrite E, (G2 e E). reflexivity.
  - destruct (word_counts sp texts (negb ndd)) as [[[words chars] n]|e] eqn:E; [reflexivity|].
    exfalso. apply Hc, G1. exists e. reflexivity.
Qed.

Theorem bad_bytes A orders version now model (o : options A) bytes : utf8_strict bytes = Raise UnicodeError ->
  (o_level o = None \/ o_level o = Some [] -> learn_file A orders version now model o bytes = MkRun model [] None (Some AssertionError)) /\
  (forall level, o_level o = Some level -> level <> [] -> ~ In level [lit "char"; lit "word"; lit "bpe"; lit "subword"; lit "byte"; lit "class"] ->
     learn_file A orders version now model o bytes = MkRun model [] None (Some KeyError)) /\
  (o_level o = Some (lit "byte") -> learn_file A orders version now model o bytes = main A orders version now model (with_inp o [])) /\
  (o_level o = Some (lit "char") \/ o_level o = Some (lit "word") \/ o_level o = Some (lit "class") \/ o_level o = Some (lit "subword") ->
     learn_file A orders version now model o bytes = MkRun model [] None (Some UnicodeError)) /\
  (o_level o = Some (lit "bpe") -> learn_file A orders version now model o bytes =
     MkRun model [] None (Some (if (o_vocab_size o <=? 0) && (o_min_co_ev o <=? 1) then AssertionError else UnicodeError))).
Proof.
  intros E. unfold learn_file. rewrite E. split; [intros [-> | ->]; reflexivity|]. split.
  { intros level -> Hne Hn. destruct level as [|c level]; [contradiction|].
    replace (dget str_eqb (c :: level) REGISTRY) with (@None kind); [reflexivity|]. symmetry. unfold REGISTRY.
    assert (K : forall n, In n [lit "char"; lit "word"; lit "bpe"; lit "subword"; lit "byte"; lit "class"] -> str_eqb (c :: level) n = false).
    { intros n Hi. apply not_true_iff_false. intros H. apply str_eqb_eq in H. rewrite H in Hn. contradiction. }
    cbn [dget]. rewrite !K by (simpl; tauto). reflexivity. }
  split; [intros ->; reflexivity|]. split.
  { intros [-> | [-> | [-> | ->]]]; try reflexivity. change (dget str_eqb (lit "subword") REGISTRY) with (Some KBpe). change (str_eqb (lit "subword") (lit "bpe")) with false.
    cbv beta iota zeta. cbn [lit]. change (DEF_MIN_CO_EV >? 1) with true. cbn [andb].
    destruct (Z.leb_spec (o_vocab_size o) 1); [reflexivity|]. rewrite (proj2 (Z.gtb_lt _ _)) by lia. reflexivity. }
  intros ->. change (dget str_eqb (lit "bpe") REGISTRY) with (Some KBpe). change (str_eqb (lit "bpe") (lit "bpe")) with true.
  cbv beta iota zeta. cbn [lit]. destruct (Z.leb_spec (o_min_co_ev o) 1) as [H|H].
  - replace (o_min_co_ev o >? 1) with false by (symmetry; rewrite Z.gtb_ltb; apply Z.ltb_ge; exact H). cbn [andb]. rewrite andb_true_r.
    destruct (Z.leb_spec (o_vocab_size o) 0); [replace (o_vocab_size o >? 0) with false by (symmetry; rewrite Z.gtb_ltb; apply Z.ltb_ge; assumption); reflexivity|].
    rewrite (proj2 (Z.gtb_lt _ _)) by lia. reflexivity.
  - rewrite andb_false_r. replace (o_min_co_ev o >? 1) with true by (symmetry; apply Z.gtb_lt; lia). cbn [andb].
    destruct (Z.leb_spec (o_vocab_size o) 1); [reflexivity|]. rewrite (proj2 (Z.gtb_lt _ _)) by lia. reflexivity.
Qed.
