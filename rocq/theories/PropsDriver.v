(** Property theorems about learn_vocab and the tool nlcodec-learn (C88-C94). *)
From Coq Require Import Strings.String.
From Verif Require Import Py PyStr PyLemmas StrSpec PyStrProofs Utf8Model JsonModel JsonProofs CodecModel CodecSpec
     VocabFileModel VocabSpec VocabFileProofs LearnModel ArithModel LearnSpec LearnProofs DriverModel DriverSpec DriverProofs DriverEnd
     LearnBpeModel BpeSpec LearnBpeResults PropsCodec PropsBpe.
Local Open Scope Z_scope.
Local Open Scope list_scope.

(** Two runs of Spark for the examples. *)
Definition sp_plain : counting := MkCounting (nodup str_dec) (fun l => l) (fun l => l).
Definition sp_back : counting := MkCounting (fun l => rev (nodup str_dec l)) (@rev _) (@rev _).
Lemma sp_plain_ok : spark_counting sp_plain.
Proof. split; [intros l; split; [apply NoDup_nodup|intros r; apply nodup_In]|]. split; intros l; apply Permutation_refl. Qed.
Lemma sp_back_ok : spark_counting sp_back.
Proof.
  split; [intros l; split; [apply NoDup_rev, NoDup_nodup|intros r; cbn; rewrite <- in_rev; apply nodup_In]|].
  split; intros l; apply Permutation_sym, Permutation_rev.
Qed.
Definition no_files : files := MkFiles None None None.

(** *** C88: the counts of word_counts are exact. Full statement: for any files, the words and characters of
    their lines with their numbers of occurrences, and the number of lines. It holds for at least one line
    and no word '<!S!>'. Missing: the other inputs, where it is false. *)
Theorem C88_counts_partial : forall sp texts dedup, spark_counting sp -> texts <> [] ->
  exists rows, counted_rows dedup texts rows /\ forall wss, Forall2 words_of rows wss -> rows <> [] -> ~ In SENT_TAG (concat wss) ->
  exists words chars, word_counts sp texts dedup = Ok (words, chars, Z.of_nat (length rows)) /\
    counts (concat wss) words /\ counts (letters (concat wss)) chars.
Proof. exact word_counts_plain. Qed.
(* What happens in general: the tag is never counted as a word, and each of its occurrences counts as a line. *)
Theorem C88_outcome : forall sp texts dedup, spark_counting sp -> texts <> [] ->
  exists rows, counted_rows dedup texts rows /\ forall wss, Forall2 words_of rows wss ->
  match word_counts sp texts dedup with
  | Ok (words, chars, n) =>
      let toks := filter (fun w => negb (str_eqb w SENT_TAG)) (concat wss) in
      rows <> [] /\ counts toks words /\ counts (letters toks) chars /\ n = Z.of_nat (length rows) + occurrences SENT_TAG (concat wss)
  | Raise e => rows = [] /\ e = KeyError
  end.
Proof. exact word_counts_spec. Qed.
Example C88_ex : Forall2 words_of [lit "b a b"; lit " a"] [[lit "b"; lit "a"; lit "b"]; [lit "a"]] /\
  ~ In SENT_TAG (concat [[lit "b"; lit "a"; lit "b"]; [lit "a"]]) /\
  word_counts sp_plain [[lit "b a b"]; [lit " a"]] false = Ok ([(lit "b", 2); (lit "a", 2)], [(lit "b", 2); (lit "a", 2)], 2).
Proof.
  split; [repeat constructor; apply words_of_iff; reflexivity|]. split; [|vm_compute; reflexivity].
  cbn [concat app]. intros H. repeat (destruct H as [H|H]; [revert H; vm_compute; discriminate|]). exact H.
Qed.
Theorem C88_counts_refuted : exists texts words chars n,
  Forall2 words_of (concat texts) [[lit "a"; lit "<!S!>"; lit "b"]] /\
  word_counts sp_plain texts false = Ok (words, chars, n) /\ n = 2 /\ ~ In (lit "<!S!>") (map fst words).
Proof.
  exists [[lit "a <!S!> b"]], [(lit "a", 1); (lit "b", 1)], [(lit "a", 1); (lit "b", 1)], 2.
  split; [repeat constructor; apply words_of_iff; reflexivity|]. split; [vm_compute; reflexivity|]. split; [reflexivity|].
  intros H. repeat (destruct H as [H|H]; [revert H; vm_compute; discriminate|]). exact H.
Qed.
Theorem C88_empty_refuted : forall sp dedup, spark_counting sp -> word_counts sp [[]] dedup = Raise KeyError.
Proof.
  intros sp dedup H. destruct (word_counts_spec sp [[]] dedup H ltac:(discriminate)) as (rows & Hr & G).
  assert (E : rows = []).
  { unfold counted_rows in Hr. destruct dedup; [|exact Hr]. destruct rows as [|r rows]; [reflexivity|].
    destruct (proj1 (proj2 Hr r) (or_introl eq_refl)) as (t & [<-|[]] & []). }
  subst rows. specialize (G [] (Forall2_nil _)). destruct (word_counts sp [[]] dedup) as [[[words chars] n]|e]; [destruct G; congruence|].
  destruct G as [_ ->]. reflexivity.
Qed.

(** *** C89: learning with nlcodec-learn is learning from the text. Full statement: at the levels word, bpe and
    subword the model file and outcome are those of learn_vocab on the counted lines. It holds up to the order
    of the words: they are those of learn_vocab on a text with the same words and number of lines (for at
    least one line and no word '<!S!>'). Missing: the same order of words, for which it is false. *)
Theorem C89_as_text_partial : forall A orders version now sp fs texts level vs mf cov mco dedup,
  level = lit "word" \/ level = lit "bpe" \/ level = lit "subword" ->
  spark_counting sp -> texts <> [] -> f_words fs = None ->
  exists rows, counted_rows dedup texts rows /\ forall wss, Forall2 words_of rows wss -> rows <> [] -> ~ In SENT_TAG (concat wss) ->
  exists data wss', length data = length rows /\ Forall2 words_of data wss' /\ Permutation (concat wss) (concat wss') /\
    let r := learn_vocab A orders version now data level true vs mf false cov mco in
    let m := learn_main A orders version now sp fs texts level vs mf cov mco dedup in
    f_model (fst m) = match fst r with Some b => Some b | None => f_model fs end /\
    snd m = match snd r with Ok _ => None | Raise e => Some e end.
Proof. exact learn_main_text. Qed.
Example C89_ex : exists bytes s, f_model (fst (learn_main arithQ as_is (lit "1") (lit "0") sp_plain no_files [[lit "ab ab"; lit "abc"]] (lit "bpe") 10 None None 1 false)) = Some bytes /\
  snd (learn_main arithQ as_is (lit "1") (lit "0") sp_plain no_files [[lit "ab ab"; lit "abc"]] (lit "bpe") 10 None None 1 false) = None /\
  load_scheme bytes = Ok s /\ map t_name (skipn 6 (s_table s)) = [lit "a"; lit "b"; lit "c"; lit "ab"].
Proof.
  eexists. eexists. split; [vm_compute; reflexivity|]. split; [vm_compute; reflexivity|]. split; vm_compute; reflexivity.
Qed.
(* two equally frequent words and room for one *)
Theorem C89_as_text_refuted : exists sp texts direct bytes s,
  spark_counting sp /\
  snd (learn_vocab arithQ as_is (lit "1") (lit "0") (concat texts) (lit "word") false 7 None false None 95) = Ok direct /\
  f_model (fst (learn_main arithQ as_is (lit "1") (lit "0") sp no_files texts (lit "word") 7 None None 95 false)) = Some bytes /\
  load_scheme bytes = Ok s /\ map t_name (skipn 6 direct) = [lit "a"] /\ map t_name (skipn 6 (s_table s)) = [lit "b"].
Proof.
  exists sp_back, [[lit "a b"]]. eexists. eexists. eexists. split; [exact sp_back_ok|].
  split; [vm_compute; reflexivity|]. split; [vm_compute; reflexivity|]. split; [vm_compute; reflexivity|]. split; vm_compute; reflexivity.
Qed.

(** *** C90: at the levels word and char, nlcodec-learn without de-duplication gives the vocabulary that learn_vocab gives for the
    same lines. Full statement: the loaded model has the same table. It holds up to the order of equally
    frequent types, and but for the frequency of the mark at level char, which lacks the gaps between words.
    Missing: those two differences (C89_as_text_refuted, C90_alike_refuted). *)
Theorem C90_alike_partial : forall A orders version now sp fs texts wss level vs mf cov mco,
  scalars version -> scalars now -> spark_counting sp -> level = lit "word" \/ level = lit "char" ->
  (if str_eqb level (lit "char") then f_chars fs else f_words fs) = None ->
  concat texts <> [] -> Forall2 words_of (concat texts) wss -> ~ In SENT_TAG (concat wss) -> (forall l, In l (concat texts) -> scalars l) ->
  let m := learn_main A orders version now sp fs texts level vs mf cov mco false in
  match snd (learn_vocab A orders version now (concat texts) level false vs mf false cov mco) with
  | Raise e => snd m = Some e
  | Ok direct => exists bytes s, snd m = None /\ f_model (fst m) = Some bytes /\ load_scheme bytes = Ok s /\
      same_but_ties direct (s_table s) /\
      (forall i, (i < 6)%nat -> (level = lit "char" -> i <> 5%nat) -> nth_error direct i = nth_error (s_table s) i) /\
      (level = lit "char" -> exists a b, nth_error direct 5 = Some a /\ nth_error (s_table s) 5 = Some b /\ mass a = mass b + gaps wss) /\
      (NoDup (map snd (nonres (fst (term_frequencies (if str_eqb level (lit "char") then KChar else KWord) (concat texts))))) -> skipn 6 direct = skipn 6 (s_table s))
  end.
Proof. exact learn_main_alike. Qed.
Definition ex_scalars (l : list str) : bool := forallb (forallb is_scalar) l.
Example C90_ex : Forall2 words_of [lit "aa b aa"; lit "c"] [[lit "aa"; lit "b"; lit "aa"]; [lit "c"]] /\
  ~ In SENT_TAG (concat [[lit "aa"; lit "b"; lit "aa"]; [lit "c"]]) /\ ex_scalars [lit "aa b aa"; lit "c"] = true /\
  (exists t, snd (learn_vocab arithQ as_is (lit "1") (lit "0") [lit "aa b aa"; lit "c"] (lit "char") false 0 (Some 1) false None 95) = Ok t /\
     entries (skipn 6 t) = [(lit "a", 4); (lit "b", 1); (lit "c", 1)]).
Proof.
  split; [repeat constructor; apply words_of_iff; reflexivity|]. split; [|split; [reflexivity|eexists; split; vm_compute; reflexivity]].
  cbn [concat app]. intros H. repeat (destruct H as [H|H]; [revert H; vm_compute; discriminate|]). exact H.
Qed.
(* level char: the mark is seen twice in the text, and never in the statistics *)
Theorem C90_alike_refuted : exists texts direct bytes s a b,
  snd (learn_vocab arithQ as_is (lit "1") (lit "0") (concat texts) (lit "char") false 0 (Some 1) false None 95) = Ok direct /\
  f_model (fst (learn_main arithQ as_is (lit "1") (lit "0") sp_plain no_files texts (lit "char") 0 (Some 1) None 95 false)) = Some bytes /\
  load_scheme bytes = Ok s /\ nth_error direct 5 = Some a /\ nth_error (s_table s) 5 = Some b /\ t_freq a = 2 /\ t_freq b <= 0.
Proof.
  exists [[lit "aa b aa"]]. do 5 eexists.
  split; [vm_compute; reflexivity|]. split; [vm_compute; reflexivity|]. split; [vm_compute; reflexivity|].
  split; [vm_compute; reflexivity|]. split; [vm_compute; reflexivity|]. split; vm_compute; [reflexivity|discriminate].
Qed.

(** *** C91: a model written by learn_vocab loads with the table it returned. Full statement: for every input.
    Missing: class labels with tabs, line breaks or lone surrogates, and no labels at all, where it is false. *)
Theorem C91_reload_partial : forall A orders version now inp level k vs mf cov mco table,
  scalars version -> scalars now -> iteration_orders orders -> dget str_eqb level REGISTRY = Some k ->
  (forall l, In l inp -> scalars l) ->
  (k = KClass -> inp <> [] /\ forall l lab, In l inp -> trimmed l lab -> plain_text lab) ->
  snd (learn_vocab A orders version now inp level false vs mf false cov mco) = Ok table ->
  exists bytes s, learn_vocab A orders version now inp level true vs mf false cov mco = (Some bytes, Ok table) /\
    load_scheme bytes = Ok s /\ s_kind s = k /\ s_table s = table.
Proof. exact learn_vocab_reload. Qed.
Example C91_ex : ex_scalars [lit "ab ab"; lit "abc"] = true /\ dget str_eqb (lit "subword") REGISTRY = Some KBpe /\
  exists t, snd (learn_vocab arithQ as_is (lit "1") (lit "0") [lit "ab ab"; lit "abc"] (lit "subword") false 10 None false None 95) = Ok t /\
    map t_name (skipn 6 t) = [lit "a"; lit "b"; lit "c"].
Proof. split; [reflexivity|]. split; [reflexivity|]. eexists. split; vm_compute; reflexivity. Qed.
Theorem C91_reload_refuted : exists inp bytes table,
  learn_vocab arithQ as_is (lit "1") (lit "0") inp (lit "class") true 0 None false None 95 = (Some bytes, Ok table) /\
  load_scheme bytes = Raise ValueError.
Proof. exists [(lit "a" ++ [9%N] ++ lit "b")%list]. eexists. eexists. split; vm_compute; reflexivity. Qed.

Theorem C91_unknown_level : forall A orders version now inp level model vs mf tfs cov mco,
  ~ In level [lit "char"; lit "word"; lit "bpe"; lit "subword"; lit "class"; lit "byte"] ->
  learn_vocab A orders version now inp level model vs mf tfs cov mco = (None, Raise KeyError).
Proof.
  intros A orders version now inp level model vs mf tfs cov mco H. unfold learn_vocab.
  destruct (dget str_eqb level REGISTRY) as [k|] eqn:E; [|reflexivity]. exfalso. apply H.
  apply (dget_In str_eqb str_eqb_eq) in E. apply (in_map fst) in E. exact E.
Qed.
Example C91_unknown_ex : ~ In (lit "words") [lit "char"; lit "word"; lit "bpe"; lit "subword"; lit "class"; lit "byte"].
Proof. intros H. repeat (destruct H as [H|H]; [revert H; vm_compute; discriminate|]). exact H. Qed.

(** *** C92: types below the least frequency are left out. Full statement: at every level, with the defaults
    1 at level word and 20 elsewhere for a missing or non-positive value. It holds at the levels word and char.
    Missing: bpe and the other levels, where the value has no effect (C92_ignored, C92_min_freq_refuted). *)
Theorem C92_min_freq_partial : forall A orders version now data level model vs mf cov mco table t,
  level = lit "word" \/ level = lit "char" ->
  snd (learn_vocab A orders version now data level model vs mf false cov mco) = Ok table -> In t (skipn 6 table) ->
  (forall m, mf = Some m -> 1 <= m -> m <= t_freq t) /\
  (mf = None \/ (exists m, mf = Some m /\ m <= 0) -> (if str_eqb level (lit "word") then 1 else 20) <= t_freq t).
Proof.
  intros A orders version now data level model vs mf cov mco table t Hl H Ht.
  pose proof (learn_vocab_min A orders version now data level model vs mf cov mco table Hl H t Ht) as G. unfold effective_min_freq in G. split.
  - intros m -> Hm. destruct (Z.eqb_spec m 0); [lia|]. destruct (Z.ltb_spec m 1); [lia|]. exact G.
  - intros [->|(m & -> & Hm)]; [exact G|]. destruct (Z.ltb_spec m 1); [|lia]. rewrite Bool.orb_true_r in G. exact G.
Qed.
Theorem C92_ignored : forall A orders version now data level model vs mf mf' cov mco tfs,
  level <> lit "word" -> level <> lit "char" ->
  learn_vocab A orders version now data level model vs mf tfs cov mco = learn_vocab A orders version now data level model vs mf' tfs cov mco.
Proof. exact learn_vocab_ignores. Qed.
Example C92_ex : exists t, snd (learn_vocab arithQ as_is (lit "1") (lit "0") [lit "a b a c b a"] (lit "word") false 0 (Some 2) false None 95) = Ok t /\
  entries (skipn 6 t) = [(lit "a", 3); (lit "b", 2)].
Proof. eexists. split; vm_compute; reflexivity. Qed.
Theorem C92_min_freq_refuted : exists data table t,
  snd (learn_vocab arithQ as_is (lit "1") (lit "0") data (lit "bpe") false 10 (Some 5) false None 1) = Ok table /\
  In t (skipn 6 table) /\ t_freq t = 1.
Proof.
  exists [lit "ab ab"; lit "abc"]. eexists. eexists. split; [vm_compute; reflexivity|]. split; [right; right; left; reflexivity|reflexivity].
Qed.

(** *** C93: a second run of nlcodec-learn reuses the statistics of the first. False: it always ends with a
    TypeError, at whatever level. What holds is that it damages nothing. *)
Theorem C93_rerun_refuted : forall A orders version now now' sp sp' fs texts texts' level level' vs vs' mf mf' cov cov' mco mco' dedup dedup',
  let m := learn_main A orders version now sp fs texts level vs mf cov mco dedup in
  snd m = None ->
  snd (learn_main A orders version now' sp' (fst m) texts' level' vs' mf' cov' mco' dedup') = Some TypeError.
Proof.
  intros. assert (H0 : f_words (fst m) <> None /\ f_chars (fst m) <> None).
  { unfold m in *. unfold learn_main in *. destruct (if str_eqb level (lit "char") then f_chars fs else f_words fs); [discriminate H|].
    destruct (word_counts sp texts dedup) as [[[words chars] n]|e]; [|discriminate H].
    match goal with |- context [learn_vocab ?A ?b ?c ?d ?e ?f ?g ?h ?i ?j ?k ?l] => destruct (learn_vocab A b c d e f g h i j k l) as [b0 r] end.
    cbn. split; discriminate. }
  clearbody m. destruct H0 as [H1 H2]. unfold learn_main. destruct (str_eqb level' (lit "char")).
  - destruct (f_chars (fst m)); [reflexivity|congruence].
  - destruct (f_words (fst m)); [reflexivity|congruence].
Qed.
Theorem C93_rerun_partial : forall A orders version now sp fs texts level vs mf cov mco dedup,
  (if str_eqb level (lit "char") then f_chars fs else f_words fs) <> None ->
  fst (learn_main A orders version now sp fs texts level vs mf cov mco dedup) = fs.
Proof.
  intros. unfold learn_main. destruct (if str_eqb level (lit "char") then f_chars fs else f_words fs); [reflexivity|congruence].
Qed.
Theorem C93_no_lines : forall A orders version now sp fs texts level vs mf cov mco dedup, spark_counting sp ->
  (if str_eqb level (lit "char") then f_chars fs else f_words fs) = None -> concat texts = [] ->
  learn_main A orders version now sp fs texts level vs mf cov mco dedup = (fs, Some match texts with [] => IndexError | _ => KeyError end).
Proof. exact learn_main_no_lines. Qed.
Example C93_ex : snd (learn_main arithQ as_is (lit "1") (lit "0") sp_plain no_files [[lit "ab ab"; lit "abc"]] (lit "word") 0 None None 95 true) = None.
Proof. vm_compute. reflexivity. Qed.

(** *** C94: at level class nlcodec-learn learns the labels of the lines. Full statement: the model is that of
    learn_vocab on the lines. It holds when every label is one word other than '<!S!>'. Missing: labels of several words, where
    it is false. *)
Theorem C94_labels_partial : forall A orders version now sp fs texts labels vs mf cov mco,
  spark_counting sp -> f_words fs = None -> concat texts <> [] ->
  Forall2 (fun l w => words_of l [w]) (concat texts) labels -> ~ In SENT_TAG labels ->
  let r := learn_vocab A orders version now (concat texts) (lit "class") true vs mf false cov mco in
  let m := learn_main A orders version now sp fs texts (lit "class") vs mf cov mco false in
  f_model (fst m) = match fst r with Some b => Some b | None => f_model fs end /\
  snd m = match snd r with Ok _ => None | Raise e => Some e end.
Proof. exact learn_main_class. Qed.
Example C94_ex : Forall2 (fun l w => words_of l [w]) [lit "good"; lit " bad "; lit "good"] [lit "good"; lit "bad"; lit "good"] /\
  ~ In SENT_TAG [lit "good"; lit "bad"; lit "good"].
Proof.
  split; [repeat constructor; apply words_of_iff; reflexivity|].
  intros H. repeat (destruct H as [H|H]; [revert H; vm_compute; discriminate|]). exact H.
Qed.
Theorem C94_labels_refuted : exists texts direct bytes s,
  snd (learn_vocab arithQ as_is (lit "1") (lit "0") (concat texts) (lit "class") false 0 None false None 95) = Ok direct /\
  map t_name direct = [lit "very good"] /\
  f_model (fst (learn_main arithQ as_is (lit "1") (lit "0") sp_plain no_files texts (lit "class") 0 None None 95 false)) = Some bytes /\
  load_scheme bytes = Ok s /\ map t_name (s_table s) = [lit "good"; lit "very"].
Proof.
  exists [[lit "very good"]]. do 3 eexists. split; [vm_compute; reflexivity|]. split; [vm_compute; reflexivity|].
  split; [vm_compute; reflexivity|]. split; [vm_compute; reflexivity|]. vm_compute; reflexivity.
Qed.

Print Assumptions C88_counts_partial.
Print Assumptions C88_outcome.
Print Assumptions C88_counts_refuted.
Print Assumptions C88_empty_refuted.
Print Assumptions C89_as_text_partial.
Print Assumptions C89_as_text_refuted.
Print Assumptions C90_alike_partial.
Print Assumptions C90_alike_refuted.
Print Assumptions C91_reload_partial.
Print Assumptions C91_reload_refuted.
Print Assumptions C91_unknown_level.
Print Assumptions C92_min_freq_partial.
Print Assumptions C92_ignored.
Print Assumptions C92_min_freq_refuted.
Print Assumptions C93_rerun_refuted.
Print Assumptions C93_rerun_partial.
Print Assumptions C93_no_lines.
Print Assumptions C94_labels_partial.
Print Assumptions C94_labels_refuted.
