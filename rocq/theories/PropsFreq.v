(** Property theorems about nlcodec-freq and learning from its files (C110-C112). *)
From Coq Require Import Strings.String QArith.
From Verif Require Import Py PyStr PyLemmas StrSpec PyStrProofs Utf8Model JsonProofs CodecModel VocabFileModel LearnModel ArithModel LearnSpec
     VocabFileProofs DriverModel DriverSpec DriverEnd MainModel FreqModel FreqProofs FreqEnd.
Local Open Scope Z_scope.
Local Open Scope list_scope.

Definition as_is : nat -> list nat -> list nat := fun _ l => l.
Definition distinct (l : list str) : list str := fold_right (fun x d => if existsb (str_eqb x) d then d else x :: d) [] l.
Definition sp_one : counting := MkCounting distinct (fun l => l) (fun l => l).
Lemma sp_one_ok : spark_counting sp_one.
Proof.
  split; [|split; intros l; reflexivity]. cbn [distinct_rows sp_one]. induction l as [|x l [IH1 IH2]]; [split; [constructor|reflexivity]|].
  cbn [distinct fold_right]. fold (distinct l). destruct (existsb (str_eqb x) (distinct l)) eqn:E.
  - apply existsb_exists in E. destruct E as (y & Hy & E). apply str_eqb_eq in E. subst y. split; [exact IH1|].
    intros r. rewrite IH2. simpl. split; [auto|intros [<-|H]; [apply IH2, Hy|exact H]].
  - split; [constructor; [|exact IH1]|intros r; simpl; rewrite IH2; reflexivity].
    intros Hx. assert (F : existsb (str_eqb x) (distinct l) = true) by (apply existsb_exists; exists x; split; [exact Hx|apply str_eqb_refl]). congruence.
Qed.
Definition learn_tfs (level : string) (vs : Z) (mf : option Z) : options arithQ :=
  MkOptions (A := arithQ) (lit "learn") [] true false vs (Some (lit level)) mf None 95.
Definition no_stats := MkFreqFiles None None.
Definition ex_texts : list (list str) := [[lit "b a a"; lit "c"]; [lit "a  b"; lit "c"]].

(** *** C110: frequencies first, then the vocabulary. Full statement: for every input. It holds for inputs without
    the word <!S!>, which nlcodec-freq uses for itself (C88). *)
Theorem C110_as_text_partial : forall A orders version now sp old texts ndd model (o : options A) level,
  o_task o = lit "learn" -> o_level o = Some level -> level = lit "word" \/ level = lit "bpe" \/ level = lit "subword" -> o_term_freqs o = true ->
  spark_counting sp -> texts <> [] -> (forall t l, In t texts -> In l t -> scalars l) ->
  exists rows, counted_rows (negb ndd) texts rows /\ forall wss, Forall2 words_of rows wss -> rows <> [] -> ~ In SENT_TAG (concat wss) ->
  exists t bytes data wss', freq_main sp old (Some texts) true false ndd = (MkFreqFiles (Some t) (q_chars old), None) /\ utf8_encode t = Ok bytes /\
    length data = length rows /\ Forall2 words_of data wss' /\ Permutation (concat wss) (concat wss') /\
    let r := learn_vocab A orders version now data level true (o_vocab_size o) (o_min_freq o) false (o_coverage o) (o_min_co_ev o) in
    learn_file A orders version now model o bytes =
    MkRun (match fst r with Some b => Some b | None => model end) [] None (match snd r with Ok _ => None | Raise e => Some e end).
Proof. exact freq_learn_text. Qed.
(* At every level, and whatever the words, the two steps do what nlcodec-learn does. *)
Theorem C110_as_learn : forall A orders version now sp old texts ndd model (o : options A) level,
  o_task o = lit "learn" -> o_level o = Some level -> level <> [] -> o_term_freqs o = true ->
  spark_counting sp -> texts <> [] -> (forall t l, In t texts -> In l t -> scalars l) ->
  let f := freq_main sp old (Some texts) true true ndd in
  let m := learn_main A orders version now sp (MkFiles None None model) texts level (o_vocab_size o) (o_min_freq o) (o_coverage o) (o_min_co_ev o) (negb ndd) in
  match snd f with
  | Some e => e = KeyError /\ snd m = Some e /\ f_model (fst m) = model
  | None => exists t bytes, (if str_eqb level (lit "char") then q_chars (fst f) else q_words (fst f)) = Some t /\ utf8_encode t = Ok bytes /\
      learn_file A orders version now model o bytes = MkRun (f_model (fst m)) [] None (snd m)
  end.
Proof. exact freq_then_learn. Qed.
Example C110_ex : (forall t l, In t ex_texts -> In l t -> scalars l) /\
  exists t bytes b s, freq_main sp_one no_stats (Some ex_texts) true false false = (MkFreqFiles (Some t) None, None) /\ utf8_encode t = Ok bytes /\
    learn_file arithQ as_is (lit "1") (lit "0") None (learn_tfs "word" 0 (Some 2)) bytes = MkRun (Some b) [] None None /\
    load_scheme b = Ok s /\ map (fun r => (t_name r, t_freq r)) (skipn 6 (s_table s)) = [(lit "a", 3); (lit "b", 2)].
Proof.
  split.
  { intros t l Ht Hl. repeat (destruct Ht as [<-|Ht]; [repeat (destruct Hl as [<-|Hl]; [apply VocabFileProofs.lit_scalars|]); destruct Hl|]). destruct Ht. }
  do 4 eexists. do 20 try (split; [vm_compute; reflexivity|]). vm_compute; reflexivity.
Qed.
(* The word <!S!> is lost on the way. *)
Theorem C110_as_text_refuted : exists texts t bytes b s b' s',
  freq_main sp_one no_stats (Some texts) true false true = (MkFreqFiles (Some t) None, None) /\ utf8_encode t = Ok bytes /\
  learn_file arithQ as_is (lit "1") (lit "0") None (learn_tfs "word" 0 None) bytes = MkRun (Some b) [] None None /\
  fst (learn_vocab arithQ as_is (lit "1") (lit "0") (concat texts) (lit "word") true 0 None false None 95) = Some b' /\
  load_scheme b = Ok s /\ load_scheme b' = Ok s' /\
  map t_name (skipn 6 (s_table s)) = [lit "a"] /\ map t_name (skipn 6 (s_table s')) = [lit "a"; lit "<!S!>"].
Proof.
  exists [[lit "a <!S!>"; lit "a"]]. do 6 eexists. do 20 try (split; [vm_compute; reflexivity|]). vm_compute; reflexivity.
Qed.

(** *** C111: the statistics files left by nlcodec-learn can be given to nlcodec learn -tfs.  Full statement: as they
    are.  They are gzip files, and nlcodec reads its input as plain text: it fails for every gzip file and every level
    that reads its input.  What holds: their decompressed text gives the same model. *)
Theorem C111_again_partial : forall A orders version now sp texts level vs mf cov mco dedup model' (o : options A),
  o_task o = lit "learn" -> o_level o = Some level -> level <> [] -> o_term_freqs o = true ->
  o_vocab_size o = vs -> o_min_freq o = mf -> o_coverage o = cov -> o_min_co_ev o = mco ->
  spark_counting sp -> texts <> [] -> (forall t l, In t texts -> In l t -> scalars l) ->
  let m := learn_main A orders version now sp (MkFiles None None model') texts level vs mf cov mco dedup in
  snd m = None ->
  exists t bytes, (if str_eqb level (lit "char") then f_chars (fst m) else f_words (fst m)) = Some t /\ utf8_encode t = Ok bytes /\
    learn_file A orders version now model' o bytes = MkRun (f_model (fst m)) [] None None.
Proof. exact stats_again. Qed.
Theorem C111_gzip_refuted : forall A orders version now model (o : options A) level gz rest,
  gz = 31%N :: 139%N :: rest -> o_task o = lit "learn" -> o_level o = Some level -> 1 < o_min_co_ev o ->
  level = lit "word" \/ level = lit "char" \/ level = lit "bpe" \/ level = lit "class" ->
  learn_file A orders version now model o gz = MkRun model [] None (Some UnicodeError).
Proof.
  intros A orders version now model o level gz rest -> Ht Hl Hm Hlv. unfold learn_file. rewrite gzip_not_text, Hl.
  assert (K : exists k, dget str_eqb level REGISTRY = Some k /\ k <> KByte /\ level <> []).
  { destruct Hlv as [->|[->|[->| ->]]]; eexists; (split; [reflexivity|split; discriminate]). }
  destruct K as (k & Ek & Hk & Hne). rewrite Ek. destruct level as [|c level]; [congruence|].
  assert (Hmco : 1 < if str_eqb (c :: level) (lit "bpe") then o_min_co_ev o else DEF_MIN_CO_EV) by (destruct (str_eqb (c :: level) (lit "bpe")); [exact Hm|reflexivity]).
  destruct k; try reflexivity; [|congruence]. rewrite (proj2 (Z.gtb_lt _ _) Hmco). cbn [andb].
  destruct (Z.leb_spec (o_vocab_size o) 1); [reflexivity|]. rewrite (proj2 (Z.gtb_lt _ _)) by lia. reflexivity.
Qed.
(* Any input that is not utf-8: the checks of the options come first; the level byte never looks at it; else the
   decoding error ends the run, and the model is left alone. *)
Theorem C111_bad_bytes : forall A orders version now model (o : options A) bytes, utf8_strict bytes = Raise UnicodeError ->
  (o_level o = None \/ o_level o = Some [] -> learn_file A orders version now model o bytes = MkRun model [] None (Some AssertionError)) /\
  (forall level, o_level o = Some level -> level <> [] -> ~ In level [lit "char"; lit "word"; lit "bpe"; lit "subword"; lit "byte"; lit "class"] ->
     learn_file A orders version now model o bytes = MkRun model [] None (Some KeyError)) /\
  (o_level o = Some (lit "byte") -> learn_file A orders version now model o bytes = main A orders version now model (with_inp o [])) /\
  (o_level o = Some (lit "char") \/ o_level o = Some (lit "word") \/ o_level o = Some (lit "class") \/ o_level o = Some (lit "subword") ->
     learn_file A orders version now model o bytes = MkRun model [] None (Some UnicodeError)) /\
  (o_level o = Some (lit "bpe") -> learn_file A orders version now model o bytes =
     MkRun model [] None (Some (if (o_vocab_size o <=? 0) && (o_min_co_ev o <=? 1) then AssertionError else UnicodeError))).
Proof. exact bad_bytes. Qed.
Example C111_bad_ex : utf8_strict [97%N; 255%N] = Raise UnicodeError.
Proof. reflexivity. Qed.
Example C111_ex : exists words,
  f_words (fst (learn_main arithQ as_is (lit "1") (lit "0") sp_one (MkFiles None None None) ex_texts (lit "word") 0 None None 95 true)) = Some words /\
  snd (learn_main arithQ as_is (lit "1") (lit "0") sp_one (MkFiles None None None) ex_texts (lit "word") 0 None None 95 true) = None.
Proof. eexists. split; vm_compute; reflexivity. Qed.

(** *** C112: nlcodec-freq writes complete statistics, or leaves the files alone.  Full statement: for every run.
    A run that fails has emptied the files it was told to write. *)
Theorem C112_complete_partial : forall sp old texts wf cf ndd, spark_counting sp -> texts <> [] -> wf || cf = true ->
  exists rows, counted_rows (negb ndd) texts rows /\ forall wss, Forall2 words_of rows wss -> rows <> [] -> ~ In SENT_TAG (concat wss) ->
  exists q, freq_main sp old (Some texts) wf cf ndd = (q, None) /\
    (if wf then exists t m, q_words q = Some t /\ read_term_freqs (file_lines t) = Ok (m, Z.of_nat (length rows)) /\ counts (concat wss) m else q_words q = q_words old) /\
    (if cf then exists t m, q_chars q = Some t /\ read_term_freqs (file_lines t) = Ok (m, Z.of_nat (length rows)) /\ counts (letters (concat wss)) m else q_chars q = q_chars old).
Proof. exact freq_complete. Qed.
Example C112_ex : exists q t m n, freq_main sp_one (MkFreqFiles None (Some (lit "old"))) (Some ex_texts) true false false = (q, None) /\
  q_chars q = Some (lit "old") /\ q_words q = Some t /\ read_term_freqs (file_lines t) = Ok (m, n) /\ n = 3 /\ m = [(lit "a", 3); (lit "b", 2); (lit "c", 1)].
Proof. do 4 eexists. do 20 try (split; [vm_compute; reflexivity|]). vm_compute; reflexivity. Qed.
Theorem C112_failed_refuted : forall sp old inp wf cf ndd q e, freq_main sp old inp wf cf ndd = (q, Some e) ->
  (if wf then q_words q = Some [] else q_words q = q_words old) /\ (if cf then q_chars q = Some [] else q_chars q = q_chars old).
Proof.
  intros sp old inp wf cf ndd q e H. unfold freq_main in H.
  assert (G : q = MkFreqFiles (if wf then Some [] else q_words old) (if cf then Some [] else q_chars old)).
  { destruct (negb (wf || cf)); [congruence|]. destruct inp as [texts|]; [|congruence].
    destruct (word_counts sp texts (negb ndd)) as [[[words chars] n]|e']; congruence. }
  subst q. destruct wf, cf; split; reflexivity.
Qed.
(* When it fails: no output is named, no input is named, or the inputs have no line. *)
Theorem C112_failures : forall sp old inp wf cf ndd, spark_counting sp -> inp <> Some [] ->
  let e := snd (freq_main sp old inp wf cf ndd) in
  (wf || cf = false -> e = Some AssertionError) /\
  (wf || cf = true -> inp = None -> e = Some TypeError) /\
  (wf || cf = true -> forall texts, inp = Some texts -> concat texts = [] -> e = Some KeyError) /\
  (wf || cf = true -> forall texts, inp = Some texts -> concat texts <> [] -> e = None).
Proof. exact freq_failures. Qed.
Example C112_failed_ex : freq_main sp_one (MkFreqFiles (Some (lit "kept for long")) None) (Some [[]]) true false false = (MkFreqFiles (Some []) None, Some KeyError).
Proof. vm_compute. reflexivity. Qed.
Print Assumptions C110_as_text_partial.
Print Assumptions C110_as_learn.
Print Assumptions C110_as_text_refuted.
Print Assumptions C111_again_partial.
Print Assumptions C111_gzip_refuted.
Print Assumptions C111_bad_bytes.
Print Assumptions C112_complete_partial.
Print Assumptions C112_failed_refuted.
Print Assumptions C112_failures.
