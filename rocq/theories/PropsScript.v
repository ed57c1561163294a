(** C113-C115: re-spelling Indic text (experimental/uxdx.py, experimental/unicode_fix.py) and spelling it back. *)
From Coq Require Import Strings.String.
From Verif Require Import Py PyStr PyLemmas CliSpec ScriptModel ScriptSpec ScriptProofs ScriptEnd.
Local Open Scope N_scope.
Local Open Scope list_scope.

(** *** C113: the expander of uxdx.py loses nothing.  Full statement: for every line.  A line that has the mark of the expander
    already loses it; these are the only such lines. *)
Theorem C113_line_partial : forall l, ~ In 0x22EE l -> ux_decode (ux_encode l) = l.
Proof. exact ux_id. Qed.
Theorem C113_line_exact : forall l, ux_decode (ux_encode l) = l <-> ~ In 0x22EE l.
Proof. exact ux_id_iff. Qed.
Theorem C113_line_refuted : exists l, ux_decode (ux_encode l) <> l.
Proof. exists [0x915; 0x22EE; 0x20]. vm_compute. discriminate. Qed.
Theorem C113_text_partial : forall text ls, lines_of text ls -> (forall l, In l ls -> ~ In 0x22EE l) -> ux_main (ux_main text false) true = unlines ls.
Proof. exact ux_text. Qed.
(* What the expanded line looks like: marks are all that is added, they stand between consonants, and they part all
   neighbouring consonants. These are the lines that contracting and expanding leaves alone. *)
Theorem C113_expanded : forall l, sparse (ux_encode l) /\ (~ In 0x22EE l -> marks_between (ux_encode l)) /\ ux_encode (ux_encode l) = ux_encode l.
Proof. intros l. split; [apply ux_sparse|]. split; [apply ux_marks|apply ux_idempotent]. Qed.
Theorem C113_contracted : forall l, ux_encode (ux_decode l) = l <-> sparse l /\ marks_between l.
Proof. exact ux_canonical. Qed.
(* The letters meant by consonants *)
Theorem C113_consonants : forall c, In c DEVANAGARI_CONSONANTS <-> 0x915 <= c <= 0x939 \/ 0x958 <= c <= 0x95F.
Proof. exact devanagari_consonants. Qed.
(* भगत and a word without neighbouring consonants *)
Example C113_ex : ux_encode [0x92D; 0x917; 0x924; 0x20; 0x915; 0x93E] = [0x92D; 0x22EE; 0x917; 0x22EE; 0x924; 0x20; 0x915; 0x93E] /\
  ux_decode [0x92D; 0x22EE; 0x917; 0x22EE; 0x924; 0x20; 0x915; 0x93E] = [0x92D; 0x917; 0x924; 0x20; 0x915; 0x93E].
Proof. split; vm_compute; reflexivity. Qed.
Example C113_text_ex : exists ls, lines_of [0x92D; 0x917; 10; 10; 0x924] ls /\ (forall l, In l ls -> ~ In 0x22EE l) /\
  ux_main [0x92D; 0x917; 10; 10; 0x924] false = [0x92D; 0x22EE; 0x917; 10; 10; 0x924; 10].
Proof.
  exists [[0x92D; 0x917]; []; [0x924]]. split; [|split; [|vm_compute; reflexivity]].
  - apply (Lo_lf [0x92D; 0x917]); [split; simpl; intuition discriminate|]. apply (Lo_lf []); [split; simpl; intuition discriminate|].
    apply Lo_last; [discriminate|split; simpl; intuition discriminate].
  - intros l Hl. simpl in Hl. destruct Hl as [<-|[<-|[<-|[]]]]; simpl; intuition discriminate.
Qed.

(** *** C114: AbugidaLang loses nothing.  Full statement: for every line.  The lines it restores are exactly those without its
    own marker, whose viramas join consonants or end words, and whose vowel signs do not begin words. *)
Theorem C114_line_exact : forall L l, script L ->
  (decode L (encode L l) = l <-> ~ In 0xE000 l /\ viramas_between_consonants L l /\ signs_inside_words L l).
Proof. exact spelled_back. Qed.
Theorem C114_line_partial : forall name l, In name [lit "hin"; lit "sanskrit"; lit "devanagari"; lit "hindi"] ->
  exists L, get_aubugida name = Ok L /\ script L /\
    (~ In 0xE000 l -> viramas_between_consonants L l -> signs_inside_words L l -> decode L (encode L l) = l).
Proof.
  intros name l Hn. exists hindi. split; [exact (hindi_ok name Hn)|]. split; [exact hindi_script|].
  intros H1 H2 H3. apply (spelled_back hindi l hindi_script). tauto.
Qed.
Theorem C114_text_partial : forall name text ls, In name [lit "hin"; lit "sanskrit"; lit "devanagari"; lit "hindi"] -> lines_of text ls ->
  (forall l, In l ls -> ~ In 0xE000 l /\ viramas_between_consonants hindi l /\ signs_inside_words hindi l) ->
  exists enc, fix_main text name false = Ok enc /\ fix_main enc name true = Ok (unlines ls).
Proof. exact fix_text. Qed.
(* The constructor accepts just the scripts in which no two vowels share a sign and no vowel is a consonant. *)
Theorem C114_constructor : forall vs cs iv vi,
  (NoDup (map snd vs) /\ (forall v, In v (map fst vs) -> ~ In v cs) -> make_lang vs cs iv vi = Ok (MkLang vs cs iv vi)) /\
  (~ (NoDup (map snd vs) /\ (forall v, In v (map fst vs) -> ~ In v cs)) -> make_lang vs cs iv vi = Raise AssertionError).
Proof. exact constructor_accepts. Qed.
Theorem C114_other_names : forall name text is_decode, ~ In name [lit "hin"; lit "sanskrit"; lit "devanagari"; lit "hindi"] ->
  fix_main text name is_decode = Raise AssertionError.
Proof.
  intros name text is_decode H. unfold fix_main, get_aubugida.
  destruct (existsb (str_eqb name) [lit "hin"; lit "sanskrit"; lit "devanagari"; lit "hindi"]) eqn:E; [|reflexivity].
  apply existsb_exists in E. destruct E as (x & Hx & E). apply str_eqb_eq in E. subst x. contradiction.
Qed.
(* A virama before a vowel, at the beginning, and doubled; a sign at the beginning; the marker *)
Theorem C114_line_refuted : exists L, get_aubugida (lit "hin") = Ok L /\
  decode L (encode L [0x915; 0x94D; 0x905]) <> [0x915; 0x94D; 0x905] /\
  decode L (encode L [0x94D; 0x915]) <> [0x94D; 0x915] /\
  decode L (encode L [0x915; 0x94D; 0x94D; 0x915]) <> [0x915; 0x94D; 0x94D; 0x915] /\
  decode L (encode L [0x93F; 0x915]) <> [0x93F; 0x915] /\
  decode L (encode L [0x915; 0xE000]) <> [0x915; 0xE000].
Proof. eexists. split; [reflexivity|]. do 4 (split; [vm_compute; discriminate|]). vm_compute. discriminate. Qed.
(* हिन्दी, and गए: the "known issue" in the header of the file does not occur *)
Example C114_ex : let l := [0x939; 0x93F; 0x928; 0x94D; 0x926; 0x940; 0x20; 0x917; 0x90F] in
  ~ In 0xE000 l /\ viramas_between_consonants hindi l /\ signs_inside_words hindi l /\
  encode hindi l = [0x939; 0x907; 0x928; 0x926; 0x908; 0x20; 0x917; 0x905; 0x90F; 0xE000] /\ decode hindi (encode hindi l) = l.
Proof.
  cbv zeta. assert (H : decode hindi (encode hindi [0x939; 0x93F; 0x928; 0x94D; 0x926; 0x940; 0x20; 0x917; 0x90F]) = [0x939; 0x93F; 0x928; 0x94D; 0x926; 0x940; 0x20; 0x917; 0x90F])
    by (vm_compute; reflexivity).
  destruct (proj1 (spelled_back hindi _ hindi_script) H) as (H1 & H2 & H3). do 3 (split; [assumption|]). split; [vm_compute; reflexivity|exact H].
Qed.
Example C114_text_ex : fix_main [0x917; 0x90F; 10; 0x915] (lit "hindi") false = Ok [0x917; 0x905; 0x90F; 0xE000; 10; 0x915; 0x905; 10] /\
  fix_main [0x917; 0x905; 0x90F; 0xE000; 10; 0x915; 0x905; 10] (lit "hin") true = Ok [0x917; 0x90F; 10; 0x915; 10].
Proof. split; vm_compute; reflexivity. Qed.

(** *** C115: AbugidaLangLite loses nothing.  Full statement: for every line.  The lines it restores are exactly those whose
    viramas join consonants or end words, and with no implicit vowel written after a consonant. *)
Theorem C115_line_exact : forall L l, script L ->
  (lite_decode L (lite_encode L l) = l <-> viramas_between_consonants L l /\ no_written_implicit_vowel L l).
Proof. exact lite_spelled_back. Qed.
Theorem C115_line_partial : forall L l, script L -> viramas_between_consonants L l -> no_written_implicit_vowel L l -> lite_decode L (lite_encode L l) = l.
Proof. intros L l HL H1 H2. apply (lite_spelled_back L l HL). tauto. Qed.
Theorem C115_line_refuted : script hindi /\ lite_decode hindi (lite_encode hindi [0x915; 0x905]) <> [0x915; 0x905] /\
  lite_decode hindi (lite_encode hindi [0x915; 0x94D; 0x2C]) <> [0x915; 0x94D; 0x2C].
Proof. split; [exact hindi_script|]. split; vm_compute; discriminate. Qed.
Example C115_ex : let l := [0x939; 0x93F; 0x928; 0x94D; 0x926; 0x940; 0x20; 0x917; 0x90F; 0x915] in
  viramas_between_consonants hindi l /\ no_written_implicit_vowel hindi l /\
  lite_encode hindi l = [0x939; 0x93F; 0x928; 0x926; 0x940; 0x20; 0x917; 0x90F; 0x915; 0x905] /\ lite_decode hindi (lite_encode hindi l) = l.
Proof.
  cbv zeta. set (l := [0x939; 0x93F; 0x928; 0x94D; 0x926; 0x940; 0x20; 0x917; 0x90F; 0x915]).
  assert (H : lite_decode hindi (lite_encode hindi l) = l) by (vm_compute; reflexivity).
  destruct (proj1 (lite_spelled_back hindi l hindi_script) H) as (H1 & H2). do 2 (split; [assumption|]). split; [vm_compute; reflexivity|exact H].
Qed.
Print Assumptions C113_line_partial.
Print Assumptions C113_line_exact.
Print Assumptions C113_line_refuted.
Print Assumptions C113_text_partial.
Print Assumptions C113_expanded.
Print Assumptions C113_contracted.
Print Assumptions C114_line_exact.
Print Assumptions C114_line_partial.
Print Assumptions C114_text_partial.
Print Assumptions C114_other_names.
Print Assumptions C113_consonants.
Print Assumptions C114_constructor.
Print Assumptions C114_line_refuted.
Print Assumptions C115_line_exact.
Print Assumptions C115_line_partial.
Print Assumptions C115_line_refuted.
