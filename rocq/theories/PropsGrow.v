(** Property theorems about vocabularies of different sizes, encoding in parts and again, and where learned subwords come from (C126-C131). *)
From Coq Require Import Strings.String.
From Coq Require Import QArith.
From Verif Require Import Py PyLemmas PyStr StrSpec PyStrProofs Utf8Model CodecModel CodecSpec FlatProofs LearnModel ArithModel LearnSpec HeapModel BpeSpec LearnBpeModel
     LearnBpeEnd GrowSpec GrowProofs PartsProofs PropsCodec PropsBpe.
Local Open Scope Z_scope.
Local Open Scope list_scope.

(** A corpus to learn from, and the tables of two sizes and two thresholds. *)
Definition gr_data : list str := [lit "bcd bcd bcd abe abf"].
Definition gr_bpe (vs mco : Z) : list Typ := table_of (learn_bpe arithQ as_is gr_data vs None mco false).
Definition gr_words : list str := [lit "x x x y y z"].
Definition gr_word (vs mf : Z) : list Typ := table_of (learn_flat arithQ KWord gr_words vs mf None false).

(** *** C126: a smaller vocabulary is the beginning of a larger one. *)
Theorem C126_bpe : forall A orders data cov mco is_tf vs1 vs2 t2,
  0 < effective_size vs1 mco <= effective_size vs2 mco ->
  learn_bpe A orders data vs2 cov mco is_tf = Ok t2 ->
  learn_bpe A orders data vs1 cov mco is_tf =
    if effective_size vs1 mco <=? Z.of_nat (basics t2) then Raise AssertionError
    else Ok (firstn (Z.to_nat (effective_size vs1 mco)) t2).
Proof. exact bpe_sizes. Qed.
(** Also when the two runs iterate over sets differently, up to the first type that joins a type
    with itself. *)
Theorem C126_bpe_runs : forall A orders1 orders2 data cov mco vs1 vs2 t1 t2,
  iteration_orders orders1 -> iteration_orders orders2 ->
  effective_size vs1 mco <= effective_size vs2 mco ->
  learn_bpe A orders1 data vs1 cov mco false = Ok t1 -> learn_bpe A orders2 data vs2 cov mco false = Ok t2 ->
  t1 = firstn (length t1) t2 \/
  exists u ty v1 v2, doubled ty /\ t1 = u ++ ty :: v1 /\ t2 = u ++ ty :: v2.
Proof. exact bpe_sizes_runs. Qed.
Theorem C126_flat : forall A k data cov is_tf mf vs1 vs2 t2,
  k = KWord \/ k = KChar ->
  vs2 <= 0 /\ (vs1 <= 0 \/ 6 <= vs1) \/ 6 <= vs1 <= vs2 ->
  learn_flat A k data vs2 mf cov is_tf = Ok t2 ->
  exists t1, learn_flat A k data vs1 mf cov is_tf = Ok t1 /\
    map t_name (firstn 6 t1) = map t_name (firstn 6 t2) /\
    skipn 6 t1 = lim vs1 (filter (fun t => frequent mf (t_freq t)) (skipn 6 t2)).
Proof.
  intros A k data cov is_tf mf vs1 vs2 t2 Hk Hv H. exact (flat_nest A k data cov is_tf mf mf vs1 vs2 t2 Hk Hv (Z.le_refl mf) H).
Qed.
(** The ids of a text: those of the larger vocabulary, with UNK for the types that were cut off. *)
Theorem C126_ids : forall k t1 t2 s1 s2 n line ids,
  k = KWord \/ k = KChar -> make_scheme k t1 = Ok s1 -> make_scheme k t2 = Ok s2 ->
  map t_name t1 = firstn n (map t_name t2) -> encode s2 line = Ok ids ->
  encode s1 line = Ok (map (fun i => if i <? Z.of_nat n then i else 1) ids).
Proof. exact flat_cut. Qed.
Example C126_ex : 0 < effective_size 14 2 <= effective_size 16 2 /\
  learn_bpe arithQ as_is gr_data 16 None 2 false = Ok (gr_bpe 16 2) /\ length (gr_bpe 16 2) = 16%nat /\ basics (gr_bpe 16 2) = 12%nat /\
  map t_name (skipn 12 (gr_bpe 16 2)) = [lit "bc"; lit "d" ++ [MARK]; lit "bcd" ++ [MARK]; lit "ab"] /\
  learn_bpe arithQ as_is gr_data 14 None 2 false = Ok (firstn 14 (gr_bpe 16 2)) /\
  learn_bpe arithQ as_is gr_data 12 None 2 false = Raise AssertionError /\
  learn_flat arithQ KWord gr_words 0 1 None false = Ok (gr_word 0 1) /\ map t_name (skipn 6 (gr_word 0 1)) = [lit "x"; lit "y"; lit "z"] /\
  skipn 6 (gr_word 8 1) = firstn 2 (skipn 6 (gr_word 0 1)) /\
  map t_name (gr_word 8 1) = firstn 8 (map t_name (gr_word 0 1)) /\
  encode (built KWord (gr_word 0 1)) (lit "z x y q") = Ok [8; 6; 7; 1] /\
  encode (built KWord (gr_word 8 1)) (lit "z x y q") = Ok [1; 6; 7; 1].
Proof. split; [vm_compute; split; [reflexivity|discriminate]|]. do 20 try (split; [vm_compute; reflexivity|]). vm_compute. reflexivity. Qed.
(** Runs may part only after a type that joins a type with itself: here they do not. *)
Example C126_runs_ex : iteration_orders as_is /\ iteration_orders reversed /\
  learn_bpe arithQ reversed gr_data 15 None 2 false = Ok (firstn 15 (gr_bpe 16 2)).
Proof. split; [apply as_is_order|]. split; [apply reversed_order|]. vm_compute. reflexivity. Qed.

(** *** C127: a higher frequency threshold only removes rarer types. *)
Theorem C127_bpe : forall A orders data cov m1 m2 vs t1,
  iteration_orders orders -> m1 <= m2 -> effective_size vs m1 = effective_size vs m2 ->
  learn_bpe A orders data vs cov m1 false = Ok t1 ->
  learn_bpe A orders data vs cov m2 false = Ok (at_least m2 t1).
Proof. exact bpe_thresholds. Qed.
Theorem C127_flat : forall A k data cov is_tf mf1 mf2 vs t2,
  k = KWord \/ k = KChar -> vs <= 0 \/ 6 <= vs -> mf2 <= mf1 ->
  learn_flat A k data vs mf2 cov is_tf = Ok t2 ->
  exists t1, learn_flat A k data vs mf1 cov is_tf = Ok t1 /\
    map t_name (firstn 6 t1) = map t_name (firstn 6 t2) /\
    skipn 6 t1 = lim vs (filter (fun t => frequent mf1 (t_freq t)) (skipn 6 t2)).
Proof.
  intros A k data cov is_tf mf1 mf2 vs t2 Hk Hv Hm H. apply (flat_nest A k data cov is_tf mf1 mf2 vs vs t2 Hk); [|exact Hm|exact H]. lia.
Qed.
Example C127_ex : effective_size 16 2 = effective_size 16 3 /\
  learn_bpe arithQ as_is gr_data 16 None 2 false = Ok (gr_bpe 16 2) /\
  learn_bpe arithQ as_is gr_data 16 None 3 false = Ok (at_least 3 (gr_bpe 16 2)) /\
  map t_name (skipn 12 (at_least 3 (gr_bpe 16 2))) = [lit "bc"; lit "d" ++ [MARK]; lit "bcd" ++ [MARK]] /\
  map t_name (skipn 6 (gr_word 0 2)) = [lit "x"; lit "y"] /\
  skipn 6 (gr_word 0 2) = filter (fun t => frequent 2 (t_freq t)) (skipn 6 (gr_word 0 1)).
Proof. do 20 try (split; [vm_compute; reflexivity|]). vm_compute. reflexivity. Qed.

(** *** C128: encoding a text in parts. *)
Theorem C128_spacing : forall s l1 l2 ws,
  s_kind s = KWord \/ s_kind s = KChar \/ s_kind s = KBpe -> words_of l1 ws -> words_of l2 ws ->
  encode_str s l1 = encode_str s l2 /\ encode s l1 = encode s l2.
Proof. exact same_words_encode. Qed.
Theorem C128_word : forall table s a c b,
  make_scheme KWord table = Ok s -> is_space c = true ->
  exists x y, encode s a = Ok x /\ encode s b = Ok y /\ encode s (a ++ c :: b) = Ok (x ++ y).
Proof. exact word_parts. Qed.
Theorem C128_char : forall table s a c b,
  make_scheme KChar table = Ok s -> is_space c = true -> wordy a -> wordy b ->
  exists x y, encode s a = Ok x /\ encode s b = Ok y /\ encode s (a ++ c :: b) = Ok (x ++ 5 :: y).
Proof. exact char_parts. Qed.
Theorem C128_byte : forall s a b x y,
  make_scheme KByte [] = Ok s -> encode s a = Ok x -> encode s b = Ok y -> encode s (a ++ b) = Ok (x ++ y).
Proof. exact byte_parts. Qed.
(** BPE: when the end-of-word mark occurs only at the end of names. *)
Theorem C128_bpe_partial : forall table s a c b,
  make_scheme KBpe table = Ok s -> well_indexed table -> marks_end table ->
  is_space c = true -> wordy a -> wordy b ->
  exists px py x y, encode_str s a = Ok px /\ encode_str s b = Ok py /\ encode_str s (a ++ c :: b) = Ok (px ++ py) /\
    encode s a = Ok x /\ encode s b = Ok y /\ encode s (a ++ c :: b) = Ok (x ++ y).
Proof. exact bpe_parts. Qed.
Theorem C128_learned : forall A orders data toks vs cov mco table,
  tokens_of KWord data toks -> iteration_orders orders ->
  learn_bpe A orders data vs cov mco false = Ok table -> (forall w, In w toks -> ~ In MARK w) ->
  exists s, make_scheme KBpe table = Ok s /\ forall a c b, is_space c = true -> wordy a -> wordy b ->
    exists x y, encode s a = Ok x /\ encode s b = Ok y /\ encode s (a ++ c :: b) = Ok (x ++ y).
Proof. exact learned_parts. Qed.
(** A learned vocabulary may join what is on both sides of a space, if a word of its corpus contains
    the mark. *)
Theorem C128_mark_in_word_refuted : exists data table s x y z,
  learn_bpe arithQ as_is data 10 None 2 false = Ok table /\ make_scheme KBpe table = Ok s /\
  encode s (lit "a") = Ok x /\ encode s (lit "b") = Ok y /\ encode s (lit "a b") = Ok z /\ z <> x ++ y.
Proof.
  exists [lit "a" ++ [MARK] ++ lit "b a" ++ [MARK] ++ lit "b"].
  exists (table_of (learn_bpe arithQ as_is [lit "a" ++ [MARK] ++ lit "b a" ++ [MARK] ++ lit "b"] 10 None 2 false)).
  exists (built KBpe (table_of (learn_bpe arithQ as_is [lit "a" ++ [MARK] ++ lit "b a" ++ [MARK] ++ lit "b"] 10 None 2 false))).
  exists [6; 5], [7; 5], [9; 5]. do 5 (split; [vm_compute; reflexivity|]). discriminate.
Qed.
Lemma gr_wordy_a : wordy (lit " ab  a").
Proof. exists (lit "ab"), [lit "a"]. apply words_of_iff. reflexivity. Qed.
Lemma gr_wordy_b : wordy (lit "b ").
Proof. exists (lit "b"), []. apply words_of_iff. reflexivity. Qed.
Lemma gr_marks : marks_end ex_bpe.
Proof.
  intros t a b Hin E. apply (in_map t_name) in Hin. rewrite E in Hin. cbn in Hin. unfold PAD_TOK, UNK_TOK, BOS_TOK, EOS_TOK, CLS_TOK, SPACE_TOK in Hin.
  repeat (destruct Hin as [Hr|Hin]; [repeat (destruct a as [|? a]; [try discriminate Hr; try (injection Hr; intros; congruence)|cbn [app] in Hr; try discriminate Hr; injection Hr as _ Hr])|]); try contradiction.
Qed.
Example C128_ex : is_space 32%N = true /\ wordy (lit " ab  a") /\ wordy (lit "b ") /\
  make_scheme KBpe ex_bpe = Ok (built KBpe ex_bpe) /\ marks_end ex_bpe /\
  encode (built KBpe ex_bpe) (lit " ab  a") = Ok [8; 5; 6; 5] /\ encode (built KBpe ex_bpe) (lit "b ") = Ok [7; 5] /\
  encode (built KBpe ex_bpe) (lit " ab  a b ") = Ok [8; 5; 6; 5; 7; 5] /\
  make_scheme KChar ex_char = Ok (built KChar ex_char) /\
  encode (built KChar ex_char) (lit " ab  a") = Ok [6; 7; 5; 6] /\ encode (built KChar ex_char) (lit "b ") = Ok [7] /\
  encode (built KChar ex_char) (lit " ab  a b ") = Ok [6; 7; 5; 6; 5; 7].
Proof.
  split; [reflexivity|]. split; [exact gr_wordy_a|]. split; [exact gr_wordy_b|]. split; [vm_compute; reflexivity|]. split; [exact gr_marks|].
  do 20 try (split; [vm_compute; reflexivity|]). vm_compute. reflexivity.
Qed.

(** *** C129: every learned subword occurs in a word of the corpus. *)
Theorem C129_origin : forall A orders data toks vs cov mco table,
  tokens_of KWord data toks -> iteration_orders orders ->
  learn_bpe A orders data vs cov mco false = Ok table ->
  forall n ty, nth_error table n = Some ty ->
    ((n < 6)%nat /\ In (t_name ty) reserved_names) \/
    ((6 <= n)%nat /\ t_level ty = L_char /\ exists w ch, In w toks /\ t_name ty = [ch] /\ In ch w) \/
    (t_level ty = L_subword /\ (2 <= length (t_name ty))%nat /\
     (exists w a b, In w toks /\ spelled_word table w = a ++ t_name ty ++ b) /\
     0 < t_freq ty <= places_in table (t_name ty) toks).
Proof. exact learned_types. Qed.
Theorem C129_all_characters : forall A orders data toks vs mco table,
  tokens_of KWord data toks -> iteration_orders orders ->
  learn_bpe A orders data vs None mco false = Ok table ->
  forall w, In w toks -> spelled_word table w = w ++ [MARK].
Proof. exact learned_spelling. Qed.
Example C129_ex : tokens_of KWord gr_data [lit "bcd"; lit "bcd"; lit "bcd"; lit "abe"; lit "abf"] /\
  learn_bpe arithQ as_is gr_data 16 None 2 false = Ok (gr_bpe 16 2) /\
  map (fun t => (t_name t, t_freq t, places_in (gr_bpe 16 2) (t_name t) [lit "bcd"; lit "bcd"; lit "bcd"; lit "abe"; lit "abf"])) (skipn 12 (gr_bpe 16 2)) =
    [(lit "bc", 3, 3); (lit "d" ++ [MARK], 3, 3); (lit "bcd" ++ [MARK], 3, 3); (lit "ab", 2, 2)].
Proof.
  split; [|split; vm_compute; reflexivity]. exists [[lit "bcd"; lit "bcd"; lit "bcd"; lit "abe"; lit "abf"]].
  split; [|reflexivity]. constructor; [|constructor]. apply words_of_iff. reflexivity.
Qed.
(** The recorded frequency can be smaller than the number of places: places inside other subwords
    do not count. *)
Example C129_less_ex : let t := table_of (learn_bpe arithQ as_is [lit "aaa aaa aa"] 10 None 1 false) in
  map (fun ty => (t_name ty, t_freq ty, places_in t (t_name ty) [lit "aaa"; lit "aaa"; lit "aa"])) (skipn 7 t) =
    [(lit "aa", 5, 5); (lit "a" ++ [MARK], 2, 3); (lit "aaa" ++ [MARK], 2, 2)].
Proof. vm_compute. reflexivity. Qed.

(** *** C130: encoding decoded text gives the same ids. *)
Theorem C130_word : forall table s line ids out,
  make_scheme KWord table = Ok s -> encode s line = Ok ids -> decode s ids = Ok out -> encode s out = Ok ids.
Proof. exact word_again. Qed.
Theorem C130_bpe_partial : forall table s line ids out,
  make_scheme KBpe table = Ok s -> well_indexed table -> plain_names table -> ~ In MARK line ->
  encode s line = Ok ids -> decode s ids = Ok out -> encode s out = Ok ids.
Proof. exact bpe_again_unknown. Qed.
Theorem C130_bpe_covered : forall table s line ids out,
  make_scheme KBpe table = Ok s -> well_indexed table ->
  (forall c, In c line -> is_space c = false -> has_name table [c]) -> ~ In MARK line ->
  encode s line = Ok ids -> decode s ids = Ok out -> normal line out /\ encode s out = Ok ids.
Proof. exact bpe_again. Qed.
Theorem C130_char_covered : forall table s line ids out,
  make_scheme KChar table = Ok s -> (forall c, In c line -> is_space c = false -> has_name table [c]) -> ~ In MARK line ->
  encode s line = Ok ids -> decode s ids = Ok out -> normal line out /\ encode s out = Ok ids.
Proof. exact char_again. Qed.
(** Characters in general: every unknown character comes back as the ids of the five characters of
    the placeholder. *)
Theorem C130_char_partial : forall table s line ws ids out,
  make_scheme KChar table = Ok s -> ~ In MARK line -> words_of line ws ->
  encode s line = Ok ids -> decode s ids = Ok out ->
  exists idss, encode s out = Ok (concat idss) /\
    Forall2 (fun c is => has_name table [c] /\ (exists i, name_at table i [c] /\ is = [i]) \/
                         ~ has_name table [c] /\ Forall2 (fun d i => id_of table [d] i) (lit "<unk>") is) (spaced MARK ws) idss.
Proof. exact char_again_exact. Qed.
Theorem C130_byte : forall s line ids out,
  make_scheme KByte [] = Ok s -> (forall c, In c line -> is_scalar c = true /\ (16 <= c)%N) ->
  encode s line = Ok ids -> decode s ids = Ok out -> out = line /\ encode s out = Ok ids.
Proof. exact byte_again. Qed.
Theorem C130_class : forall table s line ids out,
  make_scheme KClass table = Ok s -> (exists lab, trimmed line lab /\ has_name table lab) ->
  encode s line = Ok ids -> decode s ids = Ok out -> trimmed line out /\ encode s out = Ok ids.
Proof. exact class_again. Qed.
(** An unknown character, an unknown label, a mark in the text, or a subword with '<'. *)
Definition gr_lt : list Typ :=
  with_reserved_types ++ [ex_a; ty (lit "<") 0 7 1; MkType (lit "a<") 1 8 1 (Some [ex_a; ty (lit "<") 0 7 1])].
Theorem C130_char_refuted : exists s line ids out again,
  make_scheme KChar ex_char = Ok s /\ encode s line = Ok ids /\ decode s ids = Ok out /\ encode s out = Ok again /\ again <> ids.
Proof.
  exists (built KChar ex_char), (lit "az"), [6; 1], (lit "a<unk>"), [6; 1; 1; 1; 1; 1]. do 4 (split; [vm_compute; reflexivity|]). discriminate.
Qed.
Theorem C130_class_refuted : exists s line ids out again,
  make_scheme KClass ex_class = Ok s /\ encode s line = Ok ids /\ decode s ids = Ok out /\ encode s out = Ok again /\ again <> ids.
Proof.
  exists (built KClass ex_class), (lit "mixed"), [-1], (lit "pos"), [1]. do 4 (split; [vm_compute; reflexivity|]). discriminate.
Qed.
Theorem C130_bpe_mark_refuted : exists s line ids out again,
  make_scheme KBpe ex_bpe = Ok s /\ encode s line = Ok ids /\ decode s ids = Ok out /\ encode s out = Ok again /\ again <> ids.
Proof.
  exists (built KBpe ex_bpe), ([MARK] ++ lit "a"), [5; 6; 5], (lit "a"), [6; 5]. do 4 (split; [vm_compute; reflexivity|]). discriminate.
Qed.
Theorem C130_bpe_names_refuted : exists s line ids out again,
  make_scheme KBpe gr_lt = Ok s /\ well_indexed gr_lt /\ ~ In MARK line /\
  encode s line = Ok ids /\ decode s ids = Ok out /\ encode s out = Ok again /\ again <> ids.
Proof.
  exists (built KBpe gr_lt), (lit "az"), [6; 1; 5], (lit "a<unk>"), [8; 1; 1; 1; 1; 5]. split; [vm_compute; reflexivity|]. split.
  { intros n t H. do 9 (destruct n as [|n]; [injection H as <-; reflexivity|]). destruct n; discriminate H. }
  split; [intros H; vm_compute in H; repeat (destruct H as [H|H]; [discriminate|]); exact H|]. do 3 (split; [vm_compute; reflexivity|]). discriminate.
Qed.
Lemma gr_plain : plain_names ex_bpe.
Proof.
  intros t Hin Hlt. cbn in Hin. repeat (destruct Hin as [<-|Hin]; [vm_compute in Hlt |- *; tauto || (repeat (destruct Hlt as [Hlt|Hlt]; [discriminate|]); destruct Hlt)|]). destruct Hin.
Qed.
Example C130_ex :
  encode (built KWord ex_word) (lit " c zz ab") = Ok [7; 1; 6] /\ decode (built KWord ex_word) [7; 1; 6] = Ok (lit "c <unk> ab") /\
  encode (built KWord ex_word) (lit "c <unk> ab") = Ok [7; 1; 6] /\
  plain_names ex_bpe /\
  encode (built KBpe ex_bpe) (lit " abz  b") = Ok [8; 1; 5; 7; 5] /\ decode (built KBpe ex_bpe) [8; 1; 5; 7; 5] = Ok (lit "ab<unk> b") /\
  encode (built KBpe ex_bpe) (lit "ab<unk> b") = Ok [8; 1; 5; 7; 5].
Proof. split; [vm_compute; reflexivity|]. split; [vm_compute; reflexivity|]. split; [vm_compute; reflexivity|]. split; [exact gr_plain|]. do 2 (split; [vm_compute; reflexivity|]). vm_compute. reflexivity. Qed.

(** *** C131: a larger vocabulary never makes encodings longer. *)
Theorem C131_flat : forall table s line ws,
  words_of line ws ->
  (make_scheme KWord table = Ok s -> exists ids, encode s line = Ok ids /\ length ids = length ws) /\
  (make_scheme KChar table = Ok s -> exists ids, encode s line = Ok ids /\ length ids = length (spaced MARK ws)).
Proof. exact flat_lengths. Qed.
Theorem C131_bpe_partial : forall table s line ws,
  make_scheme KBpe table = Ok s -> well_indexed table -> words_of line ws ->
  exists ids, encode s line = Ok ids /\ (1 <= length ids <= length (spaced MARK ws) + 1)%nat.
Proof. exact bpe_length. Qed.
Theorem C131_bpe_words : forall table s line ws,
  make_scheme KBpe table = Ok s -> well_indexed table -> marks_end table -> words_of line ws ->
  exists ids, encode s line = Ok ids /\ (length ws <= length ids)%nat.
Proof. exact bpe_length_words. Qed.
Theorem C131_bpe_refuted : exists data vs1 vs2 t1 t2 s1 s2 line ids1 ids2,
  vs1 <= vs2 /\ learn_bpe arithQ as_is data vs1 None 2 false = Ok t1 /\ learn_bpe arithQ as_is data vs2 None 2 false = Ok t2 /\
  make_scheme KBpe t1 = Ok s1 /\ make_scheme KBpe t2 = Ok s2 /\
  encode s1 line = Ok ids1 /\ encode s2 line = Ok ids2 /\ (length ids1 < length ids2)%nat.
Proof.
  exists gr_data, 15, 16, (gr_bpe 15 2), (gr_bpe 16 2), (built KBpe (gr_bpe 15 2)), (built KBpe (gr_bpe 16 2)), (lit "abcd"), [9; 14], [15; 7; 13].
  split; [lia|]. do 6 (split; [vm_compute; reflexivity|]). cbn. lia.
Qed.
Example C131_ex : words_of (lit " ab  abb") [lit "ab"; lit "abb"] /\ encode (built KBpe ex_bpe) (lit " ab  abb") = Ok [8; 5; 9; 5] /\
  encode (built KChar ex_char) (lit " ab  abb") = Ok [6; 7; 5; 6; 7; 7] /\ length (spaced MARK [lit "ab"; lit "abb"]) = 6%nat /\
  encode (built KWord ex_word) (lit " ab  abb") = Ok [6; 1].
Proof. split; [apply words_of_iff; reflexivity|]. do 3 (split; [vm_compute; reflexivity|]). vm_compute. reflexivity. Qed.

Print Assumptions C126_bpe.
Print Assumptions C126_bpe_runs.
Print Assumptions C126_flat.
Print Assumptions C126_ids.
Print Assumptions C127_bpe.
Print Assumptions C127_flat.
Print Assumptions C128_spacing.
Print Assumptions C128_word.
Print Assumptions C128_char.
Print Assumptions C128_byte.
Print Assumptions C128_bpe_partial.
Print Assumptions C128_learned.
Print Assumptions C128_mark_in_word_refuted.
Print Assumptions C129_origin.
Print Assumptions C129_all_characters.
Print Assumptions C130_word.
Print Assumptions C130_bpe_partial.
Print Assumptions C130_bpe_covered.
Print Assumptions C130_char_covered.
Print Assumptions C130_char_partial.
Print Assumptions C130_byte.
Print Assumptions C130_class.
Print Assumptions C130_char_refuted.
Print Assumptions C130_class_refuted.
Print Assumptions C130_bpe_mark_refuted.
Print Assumptions C130_bpe_names_refuted.
Print Assumptions C131_flat.
Print Assumptions C131_bpe_partial.
Print Assumptions C131_bpe_words.
Print Assumptions C131_bpe_refuted.
