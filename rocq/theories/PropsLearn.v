(** Property theorems about learning word, char and class vocabularies (C18-C26, C72). *)
From Coq Require Import Strings.String.
From Coq Require Import QArith Sorted.
From Verif Require Import Py PyStr PyLemmas StrSpec PyStrProofs Utf8Model JsonModel JsonProofs CodecModel CodecSpec
     VocabFileModel VocabSpec VocabFileProofs LearnModel ArithModel LearnSpec LearnProofs LearnEnd PropsCodec.
Local Open Scope Z_scope.
Local Open Scope list_scope.

(** *** C18: saved class labels can be reloaded - for labels without tabs, line breaks and lone
    surrogates, and at least one line. The full claim (every list of labels) is refuted below. *)
Theorem C18_class_reload_partial : forall A version now data toks vs mf cov,
  scalars version -> scalars now -> tokens_of KClass data toks -> data <> [] ->
  (forall lab, In lab toks -> plain_text lab) ->
  exists table s bytes,
    learn_flat A KClass data vs mf cov false = Ok table /\ make_scheme KClass table = Ok s /\
    save version now s = (bytes, Ok tt) /\ load_scheme bytes = Ok s.
Proof. exact class_reload. Qed.
Example C18_ex : tokens_of KClass [lit " good one "; lit "bad"] [lit "good one"; lit "bad"] /\
  forall lab, In lab [lit "good one"; lit "bad"] -> plain_text lab.
Proof.
  split.
  - constructor; [apply trimmed_strip; reflexivity|]. constructor; [apply trimmed_strip; reflexivity|]. constructor.
  - intros lab [<-|[<-|[]]] c H; repeat (destruct H as [<-|H]; [repeat split; discriminate|]); destruct H.
Qed.
(** A label with an inner tab is learned and saved, and the saved file cannot be loaded. *)
Theorem C18_class_reload_refuted : exists table s,
  learn_flat arithQ KClass [(lit "a" ++ [9%N] ++ lit "b")%list] 0 1 None false = Ok table /\
  make_scheme KClass table = Ok s /\
  snd (save [] [] s) = Ok tt /\ load_scheme (fst (save [] [] s)) = Raise ValueError.
Proof.
  exists [MkType (lit "a" ++ [9%N] ++ lit "b") 0 0 1 None].
  exists (built KClass [MkType (lit "a" ++ [9%N] ++ lit "b") 0 0 1 None]).
  vm_compute. repeat split.
Qed.
(** Worse, it may be loaded without complaint as a vocabulary with another label, and the label that
    was learned is then unknown. *)
Theorem C18_silent_refuted : exists table s s',
  learn_flat arithQ KClass [lit "a"; lit "b"; (lit "z" ++ [9%N] ++ lit "0")%list] 0 1 None false = Ok table /\
  make_scheme KClass table = Ok s /\
  snd (save [] [] s) = Ok tt /\ load_scheme (fst (save [] [] s)) = Ok s' /\
  map t_name (s_table s') = [lit "a"; lit "b"; lit "z"] /\
  encode s (lit "z" ++ [9%N] ++ lit "0") = Ok [2] /\ encode s' (lit "z" ++ [9%N] ++ lit "0") = Ok [-1].
Proof.
  pose (t0 := MkType (lit "a") 0 0 1 None). pose (t1 := MkType (lit "b") 0 1 1 None).
  exists [t0; t1; MkType (lit "z" ++ [9%N] ++ lit "0") 0 2 1 None].
  exists (built KClass [t0; t1; MkType (lit "z" ++ [9%N] ++ lit "0") 0 2 1 None]).
  exists (built KClass [t0; t1; MkType (lit "z") 0 2 0 (Some [t1])]).
  vm_compute. repeat split.
Qed.
(** An empty list of lines gives a table that cannot even be saved. *)
Theorem C18_empty_refuted : exists s,
  learn_flat arithQ KClass [] 0 1 None false = Ok [] /\ make_scheme KClass [] = Ok s /\
  snd (save [] [] s) = Raise ValueError.
Proof. exists (built KClass []). vm_compute. repeat split. Qed.

(** *** C19: term counting is exact. *)
Theorem C19_exact_counts : forall k data toks stats n,
  tokens_of k data toks -> term_frequencies k data = (stats, n) ->
  exact_counts toks stats /\ n = Z.of_nat (length data).
Proof. exact term_frequencies_exact. Qed.
Theorem C19_tokens_exist : forall k data, k = KWord \/ k = KChar \/ k = KClass ->
  exists toks, tokens_of k data toks.
Proof. intros k data Hk. exists (flat_map (fun l => flat_pieces k (strip l)) data). exact (tokens_of_exist k data Hk). Qed.
Example C19_ex : exists toks, tokens_of KWord [lit "b a b"; lit " a  c"] toks /\
  toks = [lit "b"; lit "a"; lit "b"; lit "a"; lit "c"] /\
  term_frequencies KWord [lit "b a b"; lit " a  c"] = ([(lit "b", 2); (lit "a", 2); (lit "c", 1)], 2).
Proof. eexists. split; [apply tokens_of_exist; auto|]. vm_compute. split; reflexivity. Qed.

(** *** C20: layout of a learned flat vocabulary. *)
Theorem C20_layout : forall A level tf cov lc mf vs table,
  NoDup (map fst tf) -> get_init_vocab A level tf cov lc mf vs = Ok table ->
  starts_reserved table /\ well_indexed table /\ distinct_names table /\
  (forall n t, nth_error table n = Some t -> t_kids t = None /\ t_level t = if (n <? 6)%nat then -1 else level).
Proof. exact init_layout. Qed.
Theorem C20_accepted : forall A k data vs mf cov is_tf table,
  k <> KBpe -> learn_flat A k data vs mf cov is_tf = Ok table ->
  exists s, make_scheme k table = Ok s /\ s_table s = table.
Proof. exact learn_accepts. Qed.
(** The only failures: a coverage outside (0, 1], or nothing to divide by. *)
Theorem C20_outcome : forall A level tf cov lc mf vs, NoDup (map fst tf) ->
  match get_init_vocab A level tf cov lc mf vs with
  | Ok _ => True
  | Raise e => exists c, cov = Some c /\
      ((e = AssertionError /\ a_unit A c = false) \/
       (e = ZeroDivisionError /\ a_unit A c = true /\ freq_sum (nonres tf) = 0 /\ nonres tf <> []))
  end.
Proof. exact init_outcome. Qed.
Definition ex_tf : list (str * Z) :=
  [(lit "x", 3); (lit "<unk>", 2); (lit "y", 5); (lit "z", 1); (lit "w", 3)].
Example C20_ex : NoDup (map fst ex_tf) /\
  exists table, get_init_vocab arith64 2 ex_tf (Some (f64_div 9 10)) (Some 4) 2 8 = Ok table /\
    map (fun t => (t_name t, t_freq t)) table =
    [(lit "<pad>", -1); (lit "<unk>", 6); (lit "<s>", 4); (lit "</s>", 4); (lit "<cls>", 4); ([9601%N], -1);
     (lit "y", 5); (lit "x", 3)].
Proof.
  split; [vm_compute; repeat constructor; simpl; intuition congruence|].
  eexists. split; vm_compute; reflexivity.
Qed.

(** *** C21: frequency mass is conserved. *)
Theorem C21_mass : forall A level tf cov lc mf vs table,
  NoDup (map fst tf) -> (forall w f, In (w, f) tf -> 0 <= f) -> 0 <= lc_of lc ->
  get_init_vocab A level tf cov lc mf vs = Ok table ->
  total_mass table = freq_sum tf + 3 * lc_of lc /\
  map mass (firstn 6 table) =
    [freq_in tf (lit "<pad>"); freq_in tf (lit "<unk>") + missing_mass tf table;
     freq_in tf (lit "<s>") + lc_of lc; freq_in tf (lit "</s>") + lc_of lc;
     freq_in tf (lit "<cls>") + lc_of lc; freq_in tf [9601%N]] /\
  forall t, In t (skipn 6 table) -> In (t_name t, t_freq t) tf.
Proof. exact init_mass. Qed.
Theorem C21_corpus_mass : forall A k data toks vs mf cov table,
  k = KWord \/ k = KChar -> tokens_of k data toks ->
  learn_flat A k data vs mf cov false = Ok table ->
  total_mass table = Z.of_nat (length toks) + 3 * Z.of_nat (length data) /\
  forall t, In t (skipn 6 table) -> t_freq t = occurrences (t_name t) toks /\ In (t_name t) toks.
Proof. exact learn_mass. Qed.
Example C21_ex : exists table,
  learn_flat arith64 KWord [lit "b a b <unk>"; lit " a  c"] 7 1 None false = Ok table /\ total_mass table = 12.
Proof. eexists. split; vm_compute; reflexivity. Qed.

(** *** C22: the requested size is an upper bound, for sizes of at least 6. *)
Theorem C22_size_partial : forall A level tf cov lc mf vs table,
  NoDup (map fst tf) -> 6 <= vs -> get_init_vocab A level tf cov lc mf vs = Ok table ->
  Z.of_nat (length table) <= vs.
Proof. exact init_size. Qed.
(** Below 6 the slice bound is negative, which keeps almost everything. *)
Theorem C22_size_refuted : exists tf table,
  NoDup (map fst tf) /\ get_init_vocab arithQ 2 tf None (Some 4) 1 5 = Ok table /\
  Z.max 6 5 < Z.of_nat (length table).
Proof.
  exists ex_tf. eexists. split; [vm_compute; repeat constructor; simpl; intuition congruence|].
  split; vm_compute; reflexivity.
Qed.

(** Exactly: all but the 6 - vs least frequent candidates are kept. *)
Theorem C22_small : forall A level tf lc mf vs table,
  NoDup (map fst tf) -> 1 <= vs <= 5 -> get_init_vocab A level tf None lc mf vs = Ok table ->
  exists ranking, ranked (candidates mf tf) ranking /\
    map (fun t => (t_name t, t_freq t)) (skipn 6 table) = firstn (length ranking - Z.to_nat (6 - vs)) ranking /\
    length table = (6 + (length ranking - Z.to_nat (6 - vs)))%nat.
Proof. exact init_small. Qed.
Example C22_small_ex : exists table, get_init_vocab arithQ 2 ex_tf None (Some 4) 1 4 = Ok table /\
  length (candidates 1 ex_tf) = 4%nat /\ length table = 8%nat.
Proof. eexists. split; [vm_compute; reflexivity|]. split; vm_compute; reflexivity. Qed.

(** *** C23: the kept types are the most frequent ones, in order. *)
Theorem C23_ranking : forall A level tf lc mf vs table,
  NoDup (map fst tf) -> vs <= 0 \/ 6 <= vs -> get_init_vocab A level tf None lc mf vs = Ok table ->
  exists ranking, ranked (candidates mf tf) ranking /\
    map (fun t => (t_name t, t_freq t)) (skipn 6 table) =
    if vs <=? 0 then ranking else firstn (Z.to_nat (vs - 6)) ranking.
Proof. exact init_ranking. Qed.
Example C23_ex : exists table, get_init_vocab arithQ 2 ex_tf None (Some 4) 2 8 = Ok table /\
  map t_name (skipn 6 table) = [lit "y"; lit "x"].
Proof. eexists. split; vm_compute; reflexivity. Qed.

(** *** C24: the coverage filter, for any arithmetic; then exact rationals. *)
Theorem C24_coverage : forall A types c incl unk,
  NoDup (map fst types) -> filter_types_coverage A types c = Ok (incl, unk) ->
  exists rest, ranked types (incl ++ rest) /\ unk = freq_sum rest /\
    (types <> [] -> incl <> []) /\
    (rest = [] \/ reaches A (freq_sum types) c incl) /\
    (forall p q, incl = p ++ q -> p <> [] -> q <> [] -> ~ reaches A (freq_sum types) c p).
Proof. exact coverage_spec. Qed.
Theorem C24_outcome : forall A types c,
  (a_unit A c = false -> filter_types_coverage A types c = Raise AssertionError) /\
  (a_unit A c = true -> types <> [] -> freq_sum types = 0 -> filter_types_coverage A types c = Raise ZeroDivisionError) /\
  (a_unit A c = true -> types = [] \/ freq_sum types <> 0 -> exists r, filter_types_coverage A types c = Ok r).
Proof. exact coverage_outcome. Qed.
Theorem C24_exact_share : forall tot c l, 0 < tot ->
  (reaches arithQ tot c l <-> (c * inject_Z tot <= inject_Z (freq_sum l))%Q).
Proof. exact reaches_Q. Qed.
Example C24_ex : filter_types_coverage arith64 ex_tf (f64_div 7 10) =
  Ok ([(lit "y", 5); (lit "x", 3); (lit "w", 3)], 3) /\
  filter_types_coverage arithQ ex_tf (7 # 10)%Q = Ok ([(lit "y", 5); (lit "x", 3); (lit "w", 3)], 3).
Proof. vm_compute. split; reflexivity. Qed.

(** *** C25: class vocabularies do not depend on the order of the lines. *)
Theorem C25_class_order : forall A data data' toks vs mf cov,
  tokens_of KClass data toks -> Permutation data data' ->
  exists table,
    learn_flat A KClass data vs mf cov false = Ok table /\
    learn_flat A KClass data' vs mf cov false = Ok table /\
    StronglySorted lex_lt (map t_name table) /\ well_indexed table /\
    (forall w, has_name table w <-> In w toks) /\
    (forall t, In t table -> t_freq t = occurrences (t_name t) toks /\ t_kids t = None).
Proof. exact class_learn. Qed.
Example C25_ex : exists table,
  learn_flat arithQ KClass [lit "b "; lit "a"; lit "b"] 0 1 None false = Ok table /\
  map (fun t => (t_name t, t_freq t)) table = [(lit "a", 1); (lit "b", 2)].
Proof. eexists. split; vm_compute; reflexivity. Qed.

(** *** C26: term-frequency files round-trip. [sorted_desc] is a permutation (second theorem), so
    the map read back is the map written. *)
Theorem C26_tf_file_roundtrip : forall stats meta n,
  NoDup (map fst stats) -> (forall w f, In (w, f) stats -> is_word w) ->
  tf_meta_ok meta -> jget (lit "line_count") meta = Some (JInt n) \/ (jget (lit "line_count") meta = None /\ n = -1) ->
  exists out, read_term_freqs (file_lines (write_stats stats meta)) = Ok (out, n) /\ ranked stats out.
Proof.
  intros stats meta n H1 H2 H3 H4. exists (sorted_desc snd stats).
  split; [exact (tf_roundtrip_any stats meta n H1 H2 H3 H4)|exact (sorted_desc_ranked stats)].
Qed.
(** The first line is a comment that says how many types and tokens there are, and all that was given as meta. *)
Theorem C26_header : forall stats meta, tf_meta_ok meta ->
  exists h m rest, write_stats stats meta = [35%N] ++ h ++ [LF] ++ rest /\ ~ In LF h /\ loads h = Ok (JObj m) /\
    (jget (lit "types") meta = None -> jget (lit "types") m = Some (JInt (Z.of_nat (length stats)))) /\
    (jget (lit "tokens") meta = None -> jget (lit "tokens") m = Some (JInt (freq_sum stats))) /\
    (forall k v, jget k meta = Some v -> jget k m = Some v).
Proof. exact tf_header. Qed.
Example C26_ex : tf_meta_ok [(lit "line_count", JInt 7)] /\
  read_term_freqs (file_lines (write_stats [(lit "a", 1); (lit "#b", 4)] [(lit "line_count", JInt 7)])) =
  Ok ([(lit "#b", 4); (lit "a", 1)], 7).
Proof.
  split; [|vm_compute; reflexivity]. split.
  - constructor; [|constructor]. split; [apply lit_scalars|exact I].
  - constructor; [intros []|constructor].
Qed.

(** *** C72: coverage 1 keeps every type - true with exact shares; with the floating-point shares
    the code computes, a type can be dropped although the coverage is 1. *)
Theorem C72_full_coverage_partial : forall types,
  NoDup (map fst types) -> (forall w f, In (w, f) types -> 0 < f) ->
  exists incl, filter_types_coverage arithQ types (1 # 1)%Q = Ok (incl, 0) /\ Permutation incl types.
Proof. exact coverage_one_exact. Qed.
Theorem C72_full_coverage_refuted : exists types,
  NoDup (map fst types) /\ (forall w f, In (w, f) types -> 0 < f) /\
  filter_types_coverage arith64 types (f64_div 1 1) = Ok ([(lit "a", 2 ^ 54)], 1) /\
  In (lit "b", 1) types.
Proof.
  exists [(lit "a", 2 ^ 54); (lit "b", 1)]. split; [vm_compute; repeat constructor; simpl; intuition congruence|].
  split; [|split; [vm_compute; reflexivity|right; left; reflexivity]].
  intros w f [H|[H|[]]]; injection H as <- <-; lia.
Qed.

Print Assumptions C18_class_reload_partial.
Print Assumptions C18_class_reload_refuted.
Print Assumptions C18_silent_refuted.
Print Assumptions C18_empty_refuted.
Print Assumptions C19_exact_counts.
Print Assumptions C19_tokens_exist.
Print Assumptions C20_layout.
Print Assumptions C20_accepted.
Print Assumptions C20_outcome.
Print Assumptions C21_mass.
Print Assumptions C21_corpus_mass.
Print Assumptions C22_size_partial.
Print Assumptions C22_size_refuted.
Print Assumptions C22_small.
Print Assumptions C23_ranking.
Print Assumptions C24_coverage.
Print Assumptions C24_outcome.
Print Assumptions C24_exact_share.
Print Assumptions C25_class_order.
Print Assumptions C26_tf_file_roundtrip.
Print Assumptions C26_header.
Print Assumptions C72_full_coverage_partial.
Print Assumptions C72_full_coverage_refuted.
