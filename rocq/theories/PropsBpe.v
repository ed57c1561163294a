(** Property theorems about BPE learning (C27-C33, C68-C70, C73, C74). *)
From Coq Require Import Strings.String.
From Coq Require Import QArith.
From Verif Require Import Py PyStr PyLemmas StrSpec PyStrProofs Utf8Model Utf8Proofs JsonProofs CodecModel CodecSpec BpeProofs
     VocabFileModel VocabSpec VocabFileProofs LearnModel ArithModel LearnSpec LearnProofs PropsCodec PropsVocab
     HeapModel HeapProofs BpeSpec LearnBpeModel LearnBpeProofs LearnBpeLoop LearnBpeIndex LearnBpeResults LearnBpeEnd.
Local Open Scope Z_scope.
Local Open Scope list_scope.

(** A small table and corpora to learn from: "lol lo ol" and "aaaa aaa aa". *)
Definition ex_chars (cs : list N) : list Typ :=
  map (fun nt => MkType (snd nt) (-1) (fst nt) (-1) None) (enumerate reserved_names) ++
  map (fun nc => MkType [snd nc] 0 (6 + fst nc) 1 None) (enumerate cs).
Definition ex_lo : list Typ := ex_chars [108; 111]%N.
Definition ex_lol : corpus := [([6; 7; 6; 5], 1); ([6; 7; 5], 3); ([7; 6; 5], 1)].
Definition ex_aaa : corpus := [([6; 6; 6; 6; 5], 1); ([6; 6; 6; 5], 1); ([6; 6; 5], 1)].
Definition table_of (r : res (list Typ)) : list Typ := match r with Ok t => t | Raise _ => [] end.
Definition as_is (i : nat) (l : list nat) : list nat := l.
Definition reversed (i : nat) (l : list nat) : list nat := rev l.
Lemma as_is_order : iteration_orders as_is.
Proof. intros i l. reflexivity. Qed.
Lemma reversed_order : iteration_orders reversed.
Proof. intros i l. symmetry. apply Permutation_rev. Qed.
Lemma ex_learnable_chars cs c : NoDup (map (fun c => [c]) cs) -> (forall ch, In ch cs -> ch <> MARK) -> starts_nonempty c -> positive c ->
  symbols_below (6 + Z.of_nat (length cs)) c -> learnable c (ex_chars cs).
Proof.
  intros Hnd Hm Hs Hp Hr. constructor; try assumption.
  - intros n t Hn. unfold ex_chars in Hn. destruct (Nat.lt_ge_cases n 6) as [Hl|Hl].
    + rewrite nth_error_app1 in Hn by exact Hl.
      do 6 (destruct n as [|n]; [injection Hn as <-; reflexivity|]). lia.
    + rewrite nth_error_app2 in Hn by exact Hl. cbn [length map enumerate enum_from reserved_names] in Hn.
      rewrite nth_error_map in Hn. unfold enumerate in Hn. rewrite enum_from_nth in Hn. destruct (nth_error cs (n - 6)) as [ch|]; [|discriminate].
      apply (f_equal (option_map t_idx)) in Hn. apply Some_inj in Hn. rewrite <- Hn. change (6 + (0 + Z.of_nat (n - 6)) = Z.of_nat n). lia.
  - unfold distinct_names, ex_chars. rewrite map_app, map_map, (map_map (fun nc : Z * N => _) t_name). cbn [t_name].
    assert (E : @map (Z * N) str (fun x => [snd x]) (enumerate cs) = @map N str (fun c => [c]) cs).
    { unfold enumerate. generalize 0. clear. induction cs as [|c cs IH]; intros i; [reflexivity|]. cbn [enum_from map snd]. rewrite IH. reflexivity. }
    rewrite E. apply NoDup_app_iff. split; [vm_compute; repeat constructor; simpl; intuition congruence|]. split; [exact Hnd|].
    intros x H1 H2. apply in_map_iff in H2. destruct H2 as (ch & <- & H2). apply Hm in H2.
    cbn [enumerate enum_from map snd reserved_names] in H1. destruct H1 as [H|[H|[H|[H|[H|[H|[]]]]]]]; try discriminate H.
    apply H2. symmetry. exact (f_equal (fun l => hd 0%N l) H).
  - unfold ex_chars. rewrite app_length, map_length. unfold enumerate. rewrite map_length, enum_from_length.
    rewrite enum_from_length. replace (Z.of_nat (length reserved_names + length cs)) with (6 + Z.of_nat (length cs)); [exact Hr|].
    change (length reserved_names) with 6%nat. lia.
Qed.
Ltac corpus_facts := intros s f H; repeat (destruct H as [H|H]; [injection H as <- <-; try lia; intros x Hx; cbn in Hx; cbn [length]; lia|]); destruct H.
Lemma ex_lol_learnable : learnable ex_lol ex_lo.
Proof.
  apply ex_learnable_chars; [repeat constructor; simpl; intuition congruence|intros ch [<-|[<-|[]]]; discriminate|discriminate|corpus_facts|corpus_facts].
Qed.
Lemma ex_aaa_learnable : learnable ex_aaa (ex_chars [97%N]).
Proof.
  apply ex_learnable_chars; [repeat constructor; simpl; intuition congruence|intros ch [<-|[]]; discriminate|discriminate|corpus_facts|corpus_facts].
Qed.

(** *** C27: the optimised learner computes textbook BPE. *)
Theorem C27_textbook : forall orders c vocab n_merges min_co level,
  learnable c vocab -> iteration_orders orders ->
  bpe min_co level (Z.to_nat n_merges) c vocab (learn_codes orders c vocab n_merges min_co level).
Proof. exact learn_codes_refines. Qed.
(** Merging a pair of different symbols is greedy replacement from left to right. *)
Theorem C27_merge_is_replacement : forall a b r s s', a <> b -> a <> r -> b <> r ->
  (merged a b r s s' <-> s' = replace_left a b r s).
Proof.
  intros a b r s s' Hab Har Hbr. split; [apply merged_replace_left, Hab|]. intros ->. apply replace_left_merged; assumption.
Qed.
(** From text: the corpus the merges start from is the words with their exact counts, spelled with
    the initial vocabulary of reserved types and characters. *)
Theorem C27_from_text : forall A orders data toks vs cov mco table,
  tokens_of KWord data toks -> iteration_orders orders ->
  learn_bpe A orders data vs cov mco false = Ok table ->
  exists init tfs c,
    exact_counts toks tfs /\ spelled_corpus init tfs c /\
    starts_reserved init /\ distinct_names init /\ well_indexed init /\
    (forall n t, nth_error init n = Some t -> (6 <= n)%nat -> exists ch, t_name t = [ch]) /\
    bpe mco 1 (Z.to_nat (effective_size vs mco - Z.of_nat (length init))) c init (Ok table).
Proof.
  intros A orders data toks vs cov mco table Ht Ho H.
  destruct (learn_bpe_text A orders data toks vs cov mco table Ht Ho H) as (init & tfs & c & [] & _).
  exists init, tfs, c. auto 10.
Qed.
Example C27_ex : learnable ex_lol ex_lo /\ exists table,
  learn_codes as_is ex_lol ex_lo 2 2 1 = Ok table /\
  map t_name (skipn 8 table) = [lit "lo"; (lit "lo" ++ [MARK])%list] /\ map t_freq (skipn 8 table) = [4; 3].
Proof. split; [exact ex_lol_learnable|]. exists (table_of (learn_codes as_is ex_lol ex_lo 2 2 1)). vm_compute. repeat split. Qed.
Example C27_ex_text : exists table, learn_bpe arithQ as_is [lit "lol lo"; lit "lo lo ol"] 10 None 2 false = Ok table /\
  map t_name (skipn 8 table) = [lit "lo"; (lit "lo" ++ [MARK])%list].
Proof. exists (table_of (learn_bpe arithQ as_is [lit "lol lo"; lit "lo lo ol"] 10 None 2 false)). vm_compute. repeat split. Qed.

(** *** C28: structure of a learned table. *)
Theorem C28_structure : forall orders c vocab n_merges min_co level table,
  learnable c vocab -> iteration_orders orders ->
  learn_codes orders c vocab n_merges min_co level = Ok table ->
  exists new, table = vocab ++ new /\ (length new <= Z.to_nat n_merges)%nat /\
    (forall m ty, nth_error table m = Some ty -> (length vocab <= m)%nat ->
       t_idx ty = Z.of_nat m /\ t_level ty = level /\ min_co <= t_freq ty /\ 0 < t_freq ty /\
       exists i j ti tj, (i < m)%nat /\ (j < m)%nat /\ nth_error table i = Some ti /\ nth_error table j = Some tj /\
         t_kids ty = Some [ti; tj] /\ t_name ty = t_name ti ++ t_name tj) /\
    (forall m m' ty ty', (length vocab <= m)%nat -> (m <= m')%nat ->
       nth_error table m = Some ty -> nth_error table m' = Some ty' -> t_freq ty' <= t_freq ty).
Proof.
  intros orders c vocab n_merges min_co level table Hl Ho H.
  pose proof (learn_codes_refines orders c vocab n_merges min_co level Hl Ho) as HB. rewrite H in HB.
  destruct (pair_count_bounded c (positive_nonnegative _ (l_pos _ _ Hl))) as (F & HF).
  destruct (bpe_structure _ _ _ _ _ _ HB (l_pos _ _ Hl) (l_range _ _ Hl) F HF table eq_refl) as (new & E & Hn & Hst & Hmono).
  exists new. split; [exact E|]. split; [exact Hn|]. split; [|exact Hmono].
  intros m ty Hm Hge. destruct (Hst m ty Hm Hge) as (S1 & S2 & (S3 & _) & S4 & S5). auto.
Qed.

(** *** C29: learning trips no assertion and raises no KeyError. *)
Theorem C29_no_assertion : forall orders c vocab n_merges min_co level,
  learnable c vocab -> iteration_orders orders ->
  (exists table, learn_codes orders c vocab n_merges min_co level = Ok table) \/
  learn_codes orders c vocab n_merges min_co level = Raise IndexError.
Proof.
  intros orders c vocab n_merges min_co level Hl Ho.
  exact (bpe_outcome _ _ _ _ _ _ (learn_codes_refines orders c vocab n_merges min_co level Hl Ho)).
Qed.
(** From text at full coverage, every outcome is accounted for. *)
Theorem C29_outcome_from_text : forall A orders data toks chars vs mco,
  tokens_of KWord data toks -> alphabet toks chars -> iteration_orders orders ->
  (effective_size vs mco <= 6 + Z.of_nat (length chars) /\ learn_bpe A orders data vs None mco false = Raise AssertionError) \/
  (6 + Z.of_nat (length chars) < effective_size vs mco /\ toks = [] /\ learn_bpe A orders data vs None mco false = Raise ValueError) \/
  (6 + Z.of_nat (length chars) < effective_size vs mco /\ toks <> [] /\
    ((exists table, learn_bpe A orders data vs None mco false = Ok table) \/
     learn_bpe A orders data vs None mco false = Raise IndexError)).
Proof. exact learn_bpe_outcome. Qed.
Example C29_ex : alphabet [lit "lol"; lit "lo"] [108; 111]%N.
Proof.
  split; [repeat constructor; simpl; intuition congruence|]. intros ch. split.
  - intros [<-|[<-|[]]]; (split; [exists (lit "lol"); split; [left; reflexivity|cbn; tauto]|discriminate]).
  - intros [(w & [<-|[<-|[]]] & H) _]; cbn in *; tauto.
Qed.

(** *** C30: running out of pairs. The claim (the table learned so far is returned) holds only
    when the threshold or the number of merges stops the learner first. *)
Theorem C30_stopping_partial : forall orders c vocab n_merges min_co level,
  learnable c vocab -> iteration_orders orders ->
  exists k c' t', (k <= Z.to_nat n_merges)%nat /\ merges min_co level k c vocab c' t' /\
    ((learn_codes orders c vocab n_merges min_co level = Ok t' /\
      (k = Z.to_nat n_merges \/ exists p f, best c' p f /\ f < min_co)) \/
     (learn_codes orders c vocab n_merges min_co level = Raise IndexError /\
      (k < Z.to_nat n_merges)%nat /\ forall p, pair_count c' p = 0)).
Proof.
  intros orders c vocab n_merges min_co level Hl Ho.
  exact (bpe_merges _ _ _ _ _ _ (learn_codes_refines orders c vocab n_merges min_co level Hl Ho)).
Qed.
Theorem C30_exhaustion_refuted : exists orders c vocab n_merges min_co level c' t',
  learnable c vocab /\ iteration_orders orders /\
  merges min_co level 1 c vocab c' t' /\ (forall p, pair_count c' p = 0) /\ 1 < n_merges /\
  learn_codes orders c vocab n_merges min_co level = Raise IndexError.
Proof.
  exists as_is, [([6; 5], 2)], (ex_chars [97%N]), 2, 1, 1, [([7], 2)], (table_of (learn_codes as_is [([6; 5], 2)] (ex_chars [97%N]) 1 1 1)).
  split; [|split; [exact as_is_order|split; [|split; [intros p; reflexivity|split; [lia|vm_compute; reflexivity]]]]].
  - apply ex_learnable_chars; [repeat constructor; simpl; intuition congruence|intros ch [<-|[]]; discriminate|discriminate|corpus_facts|corpus_facts].
  - eapply (mg_step 1 1 0 _ _ _ 6 5 2); [|lia|lia|reflexivity|lia|reflexivity| |apply mg_none].
    + split; [reflexivity|]. split; [lia|]. intros q Hq. left. unfold pair_count. cbn [map zsum fst snd adjacent combine tl count_occ].
      destruct (pair_dec (6, 5) q); [congruence|]. vm_compute. reflexivity.
    + constructor; [|constructor]. split; [reflexivity|]. split; [apply rep_merge; constructor|intros []].
Qed.

(** *** C31: determinism. Two runs give the same result unless a pair of a symbol with itself gets
    merged; up to and including the first such merge they agree. *)
Theorem C31_determinism_partial : forall orders1 orders2 c vocab n_merges min_co level,
  learnable c vocab -> iteration_orders orders1 -> iteration_orders orders2 ->
  let r1 := learn_codes orders1 c vocab n_merges min_co level in
  let r2 := learn_codes orders2 c vocab n_merges min_co level in
  r1 = r2 \/
  exists u ty k, t_kids ty = Some [k; k] /\ extends (vocab ++ u ++ [ty]) r1 /\ extends (vocab ++ u ++ [ty]) r2.
Proof.
  intros orders1 orders2 c vocab n_merges min_co level Hl H1 H2 r1 r2.
  exact (bpe_deterministic _ _ _ _ _ _ (learn_codes_refines orders1 c vocab n_merges min_co level Hl H1)
           _ (learn_codes_refines orders2 c vocab n_merges min_co level Hl H2)).
Qed.
Theorem C31_determinism_refuted : exists orders1 orders2 c vocab n_merges min_co level t1 t2,
  learnable c vocab /\ iteration_orders orders1 /\ iteration_orders orders2 /\
  learn_codes orders1 c vocab n_merges min_co level = Ok t1 /\
  learn_codes orders2 c vocab n_merges min_co level = Ok t2 /\
  map t_name t1 <> map t_name t2.
Proof.
  exists as_is, reversed, ex_aaa, (ex_chars [97%N]), 3, 1, 1,
    (table_of (learn_codes as_is ex_aaa (ex_chars [97%N]) 3 1 1)), (table_of (learn_codes reversed ex_aaa (ex_chars [97%N]) 3 1 1)).
  split; [exact ex_aaa_learnable|]. split; [exact as_is_order|]. split; [exact reversed_order|].
  split; [vm_compute; reflexivity|]. split; [vm_compute; reflexivity|]. vm_compute. discriminate.
Qed.

(** *** C32: the initial index is exact and passes its own validation. *)
Theorem C32_index : forall c vocab,
  starts_nonempty c -> nonnegative c -> symbols_below (Z.of_nat (length vocab)) c -> well_indexed vocab ->
  exists ix, create_index c = Ok ix /\
    (forall p, dget_def pair_eqb p 0 (ix_bi ix) = pair_count c p) /\
    (forall x, dget_def Z.eqb x 0 (ix_uni ix) = symbol_count c x) /\
    NoDup (dkeys (ix_bi ix)) /\ NoDup (dkeys (ix_uni ix)) /\
    (forall p, In p (dkeys (ix_bi ix)) <-> exists s f, In (s, f) c /\ In p (adjacent s)) /\
    (forall x, In x (dkeys (ix_uni ix)) <-> exists s f, In (s, f) c /\ In x s) /\
    validate_index ix vocab = Ok tt.
Proof.
  intros c vocab Hs Hn Hr Hw. destruct (create_index_ok c) as (ix & E & Hix); [destruct c as [|[s f] c]; [exact I|exact Hs]|].
  exists ix. split; [exact E|]. pose proof (proj2 Hix) as [K1 K2 K3 K4 K5 K6 K7 K8].
  split; [exact K2|]. split; [exact K3|]. split; [exact K5|]. split; [exact K6|]. split; [exact K7|]. split; [exact K8|].
  apply (validate_ok ix c vocab Hix Hn Hr Hw). destruct c as [|[s f] c]; [destruct Hs|]. exists s, f. split; [left; reflexivity|exact Hs].
Qed.
Example C32_ex : exists ix, create_index ex_lol = Ok ix /\ ix_bi ix = [((6, 7), 4); ((7, 6), 2); ((6, 5), 2); ((7, 5), 3)] /\
  ix_uni ix = [(6, 6); (7, 5); (5, 5)].
Proof. eexists. split; [vm_compute; reflexivity|split; reflexivity]. Qed.

(** *** C33: MaxHeap is a priority queue. *)
Theorem C33_maxheap : forall (T : Type) (tlt : T -> T -> bool),
  (forall a, tlt a a = false) ->
  (forall a b c, tlt a b = true -> tlt b c = true -> tlt a c = true) ->
  (forall a b, tlt a b = false -> tlt b a = false -> a = b) ->
  forall (items : list (T * Z)) (ops : list (pq_op T)),
  exists h outs, mh_init tlt items = Ok h /\ mh_run tlt h ops = Ok outs /\
    served (fun a b => tlt a b = true) items ops outs.
Proof. exact @maxheap_history. Qed.
(** The answers of a priority queue are determined by the history. *)
Theorem C33_answers_unique : forall (T : Type) (tlt : T -> T -> bool),
  (forall a, tlt a a = false) ->
  (forall a b c, tlt a b = true -> tlt b c = true -> tlt a c = true) ->
  forall (ops : list (pq_op T)) bag bag' o1 o2, Permutation bag bag' ->
  served (fun a b => tlt a b = true) bag ops o1 -> served (fun a b => tlt a b = true) bag' ops o2 -> o1 = o2.
Proof. exact @served_unique. Qed.
Example C33_ex : (forall a, pair_ltb a a = false) /\
  (forall a b c, pair_ltb a b = true -> pair_ltb b c = true -> pair_ltb a c = true) /\
  (forall a b, pair_ltb a b = false -> pair_ltb b a = false -> a = b) /\
  exists h, mh_init pair_ltb [((6, 7), 2); ((1, 2), 5); ((3, 4), 5)] = Ok h /\
  mh_run pair_ltb h [Peek; Pop; Push (0, 0) 2; Pop; Pop; Pop; Pop; Peek] =
    Ok [Ok ((1, 2), 5); Ok ((1, 2), 5); Ok ((3, 4), 5); Ok ((0, 0), 2); Ok ((6, 7), 2); Raise IndexError; Raise IndexError].
Proof.
  split; [exact pair_ltb_irrefl|]. split; [exact pair_ltb_trans|]. split; [exact pair_ltb_total|].
  eexists. split; vm_compute; reflexivity.
Qed.

(** *** C68: a learned table is accepted and encodes its corpus without loss. *)
Theorem C68_accepted : forall A orders data toks vs cov mco table,
  tokens_of KWord data toks -> iteration_orders orders ->
  learn_bpe A orders data vs cov mco false = Ok table -> exists s, make_scheme KBpe table = Ok s.
Proof. intros A orders data toks vs cov mco table Ht Ho H. exact (proj1 (learn_bpe_accepted A orders data toks vs cov mco table Ht Ho H)). Qed.
Theorem C68_lossless : forall A orders data toks vs mco table,
  tokens_of KWord data toks -> iteration_orders orders ->
  learn_bpe A orders data vs None mco false = Ok table ->
  exists s, make_scheme KBpe table = Ok s /\
    forall line text norm, marked line text -> normal line norm ->
      (forall ch, In ch text -> ch = MARK \/ exists w, In w toks /\ In ch w) ->
      exists ps ids out,
        encode_str s line = Ok ps /\ encode s line = Ok ids /\ concat ps = text /\
        decode_str s ps = Ok out /\ decode s ids = Ok out /\
        trimmed (unmark norm) out /\ (~ In MARK line -> out = norm).
Proof. exact learn_bpe_lossless. Qed.
Example C68_ex : exists table s, learn_bpe arithQ as_is [lit "lol lo"; lit "lo lo ol"] 10 None 2 false = Ok table /\
  make_scheme KBpe table = Ok s /\
  encode s (lit " ol  lo ") = Ok [7; 6; 5; 9] /\ decode s [7; 6; 5; 9] = Ok (lit "ol lo").
Proof.
  exists (table_of (learn_bpe arithQ as_is [lit "lol lo"; lit "lo lo ol"] 10 None 2 false)).
  exists (built KBpe (table_of (learn_bpe arithQ as_is [lit "lol lo"; lit "lo lo ol"] 10 None 2 false))).
  vm_compute. repeat split.
Qed.

(** *** C69: pieces of learned subwords. At full coverage they are characters; with a coverage that
    drops characters, '<unk>' takes part in merges. *)
Theorem C69_real_characters_partial : forall A orders data toks vs mco table,
  tokens_of KWord data toks -> iteration_orders orders ->
  learn_bpe A orders data vs None mco false = Ok table ->
  forall t u, In t table -> t_kids t <> None -> leaf_of u t -> (exists ch, t_name u = [ch]) /\ ~ In (t_name u) placeholders.
Proof.
  intros A orders data toks vs mco table Ht Ho H t u H1 H2 H3.
  destruct (learn_bpe_leaves A orders data toks vs mco table Ht Ho H t u H1 H2 H3) as (ch & E). split; [exists ch; exact E|].
  rewrite E. intros [H0|[H0|[H0|[H0|[H0|[]]]]]]; discriminate H0.
Qed.
Definition ex_unk_table : list Typ :=
  table_of (learn_bpe arithQ as_is [lit "aab aab aab"] 8 (Some (6 # 10)%Q) 1 false).
Theorem C69_placeholder_refuted : exists table t u,
  learn_bpe arithQ as_is [lit "aab aab aab"] 8 (Some (6 # 10)%Q) 1 false = Ok table /\
  In t table /\ t_kids t <> None /\ leaf_of u t /\ In (t_name u) placeholders.
Proof.
  exists ex_unk_table, (nth 7 ex_unk_table (MkType [] 0 0 0 None)), (nth 1 ex_unk_table (MkType [] 0 0 0 None)).
  split; [vm_compute; reflexivity|]. split; [vm_compute; tauto|]. split; [vm_compute; discriminate|]. split; [|vm_compute; tauto].
  vm_compute. eapply lf_kid; [left; reflexivity|]. apply lf_self. reflexivity.
Qed.

(** *** C70: the requested size. *)
Theorem C70_size : forall A orders data vs cov mco is_tf table,
  learn_bpe A orders data vs cov mco is_tf = Ok table ->
  exists chars new, table = chars ++ new /\ starts_reserved table /\
    Z.of_nat (length chars) < effective_size vs mco /\ Z.of_nat (length table) <= effective_size vs mco /\
    (6 <= length chars)%nat /\
    (forall n t, nth_error chars n = Some t -> t_kids t = None /\ t_level t = if (n <? 6)%nat then -1 else 0) /\
    (forall n t, nth_error chars n = Some t -> (6 <= n)%nat -> exists ch, t_name t = [ch]) /\
    (forall t, In t new -> t_level t = 1 /\ exists a b, t_kids t = Some [a; b]).
Proof. exact learn_bpe_size. Qed.
Theorem C70_too_small : forall A orders data toks chars vs mco,
  tokens_of KWord data toks -> alphabet toks chars -> iteration_orders orders ->
  effective_size vs mco <= 6 + Z.of_nat (length chars) ->
  learn_bpe A orders data vs None mco false = Raise AssertionError.
Proof.
  intros A orders data toks chars vs mco Ht Ha Ho Hle.
  destruct (learn_bpe_outcome A orders data toks chars vs mco Ht Ha Ho) as [[_ H]|[(H & _)|(H & _)]]; [exact H|lia|lia].
Qed.
Example C70_ex : learn_bpe arithQ as_is [lit "lol lo"; lit "lo lo ol"] 8 None 2 false = Raise AssertionError /\
  exists table, learn_bpe arithQ as_is [lit "lol lo"; lit "lo lo ol"] 9 None 2 false = Ok table /\ length table = 9%nat.
Proof.
  split; [vm_compute; reflexivity|].
  exists (table_of (learn_bpe arithQ as_is [lit "lol lo"; lit "lo lo ol"] 9 None 2 false)). vm_compute. repeat split.
Qed.

(** *** C73: a learned BPE vocabulary survives saving and loading. *)
Theorem C73_learned_reload : forall A orders data toks vs cov mco table version now,
  scalars version -> scalars now ->
  tokens_of KWord data toks -> iteration_orders orders -> (forall w, In w toks -> plain_text w) ->
  learn_bpe A orders data vs cov mco false = Ok table ->
  exists s bytes, make_scheme KBpe table = Ok s /\ save version now s = (bytes, Ok tt) /\ load_scheme bytes = Ok s.
Proof.
  intros A orders data toks vs cov mco table version now Hv Hn Ht Ho Hp H.
  destruct (proj1 (learn_bpe_accepted A orders data toks vs cov mco table Ht Ho H)) as (s & Es).
  pose proof (learn_bpe_storable A orders data toks vs cov mco table Ht Ho Hp H) as Hst.
  exists s. assert (Et : s_table s = table) by (apply (make_bpe_inv table s) in Es; destruct Es as (_ & _ & ->); reflexivity).
  rewrite <- Et in Hst. destruct (save_load version now KBpe table s Hv Hn Es Hst) as (bytes & E1 & E2). exists bytes. auto.
Qed.

(** *** C74: stochastic splitting with a learned vocabulary never changes the text. *)
Theorem C74_learned_splits : forall A orders data toks vs cov mco table,
  tokens_of KWord data toks -> iteration_orders orders ->
  learn_bpe A orders data vs cov mco false = Ok table ->
  exists s, make_scheme KBpe table = Ok s /\ forall line draws,
  exists ps ids ps' ids' out,
    encode_str s line = Ok ps /\ encode s line = Ok ids /\
    bpe_encode_str s (Some draws) line = Ok ps' /\ bpe_encode_split s draws line = Ok ids' /\
    concat ps' = concat ps /\ Forall (valid_id table) ids' /\
    decode_str s ps = Ok out /\ decode_str s ps' = Ok out /\
    decode s ids = Ok out /\ decode s ids' = Ok out.
Proof.
  intros A orders data toks vs cov mco table Ht Ho H.
  destruct (learn_bpe_accepted A orders data toks vs cov mco table Ht Ho H) as ((s & Es) & _ & F2 & _ & F5 & F6).
  exists s. split; [exact Es|]. intros line draws. exact (C08_split_same_text table s line draws Es F2 F5 F6).
Qed.
Example C73_ex : exists toks table, tokens_of KWord [lit "lol lo"; lit "lo lo ol"] toks /\ toks <> [] /\
  (forall w, In w toks -> plain_text w) /\ iteration_orders reversed /\
  learn_bpe arithQ reversed [lit "lol lo"; lit "lo lo ol"] 10 None 2 false = Ok table /\ length table = 10%nat.
Proof.
  exists [lit "lol"; lit "lo"; lit "lo"; lit "lo"; lit "ol"],
         (table_of (learn_bpe arithQ reversed [lit "lol lo"; lit "lo lo ol"] 10 None 2 false)).
  split; [exact (tokens_of_exist KWord [lit "lol lo"; lit "lo lo ol"] (or_introl eq_refl))|]. split; [discriminate|].
  split; [|split; [exact reversed_order|vm_compute; repeat split]].
  intros w [<-|[<-|[<-|[<-|[<-|[]]]]]] c H; repeat (destruct H as [<-|H]; [repeat split; discriminate|]); destruct H.
Qed.

Print Assumptions C27_textbook.
Print Assumptions C27_merge_is_replacement.
Print Assumptions C27_from_text.
Print Assumptions C28_structure.
Print Assumptions C29_no_assertion.
Print Assumptions C29_outcome_from_text.
Print Assumptions C30_stopping_partial.
Print Assumptions C30_exhaustion_refuted.
Print Assumptions C31_determinism_partial.
Print Assumptions C31_determinism_refuted.
Print Assumptions C32_index.
Print Assumptions C33_maxheap.
Print Assumptions C33_answers_unique.
Print Assumptions C68_accepted.
Print Assumptions C68_lossless.
Print Assumptions C69_real_characters_partial.
Print Assumptions C69_placeholder_refuted.
Print Assumptions C70_size.
Print Assumptions C70_too_small.
Print Assumptions C73_learned_reload.
Print Assumptions C74_learned_splits.
