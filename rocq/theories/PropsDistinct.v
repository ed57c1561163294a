(** Property theorems about the names of learned subwords (C143). *)
From Coq Require Import Strings.String.
From Coq Require Import QArith.
From Verif Require Import Py PyStr PyLemmas StrSpec PyStrProofs CodecModel CodecSpec VocabSpec LearnModel ArithModel LearnSpec BpeSpec LearnBpeModel
     LearnBpeResults BpeppModel BpeppSpec DistinctSpec DistinctProofs DistinctEnd PropsBpe PropsBpepp.
From Coq Require Import Lia.
Local Open Scope Z_scope.
Local Open Scope list_scope.

(** *** C143: learned subwords have distinct names. False in general (below); true when no subword that was
    doubled occurs three times in a row, and no word contains the name of a placeholder. *)
Theorem C143_spellings_partial : forall orders c vocab n min_co level table,
  learnable c vocab -> iteration_orders orders -> learn_codes orders c vocab n min_co level = Ok table ->
  let k := Z.of_nat (List.length vocab) in
  doubles_apart k table c ->
  (forall m, 0 <= m < Z.of_nat (List.length table) -> exists l, spelling k table m l) /\
  (forall m m' l, spelling k table m l -> spelling k table m' l -> m = m').
Proof.
  intros orders c vocab n min_co level table Hl Ho H k Hd.
  pose proof (bpe_run _ _ _ _ _ _ (learn_codes_refines orders c vocab n min_co level Hl Ho) table H) as Hrun.
  destruct (run_distinct c vocab table Hrun (l_wi _ _ Hl) (l_range _ _ Hl) Hd) as [H1 H2]. split; [|exact H2].
  intros m Hm. destruct (H1 m Hm) as (l & Hs & _). exists l. exact Hs.
Qed.
Theorem C143_names_partial : forall A orders data toks vs mco table,
  tokens_of KWord data toks -> iteration_orders orders -> learn_bpe A orders data vs None mco false = Ok table ->
  (forall ty x w, In ty table -> t_kids ty = Some [x; x] -> In w toks -> ~ part_of (t_name x ++ t_name x ++ t_name x) (w ++ [MARK])) ->
  (forall m m' ty ty', nth_error table m = Some ty -> nth_error table m' = Some ty' -> (5 <= m)%nat -> (5 <= m')%nat ->
     t_name ty = t_name ty' -> m = m') /\
  ((forall w p, In w toks -> In p placeholders -> ~ part_of p w) -> distinct_names table).
Proof. exact learn_bpe_distinct. Qed.
(** Conditions on the text alone. *)
Theorem C143_cube_free : forall A orders data toks vs mco table,
  tokens_of KWord data toks -> iteration_orders orders -> learn_bpe A orders data vs None mco false = Ok table ->
  (forall w, In w toks -> cube_free (w ++ [MARK])) -> (forall w p, In w toks -> In p placeholders -> ~ part_of p w) ->
  distinct_names table.
Proof. exact learn_bpe_cube_free. Qed.
(** The learner of experimental/bpepp.py; its second level refuses tables with repeated names (C140_level2). *)
Theorem C143_bpepp : forall orders lines toks vs mco wmf table,
  tokens_of KWord lines toks -> iteration_orders orders -> 1 <= mco ->
  (forall w, In w toks -> cube_free (w ++ [MARK])) -> (forall w p, In w toks -> In p placeholders -> ~ part_of p w) ->
  pp_learn_from_corpus orders lines vs mco 1 wmf = Ok table -> distinct_names table.
Proof. exact pp_learn_distinct. Qed.

(** "aaa" is learned twice, as aa+a and as a+aa, when the places of "aa" are visited in this order. *)
Definition half_reversed (i : nat) (l : list nat) : list nat := firstn (List.length l / 2) l ++ rev (skipn (List.length l / 2) l).
Lemma half_reversed_order : iteration_orders half_reversed.
Proof.
  intros i l. unfold half_reversed. generalize (List.length l / 2)%nat. intros n. rewrite <- (firstn_skipn n l) at 3. apply Permutation_app_head. symmetry. apply Permutation_rev.
Qed.
Definition ppd_table : list Typ := table_of (pp_learn_from_corpus in_order [lit "<s>a <s>b <s>c"] 14 2 1 1).
Theorem C143_refuted :
  (exists orders data table, iteration_orders orders /\ learn_bpe arithQ orders data 14 None 2 false = Ok table /\
     option_map t_name (nth_error table 12) = Some (lit "aaa") /\ option_map t_name (nth_error table 13) = Some (lit "aaa")) /\
  (exists data table, learn_bpe arithQ as_is data 14 None 2 false = Ok table /\
     option_map t_name (nth_error table 2) = Some (lit "<s>") /\ option_map t_name (nth_error table 13) = Some (lit "<s>")) /\
  pp_learn_from_corpus in_order [lit "<s>a <s>b <s>c"] 14 2 1 1 = Ok ppd_table /\ ~ distinct_names ppd_table /\
  snd (pp_learn in_order in_order (lit "t1") (lit "t2") Learn [lit "<s>a <s>b <s>c"] (lit "v") None (MkArgs 1 1 14 2 2 1 false) []) = Some AssertionError.
Proof.
  split.
  - exists half_reversed, [lit "aaab aaac aaad aaae"], (table_of (learn_bpe arithQ half_reversed [lit "aaab aaac aaad aaae"] 14 None 2 false)).
    split; [exact half_reversed_order|]. vm_compute. repeat split.
  - split.
    + exists [lit "<s>a <s>b <s>c"], (table_of (learn_bpe arithQ as_is [lit "<s>a <s>b <s>c"] 14 None 2 false)). vm_compute. repeat split.
    + split; [vm_compute; reflexivity|]. split; [|vm_compute; reflexivity].
      intros H. unfold distinct_names in H. rewrite (NoDup_nth_error (map t_name ppd_table)) in H. specialize (H 2%nat 13%nat ltac:(vm_compute; lia) ltac:(vm_compute; reflexivity)). discriminate H.
Qed.

(** Short words without three equal characters in a row are cube-free. *)
Lemma short_cube_free {A} (w : list A) : (List.length w < 6)%nat -> (forall a p q, w <> p ++ a :: a :: a :: q) -> cube_free w.
Proof.
  intros Hl Hno x Hx (p & q & E). destruct x as [|a [|b x]]; [contradiction| |].
  - exact (Hno a p q E).
  - subst w. rewrite !app_length in Hl. cbn [List.length] in Hl. lia.
Qed.
Example C143_ex : exists table,
  tokens_of KWord [lit "lol lo"; lit "lo lo ol"] [lit "lol"; lit "lo"; lit "lo"; lit "lo"; lit "ol"] /\
  learn_bpe arithQ as_is [lit "lol lo"; lit "lo lo ol"] 10 None 2 false = Ok table /\
  (forall w, In w [lit "lol"; lit "lo"; lit "lo"; lit "lo"; lit "ol"] -> cube_free (w ++ [MARK])) /\
  (forall w p, In w [lit "lol"; lit "lo"; lit "lo"; lit "lo"; lit "ol"] -> In p placeholders -> ~ part_of p w) /\
  map t_name (skipn 8 table) = [lit "lo"; (lit "lo" ++ [MARK])%list].
Proof.
  exists (table_of (learn_bpe arithQ as_is [lit "lol lo"; lit "lo lo ol"] 10 None 2 false)). split; [|split; [vm_compute; reflexivity|split; [|split; [|vm_compute; reflexivity]]]].
  - exists [[lit "lol"; lit "lo"]; [lit "lo"; lit "lo"; lit "ol"]]. split; [|reflexivity]. constructor; [apply words_of_iff; reflexivity|]. constructor; [apply words_of_iff; reflexivity|]. constructor.
  - intros w Hw. repeat (destruct Hw as [<-|Hw]; [apply short_cube_free; [vm_compute; lia|]; intros a p q E; vm_compute in E; do 6 (destruct p as [|? p]; [try discriminate E; injection E; intros; try discriminate; subst; congruence|cbn [app] in E; try discriminate E; injection E as ? E])|]). destruct Hw.
  - intros w p Hw Hp (l & r & E).
    assert (H60 : In 60%N w) by (rewrite E, !in_app_iff; right; left; repeat (destruct Hp as [<-|Hp]; [left; reflexivity|]); destruct Hp).
    repeat (destruct Hw as [<-|Hw]; [cbn in H60; intuition discriminate|]). destruct Hw.
Qed.
(** A doubled subword that never occurs three times in a row: "aa" in "aab aac". *)
Example C143_doubled : exists table x, learn_bpe arithQ half_reversed [lit "aab aac"] 10 None 2 false = Ok table /\
  option_map t_kids (nth_error table 9) = Some (Some [x; x]) /\ t_name x = lit "a".
Proof.
  exists (table_of (learn_bpe arithQ half_reversed [lit "aab aac"] 10 None 2 false)). eexists. vm_compute. repeat split.
Qed.

Print Assumptions C143_spellings_partial.
Print Assumptions C143_names_partial.
Print Assumptions C143_cube_free.
Print Assumptions C143_bpepp.
Print Assumptions C143_refuted.
