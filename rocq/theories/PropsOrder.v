(** Property theorems about the order in which places are visited: sharper conditions for C31, C65 and C87. *)
From Coq Require Import Strings.String.
From Coq Require Import QArith.
From Verif Require Import Py PyStr PyLemmas StrSpec PyStrProofs CodecModel CodecSpec VocabSpec LearnModel ArithModel LearnSpec BpeSpec LearnBpeModel
     LearnBpeResults BpeppSpec DistinctSpec OrderSpec TrackModel TrackSpec OrderProofs PropsBpe PropsTrack PropsDistinct.
From Coq Require Import Lia.
Local Open Scope Z_scope.
Local Open Scope list_scope.

(** *** C31: two runs of the learner agree unless a subword is merged with itself while it occurs three times in a
    row; up to and including the first such merge they agree. *)
Theorem C31_first_difference : forall orders1 orders2 c vocab n_merges min_co level,
  learnable c vocab -> iteration_orders orders1 -> iteration_orders orders2 ->
  let r1 := learn_codes orders1 c vocab n_merges min_co level in
  let r2 := learn_codes orders2 c vocab n_merges min_co level in
  r1 = r2 \/
  exists j c' t' a f ta, merges min_co level j c vocab c' t' /\ best c' (a, a) f /\ thrice a c' /\
    0 <= a /\ nth_error t' (Z.to_nat a) = Some ta /\
    let ty := MkType (t_name ta ++ t_name ta) level (Z.of_nat (List.length t')) f (Some [ta; ta]) in
    extends (t' ++ [ty]) r1 /\ extends (t' ++ [ty]) r2.
Proof.
  intros orders1 orders2 c vocab n_merges min_co level Hl H1 H2 r1 r2.
  exact (bpe_agree _ _ _ _ _ _ (learn_codes_refines orders1 c vocab n_merges min_co level Hl H1)
           _ (learn_codes_refines orders2 c vocab n_merges min_co level Hl H2)).
Qed.
(** So one order tells whether the order matters at all. *)
Theorem C31_one_order : forall orders1 orders2 c vocab n min_co level table,
  learnable c vocab -> iteration_orders orders1 -> iteration_orders orders2 ->
  learn_codes orders1 c vocab n min_co level = Ok table -> doubles_apart (Z.of_nat (List.length vocab)) table c ->
  learn_codes orders2 c vocab n min_co level = Ok table.
Proof. exact codes_order. Qed.
(** From text. *)
Theorem C31_text : forall A orders1 orders2 data toks vs mco table,
  tokens_of KWord data toks -> iteration_orders orders1 -> iteration_orders orders2 ->
  learn_bpe A orders1 data vs None mco false = Ok table ->
  (forall ty x w, In ty table -> t_kids ty = Some [x; x] -> t_name x <> [] -> In w toks -> ~ part_of (t_name x ++ t_name x ++ t_name x) (w ++ [MARK])) ->
  learn_bpe A orders2 data vs None mco false = Ok table.
Proof. exact learn_bpe_order. Qed.
Theorem C31_cube_free : forall A orders1 orders2 data toks vs mco,
  tokens_of KWord data toks -> iteration_orders orders1 -> iteration_orders orders2 ->
  (forall w, In w toks -> cube_free (w ++ [MARK])) ->
  learn_bpe A orders1 data vs None mco false = learn_bpe A orders2 data vs None mco false.
Proof. exact learn_bpe_order_cube_free. Qed.
(** "aa" is doubled here, and the order does not matter. *)
Example C31_doubled : exists table x ty,
  tokens_of KWord [lit "aab aac"] [lit "aab"; lit "aac"] /\ learn_bpe arithQ as_is [lit "aab aac"] 10 None 2 false = Ok table /\
  In ty table /\ t_kids ty = Some [x; x] /\ (forall w, In w [lit "aab"; lit "aac"] -> cube_free (w ++ [MARK])) /\
  learn_bpe arithQ half_reversed [lit "aab aac"] 10 None 2 false = Ok table.
Proof.
  set (table := table_of (learn_bpe arithQ as_is [lit "aab aac"] 10 None 2 false)).
  exists table, (nth 6 table (MkType [] 0 0 0 None)), (nth 9 table (MkType [] 0 0 0 None)).
  assert (Hc : forall w, In w [lit "aab"; lit "aac"] -> cube_free (w ++ [MARK])).
  { intros w Hw. repeat (destruct Hw as [<-|Hw]; [apply short_cube_free; [vm_compute; lia|]; intros a p q E; vm_compute in E; do 6 (destruct p as [|? p]; [try discriminate E; injection E; intros; try discriminate; subst; congruence|cbn [app] in E; try discriminate E; injection E as ? E])|]). destruct Hw. }
  assert (Ht : tokens_of KWord [lit "aab aac"] [lit "aab"; lit "aac"]).
  { exists [[lit "aab"; lit "aac"]]. split; [|reflexivity]. constructor; [apply words_of_iff; reflexivity|constructor]. }
  assert (E : learn_bpe arithQ as_is [lit "aab aac"] 10 None 2 false = Ok table) by (vm_compute; reflexivity).
  split; [exact Ht|]. split; [exact E|]. split; [vm_compute; tauto|]. split; [vm_compute; reflexivity|]. split; [exact Hc|].
  rewrite <- E. exact (C31_cube_free arithQ half_reversed as_is _ _ 10 2 Ht half_reversed_order as_is_order Hc).
Qed.

(** *** C65: the count kept for a type is never too large, and it is right exactly when the type was not merged with
    itself while occurring three times in a row. *)
Theorem C65_when_exact : forall orders k ts ps seqs,
  iteration_orders orders -> (0 < k)%nat -> merge_list (Z.of_nat k) ts ps -> symbols_below (Z.of_nat k) (once seqs) ->
  exists rows cs, track_merges orders k ts (seqs, None) = Ok rows /\ merging (Z.of_nat k) (once seqs) ps cs /\
    List.length rows = S (List.length ps) /\ List.length cs = S (List.length ps) /\
    forall j rw c, nth_error rows j = Some rw -> nth_error cs j = Some c ->
      (r_counts rw = true_counts (k + j) c <-> unambiguous j ps cs) /\
      forall x, (x < k + j)%nat -> exists v, nth_error (r_counts rw) x = Some v /\ v <= symbol_count c (Z.of_nat x) /\
        (v = symbol_count c (Z.of_nat x) <->
         forall i ci, (i < j)%nat -> nth_error ps i = Some (Z.of_nat x, Z.of_nat x) -> nth_error cs i = Some ci -> ~ thrice (Z.of_nat x) ci).
Proof. exact counts_right. Qed.

(** *** C87: the rows do not depend on the order when no type is merged with itself while occurring three times in
    a row. *)
Theorem C87_unambiguous : forall o1 o2 k ts ps seqs cs,
  iteration_orders o1 -> iteration_orders o2 -> (0 < k)%nat -> merge_list (Z.of_nat k) ts ps ->
  symbols_below (Z.of_nat k) (once seqs) -> merging (Z.of_nat k) (once seqs) ps cs -> unambiguous (List.length ps) ps cs ->
  track_merges o1 k ts (seqs, None) = track_merges o2 k ts (seqs, None).
Proof. exact track_order. Qed.
(** Both conditions hold when no line has a part three times in a row. *)
Theorem C87_cube_free : forall k ts ps seqs cs,
  merge_list (Z.of_nat k) ts ps -> symbols_below (Z.of_nat k) (once seqs) -> merging (Z.of_nat k) (once seqs) ps cs ->
  (forall s, In s seqs -> cube_free s) -> unambiguous (List.length ps) ps cs.
Proof. exact lines_apart. Qed.
Example C87_doubled : merge_list 7 (skipn 7 ex_aa) [(6, 6)] /\ symbols_below 7 (once [[6; 6; 5; 6; 6; 5]]) /\
  merging 7 (once [[6; 6; 5; 6; 6; 5]]) [(6, 6)] [once [[6; 6; 5; 6; 6; 5]]; once [[7; 5; 7; 5]]] /\
  unambiguous 1 [(6, 6)] [once [[6; 6; 5; 6; 6; 5]]; once [[7; 5; 7; 5]]] /\
  map r_counts (rows_or_none (track_merges as_is 7 (skipn 7 ex_aa) ([[6; 6; 5; 6; 6; 5]], None))) =
    [[0; 0; 0; 0; 0; 2; 4]; [0; 0; 0; 0; 0; 2; 0; 2]].
Proof.
  split; [exact ex_aa_merges|]. split; [below_tac|]. split; [eapply mrg_step; [|apply mrg_end]; merged_tac|]. split; [|vm_compute; reflexivity].
  intros [|i] p c Hi Ep Ec [E (s & f & Hin & l1 & l2 & Es)]; [|lia]. injection Ep as <-. injection Ec as <-. destruct Hin as [Hin|[]]. injection Hin as <- <-. cbn [fst] in Es.
  do 7 (destruct l1 as [|? l1]; [discriminate Es|cbn [app] in Es; try discriminate Es; injection Es as _ Es]).
Qed.

Print Assumptions C31_first_difference.
Print Assumptions C31_one_order.
Print Assumptions C31_text.
Print Assumptions C31_cube_free.
Print Assumptions C65_when_exact.
Print Assumptions C87_unambiguous.
Print Assumptions C87_cube_free.
