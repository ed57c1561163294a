(** Property theorems about learning from a text said k times (C161). *)
From Coq Require Import Strings.String.
From Verif Require Import Py PyStr PyLemmas StrSpec PyStrProofs CodecModel CodecSpec LearnModel ArithModel LearnSpec
     LearnBpeModel BpeSpec PropsCodec PropsBpe ScaleSpec ScaleProofs.
Local Open Scope Z_scope.
Local Open Scope list_scope.

(** *** C161: only relative frequencies matter. With the thresholds multiplied too, a text said k times gives the
    vocabulary of the text, with k times the frequencies. *)
Theorem C161_flat : forall A kd k data vs min_freq, kd = KWord \/ kd = KChar \/ kd = KClass ->
  learn_flat A kd (copies (S k) data) vs (Z.of_nat (S k) * min_freq) None false =
  table_times (Z.of_nat (S k)) (learn_flat A kd data vs min_freq None false).
Proof. exact flat_times. Qed.
Example C161_ex_flat : let data := [lit "b a b"; lit "a c"] in
  learn_flat arithQ KWord (copies 3 data) 0 6 None false = table_times 3 (learn_flat arithQ KWord data 0 2 None false) /\
  exists table, learn_flat arithQ KWord (copies 3 data) 0 6 None false = Ok table /\
  map (fun t => (t_name t, t_freq t)) (skipn 6 table) = [(lit "b", 6); (lit "a", 6)] /\ nth 1 (map t_freq table) 0 = 3.
Proof. split; [vm_compute; reflexivity|]. exists (table_of (learn_flat arithQ KWord (copies 3 [lit "b a b"; lit "a c"]) 0 6 None false)). vm_compute. repeat split. Qed.

(** Byte pair encoding, from sequences with frequencies. *)
Theorem C161_codes : forall orders1 orders2 k c vocab n mco level, 0 < k -> learnable c vocab ->
  iteration_orders orders1 -> iteration_orders orders2 ->
  same_until_double (map (times k) vocab) (learn_codes orders2 (weigh k c) (map (times k) vocab) n (k * mco) level)
    (table_times k (learn_codes orders1 c vocab n mco level)).
Proof. exact codes_times. Qed.
(** Byte pair encoding, from text with at least one word. *)
Theorem C161_text : forall A orders1 orders2 k data toks vs mco, tokens_of KWord data toks -> toks <> [] -> 1 < vs \/ 1 < mco ->
  iteration_orders orders1 -> iteration_orders orders2 ->
  same_until_double [] (learn_bpe A orders2 (copies (S k) data) vs None (Z.of_nat (S k) * mco) false)
    (table_times (Z.of_nat (S k)) (learn_bpe A orders1 data vs None mco false)).
Proof. exact text_times. Qed.
Example C161_ex_codes : learnable ex_lol ex_lo /\ exists table,
  learn_codes as_is (weigh 5 ex_lol) (map (times 5) ex_lo) 2 10 1 = Ok table /\
  Ok table = table_times 5 (learn_codes as_is ex_lol ex_lo 2 2 1) /\ map t_freq (skipn 8 table) = [20; 15].
Proof.
  split; [exact ex_lol_learnable|]. exists (table_of (learn_codes as_is (weigh 5 ex_lol) (map (times 5) ex_lo) 2 10 1)). vm_compute. repeat split.
Qed.
Example C161_ex_text : let data := [lit "lol lo"; lit "lo lo ol"] in exists table,
  learn_bpe arithQ as_is (copies 3 data) 10 None 6 false = Ok table /\
  Ok table = table_times 3 (learn_bpe arithQ as_is data 10 None 2 false) /\
  map (fun t => (t_name t, t_freq t)) (skipn 8 table) = [(lit "lo", 12); ((lit "lo" ++ [MARK])%list, 9)] /\ 1 < 10.
Proof. exists (table_of (learn_bpe arithQ as_is (copies 3 [lit "lol lo"; lit "lo lo ol"]) 10 None 6 false)). vm_compute. repeat split. Qed.
(* Without the condition on the sizes it fails: a threshold above 1 makes a size of 1 mean no limit (and then the
   pairs run out, C30), while with the threshold 1 the size is refused. *)
Theorem C161_text_small_refuted : exists data,
  learn_bpe arithQ as_is data 1 None 1 false = Raise AssertionError /\
  learn_bpe arithQ as_is (copies 2 data) 1 None 2 false = Raise IndexError.
Proof. exists [lit "lol lo"; lit "lo lo ol"]. vm_compute. split; reflexivity. Qed.

Print Assumptions C161_flat.
Print Assumptions C161_codes.
Print Assumptions C161_text.
Print Assumptions C161_text_small_refuted.
