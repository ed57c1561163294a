(** Property theorems about the coverage filter with the floats of the code (C24, C72). *)
From Coq Require Import Strings.String.
From Coq Require Import QArith Floats.SpecFloat.
From Verif Require Import Py PyStr PyLemmas StrSpec CodecModel CodecSpec LearnModel ArithModel LearnSpec LearnProofs
     FloatSpec FloatProofs FloatEnd.
Local Open Scope Z_scope.
Local Open Scope list_scope.

(** *** C24 with binary64 shares: rounding moves the cut by at most one unit of 2^-52 per type read. *)
Theorem C24_binary64 : forall tot c l,
  is_double c -> a_unit arith64 c = true -> 0 < tot -> (forall w f, In (w, f) l -> 0 < f) ->
  freq_sum l <= tot -> Z.of_nat (length l) < 2 ^ 52 ->
  (reaches arith64 tot c l -> (f64_Q c <= inject_Z (freq_sum l) / inject_Z tot + slack (length l))%Q) /\
  (~ reaches arith64 tot c l -> (inject_Z (freq_sum l) / inject_Z tot < f64_Q c + slack (length l))%Q).
Proof. exact reaches_64. Qed.
Example C24_binary64_ex :
  is_double (f64_div 9 10) /\ a_unit arith64 (f64_div 9 10) = true /\ freq_sum [(lit "the", 6); (lit "cat", 3)] <= 10 /\
  a_leb arith64 (f64_div 9 10) (share arith64 10 [(lit "the", 6); (lit "cat", 3)]) = false /\
  a_leb arith64 (f64_div 8 10) (share arith64 10 [(lit "the", 6); (lit "cat", 3)]) = true.
Proof. do 20 try (split; [vm_compute; first [reflexivity|discriminate]|]). vm_compute; reflexivity. Qed.
(** 0.6 + 0.3 falls short of 0.9, so one type more is kept than with exact shares. *)
Theorem C24_tie_refuted : exists types n d a b,
  NoDup (map fst types) /\ (forall w f, In (w, f) types -> 0 < f) /\
  filter_types_coverage arith64 types (f64_div n d) = Ok (a, 0) /\
  filter_types_coverage arithQ types (inject_Z n / inject_Z d)%Q = Ok (b, 1) /\ length a = S (length b).
Proof.
  exists [(lit "the", 6); (lit "cat", 3); (lit "sat", 1)], 9, 10, [(lit "the", 6); (lit "cat", 3); (lit "sat", 1)], [(lit "the", 6); (lit "cat", 3)].
  split; [vm_compute; repeat constructor; simpl; intuition congruence|].
  split; [|split; [vm_compute; reflexivity|split; [vm_compute; reflexivity|reflexivity]]].
  intros w f [H|[H|[H|[]]]]; injection H as <- <-; lia.
Qed.
(** Unless a share comes that close to the coverage, the filter decides as with exact shares. *)
Theorem C24_as_exact : forall types c,
  NoDup (map fst types) -> (forall w f, In (w, f) types -> 0 < f) -> Z.of_nat (length types) < 2 ^ 52 ->
  is_double c -> a_unit arith64 c = true ->
  (forall p q, ranked types (p ++ q) -> p <> [] -> q <> [] ->
     (f64_Q c + slack (length p) < inject_Z (freq_sum p) / inject_Z (freq_sum types))%Q \/
     (inject_Z (freq_sum p) / inject_Z (freq_sum types) < f64_Q c - slack (length p))%Q) ->
  filter_types_coverage arith64 types c = filter_types_coverage arithQ types (f64_Q c).
Proof. exact coverage_as_exact. Qed.
Definition fl_types : list (str * Z) := [(lit "the", 6); (lit "cat", 3); (lit "sat", 1)].
Example C24_as_exact_ex :
  is_double (f64_div 7 10) /\ a_unit arith64 (f64_div 7 10) = true /\
  filter_types_coverage arith64 fl_types (f64_div 7 10) = Ok ([(lit "the", 6); (lit "cat", 3)], 1) /\
  filter_types_coverage arithQ fl_types (f64_Q (f64_div 7 10)) = Ok ([(lit "the", 6); (lit "cat", 3)], 1).
Proof. do 20 try (split; [vm_compute; reflexivity|]). vm_compute; reflexivity. Qed.
(** The condition holds for these types: the shares 0.6 and 0.9 are far from 0.7. *)
Example C24_as_exact_hyp : forall p q, ranked fl_types (p ++ q) -> p <> [] -> q <> [] ->
     (f64_Q (f64_div 7 10) + slack (length p) < inject_Z (freq_sum p) / inject_Z (freq_sum fl_types))%Q \/
     (inject_Z (freq_sum p) / inject_Z (freq_sum fl_types) < f64_Q (f64_div 7 10) - slack (length p))%Q.
Proof.
  intros p q H Hp Hq. assert (E : p ++ q = fl_types).
  { apply (ranked_unique fl_types); [repeat constructor; cbn; intuition discriminate|exact H|]. change fl_types with (sorted_desc snd fl_types) at 2. apply sorted_desc_ranked. }
  unfold fl_types in E. destruct p as [|a [|b [|c p]]]; [congruence| | |].
  - injection E as -> Eq. right. vm_compute. reflexivity.
  - injection E as -> -> Eq. left. vm_compute. reflexivity.
  - injection E as -> -> -> Eq. destruct p; [|discriminate]. cbn in Eq. congruence.
Qed.

(** *** C72 with binary64 shares: coverage 1 keeps every type of a corpus in which the number of
    types times the number of tokens is at most 2^52. The full claim is refuted in PropsLearn.v. *)
Theorem C72_full_coverage_float_partial : forall types,
  NoDup (map fst types) -> (forall w f, In (w, f) types -> 0 < f) ->
  Z.of_nat (length types) * freq_sum types <= 2 ^ 52 ->
  exists incl, filter_types_coverage arith64 types (f64_div 1 1) = Ok (incl, 0) /\ Permutation incl types.
Proof. exact coverage_one_64. Qed.
(** Sharp up to a factor of the number of types: 1 token in 2^54+1 is lost, 1 in 2^50 is not. *)
Example C72_float_ex :
  Z.of_nat (length [(lit "a", 2 ^ 50); (lit "b", 1)]) * freq_sum [(lit "a", 2 ^ 50); (lit "b", 1)] <= 2 ^ 52 /\
  filter_types_coverage arith64 [(lit "a", 2 ^ 50); (lit "b", 1)] (f64_div 1 1) = Ok ([(lit "a", 2 ^ 50); (lit "b", 1)], 0).
Proof. split; [vm_compute; discriminate|vm_compute; reflexivity]. Qed.

Print Assumptions C24_binary64.
Print Assumptions C24_tie_refuted.
Print Assumptions C24_as_exact.
Print Assumptions C72_full_coverage_float_partial.
