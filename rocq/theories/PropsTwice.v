(** Property theorems about shrinking a vocabulary twice (C162). *)
From Coq Require Import Strings.String.
From Verif Require Import Py PyStr StrSpec CodecModel CodecSpec VocabFileModel VocabSpec
     ShrinkModel ShrinkSpec ShrinkProofs ShrinkTwice PropsCodec PropsVocab PropsShrink.
Local Open Scope Z_scope.
Local Open Scope list_scope.

(** *** C162: a shrunk vocabulary has nothing left to remove. Full statement: shrinking again with the same lines and
    min_freq keeps all types at their places. It holds for min_freq up to 1. Missing: a higher
    min_freq, where it is false. *)
Theorem C162_twice_partial : forall k table s lines min_freq, text_kind k -> make_scheme k table = Ok s ->
  well_indexed table -> kids_earlier table -> reserved_levels table -> min_freq <= 1 ->
  (exists line ps, In line lines /\ encode_str s line = Ok ps /\ ps <> []) ->
  exists mapping new s', shrink_vocab s lines min_freq = Ok (mapping, new) /\ make_scheme k new = Ok s' /\
    shrink_vocab s' lines min_freq = Ok (first_ids (length new), new).
Proof. exact shrink_twice. Qed.
Example C162_ex : text_kind KBpe /\ make_scheme KBpe ex_bpe = Ok (built KBpe ex_bpe) /\ well_indexed ex_bpe /\ kids_earlier ex_bpe /\
  reserved_levels ex_bpe /\ encode_str (built KBpe ex_bpe) (lit "b b") <> Ok [] /\
  exists new, shrink_vocab (built KBpe ex_bpe) [lit "b b"] 1 = Ok ([0; 1; 2; 3; 4; 5; 7], new) /\
    shrink_vocab (built KBpe new) [lit "b b"] 1 = Ok ([0; 1; 2; 3; 4; 5; 6], new).
Proof.
  split; [right; right; reflexivity|]. split; [vm_compute; reflexivity|]. split; [apply C15_ex|]. split; [apply C15_ex|]. split.
  { intros n t H Hn. repeat (destruct n as [|n]; [injection H as <-; reflexivity|]). lia. }
  split; [vm_compute; discriminate|].
  exists (match shrink_vocab (built KBpe ex_bpe) [lit "b b"] 1 with Ok r => snd r | Raise _ => [] end).
  vm_compute. repeat split.
Qed.
(* Without 'ab', which is rare, 'abcd' is a bc d instead of ab cd; now 'cd' is rare. *)
Definition ex_overlap : list Typ :=
  let a := ty (lit "a") 0 6 9 in let b := ty (lit "b") 0 7 9 in let c := ty (lit "c") 0 8 9 in let d := ty (lit "d") 0 9 9 in
  with_reserved_types ++ [a; b; c; d; MkType (lit "ab") 1 10 9 (Some [a; b]); MkType (lit "cd") 1 11 9 (Some [c; d]); MkType (lit "bc") 1 12 9 (Some [b; c])].
Theorem C162_twice_refuted : exists lines mapping new new',
  make_scheme KBpe ex_overlap = Ok (built KBpe ex_overlap) /\
  shrink_vocab (built KBpe ex_overlap) lines 2 = Ok (mapping, new) /\
  shrink_vocab (built KBpe new) lines 2 = Ok ([0; 1; 2; 3; 4; 5; 6; 7; 8; 11], new') /\ length new = 12%nat.
Proof.
  set (ls := [lit "abcd"; lit "cd"; lit "bc bc"; lit "a a"]).
  set (r := match shrink_vocab (built KBpe ex_overlap) ls 2 with Ok r => r | Raise _ => ([], []) end).
  exists ls, (fst r), (snd r), (match shrink_vocab (built KBpe (snd r)) ls 2 with Ok r => snd r | Raise _ => [] end).
  vm_compute. repeat split.
Qed.

Print Assumptions C162_twice_partial.
Print Assumptions C162_twice_refuted.
