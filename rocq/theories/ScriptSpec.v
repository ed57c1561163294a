(** Which texts can be spelled back (ScriptModel.v). *)
From Verif Require Import Py ScriptModel.
Local Open Scope N_scope.
Local Open Scope list_scope.

Definition blank (c : N) : Prop := c = 32 \/ c = 9 \/ c = 10.
Definition signs (L : lang) : list N := flat_map (fun v => match snd v with Some f => [f] | None => [] end) (vowels L).
(** A script: vowels, signs, consonants, the virama, blanks and the internal marker are different characters, and the
    implicit vowel is the one without a sign. *)
Definition script (L : lang) : Prop :=
  NoDup (map fst (vowels L) ++ signs L ++ consonants L ++ [virama L; 32; 9; 10; 0xE000; 0]) /\ In (impl_vowel L, None) (vowels L).

(** Each virama follows a consonant, and a consonant, a blank or the end of the text follows it. *)
Definition viramas_between_consonants (L : lang) (l : str) : Prop :=
  forall a b, l = a ++ virama L :: b ->
    (exists a' k, a = a' ++ [k] /\ In k (consonants L)) /\
    (b = [] \/ exists n b', b = n :: b' /\ (blank n \/ In n (consonants L))).
(** No word begins with a vowel sign. *)
Definition signs_inside_words (L : lang) (l : str) : Prop :=
  forall a x b, l = a ++ x :: b -> In x (signs L) -> exists a' p, a = a' ++ [p] /\ ~ blank p.
(** No consonant is directly followed by the implicit vowel, written as a letter. *)
Definition no_written_implicit_vowel (L : lang) (l : str) : Prop :=
  forall a k b, l = a ++ k :: impl_vowel L :: b -> ~ In k (consonants L).

(** uxdx.py: no two consonants stand side by side; each mark stands between two consonants. *)
Definition sparse (l : str) : Prop :=
  forall a c c' b, l = a ++ c :: c' :: b -> ~ (In c DEVANAGARI_CONSONANTS /\ In c' DEVANAGARI_CONSONANTS).
Definition marks_between (l : str) : Prop :=
  forall a b, l = a ++ impl_vowel_form :: b ->
    exists a' k k' b', a = a' ++ [k] /\ b = k' :: b' /\ In k DEVANAGARI_CONSONANTS /\ In k' DEVANAGARI_CONSONANTS.
