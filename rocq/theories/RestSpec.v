(** Vocabulary for the further entry points, independent of RestModel.v. *)
From Verif Require Import Py PyStr StrSpec LearnSpec.
Local Open Scope Z_scope.
Local Open Scope list_scope.

(** The characters of a list of words, each word followed by the end-of-word mark. *)
Definition marked_characters (toks : list str) : list str :=
  map (fun c => [c]) (flat_map (fun w => w ++ [MARK]) toks).

(** A number with its digits in groups of three: a first group of one to three digits, then groups
    of exactly three, each after a comma. *)
Definition digit_group (g : str) : Prop := Forall (fun c => (48 <= c <= 57)%N) g.
Definition grouped (s : str) : Prop :=
  exists head tail, s = head ++ flat_map (fun g => 44%N :: g) tail /\
    (1 <= length head <= 3)%nat /\ digit_group head /\
    Forall (fun g => length g = 3%nat /\ digit_group g) tail.
Definition without_commas (s : str) : str := filter (fun c => negb (N.eqb c 44)) s.

(** One printed line: word, tab, number. *)
Definition count_row (wf : str * Z) (row : str) : Prop :=
  exists num, row = fst wf ++ [9%N] ++ num ++ [10%N] /\ grouped num /\ without_commas num = str_of_Z (snd wf).
