(** Specification vocabulary for text, independent of the string model's algorithms:
    what the words of a line are, and what the normalised line is. *)
From Verif Require Import Py PyStr.

Definition gap (s : str) : Prop := Forall (fun c => is_space c = true) s.
Definition is_word (s : str) : Prop := s <> [] /\ Forall (fun c => is_space c = false) s.

(** [words_of line ws]: [line] consists of the words [ws] separated by non-empty white space,
    with optional white space at both ends. *)
Inductive words_of : str -> list str -> Prop :=
| W_end g : gap g -> words_of g []
| W_last g w : gap g -> is_word w -> words_of (g ++ w) [w]
| W_more g w c rest ws :
    gap g -> is_word w -> is_space c = true -> words_of rest ws ->
    words_of (g ++ w ++ c :: rest) (w :: ws).

(** The words with one separator between neighbours. *)
Fixpoint spaced (sep : N) (ws : list str) : str :=
  match ws with
  | [] => []
  | [w] => w
  | w :: ws' => w ++ sep :: spaced sep ws'
  end.

(** [normal line out]: [out] is [line] with every run of white space turned into one space and
    none at the ends. *)
Definition normal (line out : str) : Prop :=
  exists ws, words_of line ws /\ out = spaced SPACE ws.

(** Reading the marker U+2581 as a space. *)
Definition unmark (s : str) : str := map (fun c => if N.eqb c MARK then SPACE else c) s.

(** No white space at either end. *)
Definition stripped (s : str) : Prop :=
  (forall c r, s = c :: r -> is_space c = false) /\ (forall c r, s = r ++ [c] -> is_space c = false).

(** [trimmed s out]: out is s without the white space at its ends. *)
Definition trimmed (s out : str) : Prop :=
  exists g1 g2, gap g1 /\ gap g2 /\ s = g1 ++ out ++ g2 /\ stripped out.
