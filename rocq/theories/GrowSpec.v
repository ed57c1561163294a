(** Specification vocabulary for vocabularies of different sizes and for encoding a text in parts. *)
From Coq Require Import Strings.String.
From Verif Require Import Py PyStr StrSpec CodecModel CodecSpec.
Local Open Scope Z_scope.
Local Open Scope list_scope.

(** A type that is not the product of a merge. *)
Definition basic (t : Typ) : bool := match t_kids t with None => true | Some _ => false end.
(** How many types of a table are not the product of a merge. *)
Definition basics (table : list Typ) : nat := length (filter basic table).
(** A type that joins another type with itself. *)
Definition doubled (t : Typ) : Prop := exists k, t_kids t = Some [k; k].
(** The types of a table that are basic or at least m times frequent. *)
Definition at_least (m : Z) (table : list Typ) : list Typ :=
  filter (fun t => basic t || (m <=? t_freq t)) table.

(** The first entries after the six reserved ones, for a size limit of vs; no limit if vs <= 0. *)
Definition lim {A} (vs : Z) (l : list A) : list A := if vs <=? 0 then l else firstn (Z.to_nat (vs - 6)) l.
(** Frequent enough; a least frequency of 1 or below means no restriction. *)
Definition frequent (mf f : Z) : bool := (mf <=? 1) || (mf <=? f).

(** The end-of-word mark occurs in names only as the last character. *)
Definition marks_end (table : list Typ) : Prop :=
  forall t a b, In t table -> t_name t = a ++ MARK :: b -> b = [].
(** A line with at least one word. *)
Definition wordy (line : str) : Prop := exists w ws, words_of line (w :: ws).

(** At how many places of a text a piece starts. *)
Fixpoint begins (p text : str) : bool :=
  match p, text with
  | [], _ => true
  | x :: p', y :: text' => N.eqb x y && begins p' text'
  | _ :: _, [] => false
  end.
Fixpoint places (p text : str) : nat :=
  match text with
  | [] => 0
  | _ :: text' => (if begins p text then 1 else 0) + places p text'
  end.
(** A word as a table can spell it: the end-of-word mark is added, and characters that are not in
    the table become the unknown placeholder. *)
Definition listed (table : list Typ) (w : str) : bool := existsb (fun t => str_eqb (t_name t) w) table.
Definition spelled_word (table : list Typ) (w : str) : str :=
  flat_map (fun c => if listed table [c] then [c] else lit "<unk>") (w ++ [MARK]).
(** At how many places of the words of a corpus a piece starts. *)
Definition places_in (table : list Typ) (p : str) (toks : list str) : Z :=
  zsum (map (fun w => Z.of_nat (places p (spelled_word table w))) toks).
(** The character '<' occurs only in the reserved names. *)
Definition plain_names (table : list Typ) : Prop :=
  forall t, In t table -> In 60%N (t_name t) -> In (t_name t) reserved_names.
