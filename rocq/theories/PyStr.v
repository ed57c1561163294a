(** Python str methods used by nlcodec (split, strip, join, replace, int(), str()). *)
From Verif Require Import Py.
Local Open Scope N_scope.
Local Open Scope list_scope.

(** str.isspace / the separators of str.split() and str.strip():
    the 29 white-space code points of CPython 3. *)
Definition is_space (c : N) : bool :=
  ((9 <=? c) && (c <=? 13)) || ((28 <=? c) && (c <=? 32)) || (c =? 133) || (c =? 160)
  || (c =? 5760) || ((8192 <=? c) && (c <=? 8202)) || (c =? 8232) || (c =? 8233)
  || (c =? 8239) || (c =? 8287) || (c =? 12288).

Definition SPACE : N := 32.      (* ' '  *)
Definition TAB : N := 9.         (* '\t' *)
Definition LF : N := 10.         (* '\n' *)
Definition CR : N := 13.         (* '\r' *)
Definition MARK : N := 9601.     (* U+2581, codec.py:38 and codec.py:417 *)

Fixpoint lstrip (s : str) : str :=
  match s with
  | c :: s' => if is_space c then lstrip s' else s
  | [] => []
  end.
Definition rstrip (s : str) : str := rev (lstrip (rev s)).
(** s.strip() *)
Definition strip (s : str) : str := rstrip (lstrip s).

(** s.split(): maximal runs of non-space characters. [cur] is the current run, reversed. *)
Fixpoint split_aux (cur : str) (s : str) : list str :=
  match s with
  | [] => match cur with [] => [] | _ => [rev cur] end
  | c :: s' =>
      if is_space c then
        match cur with [] => split_aux [] s' | _ => rev cur :: split_aux [] s' end
      else split_aux (c :: cur) s'
  end.
Definition split (s : str) : list str := split_aux [] s.

(** s.split(d) for a one-character separator: always at least one field. *)
Fixpoint split_on_aux (d : N) (cur : str) (s : str) : list str :=
  match s with
  | [] => [rev cur]
  | c :: s' => if c =? d then rev cur :: split_on_aux d [] s' else split_on_aux d (c :: cur) s'
  end.
Definition split_on (d : N) (s : str) : list str := split_on_aux d [] s.

(** sep.join(l) *)
Fixpoint join (sep : str) (l : list str) : str :=
  match l with
  | [] => []
  | [w] => w
  | w :: l' => w ++ sep ++ join sep l'
  end.

(** s.replace(a, b) for one-character a and b. *)
Definition replace_char (a b : N) (s : str) : str := map (fun c => if c =? a then b else c) s.

(** s.startswith(p) *)
Fixpoint startswith (p s : str) : bool :=
  match p, s with
  | [], _ => true
  | x :: p', y :: s' => (x =? y) && startswith p' s'
  | _ :: _, [] => false
  end.

(** s.rstrip(chars): strips any trailing characters in the set. *)
Fixpoint lstrip_set (set : list N) (s : str) : str :=
  match s with
  | c :: s' => if existsb (N.eqb c) set then lstrip_set set s' else s
  | [] => []
  end.
Definition rstrip_set (set : list N) (s : str) : str := rev (lstrip_set set (rev s)).

(** str(n) for a non-negative int, and str(z). *)
Fixpoint digits_fuel (fuel : nat) (n : N) (acc : str) : str :=
  match fuel with
  | O => acc
  | S f => let acc' := (48 + n mod 10) :: acc in
           if n / 10 =? 0 then acc' else digits_fuel f (n / 10) acc'
  end.
Definition str_of_N (n : N) : str := digits_fuel (S (N.to_nat (N.log2 n))) n [].
Definition str_of_Z (z : Z) : str :=
  match z with
  | Z0 => [48]
  | Zpos p => str_of_N (Npos p)
  | Zneg p => 45 :: str_of_N (Npos p)
  end.

(** int(s): optional surrounding white space, optional sign, ASCII digits with single
    underscores between digits. Simplification: non-ASCII decimal digits, which int() also
    accepts, are rejected here. *)
Definition is_digit (c : N) : bool := (48 <=? c) && (c <=? 57).
Fixpoint int_digits (prev_us : bool) (acc : N) (s : str) : option N :=
  match s with
  | [] => if prev_us then None else Some acc
  | c :: s' =>
      if is_digit c then int_digits false (10 * acc + (c - 48)) s'
      else if (c =? 95) && negb prev_us then int_digits true acc s'
      else None
  end.
Definition int_nat (s : str) : option N :=
  match s with [] => None | c :: _ => if is_digit c then int_digits false 0 s else None end.
Definition int_of_str (s : str) : res Z :=
  match strip s with
  | 45 :: s' => match int_nat s' with Some n => Ok (- Z.of_N n)%Z | None => Raise ValueError end
  | 43 :: s' => match int_nat s' with Some n => Ok (Z.of_N n) | None => Raise ValueError end
  | s' => match int_nat s' with Some n => Ok (Z.of_N n) | None => Raise ValueError end
  end.

(** [for l in f] for a text file opened with universal newlines: '\r\n' and '\r' are read as
    '\n'; each line keeps its final '\n' (absent on an unterminated last line). *)
Fixpoint universal_nl (s : str) : str :=
  match s with
  | 13 :: 10 :: s' => 10 :: universal_nl s'
  | 13 :: s' => 10 :: universal_nl s'
  | c :: s' => c :: universal_nl s'
  | [] => []
  end.
Fixpoint lines_aux (cur : str) (s : str) : list str :=
  match s with
  | [] => match cur with [] => [] | _ => [rev cur] end
  | c :: s' => if c =? LF then rev (c :: cur) :: lines_aux [] s' else lines_aux (c :: cur) s'
  end.
Definition file_lines (s : str) : list str := lines_aux [] (universal_nl s).
