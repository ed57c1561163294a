(** Re-spelling of Indic scripts: experimental/uxdx.py and experimental/unicode_fix.py. *)
From Coq Require Import Strings.String.
From Verif Require Import Py PyStr.
Local Open Scope N_scope.
Local Open Scope list_scope.

Definition in_set (c : N) (set : list N) : bool := existsb (N.eqb c) set.
(** set(range(a, b + 1)) *)
Definition code_range (a b : N) : list N := map (fun k => a + N.of_nat k) (seq 0 (N.to_nat (b + 1 - a))).

(** ** uxdx.py *)
(** uxdx.py:18; the same set in unicode_fix.py:234 *)
Definition DEVANAGARI_CONSONANTS : list N := code_range 0x915 0x939 ++ code_range 0x958 0x95F.
(** uxdx.py:19 *)
Definition impl_vowel_form : N := 0x22EE.
(** uxdx.py:22-25, Devanagari.decode *)
Definition ux_decode (line : str) : str := filter (fun c => negb (c =? impl_vowel_form)) line.
(** uxdx.py:27-36, Devanagari.encode: codes[i + 1] is the head of what follows *)
Fixpoint ux_encode (line : str) : str :=
  match line with
  | [] => []
  | c :: rest =>
      c :: match rest with
           | c' :: _ => if in_set c DEVANAGARI_CONSONANTS && in_set c' DEVANAGARI_CONSONANTS then [impl_vowel_form] else []
           | [] => []
           end ++ ux_encode rest
  end.

(** ** unicode_fix.py *)
(** unicode_fix.py:36 *)
Definition internal_full_vowel : N := 0xE000.
(** unicode_fix.py:41-49 and 88-108: the attributes of an AbugidaLang. [vowels] maps a vowel to its sign; the
    implicit vowel has none.  name and semi_vowels are left out: they are never read. *)
Record lang : Set := MkLang { vowels : list (N * option N); consonants : list N; impl_vowel : N; virama : N }.
(** unicode_fix.py:101 and 47-48: the two assertions of the constructors, for code points as ints. *)
Definition opt_eqb (a b : option N) : bool :=
  match a, b with Some x, Some y => x =? y | None, None => true | _, _ => false end.
Fixpoint distinct_values (l : list (option N)) : bool :=
  match l with [] => true | x :: l' => negb (existsb (opt_eqb x) l') && distinct_values l' end.
Definition make_lang (vowels : list (N * option N)) (consonants : list N) (impl_vowel virama : N) : res lang :=
  if distinct_values (map snd vowels) then
    if existsb (fun v => in_set (fst v) consonants) vowels then Raise AssertionError
    else Ok (MkLang vowels consonants impl_vowel virama)
  else Raise AssertionError.

(** unicode_fix.py:49 and 57-58 *)
Definition is_space_code (c : N) : bool := in_set c [32; 9; 10].
Section lang.
  Variable L : lang.
  (** unicode_fix.py:51-55 *)
  Definition is_vowel (c : N) : bool := dmem N.eqb c (vowels L).
  Definition is_consonant (c : N) : bool := in_set c (consonants L).
  (** unicode_fix.py:107: form_to_vowel; signs are distinct (unicode_fix.py:101) *)
  Definition form_to_vowel (c : N) : option N :=
    option_map fst (find (fun v => match snd v with Some f => f =? c | None => false end) (vowels L)).
  (** unicode_fix.py:110-112: the code 0 is falsy *)
  Definition is_vowel_form (c : N) : bool := negb (c =? 0) && match form_to_vowel c with Some _ => true | None => false end.
  (** unicode_fix.py:117-118 *)
  Definition is_virama (c : N) : bool := c =? virama L.

  (** [prev] is codes[i - 1], None for i = 0; [next] is what follows codes[i]. *)
  Definition at_beginning (prev : option N) : bool := match prev with None => true | Some p => is_space_code p end.
  Definition at_ending (next : str) : bool := match next with [] => true | n :: _ => is_space_code n end.
  Definition next_is (p : N -> bool) (next : str) : bool := match next with [] => false | n :: _ => p n end.

  (** unicode_fix.py:120-146, AbugidaLang.encode, from codes[i] on *)
  Fixpoint encode_from (prev : option N) (codes : str) : str :=
    match codes with
    | [] => []
    | c :: rest =>
        (if is_virama c then []
         else if is_vowel c then
           c :: if at_beginning prev then [] else [internal_full_vowel]
         else if is_consonant c then
           c :: if at_ending rest || negb (next_is is_vowel_form rest || next_is is_virama rest) then [impl_vowel L] else []
         else if is_vowel_form c then match form_to_vowel c with Some v => [v] | None => [] end
         else [c])
        ++ encode_from (Some c) rest
    end.
  Definition encode (line : str) : str := encode_from None line.

  (** unicode_fix.py:148-181, AbugidaLang.decode, from codes[i] on. codes_to_str (unicode_fix.py:77-80) leaves out
      the None that vowel_to_form gives for the implicit vowel.  The two branches for a vowel inside a word
      (unicode_fix.py:170-177) do the same. *)
  Definition sign_of (c : N) : str := match dget N.eqb c (vowels L) with Some (Some f) => [f] | _ => [] end.
  Definition vowel_inside (prev : option N) (c : N) : str :=
    match prev with
    | Some p => if is_consonant p then sign_of c else sign_of c
    | None => []
    end.
  Fixpoint decode_from (prev : option N) (codes : str) : str :=
    match codes with
    | [] => []
    | c :: rest =>
        if c =? internal_full_vowel then decode_from (Some c) rest
        else if is_consonant c then
          c :: (if at_ending rest || next_is is_consonant rest then [virama L] else []) ++ decode_from (Some c) rest
        else if is_vowel c then
          match rest with
          | m :: rest' =>
              if negb (is_space_code m) && (m =? internal_full_vowel) then c :: decode_from (Some m) rest'
              else (if at_beginning prev then [c] else vowel_inside prev c) ++ decode_from (Some c) rest
          | [] => if at_beginning prev then [c] else vowel_inside prev c
          end
        else c :: decode_from (Some c) rest
    end.
  Definition decode (line : str) : str := decode_from None line.

  (** unicode_fix.py:195-210, AbugidaLangLite.encode *)
  Fixpoint lite_encode (codes : str) : str :=
    match codes with
    | [] => []
    | c :: rest =>
        (if is_virama c then []
         else c :: if is_consonant c && (at_ending rest || next_is is_consonant rest) then [impl_vowel L] else [])
        ++ lite_encode rest
    end.
  (** unicode_fix.py:212-226, AbugidaLangLite.decode *)
  Fixpoint lite_decode (codes : str) : str :=
    match codes with
    | [] => []
    | c :: rest =>
        c :: if is_consonant c then
               if at_ending rest || next_is is_consonant rest then virama L :: lite_decode rest
               else match rest with
                    | n :: rest' => if impl_vowel L =? n then lite_decode rest' else lite_decode rest
                    | [] => lite_decode rest
                    end
             else lite_decode rest
    end.
End lang.

(** unicode_fix.py:228-243, get_aubugida: one script under the names hin, hindi, devanagari and sanskrit *)
Definition HINDI_VOWELS : list (N * option N) :=
  [(0x905, None); (0x906, Some 0x93E); (0x907, Some 0x93F); (0x908, Some 0x940); (0x909, Some 0x941); (0x90A, Some 0x942);
   (0x90B, Some 0x943); (0x960, Some 0x944); (0x90D, Some 0x945); (0x90E, Some 0x946); (0x90F, Some 0x947); (0x910, Some 0x948);
   (0x911, Some 0x949); (0x912, Some 0x94A); (0x913, Some 0x94B); (0x914, Some 0x94C); (0x90C, Some 0x962); (0x961, Some 0x963)].
Definition get_aubugida (name : str) : res lang :=
  if existsb (str_eqb name) [lit "hin"; lit "sanskrit"; lit "devanagari"; lit "hindi"]
  then make_lang HINDI_VOWELS DEVANAGARI_CONSONANTS 0x905 0x94D
  else Raise AssertionError.

(** uxdx.py:39-45 and unicode_fix.py:183-187, 246-251: what is written for the input text [inp].  Simplification: the input
    is its text (bytes that are not utf-8 are dropped before, lone surrogates after). *)
Definition line_by_line (f : str -> str) (inp : str) : str :=
  flat_map (fun line => f (rstrip_set [LF] line) ++ [LF]) (file_lines inp).
Definition ux_main (inp : str) (is_decode : bool) : str := line_by_line (if is_decode then ux_decode else ux_encode) inp.
Definition fix_main (inp name : str) (is_decode : bool) : res str :=
  match get_aubugida name with
  | Raise e => Raise e
  | Ok L => Ok (line_by_line (if is_decode then decode L else encode L) inp)
  end.
