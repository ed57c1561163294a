(** The fragment of Python's json module used for file headers: json.dumps with default
    arguments (codec.py:122, term_freq.py:76) and json.loads (codec.py:143, codec.py:384).
    Nothing here is nlcodec code. *)
From Coq Require Import Strings.String.
From Verif Require Import Py PyStr Utf8Model.
Local Open Scope N_scope.
Local Open Scope list_scope.

(** JSON values. Simplification: no floats (no header written by nlcodec has one); [loads] of a
    text with a float is reported as ValueError here. A dict is an association list in insertion
    order; integer keys are already converted to strings, as json.dumps does. *)
Inductive json : Set :=
| JNull | JBool (b : bool) | JInt (z : Z) | JStr (s : str)
| JArr (l : list json) | JObj (m : list (str * json)).

(** four hex digits, lower case *)
Definition hex4 (u : N) : str :=
  [hexdig (u / 4096); hexdig ((u / 256) mod 16); hexdig ((u / 16) mod 16); hexdig (u mod 16)].

(** json.encoder.py_encode_basestring_ascii: everything outside ' '..'~', the quote and the
    backslash are escaped; characters above U+FFFF become a surrogate pair. *)
Definition esc_char (c : N) : str :=
  if c =? 34 then [92; 34]
  else if c =? 92 then [92; 92]
  else if c =? 10 then [92; 110]
  else if c =? 13 then [92; 114]
  else if c =? 9 then [92; 116]
  else if c =? 12 then [92; 102]
  else if c =? 8 then [92; 98]
  else if (32 <=? c) && (c <=? 126) then [c]
  else if c <? 65536 then [92; 117] ++ hex4 c
  else [92; 117] ++ hex4 (55296 + (c - 65536) / 1024) ++
       [92; 117] ++ hex4 (56320 + (c - 65536) mod 1024).
Definition dump_str (s : str) : str := [34] ++ flat_map esc_char s ++ [34].

Definition COMMA_SP : str := [44; 32].
Definition COLON_SP : str := [58; 32].
Fixpoint dumps (j : json) : str :=
  match j with
  | JNull => lit "null"
  | JBool true => lit "true"
  | JBool false => lit "false"
  | JInt z => str_of_Z z
  | JStr s => dump_str s
  | JArr l => [91] ++ join COMMA_SP (map dumps l) ++ [93]
  | JObj m => [123] ++ join COMMA_SP
                ((fix go (m : list (str * json)) : list str :=
                    match m with
                    | [] => []
                    | (k, v) :: m' => (dump_str k ++ COLON_SP ++ dumps v) :: go m'
                    end) m) ++ [125]
  end.

(** json.decoder: white space is ' ', '\t', '\n', '\r' *)
Definition json_ws (c : N) : bool := (c =? 32) || (c =? 9) || (c =? 10) || (c =? 13).
Fixpoint skip_ws (s : str) : str :=
  match s with c :: s' => if json_ws c then skip_ws s' else s | [] => [] end.

Definition hex4_val (a b c d : N) : option N :=
  match hexval a, hexval b, hexval c, hexval d with
  | Some x, Some y, Some z, Some w => Some (4096 * x + 256 * y + 16 * z + w)
  | _, _, _, _ => None
  end.
Definition short_escape (e : N) : option N :=
  if e =? 34 then Some 34 else if e =? 92 then Some 92 else if e =? 47 then Some 47
  else if e =? 98 then Some 8 else if e =? 102 then Some 12 else if e =? 110 then Some 10
  else if e =? 114 then Some 13 else if e =? 116 then Some 9 else None.
Definition high_surr (u : N) : bool := (55296 <=? u) && (u <=? 56319).
Definition low_surr (u : N) : bool := (56320 <=? u) && (u <=? 57343).

Definition cons1 (c : N) (r : option (str * str)) : option (str * str) :=
  match r with Some (s, rest) => Some (c :: s, rest) | None => None end.
(** json.decoder.scanstring (strict) after the opening quote *)
Fixpoint scan_str (s : str) : option (str * str) :=
  match s with
  | [] => None
  | c :: r =>
      if c =? 34 then Some ([], r)
      else if c =? 92 then
        match r with
        | [] => None
        | e :: r1 =>
            if e =? 117 then
              match r1 with
              | a :: b :: c' :: d :: r2 =>
                  match hex4_val a b c' d with
                  | None => None
                  | Some u =>
                      match r2 with
                      | b1 :: u1 :: a2 :: b2 :: c2 :: d2 :: r3 =>
                          if high_surr u && (b1 =? 92) && (u1 =? 117) then
                            match hex4_val a2 b2 c2 d2 with
                            | None => None
                            | Some v =>
                                if low_surr v
                                then cons1 (65536 + (u - 55296) * 1024 + (v - 56320)) (scan_str r3)
                                else cons1 u (scan_str r2)
                            end
                          else cons1 u (scan_str r2)
                      | _ => cons1 u (scan_str r2)
                      end
                  end
              | _ => None
              end
            else match short_escape e with
                 | Some x => cons1 x (scan_str r1)
                 | None => None
                 end
        end
      else if c <? 32 then None
      else cons1 c (scan_str r)
  end.

(** json.scanner NUMBER_RE: an optional minus, then 0 or a digit run not starting with 0. *)
Fixpoint span_digits (s : str) : str * str :=
  match s with
  | c :: s' => if is_digit c then let '(d, r) := span_digits s' in (c :: d, r) else ([], s)
  | [] => ([], [])
  end.
Definition scan_nat (s : str) : option (N * str) :=
  match s with
  | [] => None
  | c :: r =>
      if c =? 48 then Some (0, r)
      else if is_digit c then
        let '(d, rest) := span_digits s in
        match int_digits false 0 d with Some n => Some (n, rest) | None => None end
      else None
  end.
(** a fraction or an exponent after the integer part means a float *)
Definition is_float_tail (s : str) : bool :=
  match s with
  | 46 :: d :: _ => is_digit d
  | e :: d :: r =>
      ((e =? 101) || (e =? 69)) &&
      (is_digit d || (((d =? 43) || (d =? 45)) && match r with d2 :: _ => is_digit d2 | [] => false end))
  | _ => false
  end.
Definition scan_int (s : str) : option (Z * str) :=
  let (neg, s1) := match s with
                   | c :: r => if c =? 45 then (true, r) else (false, s)
                   | [] => (false, s) end in
  match scan_nat s1 with
  | Some (n, rest) =>
      if is_float_tail rest then None
      else Some ((if neg then - Z.of_N n else Z.of_N n)%Z, rest)
  | None => None
  end.

(** json.scanner.scan_once and JSONObject/JSONArray. The recursion is bounded by fuel; loads
    gives it enough (json_loads_fuel in JsonProofs.v). A repeated key keeps its first position
    and takes the last value, as dict(pairs) does. *)
Fixpoint parse_val (fuel : nat) (s : str) : res (json * str) :=
  match fuel with
  | O => Raise OutOfFuel
  | S f =>
      match s with
      | [] => Raise ValueError
      | c :: r =>
          if c =? 34 then
            match scan_str r with Some (x, rest) => Ok (JStr x, rest) | None => Raise ValueError end
          else if c =? 123 then
            match skip_ws r with
            | [] => Raise ValueError
            | d :: r' => if d =? 125 then Ok (JObj [], r') else parse_members f [] (d :: r')
            end
          else if c =? 91 then
            match skip_ws r with
            | [] => Raise ValueError
            | d :: r' => if d =? 93 then Ok (JArr [], r') else parse_elems f [] (d :: r')
            end
          else if startswith (lit "null") s then Ok (JNull, skipn 4 s)
          else if startswith (lit "true") s then Ok (JBool true, skipn 4 s)
          else if startswith (lit "false") s then Ok (JBool false, skipn 5 s)
          else match scan_int s with Some (z, rest) => Ok (JInt z, rest) | None => Raise ValueError end
      end
  end
with parse_members (fuel : nat) (acc : list (str * json)) (s : str) : res (json * str) :=
  match fuel with
  | O => Raise OutOfFuel
  | S f =>
      match s with
      | [] => Raise ValueError
      | c :: r =>
          if negb (c =? 34) then Raise ValueError
          else
            match scan_str r with
            | None => Raise ValueError
            | Some (k, r1) =>
                match skip_ws r1 with
                | [] => Raise ValueError
                | c1 :: r2 =>
                    if negb (c1 =? 58) then Raise ValueError
                    else
                      match parse_val f (skip_ws r2) with
                      | Raise e => Raise e
                      | Ok (v, r3) =>
                          let acc' := dset str_eqb k v acc in
                          match skip_ws r3 with
                          | [] => Raise ValueError
                          | c2 :: r4 =>
                              if c2 =? 125 then Ok (JObj acc', r4)
                              else if c2 =? 44 then parse_members f acc' (skip_ws r4)
                              else Raise ValueError
                          end
                      end
                end
            end
      end
  end
with parse_elems (fuel : nat) (acc : list json) (s : str) : res (json * str) :=
  match fuel with
  | O => Raise OutOfFuel
  | S f =>
      match parse_val f s with
      | Raise e => Raise e
      | Ok (v, r1) =>
          match skip_ws r1 with
          | [] => Raise ValueError
          | c :: r2 =>
              if c =? 93 then Ok (JArr (acc ++ [v]), r2)
              else if c =? 44 then parse_elems f (acc ++ [v]) (skip_ws r2)
              else Raise ValueError
          end
      end
  end.

(** json.loads *)
Definition loads (s : str) : res json :=
  match parse_val (S (2 * length s)) (skip_ws s) with
  | Raise e => Raise e
  | Ok (j, rest) => match skip_ws rest with [] => Ok j | _ => Raise ValueError end
  end.

(** d[key] / key in d on a loaded dict *)
Definition jget (k : str) (m : list (str * json)) : option json := dget str_eqb k m.

(** json.dumps(j, indent=2): json.encoder._make_iterencode. An empty list or dict is written
    without a line break; the item separator is a comma without a space. *)
Definition nl (lvl : nat) : str := 10 :: repeat 32 (2 * lvl).
Fixpoint dumps_ind (lvl : nat) (j : json) : str :=
  match j with
  | JArr [] => [91; 93]
  | JArr l => [91] ++ nl (S lvl) ++ join (44 :: nl (S lvl)) (map (dumps_ind (S lvl)) l) ++ nl lvl ++ [93]
  | JObj [] => [123; 125]
  | JObj m => [123] ++ nl (S lvl) ++
              join (44 :: nl (S lvl))
                ((fix go (m : list (str * json)) : list str :=
                    match m with
                    | [] => []
                    | (k, v) :: m' => (dump_str k ++ COLON_SP ++ dumps_ind (S lvl) v) :: go m'
                    end) m) ++ nl lvl ++ [125]
  | _ => dumps j
  end.
