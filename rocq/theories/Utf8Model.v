(** CPython's utf-8 codec and hex conversions, used by ByteScheme (codec.py:581-590) and by the
    vocabulary files (codec.py:113, codec.py:135). *)
From Verif Require Import Py PyStr.
Local Open Scope N_scope.

Definition is_surrogate (c : N) : bool := (55296 <=? c) && (c <=? 57343).
(** A Unicode scalar value: what utf-8 can encode. *)
Definition is_scalar (c : N) : bool := (c <? 1114112) && negb (is_surrogate c).

(** One character under str.encode('utf-8'); None = UnicodeEncodeError (lone surrogate). *)
Definition utf8_char (c : N) : option (list N) :=
  if c <? 128 then Some [c]
  else if c <? 2048 then Some [192 + c / 64; 128 + c mod 64]
  else if is_surrogate c then None
  else if c <? 65536 then Some [224 + c / 4096; 128 + (c / 64) mod 64; 128 + c mod 64]
  else if c <? 1114112 then
    Some [240 + c / 262144; 128 + (c / 4096) mod 64; 128 + (c / 64) mod 64; 128 + c mod 64]
  else None.

(** str.encode(line, 'utf-8') with errors='strict' (codec.py:590). *)
Fixpoint utf8_encode (s : str) : res (list N) :=
  match s with
  | [] => Ok []
  | c :: s' =>
      match utf8_char c with
      | None => Raise UnicodeError
      | Some bs => match utf8_encode s' with Ok r => Ok (bs ++ r) | Raise e => Raise e end
      end
  end.

(** Writing to a file opened with encoding='utf8', errors='ignore' (codec.py:113):
    lone surrogates are dropped. *)
Fixpoint utf8_encode_ignore (s : str) : list N :=
  match s with
  | [] => []
  | c :: s' => match utf8_char c with None => [] | Some bs => bs end ++ utf8_encode_ignore s'
  end.

Definition is_cont (b : N) : bool := (128 <=? b) && (b <? 192).

(** bytes.decode('utf-8', errors): [err] is what each ill-formed span is turned into:
    [U+FFFD] for errors='replace' (codec.py:587), [] for errors='ignore' (codec.py:135).
    Spans are the maximal ill-formed subparts, as in CPython's decoder. *)
Fixpoint utf8_decode (err : str) (bs : list N) : str :=
  match bs with
  | [] => []
  | b0 :: r0 =>
    if b0 <? 128 then b0 :: utf8_decode err r0
    else if b0 <? 194 then err ++ utf8_decode err r0
    else if b0 <? 224 then
      match r0 with
      | [] => err
      | b1 :: r1 =>
          if is_cont b1 then ((b0 - 192) * 64 + (b1 - 128)) :: utf8_decode err r1
          else err ++ utf8_decode err r0
      end
    else if b0 <? 240 then
      match r0 with
      | [] => err
      | b1 :: r1 =>
          if negb (is_cont b1) || (if b1 <? 160 then b0 =? 224 else b0 =? 237)
          then err ++ utf8_decode err r0
          else
            match r1 with
            | [] => err
            | b2 :: r2 =>
                if is_cont b2
                then ((b0 - 224) * 4096 + (b1 - 128) * 64 + (b2 - 128)) :: utf8_decode err r2
                else err ++ utf8_decode err r1
            end
      end
    else if b0 <? 245 then
      match r0 with
      | [] => err
      | b1 :: r1 =>
          if negb (is_cont b1) || (if b1 <? 144 then b0 =? 240 else b0 =? 244)
          then err ++ utf8_decode err r0
          else
            match r1 with
            | [] => err
            | b2 :: r2 =>
                if negb (is_cont b2) then err ++ utf8_decode err r1
                else
                  match r2 with
                  | [] => err
                  | b3 :: r3 =>
                      if is_cont b3
                      then ((b0 - 240) * 262144 + (b1 - 128) * 4096 + (b2 - 128) * 64
                            + (b3 - 128)) :: utf8_decode err r3
                      else err ++ utf8_decode err r2
                  end
            end
      end
    else err ++ utf8_decode err r0
  end.

(** f'{code:x}' for a byte (codec.py:583, codec.py:617): no zero padding. *)
Definition hexdig (d : N) : N := if d <? 10 then 48 + d else 87 + d.
Definition hex_of_byte (b : N) : str :=
  if b <? 16 then [hexdig b] else [hexdig (b / 16); hexdig (b mod 16)].

Definition hexval (c : N) : option N :=
  if (48 <=? c) && (c <=? 57) then Some (c - 48)
  else if (97 <=? c) && (c <=? 102) then Some (c - 87)
  else if (65 <=? c) && (c <=? 70) then Some (c - 55)
  else None.
Definition ascii_ws (c : N) : bool := ((9 <=? c) && (c <=? 13)) || (c =? 32).

(** bytes.fromhex(s): ASCII white space allowed between byte pairs; None = ValueError. *)
Fixpoint fromhex (s : str) : option (list N) :=
  match s with
  | [] => Some []
  | c :: s' =>
      if ascii_ws c then fromhex s'
      else
        match s' with
        | [] => None
        | d :: s'' =>
            match hexval c, hexval d with
            | Some x, Some y =>
                match fromhex s'' with Some r => Some (16 * x + y :: r) | None => None end
            | _, _ => None
            end
        end
  end.
