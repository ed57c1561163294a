(** Property theorems about byte vocabularies: exactly which texts come back (C12, C13), and what other spellings mean (C153). *)
From Coq Require Import Strings.String.
From Verif Require Import Py PyStr StrSpec Utf8Model CodecModel CodecSpec ByteProofs ByteSpec ByteEnd HexProofs.
Local Open Scope Z_scope.
Local Open Scope list_scope.

(** *** C12: a text comes back exactly when no character is below U+0010; decoding fails exactly
    when an odd number of them is. Ids and pieces behave alike. *)
Theorem C12_byte_outcome : forall t, (forall c, In c t -> is_scalar c = true) ->
  exists s ps ids r, make_scheme KByte [] = Ok s /\ encode_str s t = Ok ps /\ encode s t = Ok ids /\
    decode_str s ps = r /\ decode s ids = r /\
    (r = Ok t <-> forall c, In c t -> (16 <= c)%N) /\
    (r = Raise ValueError <-> Nat.odd (lows t) = true) /\ (forall e, r = Raise e -> e = ValueError).
Proof. exact byte_outcome. Qed.
Example C12_outcome_ex :
  decode byte_scheme [0; 0; 0; 0] = Ok [0; 0]%N /\ decode byte_scheme [10; 97; 9] = Ok [65533; 25]%N /\
  encode byte_scheme [10; 97; 9]%N = Ok [10; 97; 9] /\ lows [10; 97; 9]%N = 2%nat /\ decode byte_scheme [97; 9] = Raise ValueError.
Proof. do 20 try (split; [vm_compute; reflexivity|]). vm_compute; reflexivity. Qed.

(** *** C13: a list of ids decodes exactly when between any two markers the number of ids below 16 is even. *)
Theorem C13_byte_decode_iff : forall ids, Forall (fun i => 0 <= i < 258) ids ->
  ((exists out, decode byte_scheme ids = Ok out) <->
   forall a r b, ids = a ++ r ++ b -> (a = [] \/ exists a' m, a = a' ++ [m] /\ 256 <= m) -> (b = [] \/ exists m b', b = m :: b' /\ 256 <= m) ->
     Forall (fun i => i < 256) r -> Nat.even (length (filter (fun i => i <? 16) r)) = true).
Proof. exact byte_decode_iff. Qed.
(** What a run of bytes decodes to: its digits regrouped two by two, as utf-8. *)
Theorem C13_byte_decode_exact : forall ids, Forall (fun i => 0 <= i < 256) ids ->
  decode byte_scheme ids =
  match regrouped (map Z.to_N ids) with Some out => Ok (utf8_decode [65533%N] out) | None => Raise ValueError end.
Proof. exact decode_any. Qed.
Example C13_iff_ex : decode byte_scheme [256; 4; 97; 1; 257] = Ok (lit "<s>F" ++ [17]%N ++ lit "</s>") /\
  decode byte_scheme [4; 256; 1] = Raise ValueError.
Proof. split; vm_compute; reflexivity. Qed.

(** *** C153: decode_str of the byte scheme reads its pieces as one hexadecimal text, however it is cut into pieces, in
    capitals or not, with white space between bytes; anything else but the two markers raises ValueError. *)
Theorem C153_any_spelling : forall s ps, make_scheme KByte [] = Ok s -> (forall p, In p ps -> p <> lit "<s>" /\ p <> lit "</s>") ->
  (forall bs, spells (concat ps) bs -> decode_str s ps = Ok (utf8_decode [65533%N] bs)) /\
  ((forall bs, ~ spells (concat ps) bs) -> decode_str s ps = Raise ValueError).
Proof. exact any_spelling. Qed.
Example C153_ex : spells (concat [lit "4"; lit "Ac3"; lit " a9"]) [0x4A; 0xC3; 0xA9]%N /\ decode_str byte_scheme [lit "4"; lit "Ac3"; lit " a9"] = Ok [74; 233]%N /\
  (forall bs, ~ spells (concat [lit "4"; lit "x"]) bs).
Proof.
  split; [|split; [vm_compute; reflexivity|]].
  - unfold lit; cbn. change 74%N with (16 * 4 + 10)%N. apply spells_byte; [unfold digit; lia|unfold digit; lia|].
    change 195%N with (16 * 12 + 3)%N. apply spells_byte; [unfold digit; lia|unfold digit; lia|]. apply spells_blank; [right; reflexivity|].
    change 169%N with (16 * 10 + 9)%N. apply spells_byte; [unfold digit; lia|unfold digit; lia|]. constructor.
  - intros bs H. apply fromhex_spells in H. discriminate H.
Qed.
Print Assumptions C12_byte_outcome.
Print Assumptions C13_byte_decode_iff.
Print Assumptions C13_byte_decode_exact.
Print Assumptions C153_any_spelling.
