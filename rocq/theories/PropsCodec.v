(** Property theorems about encoding and decoding (C01-C14, C59). *)
From Coq Require Import Strings.String.
From Verif Require Import Py PyStr StrSpec Utf8Model CodecModel CodecSpec
     PyStrProofs FlatProofs TrieProofs BpeProofs ByteProofs ControlProofs.
Local Open Scope Z_scope.
Local Open Scope list_scope.
Local Open Scope res_scope.

(** *** Example tables used to show that hypotheses can be met *)
Definition ty (n : str) (lv i f : Z) : Typ := MkType n lv i f None.
Definition ex_word : list Typ :=
  with_reserved_types ++ [ty (lit "ab") 2 6 3; ty (lit "c") 2 7 1].
Definition ex_char : list Typ :=
  with_reserved_types ++ [ty (lit "a") 0 6 3; ty (lit "b") 0 7 1].
Definition ex_a : Typ := ty (lit "a") 0 6 3.
Definition ex_b : Typ := ty (lit "b") 0 7 3.
Definition ex_ab : Typ := MkType (lit "ab") 1 8 2 (Some [ex_a; ex_b]).
Definition ex_abb : Typ := MkType (lit "abb") 1 9 1 (Some [ex_ab; ex_b]).
Definition ex_bpe : list Typ := with_reserved_types ++ [ex_a; ex_b; ex_ab; ex_abb].
Definition ex_class : list Typ := [ty (lit "neg") 0 0 1; ty (lit "pos") 0 1 1].

(** the scheme constructed from an example table *)
Definition built (k : kind) (table : list Typ) : scheme :=
  match make_scheme k table with
  | Ok s => s | Raise _ => MkScheme k [] [] [] None tr_empty end.

(** *** C01: word pieces are the words of the line, and decoding gives the normalised line. *)
Theorem C01_word_pieces : forall s line,
  s_kind s = KWord ->
  exists ps out, encode_str s line = Ok ps /\ words_of line ps /\
                 decode_str s ps = Ok out /\ normal line out.
Proof. exact word_pieces_roundtrip. Qed.
Example C01_ex : exists s, make_scheme KWord ex_word = Ok s /\ s_kind s = KWord /\
  encode_str s (lit "  ab   c ") = Ok [lit "ab"; lit "c"] /\
  decode_str s [lit "ab"; lit "c"] = Ok (lit "ab c").
Proof. exists (built KWord ex_word). vm_compute. repeat split. Qed.

(** *** C02: exact word ids; UNK exactly for out-of-vocabulary words. *)
Theorem C02_word_ids : forall table s line,
  make_scheme KWord table = Ok s ->
  exists ws ids outs,
    words_of line ws /\
    encode s line = Ok ids /\ Forall2 (id_of table) ws ids /\
    Forall2 (shown table) ws outs /\ decode s ids = Ok (spaced SPACE outs).
Proof. exact word_ids. Qed.
Example C02_ex : exists s, make_scheme KWord ex_word = Ok s /\
  encode s (lit "c zz ab") = Ok [7; 1; 6] /\ decode s [7; 1; 6] = Ok (lit "c <unk> ab").
Proof. exists (built KWord ex_word). vm_compute. repeat split. Qed.

(** *** C03: ids survive a trip through text. *)
Theorem C03_word_ids_roundtrip : forall table s ids,
  make_scheme KWord table = Ok s ->
  (forall t, In t table -> is_word (t_name t)) ->
  Forall (valid_id table) ids ->
  exists line, decode s ids = Ok line /\ encode s line = Ok ids.
Proof. exact word_ids_roundtrip. Qed.
Example C03_ex :
  (exists s, make_scheme KWord ex_word = Ok s /\ decode s [7; 0; 6] = Ok (lit "c <pad> ab")) /\
  (forall t, In t ex_word -> is_word (t_name t)) /\ Forall (valid_id ex_word) [7; 0; 6].
Proof.
  split; [exists (built KWord ex_word); vm_compute; repeat split|]. split.
  - intros t H. repeat (destruct H as [<-|H]; [split; [discriminate|repeat constructor]|]). destruct H.
  - repeat (apply Forall_cons; [unfold valid_id; simpl; lia|]). apply Forall_nil.
Qed.

(** *** C04: the char scheme. *)
Theorem C04_char_pieces : forall s line,
  s_kind s = KChar ->
  exists ps norm, encode_str s line = Ok ps /\ Forall (fun p => length p = 1%nat) ps /\
    normal line norm /\ decode_str s ps = Ok (unmark norm).
Proof. exact char_pieces_roundtrip. Qed.
Theorem C04_char_ids : forall table s line,
  make_scheme KChar table = Ok s ->
  exists ws ids outs,
    words_of line ws /\
    encode s line = Ok ids /\ Forall2 (fun c i => id_of table [c] i) (spaced MARK ws) ids /\
    Forall2 (fun c o => shown table [c] o) (spaced MARK ws) outs /\
    decode s ids = Ok (unmark (concat outs)).
Proof. exact char_ids. Qed.
Example C04_ex : exists s, make_scheme KChar ex_char = Ok s /\ s_kind s = KChar /\
  encode s (lit " ab  za") = Ok [6; 7; 5; 1; 6] /\
  decode s [6; 7; 5; 1; 6] = Ok (lit "ab <unk>a").
Proof. exists (built KChar ex_char). vm_compute. repeat split. Qed.

(** *** C05: BPE encoding terminates and is greedy longest match, which is unique. *)
Theorem C05_bpe_greedy : forall table s line text,
  make_scheme KBpe table = Ok s -> well_indexed table -> marked line text ->
  exists segs, greedy table text segs /\ encode_str s line = Ok (map seg_piece segs).
Proof. exact bpe_greedy. Qed.
Theorem C05_greedy_unique : forall table text s1 s2,
  greedy table text s1 -> greedy table text s2 -> s1 = s2.
Proof. exact greedy_unique. Qed.
Lemma ex_bpe_indexed : well_indexed ex_bpe.
Proof.
  intros n t H. do 10 (destruct n as [|n]; [injection H as <-; reflexivity|]).
  destruct n; discriminate H.
Qed.
Example C05_ex : well_indexed ex_bpe /\ exists s, make_scheme KBpe ex_bpe = Ok s /\
  marked (lit "abbab zb") (lit "abbab" ++ [MARK] ++ lit "zb" ++ [MARK]) /\
  encode_str s (lit "abbab zb") = Ok [lit "abb"; lit "ab"; [MARK]; lit "<unk>"; lit "b"; [MARK]].
Proof.
  split; [exact ex_bpe_indexed|]. exists (built KBpe ex_bpe). split; [vm_compute; reflexivity|]. split; [|vm_compute; reflexivity].
  exists [lit "abbab"; lit "zb"]. split; [|reflexivity]. apply words_of_iff. reflexivity.
Qed.

(** *** C06: lossless on covered text. *)
Theorem C06_bpe_lossless : forall table s line text norm,
  make_scheme KBpe table = Ok s -> well_indexed table -> marked line text -> normal line norm ->
  (forall c, In c text -> has_name table [c]) ->
  exists ps ids out,
    encode_str s line = Ok ps /\ encode s line = Ok ids /\ concat ps = text /\
    decode_str s ps = Ok out /\ decode s ids = Ok out /\
    trimmed (unmark norm) out /\ (~ In MARK line -> out = norm) /\
    (In 1 ids -> exists a b, text = a ++ lit "<unk>" ++ b).
Proof. exact bpe_lossless. Qed.
Example C06_ex :
  marked (lit " ab  abb") (lit "ab" ++ [MARK] ++ lit "abb" ++ [MARK]) /\
  normal (lit " ab  abb") (lit "ab abb") /\
  (forall c, In c (lit "ab" ++ [MARK] ++ lit "abb" ++ [MARK]) -> has_name ex_bpe [c]) /\
  exists s, make_scheme KBpe ex_bpe = Ok s /\ encode s (lit " ab  abb") = Ok [8; 5; 9; 5] /\
            decode s [8; 5; 9; 5] = Ok (lit "ab abb").
Proof.
  split; [exists [lit "ab"; lit "abb"]; split; [apply words_of_iff; reflexivity|reflexivity]|].
  split; [exists [lit "ab"; lit "abb"]; split; [apply words_of_iff; reflexivity|reflexivity]|].
  split.
  - intros c H. apply has_name_map. cbn in H.
    repeat (destruct H as [<-|H]; [vm_compute; tauto|]). destruct H.
  - exists (built KBpe ex_bpe). vm_compute. repeat split.
Qed.

(** *** C07: ids are valid; pieces concatenate to the text except unknown characters. *)
Theorem C07_bpe_total : forall table s line,
  make_scheme KBpe table = Ok s -> well_indexed table ->
  exists text segs ids, marked line text /\ concat (map seg_text segs) = text /\
    (forall a c b, segs = a ++ Unknown c :: b ->
       forall q r, has_name table q -> q ++ r = concat (map seg_text (Unknown c :: b)) -> q = []) /\
    encode_str s line = Ok (map seg_piece segs) /\
    encode s line = Ok ids /\
    Forall2 (fun i w => name_at table i w) ids (map seg_piece segs) /\
    Forall (valid_id table) ids.
Proof. exact bpe_total. Qed.

(** *** C08: stochastic splitting never changes the text. *)
Theorem C08_split_same_text : forall table s line draws,
  make_scheme KBpe table = Ok s -> well_indexed table ->
  (forall t, In t table -> spelled t) -> kids_in_table table ->
  exists ps ids ps' ids' out,
    encode_str s line = Ok ps /\ encode s line = Ok ids /\
    bpe_encode_str s (Some draws) line = Ok ps' /\ bpe_encode_split s draws line = Ok ids' /\
    concat ps' = concat ps /\ Forall (valid_id table) ids' /\
    decode_str s ps = Ok out /\ decode_str s ps' = Ok out /\
    decode s ids = Ok out /\ decode s ids' = Ok out.
Proof. exact bpe_split_same_text. Qed.
Lemma ex_bpe_spelled : forall t, In t ex_bpe -> spelled t.
Proof.
  intros t H. do 8 (destruct H as [<-|H]; [apply Sp_leaf; reflexivity|]).
  assert (Hab : spelled ex_ab).
  { eapply Sp_pair; [reflexivity|reflexivity|apply Sp_leaf; reflexivity|apply Sp_leaf; reflexivity]. }
  destruct H as [<-|[<-|[]]]; [exact Hab|].
  eapply Sp_pair; [reflexivity|reflexivity|exact Hab|apply Sp_leaf; reflexivity].
Qed.
Lemma ex_bpe_kids : kids_in_table ex_bpe.
Proof.
  assert (Hleaf : forall t u, kids_of t = [] -> within t u -> u = t).
  { intros t u E H. destruct H as [|t k u Hk _]; [reflexivity|]. rewrite E in Hk. destruct Hk. }
  assert (Hab : forall u, within ex_ab u -> u = ex_ab \/ u = ex_a \/ u = ex_b).
  { intros u H. inversion H as [|? k ? Hk Hw]; subst; [auto|].
    destruct Hk as [<-|[<-|[]]]; apply Hleaf in Hw; auto. }
  intros t u Ht Hu.
  do 8 (destruct Ht as [<-|Ht]; [apply Hleaf in Hu; [subst u; vm_compute; split; [discriminate|reflexivity]|reflexivity]|]).
  destruct Ht as [<-|[<-|[]]].
  - apply Hab in Hu as [->|[->| ->]]; vm_compute; split; try discriminate; reflexivity.
  - inversion Hu as [|? k ? Hk Hw]; subst; [vm_compute; split; [discriminate|reflexivity]|].
    destruct Hk as [<-|[<-|[]]].
    + apply Hab in Hw as [->|[->| ->]]; vm_compute; split; try discriminate; reflexivity.
    + apply Hleaf in Hw; [|reflexivity]. subst u. vm_compute. split; [discriminate|reflexivity].
Qed.
Example C08_ex : exists s, make_scheme KBpe ex_bpe = Ok s /\
  bpe_encode_split s (fun k => Nat.eqb k 0) (lit "abb") = Ok [8; 7; 5] /\
  bpe_encode_split s (fun k => true) (lit "abb") = Ok [6; 7; 7; 5].
Proof. exists (built KBpe ex_bpe). vm_compute. repeat split. Qed.

(** *** C09: get_permutations is exactly the set of possible splits. *)
Theorem C09_permutations_are_splits : forall (A : Type) (f : Typ -> A) t perms,
  get_permutations f t = Ok perms ->
  (exists rest, perms = [f t] :: rest) /\
  (forall x, In x perms <-> exists draws k', get_stochastic_split f draws t 0 = Ok (x, k')) /\
  pairs_only t.
Proof. exact @permutations_are_splits. Qed.
Theorem C09_raise_alike : forall (A : Type) (f : Typ -> A) t,
  (get_permutations f t = Raise ValueError <-> ~ pairs_only t) /\
  ((exists draws, get_stochastic_split f draws t 0 = Raise ValueError) <-> ~ pairs_only t).
Proof. exact @permutations_raise. Qed.
Theorem C09_splits_spell : forall draws t k xs k',
  spelled t -> get_stochastic_split t_name draws t k = Ok (xs, k') -> concat xs = t_name t.
Proof. exact split_spells. Qed.
Example C09_ex :
  get_permutations t_name ex_abb =
    Ok [[lit "abb"]; [lit "ab"; lit "b"]; [lit "a"; lit "b"; lit "b"]] /\ pairs_only ex_abb /\
  ~ pairs_only (MkType (lit "x") 1 9 1 (Some [ex_a])).
Proof.
  split; [reflexivity|]. split.
  - apply spelled_pairs, ex_bpe_spelled. vm_compute. tauto.
  - intros H. inversion H; discriminate.
Qed.

(** *** C10: class labels. *)
Theorem C10_class_labels : forall table s,
  make_scheme KClass table = Ok s ->
  (forall line lab g1 g2, line = g1 ++ lab ++ g2 -> gap g1 -> gap g2 -> stripped lab ->
     (forall i, name_at table i lab -> encode s line = Ok [i] /\ decode s [i] = Ok lab) /\
     (~ has_name table lab -> encode s line = Ok [-1])) /\
  (forall i lab, name_at table i lab -> decode s [i] = Ok lab).
Proof. exact class_labels. Qed.
Theorem C10_labels_distinct : forall table s i j lab,
  make_scheme KClass table = Ok s -> name_at table i lab -> name_at table j lab -> i = j.
Proof. exact class_distinct. Qed.
Example C10_ex : exists s, make_scheme KClass ex_class = Ok s /\
  encode s (lit " pos ") = Ok [1] /\ decode s [1] = Ok (lit "pos") /\ encode s (lit "x") = Ok [-1].
Proof. exists (built KClass ex_class). vm_compute. repeat split. Qed.

(** *** C11 is false: an unknown label always decodes to the last label of the table. *)
Theorem C11_unknown_decodes_to_label_refuted :
  exists table s line ids lab,
    make_scheme KClass table = Ok s /\ ~ has_name table line /\
    encode s line = Ok ids /\ decode s ids = Ok lab /\ has_name table lab.
Proof.
  exists ex_class. exists (built KClass ex_class). exists (lit "x"), [-1], (lit "pos").
  split; [vm_compute; reflexivity|]. split.
  - rewrite has_name_map. vm_compute. intros [H|[H|[]]]; discriminate H.
  - split; [vm_compute; reflexivity|]. split; [vm_compute; reflexivity|].
    apply has_name_map. vm_compute. auto.
Qed.
Theorem C11_unknown_decodes_to_last : forall table s line,
  make_scheme KClass table = Ok s -> table <> [] -> ~ has_name table (strip line) ->
  exists ids lab, encode s line = Ok ids /\ decode s ids = Ok lab /\
                  name_at table (Z.of_nat (length table) - 1) lab.
Proof. exact class_unknown_last. Qed.
(** Part that holds: the encoding itself marks the label as unknown (-1 is no valid index), so a
    caller that checks for a negative id is safe; what is missing is the decode side. *)
Theorem C11_unknown_is_marked_partial : forall table s line,
  make_scheme KClass table = Ok s ->
  (~ has_name table (strip line) <-> encode s line = Ok [-1]).
Proof. exact class_unknown_marked. Qed.

(** *** C12: byte round trip, for text without characters below U+0010. *)
Theorem C12_byte_roundtrip_partial : forall t,
  (forall c, In c t -> is_scalar c = true) -> (forall c, In c t -> (16 <= c)%N) ->
  exists s ps ids, make_scheme KByte [] = Ok s /\
    encode_str s t = Ok ps /\ encode s t = Ok ids /\
    decode_str s ps = Ok t /\ decode s ids = Ok t /\ Forall (fun i => 0 <= i < 256) ids.
Proof. exact byte_roundtrip'. Qed.
Theorem C12_byte_encode_total : forall t,
  (exists s ids, make_scheme KByte [] = Ok s /\ encode s t = Ok ids) <->
  (forall c, In c t -> is_scalar c = true).
Proof. exact byte_encode_total. Qed.
(** The full property fails for control characters: the hex form of a byte below 16 has one
    digit, so "a\n" cannot be decoded at all and "\t\n" decodes to another text. *)
Theorem C12_byte_roundtrip_refuted :
  exists s, make_scheme KByte [] = Ok s /\
    (exists t ids, (forall c, In c t -> is_scalar c = true) /\
       encode s t = Ok ids /\ decode s ids = Raise ValueError) /\
    (exists t ids t', (forall c, In c t -> is_scalar c = true) /\
       encode s t = Ok ids /\ decode s ids = Ok t' /\ t' <> t).
Proof.
  exists (built KByte []). split; [vm_compute; reflexivity|]. split.
  - exists [97; 10]%N, [97; 10]. split; [|split; vm_compute; reflexivity].
    intros c [<-|[<-|[]]]; reflexivity.
  - exists [9; 10]%N, [9; 10], [65533]%N. split; [|split; [|split]]; try (vm_compute; reflexivity).
    + intros c [<-|[<-|[]]]; reflexivity.
    + discriminate.
Qed.
Example C12_ex : forall c, In c [233; 8364; 128512; 32; 97]%N -> is_scalar c = true /\ (16 <= c)%N.
Proof. intros c H. repeat (destruct H as [<-|H]; [split; [reflexivity|discriminate]|]). destruct H. Qed.

(** *** C13: byte decoding. *)
Theorem C13_byte_decode_total_partial : forall ids,
  Forall (fun i => 16 <= i < 258) ids -> exists out, decode byte_scheme ids = Ok out.
Proof. exact byte_decode_total. Qed.
Theorem C13_byte_decode_markers : forall a b m name,
  (m = 256 /\ name = lit "<s>") \/ (m = 257 /\ name = lit "</s>") ->
  Forall (fun i => 0 <= i < 258) a -> Forall (fun i => 0 <= i < 258) b ->
  decode byte_scheme (a ++ m :: b) =
  let* x := decode byte_scheme a in let* y := decode byte_scheme b in Ok (x ++ name ++ y).
Proof. exact byte_decode_markers. Qed.
Theorem C13_byte_decode_bytes : forall ids,
  Forall (fun i => 16 <= i < 256) ids ->
  decode byte_scheme ids = Ok (utf8_decode [65533%N] (map Z.to_N ids)).
Proof. exact byte_decode_bytes. Qed.
Theorem C13_byte_scheme_is_the_default : make_scheme KByte [] = Ok byte_scheme.
Proof. exact (proj1 make_byte). Qed.
Theorem C13_byte_decode_refuted :
  exists ids, Forall (fun i => 0 <= i < 258) ids /\ decode byte_scheme ids = Raise ValueError.
Proof. exists [10]. split; [apply Forall_cons; [lia|apply Forall_nil]|vm_compute; reflexivity]. Qed.
Example C13_ex : decode byte_scheme [256; 97; 98; 257; 255] = Ok (lit "<s>ab</s>" ++ [65533]%N).
Proof. vm_compute. reflexivity. Qed.

(** *** C14: the prefix trie is a map. *)
Theorem C14_trie_is_map : forall vocab root,
  make_vocab_prefix_trie vocab = Ok root ->
  (forall w t, (exists m, tr_get w root = Ok m /\ tr_data m = Some t) <-> last_named vocab w t) /\
  (exists names, NoDup names /\ (forall w, In w names <-> has_name vocab w) /\
                 tr_data_count root = length names) /\
  (exists pre, NoDup pre /\
     (forall p, In p pre <-> p = [] \/ exists w, has_name vocab w /\ prefix_of p w) /\
     tr_size root = length pre).
Proof. exact trie_is_map. Qed.
Theorem C14_trie_accepts : forall vocab,
  (exists root, make_vocab_prefix_trie vocab = Ok root) <-> ~ has_name vocab [].
Proof. exact trie_accepts. Qed.
Example C14_ex : exists root, make_vocab_prefix_trie ex_bpe = Ok root /\
  tr_data_count root = 10%nat /\ tr_size root = 24%nat.
Proof.
  exists (match make_vocab_prefix_trie ex_bpe with Ok r => r | Raise _ => tr_empty end).
  vm_compute. repeat split.
Qed.

(** *** C59: control ids. *)
Theorem C59_char_no_control_partial : forall table s line ids i tok,
  make_scheme KChar table = Ok s -> encode s line = Ok ids -> control_token i tok -> ~ In i ids.
Proof. exact char_no_control. Qed.
Theorem C59_word_control_spelled_partial : forall table s line ws ids i tok,
  make_scheme KWord table = Ok s -> words_of line ws -> encode s line = Ok ids ->
  control_token i tok -> In i ids -> In tok ws.
Proof. exact word_control_spelled. Qed.
Theorem C59_bpe_control_spelled_partial : forall table s line text ids i tok,
  make_scheme KBpe table = Ok s -> well_indexed table -> marked line text ->
  encode s line = Ok ids -> control_token i tok -> In i ids ->
  exists a b, text = a ++ tok ++ b.
Proof. exact bpe_control_spelled. Qed.
(** The full property is false: text that spells a control token is encoded as that token. *)
Theorem C59_control_injection_refuted :
  (exists s, make_scheme KWord ex_word = Ok s /\ encode s (lit "ab </s> c") = Ok [6; 3; 7]) /\
  (exists s, make_scheme KBpe ex_bpe = Ok s /\ encode s (lit "ab</s>") = Ok [8; 3; 5]).
Proof. split; [exists (built KWord ex_word)|exists (built KBpe ex_bpe)]; vm_compute; repeat split. Qed.

Print Assumptions C01_word_pieces.
Print Assumptions C02_word_ids.
Print Assumptions C03_word_ids_roundtrip.
Print Assumptions C04_char_pieces.
Print Assumptions C04_char_ids.
Print Assumptions C05_bpe_greedy.
Print Assumptions C05_greedy_unique.
Print Assumptions C06_bpe_lossless.
Print Assumptions C07_bpe_total.
Print Assumptions C08_split_same_text.
Print Assumptions C09_permutations_are_splits.
Print Assumptions C09_raise_alike.
Print Assumptions C09_splits_spell.
Print Assumptions C10_class_labels.
Print Assumptions C10_labels_distinct.
Print Assumptions C11_unknown_decodes_to_label_refuted.
Print Assumptions C11_unknown_decodes_to_last.
Print Assumptions C11_unknown_is_marked_partial.
Print Assumptions C12_byte_roundtrip_partial.
Print Assumptions C12_byte_encode_total.
Print Assumptions C12_byte_roundtrip_refuted.
Print Assumptions C13_byte_decode_total_partial.
Print Assumptions C13_byte_decode_markers.
Print Assumptions C13_byte_decode_bytes.
Print Assumptions C13_byte_decode_refuted.
Print Assumptions C14_trie_is_map.
Print Assumptions C14_trie_accepts.
Print Assumptions C59_char_no_control_partial.
Print Assumptions C59_word_control_spelled_partial.
Print Assumptions C59_bpe_control_spelled_partial.
Print Assumptions C59_control_injection_refuted.
