(** Property theorems about shrinking vocabularies (C34-C36). *)
From Coq Require Import Strings.String.
From Verif Require Import Py PyStr StrSpec Utf8Model JsonModel JsonProofs CodecModel CodecSpec VocabFileModel VocabSpec
     ShrinkModel ShrinkSpec ShrinkProofs PropsCodec PropsVocab.
Local Open Scope Z_scope.
Local Open Scope list_scope.

(** *** C34: what is kept, in which order, and how kids are renumbered.
    [encoded] are the ids of the lines; any scheme kind. *)
Theorem C34_shrink_kept : forall s lines encoded min_freq,
  well_indexed (s_table s) -> kids_earlier (s_table s) ->
  mapM (encode s) lines = Ok encoded ->
  (forall i, In i (concat encoded) -> i < Z.of_nat (length (s_table s))) -> concat encoded <> [] ->
  exists mapping new, shrink_vocab s lines min_freq = Ok (mapping, new) /\ increasing mapping /\
    (forall i, In i mapping <-> stays (s_table s) (id_count encoded) min_freq i) /\
    renumbered (s_table s) mapping new.
Proof. exact shrink_ok. Qed.
(** Lines without any token are an error, whatever the table. *)
Theorem C34_no_tokens : forall s lines encoded min_freq,
  mapM (encode s) lines = Ok encoded -> concat encoded = [] ->
  shrink_vocab s lines min_freq = Raise ValueError.
Proof. exact shrink_no_tokens. Qed.
(** The new table is again well-formed: it can be saved and shrunk again. *)
Theorem C34_shrunk_storable : forall table mapping new,
  storable table -> increasing mapping -> mapping <> [] -> renumbered table mapping new -> storable new.
Proof. exact shrunk_storable. Qed.
Definition ex_shrunk : list Z * list Typ :=
  match shrink_vocab (built KBpe ex_bpe) [lit "ab"; lit "b"] 1 with Ok r => r | Raise _ => ([], []) end.
Example C34_ex :
  well_indexed (s_table (built KBpe ex_bpe)) /\ kids_earlier (s_table (built KBpe ex_bpe)) /\
  mapM (encode (built KBpe ex_bpe)) [lit "ab"; lit "b"] = Ok [[8; 5]; [7; 5]] /\
  shrink_vocab (built KBpe ex_bpe) [lit "ab"; lit "b"] 1 = Ok ex_shrunk /\
  fst ex_shrunk = [0; 1; 2; 3; 4; 5; 6; 7; 8] /\
  (exists new, shrink_vocab (built KBpe ex_bpe) [lit "b"; lit "b"] 2 = Ok ([0; 1; 2; 3; 4; 5; 7], new) /\
     nth_error new 6 = Some (ty (lit "b") 0 6 3)) /\
  shrink_vocab (built KWord ex_word) [lit " "] 1 = Raise ValueError.
Proof.
  split; [apply C15_ex|]. split; [apply C15_ex|].
  split; [vm_compute; reflexivity|]. split; [vm_compute; reflexivity|]. split; [vm_compute; reflexivity|].
  split; [|vm_compute; reflexivity].
  exists (match shrink_vocab (built KBpe ex_bpe) [lit "b"; lit "b"] 2 with Ok r => snd r | Raise _ => [] end).
  vm_compute. split; reflexivity.
Qed.

(** *** C35: the given lines are encoded as before. *)
Theorem C35_shrink_same_encoding : forall k table s lines min_freq,
  text_kind k -> make_scheme k table = Ok s -> well_indexed table -> kids_earlier table ->
  reserved_levels table -> min_freq <= 1 ->
  (exists line ps, In line lines /\ encode_str s line = Ok ps /\ ps <> []) ->
  exists mapping new s', shrink_vocab s lines min_freq = Ok (mapping, new) /\ make_scheme k new = Ok s' /\
    forall line, In line lines -> exists ps ids ids',
      encode_str s line = Ok ps /\ encode_str s' line = Ok ps /\ encode s line = Ok ids /\ encode s' line = Ok ids' /\
      Forall2 (translates mapping) ids' ids.
Proof. exact shrink_encodes. Qed.
(** More generally, for any min_freq, for lines (given or not) whose ids all stay. *)
Theorem C35_kept_ids_same_encoding : forall k table s mapping new,
  text_kind k -> make_scheme k table = Ok s -> well_indexed table ->
  increasing mapping -> renumbered table mapping new ->
  (forall n, (n < 6)%nat -> nth_error mapping n = Some (Z.of_nat n)) ->
  exists s', make_scheme k new = Ok s' /\
    forall line ids, encode s line = Ok ids -> (forall i, In i ids -> In i mapping) ->
      exists ps ids', encode_str s line = Ok ps /\ encode_str s' line = Ok ps /\ encode s' line = Ok ids' /\
        Forall2 (translates mapping) ids' ids.
Proof. exact shrunk_encodes. Qed.
Example C35_ex :
  text_kind KBpe /\ make_scheme KBpe ex_bpe = Ok (built KBpe ex_bpe) /\ reserved_levels ex_bpe /\
  encode_str (built KBpe ex_bpe) (lit "b b") <> Ok [] /\
  (exists new, shrink_vocab (built KBpe ex_bpe) [lit "b b"] 1 = Ok ([0; 1; 2; 3; 4; 5; 7], new) /\
     encode (built KBpe ex_bpe) (lit "b b") = Ok [7; 5; 7; 5] /\ encode (built KBpe new) (lit "b b") = Ok [6; 5; 6; 5]).
Proof.
  split; [right; right; reflexivity|]. split; [vm_compute; reflexivity|]. split.
  { intros n t H Hn. repeat (destruct n as [|n]; [injection H as <-; reflexivity|]). lia. }
  split; [vm_compute; discriminate|].
  exists (match shrink_vocab (built KBpe ex_bpe) [lit "b b"] 1 with Ok r => snd r | Raise _ => [] end).
  vm_compute. repeat split.
Qed.

(** *** C36: the kind a shrunk file loads as. The file names no scheme, so load_scheme goes by the
    highest level left. *)
Theorem C36_shrink_loads_by_level : forall version now new,
  scalars version -> scalars now -> storable new ->
  exists bytes z, shrink_save version now new = (bytes, Ok tt) /\
    (exists t, In t new /\ t_level t = z) /\ (forall t, In t new -> t_level t <= z) /\
    load_scheme bytes = bind (kind_of_level z) (fun k => make_scheme k new).
Proof. exact shrink_loads. Qed.
(** Missing for the full statement: class and byte schemes, and tables that lost all types of
    the scheme's own level; there it is false, see C36_shrink_kind_refuted. *)
Theorem C36_shrink_kind_partial : forall version now k new,
  scalars version -> scalars now -> storable new -> text_kind k ->
  (forall t, In t new -> t_level t <= own_level k) -> (exists t, In t new /\ t_level t = own_level k) ->
  exists bytes, shrink_save version now new = (bytes, Ok tt) /\ load_scheme bytes = make_scheme k new.
Proof. exact shrink_loads_same. Qed.
(** what loading the shrunk file of a scheme gives *)
Definition reloaded (k : kind) (table : list Typ) (line : str) : res scheme :=
  match shrink_vocab (built k table) [line] 1 with
  | Ok (_, new) => load_scheme (fst (shrink_save (lit "0.5.1") (lit "now") new))
  | Raise e => Raise e
  end.
Theorem C36_shrink_kind_refuted :
  (* a class vocabulary cannot be loaded again *)
  (make_scheme KClass ex_class = Ok (built KClass ex_class) /\ reloaded KClass ex_class (lit "pos") = Raise AssertionError) /\
  (* neither can a byte vocabulary *)
  (exists s e, make_scheme KByte [] = Ok s /\ reloaded KByte [] (lit "a") = Raise e) /\
  (* a BPE vocabulary whose merges are unused loads as a char scheme *)
  (exists s, reloaded KBpe ex_bpe (lit "b b") = Ok s /\ s_kind s = KChar /\
     encode_str (built KBpe ex_bpe) (lit "b b") = Ok [lit "b"; [MARK]; lit "b"; [MARK]] /\
     encode_str s (lit "b b") = Ok [lit "b"; [MARK]; lit "b"]) /\
  (* a word vocabulary none of whose words is used loads as a class scheme *)
  (exists s, reloaded KWord ex_word (lit "zz") = Ok s /\ s_kind s = KClass).
Proof.
  split; [vm_compute; split; reflexivity|]. split.
  { exists (built KByte []). exists AssertionError. split; vm_compute; reflexivity. }
  split.
  - exists (match reloaded KBpe ex_bpe (lit "b b") with Ok s => s | Raise _ => built KBpe ex_bpe end). vm_compute. repeat split.
  - exists (match reloaded KWord ex_word (lit "zz") with Ok s => s | Raise _ => built KBpe ex_bpe end). vm_compute. repeat split.
Qed.
Example C36_ex : exists s, reloaded KBpe ex_bpe (lit "ab") = Ok s /\ s_kind s = KBpe /\ encode s (lit "ab b") = Ok [8; 5; 7; 5].
Proof. exists (match reloaded KBpe ex_bpe (lit "ab") with Ok s => s | Raise _ => built KBpe ex_bpe end). vm_compute. repeat split. Qed.

Print Assumptions C34_shrink_kept.
Print Assumptions C34_no_tokens.
Print Assumptions C34_shrunk_storable.
Print Assumptions C35_shrink_same_encoding.
Print Assumptions C35_kept_ids_same_encoding.
Print Assumptions C36_shrink_loads_by_level.
Print Assumptions C36_shrink_kind_partial.
Print Assumptions C36_shrink_kind_refuted.
