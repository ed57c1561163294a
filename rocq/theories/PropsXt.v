(** C144: a codec that takes over merges one by one is, after each of them, the codec of the table so far. *)
From Coq Require Import Strings.String QArith Lia.
From Verif Require Import Py PyStr PyLemmas StrSpec PyStrProofs CodecModel CodecSpec VocabSpec LearnModel ArithModel LearnSpec BpeSpec LearnBpeModel LearnBpeResults BpeppModel BpeppSpec DistinctSpec DistinctProofs DistinctEnd PropsBpe PropsBpepp BpeProofs JsonModel JsonProofs VocabFileModel VocabFileProofs BatchModel MapredModel TrackModel TrackSpec TrackProofs PropsLearn PropsVocab PropsTrack PropsDistinct PropsCodec XtModel XtSpec XtProofs.
Local Open Scope Z_scope.
Local Open Scope list_scope.

(** Text and pieces, in every case; the whole codec when no name occurs twice. *)
Theorem C144_merge_partial : forall table new s s' rest,
  make_scheme KBpe table = Ok s -> make_scheme KBpe (table ++ new) = Ok s' -> in_place (List.length table) new ->
  exists x, xt_merges (List.length new) (MkXt s (new ++ rest)) = Ok x /\ x_buffer x = rest /\ s_table (x_codec x) = table ++ new /\
    (forall line, encode_str (x_codec x) line = encode_str s' line) /\
    (forall draws line, bpe_encode_str (x_codec x) draws line = bpe_encode_str s' draws line) /\
    (forall ids, decode (x_codec x) ids = decode s' ids) /\
    (distinct_names (table ++ new) -> x_codec x = s').
Proof. exact grown_like. Qed.

(** Ids, in every case: the same names, hence the same decoded text. *)
Theorem C144_ids : forall table new s s' rest x line ids',
  make_scheme KBpe table = Ok s -> make_scheme KBpe (table ++ new) = Ok s' -> well_indexed (table ++ new) ->
  xt_merges (List.length new) (MkXt s (new ++ rest)) = Ok x -> encode s' line = Ok ids' ->
  exists ids pieces, encode (x_codec x) line = Ok ids /\ encode_str s' line = Ok pieces /\
    Forall2 (name_at (table ++ new)) ids pieces /\ Forall2 (name_at (table ++ new)) ids' pieces /\
    decode (x_codec x) ids = decode s' ids'.
Proof. exact grown_ids. Qed.

(** From a vocabulary file, after any number of merges. *)
Theorem C144_file : forall version now types meta k ps j,
  scalars version -> scalars now -> meta_ok meta -> NoDup (map fst meta) -> ~ In (lit "max_level") (map fst meta) ->
  storable types -> starts_reserved types -> ~ has_name types [] -> (6 <= k)%nat -> bpe_layout k types ps -> (k + j <= List.length types)%nat ->
  exists bytes x0 x s, write_out version now types meta = (bytes, Ok tt) /\ xt_open bytes = Ok x0 /\
    merges_remaining x0 = Z.of_nat (List.length types - k) /\ total_types x0 = Z.of_nat (List.length types) /\
    xt_merges j x0 = Ok x /\ x_buffer x = skipn (k + j) types /\ s_table (x_codec x) = firstn (k + j) types /\
    make_scheme KBpe (firstn (k + j) types) = Ok s /\
    (forall line, encode_str (x_codec x) line = encode_str s line) /\ (forall ids, decode (x_codec x) ids = decode s ids) /\
    (distinct_names (firstn (k + j) types) -> x_codec x = s).
Proof. exact file_grown. Qed.

(** Nothing left to merge, or an entry that is not the next one. *)
Theorem C144_refused : forall table new s t rest, make_scheme KBpe table = Ok s -> in_place (List.length table) new ->
  exists x, xt_merges (List.length new) (MkXt s new) = Ok x /\ xt_merge x = Raise AssertionError /\
  (t_idx t <> Z.of_nat (List.length (table ++ new)) ->
    exists x2, xt_merges (List.length new) (MkXt s (new ++ t :: rest)) = Ok x2 /\ xt_merge x2 = Raise AssertionError).
Proof. exact merge_refused. Qed.

(** peek_merge shows the merge that comes next. *)
Theorem C144_peek : forall x, (forall t x', xt_merge x = Ok (t, x') -> peek_merge x = Ok t) /\ (x_buffer x = [] -> peek_merge x = Raise IndexError).
Proof. exact peek_next. Qed.

(** The tracker leaves the codec with all merges taken over, and reports what the merges alone give. *)
Theorem C144_tracker : forall orders table s buffer data rows x, make_scheme KBpe table = Ok s ->
  track_codec orders (MkXt s buffer) data = Ok (rows, x) ->
  track_merges orders (List.length table) buffer data = Ok rows /\ xt_merges (List.length buffer) (MkXt s buffer) = Ok x.
Proof. exact track_codec_grown. Qed.

(** With a name learned twice the grown codec gives the id of the last such entry, a codec built at once that of the first. *)
Definition twice_table : list Typ := table_of (learn_bpe arithQ half_reversed [lit "aaab aaac aaad aaae"] 14 None 2 false).
Definition xt_encode (r : res xt) (line : str) : res (list Z) := bind r (fun x => encode (x_codec x) line).
Theorem C144_refuted : exists table line s s' x,
  learn_bpe arithQ half_reversed [lit "aaab aaac aaad aaae"] 14 None 2 false = Ok table /\
  make_scheme KBpe (firstn 11 table) = Ok s /\ make_scheme KBpe table = Ok s' /\ in_place 11 (skipn 11 table) /\
  xt_merges 3 (MkXt s (skipn 11 table)) = Ok x /\
  encode (x_codec x) line = Ok [13; 5] /\ encode s' line = Ok [12; 5].
Proof.
  exists twice_table, (lit "aaa"), (built KBpe (firstn 11 twice_table)), (built KBpe twice_table),
    (match xt_merges 3 (MkXt (built KBpe (firstn 11 twice_table)) (skipn 11 twice_table)) with Ok x => x | Raise _ => MkXt (built KBpe twice_table) [] end).
  do 3 (split; [vm_compute; reflexivity|]).
  split; [intros [|[|[|[|n]]]] t H; vm_compute in H; try discriminate H; injection H as <-; reflexivity|].
  split; [vm_compute; reflexivity|]. split; vm_compute; reflexivity.
Qed.

(* the table of ex_bpe: a, b, then ab and abb *)
Example C144_ex : exists s s', make_scheme KBpe (firstn 8 ex_bpe) = Ok s /\ make_scheme KBpe ex_bpe = Ok s' /\ in_place 8 (skipn 8 ex_bpe) /\
  xt_encode (Ok (MkXt s (skipn 8 ex_bpe))) (lit "abb") = Ok [6; 7; 7; 5] /\
  xt_encode (xt_merges 1 (MkXt s (skipn 8 ex_bpe))) (lit "abb") = Ok [8; 7; 5] /\
  xt_encode (xt_merges 2 (MkXt s (skipn 8 ex_bpe))) (lit "abb") = Ok [9; 5] /\
  xt_merges 3 (MkXt s (skipn 8 ex_bpe)) = Raise AssertionError.
Proof.
  exists (built KBpe (firstn 8 ex_bpe)), (built KBpe ex_bpe). split; [vm_compute; reflexivity|]. split; [vm_compute; reflexivity|].
  split; [intros [|[|[|n]]] t H; cbn in H; try discriminate H; injection H as <-; reflexivity|].
  repeat split; vm_compute; reflexivity.
Qed.

Example C144_tracker_ex : exists s rows x, make_scheme KBpe (firstn 8 ex_bpe) = Ok s /\
  track_codec as_is (MkXt s (skipn 8 ex_bpe)) ([[6; 7; 7; 5; 6; 7; 5]; [6; 5]], None) = Ok (rows, x) /\
  map r_types rows = [8; 9; 10] /\ x_codec x = built KBpe ex_bpe.
Proof.
  exists (built KBpe (firstn 8 ex_bpe)). eexists. exists (MkXt (built KBpe ex_bpe) []).
  split; [vm_compute; reflexivity|]. split; [vm_compute; reflexivity|]. split; vm_compute; reflexivity.
Qed.

Example C144_peek_ex : let x := MkXt (built KBpe (firstn 8 ex_bpe)) (skipn 8 ex_bpe) in
  bind (peek_merge x) (fun t => Ok (t_name t)) = Ok (lit "ab") /\ bind (xt_merge x) (fun r => Ok (t_name (fst r))) = Ok (lit "ab") /\
  bind (xt_merges 1 x) (fun x => bind (peek_merge x) (fun t => Ok (t_name t))) = Ok (lit "abb").
Proof. split; [vm_compute; reflexivity|]. split; vm_compute; reflexivity. Qed.

Print Assumptions C144_merge_partial.
Print Assumptions C144_ids.
Print Assumptions C144_file.
Print Assumptions C144_refused.
Print Assumptions C144_peek.
Print Assumptions C144_tracker.
Print Assumptions C144_refuted.
