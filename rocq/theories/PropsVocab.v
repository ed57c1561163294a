(** Property theorems about vocabulary files (C15-C17, C71). *)
From Coq Require Import Strings.String.
From Verif Require Import Py PyStr StrSpec Utf8Model JsonModel JsonProofs CodecModel CodecSpec VocabFileModel
     VocabSpec VocabFileProofs PropsCodec.
Local Open Scope Z_scope.
Local Open Scope list_scope.

(** *** C15: reading a written table gives the table and the metadata back.
    [scalars] (JsonProofs.v) is text without lone surrogates, [meta_ok] the same for JSON
    values whose objects have distinct keys. *)
Theorem C15_vocab_file_roundtrip : forall version now table meta,
  scalars version -> scalars now -> meta_ok meta -> NoDup (map fst meta) -> storable table ->
  exists bytes m, write_out version now table meta = (bytes, Ok tt) /\
    read_vocab bytes = Ok (table, Some (JObj m)) /\
    (forall k v, In (k, v) meta -> jget k m = Some v) /\
    (~ In (lit "total") (map fst meta) -> jget (lit "total") m = Some (JInt (Z.of_nat (length table)))) /\
    (~ In (lit "version") (map fst meta) -> jget (lit "version") m = Some (JStr version)) /\
    (~ In (lit "max_level") (map fst meta) -> exists z, jget (lit "max_level") m = Some (JInt z) /\
       (exists t, In t table /\ t_level t = z) /\ forall t, In t table -> t_level t <= z) /\
    (~ In (lit "levels") (map fst meta) -> exists ls, jget (lit "levels") m = Some (JObj ls) /\
       forall l, jget (str_of_Z l) ls =
         let n := length (filter (fun t => t_level t =? l) table) in
         if Nat.eqb n 0 then None else Some (JInt (Z.of_nat n))).
Proof. exact write_read_meta. Qed.
(** The header survives for every JSON value that can be dumped, and parsing never runs out of
    the fuel of its model. *)
Theorem C15_json_roundtrip : forall j, json_ok j -> loads (dumps j) = Ok j.
Proof. exact loads_dumps. Qed.
Theorem C15_json_fuel : forall s, loads s <> Raise OutOfFuel.
Proof. exact json_loads_fuel. Qed.

Ltac well_indexed_tac := intros n t H; repeat (destruct n as [|n]; [injection H as <-; reflexivity|]); destruct n; discriminate H.
Ltac plain_tac := intros c H; repeat (destruct H as [<-|H]; [repeat split; discriminate|]); destruct H.
Example C15_ex : storable ex_bpe.
Proof.
  split; [discriminate|]. split; [well_indexed_tac|]. split.
  - intros n t H. split.
    + repeat (destruct n as [|n]; [injection H as <-; discriminate|]); destruct n; discriminate H.
    + intros k Hk.
      repeat (destruct n as [|n]; [injection H as <-; try (destruct Hk; fail)|]);
        [ | |destruct n; discriminate H].
      * destruct Hk as [<-|[<-|[]]]; [exists 6%nat|exists 7%nat]; (split; [lia|reflexivity]).
      * destruct Hk as [<-|[<-|[]]]; [exists 8%nat|exists 7%nat]; (split; [lia|reflexivity]).
  - intros t H. repeat (destruct H as [<-|H]; [plain_tac|]). destruct H.
Qed.
Example C15_ex_text : exists bytes, write_out (lit "0.5.1") (lit "now") ex_bpe [] = (bytes, Ok tt) /\
  read_vocab bytes = Ok (ex_bpe, Some (JObj (vocab_header (lit "0.5.1") (lit "now") ex_bpe 1 []))).
Proof. exists (fst (write_out (lit "0.5.1") (lit "now") ex_bpe [])). vm_compute. split; reflexivity. Qed.

(** *** C16: a saved scheme loads as the same scheme. *)
Theorem C16_save_load : forall version now k table s,
  scalars version -> scalars now -> make_scheme k table = Ok s -> storable (s_table s) ->
  exists bytes s', save version now s = (bytes, Ok tt) /\ load_scheme bytes = Ok s' /\
    s_kind s' = k /\
    (forall line, encode s' line = encode s line) /\
    (forall line, encode_str s' line = encode_str s line) /\
    (forall ids, decode s' ids = decode s ids) /\
    (forall pieces, decode_str s' pieces = decode_str s pieces) /\
    (forall draws line, bpe_encode_split s' draws line = bpe_encode_split s draws line).
Proof.
  intros version now k table s Hv Hn Hs Hst.
  destruct (save_load version now k table s Hv Hn Hs Hst) as (bytes & E1 & E2).
  exists bytes, s. repeat (split; [assumption || reflexivity || apply (make_scheme_table k table s Hs)|]). reflexivity.
Qed.
Example C16_ex : exists s, make_scheme KBpe ex_bpe = Ok s /\ storable (s_table s).
Proof. exists (built KBpe ex_bpe). split; [vm_compute; reflexivity|exact C15_ex]. Qed.

(** *** C17: corrupt vocabularies are refused. *)
Theorem C17_write_refuses : forall version now table meta n t,
  nth_error table n = Some t -> t_idx t <> Z.of_nat n ->
  exists bytes, write_out version now table meta = (bytes, Raise AssertionError).
Proof. exact write_out_refuses. Qed.
Theorem C17_read_refuses_numbers : forall bytes n row c0 rest,
  nth_error (rows_of bytes) n = Some row -> split_on TAB row = c0 :: rest ->
  int_of_str c0 <> Ok (Z.of_nat n) -> exists e, read_vocab bytes = Raise e.
Proof. exact read_refuses_number. Qed.
Theorem C17_read_refuses_later_kids_partial : forall bytes n row c0 c1 c2 c3 c4 rest w k,
  nth_error (rows_of bytes) n = Some row -> split_on TAB row = c0 :: c1 :: c2 :: c3 :: c4 :: rest ->
  In w (split c4) -> int_of_str w = Ok k -> Z.of_nat n <= k -> exists e, read_vocab bytes = Raise e.
Proof. exact read_refuses_kid. Qed.
(** An accepted file was read row by row as it is written there. *)
Theorem C17_accepted_files : forall bytes table meta,
  read_vocab bytes = Ok (table, meta) ->
  length table = length (rows_of bytes) /\ well_indexed table /\
  forall n row, nth_error (rows_of bytes) n = Some row ->
    exists t c0 c1 c2 c3 rest, nth_error table n = Some t /\
      split_on TAB row = c0 :: c1 :: c2 :: c3 :: rest /\
      int_of_str c0 = Ok (Z.of_nat n) /\ t_name t = c1 /\ int_of_str c2 = Ok (t_level t) /\
      int_of_str c3 = Ok (t_freq t) /\
      match rest with
      | (_ :: _) as c4 :: _ =>
          exists ks kids, mapM int_of_str (split c4) = Ok ks /\ t_kids t = Some kids /\
            Forall (fun k => k < Z.of_nat n) ks /\
            forall j k kid, nth_error ks j = Some k -> nth_error kids j = Some kid -> 0 <= k ->
                        nth_error table (Z.to_nat k) = Some kid
      | _ => t_kids t = None
      end.
Proof. exact read_vocab_sound. Qed.
Theorem C17_flat_scheme_iff : forall k table, k = KWord \/ k = KChar ->
  ((exists s, make_scheme k table = Ok s) <-> starts_reserved table /\ distinct_names table).
Proof. exact flat_built_iff. Qed.
(** Negative kid numbers slip through the check: row 1 of this two-row file has the kid -1, which
    is the row itself in Python indexing. No exception of the code is raised ([NoneKid] stands
    for the None stored as a kid). And -2 is accepted as a reference to row 0. *)
Definition neg_kid_file (k : string) : list N :=
  lit "0" ++ [TAB] ++ lit "a" ++ [TAB] ++ lit "0" ++ [TAB] ++ lit "1" ++ [LF] ++
  lit "1" ++ [TAB] ++ lit "b" ++ [TAB] ++ lit "1" ++ [TAB] ++ lit "1" ++ [TAB] ++ lit k ++ [LF].
Theorem C17_negative_kids_refuted :
  (nth_error (rows_of (neg_kid_file "-1")) 1 <> None /\ read_vocab (neg_kid_file "-1") = Raise NoneKid) /\
  exists table, read_vocab (neg_kid_file "-2") = Ok (table, None) /\
    exists t, nth_error table 1 = Some t /\ map t_name (kids_of t) = [lit "a"].
Proof.
  split; [split; [discriminate|reflexivity]|].
  exists [ty (lit "a") 0 0 1; MkType (lit "b") 1 1 1 (Some [ty (lit "a") 0 0 1])].
  split; [vm_compute; reflexivity|]. eexists. split; reflexivity.
Qed.
Example C17_ex_numbers : exists bytes row, nth_error (rows_of bytes) 1 = Some row /\
  exists rest, split_on TAB row = lit "5" :: rest /\ int_of_str (lit "5") <> Ok 1.
Proof.
  exists (lit "0" ++ [TAB] ++ lit "a" ++ [TAB] ++ lit "0" ++ [TAB] ++ lit "1" ++ [LF] ++
          lit "5" ++ [TAB] ++ lit "b" ++ [TAB] ++ lit "0" ++ [TAB] ++ lit "1" ++ [LF]).
  eexists. split; [vm_compute; reflexivity|]. eexists. split; [vm_compute; reflexivity|]. vm_compute. discriminate.
Qed.
Example C17_ex_kids : nth_error (rows_of (neg_kid_file "0 1")) 1 =
  Some (lit "1" ++ [TAB] ++ lit "b" ++ [TAB] ++ lit "1" ++ [TAB] ++ lit "1" ++ [TAB] ++ lit "0 1") /\
  read_vocab (neg_kid_file "0 1") = Raise AssertionError.
Proof. split; vm_compute; reflexivity. Qed.
Example C17_ex_write : exists bytes,
  write_out [] [] [ty (lit "a") 0 0 1; ty (lit "b") 0 2 1] [] = (bytes, Raise AssertionError).
Proof. exists (fst (write_out [] [] [ty (lit "a") 0 0 1; ty (lit "b") 0 2 1] [])). vm_compute. reflexivity. Qed.

(** *** C71: truncated vocabulary files are detected. False: the row count in the header is never
    compared, and every non-empty row prefix of every saved table is read as a complete table. *)
Theorem C71_truncation_detected_refuted : forall version now table z meta n,
  scalars version -> scalars now -> meta_ok meta -> storable table -> (0 < n)%nat ->
  read_vocab (utf8_encode_ignore (vocab_text (vocab_header version now table z meta) (firstn n table))) =
  Ok (firstn n table, Some (JObj (vocab_header version now table z meta))).
Proof. exact truncated_reads. Qed.
(** [vocab_text] is what write_out writes. *)
Theorem C71_vocab_text_is_written : forall version now table meta,
  storable table -> exists z,
  write_out version now table meta =
  (utf8_encode_ignore (vocab_text (vocab_header version now table z meta) table), Ok tt).
Proof. exact write_out_text. Qed.
(** A failed save leaves such a prefix behind: saving this table raises, but the file that is
    left is a complete vocabulary for load_scheme. *)
Theorem C71_failed_save_refuted : exists s bytes s',
  make_scheme KWord (ex_word ++ [ty (lit "d") 2 9 1]) = Ok s /\
  save (lit "0.5.1") (lit "now") s = (bytes, Raise AssertionError) /\
  load_scheme bytes = Ok s' /\ s_table s' = ex_word.
Proof.
  exists (built KWord (ex_word ++ [ty (lit "d") 2 9 1])).
  exists (fst (save (lit "0.5.1") (lit "now") (built KWord (ex_word ++ [ty (lit "d") 2 9 1])))).
  exists (built KWord ex_word). split; [vm_compute; reflexivity|]. split; [vm_compute; reflexivity|].
  split; [vm_compute; reflexivity|]. vm_compute. reflexivity.
Qed.

(** *** C103: load_scheme builds the scheme that the header names, and chooses the scheme of a file
    without a name by its largest level. False for negative levels: a file whose entries are all
    reserved (level -1) is taken for a class vocabulary. *)
Theorem C103_by_name : forall bytes types m name k,
  read_vocab bytes = Ok (types, Some (JObj m)) -> jget (lit "scheme") m = Some (JStr name) ->
  In (name, k) published_schemes -> load_scheme bytes = make_scheme k types.
Proof. exact load_named. Qed.
Theorem C103_unknown_name : forall bytes types m name,
  read_vocab bytes = Ok (types, Some (JObj m)) -> jget (lit "scheme") m = Some (JStr name) ->
  ~ In name (map fst published_schemes) -> load_scheme bytes = Raise KeyError.
Proof. exact load_unnamed. Qed.
Theorem C103_by_level_partial : forall bytes types m z,
  read_vocab bytes = Ok (types, Some (JObj m)) -> jget (lit "scheme") m = None ->
  jget (lit "max_level") m = Some (JInt z) ->
  (forall k, 0 <= z -> nth_error schemes_by_level (Z.to_nat z) = Some k -> load_scheme bytes = make_scheme k types) /\
  (Z.of_nat (length schemes_by_level) <= z -> load_scheme bytes = Raise AssertionError).
Proof. exact load_by_level. Qed.
Theorem C103_no_header : forall bytes types,
  read_vocab bytes = Ok (types, None) -> load_scheme bytes = Raise AssertionError.
Proof. exact load_no_header. Qed.
(** A table written without a scheme name loads as the scheme of its largest level. *)
Theorem C103_old_files : forall version now table meta z k t0,
  scalars version -> scalars now -> meta_ok meta -> NoDup (map fst meta) -> storable table ->
  ~ In (lit "scheme") (map fst meta) -> ~ In (lit "max_level") (map fst meta) ->
  In t0 table -> t_level t0 = z -> (forall t, In t table -> t_level t <= z) -> 0 <= z ->
  nth_error schemes_by_level (Z.to_nat z) = Some k ->
  exists bytes, write_out version now table meta = (bytes, Ok tt) /\ load_scheme bytes = make_scheme k table.
Proof. exact old_files. Qed.
Theorem C103_reserved_only_refuted : exists bytes types m s,
  read_vocab bytes = Ok (types, Some (JObj m)) /\ jget (lit "scheme") m = None /\
  jget (lit "max_level") m = Some (JInt (-1)) /\ load_scheme bytes = Ok s /\ s_kind s = KClass.
Proof.
  exists (fst (write_out (lit "0.5.1") (lit "now") with_reserved_types [])), with_reserved_types,
    (vocab_header (lit "0.5.1") (lit "now") with_reserved_types (-1) []), (built KClass with_reserved_types).
  repeat split; vm_compute; reflexivity.
Qed.
(* "subword" is another name of the BPE scheme *)
Example C103_ex_subword : load_scheme (fst (write_out (lit "0.5.1") (lit "now") ex_bpe
    [(lit "scheme", JStr (lit "subword"))])) = Ok (built KBpe ex_bpe).
Proof. vm_compute. reflexivity. Qed.
Example C103_ex_old : load_scheme (fst (write_out (lit "0.5.1") (lit "now") ex_bpe [])) = Ok (built KBpe ex_bpe).
Proof. vm_compute. reflexivity. Qed.

Print Assumptions C15_vocab_file_roundtrip.
Print Assumptions C15_json_roundtrip.
Print Assumptions C15_json_fuel.
Print Assumptions C16_save_load.
Print Assumptions C17_write_refuses.
Print Assumptions C17_read_refuses_numbers.
Print Assumptions C17_read_refuses_later_kids_partial.
Print Assumptions C17_accepted_files.
Print Assumptions C17_flat_scheme_iff.
Print Assumptions C17_negative_kids_refuted.
Print Assumptions C71_truncation_detected_refuted.
Print Assumptions C71_vocab_text_is_written.
Print Assumptions C71_failed_save_refuted.
Print Assumptions C103_by_name.
Print Assumptions C103_unknown_name.
Print Assumptions C103_by_level_partial.
Print Assumptions C103_no_header.
Print Assumptions C103_old_files.
Print Assumptions C103_reserved_only_refuted.
