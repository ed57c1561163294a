(** C66, C67, C80-C83: parallel text. *)
From Coq Require Import Strings.String.
From Verif Require Import Py PyLemmas PyStr CodecModel CodecSpec VocabFileModel NumpyModel DbModel DbSpec JsonProofs BatchModel MultipartModel MultipartSpec BitextModel BitextSpec BitextProofs PropsCodec PropsCli.
From Coq Require Import Permutation.
Local Open Scope Z_scope.
Local Open Scope list_scope.

(** *** C66: [cl]: where Spark puts the rows, and in which order *)
Theorem C66_bitext_truncated : forall cl xs ys sl tl stok ttok parts, spark cl ->
  read_raw_bitext_tok cl xs ys true (Z.of_nat sl) (Z.of_nat tl) stok ttok = Ok parts ->
  exactly (concat parts) (cut_to sl tl (line_pair xs ys stok ttok)).
Proof.
  intros cl xs ys sl tl stok ttok parts Hs H. eapply exactly_ext; [intros i u v; apply limited_cut|]. apply (bitext_sound _ _ _ _ _ _ _ _ _ Hs H).
Qed.
(* it succeeds if the texts have the same number of lines, the tokenizers accept them and a pair is left *)
Theorem C66_bitext_succeeds : forall cl xs ys sl tl stok ttok, spark cl -> length xs = length ys -> tokenizes xs ys stok ttok ->
  (exists i u v, line_pair xs ys stok ttok i u v) -> exists parts, read_raw_bitext_tok cl xs ys true (Z.of_nat sl) (Z.of_nat tl) stok ttok = Ok parts.
Proof.
  intros cl xs ys sl tl stok ttok Hs Hl Ht (i & u & v & H). apply (bitext_result cl xs ys true _ _ stok ttok Hs Hl Ht). exists i, (firstn sl u), (firstn tl v).
  apply limited_cut. exists u, v. auto.
Qed.
Theorem C66_unequal_texts : forall cl xs ys truncate sl tl stok ttok, length xs <> length ys -> read_raw_bitext_tok cl xs ys truncate sl tl stok ttok = Raise AssertionError.
Proof. exact bitext_lines. Qed.
Definition ex_cluster : cluster := MkCluster (fun rows => [firstn 1 (rev rows); skipn 1 (rev rows)]) (fun n parts => concat parts :: repeat [] (n - 1)) (@rev _).
Example ex_spark : spark ex_cluster.
Proof.
  split; [|split].
  - intros rows. cbn [ex_cluster join_parts concat]. rewrite app_nil_r, firstn_skipn. apply Permutation_rev.
  - intros n parts Hn. cbn [ex_cluster repartition length concat]. split; [rewrite repeat_length; lia|].
    replace (concat (repeat [] (n - 1))) with (@nil rec) by (induction (n - 1)%nat as [|k IH]; [reflexivity|exact IH]). rewrite app_nil_r. apply Permutation_refl.
  - intros calls. apply Permutation_rev.
Qed.
(* every character is a token *)
Definition ex_tok (s : str) : res (list Z) := Ok (map Z.of_N s).
Definition ex_src : list str := [[1; 2; 3]; []; [4]; [5; 6]]%N.
Definition ex_tgt : list str := [[7; 8]; [9]; [10; 11; 12]; []]%N.
Example C66_ex : tokenizes ex_src ex_tgt ex_tok ex_tok /\ length ex_src = length ex_tgt /\
  read_raw_bitext_tok ex_cluster ex_src ex_tgt true 2 2 ex_tok ex_tok = Ok [[]; [(2, ([4], [10; 11])); (0, ([1; 2], [7; 8]))]] /\
  line_pair ex_src ex_tgt ex_tok ex_tok 2 [4] [10; 11; 12].
Proof.
  split; [intros n x y _ _ _ _; split; eexists; reflexivity|]. split; [reflexivity|]. split; [reflexivity|].
  exists 2%nat, [4%N], [10; 11; 12]%N. repeat split; discriminate.
Qed.

(** *** C67: false: a pair exactly at its limit is dropped *)
Theorem C67_bitext_filtered_partial : forall cl xs ys sl tl stok ttok parts, spark cl ->
  read_raw_bitext_tok cl xs ys false (Z.of_nat sl) (Z.of_nat tl) stok ttok = Ok parts ->
  exactly (concat parts) (below sl tl (line_pair xs ys stok ttok)).
Proof.
  intros cl xs ys sl tl stok ttok parts Hs H. eapply exactly_ext; [intros i u v; apply limited_below|]. apply (bitext_sound _ _ _ _ _ _ _ _ _ Hs H).
Qed.
Theorem C67_bitext_filtered_refuted : exists cl xs ys sl tl stok ttok parts i u v, spark cl /\
  read_raw_bitext_tok cl xs ys false (Z.of_nat sl) (Z.of_nat tl) stok ttok = Ok parts /\
  up_to sl tl (line_pair xs ys stok ttok) i u v /\ ~ In (i, (u, v)) (concat parts).
Proof.
  exists ex_cluster, ex_src, ex_tgt, 3%nat, 4%nat, ex_tok, ex_tok, [[]; [(2, ([4], [10; 11; 12]))]], 0, [1; 2; 3], [7; 8]. split; [exact ex_spark|]. split; [reflexivity|]. split.
  - split; [|split; cbn; lia]. exists 0%nat, [1; 2; 3]%N, [7; 8]%N. repeat split; discriminate.
  - intros [H|[]]. discriminate H.
Qed.

(** *** C80: false: with nothing left the result is not empty but an exception *)
Theorem C80_nothing_left_partial : forall cl xs ys sl tl stok ttok truncate parts, spark cl -> read_raw_bitext_tok cl xs ys truncate sl tl stok ttok = Ok parts -> concat parts <> [].
Proof. intros cl xs ys sl tl stok ttok truncate parts Hs H. apply (bitext_sound _ _ _ _ _ _ _ _ _ Hs H). Qed.
Theorem C80_nothing_left_refuted : forall cl xs ys sl tl stok ttok, spark cl -> length xs = length ys -> tokenizes xs ys stok ttok ->
  (forall i u v, ~ line_pair xs ys stok ttok i u v) -> read_raw_bitext_tok cl xs ys true (Z.of_nat sl) (Z.of_nat tl) stok ttok = Raise IndexError.
Proof.
  intros cl xs ys sl tl stok ttok Hs Hl Ht H. apply (bitext_result cl xs ys true _ _ stok ttok Hs Hl Ht). intros i u v Hc. apply limited_cut in Hc. destruct Hc as (u0 & v0 & Hc & _). apply (H _ _ _ Hc).
Qed.
Theorem C80_all_too_long_refuted : forall cl xs ys sl tl stok ttok, spark cl -> length xs = length ys -> tokenizes xs ys stok ttok ->
  (forall i u v, line_pair xs ys stok ttok i u v -> (sl <= length u \/ tl <= length v)%nat) -> read_raw_bitext_tok cl xs ys false (Z.of_nat sl) (Z.of_nat tl) stok ttok = Raise IndexError.
Proof.
  intros cl xs ys sl tl stok ttok Hs Hl Ht H. apply (bitext_result cl xs ys false _ _ stok ttok Hs Hl Ht). intros i u v Hc. apply limited_below in Hc. destruct Hc as (Hc & H1 & H2). destruct (H _ _ _ Hc); lia.
Qed.
Example C80_ex : read_raw_bitext_tok ex_cluster [[]; [1%N]] [[2%N]; []] true 5 5 ex_tok ex_tok = Raise IndexError /\
  read_raw_bitext_tok ex_cluster ex_src ex_tgt false 1 1 ex_tok ex_tok = Raise IndexError /\ read_raw_bitext_tok ex_cluster [] [] true 5 5 ex_tok ex_tok = Raise IndexError.
Proof. repeat split. Qed.

(** *** C81: false: an empty partition cannot be written. [parts]: the partitions of the RDD *)
Theorem C81_rdd_as_db_partial : forall w cl names ow pad n parts d, spark cl -> lists w -> Forall scalars names -> storable names (concat parts) -> concat parts <> [] -> NoDup (map fst (concat parts)) ->
  (forall p, In p (if 0 <? n then repartition cl (Z.to_nat n) parts else parts) -> p <> []) -> d = None \/ d = Some [] \/ ow = true ->
  let r := rdd_as_db w cl names ow pad n parts d in complete (length names) (concat parts) (now r) /\ val r = mdb_load (now r) None false false.
Proof. intros w cl names ow pad n parts d H1 H2 H3 H4 H5 H6 H7 H8. destruct (rdd_stored w cl names ow pad n parts d H1 H2 H3 H4 H5 H6 H7 H8) as (H & H' & _). exact (conj H H'). Qed.
(* with more parts than records it fails, wherever Spark puts the records; nothing it leaves can be loaded *)
Theorem C81_too_many_parts_refuted : forall w cl names ow pad n parts d, spark cl -> lists w -> Forall scalars names -> NoDup names -> names <> [] ->
  Z.of_nat (length (concat parts)) < n -> d = None \/ d = Some [] ->
  let r := rdd_as_db w cl names ow pad n parts d in (exists e, val r = Raise e) /\ forall d', In d' (d :: seen r ++ [now r]) -> refuses d'.
Proof. exact too_many_parts. Qed.
Theorem C81_empty_partition_refuted : forall w cl names ow pad parts d, spark cl -> NoDup names -> names <> [] -> In [] parts ->
  exists e, val (rdd_as_db w cl names ow pad 0 parts d) = Raise e.
Proof. intros w cl names ow pad parts d Hs Hn Hne Hin. apply (empty_partition w cl names ow pad 0 parts d Hs Hn Hne Hin). Qed.
Definition ex_pairs : list rec := [(3, [[4; 5]; [6]]); (0, [[7]; [8; 9]])].
Definition ex_w : world := MkWorld (fun l => l) (@rev str) (fun _ => 77).
Example C81_ex : val (rdd_as_db ex_w ex_cluster [lit "x"; lit "y"] false 3 1 [ex_pairs; []] None) = mdb_load (now (rdd_as_db ex_w ex_cluster [lit "x"; lit "y"] false 3 1 [ex_pairs; []] None)) None false false /\
  match mdb_load (now (rdd_as_db ex_w ex_cluster [lit "x"; lit "y"] false 3 0 [[(3, [[4; 5]; [6]])]; [(0, [[7]; [8; 9]])]] None)) None false false with Ok m => mdb_size m = 2 | Raise _ => False end /\
  val (rdd_as_db ex_w ex_cluster [lit "x"; lit "y"] false 3 2 [ex_pairs] None) = Raise AssertionError.
Proof. vm_compute. repeat split. Qed.

(** *** C82: the command line tool *)
Theorem C82_bitextdb : forall w cl pad sm tm xs ys np sc tc sl tl d m, spark cl -> lists w ->
  let r := bitextdb w cl pad sm tm xs ys np sc tc (Z.of_nat sl) (Z.of_nat tl) true d in
  val r = Ok m ->
  exists s t rows, load_scheme sm = Ok s /\ match tm with Some b => load_scheme b = Ok t | None => t = s end /\ length xs = length ys /\
    exactly rows (cut_to sl tl (line_pair xs ys (encode s) (encode t))) /\
    (storable [lit "x"; lit "y"] (map as_rec rows) -> complete 2 (map as_rec rows) (now r) /\ mdb_load (now r) None false false = Ok m /\ (0 < np -> Z.of_nat (length (part_columns (now r))) = np)).
Proof.
  intros w cl pad sm tm xs ys np sc tc sl tl d m Hs Hl r Hv. destruct (bitextdb_sound w cl pad sm tm xs ys np sc tc _ _ true d m Hs Hl Hv) as (s & t & rows & H1 & H2 & H3 & _ & H5 & H6).
  exists s, t, rows. split; [exact H1|]. split; [exact H2|]. split; [exact H3|]. split; [|intros Hst; destruct (H6 Hst) as (G1 & G2 & _ & G3); auto]. eapply exactly_ext; [|exact H5]. intros i u v. apply limited_cut.
Qed.
Theorem C82_bitextdb_filtered : forall w cl pad sm tm xs ys np sc tc sl tl d m, spark cl -> lists w ->
  let r := bitextdb w cl pad sm tm xs ys np sc tc (Z.of_nat sl) (Z.of_nat tl) false d in
  val r = Ok m ->
  exists s t rows, load_scheme sm = Ok s /\ match tm with Some b => load_scheme b = Ok t | None => t = s end /\ length xs = length ys /\
    exactly rows (below sl tl (line_pair xs ys (encode s) (encode t))) /\
    (storable [lit "x"; lit "y"] (map as_rec rows) -> complete 2 (map as_rec rows) (now r) /\ mdb_load (now r) None false false = Ok m /\ (0 < np -> Z.of_nat (length (part_columns (now r))) = np)).
Proof.
  intros w cl pad sm tm xs ys np sc tc sl tl d m Hs Hl r Hv. destruct (bitextdb_sound w cl pad sm tm xs ys np sc tc _ _ false d m Hs Hl Hv) as (s & t & rows & H1 & H2 & H3 & _ & H5 & H6).
  exists s, t, rows. split; [exact H1|]. split; [exact H2|]. split; [exact H3|]. split; [|intros Hst; destruct (H6 Hst) as (G1 & G2 & _ & G3); auto]. eapply exactly_ext; [|exact H5]. intros i u v. apply limited_below.
Qed.
Definition ex_run (sc tc : str) : run mdb :=
  bitextdb ex_w ex_cluster 3 (ex_file KWord ex_word) None [lit "ab c"; []; lit "c"] [lit "c"; lit "ab"; lit "ab ab c"] 0 sc tc 2 2 true None.
Example C82_ex : match val (ex_run (lit "x") (lit "y")) with
                 | Ok m => mdb_size m = 2 /\ map (fun r => (fst r, map a_vals (snd r))) (fst (mdb_iter (now (ex_run (lit "x") (lit "y"))) m (fun l => l) db_ids)) = [(2, [[7]; [6; 6]]); (0, [[6; 7]; [7]])]
                 | Raise _ => False end.
Proof. vm_compute. split; reflexivity. Qed.

(** *** C83: false: the options --src-col and --tgt-col have no effect *)
(* the names are always x and y *)
Theorem C83_column_names_partial : forall w cl pad sm tm xs ys np sc tc sl tl d m, spark cl -> lists w ->
  let r := bitextdb w cl pad sm tm xs ys np sc tc (Z.of_nat sl) (Z.of_nat tl) true d in
  val r = Ok m -> (forall s t rows, load_scheme sm = Ok s -> match tm with Some b => load_scheme b = Ok t | None => t = s end -> exactly rows (cut_to sl tl (line_pair xs ys (encode s) (encode t))) -> storable [lit "x"; lit "y"] (map as_rec rows)) ->
  Forall (eq [lit "x"; lit "y"]) (part_columns (now r)).
Proof.
  intros w cl pad sm tm xs ys np sc tc sl tl d m Hs Hl r Hv Hst. destruct (bitextdb_sound w cl pad sm tm xs ys np sc tc _ _ true d m Hs Hl Hv) as (s & t & rows & H1 & H2 & _ & _ & H5 & H6).
  apply H6. apply (Hst s t rows H1 H2). eapply exactly_ext; [|exact H5]. intros i u v. apply limited_cut.
Qed.
Theorem C83_column_names_refuted : exists w cl pad sm tm xs ys np sc tc sl tl truncate d m names, spark cl /\ lists w /\
  val (bitextdb w cl pad sm tm xs ys np sc tc sl tl truncate d) = Ok m /\ In names (part_columns (now (bitextdb w cl pad sm tm xs ys np sc tc sl tl truncate d))) /\ names <> [sc; tc].
Proof.
  exists ex_w, ex_cluster, 3%nat, (ex_file KWord ex_word), None, [lit "ab c"; []; lit "c"], [lit "c"; lit "ab"; lit "ab ab c"], 0, (lit "de"), (lit "en"), 2, 2, true, None.
  destruct (val (ex_run (lit "de") (lit "en"))) as [m|e] eqn:E; [|exfalso; clear -E; enough (H : match val (ex_run (lit "de") (lit "en")) with Ok _ => true | Raise _ => false end = true) by (rewrite E in H; discriminate H); vm_compute; reflexivity].
  exists m, [lit "x"; lit "y"]. split; [exact ex_spark|]. split; [split; intros l; [apply Permutation_refl|apply Permutation_rev]|]. split; [exact E|]. split; [|discriminate].
  assert (H : hd_error (part_columns (now (ex_run (lit "de") (lit "en")))) = Some [lit "x"; lit "y"]) by (vm_compute; reflexivity).
  change (In [lit "x"; lit "y"] (part_columns (now (ex_run (lit "de") (lit "en"))))). destruct (part_columns (now (ex_run (lit "de") (lit "en")))); [discriminate H|]. injection H as ->. left. reflexivity.
Qed.

Print Assumptions C66_bitext_truncated.
Print Assumptions C66_bitext_succeeds.
Print Assumptions C66_unequal_texts.
Print Assumptions C67_bitext_filtered_partial.
Print Assumptions C67_bitext_filtered_refuted.
Print Assumptions C80_nothing_left_partial.
Print Assumptions C80_nothing_left_refuted.
Print Assumptions C80_all_too_long_refuted.
Print Assumptions C81_rdd_as_db_partial.
Print Assumptions C81_too_many_parts_refuted.
Print Assumptions C81_empty_partition_refuted.
Print Assumptions C82_bitextdb.
Print Assumptions C82_bitextdb_filtered.
Print Assumptions C83_column_names_partial.
Print Assumptions C83_column_names_refuted.
