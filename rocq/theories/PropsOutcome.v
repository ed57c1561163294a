(** Refused files, failing batches, and runs that exist (C132, and more about C44, C46, C58, C91, C95-C98). *)
From Coq Require Import Strings.String QArith Lia Permutation.
From Verif Require Import Py PyStr PyLemmas CodecModel CodecSpec JsonModel JsonProofs VocabFileModel VocabSpec VocabFileProofs
     NumpyModel DbModel DbSpec BatchModel BatchSpec MultipartModel BatchIterModel BatchIterSpec MapredModel MapredSpec IoModel IoSpec DriverModel
     LearnModel HeapModel BpeSpec LearnBpeModel TrackModel TrackSpec OutcomeSpec OutcomeProofs PropsCodec PropsVocab PropsBpe PropsTrack PropsBatch.
Local Open Scope Z_scope.
Local Open Scope list_scope.

(** *** C132: what the codec of the tracker makes of a vocabulary file that can be read: it is refused without
    metadata, without the key max_level, with another level than 1, or with a type of level 1 and more that is
    not made of two; otherwise the types below level 1 are the codec and the others the merges to come. *)
Theorem C132_codec : forall bytes types meta, read_vocab bytes = Ok (types, meta) ->
  ((forall m, meta = Some (JObj m) -> m = []) -> codec_xt bytes = Raise AssertionError) /\
  forall m, meta = Some (JObj m) -> m <> [] ->
  (~ In (lit "max_level") (map fst m) -> codec_xt bytes = Raise KeyError) /\
  forall v, jget (lit "max_level") m = Some v ->
  (~ equals_one v -> codec_xt bytes = Raise AssertionError) /\
  (equals_one v ->
   (forall pre t post, filter (fun t => 1 <=? t_level t) types = pre ++ t :: post -> Forall of_two pre ->
     (t_kids t = None -> codec_xt bytes = Raise TypeError) /\
     (forall ks, t_kids t = Some ks -> length ks <> 2%nat -> codec_xt bytes = Raise AssertionError)) /\
   (Forall of_two (filter (fun t => 1 <=? t_level t) types) ->
     (forall e, make_scheme KBpe (filter (fun t => t_level t <? 1) types) = Raise e -> codec_xt bytes = Raise e) /\
     (forall s, make_scheme KBpe (filter (fun t => t_level t <? 1) types) = Ok s ->
        codec_xt bytes = Ok (s, filter (fun t => 1 <=? t_level t) types)))).
Proof. exact codec_xt_outcome. Qed.
Theorem C132_unreadable : forall bytes e, read_vocab bytes = Raise e -> codec_xt bytes = Raise e.
Proof. intros bytes e H. unfold codec_xt. rewrite H. reflexivity. Qed.
(* a saved vocabulary whose highest level is not 1: words, characters, classes *)
Theorem C132_other_vocabularies : forall version now types meta, scalars version -> scalars now -> meta_ok meta -> NoDup (map fst meta) ->
  ~ In (lit "max_level") (map fst meta) -> storable types ->
  (forall z, (exists t, In t types /\ t_level t = z) -> (forall t, In t types -> t_level t <= z) -> z <> 1) ->
  exists bytes, write_out version now types meta = (bytes, Ok tt) /\ codec_xt bytes = Raise AssertionError.
Proof. exact codec_xt_saved. Qed.
(* lines that cannot be read or encoded end the tool with their exception; fewer than two processes are refused *)
Theorem C132_failing_lines : forall orders k buffer seqs e, track_merges orders k buffer (seqs, Some e) = Raise e.
Proof. exact track_failing. Qed.
Theorem C132_one_process : forall orders n_cpus codec lines s buffer r, codec_xt codec = Ok (s, buffer) -> n_cpus <= 1 ->
  estimate_lens orders n_cpus codec lines r -> r = Raise AssertionError.
Proof. exact estimate_few. Qed.
Theorem C132_some_result : forall orders n_cpus codec lines, exists r, estimate_lens orders n_cpus codec lines r.
Proof. exact estimate_exists. Qed.
(* without lines there is no mean *)
Theorem C132_no_lines : forall orders k ts ps, iteration_orders orders -> (0 < k)%nat -> merge_list (Z.of_nat k) ts ps ->
  exists rows, track_merges orders k ts ([], None) = Ok rows /\ length rows = S (length ps) /\ forall rw, In rw rows -> r_mean rw = None.
Proof. exact track_nothing. Qed.
Definition saved (types : list Typ) : list N := fst (write_out (lit "1") (lit "now") types []).
Definition no_typ : Typ := MkType [] 0 0 0 None.
Definition three_kids : list Typ := firstn 8 ex_bpe ++ [MkType (lit "abb") 1 8 1 (Some [nth 6 ex_bpe no_typ; nth 7 ex_bpe no_typ; nth 7 ex_bpe no_typ])].
Example C132_ex : codec_xt (saved ex_word) = Raise AssertionError /\ codec_xt (saved three_kids) = Raise AssertionError /\
  (match codec_xt (saved ex_bpe) with Ok (s, b) => (length (s_table s), map t_name b) = (8%nat, [lit "ab"; lit "abb"]) | _ => False end) /\
  map r_mean (rows_or_none (track_merges as_is 8 (skipn 8 ex_bpe) ([], None))) = [None; None; None].
Proof. do 3 (split; [vm_compute; reflexivity|]). vm_compute. reflexivity. Qed.
Example C132_ex_words : forall z, (exists t, In t ex_word /\ t_level t = z) -> (forall t, In t ex_word -> t_level t <= z) -> z <> 1.
Proof. intros z _ H ->. assert (Hl : exists t, In t ex_word /\ 1 < t_level t) by (eexists; split; [cbn; right; right; right; right; right; right; left; reflexivity|vm_compute; reflexivity]). destruct Hl as (t & Ht & Hl). specialize (H t Ht). lia. Qed.

(** *** C58: every call of parallel_map has a run, and exactly one outcome *)
Theorem C58_exact : forall (A B : Type) (f : A -> res B) data n_cpus size out, 1 < n_cpus -> (0 < size)%nat ->
  (parallel_map f data n_cpus size out <-> out = cut size (sequential f (seen_input size data) (snd data))).
Proof. exact (@parallel_map_exact). Qed.
Theorem C58_fewer_exact : forall (A B : Type) (f : A -> res B) data n_cpus size out, n_cpus <= 1 ->
  (parallel_map f data n_cpus size out <-> out = ([], Some AssertionError)).
Proof. exact (@parallel_map_few). Qed.

(** *** C46, C98: without assuming that the examples can be padded: the batches are made one after the other, and the
    first that cannot be made ends the iteration with its exception. *)
Theorem C46_bad_batch : forall m sort_dec bf max_toks max_sents data, sents_ok max_sents -> Forall (fun ex => e_y ex <> None) data ->
  (forall r, In r data -> example_used r = true -> example_size r <= max_toks) ->
  exists groups, concat groups = filter example_used data /\ greedy (fits_seq max_toks max_sents) groups /\
    until_failure (make_batch m sort_dec bf) groups None (fst (read_all m sort_dec bf max_toks max_sents data)) (snd (read_all m sort_dec bf max_toks max_sents data)).
Proof. exact read_all_until. Qed.
Theorem C44_bad_batch : forall m sort_dec bf d max_toks max_sents order arranged shuffled,
  match eq_len_examples d max_toks max_sents order arranged shuffled with
  | Ok groups => until_failure (make_batch m sort_dec bf) groups None (fst (eq_len_batches m sort_dec bf d max_toks max_sents order arranged shuffled))
                   (snd (eq_len_batches m sort_dec bf d max_toks max_sents order arranged shuffled))
  | Raise e => eq_len_batches m sort_dec bf d max_toks max_sents order arranged shuffled = ([], Some e)
  end.
Proof. exact eq_len_until. Qed.
Theorem C44_some_batch : forall d max_toks max_sents order arranged, arranges arranged -> eq_len_batch_ids d max_toks max_sents order arranged <> Ok [].
Proof. exact some_batch. Qed.
Theorem C98_one_db : forall d m toks sents sd bf c,
  iterate (MkIter (OneDb d) m toks sents sd bf EqLen) c = eq_len_batches m sd bf d toks sents (ids_order c d) (arranged c) (shuffled c) /\
  forall data, mapM (db_example d) (ids_order c d) = Ok data ->
    iterate (MkIter (OneDb d) m toks sents sd bf ReadAll) c = batch_iter_seq m sd bf d toks sents (ids_order c d) /\
    batch_iter_seq m sd bf d toks sents (ids_order c d) = read_all m sd bf toks sents data.
Proof. intros. split; [apply iterate_one_eq_len|]. intros data H. apply iterate_one_in_order, H. Qed.
Theorem C98_strategies : forall s, strategy_of s = match s with
  | None => Ok ReadAll
  | Some n => if str_dec n (lit "eq_len_rand_batch") then Ok EqLen else if str_dec n (lit "random") then Ok ReadAll else Raise AssertionError
  end.
Proof. exact strategy_names. Qed.
(* the second batch would need an eos that may not be there *)
Definition ex_strict : meta := MkMeta 0 1 2 false false false true.
Example C46_bad_ex : map ba_ids (fst (read_all ex_strict false true 4 (Some 1) [exa 0 [5; 6] [5]; exa 1 [7; 2] [5]; exa 2 [7] [5]])) = [[0]] /\
  snd (read_all ex_strict false true 4 (Some 1) [exa 0 [5; 6] [5]; exa 1 [7; 2] [5]; exa 2 [7] [5]]) = Some AssertionError.
Proof. split; vm_compute; reflexivity. Qed.

(** *** C95-C97: modes, and files that do not exist *)
Theorem C95_modes : forall name mode,
  (In 116%N mode -> In 98%N mode -> io_enter name mode = Raise ValueError) /\
  (In 116%N mode -> ~ In 98%N mode -> (gz_name name -> io_enter name mode = Ok (Utf8 true)) /\ (~ gz_name name -> io_enter name mode = Ok (Utf8 false))) /\
  (~ In 116%N mode -> gz_name name -> io_enter name mode = Raise ValueError) /\
  (~ In 116%N mode -> ~ gz_name name -> (In 98%N mode -> io_enter name mode = Ok Binary) /\ (~ In 98%N mode -> io_enter name mode = Ok Locale)).
Proof. exact enter_modes. Qed.
Theorem C96_missing_file : forall fs name, dget str_eqb name fs = None ->
  io_read_text fs name = Raise FileNotFound /\ io_read_bytes fs name = if is_gz name then Raise ValueError else Raise FileNotFound.
Proof. exact read_missing. Qed.
Example C95_modes_ex : ~ In 116%N (lit "r") /\ ~ In 98%N (lit "r") /\ ~ gz_name (lit "x") /\ dget str_eqb (lit "x") [] = @None (list N).
Proof.
  split; [intros [H|[]]; discriminate H|]. split; [intros [H|[]]; discriminate H|]. split; [|reflexivity].
  intros (p & E). assert (L : length (lit "x") = length (p ++ lit ".gz")) by (rewrite E at 1; reflexivity). rewrite app_length in L. cbn in L. lia.
Qed.

(** *** C91: the level subword is the level bpe with a least pair count of 95, whatever is asked for *)
Theorem C91_subword_threshold : forall A orders version now inp model vocab_size min_freq tf coverage mco,
  learn_vocab A orders version now inp (lit "subword") model vocab_size min_freq tf coverage mco =
  learn_vocab A orders version now inp (lit "bpe") model vocab_size min_freq tf coverage 95.
Proof. exact subword_default. Qed.

Print Assumptions C132_codec.
Print Assumptions C132_unreadable.
Print Assumptions C132_other_vocabularies.
Print Assumptions C132_failing_lines.
Print Assumptions C132_one_process.
Print Assumptions C132_some_result.
Print Assumptions C132_no_lines.
Print Assumptions C58_exact.
Print Assumptions C58_fewer_exact.
Print Assumptions C46_bad_batch.
Print Assumptions C44_bad_batch.
Print Assumptions C44_some_batch.
Print Assumptions C98_one_db.
Print Assumptions C98_strategies.
Print Assumptions C95_modes.
Print Assumptions C96_missing_file.
Print Assumptions C91_subword_threshold.
