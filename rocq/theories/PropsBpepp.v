(** Properties C135-C141: experimental/bpepp.py. *)
From Coq Require Import Strings.String.
From Verif Require Import Py PyLemmas PyStr StrSpec PyStrProofs Utf8Model JsonModel JsonProofs CodecModel CodecSpec TrieProofs BpeProofs VocabFileModel VocabSpec
     VocabFileProofs LearnModel LearnSpec LearnProofs HeapModel BpeSpec LearnBpeModel CliModel CliSpec CliProofs BpeppModel BpeppSpec BpeppLearn BpeppProofs BpeppEnd BpeppCmd.
Local Open Scope Z_scope.
Local Open Scope list_scope.

(** A small table: the reserved types, three characters, two subwords and a phrase. *)
Definition pp_table : list Typ :=
  let a := MkType (lit "a") 0 6 5 None in
  let b := MkType (lit "b") 0 7 4 None in
  let c := MkType (lit "c") 0 8 2 None in
  let m := nth 5 with_reserved_types (MkType [] 0 0 0 None) in
  let ab := MkType (lit "ab") 1 9 3 (Some [a; b]) in
  let abm := MkType (lit "ab" ++ [MARK]) 1 10 2 (Some [ab; m]) in
  with_reserved_types ++ [a; b; c; ab; abm; MkType (lit "ab" ++ [MARK] ++ lit "ab" ++ [MARK]) 2 11 2 (Some [abm; abm])].
Definition in_order (i : nat) (l : list nat) : list nat := l.
Lemma in_order_ok : iteration_orders in_order.
Proof. intros i l. apply Permutation_refl. Qed.
Lemma pp_table_indexed : well_indexed pp_table.
Proof. intros n t H. do 12 (destruct n as [|n]; [injection H as <-; reflexivity|]). destruct n; discriminate H. Qed.
Lemma pp_table_usable : usable pp_table.
Proof.
  split; [|split; [reflexivity|]].
  - split; [discriminate|]. split; [exact pp_table_indexed|]. split.
    + intros n t H. do 9 (destruct n as [|n]; [injection H as <-; split; [discriminate|intros k []]|]).
      destruct n as [|n]; [injection H as <-; split; [discriminate|intros k [<-|[<-|[]]]; [exists 6%nat|exists 7%nat]; split; [lia|reflexivity|lia|reflexivity]]|].
      destruct n as [|n]; [injection H as <-; split; [discriminate|intros k [<-|[<-|[]]]; [exists 9%nat|exists 5%nat]; split; [lia|reflexivity|lia|reflexivity]]|].
      destruct n as [|n]; [injection H as <-; split; [discriminate|intros k [<-|[<-|[]]]; exists 10%nat; (split; [lia|reflexivity])]|]. destruct n; discriminate H.
    + assert (G : forallb (fun t => forallb (fun c => is_scalar c && negb (N.eqb c 9) && negb (N.eqb c 10) && negb (N.eqb c 13)) (t_name t)) pp_table = true) by (vm_compute; reflexivity).
      intros t Hin c Hc. rewrite forallb_forall in G. specialize (G t Hin). rewrite forallb_forall in G. specialize (G c Hc).
      do 3 (apply andb_true_iff in G; destruct G as [G ?]). split; [exact G|]. repeat split; intros ->; discriminate.
  - intros (t & Hin & E). vm_compute in Hin. repeat (destruct Hin as [<-|Hin]; [discriminate E|]). destruct Hin.
Qed.

(** *** C135: the codec of bpepp *)
Theorem C135_builds : forall table,
  (table <> [] /\ ~ has_name table [] -> exists root, pp_codec table = Ok root) /\
  (table = [] \/ has_name table [] -> pp_codec table = Raise AssertionError).
Proof.
  intros table. split; [|apply pp_codec_refuses]. intros [H1 H2]. exists (build tr_empty table). apply pp_codec_inv. auto.
Qed.
Theorem C135_encode : forall table root line text,
  pp_codec table = Ok root -> well_indexed table -> marked line text ->
  exists segs ids, greedy table text segs /\ pp_encode root line = Ok ids /\ Forall2 (seg_number table) segs ids.
Proof. exact pp_encode_spec. Qed.
Theorem C135_pieces : forall table root line text,
  pp_codec table = Ok root -> well_indexed table -> starts_reserved table -> marked line text ->
  exists segs ids, greedy table text segs /\ pp_encode root line = Ok ids /\ Forall2 (seg_number table) segs ids /\
    pp_decode table ids = Ok (map seg_piece segs) /\ pp_encode_pieces table root line = Ok (map seg_piece segs).
Proof. exact pp_pieces_spec. Qed.
Theorem C135_lossless : forall table root line text norm,
  pp_codec table = Ok root -> well_indexed table -> marked line text -> normal line norm ->
  (forall c, In c text -> has_name table [c]) ->
  exists ids out, pp_encode root line = Ok ids /\ pp_decode_as_str table ids = Ok out /\
    trimmed (unmark norm) out /\ (~ In MARK line -> out = norm).
Proof. exact pp_lossless. Qed.
Theorem C135_agrees_with_nlcodec : forall table s line,
  make_scheme KBpe table = Ok s -> well_indexed table ->
  exists root, pp_codec table = Ok root /\ pp_encode_pieces table root line = encode_str s line /\
    (distinct_names table -> pp_encode root line = encode s line) /\
    forall ids, pp_decode_as_str table ids = decode s ids.
Proof. exact pp_agrees. Qed.
(** With a name given twice the two codecs number the piece differently: bpepp takes the last, nlcodec the first. *)
Theorem C135_repeated_name : exists table s root line, make_scheme KBpe table = Ok s /\ well_indexed table /\
  pp_codec table = Ok root /\ pp_encode root line <> encode s line.
Proof.
  exists (pp_table ++ [MkType (lit "ab") 1 12 3 None]), (match make_scheme KBpe (pp_table ++ [MkType (lit "ab") 1 12 3 None]) with Ok s => s | Raise _ => MkScheme KBpe [] [] [] None tr_empty end).
  exists (build tr_empty (pp_table ++ [MkType (lit "ab") 1 12 3 None])), (lit "abc"). split; [vm_compute; reflexivity|]. split; [|split; [vm_compute; reflexivity|vm_compute; discriminate]].
  intros n t H. do 13 (destruct n as [|n]; [injection H as <-; reflexivity|]). destruct n; discriminate H.
Qed.
Example C135_case : exists root, pp_codec pp_table = Ok root /\ pp_encode root (lit " ab  ab cxab") = Ok [11; 8; 1; 10] /\
  pp_encode_pieces pp_table root (lit "ab c") = Ok [lit "ab" ++ [MARK]; lit "c"; [MARK]] /\
  pp_decode_as_str pp_table [11; 8; 5] = Ok (lit "ab ab c").
Proof. eexists. split; [vm_compute; reflexivity|]. split; [|split]; vm_compute; reflexivity. Qed.

(** *** C136: the commands encode and decode *)
Theorem C136_encode : forall bytes table root inp ls,
  pp_load bytes = Ok (table, root) -> well_indexed table -> lines_of inp ls ->
  exists nums, Forall2 (encoded_line table) ls (map (fun s => (s, 1)) nums) /\
    pp_cli_encode bytes false inp = (unlines (map (fun s => join [SPACE] (map str_of_Z s)) nums), None).
Proof. exact pp_encode_cmd. Qed.
Theorem C136_encode_pieces : forall bytes table root inp ls,
  pp_load bytes = Ok (table, root) -> well_indexed table -> starts_reserved table -> lines_of inp ls ->
  exists segss, Forall2 (fun l segs => exists text, marked l text /\ greedy table text segs) ls segss /\
    pp_cli_encode bytes true inp = (unlines (map (fun segs => join [SPACE] (map seg_piece segs)) segss), None).
Proof. exact pp_encode_cmd_pieces. Qed.
(** What decode does instead of a line for each line: the first line alone, a character to a line. *)
Theorem C136_decode_partial : forall bytes table root inp ls,
  pp_load bytes = Ok (table, root) -> lines_of inp ls ->
  match ls with
  | [] => pp_cli_decode bytes inp = ([], Some TypeError)
  | l :: _ => forall ws, words_of l ws ->
      match mapM int_of_str ws with
      | Raise e => pp_cli_decode bytes inp = ([], Some e)
      | Ok ids => match pp_decode_as_str table ids with
                  | Raise e => pp_cli_decode bytes inp = ([], Some e)
                  | Ok txt => pp_cli_decode bytes inp = (unlines (map (fun c => [c]) txt), None)
                  end
      end
  end.
Proof. exact pp_decode_cmd. Qed.
Theorem C136_refused : forall bytes e pieces inp, pp_load bytes = Raise e ->
  pp_cli_encode bytes pieces inp = ([], Some e) /\ pp_cli_decode bytes inp = ([], Some e).
Proof. exact pp_cli_refused. Qed.
Definition pp_bytes : list N := fst (pp_write_vocab (lit "now") pp_table).
Theorem C136_refuted : exists bytes inp codes, pp_cli_encode bytes false inp = (codes, None) /\
  inp = unlines [lit "ab ab"; lit "c"] /\ pp_cli_decode bytes codes = (unlines [lit "a"; lit "b"; lit " "; lit "a"; lit "b"], None) /\
  pp_cli_decode bytes [] = ([], Some TypeError).
Proof. exists pp_bytes, (unlines [lit "ab ab"; lit "c"]), (unlines [lit "11"; lit "8 5"]). split; [|split; [|split]]; vm_compute; reflexivity. Qed.
Example C136_case : pp_load pp_bytes = Ok (pp_table, build tr_empty pp_table) /\ well_indexed pp_table /\ starts_reserved pp_table /\
  lines_of (unlines [lit "ab ab"; lit "c"]) [lit "ab ab"; lit "c"] /\
  pp_cli_encode pp_bytes true (unlines [lit "ab b"; lit "c"]) = (unlines [lit "ab" ++ [MARK; SPACE] ++ lit "b" ++ [SPACE; MARK]; lit "c" ++ [SPACE; MARK]], None).
Proof.
  split; [vm_compute; reflexivity|]. split; [exact pp_table_indexed|]. split; [reflexivity|]. split; [|vm_compute; reflexivity].
  change (unlines [lit "ab ab"; lit "c"]) with (lit "ab ab" ++ [10%N] ++ lit "c" ++ [10%N] ++ []).
  repeat constructor; intros H; cbn in H; intuition discriminate.
Qed.

(** *** C137: vocabulary files of bpepp *)
Theorem C137_round_trip : forall now table, scalars now -> well_indexed table -> kids_earlier table ->
  (forall t, In t table -> plain_text (t_name t)) ->
  exists bytes, pp_write_vocab now table = (bytes, Ok tt) /\ pp_read_vocab bytes = Ok table.
Proof. exact pp_write_read. Qed.
Theorem C137_reads_nlcodec : forall version now table meta, scalars version -> scalars now -> meta_ok meta -> storable table ->
  exists bytes, write_out version now table meta = (bytes, Ok tt) /\ pp_read_vocab bytes = Ok table.
Proof. exact pp_reads_nlcodec. Qed.
Theorem C137_refuses : forall now table n t, nth_error table n = Some t -> t_idx t <> Z.of_nat n ->
  exists bytes, pp_write_vocab now table = (bytes, Raise AssertionError).
Proof. exact pp_write_refuses. Qed.
Theorem C137_empty_file : pp_read_vocab [] = Raise IndexError.
Proof. reflexivity. Qed.
Example C137_case : scalars (lit "now") /\ well_indexed pp_table /\ kids_earlier pp_table /\ (forall t, In t pp_table -> plain_text (t_name t)) /\
  pp_read_vocab pp_bytes = Ok pp_table.
Proof.
  destruct pp_table_usable as ((_ & H1 & H2 & H3) & _). split; [repeat constructor|]. split; [exact H1|]. split; [exact H2|]. split; [exact H3|]. vm_compute. reflexivity.
Qed.

(** *** C138: long runs *)
Theorem C138_trouble : forall s, is_troublesome_seq s = true <-> has_run s.
Proof. exact trouble_iff. Qed.
Theorem C138_replace : forall s, capped s (replace_trouble s) /\ (forall s', capped s s' -> s' = replace_trouble s) /\
  ~ has_run (replace_trouble s) /\ (~ has_run s -> replace_trouble s = s).
Proof.
  intros s. split; [apply replace_trouble_capped|]. split; [intros s' H; apply capped_replace, H|]. split; [apply replace_no_run|apply replace_id].
Qed.
Example C138_case : is_troublesome_seq [1; 1; 2; 2; 2; 2; 3] = true /\ replace_trouble [1; 1; 2; 2; 2; 2; 3] = [1; 1; 2; 2; 3] /\ ~ has_run [1; 1; 2; 2; 1].
Proof. split; [reflexivity|]. split; [reflexivity|]. rewrite <- trouble_iff. discriminate. Qed.

(** *** C139: what the learner accepts *)
Theorem C139_accepts : forall tr c c' vocab, (forall s f, In (s, f) c -> 0 <= f /\ forall x, In x s -> 0 <= x) -> cleaned (cuts tr) c c' ->
  let start := pp_init tr (map (fun sf => Ok sf) c) vocab in
  (~ (well_indexed vocab /\ distinct_names vocab) /\ start = Raise AssertionError) \/
  ((well_indexed vocab /\ distinct_names vocab) /\
   ((first_empty c /\ start = Raise IndexError) \/
    (~ first_empty c /\
     (((c' = [] \/ ~ symbols_below (Z.of_nat (List.length vocab)) c') /\ start = Raise ValueError) \/
      (c' <> [] /\ symbols_below (Z.of_nat (List.length vocab)) c' /\ exists ix, start = Ok ix))))).
Proof.
  intros tr c c' vocab H Hc. destruct (pp_init_outcome tr c c' vocab H Hc) as [A|(A & [B|(B & [C|(C1 & C2 & ix & C3 & _)])])]; [left; exact A|right..]; (split; [exact A|]); [left; exact B|right..]; (split; [exact B|]); [left; exact C|right].
  split; [exact C1|]. split; [exact C2|]. exists ix. exact C3.
Qed.
Theorem C139_cleaning : forall b c, exists c', cleaned b c c' /\ (forall c2, cleaned b c c2 -> c2 = c') /\
  forall s f, In (s, f) c' -> s <> [] /\ ~ has_run s.
Proof.
  intros b c. destruct (cleaned_total b c) as (c' & H). exists c'. split; [exact H|]. split; [intros c2 H2; eapply cleaned_unique; eassumption|].
  apply (cleaned_no_run b c c' H).
Qed.
Example C139_case : pp_init Replace [Ok ([6; 7], 2); Ok ([], 1); Ok ([8; 8; 8], 1)] pp_table <> Raise ValueError /\
  cleaned true [([6; 7], 2); ([], 1); ([8; 8; 8], 1)] [([6; 7], 2); ([8; 8], 1)] /\
  pp_init Replace [Ok ([], 2); Ok ([6], 1)] pp_table = Raise IndexError /\
  pp_init Replace [Ok ([6], 2); Ok ([12], 1)] pp_table = Raise ValueError /\
  pp_init Ignore [Ok ([6; 6; 6], 2)] pp_table = Raise ValueError /\
  pp_init Replace [Ok ([6], 2)] (pp_table ++ [MkType (lit "ab") 1 12 3 None]) = Raise AssertionError.
Proof.
  split; [vm_compute; discriminate|]. split.
  - change true with (cuts Replace). apply cleaned_flat. reflexivity.
  - do 3 (split; [vm_compute; reflexivity|]). vm_compute. reflexivity.
Qed.

(** *** C140: learning in two levels *)
Theorem C140_level1 : forall orders lines toks vs mco cmf wmf, tokens_of KWord lines toks ->
  let r := pp_learn_from_corpus orders lines vs mco cmf wmf in
  exists tf, exact_counts toks tf /\
  (cmf < 1 \/ wmf < 1 -> r = Raise AssertionError) /\
  (1 <= cmf -> 1 <= wmf -> exists init, char_table cmf (map (fun wf => (fst wf ++ [MARK], snd wf)) (often wmf tf)) init /\
    (vs = -1 -> r = Ok init) /\
    (vs <> -1 -> vs <= Z.of_nat (List.length init) -> r = Raise AssertionError) /\
    (Z.of_nat (List.length init) < vs -> often wmf tf = [] -> r = Raise ValueError) /\
    (Z.of_nat (List.length init) < vs -> often wmf tf <> [] -> exists c c', spelled_corpus init (often wmf tf) c /\ cleaned true c c' /\
       (iteration_orders orders -> 1 <= mco -> pp_bpe mco L_subword (Z.to_nat (vs - Z.of_nat (List.length init))) c' init r) /\
       (forall table, r = Ok table -> grown_by L_subword init table /\ Z.of_nat (List.length table) <= vs))).
Proof. exact pp_level1. Qed.
Theorem C140_level2 : forall orders table root lines n mco,
  pp_codec table = Ok root -> well_indexed table -> starts_reserved table ->
  let r := pp_learn_codes Replace orders (map (fun l => let* s := pp_encode root l in Ok (s, 1))%res lines) table n mco 2 in
  exists c, Forall2 (encoded_line table) lines c /\
    (~ distinct_names table -> r = Raise AssertionError) /\
    (distinct_names table -> lines = [] -> r = Raise ValueError) /\
    (distinct_names table -> lines <> [] -> exists c', cleaned true c c' /\ (iteration_orders orders -> 1 <= mco -> pp_bpe mco 2 (Z.to_nat n) c' table r)) /\
    (forall t2, r = Ok t2 -> grown_by 2 table t2 /\ Z.of_nat (List.length t2) <= Z.of_nat (List.length table) + Z.max 0 n).
Proof. exact pp_level2. Qed.
Theorem C140_learn1 : forall orders now args texts lss lines toks,
  Forall2 lines_of texts lss -> lines = concat lss -> tokens_of KWord lines toks -> (forall w, In w toks -> plain_text w) -> scalars now ->
  let r := pp_learn_from_corpus orders lines (vocab_size_l1 args) (min_co_l1 args) (char_min_freq args) (word_min_freq args) in
  let bad := prepared args = true \/ (vocab_size_l1 args <= 0 /\ vocab_size_l1 args <> -1) in
  (bad -> pp_learn1 orders now args texts = Raise AssertionError) /\
  (~ bad -> forall e, r = Raise e -> pp_learn1 orders now args texts = Raise e) /\
  (~ bad -> forall table, r = Ok table -> usable table /\ exists bytes, pp_learn1 orders now args texts = Ok bytes /\ pp_read_vocab bytes = Ok table).
Proof. exact pp_learn1_outcome. Qed.
Theorem C140_learn2 : forall orders now args l1 table root texts lss lines,
  pp_read_vocab l1 = Ok table -> usable table -> pp_codec table = Ok root -> prepared args = false -> Forall2 lines_of texts lss -> lines = concat lss -> scalars now ->
  let r := pp_learn_codes Replace orders (map (fun l => let* s := pp_encode root l in Ok (s, 1))%res lines) table (vocab_size_l2 args) (min_co_l2 args) 2 in
  (forall e, r = Raise e -> pp_learn2 orders now args (Some l1) texts = Raise e) /\
  (forall t2, r = Ok t2 -> usable t2 /\ exists bytes, pp_learn2 orders now args (Some l1) texts = Ok bytes /\ pp_read_vocab bytes = Ok t2).
Proof. exact pp_learn2_outcome. Qed.
Theorem C140_learn2_prepared : forall orders now args l1 table texts lss lines idss,
  pp_read_vocab l1 = Ok table -> storable table -> prepared args = true -> Forall2 lines_of texts lss -> lines = concat lss -> scalars now ->
  Forall2 (fun l ids => exists ws, words_of l ws /\ mapM int_of_str ws = Ok ids) lines idss ->
  let r := pp_learn_codes Replace orders (map (fun sf => Ok sf) (map (fun ids => (firstn 1024 ids, 1)) idss)) table (vocab_size_l2 args) (min_co_l2 args) 2 in
  (forall e, r = Raise e -> pp_learn2 orders now args (Some l1) texts = Raise e) /\
  (forall t2, r = Ok t2 -> storable t2 /\ exists bytes, pp_learn2 orders now args (Some l1) texts = Ok bytes /\ pp_read_vocab bytes = Ok t2).
Proof. exact pp_learn2_prepared. Qed.
(** The files: a level that fails changes nothing; the level 1 vocabulary is moved out of the way, never overwritten. *)
Theorem C140_files_learn1 : forall o1 o2 now1 now2 texts vocab l1 args fs,
  let path := match l1 with Some p => p | None => vocab end in
  match pp_learn1 o1 now1 args texts with
  | Raise e => pp_learn o1 o2 now1 now2 Learn1 texts vocab l1 args fs = (fs, Some e) /\ pp_learn o1 o2 now1 now2 Learn texts vocab l1 args fs = (fs, Some e)
  | Ok bytes => exists fs', pp_learn o1 o2 now1 now2 Learn1 texts vocab l1 args fs = (fs', None) /\
      dget str_eqb path fs' = Some bytes /\ (forall name, name <> path -> dget str_eqb name fs' = dget str_eqb name fs) /\
      pp_learn o1 o2 now1 now2 Learn texts vocab l1 args fs = pp_learn o1 o2 now1 now2 Learn2 texts vocab l1 args fs'
  end.
Proof.
  intros o1 o2 now1 now2 texts vocab l1 args fs path. unfold pp_learn. destruct (pp_learn1 o1 now1 args texts) as [bytes|e]; [|auto].
  eexists. split; [reflexivity|]. split; [apply (dget_dset_same str_eqb str_eqb_eq)|]. split; [|reflexivity].
  intros name H. apply (dget_dset_other str_eqb str_eqb_eq). exact H.
Qed.
Theorem C140_files_learn2 : forall o1 o2 now1 now2 texts vocab l1 args fs, NoDup (map fst fs) ->
  let path := match l1 with Some p => p | None => vocab end in
  match pp_learn2 o2 now2 args (dget str_eqb path fs) texts with
  | Raise e => pp_learn o1 o2 now1 now2 Learn2 texts vocab l1 args fs = (fs, Some e)
  | Ok bytes => exists fs', pp_learn o1 o2 now1 now2 Learn2 texts vocab l1 args fs = (fs', None) /\
      dget str_eqb vocab fs' = Some bytes /\
      (path <> vocab -> forall name, name <> vocab -> dget str_eqb name fs' = dget str_eqb name fs) /\
      (path = vocab -> forall stem suffix, name_parts vocab stem suffix ->
         dget str_eqb (stem ++ lit ".l1" ++ suffix) fs' = dget str_eqb vocab fs /\
         forall name, name <> vocab -> name <> stem ++ lit ".l1" ++ suffix -> dget str_eqb name fs' = dget str_eqb name fs)
  end.
Proof.
  intros o1 o2 now1 now2 texts vocab l1 args fs Hnd path. pose proof (pp_second_files o2 now2 args texts vocab path fs Hnd) as H.
  unfold pp_learn. fold path. destruct (pp_learn2 o2 now2 args (dget str_eqb path fs) texts) as [bytes|e]; [|exact H].
  destruct H as (fs' & H1 & H2 & H3 & H4). exists fs'. split; [exact H1|]. split; [exact H2|]. split; [exact H3|].
  intros E stem suffix Hp. rewrite <- (l1_name_spec vocab stem suffix Hp). apply H4, E.
Qed.
Theorem C140_no_level1_file : forall o1 o2 now1 now2 texts vocab l1 args fs,
  dget str_eqb (match l1 with Some p => p | None => vocab end) fs = None ->
  pp_learn o1 o2 now1 now2 Learn2 texts vocab l1 args fs = (fs, Some AssertionError).
Proof. intros o1 o2 now1 now2 texts vocab l1 args fs H. unfold pp_learn, pp_second. rewrite H. reflexivity. Qed.
(** --vocab-size-l2 is not the size of the vocabulary: it counts merges, on top of level 1. *)
Definition pp_ex_args (vs2 : Z) : pp_args := MkArgs 1 1 12 1 vs2 1 false.
Definition pp_ex_text : str := unlines [lit "ab abc"; lit "ab bb"].
Definition pp_ex_files (vs2 : Z) : files * option exn :=
  pp_learn in_order in_order (lit "t1") (lit "t2") Learn [pp_ex_text] (lit "v.txt") None (pp_ex_args vs2) [(lit "other", [1%N])].
Theorem C140_size_refuted : exists fs bytes table, pp_ex_files 2 = (fs, None) /\
  dget str_eqb (lit "v.txt") fs = Some bytes /\ pp_read_vocab bytes = Ok table /\ vocab_size_l2 (pp_ex_args 2) = 2 /\ List.length table = 14%nat.
Proof.
  exists (fst (pp_ex_files 2)), (match dget str_eqb (lit "v.txt") (fst (pp_ex_files 2)) with Some b => b | None => [] end).
  exists (match pp_read_vocab (match dget str_eqb (lit "v.txt") (fst (pp_ex_files 2)) with Some b => b | None => [] end) with Ok t => t | Raise _ => [] end).
  do 4 (split; [vm_compute; reflexivity|]). vm_compute. reflexivity.
Qed.
Example C140_case : map fst (fst (pp_ex_files 2)) = [lit "other"; lit "v.l1.txt"; lit "v.txt"] /\
  name_parts (lit "v.txt") (lit "v") (lit ".txt") /\ usable pp_table /\
  lines_of pp_ex_text [lit "ab abc"; lit "ab bb"] /\
  (exists table, pp_learn_from_corpus in_order [lit "ab abc"; lit "ab bb"] 12 1 1 1 = Ok table /\ List.length table = 12%nat) /\
  snd (pp_learn in_order in_order (lit "t1") (lit "t2") Learn [pp_ex_text] (lit "v.txt") None (MkArgs 1 1 3 1 2 1 false) []) = Some AssertionError.
Proof.
  split; [vm_compute; reflexivity|]. split.
  - split; [reflexivity|]. left. exists (lit "txt"). split; [reflexivity|]. split; [discriminate|]. split; [intros H; cbn in H; intuition discriminate|discriminate].
  - split; [exact pp_table_usable|]. split.
    + change pp_ex_text with (lit "ab abc" ++ [10%N] ++ lit "ab bb" ++ [10%N] ++ []). repeat constructor; intros H; cbn in H; intuition discriminate.
    + split; [|vm_compute; reflexivity]. eexists. split; vm_compute; reflexivity.
Qed.

(** *** C141: the learner merges most frequent pairs *)
Theorem C141_learner_partial : forall tr orders c c' vocab n min_co level,
  well_indexed vocab -> distinct_names vocab -> positive c -> ~ first_empty c -> cleaned (cuts tr) c c' -> c' <> [] ->
  symbols_below (Z.of_nat (List.length vocab)) c' -> (forall s f, In (s, f) c -> forall x, In x s -> 0 <= x) ->
  iteration_orders orders -> 1 <= min_co ->
  pp_bpe min_co level (Z.to_nat n) c' vocab (pp_learn_codes tr orders (map (fun sf => Ok sf) c) vocab n min_co level).
Proof. exact pp_learn_refines. Qed.
Theorem C141_structure : forall tr orders seqs vocab n min_co level table,
  pp_learn_codes tr orders seqs vocab n min_co level = Ok table ->
  well_indexed vocab /\ distinct_names vocab /\ grown_by level vocab table /\
  Z.of_nat (List.length table) <= Z.of_nat (List.length vocab) + Z.max 0 n.
Proof. exact pp_learn_grown. Qed.
Theorem C141_grown : forall level t t', grown_by level t t' ->
  (exists new, t' = t ++ new /\ Forall (fun e => t_level e = level /\ exists a b, t_kids e = Some [a; b] /\ t_name e = t_name a ++ t_name b) new) /\
  (well_indexed t -> well_indexed t') /\ (storable t -> storable t') /\ ((forall u, In u t -> spelled u) -> forall u, In u t' -> spelled u).
Proof.
  intros level t t' H. split; [exact (grown_by_prefix _ _ _ H)|]. split; [exact (grown_by_indexed _ _ _ H)|].
  split; [exact (grown_by_storable _ _ _ H)|exact (grown_by_spelled _ _ _ H)].
Qed.
(** A corpus on which learning trips over its own bookkeeping, and one whose pairs run out. *)
Theorem C141_refuted : pp_learn_from_corpus in_order [lit "ababab"] 12 1 1 1 = Raise AssertionError /\
  pp_learn_from_corpus in_order [lit "a"] 12 1 1 1 = Raise ValueError.
Proof. split; vm_compute; reflexivity. Qed.
Example C141_case : exists table, pp_learn_codes Replace in_order [Ok ([6; 7; 8], 1); Ok ([6; 6; 6; 6; 7; 8; 6], 1)] pp_table 2 1 1 = Ok table /\
  map (fun t => map t_idx (kids_of t)) (skipn 12 table) = [[6; 7]; [12; 8]] /\ iteration_orders in_order /\
  cleaned true [([6; 7; 8], 1); ([6; 6; 6; 6; 7; 8; 6], 1)] [([6; 7; 8], 1); ([6; 6; 7; 8; 6], 1)].
Proof.
  eexists. split; [vm_compute; reflexivity|]. split; [vm_compute; reflexivity|]. split; [exact in_order_ok|].
  change true with (cuts Replace). apply cleaned_flat. reflexivity.
Qed.

Print Assumptions C135_builds.
Print Assumptions C135_encode.
Print Assumptions C135_pieces.
Print Assumptions C135_lossless.
Print Assumptions C135_agrees_with_nlcodec.
Print Assumptions C135_repeated_name.
Print Assumptions C136_encode.
Print Assumptions C136_encode_pieces.
Print Assumptions C136_decode_partial.
Print Assumptions C136_refused.
Print Assumptions C136_refuted.
Print Assumptions C137_round_trip.
Print Assumptions C137_reads_nlcodec.
Print Assumptions C137_refuses.
Print Assumptions C137_empty_file.
Print Assumptions C138_trouble.
Print Assumptions C138_replace.
Print Assumptions C139_accepts.
Print Assumptions C139_cleaning.
Print Assumptions C140_level1.
Print Assumptions C140_level2.
Print Assumptions C140_learn1.
Print Assumptions C140_learn2.
Print Assumptions C140_learn2_prepared.
Print Assumptions C140_files_learn1.
Print Assumptions C140_files_learn2.
Print Assumptions C140_no_level1_file.
Print Assumptions C140_size_refuted.
Print Assumptions C141_learner_partial.
Print Assumptions C141_structure.
Print Assumptions C141_grown.
Print Assumptions C141_refuted.
