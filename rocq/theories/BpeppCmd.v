(** experimental/bpepp.py: the commands encode, decode, learn1, learn2 and learn. *)
From Coq Require Import Strings.String.
From Verif Require Import Py PyLemmas PyStr StrSpec PyStrProofs NumProofs Utf8Model Utf8Proofs JsonModel JsonProofs CodecModel CodecSpec FlatProofs TrieProofs BpeProofs
     VocabFileModel VocabSpec VocabFileProofs LearnModel LearnSpec LearnProofs HeapModel BpeSpec LearnBpeModel LearnBpeProofs LearnBpeLoop
     LearnBpeIndex LearnBpeResults LearnBpeEnd CliModel CliSpec CliProofs DriverEnd BpeppModel BpeppSpec BpeppLearn BpeppProofs BpeppEnd.
Local Open Scope Z_scope.
Local Open Scope list_scope.

(** ** encode *)
Lemma pp_load_ok bytes table : pp_read_vocab bytes = Ok table -> table <> [] -> ~ has_name table [] ->
  pp_load bytes = Ok (table, build tr_empty table).
Proof.
  intros E H1 H2. unfold pp_load. rewrite E. cbn [bind]. rewrite (proj2 (pp_codec_inv table (build tr_empty table))) by auto. reflexivity.
Qed.
Lemma pp_load_inv bytes table root : pp_load bytes = Ok (table, root) <-> pp_read_vocab bytes = Ok table /\ pp_codec table = Ok root.
Proof.
  unfold pp_load. destruct (pp_read_vocab bytes) as [v|]; cbn [bind]; [|split; [discriminate|intros [H _]; discriminate]].
  destruct (pp_codec v) as [r|] eqn:E; cbn [bind].
  - split; [intros H; injection H as <- <-; auto|]. intros [H1 H2]. injection H1 as <-. congruence.
  - split; [discriminate|]. intros [H1 H2]. injection H1 as <-. congruence.
Qed.
Lemma pp_write_lines_ok f inp outs : Forall2 (fun l o => f l = Ok o) inp outs -> pp_write_lines f inp = (unlines outs, None).
Proof.
  induction 1 as [|l o inp outs E _ IH]; [reflexivity|]. cbn [pp_write_lines]. rewrite E, IH. unfold unlines. cbn [flat_map]. rewrite <- app_assoc. reflexivity.
Qed.
Lemma pp_segment_words root x y : split x = split y -> pp_segment root x = pp_segment root y.
Proof. intros E. unfold pp_segment, bpe_text. rewrite !split_strip, E. reflexivity. Qed.
Lemma pp_line_words pieces table root x y : split x = split y -> pp_encode_line pieces table root x = pp_encode_line pieces table root y.
Proof. intros E. unfold pp_encode_line, pp_encode_pieces, pp_encode. rewrite (pp_segment_words root x y E). reflexivity. Qed.
Lemma read_words inp ls : lines_of inp ls -> Forall2 (fun x l => split x = split l) (file_lines inp) ls.
Proof.
  intros H. apply file_lines_spec in H. induction H as [|x l xs ls Hx _ IH]; constructor; [|exact IH]. apply split_line_read, Hx.
Qed.
Theorem pp_encode_cmd bytes table root inp ls : pp_load bytes = Ok (table, root) -> well_indexed table -> lines_of inp ls ->
  exists nums, Forall2 (encoded_line table) ls (map (fun s => (s, 1)) nums) /\
    pp_cli_encode bytes false inp = (unlines (map (fun s => join [SPACE] (map str_of_Z s)) nums), None).
Proof.
  intros Hl Hw Hi. pose proof (proj1 (pp_load_inv bytes table root) Hl) as [_ Hc].
  assert (G : exists nums, Forall2 (fun l s => pp_encode root l = Ok s /\ encoded_line table l (s, 1)) ls nums).
  { clear Hi. induction ls as [|l ls (nums & IH)]; [exists []; constructor|].
    destruct (pp_encode_spec table root l _ Hc Hw (bpe_text_marked l)) as (segs & ids & Hg & E & Hs).
    exists (ids :: nums). constructor; [|exact IH]. split; [exact E|]. split; [reflexivity|]. exists (bpe_text l), segs. split; [apply bpe_text_marked|]. auto. }
  destruct G as (nums & G). exists nums. split.
  - clear - G. induction G as [|l s ls nums [_ H] _ IH]; cbn [map]; constructor; auto.
  - unfold pp_cli_encode. rewrite Hl. apply pp_write_lines_ok. apply read_words in Hi. revert nums G. induction Hi as [|x l xs ls Hx _ IH]; intros nums G; inversion G as [|? s ? nums' [E _] G']; subst; cbn [map]; constructor.
    + rewrite (pp_line_words false table root x l Hx). cbn [pp_encode_line]. rewrite E. reflexivity.
    + apply IH, G'.
Qed.
Theorem pp_encode_cmd_pieces bytes table root inp ls : pp_load bytes = Ok (table, root) -> well_indexed table -> starts_reserved table -> lines_of inp ls ->
  exists segss, Forall2 (fun l segs => exists text, marked l text /\ greedy table text segs) ls segss /\
    pp_cli_encode bytes true inp = (unlines (map (fun segs => join [SPACE] (map seg_piece segs)) segss), None).
Proof.
  intros Hl Hw Hs Hi. pose proof (proj1 (pp_load_inv bytes table root) Hl) as [_ Hc].
  assert (G : exists segss, Forall2 (fun l segs => pp_encode_pieces table root l = Ok (map seg_piece segs) /\ exists text, marked l text /\ greedy table text segs) ls segss).
  { clear Hi. induction ls as [|l ls (segss & IH)]; [exists []; constructor|].
    destruct (pp_pieces_spec table root l _ Hc Hw Hs (bpe_text_marked l)) as (segs & ids & Hg & _ & _ & _ & E).
    exists (segs :: segss). constructor; [|exact IH]. split; [exact E|]. exists (bpe_text l). split; [apply bpe_text_marked|exact Hg]. }
  destruct G as (segss & G). exists segss. split.
  - clear - G. induction G as [|l s ls segss [_ H] _ IH]; constructor; auto.
  - unfold pp_cli_encode. rewrite Hl. apply pp_write_lines_ok. apply read_words in Hi. revert segss G. induction Hi as [|x l xs ls Hx _ IH]; intros segss G; inversion G as [|? s ? segss' [E _] G']; subst; cbn [map]; constructor.
    + rewrite (pp_line_words true table root x l Hx). cbn [pp_encode_line]. rewrite E. reflexivity.
    + apply IH, G'.
Qed.
Lemma pp_cli_refused bytes e pieces inp : pp_load bytes = Raise e -> pp_cli_encode bytes pieces inp = ([], Some e) /\ pp_cli_decode bytes inp = ([], Some e).
Proof. intros E. unfold pp_cli_encode, pp_cli_decode. rewrite E. auto. Qed.

(** ** decode: the first line only, a character a line *)
Lemma pp_write_chars txt : pp_write_lines (fun c => Ok c) (map (fun c => [c]) txt) = (unlines (map (fun c => [c]) txt), None).
Proof. apply pp_write_lines_ok. induction txt; constructor; auto. Qed.
Theorem pp_decode_cmd bytes table root inp ls : pp_load bytes = Ok (table, root) -> lines_of inp ls ->
  match ls with
  | [] => pp_cli_decode bytes inp = ([], Some TypeError)
  | l :: _ => forall ws, words_of l ws ->
      match mapM int_of_str ws with
      | Raise e => pp_cli_decode bytes inp = ([], Some e)
      | Ok ids => match pp_decode_as_str table ids with
                  | Raise e => pp_cli_decode bytes inp = ([], Some e)
                  | Ok txt => pp_cli_decode bytes inp = (unlines (map (fun c => [c]) txt), None)
                  end
      end
  end.
Proof.
  intros Hl Hi. apply read_words in Hi. unfold pp_cli_decode. rewrite Hl. destruct Hi as [|x l xs ls Hx _]; cbn [pp_decode_all]; [reflexivity|].
  intros ws Hw. apply split_words_of in Hw. rewrite split_strip, Hx, Hw. destruct (mapM int_of_str ws) as [ids|e]; cbn [bind]; [|reflexivity].
  destruct (pp_decode_as_str table ids) as [txt|e]; cbn [bind]; [|reflexivity]. apply pp_write_chars.
Qed.

(** ** The lines of the input files *)
Lemma pp_lines texts lss : Forall2 lines_of texts lss -> Forall2 (fun x l => split x = split l) (pp_read_lines texts) (concat lss).
Proof.
  unfold pp_read_lines. induction 1 as [|t ls texts lss H _ IH]; cbn [flat_map concat map]; [constructor|]. rewrite map_app. apply Forall2_app; [|exact IH].
  apply read_words in H. clear - H. induction H as [|x l xs ls Hx _ IH]; cbn [map]; constructor; [rewrite split_strip; exact Hx|exact IH].
Qed.
Lemma pp_corpus_words orders xs ls vs mco cmf wmf : Forall2 (fun x l => split x = split l) xs ls ->
  pp_learn_from_corpus orders xs vs mco cmf wmf = pp_learn_from_corpus orders ls vs mco cmf wmf.
Proof.
  intros H. unfold pp_learn_from_corpus. replace (flat_map (fun l => split (strip l)) xs) with (flat_map (fun l => split (strip l)) ls); [reflexivity|].
  induction H as [|x l xs ls Hx _ IH]; [reflexivity|]. cbn [flat_map]. rewrite IH, !split_strip, Hx. reflexivity.
Qed.

(** ** learn1 *)
Lemma pp_level1_table orders lines toks vs mco cmf wmf table : tokens_of KWord lines toks -> pp_learn_from_corpus orders lines vs mco cmf wmf = Ok table ->
  exists tf init, exact_counts toks tf /\ char_table cmf (map (fun wf => (fst wf ++ [MARK], snd wf)) (often wmf tf)) init /\ grown_by L_subword init table.
Proof.
  intros Ht E. destruct (pp_level1 orders lines toks vs mco cmf wmf Ht) as (tf & Hc & H1 & H2). rewrite E in H1, H2.
  destruct (Z.lt_ge_cases cmf 1) as [Hl|Hl]; [discriminate (H1 (or_introl Hl))|]. destruct (Z.lt_ge_cases wmf 1) as [Hl'|Hl']; [discriminate (H1 (or_intror Hl'))|].
  destruct (H2 Hl Hl') as (init & Hi & A1 & A2 & A3 & A4). exists tf, init. split; [exact Hc|]. split; [exact Hi|].
  destruct (Z.eq_dec vs (-1)) as [Hv|Hv]; [injection (A1 Hv) as ->; constructor|]. destruct (Z.le_gt_cases vs (Z.of_nat (length init))) as [Hle|Hgt]; [discriminate (A2 Hv Hle)|].
  destruct (often wmf tf) as [|wf l] eqn:Eo; [discriminate (A3 Hgt eq_refl)|]. destruct (A4 Hgt ltac:(discriminate)) as (c & c' & _ & _ & _ & G). apply (G table eq_refl).
Qed.
Lemma char_table_plain cmf words table : char_table cmf words table -> (forall w f, In (w, f) words -> plain_text w) -> forall t, In t table -> plain_text (t_name t).
Proof.
  intros (chars & H1 & H2 & H3 & H4 & H5 & H6) Hp t Hin.
  assert (En : map t_name table = reserved_names ++ map (fun cf => [fst cf]) chars).
  { apply (f_equal (map fst)) in H2. rewrite map_map, map_app, !map_map in H2. cbn [fst] in H2. rewrite map_id in H2. exact H2. }
  apply (in_map t_name) in Hin. rewrite En in Hin. apply in_app_iff in Hin. destruct Hin as [Hin|Hin]; [apply reserved_plain, Hin|].
  apply in_map_iff in Hin. destruct Hin as ([c f] & E & Hc). cbn [fst] in E. rewrite <- E. apply H6 in Hc. destruct Hc as (_ & (w & g & Hw & Hcw) & _).
  intros x [<-|[]]. apply (Hp w g Hw c Hcw).
Qed.
Lemma grown_by_usable level t t' : grown_by level t t' -> usable t -> usable t'.
Proof.
  intros G (H1 & H2 & H3). split; [eapply grown_by_storable; eassumption|]. split.
  - destruct (grown_by_prefix _ _ _ G) as (new & -> & _). unfold starts_reserved in *. rewrite map_app, firstn_app, H2.
    assert (E := f_equal (@length _) H2). rewrite firstn_length in E. change (length reserved_names) with 6%nat in *. replace (6 - length (map t_name t))%nat with 0%nat by lia. apply app_nil_r.
  - intros (u & Hu & Eu). revert u Hu Eu. apply (grown_by_names level (fun s => s <> []) t t'); [|exact G|].
    + intros a b Ha _ E. destruct a; [congruence|discriminate].
    + intros u Hu E. apply H3. exists u. auto.
Qed.
Lemma pp_level1_usable orders lines toks vs mco cmf wmf table : tokens_of KWord lines toks -> (forall w, In w toks -> plain_text w) ->
  pp_learn_from_corpus orders lines vs mco cmf wmf = Ok table -> usable table.
Proof.
  intros Ht Hp E. destruct (pp_level1_table _ _ _ _ _ _ _ _ Ht E) as (tf & init & [[_ [Hk _]] _] & Hi & G). apply (grown_by_usable _ _ _ G).
  destruct (char_table_names _ _ _ Hi) as (N1 & N2 & N3 & N4 & N5). split; [|split; [exact N1|]].
  - split; [intros ->; discriminate N1|]. split; [exact N2|]. split; [exact N4|]. apply (char_table_plain _ _ _ Hi). intros w f Hin. apply in_map_iff in Hin.
    destruct Hin as ([v g] & Ev & Hin). cbn [fst snd] in Ev. injection Ev as <- _. apply filter_In in Hin. destruct Hin as [Hin _].
    apply plain_app; [apply Hp, Hk; apply (in_map fst) in Hin; exact Hin|]. apply reserved_plain. cbn. tauto.
  - intros H. destruct (N5 [] H) as [Hr|(c & Hr)]; [|discriminate]. cbn in Hr. repeat (destruct Hr as [Hr|Hr]; [discriminate|]). destruct Hr.
Qed.
Lemma pp_level1_indexed orders lines vs mco cmf wmf table : pp_learn_from_corpus orders lines vs mco cmf wmf = Ok table -> well_indexed table.
Proof.
  intros E. destruct (pp_level1_table _ _ _ _ _ _ _ _ (data_words lines) E) as (tf & init & _ & Hi & G). eapply grown_by_indexed; [exact G|]. apply (char_table_names _ _ _ Hi).
Qed.
Theorem pp_learn1_outcome orders now args texts lss lines toks :
  Forall2 lines_of texts lss -> lines = concat lss -> tokens_of KWord lines toks -> (forall w, In w toks -> plain_text w) -> scalars now ->
  let r := pp_learn_from_corpus orders lines (vocab_size_l1 args) (min_co_l1 args) (char_min_freq args) (word_min_freq args) in
  let bad := prepared args = true \/ (vocab_size_l1 args <= 0 /\ vocab_size_l1 args <> -1) in
  (bad -> pp_learn1 orders now args texts = Raise AssertionError) /\
  (~ bad -> forall e, r = Raise e -> pp_learn1 orders now args texts = Raise e) /\
  (~ bad -> forall table, r = Ok table -> usable table /\ exists bytes, pp_learn1 orders now args texts = Ok bytes /\ pp_read_vocab bytes = Ok table).
Proof.
  intros Hf -> Ht Hp Hn r bad. unfold pp_learn1. rewrite (pp_corpus_words orders (pp_read_lines texts) (concat lss) _ _ _ _ (pp_lines texts lss Hf)). fold r.
  assert (Hb : ~ bad -> prepared args = false /\ ((vocab_size_l1 args >? 0) || (vocab_size_l1 args =? -1)) = true).
  { intros H. split; [destruct (prepared args); [exfalso; apply H; left; reflexivity|reflexivity]|]. apply orb_true_iff.
    destruct (Z.gtb_spec (vocab_size_l1 args) 0); [auto|]. right. apply Z.eqb_eq. destruct (Z.eq_dec (vocab_size_l1 args) (-1)); [assumption|]. exfalso. apply H. right. lia. }
  split; [|split].
  - intros [->|[H1 H2]]; [reflexivity|]. destruct (prepared args); [reflexivity|]. cbn [negb assert_ bind].
    destruct (Z.gtb_spec (vocab_size_l1 args) 0); [lia|]. destruct (Z.eqb_spec (vocab_size_l1 args) (-1)); [lia|]. reflexivity.
  - intros H e E. destruct (Hb H) as [-> ->]. cbn [negb assert_ bind]. rewrite E. reflexivity.
  - intros H table E. destruct (Hb H) as [-> ->]. cbn [negb assert_ bind]. rewrite E. cbn [bind].
    pose proof (pp_level1_usable _ _ _ _ _ _ _ _ Ht Hp E) as Hu. split; [exact Hu|]. destruct Hu as ((_ & U1 & U2 & U3) & _).
    destruct (pp_write_read now table Hn U1 U2 U3) as (bytes & -> & Er). exists bytes. auto.
Qed.

(** ** learn2 *)
Lemma symbols_of_lines table lines c : well_indexed table -> starts_reserved table -> Forall2 (encoded_line table) lines c ->
  forall s f, In (s, f) c -> f = 1 /\ s <> [] /\ forall x, In x s -> 0 <= x < Z.of_nat (length table).
Proof.
  intros Hw Hs H. induction H as [|l [s0 f0] lines c (E & text & segs & Hm & Hg & Hn) _ IH]; intros s f Hin; [destruct Hin|]. cbn [fst snd] in *. destruct Hin as [Eq|Hin]; [|apply IH, Hin].
  injection Eq as <- <-. split; [exact E|]. split.
  - intros ->. inversion Hn. subst segs. apply greedy_text in Hg. destruct Hm as (ws & _ & ->). cbn [map concat] in Hg. destruct (spaced MARK ws); discriminate.
  - intros x Hx. clear - Hn Hx Hs. induction Hn as [|sg i segs s H _ IH]; [destruct Hx|]. destruct Hx as [<-|Hx]; [|apply IH, Hx]. destruct sg as [p|ch]; cbn [seg_number] in H.
    + destruct H as [[H0 (t & E & _)] _]. assert (Z.to_nat i < length table)%nat by (apply nth_error_Some; congruence). lia.
    + subst i. unfold starts_reserved in Hs. assert (H := f_equal (@length _) Hs). rewrite firstn_length, map_length in H. change (length reserved_names) with 6%nat in H. lia.
Qed.
Theorem pp_level2 orders table root lines n mco : pp_codec table = Ok root -> well_indexed table -> starts_reserved table ->
  let r := pp_learn_codes Replace orders (map (fun l => let* s := pp_encode root l in Ok (s, 1))%res lines) table n mco 2 in
  exists c, Forall2 (encoded_line table) lines c /\
    (~ distinct_names table -> r = Raise AssertionError) /\
    (distinct_names table -> lines = [] -> r = Raise ValueError) /\
    (distinct_names table -> lines <> [] -> exists c', cleaned true c c' /\ (iteration_orders orders -> 1 <= mco -> pp_bpe mco 2 (Z.to_nat n) c' table r)) /\
    (forall t2, r = Ok t2 -> grown_by 2 table t2 /\ Z.of_nat (length t2) <= Z.of_nat (length table) + Z.max 0 n).
Proof.
  intros Hc Hw Hs r.
  assert (G : exists c, Forall2 (encoded_line table) lines c /\ map (fun l => let* s := pp_encode root l in Ok (s, 1))%res lines = map (fun sf => Ok sf) c).
  { clear r. induction lines as [|l lines (c & I1 & I2)]; [exists []; split; [constructor|reflexivity]|].
    destruct (pp_encode_spec table root l _ Hc Hw (bpe_text_marked l)) as (segs & ids & Hg & E & Hn).
    exists ((ids, 1) :: c). cbn [map]. rewrite E, I2. split; [|reflexivity]. constructor; [|exact I1]. split; [reflexivity|]. exists (bpe_text l), segs. split; [apply bpe_text_marked|]. auto. }
  destruct G as (c & Hl & E). exists c. split; [exact Hl|]. subst r. rewrite E.
  pose proof (symbols_of_lines table lines c Hw Hs Hl) as Hsy. destruct (cleaned_total true c) as (c' & Hcl).
  pose proof (pp_init_outcome Replace c c' table) as Ho. cbn [cuts] in Ho. cbv zeta in Ho.
  specialize (Ho ltac:(intros s f Hin; destruct (Hsy s f Hin) as (-> & _ & H); split; [lia|intros x Hx; specialize (H x Hx); lia]) Hcl).
  split; [|split; [|split]].
  - intros Hd. unfold pp_learn_codes. destruct Ho as [[_ ->]|([_ H] & _)]; [reflexivity|contradiction].
  - intros Hd ->. inversion Hl; subst c. inversion Hcl; subst c'. unfold pp_learn_codes. destruct Ho as [[H _]|(_ & [[(f & rest & H) _]|(_ & [[_ ->]|(H & _)])])]; [tauto|discriminate|reflexivity|congruence].
  - intros Hd Hne. exists c'. split; [exact Hcl|]. intros Hord Hmc. change true with (cuts Replace) in Hcl. apply pp_learn_refines with (c' := c'); try assumption.
    + intros s f Hin. destruct (Hsy s f Hin) as (-> & _). lia.
    + intros (f & rest & ->). destruct (Hsy [] f (or_introl eq_refl)) as (_ & H & _). congruence.
    + intros ->. apply cleaned_flat in Hcl. destruct Hl as [|l [s f] lines c H Hl]; [congruence|]. destruct (Hsy s f (or_introl eq_refl)) as (_ & Hn & _). cbn [flat_map] in Hcl.
      unfold clean1 in Hcl. cbn [fst snd] in Hcl. destruct s; [congruence|]. destruct (is_troublesome_seq _); discriminate.
    + apply cleaned_flat in Hcl. subst c'. intros s f Hin x Hx. apply clean_in in Hin. destruct Hin as (_ & _ & s0 & Hin & Hsub). apply (Hsy s0 f Hin), Hsub, Hx.
    + intros s f Hin x Hx. destruct (Hsy s f Hin) as (_ & _ & H). specialize (H x Hx). lia.
  - intros t2 E2. apply pp_learn_grown in E2. destruct E2 as (_ & _ & E2 & E3). auto.
Qed.
Lemma pp_encode_map_words root xs ls : Forall2 (fun x l => split x = split l) xs ls ->
  map (fun l => let* s := pp_encode root l in Ok (s, 1))%res xs = map (fun l => let* s := pp_encode root l in Ok (s, 1))%res ls.
Proof. induction 1 as [|x l xs ls Hx _ IH]; [reflexivity|]. cbn [map]. unfold pp_encode at 1 3. rewrite (pp_segment_words root x l Hx), IH. reflexivity. Qed.
Theorem pp_learn2_outcome orders now args l1 table root texts lss lines :
  pp_read_vocab l1 = Ok table -> usable table -> pp_codec table = Ok root -> prepared args = false -> Forall2 lines_of texts lss -> lines = concat lss -> scalars now ->
  let r := pp_learn_codes Replace orders (map (fun l => let* s := pp_encode root l in Ok (s, 1))%res lines) table (vocab_size_l2 args) (min_co_l2 args) 2 in
  (forall e, r = Raise e -> pp_learn2 orders now args (Some l1) texts = Raise e) /\
  (forall t2, r = Ok t2 -> usable t2 /\ exists bytes, pp_learn2 orders now args (Some l1) texts = Ok bytes /\ pp_read_vocab bytes = Ok t2).
Proof.
  intros Er Hu Hc Hp Hf -> Hn r. unfold pp_learn2. rewrite Er. cbn [bind]. rewrite Hp, Hc. cbn [bind].
  rewrite (pp_encode_map_words root (pp_read_lines texts) (concat lss) (pp_lines texts lss Hf)). fold r. split.
  - intros e ->. reflexivity.
  - intros t2 E. pose proof (pp_learn_grown _ _ _ _ _ _ _ _ E) as (_ & _ & G & _). pose proof (grown_by_usable _ _ _ G Hu) as Hu2. split; [exact Hu2|].
    destruct Hu2 as ((_ & U1 & U2 & U3) & _). rewrite E. cbn [bind]. destruct (pp_write_read now t2 Hn U1 U2 U3) as (bytes & -> & E2). exists bytes. auto.
Qed.

Lemma int_lines xs ls idss : Forall2 (fun x l => split x = split l) xs ls ->
  Forall2 (fun l ids => exists ws, words_of l ws /\ mapM int_of_str ws = Ok ids) ls idss ->
  map (fun l => let* s := pp_read_seq l in Ok (s, 1))%res xs = map (fun sf => Ok sf) (map (fun ids => (firstn 1024 ids, 1)) idss).
Proof.
  intros H. revert idss. induction H as [|x l xs ls Hx _ IH]; intros idss G; inversion G as [|? ids ? idss' (ws & Hw & E) G']; subst; [reflexivity|].
  cbn [map]. rewrite (IH _ G'). f_equal. unfold pp_read_seq. rewrite split_strip, Hx, (split_words_of l ws Hw), E. reflexivity.
Qed.
Theorem pp_learn2_prepared orders now args l1 table texts lss lines idss :
  pp_read_vocab l1 = Ok table -> storable table -> prepared args = true -> Forall2 lines_of texts lss -> lines = concat lss -> scalars now ->
  Forall2 (fun l ids => exists ws, words_of l ws /\ mapM int_of_str ws = Ok ids) lines idss ->
  let r := pp_learn_codes Replace orders (map (fun sf => Ok sf) (map (fun ids => (firstn 1024 ids, 1)) idss)) table (vocab_size_l2 args) (min_co_l2 args) 2 in
  (forall e, r = Raise e -> pp_learn2 orders now args (Some l1) texts = Raise e) /\
  (forall t2, r = Ok t2 -> storable t2 /\ exists bytes, pp_learn2 orders now args (Some l1) texts = Ok bytes /\ pp_read_vocab bytes = Ok t2).
Proof.
  intros Er Hu Hp Hf -> Hn Hi r. unfold pp_learn2. rewrite Er. cbn [bind]. rewrite Hp. cbn [bind]. rewrite (int_lines _ _ _ (pp_lines texts lss Hf) Hi). fold r. split.
  - intros e ->. reflexivity.
  - intros t2 E. pose proof (pp_learn_grown _ _ _ _ _ _ _ _ E) as (_ & _ & G & _). pose proof (grown_by_storable _ _ _ G Hu) as Hu2. split; [exact Hu2|].
    destruct Hu2 as (_ & U1 & U2 & U3). rewrite E. cbn [bind]. destruct (pp_write_read now t2 Hn U1 U2 U3) as (bytes & -> & E2). exists bytes. auto.
Qed.

(** ** The name of the file level 1 is moved to *)
Lemma last_dot_spec name : forall i, match last_dot name i with
  | None => without_dot name
  | Some j => exists a b, name = a ++ 46%N :: b /\ without_dot b /\ j = (i + length a)%nat
  end.
Proof.
  induction name as [|c name IH]; intros i; cbn [last_dot]; [intros []|]. specialize (IH (S i)). destruct (last_dot name (S i)) as [j|].
  - destruct IH as (a & b & -> & Hb & ->). exists (c :: a), b. split; [reflexivity|]. split; [exact Hb|]. cbn [length]. lia.
  - destruct (N.eqb_spec c 46) as [->|Hc].
    + exists [], name. split; [reflexivity|]. split; [exact IH|]. cbn [length]. lia.
    + intros [H|H]; [congruence|]. apply IH, H.
Qed.
Lemma l1_name_spec name stem suffix : name_parts name stem suffix -> l1_name name = stem ++ lit ".l1" ++ suffix.
Proof.
  intros [E H]. unfold l1_name, with_suffix, path_suffix.
  assert (G : suffix_at name = length stem).
  { unfold suffix_at. pose proof (last_dot_spec name 0) as Hd. destruct (last_dot name 0) as [j|].
    - destruct Hd as (a & b & Ea & Hb & ->). cbn [Nat.add].
      destruct H as [(ext & -> & He & Hne & Hst)|[-> H]].
      + assert (Hab : stem = a /\ ext = b).
        { subst name. clear - Ea Hb Hne. revert a Ea. induction stem as [|x stem IH]; intros [|y a] Ea; cbn [app] in Ea.
          - injection Ea as Ea. auto.
          - exfalso. apply Hne. replace ext with (a ++ 46%N :: b) by congruence. apply in_app_iff. right. left. reflexivity.
          - exfalso. apply Hb. replace b with (stem ++ 46%N :: ext) by congruence. apply in_app_iff. right. left. reflexivity.
          - injection Ea as Ex Ea. destruct (IH a Ea) as [-> ->]. subst. auto. }
        destruct Hab as [-> ->]. subst name. rewrite app_length. cbn [length]. destruct a; [congruence|]. destruct b; [congruence|]. cbn [length].
        destruct (_ && _) eqn:Eb; [reflexivity|]. exfalso. apply andb_false_iff in Eb. destruct Eb as [Eb|Eb]; [discriminate|]. apply Nat.ltb_ge in Eb. lia.
      + rewrite app_nil_r in E. subst stem. destruct H as [H|[(s & -> & H)|(s & ->)]].
        * exfalso. apply H. rewrite Ea. apply in_app_iff. right. left. reflexivity.
        * destruct a as [|x a]; [reflexivity|]. exfalso. cbn [app] in Ea. injection Ea as _ Ea. apply H. rewrite Ea. apply in_app_iff. right. left. reflexivity.
        * assert (Hb0 : b = []).
          { destruct b as [|y b] using rev_ind; [reflexivity|]. exfalso. rewrite app_comm_cons, app_assoc in Ea. apply app_inj_tail in Ea. destruct Ea as [_ <-]. apply Hb. apply in_app_iff. right. left. reflexivity. }
          subst b. rewrite Ea, app_length. cbn [length]. destruct (_ && _) eqn:Eb; [|reflexivity]. apply andb_true_iff in Eb. destruct Eb as [_ Eb]. apply Nat.ltb_lt in Eb. lia.
    - destruct H as [(ext & -> & _)|[-> _]]; [|rewrite app_nil_r in E; rewrite E; reflexivity]. exfalso. apply Hd. rewrite E. apply in_app_iff. right. left. reflexivity. }
  rewrite G, E, firstn_app, Nat.sub_diag, firstn_all, skipn_app, Nat.sub_diag, skipn_all. cbn [firstn skipn app]. rewrite app_nil_r. reflexivity.
Qed.
Lemma name_parts_total name : exists stem suffix, name_parts name stem suffix.
Proof.
  pose proof (last_dot_spec name 0) as H. destruct (last_dot name 0) as [j|].
  - destruct H as (a & b & E & Hb & _). destruct a as [|x a].
    + exists name, []. split; [rewrite app_nil_r; reflexivity|]. right. split; [reflexivity|]. right. left. exists b. auto.
    + destruct b as [|y b].
      * exists name, []. split; [rewrite app_nil_r; reflexivity|]. right. split; [reflexivity|]. right. right. exists (x :: a). exact E.
      * exists (x :: a), (46%N :: y :: b). split; [exact E|]. left. exists (y :: b). repeat split; [discriminate|exact Hb|discriminate].
  - exists name, []. split; [rewrite app_nil_r; reflexivity|]. right. auto.
Qed.
Lemma l1_name_other name : l1_name name <> name.
Proof.
  destruct (name_parts_total name) as (stem & suffix & H). rewrite (l1_name_spec _ _ _ H). destruct H as [-> _]. intros E. apply (f_equal (@length _)) in E.
  rewrite !app_length in E. change (length (lit ".l1")) with 3%nat in E. lia.
Qed.
Lemma dget_ddel {V} j k (d : list (str * V)) : NoDup (map fst d) -> dget str_eqb j (ddel str_eqb k d) = if str_eqb j k then None else dget str_eqb j d.
Proof.
  intros H. rewrite (ddel_filter k d H). induction d as [|[a v] d IH]; [destruct (str_eqb j k); reflexivity|]. cbn [map fst] in H. inversion H as [|? ? _ Hd]; subst.
  cbn [filter fst dget]. destruct (str_eqb k a) eqn:Ek; cbn [negb].
  - rewrite (IH Hd). apply str_eqb_eq in Ek. subst a. destruct (str_eqb j k); reflexivity.
  - cbn [dget]. destruct (str_eqb j a) eqn:Ej; [|apply IH, Hd]. apply str_eqb_eq in Ej. subst a. destruct (str_eqb j k) eqn:Ejk; [|reflexivity]. apply str_eqb_eq in Ejk. subst. rewrite str_eqb_refl in Ek. discriminate.
Qed.
(** ** What happens to the files *)
Theorem pp_second_files orders now args texts vocab l1 fs : NoDup (map fst fs) ->
  match pp_learn2 orders now args (dget str_eqb l1 fs) texts with
  | Raise e => pp_second orders now args texts vocab l1 fs = (fs, Some e)
  | Ok bytes => exists fs', pp_second orders now args texts vocab l1 fs = (fs', None) /\
      dget str_eqb vocab fs' = Some bytes /\
      (l1 <> vocab -> forall name, name <> vocab -> dget str_eqb name fs' = dget str_eqb name fs) /\
      (l1 = vocab -> dget str_eqb (l1_name vocab) fs' = dget str_eqb vocab fs /\
         forall name, name <> vocab -> name <> l1_name vocab -> dget str_eqb name fs' = dget str_eqb name fs)
  end.
Proof.
  intros Hnd. unfold pp_second. destruct (pp_learn2 orders now args (dget str_eqb l1 fs) texts) as [bytes|e] eqn:E; [|reflexivity].
  eexists. split; [reflexivity|]. split; [apply (dget_dset_same str_eqb str_eqb_eq)|]. split.
  - intros Hn name Hname. rewrite (dget_dset_other str_eqb str_eqb_eq) by exact Hname. destruct (str_eqb l1 vocab) eqn:Eb; [apply str_eqb_eq in Eb; contradiction|reflexivity].
  - intros ->. rewrite str_eqb_refl. destruct (dget str_eqb vocab fs) as [old|] eqn:Eo; [|discriminate E]. split.
    + rewrite (dget_dset_other str_eqb str_eqb_eq) by apply l1_name_other. apply (dget_dset_same str_eqb str_eqb_eq).
    + intros name H1 H2. rewrite (dget_dset_other str_eqb str_eqb_eq) by exact H1. rewrite (dget_dset_other str_eqb str_eqb_eq) by exact H2. rewrite (dget_ddel _ _ _ Hnd).
      destruct (str_eqb name vocab) eqn:En; [apply str_eqb_eq in En; contradiction|reflexivity].
Qed.
