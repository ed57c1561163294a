(** The command line tool from learning to decoding. *)
From Coq Require Import Strings.String QArith.
From Verif Require Import Py PyStr PyLemmas StrSpec PyStrProofs Utf8Model JsonModel JsonProofs CodecModel CodecSpec BpeProofs FlatProofs
     VocabFileModel VocabSpec VocabFileProofs LearnModel ArithModel LearnSpec LearnProofs EvalModel EvalSpec EvalProofs CliModel CliSpec CliProofs
     DriverModel DriverSpec DriverProofs DriverEnd MainModel MainSpec HeapModel BpeSpec LearnBpeModel LearnBpeProofs LearnBpeLoop LearnBpeIndex LearnBpeResults LearnBpeEnd.
Local Open Scope Z_scope.
Local Open Scope list_scope.

(** ** words and characters of a text and of its lines *)
Lemma words_cover l ws c : words_of l ws -> In c l -> is_space c = false -> exists w, In w ws /\ In c w.
Proof.
  induction 1 as [g Hg|g w Hg Hw|g w d rest ws Hg Hw Hd H IH]; intros Hi Hc.
  - exfalso. unfold gap in Hg. rewrite Forall_forall in Hg. rewrite (Hg c Hi) in Hc. discriminate.
  - apply in_app_iff in Hi. destruct Hi as [Hi|Hi].
    + exfalso. unfold gap in Hg. rewrite Forall_forall in Hg. rewrite (Hg c Hi) in Hc. discriminate.
    + exists w. split; [left; reflexivity|exact Hi].
  - apply in_app_iff in Hi. destruct Hi as [Hi|Hi].
    { exfalso. unfold gap in Hg. rewrite Forall_forall in Hg. rewrite (Hg c Hi) in Hc. discriminate. }
    apply in_app_iff in Hi. destruct Hi as [Hi|[->|Hi]].
    + exists w. split; [left; reflexivity|exact Hi].
    + congruence.
    + destruct (IH Hi Hc) as (v & H1 & H2). exists v. split; [right; exact H1|exact H2].
Qed.
Lemma in_spaced sep ws w c : In w ws -> In c w -> In c (spaced sep ws).
Proof.
  induction ws as [|v ws IH]; [intros []|]. intros [->|Hw] Hc.
  - destruct ws; cbn [spaced]; [exact Hc|]. apply in_app_iff. left. exact Hc.
  - destruct ws as [|u ws]; [destruct Hw|]. cbn [spaced] in *. apply in_app_iff. right. right. apply IH; assumption.
Qed.
Lemma line_of_text inp ls l : lines_of inp ls -> In l ls -> exists x, In x (file_lines inp) /\ split x = split l /\ line_read x l.
Proof.
  intros H. apply file_lines_spec in H. induction H as [|x l' xs ls Hx H IH]; intros Hin; [destruct Hin|].
  destruct Hin as [->|Hin].
  - exists x. split; [left; reflexivity|]. split; [apply split_line_read, Hx|exact Hx].
  - destruct (IH Hin) as (y & H1 & H2). exists y. split; [right; exact H1|exact H2].
Qed.
Lemma tokens_have data toks x ws w : tokens_of KWord data toks -> In x data -> words_of x ws -> In w ws -> In w toks.
Proof.
  intros (wss & Hf & ->) Hx Hw Hin. apply in_concat. exists ws. split; [|exact Hin].
  induction Hf as [|y vs data wss Hy Hf IH]; [destruct Hx|]. destruct Hx as [->|Hx].
  - left. apply split_words_of in Hy. apply split_words_of in Hw. congruence.
  - right. apply IH, Hx.
Qed.
Lemma char_tokens_have data toks x ws w c : tokens_of KChar data toks -> In x data -> words_of x ws -> In w ws -> In c w -> In [c] toks.
Proof.
  intros (wss & Hf & ->) Hx Hw Hin Hc. apply (in_map (fun c => [c])). apply in_flat_map. exists ws. split; [|eapply in_spaced; eassumption].
  induction Hf as [|y vs data wss Hy Hf IH]; [destruct Hx|]. destruct Hx as [->|Hx].
  - left. apply split_words_of in Hy. apply split_words_of in Hw. congruence.
  - right. apply IH, Hx.
Qed.
Lemma read_scalars inp ls : scalars inp -> lines_of inp ls -> forall x, In x (file_lines inp) -> scalars x.
Proof.
  intros Hs Hl.
  assert (G : forall l, In l ls -> scalars l).
  { clear - Hs Hl. assert (S3 : forall (a b c : str), scalars (a ++ b ++ c) -> scalars a /\ scalars c).
    { intros a b c. unfold scalars. rewrite !Forall_app. tauto. }
    induction Hl as [|l Hne Hb|l r ls Hb H IH|l r ls Hb H IH|l r ls Hb H IH Hr]; intros l' Hin.
    - destruct Hin.
    - destruct Hin as [<-|[]]. exact Hs.
    - apply S3 in Hs. destruct Hs as [H1 H2]. destruct Hin as [<-|Hin]; [exact H1|apply IH; assumption].
    - apply S3 in Hs. destruct Hs as [H1 H2]. destruct Hin as [<-|Hin]; [exact H1|apply IH; assumption].
    - apply S3 in Hs. destruct Hs as [H1 H2]. destruct Hin as [<-|Hin]; [exact H1|apply IH; assumption]. }
  apply file_lines_spec in Hl. revert G. induction Hl as [|x l xs ls Hx H IH]; intros G y Hin; [destruct Hin|].
  destruct Hin as [<-|Hin].
  - assert (Hl : scalars l) by (apply G; left; reflexivity). destruct Hx as [-> | ->]; [exact Hl|].
    unfold scalars in *. apply Forall_app. split; [exact Hl|]. constructor; [reflexivity|constructor].
  - apply IH; [|exact Hin]. intros l' Hl'. apply G. right. exact Hl'.
Qed.

(** ** every counted type is in the table when nothing is cut *)
Lemma reserved_has table w : starts_reserved table -> In w reserved_names -> has_name table w.
Proof.
  intros Hs Hw. unfold starts_reserved in Hs. rewrite <- Hs in Hw.
  assert (Hin : In w (map t_name table)).
  { rewrite <- (firstn_skipn 6 (map t_name table)). apply in_app_iff. left. exact Hw. }
  apply in_map_iff in Hin. destruct Hin as (t & E & Ht). exists t. split; assumption.
Qed.
Lemma init_complete A level tf lc mf vs table : NoDup (map fst tf) -> vs <= 0 -> mf <= 1 ->
  get_init_vocab A level tf None lc mf vs = Ok table -> forall w, In w (map fst tf) -> has_name table w.
Proof.
  intros Hnd Hvs Hmf H w Hw.
  destruct (init_layout A level tf None lc mf vs table Hnd H) as (Hs & _).
  destruct (reserved_name w) eqn:Er.
  - apply reserved_has; [exact Hs|]. unfold reserved_name in Er. apply existsb_exists in Er.
    destruct Er as (v & Hv & E). apply str_eqb_eq in E. subst v. exact Hv.
  - destruct (init_ranking A level tf lc mf vs table Hnd (or_introl Hvs) H) as (ranking & [Hp _] & Er').
    assert (El : (vs <=? 0) = true) by (apply Z.leb_le; exact Hvs). rewrite El in Er'.
    apply in_map_iff in Hw. destruct Hw as ([w' f] & Ew & Hin). cbn [fst] in Ew. subst w'.
    assert (Hc : In (w, f) (candidates mf tf)).
    { unfold candidates. apply filter_In. split; [exact Hin|]. cbn [fst snd]. rewrite Er. cbn [negb andb].
      apply Bool.orb_true_iff. left. apply Z.leb_le. exact Hmf. }
    apply (Permutation_in _ (Permutation_sym Hp)) in Hc. rewrite <- Er' in Hc. apply in_map_iff in Hc.
    destruct Hc as (t & Et & Ht). exists t. split; [|congruence].
    rewrite <- (firstn_skipn 6 table). apply in_app_iff. right. exact Ht.
Qed.
Lemma bpe_names A orders data toks vs mco table : tokens_of KWord data toks -> iteration_orders orders ->
  learn_bpe A orders data vs None mco false = Ok table -> forall w c, In w toks -> In c w -> has_name table [c].
Proof.
  intros Ht Hord H w c Hw Hc. destruct (learn_bpe_text _ _ _ _ _ _ _ _ Ht Hord H) as (init & tfs & c0 & HT & Hn). specialize (Hn eq_refl).
  destruct (tl_counts _ _ _ _ _ _ _ HT) as [[_ [Hin _]] _]. apply Hin in Hw. apply in_map_iff in Hw.
  destruct Hw as ([w' f] & E & Hw). cbn [fst] in E. subst w'.
  destruct (Hn w f c Hw) as (t & Ht' & En); [apply in_app_iff; left; exact Hc|].
  exists t. split; [|exact En]. destruct (tl_grown _ _ _ _ _ _ _ HT) as [(new & E) _]. rewrite E. apply in_app_iff. left. exact Ht'.
Qed.

(** ** runs of main *)
Section Runs.
  Variable A : arith.
  Variable orders : nat -> list nat -> list nat.
  Variables version now : str.
  Notation main := (main A orders version now).

  Lemma main_learn old (o : options A) level : o_task o = lit "learn" -> o_level o = Some level -> level <> [] ->
    main old o =
    let (written, r) := learn_vocab A orders version now (file_lines (o_inp o)) level true (o_vocab_size o)
                          (o_min_freq o) (o_term_freqs o) (o_coverage o) (o_min_co_ev o) in
    MkRun (match written with Some b => Some b | None => old end) [] None
          (match r with Ok _ => None | Raise e => Some e end).
  Proof.
    intros Ht Hl Hne. unfold MainModel.main. rewrite Ht, Hl. change (str_eqb (lit "learn") (lit "learn")) with true. cbv iota zeta.
    destruct level; [congruence|]. reflexivity.
  Qed.
  Lemma main_encode bytes (o : options A) : o_task o = lit "encode" ->
    main (Some bytes) o = let (out, e) := cli_encode bytes (o_indices o) (o_inp o) in MkRun (Some bytes) out None e.
  Proof. intros Ht. unfold MainModel.main. rewrite Ht. reflexivity. Qed.
  Lemma main_decode bytes (o : options A) : o_task o = lit "decode" ->
    main (Some bytes) o = let (out, e) := cli_decode bytes (o_indices o) (o_inp o) in MkRun (Some bytes) out None e.
  Proof. intros Ht. unfold MainModel.main. rewrite Ht. reflexivity. Qed.
  Lemma main_estimate bytes (o : options A) : o_task o = lit "estimate" ->
    main (Some bytes) o =
    match load_scheme bytes with
    | Raise e => MkRun (Some bytes) [] None (Some e)
    | Ok s => match estimate s (file_lines (o_inp o)) with
              | Raise e => MkRun (Some bytes) [] None (Some e)
              | Ok q => MkRun (Some bytes) [] (Some q) None
              end
    end.
  Proof. intros Ht. unfold MainModel.main. rewrite Ht. reflexivity. Qed.

  Hypothesis Hv : scalars version.
  Hypothesis Hn : scalars now.
  Hypothesis Ho : iteration_orders orders.

  (** learning writes a model that loads as the learned table *)
  Lemma learned (o : options A) level k ls :
    o_task o = lit "learn" -> o_level o = Some level -> dget str_eqb level REGISTRY = Some k -> k <> KClass ->
    o_term_freqs o = false -> lines_of (o_inp o) ls -> scalars (o_inp o) ->
    forall old,
    match learn_level A orders (file_lines (o_inp o)) level k (o_vocab_size o) (effective_min_freq level (o_min_freq o)) false
            (o_coverage o) (o_min_co_ev o) with
    | Raise e => main old o = MkRun old [] None (Some e)
    | Ok table => exists bytes s, main old o = MkRun (Some bytes) [] None None /\
        load_scheme bytes = Ok s /\ s_kind s = k /\ s_table s = table
    end.
  Proof.
    intros Ht Hl Hk Hnc Htf Hls Hsc old.
    assert (Hne : level <> []) by (intros ->; vm_compute in Hk; discriminate).
    rewrite (main_learn old o level Ht Hl Hne), Htf.
    destruct (learn_level A orders (file_lines (o_inp o)) level k (o_vocab_size o) (effective_min_freq level (o_min_freq o)) false
            (o_coverage o) (o_min_co_ev o)) as [table|e] eqn:E.
    - destruct (learn_vocab_reload A orders version now (file_lines (o_inp o)) level k (o_vocab_size o) (o_min_freq o)
                  (o_coverage o) (o_min_co_ev o) table Hv Hn Ho Hk (read_scalars _ _ Hsc Hls)) as (bytes & s & E1 & E2).
      + intros ->. congruence.
      + unfold learn_vocab. rewrite Hk, E. reflexivity.
      + exists bytes, s. rewrite E1. split; [reflexivity|exact E2].
    - unfold learn_vocab. rewrite Hk, E. reflexivity.
  Qed.
  Lemma flat_level_ok k data vs mf : k = KWord \/ k = KChar ->
    exists table, learn_flat A k data vs mf None false = Ok table /\
      (vs <= 0 -> mf <= 1 -> forall toks w, tokens_of k data toks -> In w toks -> has_name table w).
  Proof.
    intros Hk. unfold learn_flat. destruct (term_frequencies k data) as [stats lc] eqn:Et.
    pose proof (term_frequencies_NoDup k data) as Hnd. rewrite Et in Hnd. cbn [fst] in Hnd.
    assert (G : exists table, get_init_vocab A (level_of k) stats None (Some lc) mf vs = Ok table).
    { pose proof (init_outcome A (level_of k) stats None (Some lc) mf vs Hnd) as H.
      destruct (get_init_vocab _ _ _ _ _ _ _) as [t|e]; [eauto|]. destruct H as (c & Hc & _). discriminate Hc. }
    destruct G as (table & E). exists table. split; [destruct Hk as [-> | ->]; exact E|].
    intros Hvs Hmf toks w Htoks Hw. apply (init_complete A _ _ _ _ _ _ Hnd Hvs Hmf E).
    destruct (term_frequencies_exact k data toks stats lc Htoks Et) as [[(_ & HI & _) _] _]. apply HI, Hw.
  Qed.

  Notation decodes := (decodes A orders version now).
  Lemma decodes_intro bytes e d Q ls encs outs : o_task e = lit "encode" -> o_task d = lit "decode" -> o_indices d = o_indices e ->
    cli_encode bytes (o_indices e) (o_inp e) = (unlines encs, None) ->
    cli_decode bytes (o_indices e) (unlines encs) = (unlines outs, None) -> Forall2 Q ls outs -> length encs = length ls ->
    decodes bytes e d Q ls.
  Proof.
    intros He Hd Hi E1 E2 HQ Hl. exists encs, outs. rewrite main_encode, E1 by exact He. split; [reflexivity|]. split; [exact Hl|].
    split; [|exact HQ]. intros Hin. rewrite main_decode, Hin, Hi, E2 by exact Hd. reflexivity.
  Qed.

  Theorem word_run (o : options A) ls old :
    o_task o = lit "learn" -> o_level o = Some (lit "word") -> o_term_freqs o = false -> o_vocab_size o <= 0 ->
    (forall m, o_min_freq o = Some m -> m <= 1) -> lines_of (o_inp o) ls -> scalars (o_inp o) ->
    exists bytes, main old o = MkRun (Some bytes) [] None None /\
      forall e d ls', o_task e = lit "encode" -> o_task d = lit "decode" -> o_indices d = o_indices e -> lines_of (o_inp e) ls' ->
        (forall l ws w, In l ls' -> words_of l ws -> In w ws -> exists l0 ws0, In l0 ls /\ words_of l0 ws0 /\ In w ws0) ->
        decodes bytes e d normal ls'.
  Proof.
    intros Ht Hl Htf Hvs Hmf Hls Hsc.
    assert (Hm : effective_min_freq (lit "word") (o_min_freq o) <= 1).
    { unfold effective_min_freq. change (str_eqb (lit "word") (lit "word")) with true. cbv iota zeta.
      destruct (o_min_freq o) as [m|]; [|unfold DEF_WORD_MIN_FREQ; lia]. specialize (Hmf m eq_refl).
      destruct ((m =? 0) || (m <? 1)); [unfold DEF_WORD_MIN_FREQ; lia|exact Hmf]. }
    pose proof (learned o (lit "word") KWord ls Ht Hl eq_refl ltac:(discriminate) Htf Hls Hsc old) as H.
    unfold learn_level in H. change (str_eqb (lit "word") (lit "word")) with true in H. cbv iota zeta in H.
    destruct (flat_level_ok KWord (file_lines (o_inp o)) (o_vocab_size o) (effective_min_freq (lit "word") (o_min_freq o)) (or_introl eq_refl)) as (table & E & Hc).
    rewrite E in H. destruct H as (bytes & s & E1 & E2 & E3 & E4). exists bytes. split; [exact E1|].
    intros e d ls' He Hd Hi Hls' Hcov. destruct (o_indices e) eqn:Eidx.
    - destruct (word_ids_cli bytes s (o_inp e) ls' E2 E3 Hls') as (encs & outs & P1 & P2 & P3 & P4).
      + intros l ws w Hin Hw Hiw. destruct (Hcov l ws w Hin Hw Hiw) as (l0 & ws0 & Q1 & Q2 & Q3). rewrite E4.
        destruct (line_of_text _ _ _ Hls Q1) as (x & X1 & X2 & _).
        apply (Hc Hvs Hm _ w (tokens_of_exist KWord (file_lines (o_inp o)) (or_introl eq_refl))).
        eapply tokens_have; [apply tokens_of_exist; auto|exact X1| |exact Q3]. apply words_of_iff. rewrite X2. apply words_of_iff. exact Q2.
      + eapply decodes_intro; try eassumption; rewrite Eidx; eassumption.
    - destruct (word_pieces_cli bytes s (o_inp e) ls' E2 E3 Hls') as (encs & outs & P1 & P2 & P3 & P4).
      eapply decodes_intro; try eassumption; rewrite Eidx; eassumption.
  Qed.

  Theorem char_run (o : options A) ls old :
    o_task o = lit "learn" -> o_level o = Some (lit "char") -> o_term_freqs o = false -> o_vocab_size o <= 0 ->
    o_min_freq o = Some 1 -> o_coverage o = None -> lines_of (o_inp o) ls -> scalars (o_inp o) ->
    exists bytes, main old o = MkRun (Some bytes) [] None None /\
      forall e d ls', o_task e = lit "encode" -> o_task d = lit "decode" -> o_indices d = o_indices e -> lines_of (o_inp e) ls' ->
        (forall l c, In l ls' -> In c l -> is_space c = false -> exists l0, In l0 ls /\ In c l0) ->
        decodes bytes e d (fun l out => exists norm, normal l norm /\ out = unmark norm) ls'.
  Proof.
    intros Ht Hl Htf Hvs Hmf Hcv Hls Hsc.
    pose proof (learned o (lit "char") KChar ls Ht Hl eq_refl ltac:(discriminate) Htf Hls Hsc old) as H.
    unfold learn_level in H. change (str_eqb (lit "char") (lit "word")) with false in H. cbv iota zeta in H. rewrite Hcv, Hmf in H.
    change (effective_min_freq (lit "char") (Some 1)) with 1 in H.
    destruct (flat_level_ok KChar (file_lines (o_inp o)) (o_vocab_size o) 1 (or_intror eq_refl)) as (table & E & Hc).
    rewrite E in H. destruct H as (bytes & s & E1 & E2 & E3 & E4). exists bytes. split; [exact E1|].
    intros e d ls' He Hd Hi Hls' Hcov. destruct (o_indices e) eqn:Eidx.
    - destruct (char_ids_cli bytes s (o_inp e) ls' E2 E3 Hls') as (encs & outs & P1 & P2 & P3 & P4).
      + intros l c Hin Hic Hsp. destruct (Hcov l c Hin Hic Hsp) as (l0 & Q1 & Q2). rewrite E4.
        destruct (line_of_text _ _ _ Hls Q1) as (x & X1 & X2 & _).
        destruct (words_cover l0 (split l0) c (words_of_split l0) Q2 Hsp) as (w & W1 & W2).
        apply (Hc Hvs ltac:(lia) _ [c] (tokens_of_exist KChar (file_lines (o_inp o)) (or_intror (or_introl eq_refl)))).
        eapply char_tokens_have; [apply tokens_of_exist; auto|exact X1| |exact W1|exact W2]. apply words_of_iff. exact X2.
      + eapply decodes_intro; try eassumption; rewrite Eidx; eassumption.
    - destruct (char_pieces_cli bytes s (o_inp e) ls' E2 E3 Hls') as (encs & outs & P1 & P2 & P3 & P4).
      eapply decodes_intro; try eassumption; rewrite Eidx; eassumption.
  Qed.

  Theorem bpe_run (o : options A) ls old :
    o_task o = lit "learn" -> o_level o = Some (lit "bpe") -> o_term_freqs o = false ->
    o_coverage o = None -> lines_of (o_inp o) ls -> scalars (o_inp o) -> r_exc (main old o) = None ->
    exists bytes, main old o = MkRun (Some bytes) [] None None /\
      forall e d ls', o_task e = lit "encode" -> o_task d = lit "decode" -> o_indices d = o_indices e -> lines_of (o_inp e) ls' ->
        (forall l c, In l ls' -> In c l -> is_space c = false -> exists l0, In l0 ls /\ In c l0) ->
        decodes bytes e d (fun l out => exists norm, normal l norm /\ trimmed (unmark norm) out /\ (~ In MARK l -> out = norm)) ls'.
  Proof.
    intros Ht Hl Htf Hcv Hls Hsc Hok.
    pose proof (learned o (lit "bpe") KBpe ls Ht Hl eq_refl ltac:(discriminate) Htf Hls Hsc old) as H.
    unfold learn_level in H. change (str_eqb (lit "bpe") (lit "word")) with false in H.
    change (str_eqb (lit "bpe") (lit "bpe")) with true in H. cbv iota zeta in H. rewrite Hcv in H.
    destruct (learn_bpe A orders (file_lines (o_inp o)) (o_vocab_size o) None (o_min_co_ev o) false) as [table|e] eqn:E;
      [|rewrite H in Hok; discriminate].
    destruct H as (bytes & s & E1 & E2 & E3 & E4). exists bytes. split; [exact E1|].
    intros e d ls' He Hd Hi Hls' Hcov.
    destruct (bpe_cli bytes s (o_indices e) (o_inp e) ls' E2 E3 Hls') as (encs & outs & P1 & P2 & P3 & P4).
    - intros l c Hin Hic Hsp. destruct (Hcov l c Hin Hic Hsp) as (l0 & Q1 & Q2). rewrite E4.
      destruct (line_of_text _ _ _ Hls Q1) as (x & X1 & X2 & _).
      destruct (words_cover l0 (split l0) c (words_of_split l0) Q2 Hsp) as (w & W1 & W2).
      eapply bpe_names; [apply (tokens_of_exist KWord); auto|exact Ho|exact E| |exact W2].
      eapply tokens_have; [apply tokens_of_exist; auto|exact X1|apply words_of_split|]. rewrite X2. exact W1.
    - eapply decodes_intro; eassumption.
  Qed.
End Runs.

(** ** a learn that fails *)
Lemma loop_indexed orders n_merges min_co level fuel : forall i st st', learn_loop fuel orders i n_merges min_co level st = Ok st' ->
  well_indexed (ls_vocab st) -> well_indexed (ls_vocab st').
Proof.
  induction fuel as [|fuel IH]; intros i st st' H Hw; cbn [learn_loop] in H.
  - destruct (Z.leb_spec n_merges (Z.of_nat i)); [|discriminate]. injection H as <-. exact Hw.
  - destruct (Z.leb_spec n_merges (Z.of_nat i)) as [Hle|Hgt].
    + injection H as <-. exact Hw.
    + destruct (pop_clean _ _ _) as [[[[p v] heap] dirty]|]; [|discriminate]. cbn [bind] in H.
      destruct (v <? min_co).
      * injection H as <-. exact Hw.
      * destruct (merge_pair (orders i) level (fst p) (snd p) v heap dirty st) as [st1|] eqn:E; [|discriminate]. cbn [bind] in H.
        apply (IH _ _ _ H).
        unfold merge_pair in E. cbv zeta in E. destruct (py_nth (ls_vocab st) (fst p)) as [ta|]; [|discriminate]. cbn [bind] in E.
        destruct (py_nth (ls_vocab st) (snd p)) as [tb|]; [|discriminate]. cbn [bind] in E.
        destruct (dget pair_eqb (fst p, snd p) (ls_ixs st)); [|discriminate].
        destruct (foldM _ _ _) as [ms|]; [|discriminate]. cbn [bind] in E.
        destruct (assert_ (ucount (fst p) (ms_uni ms) >=? 0)); [|discriminate]. cbn [bind] in E.
        destruct (assert_ (ucount (snd p) (ms_uni ms) >=? 0)); [|discriminate]. cbn [bind] in E.
        destruct (foldM _ _ _) as [[h d]|]; [|discriminate]. cbn [bind] in E. injection E as <-. cbn [ls_vocab].
        intros n t Hn. destruct (Nat.lt_ge_cases n (length (ls_vocab st))) as [Hlt|Hge].
        -- rewrite nth_error_app1 in Hn by exact Hlt. apply Hw, Hn.
        -- rewrite nth_error_app2 in Hn by exact Hge. destruct (n - length (ls_vocab st))%nat as [|k] eqn:Ek.
           ++ injection Hn as <-. cbn [t_idx]. f_equal. lia.
           ++ destruct k; discriminate Hn.
Qed.
Lemma bpe_indexed A orders data vs cov mco is_tf table : learn_bpe A orders data vs cov mco is_tf = Ok table -> table <> [] /\ well_indexed table.
Proof.
  intros H. split.
  { destruct (learn_bpe_size _ _ _ _ _ _ _ _ H) as (chars & new & E & _ & _ & _ & Hl & _). destruct chars; [cbn in Hl; lia|]. rewrite E. discriminate. }
  unfold learn_bpe in H. cbv zeta in H. change (if (mco >? 1) && (vs <=? 1) then maxsize else vs) with (effective_size vs mco) in H.
  destruct (Z.gtb_spec (effective_size vs mco) 0) as [Hpos|]; [|discriminate]. cbn [assert_ bind] in H.
  destruct (if is_tf then _ else _) as [[tfs lc]|e] eqn:Etf; [|discriminate]. cbn [bind] in H.
  pose proof (stats_NoDup _ _ _ _ _ Etf) as Hnd.
  destruct (get_init_vocab A L_char (char_freqs (map (fun wf => (fst wf ++ [MARK], snd wf)) tfs)) cov (Some lc) 1 (-1)) as [init|e] eqn:Hi.
  2:{ unfold learn_subwords in H. cbv zeta in H. fold (marked_words tfs) in H. rewrite (marked_words_eq tfs Hnd), Hi in H. discriminate. }
  destruct (init_names A tfs cov lc init Hnd Hi) as (L1 & L2 & _).
  assert (Hvs : effective_size vs mco <> -1) by lia.
  destruct (learn_subwords_spec A orders tfs _ mco cov lc init Hnd Hvs Hi) as [[_ E]|(Hlt & c & Hc & E)]; [congruence|].
  rewrite E in H. unfold learn_codes, learn_codes_state in H. destruct (bpe_init c init) as [ix|]; [|discriminate]. cbn [bind] in H.
  destruct (mh_init pair_ltb (ix_bi ix)) as [heap|]; [|discriminate]. cbn [bind] in H.
  destruct (learn_loop _ _ _ _ _ _ _) as [st|] eqn:El; [|discriminate]. cbn [bind] in H. injection H as <-.
  apply (loop_indexed _ _ _ _ _ _ _ _ El). exact L2.
Qed.
Lemma save_indexed version now s : s_table s <> [] -> well_indexed (s_table s) -> exists bytes, save version now s = (bytes, Ok tt).
Proof.
  intros Hne Hw. unfold save, write_out. destruct (levels_of_nonempty _ Hne) as (z & Ez). rewrite Ez.
  rewrite write_rows_ok by (intros n t E; rewrite (Hw n t E); lia). eauto.
Qed.
Lemma byte_indexed : byte_vocab <> [] /\ well_indexed byte_vocab.
Proof. split; [discriminate|]. destruct (byte_storable) as (_ & H & _). exact H. Qed.
Lemma level_indexed A orders inp level k vs mf tf cov mco table : k <> KClass ->
  learn_level A orders inp level k vs mf tf cov mco = Ok table -> table <> [] /\ well_indexed table.
Proof.
  intros Hk H. unfold learn_level in H. cbv zeta in H. set (cov' := if str_eqb level (lit "word") then None else cov) in H.
  assert (G : k = KWord \/ k = KChar -> learn_flat A k inp vs mf cov' tf = Ok table -> table <> [] /\ well_indexed table).
  { intros Hk' E. unfold learn_flat in E.
    destruct (if tf then read_term_freqs inp else Ok (term_frequencies k inp)) as [[stats lc]|e] eqn:Es.
    2:{ destruct Hk' as [-> | ->]; cbn [bind] in E; discriminate. }
    assert (E' : get_init_vocab A (level_of k) stats cov' (Some lc) mf vs = Ok table) by (destruct Hk' as [-> | ->]; exact E).
    pose proof (stats_NoDup _ _ _ _ _ Es) as Hnd.
    destruct (init_layout _ _ _ _ _ _ _ _ Hnd E') as (L1 & L2 & _). split; [|exact L2]. intros ->. discriminate L1. }
  destruct k.
  - apply G; auto.
  - apply G; auto.
  - eapply bpe_indexed, H.
  - congruence.
  - unfold learn_flat in H. apply Ok_inj in H. subst table. exact byte_indexed.
Qed.
Theorem failed_learn A orders version now old (o : options A) :
  o_task o = lit "learn" -> o_level o <> Some (lit "class") -> r_exc (main A orders version now old o) <> None ->
  r_model (main A orders version now old o) = old.
Proof.
  intros Ht Hc. destruct (o_level o) as [level|] eqn:El.
  2:{ unfold main. rewrite Ht, El. reflexivity. }
  destruct level as [|c0 level0] eqn:Elv.
  { unfold main. rewrite Ht, El. reflexivity. }
  rewrite <- Elv in *. clear c0 level0 Elv. intros H.
  destruct level as [|c0 level0] eqn:Elv; [unfold main; rewrite Ht, El; reflexivity|]. rewrite <- Elv in *.
  rewrite (main_learn A orders version now old o level Ht El ltac:(rewrite Elv; discriminate)) in *.
  unfold learn_vocab in *. destruct (dget str_eqb level REGISTRY) as [k|] eqn:Ek; [|reflexivity].
  assert (Hk : k <> KClass).
  { intros ->. apply Hc. f_equal. unfold REGISTRY in Ek. cbn [dget] in Ek.
    repeat match type of Ek with context [if ?b then _ else _] => destruct b eqn:?Hb; try discriminate Ek end.
    apply str_eqb_eq. assumption. }
  destruct (learn_level A orders (file_lines (o_inp o)) level k _ _ _ _ _) as [table|e] eqn:E; [|reflexivity].
  destruct (level_indexed _ _ _ _ _ _ _ _ _ _ _ Hk E) as [Hne Hw].
  destruct (make_scheme k table) as [s|e] eqn:Es; [|reflexivity].
  destruct (make_scheme_table k table s Es) as [_ Hs'].
  assert (Et : s_table s = table).
  { destruct k; try (eapply made_table; [|exact Es]; discriminate).
    cbn [make_scheme] in Es. unfold encoder_init in Es. cbn [bind] in Es. cbv zeta in Es. destruct table as [|t0 table]; [congruence|].
    destruct (assert_ _); [|discriminate Es]. cbn [bind] in Es. injection Es as <-. reflexivity. }
  destruct (save_indexed version now s) as (bytes & Eb); [rewrite Et; exact Hne|rewrite Et; exact Hw|].
  rewrite Eb in H. exfalso. apply H. reflexivity.
Qed.

(** ** estimating on a text with a word model *)
Lemma init_exact A level tf lc mf vs table : NoDup (map fst tf) -> vs <= 0 -> mf <= 1 ->
  get_init_vocab A level tf None lc mf vs = Ok table ->
  (forall w, has_name table w <-> In w (map fst tf) \/ In w reserved_names) /\
  length table = (6 + length (filter (fun w => negb (reserved_name w)) (map fst tf)))%nat.
Proof.
  intros Hnd Hvs Hmf H. destruct (init_layout A level tf None lc mf vs table Hnd H) as (Hs & _).
  destruct (init_ranking A level tf lc mf vs table Hnd (or_introl Hvs) H) as (ranking & [Hp _] & Er).
  assert (El : (vs <=? 0) = true) by (apply Z.leb_le; exact Hvs). rewrite El in Er.
  assert (Hsplit : map t_name table = reserved_names ++ map t_name (skipn 6 table)).
  { rewrite <- Hs. rewrite <- (firstn_skipn 6 (map t_name table)) at 1. rewrite skipn_map. reflexivity. }
  split.
  - intros w. split.
    + intros (t & Ht & En). apply (in_map t_name) in Ht. rewrite Hsplit, En in Ht. apply in_app_iff in Ht.
      destruct Ht as [Ht|Ht]; [right; exact Ht|left]. apply in_map_iff in Ht. destruct Ht as (t' & En' & Ht').
      apply (in_map (fun t => (t_name t, t_freq t))) in Ht'. rewrite Er in Ht'. apply (Permutation_in _ Hp) in Ht'.
      unfold candidates in Ht'. apply filter_In in Ht'. destruct Ht' as [Ht' _]. apply (in_map fst) in Ht'. cbn [fst] in Ht'. congruence.
    + intros [Hw|Hw]; [eapply init_complete; eassumption|apply reserved_has; assumption].
  - assert (E1 : length table = length (map t_name table)) by (rewrite map_length; reflexivity).
    rewrite E1, Hsplit, app_length. change (length reserved_names) with 6%nat. f_equal. rewrite map_length.
    assert (E2 : length (skipn 6 table) = length ranking) by (rewrite <- Er, map_length; reflexivity).
    rewrite E2, (Permutation_length Hp). unfold candidates. clear - Hmf.
    assert (Em : (mf <=? 1) = true) by (apply Z.leb_le; exact Hmf). rewrite Em.
    induction tf as [|[w f] tf IH]; [reflexivity|]. cbn [filter map fst snd]. rewrite Bool.andb_true_r.
    destruct (reserved_name w); cbn [negb length]; [exact IH|f_equal; exact IH].
Qed.
Lemma seen_in_spec toks w : seen_in toks w = true <-> In w toks \/ In w reserved_names.
Proof.
  unfold seen_in. rewrite existsb_exists. split.
  - intros (v & Hv & E). apply str_eqb_eq in E. subst v. apply in_app_iff. exact Hv.
  - intros H. exists w. split; [apply in_app_iff; exact H|apply str_eqb_eq; reflexivity].
Qed.
Lemma unk_at table i : starts_reserved table -> distinct_names table -> (name_at table i (lit "<unk>") <-> i = 1).
Proof.
  intros Hs Hd. unfold starts_reserved in Hs.
  assert (H1 : nth_error (map t_name table) 1 = Some (lit "<unk>")).
  { rewrite <- (firstn_skipn 6 (map t_name table)), Hs. reflexivity. }
  split.
  - intros (Hi & t & Ht & En). assert (H2 : nth_error (map t_name table) (Z.to_nat i) = Some (lit "<unk>")) by (rewrite nth_error_map, Ht; cbn [option_map]; rewrite En; reflexivity).
    assert (Z.to_nat i = 1%nat); [|lia].
    apply (proj1 (NoDup_nth_error (map t_name table)) Hd); [apply nth_error_Some; congruence|congruence].
  - intros ->. split; [lia|]. change (Z.to_nat 1) with 1%nat. rewrite nth_error_map in H1.
    destruct (nth_error table 1) as [t|]; [|discriminate H1]. exists t. split; [reflexivity|]. cbn [option_map] in H1. congruence.
Qed.
Lemma unk_ids toks table ws ids : starts_reserved table -> distinct_names table ->
  (forall w, has_name table w <-> In w toks \/ In w reserved_names) -> Forall2 (id_of table) ws ids ->
  count_id 1 ids = Z.of_nat (length (filter (fun w => str_eqb w (lit "<unk>") || negb (seen_in toks w)) ws)).
Proof.
  intros Hs Hd Hn H. unfold count_id. f_equal. induction H as [|w i ws ids Hi H IH]; [reflexivity|]. cbn [count_occ filter].
  assert (G : i = 1 <-> (str_eqb w (lit "<unk>") || negb (seen_in toks w)) = true).
  { rewrite Bool.orb_true_iff, Bool.negb_true_iff. split.
    - intros ->. destruct Hi as [Hi|[_ Hi]].
      + left. apply str_eqb_eq. destruct (proj2 (unk_at table 1 Hs Hd) eq_refl) as (_ & t & Ht & En).
        destruct Hi as (_ & t' & Ht' & En'). congruence.
      + right. destruct (seen_in toks w) eqn:E; [|reflexivity]. apply seen_in_spec, Hn in E. contradiction.
    - intros [E|E].
      + apply str_eqb_eq in E. subst w. destruct Hi as [Hi|[Hi _]]; [apply (unk_at table i Hs Hd), Hi|exact Hi].
      + destruct Hi as [(Hi & t & Ht & En)|[Hi _]]; [|exact Hi]. exfalso.
        assert (Hw : has_name table w) by (exists t; split; [eapply nth_error_In, Ht|exact En]).
        apply Hn, seen_in_spec in Hw. congruence. }
  destruct (Z.eq_dec i 1) as [E|E].
  - rewrite (proj1 G E). cbn [length]. f_equal. exact IH.
  - destruct (str_eqb w (lit "<unk>") || negb (seen_in toks w)); [exfalso; apply E, G; reflexivity|exact IH].
Qed.
Lemma lines_same_words inp ls wss : lines_of inp ls -> Forall2 words_of ls wss -> map split (file_lines inp) = wss.
Proof.
  intros H. apply file_lines_spec in H. revert wss. induction H as [|x l xs ls Hx H IH]; intros wss Hw; inversion Hw; subst; [reflexivity|].
  cbn [map]. rewrite (split_line_read x l Hx). f_equal; [apply split_words_of; assumption|apply IH; assumption].
Qed.
Theorem word_estimate A orders version now (o : options A) ls wss old :
  scalars version -> scalars now -> iteration_orders orders ->
  o_task o = lit "learn" -> o_level o = Some (lit "word") -> o_term_freqs o = false -> o_vocab_size o <= 0 ->
  (forall m, o_min_freq o = Some m -> m <= 1) -> lines_of (o_inp o) ls -> scalars (o_inp o) -> Forall2 words_of ls wss ->
  exists bytes, main A orders version now old o = MkRun (Some bytes) [] None None /\
    forall e ls' wss', o_task e = lit "estimate" -> lines_of (o_inp e) ls' -> ls' <> [] -> Forall2 words_of ls' wss' ->
      exists q, main A orders version now (Some bytes) e = MkRun (Some bytes) [] (Some q) None /\
        q_n_types q = 6 + Z.of_nat (length (nodup str_dec (filter (fun w => negb (reserved_name w)) (concat wss)))) /\
        q_n_tokens q = Z.of_nat (length (concat wss')) /\
        q_unk_count q = Z.of_nat (length (filter (fun w => str_eqb w (lit "<unk>") || negb (seen_in (concat wss) w)) (concat wss'))) /\
        (q_mean_seq_len q * inject_Z (Z.of_nat (length ls')) == inject_Z (Z.of_nat (length (concat wss'))))%Q.
Proof.
  intros Hv Hn Ho Ht Hl Htf Hvs Hmf Hls Hsc Hw.
  assert (Hm : effective_min_freq (lit "word") (o_min_freq o) <= 1).
  { unfold effective_min_freq. change (str_eqb (lit "word") (lit "word")) with true. cbv iota zeta.
    destruct (o_min_freq o) as [m|]; [|unfold DEF_WORD_MIN_FREQ; lia]. specialize (Hmf m eq_refl).
    destruct ((m =? 0) || (m <? 1)); [unfold DEF_WORD_MIN_FREQ; lia|exact Hmf]. }
  pose proof (learned A orders version now Hv Hn Ho o (lit "word") KWord ls Ht Hl eq_refl ltac:(discriminate) Htf Hls Hsc old) as H.
  unfold learn_level in H. change (str_eqb (lit "word") (lit "word")) with true in H. cbv iota zeta in H.
  unfold learn_flat in H. destruct (term_frequencies KWord (file_lines (o_inp o))) as [stats lc] eqn:Et. cbn [bind] in H.
  pose proof (term_frequencies_NoDup KWord (file_lines (o_inp o))) as Hnd. rewrite Et in Hnd. cbn [fst] in Hnd.
  pose proof (init_outcome A (level_of KWord) stats None (Some lc) (effective_min_freq (lit "word") (o_min_freq o)) (o_vocab_size o) Hnd) as Hout.
  destruct (get_init_vocab _ _ _ _ _ _ _) as [table|e] eqn:E; [clear Hout|destruct Hout as (c & Hc & _); discriminate Hc].
  destruct H as (bytes & s & E1 & E2 & E3 & E4). exists bytes. split; [exact E1|].
  destruct (init_layout _ _ _ _ _ _ _ _ Hnd E) as (L1 & _ & L3 & _).
  destruct (init_exact _ _ _ _ _ _ _ Hnd Hvs Hm E) as [X1 X2].
  assert (Htoks : tokens_of KWord (file_lines (o_inp o)) (concat wss)).
  { exists wss. split; [|reflexivity]. rewrite <- (lines_same_words _ _ _ Hls Hw). clear. induction (file_lines (o_inp o)); constructor; [apply words_of_split|assumption]. }
  destruct (term_frequencies_exact KWord _ _ stats lc Htoks Et) as [[(K1 & K2 & _) _] _].
  assert (X1' : forall w, has_name table w <-> In w (concat wss) \/ In w reserved_names).
  { intros w. rewrite X1, K2. reflexivity. }
  destruct (load_kind _ _ _ E2 E3 ltac:(discriminate)) as [Hmk _]. rewrite E4 in Hmk.
  intros e ls' wss' He Hls' Hne Hw'.
  assert (Hd : file_lines (o_inp e) <> []).
  { intros E0. apply file_lines_spec in Hls'. rewrite E0 in Hls'. inversion Hls'; subst. congruence. }
  destruct (estimate_correct KWord table s (file_lines (o_inp e)) (or_introl eq_refl) Hmk Hd) as (seqs & q & S1 & S2 & S3 & S4 & S5 & S6 & _).
  exists q. rewrite (main_estimate A orders version now bytes e He), E2, S2. split; [reflexivity|].
  assert (F : Forall2 (id_of table) (concat wss') (concat seqs)).
  { rewrite <- (lines_same_words _ _ _ Hls' Hw'). clear - S1 Hmk.
    induction S1 as [|x seq xs seqs Hx H IH]; [constructor|]. cbn [map concat]. apply Forall2_app; [|exact IH].
    destruct (word_ids table s x Hmk) as (ws & ids & outs & Hws & Hi & Hf & _). apply split_words_of in Hws. rewrite Hws. congruence. }
  assert (Fl : length (concat wss') = length (concat seqs)).
  { clear - F. induction F; [reflexivity|]. cbn [length]. congruence. }
  split; [|split; [|split]].
  - rewrite S3, X2. rewrite Nat2Z.inj_add. f_equal. f_equal. apply Permutation_length. apply NoDup_Permutation.
    + apply NoDup_filter. exact K1.
    + apply NoDup_nodup.
    + intros w. rewrite nodup_In, !filter_In, K2. reflexivity.
  - rewrite S4, Fl. reflexivity.
  - rewrite S5. apply (unk_ids (concat wss) table); assumption.
  - rewrite Fl. rewrite <- S6. apply file_lines_spec in Hls'.
    assert (El : length (file_lines (o_inp e)) = length ls') by (clear - Hls'; induction Hls'; [reflexivity|cbn [length]; congruence]).
    rewrite El. reflexivity.
Qed.
