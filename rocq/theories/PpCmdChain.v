(** The lines of bpepp in terms of what the files hold. *)
From Coq Require Import Strings.String Lia.
From Verif Require Import Py PyStr PyLemmas NumProofs StrSpec Utf8Model JsonProofs TrieProofs CodecModel CodecSpec VocabFileModel VocabSpec LearnModel LearnSpec CliModel CliSpec BpeppModel BpeppSpec BpeppProofs BpeppEnd BpeppCmd
     ArgModel ArgSpec ArgProofs ArgSound CmdModel CmdProofs PpArgModel PpCmdSpec PpCmdProofs PpCmdEnd PpCmdAny.
Local Open Scope list_scope.

Lemma coding_line W fs stdin pieces before d inps after vocab text :
  let c := if pieces : bool then SEncode else SDecode in let l := before ++ after in let f1 := opened l (lookup fs) in
  Forall (good (w_env W) c) before -> Forall (good (w_env W) c) after -> named d inps after ->
  vocab_said l = Some vocab -> input_of W (lookup fs) f1 stdin inps text ->
  exists e, pp_program W fs stdin (line c before d inps after) = Some e /\
    coded W f1 (out_said l)
      (match f1 vocab with
       | None => ([], Some FileNotFound)
       | Some model => if pieces then pp_cli_encode model (pieces_said l) text else pp_cli_decode model text
       end) e.
Proof.
  intros c l f1 HB HA P HV HI.
  assert (C : pp_pos c = pp_inp_opt) by (unfold c; destruct pieces; reflexivity).
  assert (X : exists v, pos_value c (lookup fs) inps v /\ match v with VIn p => match f1 p with Some b => w_text W b | None => [] end | _ => stdin end = text).
  { destruct HI as [([->| ->] & ->)|(p & b & -> & H1 & H2 & H3 & ->)].
    - exists VStdin. split; [constructor; exact C|reflexivity].
    - exists VStdin. split; [constructor; exact C|reflexivity].
    - exists (VIn p). split; [constructor; assumption|]. rewrite H3. reflexivity. }
  destruct X as (v & V & T).
  destruct (coding_command W fs stdin pieces before d inps after v vocab HB HA P HV V) as (e & E1 & E2). fold c l f1 in E1, E2. rewrite T in E2.
  exists e. split; [exact E1|exact E2].
Qed.

Lemma texts_read W fs inps texts : texts_of W (lookup fs) inps texts -> pp_texts W fs (map VText inps) = (texts, false).
Proof.
  intros H. induction H as [|p t inps texts (b & H1 & ->) _ IH]; [reflexivity|]. cbn [map pp_texts]. unfold lookup in H1. rewrite H1, IH. reflexivity.
Qed.

Lemma texts_missing W fs inps p : In p inps -> lookup fs p = None -> exists texts, pp_texts W fs (map VText inps) = (texts, true).
Proof.
  intros H1 H2. induction inps as [|q inps IH]; [destruct H1|]. cbn [map pp_texts]. destruct H1 as [->|H1].
  - unfold lookup in H2. rewrite H2. eexists. reflexivity.
  - destruct (IH H1) as [texts ->]. destruct (dget str_eqb q fs); eexists; reflexivity.
Qed.

(** Input that breaks off is never learned from. *)
Lemma cut_codes tr orders seqs vocab n m lv e : match pp_learn_codes tr orders (seqs ++ [Raise e]) vocab n m lv with Ok _ => False | Raise _ => True end.
Proof.
  unfold pp_learn_codes, pp_init. destruct (assert_ _); [|exact I]. cbn [bind]. destruct (foldM _ (enumerate vocab) tt); [|exact I]. cbn [bind].
  unfold enumerate. rewrite enum_from_app, foldM_app. destruct (foldM _ (enum_from 0 seqs) _); exact I.
Qed.
Lemma cut_raises W args l1 texts : match pp_learn2_cut W args l1 texts with Ok _ => False | Raise _ => True end.
Proof.
  unfold pp_learn2_cut. destruct l1 as [l1|]; [|exact I]. destruct (pp_read_vocab l1) as [vocab|]; [|exact I]. cbn [bind].
  destruct (prepared args); cbn [bind]; [apply cut_codes|]. destruct (pp_codec vocab); cbn [bind]; [apply cut_codes|exact I].
Qed.

Lemma texts_same W fs fs' inps : (forall p, In p inps -> lookup fs' p = lookup fs p) -> pp_texts W fs' (map VText inps) = pp_texts W fs (map VText inps).
Proof.
  intros H. induction inps as [|p inps IH]; [reflexivity|]. cbn [map pp_texts]. pose proof (H p (or_introl eq_refl)) as X. unfold lookup in X. rewrite X.
  rewrite IH by (intros q Hq; apply H; right; exact Hq). reflexivity.
Qed.

Definition ended (r : ArgModel.files * option exn) : ending := MkEnding (match snd r with None => 0 | Some _ => 1 end)%Z (fst r) [] None (snd r).

(** A learning command with its input there. *)
Lemma learn_line W fs stdin c before d inps after vocab texts :
  let l := before ++ after in
  c <> SEncode -> c <> SDecode -> Forall (good (w_env W) c) before -> Forall (good (w_env W) c) after -> named d inps after -> inps <> [] ->
  vocab_said l = Some vocab -> enough c l -> texts_of W (lookup fs) inps texts -> (c = SLearn -> ~ In vocab inps) ->
  pp_program W fs stdin (line c before d inps after) =
  Some (ended (pp_learn (w_orders1 W) (w_orders2 W) (w_now1 W) (w_now2 W) (match c with SLearn1 => Learn1 | SLearn2 => Learn2 | _ => Learn end)
                 texts vocab (vocab_l1_said l) (args_said l) fs)).
Proof.
  intros l C1 C2 HB HA HI HN HV HQ HT HL. rewrite (learn_said W fs stdin c before d inps after vocab) by assumption. fold l. unfold ended. f_equal.
  assert (E : pp_stages W c (map VText inps) vocab (vocab_l1_said l) (args_said l) fs =
    pp_learn (w_orders1 W) (w_orders2 W) (w_now1 W) (w_now2 W) (match c with SLearn1 => Learn1 | SLearn2 => Learn2 | _ => Learn end) texts vocab (vocab_l1_said l) (args_said l) fs).
  { destruct c; try congruence; cbn [pp_stages]; unfold pp_stage at 1; rewrite (texts_read _ _ _ _ HT); try reflexivity.
    assert (N : vocab_l1_said l = None).
    { destruct (vocab_l1_said l) as [p|] eqn:V; [|reflexivity]. destruct (last_said_some _ _ _ V) as (s & n & j & I1 & I2).
      destruct s; try discriminate I2. assert (G : Forall (good (w_env W) SLearn) l) by (apply Forall_app; auto).
      rewrite Forall_forall in G. destruct (G _ I1) as (Hh & _). discriminate Hh. }
    rewrite N. unfold pp_learn. destruct (pp_learn1 _ _ _ _) as [bytes|e]; [|reflexivity]. unfold pp_stage.
    rewrite (texts_same W fs) by (intros p Hp; apply (dget_dset_other str_eqb str_eqb_eq); intros ->; apply (HL eq_refl Hp)).
    rewrite (texts_read _ _ _ _ HT). reflexivity. }
  rewrite E. reflexivity.
Qed.

Lemma learn_missing W fs stdin c before d inps after vocab p :
  let l := before ++ after in
  c <> SEncode -> c <> SDecode -> Forall (good (w_env W) c) before -> Forall (good (w_env W) c) after -> named d inps after ->
  vocab_said l = Some vocab -> enough c l -> In p inps -> lookup fs p = None ->
  exists x, pp_program W fs stdin (line c before d inps after) = Some (MkEnding 1 fs [] None (Some x)) /\
    (c <> SLearn2 -> x = if ((vocab_size_l1 (args_said l) >? 0) || (vocab_size_l1 (args_said l) =? -1))%Z then FileNotFound else AssertionError).
Proof.
  intros l C1 C2 HB HA HI HV HQ HP HM. rewrite (learn_said W fs stdin c before d inps after vocab) by (try assumption; intros ->; destruct HP). fold l.
  destruct (texts_missing W _ _ _ HP HM) as [texts T].
  assert (NP : c <> SLearn2 -> prepared (args_said l) = false).
  { intros C3. assert (G : Forall (good (w_env W) c) l) by (apply Forall_app; auto). cbn [args_said prepared]. clear - G C3.
    induction G as [|[[s n] j] l (Hh & _) _ IH]; [reflexivity|]. cbn [last_said]. destruct s; try exact IH. contradiction. }
  destruct c; try congruence; cbn [pp_stages]; unfold pp_stage; rewrite T; eexists; (split; [reflexivity|]);
    try (intros; contradiction); intros C3; cbn [pp_cut]; rewrite (NP C3); reflexivity.
Qed.

(** learn2: which exception. *)
Lemma texts_before W fs i1 p i2 texts : texts_of W (lookup fs) i1 texts -> lookup fs p = None -> pp_texts W fs (map VText (i1 ++ p :: i2)) = (texts, true).
Proof.
  intros H N. induction H as [|q t i1 texts (b & H1 & ->) _ IH]; cbn [app map pp_texts].
  - unfold lookup in N. rewrite N. reflexivity.
  - unfold lookup in H1. rewrite H1. cbn [app map] in IH. rewrite IH. reflexivity.
Qed.
Lemma cut_after tr orders seqs vocab n m lv e ix : pp_init tr seqs vocab = Ok ix -> pp_learn_codes tr orders (seqs ++ [Raise e]) vocab n m lv = Raise e.
Proof.
  unfold pp_learn_codes, pp_init. destruct (assert_ _); [|discriminate]. cbn [bind]. destruct (foldM _ (enumerate vocab) tt); [|discriminate]. cbn [bind].
  unfold enumerate. rewrite enum_from_app, foldM_app. destruct (foldM _ (enum_from 0 seqs) _); [reflexivity|discriminate].
Qed.
Lemma cut_first tr orders vocab n m lv e : distinct_names vocab -> well_indexed vocab -> pp_learn_codes tr orders [Raise e] vocab n m lv = Raise e.
Proof.
  intros Hd Hw. unfold pp_learn_codes, pp_init. rewrite table_checks. rewrite (proj2 (table_checks_iff vocab) (conj Hw Hd)). reflexivity.
Qed.
Lemma learn2_missing W fs stdin before d i1 p i2 after vocab texts :
  let l := before ++ after in let f := lookup fs (match vocab_l1_said l with Some q => q | None => vocab end) in
  Forall (good (w_env W) SLearn2) before -> Forall (good (w_env W) SLearn2) after -> named d (i1 ++ p :: i2) after ->
  vocab_said l = Some vocab -> enough SLearn2 l -> texts_of W (lookup fs) i1 texts -> lookup fs p = None ->
  exists x, pp_program W fs stdin (line SLearn2 before d (i1 ++ p :: i2) after) = Some (MkEnding 1 fs [] None (Some x)) /\
    match f with
    | None => x = AssertionError
    | Some b =>
        (forall e, pp_read_vocab b = Raise e -> x = e) /\
        (forall bytes, pp_learn2 (w_orders2 W) (w_now2 W) (args_said l) (Some b) texts = Ok bytes -> x = FileNotFound) /\
        (forall table root, i1 = [] -> pp_read_vocab b = Ok table -> distinct_names table -> well_indexed table -> pp_codec table = Ok root -> x = FileNotFound)
    end.
Proof.
  intros l f HB HA HI HV HQ HT HM. rewrite (learn_said W fs stdin SLearn2 before d (i1 ++ p :: i2) after vocab) by (try assumption; try discriminate; destruct i1; discriminate). fold l.
  cbn [pp_stages]. unfold pp_stage. rewrite (texts_before W fs i1 p i2 texts HT HM). eexists. split; [reflexivity|]. cbn [pp_cut]. fold (lookup fs).
  change (dget str_eqb (match vocab_l1_said l with Some q => q | None => vocab end) fs) with f. destruct f as [b|]; [|reflexivity].
  unfold pp_learn2_cut, pp_learn2. split; [intros e ->; reflexivity|]. split.
  - intros bytes. destruct (pp_read_vocab b) as [table|]; [|discriminate]. cbn [bind]. destruct (prepared (args_said l)); cbn [bind].
    + match goal with |- context [pp_learn_codes Replace _ ?s table] => destruct (pp_init Replace s table) as [ix|e] eqn:E end.
      * intros _. rewrite (cut_after _ _ _ _ _ _ _ _ _ E). reflexivity.
      * unfold pp_learn_codes at 1. rewrite E. discriminate.
    + destruct (pp_codec table) as [root|]; [|discriminate]. cbn [bind].
      match goal with |- context [pp_learn_codes Replace _ ?s table] => destruct (pp_init Replace s table) as [ix|e] eqn:E end.
      * intros _. rewrite (cut_after _ _ _ _ _ _ _ _ _ E). reflexivity.
      * unfold pp_learn_codes at 1. rewrite E. discriminate.
  - intros table root -> E Hd Hw Hc. inversion HT; subst texts. rewrite E. cbn [bind]. rewrite Hc.
    destruct (prepared (args_said l)); cbn [bind map]; change (pp_read_lines []) with (@nil str); cbn [map app]; rewrite (cut_first _ _ _ _ _ _ _ Hd Hw); reflexivity.
Qed.

(** learn1, then encode. *)
Theorem learn_then_encode W fs stdin1 stdin2 b1 d1 inps a1 b2 d2 inp a2 vocab texts lss toks e1 ls text :
  Forall (good (w_env W) SLearn1) b1 -> Forall (good (w_env W) SLearn1) a1 -> named d1 inps a1 -> inps <> [] ->
  vocab_said (b1 ++ a1) = Some vocab -> vs1_said (b1 ++ a1) <> None -> texts_of W (lookup fs) inps texts ->
  Forall2 lines_of texts lss -> tokens_of KWord (concat lss) toks -> (forall w, In w toks -> plain_text w) -> scalars (w_now1 W) ->
  pp_program W fs stdin1 (line SLearn1 b1 d1 inps a1) = Some e1 -> x_status e1 = 0%Z ->
  let l := b2 ++ a2 in let f1 := opened l (lookup (x_files e1)) in
  Forall (good (w_env W) SEncode) b2 -> Forall (good (w_env W) SEncode) a2 -> named d2 inp a2 -> vocab_said l = Some vocab -> f1 vocab = lookup (x_files e1) vocab ->
  pieces_said l = false -> input_of W (lookup (x_files e1)) f1 stdin2 inp text -> lines_of text ls ->
  exists table nums e2, usable table /\
    (let args := args_said (b1 ++ a1) in
     pp_learn_from_corpus (w_orders1 W) (concat lss) (vocab_size_l1 args) (min_co_l1 args) (char_min_freq args) (word_min_freq args) = Ok table) /\
    Forall2 (encoded_line table) ls (map (fun s => (s, 1%Z)) nums) /\
    pp_program W (x_files e1) stdin2 (line SEncode b2 d2 inp a2) = Some e2 /\
    coded W f1 (out_said l) (unlines (map (fun s => join [SPACE] (map str_of_Z s)) nums), None) e2.
Proof.
  intros HB HA HI HN HV HQ HT HLS HTK HPL HSC HE HS l f1 HB2 HA2 HD2 HV2 HF HP HIN HLN. unfold f1 in *. clear f1.
  rewrite (learn_line W fs stdin1 SLearn1 b1 d1 inps a1 vocab texts) in HE; try assumption; try discriminate.
  2:{ split; [auto|]. split; [intros [X|X]; discriminate|discriminate]. }
  injection HE as <-. set (args := args_said (b1 ++ a1)) in *.
  destruct (pp_learn1_outcome (w_orders1 W) (w_now1 W) args texts lss (concat lss) toks HLS eq_refl HTK HPL HSC) as (O1 & O2 & O3).
  set (r := pp_learn_from_corpus (w_orders1 W) (concat lss) (vocab_size_l1 args) (min_co_l1 args) (char_min_freq args) (word_min_freq args)) in *.
  assert (NL : vocab_l1_said (b1 ++ a1) = None).
  { destruct (vocab_l1_said (b1 ++ a1)) as [p|] eqn:V; [|reflexivity]. destruct (last_said_some _ _ _ V) as (s & n & j & I1 & I2).
    destruct s; try discriminate I2. assert (G : Forall (good (w_env W) SLearn1) (b1 ++ a1)) by (apply Forall_app; auto).
    rewrite Forall_forall in G. destruct (G _ I1) as (Hh & _). discriminate Hh. }
  rewrite NL in *. unfold ended, pp_learn in *. fold args in HS, HIN, HF |- *.
  assert (K : exists bytes table, pp_learn1 (w_orders1 W) (w_now1 W) args texts = Ok bytes /\ r = Ok table /\ usable table /\ pp_read_vocab bytes = Ok table).
  { destruct (pp_learn1 (w_orders1 W) (w_now1 W) args texts) as [bytes|e] eqn:L; [|discriminate HS].
    assert (NB : ~ (prepared args = true \/ (vocab_size_l1 args <= 0 /\ vocab_size_l1 args <> -1))%Z) by (intros Z; specialize (O1 Z); discriminate O1).
    destruct r as [table|e] eqn:R; [|specialize (O2 NB e eq_refl); discriminate O2].
    destruct (O3 NB table eq_refl) as (U & bytes' & B1 & B2). injection B1 as <-. exists bytes, table. auto. }
  destruct K as (bytes & table & L & R & U & RV). rewrite L in *. cbn [x_files fst snd] in *.
  set (fs1 := dset str_eqb vocab bytes fs) in *. exists table.
  assert (LO : pp_load bytes = Ok (table, build tr_empty table)).
  { destruct U as ((U1 & _) & _ & U2). apply pp_load_ok; assumption. }
  destruct (pp_encode_cmd bytes table _ text ls LO ltac:(apply U) HLN) as (nums & N1 & N2). exists nums.
  destruct (coding_line W fs1 stdin2 true b2 d2 inp a2 vocab text HB2 HA2 HD2 HV2 HIN) as (e2 & E1 & E2). fold l in E2.
  rewrite HF in E2. replace (lookup fs1 vocab) with (Some bytes) in E2 by (symmetry; apply (dget_dset_same str_eqb str_eqb_eq)).
  rewrite HP, N2 in E2. exists e2. split; [exact U|]. split; [exact R|]. split; [exact N1|]. split; [exact E1|exact E2].
Qed.
