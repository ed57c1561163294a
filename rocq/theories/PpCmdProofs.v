(** Lemmas about the parser of bpepp.py: a line in the documented form is read as it says. *)
From Coq Require Import Strings.String Lia.
From Verif Require Import Py PyStr PyLemmas NumProofs BpeppModel ArgModel ArgSpec ArgProofs CmdModel CmdProofs PpArgModel PpCmdSpec.
Local Open Scope list_scope.

Lemma parse_optional_raw P s t : parse_optional P s = Some t -> raw_of t = s.
Proof.
  destruct s as [|c rest]; cbn [parse_optional]; [intros H; injection H as <-; reflexivity|].
  destruct (negb (N.eqb c DASH)); [intros H; injection H as <-; reflexivity|].
  destruct (find_opt P (c :: rest)); [intros H; injection H as <-; reflexivity|].
  destruct rest as [|d rest]; [intros H; injection H as <-; reflexivity|].
  set (m := match partition_eq (c :: d :: rest) with Some _ => _ | None => _ end).
  assert (M : forall t', m = Some t' -> raw_of t' = c :: d :: rest).
  { intros t'. unfold m. destruct (partition_eq (c :: d :: rest)) as [[n e]|]; [|discriminate].
    destruct (find_opt P n); [|discriminate]. intros H; injection H as <-; reflexivity. }
  destruct m as [t'|]; [intros H; injection H as <-; apply M; reflexivity|].
  destruct (option_tuples P (c :: d :: rest)) as [|[[[o n] eq] e] [|]]; [|intros H; injection H as <-; reflexivity|discriminate].
  destruct (negative_like _); [intros H; injection H as <-; reflexivity|].
  destruct (existsb _ _); intros H; injection H as <-; reflexivity.
Qed.

Lemma classify_raw P argv ts : classify P argv = Some ts -> map raw_of ts = argv.
Proof.
  revert ts. induction argv as [|s argv IH]; intros ts H; cbn [classify] in H; [injection H as <-; reflexivity|].
  destruct (str_eqb s [DASH; DASH]).
  - injection H as <-. cbn [map raw_of]. rewrite map_map. cbn [raw_of]. rewrite map_id. reflexivity.
  - destruct (parse_optional P s) as [t|] eqn:T; [|discriminate]. destruct (classify P argv) as [ts'|]; [|discriminate].
    injection H as <-. cbn [map]. rewrite (parse_optional_raw _ _ _ T), (IH _ eq_refl). reflexivity.
Qed.

(** A list of words none of which is '--' or ambiguous is classified. *)
Lemma classify_total P argv : (forall s, In s argv -> s <> [45; 45]%N /\ parse_optional P s <> None) -> exists ts, classify P argv = Some ts.
Proof.
  induction argv as [|s argv IH]; intros H; [exists []; reflexivity|]. cbn [classify].
  destruct (H s (or_introl eq_refl)) as [H1 H2]. unfold DASH. apply str_eqb_neq in H1. rewrite H1.
  destruct (parse_optional P s) as [t|]; [|destruct H2; reflexivity].
  destruct IH as [ts ->]; [intros x Hx; apply H; right; exact Hx|]. eauto.
Qed.

Lemma pp_main_proper : proper pp_main_parser.
Proof. apply properb_ok. vm_compute. reflexivity. Qed.
Lemma pp_parser_proper c : proper (pp_parser c).
Proof. apply properb_ok. destruct c; vm_compute; reflexivity. Qed.

Lemma said_word E c x w : good E c x -> In w (words_said x) -> w <> [45; 45]%N /\ parse_optional pp_main_parser w <> None.
Proof.
  assert (PL : forall v, plain v -> v <> [45; 45]%N /\ parse_optional pp_main_parser v <> None).
  { intros v Hv. split; [apply str_eqb_neq, plain_dashes, Hv|]. rewrite (parse_optional_plain _ _ pp_main_proper Hv). discriminate. }
  destruct x as [[s n] j]. intros (Hh & Hn & Hj & _) Hw. unfold words_said in Hw.
  assert (NM : lit n <> [45; 45]%N /\ parse_optional pp_main_parser (lit n) <> None /\
    forall v, lit n ++ 61%N :: v <> [45; 45]%N /\ parse_optional pp_main_parser (lit n ++ 61%N :: v) <> None).
  { clear - Hn. destruct s; cbn [spelt In] in Hn;
      repeat (destruct Hn as [<-|Hn]; [split; [discriminate|]; split; [vm_compute; discriminate|]; intros v; split; [discriminate|];
        cbn -[existsb N.eqb]; try discriminate; cbn; try discriminate; destruct (existsb _ v); discriminate|]); destruct Hn. }
  destruct NM as (N1 & N2 & N3). destruct (worded s) as [v|].
  - destruct j; [destruct Hw as [<-|[]]; apply N3|]. destruct Hw as [<-|[<-|[]]]; [auto|]. apply PL, Hj; reflexivity.
  - destruct Hw as [<-|[]]. auto.
Qed.

Lemma classify_app P a b ta : (forall s, In s a -> s <> [45; 45]%N) -> classify P a = Some ta ->
  classify P (a ++ b) = match classify P b with Some tb => Some (ta ++ tb) | None => None end.
Proof.
  revert ta. induction a as [|s a IH]; intros ta HS; cbn [classify app]; [intros H; injection H as <-; destruct (classify P b); reflexivity|].
  pose proof (HS s (or_introl eq_refl)) as N. unfold DASH. apply str_eqb_neq in N. rewrite N. destruct (parse_optional P s) as [t|]; [|discriminate].
  destruct (classify P a) as [ta'|]; [|discriminate]. intros H. injection H as <-. rewrite (IH ta') by (auto with datatypes). destruct (classify P b); reflexivity.
Qed.

Lemma line_main E fs c before d inps after : Forall (good E c) before -> Forall (good E c) after -> named d inps after ->
  pp_parse E fs (line c before d inps after) =
  match parse_sub (pp_parser c) (pp_pos c) E fs (flat_map words_said before ++ dash d ++ inps ++ flat_map words_said after) with
  | None => inl None
  | Some r => inl (Some (c, r))
  end.
Proof.
  intros HB HA HI. unfold pp_parse, line. set (rest := flat_map words_said before ++ dash d ++ inps ++ flat_map words_said after).
  assert (CL : exists ts, classify pp_main_parser rest = Some ts).
  { destruct d; cbn [named dash app] in *; unfold rest; clear rest.
    - assert (X : forall s, In s (flat_map words_said before) -> s <> [45; 45]%N /\ parse_optional pp_main_parser s <> None).
      { intros s Hs. rewrite in_flat_map in Hs. destruct Hs as (x & Hx & Hs). rewrite Forall_forall in HB. eapply said_word; eauto. }
      destruct (classify_total _ _ X) as [ts Hts]. rewrite (classify_app _ _ _ ts) by (try assumption; intros s Hs; apply X, Hs). eexists. reflexivity.
    - apply classify_total. intros s Hs. cbn [app] in Hs. rewrite !in_app_iff, !in_flat_map in Hs. destruct Hs as [(x & Hx & Hs)|[Hs|(x & Hx & Hs)]].
      + rewrite Forall_forall in HB. eapply said_word; eauto.
      + rewrite Forall_forall in HI. specialize (HI _ Hs). split; [apply str_eqb_neq, plain_dashes, HI|].
        rewrite (parse_optional_plain _ _ pp_main_proper HI). discriminate.
      + rewrite Forall_forall in HA. eapply said_word; eauto. }
  destruct CL as [ts Hts].
  assert (C : classify pp_main_parser (command c :: rest) = Some (TArg (command c) :: ts)).
  { cbn [classify]. rewrite Hts. destruct c; reflexivity. }
  rewrite C. cbn [parse_main]. rewrite (classify_raw _ _ _ Hts).
  replace (dget str_eqb (command c) pp_subs) with (Some c) by (destruct c; reflexivity).
  destruct (parse_sub _ _ _ _ rest) as [[|]|]; reflexivity.
Qed.

(** The options as declared. *)
Definition opt_of (s : pp_setting) : opt :=
  match s with
  | SVocab _ => pp_vocab_opt | SOut _ => pp_out_opt | SPieces => pp_pieces_opt
  | SMce1 _ => pp_mce1_opt | SVs1 _ => pp_vs1_opt | SCmf _ => pp_cmf_opt | SWmf _ => pp_wmf_opt
  | SMce2 _ => pp_mce2_opt | SVs2 _ => pp_vs2_opt | SVocabL1 _ => pp_vf1_opt | SPrepared => pp_prepared_opt
  end.
Definition value_of (s : pp_setting) : value :=
  match s with
  | SVocab p | SVocabL1 p => VText p
  | SOut p => if str_eqb p [45%N] then VStdout else VOut p
  | SMce1 z | SVs1 z | SCmf z | SWmf z | SMce2 z | SVs2 z => VInt z
  | SPieces | SPrepared => VBool true
  end.
Definition given (x : spoken) : said :=
  let '(s, n, j) := x in Given (opt_of s) (lit n) (match worded s with Some v => [v] | None => [] end) j.
Definition asg (x : spoken) : opt * value := let '(s, _, _) := x in (opt_of s, value_of s).
Fixpoint opens (l : list spoken) (f : disk) : disk :=
  match l with
  | [] => f
  | (SOut q, _, _) :: l' => opens l' (if str_eqb q [45%N] then f else fun p => if str_eqb p q then Some [] else f p)
  | _ :: l' => opens l' f
  end.

Lemma opens_opened l f p : opens l f p = opened l f p.
Proof.
  unfold opened. revert f. induction l as [|[[s n] j] l IH]; intros f; [reflexivity|]. cbn [opens existsb].
  destruct s; try (rewrite IH; reflexivity). rewrite IH. destruct (existsb _ l); [rewrite orb_true_r; reflexivity|]. rewrite orb_false_r.
  destruct (str_eqb p0 [45%N]); reflexivity.
Qed.

Lemma opens_app l m f : opens (l ++ m) f = opens m (opens l f).
Proof. revert f. induction l as [|[[s n] j] l IH]; intros f; [reflexivity|]. destruct s; cbn [app opens]; apply IH. Qed.

Lemma opt_in c s : has c s -> In (opt_of s) (pp_parser c).
Proof. destruct s; cbn [has opt_of]; intros H; try (destruct H as [->| ->]); try (rewrite H); try (destruct c); cbn; tauto. Qed.

Lemma names_spelt s : a_names (opt_of s) = map lit (spelt s).
Proof. destruct s; reflexivity. Qed.

Lemma given_said E c x : good E c x -> well_said (pp_parser c) (given x) /\ written (given x) = words_said x /\ is_word (given x) = false.
Proof.
  destruct x as [[s n] j]. intros (Hh & Hn & Hj & _). split; [|split; [|reflexivity]].
  - cbn [given well_said]. split; [apply opt_in, Hh|]. split; [rewrite names_spelt; apply in_map, Hn|].
    split; [destruct s; reflexivity|]. destruct (worded s) as [v|]; destruct j; try reflexivity.
    + intros w [<-|[]]. apply Hj. reflexivity.
    + destruct Hj. reflexivity.
    + intros w [].
  - cbn [given written words_said]. destruct (worded s) as [v|]; destruct j; try reflexivity.
    + cbn. rewrite app_nil_r. reflexivity.
    + destruct Hj. reflexivity.
Qed.

Lemma asks_spoken E c pos l f : Forall (good E c) l -> asks E pos (map given l) f (map asg l) (opens l f).
Proof.
  intros H. revert f. induction H as [|[[s n] j] l (_ & _ & _ & Ho) _ IH]; intros f; cbn [map]; [constructor|].
  cbn [given asg]. destruct s; cbn [worded opt_of value_of opens].
  1,10: eapply asks_one; [reflexivity|discriminate|apply reads_text|apply IH].
  2,9: eapply asks_flag; [reflexivity|apply IH].
  2-7: eapply asks_one; [reflexivity|discriminate|apply reads_int|apply IH].
  destruct (str_eqb p [45%N]) eqn:P.
  - apply str_eqb_eq in P. subst p. eapply asks_one; [reflexivity|discriminate|apply reads_stdout|apply IH].
  - pose proof P as P'. apply str_eqb_neq in P'. destruct (Ho p eq_refl) as [|W]; [contradiction|].
    eapply asks_one; [reflexivity|discriminate|apply reads_output; assumption|apply IH].
Qed.

(** The token machine. *)
Lemma acts_given pos pos' bs : forallb (fun b => negb (is_word b)) bs = true -> acts pos bs = acts pos' bs.
Proof.
  intros H. unfold acts. apply map_ext_in. intros b Hb. rewrite forallb_forall in H. specialize (H b Hb). destruct b; [discriminate|reflexivity].
Qed.

Definition optionless (P : list opt) : Prop := forall o c, In o P -> a_names o <> [] -> a_kind o <> KMany c.

(** Options in front of other words. *)
Lemma read_sub_options P E pos bs rest fuel st :
  optionless P -> Forall (well_said P) bs -> forallb (fun b => negb (is_word b)) bs = true -> List.length (flat_map toks bs ++ rest) < fuel ->
  exists fuel', List.length rest < fuel' /\
  read_sub fuel P E pos (flat_map toks bs ++ rest) st =
  match take_all E (acts help_opt bs) st with Quit c fs => Some (Quit c fs) | Go st' => read_sub fuel' P E pos rest st' end.
Proof.
  intros HM. revert fuel st. induction bs as [|b bs IH]; intros fuel st HW HN HF; [exists fuel; split; [exact HF|reflexivity]|].
  inversion HW as [|x y Hb HW']; subst. cbn [forallb] in HN. apply andb_true_iff in HN as [Hn HN].
  destruct fuel as [|fuel]; [lia|]. destruct b as [s|o n args j]; [discriminate|].
  assert (HF' : List.length (flat_map toks bs ++ rest) < fuel).
  { cbn [flat_map] in HF. rewrite <- app_assoc, app_length in HF. pose proof (toks_length (Given o n args j)). lia. }
  assert (EX : existsb is_option (flat_map toks (Given o n args j :: bs) ++ rest) = true) by (cbn [flat_map]; destruct j; reflexivity).
  cbn [read_sub]. rewrite EX. cbn [flat_map acts map take_all]. fold (acts help_opt bs). rewrite <- app_assoc.
  destruct Hb as (Ho & Hnm & Hk & Hj).
  assert (NE : a_names o <> []) by (intros X; rewrite X in Hnm; destruct Hnm).
  assert (STEP : match take_all E [(o, args)] st with
                 | Quit c fs => Some (Quit c fs)
                 | Go st' => read_sub fuel P E pos (flat_map toks bs ++ rest) st'
                 end = match take_action E o args st with Quit c fs => Some (Quit c fs) | Go st' => read_sub fuel P E pos (flat_map toks bs ++ rest) st' end).
  { cbn [take_all]. destruct (take_action E o args st); reflexivity. }
  assert (RES : exists fuel', List.length rest < fuel' /\
     match take_action E o args st with Quit c fs => Some (Quit c fs) | Go st' => read_sub fuel P E pos (flat_map toks bs ++ rest) st' end =
     match match take_action E o args st with Go st' => take_all E (acts help_opt bs) st' | Quit c fs => Quit c fs end with
     | Quit c fs => Some (Quit c fs) | Go st' => read_sub fuel' P E pos rest st' end).
  { destruct (take_action E o args st) as [st'|c fs].
    - exact (IH fuel st' HW' HN HF').
    - exists (S (List.length rest)). split; [lia|reflexivity]. }
  destruct RES as (fuel' & F1 & F2). exists fuel'. split; [exact F1|]. rewrite <- F2, <- STEP. clear F1 F2 STEP fuel'.
  destruct j; cbn [toks app].
  - destruct args as [|e [|]]; try discriminate Hj. cbn [List.concat]. rewrite app_nil_r. cbn [consume_optional].
    replace (attached_loop P o n true e (flat_map toks bs ++ rest) []) with (Some ([(o, [e])], @nil str, flat_map toks bs ++ rest)).
    2:{ destruct e as [|c0 e]; cbn [attached_loop]; (destruct (a_kind o); [reflexivity|reflexivity|discriminate Hk|destruct Hk]). }
    rewrite take_all_extras_eta. destruct (take_all E [(o, [e])] st); reflexivity.
  - cbn [consume_optional].
    assert (MA : match_argument (a_kind o) (map TArg args ++ flat_map toks bs ++ rest) = Some (args, flat_map toks bs ++ rest)).
    { pose proof (HM o) as HMo. destruct (a_kind o) as [c ch|c|b|]; cbn [match_argument].
      - destruct args as [|s [|]]; try discriminate Hk. reflexivity.
      - destruct (HMo c Ho NE eq_refl).
      - rewrite Hk. reflexivity.
      - destruct Hk. }
    rewrite MA, take_all_extras_eta. destruct (take_all E [(o, args)] st); reflexivity.
Qed.

(** What follows the options: nothing, or words and options after them. *)
Lemma span_any_words l bs : forallb (fun b => negb (is_word b)) bs = true -> span_any (map TArg l ++ flat_map toks bs) = (l, flat_map toks bs).
Proof.
  intros H. induction l as [|s l IH]; cbn [map app span_any]; [|rewrite IH; reflexivity].
  destruct bs as [|[s|o n args []] bs]; cbn in H; try discriminate H; reflexivity.
Qed.
Lemma span_dash_said bs : span_dash (flat_map toks bs) = ([], flat_map toks bs).
Proof. destruct bs as [|[s|o n args []] bs]; reflexivity. Qed.

Lemma match_pos_words o s l bs : forallb (fun b => negb (is_word b)) bs = true ->
  (exists c, a_kind o = KMany c) \/ ((exists c ch, a_kind o = KOne c ch) /\ l = []) ->
  match_pos o (map TArg (s :: l) ++ flat_map toks bs) = Some (s :: l, flat_map toks bs).
Proof.
  intros HB HK. unfold match_pos. cbn [map app span_dash]. destruct HK as [(c & ->)|((c & ch & ->) & ->)].
  - rewrite span_any_words by assumption. reflexivity.
  - cbn [map app]. rewrite span_dash_said. reflexivity.
Qed.

Lemma no_options bs : forallb (fun b => negb (is_word b)) bs = true -> existsb is_option (flat_map toks bs) = false -> bs = [].
Proof. destruct bs as [|[s|o n args []] bs]; cbn; try discriminate; reflexivity. Qed.

Lemma read_sub_end P E pos bs fuel st :
  optionless P -> Forall (well_said P) bs -> forallb (fun b => negb (is_word b)) bs = true -> List.length (flat_map toks bs) < fuel ->
  (forall o, pos = Some o -> exists c ch, a_kind o = KOne c ch) ->
  read_sub fuel P E pos (flat_map toks bs) st = Some (take_all E (acts help_opt bs) st).
Proof.
  intros HM HW HN HF HP. destruct (read_sub_options P E pos bs [] fuel st HM HW HN) as (fuel' & F1 & F2); [rewrite app_nil_r; exact HF|].
  rewrite app_nil_r in F2. rewrite F2. destruct (take_all E (acts help_opt bs) st) as [st'|c fs]; [|reflexivity].
  destruct fuel' as [|fuel']; [lia|]. cbn [read_sub existsb].
  replace (take_pos E pos [] st') with (@Go (pstate * option opt * list tok) (st', None, [])).
  - cbn [map]. rewrite app_nil_r. destruct st'; reflexivity.
  - destruct pos as [o|]; [|reflexivity]. destruct (HP o eq_refl) as (c & ch & K). unfold take_pos, match_pos, take_pos_action. cbn [span_dash]. rewrite K. reflexivity.
Qed.

Definition dash_tok (d : bool) : list tok := map TDash (dash d).
Definition ends (d : bool) (inps : list str) (after : list said) : Prop := if d then after = [] else Forall plain inps.
Lemma read_sub_said P E o before d inps after fuel st :
  optionless P -> Forall (well_said P) before -> Forall (well_said P) after -> ends d inps after ->
  forallb (fun b => negb (is_word b)) before = true -> forallb (fun b => negb (is_word b)) after = true ->
  ((exists c, a_kind o = KMany c) /\ inps <> []) \/ ((exists c ch, a_kind o = KOne c ch) /\ List.length inps <= 1) ->
  List.length (flat_map toks before ++ dash_tok d ++ map TArg inps ++ flat_map toks after) < fuel ->
  read_sub fuel P E (Some o) (flat_map toks before ++ dash_tok d ++ map TArg inps ++ flat_map toks after) st =
  Some (match take_all E (acts help_opt before) st with
        | Quit c fs => Quit c fs
        | Go st1 => match (match inps with [] => Go st1 | _ => take_action E o (dash d ++ inps) st1 end) with
                    | Quit c fs => Quit c fs
                    | Go st2 => take_all E (acts help_opt after) st2
                    end
        end).
Proof.
  intros HM HB HA HI NB NA HK HF.
  destruct (read_sub_options P E (Some o) before _ fuel st HM HB NB HF) as (fuel' & F1 & ->).
  destruct (take_all E (acts help_opt before) st) as [st1|c fs]; [|reflexivity].
  destruct d; cbn [dash dash_tok map app ends] in *.
  { subst after. destruct fuel' as [|fuel']; [lia|]. cbn [flat_map acts map take_all]. rewrite app_nil_r.
    assert (NO : existsb is_option (TDash [45; 45]%N :: map TArg inps) = false).
    { cbn [existsb is_option orb]. clear. induction inps; [reflexivity|assumption]. }
    assert (SD : span_dash (TDash [45; 45]%N :: map TArg inps) = ([[45; 45]%N], map TArg inps)) by (cbn [span_dash]; destruct inps; reflexivity).
    assert (SN : span_any (map TArg inps) = (inps, [])) by (clear; induction inps as [|s l IH]; [reflexivity|cbn [map span_any]; rewrite IH; reflexivity]).
    cbn [read_sub]. rewrite NO. unfold take_pos, match_pos. rewrite SD. destruct inps as [|s l]; cbn [map] in *.
    - destruct HK as [(_ & HK)|((c & ch & K) & _)]; [destruct HK; reflexivity|]. rewrite K. unfold take_pos_action. rewrite K. cbn. rewrite app_nil_r. destruct st1; reflexivity.
    - assert (T : take_pos_action E o (@cons str [45; 45]%N (s :: l)) st1 = take_action E o (@cons str [45; 45]%N (s :: l)) st1) by (unfold take_pos_action; destruct (a_kind o); reflexivity).
      destruct HK as [((c & K) & _)|((c & ch & K) & HL)]; rewrite K; cbn [app].
      + cbn [span_any] in SN. destruct (span_any (map TArg l)) as [b r] eqn:SA. injection SN as -> ->. cbv beta iota zeta. cbn [app]. rewrite T.
        destruct (take_action E o _ st1) as [st2|]; [|reflexivity]. cbn [map]. rewrite app_nil_r. destruct st2; reflexivity.
      + destruct l; [|cbn in HL; lia]. cbn [map span_dash]. rewrite T.
        destruct (take_action E o _ st1) as [st2|]; [|reflexivity]. cbn [map]. rewrite app_nil_r. destruct st2; reflexivity. }
  destruct inps as [|s l].
  - destruct HK as [(_ & HK)|((c & ch & K) & _)]; [destruct HK; reflexivity|]. cbn [map app] in *.
    apply read_sub_end; try assumption. intros o' X. injection X as <-. eauto.
  - assert (M : match_pos o (map TArg (s :: l) ++ flat_map toks after) = Some (s :: l, flat_map toks after)).
    { apply match_pos_words; [assumption|]. destruct HK as [(HK & _)|(HK & HL)]; [auto|]. right. split; [assumption|]. destruct l; [reflexivity|cbn in HL; lia]. }
    assert (T : take_pos_action E o (s :: l) st1 = take_action E o (s :: l) st1).
    { unfold take_pos_action. destruct (a_kind o); try reflexivity.
      inversion HI as [|x y Hs Hl]; subst. cbn. unfold DASH. rewrite plain_dashes by assumption. reflexivity. }
    destruct fuel' as [|fuel']; [lia|]. cbn [read_sub]. unfold take_pos. rewrite M, T.
    rewrite existsb_app. replace (existsb is_option (map TArg (s :: l))) with false.
    2:{ symmetry. destruct (existsb is_option (map TArg (s :: l))) eqn:X; [|reflexivity]. apply existsb_exists in X as (t & Ht & X).
        apply in_map_iff in Ht as (y & <- & _). discriminate. }
    cbn [orb]. destruct (existsb is_option (flat_map toks after)) eqn:EX.
    + cbn [map app]. destruct (take_action E o (s :: l) st1) as [st2|c fs]; [|reflexivity].
      replace (List.length (flat_map toks after) <? List.length (TArg s :: map TArg l ++ flat_map toks after))%nat with true.
      2:{ symmetry. apply Nat.ltb_lt. cbn [List.length]. rewrite app_length. lia. }
      apply read_sub_end; try assumption; [|discriminate]. rewrite app_length in F1. cbn in F1. lia.
    + apply no_options in EX; [|assumption]. subst after. cbn [flat_map acts map take_all].
      destruct (take_action E o (s :: l) st1) as [st2|c fs]; [|reflexivity]. cbn [map]. rewrite app_nil_r. destruct st2; reflexivity.
Qed.

(** Values. *)
Lemma last_given_app d a b v : last_given d (a ++ b) v = last_given d b (last_given d a v).
Proof. revert v. induction a as [|[o w] a IH]; intros v; [reflexivity|]. cbn [app last_given]. apply IH. Qed.

Lemma agrees_app a b c x y : agrees a b x -> agrees b c y -> agrees a c (x ++ y).
Proof. intros H1 H2 d v Hd. rewrite last_given_app. apply H2, H1, Hd. Qed.

Lemma last_given_said {V} (f : pp_setting -> option V) (g : V -> value) d l v :
  (forall s, match f s with Some w => str_eqb (a_dest (opt_of s)) d = true /\ value_of s = g w | None => str_eqb (a_dest (opt_of s)) d = false end) ->
  last_given d (map asg l) (g v) = g (last_said f l v).
Proof.
  intros H. revert v. induction l as [|[[s n] j] l IH]; intros v; [reflexivity|]. cbn [map asg last_given last_said].
  specialize (H s). destruct (f s) as [w|]; [destruct H as [-> ->]; apply IH|rewrite H; apply IH].
Qed.

Lemma last_said_some {V} (f : pp_setting -> option (option V)) l v : last_said f l None = Some v -> exists s n j, In (s, n, j) l /\ f s = Some (Some v).
Proof.
  assert (X : forall l d, last_said f l d = Some v -> d = Some v \/ exists s n j, In (s, n, j) l /\ f s = Some (Some v)).
  { clear l. intros l. induction l as [|[[s n] j] l IH]; intros d; cbn [last_said]; [auto|]. intros H. destruct (IH _ H) as [Y|(s' & n' & j' & Y1 & Y2)].
    - destruct (f s) as [w|] eqn:F; [right; exists s, n, j; split; [left; reflexivity|congruence]|auto].
    - right. exists s', n', j'. split; [right; exact Y1|exact Y2]. }
  intros H. destruct (X _ _ H) as [Y|Y]; [discriminate|exact Y].
Qed.

Lemma pp_optionless c : optionless (pp_parser c).
Proof.
  intros o k Ho Hn. destruct c; cbn in Ho; repeat (destruct Ho as [<-|Ho]; [try discriminate; destruct Hn; reflexivity|]); destruct Ho.
Qed.

(** The value of the positional argument. *)
Inductive pos_value (c : pp_sub) (f : disk) : list str -> value -> Prop :=
| pos_stdin : pp_pos c = pp_inp_opt -> pos_value c f [] VStdin
| pos_dash : pp_pos c = pp_inp_opt -> pos_value c f [[45%N]] VStdin
| pos_file p : pp_pos c = pp_inp_opt -> p <> [45%N] -> f p <> None -> pos_value c f [p] (VIn p)
| pos_files inps : pp_pos c = pp_inps_opt -> inps <> [] -> pos_value c f inps (VMany (map VText inps)).

Lemma pos_action E c st d inps after v : named d inps after -> inps <> [] -> pos_value c (lookup (p_files st)) inps v ->
  take_action E (pp_pos c) (dash d ++ inps) st = Go (MkPstate (dset str_eqb (lit "inp") v (p_ns st)) (pp_pos c :: p_seen st) (p_files st) (p_extras st)).
Proof.
  intros HI HN HV.
  assert (RD : remove_dashes (dash d ++ inps) = inps).
  { destruct d; cbn [named dash app] in *; [reflexivity|]. clear - HI. induction HI as [|s l Hs _ IH]; [reflexivity|].
    cbn. unfold DASH. rewrite plain_dashes by assumption. f_equal. exact IH. }
  destruct HV as [Hc|Hc|p Hc Hp Hf|inps Hc Hi]; rewrite Hc; [destruct HN; reflexivity| | |].
  - unfold take_action. cbn [a_names a_kind pp_inp_opt]. rewrite RD. reflexivity.
  - unfold take_action. cbn [a_names a_kind pp_inp_opt]. rewrite RD. cbn [convert]. unfold DASH. apply str_eqb_neq in Hp. rewrite Hp.
    unfold lookup in Hf. destruct (dget str_eqb p (p_files st)); [reflexivity|destruct Hf; reflexivity].
  - unfold take_action. cbn [a_names a_kind pp_inps_opt].
    rewrite RD. assert (C : convert_all E CText inps (p_files st) = (Some (map VText inps), p_files st)).
    { clear. induction inps as [|s l IH]; [reflexivity|]. cbn [convert_all convert]. rewrite IH. reflexivity. }
    rewrite C. reflexivity.
Qed.

Lemma classify_line E c before d inps after : Forall (good E c) before -> Forall (good E c) after -> named d inps after ->
  classify (pp_parser c) (flat_map words_said before ++ dash d ++ inps ++ flat_map words_said after) =
  Some (flat_map toks (map given before) ++ dash_tok d ++ map TArg inps ++ flat_map toks (map given after)).
Proof.
  intros HB HA HI. destruct d; cbn [named dash dash_tok map app] in *.
  { subst after. cbn [flat_map map]. rewrite !app_nil_r.
    rewrite (classify_app _ _ _ (flat_map toks (map given before))); [cbn [classify]; reflexivity| |].
    - intros s Hs. rewrite in_flat_map in Hs. destruct Hs as (x & Hx & Hs). rewrite Forall_forall in HB. eapply said_word; eauto.
    - replace (flat_map words_said before) with (flat_map written (map given before)).
      + rewrite classify_all; [reflexivity|apply pp_parser_proper|]. apply Forall_map. eapply Forall_impl; [|exact HB]. intros x Hx. apply (given_said _ _ _ Hx).
      + clear - HB. induction HB as [|x l Hx _ IH]; [reflexivity|]. cbn [flat_map map]. destruct (given_said _ _ _ Hx) as (_ & -> & _). rewrite IH. reflexivity. }
  assert (W : forall l, Forall (good E c) l -> flat_map words_said l = flat_map written (map given l)).
  { intros l H. induction H as [|x l Hx _ IH]; [reflexivity|]. cbn [flat_map map]. destruct (given_said _ _ _ Hx) as (_ & -> & _). rewrite IH. reflexivity. }
  replace (flat_map words_said before ++ inps ++ flat_map words_said after)
    with (flat_map written (map given before ++ map Word inps ++ map given after)).
  2:{ rewrite !flat_map_app, <- !W by assumption. f_equal. f_equal. clear. induction inps as [|s l IH]; [reflexivity|]. cbn. f_equal. exact IH. }
  rewrite classify_all; [|apply pp_parser_proper|].
  - rewrite !flat_map_app. f_equal. f_equal. f_equal. clear. induction inps as [|s l IH]; [reflexivity|]. cbn. f_equal. exact IH.
  - assert (G : forall l, Forall (good E c) l -> Forall (well_said (pp_parser c)) (map given l)).
    { intros l H. apply Forall_map. eapply Forall_impl; [|exact H]. intros x Hx. apply (given_said _ _ _ Hx). }
    rewrite !Forall_app. split; [apply G, HB|]. split; [|apply G, HA]. apply Forall_map. exact HI.
Qed.

Lemma reads_keep l f p : f p <> None -> opens l f p <> None.
Proof. rewrite opens_opened. unfold opened. destruct (existsb _ l); [discriminate|auto]. Qed.

Lemma group_none c s : In s (pp_parser c) -> a_group s = None.
Proof. destruct c; cbn; intros H; repeat (destruct H as [<-|H]; [reflexivity|]); destruct H. Qed.

Lemma writes_none c o args E st st' : In o (pp_parser c) -> o <> pp_out_opt -> take_action E o args st = Go st' -> p_files st' = p_files st.
Proof.
  intros Ho Hn. unfold take_action. set (a := match a_names o with [] => _ | _ => _ end). clearbody a.
  assert (K : forall ch, a_kind o <> KOne CWrite ch /\ a_kind o <> KMany CWrite).
  { intros ch. destruct c; cbn in Ho; repeat (destruct Ho as [<-|Ho]; [try (destruct Hn; reflexivity); split; discriminate|]); destruct Ho. }
  assert (C : forall k s v fs, k <> CWrite -> convert E k s (p_files st) = Some (v, fs) -> fs = p_files st).
  { intros k s v fs Hk. destruct k; cbn [convert].
    - destruct (int_of_str s); [|discriminate]. intros H; injection H as _ <-; reflexivity.
    - destruct (e_float E s); [|discriminate]. intros H; injection H as _ <-; reflexivity.
    - intros H; injection H as _ <-; reflexivity.
    - destruct (str_eqb s [DASH]); [intros H; injection H as _ <-; reflexivity|]. destruct (dget str_eqb s (p_files st)); [|discriminate].
      intros H; injection H as _ <-; reflexivity.
    - destruct Hk; reflexivity. }
  assert (CA : forall k l r fs, k <> CWrite -> convert_all E k l (p_files st) = (r, fs) -> fs = p_files st).
  { intros k l. induction l as [|s l IH]; intros r fs Hk; cbn [convert_all]; [intros H; injection H as _ <-; reflexivity|].
    destruct (convert E k s (p_files st)) as [[v fs1]|] eqn:X; [|intros H; injection H as _ <-; reflexivity].
    rewrite (C _ _ _ _ Hk X). destruct (convert_all E k l (p_files st)) as [r' fs2] eqn:Y. intros H. injection H as _ <-. eapply IH; eauto. }
  destruct (a_kind o) as [k ch|k|b|].
  - assert (Hk : k <> CWrite) by (intros ->; destruct (K ch) as [K1 _]; apply K1; reflexivity).
    assert (ALL : match convert_all E k a (p_files st) with (None, fs) => Quit 2 fs
        | (Some vs, fs) => Go (MkPstate (dset str_eqb (a_dest o) (VMany vs) (p_ns st)) (o :: p_seen st) fs (p_extras st)) end = Go st' -> p_files st' = p_files st).
    { destruct (convert_all E k a (p_files st)) as [[vs|] fs] eqn:X; [|discriminate]. intros H; injection H as <-. eapply CA; eauto. }
    destruct a as [|s [|]]; [exact ALL| |exact ALL].
    destruct (convert E k s (p_files st)) as [[v fs]|] eqn:X; [|discriminate].
    destruct (match ch with None => true | Some l => existsb (str_eqb s) l end); [|discriminate]. intros H; injection H as <-. eapply C; eauto.
  - assert (Hk : k <> CWrite) by (intros ->; destruct (K None) as [_ K2]; apply K2; reflexivity).
    destruct (convert_all E k a (p_files st)) as [[vs|] fs] eqn:X; [|discriminate]. intros H; injection H as <-. eapply CA; eauto.
  - destruct (conflicts o (p_seen st)); [discriminate|]. intros H; injection H as <-. reflexivity.
  - discriminate.
Qed.

Lemma take_all_quiet c E l st st' : Forall (fun a => In (fst a) (pp_parser c) /\ fst a <> pp_out_opt) l ->
  take_all E l st = Go st' -> p_files st' = p_files st.
Proof.
  intros H. revert st. induction H as [|[o args] l [H1 H2] _ IH]; intros st; cbn [take_all]; [intros X; injection X as <-; reflexivity|].
  cbn [fst] in *. destruct (take_action E o args st) as [st1|] eqn:T; [|discriminate]. intros X. rewrite (IH _ X). eapply writes_none; eassumption.
Qed.

Lemma take_action_sets E o args st st' : take_action E o args st = Go st' ->
  a_kind o <> KQuit /\ exists v, p_ns st' = dset str_eqb (a_dest o) v (p_ns st) /\ p_seen st' = o :: p_seen st.
Proof.
  unfold take_action. set (a := match a_names o with [] => _ | _ => _ end). clearbody a. destruct (a_kind o) as [k ch|k|b|].
  - assert (ALL : match convert_all E k a (p_files st) with (None, fs) => Quit 2 fs
        | (Some vs, fs) => Go (MkPstate (dset str_eqb (a_dest o) (VMany vs) (p_ns st)) (o :: p_seen st) fs (p_extras st)) end = Go st' ->
        KOne k ch <> KQuit /\ exists v, p_ns st' = dset str_eqb (a_dest o) v (p_ns st) /\ p_seen st' = o :: p_seen st).
    { destruct (convert_all E k a (p_files st)) as [[vs|] fs]; [|discriminate]. intros H; injection H as <-. split; [discriminate|]. eexists. split; reflexivity. }
    destruct a as [|s [|]]; [exact ALL| |exact ALL]. destruct (convert E k s (p_files st)) as [[v fs]|]; [|discriminate].
    destruct (match ch with None => true | Some l => existsb (str_eqb s) l end); [|discriminate]. intros H; injection H as <-.
    split; [discriminate|]. eexists. split; reflexivity.
  - destruct (convert_all E k a (p_files st)) as [[vs|] fs]; [|discriminate]. intros H; injection H as <-. split; [discriminate|]. eexists. split; reflexivity.
  - destruct (conflicts o (p_seen st)); [discriminate|]. intros H; injection H as <-. split; [discriminate|]. eexists. split; reflexivity.
  - discriminate.
Qed.

(** Only options of the parser are seen, and nothing else gets a value. *)
Definition kept (P : list opt) (st st' : pstate) : Prop :=
  (Forall (fun o => In o P) (p_seen st) -> Forall (fun o => In o P) (p_seen st')) /\
  forall d, default_of d P = None -> dget str_eqb d (p_ns st') = dget str_eqb d (p_ns st).

Lemma default_none P o : In o P -> a_kind o <> KQuit -> default_of (a_dest o) P <> None.
Proof.
  induction P as [|q P IH]; intros H K; [destruct H|]. destruct H as [->|H]; cbn [default_of].
  - rewrite str_eqb_refl. destruct (a_kind o); try discriminate. destruct K; reflexivity.
  - destruct (match a_kind q with KQuit => false | _ => str_eqb (a_dest q) (a_dest o) end); [discriminate|apply IH; assumption].
Qed.

Lemma take_action_kept P E o args st st' : In o P -> take_action E o args st = Go st' -> kept P st st'.
Proof.
  intros Ho T. destruct (take_action_sets _ _ _ _ _ T) as (K & v & E1 & E2). split; [rewrite E2; intros H; constructor; assumption|].
  intros d Hd. rewrite E1. apply (dget_dset_other str_eqb str_eqb_eq). intros ->. apply (default_none P o Ho K), Hd.
Qed.

Lemma take_all_kept P E l st st' : Forall (fun a => In (fst a) P) l -> take_all E l st = Go st' -> kept P st st'.
Proof.
  intros H. revert st. induction H as [|[o args] l H1 _ IH]; intros st; cbn [take_all]; [intros X; injection X as <-; split; [auto|reflexivity]|].
  cbn [fst] in *. destruct (take_action E o args st) as [st1|] eqn:T; [|discriminate]. intros X.
  destruct (take_action_kept P _ _ _ _ _ H1 T) as [A1 A2]. destruct (IH _ X) as [B1 B2].
  split; [auto|]. intros d Hd. rewrite B2, A2 by assumption. reflexivity.
Qed.

Lemma given_acts E c l : Forall (good E c) l ->
  Forall (fun a => In (fst a) (pp_parser c)) (acts help_opt (map given l)) /\
  (c <> SEncode -> c <> SDecode -> Forall (fun a => In (fst a) (pp_parser c) /\ fst a <> pp_out_opt) (acts help_opt (map given l))).
Proof.
  intros H. unfold acts. rewrite map_map. split; [|intros N1 N2]; apply Forall_map; (eapply Forall_impl; [|exact H]); intros [[s n] j] (Hh & _); cbn [given fst].
  - apply opt_in, Hh.
  - split; [apply opt_in, Hh|]. destruct s; cbn [has] in Hh; try discriminate. destruct Hh as [->| ->]; congruence.
Qed.

Lemma given_options l : forallb (fun b => negb (is_word b)) (map given l) = true.
Proof. apply forallb_forall. intros b Hb. apply in_map_iff in Hb as ([[s n] j] & <- & _). reflexivity. Qed.

(** One run of options. *)
Lemma options_taken E c l st : Forall (good E c) l -> Forall (fun o => In o (pp_parser c)) (p_seen st) ->
  exists st', take_all E (acts help_opt (map given l)) st = Go st' /\ (forall p, lookup (p_files st') p = opens l (lookup (p_files st)) p) /\
    p_extras st' = p_extras st /\ agrees (p_ns st) (p_ns st') (map asg l) /\
    (forall x, In x l -> In (fst (asg x)) (p_seen st')) /\ (forall o, In o (p_seen st) -> In o (p_seen st')) /\
    kept (pp_parser c) st st' /\ (c <> SEncode -> c <> SDecode -> p_files st' = p_files st).
Proof.
  intros H HS. destruct (given_acts _ _ _ H) as [G1 G2].
  rewrite (acts_given help_opt pp_inp_opt) in * by apply given_options.
  assert (W : Forall (well_said (pp_parser c)) (map given l)).
  { apply Forall_map. eapply Forall_impl; [|exact H]. intros x Hx. apply (given_said _ _ _ Hx). }
  destruct (take_asks (pp_parser c) E pp_inp_opt _ _ _ _ st (asks_spoken E c pp_inp_opt l (lookup (p_files st)) H) W (pp_parser_proper c) eq_refl (fun p => eq_refl))
    as (st' & T & E2 & E3 & E4 & E5 & E6).
  { intros o p g Ho _ Hg _. exfalso. assert (X : In o (pp_parser c)).
    { apply in_app_iff in Ho as [Ho|Ho]; [rewrite Forall_forall in HS; apply HS, Ho|].
      rewrite map_map in Ho. apply in_map_iff in Ho as ([[s n] j] & <- & Ho). rewrite Forall_forall in H. destruct (H _ Ho) as (Hh & _). apply opt_in, Hh. }
    rewrite (group_none _ _ X) in Hg. discriminate. }
  exists st'. split; [exact T|]. split; [exact E2|]. split; [exact E3|]. split; [exact E4|]. split.
  { intros x Hx. apply E5. rewrite map_map. apply in_map_iff. exists x. auto. }
  split; [exact E6|]. split; [exact (take_all_kept _ _ _ _ _ G1 T)|]. intros N1 N2. exact (take_all_quiet c E _ _ _ (G2 N1 N2) T).
Qed.

(** The line is read as it says. *)
Lemma line_parsed E fs c before db inps after v :
  Forall (good E c) before -> Forall (good E c) after -> named db inps after ->
  vocab_said (before ++ after) <> None -> enough c (before ++ after) -> pos_value c (lookup fs) inps v ->
  exists ns fs', pp_parse E fs (line c before db inps after) = inl (Some (c, Parsed ns fs')) /\
    (forall p, lookup fs' p = opened (before ++ after) (lookup fs) p) /\
    (c <> SEncode -> c <> SDecode -> fs' = fs) /\
    get ns "inp" = Some v /\
    (forall d w, str_eqb (lit "inp") (lit d) = false -> default_of (lit d) (pp_parser c) = Some w -> get ns d = Some (last_given (lit d) (map asg (before ++ after)) w)) /\
    (forall d, default_of d (pp_parser c) = None -> dget str_eqb d ns = None).
Proof.
  intros HB HA HI HV HQ HP. rewrite (line_main E) by assumption. unfold parse_sub. rewrite (classify_line E) by assumption.
  set (st0 := MkPstate (defaults (pp_parser c) []) [] fs []).
  assert (G : forall l, Forall (good E c) l -> Forall (well_said (pp_parser c)) (map given l)).
  { intros l H. apply Forall_map. eapply Forall_impl; [|exact H]. intros x Hx. apply (given_said _ _ _ Hx). }
  assert (EN : ends db inps (map given after)) by (destruct db; [cbn in HI |- *; subst after; reflexivity|exact HI]).
  rewrite read_sub_said; try assumption; try apply given_options; try apply pp_optionless; try (apply G; assumption); [| |apply Nat.lt_succ_diag_r].
  2:{ destruct HP as [Hc|Hc|p Hc _ _|inps Hc Hi]; rewrite Hc; [right|right|right|left]; (split; [repeat eexists|cbn; lia || assumption]). }
  destruct (options_taken E c before st0 HB (Forall_nil _)) as (st1 & -> & A2 & A3 & A4 & A5 & A6 & A7 & A8).
  assert (S1 : Forall (fun o => In o (pp_parser c)) (p_seen st1)) by (apply A7; constructor).
  assert (POS : In (pp_pos c) (pp_parser c)) by (cbn; tauto).
  assert (MID : exists st2, match inps with [] => Go st1 | _ => take_action E (pp_pos c) (dash db ++ inps) st1 end = Go st2 /\
     p_files st2 = p_files st1 /\ p_extras st2 = p_extras st1 /\ Forall (fun o => In o (pp_parser c)) (p_seen st2) /\
     (forall o, In o (p_seen st1) -> In o (p_seen st2)) /\ (pp_pos c = pp_inps_opt -> In (pp_pos c) (p_seen st2)) /\
     (forall d, default_of d (pp_parser c) = None -> dget str_eqb d (p_ns st2) = dget str_eqb d (p_ns st1)) /\
     (forall d, str_eqb (lit "inp") d = false -> dget str_eqb d (p_ns st2) = dget str_eqb d (p_ns st1)) /\
     dget str_eqb (lit "inp") (p_ns st2) = Some v).
  { destruct inps as [|s l].
    - inversion HP as [Hc| | |? Hc Hi]; subst; [|destruct Hi; reflexivity]. exists st1. repeat split; auto.
      + rewrite Hc. discriminate.
      + assert (D : default_of (lit "inp") (pp_parser c) = Some VStdin) by (destruct c; try discriminate Hc; reflexivity).
        assert (D0 : dget str_eqb (lit "inp") (p_ns st0) = Some VStdin) by (unfold st0; cbn [p_ns]; rewrite defaults_get; exact D).
        rewrite (A4 _ _ D0). f_equal. clear. induction before as [|[[s n] j] l IH]; [reflexivity|]. cbn [map asg last_given]. destruct s; exact IH.
    - assert (HP' : pos_value c (lookup (p_files st1)) (s :: l) v).
      { destruct HP as [Hc|Hc|p Hc Hp Hf|inps Hc Hi]; constructor; try assumption. rewrite A2. apply reads_keep. exact Hf. }
      pose proof (pos_action E c st1 db (s :: l) after v HI ltac:(discriminate) HP') as T.
      eexists. split; [exact T|]. cbn [p_files p_extras p_seen p_ns]. split; [reflexivity|]. split; [reflexivity|].
      split; [constructor; assumption|]. split; [intros o Ho; right; exact Ho|]. split; [left; reflexivity|].
      split; [|split; [|apply (dget_dset_same str_eqb str_eqb_eq)]].
      + intros d Hd. apply (dget_dset_other str_eqb str_eqb_eq). intros ->. revert Hd. destruct c; discriminate.
      + intros d Hd. apply (dget_dset_other str_eqb str_eqb_eq). intros ->. rewrite str_eqb_refl in Hd. discriminate. }
  destruct MID as (st2 & -> & B1 & B2 & B3 & B4 & B5 & B6 & B7 & B8).
  destruct (options_taken E c after st2 HA B3) as (st3 & -> & C2 & C3 & C4 & C5 & C6 & C7 & C8).
  assert (SEEN : forall x, In x (before ++ after) -> In (fst (asg x)) (p_seen st3)).
  { intros x Hx. apply in_app_iff in Hx as [Hx|Hx]; [apply C6, B4, A5, Hx|apply C5, Hx]. }
  replace (existsb _ (pp_parser c)) with false.
  2:{ symmetry. destruct (existsb _ (pp_parser c)) eqn:X; [|reflexivity]. apply existsb_exists in X as (o & Ho & X). exfalso.
      apply andb_true_iff in X as [X1 X2]. apply negb_true_iff in X2.
      assert (Y : In o (p_seen st3)).
      { assert (R : o = pp_vocab_opt \/ (o = pp_vs1_opt /\ (c = SLearn1 \/ c = SLearn)) \/ (o = pp_vs2_opt /\ (c = SLearn2 \/ c = SLearn)) \/
                    (o = pp_vf1_opt /\ c = SLearn2) \/ (o = pp_pos c /\ pp_pos c = pp_inps_opt)).
        { clear - Ho X1. destruct c; cbn in Ho; repeat (destruct Ho as [<-|Ho]; [try discriminate X1; tauto|]); destruct Ho. }
        destruct HQ as (Q1 & Q2 & Q3). destruct R as [->|[(-> & R)|[(-> & R)|[(-> & R)|(-> & R)]]]].
        - destruct (vocab_said (before ++ after)) as [p|] eqn:V; [|destruct HV; reflexivity].
          destruct (last_said_some _ _ _ V) as (s & n & j & I1 & I2). destruct s; try discriminate I2. exact (SEEN _ I1).
        - specialize (Q1 R). destruct (vs1_said (before ++ after)) as [p|] eqn:V; [|destruct Q1; reflexivity].
          destruct (last_said_some _ _ _ V) as (s & n & j & I1 & I2). destruct s; try discriminate I2. exact (SEEN _ I1).
        - specialize (Q2 R). destruct (vs2_said (before ++ after)) as [p|] eqn:V; [|destruct Q2; reflexivity].
          destruct (last_said_some _ _ _ V) as (s & n & j & I1 & I2). destruct s; try discriminate I2. exact (SEEN _ I1).
        - specialize (Q3 R). destruct (vocab_l1_said (before ++ after)) as [p|] eqn:V; [|destruct Q3; reflexivity].
          destruct (last_said_some _ _ _ V) as (s & n & j & I1 & I2). destruct s; try discriminate I2. exact (SEEN _ I1).
        - apply C6, B5, R. }
      assert (existsb (same_opt o) (p_seen st3) = true) as Z by (apply existsb_exists; exists o; split; [exact Y|apply same_opt_refl]).
      rewrite Z in X2. discriminate. }
  rewrite C3, B2, A3. cbn [p_extras st0]. exists (p_ns st3), (p_files st3). split; [reflexivity|].
  split.
  { intros p. rewrite C2, <- (opens_opened (before ++ after)), opens_app, B1.
    rewrite !opens_opened. unfold opened at 1 2. destruct (existsb _ after); [reflexivity|]. apply A2. }
  split.
  { intros N1 N2. rewrite C8, B1, A8 by assumption. reflexivity. }
  split.
  { unfold get. rewrite (C4 _ _ B8). f_equal. clear. induction after as [|[[s n] j] l IH]; [reflexivity|]. cbn [map asg last_given]. destruct s; exact IH. }
  split.
  - intros d w Hd Hw. unfold get. assert (D0 : dget str_eqb (lit d) (p_ns st0) = Some w) by (unfold st0; cbn [p_ns]; rewrite defaults_get; exact Hw).
    pose proof (A4 _ _ D0) as D1. rewrite <- B7 in D1 by exact Hd. rewrite (C4 _ _ D1), map_app, last_given_app. reflexivity.
  - intros d Hd. destruct C7 as [_ C7]. destruct A7 as [_ A7]. rewrite C7, B6, A7 by assumption. unfold st0. cbn [p_ns]. rewrite defaults_get. exact Hd.
Qed.
