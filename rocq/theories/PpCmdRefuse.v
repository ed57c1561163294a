(** Lines of bpepp.py that lack something or have a word too many are refused. *)
From Coq Require Import Strings.String Lia.
From Verif Require Import Py PyStr PyLemmas NumProofs BpeppModel ArgModel ArgSpec ArgProofs ArgSound CmdModel CmdProofs PpArgModel PpCmdSpec PpCmdProofs PpCmdAny.
Local Open Scope list_scope.

Lemma take_all_seen E l st st' : take_all E l st = Go st' -> forall o, In o (p_seen st') -> In o (map fst l) \/ In o (p_seen st).
Proof.
  revert st. induction l as [|[o args] l IH]; intros st; cbn [take_all]; [intros X; injection X as <-; auto|].
  destruct (take_action E o args st) as [st1|] eqn:T; [|discriminate]. intros X q Hq.
  destruct (take_action_sets _ _ _ _ _ T) as (_ & v & _ & S1). destruct (IH _ X q Hq) as [H|H]; [left; right; exact H|].
  rewrite S1 in H. destruct H as [<-|H]; [left; left; reflexivity|right; exact H].
Qed.

Lemma take_action_quits E o args st c fs : a_kind o <> KQuit -> take_action E o args st = Quit c fs -> c = 2%Z.
Proof.
  intros K. unfold take_action. set (a := match a_names o with [] => _ | _ => _ end). clearbody a. destruct (a_kind o) as [k ch|k|b|].
  - assert (ALL : match convert_all E k a (p_files st) with (None, fs) => Quit 2 fs
        | (Some vs, fs) => Go (MkPstate (dset str_eqb (a_dest o) (VMany vs) (p_ns st)) (o :: p_seen st) fs (p_extras st)) end = Quit c fs -> c = 2%Z).
    { destruct (convert_all E k a (p_files st)) as [[vs|] fs']; [discriminate|]. intros H; injection H as <- _. reflexivity. }
    destruct a as [|s [|]]; [exact ALL| |exact ALL]. destruct (convert E k s (p_files st)) as [[v fs']|]; [|intros H; injection H as <- _; reflexivity].
    destruct (match ch with None => true | Some l => existsb (str_eqb s) l end); [discriminate|]. intros H; injection H as <- _. reflexivity.
  - destruct (convert_all E k a (p_files st)) as [[vs|] fs']; [discriminate|]. intros H; injection H as <- _. reflexivity.
  - destruct (conflicts o (p_seen st)); [intros H; injection H as <- _; reflexivity|discriminate].
  - destruct K; reflexivity.
Qed.

Lemma last_said_none {V} (f : pp_setting -> option (option V)) l : (forall s, f s <> Some None) -> last_said f l None = None ->
  forall s n j v, In (s, n, j) l -> f s <> Some (Some v).
Proof.
  intros HN.
  assert (K : forall l d, d <> None -> last_said f l d <> None).
  { clear l. induction l as [|[[s n] j] l IH]; intros d Hd; cbn [last_said]; [exact Hd|].
    apply IH. specialize (HN s). destruct (f s) as [[v|]|]; [discriminate|congruence|exact Hd]. }
  induction l as [|[[s0 n0] j0] l IH]; intros H s n j v Hi Hf; [destruct Hi|]. cbn [last_said] in H. destruct Hi as [X|Hi].
  - injection X as -> -> ->. rewrite Hf in H. apply (K l (Some v)); [discriminate|exact H].
  - destruct (f s0) as [[w|]|] eqn:F; [apply (K l (Some w)) in H; [exact H|discriminate]|destruct (HN _ F)|exact (IH H s n j v Hi Hf)].
Qed.

Lemma in_given o l : In o (map fst (acts help_opt (map given l))) -> exists x, In x l /\ o = opt_of (fst (fst x)).
Proof.
  unfold acts. rewrite !map_map. intros H. apply in_map_iff in H as ([[s n] j] & <- & Hx). exists (s, n, j). split; [exact Hx|reflexivity].
Qed.

Lemma read_sub_nothing P E o bs fuel st c :
  optionless P -> Forall (well_said P) bs -> forallb (fun b => negb (is_word b)) bs = true -> List.length (flat_map toks bs) < fuel -> a_kind o = KMany c ->
  read_sub fuel P E (Some o) (flat_map toks bs) st = Some (take_all E (acts help_opt bs) st).
Proof.
  intros HM HW HN HF HP. destruct (read_sub_options P E (Some o) bs [] fuel st HM HW HN) as (fuel' & F1 & F2); [rewrite app_nil_r; exact HF|].
  rewrite app_nil_r in F2. rewrite F2. destruct (take_all E (acts help_opt bs) st) as [st'|z fs]; [|reflexivity].
  destruct fuel' as [|fuel']; [lia|]. cbn [read_sub existsb]. unfold take_pos, match_pos. cbn [span_dash]. rewrite HP.
  cbn [map]. rewrite app_nil_r. destruct st'; reflexivity.
Qed.

Lemma span_words_args l bs : forallb (fun b => negb (is_word b)) bs = true -> bs <> [] ->
  span_words (map TArg l ++ flat_map toks bs) = (l, flat_map toks bs).
Proof.
  intros H N. induction l as [|s l IH]; cbn [map app span_words]; [|rewrite IH; reflexivity].
  destruct bs as [|[s|o n args []] bs]; cbn in H; try discriminate H; [destruct N; reflexivity|reflexivity|reflexivity].
Qed.

(** Too many words for an argument that takes one. *)
Lemma read_sub_many E c before s s2 l after fs :
  pp_pos c = pp_inp_opt -> Forall (good E c) before -> Forall (good E c) after -> plain s ->
  let ts := flat_map toks (map given before) ++ map TArg (s :: s2 :: l) ++ flat_map toks (map given after) in
  match read_sub (S (List.length ts)) (pp_parser c) E (Some (pp_pos c)) ts (MkPstate (defaults (pp_parser c) []) [] fs []) with
  | None => False
  | Some (Quit z _) => z = 2%Z
  | Some (Go st) => p_extras st <> []
  end.
Proof.
  intros Hc HB HA Hs ts.
  assert (G : forall l, Forall (good E c) l -> Forall (well_said (pp_parser c)) (map given l)).
  { intros k H. apply Forall_map. eapply Forall_impl; [|exact H]. intros x Hx. apply (given_said _ _ _ Hx). }
  set (st0 := MkPstate (defaults (pp_parser c) []) [] fs []).
  destruct (read_sub_options (pp_parser c) E (Some (pp_pos c)) (map given before) (map TArg (s :: s2 :: l) ++ flat_map toks (map given after))
    (S (List.length ts)) st0 (pp_optionless c) (G _ HB) (given_options _)) as (fuel' & F1 & F2); [unfold ts; lia|].
  fold ts in F2. rewrite F2. clear F2.
  destruct (options_taken E c before st0 HB (Forall_nil _)) as (st1 & -> & A2 & A3 & A4 & A5 & A6 & A7 & A8).
  assert (S1 : Forall (fun o => In o (pp_parser c)) (p_seen st1)) by (apply A7; constructor).
  destruct fuel' as [|fuel']; [lia|].
  assert (T : take_pos E (Some (pp_pos c)) (map TArg (s :: s2 :: l) ++ flat_map toks (map given after)) st1 =
     match take_action E (pp_pos c) [s] st1 with Quit z fs => Quit z fs | Go st' => Go (st', None, map TArg (s2 :: l) ++ flat_map toks (map given after)) end).
  { unfold take_pos, match_pos, take_pos_action. rewrite Hc. cbn [map app span_dash a_kind pp_inp_opt]. cbn [remove_dashes].
    replace (str_eqb s [DASH; DASH]) with false by (symmetry; apply plain_dashes, Hs). reflexivity. }
  cbn [read_sub]. rewrite T. rewrite existsb_app. replace (existsb is_option (map TArg (s :: s2 :: l))) with false.
  2:{ symmetry. destruct (existsb is_option (map TArg (s :: s2 :: l))) eqn:X; [|reflexivity]. apply existsb_exists in X as (t & Ht & X).
      apply in_map_iff in Ht as (y & <- & _). discriminate. }
  assert (KQ : a_kind (pp_pos c) <> KQuit) by (rewrite Hc; discriminate).
  destruct (take_action E (pp_pos c) [s] st1) as [st2|z fs2] eqn:TA.
  2:{ apply take_action_quits in TA; [|exact KQ]. subst z. cbn [orb map app]. destruct (existsb is_option _); reflexivity. }
  cbn [orb]. destruct (existsb is_option (flat_map toks (map given after))) eqn:EX.
  - assert (NE : map given after <> []) by (intros X; rewrite X in EX; discriminate).
    cbn [map app]. replace (List.length (TArg s2 :: map TArg l ++ flat_map toks (map given after)) <? List.length (TArg s :: TArg s2 :: map TArg l ++ flat_map toks (map given after)))%nat with true.
    2:{ symmetry. apply Nat.ltb_lt. cbn [List.length]. lia. }
    destruct fuel' as [|fuel']; [cbn in F1; lia|]. cbn [read_sub existsb is_option]. rewrite existsb_app, EX, orb_true_r. cbn [orb].
    cbn [take_pos]. rewrite Nat.ltb_irrefl.
    change (TArg s2 :: map TArg l ++ flat_map toks (map given after)) with (map TArg (s2 :: l) ++ flat_map toks (map given after)).
    rewrite span_words_args; [|apply given_options|exact NE].
    rewrite read_sub_end; [|apply pp_optionless|apply G, HA|apply given_options| |discriminate].
    2:{ cbn in F1. rewrite app_length in F1. lia. }
    destruct (take_action_kept (pp_parser c) E _ _ _ _ (or_intror (or_intror (or_introl eq_refl))) TA) as [K1 _].
    match goal with |- context [take_all E _ ?st] => destruct (options_taken E c after st HA (K1 S1)) as (st3 & -> & _ & X3 & _) end.
    rewrite X3. cbn [p_extras]. destruct (p_extras st2); discriminate.
  - apply no_options in EX; [|apply given_options]. rewrite EX. cbn [p_extras flat_map map app]. destruct (p_extras st2); discriminate.
Qed.

Lemma unfit_parse E fs c before inps after : Forall (good E c) before -> Forall (good E c) after -> Forall plain inps -> unfit c (before ++ after) inps ->
  exists fs', pp_parse E fs (line c before false inps after) = inl (Some (c, Exited 2 fs')).
Proof.
  intros HB HA HI HU. rewrite (line_main E) by assumption. unfold parse_sub. rewrite (classify_line E) by assumption. cbn [dash_tok dash map app].
  assert (G : forall l, Forall (good E c) l -> Forall (well_said (pp_parser c)) (map given l)).
  { intros l H. apply Forall_map. eapply Forall_impl; [|exact H]. intros x Hx. apply (given_said _ _ _ Hx). }
  assert (MANY : (c = SEncode \/ c = SDecode) /\ 2 <= List.length inps \/ ~ ((c = SEncode \/ c = SDecode) /\ 2 <= List.length inps)).
  { destruct (Nat.le_gt_cases 2 (List.length inps)); [|right; intros [_ X]; lia]. destruct c; tauto || (right; intros [[X|X] _]; discriminate). }
  destruct MANY as [[Hc HL]|NM].
  { assert (PC : pp_pos c = pp_inp_opt) by (destruct Hc as [->| ->]; reflexivity).
    destruct inps as [|s [|s2 l]]; try (cbn in HL; lia). inversion HI as [|x y Hs _]; subst.
    pose proof (read_sub_many E c before s s2 l after fs PC HB HA Hs) as R. cbn zeta in R.
    destruct (read_sub _ (pp_parser c) E (Some (pp_pos c)) _ _) as [[st|z fs']|]; [| |destruct R].
    - destruct (existsb _ (pp_parser c)); [eexists; reflexivity|]. destruct (p_extras st); [destruct R; reflexivity|eexists; reflexivity].
    - subst z. eexists. reflexivity. }
  set (st0 := MkPstate (defaults (pp_parser c) []) [] fs []).
  (* the options seen are those said *)
  assert (SEEN : exists r, read_sub (S (List.length (flat_map toks (map given before) ++ map TArg inps ++ flat_map toks (map given after)))) (pp_parser c) E (Some (pp_pos c))
       (flat_map toks (map given before) ++ map TArg inps ++ flat_map toks (map given after)) st0 = Some r /\
     match r with
     | Quit z _ => z = 2%Z
     | Go st => forall o, In o (p_seen st) -> (exists x, In x (before ++ after) /\ o = opt_of (fst (fst x))) \/ (o = pp_pos c /\ inps <> [])
     end).
  { assert (FIT : ((exists k, a_kind (pp_pos c) = KMany k) /\ inps <> []) \/ ((exists k ch, a_kind (pp_pos c) = KOne k ch) /\ List.length inps <= 1) \/
                  ((exists k, a_kind (pp_pos c) = KMany k) /\ inps = [])).
    { destruct c; cbn [pp_pos]; try (destruct inps; [right; right|left]; (split; [eexists; reflexivity|congruence])); right; left;
        (split; [do 2 eexists; reflexivity|]); (destruct (Nat.le_gt_cases 2 (List.length inps)); [tauto|lia]). }
    assert (ALL : inps = [] -> (exists k, a_kind (pp_pos c) = KMany k) ->
       exists st, read_sub (S (List.length (flat_map toks (map given before) ++ map TArg inps ++ flat_map toks (map given after)))) (pp_parser c) E (Some (pp_pos c))
       (flat_map toks (map given before) ++ map TArg inps ++ flat_map toks (map given after)) st0 = Some (Go st) /\
       forall o, In o (p_seen st) -> exists x, In x (before ++ after) /\ o = opt_of (fst (fst x))).
    { intros -> (k & K). cbn [map app]. rewrite <- flat_map_app, <- map_app.
      assert (HBA : Forall (good E c) (before ++ after)) by (apply Forall_app; split; assumption).
      rewrite (read_sub_nothing _ _ _ _ _ _ k (pp_optionless c) (G _ HBA) (given_options _) (Nat.lt_succ_diag_r _) K).
      destruct (options_taken E c _ st0 HBA (Forall_nil _)) as (st1 & T & _). rewrite T. exists st1. split; [reflexivity|].
      intros o Ho. destruct (take_all_seen _ _ _ _ T o Ho) as [H|[]]. apply in_given, H. }
    destruct FIT as [F|[F|[F ->]]].
    3:{ destruct (ALL eq_refl F) as (st & H1 & H2). exists (Go st). split; [exact H1|]. intros o Ho. left. apply H2, Ho. }
    all: pose proof (fun st => read_sub_said (pp_parser c) E (pp_pos c) (map given before) false inps (map given after) (S (List.length (flat_map toks (map given before) ++ map TArg inps ++ flat_map toks (map given after)))) st) as RS; cbn [dash_tok dash map app ends] in RS.
    all: rewrite RS; clear RS; try assumption; try apply given_options; try apply pp_optionless; try (apply G; assumption); try (apply Nat.lt_succ_diag_r); try tauto.
    all: eexists; split; [reflexivity|].
    all: destruct (options_taken E c before st0 HB (Forall_nil _)) as (st1 & T1 & _ & _ & _ & _ & _ & A7 & _); rewrite T1.
    all: assert (S1 : Forall (fun o => In o (pp_parser c)) (p_seen st1)) by (apply A7; constructor).
    all: assert (KQ : a_kind (pp_pos c) <> KQuit) by (destruct c; discriminate).
    all: assert (MID : match (match inps with [] => Go st1 | _ => take_action E (pp_pos c) inps st1 end) with
       | Quit z _ => z = 2%Z
       | Go st2 => Forall (fun o => In o (pp_parser c)) (p_seen st2) /\ forall o, In o (p_seen st2) -> In o (p_seen st1) \/ (o = pp_pos c /\ inps <> [])
       end).
    1,3: destruct inps as [|s l]; [split; [exact S1|auto]|]; destruct (take_action E (pp_pos c) (s :: l) st1) as [st2|z fs2] eqn:TA;
      [|exact (take_action_quits _ _ _ _ _ _ KQ TA)];
      destruct (take_action_kept (pp_parser c) E _ _ _ _ (or_intror (or_intror (or_introl eq_refl))) TA) as [K1 _]; split; [exact (K1 S1)|];
      destruct (take_action_sets _ _ _ _ _ TA) as (_ & v & _ & ->); intros o [<-|Ho]; [right; split; [reflexivity|discriminate]|left; exact Ho].
    all: destruct (match inps with [] => Go st1 | _ => take_action E (pp_pos c) inps st1 end) as [st2|z fs2]; [|exact MID].
    all: destruct MID as [S2 M2]; destruct (options_taken E c after st2 HA S2) as (st3 & T3 & _); rewrite T3.
    all: intros o Ho; destruct (take_all_seen _ _ _ _ T3 o Ho) as [H|H];
      [left; destruct (in_given _ _ H) as (x & Hx & Ex); exists x; split; [apply in_app_iff; right; exact Hx|exact Ex]|].
    all: destruct (M2 o H) as [H'|H']; [|right; exact H'].
    all: destruct (take_all_seen _ _ _ _ T1 o H') as [H''|[]]; left; destruct (in_given _ _ H'') as (x & Hx & Ex); exists x; split; [apply in_app_iff; left; exact Hx|exact Ex]. }
  destruct SEEN as (r & -> & HR). destruct r as [st|z fs']; [|subst z; eexists; reflexivity].
  assert (REQ : forall o, In o (pp_parser c) -> a_required o = true -> (forall q, In q (p_seen st) -> same_opt o q = false) ->
    existsb (fun o => a_required o && negb (existsb (same_opt o) (p_seen st))) (pp_parser c) = true).
  { intros o Ho Hr Hq. apply existsb_exists. exists o. split; [exact Ho|]. rewrite Hr. cbn [andb]. apply negb_true_iff.
    destruct (existsb (same_opt o) (p_seen st)) eqn:X; [|reflexivity]. apply existsb_exists in X as (q & H1 & H2). rewrite (Hq q H1) in H2. discriminate. }
  assert (X : existsb (fun o => a_required o && negb (existsb (same_opt o) (p_seen st))) (pp_parser c) = true).
  2:{ rewrite X. eexists. reflexivity. }
  assert (ONE : forall o (f : pp_setting -> bool), In o (pp_parser c) -> a_required o = true -> same_opt o pp_inp_opt = false -> same_opt o pp_inps_opt = false ->
     (forall s, f s = false -> same_opt o (opt_of s) = false) -> (forall s n j, In (s, n, j) (before ++ after) -> f s = false) ->
     existsb (fun o => a_required o && negb (existsb (same_opt o) (p_seen st))) (pp_parser c) = true).
  { intros o f H1 H2 H3 H4 H5 H6. apply (REQ o H1 H2). intros q Hq. destruct (HR q Hq) as [([[s n] j] & Hx & ->)|[-> _]]; [apply H5, (H6 _ _ _ Hx)|].
    destruct c; assumption. }
  destruct HU as [U|[[Uc U]|[[Uc U]|[[Uc U]|[(N1 & N2 & U)|U]]]]].
  - apply (ONE pp_vocab_opt (fun s => match s with SVocab _ => true | _ => false end)); try reflexivity; [cbn; tauto|intros [] H; try discriminate H; reflexivity|].
    intros s n j Hi. destruct s; try reflexivity. exfalso. refine (last_said_none _ _ _ U _ _ _ _ Hi eq_refl). intros []; discriminate.
  - apply (ONE pp_vs1_opt (fun s => match s with SVs1 _ => true | _ => false end)); try reflexivity; [destruct Uc as [->| ->]; cbn; tauto|intros [] H; try discriminate H; reflexivity|].
    intros s n j Hi. destruct s; try reflexivity. exfalso. refine (last_said_none _ _ _ U _ _ _ _ Hi eq_refl). intros []; discriminate.
  - apply (ONE pp_vs2_opt (fun s => match s with SVs2 _ => true | _ => false end)); try reflexivity; [destruct Uc as [->| ->]; cbn; tauto|intros [] H; try discriminate H; reflexivity|].
    intros s n j Hi. destruct s; try reflexivity. exfalso. refine (last_said_none _ _ _ U _ _ _ _ Hi eq_refl). intros []; discriminate.
  - apply (ONE pp_vf1_opt (fun s => match s with SVocabL1 _ => true | _ => false end)); try reflexivity; [subst c; cbn; tauto|intros [] H; try discriminate H; reflexivity|].
    intros s n j Hi. destruct s; try reflexivity. exfalso. refine (last_said_none _ _ _ U _ _ _ _ Hi eq_refl). intros []; discriminate.
  - apply (REQ (pp_pos c)); [cbn; tauto|destruct c; congruence || reflexivity|]. intros q Hq. destruct (HR q Hq) as [([[s n] j] & Hx & ->)|[_ H]]; [|destruct H; exact U].
    cbn [fst]. destruct c, s; try reflexivity; congruence.
  - destruct NM. exact U.
Qed.

Lemma unfit_line W fs stdin c before inps after :
  Forall (good (w_env W) c) before -> Forall (good (w_env W) c) after -> Forall plain inps -> unfit c (before ++ after) inps ->
  exists e, pp_program W fs stdin (line c before false inps after) = Some e /\ x_status e = 2%Z /\ refused fs (line c before false inps after) e.
Proof.
  intros HB HA HI HU. destruct (unfit_parse (w_env W) fs c before inps after HB HA HI HU) as (fs' & P).
  destruct (pp_ends W fs stdin (line c before false inps after)) as (e & H1 & H2). rewrite P in H2. exists e. split; [exact H1|]. split; [|exact H2].
  unfold pp_program in H1. rewrite P in H1. injection H1 as <-. reflexivity.
Qed.
