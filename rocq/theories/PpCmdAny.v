(** Any command line of bpepp: parsing ends, and only files named on the line change. *)
From Coq Require Import Strings.String Lia.
From Verif Require Import Py PyStr PyLemmas NumProofs BpeppModel ArgModel ArgSpec ArgProofs ArgSound CmdModel CmdProofs PpArgModel PpCmdSpec PpCmdProofs.
Local Open Scope list_scope.

Lemma span_any_ok P W ts a r : Forall (tok_ok P W) ts -> span_any ts = (a, r) ->
  (forall s, In s a -> from W s) /\ Forall (tok_ok P W) r /\ List.length r <= List.length ts.
Proof.
  intros H. revert a r. induction H as [|t ts Ht H IH]; intros a r Ha; cbn [span_any] in Ha.
  - injection Ha as <- <-. repeat split; try constructor. intros s [].
  - destruct t as [s|s|o n eq att raw].
    + destruct (span_any ts) as [a' r'] eqn:S. injection Ha as <- <-. destruct (IH _ _ eq_refl) as (I1 & I2 & I3).
      split; [intros x [<-|Hx]; [exact Ht|auto]|]. split; [assumption|cbn; lia].
    + destruct (span_any ts) as [a' r'] eqn:S. injection Ha as <- <-. destruct (IH _ _ eq_refl) as (I1 & I2 & I3).
      split; [intros x [<-|Hx]; [exact (proj1 Ht)|auto]|]. split; [assumption|cbn; lia].
    + injection Ha as <- <-. split; [intros x []|]. split; [constructor; assumption|lia].
Qed.

Definition pos_kind (o : opt) : Prop := a_names o = [] /\ ((exists c ch, a_kind o = KOne c ch) \/ exists c, a_kind o = KMany c).

Lemma match_pos_ok P W o ts args ts' : In o P -> pos_kind o -> Forall (tok_ok P W) ts -> dashed ts -> match_pos o ts = Some (args, ts') ->
  Forall (tok_ok P W) ts' /\ List.length ts' <= List.length ts /\ (forall s, In s args -> from W s) /\
  (fits o args \/ ((exists c ch, a_kind o = KOne c ch) /\ remove_dashes args = [])).
Proof.
  intros Ho (Hn & HK) HT HD H. unfold match_pos in H. unfold fits. rewrite Hn. destruct HK as [(c & ch & K)|(c & K)]; rewrite K in *.
  - destruct ts as [|[s|s|o' n eq att raw] ts]; cbn [span_dash] in H.
    + injection H as <- <-. split; [constructor|]. split; [lia|]. split; [intros s []|]. right. split; [eauto|reflexivity].
    + destruct HD as [Hs HD]. inversion HT as [|x y H1 H2]; subst. apply str_eqb_neq in Hs.
      destruct ts as [|[s1|s1|] ts]; cbn [span_dash] in H.
      * injection H as <- <-. split; [constructor|]. split; [cbn; lia|]. split; [intros x [<-|[]]; assumption|]. left. exists s. apply remove_dashes_plain, Hs.
      * injection H as <- <-. split; [assumption|]. split; [cbn; lia|]. split; [intros x [<-|[]]; assumption|]. left. exists s. apply remove_dashes_plain, Hs.
      * destruct HD as [l ->]. rewrite span_dash_map in H. injection H as <- <-.
        inversion H2 as [|x y H34 H5]; subst; destruct H34 as [H3 H4]. split; [assumption|]. split; [cbn; lia|]. split; [intros x [<-|[<-|[]]]; assumption|].
        left. exists s. subst s1. cbn. unfold DASH. rewrite Hs. reflexivity.
      * injection H as <- <-. split; [assumption|]. split; [cbn; lia|]. split; [intros x [<-|[]]; assumption|]. left. exists s. apply remove_dashes_plain, Hs.
    + destruct HD as [l ->]. rewrite span_dash_map in H. inversion HT as [|x y H34 H5]; subst; destruct H34 as [H3 H4].
      destruct l as [|s2 l]; cbn [map] in H.
      * injection H as <- <-. split; [constructor|]. split; [cbn; lia|]. split; [intros x [<-|[]]; assumption|]. right. split; [eauto|]. subst s. reflexivity.
      * rewrite span_dash_map in H. injection H as <- <-. inversion H5 as [|x y H6 H7]; subst. split; [assumption|]. split; [cbn; lia|].
        split; [intros x [<-|[<-|[]]]; assumption|]. left. exists s2. reflexivity.
    + injection H as <- <-. split; [assumption|]. split; [lia|]. split; [intros s []|]. right. split; [eauto|reflexivity].
  - assert (X : forall a ts1, span_dash ts = (a, ts1) -> (forall s, In s a -> from W s) /\ Forall (tok_ok P W) ts1 /\ List.length ts1 <= List.length ts).
    { clear H HD. induction HT as [|t ts Ht HT IH]; intros a ts1 S; cbn [span_dash] in S.
      - injection S as <- <-. repeat split; try constructor. intros s [].
      - destruct t as [s|s|]; try (injection S as <- <-; split; [intros x []|]; split; [constructor; assumption|lia]).
        destruct (span_dash ts) as [a' r'] eqn:S'. injection S as <- <-. destruct (IH _ _ eq_refl) as (I1 & I2 & I3).
        split; [intros x [<-|Hx]; [exact (proj1 Ht)|auto]|]. split; [assumption|cbn; lia]. }
    destruct (span_dash ts) as [a ts1]. destruct (X _ _ eq_refl) as (X1 & X2 & X3). destruct ts1 as [|[s|s|] ts2]; try discriminate H.
    inversion X2 as [|x y H1 H2]; subst. destruct (span_any ts2) as [b ts3] eqn:S. injection H as <- <-.
    destruct (span_any_ok _ _ _ _ _ H2 S) as (S1 & S2 & S3). split; [assumption|]. split; [cbn in X3; lia|].
    split; [|left; intros Z; apply app_eq_nil in Z as [_ Z]; discriminate].
    intros x Hx. apply in_app_iff in Hx as [Hx|[<-|Hx]]; [auto|exact H1|auto].
Qed.

Lemma take_pos_ok P E W pos ts st :
  (forall o, pos = Some o -> In o P /\ pos_kind o) -> Forall (tok_ok P W) ts -> (pos <> None -> dashed ts) ->
  match take_pos E pos ts st with
  | Quit c fs => quits P E W st c fs
  | Go (st', pos', ts') =>
      steps P E W st st' /\ Forall (tok_ok P W) ts' /\ List.length ts' <= List.length ts /\ (pos' = None \/ (pos' = pos /\ ts' = ts))
  end.
Proof.
  intros HP HT HD. destruct pos as [o|]; cbn [take_pos]; [|split; [constructor|auto]].
  destruct (HP o eq_refl) as [Ho Hk]. destruct (match_pos o ts) as [[args ts']|] eqn:M; [|split; [constructor|auto]].
  destruct (match_pos_ok P W o ts args ts' Ho Hk HT (HD ltac:(discriminate)) M) as (M1 & M2 & M3 & M4).
  assert (ACT : fits o args -> match (match take_action E o args st with Quit c fs => Quit c fs | Go st' => Go (st', @None opt, ts') end) with
    | Quit c fs => quits P E W st c fs
    | Go (st', pos', ts') => steps P E W st st' /\ Forall (tok_ok P W) ts' /\ List.length ts' <= List.length ts /\ (pos' = None \/ (pos' = Some o /\ ts' = ts)) end).
  { intros F. destruct (take_action E o args st) as [st'|c fs] eqn:T.
    - split; [econstructor; try eassumption; constructor|]. auto.
    - exists st. split; [constructor|]. right. exists o, args. auto. }
  assert (NOP : steps P E W st st /\ Forall (tok_ok P W) ts' /\ List.length ts' <= List.length ts /\ (@None opt = None \/ (@None opt = Some o /\ ts' = ts))).
  { split; [constructor|auto]. }
  unfold take_pos_action. destruct M4 as [F|((c & ch & K) & R)].
  - destruct (a_kind o) eqn:K; try (apply ACT, F). destruct (remove_dashes args) as [|x l]; [exact NOP|apply ACT, F].
  - rewrite K, R. exact NOP.
Qed.

Lemma read_sub_steps P E W fuel pos ts st :
  (forall o, pos = Some o -> In o P /\ pos_kind o) -> Forall (tok_ok P W) ts -> (pos <> None -> dashed ts) -> List.length ts < fuel ->
  match read_sub fuel P E pos ts st with
  | None => False
  | Some (Go st') => steps P E W st st'
  | Some (Quit c fs) => quits P E W st c fs
  end.
Proof.
  revert pos ts st. induction fuel as [|fuel IH]; intros pos ts st HP HT HD HF; [lia|].
  cbn [read_sub].
  assert (REC : forall pos' ts' st', pos' = None \/ pos' = pos -> Forall (tok_ok P W) ts' ->
    (pos' <> None -> dashed ts') -> List.length ts' < fuel -> steps P E W st st' ->
    match read_sub fuel P E pos' ts' st' with None => False | Some (Go st2) => steps P E W st st2 | Some (Quit c fs) => quits P E W st c fs end).
  { intros pos' ts' st' H1 H3 H4 H5 H6.
    assert (HP' : forall o, pos' = Some o -> In o P /\ pos_kind o) by (intros o Ho; destruct H1 as [->| ->]; [discriminate|apply HP, Ho]).
    pose proof (IH pos' ts' st' HP' H3 H4 H5) as X.
    destruct (read_sub fuel P E pos' ts' st') as [[st2|c fs]|]; [eapply steps_trans; eassumption|eapply quits_after; eassumption|assumption]. }
  pose proof (take_pos_ok P E W pos ts st HP HT HD) as CP.
  assert (M : (match ts with t :: _ => is_option t = false | [] => False end) ->
      match (match take_pos E pos ts st with
            | Quit c fs => Some (Quit c fs)
            | Go (st', pos', ts') =>
                if Nat.ltb (List.length ts') (List.length ts) then read_sub fuel P E pos' ts' st'
                else let (words, ts'') := span_words ts in
                     read_sub fuel P E pos' ts'' (MkPstate (p_ns st') (p_seen st') (p_files st') (p_extras st' ++ words))
            end) with None => False | Some (Go st2) => steps P E W st st2 | Some (Quit c fs) => quits P E W st c fs end).
  { intros HH. destruct (take_pos E pos ts st) as [[[st' pos'] ts']|c fs]; [|exact CP].
    destruct CP as (C1 & C2 & C3 & C4).
    destruct (Nat.ltb_spec (List.length ts') (List.length ts)) as [L|L].
    - apply REC; try assumption; [destruct C4 as [->|[-> _]]; auto| |lia].
      intros X. destruct C4 as [->|[-> ->]]; [destruct X; reflexivity|lia].
    - destruct (span_words ts) as [ws r] eqn:S. destruct (span_words_ok P W ts ws r HT S) as (S1 & S2 & S3 & S4).
      assert (List.length r < List.length ts) by (destruct ts; [destruct HH|auto]).
      apply REC; try assumption; [destruct C4 as [->|[-> _]]; auto| |lia|].
      + intros X. apply S2, HD. destruct C4 as [->|[-> _]]; [destruct X; reflexivity|exact X].
      + eapply steps_trans; [exact C1|apply steps_extras]. }
  destruct (existsb is_option ts) eqn:EX.
  - destruct ts as [|[s|s|o n eq att raw] ts]; [discriminate|apply M; reflexivity|apply M; reflexivity|].
    inversion HT as [|x y H1 H2]; subst.
    pose proof (consume_optional_ok P E W o n eq att raw ts st H1 H2) as CO.
    destruct (consume_optional P E o n eq att raw ts st) as [[st' ts']|c fs]; [|exact CO].
    destruct CO as (C1 & C2 & C3 & C4). apply REC; try assumption; [auto| |cbn in HF; lia].
    intros Z. apply C4. exact (HD Z).
  - destruct (take_pos E pos ts st) as [[[st' pos'] ts']|c fs]; [|exact CP].
    destruct CP as (C1 & _). eapply steps_trans; [exact C1|apply steps_extras].
Qed.

Lemma parse_sub_steps P pos E fs argv : In pos P -> pos_kind pos ->
  let st0 := MkPstate (defaults P []) [] fs [] in
  match parse_sub P pos E fs argv with
  | None => False
  | Some (Parsed ns fs') =>
      exists st, steps P E argv st0 st /\ p_ns st = ns /\ p_files st = fs' /\
        (forall o, In o P -> a_required o = true -> existsb (same_opt o) (p_seen st) = true)
  | Some (Exited c fs') => quits P E argv st0 c fs'
  end.
Proof.
  intros HI HK st0. unfold parse_sub. destruct (classify P argv) as [ts|] eqn:C.
  2:{ exists st0. split; [constructor|]. left. split; reflexivity. }
  destruct (classify_ok P argv argv ts (fun s H => H) C) as [C1 C2]. fold st0.
  pose proof (read_sub_steps P E argv (S (List.length ts)) (Some pos) ts st0) as R.
  specialize (R ltac:(intros o X; injection X as <-; auto) C1 (fun _ => C2) (Nat.lt_succ_diag_r _)).
  destruct (read_sub _ P E (Some pos) ts st0) as [[st|c fs']|]; [|exact R|exact R].
  destruct (existsb _ P) eqn:X.
  - exists st. split; [exact R|]. left. auto.
  - destruct (p_extras st) eqn:EXT.
    + exists st. split; [exact R|]. split; [reflexivity|]. split; [reflexivity|].
      intros o Ho Hr. destruct (existsb (same_opt o) (p_seen st)) eqn:Y; [reflexivity|].
      assert (existsb (fun o => a_required o && negb (existsb (same_opt o) (p_seen st))) P = true) as Z; [|rewrite Z in X; discriminate X].
      apply existsb_exists. exists o. split; [assumption|]. rewrite Hr, Y. reflexivity.
    + exists st. split; [exact R|]. left. auto.
Qed.

Lemma pp_pos_ok c : In (pp_pos c) (pp_parser c) /\ pos_kind (pp_pos c).
Proof. split; [cbn; tauto|]. destruct c; (split; [reflexivity|]); [right|right|right|left|left]; repeat eexists. Qed.

Lemma steps_kept P E W st st' d : steps P E W st st' -> default_of d P = None -> dget str_eqb d (p_ns st') = dget str_eqb d (p_ns st).
Proof.
  intros HS D. induction HS as [st1|ns seen fs1 x y st1 _ IH|o args st1 st2 st3 Ho Hf HW HT _ IH]; [reflexivity|exact IH|].
  rewrite IH. destruct (take_action_kept _ _ _ _ _ _ Ho HT) as [_ K2]. apply K2, D.
Qed.

Lemma sub_ends c E fs argv :
  match parse_sub (pp_parser c) (pp_pos c) E fs argv with
  | None => False
  | Some (Exited z fs') => (z = 0 \/ z = 2)%Z /\ emptied argv fs fs'
  | Some (Parsed ns fs') => emptied argv fs fs' /\
      (exists vocab, get ns "vocab" = Some (VText vocab) /\ from argv vocab) /\
      (forall p, get ns "vocab_l1" = Some (VText p) -> from argv p) /\
      match c with
      | SEncode | SDecode => (exists v, get ns "inp" = Some v) /\
          exists out, get ns "out" = Some out /\ (out = VStdout \/ exists p, out = VOut p /\ from argv p)
      | _ => exists inps, get ns "inp" = Some (VMany inps)
      end
  end.
Proof.
  destruct (pp_pos_ok c) as [P1 P2]. pose proof (parse_sub_steps (pp_parser c) (pp_pos c) E fs argv P1 P2) as X. cbv zeta in X.
  destruct (parse_sub (pp_parser c) (pp_pos c) E fs argv) as [[ns fs'|z fs']|]; [| |exact X].
  2:{ destruct (quits_emptied _ _ _ _ _ _ X) as [X1 X2]. auto. }
  destruct X as (st & X1 & <- & <- & X4). split; [exact (steps_emptied _ _ _ _ _ X1)|].
  assert (S0 : shaped (pp_parser c) argv (MkPstate (defaults (pp_parser c) []) [] fs [])).
  { split; [|intros o []]. intros d v Hd. cbn [p_ns]. exists v. rewrite defaults_get. cbn [dget]. auto. }
  destruct (steps_shaped _ _ _ _ _ X1 S0) as [S1 S2].
  assert (REQ : forall o, In o (pp_parser c) -> a_required o = true -> exists w o', dget str_eqb (a_dest o) (p_ns st) = Some w /\ In o' (pp_parser c) /\ a_dest o' = a_dest o /\ kind_fits argv (a_kind o') w).
  { intros o Ho Hr. specialize (X4 o Ho Hr). apply existsb_exists in X4 as (q & Hq & Eq). unfold same_opt in Eq.
    apply andb_true_iff in Eq as [_ Eq]. apply str_eqb_eq in Eq. rewrite Eq. apply S2, Hq. }
  split.
  { destruct (REQ pp_vocab_opt ltac:(cbn; tauto) eq_refl) as (w & o & G & Ho & Hd & Hk).
    assert (o = pp_vocab_opt) as -> by (clear - Ho Hd; destruct c; cbn in Ho; repeat (destruct Ho as [<-|Ho]; [try discriminate Hd; reflexivity|]); destruct Ho).
    destruct Hk as (s & -> & Hs & _). eauto. }
  split.
  { intros p Hp. destruct (default_of (lit "vocab_l1") (pp_parser c)) as [v|] eqn:D.
    - destruct (S1 _ _ D) as (w & G & [->|(o & Ho & Hd & Hk)]).
      + unfold get in Hp. rewrite G in Hp. injection Hp as ->. exfalso. clear - D. destruct c; discriminate D.
      + unfold get in Hp. rewrite G in Hp. injection Hp as ->.
        assert (o = pp_vf1_opt) as -> by (clear - Ho Hd; destruct c; cbn in Ho; repeat (destruct Ho as [<-|Ho]; [try discriminate Hd; reflexivity|]); destruct Ho).
        destruct Hk as (s & Es & Hs & _). injection Es as ->. exact Hs.
    - exfalso. unfold get in Hp. rewrite (steps_kept _ _ _ _ _ _ X1 D) in Hp. cbn [p_ns] in Hp. rewrite defaults_get in Hp. cbn [dget] in Hp.
      rewrite D in Hp. discriminate. }
  assert (LRN : pp_pos c = pp_inps_opt -> exists inps, get (p_ns st) "inp" = Some (VMany inps)).
  { intros Hc. destruct (REQ (pp_pos c) P1 ltac:(rewrite Hc; reflexivity)) as (w & o & G & Ho & Hd & Hk). rewrite Hc in G, Hd.
    assert (o = pp_inps_opt) as -> by (clear - Ho Hd Hc; destruct c; try discriminate Hc; cbn in Ho; repeat (destruct Ho as [<-|Ho]; [try discriminate Hd; reflexivity|]); destruct Ho).
    destruct Hk as (vs & ->). eauto. }
  assert (COD : pp_pos c = pp_inp_opt -> (exists v, get (p_ns st) "inp" = Some v) /\
          exists out, get (p_ns st) "out" = Some out /\ (out = VStdout \/ exists p, out = VOut p /\ from argv p)).
  { intros Hc. split.
    - assert (D : default_of (lit "inp") (pp_parser c) = Some VStdin) by (destruct c; try discriminate Hc; reflexivity).
      destruct (S1 _ _ D) as (w & G & _). eauto.
    - assert (D : default_of (lit "out") (pp_parser c) = Some VStdout) by (destruct c; try discriminate Hc; reflexivity).
      destruct (S1 _ _ D) as (w & G & [->|(o & Ho & Hd & Hk)]); [eauto|]. exists w. split; [exact G|].
      assert (o = pp_out_opt) as -> by (clear - Ho Hd; destruct c; cbn in Ho; repeat (destruct Ho as [<-|Ho]; [try discriminate Hd; reflexivity|]); destruct Ho).
      destruct Hk as [->|(s & -> & Hs)]; eauto. }
  destruct c; first [apply LRN; reflexivity|apply COD; reflexivity].
Qed.

(** The files a run changes. *)
Lemma dget_ddel_else {V} (l : list (str * V)) k p : p <> k -> dget str_eqb p (ddel str_eqb k l) = dget str_eqb p l.
Proof.
  intros H. induction l as [|[a v] l IH]; [reflexivity|]. cbn [ddel dget]. destruct (str_eqb k a) eqn:K.
  - apply str_eqb_eq in K. subst a. apply str_eqb_neq in H. rewrite H. reflexivity.
  - cbn [dget]. rewrite IH. reflexivity.
Qed.

Lemma second_changes o now args texts vocab l1 fs p : p <> vocab -> p <> l1_name vocab ->
  lookup (fst (pp_second o now args texts vocab l1 fs)) p = lookup fs p.
Proof.
  intros H1 H2. unfold pp_second, lookup. destruct (pp_learn2 _ _ _ _ _); [|reflexivity]. cbn [fst].
  rewrite (dget_dset_other str_eqb str_eqb_eq) by exact H1. destruct (str_eqb l1 vocab); [|reflexivity].
  destruct (dget str_eqb vocab fs); [|reflexivity]. rewrite (dget_dset_other str_eqb str_eqb_eq) by exact H2. apply dget_ddel_else, H1.
Qed.

Lemma learn_changes o1 o2 n1 n2 cmd texts vocab l1 args fs p : p <> vocab -> l1 <> Some p -> p <> l1_name vocab ->
  lookup (fst (pp_learn o1 o2 n1 n2 cmd texts vocab l1 args fs)) p = lookup fs p.
Proof.
  intros H1 H2 H3. assert (H4 : p <> match l1 with Some q => q | None => vocab end) by (destruct l1; congruence).
  unfold pp_learn. set (path := match l1 with Some q => q | None => vocab end) in *.
  assert (FST : forall b, lookup (dset str_eqb path b fs) p = lookup fs p) by (intros b; apply (dget_dset_other str_eqb str_eqb_eq), H4).
  destruct cmd; [destruct (pp_learn1 _ _ _ _); [|reflexivity]; rewrite second_changes by assumption; apply FST
                |destruct (pp_learn1 _ _ _ _); [|reflexivity]; apply FST|apply second_changes; assumption].
Qed.

Lemma stages_changes W c inps vocab l1 args fs p : p <> vocab -> l1 <> Some p -> p <> l1_name vocab ->
  lookup (fst (pp_stages W c inps vocab l1 args fs)) p = lookup fs p.
Proof.
  intros H1 H2 H3.
  assert (ST : forall cmd fs, lookup (fst (pp_stage W cmd inps vocab l1 args fs)) p = lookup fs p).
  { intros cmd fs0. unfold pp_stage. destruct (pp_texts W fs0 inps) as [texts []]; [reflexivity|]. apply learn_changes; assumption. }
  assert (BOTH : lookup (fst (match pp_stage W Learn1 inps vocab l1 args fs with (fs', Some e) => (fs', Some e) | (fs', None) => pp_stage W Learn2 inps vocab l1 args fs' end)) p = lookup fs p).
  { pose proof (ST Learn1 fs) as X. destruct (pp_stage W Learn1 inps vocab l1 args fs) as [fs' [e|]]; [exact X|]. rewrite ST. exact X. }
  destruct c; [apply ST|apply ST|exact BOTH|exact BOTH|exact BOTH].
Qed.

Lemma output_changes W fs1 out r p : (forall q, out = VOut q -> p <> q) -> lookup (x_files (pp_output W fs1 out r)) p = lookup fs1 p.
Proof.
  intros H. unfold pp_output. destruct out; cbn; try reflexivity. destruct (fst r); [reflexivity|].
  apply (dget_dset_other str_eqb str_eqb_eq), H. reflexivity.
Qed.

Lemma from_incl V W s : (forall x, In x V -> In x W) -> from V s -> from W s.
Proof. intros H (w & a & H1 & H2). exists w, a. auto. Qed.

Lemma changed_or fs fs1 (V : list str) p : emptied V fs fs1 -> lookup fs1 p = lookup fs p \/ from V p.
Proof. intros H. destruct (H p) as [X|[_ X]]; auto. Qed.

Lemma main_ends E fs W unknown ts : Forall (tok_ok pp_main_parser W) ts -> (forall t, In t ts -> In (raw_of t) W) ->
  match parse_main E fs unknown ts with
  | inr z => (z = 0 \/ z = 2)%Z
  | inl None => False
  | inl (Some (c, r)) => exists V, (forall x, In x V -> In x W) /\
      match r with
      | Exited z fs' => (z = 0 \/ z = 2)%Z /\ emptied V fs fs'
      | Parsed ns fs' => parse_sub (pp_parser c) (pp_pos c) E fs V = Some (Parsed ns fs')
      end
  end.
Proof.
  intros HT. revert unknown. induction HT as [|t ts Ht HT IH]; intros unknown HR; cbn [parse_main]; [auto|].
  destruct t as [s|s|o n eq att raw]; [| auto|].
  - destruct (dget str_eqb s pp_subs) as [c|]; [|auto]. pose proof (sub_ends c E fs (map raw_of ts)) as X.
    assert (V : forall x, In x (map raw_of ts) -> In x W) by (intros x Hx; apply in_map_iff in Hx as (t & <- & Hx); apply HR; right; exact Hx).
    destruct (parse_sub (pp_parser c) (pp_pos c) E fs (map raw_of ts)) as [[ns fs'|z fs']|] eqn:PS; [| |exact X].
    + exists (map raw_of ts). split; [exact V|]. destruct unknown; [split; [auto|apply X]|exact PS].
    + exists (map raw_of ts). split; [exact V|exact X].
  - pose proof (consume_optional_ok pp_main_parser E W o n eq att raw ts (MkPstate [] [] fs []) Ht HT) as C.
    destruct (consume_optional _ _ _ _ _ _ _ _ _) as [[st' ts']|z fs'].
    + apply IH. intros t Hx. apply HR. right. exact Hx.
    + apply (quits_emptied _ _ _ _ _ _ C).
Qed.

Theorem pp_ends W fs stdin argv :
  exists e, pp_program W fs stdin argv = Some e /\
    match pp_parse (w_env W) fs argv with inl (Some (_, Parsed _ _)) => run_well fs argv e | _ => refused fs argv e end.
Proof.
  unfold pp_program. set (E := w_env W).
  assert (REF : forall z fs1 V, (z = 0 \/ z = 2)%Z -> (forall x, In x V -> In x argv) -> emptied V fs fs1 -> refused fs argv (MkEnding z fs1 [] None None)).
  { intros z fs1 V Hz HV HE. repeat split; try assumption. intros p. destruct (HE p) as [X|[X1 X2]]; [left; exact X|right; split; [exact X1|eapply from_incl; eassumption]]. }
  assert (M : match pp_parse E fs argv with
    | inr z => (z = 0 \/ z = 2)%Z
    | inl None => False
    | inl (Some (c, r)) => exists V, (forall x, In x V -> In x argv) /\
        match r with Exited z fs' => (z = 0 \/ z = 2)%Z /\ emptied V fs fs' | Parsed ns fs' => parse_sub (pp_parser c) (pp_pos c) E fs V = Some (Parsed ns fs') end
    end).
  { unfold pp_parse. destruct (classify pp_main_parser argv) as [ts|] eqn:C; [|auto].
    apply main_ends; [exact (proj1 (classify_ok _ _ _ _ (fun s H => H) C))|]. intros t Ht. rewrite <- (classify_raw _ _ _ C). apply in_map, Ht. }
  destruct (pp_parse E fs argv) as [[[c [ns fs1|z fs1]]|]|z].
  - destruct M as (V & HV & PS). pose proof (sub_ends c E fs V) as X. rewrite PS in X. destruct X as (X1 & (vocab & X2 & X3) & X4 & X5).
    assert (CH : forall p, lookup fs1 p = lookup fs p \/ from argv p).
    { intros p. destruct (changed_or fs fs1 V p X1) as [Y|Y]; [auto|right; eapply from_incl; eassumption]. }
    unfold pp_run. rewrite X2.
    assert (LRN : (exists inps, get ns "inp" = Some (VMany inps)) -> exists e,
       match get ns "inp" with
       | Some (VMany inps) => let (fs', e) := pp_stages W c inps vocab (match get ns "vocab_l1" with Some (VText p) => Some p | _ => None end) (pp_learn_args ns) fs1 in
              Some (MkEnding (match e with None => 0 | Some _ => 1 end)%Z fs' [] None e)
       | _ => None end = Some e /\ run_well fs argv e).
    { intros (inps & ->). set (l1 := match get ns "vocab_l1" with Some (VText p) => Some p | _ => None end).
      pose proof (fun p => stages_changes W c inps vocab l1 (pp_learn_args ns) fs1 p) as SC.
      destruct (pp_stages W c inps vocab l1 (pp_learn_args ns) fs1) as [fs' e]. cbn [fst] in SC.
      eexists. split; [reflexivity|]. split; [destruct e; [right; split; [reflexivity|discriminate]|left; auto]|]. split; [reflexivity|].
      cbn [x_files]. intros p Hp. destruct (str_eqb p vocab) eqn:P1.
      { apply str_eqb_eq in P1. subst p. left. eapply from_incl; eassumption. }
      destruct (str_eqb p (l1_name vocab)) eqn:P2.
      { apply str_eqb_eq in P2. subst p. right. exists vocab. split; [eapply from_incl; eassumption|reflexivity]. }
      apply str_eqb_neq in P1. apply str_eqb_neq in P2.
      assert (L : l1 = Some p \/ l1 <> Some p).
      { destruct l1 as [q|]; [|right; discriminate]. destruct (str_eqb q p) eqn:Q; [apply str_eqb_eq in Q; left; congruence|apply str_eqb_neq in Q; right; congruence]. }
      destruct L as [L|L].
      - left. eapply from_incl; [exact HV|]. apply X4. unfold l1 in L. destruct (get ns "vocab_l1") as [[]|]; congruence.
      - rewrite (SC p P1 L P2) in Hp. destruct (CH p) as [Y|Y]; [contradiction|auto]. }
    assert (COD : (exists out, get ns "out" = Some out /\ (out = VStdout \/ exists p, out = VOut p /\ from V p)) -> forall r, exists e,
       match get ns "out" with None => None | Some out => Some (pp_output W fs1 out r) end = Some e /\ run_well fs argv e).
    { intros (out & -> & HO) r. eexists. split; [reflexivity|]. split; [|split; [unfold pp_output; destruct out; reflexivity|]].
      - unfold pp_output. destruct out; cbn; (destruct (snd r); [right; split; [reflexivity|discriminate]|left; auto]).
      - intros p Hp. destruct HO as [->|(q & -> & Hq)].
        + rewrite output_changes in Hp by discriminate. destruct (CH p) as [Y|Y]; [contradiction|auto].
        + destruct (str_eqb p q) eqn:Q; [apply str_eqb_eq in Q; subst q; left; eapply from_incl; eassumption|]. apply str_eqb_neq in Q.
          rewrite output_changes in Hp by (intros q' Z; injection Z as <-; exact Q). destruct (CH p) as [Y|Y]; [contradiction|auto]. }
    destruct c.
    1,2,3: destruct (LRN X5) as (e & L1 & L2); exists e; split; [|exact L2]; destruct X5 as (inps & G); rewrite G in *; exact L1.
    1,2: destruct X5 as ((v & ->) & X5); apply (COD X5).
  - destruct M as (V & HV & Hz & HE). eexists. split; [reflexivity|]. eapply REF; eassumption.
  - destruct M.
  - eexists. split; [reflexivity|]. apply (REF z fs argv M); [auto|apply emptied_refl].
Qed.
