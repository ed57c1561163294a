(** What holds of every command line: parsing ends, with status 0 or 2 if it quits; the namespace is of the
    declared kinds; files are only ever emptied, and only those named on the command line. *)
From Coq Require Import Strings.String Lia.
From Verif Require Import Py PyStr PyLemmas ArgModel ArgSpec ArgProofs.
Local Open Scope list_scope.

(** A word, or the end of one. *)
Definition from (W : list str) (s : str) : Prop := exists w a, In w W /\ w = a ++ s.

Lemma from_word W s : In s W -> from W s.
Proof. intros H. exists s, []. auto. Qed.
Lemma from_tail W a s : from W (a ++ s) -> from W s.
Proof. intros (w & b & H & E). exists w, (b ++ a). rewrite <- app_assoc. auto. Qed.

Definition fits (o : opt) (args : list str) : Prop :=
  match a_kind o with
  | KOne _ _ => exists s, match a_names o with [] => remove_dashes args | _ => args end = [s]
  | KMany _ => args <> []
  | _ => args = []
  end.

Definition tok_ok (P : list opt) (W : list str) (t : tok) : Prop :=
  match t with
  | TArg s => from W s
  | TDash s => from W s /\ s = [45; 45]%N
  | TOpt o _ _ att raw =>
      from W raw /\ (forall o', o = Some o' -> In o' P /\ a_names o' <> []) /\ (forall e, att = Some e -> from W e)
  end.

(** At most one '--', and before it no argument is '--'. *)
Fixpoint dashed (ts : list tok) : Prop :=
  match ts with
  | [] => True
  | TDash _ :: ts' => exists l, ts' = map TArg l
  | TArg s :: ts' => s <> [45; 45]%N /\ dashed ts'
  | TOpt _ _ _ _ _ :: ts' => dashed ts'
  end.

Lemma partition_app s a b : partition_eq s = Some (a, b) -> s = (a ++ [61%N]) ++ b.
Proof.
  revert a b. induction s as [|c s IH]; intros a b H; [discriminate|]. cbn [partition_eq] in H.
  destruct (N.eqb_spec c 61) as [->|].
  - injection H as <- <-. reflexivity.
  - destruct (partition_eq s) as [[a' b']|] eqn:E; [|discriminate]. injection H as <- <-. cbn. f_equal. apply IH. reflexivity.
Qed.

Lemma tuples_ok P s o n eq att : In (o, n, eq, att) (option_tuples P s) ->
  In o P /\ a_names o <> [] /\ forall e, att = Some e -> exists a, s = a ++ e.
Proof.
  unfold option_tuples. destruct s as [|x [|c rest]]; try (intros []).
  destruct (N.eqb c DASH).
  - destruct (partition_eq (x :: c :: rest)) as [[prefix att']|] eqn:PE; intros H; apply in_flat_map in H as ([n' o'] & H1 & H2); cbn [fst snd] in H2;
      (destruct (startswith _ n'); [|destruct H2]); destruct H2 as [H2|[]]; injection H2 as <- <- <- <-;
      apply in_option_strings in H1 as [H1 H3]; (split; [assumption|]); (split; [intros Z; rewrite Z in H3; destruct H3|]).
    + intros e X. injection X as <-. exists (prefix ++ [61%N]). apply partition_app, PE.
    + discriminate.
  - intros H. apply in_flat_map in H as ([n' o'] & H1 & H2). cbn [fst snd] in H2.
    apply in_option_strings in H1 as [H1 H3].
    assert (NZ : a_names o' <> []) by (intros Z; rewrite Z in H3; destruct H3).
    destruct (str_eqb n' [DASH; c]).
    + destruct H2 as [H2|[]]. injection H2 as <- <- <- <-. split; [assumption|]. split; [assumption|].
      intros e X. injection X as <-. exists [x; c]. reflexivity.
    + destruct (startswith _ n'); [|destruct H2]. destruct H2 as [H2|[]]. injection H2 as <- <- <- <-.
      split; [assumption|]. split; [assumption|discriminate].
Qed.

Lemma parse_optional_ok P W s t : In s W -> s <> [45; 45]%N -> parse_optional P s = Some t ->
  tok_ok P W t /\ (t = TArg s \/ exists o n eq att, t = TOpt o n eq att s).
Proof.
  intros HW HN H. pose proof (from_word _ _ HW) as HF.
  assert (A : Some (TArg s) = Some t -> tok_ok P W t /\ (t = TArg s \/ exists o n eq att, t = TOpt o n eq att s)).
  { intros X. injection X as <-. cbn. auto. }
  unfold parse_optional in H. destruct s as [|c rest]; [apply A, H|].
  destruct (negb (N.eqb c DASH)); [apply A, H|].
  destruct (find_opt P (c :: rest)) as [o|] eqn:F.
  { injection H as <-. apply find_opt_in in F as [F1 F2]. split; [|right; eauto].
    cbn. split; [assumption|]. split; [|discriminate]. intros o' X. injection X as <-. split; [assumption|]. intros Z. rewrite Z in F2. destruct F2. }
  destruct rest as [|c1 rest]; [apply A, H|].
  set (w := c :: c1 :: rest) in *.
  destruct (partition_eq w) as [[n e]|] eqn:PE.
  - destruct (find_opt P n) as [o|] eqn:F'.
    { injection H as <-. apply find_opt_in in F' as [F1 F2]. split; [|right; eauto].
      cbn. split; [assumption|]. split.
      - intros o' X. injection X as <-. split; [assumption|]. intros Z. rewrite Z in F2. destruct F2.
      - intros e' X. injection X as <-. apply (from_tail W (n ++ [61%N])). rewrite <- (partition_app _ _ _ PE). assumption. }
    destruct (option_tuples P w) as [|[[[o n'] eq] att] [|]] eqn:T; [| |discriminate].
    + destruct (negative_like w); [apply A, H|]. destruct (existsb (N.eqb SPACE) w); [apply A, H|].
      injection H as <-. split; [|right; eauto]. cbn. split; [assumption|]. split; discriminate.
    + injection H as <-. destruct (tuples_ok P w o n' eq att) as (T1 & T2 & T3); [rewrite T; left; reflexivity|].
      split; [|right; eauto]. cbn. split; [assumption|]. split.
      * intros o' X. injection X as <-. auto.
      * intros e' X. destruct (T3 _ X) as [a Ea]. apply (from_tail W a). rewrite <- Ea. assumption.
  - destruct (option_tuples P w) as [|[[[o n'] eq] att] [|]] eqn:T; [| |discriminate].
    + destruct (negative_like w); [apply A, H|]. destruct (existsb (N.eqb SPACE) w); [apply A, H|].
      injection H as <-. split; [|right; eauto]. cbn. split; [assumption|]. split; discriminate.
    + injection H as <-. destruct (tuples_ok P w o n' eq att) as (T1 & T2 & T3); [rewrite T; left; reflexivity|].
      split; [|right; eauto]. cbn. split; [assumption|]. split.
      * intros o' X. injection X as <-. auto.
      * intros e' X. destruct (T3 _ X) as [a Ea]. apply (from_tail W a). rewrite <- Ea. assumption.
Qed.

Lemma classify_ok P W argv ts : (forall s, In s argv -> In s W) -> classify P argv = Some ts ->
  Forall (tok_ok P W) ts /\ dashed ts.
Proof.
  revert ts. induction argv as [|s argv IH]; intros ts HW H; cbn [classify] in H.
  - injection H as <-. split; constructor.
  - destruct (str_eqb s [DASH; DASH]) eqn:D.
    + apply str_eqb_eq in D. injection H as <-. split.
      * constructor; [cbn; split; [apply from_word, HW; left; reflexivity|exact D]|].
        apply Forall_forall. intros t Ht. apply in_map_iff in Ht as (x & <- & Hx). cbn. apply from_word, HW. right; exact Hx.
      * cbn. eauto.
    + apply str_eqb_neq in D. destruct (parse_optional P s) as [t|] eqn:O; [|discriminate].
      destruct (classify P argv) as [ts'|]; [|discriminate]. injection H as <-.
      destruct (parse_optional_ok P W s t (HW s (or_introl eq_refl)) D O) as [O1 O2].
      destruct (IH ts' (fun x Hx => HW x (or_intror Hx)) eq_refl) as [I1 I2].
      split; [constructor; assumption|]. destruct O2 as [->|(o & n & eq & att & ->)]; cbn; auto.
Qed.

(** Taking actions of the parser, with arguments of the right number found on the command line. *)
Inductive steps (P : list opt) (E : env) (W : list str) : pstate -> pstate -> Prop :=
| steps_none st : steps P E W st st
| steps_extra ns seen fs x y st : steps P E W (MkPstate ns seen fs y) st -> steps P E W (MkPstate ns seen fs x) st
| steps_act o args st st1 st2 :
    In o P -> fits o args -> (forall s, In s args -> from W s) -> take_action E o args st = Go st1 ->
    steps P E W st1 st2 -> steps P E W st st2.

(** Ways to quit: an action quits, or the command line is wrong. *)
Definition quits (P : list opt) (E : env) (W : list str) (st : pstate) (c : Z) (fs : files) : Prop :=
  exists st', steps P E W st st' /\
    ((c = 2%Z /\ fs = p_files st') \/
     exists o args, In o P /\ fits o args /\ (forall s, In s args -> from W s) /\ take_action E o args st' = Quit c fs).

Lemma steps_trans P E W a b c : steps P E W a b -> steps P E W b c -> steps P E W a c.
Proof. intros H. induction H; intros Hc; [assumption|econstructor; eauto|econstructor; eauto]. Qed.

Lemma steps_extras P E W st x : steps P E W st (MkPstate (p_ns st) (p_seen st) (p_files st) x).
Proof. destruct st as [ns seen fs y]. cbn. eapply steps_extra. constructor. Qed.

Lemma quits_after P E W a b c fs : steps P E W a b -> quits P E W b c fs -> quits P E W a c fs.
Proof. intros H (st & H1 & H2). exists st. split; [eapply steps_trans; eassumption|assumption]. Qed.

Definition act_ok (P : list opt) (W : list str) (a : opt * list str) : Prop :=
  In (fst a) P /\ fits (fst a) (snd a) /\ forall s, In s (snd a) -> from W s.

Lemma take_all_steps P E W l st : Forall (act_ok P W) l ->
  match take_all E l st with Go st' => steps P E W st st' | Quit c fs => quits P E W st c fs end.
Proof.
  intros H. revert st. induction H as [|[o args] l (H1 & H2 & H3) _ IH]; intros st; cbn [take_all]; [constructor|].
  cbn [fst snd] in *. destruct (take_action E o args st) as [st1|c fs] eqn:T.
  - specialize (IH st1). destruct (take_all E l st1).
    + econstructor; eassumption.
    + eapply quits_after; [|exact IH]. econstructor; try eassumption. constructor.
  - exists st. split; [constructor|]. right. exists o, args. auto.
Qed.

Lemma span_args_ok P W ts a r : Forall (tok_ok P W) ts -> span_args ts = (a, r) ->
  (forall s, In s a -> from W s) /\ Forall (tok_ok P W) r /\ List.length r <= List.length ts /\ (dashed ts -> dashed r) /\ ts = map TArg a ++ r.
Proof.
  intros H. revert a r. induction H as [|t ts Ht H IH]; intros a r Ha; cbn [span_args] in Ha.
  - injection Ha as <- <-. cbn. repeat split; try constructor. intros s [].
  - destruct t as [s|s|o n eq att raw].
    + destruct (span_args ts) as [a' r'] eqn:S. injection Ha as <- <-. destruct (IH _ _ eq_refl) as (I1 & I2 & I3 & I4 & I5).
      repeat split; try assumption.
      * intros x [<-|Hx]; [exact Ht|auto].
      * cbn. lia.
      * intros [_ D]. auto.
      * cbn. f_equal. exact I5.
    + injection Ha as <- <-. repeat split; try (constructor; assumption); try (cbn; lia); auto; try (intros s' []).
    + injection Ha as <- <-. repeat split; try (constructor; assumption); try (cbn; lia); auto; try (intros s' []).
Qed.

Lemma match_argument_ok P W o ts args ts' : In o P -> a_names o <> [] -> Forall (tok_ok P W) ts ->
  match_argument (a_kind o) ts = Some (args, ts') ->
  act_ok P W (o, args) /\ Forall (tok_ok P W) ts' /\ List.length ts' <= List.length ts /\ (dashed ts -> dashed ts').
Proof.
  intros Ho Hn HT H. unfold act_ok, fits. cbn [fst snd].
  destruct (a_kind o) as [c ch|c|b|] eqn:K; cbn [match_argument] in H.
  - destruct ts as [|[s|s|] ts]; try discriminate. injection H as <- <-. inversion HT; subst. split.
    + split; [assumption|]. split; [exists s; destruct (a_names o); [destruct Hn; reflexivity|reflexivity]|]. intros x [<-|[]]. assumption.
    + split; [assumption|]. split; [cbn; lia|]. cbn. tauto.
  - destruct (span_args ts) as [a r] eqn:S. destruct (span_args_ok P W _ _ _ HT S) as (I1 & I2 & I3 & I4 & _).
    destruct a as [|x a]; [discriminate|]. injection H as <- <-.
    split; [|auto]. split; [assumption|]. split; [discriminate|assumption].
  - injection H as <- <-. split; [|auto]. split; [assumption|]. split; [reflexivity|intros s []].
  - injection H as <- <-. split; [|auto]. split; [assumption|]. split; [reflexivity|intros s []].
Qed.

Lemma attached_ok P W o name eq e ts l acts extra ts' :
  In o P -> a_names o <> [] -> from W e -> Forall (tok_ok P W) ts -> Forall (act_ok P W) l ->
  attached_loop P o name eq e ts l = Some (acts, extra, ts') ->
  Forall (act_ok P W) acts /\ Forall (tok_ok P W) ts' /\ List.length ts' <= List.length ts /\ (dashed ts -> dashed ts').
Proof.
  assert (BASE : forall o e ts l acts extra ts', In o P -> a_names o <> [] -> from W e -> Forall (tok_ok P W) ts -> Forall (act_ok P W) l ->
    takes_argument (a_kind o) = true -> Some (l ++ [(o, [e])], @nil str, ts) = Some (acts, extra, ts') ->
    Forall (act_ok P W) acts /\ Forall (tok_ok P W) ts' /\ List.length ts' <= List.length ts /\ (dashed ts -> dashed ts')).
  { clear. intros o e ts l acts extra ts' Ho Hn He HT HL K X. injection X as <- <- <-. split; [|auto].
    apply Forall_app. split; [assumption|]. constructor; [|constructor]. unfold act_ok, fits. cbn [fst snd].
    split; [assumption|]. split.
    - destruct (a_kind o); try discriminate K; [exists e; destruct (a_names o); [destruct Hn; reflexivity|reflexivity]|discriminate].
    - intros s [<-|[]]. assumption. }
  assert (FLAG : forall o l, In o P -> takes_argument (a_kind o) = false -> Forall (act_ok P W) l -> Forall (act_ok P W) (l ++ [(o, [])])).
  { clear. intros o l Ho K HL. apply Forall_app. split; [assumption|]. constructor; [|constructor]. unfold act_ok, fits. cbn [fst snd].
    split; [assumption|]. split; [destruct (a_kind o); try discriminate K; reflexivity|intros s []]. }
  revert o name eq l. induction e as [e IH] using (well_founded_induction (Wf_nat.well_founded_ltof _ (@List.length N))).
  intros o name eq l Ho Hn He HT HL H.
  destruct e as [|c e].
  - cbn [attached_loop] in H. destruct (takes_argument (a_kind o)) eqn:K; [|discriminate]. eapply BASE; eassumption.
  - cbn [attached_loop] in H. destruct (takes_argument (a_kind o)) eqn:K; [eapply BASE; eassumption|].
    destruct (match name with _ :: d :: _ => N.eqb d DASH | _ => true end); [discriminate|].
    destruct (eq || N.eqb c DASH)%bool; [discriminate|].
    destruct (find_opt P [DASH; c]) as [o'|] eqn:F.
    2:{ injection H as <- <- <-. split; [apply FLAG; assumption|auto]. }
    apply find_opt_in in F as [F1 F2]. assert (F3 : a_names o' <> []) by (intros Z; rewrite Z in F2; destruct F2).
    destruct e as [|d e].
    + destruct (match_argument (a_kind o') ts) as [[args r]|] eqn:M; [|discriminate]. injection H as <- <- <-.
      destruct (match_argument_ok P W o' ts args r F1 F3 HT M) as (M1 & M2). split; [|exact M2].
      apply Forall_app. split; [apply FLAG; assumption|]. constructor; [assumption|constructor].
    + destruct (N.eqb d 61).
      * refine (IH e _ o' _ _ (l ++ [(o, [])]) F1 F3 _ HT (FLAG _ _ Ho K HL) H); [unfold Wf_nat.ltof; cbn; lia|].
        apply (from_tail W [c; d]). exact He.
      * refine (IH (d :: e) _ o' _ _ (l ++ [(o, [])]) F1 F3 _ HT (FLAG _ _ Ho K HL) H); [unfold Wf_nat.ltof; cbn; lia|].
        apply (from_tail W [c]). exact He.
Qed.

Lemma consume_optional_ok P E W o name eq att raw ts st :
  tok_ok P W (TOpt o name eq att raw) -> Forall (tok_ok P W) ts ->
  match consume_optional P E o name eq att raw ts st with
  | Quit c fs => quits P E W st c fs
  | Go (st', ts') => steps P E W st st' /\ Forall (tok_ok P W) ts' /\ List.length ts' <= List.length ts /\ (dashed ts -> dashed ts')
  end.
Proof.
  intros (_ & HO & HA) HT. unfold consume_optional. destruct o as [o|].
  2:{ split; [apply steps_extras|auto]. }
  destruct (HO o eq_refl) as [Ho Hn].
  set (m := match att with None => _ | Some e => _ end).
  assert (X : forall acts extra ts', m = Some (acts, extra, ts') ->
    Forall (act_ok P W) acts /\ Forall (tok_ok P W) ts' /\ List.length ts' <= List.length ts /\ (dashed ts -> dashed ts')).
  { intros acts extra ts'. unfold m. destruct att as [e|].
    - apply attached_ok; auto.
    - destruct (match_argument (a_kind o) ts) as [[args r]|] eqn:M; [|discriminate]. intros Z. injection Z as <- <- <-.
      destruct (match_argument_ok P W o ts args r Ho Hn HT M) as (M1 & M2). split; [|exact M2]. constructor; [assumption|constructor]. }
  destruct m as [[[acts extra] ts']|].
  - destruct (X _ _ _ eq_refl) as (X1 & X2).
    pose proof (take_all_steps P E W acts (MkPstate (p_ns st) (p_seen st) (p_files st) (p_extras st ++ extra)) X1) as T.
    destruct (take_all E acts _) as [st'|c fs].
    + split; [|exact X2]. eapply steps_trans; [apply steps_extras|exact T].
    + eapply quits_after; [apply steps_extras|exact T].
  - exists st. split; [constructor|]. left. auto.
Qed.

Lemma span_dash_map l : span_dash (map TArg l) = ([], map TArg l).
Proof. destruct l; reflexivity. Qed.

Lemma match_positional_ok P W o ts args ts' : In o P -> a_names o = [] -> (exists c ch, a_kind o = KOne c ch) ->
  Forall (tok_ok P W) ts -> dashed ts -> match_positional ts = Some (args, ts') ->
  act_ok P W (o, args) /\ Forall (tok_ok P W) ts' /\ List.length ts' < List.length ts.
Proof.
  intros Ho Hn (c & ch & K) HT HD H. unfold act_ok, fits. cbn [fst snd]. rewrite K, Hn.
  unfold match_positional in H. destruct ts as [|[s|s|] ts]; cbn [span_dash] in H; try discriminate.
  - destruct HD as [Hs HD]. inversion HT as [|x y H1 H2]; subst. apply str_eqb_neq in Hs.
    destruct ts as [|[s1|s1|] ts]; cbn [span_dash] in H.
    + injection H as <- <-. split; [|split; [constructor|cbn; lia]]. split; [assumption|].
      split; [exists s; apply remove_dashes_plain, Hs|]. intros x [<-|[]]; assumption.
    + injection H as <- <-. split; [|split; [assumption|cbn; lia]]. split; [assumption|].
      split; [exists s; apply remove_dashes_plain, Hs|]. intros x [<-|[]]; assumption.
    + destruct HD as [l ->]. rewrite span_dash_map in H. injection H as <- <-.
      inversion H2 as [|x y H34 H5]; subst; destruct H34 as [H3 H4]. split; [|split; [assumption|cbn; lia]]. split; [assumption|].
      split.
      * exists s. subst s1. cbn. unfold DASH. rewrite Hs. reflexivity.
      * intros x [<-|[<-|[]]]; assumption.
    + injection H as <- <-. split; [|split; [assumption|cbn; lia]]. split; [assumption|].
      split; [exists s; apply remove_dashes_plain, Hs|]. intros x [<-|[]]; assumption.
  - destruct HD as [l ->]. rewrite span_dash_map in H. inversion HT as [|x y H34 H5]; subst; destruct H34 as [H3 H4].
    destruct l as [|s2 l]; [discriminate|]. cbn [map] in H. rewrite span_dash_map in H. injection H as <- <-.
    inversion H5 as [|x y H6 H7]; subst. split; [|split; [assumption|cbn; lia]]. split; [assumption|]. split.
    + exists s2. subst. reflexivity.
    + intros x [<-|[<-|[]]]; assumption.
Qed.

Lemma consume_positionals_ok P E W pos ts st :
  (forall o, In o pos -> In o P /\ a_names o = [] /\ exists c ch, a_kind o = KOne c ch) -> List.length pos <= 1 ->
  Forall (tok_ok P W) ts -> (pos <> [] -> dashed ts) ->
  match consume_positionals E pos ts st with
  | Quit c fs => quits P E W st c fs
  | Go (st', pos', ts') =>
      steps P E W st st' /\ Forall (tok_ok P W) ts' /\
      ((pos' = [] /\ List.length ts' < List.length ts) \/ (pos' = pos /\ ts' = ts))
  end.
Proof.
  intros HP HL HT HD. destruct pos as [|o [|]]; cbn [consume_positionals].
  - split; [constructor|]. auto.
  - destruct (HP o (or_introl eq_refl)) as (H1 & H2 & H3).
    destruct (match_positional ts) as [[args ts']|] eqn:M.
    + destruct (match_positional_ok P W o ts args ts' H1 H2 H3 HT (HD ltac:(discriminate)) M) as ((M1 & M2 & M3) & M4 & M5).
      cbn [fst snd] in *. destruct (take_action E o args st) as [st'|c fs] eqn:T.
      * split; [econstructor; try eassumption; constructor|]. auto.
      * exists st. split; [constructor|]. right. exists o, args. auto.
    + split; [constructor|]. auto.
  - cbn in HL. lia.
Qed.

Lemma span_words_map l : span_words (map TArg l) = (l, []).
Proof. induction l as [|s l IH]; [reflexivity|]. cbn. rewrite IH. reflexivity. Qed.

Lemma span_words_ok P W ts a r : Forall (tok_ok P W) ts -> span_words ts = (a, r) ->
  Forall (tok_ok P W) r /\ (dashed ts -> dashed r) /\
  (match ts with t :: _ => is_option t = false -> List.length r < List.length ts | [] => True end) /\ List.length r <= List.length ts.
Proof.
  intros H. revert a r. induction H as [|t ts Ht H IH]; intros a r Ha; cbn [span_words] in Ha.
  - injection Ha as <- <-. repeat split; try constructor.
  - destruct (is_option t) eqn:O.
    + injection Ha as <- <-. split; [constructor; assumption|]. split; [auto|]. split; [discriminate|lia].
    + destruct (span_words ts) as [a' r'] eqn:S. injection Ha as <- <-. destruct (IH _ _ eq_refl) as (I1 & I2 & I3 & I4).
      split; [assumption|]. split; [|split; cbn; lia].
      intros D. destruct t as [s|s|]; [apply I2; destruct D; assumption| |discriminate O].
      destruct D as [l ->]. rewrite span_words_map in S. injection S as <- <-. exact I.
Qed.

(** Parsing ends, by steps of the parser. *)
Lemma read_words_steps P E W fuel pos ts st :
  (forall o, In o pos -> In o P /\ a_names o = [] /\ exists c ch, a_kind o = KOne c ch) -> List.length pos <= 1 ->
  Forall (tok_ok P W) ts -> (pos <> [] -> dashed ts) -> List.length ts < fuel ->
  match read_words fuel P E pos ts st with
  | None => False
  | Some (Go st') => steps P E W st st'
  | Some (Quit c fs) => quits P E W st c fs
  end.
Proof.
  revert pos ts st. induction fuel as [|fuel IH]; intros pos ts st HP HL HT HD HF; [lia|].
  cbn [read_words].
  assert (REC : forall pos' ts' st', (forall o, In o pos' -> In o pos) -> List.length pos' <= 1 -> Forall (tok_ok P W) ts' ->
    (pos' <> [] -> dashed ts') -> List.length ts' < fuel -> steps P E W st st' ->
    match read_words fuel P E pos' ts' st' with None => False | Some (Go st2) => steps P E W st st2 | Some (Quit c fs) => quits P E W st c fs end).
  { intros pos' ts' st' H1 H2 H3 H4 H5 H6. pose proof (IH pos' ts' st' (fun o Ho => HP o (H1 o Ho)) H2 H3 H4 H5) as X.
    destruct (read_words fuel P E pos' ts' st') as [[st2|c fs]|]; [eapply steps_trans; eassumption|eapply quits_after; eassumption|assumption]. }
  pose proof (consume_positionals_ok P E W pos ts st HP HL HT HD) as CP.
  assert (NONOPT : match ts with TOpt _ _ _ _ _ :: _ => True | _ => ts <> [] ->
    match (match consume_positionals E pos ts st with
            | Quit c fs => Some (Quit c fs)
            | Go (st', pos', ts') =>
                if Nat.ltb (List.length ts') (List.length ts) then read_words fuel P E pos' ts' st'
                else let (words, ts'') := span_words ts in
                     read_words fuel P E pos' ts'' (MkPstate (p_ns st') (p_seen st') (p_files st') (p_extras st' ++ words))
            end) with None => False | Some (Go st2) => steps P E W st st2 | Some (Quit c fs) => quits P E W st c fs end end).
  { assert (M : (match ts with t :: _ => is_option t = false | [] => False end) ->
      match (match consume_positionals E pos ts st with
            | Quit c fs => Some (Quit c fs)
            | Go (st', pos', ts') =>
                if Nat.ltb (List.length ts') (List.length ts) then read_words fuel P E pos' ts' st'
                else let (words, ts'') := span_words ts in
                     read_words fuel P E pos' ts'' (MkPstate (p_ns st') (p_seen st') (p_files st') (p_extras st' ++ words))
            end) with None => False | Some (Go st2) => steps P E W st st2 | Some (Quit c fs) => quits P E W st c fs end).
    { intros HH. destruct (consume_positionals E pos ts st) as [[[st' pos'] ts']|c fs]; [|exact CP].
      destruct CP as (C1 & C2 & [(-> & C3)|(-> & ->)]).
      - replace (List.length ts' <? List.length ts)%nat with true by (symmetry; apply Nat.ltb_lt; lia).
        apply REC; try assumption; [intros o []|cbn; lia|congruence|lia].
      - rewrite Nat.ltb_irrefl. destruct (span_words ts) as [ws r] eqn:S.
        destruct (span_words_ok P W ts ws r HT S) as (S1 & S2 & S3 & S4).
        assert (List.length r < List.length ts) by (destruct ts; [destruct HH|auto]).
        apply REC; try assumption; [auto|auto|lia|]. eapply steps_trans; [exact C1|apply steps_extras]. }
    destruct ts as [|[s|s|o n eq att raw] ts]; try exact I; intros X; try (destruct X; reflexivity); apply M; reflexivity. }
  destruct (existsb is_option ts) eqn:EX.
  - destruct ts as [|[s|s|o n eq att raw] ts]; [discriminate|apply NONOPT; discriminate|apply NONOPT; discriminate|].
    inversion HT as [|x y H1 H2]; subst.
    pose proof (consume_optional_ok P E W o n eq att raw ts st H1 H2) as CO.
    destruct (consume_optional P E o n eq att raw ts st) as [[st' ts']|c fs]; [|exact CO].
    destruct CO as (C1 & C2 & C3 & C4). apply REC; try assumption; [auto| |cbn in HF; lia].
    intros Z. apply C4. exact (HD Z).
  - destruct (consume_positionals E pos ts st) as [[[st' pos'] ts']|c fs]; [|exact CP].
    destruct CP as (C1 & _). eapply steps_trans; [exact C1|apply steps_extras].
Qed.

(** The parsers of /repo have at most one positional argument, which takes one word. *)
Definition simple (P : list opt) : Prop :=
  List.length (positionals P) <= 1 /\ forall o, In o (positionals P) -> exists c ch, a_kind o = KOne c ch.

Lemma parse_steps P E fs argv : simple P ->
  let st0 := MkPstate (defaults P []) [] fs [] in
  match parse_args P E fs argv with
  | None => False
  | Some (Parsed ns fs') =>
      exists st, steps P E argv st0 st /\ p_ns st = ns /\ p_files st = fs' /\
        (forall o, In o P -> a_required o = true -> existsb (same_opt o) (p_seen st) = true)
  | Some (Exited c fs') => quits P E argv st0 c fs'
  end.
Proof.
  intros (HL & HK) st0. unfold parse_args. destruct (classify P argv) as [ts|] eqn:C.
  2:{ exists st0. split; [constructor|]. left. split; reflexivity. }
  destruct (classify_ok P argv argv ts (fun s H => H) C) as [C1 C2]. fold (positionals P). fold st0.
  pose proof (read_words_steps P E argv (S (List.length ts)) (positionals P) ts st0) as R.
  assert (HP : forall o, In o (positionals P) -> In o P /\ a_names o = [] /\ exists c ch, a_kind o = KOne c ch).
  { intros o Ho. pose proof (HK o Ho). unfold positionals in Ho. apply filter_In in Ho as [H1 H2]. destruct (a_names o); [auto|discriminate]. }
  specialize (R HP HL C1 (fun _ => C2) (Nat.lt_succ_diag_r _)).
  destruct (read_words _ P E (positionals P) ts st0) as [[st|c fs']|]; [|exact R|exact R].
  destruct (existsb _ P) eqn:X.
  - exists st. split; [exact R|]. left. auto.
  - destruct (p_extras st) eqn:EXT.
    + exists st. split; [exact R|]. split; [reflexivity|]. split; [reflexivity|].
      intros o Ho Hr. destruct (existsb (same_opt o) (p_seen st)) eqn:Y; [reflexivity|].
      assert (existsb (fun o => a_required o && negb (existsb (same_opt o) (p_seen st))) P = true) as Z; [|rewrite Z in X; discriminate X].
      apply existsb_exists. exists o. split; [assumption|]. rewrite Hr, Y. reflexivity.
    + exists st. split; [exact R|]. left. auto.
Qed.

(** Files. *)
Definition emptied (W : list str) (fs fs' : files) : Prop :=
  forall p, lookup fs' p = lookup fs p \/ (lookup fs' p = Some [] /\ from W p).

Lemma emptied_refl W fs : emptied W fs fs.
Proof. intros p. left; reflexivity. Qed.
Lemma emptied_trans W a b c : emptied W a b -> emptied W b c -> emptied W a c.
Proof.
  intros H1 H2 p. destruct (H2 p) as [->|X]; [apply H1|right; exact X].
Qed.

Lemma convert_emptied E W c s fs v fs' : from W s -> convert E c s fs = Some (v, fs') -> emptied W fs fs'.
Proof.
  intros HF H. unfold convert in H. destruct c.
  - destruct (int_of_str s); [|discriminate]. injection H as <- <-. apply emptied_refl.
  - destruct (e_float E s); [|discriminate]. injection H as <- <-. apply emptied_refl.
  - injection H as <- <-. apply emptied_refl.
  - destruct (str_eqb s [DASH]); [injection H as <- <-; apply emptied_refl|].
    destruct (dget str_eqb s fs); [|discriminate]. injection H as <- <-. apply emptied_refl.
  - destruct (str_eqb s [DASH]); [injection H as <- <-; apply emptied_refl|].
    destruct (e_writable E s); [|discriminate]. injection H as <- <-.
    intros p. unfold lookup. rewrite (dget_dset str_eqb str_eqb_eq). destruct (str_eqb p s) eqn:X; [|auto].
    apply str_eqb_eq in X. subst p. auto.
Qed.

Lemma convert_all_emptied E W c l fs r fs' : (forall s, In s l -> from W s) -> convert_all E c l fs = (r, fs') -> emptied W fs fs'.
Proof.
  revert fs r fs'. induction l as [|s l IH]; intros fs r fs' HF H; cbn [convert_all] in H.
  - injection H as <- <-. apply emptied_refl.
  - destruct (convert E c s fs) as [[v fs1]|] eqn:C; [|injection H as <- <-; apply emptied_refl].
    destruct (convert_all E c l fs1) as [r' fs2] eqn:A. injection H as <- <-.
    eapply emptied_trans; [eapply convert_emptied; [apply HF; left; reflexivity|exact C]|].
    eapply IH; [intros x Hx; apply HF; right; exact Hx|exact A].
Qed.

Lemma remove_dashes_in l s : In s (remove_dashes l) -> In s l.
Proof.
  induction l as [|x l IH]; [intros []|]. cbn. unfold DASH. destruct (str_eqb x [45; 45]%N); [auto|]. intros [<-|H]; [auto|]. right. apply IH, H.
Qed.

Lemma take_action_emptied E W o args st : (forall s, In s args -> from W s) ->
  match take_action E o args st with Go st' => emptied W (p_files st) (p_files st') | Quit c fs => emptied W (p_files st) fs /\ (c = 0 \/ c = 2)%Z end.
Proof.
  intros HF. unfold take_action. set (a := match a_names o with [] => _ | _ => _ end).
  assert (HA : forall s, In s a -> from W s).
  { intros s Hs. apply HF. unfold a in Hs. destruct (a_names o); [apply remove_dashes_in|]; exact Hs. }
  clearbody a. destruct (a_kind o) as [c ch|c|b|].
  - assert (ALL : match (match convert_all E c a (p_files st) with (None, fs) => Quit 2 fs
        | (Some vs, fs) => Go (MkPstate (dset str_eqb (a_dest o) (VMany vs) (p_ns st)) (o :: p_seen st) fs (p_extras st)) end)
        with Go st' => emptied W (p_files st) (p_files st') | Quit c fs => emptied W (p_files st) fs /\ (c = 0 \/ c = 2)%Z end).
    { destruct (convert_all E c a (p_files st)) as [[vs|] fs] eqn:A; [|split; [|auto]]; eapply convert_all_emptied; eassumption. }
    destruct a as [|s [|s' a]]; [exact ALL| |exact ALL].
    destruct (convert E c s (p_files st)) as [[v fs]|] eqn:C; [|split; [apply emptied_refl|auto]].
    assert (X : emptied W (p_files st) fs) by (eapply convert_emptied; [apply HA; left; reflexivity|exact C]).
    destruct (match ch with None => true | Some l => existsb (str_eqb s) l end); [exact X|split; [exact X|auto]].
  - destruct (convert_all E c a (p_files st)) as [[vs|] fs] eqn:A; [|split; [|auto]]; eapply convert_all_emptied; eassumption.
  - destruct (conflicts o (p_seen st)); [split; [apply emptied_refl|auto]|apply emptied_refl].
  - split; [apply emptied_refl|auto].
Qed.

Lemma steps_emptied P E W st st' : steps P E W st st' -> emptied W (p_files st) (p_files st').
Proof.
  intros H. induction H as [st|ns seen fs x y st _ IH|o args st st1 st2 Ho Hf HW HT _ IH]; [apply emptied_refl|exact IH|].
  pose proof (take_action_emptied E W o args st HW) as X. rewrite HT in X. eapply emptied_trans; eassumption.
Qed.

Lemma quits_emptied P E W st c fs : quits P E W st c fs -> emptied W (p_files st) fs /\ (c = 0 \/ c = 2)%Z.
Proof.
  intros (st' & H1 & [(-> & ->)|(o & args & Ho & Hf & HW & HT)]).
  - split; [eapply steps_emptied, H1|auto].
  - pose proof (take_action_emptied E W o args st' HW) as X. rewrite HT in X. destruct X as [X1 X2].
    split; [|exact X2]. eapply emptied_trans; [eapply steps_emptied, H1|exact X1].
Qed.

(** Kinds of values. *)
Definition kind_fits (W : list str) (k : akind) (v : value) : Prop :=
  match k with
  | KOne CInt _ => exists z, v = VInt z
  | KOne CFloat _ => exists s, v = VNum s
  | KOne CText ch => exists s, v = VText s /\ from W s /\ forall l, ch = Some l -> In s l
  | KOne CRead _ => v = VStdin \/ exists s, v = VIn s /\ from W s
  | KOne CWrite _ => v = VStdout \/ exists s, v = VOut s /\ from W s
  | KMany _ => exists vs, v = VMany vs
  | KFlag b => v = VBool b
  | KQuit => False
  end.

Lemma take_action_kind E W o args st st' : fits o args -> (forall s, In s args -> from W s) -> take_action E o args st = Go st' ->
  exists v, kind_fits W (a_kind o) v /\ p_ns st' = dset str_eqb (a_dest o) v (p_ns st) /\ p_seen st' = o :: p_seen st.
Proof.
  unfold fits, take_action. set (a := match a_names o with [] => remove_dashes args | _ => args end).
  intros HF HW H. assert (HA : forall s, In s a -> from W s).
  { intros s Hs. apply HW. unfold a in Hs. destruct (a_names o); [apply remove_dashes_in|]; exact Hs. }
  clearbody a. destruct (a_kind o) as [c ch|c|b|].
  - destruct HF as [s ->]. specialize (HA s (or_introl eq_refl)). destruct (convert E c s (p_files st)) as [[v fs]|] eqn:C; [|discriminate].
    destruct (match ch with None => true | Some l => existsb (str_eqb s) l end) eqn:CH; [|discriminate].
    injection H as <-. exists v. split; [|split; reflexivity].
    unfold convert in C. destruct c; cbn.
    + destruct (int_of_str s); [|discriminate]. injection C as <- _. eauto.
    + destruct (e_float E s); [|discriminate]. injection C as <- _. eauto.
    + injection C as <- _. exists s. split; [reflexivity|]. split; [assumption|]. intros l ->. apply existsb_exists in CH as (x & Hx & Ex).
      apply str_eqb_eq in Ex. subst x. exact Hx.
    + destruct (str_eqb s [DASH]); [injection C as <- _; auto|]. destruct (dget str_eqb s (p_files st)); [|discriminate]. injection C as <- _. eauto.
    + destruct (str_eqb s [DASH]); [injection C as <- _; auto|]. destruct (e_writable E s); [|discriminate]. injection C as <- _. eauto.
  - destruct (convert_all E c a (p_files st)) as [[vs|] fs]; [|discriminate]. injection H as <-. exists (VMany vs). cbn. eauto.
  - destruct (conflicts o (p_seen st)); [discriminate|]. injection H as <-. exists (VBool b). cbn. auto.
  - discriminate.
Qed.

Definition shaped (P : list opt) (W : list str) (st : pstate) : Prop :=
  (forall d v, default_of d P = Some v -> exists w, dget str_eqb d (p_ns st) = Some w /\
     (w = v \/ exists o, In o P /\ a_dest o = d /\ kind_fits W (a_kind o) w)) /\
  (forall o, In o (p_seen st) -> exists w o', dget str_eqb (a_dest o) (p_ns st) = Some w /\ In o' P /\ a_dest o' = a_dest o /\ kind_fits W (a_kind o') w).

Lemma steps_shaped P E W st st' : steps P E W st st' -> shaped P W st -> shaped P W st'.
Proof.
  intros H. induction H as [st|ns seen fs x y st _ IH|o args st st1 st2 Ho Hf HW HT _ IH]; intros HS; [assumption|apply IH, HS|].
  apply IH. destruct (take_action_kind _ _ _ _ _ _ Hf HW HT) as (v & Hv & En & Es). destruct HS as [S1 S2]. split.
  - intros d w Hd. rewrite En, (dget_dset str_eqb str_eqb_eq). destruct (str_eqb d (a_dest o)) eqn:X.
    + apply str_eqb_eq in X. exists v. split; [reflexivity|]. right. exists o. auto.
    + apply S1, Hd.
  - intros q Hq. rewrite Es in Hq. rewrite En, (dget_dset str_eqb str_eqb_eq). destruct (str_eqb (a_dest q) (a_dest o)) eqn:X.
    + apply str_eqb_eq in X. exists v, o. auto.
    + destruct Hq as [<-|Hq]; [rewrite str_eqb_refl in X; discriminate|apply S2, Hq].
Qed.

Theorem parsed_shape P E fs argv ns fs' : simple P -> parse_args P E fs argv = Some (Parsed ns fs') ->
  (forall d v, default_of d P = Some v -> exists w, dget str_eqb d ns = Some w /\
     (w = v \/ exists o, In o P /\ a_dest o = d /\ kind_fits argv (a_kind o) w)) /\
  (forall o, In o P -> a_required o = true -> exists w o', dget str_eqb (a_dest o) ns = Some w /\ In o' P /\ a_dest o' = a_dest o /\ kind_fits argv (a_kind o') w) /\
  emptied argv fs fs'.
Proof.
  intros HS H. pose proof (parse_steps P E fs argv HS) as X. cbv zeta in X. rewrite H in X. destruct X as (st & X1 & <- & <- & X4).
  assert (S0 : shaped P argv (MkPstate (defaults P []) [] fs [])).
  { split; [|intros o []]. intros d v Hd. cbn [p_ns]. exists v. rewrite defaults_get. cbn [dget]. auto. }
  destruct (steps_shaped _ _ _ _ _ X1 S0) as [S1 S2]. split; [exact S1|]. split; [|exact (steps_emptied _ _ _ _ _ X1)].
  intros o Ho Hr. specialize (X4 o Ho Hr). apply existsb_exists in X4 as (q & Hq & Eq). unfold same_opt in Eq.
  apply andb_true_iff in Eq as [_ Eq]. apply str_eqb_eq in Eq. rewrite Eq. apply S2, Hq.
Qed.

Theorem parse_total P E fs argv : simple P ->
  exists r, parse_args P E fs argv = Some r /\
    match r with Parsed _ fs' => emptied argv fs fs' | Exited c fs' => emptied argv fs fs' /\ (c = 0 \/ c = 2)%Z end.
Proof.
  intros HS. pose proof (parse_steps P E fs argv HS) as X. cbv zeta in X.
  destruct (parse_args P E fs argv) as [[ns fs'|c fs']|]; [| |destruct X].
  - destruct X as (st & X1 & _ & <- & _). eexists. split; [reflexivity|]. exact (steps_emptied _ _ _ _ _ X1).
  - eexists. split; [reflexivity|]. exact (quits_emptied _ _ _ _ _ _ X).
Qed.
