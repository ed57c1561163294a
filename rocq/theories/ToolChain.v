(** Runs of the commands one after another. *)
From Coq Require Import Strings.String Lia.
From Verif Require Import Py PyStr PyLemmas NumProofs StrSpec Utf8Model JsonModel JsonProofs CodecModel VocabFileModel LearnModel LearnSpec DriverModel DriverSpec FreqModel FreqProofs EvalModel MultipartModel BitextModel MainModel
     ArgModel ArgSpec CmdModel CmdSpec ArgProofs ArgSound CmdProofs ToolModel ToolSpec ToolProofs ToolEnd.
Local Open Scope list_scope.

Lemma beside_fun p s w w' : beside p s w -> beside p s w' -> w = w'.
Proof. intros H1 H2. apply with_suffix_beside in H1, H2. congruence. Qed.
Lemma beside_some p s s' w : beside p s w -> exists w', beside p s' w'.
Proof.
  intros H. apply with_suffix_beside in H. unfold with_suffix in H. destruct (last_slash p) as [d n] eqn:E.
  destruct (str_eqb n [] || str_eqb n (lit ".")) eqn:X; [discriminate|].
  eexists. apply with_suffix_beside. unfold with_suffix. rewrite E, X. reflexivity.
Qed.

Definition stats_name (q : lasked) (model s : str) : Prop :=
  beside model (if str_eqb (l_level q) (lit "char") then lit ".charfreq.gz" else lit ".wordfreq.gz") s.

Lemma texts_same lines f f' ps texts texts' : (forall p, In p ps -> f p = f' p) -> texts_at lines f ps texts -> texts_at lines f' ps texts' -> texts = texts'.
Proof.
  unfold texts_at. intros H H1. revert texts'. induction H1 as [|p t ps texts (b & Hb & ->) _ IH]; intros texts' H2; inversion H2 as [|x t' y r (b' & Hb' & ->) H3]; subst; [reflexivity|].
  f_equal; [|apply IH; [|assumption]; intros x Hx; apply H; right; exact Hx]. rewrite (H p (or_introl eq_refl)) in Hb. congruence.
Qed.
Lemma texts_there lines f ps texts p : texts_at lines f ps texts -> In p ps -> f p <> None.
Proof.
  intros H. induction H as [|x t ps texts (b & Hb & _) _ IH]; [intros []|]. intros [->|Hp]; [congruence|apply IH, Hp].
Qed.

(** A run depends on the files it names, and on nothing else. *)
Lemma learns_same A orders version now sp Y lines f f' q model g e g' e' :
  (forall s, stats_name q model s -> (f s = None <-> f' s = None)) -> (forall ps p, l_inp q = Some ps -> In p ps -> f p = f' p) -> f model = f' model ->
  learns A orders version now sp Y lines f q model g e -> learns A orders version now sp Y lines f' q model g' e' ->
  e = e' /\ forall p, f p = f' p -> g p = g' p.
Proof.
  intros HS HI HM H1 H2.
  assert (SN : forall w c, beside model (lit ".wordfreq.gz") w -> beside model (lit ".charfreq.gz") c -> stats_name q model (if str_eqb (l_level q) (lit "char") then c else w)).
  { intros w c W C. unfold stats_name. destruct (str_eqb (l_level q) (lit "char")); assumption. }
  destruct H1 as [N|w c W C S|w c W C S I|w c ps p W C S I Ip Fp|w c ps texts g e W C S I T L];
    destruct H2 as [N'|w' c' W' C' S'|w' c' W' C' S' I'|w' c' ps' p' W' C' S' I' Ip' Fp'|w' c' ps' texts' g' e' W' C' S' I' T' L'];
    try (exfalso; eapply N; eassumption); try (exfalso; eapply N'; eassumption); try (split; [reflexivity|intros x Hx; exact Hx]);
    try (assert (w' = w) by (eapply beside_fun; eassumption); assert (c' = c) by (eapply beside_fun; eassumption); subst w' c').
  all: try (exfalso; specialize (HS _ (SN w c W C)); tauto).
  all: try congruence.
  all: try (assert (ps' = ps) by congruence; subst ps').
  - exfalso. apply (texts_there _ _ _ _ p T'); [assumption|]. rewrite <- (HI ps p I Ip). exact Fp.
  - exfalso. apply (texts_there _ _ _ _ p' T); [assumption|]. rewrite (HI ps p' I Ip'). exact Fp'.
  - assert (texts' = texts) by (symmetry; eapply texts_same; [|exact T|exact T']; intros x Hx; apply (HI ps); assumption). subst texts'.
    rewrite HM in L. rewrite L in L'. injection L' as <- <-. split; [reflexivity|]. intros x Hx. rewrite Hx. reflexivity.
Qed.

Theorem learn_depends (A : arith) orders version now sp (Y : system A) lines fs fs' l :
  Forall (lsensible (y_env Y)) l -> (exists p, In (LModel p) (map snd l)) ->
  (forall b b', In (LDedup b) (map snd l) -> In (LDedup b') (map snd l) -> b = b') ->
  let q := fold_left lask (map snd l) lnothing in
  (forall model s, l_model q = Some model -> stats_name q model s -> (lookup fs s = None <-> lookup fs' s = None)) ->
  (forall ps p, l_inp q = Some ps -> In p ps -> lookup fs p = lookup fs' p) ->
  (forall model, l_model q = Some model -> lookup fs model = lookup fs' model) ->
  exists e e', learn_program A orders version now sp Y lines fs (flat_map lwords l) = Some e /\
    learn_program A orders version now sp Y lines fs' (flat_map lwords l) = Some e' /\
    x_exc e = x_exc e' /\ x_status e = x_status e' /\ forall p, lookup fs p = lookup fs' p -> lookup (x_files e) p = lookup (x_files e') p.
Proof.
  intros HS HM HD q H1 H2 H3.
  destruct (learn_does A orders version now sp Y lines fs l HS HM HD) as (model & e & g & Q & E & L & F & S & _).
  destruct (learn_does A orders version now sp Y lines fs' l HS HM HD) as (model' & e' & g' & Q' & E' & L' & F' & S' & _).
  fold q in Q, Q', L, L'. assert (model' = model) by congruence. subst model'.
  destruct (learns_same A orders version now sp Y lines (lookup fs) (lookup fs') q model g (x_exc e) g' (x_exc e')) as [Ee Ef]; try assumption.
  { intros s Hs. apply (H1 model); assumption. } { apply H3, Q. }
  exists e, e'. split; [exact E|]. split; [exact E'|]. split; [exact Ee|]. split; [rewrite S, S', Ee; reflexivity|].
  intros p Hp. rewrite F, F'. apply Ef, Hp.
Qed.

(** What a run changes. *)
Theorem learn_changes (A : arith) orders version now sp (Y : system A) lines fs l e p :
  Forall (lsensible (y_env Y)) l -> (exists p, In (LModel p) (map snd l)) ->
  (forall b b', In (LDedup b) (map snd l) -> In (LDedup b') (map snd l) -> b = b') ->
  learn_program A orders version now sp Y lines fs (flat_map lwords l) = Some e -> lookup (x_files e) p <> lookup fs p ->
  exists model, l_model (fold_left lask (map snd l) lnothing) = Some model /\ (p = model \/ beside model (lit ".wordfreq.gz") p \/ beside model (lit ".charfreq.gz") p).
Proof.
  intros HS HM HD He Hp. destruct (learn_does A orders version now sp Y lines fs l HS HM HD) as (model & e' & g & Q & E & L & F & _).
  assert (e' = e) by congruence. subst e'. exists model. split; [exact Q|]. rewrite F in Hp. clear F.
  destruct L as [N|w c W C S|w c W C S I|w c ps x W C S I Ip Fp|w c ps texts g e0 W C S I T L]; try congruence.
  destruct (str_eqb p model) eqn:X1; [left; apply str_eqb_eq, X1|]. right.
  destruct (str_eqb p c) eqn:X2; [right; apply str_eqb_eq in X2; subst p; exact C|].
  destruct (str_eqb p w) eqn:X3; [left; apply str_eqb_eq in X3; subst p; exact W|]. congruence.
Qed.

(** One run after another. *)
Theorem learn_twice (A : arith) orders version now sp (Y : system A) lines fs l1 e1 l2 :
  Forall (lsensible (y_env Y)) l1 -> (exists p, In (LModel p) (map snd l1)) ->
  (forall b b', In (LDedup b) (map snd l1) -> In (LDedup b') (map snd l1) -> b = b') ->
  Forall (lsensible (y_env Y)) l2 -> (exists p, In (LModel p) (map snd l2)) ->
  (forall b b', In (LDedup b) (map snd l2) -> In (LDedup b') (map snd l2) -> b = b') ->
  learn_program A orders version now sp Y lines fs (flat_map lwords l1) = Some e1 ->
  let q1 := fold_left lask (map snd l1) lnothing in
  let q2 := fold_left lask (map snd l2) lnothing in
  (forall m1 m2 p, l_model q1 = Some m1 -> l_model q2 = Some m2 ->
     p = m1 \/ beside m1 (lit ".wordfreq.gz") p \/ beside m1 (lit ".charfreq.gz") p ->
     p <> m2 /\ ~ beside m2 (lit ".wordfreq.gz") p /\ ~ beside m2 (lit ".charfreq.gz") p /\ (forall ps, l_inp q2 = Some ps -> ~ In p ps)) ->
  exists e e2, learn_program A orders version now sp Y lines fs (flat_map lwords l2) = Some e /\
    learn_program A orders version now sp Y lines (x_files e1) (flat_map lwords l2) = Some e2 /\
    x_exc e2 = x_exc e /\ x_status e2 = x_status e /\
    forall m2 p, l_model q2 = Some m2 -> p = m2 \/ beside m2 (lit ".wordfreq.gz") p \/ beside m2 (lit ".charfreq.gz") p ->
      lookup (x_files e2) p = lookup (x_files e) p.
Proof.
  intros HS1 HM1 HD1 HS2 HM2 HD2 E1 q1 q2 HX.
  assert (UN : forall m2 p, l_model q2 = Some m2 ->
     (p = m2 \/ beside m2 (lit ".wordfreq.gz") p \/ beside m2 (lit ".charfreq.gz") p \/ exists ps, l_inp q2 = Some ps /\ In p ps) -> lookup fs p = lookup (x_files e1) p).
  { intros m2 p Q2 Hp. assert (X : forall a b : option (list N), {a = b} + {a <> b}) by (decide equality; apply (list_eq_dec N.eq_dec)).
    destruct (X (lookup (x_files e1) p) (lookup fs p)) as [Hx|Hx]; [congruence|]. exfalso.
    destruct (learn_changes A orders version now sp Y lines fs l1 e1 p HS1 HM1 HD1 E1 Hx) as (m1 & Q1 & Hm). fold q1 in Q1.
    destruct (HX m1 m2 p Q1 Q2 Hm) as (N1 & N2 & N3 & N4). destruct Hp as [Hp|[Hp|[Hp|(ps & Hp1 & Hp2)]]]; [exact (N1 Hp)|exact (N2 Hp)|exact (N3 Hp)|exact (N4 ps Hp1 Hp2)]. }
  destruct (learn_depends A orders version now sp Y lines fs (x_files e1) l2 HS2 HM2 HD2) as (e & e2 & H1 & H2 & H3 & H4 & H5); fold q2.
  - intros m2 s Q2 Hs. rewrite (UN m2 s Q2); [tauto|]. unfold stats_name in Hs. destruct (str_eqb (l_level q2) (lit "char")); tauto.
  - intros ps p Hps Hp. destruct (l_model q2) as [m2|] eqn:Q2.
    + apply (UN m2 p eq_refl). right; right; right. exists ps. split; assumption.
    + exfalso. destruct HM2 as [mp HM2]. apply (lmodel_asked (map snd l2) lnothing mp (or_introl HM2)). exact Q2.
  - intros m2 Q2. apply (UN m2 m2 Q2). left; reflexivity.
  - exists e, e2. split; [exact H1|]. split; [exact H2|]. split; [symmetry; exact H3|]. split; [symmetry; exact H4|].
    intros m2 p Q2 Hp. symmetry. apply H5. apply (UN m2 p Q2). tauto.
Qed.

(** nlcodec-freq and then nlcodec learn on its output, against nlcodec-learn. *)
Theorem two_steps (A : arith) orders version now sp (Y : system A) lines fs stdin lf before after l :
  spark_counting sp -> (forall t b, utf8_encode t = Ok b -> y_text Y (y_bytes Y t) = t) ->
  Forall (fsensible (y_env Y)) lf ->
  Forall (lsensible (y_env Y)) l -> (forall b b', In (LDedup b) (map snd l) -> In (LDedup b') (map snd l) -> b = b') ->
  let qf := fold_left fask (map snd lf) fnothing in
  let qm := fold_left ask (map snd (before ++ after)) nothing_asked in
  let q := fold_left lask (map snd l) lnothing in
  forall ps W C M,
  (exists p, In (LModel p) (map snd l)) -> (exists p, In (SModel p) (map snd (before ++ after))) ->
  f_inp qf = Some ps -> f_wf qf = Some (File W) -> f_cf qf = Some (File C) -> W <> C ->
  (forall p, In (FWords p) (map snd lf) -> p = W) -> (forall p, In (FChars p) (map snd lf) -> p = C) ->
  l_inp q = Some ps -> l_model q = Some M -> l_dedup q = f_dd qf ->
  q_model qm = Some M -> q_tfs qm = true -> q_inp qm = Some (if str_eqb (l_level q) (lit "char") then C else W) -> (forall p, ~ In (SOut p) (map snd (before ++ after))) ->
  q_level qm = Some (l_level q) -> q_vs qm = l_vs q -> q_mf qm = l_mf q -> q_cv qm = l_cv q -> q_mce qm = l_mce q ->
  ps <> [] -> (forall p, In p ps -> p <> W /\ p <> C /\ exists b, lookup fs p = Some b /\ forall r, In r (lines b) -> scalars r) ->
  M <> W -> M <> C -> (forall s, stats_name q M s -> lookup fs s = None) -> (exists s, stats_name q M s) ->
  exists e1 e3, freq_program sp Y lines fs (flat_map fwords lf) = Some e1 /\ learn_program A orders version now sp Y lines fs (flat_map lwords l) = Some e3 /\
    match x_exc e1 with
    | Some e => x_exc e3 = Some e /\ lookup (x_files e3) M = lookup fs M
    | None => Forall (sensible (y_env Y) (lookup (x_files e1))) (before ++ after) -> exists e2,
        program A orders version now Y (x_files e1) stdin (flat_map CmdSpec.words_of before ++ [lit "learn"] ++ flat_map CmdSpec.words_of after) = Some e2 /\
        x_exc e2 = x_exc e3 /\ x_status e2 = x_status e3 /\ lookup (x_files e2) M = lookup (x_files e3) M
    end.
Proof.
  intros Hsp Hyt HSf HSl HDl qf qm q ps W C M HM HMs QI QW QC WC OW OC LI LM LD MM MT MI NO ML MV MF MC ME Hps HP MW MC' ST [s0 Hs0].
  destruct (freq_does sp Y lines fs lf HSf) as (e1 & f1 & E1 & L1 & F1 & S1 & _). fold qf in L1. set (f := fold_left fopens (map snd lf) (lookup fs)) in *.
  destruct (learn_does A orders version now sp Y lines fs l HSl HM HDl) as (M' & e3 & f3 & Q3 & E3 & L3 & F3 & S3 & _ & _). fold q in Q3, L3.
  assert (M' = M) by congruence. subst M'.
  assert (FP : forall p, p <> W -> p <> C -> f p = lookup fs p).
  { intros p H1 H2. unfold f. clear - OW OC H1 H2. generalize (lookup fs). induction (map snd lf) as [|s r IH]; intros g; [reflexivity|]. cbn [fold_left].
    rewrite IH; [|intros x Hx; apply OW; right; exact Hx|intros x Hx; apply OC; right; exact Hx].
    destruct s as [x|x|x|x]; cbn [fopens]; try reflexivity; (destruct (str_eqb x (lit "-")); [reflexivity|]).
    - rewrite (OW x (or_introl eq_refl)). apply str_eqb_neq in H1. rewrite H1. reflexivity.
    - rewrite (OC x (or_introl eq_refl)). apply str_eqb_neq in H2. rewrite H2. reflexivity. }
  exists e1, e3. split; [exact E1|]. split; [exact E3|].
  (* the texts *)
  assert (TX : exists texts, texts_at lines (lookup fs) ps texts /\ (forall t r, In t texts -> In r t -> scalars r)).
  { clear - HP. induction ps as [|p ps IH]; [exists []; split; [constructor|intros t r []]|].
    destruct IH as (texts & H1 & H2); [intros x Hx; apply HP; right; exact Hx|]. destruct (HP p (or_introl eq_refl)) as (_ & _ & b & Hb & Hs).
    exists (lines b :: texts). split; [constructor; [exists b; auto|exact H1]|]. intros t r [<-|Ht] Hr; [apply Hs, Hr|apply (H2 t r); assumption]. }
  destruct TX as (texts & TX & SC).
  assert (TX1 : texts_at lines f ps texts).
  { unfold texts_at in *. assert (X : forall p, In p ps -> f p = lookup fs p) by (intros p Hp; destruct (HP p Hp) as (H1 & H2 & _); apply FP; assumption).
    clear - TX X. induction TX as [|p t ps texts (b & Hb & Ht) _ IH]; constructor; [exists b; rewrite X by (left; reflexivity); auto|apply IH; intros y Hy; apply X; right; exact Hy]. }
  assert (TN : texts <> []) by (intros ->; inversion TX; congruence).
  pose (o := asked_options Y (lookup (x_files e1)) stdin (lit "learn") qm).
  assert (FTL := freq_then_learn A orders version now sp (MkFreqFiles None None) texts (negb (f_dd qf)) (lookup fs M) o (l_level q) eq_refl ML).
  assert (HL : l_level q <> []).
  { assert (X : l_level q = lit "bpe" \/ exists st, lsensible (y_env Y) (st, LLevel (l_level q))).
    { unfold q. clear - HSl. assert (G : forall r g, Forall (lsensible (y_env Y)) r -> (l_level g = lit "bpe" \/ exists st, lsensible (y_env Y) (st, LLevel (l_level g))) ->
        l_level (fold_left lask (map snd r) g) = lit "bpe" \/ exists st, lsensible (y_env Y) (st, LLevel (l_level (fold_left lask (map snd r) g)))).
      { induction r as [|[st s] r IH]; intros g Hr Hg; [exact Hg|]. inversion Hr as [|x y H1 H2]; subst. cbn [map fold_left snd]. apply IH; [exact H2|].
        destruct g as [inp model vs level mf cv mce dd]. destruct s; cbn [lask l_level]; try exact Hg. right. exists st. exact H1. }
      apply G; [exact HSl|left; reflexivity]. }
    destruct X as [->|(st & _ & X)]; [discriminate|]. cbn in X. intros Y0. rewrite Y0 in X. intuition discriminate. }
  specialize (FTL HL MT Hsp TN SC). cbv zeta in FTL. rewrite Bool.negb_involutive in FTL.
  assert (O1 : o_vocab_size o = l_vs q) by exact MV. assert (O2 : o_min_freq o = l_mf q) by exact MF.
  assert (O3 : o_coverage o = y_num Y (l_cv q)) by (cbn; rewrite MC; reflexivity). assert (O4 : o_min_co_ev o = l_mce q) by exact ME.
  rewrite O1, O2, O3, O4 in FTL. rewrite <- LD in FTL.
  (* nlcodec-learn runs *)
  inversion L3 as [N|w c W0 C0 Sx|w c W0 C0 Sx I0|w c ps0 p W0 C0 Sx I0 Ip Fp|w c ps0 texts0 g e0 W0 C0 Sx I0 T0 LL]; try (rewrite LI in I0; injection I0 as <-).
  { exfalso. eapply N. exact Hs0. }
  { exfalso. apply Sx. apply ST. unfold stats_name. destruct (str_eqb (l_level q) (lit "char")); assumption. }
  { exfalso. congruence. }
  { exfalso. apply (texts_there _ _ _ _ p TX); assumption. }
  assert (texts0 = texts) by (eapply texts_same; [|exact T0|exact TX]; reflexivity). subst texts0. subst e0.
  rewrite LL in FTL. cbn [fst snd] in FTL.
  assert (F3M : lookup (x_files e3) M = f_model g) by (rewrite F3; subst f3; rewrite str_eqb_refl; reflexivity).
  (* nlcodec-freq runs *)
  assert (FM : exists g1, freq_main sp (MkFreqFiles None None) (Some texts) true true (negb (f_dd qf)) = (g1, x_exc e1) /\
     (x_exc e1 = None -> forall p, f1 p = if str_eqb p C then option_map (y_bytes Y) (q_chars g1) else if str_eqb p W then option_map (y_bytes Y) (q_words g1) else f p)).
  { inversion L1 as [N1 N2 X1 X2 X3|ps1 p N1 I1 Ip Fp X1 X2 X3|N1 I1 X1 X2 X3|ps1 texts1 e g1 N1 I1 T1 FM X1 X2 X3|ps1 texts1 g1 N1 I1 T1 FM X1 X2 X3]; try congruence;
      rewrite QI in I1; injection I1 as <-.
    - exfalso. apply (texts_there _ _ _ _ p TX1); assumption.
    - assert (texts1 = texts) by (eapply texts_same; [|exact T1|exact TX1]; reflexivity). subst texts1. rewrite QW, QC in FM. exists g1. split; [exact FM|discriminate].
    - assert (texts1 = texts) by (eapply texts_same; [|exact T1|exact TX1]; reflexivity). subst texts1. rewrite QW, QC in FM. exists g1. split; [exact FM|].
      intros _ p. rewrite QW, QC. reflexivity. }
  destruct FM as (g1 & FM & FF). rewrite LD in FTL. rewrite FM in FTL. cbn [fst snd] in FTL.
  destruct (x_exc e1) as [ex|] eqn:XE.
  { destruct FTL as (-> & H2 & H3). rewrite H2. split; [reflexivity|]. rewrite F3M. exact H3. }
  intros HSn. destruct FTL as (t & bytes & T1 & T2 & T3).
  assert (FL : forall p, fold_left opens (map snd (before ++ after)) (lookup (x_files e1)) p = lookup (x_files e1) p).
  { intros p. clear - NO. revert NO. generalize (lookup (x_files e1)). induction (map snd (before ++ after)) as [|s r IH]; intros h NO; [reflexivity|]. cbn [fold_left].
    rewrite IH by (intros x Hx; apply (NO x); right; exact Hx). destruct s as [x| |x|x| |x|x|x|x|x]; try reflexivity. exfalso. apply (NO x). left; reflexivity. }
  destruct (nlcodec_understood A Y orders version now (x_files e1) stdin before (lit "learn") after) as (M2 & e2 & Q2 & E2 & S2 & X2 & _ & _ & F2);
    [left; reflexivity|exact HSn|exact HMs|]. fold qm in Q2, E2, S2, X2, F2.
  set (h := fold_left opens (map snd (before ++ after)) (lookup (x_files e1))) in *.
  assert (M2 = M) by congruence. subst M2.
  assert (EO : asked_options Y h stdin (lit "learn") qm = with_inp o t).
  { unfold asked_options, with_inp, o. cbn [o_task o_term_freqs o_indices o_vocab_size o_level o_min_freq o_coverage o_min_co_ev asked_options]. f_equal.
    unfold asked_input. rewrite MI, FL, F1. rewrite (FF eq_refl). destruct (str_eqb (l_level q) (lit "char")).
    - rewrite str_eqb_refl, T1. cbn [option_map]. apply (Hyt t bytes T2).
    - apply str_eqb_neq in WC. rewrite WC, str_eqb_refl, T1. cbn [option_map]. apply (Hyt t bytes T2). }
  assert (HM1 : h M = lookup fs M).
  { unfold h. rewrite FL, F1, (FF eq_refl). pose proof MW as MW1. pose proof MC' as MC1. apply str_eqb_neq in MW1, MC1. rewrite MC1, MW1. apply FP; assumption. }
  unfold learn_file in T3. rewrite (strict_back t bytes T2) in T3. rewrite EO, HM1, T3 in *. cbn [r_exc r_model r_out] in *.
  exists e2. split; [exact E2|]. split; [exact X2|]. split; [rewrite S2, S3; reflexivity|].
  rewrite F2. unfold left_on_disk. cbn [r_out r_model].
  match goal with |- (if ?X then _ else _) = _ => replace X with false by (destruct (q_out qm); [rewrite andb_false_r|]; reflexivity) end.
  rewrite F3M, !str_eqb_refl. cbn [andb].
  destruct (f_model g) as [b|] eqn:GM; [reflexivity|]. rewrite HM1.
  revert LL. unfold learn_main. cbn [f_words f_chars f_model].
  replace (if str_eqb (l_level q) (lit "char") then @None str else None) with (@None str) by (destruct (str_eqb (l_level q) (lit "char")); reflexivity).
  destruct (word_counts sp texts (l_dedup q)) as [[[ww cc] n]|e'].
  - destruct (learn_vocab A orders version now _ _ true _ _ true _ _) as [[b|] r]; intros X; injection X as <- _; cbn [f_model] in GM; [discriminate|exact GM].
  - intros X. injection X as <- _. exact GM.
Qed.
