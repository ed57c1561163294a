(** nlcodec-learn, nlcodec-freq and nlcodec-bitextdb do what their command lines say. *)
From Coq Require Import Strings.String Lia.
From Verif Require Import Py PyStr PyLemmas NumProofs CodecModel VocabFileModel LearnModel DriverModel FreqModel EvalModel MultipartModel BitextModel MainModel
     ArgModel ArgSpec CmdModel CmdSpec ArgProofs ArgSound CmdProofs ToolModel ToolSpec ToolProofs.
Local Open Scope list_scope.

Lemma fold_step {S Q V : Type} (upd : V -> S -> V) (ask : Q -> S -> Q) (val : Q -> V) (l : list S) :
  (forall q s, upd (val q) s = val (ask q s)) -> forall q, fold_left upd l (val q) = val (fold_left ask l q).
Proof. intros H. induction l as [|s l IH]; intros q; [reflexivity|]. cbn [fold_left]. rewrite H. apply IH. Qed.

Lemma fold_same {S : Type} (l : list S) (f : disk) : fold_left (fun (g : disk) (_ : S) => g) l f = f.
Proof. induction l as [|s l IH]; [reflexivity|exact IH]. Qed.

Lemma reads_texts E ps f : reads_all E CText ps f (map VText ps) f.
Proof. induction ps as [|p ps IH]; econstructor; [apply reads_text|exact IH]. Qed.

Lemma read_paths_some lines fs ps texts : read_paths lines fs (map VText ps) = Some texts <-> texts_at lines (lookup fs) ps texts.
Proof.
  unfold texts_at. revert texts. induction ps as [|p ps IH]; intros texts; cbn [map read_paths fold_right].
  - split; [intros H; injection H as <-; constructor|intros H; inversion H; reflexivity].
  - change (fold_right _ (Some []) (map VText ps)) with (read_paths lines fs (map VText ps)). split.
    + destruct (read_paths lines fs (map VText ps)) as [r|]; [|discriminate]. destruct (dget str_eqb p fs) as [b|] eqn:B; [|discriminate].
      intros H. injection H as <-. constructor; [exists b; split; [exact B|reflexivity]|apply IH; reflexivity].
    + intros H. inversion H as [|x t y r (b & Hb & ->) H2]; subst. apply IH in H2. rewrite H2. unfold lookup in Hb. rewrite Hb. reflexivity.
Qed.
Lemma read_paths_none lines fs ps : read_paths lines fs (map VText ps) = None -> exists p, In p ps /\ lookup fs p = None.
Proof.
  induction ps as [|p ps IH]; cbn [map read_paths fold_right]; [discriminate|].
  change (fold_right _ (Some []) (map VText ps)) with (read_paths lines fs (map VText ps)).
  destruct (read_paths lines fs (map VText ps)) as [r|].
  - destruct (dget str_eqb p fs) as [b|] eqn:B; [discriminate|]. intros _. exists p. split; [left; reflexivity|exact B].
  - intros _. destruct (IH eq_refl) as (x & H1 & H2). exists x. split; [right; exact H1|exact H2].
Qed.

(** *** nlcodec-learn *)
Definition lopt (s : lset) : opt :=
  match s with
  | LInp _ => MkOpt [lit "-i"; lit "--inp"] (lit "inp") (KMany CText) false VNone None
  | LModel _ => one "-m" "--model" "model" CText true VNone
  | LVocabSize _ => one "-vs" "--vocab-size" "vocab_size" CInt false (VInt (-1))
  | LLevel _ => MkOpt [lit "-l"; lit "--level"] (lit "level") (KOne CText (Some LEVELS)) false (VText (lit "bpe")) None
  | LMinFreq _ => one "-mf" "--min-freq" "min_freq" CInt false VNone
  | LCoverage _ => one "-cv" "--char-coverage" "char_coverage" CFloat false (VNum DEF_CHAR_COVERAGE_TEXT)
  | LMinCoEv _ => one "-mce" "--min-co-ev" "min_co_ev" CInt false (VInt 95)
  | LSpark _ => one "-spark" "--spark-master" "spark_master" CText false (VText (lit "local[*]"))
  | LMem _ => one "-dm" "--driver-mem" "driver_mem" CText false (VText (lit "4g"))
  | LDedup true => flag ["--dedup"]%string "dedup" true (VBool false) (Some 0)
  | LDedup false => flag ["--no-dedup"]%string "dedup" false (VBool false) (Some 0)
  end.
Definition lval (s : lset) : value :=
  match s with
  | LInp ps => VMany (map VText ps)
  | LModel p | LLevel p | LSpark p | LMem p => VText p
  | LVocabSize z | LMinFreq z | LMinCoEv z => VInt z
  | LCoverage t => VNum t
  | LDedup b => VBool b
  end.
Inductive lfield : Type := GInp | GModel | GVs | GLevel | GMf | GCv | GMce | GDedup.
Definition ldest (d : lfield) : string :=
  match d with GInp => "inp" | GModel => "model" | GVs => "vocab_size" | GLevel => "level" | GMf => "min_freq" | GCv => "char_coverage"
  | GMce => "min_co_ev" | GDedup => "dedup" end%string.
Definition lvalue (d : lfield) (q : lasked) : value :=
  match d with
  | GInp => match l_inp q with None => VNone | Some ps => VMany (map VText ps) end
  | GModel => match l_model q with None => VNone | Some p => VText p end
  | GVs => VInt (l_vs q)
  | GLevel => VText (l_level q)
  | GMf => match l_mf q with None => VNone | Some z => VInt z end
  | GCv => VNum (l_cv q)
  | GMce => VInt (l_mce q)
  | GDedup => VBool (l_dedup q)
  end.
Lemma lstep d q s : (if str_eqb (a_dest (lopt s)) (lit (ldest d)) then lval s else lvalue d q) = lvalue d (lask q s).
Proof. destruct q as [inp model vs level mf cv mce dd]. destruct s as [ps|p|z|l|z|t|z|s|s|[]], d; reflexivity. Qed.

Lemma lmodel_asked (l : list lset) q p : In (LModel p) l \/ l_model q <> None -> l_model (fold_left lask l q) <> None.
Proof.
  revert q. induction l as [|s l IH]; intros q H; [destruct H as [[]|H]; exact H|]. cbn [fold_left]. apply IH.
  destruct H as [[->|H]|H]; [right; destruct q; discriminate|left; exact H|right; destruct q, s; cbn in *; congruence].
Qed.

Lemma learn_line E fs l : Forall (lsensible E) l -> (exists p, In (LModel p) (map snd l)) ->
  (forall b b', In (LDedup b) (map snd l) -> In (LDedup b') (map snd l) -> b = b') ->
  let q := fold_left lask (map snd l) lnothing in
  exists ns fs', parse_args learn_parser E fs (flat_map lwords l) = Some (Parsed ns fs') /\ (forall p, lookup fs' p = lookup fs p) /\
    forall d, get ns (ldest d) = Some (lvalue d q).
Proof.
  intros HS [mp HM] HD q.
  assert (HS' : forall s, In s (map snd l) -> exists st, lsensible E (st, s)).
  { intros s Hs. apply in_map_iff in Hs as ([st t] & <- & Hs). exists st. rewrite Forall_forall in HS. apply HS, Hs. }
  destruct (tool_understood learn_parser E lspelt lopt lval (fun f _ => f) fs l) as (ns & fs' & E1 & E2 & E3).
  - right; left; reflexivity.
  - reflexivity.
  - intros s Hs. destruct (HS' s Hs) as (st & _ & HV). cbn [snd] in HV.
    split; [destruct s as [ps|p|z|v|z|t|z|s|s|[]]; cbn; tauto|]. split; [destruct s as [ps|p|z|v|z|t|z|s|s|[]]; reflexivity|].
    destruct s as [ps|p|z|v|z|t|z|s|s|[]]; cbn [lopt one flag a_kind lspelt lval snd].
    + split; [exact HV|]. exists (map VText ps). split; [reflexivity|]. intros f. apply reads_texts.
    + exists p. split; [reflexivity|]. split; [discriminate|]. intros f. apply reads_text.
    + eexists. split; [reflexivity|]. split; [discriminate|]. intros f. apply reads_int.
    + eexists. split; [reflexivity|]. split; [intros ch X; injection X as <-; exact HV|]. intros f. apply reads_text.
    + eexists. split; [reflexivity|]. split; [discriminate|]. intros f. apply reads_int.
    + eexists. split; [reflexivity|]. split; [discriminate|]. intros f. apply reads_float, HV.
    + eexists. split; [reflexivity|]. split; [discriminate|]. intros f. apply reads_int.
    + eexists. split; [reflexivity|]. split; [discriminate|]. intros f. apply reads_text.
    + eexists. split; [reflexivity|]. split; [discriminate|]. intros f. apply reads_text.
    + split; [reflexivity|]. split; [reflexivity|]. reflexivity.
    + split; [reflexivity|]. split; [reflexivity|]. reflexivity.
  - intros ss Hs. rewrite Forall_forall in HS. apply (HS ss Hs).
  - intros s t g Hs Ht. destruct s as [ps|p|z|v|z|u|z|s|s|b]; try discriminate. destruct t as [ps|p|z|v|z|u|z|t|t|b']; try (intros _; discriminate).
    rewrite (HD b b' Hs Ht). reflexivity.
  - intros o Ho Hr. exists (LModel mp). split; [exact HM|].
    assert (F : Forall (fun o => a_required o = true -> lopt (LModel mp) = o) learn_parser).
    { repeat (constructor; [first [discriminate|reflexivity]|]). constructor. }
    rewrite Forall_forall in F. apply F; assumption.
  - exists ns, fs'. split; [exact E1|]. split; [intros p; rewrite E2, fold_same; reflexivity|].
    intros d. unfold get. rewrite (E3 _ (lvalue d lnothing)) by (destruct d; reflexivity). f_equal. apply (fold_step _ lask (lvalue d)). intros q' s. apply lstep.
Qed.

Theorem learn_does (A : arith) orders version now sp (Y : system A) lines fs l :
  Forall (lsensible (y_env Y)) l -> (exists p, In (LModel p) (map snd l)) ->
  (forall b b', In (LDedup b) (map snd l) -> In (LDedup b') (map snd l) -> b = b') ->
  let q := fold_left lask (map snd l) lnothing in
  exists model e f', l_model q = Some model /\ learn_program A orders version now sp Y lines fs (flat_map lwords l) = Some e /\
    learns A orders version now sp Y lines (lookup fs) q model f' (x_exc e) /\ (forall p, lookup (x_files e) p = f' p) /\
    x_status e = (match x_exc e with None => 0%Z | Some _ => 1%Z end) /\ x_stdout e = [] /\ x_printed e = None.
Proof.
  intros HS HM HD q. destruct (learn_line (y_env Y) fs l HS HM HD) as (ns & fs' & E1 & E2 & E3). fold q in E3.
  assert (Hq : l_model q <> None) by (destruct HM as [mp HM]; apply (lmodel_asked _ _ mp); left; exact HM).
  pose proof (E3 GInp) as F1. pose proof (E3 GModel) as F2. pose proof (E3 GVs) as F3. pose proof (E3 GLevel) as F4. pose proof (E3 GMf) as F5.
  pose proof (E3 GCv) as F6. pose proof (E3 GMce) as F7. pose proof (E3 GDedup) as F8. clear E3.
  cbn [ldest lvalue] in *. destruct (l_model q) as [model|] eqn:QM; [|destruct Hq; reflexivity]. clear Hq.
  exists model. unfold learn_program. rewrite E1, F1, F2, F4, F8, F3, F5, F6, F7.
  replace (match match l_mf q with Some z => VInt z | None => VNone end with VInt z => Some z | _ => None end) with (l_mf q) by (destruct (l_mf q); reflexivity).
  destruct (with_suffix model (lit ".wordfreq.gz")) as [w|] eqn:W.
  2:{ eexists. exists (lookup fs). split; [reflexivity|]. split; [reflexivity|]. cbn [x_exc x_files x_status x_stdout x_printed].
      split; [apply learns_no_name|repeat split; exact E2]. intros suffix x H. apply with_suffix_beside in H. revert W H. unfold with_suffix.
      destruct (last_slash model) as [d n]. destruct (str_eqb n [] || str_eqb n (lit ".")); discriminate. }
  destruct (with_suffix model (lit ".charfreq.gz")) as [c|] eqn:C.
  2:{ exfalso. revert W C. unfold with_suffix. destruct (last_slash model) as [d n]. destruct (str_eqb n [] || str_eqb n (lit ".")); discriminate. }
  assert (CW : str_eqb c w = false).
  { apply str_eqb_neq. revert W C. unfold with_suffix. destruct (last_slash model) as [d n]. destruct (str_eqb n [] || str_eqb n (lit ".")); [discriminate|].
    intros W C X. subst w. rewrite <- W in C. injection C as C. apply app_inv_head, app_inv_head in C. discriminate C. }
  apply with_suffix_beside in W, C.
  assert (ES : forall x, dget str_eqb x fs' = lookup fs x) by exact E2. rewrite ES.
  destruct (lookup fs (if str_eqb (l_level q) (lit "char") then c else w)) as [b|] eqn:SX.
  { eexists. exists (lookup fs). split; [reflexivity|]. split; [reflexivity|]. cbn [x_exc x_files x_status x_stdout x_printed].
    split; [apply (learns_before _ _ _ _ _ _ _ _ _ _ w c); [exact W|exact C|rewrite SX; discriminate]|repeat split; exact E2]. }
  destruct (l_inp q) as [ps|] eqn:QI.
  2:{ eexists. exists (lookup fs). split; [reflexivity|]. split; [reflexivity|]. cbn [x_exc x_files x_status x_stdout x_printed].
      split; [apply (learns_nothing _ _ _ _ _ _ _ _ _ _ w c); assumption|repeat split; exact E2]. }
  destruct (read_paths lines fs' (map VText ps)) as [texts|] eqn:RP.
  2:{ destruct (read_paths_none _ _ _ RP) as (p & Hp1 & Hp2). rewrite E2 in Hp2.
      eexists. exists (lookup fs). split; [reflexivity|]. split; [reflexivity|]. cbn [x_exc x_files x_status x_stdout x_printed].
      split; [apply (learns_missing _ _ _ _ _ _ _ _ _ _ w c ps p); assumption|repeat split; exact E2]. }
  apply read_paths_some in RP.
  assert (TX : texts_at lines (lookup fs) ps texts).
  { clear - RP E2. unfold texts_at in *. induction RP as [|p t ps texts (b & Hb & Ht) _ IH]; constructor; [|exact IH]. exists b. rewrite <- E2. auto. }
  rewrite ES.
  destruct (learn_main A orders version now sp (MkFiles None None (lookup fs model)) texts (l_level q) (l_vs q) (l_mf q) (y_num Y (l_cv q)) (l_mce q) (l_dedup q)) as [g e] eqn:LM.
  eexists. eexists. split; [reflexivity|]. split; [reflexivity|]. cbn [x_exc x_files x_status x_stdout x_printed].
  split; [eapply learns_run; eassumption|]. split; [|repeat split].
  intros p.
  assert (PUT : forall x t (h : ArgModel.files), lookup (match t with Some b => dset str_eqb x b h | None => h end) p = if str_eqb p x then written_or t (lookup h p) else lookup h p).
  { intros x [b|] h; unfold lookup, written_or; [rewrite (dget_dset str_eqb str_eqb_eq); destruct (str_eqb p x); reflexivity|destruct (str_eqb p x); reflexivity]. }
  rewrite !PUT, !E2.
  destruct (str_eqb p model) eqn:PM; [|destruct (str_eqb p c) eqn:PC; [apply str_eqb_eq in PC; subst p; rewrite CW; reflexivity|reflexivity]]. apply str_eqb_eq in PM. subst p.
  destruct (f_model g) as [b|] eqn:GM; [reflexivity|]. cbn [written_or].
  assert (X : lookup fs model = None /\ (f_words g = None /\ f_chars g = None \/ True)).
  { split; [|right; exact I]. revert LM. unfold learn_main. cbn [f_words f_chars f_model].
    replace (if str_eqb (l_level q) (lit "char") then @None str else None) with (@None str) by (destruct (str_eqb (l_level q) (lit "char")); reflexivity).
    destruct (word_counts sp texts (l_dedup q)) as [[[ww cc] n]|e'].
    - destruct (learn_vocab A orders version now _ _ true _ _ true _ _) as [[b|] r]; intros X; injection X as <- _; cbn [f_model] in GM; [discriminate|exact GM].
    - intros X. injection X as <- _. exact GM. }
  destruct X as [X _].
  assert (NW : model <> w /\ model <> c).
  { assert (NB : forall suffix x, List.length suffix = 12%nat -> In 46%N (skipn 1 suffix) -> ~ In 47%N suffix -> (exists r, suffix = 46%N :: r) -> beside model suffix x -> model <> x).
    { intros suffix x L1 L2 L3 (r & Er) HB. inversion HB as [d stem ext s' Hd H1 H2 H3 H4 H5 Y1 Y2 Y3|d n s' Hd H1 H2 H3 H4 Y1 Y2 Y3]; subst s'; intros X1.
      - apply app_inv_head, app_inv_head in X1. rewrite Er in X1. cbn in X1. injection X1 as X1. subst ext. apply H5. rewrite Er in L2. exact L2.
      - apply app_inv_head in X1. apply (f_equal (@List.length N)) in X1. rewrite app_length, L1 in X1. lia. }
    split; [apply (NB (lit ".wordfreq.gz") w)|apply (NB (lit ".charfreq.gz") c)]; try assumption; try reflexivity; try (eexists; reflexivity);
      cbn; try (intros X1; repeat (destruct X1 as [X1|X1]; [discriminate X1|]); exact X1); tauto. }
  destruct NW as [N1 N2]. apply str_eqb_neq in N1, N2. rewrite N1, N2. exact X.
Qed.

(** *** nlcodec-freq *)
Definition fopt (s : fset) : opt :=
  match s with
  | FInp _ => MkOpt [lit "-i"; lit "--inp"] (lit "inp") (KMany CText) false VNone None
  | FWords _ => one "-wf" "--word_freqs" "word_freqs" CWrite false VNone
  | FChars _ => one "-cf" "--char_freqs" "char_freqs" CWrite false VNone
  | FDedup true => flag ["-dd"; "--dedup"]%string "dedup" true (VBool true) None
  | FDedup false => flag ["-ndd"; "--no-dedup"]%string "dedup" false (VBool false) None
  end.
Definition outval (p : str) : value := if str_eqb p (lit "-") then VStdout else VOut p.
Definition fval (s : fset) : value :=
  match s with
  | FInp ps => VMany (map VText ps)
  | FWords p | FChars p => outval p
  | FDedup b => VBool b
  end.
Inductive ffield : Type := HInp | HWf | HCf | HDd.
Definition fdest (d : ffield) : string := match d with HInp => "inp" | HWf => "word_freqs" | HCf => "char_freqs" | HDd => "dedup" end%string.
Definition tvalue (t : option target) : value := match t with None => VNone | Some Screen => VStdout | Some (File p) => VOut p end.
Definition fvalue (d : ffield) (q : fasked) : value :=
  match d with
  | HInp => match f_inp q with None => VNone | Some ps => VMany (map VText ps) end
  | HWf => tvalue (f_wf q)
  | HCf => tvalue (f_cf q)
  | HDd => VBool (f_dd q)
  end.
Lemma fstep d q s : (if str_eqb (a_dest (fopt s)) (lit (fdest d)) then fval s else fvalue d q) = fvalue d (fask q s).
Proof.
  destruct q as [inp wf cf dd]. destruct s as [ps|p|p|[]], d; try reflexivity; cbn -[lit]; unfold outval, target_of; destruct (str_eqb p (lit "-")); reflexivity.
Qed.
Lemma reads_out E p f : p = lit "-" \/ e_writable E p = true ->
  reads E CWrite p f (outval p) (if str_eqb p (lit "-") then f else fun x => if str_eqb x p then Some [] else f x).
Proof.
  intros H. unfold outval. destruct (str_eqb p (lit "-")) eqn:X; [apply str_eqb_eq in X; subst p; apply reads_stdout|].
  apply str_eqb_neq in X. destruct H as [H|H]; [contradiction|]. apply reads_output; assumption.
Qed.

Theorem freq_does {A : arith} sp (Y : system A) lines fs l :
  Forall (fsensible (y_env Y)) l ->
  let q := fold_left fask (map snd l) fnothing in
  let f := fold_left fopens (map snd l) (lookup fs) in
  exists e f', freq_program sp Y lines fs (flat_map fwords l) = Some e /\
    counts_to sp Y lines f q f' (x_stdout e) (x_exc e) /\ (forall p, lookup (x_files e) p = f' p) /\
    x_status e = (match x_exc e with None => 0%Z | Some _ => 1%Z end) /\ x_printed e = None.
Proof.
  intros HS q f.
  destruct (tool_understood freq_parser (y_env Y) fspelt fopt fval fopens fs l) as (ns & fs' & E1 & E2 & E3).
  - right; right; left; reflexivity.
  - reflexivity.
  - intros s Hs. assert (exists st, fsensible (y_env Y) (st, s)) as (st & _ & HV).
    { apply in_map_iff in Hs as ([st t] & <- & Hs). exists st. rewrite Forall_forall in HS. apply HS, Hs. }
    cbn [snd] in HV. split; [destruct s as [ps|p|p|[]]; cbn; tauto|]. split; [destruct s as [ps|p|p|[]]; reflexivity|].
    destruct s as [ps|p|p|[]]; cbn [fopt one flag a_kind fspelt fval snd fopens].
    + split; [exact HV|]. exists (map VText ps). split; [reflexivity|]. intros g. apply reads_texts.
    + exists p. split; [reflexivity|]. split; [discriminate|]. intros g. apply reads_out, HV.
    + exists p. split; [reflexivity|]. split; [discriminate|]. intros g. apply reads_out, HV.
    + repeat split.
    + repeat split.
  - intros ss Hs. rewrite Forall_forall in HS. apply (HS ss Hs).
  - intros s t g Hs Ht. destruct s as [ps|p|p|[]]; discriminate.
  - intros o Ho Hr. exfalso. assert (F : Forall (fun o => a_required o = false) freq_parser) by (repeat (constructor; [reflexivity|]); constructor).
    rewrite Forall_forall in F. rewrite (F o Ho) in Hr. discriminate.
  - assert (FV : forall d, get ns (fdest d) = Some (fvalue d q)).
    { intros d. unfold get. rewrite (E3 _ (fvalue d fnothing)) by (destruct d; reflexivity). f_equal. apply (fold_step _ fask (fvalue d)). intros q' s. apply fstep. }
    clear E3. fold f in E2. pose proof (FV HInp) as F1. pose proof (FV HWf) as F2. pose proof (FV HCf) as F3. pose proof (FV HDd) as F4. clear FV. cbn [fdest fvalue] in *.
    unfold freq_program. rewrite E1 || (unfold fwords; rewrite E1). rewrite F1, F2, F3, F4.
    assert (GV : forall t : option target, (match tvalue t with VNone => false | _ => true end) = is_given t) by (intros [[|]|]; reflexivity).
    rewrite !GV.
    destruct (is_given (f_wf q) || is_given (f_cf q)) eqn:G.
    2:{ apply orb_false_iff in G as [G1 G2].
        assert (W : f_wf q = None) by (destruct (f_wf q); [discriminate G1|reflexivity]). assert (C : f_cf q = None) by (destruct (f_cf q); [discriminate G2|reflexivity]).
        destruct (f_inp q) as [ps|]; [destruct (read_paths lines fs' (map VText ps)) as [texts|]|]; rewrite ?G1, ?G2; unfold freq_main; cbn [orb negb];
          (eexists; exists f; split; [reflexivity|]; cbn [x_exc x_files x_status x_stdout x_printed]; split; [apply counts_nowhere; assumption|repeat split; exact E2]). }
    assert (OR : f_wf q <> None \/ f_cf q <> None) by (destruct (f_wf q); [left; discriminate|]; destruct (f_cf q); [right; discriminate|discriminate G]).
    destruct (f_inp q) as [ps|] eqn:QI.
    2:{ unfold freq_main. rewrite G. cbn [negb]. eexists. exists f. split; [reflexivity|]. cbn [x_exc x_files x_status x_stdout x_printed].
        split; [apply counts_nothing; assumption|repeat split; exact E2]. }
    destruct (read_paths lines fs' (map VText ps)) as [texts|] eqn:RP.
    2:{ destruct (read_paths_none _ _ _ RP) as (p & Hp1 & Hp2). rewrite E2 in Hp2. eexists. exists f. split; [reflexivity|]. cbn [x_exc x_files x_status x_stdout x_printed].
        split; [eapply counts_missing; eassumption|repeat split; exact E2]. }
    apply read_paths_some in RP.
    assert (TX : texts_at lines f ps texts).
    { clear - RP E2. unfold texts_at in *. induction RP as [|p t ps texts (b & Hb & Ht) _ IH]; constructor; [|exact IH]. exists b. rewrite <- E2. auto. }
    destruct (freq_main sp (MkFreqFiles None None) (Some texts) (is_given (f_wf q)) (is_given (f_cf q)) (negb (f_dd q))) as [g [e|]] eqn:FM.
    { eexists. exists f. split; [reflexivity|]. cbn [x_exc x_files x_status x_stdout x_printed]. split; [eapply counts_fails; eassumption|repeat split; exact E2]. }
    assert (QW : (f_wf q <> None -> q_words g <> None) /\ (f_cf q <> None -> q_chars g <> None)).
    { clear - FM G. unfold freq_main in FM. rewrite G in FM. cbn [negb] in FM. destruct (word_counts sp texts (negb (negb (f_dd q)))) as [[[words chars] n]|]; [|discriminate FM].
      injection FM as <-. split; intros H; [destruct (f_wf q); [discriminate|congruence]|destruct (f_cf q); [discriminate|congruence]]. }
    destruct QW as [QW QC].
    assert (PUT : forall t s (x : ArgModel.files * str), (t <> None -> s <> None) ->
      exists fs'', (match tvalue t, s with
                    | VOut p, Some t => (dset str_eqb p (y_bytes Y t) (fst x), snd x)
                    | VStdout, Some t => (fst x, snd x ++ t)
                    | _, _ => x
                    end) = (fs'', snd x ++ on_screen t s) /\ forall p, lookup fs'' p = if in_file t p then option_map (y_bytes Y) s else lookup (fst x) p).
    { intros t s [x0 o0] H. destruct t as [[|p]|], s as [s|]; cbn [tvalue on_screen in_file fst snd option_map];
        try (exfalso; apply H; [discriminate|reflexivity]); rewrite ?app_nil_r; eexists; (split; [reflexivity|]); intros y; try reflexivity.
      unfold lookup. rewrite (dget_dset str_eqb str_eqb_eq). reflexivity. }
    cbv zeta. destruct (PUT (f_wf q) (q_words g) (fs', []) QW) as (fs1 & P1 & P2). rewrite P1. cbn [fst snd] in P2.
    destruct (PUT (f_cf q) (q_chars g) (fs1, snd (fs', []) ++ on_screen (f_wf q) (q_words g)) QC) as (fs2 & P3 & P4).
    match goal with |- context [let (_, _) := ?X in _] => replace X with (fs2, on_screen (f_wf q) (q_words g) ++ on_screen (f_cf q) (q_chars g)) by (symmetry; exact P3) end. cbn [fst snd] in P4.
    cbn [fst snd]. eexists. eexists. split; [reflexivity|]. cbn [x_exc x_files x_status x_stdout x_printed].
    split; [eapply counts_run; eassumption|]. split; [|split; reflexivity]. intros p. rewrite P4, P2, E2. reflexivity.
Qed.

(** *** nlcodec-bitextdb *)
Definition bopt (s : bset) : opt :=
  match s with
  | BSrcModel _ => one "-sm" "--src-model" "src_model" CText true VNone
  | BTgtModel _ => one "-tm" "--tgt-model" "tgt_model" CText false VNone
  | BSrcText _ => one "-st" "--src-text" "src_text" CText true VNone
  | BTgtText _ => one "-tt" "--tgt-text" "tgt_text" CText true VNone
  | BDb _ => one "-db" "--db" "db_path" CText true VNone
  | BParts _ => one "-np" "--num-parts" "num_parts" CInt false (VInt 0)
  | BSrcCol _ => one "-sn" "--src-col" "src_col" CText false (VText (lit "x"))
  | BTgtCol _ => one "-tn" "--tgt-col" "tgt_col" CText false (VText (lit "y"))
  | BSrcLen _ => one "-sl" "--src-len" "src_len" CInt false (VInt 256)
  | BTgtLen _ => one "-tl" "--tgt-len" "tgt_len" CInt false (VInt 256)
  | BTruncate true => flag ["--truncate"]%string "truncate" true (VBool true) (Some 0)
  | BTruncate false => flag ["--no-truncate"]%string "truncate" false (VBool true) (Some 0)
  | BSpark _ => one "-spark" "--spark_master" "spark_master" CText false (VText (lit "local[*]"))
  | BMem _ => one "-dm" "--driver_mem" "driver_mem" CText false (VText (lit "4g"))
  end.
Definition bval (s : bset) : value :=
  match s with
  | BSrcModel p | BTgtModel p | BSrcText p | BTgtText p | BDb p | BSrcCol p | BTgtCol p | BSpark p | BMem p => VText p
  | BParts z | BSrcLen z | BTgtLen z => VInt z
  | BTruncate b => VBool b
  end.
Inductive bfield : Type := ISm | ITm | ISt | ITt | IDb | INp | ISn | ITn | ISl | ITl | ITr.
Definition bdest (d : bfield) : string :=
  match d with ISm => "src_model" | ITm => "tgt_model" | ISt => "src_text" | ITt => "tgt_text" | IDb => "db_path" | INp => "num_parts"
  | ISn => "src_col" | ITn => "tgt_col" | ISl => "src_len" | ITl => "tgt_len" | ITr => "truncate" end%string.
Definition maybe (o : option str) : value := match o with None => VNone | Some p => VText p end.
Definition bvalue (d : bfield) (q : basked) : value :=
  match d with
  | ISm => maybe (b_sm q) | ITm => maybe (b_tm q) | ISt => maybe (b_st q) | ITt => maybe (b_tt q) | IDb => maybe (b_db q)
  | INp => VInt (b_np q) | ISn => VText (b_sn q) | ITn => VText (b_tn q) | ISl => VInt (b_sl q) | ITl => VInt (b_tl q) | ITr => VBool (b_tr q)
  end.
Lemma bstep d q s : (if str_eqb (a_dest (bopt s)) (lit (bdest d)) then bval s else bvalue d q) = bvalue d (bask q s).
Proof. destruct q as [sm tm xt yt db np sn tn sl tl tr]. destruct s as [p|p|p|p|p|z|p|p|z|z|[]|p|p], d; reflexivity. Qed.

Lemma stays {S Q V : Type} (ask : Q -> S -> Q) (get : Q -> option V) (P : S -> Prop) (l : list S) :
  (forall q s, P s -> get (ask q s) <> None) -> (forall q s, get q <> None -> get (ask q s) <> None) ->
  forall q, (exists s, In s l /\ P s) \/ get q <> None -> exists v, get (fold_left ask l q) = Some v.
Proof.
  intros H1 H2. induction l as [|s l IH]; intros q H.
  - destruct H as [(s & [] & _)|H]. cbn [fold_left]. destruct (get q) as [v|]; [exists v; reflexivity|congruence].
  - cbn [fold_left]. apply IH. destruct H as [(t & [->|Ht] & Pt)|H]; [right; apply H1, Pt|left; exists t; auto|right; apply H2, H].
Qed.

Theorem bitext_does {A : arith} w cl pad (Y : system A) lines fs l :
  Forall bsensible l ->
  (exists p, In (BSrcModel p) (map snd l)) -> (exists p, In (BSrcText p) (map snd l)) -> (exists p, In (BTgtText p) (map snd l)) -> (exists p, In (BDb p) (map snd l)) ->
  (forall b b', In (BTruncate b) (map snd l) -> In (BTruncate b') (map snd l) -> b = b') ->
  let q := fold_left bask (map snd l) bnothing in
  exists sm xt yt db r, b_sm q = Some sm /\ b_st q = Some xt /\ b_tt q = Some yt /\ b_db q = Some db /\
    bitext_program w cl pad Y lines fs (flat_map bwords l) = Some r /\ starts w cl pad lines (lookup fs) q sm xt yt db r.
Proof.
  intros HS (m0 & M0) (x0 & X0) (y0 & Y0) (d0 & D0) HD q.
  destruct (tool_understood bitext_parser (y_env Y) bspelt bopt bval (fun f _ => f) fs l) as (ns & fs' & E1 & E2 & E3).
  - do 3 right; left; reflexivity.
  - reflexivity.
  - intros s Hs. split; [destruct s as [p|p|p|p|p|z|p|p|z|z|[]|p|p]; cbn; tauto|]. split; [destruct s as [p|p|p|p|p|z|p|p|z|z|[]|p|p]; reflexivity|].
    destruct s as [p|p|p|p|p|z|p|p|z|z|[]|p|p]; cbn [bopt one flag a_kind bspelt bval snd];
      first [repeat split; reflexivity|eexists; split; [reflexivity|]; split; [discriminate|]; intros g; first [apply reads_text|apply reads_int]].
  - intros ss Hs. rewrite Forall_forall in HS. apply (HS ss Hs).
  - intros s t g Hs Ht. destruct s as [p|p|p|p|p|z|p|p|z|z|b|p|p]; try discriminate. destruct t as [p|p|p|p|p|z|p|p|z|z|b'|p|p]; try (intros _; discriminate).
    rewrite (HD b b' Hs Ht). reflexivity.
  - intros o Ho Hr.
    assert (F : Forall (fun o => a_required o = true -> bopt (BSrcModel m0) = o \/ bopt (BSrcText x0) = o \/ bopt (BTgtText y0) = o \/ bopt (BDb d0) = o) bitext_parser).
    { repeat (constructor; [first [discriminate|intros _; left; reflexivity|intros _; right; left; reflexivity|intros _; right; right; left; reflexivity|intros _; right; right; right; reflexivity]|]). constructor. }
    rewrite Forall_forall in F. destruct (F o Ho Hr) as [H|[H|[H|H]]]; eexists; (split; [|exact H]); assumption.
  - assert (FV : forall d, get ns (bdest d) = Some (bvalue d q)).
    { intros d. unfold get. rewrite (E3 _ (bvalue d bnothing)) by (destruct d; reflexivity). f_equal. apply (fold_step _ bask (bvalue d)). intros q' s. apply bstep. }
    clear E3.
    assert (GE : forall (get : basked -> option str) (P : bset -> Prop) s, In s (map snd l) -> P s ->
      (forall q s, P s -> get (bask q s) <> None) -> (forall q s, get q <> None -> get (bask q s) <> None) -> exists v, get q = Some v).
    { intros g P s H1 H2 H3 H4. unfold q. apply (stays bask g P); [exact H3|exact H4|left; exists s; auto]. }
    destruct (GE b_sm (fun s => exists p, s = BSrcModel p) _ M0 (ex_intro _ _ eq_refl)) as [sm Esm];
      [intros [] s (p & ->); discriminate|intros [] [] H; cbn in *; congruence|].
    destruct (GE b_st (fun s => exists p, s = BSrcText p) _ X0 (ex_intro _ _ eq_refl)) as [xt Ext];
      [intros [] s (p & ->); discriminate|intros [] [] H; cbn in *; congruence|].
    destruct (GE b_tt (fun s => exists p, s = BTgtText p) _ Y0 (ex_intro _ _ eq_refl)) as [yt Eyt];
      [intros [] s (p & ->); discriminate|intros [] [] H; cbn in *; congruence|].
    destruct (GE b_db (fun s => exists p, s = BDb p) _ D0 (ex_intro _ _ eq_refl)) as [db Edb];
      [intros [] s (p & ->); discriminate|intros [] [] H; cbn in *; congruence|].
    exists sm, xt, yt, db. unfold bitext_program. unfold bwords. rewrite E1.
    pose proof (FV ISm) as F1. pose proof (FV ITm) as F2. pose proof (FV ISt) as F3. pose proof (FV ITt) as F4. pose proof (FV IDb) as F5. pose proof (FV INp) as F6.
    pose proof (FV ISn) as F7. pose proof (FV ITn) as F8. pose proof (FV ISl) as F9. pose proof (FV ITl) as F10. pose proof (FV ITr) as F11. clear FV.
    cbn [bdest bvalue] in *. rewrite Esm in F1. rewrite Ext in F3. rewrite Eyt in F4. rewrite Edb in F5. cbn [maybe] in *.
    rewrite F1, F2, F3, F4, F5, F6, F7, F8, F9, F10, F11.
    cut (exists r,
      (match dget str_eqb xt fs, dget str_eqb yt fs with
       | Some xs, Some ys =>
          let run smb tmb := Some (Started db (bitextdb w cl pad smb tmb (lines xs) (lines ys) (b_np q) (b_sn q) (b_tn q) (b_sl q) (b_tl q) (b_tr q))) in
          match dget str_eqb sm fs, maybe (b_tm q) with
          | None, _ => Some (Failed FileNotFound)
          | Some smb, VText p =>
              match dget str_eqb p fs with
              | Some tmb => run smb (Some tmb)
              | None => Some (Failed (match load_scheme smb with Ok _ => FileNotFound | Raise e => e end))
              end
          | Some smb, _ => run smb None
          end
       | _, _ => Some (Failed AssertionError)
       end) = Some r /\ starts w cl pad lines (lookup fs) q sm xt yt db r).
    { intros (r & H1 & H2). exists r. do 4 (split; [assumption|]). split; [exact H1|exact H2]. }
    destruct (dget str_eqb xt fs) as [xs|] eqn:GX.
    2:{ eexists. split; [reflexivity|]. apply starts_no_text. left. exact GX. }
    destruct (dget str_eqb yt fs) as [ys|] eqn:GY.
    2:{ eexists. split; [reflexivity|]. apply starts_no_text. right. exact GY. }
    cbv zeta. destruct (dget str_eqb sm fs) as [smb|] eqn:GS.
    2:{ eexists. split; [reflexivity|]. eapply starts_no_source; [exact GX|exact GY|exact GS]. }
    destruct (b_tm q) as [p|] eqn:GT; cbn [maybe].
    + destruct (dget str_eqb p fs) as [tmb|] eqn:GP.
      * eexists. split; [reflexivity|]. eapply starts_run; [exact GX|exact GY|exact GS|]. rewrite GT. exists tmb. split; [exact GP|reflexivity].
      * destruct (load_scheme smb) as [s|e] eqn:LS; (eexists; split; [reflexivity|]).
        -- eapply starts_no_target; [exact GX|exact GY|exact GS|exact LS|exact GT|exact GP].
        -- eapply starts_bad_source; [exact GX|exact GY|exact GS|exact LS|exact GT|exact GP].
    + eexists. split; [reflexivity|]. eapply starts_run; [exact GX|exact GY|exact GS|]. rewrite GT. reflexivity.
Qed.
