(** The tools on any command line at all. *)
From Coq Require Import Strings.String QArith Lia.
From Verif Require Import Py PyStr PyLemmas NumProofs BatchModel CodecModel VocabFileModel LearnModel MapredModel EvalModel TrackModel MainModel DriverModel FreqModel MultipartModel BitextModel
     ArgModel ArgSpec ArgProofs ArgSound CmdModel CmdSpec CmdProofs ToolModel ToolSpec ToolProofs ToolEnd GramModel GramSpec.
Local Open Scope list_scope.

Lemma field_of P E fs argv ns fs' (d : string) v (Q : value -> Prop) : In P parsers -> parse_args P E fs argv = Some (Parsed ns fs') ->
  default_of (lit d) P = Some v -> Q v -> Forall (fun o => a_dest o = lit d -> forall w, kind_fits argv (a_kind o) w -> Q w) P -> exists w, get ns d = Some w /\ Q w.
Proof.
  intros HP H HD Hv HF. destruct (parsed_shape P E fs argv ns fs' (parsers_simple P HP) H) as (H1 & _ & _).
  destruct (H1 _ _ HD) as (w & W1 & W2). exists w. split; [exact W1|]. destruct W2 as [->|(o & O1 & O2 & O3)]; [exact Hv|].
  rewrite Forall_forall in HF. apply (HF o O1 O2), O3.
Qed.
Lemma needed_of P E fs argv ns fs' (d : string) (Q : value -> Prop) : In P parsers -> parse_args P E fs argv = Some (Parsed ns fs') ->
  (exists o, In o P /\ a_required o = true /\ a_dest o = lit d) -> Forall (fun o => a_dest o = lit d -> forall w, kind_fits argv (a_kind o) w -> Q w) P -> exists w, get ns d = Some w /\ Q w.
Proof.
  intros HP H (o & O1 & O2 & O3) HF. destruct (parsed_shape P E fs argv ns fs' (parsers_simple P HP) H) as (_ & H2 & _).
  destruct (H2 o O1 O2) as (w & o' & W1 & W2 & W3 & W4). exists w. rewrite O3 in W1. split; [exact W1|]. rewrite Forall_forall in HF. apply (HF o' W2); [congruence|exact W4].
Qed.
Definition is_source (argv : list str) (v : value) : Prop := v = VNone \/ v = VStdin \/ exists p, v = VIn p.
Definition is_target (argv : list str) (v : value) : Prop := (v = VNone \/ v = VStdout) \/ exists p, v = VOut p /\ from argv p.
Definition is_text (argv : list str) (v : value) : Prop := exists s, v = VText s /\ from argv s.

Ltac each_opt tac := repeat (constructor; [first [discriminate|solve [intros _ w; cbn; tac]]|]); constructor.
Ltac needed name o := match goal with HP : In ?P parsers, E : parse_args ?P _ _ ?argv = Some (Parsed _ _) |- _ =>
  destruct (needed_of _ _ _ _ _ _ name (is_text argv) HP E ltac:(exists o; cbn; tauto) ltac:(each_opt ltac:(intros (? & -> & ? & _); eexists; split; [reflexivity|assumption]))) as (? & -> & (? & -> & ?)) end.
Ltac whole name d := match goal with HP : In ?P parsers, E : parse_args ?P _ _ ?argv = Some (Parsed _ _) |- _ =>
  destruct (field_of _ _ _ _ _ _ name d (fun v => exists z, v = VInt z) HP E eq_refl ltac:(eexists; reflexivity) ltac:(each_opt auto)) as (? & -> & (? & ->)) end.
Ltac anything name d := match goal with HP : In ?P parsers, E : parse_args ?P _ _ ?argv = Some (Parsed _ _) |- _ =>
  destruct (field_of _ _ _ _ _ _ name d (fun _ => True) HP E eq_refl I ltac:(each_opt ltac:(intros; exact I))) as (? & -> & _) end.
Ltac target name d := match goal with HP : In ?P parsers, E : parse_args ?P _ _ ?argv = Some (Parsed _ _) |- _ =>
  destruct (field_of _ _ _ _ _ _ name d (is_target argv) HP E eq_refl ltac:(left; auto) ltac:(each_opt ltac:(intros [-> |?]; [left; auto|right; assumption]))) as (? & -> & ?) end.
Ltac yesno name d := match goal with HP : In ?P parsers, E : parse_args ?P _ _ ?argv = Some (Parsed _ _) |- _ =>
  destruct (field_of _ _ _ _ _ _ name d (fun v => exists b, v = VBool b) HP E eq_refl ltac:(eexists; reflexivity) ltac:(each_opt ltac:(intros ->; eexists; reflexivity))) as (? & -> & (? & ->)) end.
Ltac words name d := match goal with HP : In ?P parsers, E : parse_args ?P _ _ ?argv = Some (Parsed _ _) |- _ =>
  destruct (field_of _ _ _ _ _ _ name d (fun v => exists s, v = VText s) HP E eq_refl ltac:(eexists; reflexivity) ltac:(each_opt ltac:(intros (? & -> & _); eexists; reflexivity))) as (? & -> & (? & ->)) end.
Ltac number name d := match goal with HP : In ?P parsers, E : parse_args ?P _ _ ?argv = Some (Parsed _ _) |- _ =>
  destruct (field_of _ _ _ _ _ _ name d (fun v => exists s, v = VNum s) HP E eq_refl ltac:(eexists; reflexivity) ltac:(each_opt auto)) as (? & -> & (? & ->)) end.

Lemma refused_ends P E fs argv other c fs1 : In P parsers -> parse_args P E fs argv = Some (Exited c fs1) -> ends_well P E fs argv other (MkEnding c fs1 [] None None).
Proof.
  intros HP H. destruct (parse_total P E fs argv (parsers_simple P HP)) as (r & R1 & R2). assert (r = Exited c fs1) by congruence. subst r. destruct R2 as [R2 R3].
  split; [left; exists c, fs1; repeat split; auto; exact R2|]. intros p Hp. left. destruct (R2 p) as [X|[_ X]]; [contradiction|exact X].
Qed.
Lemma done_ends P E fs argv other ns fs1 e : In P parsers -> parse_args P E fs argv = Some (Parsed ns fs1) -> (x_status e = 0 /\ x_exc e = None \/ x_status e = 1 /\ x_exc e <> None)%Z ->
  (forall p, lookup (x_files e) p = lookup fs1 p \/ from argv p \/ other p) -> ends_well P E fs argv other e.
Proof.
  intros HP H HS HF. destruct (parse_total P E fs argv (parsers_simple P HP)) as (r & R1 & R2). assert (r = Parsed ns fs1) by congruence. subst r.
  split; [right; exists ns, fs1; split; [exact H|exact HS]|]. intros p Hp. destruct (HF p) as [X|X]; [|exact X]. rewrite X in Hp. left. destruct (R2 p) as [Y|[_ Y]]; [contradiction|exact Y].
Qed.

Lemma finish_ends {A} (Y : system A) argv fs out r : is_target argv out -> let e := finish Y fs out r in
  (x_status e = 0 /\ x_exc e = None \/ x_status e = 1 /\ x_exc e <> None)%Z /\ forall p, lookup (x_files e) p = lookup fs p \/ from argv p \/ False.
Proof.
  intros Ho e. unfold e, finish. destruct r as [t|x].
  - destruct Ho as [[-> | ->]|(o & -> & Ho)]; cbn; (split; [left; auto|]); intros p; auto. unfold lookup. rewrite (dget_dset str_eqb str_eqb_eq).
    destruct (str_eqb p o) eqn:X; [|auto]. apply str_eqb_eq in X. subst p. auto.
  - cbn. split; [right; split; [reflexivity|discriminate]|auto].
Qed.

Theorem gram_ends {A} (Y : system A) pool fs stdin argv : exists e, gram_program Y pool fs stdin argv = Some e /\ ends_well gram_parser (y_env Y) fs argv (fun _ => False) e.
Proof.
  assert (HP : In gram_parser parsers) by (cbn; tauto). unfold gram_program.
  destruct (parse_total gram_parser (y_env Y) fs argv (parsers_simple _ HP)) as (r & E & _). rewrite E. destruct r as [ns fs1|c fs1]; [|eexists; split; [reflexivity|apply refused_ends; assumption]].
  anything "inp"%string VStdin. target "out"%string VStdout. needed "model_path"%string (one "-m" "--model" "model_path" CText true VNone). whole "n"%string (VInt 1).
  eexists. split; [reflexivity|]. match goal with |- ends_well _ _ _ _ _ (finish _ _ _ ?r) => destruct (finish_ends Y argv fs1 _ r ltac:(eassumption)) as [F1 F2] end.
  eapply done_ends; eassumption.
Qed.

Definition all_done (e : ending) (fs : ArgModel.files) : Prop := (x_status e = 0 /\ x_exc e = None \/ x_status e = 1 /\ x_exc e <> None)%Z /\ x_files e = fs.
Theorem recall_ends {A} rnd fmt (Y : system A) pool fs stdin argv :
  exists e, recall_program rnd fmt Y pool fs stdin argv = Some e /\ ends_well recall_parser (y_env Y) fs argv (fun _ => False) e.
Proof.
  assert (HP : In recall_parser parsers) by (cbn; tauto). unfold recall_program.
  destruct (parse_total recall_parser (y_env Y) fs argv (parsers_simple _ HP)) as (r & E & _). rewrite E. destruct r as [ns fs1|c fs1]; [|eexists; split; [reflexivity|apply refused_ends; assumption]].
  anything "cands"%string VNone. anything "refs"%string VNone. anything "freqs"%string VNone. whole "n"%string (VInt 1). target "out"%string VNone.
  needed "model_path"%string (one "-m" "--model" "model_path" CText true VNone).
  eexists. split; [reflexivity|]. match goal with |- ends_well _ _ _ _ _ (finish _ _ _ ?r) => destruct (finish_ends Y argv fs1 _ r ltac:(eassumption)) as [F1 F2] end.
  eapply done_ends; eassumption.
Qed.

Lemma plain_ends P E fs argv ns fs1 e : In P parsers -> parse_args P E fs argv = Some (Parsed ns fs1) -> all_done e fs1 -> ends_well P E fs argv (fun _ => False) e.
Proof. intros HP H [H1 H2]. eapply done_ends; [exact HP|exact H|exact H1|]. intros p. left. rewrite H2. reflexivity. Qed.
Ltac over := unfold all_done; cbn; first [solve [split; [left; split; reflexivity|reflexivity]]|split; [right; split; [reflexivity|discriminate]|reflexivity]].

Theorem oov_ends {A} fmt (Y : system A) fs stdin argv : exists e, oov_program fmt Y fs stdin argv = Some e /\ ends_well oov_parser (y_env Y) fs argv (fun _ => False) e.
Proof.
  assert (HP : In oov_parser parsers) by (cbn; tauto). unfold oov_program.
  destruct (parse_total oov_parser (y_env Y) fs argv (parsers_simple _ HP)) as (r & E & _). rewrite E. destruct r as [ns fs1|c fs1]; [|eexists; split; [reflexivity|apply refused_ends; assumption]].
  anything "inp"%string VStdin. needed "model_path"%string (one "-m" "--model" "model_path" CText true VNone).
  destruct (load_path fs1 _) as [?s|?x]; [|eexists; split; [reflexivity|eapply plain_ends; [exact HP|exact E|over]]].
  destruct (s_kind _); try (eexists; split; [reflexivity|eapply plain_ends; [exact HP|exact E|over]]).
  all: destruct (partition_vocab_toks _ _) as [iv oov]; destruct (Z.eqb _ 0); eexists; (split; [reflexivity|eapply plain_ends; [exact HP|exact E|over]]).
Qed.

Theorem quality_ends {A} (Y : system A) fs stdin argv : exists e, quality_program Y fs stdin argv = Some e /\ ends_well codec_parser (y_env Y) fs argv (fun _ => False) e.
Proof.
  assert (HP : In codec_parser parsers) by (cbn; tauto). unfold quality_program.
  destruct (parse_total codec_parser (y_env Y) fs argv (parsers_simple _ HP)) as (r & E & _). rewrite E. destruct r as [ns fs1|c fs1]; [|eexists; split; [reflexivity|apply refused_ends; assumption]].
  needed "codec_path"%string (one "-c" "--codec" "codec_path" CText true VNone). anything "data"%string VStdin.
  destruct (load_path fs1 _) as [?s|?x]; [|eexists; split; [reflexivity|eapply plain_ends; [exact HP|exact E|over]]].
  destruct (estimate _ _); (eexists; split; [reflexivity|eapply plain_ends; [exact HP|exact E|over]]).
Qed.

Theorem lens_ends {A} (Y : system A) orders pool fs stdin argv :
  exists e rows, lens_program Y orders pool fs stdin argv = Some (e, rows) /\ ends_well codec_parser (y_env Y) fs argv (fun _ => False) e.
Proof.
  assert (HP : In codec_parser parsers) by (cbn; tauto). unfold lens_program.
  destruct (parse_total codec_parser (y_env Y) fs argv (parsers_simple _ HP)) as (r & E & _). rewrite E. destruct r as [ns fs1|c fs1]; [|eexists _, _; split; [reflexivity|apply refused_ends; assumption]].
  needed "codec_path"%string (one "-c" "--codec" "codec_path" CText true VNone). anything "data"%string VStdin.
  destruct (dget str_eqb _ fs1) as [b|]; [|eexists _, _; split; [reflexivity|eapply plain_ends; [exact HP|exact E|over]]].
  destruct (codec_xt b) as [[? ?]|?]; [|eexists _, _; split; [reflexivity|eapply plain_ends; [exact HP|exact E|over]]].
  destruct (track_merges _ _ _ _); (eexists _, _; split; [reflexivity|eapply plain_ends; [exact HP|exact E|over]]).
Qed.

Theorem freq_ends {A} sp (Y : system A) lines fs argv : exists e, freq_program sp Y lines fs argv = Some e /\ ends_well freq_parser (y_env Y) fs argv (fun _ => False) e.
Proof.
  assert (HP : In freq_parser parsers) by (cbn; tauto). unfold freq_program.
  destruct (parse_total freq_parser (y_env Y) fs argv (parsers_simple _ HP)) as (r & E & _). rewrite E. destruct r as [ns fs1|c fs1]; [|eexists; split; [reflexivity|apply refused_ends; assumption]].
  anything "inp"%string VNone. target "word_freqs"%string VNone. target "char_freqs"%string VNone. yesno "dedup"%string (VBool true).
  match goal with |- context [match ?t with Ok _ => _ | Raise _ => _ end] => destruct t as [?|?] end;
    [|eexists; split; [reflexivity|eapply plain_ends; [exact HP|exact E|over]]].
  destruct (freq_main _ _ _ _ _ _) as [f [?|]]; [eexists; split; [reflexivity|eapply plain_ends; [exact HP|exact E|over]]|].
  assert (K : forall fs2 out, (forall p, lookup fs2 p = lookup fs1 p \/ from argv p) ->
    exists e, Some (MkEnding 0 fs2 out None None) = Some e /\ ends_well freq_parser (y_env Y) fs argv (fun _ => False) e).
  { intros fs2 out H2. eexists. split; [reflexivity|]. eapply done_ends; [exact HP|exact E|cbn; auto|]. intros p. cbn [x_files]. destruct (H2 p); auto. }
  assert (D : forall q b g, from argv q -> (forall p, lookup g p = lookup fs1 p \/ from argv p) -> forall p, lookup (dset str_eqb q b g) p = lookup fs1 p \/ from argv p).
  { intros q b g Hq Hg p. unfold lookup. rewrite (dget_dset str_eqb str_eqb_eq). destruct (str_eqb p q) eqn:X; [apply str_eqb_eq in X; subst p; auto|apply Hg]. }
  repeat match goal with H : is_target argv _ |- _ => destruct H as [[-> | ->]|(? & -> & ?)] end; destruct (q_words f); destruct (q_chars f); cbn [fst snd]; apply K;
    repeat (apply D; [assumption|]); auto.
Qed.

Theorem learn_ends (A : arith) orders version now sp (Y : system A) lines fs argv :
  exists e, learn_program A orders version now sp Y lines fs argv = Some e /\
    ends_well learn_parser (y_env Y) fs argv (fun p => exists m, from argv m /\ (beside m (lit ".wordfreq.gz") p \/ beside m (lit ".charfreq.gz") p)) e.
Proof.
  assert (HP : In learn_parser parsers) by (cbn; tauto). unfold learn_program.
  destruct (parse_total learn_parser (y_env Y) fs argv (parsers_simple _ HP)) as (r & E & _). rewrite E. destruct r as [ns fs1|c fs1]; [|eexists; split; [reflexivity|apply refused_ends; assumption]].
  assert (KP : forall e, all_done e fs1 -> ends_well learn_parser (y_env Y) fs argv (fun p => exists m, from argv m /\ (beside m (lit ".wordfreq.gz") p \/ beside m (lit ".charfreq.gz") p)) e).
  { intros e [H1 H2]. eapply done_ends; [exact HP|exact E|exact H1|]. intros p. left. rewrite H2. reflexivity. }
  anything "inp"%string VNone.
  destruct (needed_of _ _ _ _ _ _ "model" (is_text argv) HP E ltac:(exists (one "-m" "--model" "model" CText true VNone); cbn; tauto)
    ltac:(each_opt ltac:(intros (? & -> & ? & _); eexists; split; [reflexivity|assumption]))) as (? & -> & (model & -> & HM)).
  words "level"%string (VText (lit "bpe")). yesno "dedup"%string (VBool false).
  whole "vocab_size"%string (VInt (-1)). anything "min_freq"%string VNone. number "char_coverage"%string (VNum DEF_CHAR_COVERAGE_TEXT). whole "min_co_ev"%string (VInt 95).
  destruct (with_suffix model (lit ".wordfreq.gz")) as [w|] eqn:W1; [|eexists; split; [reflexivity|apply KP; over]].
  destruct (with_suffix model (lit ".charfreq.gz")) as [c|] eqn:W2; [|eexists; split; [reflexivity|apply KP; over]].
  apply with_suffix_beside in W1. apply with_suffix_beside in W2.
  match goal with |- context [dget str_eqb ?q fs1] => destruct (dget str_eqb q fs1) end; [eexists; split; [reflexivity|apply KP; over]|].
  match goal with |- context [match ?i with VMany _ => _ | _ => _ end] => destruct i end; try (eexists; split; [reflexivity|apply KP; over]).
  destruct (read_paths _ _ _) as [texts|]; [|eexists; split; [reflexivity|apply KP; over]].
  destruct (learn_main _ _ _ _ _ _ _ _ _ _ _ _ _) as [f e]. eexists. split; [reflexivity|]. eapply done_ends; [exact HP|exact E|cbn; destruct e; [right; split; [reflexivity|discriminate]|left; auto]|].
  cbn [x_files]. set (other := fun p => exists m, from argv m /\ (beside m (lit ".wordfreq.gz") p \/ beside m (lit ".charfreq.gz") p)).
  assert (D : forall q b g, from argv q \/ other q -> (forall p, lookup g p = lookup fs1 p \/ from argv p \/ other p) -> forall p, lookup (dset str_eqb q b g) p = lookup fs1 p \/ from argv p \/ other p).
  { intros q b g Hq Hg p. unfold lookup. rewrite (dget_dset str_eqb str_eqb_eq). destruct (str_eqb p q) eqn:X; [apply str_eqb_eq in X; subst p; auto|apply Hg]. }
  assert (OW : other w) by (exists model; auto). assert (OC : other c) by (exists model; auto).
  destruct (f_model f), (f_chars f), (f_words f); cbn [option_map]; repeat (apply D; [auto|]); auto.
Qed.

Theorem bitext_ends {A} wd cl pad (Y : system A) lines fs argv :
  exists r, bitext_program wd cl pad Y lines fs argv = Some r /\
    match r with
    | Refused c => (c = 0 \/ c = 2)%Z /\ exists fs1, parse_args bitext_parser (y_env Y) fs argv = Some (Exited c fs1)
    | _ => exists ns fs1, parse_args bitext_parser (y_env Y) fs argv = Some (Parsed ns fs1)
    end.
Proof.
  assert (HP : In bitext_parser parsers) by (cbn; tauto). unfold bitext_program.
  destruct (parse_total bitext_parser (y_env Y) fs argv (parsers_simple _ HP)) as (r & E & R). rewrite E. destruct r as [ns fs1|c fs1]; [|eexists; split; [reflexivity|split; [apply R|exists fs1; reflexivity]]].
  needed "src_model"%string (one "-sm" "--src-model" "src_model" CText true VNone). anything "tgt_model"%string VNone.
  needed "src_text"%string (one "-st" "--src-text" "src_text" CText true VNone). needed "tgt_text"%string (one "-tt" "--tgt-text" "tgt_text" CText true VNone).
  needed "db_path"%string (one "-db" "--db" "db_path" CText true VNone). whole "num_parts"%string (VInt 0). words "src_col"%string (VText (lit "x")). words "tgt_col"%string (VText (lit "y")).
  whole "src_len"%string (VInt 256). whole "tgt_len"%string (VInt 256). yesno "truncate"%string (VBool true).
  destruct (dget str_eqb _ fs) as [xs|]; [|eexists; split; [reflexivity|cbv beta iota; eauto]].
  destruct (dget str_eqb _ fs) as [ys|]; [|eexists; split; [reflexivity|cbv beta iota; eauto]].
  destruct (dget str_eqb _ fs) as [smb|]; [|eexists; split; [reflexivity|cbv beta iota; eauto]].
  match goal with |- context [match ?i with VText _ => _ | _ => _ end] => destruct i end; try (eexists; split; [reflexivity|cbv beta iota; eauto]).
  destruct (dget str_eqb _ fs) as [tmb|]; eexists; split; try reflexivity; cbv beta iota; eauto.
Qed.
