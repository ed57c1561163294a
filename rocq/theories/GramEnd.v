(** The evaluation tools do what their command lines say. *)
From Coq Require Import Strings.String QArith Lia.
From Verif Require Import Py PyStr PyLemmas NumProofs BatchModel StrSpec PyStrProofs Utf8Model CodecModel VocabFileModel LearnModel MapredModel CodecSpec FlatProofs EvalModel EvalSpec EvalProofs TrackModel MainModel
     ArgModel ArgSpec CmdModel CmdSpec ArgProofs ArgSound CmdProofs ToolSpec ToolProofs ToolEnd GramModel GramSpec.
Local Open Scope list_scope.

Definition eparser (t : etool) : list opt := match t with TermFreq => gram_parser | Recall => recall_parser | Oov => oov_parser | Quality => codec_parser end.
Definition eopt (t : etool) (s : eset) : opt :=
  match s, t with
  | EInp _, Quality => one "-d" "--data" "data" CRead false VStdin
  | EInp _, _ => one "-i" "--inp" "inp" CRead false VStdin
  | EModel _, Quality => one "-c" "--codec" "codec_path" CText true VNone
  | EModel _, _ => one "-m" "--model" "model_path" CText true VNone
  | EOut _, Recall => one "-o" "--out" "out" CWrite false VNone
  | EOut _, _ => one "-o" "--out" "out" CWrite false VStdout
  | EN _, _ => one "-n" "--n" "n" CInt false (VInt 1)
  | ECands _, _ => one "-c" "--cands" "cands" CRead false VNone
  | ERefs _, _ => one "-r" "--refs" "refs" CRead false VNone
  | EFreqs _, _ => one "-f" "--freqs" "freqs" CRead false VNone
  end.
Definition inval (p : str) : value := if str_eqb p (lit "-") then VStdin else VIn p.
Definition evalue (s : eset) : value :=
  match s with
  | EInp p | ECands p | ERefs p | EFreqs p => inval p
  | EOut p => outval p
  | EModel p => VText p
  | EN z => VInt z
  end.
Inductive efield : Type := QInp | QOut | QModel | QN | QCands | QRefs | QFreqs.
Definition edest (t : etool) (d : efield) : string :=
  match d, t with
  | QInp, Quality => "data" | QInp, _ => "inp" | QModel, Quality => "codec_path" | QModel, _ => "model_path"
  | QOut, _ => "out" | QN, _ => "n" | QCands, _ => "cands" | QRefs, _ => "refs" | QFreqs, _ => "freqs"
  end%string.
Definition src (d : value) (p : place) : value := match p with Unset => d | Dash => VStdin | Path x => VIn x end.
Definition dst (d : value) (p : place) : value := match p with Unset => d | Dash => VStdout | Path x => VOut x end.
Definition efvalue (t : etool) (d : efield) (q : easked) : value :=
  match d with
  | QInp => src VStdin (k_inp q)
  | QOut => dst (match t with Recall => VNone | _ => VStdout end) (k_out q)
  | QModel => match k_model q with None => VNone | Some p => VText p end
  | QN => VInt (k_n q)
  | QCands => src VNone (k_cands q)
  | QRefs => src VNone (k_refs q)
  | QFreqs => src VNone (k_freqs q)
  end.
Definition efhas (t : etool) (d : efield) : bool :=
  match d, t with
  | QModel, _ => true
  | QInp, Recall => false
  | QInp, _ => true
  | (QOut | QN), (TermFreq | Recall) => true
  | (QCands | QRefs | QFreqs), Recall => true
  | _, _ => false
  end.

Lemma src_of d p : src d (place_of p) = inval p.
Proof. unfold place_of, inval. destruct (str_eqb p (lit "-")); reflexivity. Qed.
Lemma dst_of d p : dst d (place_of p) = outval p.
Proof. unfold place_of, outval. destruct (str_eqb p (lit "-")); reflexivity. Qed.
Lemma estep t d q s : ehas t s -> (if str_eqb (a_dest (eopt t s)) (lit (edest t d)) then evalue s else efvalue t d q) = efvalue t d (eask q s).
Proof.
  intros H. destruct q as [i o m n c r f].
  destruct t, s; try contradiction; destruct d; cbn -[place_of inval outval]; rewrite ?src_of, ?dst_of; reflexivity.
Qed.

Lemma emodel_asked (l : list eset) q p : In (EModel p) l \/ k_model q <> None -> k_model (fold_left eask l q) <> None.
Proof.
  revert q. induction l as [|s l IH]; intros q H; [destruct H as [[]|H]; exact H|]. cbn [fold_left]. apply IH.
  destruct H as [[->|H]|H]; [right; destruct q; discriminate|left; exact H|right; destruct q, s; cbn in *; congruence].
Qed.

Lemma reads_in E p f : p = lit "-" \/ f p <> None -> reads E CRead p f (inval p) f.
Proof.
  intros H. unfold inval. destruct (str_eqb p (lit "-")) eqn:X; [apply str_eqb_eq in X; subst p; apply reads_stdin|].
  apply str_eqb_neq in X. apply reads_file; [exact X|]. destruct H as [H|H]; [contradiction|exact H].
Qed.
Lemma reads_out E p f : p = lit "-" \/ e_writable E p = true -> reads E CWrite p f (outval p) (eopens f (EOut p)).
Proof.
  intros H. unfold outval, eopens. destruct (str_eqb p (lit "-")) eqn:X; [apply str_eqb_eq in X; subst p; apply reads_stdout|].
  apply str_eqb_neq in X. apply reads_output; [exact X|]. destruct H as [H|H]; [contradiction|exact H].
Qed.

Lemma eline t E fs l : Forall (esensible t E (lookup fs)) l -> (exists p, In (EModel p) (map snd l)) ->
  let q := fold_left eask (map snd l) enothing in
  exists ns fs', parse_args (eparser t) E fs (flat_map (ewords t) l) = Some (Parsed ns fs') /\
    (forall p, lookup fs' p = fold_left eopens (map snd l) (lookup fs) p) /\
    forall d, efhas t d = true -> get ns (edest t d) = Some (efvalue t d q).
Proof.
  intros HS [mp HM] q.
  set (ok := fun f : disk => forall s, In s (map snd l) -> match s with EInp p | ECands p | ERefs p | EFreqs p => p = lit "-" \/ f p <> None | _ => True end).
  assert (HS' : forall s, In s (map snd l) -> exists st, esensible t E (lookup fs) (st, s)).
  { intros s Hs. apply in_map_iff in Hs as ([st u] & <- & Hs). exists st. rewrite Forall_forall in HS. apply HS, Hs. }
  destruct (tool_understood_when (eparser t) E (espelt t) (eopt t) evalue eopens ok fs l) as (ns & fs' & E1 & E2 & E3).
  - destruct t; cbn; tauto.
  - destruct t; reflexivity.
  - intros s Hs. destruct (HS' s Hs) as (st & _ & _ & HV). cbn [snd] in HV. destruct s; try exact I; exact HV.
  - intros f s _ Hf u Hu. specialize (Hf u Hu).
    assert (K : forall p, p = lit "-" \/ f p <> None -> p = lit "-" \/ eopens f s p <> None).
    { intros p [H|H]; [left; exact H|right]. destruct s; try exact H. cbn [eopens]. destruct (str_eqb p0 (lit "-")); [exact H|]. destruct (str_eqb p p0); [discriminate|exact H]. }
    destruct u; try exact I; apply K, Hf.
  - intros s Hs. destruct (HS' s Hs) as (st & HH & _ & HV). cbn [snd] in HV, HH.
    split; [destruct t, s; try contradiction; cbn; tauto|]. split; [destruct t, s; try contradiction; reflexivity|].
    assert (KR : forall p, In s [EInp p; ECands p; ERefs p; EFreqs p] -> forall f, ok f -> reads E CRead p f (evalue s) (eopens f s)).
    { intros p Hp f Hf. specialize (Hf s Hs). cbn in Hp. destruct Hp as [<-|[<-|[<-|[<-|[]]]]]; cbn [evalue eopens]; apply reads_in; exact Hf. }
    destruct s as [p|p|p|z|p|p|p]; destruct t; try contradiction; cbn [eopt one a_kind espelt snd];
      eexists; (split; [reflexivity|]); (split; [discriminate|]); intros f Hf;
      first [apply KR; [cbn; tauto|exact Hf] | apply reads_out; exact HV | apply reads_text | apply reads_int].
  - intros ss Hs. rewrite Forall_forall in HS. apply (HS ss Hs).
  - intros s u g Hs Hu. destruct t, s; discriminate.
  - intros o Ho Hr. exists (EModel mp). split; [exact HM|].
    assert (F : Forall (fun o => a_required o = true -> eopt t (EModel mp) = o) (eparser t)).
    { destruct t; repeat (constructor; [first [discriminate|reflexivity]|]); constructor. }
    rewrite Forall_forall in F. apply F; assumption.
  - exists ns, fs'. split; [exact E1|]. split; [exact E2|].
    intros d Hd. unfold get. rewrite (E3 _ (efvalue t d enothing)) by (destruct t, d; try discriminate Hd; reflexivity). f_equal.
    unfold q. generalize enothing. clear E3. assert (HH : forall s, In s (map snd l) -> ehas t s) by (intros s Hs; destruct (HS' s Hs) as (st & X & _); exact X).
    clear - HH. induction (map snd l) as [|s r IH]; intros q0; [reflexivity|]. cbn [fold_left]. rewrite estep by (apply HH; left; reflexivity). apply IH. intros u Hu. apply HH. right; exact Hu.
Qed.

(** *** Inputs and outputs *)
Lemma lines_of_src {A} (Y : system A) fs stdin q d : d = VStdin -> lines_of Y fs stdin (src d q) = plain_lines Y (lookup fs) stdin q.
Proof. intros ->. destruct q as [| |p]; try reflexivity. cbn. unfold lookup. destruct (dget str_eqb p fs); reflexivity. Qed.
Lemma plain_lines_ext {A} (Y : system A) f g stdin q : (forall p, f p = g p) -> plain_lines Y f stdin q = plain_lines Y g stdin q.
Proof. intros H. destruct q as [| |p]; try reflexivity. cbn. rewrite H. reflexivity. Qed.
Lemma finish_gives {A} (Y : system A) fs f out d r : (forall p, lookup fs p = f p) -> d = VStdout \/ d = VNone -> gives Y f out r (finish Y fs (dst d out) r).
Proof.
  intros H Hd. unfold gives, finish. destruct r as [t|x].
  - destruct out as [| |o]; cbn [dst]; [destruct Hd as [-> | ->]| |]; cbn [x_printed x_status x_exc x_stdout x_files]; repeat split; try exact H.
    intros p. unfold lookup. rewrite (dget_dset str_eqb str_eqb_eq). destruct (str_eqb p o); [reflexivity|apply H].
  - cbn [x_printed x_status x_exc x_stdout x_files]. repeat split. exact H.
Qed.
Lemma load_path_at fs f p : (forall p, lookup fs p = f p) -> model_at f p (load_path fs p).
Proof. intros H. unfold model_at, load_path. specialize (H p). unfold lookup in H. rewrite H. destruct (f p); reflexivity. Qed.
Lemma model_at_fun f p r r' : model_at f p r -> model_at f p r' -> r = r'.
Proof. unfold model_at. destruct (f p); congruence. Qed.

(** *** The tools *)
Theorem termfreq_does {A} (Y : system A) pool fs stdin l :
  Forall (esensible TermFreq (y_env Y) (lookup fs)) l -> (exists p, In (EModel p) (map snd l)) ->
  let q := fold_left eask (map snd l) enothing in
  let f := fold_left eopens (map snd l) (lookup fs) in
  exists model m e, k_model q = Some model /\ model_at f model m /\ gram_program Y pool fs stdin (flat_map (ewords TermFreq) l) = Some e /\
    gives Y f (k_out q) (match m with Ok s => termfreq_text s (pool s (plain_lines Y f stdin (k_inp q))) (k_n q) | Raise x => Raise x end) e.
Proof.
  intros HS HM q f. destruct (eline TermFreq (y_env Y) fs l HS HM) as (ns & fs' & E1 & E2 & E3). fold q in E3. fold f in E2.
  assert (Hq : k_model q <> None) by (destruct HM as [mp HM]; apply (emodel_asked _ _ mp); left; exact HM).
  pose proof (E3 QInp eq_refl) as F1. pose proof (E3 QOut eq_refl) as F2. pose proof (E3 QModel eq_refl) as F3. pose proof (E3 QN eq_refl) as F4.
  cbn [edest efvalue] in *. destruct (k_model q) as [model|]; [|destruct Hq; reflexivity].
  exists model, (load_path fs' model). eexists. split; [reflexivity|]. split; [apply load_path_at, E2|]. split.
  - unfold gram_program. cbn [eparser] in E1. rewrite E1, F1, F2, F3, F4. reflexivity.
  - rewrite <- (plain_lines_ext Y (lookup fs') f stdin (k_inp q) E2), <- (lines_of_src Y fs' stdin (k_inp q) VStdin eq_refl).
    assert (EQ : match load_path fs' model with Ok s => termfreq_text s (pool s (lines_of Y fs' stdin (src VStdin (k_inp q)))) (k_n q) | Raise x => Raise x end
      = match load_path fs' model with Raise e => Raise e | Ok s => termfreq_text s (pool s (lines_of Y fs' stdin (src VStdin (k_inp q)))) (k_n q) end) by (destruct (load_path fs' model); reflexivity).
    apply finish_gives; [exact E2|left; reflexivity].
Qed.

Lemma side_src {A} (Y : system A) fs f stdin used q : (forall p, lookup fs p = f p) -> side Y fs stdin used (src VNone q) = utf8_lines Y f stdin used q.
Proof.
  intros H. destruct q as [| |p]; cbn; destruct used; try reflexivity; specialize (H p); unfold lookup in H; rewrite H; reflexivity.
Qed.
Lemma from_stdin_src q : from_stdin (src VNone q) = on_stdin q.
Proof. destruct q; reflexivity. Qed.

Theorem recall_does {A} rnd fmt (Y : system A) pool fs stdin l :
  Forall (esensible Recall (y_env Y) (lookup fs)) l -> (exists p, In (EModel p) (map snd l)) ->
  let q := fold_left eask (map snd l) enothing in
  let f := fold_left eopens (map snd l) (lookup fs) in
  exists model m e, k_model q = Some model /\ model_at f model m /\ recall_program rnd fmt Y pool fs stdin (flat_map (ewords Recall) l) = Some e /\
    (k_cands q = Unset /\ k_refs q = Unset -> gives Y f (k_out q) (Raise AssertionError) e) /\
    (~ (k_cands q = Unset /\ k_refs q = Unset) ->
     gives Y f (k_out q)
       (match m with
        | Ok s => recall_text rnd fmt s (pool s) (utf8_lines Y f stdin false (k_cands q)) (utf8_lines Y f stdin (on_stdin (k_cands q)) (k_refs q)) (k_n q)
                    (match k_freqs q with Unset => None | pl => Some (utf8_lines Y f stdin (on_stdin (k_cands q) || on_stdin (k_refs q)) pl) end)
        | Raise x => Raise x
        end) e).
Proof.
  intros HS HM q f. destruct (eline Recall (y_env Y) fs l HS HM) as (ns & fs' & E1 & E2 & E3). fold q in E3. fold f in E2.
  assert (Hq : k_model q <> None) by (destruct HM as [mp HM]; apply (emodel_asked _ _ mp); left; exact HM).
  pose proof (E3 QCands eq_refl) as F1. pose proof (E3 QRefs eq_refl) as F2. pose proof (E3 QFreqs eq_refl) as F3. pose proof (E3 QN eq_refl) as F4.
  pose proof (E3 QOut eq_refl) as F5. pose proof (E3 QModel eq_refl) as F6.
  cbn [edest efvalue] in *. destruct (k_model q) as [model|]; [|destruct Hq; reflexivity].
  exists model, (load_path fs' model). eexists. split; [reflexivity|]. split; [apply load_path_at, E2|]. split.
  - unfold recall_program. cbn [eparser] in E1. rewrite E1, F1, F2, F3, F4, F5, F6. reflexivity.
  - rewrite !from_stdin_src, !(side_src Y fs' f) by exact E2. split.
    + intros [X1 X2]. rewrite X1, X2. cbn [src]. apply finish_gives; [exact E2|right; reflexivity].
    + intros NX.
      match goal with |- gives _ _ _ ?a (finish _ _ _ ?b) => replace b with a; [apply finish_gives; [exact E2|right; reflexivity]|] end.
      assert (FR : match src VNone (k_freqs q) with VNone => None | _ => Some (side Y fs' stdin (on_stdin (k_cands q) || on_stdin (k_refs q)) (src VNone (k_freqs q))) end
        = match k_freqs q with Unset => None | pl => Some (utf8_lines Y f stdin (on_stdin (k_cands q) || on_stdin (k_refs q)) pl) end).
      { rewrite (side_src Y fs' f) by exact E2. destruct (k_freqs q); reflexivity. }
      destruct (k_freqs q); destruct (k_cands q), (k_refs q); cbn [src] in *; try (destruct NX; split; reflexivity); destruct (load_path fs' model); reflexivity.
Qed.

Lemma no_outputs t E f g l : Forall (esensible t E f) l -> (forall o, ~ ehas t (EOut o)) -> fold_left eopens (map snd l) g = g.
Proof.
  intros HS HN. revert g. induction HS as [|[st s] l H _ IH]; intros g; [reflexivity|]. cbn [map fold_left snd]. rewrite IH. destruct H as [H _]. destruct s; try reflexivity. destruct (HN _ H).
Qed.
Theorem quality_does {A} (Y : system A) fs stdin l :
  Forall (esensible Quality (y_env Y) (lookup fs)) l -> (exists p, In (EModel p) (map snd l)) ->
  let q := fold_left eask (map snd l) enothing in
  exists model m e, k_model q = Some model /\ model_at (lookup fs) model m /\ quality_program Y fs stdin (flat_map (ewords Quality) l) = Some e /\
    (forall p, lookup (x_files e) p = lookup fs p) /\ x_stdout e = [] /\
    match (match m with Ok s => estimate s (plain_lines Y (lookup fs) stdin (k_inp q)) | Raise x => Raise x end) with
    | Ok v => x_status e = 0%Z /\ x_exc e = None /\ x_printed e = Some v
    | Raise x => x_status e = 1%Z /\ x_exc e = Some x /\ x_printed e = None
    end.
Proof.
  intros HS HM q. destruct (eline Quality (y_env Y) fs l HS HM) as (ns & fs' & E1 & E2 & E3). fold q in E3.
  assert (E2' : forall p, lookup fs' p = lookup fs p) by (intros p; rewrite E2, (no_outputs Quality) with (1 := HS) by (intros o X; exact X); reflexivity).
  assert (Hq : k_model q <> None) by (destruct HM as [mp HM]; apply (emodel_asked _ _ mp); left; exact HM).
  pose proof (E3 QInp eq_refl) as F1. pose proof (E3 QModel eq_refl) as F3.
  cbn [edest efvalue] in *. destruct (k_model q) as [model|]; [|destruct Hq; reflexivity].
  exists model, (load_path fs' model).
  rewrite <- (plain_lines_ext Y (lookup fs') (lookup fs) stdin (k_inp q) E2'), <- (lines_of_src Y fs' stdin (k_inp q) VStdin eq_refl).
  unfold quality_program. cbn [eparser] in E1. rewrite E1, F3, F1.
  assert (LP := load_path_at fs' (lookup fs) model E2').
  destruct (load_path fs' model) as [s|x].
  - destruct (estimate s (lines_of Y fs' stdin (src VStdin (k_inp q)))) as [v|x]; eexists; repeat split; try exact LP; exact E2'.
  - eexists. repeat split; try exact LP; exact E2'.
Qed.


Lemma freq_sum_pos (d : list (str * Z)) : (forall t f, In (t, f) d -> (0 < f)%Z) -> zsum (dvalues d) = 0%Z -> d = [].
Proof.
  intros H E. destruct d as [|[t f] d]; [reflexivity|]. exfalso. unfold dvalues in E. cbn [map snd] in E. rewrite zsum_cons in E.
  assert (K : (0 <= zsum (map snd d))%Z). { clear E. induction d as [|[u g] d IH]; [cbn; lia|]. cbn [map snd]. rewrite zsum_cons. specialize (IH (fun t0 f0 X => H t0 f0 (match X with or_introl A => or_introl A | or_intror B => or_intror (or_intror B) end))).
    specialize (H u g (or_intror (or_introl eq_refl))). lia. }
  specialize (H t f (or_introl eq_refl)). lia.
Qed.
Lemma zsum_nonneg (d : list (str * Z)) : (forall t f, In (t, f) d -> (0 < f)%Z) -> (0 <= zsum (dvalues d))%Z.
Proof.
  intros H. unfold dvalues. induction d as [|[u g] d IH]; [cbn; lia|]. cbn [map snd]. rewrite zsum_cons. specialize (IH (fun t f X => H t f (or_intror X))). specialize (H u g (or_introl eq_refl)). lia.
Qed.

Lemma occurrences_pos w l : In w l -> (0 < LearnSpec.occurrences w l)%Z.
Proof. intros H. apply (count_occ_In PyLemmas.str_dec) in H. unfold LearnSpec.occurrences. lia. Qed.
Theorem oov_does {A} fmt (Y : system A) fs stdin l :
  Forall (esensible Oov (y_env Y) (lookup fs)) l -> (exists p, In (EModel p) (map snd l)) ->
  let q := fold_left eask (map snd l) enothing in
  exists model m e, k_model q = Some model /\ model_at (lookup fs) model m /\ oov_program fmt Y fs stdin (flat_map (ewords Oov) l) = Some e /\
    (forall p, lookup (x_files e) p = lookup fs p) /\ x_printed e = None /\
    match m with
    | Raise x => x_status e = 1%Z /\ x_exc e = Some x /\ x_stdout e = []
    | Ok s =>
        match oov_counts s (plain_lines Y (lookup fs) stdin (k_inp q)) with
        | Ok (ti, ni, (to, no), share) => x_status e = 0%Z /\ x_exc e = None /\ x_stdout e = oov_table fmt ti ni to no (Some share)
        | Raise x => x_status e = 1%Z /\ x_exc e = Some x /\ x_stdout e = match x with ZeroDivisionError => oov_table fmt 0 0 0 0 None | _ => [] end
        end
    end.
Proof.
  intros HS HM q. destruct (eline Oov (y_env Y) fs l HS HM) as (ns & fs' & E1 & E2 & E3). fold q in E3.
  assert (E2' : forall p, lookup fs' p = lookup fs p) by (intros p; rewrite E2, (no_outputs Oov) with (1 := HS) by (intros o X; exact X); reflexivity).
  assert (Hq : k_model q <> None) by (destruct HM as [mp HM]; apply (emodel_asked _ _ mp); left; exact HM).
  pose proof (E3 QInp eq_refl) as F1. pose proof (E3 QModel eq_refl) as F3.
  cbn [edest efvalue] in *. destruct (k_model q) as [model|]; [|destruct Hq; reflexivity].
  exists model, (load_path fs' model).
  rewrite <- (plain_lines_ext Y (lookup fs') (lookup fs) stdin (k_inp q) E2'), <- (lines_of_src Y fs' stdin (k_inp q) VStdin eq_refl).
  unfold oov_program. cbn [eparser] in E1. rewrite E1, F3, F1.
  assert (LP := load_path_at fs' (lookup fs) model E2').
  destruct (load_path fs' model) as [s|x].
  2: { eexists. split; [reflexivity|]. split; [exact LP|]. split; [reflexivity|]. split; [exact E2'|]. repeat split. }
  unfold oov_counts, assert_. set (ls := GramModel.lines_of Y fs' stdin (src VStdin (k_inp q))).
  assert (G : forall e x, e = MkEnding 1 fs' [] None (Some x) -> x <> ZeroDivisionError -> x_status e = 1%Z /\ x_exc e = Some x /\ x_stdout e = match x with ZeroDivisionError => oov_table fmt 0 0 0 0 None | _ => [] end).
  { intros e x -> Hx. repeat split. destruct x; try reflexivity. destruct Hx; reflexivity. }
  destruct (partition_vocab_toks ls (dkeys (s_str_to_idx s))) as [iv oov] eqn:EP.
  pose proof (partition_exact _ _ _ _ EP) as (wss & _ & _ & _ & P1 & P2 & _).
  assert (Q1 : forall t f, In (t, f) iv -> (0 < f)%Z) by (intros t f X; apply P1 in X as (X & _ & ->); apply occurrences_pos, X).
  assert (Q2 : forall t f, In (t, f) oov -> (0 < f)%Z) by (intros t f X; apply P2 in X as (X & _ & ->); apply occurrences_pos, X).
  destruct (s_kind s) eqn:K; cbn [bind]; try (destruct (Z.eqb_spec (zsum (dvalues iv) + zsum (dvalues oov)) 0) as [Z0|Z0]);
    (eexists; split; [reflexivity|]; split; [exact LP|]; split; [reflexivity|]; split; [exact E2'|]; split; [reflexivity|]);
    try (apply G; [reflexivity|discriminate]);
    (split; [reflexivity|]; split; [reflexivity|]); cbn [x_stdout].
  all: try (pose proof (zsum_nonneg iv Q1); pose proof (zsum_nonneg oov Q2); rewrite (freq_sum_pos iv Q1) by lia; rewrite (freq_sum_pos oov Q2) by lia; reflexivity).
  all: unfold oov_table; rewrite <- ?app_assoc; cbn [join app]; do 3 (rewrite <- ?app_assoc; cbn [app]); reflexivity.
Qed.

Theorem lens_does {A} orders cpus (Y : system A) pool fs stdin l :
  (forall s ls, encode_parallel (encode s) (ls, None) cpus (pool s ls)) ->
  Forall (esensible Quality (y_env Y) (lookup fs)) l -> (exists p, In (EModel p) (map snd l)) ->
  let q := fold_left eask (map snd l) enothing in
  exists model r e rows, k_model q = Some model /\ lens_program Y orders pool fs stdin (flat_map (ewords Quality) l) = Some (e, rows) /\
    match lookup fs model with
    | None => r = Raise FileNotFound
    | Some codec => estimate_lens orders cpus codec (plain_lines Y (lookup fs) stdin (k_inp q), None) r
    end /\
    (forall p, lookup (x_files e) p = lookup fs p) /\ x_stdout e = [] /\ x_printed e = None /\
    match r with
    | Ok v => x_status e = 0%Z /\ x_exc e = None /\ rows = Some v
    | Raise x => x_status e = 1%Z /\ x_exc e = Some x /\ rows = None
    end.
Proof.
  intros HP HS HM q. destruct (eline Quality (y_env Y) fs l HS HM) as (ns & fs' & E1 & E2 & E3). fold q in E3.
  assert (E2' : forall p, lookup fs' p = lookup fs p) by (intros p; rewrite E2, (no_outputs Quality) with (1 := HS) by (intros o X; exact X); reflexivity).
  assert (Hq : k_model q <> None) by (destruct HM as [mp HM]; apply (emodel_asked _ _ mp); left; exact HM).
  pose proof (E3 QInp eq_refl) as F1. pose proof (E3 QModel eq_refl) as F3.
  cbn [edest efvalue] in *. destruct (k_model q) as [model|]; [|destruct Hq; reflexivity].
  exists model.
  rewrite <- (plain_lines_ext Y (lookup fs') (lookup fs) stdin (k_inp q) E2'), <- (lines_of_src Y fs' stdin (k_inp q) VStdin eq_refl).
  unfold lens_program. cbn [eparser] in E1. rewrite E1, F3, F1. rewrite <- E2'. unfold lookup at 1.
  destruct (dget str_eqb model fs') as [b|].
  2: { eexists _, _, _. split; [reflexivity|]. split; [reflexivity|]. split; [reflexivity|]. split; [exact E2'|]. repeat split. }
  destruct (codec_xt b) as [[s buffer]|x] eqn:EX.
  2: { eexists (Raise x), _, _. split; [reflexivity|]. split; [reflexivity|]. split; [apply el_codec, EX|]. split; [exact E2'|]. repeat split. }
  exists (track_merges orders (List.length (s_table s)) buffer (pool s (GramModel.lines_of Y fs' stdin (src VStdin (k_inp q))))).
  destruct (track_merges orders (List.length (s_table s)) buffer (pool s (GramModel.lines_of Y fs' stdin (src VStdin (k_inp q))))) as [v|x] eqn:ET;
    (eexists _, _; split; [reflexivity|]; split; [reflexivity|]; split; [rewrite <- ET; apply (el_run _ _ _ _ s buffer _ EX), HP|]; split; [exact E2'|]; repeat split).
Qed.
