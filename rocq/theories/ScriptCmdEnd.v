(** uxdx.py and unicode_fix.py do what their command lines say. *)
From Coq Require Import Strings.String Lia.
From Verif Require Import Py PyStr PyLemmas NumProofs JsonProofs StrSpec PyStrProofs Utf8Model Utf8Proofs CliSpec CliProofs VocabFileModel VocabFileProofs ScriptModel ScriptSpec ScriptProofs ScriptEnd
     ArgModel ArgSpec CmdModel CmdSpec ArgProofs ArgSound CmdProofs ToolSpec ToolProofs ToolEnd GramSpec GramEnd ToolTotal ScriptCmdModel ScriptCmdSpec.
Local Open Scope list_scope.

Definition sparser (t : stool) : list opt := match t with Uxdx => ux_parser | Fix => fix_parser end.
Definition script_program (t : stool) := match t with Uxdx => ux_program | Fix => fix_program end.
Definition lang_opt : opt := MkOpt [lit "-l"; lit "--lang"] (lit "lang") (KOne CText (Some [lit "hin"; lit "devanagari"])) true VNone None.
Definition sopt (s : sset) : opt :=
  match s with
  | SInp _ => one "-i" "--inp" "inp" CRead false VStdin
  | SOut _ => one "-o" "--out" "out" CWrite false VStdout
  | SDecode => flag ["-d"; "--decode"]%string "decode" true (VBool false) None
  | SLang _ => lang_opt
  end.
Definition svalue (s : sset) : value :=
  match s with SInp p => inval p | SOut p => outval p | SDecode => VBool true | SLang n => VText n end.
Inductive sfield : Type := JInp | JOut | JDecode | JLang.
Definition sdest (d : sfield) : string := match d with JInp => "inp" | JOut => "out" | JDecode => "decode" | JLang => "lang" end%string.
Definition sfvalue (d : sfield) (q : sasked) : value :=
  match d with
  | JInp => src VStdin (j_inp q)
  | JOut => dst VStdout (j_out q)
  | JDecode => VBool (j_decode q)
  | JLang => match j_lang q with None => VNone | Some n => VText n end
  end.
Lemma sstep d q s : (if str_eqb (a_dest (sopt s)) (lit (sdest d)) then svalue s else sfvalue d q) = sfvalue d (sask q s).
Proof. destruct q as [i o b n]. destruct s, d; cbn -[place_of inval outval]; rewrite ?src_of, ?dst_of; reflexivity. Qed.

Lemma sline t E fs l : Forall (ssensible t E (lookup fs)) l -> (t = Fix -> exists n, In (SLang n) (map snd l)) ->
  let q := fold_left sask (map snd l) snothing in
  exists ns fs', parse_args (sparser t) E fs (flat_map swords l) = Some (Parsed ns fs') /\
    (forall p, lookup fs' p = fold_left sopens (map snd l) (lookup fs) p) /\
    forall d, (d = JLang -> t = Fix) -> get ns (sdest d) = Some (sfvalue d q).
Proof.
  intros HS HM q.
  set (ok := fun f : disk => forall s, In s (map snd l) -> match s with SInp p => p = lit "-" \/ f p <> None | _ => True end).
  assert (HS' : forall s, In s (map snd l) -> exists st, ssensible t E (lookup fs) (st, s)).
  { intros s Hs. apply in_map_iff in Hs as ([st u] & <- & Hs). exists st. rewrite Forall_forall in HS. apply HS, Hs. }
  destruct (tool_understood_when (sparser t) E sspelt sopt svalue sopens ok fs l) as (ns & fs' & E1 & E2 & E3).
  - destruct t; cbn; tauto.
  - destruct t; reflexivity.
  - intros s Hs. destruct (HS' s Hs) as (st & _ & HV). cbn [snd] in HV. destruct s; try exact I; exact HV.
  - intros f s _ Hf u Hu. specialize (Hf u Hu). destruct u as [p|p| |n]; try exact I.
    destruct Hf as [H|H]; [left; exact H|right]. destruct s as [x|x| |x]; try exact H. cbn [sopens]. destruct (str_eqb x (lit "-")); [exact H|]. destruct (str_eqb p x); [discriminate|exact H].
  - intros s Hs. destruct (HS' s Hs) as (st & _ & HV). cbn [snd] in HV.
    split; [destruct s as [p|p| |n]; [| | |destruct HV as [-> _]]; [destruct t; cbn; tauto..|cbn; tauto]|].
    split; [destruct s; reflexivity|].
    destruct s as [p|p| |n]; cbn [sopt one flag lang_opt a_kind sspelt snd].
    + eexists. split; [reflexivity|]. split; [discriminate|]. intros f Hf. cbn [svalue sopens]. apply reads_in. exact (Hf _ Hs).
    + eexists. split; [reflexivity|]. split; [discriminate|]. intros f Hf. cbn [svalue]. exact (reads_out E p f HV).
    + repeat split; reflexivity.
    + eexists. split; [reflexivity|]. split; [|intros f Hf; apply reads_text]. intros ch Hc. injection Hc as <-. destruct HV as [_ [-> | ->]]; cbn; tauto.
  - intros ss Hs. rewrite Forall_forall in HS. apply (HS ss Hs).
  - intros s u g Hs Hu. destruct s; discriminate.
  - intros o Ho Hr. destruct t; cbn in Ho; repeat (destruct Ho as [<-|Ho]; [try discriminate Hr|]); try destruct Ho.
    destruct (HM eq_refl) as (n & Hn). exists (SLang n). split; [exact Hn|reflexivity].
  - exists ns, fs'. split; [exact E1|]. split; [exact E2|].
    intros d Hd. unfold get. rewrite (E3 _ (sfvalue d snothing)) by (destruct t, d; try discriminate (Hd eq_refl); reflexivity). f_equal.
    unfold q. generalize snothing. clear. induction (map snd l) as [|s r IH]; intros q0; [reflexivity|]. cbn [fold_left]. rewrite sstep. apply IH.
Qed.

Lemma lang_asked (l : list sset) q : (exists n, In (SLang n) l) \/ j_lang q <> None -> j_lang (fold_left sask l q) <> None.
Proof.
  revert q. induction l as [|s l IH]; intros q H; [destruct H as [[? []]|H]; exact H|]. cbn [fold_left]. apply IH.
  destruct H as [(n & [->|H])|H]; [right; destruct q; discriminate|left; exists n; exact H|right; destruct q, s; cbn in *; congruence].
Qed.
Lemma lang_known t E f (l : list (style * sset)) : Forall (ssensible t E f) l -> forall q, (forall n, j_lang q = Some n -> n = lit "hin" \/ n = lit "devanagari") ->
  forall n, j_lang (fold_left sask (map snd l) q) = Some n -> n = lit "hin" \/ n = lit "devanagari".
Proof.
  induction 1 as [|[st s] l H HF IH]; intros q Hq; [exact Hq|]. cbn [map fold_left snd]. apply IH. destruct H as [_ H]. cbn [snd] in H.
  destruct q as [i o d m], s; cbn in *; try exact Hq. intros x Hx. injection Hx as <-. apply H.
Qed.
Lemma script_output_puts fs f out t : (forall p, lookup fs p = f p) -> sputs f out t (script_output fs (dst VStdout out) t).
Proof.
  intros H. unfold sputs, script_output. destruct out as [| |o]; cbn; repeat split; try exact H.
  intros p. unfold lookup. rewrite (dget_dset str_eqb str_eqb_eq). destruct (str_eqb p o); [reflexivity|apply H].
Qed.
Lemma script_input_text fs f stdin pl : (forall p, lookup fs p = f p) -> script_input fs stdin (src VStdin pl) = stext f stdin pl.
Proof. intros H. destruct pl as [| |p]; try reflexivity. cbn. specialize (H p). unfold lookup in H. rewrite H. reflexivity. Qed.

Theorem script_does t E fs stdin l : Forall (ssensible t E (lookup fs)) l -> (t = Fix -> exists n, In (SLang n) (map snd l)) ->
  let q := fold_left sask (map snd l) snothing in
  let f := fold_left sopens (map snd l) (lookup fs) in
  exists e ls, script_program t E fs stdin (flat_map swords l) = Some e /\ lines_of (stext f stdin (j_inp q)) ls /\
    sputs f (j_out q) (unlines (map (respelled t (j_decode q)) ls)) e.
Proof.
  intros HS HM q f. destruct (sline t E fs l HS HM) as (ns & fs' & E1 & E2 & E3). fold q in E3. fold f in E2.
  destruct (lines_of_total (stext f stdin (j_inp q))) as (ls & Hls). eexists. exists ls.
  pose proof (E3 JInp ltac:(discriminate)) as F1. pose proof (E3 JOut ltac:(discriminate)) as F2. pose proof (E3 JDecode ltac:(discriminate)) as F3. cbn [sdest sfvalue] in *.
  split; [|split; [exact Hls|]].
  2: apply script_output_puts, E2.
  rewrite <- (script_input_text fs' f stdin (j_inp q) E2) in Hls.
  destruct t; cbn [script_program sparser] in *.
  - unfold ux_program. rewrite E1, F1, F2, F3. unfold ux_main. rewrite (by_lines _ _ ls Hls). destruct (j_decode q); reflexivity.
  - pose proof (E3 JLang (fun _ => eq_refl)) as F4. cbn [sdest sfvalue] in F4.
    assert (Hn : j_lang q <> None) by (apply lang_asked; left; exact (HM eq_refl)).
    assert (Hk := lang_known Fix E (lookup fs) l HS snothing ltac:(discriminate)). fold q in Hk. destruct (j_lang q) as [n|]; [|destruct Hn; reflexivity].
    unfold fix_program. rewrite E1, F1, F2, F3, F4. unfold fix_main. rewrite (hindi_ok n) by (destruct (Hk n eq_refl) as [-> | ->]; cbn; tauto).
    rewrite (by_lines _ _ ls Hls). destruct (j_decode q); reflexivity.
Qed.

(** *** There and back *)
Lemma decode_scalars bs : scalars (utf8_decode [] bs).
Proof.
  assert (G : forall n bs, (List.length bs <= n)%nat -> scalars (utf8_decode [] bs)).
  { induction n as [|n IH]; intros [|b0 r0] Hn; try (constructor; fail); cbn in Hn; [lia|]. cbn [utf8_decode app].
    assert (I0 : scalars (utf8_decode [] r0)) by (apply IH; lia).
    destruct (N.ltb_spec b0 128); [constructor; [|exact I0]|].
    { unfold is_scalar, is_surrogate. apply andb_true_iff. split; [apply N.ltb_lt; lia|]. apply negb_true_iff. apply andb_false_iff. left. apply N.leb_gt. lia. }
    destruct (N.ltb_spec b0 194); [exact I0|].
    destruct (N.ltb_spec b0 224).
    { destruct r0 as [|b1 r1]; [constructor|]. destruct (is_cont b1) eqn:C1; [|exact I0]. constructor; [|apply IH; cbn in Hn; lia].
      unfold is_cont in C1. apply andb_true_iff in C1 as [C1 C1']. apply N.leb_le in C1. apply N.ltb_lt in C1'.
      unfold is_scalar, is_surrogate. apply andb_true_iff. split; [apply N.ltb_lt; lia|]. apply negb_true_iff. apply andb_false_iff. left. apply N.leb_gt. lia. }
    destruct (N.ltb_spec b0 240).
    { destruct r0 as [|b1 r1]; [constructor|]. destruct (negb (is_cont b1) || _) eqn:C1; [exact I0|]. destruct r1 as [|b2 r2]; [constructor|].
      destruct (is_cont b2) eqn:C2; [|apply IH; cbn in *; lia]. constructor; [|apply IH; cbn in *; lia].
      apply orb_false_iff in C1 as [C1 D]. apply negb_false_iff in C1. unfold is_cont in C1, C2.
      apply andb_true_iff in C1 as [C1 C1'], C2 as [C2 C2']. apply N.leb_le in C1, C2. apply N.ltb_lt in C1', C2'.
      unfold is_scalar, is_surrogate. apply andb_true_iff. split; [apply N.ltb_lt; lia|]. apply negb_true_iff. apply andb_false_iff.
      destruct (N.ltb_spec b1 160) as [X|X]; apply N.eqb_neq in D.
      - destruct (N.lt_ge_cases b0 238) as [Y|Y]; [left; apply N.leb_gt; lia|right; apply N.leb_gt; lia].
      - destruct (N.lt_ge_cases b0 237) as [Y|Y]; [left; apply N.leb_gt; lia|right; apply N.leb_gt; lia]. }
    destruct (N.ltb_spec b0 245); [|exact I0].
    destruct r0 as [|b1 r1]; [constructor|]. destruct (negb (is_cont b1) || _) eqn:C1; [exact I0|]. destruct r1 as [|b2 r2]; [constructor|].
    destruct (negb (is_cont b2)) eqn:C2; [apply IH; cbn in *; lia|]. destruct r2 as [|b3 r3]; [constructor|].
    destruct (is_cont b3) eqn:C3; [|apply IH; cbn in *; lia]. constructor; [|apply IH; cbn in *; lia].
    apply orb_false_iff in C1 as [C1 D]. apply negb_false_iff in C1, C2. unfold is_cont in C1, C2, C3.
    apply andb_true_iff in C1 as [C1 C1'], C2 as [C2 C2'], C3 as [C3 C3']. apply N.leb_le in C1, C2, C3. apply N.ltb_lt in C1', C2', C3'.
    unfold is_scalar, is_surrogate. destruct (N.ltb_spec b1 144) as [X|X]; apply N.eqb_neq in D;
      (apply andb_true_iff; split; [apply N.ltb_lt; lia|]; apply negb_true_iff; apply andb_false_iff; right; apply N.leb_gt; lia). }
  apply (G (List.length bs)). lia.
Qed.
Lemma lines_scalars text ls : lines_of text ls -> scalars text -> Forall scalars ls.
Proof.
  unfold scalars. induction 1 as [|l|l rest ls H H0 IH|l rest ls H H0 IH|l rest ls]; intros HS; [constructor|constructor; [exact HS|constructor]|..].
  all: rewrite !Forall_app in HS; destruct HS as (S1 & S2 & S3); constructor; [exact S1|auto].
Qed.
Lemma lines_unique text ls ls' : lines_of text ls -> lines_of text ls' -> ls = ls'.
Proof.
  intros H H'. assert (B := lines_no_break _ _ H). assert (B' := lines_no_break _ _ H'). apply file_lines_spec in H, H'.
  revert ls' H' B'. induction H as [|x l xs ls Hx H IH]; intros ls' H' B'; inversion H' as [|y l' ys ls'' Hx' HF]; subst; [reflexivity|].
  inversion B as [|? ? B1 B2]. inversion B' as [|? ? B1' B2']. subst. f_equal; [|apply IH; assumption].
  destruct Hx as [->| ->], Hx' as [E|E]; [exact E| | |apply app_inj_tail in E; apply E].
  - subst l. destruct B1 as [B1 _]. destruct B1. apply in_or_app. right. left. reflexivity.
  - subst l'. destruct B1' as [B1' _]. destruct B1'. apply in_or_app. right. left. reflexivity.
Qed.
Lemma unlines_scalars ls : Forall scalars ls -> scalars (unlines ls).
Proof. induction 1 as [|l ls H HF IH]; [constructor|]. cbn. unfold scalars in *. rewrite <- app_assoc. apply Forall_app. split; [exact H|]. constructor; [reflexivity|exact IH]. Qed.
Lemma respelled_scalars t l : scalars l -> scalars (respelled t false l).
Proof.
  unfold scalars. rewrite !Forall_forall. intros H c Hc. destruct t; cbn [respelled] in Hc.
  - apply ux_chars in Hc. destruct Hc as [Hc|Hc]; [apply H, Hc|subst c; reflexivity].
  - apply (encode_chars hindi l hindi_script) in Hc. destruct Hc as [Hc|[Hc|Hc]]; [apply H, Hc| |subst c; reflexivity].
    assert (G : Forall (fun c => is_scalar c = true) (map fst (vowels hindi))) by (apply Forall_forall, forallb_forall; reflexivity).
    rewrite Forall_forall in G. apply G, Hc.
Qed.

Lemma back_again t ls : Forall no_break ls -> Forall (comes_back t) ls ->
  lines_of (unlines (map (respelled t false) ls)) (map (respelled t false) ls) /\ map (respelled t true) (map (respelled t false) ls) = ls.
Proof.
  intros H1 H2. rewrite Forall_forall in H1, H2. split.
  - apply unlines_lines. apply Forall_forall. intros x Hx. apply in_map_iff in Hx as (l & <- & Hl). destruct t; [apply ux_no_break, H1, Hl|apply hindi_no_break, H1, Hl].
  - rewrite map_map. rewrite <- (map_id ls) at 2. apply map_ext_in. intros l Hl. specialize (H2 l Hl). destruct t; cbn in *; [apply ux_id, H2|apply (spelled_back hindi l hindi_script), H2].
Qed.

Theorem script_round t E fs stdin stdin' (st : nat -> style) n n' T X U tb ls :
  lookup fs T = Some tb -> lines_of (utf8_decode [] tb) ls -> Forall (comes_back t) ls ->
  e_writable E X = true -> e_writable E U = true -> Forall plain [T; X; U] -> Forall (fun p => p <> lit "-") [T; X; U] -> X <> T -> U <> X ->
  In n [lit "hin"; lit "devanagari"] -> In n' [lit "hin"; lit "devanagari"] ->
  exists e1 e2,
    script_program t E fs stdin (flat_map swords ([(st 0, SInp T); (st 1, SOut X)] ++ naming t (st 2) n)%nat) = Some e1 /\ x_status e1 = 0%Z /\
    script_program t E (x_files e1) stdin' (flat_map swords ([(st 3, SDecode); (st 4, SInp X); (st 5, SOut U)] ++ naming t (st 6) n')%nat) = Some e2 /\ x_status e2 = 0%Z /\
    lookup (x_files e2) U = Some (utf8_encode_ignore (unlines ls)) /\ (forall p, p <> X -> p <> U -> lookup (x_files e2) p = lookup fs p).
Proof.
  intros HT Hls HC HX HU HP HD D1 D2 Hn Hn'.
  assert (PT : plain T) by (rewrite Forall_forall in HP; apply HP; cbn; tauto). assert (PX : plain X) by (rewrite Forall_forall in HP; apply HP; cbn; tauto).
  assert (PU : plain U) by (rewrite Forall_forall in HP; apply HP; cbn; tauto).
  assert (DT : str_eqb T (lit "-") = false) by (apply str_eqb_neq; rewrite Forall_forall in HD; apply HD; cbn; tauto).
  assert (DX : str_eqb X (lit "-") = false) by (apply str_eqb_neq; rewrite Forall_forall in HD; apply HD; cbn; tauto).
  assert (DU : str_eqb U (lit "-") = false) by (apply str_eqb_neq; rewrite Forall_forall in HD; apply HD; cbn; tauto).
  assert (NP : forall m, In m [lit "hin"; lit "devanagari"] -> plain m) by (intros m [<-|[<-|[]]]; left; intros r; discriminate).
  assert (NS : forall f s m, In m [lit "hin"; lit "devanagari"] -> Forall (ssensible t E f) (naming t s m)).
  { intros f s m Hm. unfold naming. destruct t; constructor; [|constructor]. split; [intros _; constructor; [apply NP, Hm|constructor]|].
    cbn. split; [reflexivity|]. destruct Hm as [<-|[<-|[]]]; auto. }
  assert (ASK : forall s m q, j_inp (fold_left sask (map snd (naming t s m)) q) = j_inp q /\ j_out (fold_left sask (map snd (naming t s m)) q) = j_out q /\ j_decode (fold_left sask (map snd (naming t s m)) q) = j_decode q)
    by (intros s m [i o d x]; destruct t; cbn; auto).
  assert (OPN : forall s m f, fold_left sopens (map snd (naming t s m)) f = f) by (intros s m f; destruct t; reflexivity).
  assert (LNG : forall (a : list (style * sset)) s m, t = Fix -> exists x, In (SLang x) (map snd (a ++ naming t s m))) by (intros a s m ->; exists m; rewrite map_app; apply in_or_app; right; left; reflexivity).
  destruct (script_does t E fs stdin ([(st 0%nat, SInp T); (st 1%nat, SOut X)] ++ naming t (st 2%nat) n)) as (e1 & ls1 & A1 & A2 & A3); [|apply LNG|].
  { apply Forall_app. split; [|apply NS, Hn]. constructor; [split; [intros _; constructor; [exact PT|constructor]|right; cbn; congruence]|].
    constructor; [split; [intros _; constructor; [exact PX|constructor]|right; exact HX]|constructor]. }
  rewrite map_app, !fold_left_app in A2, A3. destruct (ASK (st 2%nat) n (fold_left sask (map snd [(st 0%nat, SInp T); (st 1%nat, SOut X)]) snothing)) as (K1 & K2 & K3).
  rewrite K1, OPN in A2. rewrite K2, K3, OPN in A3. cbn [map snd fold_left sask snothing j_inp j_out j_decode sopens] in A2, A3. unfold place_of in A2, A3. rewrite DT, DX in *.
  cbn [stext] in A2. assert (NTX : str_eqb T X = false) by (apply str_eqb_neq; congruence). rewrite NTX, HT in A2.
  assert (ls1 = ls) by exact (lines_unique _ _ _ A2 Hls). subst ls1. destruct A3 as (S1 & _ & _ & _ & A3).
  destruct (back_again t ls (lines_no_break _ _ Hls) HC) as (B1 & B2).
  assert (SC : scalars (unlines (map (respelled t false) ls))).
  { apply unlines_scalars. assert (Y := lines_scalars _ _ Hls (decode_scalars tb)). rewrite Forall_forall in Y |- *. intros x Hx. apply in_map_iff in Hx as (l & <- & Hl). apply respelled_scalars, Y, Hl. }
  destruct (script_does t E (x_files e1) stdin' ([(st 3%nat, SDecode); (st 4%nat, SInp X); (st 5%nat, SOut U)] ++ naming t (st 6%nat) n')) as (e2 & ls2 & C1 & C2 & C3); [|apply LNG|].
  { apply Forall_app. split; [|apply NS, Hn']. constructor; [split; [intros _; constructor|exact I]|]. constructor; [split; [intros _; constructor; [exact PX|constructor]|right; cbn; rewrite A3, str_eqb_refl; discriminate]|].
    constructor; [split; [intros _; constructor; [exact PU|constructor]|right; exact HU]|constructor]. }
  rewrite map_app, !fold_left_app in C2, C3. destruct (ASK (st 6%nat) n' (fold_left sask (map snd [(st 3%nat, SDecode); (st 4%nat, SInp X); (st 5%nat, SOut U)]) snothing)) as (L1 & L2 & L3).
  rewrite L1, OPN in C2. rewrite L2, L3, OPN in C3. cbn [map snd fold_left sask snothing j_inp j_out j_decode sopens] in C2, C3. unfold place_of in C2, C3. rewrite DU, DX in *.
  cbn [stext] in C2. assert (NXU : str_eqb X U = false) by (apply str_eqb_neq; congruence). rewrite NXU, A3, str_eqb_refl, (utf8_ignore_roundtrip _ SC) in C2.
  assert (ls2 = map (respelled t false) ls) by exact (lines_unique _ _ _ C2 B1). subst ls2. rewrite B2 in C3. destruct C3 as (S2 & _ & _ & _ & C3).
  exists e1, e2. split; [exact A1|]. split; [exact S1|]. split; [exact C1|]. split; [exact S2|]. split.
  - rewrite C3, str_eqb_refl. reflexivity.
  - intros p H1 H2. apply str_eqb_neq in H1, H2. rewrite C3, !H2, A3, !H1. reflexivity.
Qed.

(** *** Any command line *)
Theorem script_ends t E fs stdin argv : exists e, script_program t E fs stdin argv = Some e /\ ends_well (sparser t) E fs argv (fun _ => False) e.
Proof.
  assert (OUT : forall fs1 out x, is_target argv out -> let e := script_output fs1 out x in
    (x_status e = 0 /\ x_exc e = None \/ x_status e = 1 /\ x_exc e <> None)%Z /\ forall p, lookup (x_files e) p = lookup fs1 p \/ from argv p \/ False).
  { intros fs1 out x Ho e. unfold e, script_output. destruct Ho as [[-> | ->]|(o & -> & Ho)]; cbn; (split; [left; auto|]); intros p; auto.
    unfold lookup. rewrite (dget_dset str_eqb str_eqb_eq). destruct (str_eqb p o) eqn:Z; [|auto]. apply str_eqb_eq in Z. subst p. auto. }
  destruct t; cbn [script_program sparser].
  - assert (HP : In ux_parser parsers) by (cbn; tauto). unfold ux_program.
    destruct (parse_total ux_parser E fs argv (parsers_simple _ HP)) as (r & P & _). rewrite P. destruct r as [ns fs1|c fs1]; [|eexists; split; [reflexivity|apply refused_ends; assumption]].
    anything "inp"%string VStdin. target "out"%string VStdout. yesno "decode"%string (VBool false).
    eexists. split; [reflexivity|]. match goal with |- ends_well _ _ _ _ _ (script_output _ _ ?x) => destruct (OUT fs1 _ x ltac:(eassumption)) as [F1 F2] end. eapply done_ends; eassumption.
  - assert (HP : In fix_parser parsers) by (cbn; tauto). unfold fix_program.
    destruct (parse_total fix_parser E fs argv (parsers_simple _ HP)) as (r & P & _). rewrite P. destruct r as [ns fs1|c fs1]; [|eexists; split; [reflexivity|apply refused_ends; assumption]].
    anything "inp"%string VStdin. target "out"%string VStdout. yesno "decode"%string (VBool false). needed "lang"%string lang_opt.
    destruct (fix_main _ _ _) as [?|?].
    + eexists. split; [reflexivity|]. match goal with |- ends_well _ _ _ _ _ (script_output _ _ ?x) => destruct (OUT fs1 _ x ltac:(eassumption)) as [F1 F2] end. eapply done_ends; eassumption.
    + eexists. split; [reflexivity|]. eapply done_ends; [exact HP|exact P|right; split; [reflexivity|discriminate]|]. intros p. left. reflexivity.
Qed.
