(** Parsing gives what the command line says. *)
From Coq Require Import Strings.String Lia.
From Verif Require Import Py PyStr PyLemmas NumProofs ArgModel ArgSpec.
Local Open Scope list_scope.

Lemma dget_nodup {V} (l : list (str * V)) k v : NoDup (map fst l) -> In (k, v) l -> dget str_eqb k l = Some v.
Proof.
  induction l as [|[k' v'] l IH]; cbn [map fst]; intros ND H; [destruct H|].
  inversion ND as [|x y Hn ND']; subst. cbn [dget]. destruct H as [H|H].
  - injection H as -> ->. rewrite str_eqb_refl. reflexivity.
  - destruct (str_eqb k k') eqn:E; [|apply IH; assumption].
    apply str_eqb_eq in E. subst k'. destruct Hn. change k with (fst (k, v)). apply in_map, H.
Qed.

Lemma dget_in {V} (l : list (str * V)) k v : dget str_eqb k l = Some v -> In (k, v) l.
Proof.
  induction l as [|[k' v'] l IH]; cbn [dget]; intros H; [discriminate|].
  destruct (str_eqb k k') eqn:E.
  - apply str_eqb_eq in E. subst. injection H as ->. left; reflexivity.
  - right. apply IH, H.
Qed.

Lemma in_option_strings P n o : In (n, o) (option_strings P) <-> In o P /\ In n (a_names o).
Proof.
  unfold option_strings. rewrite in_flat_map. split.
  - intros [p [Hp H]]. apply in_map_iff in H as [m [E H]]. injection E as -> ->. auto.
  - intros [H1 H2]. exists o. split; [assumption|]. apply in_map_iff. exists n. auto.
Qed.

Lemma find_opt_name P o n : proper P -> In o P -> In n (a_names o) -> find_opt P n = Some o.
Proof. intros (_ & ND & _) Ho Hn. apply dget_nodup; [assumption|]. apply in_option_strings; auto. Qed.

Lemma find_opt_in P s o : find_opt P s = Some o -> In o P /\ In s (a_names o).
Proof. intros H. apply dget_in in H. apply in_option_strings, H. Qed.

Lemma partition_none s : ~ In 61%N s -> partition_eq s = None.
Proof.
  induction s as [|c s IH]; intros H; [reflexivity|]. cbn [partition_eq].
  destruct (N.eqb_spec c 61) as [->|Hc]; [destruct H; left; reflexivity|]. rewrite IH; [reflexivity|]. intros X; apply H; right; exact X.
Qed.

Lemma partition_join n e : ~ In 61%N n -> partition_eq (n ++ 61%N :: e) = Some (n, e).
Proof.
  induction n as [|c n IH]; intros H; [reflexivity|]. cbn [partition_eq app].
  destruct (N.eqb_spec c 61) as [->|Hc]; [destruct H; left; reflexivity|]. rewrite IH; [reflexivity|]. intros X; apply H; right; exact X.
Qed.

Lemma all_digits_iff s : all_digits s = true <-> forall c, In c s -> (48 <= c <= 57)%N.
Proof.
  induction s as [|c s IH]; cbn [all_digits].
  - split; [intros _ c []|reflexivity].
  - unfold is_digit. rewrite andb_true_iff, andb_true_iff, N.leb_le, N.leb_le, IH. split.
    + intros [H1 H2] d [<-|Hd]; [assumption|auto].
    + intros H. split; [apply H; left; reflexivity|]. intros d Hd; apply H; right; assumption.
Qed.

Lemma parse_optional_plain P s : proper P -> plain s -> parse_optional P s = Some (TArg s).
Proof.
  intros (HN & _) [H|[->|(d & r & -> & H)]].
  - destruct s as [|c s]; [reflexivity|]. cbn [parse_optional]. unfold DASH.
    destruct (N.eqb_spec c 45) as [->|Hc]; [destruct (H s); reflexivity|reflexivity].
  - cbn [parse_optional]. unfold DASH. cbn [N.eqb Pos.eqb negb].
    destruct (find_opt P [45%N]) as [o|] eqn:E; [|reflexivity]. apply find_opt_in in E as [E1 E2].
    destruct (HN _ _ E1 E2) as (c & r & X & _). discriminate X.
  - assert (Hd : (48 <= d <= 57)%N) by (apply H; left; reflexivity).
    cbn [parse_optional]. unfold DASH. cbn [N.eqb Pos.eqb negb].
    destruct (find_opt P (45%N :: d :: r)) as [o|] eqn:E.
    { apply find_opt_in in E as [E1 E2]. destruct (HN _ _ E1 E2) as (c & r' & X & _ & _ & Hc).
      injection X as <- _. destruct (Hc Hd). }
    rewrite partition_none.
    2:{ intros [X|X]; [discriminate|]. specialize (H _ X). lia. }
    replace (option_tuples P (45%N :: d :: r)) with (@nil (opt * str * bool * option str)).
    2:{ unfold option_tuples, DASH. destruct (N.eqb_spec d 45) as [->|_]; [lia|].
        assert (HS : forall no, In no (option_strings P) ->
                  str_eqb (fst no) [45%N; d] = false /\ startswith (45%N :: d :: r) (fst no) = false).
        { intros [n o] Hn. apply in_option_strings in Hn as [H1 H2]. destruct (HN _ _ H1 H2) as (c & r' & X & _ & _ & Hc).
          cbn [fst]. subst n. split.
          - destruct (str_eqb (45%N :: c :: r') [45%N; d]) eqn:E'; [|reflexivity]. apply str_eqb_eq in E'.
            injection E' as -> _. destruct (Hc Hd).
          - cbn [startswith]. destruct (N.eqb_spec d c) as [->|_]; [destruct (Hc Hd)|]. reflexivity. }
        induction (option_strings P) as [|no l IH]; [reflexivity|]. cbn [flat_map].
        destruct (HS no (or_introl eq_refl)) as [-> ->]. cbn [app]. apply IH. intros no' Hno. apply HS. right; assumption. }
    unfold negative_like, DASH. cbn [N.eqb Pos.eqb andb].
    assert (X : all_digits (d :: r) = true) by (apply all_digits_iff, H). rewrite X. reflexivity.
Qed.

Definition toks (b : said) : list tok :=
  match b with
  | Word s => [TArg s]
  | Given o n args true => [TOpt (Some o) n true (Some (List.concat args)) (n ++ 61%N :: List.concat args)]
  | Given o n args false => TOpt (Some o) n false None n :: map TArg args
  end.

Lemma plain_dashes s : plain s -> str_eqb s [45; 45]%N = false.
Proof.
  intros H. destruct (str_eqb s [45; 45]%N) eqn:E; [|reflexivity]. apply str_eqb_eq in E. subst s.
  destruct H as [H|[H|(d & r & E & H)]]; [destruct (H [45%N]); reflexivity|discriminate|].
  injection E as <- <-. specialize (H _ (or_introl eq_refl)). lia.
Qed.

Lemma classify_plain P l ws : proper P -> (forall s, In s l -> plain s) ->
  classify P (l ++ ws) = match classify P ws with Some ts => Some (map TArg l ++ ts) | None => None end.
Proof.
  intros HP. induction l as [|s l IH]; intros H; [cbn; destruct (classify P ws); reflexivity|].
  cbn [app classify map]. unfold DASH. rewrite plain_dashes by (apply H; left; reflexivity).
  rewrite parse_optional_plain; [|assumption|apply H; left; reflexivity].
  rewrite IH by (intros x Hx; apply H; right; assumption). destruct (classify P ws); reflexivity.
Qed.

Lemma classify_said P b ws : proper P -> well_said P b ->
  classify P (written b ++ ws) = match classify P ws with Some ts => Some (toks b ++ ts) | None => None end.
Proof.
  intros HP Hb. destruct b as [s|o n args []].
  - change (written (Word s)) with [s]. change (toks (Word s)) with (map TArg [s]). apply classify_plain; [assumption|].
    intros x [<-|[]]. exact Hb.
  - destruct Hb as (Ho & Hn & Hk & Hl). destruct HP as (HN & HP'). pose proof (HN _ _ Ho Hn) as (c & r & E & H1 & H2 & H3).
    cbn [written toks app classify].
    set (e := List.concat args) in *.
    assert (X : str_eqb (n ++ 61%N :: e) [DASH; DASH] = false).
    { destruct (str_eqb (n ++ 61%N :: e) [DASH; DASH]) eqn:X; [|reflexivity]. apply str_eqb_eq in X.
      assert (In 61%N [DASH; DASH]) by (rewrite <- X; apply in_or_app; right; left; reflexivity).
      unfold DASH in *. destruct H as [H|[H|[]]]; discriminate H. }
    rewrite X. clear X.
    assert (X : parse_optional P (n ++ 61%N :: e) = Some (TOpt (Some o) n true (Some e) (n ++ 61%N :: e))).
    { assert (F : find_opt P (n ++ 61%N :: e) = None).
      { destruct (find_opt P (n ++ 61%N :: e)) as [o'|] eqn:F; [|reflexivity]. apply find_opt_in in F as [F1 F2].
        destruct (HN _ _ F1 F2) as (c' & r' & E' & _ & H' & _). destruct H'. apply in_or_app; right; left; reflexivity. }
      assert (G : partition_eq (n ++ 61%N :: e) = Some (n, e)) by (apply partition_join; assumption).
      assert (K : find_opt P n = Some o) by (apply find_opt_name; [split|..]; assumption).
      subst n. cbn [app] in *. unfold parse_optional. rewrite F, G, K. reflexivity. }
    rewrite X. destruct (classify P ws); reflexivity.
  - destruct Hb as (Ho & Hn & Hk & Hl). pose proof HP as (HN & HP'). pose proof (HN _ _ Ho Hn) as (c & r & E & H1 & H2 & H3).
    cbn [written toks app classify]. unfold DASH.
    assert (X : str_eqb n [45; 45]%N = false).
    { destruct (str_eqb n [45; 45]%N) eqn:X; [|reflexivity]. apply str_eqb_eq in X. contradiction. }
    rewrite X. clear X.
    assert (X : parse_optional P n = Some (TOpt (Some o) n false None n)).
    { assert (K : find_opt P n = Some o) by (apply find_opt_name; assumption).
      subst n. unfold parse_optional. rewrite K. reflexivity. }
    rewrite X, classify_plain by assumption. destruct (classify P ws); reflexivity.
Qed.

Lemma classify_all P bs : proper P -> Forall (well_said P) bs ->
  classify P (flat_map written bs) = Some (flat_map toks bs).
Proof.
  intros HP H. induction H as [|b bs Hb _ IH]; [reflexivity|].
  cbn [flat_map]. rewrite classify_said, IH by assumption. reflexivity.
Qed.

(** The actions, in order. *)
Definition acts (pos : opt) (bs : list said) : list (opt * list str) :=
  map (fun b => match b with Word s => (pos, [s]) | Given o _ args _ => (o, args) end) bs.

Lemma take_all_extras_eta E l st :
  take_all E l (MkPstate (p_ns st) (p_seen st) (p_files st) (p_extras st ++ [])) = take_all E l st.
Proof. rewrite app_nil_r. destruct st; reflexivity. Qed.

Lemma span_args_map l ts : (forall s r, ts <> TArg s :: r) -> span_args (map TArg l ++ ts) = (l, ts).
Proof.
  intros H. induction l as [|s l IH]; cbn [map app span_args].
  - destruct ts as [|[]]; try reflexivity. destruct (H s ts). reflexivity.
  - rewrite IH. reflexivity.
Qed.

Definition no_many (P : list opt) : Prop := forall o c, In o P -> a_kind o <> KMany c.

Lemma existsb_toks bs : existsb is_option (flat_map toks bs) = existsb (fun b => negb (is_word b)) bs.
Proof.
  induction bs as [|b bs IH]; [reflexivity|]. cbn [flat_map existsb]. rewrite existsb_app, IH.
  destruct b as [s|o n args []]; cbn; [reflexivity|reflexivity|].
  reflexivity.
Qed.

Definition words (bs : list said) : nat := List.length (filter is_word bs).

Lemma only_words bs : existsb (fun b => negb (is_word b)) bs = false -> words bs = List.length bs.
Proof.
  unfold words. induction bs as [|b bs IH]; [reflexivity|]. cbn [existsb filter]. rewrite orb_false_iff. intros [H1 H2].
  destruct (is_word b); [|discriminate]. cbn. f_equal. apply IH, H2.
Qed.

Lemma toks_length b : 1 <= List.length (toks b).
Proof. destruct b as [s|o n args []]; cbn; lia. Qed.

Lemma remove_dashes_plain s : str_eqb s [DASH; DASH] = false -> remove_dashes [s] = [s].
Proof. intros H. cbn. unfold DASH in *. rewrite H. reflexivity. Qed.

Lemma match_argument_said P bs o n args :
  well_said P (Given o n args false) -> no_many P \/ words bs = 0 ->
  match_argument (a_kind o) (map TArg args ++ flat_map toks bs) = Some (args, flat_map toks bs).
Proof.
  intros (Ho & Hn & Hk & Hp) HM. destruct (a_kind o) as [c ch|c|b|] eqn:K; cbn [match_argument].
  - destruct args as [|s [|]]; try discriminate Hk. reflexivity.
  - destruct HM as [HM|HM]; [destruct (HM _ _ Ho K)|].
    rewrite span_args_map.
    + destruct args; [destruct Hk; reflexivity|reflexivity].
    + destruct bs as [|[s|o' n' args' []] bs]; cbn; try discriminate; intros; discriminate.
  - subst args. reflexivity.
  - destruct Hk.
Qed.

(** The token machine takes the actions one after the other. *)
Lemma read_words_said P E pos fuel bs st :
  proper P -> Forall (well_said P) bs -> no_many P \/ words bs = 0 ->
  words bs <= List.length (match pos with Some p => [p] | None => [] end) ->
  (forall p, pos = Some p -> a_names p = []) ->
  List.length (flat_map toks bs) < fuel ->
  read_words fuel P E (match pos with Some p => [p] | None => [] end) (flat_map toks bs) st
  = Some (take_all E (acts (match pos with Some p => p | None => help_opt end) bs) st).
Proof.
  intros HP. revert pos fuel st. induction bs as [|b bs IH]; intros pos fuel st HW HM HL Hpos HF.
  - destruct fuel as [|fuel]; [lia|]. cbn [flat_map read_words existsb].
    replace (consume_positionals E _ [] st) with (@Go (pstate * list opt * list tok) (st, match pos with Some p => [p] | None => [] end, [])).
    2:{ destruct pos; reflexivity. }
    cbn [map acts take_all]. rewrite app_nil_r. destruct st; reflexivity.
  - inversion HW as [|x y Hb HW']; subst. destruct fuel as [|fuel]; [lia|].
    assert (HM' : no_many P \/ words bs = 0).
    { destruct HM as [HM|HM]; [left; assumption|right]. unfold words in *. cbn [filter] in HM. destruct (is_word b); cbn in HM; [discriminate|assumption]. }
    assert (HF' : List.length (flat_map toks bs) < fuel).
    { cbn [flat_map] in HF. rewrite app_length in HF. pose proof (toks_length b). lia. }
    destruct b as [s|o n args j].
    + (* a word *)
      cbn [words filter is_word] in HL. destruct pos as [p|]; [|unfold words in HL; cbn in HL; lia].
      assert (HL0 : words bs = 0) by (unfold words in *; cbn in HL; lia).
      cbn [read_words]. rewrite existsb_toks. cbn [existsb is_word negb orb].
      change (flat_map toks (Word s :: bs)) with (TArg s :: flat_map toks bs).
      assert (Hdash : span_dash (flat_map toks bs) = ([], flat_map toks bs)).
      { destruct bs as [|[s'|o' n' args' []] bs']; reflexivity. }
      assert (Hm : match_positional (TArg s :: flat_map toks bs) = Some ([s], flat_map toks bs)).
      { unfold match_positional. cbn [span_dash]. rewrite Hdash. reflexivity. }
      cbn [acts map take_all]. cbn [consume_positionals]. rewrite Hm.
      destruct (existsb (fun b => negb (is_word b)) bs) eqn:EX.
      * destruct (take_action E p [s] st) as [st'|c fs]; [|reflexivity].
        cbn [List.length]. replace (List.length (flat_map toks bs) <? S (List.length (flat_map toks bs)))%nat with true
          by (symmetry; apply Nat.ltb_lt; lia).
        etransitivity.
        { exact (IH None fuel st' HW' HM' ltac:(rewrite HL0; cbn; lia) ltac:(discriminate) HF'). }
        f_equal. clear - HL0. f_equal.
        assert (forall q, In q bs -> is_word q = false).
        { intros q Hq. destruct (is_word q) eqn:Q; [|reflexivity]. unfold words in HL0.
          assert (In q (filter is_word bs)) by (apply filter_In; auto). destruct (filter is_word bs); [destruct H|discriminate HL0]. }
        unfold acts. apply map_ext_in. intros [s'|] Hs; [specialize (H _ Hs); discriminate|reflexivity].
      * apply only_words in EX. rewrite HL0 in EX. destruct bs; [|discriminate EX].
        cbn [flat_map acts map take_all]. destruct (take_action E p [s] st) as [st'|c fs]; [|reflexivity].
        rewrite app_nil_r. destruct st'; reflexivity.
    + (* an option *)
      assert (HL' : words bs <= List.length (match pos with Some p => [p] | None => [] end)) by exact HL.
      cbn [read_words]. rewrite existsb_toks. cbn [existsb is_word negb orb].
      cbn [flat_map acts map]. fold (acts (match pos with Some p => p | None => help_opt end) bs).
      destruct j; cbn [toks app].
      * (* joined *)
        destruct Hb as (Ho & Hn & Hk & Hj). destruct args as [|e [|]]; try discriminate Hj. cbn [List.concat]. rewrite app_nil_r.
        cbn [consume_optional].
        replace (attached_loop P o n true e (flat_map toks bs) []) with (Some ([(o, [e])], @nil str, flat_map toks bs)).
        2:{ destruct e as [|c0 e]; cbn [attached_loop];
            (destruct (a_kind o); [reflexivity|reflexivity|discriminate Hk|destruct Hk]). }
        rewrite take_all_extras_eta. cbn [take_all].
        destruct (take_action E o [e] st) as [st'|c fs]; [|reflexivity]. apply IH; assumption.
      * cbn [consume_optional]. rewrite (match_argument_said P bs o n args) by assumption.
        rewrite take_all_extras_eta. cbn [take_all].
        destruct (take_action E o args st) as [st'|c fs]; [|reflexivity]. apply IH; assumption.
Qed.

Definition lookup (fs : files) : disk := fun p => dget str_eqb p fs.

Lemma convert_reads E c s f v f' fs :
  reads E c s f v f' -> (forall p, lookup fs p = f p) ->
  exists fs', convert E c s fs = Some (v, fs') /\ forall p, lookup fs' p = f' p.
Proof.
  intros H HF. destruct H as [z f|s f H|s f|f|s f H1 H2|f|s f H1 H2]; unfold convert, DASH.
  - rewrite int_of_str_of_Z. eauto.
  - rewrite H. eauto.
  - eauto.
  - exists fs. auto.
  - apply str_eqb_neq in H1. rewrite H1. specialize (HF s) as HS. unfold lookup in HS.
    destruct (dget str_eqb s fs) as [b|]; [eauto|]. rewrite <- HS in H2. destruct H2; reflexivity.
  - exists fs. auto.
  - apply str_eqb_neq in H1. rewrite H1, H2. eexists; split; [reflexivity|]. intros p. unfold lookup.
    rewrite (dget_dset str_eqb str_eqb_eq). rewrite <- HF. reflexivity.
Qed.

Lemma convert_reads_all E c l f vs f' fs :
  reads_all E c l f vs f' -> (forall p, lookup fs p = f p) ->
  exists fs', convert_all E c l fs = (Some vs, fs') /\ forall p, lookup fs' p = f' p.
Proof.
  intros H. revert fs. induction H as [f|s l f v f1 vs f2 H1 _ IH]; intros fs HF; cbn [convert_all]; [eauto|].
  destruct (convert_reads _ _ _ _ _ _ _ H1 HF) as (fs1 & -> & HF1). destruct (IH _ HF1) as (fs2 & -> & HF2). eauto.
Qed.

Lemma strs_eqb_refl l : strs_eqb l l = true.
Proof. induction l as [|s l IH]; [reflexivity|]. cbn. rewrite str_eqb_refl, IH. reflexivity. Qed.
Lemma strs_eqb_eq a b : strs_eqb a b = true <-> a = b.
Proof.
  revert b. induction a as [|x a IH]; intros [|y b]; cbn; split; intros H; try easy.
  - apply andb_true_iff in H as [H1 H2]. apply str_eqb_eq in H1. apply IH in H2. congruence.
  - injection H as -> ->. rewrite str_eqb_refl, strs_eqb_refl. reflexivity.
Qed.
Lemma same_opt_refl o : same_opt o o = true.
Proof. unfold same_opt. rewrite strs_eqb_refl, str_eqb_refl. reflexivity. Qed.

Lemma conflicts_none o seen :
  (forall p g, In p seen -> a_group o = Some g -> a_group p = Some g -> o = p) -> conflicts o seen = false.
Proof.
  intros H. unfold conflicts. destruct (a_group o) as [g|] eqn:G; [|reflexivity].
  destruct (existsb _ seen) eqn:E; [|reflexivity]. apply existsb_exists in E as (p & Hp & E).
  apply andb_true_iff in E as [E1 E2]. destruct (a_group p) as [g'|] eqn:G'; [|discriminate]. apply Nat.eqb_eq in E1. subst g'.
  rewrite <- (H p g Hp eq_refl G') in E2. rewrite same_opt_refl in E2. discriminate.
Qed.

Definition agrees (ns ns' : list (str * value)) (asg : list (opt * value)) : Prop :=
  forall d v, dget str_eqb d ns = Some v -> dget str_eqb d ns' = Some (last_given d asg v).

Lemma agrees_step ns ns' o v asg :
  agrees (dset str_eqb (a_dest o) v ns) ns' asg -> agrees ns ns' ((o, v) :: asg).
Proof.
  intros H d w Hd. cbn [last_given]. apply H. rewrite (dget_dset str_eqb str_eqb_eq), (str_eqb_sym d).
  destruct (str_eqb (a_dest o) d); [reflexivity|assumption].
Qed.

Lemma choices_ok s choices : (forall l, choices = Some l -> In s l) ->
  match choices with None => true | Some l => existsb (str_eqb s) l end = true.
Proof.
  intros H. destruct choices as [l|]; [|reflexivity]. apply existsb_exists. exists s. split; [apply H; reflexivity|apply str_eqb_refl].
Qed.

Lemma take_asks P E pos bs f asg f' st :
  asks E pos bs f asg f' -> Forall (well_said P) bs -> proper P -> a_names pos = [] ->
  (forall p, lookup (p_files st) p = f p) ->
  (forall o p g, In o (p_seen st ++ map fst asg) -> In p (p_seen st ++ map fst asg) -> a_group o = Some g -> a_group p = Some g -> o = p) ->
  exists st', take_all E (acts pos bs) st = Go st' /\ (forall p, lookup (p_files st') p = f' p) /\ p_extras st' = p_extras st /\
    agrees (p_ns st) (p_ns st') asg /\ (forall o, In o (map fst asg) -> In o (p_seen st')) /\ (forall o, In o (p_seen st) -> In o (p_seen st')).
Proof.
  intros H HW HP Hpos. revert st.
  assert (NM : forall o n args j, well_said P (Given o n args j) -> exists x y, a_names o = x :: y).
  { intros o n args j (Ho & Hn & _). destruct (a_names o) as [|x y]; [destruct Hn|eauto]. }
  assert (NX : forall (o : opt) seen (asg : list (opt * value)) (v : value) (X : forall o1 p g, In o1 (seen ++ map fst ((o, v) :: asg)) -> In p (seen ++ map fst ((o, v) :: asg)) ->
              a_group o1 = Some g -> a_group p = Some g -> o1 = p),
            forall o1 p g, In o1 ((o :: seen) ++ map fst asg) -> In p ((o :: seen) ++ map fst asg) -> a_group o1 = Some g -> a_group p = Some g -> o1 = p).
  { intros o seen asg0 v X o1 p g H1 H2. apply X; clear - H1 H2; rewrite in_app_iff in *; cbn [map fst] in *; cbn [In] in *; intuition. }
  induction H as [f|s bs c choices v f f1 r f2 K HC HR _ IH|o n b j bs f r f2 K _ IH|o n s j c choices v bs f f1 r f2 K HC HR _ IH
                 |o n args j c vs bs f f1 r f2 K HR _ IH]; intros st HF HG.
  - exists st. cbn. repeat split; try assumption; try tauto. intros d v Hd. exact Hd.
  - inversion HW as [|x y Hb HW']; subst. cbn [acts map take_all].
    destruct (convert_reads _ _ _ _ _ _ _ HR HF) as (fs1 & Ec & HF1).
    assert (T : take_action E pos [s] st = Go (MkPstate (dset str_eqb (a_dest pos) v (p_ns st)) (pos :: p_seen st) fs1 (p_extras st))).
    { unfold take_action. rewrite Hpos, remove_dashes_plain by (apply plain_dashes, Hb). rewrite K, Ec, (choices_ok _ _ HC). reflexivity. }
    rewrite T. destruct (IH HW' (MkPstate (dset str_eqb (a_dest pos) v (p_ns st)) (pos :: p_seen st) fs1 (p_extras st)) HF1 (NX _ _ _ _ HG)) as (st' & E1 & E2 & E3 & E4 & E5 & E6).
    exists st'. cbn [p_extras p_ns p_seen] in *. split; [exact E1|]. repeat split; try assumption.
    + apply agrees_step, E4.
    + intros o [<-|Ho]; [apply E6; left; reflexivity|apply E5, Ho].
    + intros o Ho. apply E6. right; exact Ho.
  - inversion HW as [|x y Hb HW']; subst. cbn [acts map take_all].
    destruct (NM _ _ _ _ Hb) as (x & y & En).
    assert (T : take_action E o [] st = Go (MkPstate (dset str_eqb (a_dest o) (VBool b) (p_ns st)) (o :: p_seen st) (p_files st) (p_extras st))).
    { unfold take_action. rewrite K, conflicts_none; [reflexivity|].
      intros p g Hp. apply HG; rewrite in_app_iff; cbn [map fst In]; auto. }
    rewrite T. destruct (IH HW' (MkPstate (dset str_eqb (a_dest o) (VBool b) (p_ns st)) (o :: p_seen st) (p_files st) (p_extras st)) HF (NX _ _ _ _ HG)) as (st' & E1 & E2 & E3 & E4 & E5 & E6).
    exists st'. cbn [p_extras p_ns p_seen] in *. split; [exact E1|]. repeat split; try assumption.
    + apply agrees_step, E4.
    + intros q [<-|Hq]; [apply E6; left; reflexivity|apply E5, Hq].
    + intros q Hq. apply E6. right; exact Hq.
  - inversion HW as [|x y Hb HW']; subst. cbn [acts map take_all].
    destruct (NM _ _ _ _ Hb) as (x & y & En).
    destruct (convert_reads _ _ _ _ _ _ _ HR HF) as (fs1 & Ec & HF1).
    assert (T : take_action E o [s] st = Go (MkPstate (dset str_eqb (a_dest o) v (p_ns st)) (o :: p_seen st) fs1 (p_extras st))).
    { unfold take_action. rewrite En, K, Ec, (choices_ok _ _ HC). reflexivity. }
    rewrite T. destruct (IH HW' (MkPstate (dset str_eqb (a_dest o) v (p_ns st)) (o :: p_seen st) fs1 (p_extras st)) HF1 (NX _ _ _ _ HG)) as (st' & E1 & E2 & E3 & E4 & E5 & E6).
    exists st'. cbn [p_extras p_ns p_seen] in *. split; [exact E1|]. repeat split; try assumption.
    + apply agrees_step, E4.
    + intros q [<-|Hq]; [apply E6; left; reflexivity|apply E5, Hq].
    + intros q Hq. apply E6. right; exact Hq.
  - inversion HW as [|x y Hb HW']; subst. cbn [acts map take_all].
    destruct (NM _ _ _ _ Hb) as (x & y & En).
    destruct (convert_reads_all _ _ _ _ _ _ _ HR HF) as (fs1 & Ec & HF1).
    assert (T : take_action E o args st = Go (MkPstate (dset str_eqb (a_dest o) (VMany vs) (p_ns st)) (o :: p_seen st) fs1 (p_extras st))).
    { unfold take_action. rewrite En, K, Ec. reflexivity. }
    rewrite T. destruct (IH HW' (MkPstate (dset str_eqb (a_dest o) (VMany vs) (p_ns st)) (o :: p_seen st) fs1 (p_extras st)) HF1 (NX _ _ _ _ HG)) as (st' & E1 & E2 & E3 & E4 & E5 & E6).
    exists st'. cbn [p_extras p_ns p_seen] in *. split; [exact E1|]. repeat split; try assumption.
    + apply agrees_step, E4.
    + intros q [<-|Hq]; [apply E6; left; reflexivity|apply E5, Hq].
    + intros q Hq. apply E6. right; exact Hq.
Qed.

Lemma defaults_get d P ns :
  dget str_eqb d (defaults P ns) = match dget str_eqb d ns with Some v => Some v | None => default_of d P end.
Proof.
  revert ns. induction P as [|o P IH]; intros ns; cbn [defaults default_of]; [destruct (dget str_eqb d ns); reflexivity|].
  rewrite IH. destruct (a_kind o) eqn:K; try reflexivity;
    (destruct (dget str_eqb (a_dest o) ns) eqn:D;
     [destruct (str_eqb (a_dest o) d) eqn:X; [apply str_eqb_eq in X; subst d; rewrite D; reflexivity|reflexivity]
     |rewrite (dget_dset str_eqb str_eqb_eq), (str_eqb_sym d); destruct (str_eqb (a_dest o) d) eqn:X;
       [apply str_eqb_eq in X; subst d; rewrite D; reflexivity|reflexivity]]).
Qed.

Definition positionals (P : list opt) : list opt := filter (fun o => match a_names o with [] => true | _ => false end) P.

Lemma parse_said P E fs bs pos :
  proper P -> Forall (well_said P) bs ->
  (positionals P = [pos] /\ words bs <= 1 /\ no_many P) \/ (positionals P = [] /\ words bs = 0) ->
  parse_args P E fs (flat_map written bs) =
  match take_all E (acts pos bs) (MkPstate (defaults P []) [] fs []) with
  | Quit c fs' => Some (Exited c fs')
  | Go st => if existsb (fun o => a_required o && negb (existsb (same_opt o) (p_seen st))) P then Some (Exited 2 (p_files st))
             else match p_extras st with [] => Some (Parsed (p_ns st) (p_files st)) | _ => Some (Exited 2 (p_files st)) end
  end.
Proof.
  intros HP HW HC. unfold parse_args. rewrite classify_all by assumption. fold (positionals P).
  assert (R : read_words (S (List.length (flat_map toks bs))) P E (positionals P) (flat_map toks bs) (MkPstate (defaults P []) [] fs [])
    = Some (take_all E (acts pos bs) (MkPstate (defaults P []) [] fs []))).
  { destruct HC as [(HC & HL & HM)|(HC & HL)]; rewrite HC.
    - exact (read_words_said P E (Some pos) _ bs _ HP HW (or_introl HM) HL
               ltac:(intros p X; injection X as <-; assert (In pos (positionals P)) as Y by (rewrite HC; left; reflexivity);
                     apply filter_In in Y as [_ Y]; destruct (a_names pos); [reflexivity|discriminate]) (Nat.lt_succ_diag_r _)).
    - etransitivity; [exact (read_words_said P E None _ bs _ HP HW (or_intror HL) ltac:(cbn; lia) ltac:(discriminate) (Nat.lt_succ_diag_r _))|].
      f_equal. f_equal. unfold acts. apply map_ext_in. intros [s|] Hs; [|reflexivity].
      exfalso. unfold words in HL. assert (In (Word s) (filter is_word bs)) as X by (apply filter_In; auto).
      destruct (filter is_word bs); [destruct X|discriminate HL]. }
  rewrite R. destruct (take_all E (acts pos bs) _); reflexivity.
Qed.

Theorem understood P E fs bs pos asg f' :
  proper P -> Forall (well_said P) bs ->
  (positionals P = [pos] /\ words bs <= 1 /\ no_many P) \/ (positionals P = [] /\ words bs = 0) ->
  asks E pos bs (lookup fs) asg f' -> no_clash asg -> complete P asg ->
  exists ns fs', parse_args P E fs (flat_map written bs) = Some (Parsed ns fs') /\ (forall p, lookup fs' p = f' p) /\
    (forall d v, default_of d P = Some v -> dget str_eqb d ns = Some (last_given d asg v)).
Proof.
  intros HP HW HC HA HN HQ.
  rewrite (parse_said P E fs bs pos HP HW HC).
  assert (exists pos', a_names pos' = [] /\ acts pos bs = acts pos' bs /\ asks E pos' bs (lookup fs) asg f') as (pos' & Hpos & -> & HA').
  { destruct HC as [(HC & _)|(_ & HL)].
    - exists pos. split; [|split; [reflexivity|assumption]].
      assert (In pos (positionals P)) as Y by (rewrite HC; left; reflexivity).
      apply filter_In in Y as [_ Y]. destruct (a_names pos); [reflexivity|discriminate].
    - exists (MkOpt [] [] KQuit false VNone None). split; [reflexivity|].
      assert (X : forall s, ~ In (Word s) bs).
      { intros s Hs. unfold words in HL. assert (In (Word s) (filter is_word bs)) as X by (apply filter_In; auto).
        destruct (filter is_word bs); [destruct X|discriminate HL]. }
      split.
      + unfold acts. apply map_ext_in. intros [s|] Hs; [destruct (X _ Hs)|reflexivity].
      + clear - HA X. induction HA as [f|s bs c choices v f f1 r f2 K HC HR _ IH|o n b j bs f r f2 K _ IH|o n s j c choices v bs f f1 r f2 K HC HR _ IH
                 |o n args j c vs bs f f1 r f2 K HR _ IH].
        * constructor.
        * destruct (X s). left; reflexivity.
        * constructor; [assumption|]. apply IH. intros s Hs; apply (X s); right; exact Hs.
        * econstructor; try eassumption. apply IH. intros s' Hs; apply (X s'); right; exact Hs.
        * econstructor; try eassumption. apply IH. intros s' Hs; apply (X s'); right; exact Hs. }
  destruct (take_asks P E pos' bs (lookup fs) asg f' (MkPstate (defaults P []) [] fs []) HA' HW HP Hpos (fun p => eq_refl)) as (st & -> & E2 & E3 & E4 & E5 & E6).
  { cbn [p_seen app]. intros o p g H1 H2. apply in_map_iff in H1 as ([o1 v1] & <- & H1). apply in_map_iff in H2 as ([o2 v2] & <- & H2).
    cbn [fst]. eapply HN; eassumption. }
  cbn [p_extras p_ns] in *.
  replace (existsb _ P) with false.
  2:{ symmetry. destruct (existsb _ P) eqn:X; [|reflexivity]. apply existsb_exists in X as (o & Ho & X).
      apply andb_true_iff in X as [X1 X2]. destruct (HQ o Ho X1) as [v Hv].
      assert (existsb (same_opt o) (p_seen st) = true) as Y.
      { apply existsb_exists. exists o. split; [|apply same_opt_refl]. apply E5. change o with (fst (o, v)). apply in_map, Hv. }
      rewrite Y in X2. discriminate. }
  rewrite E3. exists (p_ns st), (p_files st). repeat split; [assumption|].
  intros d v Hd. apply E4. rewrite defaults_get. cbn [dget]. exact Hd.
Qed.
