(** BPE learning from text to vocabulary: BPEScheme.learn. *)
From Coq Require Import Strings.String.
From Verif Require Import Py PyLemmas PyStr StrSpec PyStrProofs CodecModel CodecSpec TrieProofs BpeProofs VocabFileModel VocabSpec VocabFileProofs LearnModel LearnSpec LearnProofs
     HeapModel HeapProofs BpeSpec LearnBpeModel LearnBpeProofs LearnBpeLoop LearnBpeIndex LearnBpeResults.
Local Open Scope Z_scope.
Local Open Scope list_scope.

(** ** Where the textbook learner stops *)
Lemma bpe_merges min_co level n c t r : bpe min_co level n c t r ->
  exists k c' t', (k <= n)%nat /\ merges min_co level k c t c' t' /\
    ((r = Ok t' /\ (k = n \/ exists p f, best c' p f /\ f < min_co)) \/
     (r = Raise IndexError /\ (k < n)%nat /\ forall p, pair_count c' p = 0)).
Proof.
  induction 1 as [c t|n c t p f Hbest Hrare|n c t H0|n c c' t a b f ta tb r Hbest Hfreq Ha Eta Hb Etb Hm HB IH].
  - exists O, c, t. split; [apply le_n|]. split; [constructor|]. left. auto.
  - exists O, c, t. split; [lia|]. split; [constructor|]. left. split; [reflexivity|]. right. eauto.
  - exists O, c, t. split; [lia|]. split; [constructor|]. right. split; [reflexivity|]. split; [lia|exact H0].
  - destruct IH as (k & c2 & t2 & Hk & Hmg & Hr). exists (S k), c2, t2. split; [lia|]. split; [eapply mg_step; eassumption|].
    destruct Hr as [[E [->|Hr]]|(E & Hl & H0)]; [left; auto|left; auto|right; split; [exact E|split; [lia|exact H0]]].
Qed.

(** ** Size and prefix, whatever the frequencies *)
Lemma learn_loop_size orders n_merges min_co level fuel : forall i st st', learn_loop fuel orders i n_merges min_co level st = Ok st' ->
  exists new, ls_vocab st' = ls_vocab st ++ new /\ Z.of_nat (length new) <= Z.max 0 (n_merges - Z.of_nat i) /\
    Forall (fun t => t_level t = level /\ exists a b, t_kids t = Some [a; b]) new.
Proof.
  induction fuel as [|fuel IH]; intros i st st' H; cbn [learn_loop] in H.
  - destruct (Z.leb_spec n_merges (Z.of_nat i)); [|discriminate]. injection H as <-. exists []. rewrite app_nil_r. cbn [length]. split; [reflexivity|]. split; [lia|constructor].
  - destruct (Z.leb_spec n_merges (Z.of_nat i)) as [Hle|Hgt].
    + injection H as <-. exists []. rewrite app_nil_r. cbn [length]. split; [reflexivity|]. split; [lia|constructor].
    + destruct (pop_clean _ _ _) as [[[[p v] heap] dirty]|]; [|discriminate]. cbn [bind] in H.
      destruct (v <? min_co).
      * injection H as <-. exists []. cbn [ls_vocab]. rewrite app_nil_r. cbn [length]. split; [reflexivity|]. split; [lia|constructor].
      * destruct (merge_pair (orders i) level (fst p) (snd p) v heap dirty st) as [st1|] eqn:E; [|discriminate]. cbn [bind] in H.
        apply IH in H. destruct H as (new & E1 & Hl & Hall).
        assert (Hv : exists nt, ls_vocab st1 = ls_vocab st ++ [nt] /\ t_level nt = level /\ exists a b, t_kids nt = Some [a; b]).
        { unfold merge_pair in E. cbv zeta in E. destruct (py_nth (ls_vocab st) (fst p)) as [ta|]; [|discriminate]. cbn [bind] in E.
          destruct (py_nth (ls_vocab st) (snd p)) as [tb|]; [|discriminate]. cbn [bind] in E.
          destruct (dget pair_eqb (fst p, snd p) (ls_ixs st)); [|discriminate].
          destruct (foldM _ _ _) as [ms|]; [|discriminate]. cbn [bind] in E.
          destruct (assert_ (ucount (fst p) (ms_uni ms) >=? 0)); [|discriminate]. cbn [bind] in E.
          destruct (assert_ (ucount (snd p) (ms_uni ms) >=? 0)); [|discriminate]. cbn [bind] in E.
          destruct (foldM _ _ _) as [[h d]|]; [|discriminate]. cbn [bind] in E. injection E as <-. cbn [ls_vocab].
          eexists. split; [reflexivity|]. cbn [t_level t_kids]. split; [reflexivity|eauto]. }
        destruct Hv as (nt & Ev & Hnt). exists (nt :: new). rewrite E1, Ev, <- app_assoc. split; [reflexivity|]. split.
        -- cbn [length]. lia.
        -- constructor; assumption.
Qed.
Lemma learn_codes_size orders seqs vocab n_merges min_co level table : learn_codes orders seqs vocab n_merges min_co level = Ok table ->
  exists new, table = vocab ++ new /\ Z.of_nat (length new) <= Z.max 0 n_merges /\
    Forall (fun t => t_level t = level /\ exists a b, t_kids t = Some [a; b]) new.
Proof.
  unfold learn_codes, learn_codes_state. destruct (bpe_init seqs vocab) as [ix|]; [|discriminate]. cbn [bind].
  destruct (mh_init pair_ltb (ix_bi ix)) as [heap|]; [|discriminate]. cbn [bind].
  destruct (learn_loop _ _ _ _ _ _ _) as [st|] eqn:E; [|discriminate]. cbn [bind]. intros H. injection H as <-.
  apply learn_loop_size in E. cbn [ls_vocab] in E. destruct E as (new & E & Hl & Hall). exists new. split; [exact E|]. split; [|exact Hall]. lia.
Qed.

(** ** Words and characters *)
Definition marked_words (tfs : list (str * Z)) : list (str * Z) :=
  fold_left (fun d wf => dset str_eqb (prepare_word (fst wf)) (snd wf) d) tfs [].
Lemma marked_words_eq tfs : NoDup (map fst tfs) -> marked_words tfs = map (fun wf => (fst wf ++ [MARK], snd wf)) tfs.
Proof.
  intros Hnd. unfold marked_words.
  assert (G : forall l d, NoDup (dkeys d ++ map (fun wf : str * Z => fst wf ++ [MARK]) l) ->
     fold_left (fun d wf => dset str_eqb (prepare_word (fst wf)) (snd wf) d) l d = d ++ map (fun wf => (fst wf ++ [MARK], snd wf)) l).
  { induction l as [|wf l IH]; intros d H; cbn [fold_left map]; [rewrite app_nil_r; reflexivity|]. cbn [map] in H.
    assert (Hni : ~ In (fst wf ++ [MARK]) (dkeys d)).
    { intros Hin. apply NoDup_remove_2 in H. apply H. apply in_app_iff. left. exact Hin. }
    change (prepare_word (fst wf)) with (fst wf ++ [MARK]). rewrite (dset_fresh str_eqb str_eqb_eq) by exact Hni.
    rewrite IH; [rewrite <- app_assoc; reflexivity|]. unfold dkeys in *. rewrite map_app, <- app_assoc. exact H. }
  rewrite G; [reflexivity|]. cbn [dkeys map app].
  assert (E : map (fun wf : str * Z => fst wf ++ [MARK]) tfs = map (fun w => w ++ [MARK]) (map fst tfs)) by (rewrite map_map; reflexivity).
  rewrite E. apply FinFun.Injective_map_NoDup; [|exact Hnd]. intros x y H. apply app_inj_tail in H. tauto.
Qed.
Lemma char_freqs_keys tfs : NoDup (dkeys (char_freqs tfs)) /\
  (forall w, In w (dkeys (char_freqs tfs)) <-> exists v f c, In (v, f) tfs /\ In c v /\ w = [c]).
Proof.
  unfold char_freqs.
  assert (G1 : forall (v : str) f d, NoDup (dkeys d) ->
     NoDup (dkeys (fold_left (fun d c => dadd str_eqb [c] f d) v d)) /\
     forall w, In w (dkeys (fold_left (fun d c => dadd str_eqb [c] f d) v d)) <-> In w (dkeys d) \/ exists c, In c v /\ w = [c]).
  { induction v as [|c v IH]; intros f d Hnd; cbn [fold_left].
    - split; [exact Hnd|]. intros w. split; [auto|]. intros [H|(c & [] & _)]. exact H.
    - destruct (IH f (dadd str_eqb [c] f d)) as [I1 I2]; [apply NoDup_dset; [apply str_eqb_eq|exact Hnd]|].
      split; [exact I1|]. intros w. rewrite I2. unfold dadd. rewrite (In_dset_keys str_eqb str_eqb_eq). split.
      + intros [[H|H]|(c' & H & E)]; [auto|right; exists c; split; [left; reflexivity|exact H]|right; exists c'; split; [right; exact H|exact E]].
      + intros [H|(c' & [<-|H] & E)]; [auto|auto|right; exists c'; auto]. }
  assert (G2 : forall l d, NoDup (dkeys d) ->
     NoDup (dkeys (fold_left (fun d tf => fold_left (fun d c => dadd str_eqb [c] (snd tf) d) (fst tf) d) l d)) /\
     forall w, In w (dkeys (fold_left (fun d tf => fold_left (fun d c => dadd str_eqb [c] (snd tf) d) (fst tf) d) l d)) <->
       In w (dkeys d) \/ exists v f c, In (v, f) l /\ In c v /\ w = [c]).
  { induction l as [|[v f] l IH]; intros d Hnd; cbn [fold_left fst snd].
    - split; [exact Hnd|]. intros w. split; [auto|]. intros [H|(v & f & c & [] & _)]. exact H.
    - destruct (G1 v f d Hnd) as [J1 J2]. destruct (IH _ J1) as [I1 I2]. split; [exact I1|]. intros w. rewrite I2, J2. split.
      + intros [[H|(c & H & E)]|(v' & f' & c & H & H2 & E)]; [auto|right; exists v, f, c; split; [left; reflexivity|auto]|].
        right. exists v', f', c. split; [right; exact H|auto].
      + intros [H|(v' & f' & c & [E1|H] & H2 & E)]; [auto| |].
        * injection E1 as <- <-. left. right. exists c. auto.
        * right. exists v', f', c. auto. }
  destruct (G2 tfs [] (NoDup_nil _)) as [I1 I2]. split; [exact I1|]. intros w. rewrite I2. cbn [dkeys map In]. split; [intros [[]|H]; exact H|auto].
Qed.

(** the dictionary name -> index of a table *)
Lemma rev_idx_eq table : distinct_names table ->
  fold_left (fun d t => dset str_eqb (t_name t) (t_idx t) d) table [] = map (fun t => (t_name t, t_idx t)) table.
Proof.
  intros Hnd. unfold distinct_names in Hnd.
  assert (G : forall l d, NoDup (dkeys d ++ map t_name l) ->
     fold_left (fun d t => dset str_eqb (t_name t) (t_idx t) d) l d = d ++ map (fun t => (t_name t, t_idx t)) l).
  { induction l as [|t l IH]; intros d H; cbn [fold_left map]; [rewrite app_nil_r; reflexivity|]. cbn [map] in H.
    assert (Hni : ~ In (t_name t) (dkeys d)).
    { intros Hin. apply NoDup_remove_2 in H. apply H. apply in_app_iff. left. exact Hin. }
    rewrite (dset_fresh str_eqb str_eqb_eq) by exact Hni.
    rewrite IH; [rewrite <- app_assoc; reflexivity|]. unfold dkeys in *. rewrite map_app, <- app_assoc. exact H. }
  apply (G table []). exact Hnd.
Qed.
Lemma rev_idx_get table w : distinct_names table -> well_indexed table ->
  match dget str_eqb w (map (fun t => (t_name t, t_idx t)) table) with
  | Some i => name_at table i w
  | None => ~ has_name table w
  end.
Proof.
  intros Hdn Hwi. destruct (dget str_eqb w _) as [i|] eqn:E.
  - apply (dget_In str_eqb str_eqb_eq) in E. apply in_map_iff in E. destruct E as (t & E & Hin). injection E as <- <-.
    apply In_nth_error in Hin. destruct Hin as (n & Hn). rewrite (Hwi _ _ Hn). split; [lia|]. exists t. rewrite Nat2Z.id. auto.
  - apply (dget_None str_eqb str_eqb_eq) in E. intros (t & Hin & Hn). apply E. unfold dkeys. rewrite map_map. apply in_map_iff. exists t. auto.
Qed.

Lemma id_of_fun table w : distinct_names table -> well_indexed table ->
  id_of table w (dget_def str_eqb w 1 (map (fun t => (t_name t, t_idx t)) table)).
Proof.
  intros Hdn Hwi. pose proof (rev_idx_get table w Hdn Hwi) as H. unfold dget_def.
  destruct (dget str_eqb w _) as [i|]; [left; exact H|right; auto].
Qed.
Lemma id_of_range table w i : starts_reserved table -> id_of table w i -> 0 <= i < Z.of_nat (length table).
Proof.
  intros Hs [[H0 (t & E & _)]|[-> _]].
  - assert (Z.to_nat i < length table)%nat by (apply nth_error_Some; congruence). lia.
  - unfold starts_reserved in Hs. assert (H := f_equal (@length _) Hs). rewrite firstn_length, map_length in H. change (length reserved_names) with 6%nat in H. lia.
Qed.
Lemma unk_index table : starts_reserved table -> distinct_names table -> well_indexed table ->
  dget str_eqb UNK_TOK (map (fun t => (t_name t, t_idx t)) table) = Some 1.
Proof.
  intros Hs Hdn Hwi. unfold starts_reserved in Hs.
  destruct table as [|t0 [|t1 table]]; [discriminate|discriminate|]. cbn [map firstn] in Hs. injection Hs as H0 H1 _.
  assert (E : t_idx t1 = 1) by (apply (Hwi 1%nat); reflexivity). cbn [map dget]. rewrite H0, H1, E. reflexivity.
Qed.

(** ** learn_subwords *)
Definition positive_words (tfs : list (str * Z)) : Prop := forall w f, In (w, f) tfs -> 0 < f.
Lemma make_idxs_spec init tfs : starts_reserved init -> distinct_names init -> well_indexed init ->
  (forall w, has_name init w -> In w reserved_names \/ exists c, w = [c]) ->
  exists c, make_idxs (map (fun t => (t_name t, t_idx t)) init) (map (fun wf => (fst wf ++ [MARK], snd wf)) tfs) = Ok c /\
    spelled_corpus init tfs c.
Proof.
  intros Hs Hdn Hwi Hnames. unfold make_idxs. rewrite (unk_index init Hs Hdn Hwi). eexists. split; [reflexivity|].
  unfold spelled_corpus. rewrite map_map. induction tfs as [|[w f] tfs IH]; [constructor|]. cbn [map fst snd]. constructor; [|exact IH].
  cbn [fst snd]. split; [reflexivity|].
  assert (Hchars : Forall2 (fun i ch => id_of init [ch] i)
            (map (fun c => dget_def str_eqb [c] 1 (map (fun t => (t_name t, t_idx t)) init)) (w ++ [MARK])) (w ++ [MARK])).
  { induction (w ++ [MARK]) as [|c l IHl]; [constructor|]. cbn [map]. constructor; [apply id_of_fun; assumption|exact IHl]. }
  pose proof (rev_idx_get init (w ++ [MARK]) Hdn Hwi) as Hr.
  destruct (dget str_eqb (w ++ [MARK]) (map (fun t => (t_name t, t_idx t)) init)) as [i|] eqn:E; [|exact Hchars].
  assert (Hw : w = []).
  { assert (Hh : has_name init (w ++ [MARK])) by (destruct Hr as [_ (t & Ht & En)]; exists t; split; [eapply nth_error_In; exact Ht|exact En]).
    apply Hnames in Hh. destruct Hh as [Hh|[c Hc]].
    - destruct w as [|a w]; [reflexivity|]. exfalso.
      repeat (destruct Hh as [Hh|Hh]; [apply (f_equal (@rev N)) in Hh; rewrite rev_app_distr in Hh; cbn in Hh; try discriminate Hh;
        injection Hh as Hh; symmetry in Hh; apply app_eq_nil in Hh; destruct Hh; discriminate|]). destruct Hh.
    - destruct w as [|a w]; [reflexivity|]. injection Hc as _ Hc. destruct w; discriminate. }
  subst w. cbn [app] in *. constructor; [left; exact Hr|constructor].
Qed.

Lemma spelled_learnable init tfs c : starts_reserved init -> distinct_names init -> well_indexed init ->
  spelled_corpus init tfs c -> tfs <> [] -> positive_words tfs -> learnable c init.
Proof.
  intros Hs Hdn Hwi Hc Hne Hpos. constructor; [exact Hwi|exact Hdn| | |].
  - destruct Hc as [|[w f] [s g] tfs c [_ H] _]; [contradiction|]. cbn [fst snd starts_nonempty] in *. intros ->. inversion H as [E|]. destruct w; discriminate.
  - clear Hne. induction Hc as [|[w f] [s g] tfs c [E _] _ IH]; [intros s f []|]. cbn [fst snd] in E. subst g. intros s' f' [E|Hin].
    + injection E as <- <-. apply (Hpos w f). left. reflexivity.
    + apply (IH (fun v h Hv => Hpos v h (or_intror Hv)) s' f' Hin).
  - clear Hne Hpos. induction Hc as [|[w f] [s g] tfs c [_ H] _ IH]; [intros s f []|]. cbn [fst snd] in H. intros s' f' [E|Hin] x Hx.
    + injection E as <- <-. clear - H Hx Hs. induction H as [|i ch s l Hi _ IH]; [destruct Hx|]. destruct Hx as [<-|Hx]; [eapply id_of_range; eassumption|exact (IH Hx)].
    + apply (IH s' f' Hin x Hx).
Qed.

Lemma init_names A tfs cov lc init : NoDup (map fst tfs) ->
  get_init_vocab A L_char (char_freqs (map (fun wf => (fst wf ++ [MARK], snd wf)) tfs)) cov (Some lc) 1 (-1) = Ok init ->
  starts_reserved init /\ well_indexed init /\ distinct_names init /\
  (forall n t, nth_error init n = Some t -> t_kids t = None /\ t_level t = if (n <? 6)%nat then -1 else 0) /\
  (forall n t, nth_error init n = Some t -> (6 <= n)%nat -> exists c, t_name t = [c]) /\
  (cov = None -> forall w f c, In (w, f) tfs -> In c w -> has_name init [c]).
Proof.
  intros Hnd H. destruct (char_freqs_keys (map (fun wf => (fst wf ++ [MARK], snd wf)) tfs)) as [Hk Hin].
  destruct (init_layout _ _ _ _ _ _ _ _ Hk H) as (L1 & L2 & L3 & L4).
  destruct (init_split _ _ _ _ _ _ _ _ Hk H) as (rst & kept & dropped & cut & _ & Hp & E & Hcut & Hkept).
  split; [exact L1|]. split; [exact L2|]. split; [exact L3|]. split; [exact L4|]. split.
  - intros n t Hn Hl. rewrite E in Hn. rewrite nth_error_app2 in Hn by (rewrite head_length; exact Hl).
    apply nth_error_In in Hn. assert (Ht : In (t_name t) (map fst kept)) by (rewrite <- (rows_names L_char 6 kept); apply in_map, Hn).
    apply in_map_iff in Ht. destruct Ht as (e & Ee & He).
    assert (Hd : In e (char_freqs (map (fun wf => (fst wf ++ [MARK], snd wf)) tfs))).
    { assert (Hx : In e (nonres (char_freqs (map (fun wf => (fst wf ++ [MARK], snd wf)) tfs)))) by (rewrite <- Hp; apply in_app_iff; left; exact He).
      apply In_nonres in Hx. apply Hx. }
    assert (Hd' : In (fst e) (dkeys (char_freqs (map (fun wf => (fst wf ++ [MARK], snd wf)) tfs)))) by (apply in_map, Hd).
    apply Hin in Hd'. destruct Hd' as (v & f & c & _ & _ & Ec). exists c. rewrite <- Ee. exact Ec.
  - intros Hcov w f c Hw Hc. specialize (Hcut Hcov). cbn [Z.gtb Z.compare andb] in Hkept. subst kept.
    assert (Hkey : In [c] (dkeys (char_freqs (map (fun wf => (fst wf ++ [MARK], snd wf)) tfs)))).
    { apply Hin. exists (w ++ [MARK]), f, c. split; [apply in_map_iff; exists (w, f); auto|]. split; [apply in_app_iff; left; exact Hc|reflexivity]. }
    destruct (reserved_name [c]) eqn:Er.
    + unfold reserved_name in Er. apply existsb_exists in Er. destruct Er as (x & Hx & Ex). apply str_eqb_eq in Ex. subst x.
      unfold starts_reserved in L1. rewrite <- L1 in Hx. 
      assert (Hx2 : In [c] (map t_name init)) by (rewrite <- (firstn_skipn 6 (map t_name init)); apply in_app_iff; left; exact Hx).
      apply in_map_iff in Hx2. destruct Hx2 as (t & E1 & E2). exists t. auto.
    + unfold dkeys in Hkey. apply in_map_iff in Hkey. destruct Hkey as (e & Ee & He).
      assert (Hcand : In e (candidates 1 (char_freqs (map (fun wf => (fst wf ++ [MARK], snd wf)) tfs)))).
      { unfold candidates. apply filter_In. split; [exact He|]. rewrite Ee, Er. reflexivity. }
      destruct Hcut as [Hperm _]. rewrite <- Hperm in Hcand.
      assert (Ht : In [c] (map t_name (rows L_char 6 cut))) by (rewrite rows_names, <- Ee; apply in_map, Hcand).
      apply in_map_iff in Ht. destruct Ht as (t & E1 & E2). exists t. split; [rewrite E; apply in_app_iff; right; exact E2|exact E1].
Qed.
Lemma init_chars A tfs cov lc init : NoDup (map fst tfs) ->
  get_init_vocab A L_char (char_freqs (map (fun wf => (fst wf ++ [MARK], snd wf)) tfs)) cov (Some lc) 1 (-1) = Ok init ->
  forall n t, nth_error init n = Some t -> (6 <= n)%nat -> exists c, t_name t = [c] /\ exists w f, In (w, f) tfs /\ In c (w ++ [MARK]).
Proof.
  intros Hnd H. destruct (char_freqs_keys (map (fun wf => (fst wf ++ [MARK], snd wf)) tfs)) as [Hk Hin].
  destruct (init_split _ _ _ _ _ _ _ _ Hk H) as (rst & kept & dropped & cut & _ & Hp & E & Hcut & Hkept).
  intros n t Hn Hl. rewrite E in Hn. rewrite nth_error_app2 in Hn by (rewrite head_length; exact Hl).
  apply nth_error_In in Hn. assert (Ht : In (t_name t) (map fst kept)) by (rewrite <- (rows_names L_char 6 kept); apply in_map, Hn).
  apply in_map_iff in Ht. destruct Ht as (e & Ee & He).
  assert (Hd : In e (char_freqs (map (fun wf => (fst wf ++ [MARK], snd wf)) tfs))).
  { assert (Hx : In e (nonres (char_freqs (map (fun wf => (fst wf ++ [MARK], snd wf)) tfs)))) by (rewrite <- Hp; apply in_app_iff; left; exact He).
    apply In_nonres in Hx. apply Hx. }
  assert (Hd' : In (fst e) (dkeys (char_freqs (map (fun wf => (fst wf ++ [MARK], snd wf)) tfs)))) by (apply in_map, Hd).
  apply Hin in Hd'. destruct Hd' as (v & f & c & Hv & Hc & Ec). exists c. split; [rewrite <- Ee; exact Ec|].
  apply in_map_iff in Hv. destruct Hv as ([w g] & Ew & Hw). injection Ew as <- <-. exists w, g. auto.
Qed.
Lemma init_name_shape init : starts_reserved init -> (forall n t, nth_error init n = Some t -> (6 <= n)%nat -> exists c, t_name t = [c]) ->
  forall w, has_name init w -> In w reserved_names \/ exists c, w = [c].
Proof.
  intros Hs Hc w (t & Hin & <-). apply In_nth_error in Hin. destruct Hin as (n & Hn). destruct (Nat.lt_ge_cases n 6) as [Hlt|Hge].
  - left. rewrite <- Hs. apply (map_nth_error t_name) in Hn. rewrite <- (firstn_skipn 6 (map t_name init)) in Hn.
    rewrite nth_error_app1 in Hn; [eapply nth_error_In; exact Hn|]. rewrite firstn_length.
    assert (n < length (map t_name init))%nat; [|lia]. rewrite firstn_skipn in Hn. apply nth_error_Some. congruence.
  - right. apply (Hc n t Hn Hge).
Qed.

Theorem learn_subwords_spec A orders tfs vs mco cov lc init : NoDup (map fst tfs) -> vs <> -1 ->
  get_init_vocab A L_char (char_freqs (map (fun wf => (fst wf ++ [MARK], snd wf)) tfs)) cov (Some lc) 1 (-1) = Ok init ->
  (vs <= Z.of_nat (length init) /\
   learn_subwords orders tfs vs mco (fun cf => get_init_vocab A L_char cf cov (Some lc) 1 (-1)) = Raise AssertionError) \/
  (Z.of_nat (length init) < vs /\ exists c, spelled_corpus init tfs c /\
   learn_subwords orders tfs vs mco (fun cf => get_init_vocab A L_char cf cov (Some lc) 1 (-1)) =
   learn_codes orders c init (vs - Z.of_nat (length init)) mco L_subword).
Proof.
  intros Hnd Hvs Hi. destruct (init_names A tfs cov lc init Hnd Hi) as (L1 & L2 & L3 & _ & L5 & _).
  unfold learn_subwords. cbv zeta. fold (marked_words tfs). rewrite (marked_words_eq tfs Hnd), Hi. cbn [bind].
  rewrite (proj2 (Z.eqb_neq vs (-1)) Hvs). unfold learn_codes_words. cbv zeta. rewrite (rev_idx_eq init L3).
  rewrite map_length, Nat.eqb_refl. cbn [assert_ bind]. rewrite Z.gtb_ltb. destruct (Z.ltb_spec (Z.of_nat (length init)) vs) as [Hlt|Hge].
  - right. split; [exact Hlt|]. destruct (make_idxs_spec init tfs L1 L3 L2 (init_name_shape init L1 L5)) as (c & E & Hc).
    exists c. split; [exact Hc|]. cbn [assert_ bind]. rewrite E. reflexivity.
  - left. split; [exact Hge|]. reflexivity.
Qed.

(** ** The learned table *)
Lemma pair_count_bounded c : nonnegative c -> exists F, forall p, pair_count c p <= F.
Proof.
  induction c as [|[s f] c IH]; intros H; [exists 0; intros p; cbn; lia|].
  destruct (IH (fun v h Hv => H v h (or_intror Hv))) as (F & HF). exists (f * Z.of_nat (length s) + F). intros p.
  change ((s, f) :: c) with ([(s, f)] ++ c). rewrite pair_count_app, pair_count_one. specialize (HF p).
  pose proof (H s f (or_introl eq_refl)) as Hf. destruct p as [x y]. pose proof (count_adjacent_fst s x y) as H1. pose proof (count_occ_bound Z.eq_dec x s). nia.
Qed.

(** init followed by pairs of earlier entries *)
Definition grown (init table : list Typ) : Prop :=
  (exists new, table = init ++ new) /\
  forall m ty, nth_error table m = Some ty -> (length init <= m)%nat ->
    t_idx ty = Z.of_nat m /\ t_level ty = L_subword /\
    exists i j ti tj, (i < m)%nat /\ (j < m)%nat /\ nth_error table i = Some ti /\ nth_error table j = Some tj /\
      t_kids ty = Some [ti; tj] /\ t_name ty = t_name ti ++ t_name tj.
Lemma grown_ind init table (P : Typ -> Prop) : grown init table ->
  (forall t, In t init -> P t) ->
  (forall t ti tj, P ti -> P tj -> t_kids t = Some [ti; tj] -> t_name t = t_name ti ++ t_name tj -> P t) ->
  forall t, In t table -> P t.
Proof.
  intros [(new & E) Hg] H0 H1.
  assert (G : forall n m t, (m < n)%nat -> nth_error table m = Some t -> P t).
  { induction n as [|n IH]; intros m t Hm Ht; [lia|]. destruct (Nat.lt_ge_cases m (length init)) as [Hl|Hl].
    - apply H0. rewrite E, nth_error_app1 in Ht by exact Hl. eapply nth_error_In; exact Ht.
    - destruct (Hg m t Ht Hl) as (_ & _ & i & j & ti & tj & Hi & Hj & Eti & Etj & Ek & En).
      apply (H1 t ti tj); [apply (IH i); [lia|exact Eti]|apply (IH j); [lia|exact Etj]|exact Ek|exact En]. }
  intros t Hin. apply In_nth_error in Hin. destruct Hin as (m & Hm). apply (G (S m) m t (Nat.lt_succ_diag_r _) Hm).
Qed.
Lemma grown_facts init table : grown init table -> starts_reserved init -> well_indexed init ->
  (forall t, In t init -> t_kids t = None) -> (forall t, In t init -> t_name t <> []) ->
  starts_reserved table /\ well_indexed table /\ ~ has_name table [] /\ kids_earlier table /\
  (forall t, In t table -> spelled t) /\ kids_in_table table.
Proof.
  intros Hgr Hs Hwi Hk0 Hn0. pose proof Hgr as [(new & E) Hg].
  assert (Hlen : (6 <= length init)%nat).
  { unfold starts_reserved in Hs. assert (H := f_equal (@length _) Hs). rewrite firstn_length, map_length in H.
    change (length reserved_names) with 6%nat in H. lia. }
  assert (Hwi' : well_indexed table).
  { intros n t Hn. destruct (Nat.lt_ge_cases n (length init)) as [Hl|Hl].
    - apply Hwi. rewrite E, nth_error_app1 in Hn by exact Hl. exact Hn.
    - apply (Hg n t Hn Hl). }
  assert (Hke : kids_earlier table).
  { intros n t Hn. destruct (Nat.lt_ge_cases n (length init)) as [Hl|Hl].
    - assert (Ek : t_kids t = None) by (apply Hk0; rewrite E, nth_error_app1 in Hn by exact Hl; eapply nth_error_In; exact Hn).
      rewrite Ek. unfold kids_of. rewrite Ek. split; [discriminate|intros k []].
    - destruct (Hg n t Hn Hl) as (_ & _ & i & j & ti & tj & Hi & Hj & Eti & Etj & Ek & En). rewrite Ek. split; [discriminate|].
      unfold kids_of. rewrite Ek. intros k [<-|[<-|[]]]; eauto. }
  split; [|split; [exact Hwi'|split; [|split; [exact Hke|split]]]].
  - unfold starts_reserved in *. rewrite E, map_app, firstn_app, map_length. replace (6 - length init)%nat with O by lia. cbn [firstn]. rewrite app_nil_r. exact Hs.
  - intros (t & Hin & Hn). revert t Hin Hn. apply (grown_ind init table (fun t => t_name t <> []) Hgr Hn0).
    intros t ti tj Hi _ _ En. rewrite En. intros H. apply app_eq_nil in H. tauto.
  - apply (grown_ind init table spelled Hgr).
    + intros t Ht. apply Sp_leaf. unfold kids_of. rewrite (Hk0 t Ht). reflexivity.
    + intros t ti tj Hi Hj Ek En. apply (Sp_pair t ti tj); [unfold kids_of; rewrite Ek; reflexivity|exact En|exact Hi|exact Hj].
  - intros t u Hin Hw. assert (Hu : In u table).
    { induction Hw as [t|t k u Hk _ IH]; [exact Hin|]. apply IH. apply In_nth_error in Hin. destruct Hin as (n & Hn).
      destruct (Hke n t Hn) as [_ Hkk]. destruct (Hkk k Hk) as (m & _ & Em). eapply nth_error_In; exact Em. }
    apply In_nth_error in Hu. destruct Hu as (m & Hm). rewrite (Hwi' m u Hm), Nat2Z.id. split; [lia|exact Hm].
Qed.

(** What learn_subwords returns. *)
Theorem learn_subwords_table A orders tfs vs mco cov lc init table : NoDup (map fst tfs) -> positive_words tfs -> tfs <> [] -> vs <> -1 ->
  iteration_orders orders ->
  get_init_vocab A L_char (char_freqs (map (fun wf => (fst wf ++ [MARK], snd wf)) tfs)) cov (Some lc) 1 (-1) = Ok init ->
  learn_subwords orders tfs vs mco (fun cf => get_init_vocab A L_char cf cov (Some lc) 1 (-1)) = Ok table ->
  exists c, spelled_corpus init tfs c /\ learnable c init /\ Z.of_nat (length table) <= vs /\
    bpe mco L_subword (Z.to_nat (vs - Z.of_nat (length init))) c init (Ok table) /\ grown init table.
Proof.
  intros Hnd Hpos Hne Hvs Hord Hi H.
  destruct (init_names A tfs cov lc init Hnd Hi) as (L1 & L2 & L3 & _ & _ & _).
  destruct (learn_subwords_spec A orders tfs vs mco cov lc init Hnd Hvs Hi) as [[_ E]|(Hlt & c & Hc & E)]; [congruence|]. rewrite E in H.
  pose proof (spelled_learnable init tfs c L1 L3 L2 Hc Hne Hpos) as Hl. exists c. split; [exact Hc|]. split; [exact Hl|].
  pose proof (learn_codes_refines orders c init (vs - Z.of_nat (length init)) mco L_subword Hl Hord) as HB. rewrite H in HB.
  destruct (pair_count_bounded c (positive_nonnegative _ (l_pos _ _ Hl))) as (F & HF).
  destruct (bpe_structure _ _ _ _ _ _ HB (l_pos _ _ Hl) (l_range _ _ Hl) F HF table eq_refl) as (new & En & Hlen & Hst & _).
  split; [rewrite En, app_length; lia|]. split; [exact HB|]. split; [exists new; exact En|].
  intros m ty Hm Hge. destruct (Hst m ty Hm Hge) as (S1 & S2 & _ & _ & S5). auto.
Qed.

(** *** The characters of the corpus *)
Lemma spelled_symbols init tfs c s f x : spelled_corpus init tfs c -> In (s, f) c -> In x s ->
  exists w g ch, In (w, g) tfs /\ In ch (w ++ [MARK]) /\ id_of init [ch] x.
Proof.
  induction 1 as [|[w g] [s' f'] tfs c [_ H] _ IH]; intros Hin Hx; [destruct Hin|]. cbn [fst snd] in H. destruct Hin as [E|Hin].
  - injection E as <- <-. exists w, g. clear - H Hx. assert (G : exists ch, In ch (w ++ [MARK]) /\ id_of init [ch] x).
    { induction H as [|i ch s' l Hi _ IH]; [destruct Hx|]. destruct Hx as [<-|Hx]; [exists ch; split; [left; reflexivity|exact Hi]|].
      destruct (IH Hx) as (ch' & H1 & H2). exists ch'. split; [right; exact H1|exact H2]. }
    destruct G as (ch & H1 & H2). exists ch. split; [left; reflexivity|auto].
  - destruct (IH Hin Hx) as (w' & g' & ch & H1 & H2 & H3). exists w', g', ch. split; [right; exact H1|auto].
Qed.
Lemma learned_leaves init table tfs c mco n : grown init table -> starts_reserved init ->
  (forall t, In t init -> t_kids t = None) -> spelled_corpus init tfs c ->
  (forall w f ch, In (w, f) tfs -> In ch (w ++ [MARK]) -> has_name init [ch]) ->
  bpe mco L_subword n c init (Ok table) ->
  forall t u, In t table -> t_kids t <> None -> leaf_of u t -> exists ch, t_name u = [ch].
Proof.
  intros Hgr Hs Hk0 Hc Hnames HB t u Hin Hk Hl.
  destruct (bpe_invariant mco L_subword n c init (Ok table) (fun t => forall u, leaf_of u t -> exists ch, t_name u = [ch]) HB) with (t' := table) as (new & E & Hall).
  - intros ta tb i f Ha Hb v Hv. inversion Hv as [? Ek|? k ? Hkk Hv']; subst; [discriminate|].
    destruct Hkk as [<-|[<-|[]]]; auto.
  - intros s f x Hsf Hx. destruct (spelled_symbols init tfs c s f x Hc Hsf Hx) as (w & g & ch & Hw & Hch & [[H0 (ty & Ey & En)]|[_ Hno]]).
    + exists ty. split; [exact Ey|]. intros v Hv. assert (Ek : t_kids ty = None) by (apply Hk0; eapply nth_error_In; exact Ey).
      inversion Hv as [? Ek'|? k ? Hkk Hv']; subst; [eauto|]. unfold kids_of in Hkk. rewrite Ek in Hkk. destruct Hkk.
    + exfalso. apply Hno. eapply Hnames; eassumption.
  - reflexivity.
  - rewrite E in Hin. apply in_app_iff in Hin. destruct Hin as [Hin|Hin]; [exfalso; apply Hk, Hk0, Hin|].
    rewrite Forall_forall in Hall. apply (Hall t Hin u Hl).
Qed.

(** ** BPEScheme.learn on text *)
Lemma words_positive toks stats : exact_counts toks stats -> positive_words stats.
Proof.
  intros [[Hnd [Hin _]] Hf] w f H. rewrite (Hf w f H). unfold occurrences.
  assert (Hw : In w toks) by (apply Hin; apply in_map_iff; exists (w, f); auto). apply (count_occ_In str_dec) in Hw. lia.
Qed.
Lemma learn_codes_empty orders vocab n mco level : forall table, learn_codes orders [] vocab n mco level <> Ok table.
Proof.
  intros table. unfold learn_codes, bpe_init. destruct (assert_ _); [|discriminate]. cbn [bind]. destruct (foldM _ _ tt); [|discriminate]. cbn [bind].
  discriminate.
Qed.

Record text_learned (init table : list Typ) (toks : list str) (tfs : list (str * Z)) (c : corpus) (mco vs : Z) : Prop := MkTL {
  tl_counts : exact_counts toks tfs;
  tl_nonempty : toks <> [];
  tl_reserved : starts_reserved init;
  tl_distinct : distinct_names init;
  tl_indexed : well_indexed init;
  tl_shape : forall n t, nth_error init n = Some t -> t_kids t = None /\ t_level t = if (n <? 6)%nat then -1 else 0;
  tl_chars : forall n t, nth_error init n = Some t -> (6 <= n)%nat -> exists ch, t_name t = [ch];
  tl_origin : forall n t, nth_error init n = Some t -> (6 <= n)%nat ->
    exists ch, t_name t = [ch] /\ exists w f, In (w, f) tfs /\ In ch (w ++ [MARK]);
  tl_corpus : spelled_corpus init tfs c;
  tl_bpe : bpe mco L_subword (Z.to_nat (vs - Z.of_nat (length init))) c init (Ok table);
  tl_size : Z.of_nat (length init) < vs /\ Z.of_nat (length table) <= vs;
  tl_grown : grown init table }.

Lemma learn_bpe_text A orders data toks vs cov mco table : tokens_of KWord data toks -> iteration_orders orders ->
  learn_bpe A orders data vs cov mco false = Ok table ->
  exists init tfs c, text_learned init table toks tfs c mco (effective_size vs mco) /\
    (cov = None -> forall w f ch, In (w, f) tfs -> In ch (w ++ [MARK]) -> has_name init [ch]).
Proof.
  intros Ht Hord H. unfold learn_bpe in H. cbv zeta in H. change (if (mco >? 1) && (vs <=? 1) then maxsize else vs) with (effective_size vs mco) in H.
  destruct (Z.gtb_spec (effective_size vs mco) 0) as [Hpos|]; [|discriminate]. cbn [assert_ bind] in H.
  destruct (term_frequencies KWord data) as [tfs lc] eqn:Etf. cbn [bind] in H.
  destruct (term_frequencies_exact KWord data toks tfs lc Ht Etf) as [Hex _].
  assert (Hnd : NoDup (map fst tfs)) by apply Hex.
  destruct (get_init_vocab A L_char (char_freqs (map (fun wf => (fst wf ++ [MARK], snd wf)) tfs)) cov (Some lc) 1 (-1)) as [init|e] eqn:Hi.
  2:{ unfold learn_subwords in H. cbv zeta in H. fold (marked_words tfs) in H. rewrite (marked_words_eq tfs Hnd), Hi in H. discriminate. }
  destruct (init_names A tfs cov lc init Hnd Hi) as (L1 & L2 & L3 & L4 & L5 & L6).
  assert (Hvs : effective_size vs mco <> -1) by lia.
  assert (Hlt : Z.of_nat (length init) < effective_size vs mco).
  { destruct (learn_subwords_spec A orders tfs _ mco cov lc init Hnd Hvs Hi) as [[_ E]|(Hlt & _)]; [congruence|exact Hlt]. }
  assert (Hne : tfs <> []).
  { intros E0. destruct (learn_subwords_spec A orders tfs _ mco cov lc init Hnd Hvs Hi) as [[_ E]|(_ & c & Hc & E)]; [congruence|].
    rewrite E0 in Hc. inversion Hc as [E1 E2|]. rewrite E, <- E2 in H. apply learn_codes_empty in H. exact H. }
  destruct (learn_subwords_table A orders tfs _ mco cov lc init table Hnd (words_positive _ _ Hex) Hne Hvs Hord Hi H) as (c & Hc & _ & Hsz & HB & Hgr).
  exists init, tfs, c. split.
  - constructor; try assumption.
    + intros ->. destruct Hex as [[_ [Hin _]] _]. destruct tfs as [|[w f] tfs]; [contradiction|]. apply (proj1 (Hin w)). left. reflexivity.
    + apply (init_chars A tfs cov lc init Hnd Hi).
    + split; assumption.
  - intros Hcov w f ch Hw Hch. apply in_app_iff in Hch. destruct Hch as [Hch|[<-|[]]]; [eapply L6; eassumption|].
    unfold starts_reserved in L1. assert (Hx : In [MARK] (firstn 6 (map t_name init))) by (rewrite L1; cbn; tauto).
    assert (Hx2 : In [MARK] (map t_name init)) by (rewrite <- (firstn_skipn 6 (map t_name init)); apply in_app_iff; left; exact Hx).
    apply in_map_iff in Hx2. destruct Hx2 as (t & E1 & E2). exists t. auto.
Qed.
Lemma init_names_nonempty init : starts_reserved init -> (forall n t, nth_error init n = Some t -> (6 <= n)%nat -> exists ch, t_name t = [ch]) ->
  forall t, In t init -> t_name t <> [].
Proof.
  intros Hs Hc t Hin E. destruct (init_name_shape init Hs Hc []) as [H|[ch H]]; [exists t; auto| |discriminate].
  repeat (destruct H as [H|H]; [discriminate|]). destruct H.
Qed.

Theorem learn_bpe_accepted A orders data toks vs cov mco table : tokens_of KWord data toks -> iteration_orders orders ->
  learn_bpe A orders data vs cov mco false = Ok table ->
  (exists s, make_scheme KBpe table = Ok s) /\
  starts_reserved table /\ well_indexed table /\ kids_earlier table /\ (forall t, In t table -> spelled t) /\ kids_in_table table.
Proof.
  intros Ht Hord H. destruct (learn_bpe_text A orders data toks vs cov mco table Ht Hord H) as (init & tfs & c & [] & _).
  destruct (grown_facts init table tl_grown0 tl_reserved0 tl_indexed0) as (F1 & F2 & F3 & F4 & F5 & F6).
  - intros t Hin. apply In_nth_error in Hin. destruct Hin as (n & Hn). apply (tl_shape0 n t Hn).
  - apply (init_names_nonempty init tl_reserved0 tl_chars0).
  - split; [|auto]. eexists. apply make_bpe_inv. split; [exact F1|]. split; [exact F3|reflexivity].
Qed.

Theorem learn_bpe_lossless A orders data toks vs mco table : tokens_of KWord data toks -> iteration_orders orders ->
  learn_bpe A orders data vs None mco false = Ok table ->
  exists s, make_scheme KBpe table = Ok s /\
    forall line text norm, marked line text -> normal line norm ->
      (forall ch, In ch text -> ch = MARK \/ exists w, In w toks /\ In ch w) ->
      exists ps ids out,
        encode_str s line = Ok ps /\ encode s line = Ok ids /\ concat ps = text /\
        decode_str s ps = Ok out /\ decode s ids = Ok out /\
        trimmed (unmark norm) out /\ (~ In MARK line -> out = norm).
Proof.
  intros Ht Hord H. destruct (learn_bpe_accepted _ _ _ _ _ _ _ _ Ht Hord H) as ((s & Es) & F1 & F2 & _).
  destruct (learn_bpe_text _ _ _ _ _ _ _ _ Ht Hord H) as (init & tfs & c & HT & Hn). specialize (Hn eq_refl).
  exists s. split; [exact Es|]. intros line text norm Hm Hno Hch.
  destruct (bpe_lossless table s line text norm Es F2 Hm Hno) as (ps & ids & out & P1 & P2 & P3 & P4 & P5 & P6 & P7 & _).
  - intros ch Hc.
    assert (Hi : has_name init [ch]).
    { destruct (tl_counts _ _ _ _ _ _ _ HT) as [[_ [Hin _]] _].
      assert (Hw : exists w f, In (w, f) tfs /\ In ch (w ++ [MARK])).
      { destruct (Hch ch Hc) as [->|(w & Hw & Hcw)].
        - destruct tfs as [|[w f] tfs'] eqn:Et.
          + exfalso. apply (tl_nonempty _ _ _ _ _ _ _ HT). destruct toks as [|w toks']; [reflexivity|]. exfalso. apply (Hin w). left. reflexivity.
          + exists w, f. split; [left; reflexivity|]. apply in_app_iff. right. left. reflexivity.
        - apply Hin in Hw. apply in_map_iff in Hw. destruct Hw as ([w' f] & E & Hw). cbn [fst] in E. subst w'. exists w, f. split; [exact Hw|].
          apply in_app_iff. left. exact Hcw. }
      destruct Hw as (w & f & Hw & Hcw). eapply Hn; eassumption. }
    destruct Hi as (t & Ht' & En). exists t. split; [|exact En]. destruct (tl_grown _ _ _ _ _ _ _ HT) as [(new & E) _]. rewrite E. apply in_app_iff. left. exact Ht'.
  - exists ps, ids, out. auto 10.
Qed.

Theorem learn_bpe_leaves A orders data toks vs mco table : tokens_of KWord data toks -> iteration_orders orders ->
  learn_bpe A orders data vs None mco false = Ok table ->
  forall t u, In t table -> t_kids t <> None -> leaf_of u t -> exists ch, t_name u = [ch].
Proof.
  intros Ht Hord H. destruct (learn_bpe_text _ _ _ _ _ _ _ _ Ht Hord H) as (init & tfs & c & [] & Hn). specialize (Hn eq_refl).
  eapply (learned_leaves init table tfs c mco); [exact tl_grown0|exact tl_reserved0| |exact tl_corpus0|exact Hn|exact tl_bpe0].
  intros t Hin. apply In_nth_error in Hin. destruct Hin as (n & Hn'). apply (tl_shape0 n t Hn').
Qed.

Theorem learn_bpe_storable A orders data toks vs cov mco table : tokens_of KWord data toks -> iteration_orders orders ->
  (forall w, In w toks -> plain_text w) -> learn_bpe A orders data vs cov mco false = Ok table -> storable table.
Proof.
  intros Ht Hord Hpl H. destruct (learn_bpe_accepted _ _ _ _ _ _ _ _ Ht Hord H) as (_ & F1 & F2 & F4 & _).
  destruct (learn_bpe_text _ _ _ _ _ _ _ _ Ht Hord H) as (init & tfs & c & HT & _).
  split; [intros ->; discriminate|]. split; [exact F2|]. split; [exact F4|].
  apply (grown_ind init table (fun t => plain_text (t_name t)) (tl_grown _ _ _ _ _ _ _ HT)).
  - intros t Hin c0 Hc. apply In_nth_error in Hin. destruct Hin as (n & Hn). destruct (Nat.lt_ge_cases n 6) as [Hl|Hl].
    + assert (Hr : In (t_name t) reserved_names).
      { pose proof (tl_reserved _ _ _ _ _ _ _ HT) as Hs. unfold starts_reserved in Hs. rewrite <- Hs.
        apply (nth_error_In _ n). rewrite nth_error_firstn_lt by exact Hl. rewrite nth_error_map, Hn. reflexivity. }
      clear - Hr Hc. repeat (destruct Hr as [Hr|Hr]; [rewrite <- Hr in Hc; cbn in Hc; repeat (destruct Hc as [<-|Hc]; [vm_compute; repeat split; discriminate|]); destruct Hc|]). destruct Hr.
    + destruct (tl_origin _ _ _ _ _ _ _ HT n t Hn Hl) as (ch & En & w & f & Hw & Hch). rewrite En in Hc. destruct Hc as [<-|[]].
      apply in_app_iff in Hch. destruct Hch as [Hch|[<-|[]]]; [|vm_compute; repeat split; discriminate].
      apply (Hpl w); [|exact Hch]. destruct (tl_counts _ _ _ _ _ _ _ HT) as [[_ [Hin _]] _]. apply Hin. apply in_map_iff. exists (w, f). auto.
  - intros t ti tj Hi Hj _ En c0 Hc. rewrite En in Hc. apply in_app_iff in Hc. destruct Hc; auto.
Qed.

(** ** Size and outcome *)
Lemma stats_NoDup k data (is_tf : bool) stats n :
  (if is_tf then read_term_freqs data else Ok (term_frequencies k data)) = Ok (stats, n) -> NoDup (map fst stats).
Proof.
  intros Hs. destruct is_tf.
  - unfold read_term_freqs in Hs.
    assert (G : forall l st st', foldM read_tf_line l st = Ok st' -> NoDup (map fst (fst st)) -> NoDup (map fst (fst st'))).
    { clear. induction l as [|x l IH]; intros st st' H Hst; simpl in H; [injection H as <-; exact Hst|].
      destruct (read_tf_line st x) as [st1|e] eqn:E; [|discriminate]. apply (IH st1 st' H).
      unfold read_tf_line in E. destruct st as [stats lc].
      destruct ((fst x =? 0) && _ && _).
      - destruct (header_line_count _ _); [|discriminate]. injection E as <-. exact Hst.
      - destruct (split_on _ _) as [|a [|b [|? ?]]]; try discriminate. destruct (int_of_str b); [|discriminate].
        injection E as <-. apply (dset_NoDup str_eqb str_eqb_eq). exact Hst. }
    apply (G _ _ _ Hs). constructor.
  - injection Hs as Hs. pose proof (term_frequencies_NoDup k data) as Hd. rewrite Hs in Hd. exact Hd.
Qed.

Theorem learn_bpe_size A orders data vs cov mco is_tf table : learn_bpe A orders data vs cov mco is_tf = Ok table ->
  exists chars new, table = chars ++ new /\ starts_reserved table /\
    Z.of_nat (length chars) < effective_size vs mco /\ Z.of_nat (length table) <= effective_size vs mco /\
    (6 <= length chars)%nat /\
    (forall n t, nth_error chars n = Some t -> t_kids t = None /\ t_level t = if (n <? 6)%nat then -1 else 0) /\
    (forall n t, nth_error chars n = Some t -> (6 <= n)%nat -> exists ch, t_name t = [ch]) /\
    (forall t, In t new -> t_level t = 1 /\ exists a b, t_kids t = Some [a; b]).
Proof.
  intros H. unfold learn_bpe in H. cbv zeta in H. change (if (mco >? 1) && (vs <=? 1) then maxsize else vs) with (effective_size vs mco) in H.
  destruct (Z.gtb_spec (effective_size vs mco) 0) as [Hpos|]; [|discriminate]. cbn [assert_ bind] in H.
  destruct (if is_tf then _ else _) as [[tfs lc]|e] eqn:Etf; [|discriminate]. cbn [bind] in H.
  pose proof (stats_NoDup _ _ _ _ _ Etf) as Hnd.
  destruct (get_init_vocab A L_char (char_freqs (map (fun wf => (fst wf ++ [MARK], snd wf)) tfs)) cov (Some lc) 1 (-1)) as [init|e] eqn:Hi.
  2:{ unfold learn_subwords in H. cbv zeta in H. fold (marked_words tfs) in H. rewrite (marked_words_eq tfs Hnd), Hi in H. discriminate. }
  destruct (init_names A tfs cov lc init Hnd Hi) as (L1 & L2 & L3 & L4 & L5 & L6).
  assert (Hvs : effective_size vs mco <> -1) by lia.
  assert (Hlen : (6 <= length init)%nat).
  { unfold starts_reserved in L1. assert (H6 := f_equal (@length _) L1). rewrite firstn_length, map_length in H6.
    change (length reserved_names) with 6%nat in H6. lia. }
  destruct (learn_subwords_spec A orders tfs _ mco cov lc init Hnd Hvs Hi) as [[_ E]|(Hlt & c & Hc & E)]; [congruence|].
  rewrite E in H. destruct (learn_codes_size _ _ _ _ _ _ _ H) as (new & En & Hl & Hall). exists init, new.
  split; [exact En|]. split.
  { unfold starts_reserved in *. rewrite En, map_app, firstn_app, map_length. replace (6 - length init)%nat with O by lia. cbn [firstn]. rewrite app_nil_r. exact L1. }
  split; [exact Hlt|]. split; [rewrite En, app_length; lia|]. split; [exact Hlen|]. split; [exact L4|]. split; [exact L5|].
  rewrite Forall_forall in Hall. exact Hall.
Qed.

(** The initial vocabulary of a corpus at full coverage. *)
Lemma init_size toks (tfs : list (str * Z)) init chars : first_seen toks (map fst tfs) -> alphabet toks chars -> starts_reserved init -> distinct_names init ->
  (forall n t, nth_error init n = Some t -> (6 <= n)%nat -> exists c, t_name t = [c] /\ exists w f, In (w, f) tfs /\ In c (w ++ [MARK])) ->
  (forall w f c, In (w, f) tfs -> In c w -> has_name init [c]) ->
  length init = (6 + length chars)%nat.
Proof.
  intros [_ [Hseen _]] [Hnd Hch] Hs Hdn Hor Hall.
  unfold starts_reserved in Hs. unfold distinct_names in Hdn. set (names := map t_name init) in *.
  assert (E : names = firstn 6 names ++ skipn 6 names) by (symmetry; apply firstn_skipn).
  assert (Hlen : length names = (6 + length (skipn 6 names))%nat).
  { rewrite E at 1. rewrite app_length, Hs. reflexivity. }
  rewrite E, Hs in Hdn.
  assert (Hdis : forall x, In x reserved_names -> ~ In x (skipn 6 names)).
  { intros x H1 H2. apply in_split in H2. destruct H2 as (p & q & E2). rewrite E2 in Hdn. rewrite app_assoc in Hdn. apply NoDup_remove_2 in Hdn. apply Hdn.
    rewrite !in_app_iff. auto. }
  assert (Hp : Permutation (skipn 6 names) (map (fun ch => [ch]) chars)).
  { apply NoDup_Permutation.
    - clear - Hdn. remember reserved_names as r. clear Heqr. revert Hdn. induction r as [|x r IH]; cbn; [auto|]. inversion 1; auto.
    - apply FinFun.Injective_map_NoDup; [intros a b Hab; congruence|exact Hnd].
    - intros x. split; intros Hx.
      + assert (Hx0 := Hx). apply In_nth_error in Hx. destruct Hx as (n & Hn).
        assert (Hn' : nth_error names (6 + n) = Some x).
        { rewrite E, nth_error_app2 by (rewrite Hs; change (length reserved_names) with 6%nat; lia). rewrite Hs. change (length reserved_names) with 6%nat.
          replace (6 + n - 6)%nat with n by lia. exact Hn. }
        unfold names in Hn'. rewrite nth_error_map in Hn'. destruct (nth_error init (6 + n)) as [t|] eqn:Et; [|discriminate]. injection Hn' as Ex.
        destruct (Hor _ t Et ltac:(lia)) as (c & Ec & w & f & Hw & Hc). rewrite Ec in Ex. subst x. apply (in_map (fun ch => [ch])). apply Hch.
        assert (Hm : c <> MARK) by (intros ->; apply (Hdis [MARK]); [cbn; tauto|exact Hx0]).
        split; [|exact Hm]. apply in_app_iff in Hc. destruct Hc as [Hc|[Hc|[]]]; [|congruence]. exists w. split; [|exact Hc]. apply Hseen. apply in_map_iff. exists (w, f). auto.
      + apply in_map_iff in Hx. destruct Hx as (ch & <- & Hx). apply Hch in Hx. destruct Hx as [(w & Hw & Hc) Hm].
        apply Hseen in Hw. apply in_map_iff in Hw. destruct Hw as ([w' f] & Ew & Hw). cbn [fst] in Ew. subst w'.
        destruct (Hall w f ch Hw Hc) as (t & Ht & En). assert (Hx : In [ch] names) by (unfold names; apply in_map_iff; exists t; auto).
        rewrite E, Hs in Hx. apply in_app_iff in Hx. destruct Hx as [Hx|Hx]; [|exact Hx]. exfalso. clear - Hx Hm.
        cbn [reserved_names In] in Hx.
        destruct Hx as [Hx|[Hx|[Hx|[Hx|[Hx|[Hx|[]]]]]]]; try discriminate Hx. apply Hm. symmetry. exact (f_equal (fun l => hd 0%N l) Hx). }
  apply Permutation_length in Hp. rewrite map_length in Hp. unfold names in Hlen at 1. rewrite map_length in Hlen. lia.
Qed.

(** The outcome of learning from text at full coverage. *)
Theorem learn_bpe_outcome A orders data toks chars vs mco : tokens_of KWord data toks -> alphabet toks chars -> iteration_orders orders ->
  (effective_size vs mco <= 6 + Z.of_nat (length chars) /\ learn_bpe A orders data vs None mco false = Raise AssertionError) \/
  (6 + Z.of_nat (length chars) < effective_size vs mco /\ toks = [] /\ learn_bpe A orders data vs None mco false = Raise ValueError) \/
  (6 + Z.of_nat (length chars) < effective_size vs mco /\ toks <> [] /\
    ((exists table, learn_bpe A orders data vs None mco false = Ok table) \/ learn_bpe A orders data vs None mco false = Raise IndexError)).
Proof.
  intros Ht Hal Hord. unfold learn_bpe. cbv zeta. change (if (mco >? 1) && (vs <=? 1) then maxsize else vs) with (effective_size vs mco).
  destruct (Z.gtb_spec (effective_size vs mco) 0) as [Hpos|Hneg]; [|left; split; [lia|reflexivity]]. cbn [assert_ bind].
  destruct (term_frequencies KWord data) as [tfs lc] eqn:Etf. cbn [bind].
  destruct (term_frequencies_exact KWord data toks tfs lc Ht Etf) as [Hex _].
  assert (Hnd : NoDup (map fst tfs)) by apply Hex.
  assert (Hk : NoDup (map fst (char_freqs (map (fun wf => (fst wf ++ [MARK], snd wf)) tfs)))) by apply char_freqs_keys.
  pose proof (init_outcome A L_char _ None (Some lc) 1 (-1) Hk) as Ho.
  destruct (get_init_vocab A L_char (char_freqs (map (fun wf => (fst wf ++ [MARK], snd wf)) tfs)) None (Some lc) 1 (-1)) as [init|e] eqn:Hi.
  2:{ destruct Ho as (c & Hc & _). discriminate. }
  destruct (init_names A tfs None lc init Hnd Hi) as (L1 & L2 & L3 & L4 & L5 & L6).
  assert (Hvs : effective_size vs mco <> -1) by lia.
  pose proof (init_size toks tfs init chars (proj1 Hex) Hal L1 L3 (init_chars A tfs None lc init Hnd Hi) (L6 eq_refl)) as Hsz.
  destruct (learn_subwords_spec A orders tfs _ mco None lc init Hnd Hvs Hi) as [[Hle E]|(Hlt & c & Hc & E)]; rewrite E.
  - left. split; [lia|reflexivity].
  - right. destruct toks as [|w toks'] eqn:Etoks.
    + left. split; [lia|]. split; [reflexivity|].
      assert (E0 : tfs = []).
      { destruct tfs as [|[w f] tfs']; [reflexivity|]. exfalso. destruct Hex as [[_ [Hin _]] _]. apply (proj1 (Hin w)). left. reflexivity. }
      rewrite E0 in Hc. inversion Hc as [E1 E2|]. unfold learn_codes, bpe_init.
      rewrite (distinct_count_NoDup Z.eqb Z.eqb_eq) by (apply well_indexed_NoDup, L2).
      rewrite (distinct_count_NoDup str_eqb str_eqb_eq) by exact L3. rewrite !map_length, Nat.eqb_refl. cbn [assert_ bind].
      rewrite foldM_checks; [reflexivity|].
      intros [i t] Hin. cbn [fst snd]. apply In_nth_error in Hin. destruct Hin as (n & Hn). unfold enumerate in Hn. rewrite enum_from_nth in Hn.
      destruct (nth_error init n) as [t'|] eqn:Et; [|discriminate]. cbn [option_map] in Hn. injection Hn as <- <-.
      rewrite (L2 _ _ Et). cbn [Z.add]. rewrite Z.eqb_refl. reflexivity.
    + right. split; [lia|]. split; [discriminate|]. assert (Hne : tfs <> []).
      { intros E0. destruct Hex as [[_ [Hin _]] _]. rewrite E0 in Hin. apply (Hin w). left. reflexivity. }
      pose proof (spelled_learnable init tfs c L1 L3 L2 Hc Hne (words_positive _ _ Hex)) as Hl.
      pose proof (learn_codes_refines orders c init (effective_size vs mco - Z.of_nat (length init)) mco L_subword Hl Hord) as HB.
      apply bpe_outcome in HB. exact HB.
Qed.
