(** From parallel text to batches: the directory that bitextdb writes, read by BatchIterable. *)
From Coq Require Import Strings.String Lia Permutation.
From Verif Require Import Py PyStr PyLemmas CodecModel VocabFileModel JsonModel JsonProofs NumpyModel DbModel DbSpec DbProofs BatchModel BatchSpec BatchProofs MultipartModel MultipartSpec MultipartProofs
     BitextModel BitextSpec BitextProofs BatchIterModel BatchIterSpec BatchIterProofs.
Local Open Scope Z_scope.
Local Open Scope list_scope.

Lemma parts_pieces w cl names ow pad (parts : list (list rec)) d : spark cl -> lists w -> Forall scalars names -> storable names (concat parts) -> concat parts <> [] -> NoDup (map fst (concat parts)) ->
  (forall p, In p parts -> p <> []) -> d = None \/ d = Some [] \/ ow = true ->
  let r := seq_io (with_writer w names ow pad (task_order cl (enumerate (map (fun p => (p, None)) parts))) None) (fun _ d => MkRun [] d (mdb_load d None false false)) d in
  exists ts ts', NoDup (map p_num ts) /\ Permutation ts ts' /\ ts <> [] /\ Forall (piece_ok names) ts /\ Permutation (concat parts) (p_all ts) /\
    (forall t, In t ts -> In (p_recs t) parts) /\ now r = finished w names pad ts ts'.
Proof.
  intros (_ & _ & Ht) Hl Hn Hst Hr Hnd Hne Hd. cbv zeta.
  destruct (chunk_pieces names (concat parts) parts Hst Hnd Hne [] 0 eq_refl) as (ts & E1 & E2 & Hok).
  assert (Ee : @enumerate (stream rec) (map (fun c => (c, None)) parts) = map call_of ts) by (symmetry; exact E1). setoid_rewrite Ee.
  destruct (Permutation_map_inv call_of ts (Permutation_sym (Ht (map call_of ts)))) as (ts2 & -> & Hp).
  assert (Hnums : NoDup (map p_num ts)) by (eapply call_nums, E1).
  assert (Hnums2 : NoDup (map p_num ts2)) by (eapply Permutation_NoDup; [apply Permutation_map, Hp|exact Hnums]).
  assert (Hok2 : Forall (piece_ok names) ts2) by (eapply Permutation_Forall; eassumption).
  assert (Hcr : forall t, In t ts2 -> db_create names (p_recs t) = Ok (p_db t)) by (intros t Hin; rewrite Forall_forall in Hok2; apply (Hok2 t Hin)).
  destruct (with_writer_ok w names ow pad ts2 d Hl Hn Hnums2 Hcr (init_ok w ow d Hd)) as (Ev & ts' & Hp' & En).
  rewrite (seq_ok _ _ _ _ Ev). cbn [now val]. rewrite En.
  assert (Hall : Permutation (concat parts) (p_all ts2)) by (rewrite <- E2; change (concat (map p_recs ts)) with (p_all ts); apply p_all_perm, Hp).
  exists ts2, ts'. split; [exact Hnums2|]. split; [exact Hp'|]. split; [intros ->; apply Hr; cbn in Hall; apply Permutation_sym, Permutation_nil in Hall; exact Hall|].
  split; [exact Hok2|]. split; [exact Hall|]. split; [|reflexivity].
  intros t Hin. rewrite <- E2. apply in_map. eapply Permutation_in; [apply Permutation_sym, Hp|exact Hin].
Qed.

(** the directory left by a successful run *)
Lemma bitextdb_pieces w cl pad sm tm xs ys np sc tc sl tl truncate d m : spark cl -> lists w ->
  let r := bitextdb w cl pad sm tm xs ys np sc tc sl tl truncate d in
  val r = Ok m ->
  exists s t rows, load_scheme sm = Ok s /\ match tm with Some b => load_scheme b = Ok t | None => t = s end /\ length xs = length ys /\ rows <> [] /\
    exactly rows (limited truncate sl tl (line_pair xs ys (encode s) (encode t))) /\
    (storable [lit "x"; lit "y"] (map as_rec rows) ->
     exists ts ts', NoDup (map p_num ts) /\ Permutation ts ts' /\ ts <> [] /\ Forall (piece_ok [lit "x"; lit "y"]) ts /\ Permutation (map as_rec rows) (p_all ts) /\
       (forall t, In t ts -> p_recs t <> []) /\ now r = finished w [lit "x"; lit "y"] pad ts ts').
Proof.
  intros Hs Hl r Hv. unfold r, bitextdb in *. clear r. destruct (load_scheme sm) as [s|e] eqn:Es; [|discriminate Hv]. cbn [lift seq_io val] in Hv.
  destruct (match tm with Some b => load_scheme b | None => Ok s end) as [t|e] eqn:Et; [|discriminate Hv]. cbn [lift seq_io val] in Hv.
  destruct (read_raw_bitext_tok cl xs ys truncate sl tl (encode s) (encode t)) as [parts|e] eqn:Ep; [|discriminate Hv]. cbn [lift seq_io val now] in Hv |- *. rewrite Et. cbn [lift seq_io val now]. rewrite Ep. cbn [lift seq_io val now].
  destruct (bitext_sound _ _ _ _ _ _ _ _ _ Hs Ep) as (El & Hne & Hex). exists s, t, (concat parts). split; [reflexivity|].
  split; [destruct tm; [exact Et|congruence]|]. split; [exact El|]. split; [exact Hne|]. split; [exact Hex|]. intros Hst.
  destruct xy_names as (Hn1 & Hn2 & Hn3). set (rdd := map (map as_rec) parts).
  assert (Er : concat rdd = map as_rec (concat parts)) by apply concat_map_map.
  match type of Hv with val (?x d) = _ => change x with (rdd_as_db w cl [lit "x"; lit "y"] false pad np rdd) in * end.
  assert (Hparts : forall p, In p (final_parts cl np rdd) -> p <> []).
  { intros p Hp ->. destruct (empty_partition w cl _ false pad np rdd d Hs Hn1 Hn2 Hp) as (e & E). rewrite E in Hv. discriminate Hv. }
  assert (Hd : d = None \/ d = Some [] \/ false = true).
  { destruct d as [[|f fs]|]; auto. discriminate Hv. }
  pose proof (final_perm cl np rdd Hs) as Hp.
  assert (Hnd : NoDup (map fst (concat rdd))).
  { assert (Ek : map fst (concat rdd) = map fst (concat parts)) by (etransitivity; [exact (f_equal (map fst) Er)|apply map_map]).
    eapply eq_ind_r; [exact (proj1 Hex)|exact Ek]. }
  rewrite <- Er in Hst.
  destruct (parts_pieces w cl [lit "x"; lit "y"] false pad (final_parts cl np rdd) d Hs Hl Hn3) as (ts & ts' & H1 & H2 & H3 & H4 & H5 & H6 & H7); auto.
  - eapply storable_perm; eassumption.
  - intros E. rewrite E in Hp. apply Permutation_sym, Permutation_nil in Hp. rewrite Er in Hp. apply map_eq_nil in Hp. contradiction.
  - eapply Permutation_NoDup; [apply Permutation_map, Hp|exact Hnd].
  - exists ts, ts'. split; [exact H1|]. split; [exact H2|]. split; [exact H3|]. split; [exact H4|]. split; [rewrite <- Er; eapply perm_trans; eassumption|].
    split; [intros u Hu; apply Hparts, H6, Hu|]. exact H7.
Qed.

(** opening and reading a finished directory *)
Section Directory.
Variables (w : world) (nx ny : str) (pad : nat) (ts ts' : list piece) (recs : list rec).
Hypotheses (Hnums : NoDup (map p_num ts)) (Hp : Permutation ts ts') (Htne : ts <> []) (Hok : Forall (piece_ok [nx; ny]) ts) (Hall : Permutation recs (p_all ts)) (Hpk : pairs_ok nx ny recs).
Let d := finished w [nx; ny] pad ts ts'.
Lemma all_exact : columns_ok exact53 2 (p_all ts).
Proof. eapply exact_incl; [|apply Hpk]. intros r Hr. eapply Permutation_in; [apply Permutation_sym, Hall|exact Hr]. Qed.
Lemma dir_loads keep : mdb_load d (Some 2%nat) keep false = Ok (loaded pad ts' 2 keep false).
Proof.
  destruct (pairs_storable _ _ _ Hpk) as (Hst & Hsc & Hxy). apply (load_finished w [nx; ny] pad ts ts' (Some 2%nat) keep false); auto. apply Hst.
Qed.
Lemma dir_examples files keep c : d = Some files -> fair c ->
  mdb_size (loaded pad ts' 2 keep false) = Z.of_nat (length recs) /\
  exists data recs', examples_of (Parts files (loaded pad ts' 2 keep false)) c = (data, None) /\ Permutation recs recs' /\ Forall2 example_of recs' data.
Proof.
  intros Ed (Hpo & Hio & _ & _). destruct (pairs_storable _ _ _ Hpk) as (Hst & Hsc & Hxy).
  pose proof (finished_complete w [nx; ny] pad ts ts' Hnums Hp Htne Hsc (proj1 Hst) Hok) as Hcomp.
  destruct (Hcomp (Some 2%nat) keep false (or_intror eq_refl) ltac:(discriminate)) as (m' & Em' & Hsz & Hit).
  assert (m' = loaded pad ts' 2 keep false) by (pose proof (dir_loads keep) as E; unfold d in E; rewrite Em' in E; congruence). subst m'.
  split; [rewrite Hsz; f_equal; apply Permutation_length, Permutation_sym, Hall|].
  destruct (Hit (parts_order c) (ids_order c) Hpo Hio) as (out & recs' & Eo & Hpr & Ho).
  pose proof (iter_sane w nx ny pad ts ts' keep Hnums Hp Hok Hxy all_exact (parts_order c) (ids_order c)) as Hsane. rewrite Eo in Hsane. cbn [fst] in Hsane.
  destruct (examples_exist recs' out Ho Hsane) as (data & Ex & Hf). exists data, recs'. cbn [examples_of]. rewrite <- Ed. unfold d. rewrite Eo, (over_stream_ok _ _ _ _ Ex).
  split; [reflexivity|]. split; [eapply perm_trans; eassumption|exact Hf].
Qed.
Lemma dir_eq_len files keep c toks sents : d = Some files -> fair c -> match sents with Some m => 0 <= m | None => True end ->
  (forall t, In t ts -> exists r, In r (p_recs t) /\ usable r) -> (forall r, In r recs -> usable r -> longest r <= toks) ->
  exists groups exss, eq_len_of_source (Parts files (loaded pad ts' 2 keep false)) toks sents c = (exss, None) /\ Forall2 (Forall2 example_of) groups exss /\ (forall g, In g groups -> eq_limits toks sents g) /\
    NoDup (concat groups) /\ (forall r, In r (concat groups) <-> In r recs /\ usable r).
Proof.
  intros Ed (Hpo & Hio & Harr & Hsh) Hms Hus Hle. destruct (pairs_storable _ _ _ Hpk) as (Hst & Hsc & Hxy).
  assert (Hnda : NoDup (p_all ts)).
  { eapply Permutation_NoDup; [exact Hall|]. eapply NoDup_map_inv. apply Hpk. }
  assert (Hin : forall r, In r (p_all ts) <-> In r recs) by (intros r; split; apply Permutation_in; [apply Permutation_sym|]; exact Hall).
  destruct (finished_eq_len w [nx; ny] pad ts ts' keep false (Some 2%nat) (loaded pad ts' 2 keep false) toks sents (parts_order c) (ids_order c) (arranged c) (shuffled c)
    Hnums Hp Htne Hsc (proj1 Hst) ltac:(discriminate) Hok Hnda (or_intror eq_refl) (dir_loads keep) Hpo Hio Harr Hsh Hms) as [H1 _].
  destruct (H1 Hus) as (groups & out & E & Ho & Hlim & _ & Hn & Hi).
  { intros r Hr. apply Hle. apply Hin, Hr. }
  pose proof (eq_len_sane w nx ny pad ts ts' keep Hnums Hp Hok Hxy all_exact (parts_order c) toks sents (ids_order c) (arranged c) (shuffled c) Hpo) as Hsane. rewrite E in Hsane. cbn [fst] in Hsane.
  destruct (groups_exist groups out Ho Hsane) as (exss & Ex & Hf). exists groups, exss. cbn [eq_len_of_source]. rewrite <- Ed. unfold d. rewrite E, (over_stream_ok _ _ _ _ Ex).
  split; [reflexivity|]. split; [exact Hf|]. split; [exact Hlim|]. split; [exact Hn|]. intros r. rewrite Hi, Hin. reflexivity.
Qed.
End Directory.

(** ** rows of limited text as records *)
Definition train (truncate : bool) (sl tl : nat) (P : Z -> list Z -> list Z -> Prop) : Z -> list Z -> list Z -> Prop :=
  if truncate then cut_to sl tl P else below sl tl P.
Lemma limited_train truncate sl tl P i u v : limited truncate (Z.of_nat sl) (Z.of_nat tl) P i u v <-> train truncate sl tl P i u v.
Proof. destruct truncate; [apply limited_cut|apply limited_below]. Qed.
Lemma train_row truncate sl tl xs ys f g i u v : (0 < sl)%nat -> (0 < tl)%nat -> train truncate sl tl (line_pair xs ys f g) i u v ->
  u <> [] /\ v <> [] /\ (length u <= sl)%nat /\ (length v <= tl)%nat.
Proof.
  intros Hs Ht H. destruct truncate; cbn in H.
  - destruct H as (u0 & v0 & (n & x & y & _ & _ & _ & _ & _ & _ & _ & Hu & Hv) & -> & ->). rewrite !firstn_length.
    split; [destruct u0, sl; try contradiction; try lia; discriminate|]. split; [destruct v0, tl; try contradiction; try lia; discriminate|]. lia.
  - destruct H as ((n & x & y & _ & _ & _ & _ & _ & _ & _ & Hu & Hv) & H1 & H2). repeat split; auto; lia.
Qed.
Lemma rows_recs truncate sl tl xs ys f g rows : (0 < sl)%nat -> (0 < tl)%nat -> exactly rows (train truncate sl tl (line_pair xs ys f g)) ->
  forall r, In r (map as_rec rows) -> usable r /\ longest r <= Z.of_nat (Nat.max sl tl).
Proof.
  intros Hs Ht [_ Hin] r Hr. apply in_map_iff in Hr. destruct Hr as ((i & u & v) & <- & Hr). apply Hin in Hr. destruct (train_row _ _ _ _ _ _ _ _ _ _ Hs Ht Hr) as (Hu & Hv & L1 & L2).
  unfold as_rec, usable, longest. cbn [fst snd map fold_right]. split; [intros c [<-|[<-|[]]]; assumption|lia].
Qed.
Lemma rows_pairs rows : rows <> [] -> NoDup (map fst rows) -> columns_ok exact53 2 (map as_rec rows) -> columns_ok fits_memory 2 (map as_rec rows) -> pairs_ok (lit "x") (lit "y") (map as_rec rows).
Proof.
  intros Hne Hnd He Hf. destruct xy_names as (Hn1 & Hn2 & Hn3). split; [intros E; apply map_eq_nil in E; contradiction|]. split; [rewrite map_map; exact Hnd|].
  split; [|split; [|split; [|split; [|split; assumption]]]].
  - repeat constructor; cbn; intuition discriminate.
  - repeat constructor.
  - repeat constructor.
  - intros r Hr. apply in_map_iff in Hr. destruct Hr as (q & <- & _). reflexivity.
Qed.
Lemma filter_all {A} (f : A -> bool) l : (forall x, In x l -> f x = true) -> filter f l = l.
Proof. induction l as [|x l IH]; intros H; [reflexivity|]. cbn. rewrite (H x (or_introl eq_refl)). f_equal. apply IH. intros y Hy. apply H. right. exact Hy. Qed.

Theorem text_to_batches w cl pad sm tm xs ys np sc tc sl tl (truncate : bool) d m : spark cl -> lists w -> (0 < sl)%nat -> (0 < tl)%nat ->
  let r := bitextdb w cl pad sm tm xs ys np sc tc (Z.of_nat sl) (Z.of_nat tl) truncate d in
  val r = Ok m ->
  exists s t rows, load_scheme sm = Ok s /\ match tm with Some b => load_scheme b = Ok t | None => t = s end /\
    exactly rows ((if truncate then cut_to else below) sl tl (line_pair xs ys (encode s) (encode t))) /\
    (columns_ok exact53 2 (map as_rec rows) -> columns_ok fits_memory 2 (map as_rec rows) ->
     exists files, now r = Some files /\
     forall bs bm sd bf sort_by keep c, fair c -> sane_meta bm -> (forall r, In r (map as_rec rows) -> wanted bm r) ->
     Z.of_nat (Nat.max sl tl) <= fst (limits bs) -> sents_ok (snd (limits bs)) -> In sort_by [None; Some EQ_LEN; Some RANDOM] ->
     exists it groups out, open_iterable (DirAt files) true bs bm sd bf sort_by keep = Ok it /\ num_items it = Z.of_nat (length rows) /\
       iterate it c = (out, None) /\ Forall2 (shows bm sd bf) groups out /\ Permutation (concat groups) (map as_rec rows) /\
       (forall g, In g groups -> in_budget (fst (limits bs)) g) /\
       (forall g n, In g groups -> snd (limits bs) = Some n -> Z.of_nat (length g) <= n + 1) /\
       (sort_by <> Some EQ_LEN -> forall g, In g groups -> at_most (length g) (snd (limits bs)))).
Proof.
  intros Hs Hl Hsl Htl r Hv. destruct (bitextdb_pieces w cl pad sm tm xs ys np sc tc (Z.of_nat sl) (Z.of_nat tl) truncate d m Hs Hl Hv) as (s & t & rows & Es & Et & _ & Hne & Hex & Hpieces). fold r in Hpieces.
  assert (Hex' : exactly rows (train truncate sl tl (line_pair xs ys (encode s) (encode t)))).
  { split; [apply Hex|]. intros i u v. rewrite (proj2 Hex i u v). apply limited_train. }
  exists s, t, rows. split; [exact Es|]. split; [exact Et|]. split; [destruct truncate; exact Hex'|]. intros Hc53 Hcm.
  pose proof (rows_pairs rows Hne (proj1 Hex) Hc53 Hcm) as Hpk. destruct (pairs_storable _ _ _ Hpk) as (Hst & Hsc & Hxy).
  destruct (Hpieces Hst) as (ts & ts' & Hnums & Hp & Htne & Hok & Hall & Hpne & Hnow).
  pose proof (rows_recs truncate sl tl xs ys (encode s) (encode t) rows Hsl Htl Hex') as Hrec.
  assert (Hf : exists files, finished w [lit "x"; lit "y"] pad ts ts' = Some files) by (unfold finished; eauto). destruct Hf as (files & Ef).
  exists files. split; [rewrite Hnow; exact Ef|]. intros bs bm sd bf sort_by keep c Hfair Hm Hw Htoks Hsents Hsb.
  pose proof (dir_loads w (lit "x") (lit "y") pad ts ts' (map as_rec rows) Hnums Hp Htne Hpk keep) as Hload. rewrite Ef in Hload.
  destruct (dir_examples w (lit "x") (lit "y") pad ts ts' (map as_rec rows) Hnums Hp Htne Hok Hall Hpk files keep c Ef Hfair) as (Hsize & data & recs' & Ed & Hpr & Hfo).
  rewrite map_length in Hsize.
  assert (Hused : forall r0, In r0 (map as_rec rows) -> used r0 = true) by (intros r0 Hr0; apply used_usable, (Hrec r0 Hr0)).
  assert (Hlong : forall r0, In r0 (map as_rec rows) -> usable r0 -> longest r0 <= fst (limits bs)).
  { intros r0 Hr0 _. destruct (Hrec r0 Hr0) as [_ H]. lia. }
  assert (Hread : forall how, strategy_of sort_by = Ok how -> how = ReadAll -> exists it groups out, open_iterable (DirAt files) true bs bm sd bf sort_by keep = Ok it /\ num_items it = Z.of_nat (length rows) /\
       iterate it c = (out, None) /\ Forall2 (shows bm sd bf) groups out /\ Permutation (concat groups) (map as_rec rows) /\
       (forall g, In g groups -> in_budget (fst (limits bs)) g) /\
       (forall g n, In g groups -> snd (limits bs) = Some n -> Z.of_nat (length g) <= n + 1) /\
       (sort_by <> Some EQ_LEN -> forall g, In g groups -> at_most (length g) (snd (limits bs)))).
  { intros how Eh ->. set (it := MkIter (Parts files (loaded pad ts' 2 keep false)) bm (fst (limits bs)) (snd (limits bs)) sd bf ReadAll).
    destruct (iterate_source (map as_rec rows) recs' data bs bm sd bf it c Hm Hsents (fun r0 H0 _ => Hw r0 H0) eq_refl eq_refl eq_refl eq_refl eq_refl eq_refl Ed Hpr Hfo) as [H1 _].
    destruct (H1 Hlong) as (groups & out & Ei & Hsh & Ec & Hlim). exists it, groups, out.
    split; [unfold open_iterable; destruct (limits bs) as [toks sents]; rewrite Eh; cbn [bind]; rewrite Hload; reflexivity|].
    split; [exact Hsize|]. split; [exact Ei|]. split; [exact Hsh|]. split.
    - rewrite Ec, filter_all; [apply Permutation_sym, Hpr|]. intros x Hx. apply Hused. eapply Permutation_in; [apply Permutation_sym, Hpr|exact Hx].
    - split; [intros g Hg; destruct (Hlim g Hg) as (A & B & _); split; assumption|]. split.
      + intros g n Hg En. destruct (Hlim g Hg) as (_ & _ & C). rewrite En in C. cbn in C. lia.
      + intros _ g Hg. apply (Hlim g Hg). }
  destruct Hsb as [<-|[<-|[<-|[]]]]; [exact (Hread ReadAll eq_refl eq_refl)| |exact (Hread ReadAll eq_refl eq_refl)]. clear Hread.
  set (it := MkIter (Parts files (loaded pad ts' 2 keep false)) bm (fst (limits bs)) (snd (limits bs)) sd bf EqLen).
  assert (Hms : match snd (limits bs) with Some n => 0 <= n | None => True end) by (unfold sents_ok in Hsents; destruct (snd (limits bs)); [lia|exact I]).
  destruct (dir_eq_len w (lit "x") (lit "y") pad ts ts' (map as_rec rows) Hnums Hp Htne Hok Hall Hpk files keep c (fst (limits bs)) (snd (limits bs)) Ef Hfair Hms) as (groups & exss & E & Ho & Hlim & Hn & Hin).
  { intros u Hu. destruct (p_recs u) as [|r0 l] eqn:Eu; [exfalso; exact (Hpne u Hu Eu)|]. exists r0. split; [left; reflexivity|]. apply Hrec.
    eapply Permutation_in; [apply Permutation_sym, Hall|]. unfold p_all. apply in_concat. exists (p_recs u). split; [apply in_map, Hu|rewrite Eu; left; reflexivity]. }
  { exact Hlong. }
  destruct (groups_ok bm sd bf groups exss None Hm Ho) as (out & Ew & Hsh).
  { intros g Hg. split; [apply (Hlim g Hg)|]. apply Forall_forall. intros r0 Hr0. apply Hw. apply Hin. apply in_concat. eauto. }
  exists it, groups, out. split; [unfold open_iterable; destruct (limits bs) as [toks sents]; cbn [strategy_of]; replace (str_eqb EQ_LEN EQ_LEN) with true by reflexivity; cbn [bind]; rewrite Hload; reflexivity|].
  split; [exact Hsize|]. split; [unfold iterate; cbn [it it_how it_data it_meta it_toks it_sents it_desc it_first]; rewrite E; exact Ew|]. split; [exact Hsh|]. split.
  - apply NoDup_Permutation; [exact Hn|eapply NoDup_map_inv; apply Hpk|]. intros r0. rewrite Hin. split; [tauto|]. intros H. split; [exact H|apply (Hrec r0 H)].
  - split; [intros g Hg; apply (Hlim g Hg)|]. split; [|intros H; contradiction].
    intros g n Hg En. destruct (Hlim g Hg) as [_ C]. rewrite En in C. exact C.
Qed.
