(** Proofs about refused files, failing batches, and runs that exist. *)
From Coq Require Import Strings.String QArith Lia Permutation.
From Verif Require Import Py PyStr PyLemmas CodecModel CodecSpec JsonModel JsonProofs VocabFileModel VocabSpec VocabFileProofs
     NumpyModel DbModel DbSpec BatchModel BatchSpec BatchProofs MultipartModel BatchIterModel BatchIterSpec BatchIterProofs MapredModel MapredSpec MapredProofs ImapProofs IoModel IoSpec IoProofs DriverModel
     LearnModel HeapModel BpeSpec LearnBpeModel TrackModel TrackSpec TrackProofs OutcomeSpec.
Local Open Scope Z_scope.
Local Open Scope list_scope.

(** ** the codec of the tracker *)
Lemma two_kids_ok t : of_two t -> two_kids t = Ok tt.
Proof. intros (a & b & E). unfold two_kids. rewrite E. reflexivity. Qed.
Lemma mapM_two_ok l : Forall of_two l -> exists us, mapM two_kids l = Ok us.
Proof.
  induction 1 as [|t l H _ (us & IH)]; [exists []; reflexivity|]. exists (tt :: us). cbn [mapM]. rewrite (two_kids_ok t H). cbn [bind]. rewrite IH. reflexivity.
Qed.
Lemma mapM_two_fail pre t post e : Forall of_two pre -> two_kids t = Raise e -> mapM two_kids (pre ++ t :: post) = Raise e.
Proof.
  intros H E. induction H as [|u l Hu _ IH]; cbn [app mapM]; [rewrite E; reflexivity|]. rewrite (two_kids_ok u Hu). cbn [bind]. rewrite IH. reflexivity.
Qed.
Lemma filter_low (l : list Typ) : filter (fun t => t_level t >=? SUBWORD) l = filter (fun t => 1 <=? t_level t) l.
Proof. apply filter_ext. intros t. unfold SUBWORD. apply Z.geb_leb. Qed.
Theorem codec_xt_outcome bytes types meta : read_vocab bytes = Ok (types, meta) ->
  ((forall m, meta = Some (JObj m) -> m = []) -> codec_xt bytes = Raise AssertionError) /\
  forall m, meta = Some (JObj m) -> m <> [] ->
  (~ In (lit "max_level") (map fst m) -> codec_xt bytes = Raise KeyError) /\
  forall v, jget (lit "max_level") m = Some v ->
  (~ equals_one v -> codec_xt bytes = Raise AssertionError) /\
  (equals_one v ->
   (forall pre t post, filter (fun t => 1 <=? t_level t) types = pre ++ t :: post -> Forall of_two pre ->
     (t_kids t = None -> codec_xt bytes = Raise TypeError) /\
     (forall ks, t_kids t = Some ks -> length ks <> 2%nat -> codec_xt bytes = Raise AssertionError)) /\
   (Forall of_two (filter (fun t => 1 <=? t_level t) types) ->
     (forall e, make_scheme KBpe (filter (fun t => t_level t <? 1) types) = Raise e -> codec_xt bytes = Raise e) /\
     (forall s, make_scheme KBpe (filter (fun t => t_level t <? 1) types) = Ok s ->
        codec_xt bytes = Ok (s, filter (fun t => 1 <=? t_level t) types)))).
Proof.
  intros Er. split.
  - intros Hm. unfold codec_xt. rewrite Er. cbn [bind]. destruct meta as [[| | | | |m]|]; try reflexivity. rewrite (Hm m eq_refl). reflexivity.
  - intros m -> Hne. destruct m as [|kv m]; [contradiction|].
    unfold codec_xt. rewrite Er. cbn [bind]. rewrite filter_low. unfold SUBWORD. split.
    + intros Hn. unfold meta_level. assert (jget (lit "max_level") (kv :: m) = None) as ->; [|reflexivity].
      unfold jget. apply (dget_None str_eqb str_eqb_eq). exact Hn.
    + intros v Ev. unfold meta_level. rewrite Ev. split; [|].
      * intros Hv. destruct v as [|b|z|s|l|o]; try reflexivity.
        -- destruct b; [exfalso; apply Hv; right; reflexivity|reflexivity].
        -- cbn [bind]. unfold SUBWORD. destruct (Z.eqb_spec z 1) as [->|]; [exfalso; apply Hv; left; reflexivity|reflexivity].
      * intros Hv. assert (match v with JInt z => Ok (z =? SUBWORD) | JBool b => Ok ((if b then 1 else 0) =? SUBWORD) | _ => Ok false end = Ok true) as -> by (destruct Hv as [-> | ->]; reflexivity).
        cbn [bind assert_]. split.
        -- intros pre t post E Hp. rewrite E. split.
           ++ intros Ek. rewrite (mapM_two_fail pre t post TypeError Hp); [reflexivity|]. unfold two_kids. rewrite Ek. reflexivity.
           ++ intros ks Ek Hl. rewrite (mapM_two_fail pre t post AssertionError Hp); [reflexivity|]. unfold two_kids. rewrite Ek. destruct (Nat.eqb_spec (length ks) 2) as [E2|]; [contradiction|reflexivity].
        -- intros Hall. destruct (mapM_two_ok _ Hall) as (us & ->). cbn [bind]. split; intros x ->; reflexivity.
Qed.
Theorem codec_xt_saved version now types meta : scalars version -> scalars now -> meta_ok meta -> NoDup (map fst meta) ->
  ~ In (lit "max_level") (map fst meta) -> storable types -> (forall z, (exists t, In t types /\ t_level t = z) -> (forall t, In t types -> t_level t <= z) -> z <> 1) ->
  exists bytes, write_out version now types meta = (bytes, Ok tt) /\ codec_xt bytes = Raise AssertionError.
Proof.
  intros Hv Hn Hm Hnd Hml Hst Hl. destruct (write_read_meta version now types meta Hv Hn Hm Hnd Hst) as (bytes & m & E1 & E2 & _ & _ & _ & H & _).
  destruct (H Hml) as (z & E3 & Hz1 & Hz2). exists bytes. split; [exact E1|].
  assert (Hne : m <> []) by (intros ->; discriminate E3).
  destruct (proj2 (codec_xt_outcome bytes types _ E2) m eq_refl Hne) as (_ & R). apply (proj1 (R (JInt z) E3)).
  intros [E|E]; [|discriminate]. injection E as E. exact (Hl z Hz1 Hz2 E).
Qed.

(** ** lines that are missing *)
Lemma track_failing orders k buffer seqs e : track_merges orders k buffer (seqs, Some e) = Raise e.
Proof. reflexivity. Qed.
Lemma loop_means orders buffer : forall i k st rows, track_loop orders i k buffer st = Ok rows ->
  forall rw, In rw rows -> r_mean rw = mean_seq_len (r_lens rw).
Proof.
  induction buffer as [|t buffer IH]; intros i k st rows H rw Hin; cbn [track_loop] in H; unfold measure in H; destruct (earth_mov_dist _) as [d|]; try discriminate; cbn [bind] in H.
  - injection H as <-. destruct Hin as [<-|[]]. reflexivity.
  - destruct (assert_ _) as [|]; [|discriminate]. cbn [bind] in H. destruct (track_merge _ _ _) as [st'|]; [|discriminate]. cbn [bind] in H.
    destruct (track_loop orders (S i) (S k) buffer st') as [rows'|] eqn:E; [|discriminate]. cbn [bind] in H. injection H as <-.
    destruct Hin as [<-|Hin]; [reflexivity|exact (IH _ _ _ _ E rw Hin)].
Qed.
Lemma merging_nothing k ps cs : merging k [] ps cs -> forall c, In c cs -> c = [].
Proof.
  remember ([] : corpus) as c0 eqn:E0. induction 1 as [k c|k c a b ps c' cs H _ IH]; subst.
  - intros c [<-|[]]. reflexivity.
  - intros c [<-|Hc]; [reflexivity|]. assert (E : c' = []) by (inversion H; reflexivity). rewrite (IH E c Hc). exact E.
Qed.
Theorem track_nothing orders k ts ps : iteration_orders orders -> (0 < k)%nat -> merge_list (Z.of_nat k) ts ps ->
  exists rows, track_merges orders k ts ([], None) = Ok rows /\ length rows = S (length ps) /\ forall rw, In rw rows -> r_mean rw = None.
Proof.
  intros Ho Hk Hm. destruct (lens_exact orders k ts ps [] Ho Hk Hm) as (rows & cs & E & M & L1 & L2 & X).
  { intros s f []. }
  exists rows. split; [exact E|]. split; [exact L1|]. intros rw Hin.
  destruct (In_nth_error rows rw Hin) as (j & Ej).
  destruct (nth_error cs j) as [c|] eqn:Ec.
  2:{ apply nth_error_None in Ec. assert (j < length rows)%nat by (apply nth_error_Some; congruence). lia. }
  destruct (X j rw c Ej Ec) as (_ & El & _).
  unfold track_merges in E. cbn in E. rewrite (loop_means _ _ _ _ _ _ E rw Hin), El.
  rewrite (merging_nothing _ _ _ M c (nth_error_In _ _ Ec)). reflexivity.
Qed.

(** ** runs of parallel_map exist *)
Theorem parallel_map_exists {A B} (f : A -> res B) data n_cpus size : exists out, parallel_map f data n_cpus size out.
Proof.
  destruct (Z_le_gt_dec n_cpus 1) as [H|H]; [eexists; apply pm_few, H|].
  destruct size as [|size]; [eexists; apply pm_chunk; [lia|reflexivity]|].
  destruct (reach_finish (task_results f (S size) data) _ [] [] imap0 (sts_nil _ _) (le_n _)) as (es & done & s & Hs & Hm).
  destruct Hm as [Hm|(e & Hm)]; eexists; (eapply pm_run; [lia|lia|exact Hs|unfold pm_end; rewrite Hm; reflexivity]).
Qed.
Theorem parallel_map_few {A B} (f : A -> res B) data n_cpus size out : n_cpus <= 1 ->
  (parallel_map f data n_cpus size out <-> out = ([], Some AssertionError)).
Proof. intros Hn. split; [intros H; destruct H; [reflexivity|lia|lia]|intros ->; apply pm_few, Hn]. Qed.
Theorem parallel_map_exact {A B} (f : A -> res B) data n_cpus size out : 1 < n_cpus -> (0 < size)%nat ->
  (parallel_map f data n_cpus size out <-> out = cut size (sequential f (seen_input size data) (snd data))).
Proof.
  intros Hn Hs. split; [apply parallel_map_run; assumption|]. intros ->.
  destruct (parallel_map_exists f data n_cpus size) as (out & H). rewrite <- (parallel_map_run f data n_cpus size out Hn Hs H). exact H.
Qed.
Theorem estimate_exists orders n_cpus codec lines : exists r, estimate_lens orders n_cpus codec lines r.
Proof.
  destruct (codec_xt codec) as [[s buffer]|e] eqn:E; [|exists (Raise e); apply el_codec, E].
  destruct (parallel_map_exists (encode s) lines n_cpus (N.to_nat 1000)) as (out & H). eexists. eapply el_run; eassumption.
Qed.
Theorem estimate_few orders n_cpus codec lines s buffer r : codec_xt codec = Ok (s, buffer) -> n_cpus <= 1 ->
  estimate_lens orders n_cpus codec lines r -> r = Raise AssertionError.
Proof.
  intros E Hn H. destruct H as [e H|s' b' out H Hp]; [congruence|]. apply parallel_map_few in Hp; [|exact Hn]. subst out. reflexivity.
Qed.

(** ** batches that fail *)
Lemma wrap_until m sd bf groups : forall fin bs fin', wrap m sd bf groups fin = (bs, fin') -> until_failure (make_batch m sd bf) groups fin bs fin'.
Proof.
  induction groups as [|g groups IH]; intros fin bs fin' H; cbn [wrap] in H.
  - injection H as <- <-. apply Uf_all. constructor.
  - destruct (make_batch m sd bf g) as [b|e] eqn:E.
    + destruct (wrap m sd bf groups fin) as [bs' f'] eqn:Ew. injection H as <- <-.
      specialize (IH _ _ _ Ew). inversion IH as [xs ys f0 Hf|xs x rest ys e f0 Hf He]; subst.
      * apply Uf_all. constructor; assumption.
      * apply (Uf_fail (make_batch m sd bf) (g :: xs) x rest (b :: bs') e fin); [constructor; assumption|exact He].
    + injection H as <- <-. apply (Uf_fail (make_batch m sd bf) [] g groups [] e fin); [constructor|exact E].
Qed.
Theorem read_all_until m sd bf max_toks max_sents data : sents_ok max_sents -> Forall (fun ex => e_y ex <> None) data ->
  (forall r, In r data -> example_used r = true -> example_size r <= max_toks) ->
  exists groups, concat groups = filter example_used data /\ greedy (fits_seq max_toks max_sents) groups /\
    until_failure (make_batch m sd bf) groups None (fst (read_all m sd bf max_toks max_sents data)) (snd (read_all m sd bf max_toks max_sents data)).
Proof.
  intros Hms Hy Hle. unfold read_all. change 0 with (max_size []).
  destruct (loop_ok max_toks max_sents Hms data Hy) with (gs0 := @nil (list example)) (batch := @nil example) as (gs & E & Hc & Hg).
  { intros r Hr. apply filter_In in Hr. apply Hle; tauto. }
  { split; [reflexivity|]. intros H. exfalso. apply H. reflexivity. }
  rewrite E. cbn [app] in *. exists gs. split; [exact Hc|]. split; [exact Hg|]. apply wrap_until. apply surjective_pairing.
Qed.
(** The iterable over a Db *)
Lemma eq_len_until m sd bf d max_toks max_sents order arranged shuffled :
  match eq_len_examples d max_toks max_sents order arranged shuffled with
  | Ok groups => until_failure (make_batch m sd bf) groups None (fst (eq_len_batches m sd bf d max_toks max_sents order arranged shuffled)) (snd (eq_len_batches m sd bf d max_toks max_sents order arranged shuffled))
  | Raise e => eq_len_batches m sd bf d max_toks max_sents order arranged shuffled = ([], Some e)
  end.
Proof. unfold eq_len_batches. destruct (eq_len_examples _ _ _ _ _ _) as [groups|e]; [|reflexivity]. apply wrap_until. apply surjective_pairing. Qed.
Lemma iterate_one_eq_len d m toks sents sd bf c :
  iterate (MkIter (OneDb d) m toks sents sd bf EqLen) c = eq_len_batches m sd bf d toks sents (ids_order c d) (arranged c) (shuffled c).
Proof.
  unfold iterate, eq_len_batches. cbn [it_how it_data it_toks it_sents it_meta it_desc it_first eq_len_of_source].
  destruct (eq_len_examples _ _ _ _ _ _); reflexivity.
Qed.
Lemma yield_map_ok {A B} (f : A -> res B) l ys : mapM f l = Ok ys -> yield_map f l = (ys, None).
Proof.
  revert ys. induction l as [|x l IH]; intros ys H; cbn [mapM yield_map] in *; [injection H as <-; reflexivity|].
  destruct (f x) as [y|]; [|discriminate]. cbn [bind] in H. destruct (mapM f l) as [ys'|]; [|discriminate]. cbn [bind] in H. injection H as <-. rewrite (IH ys' eq_refl). reflexivity.
Qed.
Lemma read_from_none toks sents data : forall batch mx, read_from toks sents batch mx data None = read_loop toks sents batch mx data.
Proof.
  induction data as [|ex data IH]; intros batch mx; [reflexivity|]. cbn [read_from read_loop].
  destruct (e_y ex) as [y|]; [|reflexivity]. destruct (_ =? 0); [apply IH|]. destruct (_ && _)%bool; [apply IH|]. destruct (toks <? _); [reflexivity|]. rewrite IH. reflexivity.
Qed.
Lemma iterate_one_in_order d m toks sents sd bf c data : mapM (db_example d) (ids_order c d) = Ok data ->
  iterate (MkIter (OneDb d) m toks sents sd bf ReadAll) c = batch_iter_seq m sd bf d toks sents (ids_order c d) /\
  batch_iter_seq m sd bf d toks sents (ids_order c d) = read_all m sd bf toks sents data.
Proof.
  intros E. unfold iterate, batch_iter_seq. cbn [it_how it_data it_toks it_sents it_meta it_desc it_first examples_of]. rewrite E, (yield_map_ok _ _ _ E), read_from_none.
  split; reflexivity.
Qed.

(** ** names *)
Lemma strategy_names s : strategy_of s = match s with
  | None => Ok ReadAll
  | Some n => if str_dec n (lit "eq_len_rand_batch") then Ok EqLen else if str_dec n (lit "random") then Ok ReadAll else Raise AssertionError
  end.
Proof.
  destruct s as [n|]; [|reflexivity]. unfold strategy_of. change EQ_LEN with (lit "eq_len_rand_batch"). change RANDOM with (lit "random").
  destruct (str_dec n (lit "eq_len_rand_batch")) as [->|H1]; [reflexivity|].
  rewrite (proj2 (str_eqb_neq n (lit "eq_len_rand_batch")) H1).
  destruct (str_dec n (lit "random")) as [->|H2]; [reflexivity|]. rewrite (proj2 (str_eqb_neq n (lit "random")) H2). reflexivity.
Qed.

(** ** files *)
Lemma read_missing fs name : dget str_eqb name fs = None ->
  io_read_text fs name = Raise FileNotFound /\ io_read_bytes fs name = if is_gz name then Raise ValueError else Raise FileNotFound.
Proof.
  intros E. unfold io_read_text, io_read_bytes. rewrite enter_text_reader, enter_bin_reader, E. cbn [bind]. destruct (is_gz name); split; reflexivity.
Qed.

Lemma has_mode c mode : in_mode c mode = true <-> In c mode.
Proof.
  unfold in_mode. rewrite existsb_exists. split; [intros (x & H & E); apply N.eqb_eq in E; subst; exact H|intros H; exists c; split; [exact H|apply N.eqb_refl]].
Qed.
Lemma enter_modes name mode :
  (In 116%N mode -> In 98%N mode -> io_enter name mode = Raise ValueError) /\
  (In 116%N mode -> ~ In 98%N mode -> (gz_name name -> io_enter name mode = Ok (Utf8 true)) /\ (~ gz_name name -> io_enter name mode = Ok (Utf8 false))) /\
  (~ In 116%N mode -> gz_name name -> io_enter name mode = Raise ValueError) /\
  (~ In 116%N mode -> ~ gz_name name -> (In 98%N mode -> io_enter name mode = Ok Binary) /\ (~ In 98%N mode -> io_enter name mode = Ok Locale)).
Proof.
  rewrite <- !has_mode, <- is_gz_iff. unfold io_enter. destruct (in_mode 116 mode), (in_mode 98 mode), (is_gz name); intuition congruence.
Qed.

(** ** learn_vocab *)
Lemma subword_default A orders version now inp model vocab_size min_freq tf coverage mco :
  learn_vocab A orders version now inp (lit "subword") model vocab_size min_freq tf coverage mco =
  learn_vocab A orders version now inp (lit "bpe") model vocab_size min_freq tf coverage 95.
Proof. reflexivity. Qed.

(** ** equal-length batches *)
Lemma step_keeps max_toks max_sents bs b mx id len bs' b' mx' : 1 <= len ->
  batch_step max_toks max_sents (bs, b, mx) (id, len) = Ok (bs', b', mx') -> b' <> [].
Proof.
  intros Hl. unfold batch_step. destruct (Z.ltb_spec len 1); [lia|]. destruct (_ || _)%bool; [destruct (max_toks <? len); [discriminate|]|]; cbn [bind]; intros H1; injection H1 as <- <- <-.
  - discriminate.
  - destruct b; discriminate.
Qed.
Lemma steps_keep max_toks max_sents rows : Forall (fun r : Z * Z => 1 <= snd r) rows -> forall bs b mx bs' b' mx', b <> [] \/ rows <> [] ->
  foldM (batch_step max_toks max_sents) rows (bs, b, mx) = Ok (bs', b', mx') -> b' <> [].
Proof.
  induction 1 as [|[id len] rows Hl _ IH]; intros bs b mx bs' b' mx' Hb H; cbn [foldM] in H.
  - injection H as <- <- <-. destruct Hb as [Hb|Hb]; [exact Hb|contradiction].
  - destruct (batch_step max_toks max_sents (bs, b, mx) (id, len)) as [[[bs1 b1] mx1]|] eqn:E; [|discriminate]. cbn [bind] in H.
    exact (IH bs1 b1 mx1 _ _ _ (or_introl (step_keeps _ _ _ _ _ _ _ _ _ _ Hl E)) H).
Qed.
Lemma py_min_max lens mn mx : py_min lens = Ok mn -> py_max lens = Ok mx -> mn <= mx.
Proof.
  destruct lens as [|x lens]; [discriminate|]. cbn. intros H1 H2. injection H1 as <-. injection H2 as <-.
  assert (G : forall l a b, a <= b -> fold_left Z.min l a <= fold_left Z.max l b) by (induction l as [|y l IH]; intros a b Hab; cbn; [exact Hab|apply IH; lia]).
  apply G. lia.
Qed.
Lemma len_rows_pos d order : forall rows0 rows, Forall (fun r : Z * Z => 1 <= snd r) rows0 ->
  foldM (fun rows id => let* lens := mapM (fun nf : str * field => get_len (snd nf) id) (db_fields d) in
           let* mn := py_min lens in let* mx := py_max lens in if mn <? 1 then Ok rows else Ok (rows ++ [(id, mx)]))%res order rows0 = Ok rows ->
  Forall (fun r : Z * Z => 1 <= snd r) rows.
Proof.
  induction order as [|id order IH]; intros rows0 rows H0 H; cbn [foldM] in H; [injection H as <-; exact H0|].
  destruct (mapM _ (db_fields d)) as [lens|]; [|discriminate]. cbn [bind] in H. destruct (py_min lens) as [mn|] eqn:E1; [|discriminate]. cbn [bind] in H.
  destruct (py_max lens) as [mx|] eqn:E2; [|discriminate]. cbn [bind] in H. destruct (Z.ltb_spec mn 1); cbn [bind] in H; [exact (IH _ _ H0 H)|].
  refine (IH _ _ _ H). apply Forall_app. split; [exact H0|]. constructor; [|constructor]. cbn. pose proof (py_min_max lens mn mx E1 E2). lia.
Qed.
Theorem some_batch d max_toks max_sents order arranged : arranges arranged -> eq_len_batch_ids d max_toks max_sents order arranged <> Ok [].
Proof.
  intros Ha H. unfold eq_len_batch_ids in H. destruct (len_rows d 1 order) as [rows|] eqn:Er; [|discriminate]. cbn [bind] in H.
  assert (Hp : Forall (fun r : Z * Z => 1 <= snd r) rows) by (unfold len_rows in Er; exact (len_rows_pos d order [] rows (Forall_nil _) Er)).
  destruct rows as [|r rows]; [discriminate|].
  assert (Hperm : Permutation (arranged (r :: rows)) (r :: rows)) by (apply Permutation_sym; exact (proj1 (Ha (r :: rows)))).
  unfold batch_ids in H. destruct (foldM (batch_step max_toks max_sents) (arranged (r :: rows)) ([], [], 0)) as [[[bs b] mx]|] eqn:E; [|discriminate]. cbn [bind] in H.
  assert (Hb : b <> []).
  { refine (steps_keep max_toks max_sents _ _ _ _ _ _ _ _ (or_intror _) E).
    - apply Forall_forall. intros x Hx. rewrite Forall_forall in Hp. apply Hp. eapply Permutation_in; [exact Hperm|exact Hx].
    - intros En. rewrite En in Hperm. apply Permutation_nil in Hperm. discriminate. }
  destruct b; [contradiction|]. injection H as H. destruct bs; discriminate.
Qed.
