From Coq Require Import Strings.String QArith Qabs Lia.
From Verif Require Import Py PyLemmas PyStr CodecModel CodecSpec BatchModel MapredModel VocabFileModel VocabSpec JsonModel JsonProofs BpeProofs MapredSpec MapredProofs ImapProofs EvalModel EvalSpec EvalProofs VocabFileProofs LearnModel HeapModel HeapProofs BpeSpec LearnBpeModel LearnBpeProofs LearnBpeLoop LearnBpeIndex LearnBpeResults TrackModel TrackSpec.
Local Open Scope Z_scope.
Local Open Scope list_scope.
Local Open Scope res_scope.

(** ** Node stores *)
Lemma nth_error_ext {A} (l l' : list A) : (forall i, nth_error l i = nth_error l' i) -> l = l'.
Proof.
  revert l'. induction l as [|x l IH]; intros [|y l'] H; [reflexivity|discriminate (H O)|discriminate (H O)|].
  pose proof (H O) as H0. cbn in H0. injection H0 as ->. f_equal. apply IH. intros i. apply (H (S i)).
Qed.
Lemma upd_comm i j f g st : (forall x, f (g x) = g (f x)) -> upd i f (upd j g st) = upd j g (upd i f st).
Proof.
  intros H. apply nth_error_ext. intros k. rewrite !upd_nth.
  destruct (Nat.eqb_spec k i) as [->|Hk]; [|destruct (Nat.eqb_spec k j) as [->|]; [|reflexivity]].
  - destruct (Nat.eqb_spec i j) as [->|Hij].
    + rewrite Nat.eqb_refl. destruct (nth_error st j); [rewrite H|]; reflexivity.
    + reflexivity.
  - destruct (Nat.eqb_spec j i) as [->|]; [contradiction|reflexivity].
Qed.
Lemma delete_set_val m n r st : delete m (upd n (set_val r) st) = bind (delete m st) (fun s => Ok (upd n (set_val r) s)).
Proof.
  unfold delete, node_at. rewrite upd_nth. destruct (nth_error st m) as [nd|] eqn:E.
  2:{ destruct (Nat.eqb_spec m n) as [->|]; [rewrite E|]; reflexivity. }
  assert (Hn : exists nd', (if Nat.eqb m n then match nth_error st n with Some n0 => Some (set_val r n0) | None => None end else Some nd) = Some nd'
     /\ n_left nd' = n_left nd /\ n_right nd' = n_right nd).
  { destruct (Nat.eqb_spec m n) as [->|]; [rewrite E|]; eexists; split; try reflexivity; split; reflexivity. }
  destruct Hn as (nd' & -> & H1 & H2). cbn [bind]. rewrite H1, H2. f_equal.
  assert (Ho : forall o g s, (forall x, set_val r (g x) = g (set_val r x)) -> upd_opt o g (upd n (set_val r) s) = upd n (set_val r) (upd_opt o g s)).
  { intros [i|] g s Hg; cbn [upd_opt]; [|reflexivity]. symmetry. apply upd_comm, Hg. }
  rewrite !Ho by reflexivity. apply upd_comm. reflexivity.
Qed.

(** ** One node: the same surgery as in the learner *)
Lemma sim_merge a b r S1 S2 l1 l2 n m f ms ms' ts i z :
  a <> r -> b <> r -> wf (ms_nodes ms) (S1 ++ (l1 ++ (n, a) :: (m, b) :: l2, f) :: S2) ->
  merge_node a b r ms n = Ok ms' ->
  tk_nodes ts = ms_nodes ms -> tk_ixs ts = ms_ixs ms ->
  nth_error (tk_data ts) n = Some i -> nth_error (tk_lens ts) i = Some z -> 1 < z ->
  track_node a b r ts n = Ok (MkTS (ms_nodes ms') (tk_data ts) (tk_uni ts) (ms_ixs ms') (set_nth i (z - 1) (tk_lens ts))) /\
  ms_uni ms' = ms_uni ms.
Proof.
  intros Har Hbr Hwf E Hn Hix Hd Hz Hz1.
  pose proof (node_n _ _ _ _ _ _ _ _ _ _ Hwf) as En. pose proof (node_m _ _ _ _ _ _ _ _ _ _ Hwf) as Em.
  destruct (surgery_distinct _ _ _ _ _ _ _ _ r _ _ Hwf) as (Hnm & Hnn & Hmm & Hndr).
  set (y := option_map fst (hd_error l2)) in *. set (lf := option_map fst (last_opt l1)) in *.
  assert (Hy : y <> Some n /\ y <> Some m).
  { destruct l2 as [|[y' yv] l2']; cbn in y; subst y; [split; discriminate|]. split; intros [= ->].
    - apply Hnn. rewrite !in_app_iff. right. left. left. reflexivity.
    - apply Hmm. rewrite !in_app_iff. right. left. left. reflexivity. }
  destruct Hy as [Hyn Hym].
  destruct (delete_set (ms_nodes ms) n m y r a b lf f Hnm Hyn Hym En Em) as (st1 & Edel & Hst).
  unfold merge_node, node_at in E. rewrite En in E. cbn [bind n_left n_right n_val n_freq is_unlinked is_none andb] in E.
  rewrite Em in E. cbn [bind n_left n_right n_val n_freq] in E.
  assert (Era : (r =? a) = false) by (apply Z.eqb_neq; congruence).
  assert (Erb : (r =? b) = false) by (apply Z.eqb_neq; congruence).
  rewrite Era, Erb in E. cbn [orb] in E. rewrite andb_false_r, !Z.eqb_refl in E. cbn [negb orb assert_ bind] in E.
  rewrite Edel in E. cbn [bind] in E.
  unfold track_node, node_at. rewrite Hn, En. cbn [bind n_left n_right n_val n_freq is_unlinked is_none andb].
  rewrite Em, Hd, delete_set_val, Edel. cbn [bind n_left n_right n_val n_freq]. rewrite Hz. cbn [bind].
  rewrite Era, Erb. cbn [orb].
  match goal with |- context [bind ?x _] => assert (Ex : x = Ok false) by (destruct (a =? b); reflexivity) end. rewrite Ex. cbn [bind]. clear Ex.
  rewrite !Z.eqb_refl. cbn [assert_ bind]. rewrite Z.gtb_ltb, (proj2 (Z.ltb_lt 0 (z - 1))) by lia. cbn [assert_ bind].
  rewrite (Hst n), Nat.eqb_refl. cbn [bind n_left n_right n_val]. rewrite Hix. fold lf y.
  destruct lf as [x|].
  - destruct (nth_error (upd n (set_val r) st1) x) as [xd|]; [|discriminate]. cbn [bind] in E |- *.
    destruct (ixs_remove (n_val xd, a) x (ms_ixs ms)) as [ix1|]; [|discriminate]. cbn [bind] in E |- *.
    destruct y as [y|].
    + destruct (nth_error (upd n (set_val r) st1) y) as [yd|]; [|discriminate]. cbn [bind] in E |- *.
      match type of E with context [ixs_remove ?p ?q ?x] => destruct (ixs_remove p q x) as [ix2|]; [|discriminate] end.
      cbn [bind] in E |- *. injection E as <-. split; reflexivity.
    + cbn [bind] in E |- *. injection E as <-. split; reflexivity.
  - cbn [bind] in E |- *. destruct y as [y|].
    + destruct (nth_error (upd n (set_val r) st1) y) as [yd|]; [|discriminate]. cbn [bind] in E |- *.
      match type of E with context [ixs_remove ?p ?q ?x] => destruct (ixs_remove p q x) as [ix2|]; [|discriminate] end.
      cbn [bind] in E |- *. injection E as <-. split; reflexivity.
    + cbn [bind] in E |- *. injection E as <-. split; reflexivity.
Qed.

(** the lengths of the segments, and the segment of each node *)
Definition seg_lens (segs : list seg) : list Z := map (fun sg => Z.of_nat (length (fst sg))) segs.
Definition placed (data : list nat) (segs : list seg) : Prop :=
  forall i sg n, nth_error segs i = Some sg -> In n (map fst (fst sg)) -> nth_error data n = Some i.

Record follows (data : list nat) (a b r pf : Z) (base : Z -> Z) (ms : mstate) (segs : list seg) (ts : tstate) : Prop := MkFollows {
  f_nodes : tk_nodes ts = ms_nodes ms;
  f_ixs : tk_ixs ts = ms_ixs ms;
  f_data : tk_data ts = data;
  f_lens : tk_lens ts = seg_lens segs;
  f_placed : placed data segs;
  f_uni : forall c, ucount c (tk_uni ts) = ucount c (ms_uni ms) - base c - 2 * ind c b * (pf - ucount r (ms_uni ms)) }.

Lemma set_nth_app {A} (l1 l2 : list A) x y : set_nth (length l1) y (l1 ++ x :: l2) = l1 ++ y :: l2.
Proof. induction l1 as [|z l1 IH]; [reflexivity|]. cbn [length app set_nth]. rewrite IH. reflexivity. Qed.

Lemma seg_lens_set (S1 S2 : list seg) s s' f z : z - 1 = Z.of_nat (length s') ->
  set_nth (length S1) (z - 1) (seg_lens (S1 ++ (s, f) :: S2)) = seg_lens (S1 ++ (s', f) :: S2).
Proof.
  intros H. unfold seg_lens. rewrite !map_app. cbn [map fst]. rewrite H.
  replace (length S1) with (length (map (fun sg : seg => Z.of_nat (length (fst sg))) S1)) by apply map_length. apply set_nth_app.
Qed.

Lemma track_node_ok data a b r segs0 pf base n pend ms segs ts : a <> r -> b <> r -> (forall s f, In (s, f) segs0 -> 0 < f) ->
  inner a b r segs0 (n :: pend) ms segs -> follows data a b r pf base ms segs ts ->
  exists ms' segs' ts', merge_node a b r ms n = Ok ms' /\ inner a b r segs0 pend ms' segs' /\
    track_node a b r ts n = Ok ts' /\ follows data a b r pf base ms' segs' ts'.
Proof.
  intros Har Hbr Hpos HI [F1 F2 F3 F4 F5 F6]. assert (HI' := HI). destruct HI' as [Hwf Hixs Hab Hnd Hall Hpend Hkeys Hdelta Hdneg Huni Hrep].
  assert (Hskip : forall nd, nth_error (ms_nodes ms) n = Some nd -> (forall f, ~ In (n, f) (occ segs (a, b))) ->
    let ms' := MkMS (ms_nodes ms) (dadd Z.eqb r (- n_freq nd) (dadd Z.eqb b (n_freq nd) (dadd Z.eqb a (n_freq nd) (ms_uni ms)))) (ms_ixs ms) (ms_deltas ms) in
    let ts' := MkTS (tk_nodes ts) (tk_data ts) (dadd Z.eqb b (- n_freq nd) (dadd Z.eqb a (n_freq nd) (dadd Z.eqb r (- n_freq nd) (tk_uni ts)))) (tk_ixs ts) (tk_lens ts) in
    inner a b r segs0 pend ms' segs /\ follows data a b r pf base ms' segs ts').
  { intros nd En Hno ms' ts'. split.
    - eapply skip_step; [exact HI|exact En|exact Hno|reflexivity].
    - constructor; cbn [ms' ts' tk_nodes tk_data tk_uni tk_ixs tk_lens ms_nodes ms_ixs ms_uni]; try assumption.
      intros c. rewrite !ucount_dadd, F6. unfold ind. rewrite Z.eqb_refl.
      assert (Era : (r =? a) = false) by (apply Z.eqb_neq; congruence).
      assert (Erb : (r =? b) = false) by (apply Z.eqb_neq; congruence). rewrite Era, Erb.
      destruct (c =? r), (c =? a), (c =? b); lia. }
  destruct (Hpend n (or_introl eq_refl)) as [[Hl Hd]|(l1 & m & w & l2 & f & Hin & Hw)].
  - destruct (nth_error (ms_nodes ms) n) as [nd|] eqn:En; [|apply nth_error_None in En; lia].
    destruct Hwf as (Hw1 & Hw2 & Hw3). destruct (Hw3 n nd En Hd) as [E1 E2].
    destruct (Hskip nd eq_refl) as [G1 G2].
    { intros f Hf. apply Hd. eapply occ_incl. apply in_map_iff. exists (n, f). split; [reflexivity|exact Hf]. }
    do 3 eexists. split; [|split; [exact G1|split; [|exact G2]]].
    + unfold merge_node, node_at. rewrite En. cbn [bind]. unfold is_unlinked. rewrite E1, E2. reflexivity.
    + unfold track_node, node_at. rewrite F1, En. cbn [bind]. unfold is_unlinked. rewrite E1, E2. cbn [is_none andb bind]. rewrite F3. reflexivity.
  - destruct (Z.eq_dec w b) as [->|Hwb].
    + apply in_split in Hin. destruct Hin as (S1 & S2 & ->).
      destruct (merge_step a b r segs0 n pend ms Har Hbr Hpos _ _ _ _ _ _ HI) as (ms' & E & H).
      assert (Hi : nth_error (tk_data ts) n = Some (length S1)).
      { rewrite F3. apply (F5 (length S1) (l1 ++ (n, a) :: (m, b) :: l2, f) n).
        - rewrite nth_error_app2, Nat.sub_diag by lia. reflexivity.
        - cbn [fst]. rewrite map_app, in_app_iff. right. left. reflexivity. }
      set (z := Z.of_nat (length (l1 ++ (n, a) :: (m, b) :: l2))).
      assert (Hz : nth_error (tk_lens ts) (length S1) = Some z).
      { rewrite F4. unfold seg_lens. rewrite map_app. cbn [map fst]. rewrite nth_error_app2 by (rewrite map_length; lia).
        rewrite map_length, Nat.sub_diag. reflexivity. }
      assert (Hz1 : 1 < z) by (unfold z; rewrite app_length; cbn [length]; lia).
      destruct (sim_merge a b r S1 S2 l1 l2 n m f ms ms' ts _ _ Har Hbr Hwf E F1 F2 Hi Hz Hz1) as [E' Eu].
      do 3 eexists. split; [exact E|split; [exact H|split; [exact E'|]]].
      constructor; cbn [tk_nodes tk_data tk_uni tk_ixs tk_lens]; try reflexivity; try assumption.
      * rewrite F4. apply seg_lens_set. unfold z. rewrite !app_length. cbn [length]. lia.
      * intros i sg k Hs Hk. destruct (Nat.lt_trichotomy i (length S1)) as [L|[->|L]].
        -- apply (F5 i sg k); [|exact Hk]. rewrite nth_error_app1 in * by exact L. exact Hs.
        -- rewrite nth_error_app2, Nat.sub_diag in Hs by lia. cbn [nth_error] in Hs. injection Hs as <-. cbn [fst] in Hk.
           apply (F5 (length S1) (l1 ++ (n, a) :: (m, b) :: l2, f) k).
           ++ rewrite nth_error_app2, Nat.sub_diag by lia. reflexivity.
           ++ cbn [fst]. rewrite map_app, in_app_iff in *. cbn [map fst In] in *. tauto.
        -- apply (F5 i sg k); [|exact Hk]. rewrite nth_error_app2 in * by lia.
           destruct (i - length S1)%nat eqn:Ei; [lia|]. exact Hs.
      * rewrite Eu. exact F6.
    + destruct Hw as [Hw|[Hw1 Hw2]]; [contradiction|]. subst w.
      pose proof Hwf as (Hw1' & Hw2 & Hw3). destruct (chain_right _ _ _ _ _ _ (Hw2 _ _ Hin)) as (lf & rt & E1 & E2).
      cbn [fst snd] in E1, E2.
      destruct (Hskip _ E1) as [G1 G2].
      { intros g Hg. apply In_occ in Hg. destruct Hg as (k1 & m' & k2 & Hin'). cbn [fst snd] in Hin'.
        destruct (chain_right _ _ _ _ _ _ (Hw2 _ _ Hin')) as (lf' & rt' & E3 & E4). cbn [fst snd] in E3, E4.
        rewrite E1 in E3. injection E3 as _ <- _. rewrite E2 in E4. congruence. }
      do 3 eexists. split; [|split; [exact G1|split; [|exact G2]]].
      * unfold merge_node, node_at. rewrite E1. cbn [bind is_unlinked n_right is_none andb]. rewrite E2. cbn [bind n_val].
        rewrite Z.eqb_refl, orb_true_r, andb_true_r, (proj2 (Z.eqb_eq a b) Hw1). reflexivity.
      * unfold track_node, node_at. rewrite F1, E1. cbn [bind is_unlinked n_right is_none andb]. rewrite E2. cbn [bind n_val].
        rewrite Z.eqb_refl, orb_true_r, (proj2 (Z.eqb_eq a b) Hw1). cbn [bind]. rewrite F3. reflexivity.
Qed.

Lemma track_nodes_ok data a b r segs0 pf base pend : a <> r -> b <> r -> (forall s f, In (s, f) segs0 -> 0 < f) -> forall ms segs ts,
  inner a b r segs0 pend ms segs -> NoDup (dkeys (ms_ixs ms)) -> follows data a b r pf base ms segs ts ->
  exists ms' segs' ts', inner a b r segs0 [] ms' segs' /\ NoDup (dkeys (ms_ixs ms')) /\
    foldM (track_node a b r) pend ts = Ok ts' /\ follows data a b r pf base ms' segs' ts'.
Proof.
  intros Ha Hb Hpos. induction pend as [|n pend IH]; intros ms segs ts HI Hnd HF; cbn [foldM].
  - exists ms, segs, ts. auto.
  - destruct (track_node_ok data a b r segs0 pf base n pend ms segs ts Ha Hb Hpos HI HF) as (ms1 & segs1 & ts1 & E & HI1 & E1 & HF1).
    rewrite E1. cbn [bind]. apply (IH ms1 segs1 ts1 HI1); [|exact HF1]. eapply merge_node_keys; eassumption.
Qed.

(** ** Counting what a merge leaves *)
Lemma replaced_hd a b r s s' : replaced a b r s s' -> a <> b -> b <> r -> (hd_error s = Some b <-> hd_error s' = Some b).
Proof.
  intros H Hab Hbr. destruct H as [|x s s' H|s s' H]; cbn [hd_error]; [tauto|tauto|]. split; intros [= E]; congruence.
Qed.
Lemma adjacent_cons {A} (x : A) s : adjacent (x :: s) = match s with [] => [] | y :: _ => (x, y) :: adjacent s end.
Proof. destruct s; reflexivity. Qed.
Lemma count_adjacent_cons a b x s : count_occ pair_dec (adjacent (x :: s)) (a, b) =
  ((if (x =? a)%Z then match hd_error s with Some y => if (y =? b)%Z then 1 else 0 | None => 0 end else 0) + count_occ pair_dec (adjacent s) (a, b))%nat.
Proof.
  rewrite adjacent_cons. destruct s as [|y s]; cbn [hd_error].
  - destruct (x =? a); reflexivity.
  - cbn [count_occ]. destruct (pair_dec (x, y) (a, b)) as [[= -> ->]|N].
    + rewrite !Z.eqb_refl. reflexivity.
    + destruct (Z.eqb_spec x a), (Z.eqb_spec y b); subst; try reflexivity. congruence.
Qed.
Lemma replaced_count a b r s s' : replaced a b r s s' -> a <> b -> a <> r -> b <> r -> ~ In r s ->
  (count_occ Z.eq_dec s' r + count_occ pair_dec (adjacent s') (a, b) = count_occ pair_dec (adjacent s) (a, b))%nat.
Proof.
  intros H Hab Har Hbr. induction H as [|x s s' H IH|s s' H IH]; intros Hr.
  - reflexivity.
  - assert (Hx : x <> r) by (intros ->; apply Hr; left; reflexivity). specialize (IH (fun h => Hr (or_intror h))).
    cbn [count_occ]. destruct (Z.eq_dec x r); [contradiction|]. rewrite !count_adjacent_cons, <- IH.
    pose proof (replaced_hd _ _ _ _ _ H Hab Hbr) as Hh.
    assert (E : match hd_error s' with Some y => if (y =? b) then 1%nat else 0%nat | None => 0%nat end = match hd_error s with Some y => if y =? b then 1%nat else 0%nat | None => 0%nat end).
    { destruct (hd_error s) as [y|], (hd_error s') as [y'|]; try destruct (Z.eqb_spec y b); try destruct (Z.eqb_spec y' b); subst; try reflexivity; exfalso;
        destruct Hh as [Hh1 Hh2]; try (specialize (Hh1 eq_refl); congruence); try (specialize (Hh2 eq_refl); congruence). }
    rewrite E. lia.
  - assert (Hr' : ~ In r s) by (intros h; apply Hr; right; right; exact h). specialize (IH Hr').
    cbn [count_occ]. destruct (Z.eq_dec r r); [|congruence]. rewrite !count_adjacent_cons, <- IH. cbn [hd_error].
    rewrite !Z.eqb_refl. destruct (Z.eqb_spec r a); [congruence|]. destruct (Z.eqb_spec b a); [congruence|]. lia.
Qed.
Lemma merged_count a b r c c' : merged_corpus a b r c c' -> a <> b -> a <> r -> b <> r ->
  (forall s f, In (s, f) c -> ~ In r s) -> symbol_count c' r = pair_count c (a, b).
Proof.
  intros H Hab Har Hbr. induction H as [|[s f] [s' f'] c c' [Ef [Hr Hn]] _ IH]; intros Hf; [reflexivity|].
  unfold symbol_count, pair_count in *. cbn [map fst snd] in *. rewrite !zsum_cons. rewrite IH by (intros s0 f0 H; apply (Hf s0 f0); right; exact H).
  subst f'. pose proof (replaced_count a b r s s' Hr Hab Har Hbr (Hf s f (or_introl eq_refl))) as Hc.
  apply count_occ_not_In with (eq_dec := pair_dec) in Hn. lia.
Qed.

Lemma freqs_ok nodes segs p l : wf nodes segs -> Permutation l (map fst (occ segs p)) ->
  mapM (fun u => let* nd := node_at nodes u in Ok (n_freq nd)) l = Ok (map (freq_at nodes) l).
Proof.
  intros (_ & Hc & _) Hp. assert (H : forall u, In u l -> exists nd, nth_error nodes u = Some nd).
  { intros u Hu. rewrite Hp in Hu. apply in_map_iff in Hu. destruct Hu as ([u' g] & E & Hin). cbn [fst] in E. subst u'.
    apply In_occ in Hin. destruct Hin as (l1 & m & l2 & Hin). specialize (Hc _ _ Hin l1 _ _ eq_refl). cbn [fst] in Hc. eauto. }
  clear Hp. induction l as [|u l IH]; [reflexivity|]. cbn [mapM map]. destruct (H u (or_introl eq_refl)) as (nd & E).
  rewrite IH by (intros v Hv; apply H; right; exact Hv). assert (Ef : freq_at nodes u = n_freq nd) by (unfold freq_at; rewrite E; reflexivity). rewrite Ef. unfold node_at. rewrite E. reflexivity.
Qed.

(** ** Between merges *)
Record tracked (data : list nat) (k : Z) (err : Z -> Z) (segs : list seg) (ts : tstate) : Prop := MkTracked {
  t_core : exists g, core (tk_nodes ts) g (tk_ixs ts) k segs;
  t_data : tk_data ts = data;
  t_lens : tk_lens ts = seg_lens segs;
  t_placed : placed data segs;
  t_uni : forall c, ucount c (tk_uni ts) = symbol_count (corpus_of segs) c - err c;
  t_err : forall c, k <= c -> err c = 0 }.

Lemma merged_refl a b r c : pair_count c (a, b) = 0 -> positive c -> merged_corpus a b r c c.
Proof.
  intros H Hp. pose proof (pair_count_zero_inv c (a, b) Hp H) as Hn. clear H Hp.
  induction c as [|[s f] c IH]; [constructor|]. constructor.
  - split; [reflexivity|]. split; [apply replaced_refl|]. apply (Hn s f). left. reflexivity.
  - apply IH. intros s' f' Hin. apply (Hn s' f'). right. exact Hin.
Qed.

Lemma core_next nodes g ixs k segs a b : core nodes g ixs k segs -> pair_count (corpus_of segs) (a, b) = 0 ->
  core nodes g (ddel pair_eqb (a, b) ixs) (k + 1) segs.
Proof.
  intros [H1 H2 H3 H4 H5 H6] H0. constructor; auto.
  - intros p. unfold dget_def. rewrite (dget_ddel pair_eqb pair_eqb_eq) by exact H3. destruct (pair_eqb p (a, b)) eqn:E; [|apply H2].
    apply pair_eqb_eq in E. subst p. rewrite occ_count in H0.
    destruct (occ segs (a, b)) as [|[n f] l] eqn:Eo; [constructor|]. exfalso.
    assert (Ha : forall s f, In (s, f) (corpus_of segs) -> ~ In (a, b) (adjacent s)).
    { apply (pair_count_zero_inv _ _ H5). rewrite occ_count, Eo. exact H0. }
    assert (Hin : In (n, f) (occ segs (a, b))) by (rewrite Eo; left; reflexivity).
    apply In_occ in Hin. destruct Hin as (l1 & m & l2 & Hin). cbn [fst snd] in Hin.
    apply (Ha (map snd (l1 ++ (n, a) :: (m, b) :: l2)) f); [apply corpus_of_in; eauto|].
    rewrite map_app. cbn [map snd]. clear. induction l1 as [|x l1 IH]; [left; reflexivity|]. cbn [map app].
    rewrite adjacent_cons. destruct (map snd l1 ++ a :: b :: map snd l2) eqn:E; [destruct (map snd l1); discriminate|]. right. exact IH.
  - apply NoDup_ddel, H3.
  - intros s f Hin x Hx. specialize (H6 s f Hin x Hx). lia.
Qed.

Lemma track_merge_ok order data k err segs ts t ta tb a b : (forall l, Permutation (order l) l) ->
  tracked data k err segs ts -> t_idx t = k -> t_kids t = Some [ta; tb] -> t_idx ta = a -> t_idx tb = b ->
  in_range k (a, b) ->
  exists ts' segs', track_merge order t ts = Ok ts' /\
    merged_corpus a b k (corpus_of segs) (corpus_of segs') /\
    tracked data (k + 1) (fun c => err c + (if (a =? b) && (b =? c) then 2 * (pair_count (corpus_of segs) (a, b) - symbol_count (corpus_of segs') k) else 0)) segs' ts'.
Proof.
  intros Hord [(g & Hc) Td Tl Tp Tu Te] Et Ek Ea Eb Hr. assert (Hc' := Hc). destruct Hc' as [Hwf Hixs Hknd Huni Hpos Hrange].
  assert (Hak : 0 <= a < k) by apply Hr. assert (Hbk : 0 <= b < k) by apply Hr.
  assert (Hfr : forall s f, In (s, f) (corpus_of segs) -> ~ In k s).
  { intros s f Hin Hx. specialize (Hrange s f Hin k Hx). lia. }
  assert (Hfresh : symbol_count (corpus_of segs) k = 0) by (apply symbol_count_zero; exact Hfr).
  unfold track_merge. rewrite Ek, Ea, Eb, Et.
  destruct (Z.eq_dec (pair_count (corpus_of segs) (a, b)) 0) as [H0|H0].
  - (* nothing to merge *)
    assert (En : pget (a, b) (tk_ixs ts) = []).
    { apply Permutation_nil. rewrite (Hixs (a, b)). pose proof (c_ixs _ _ _ _ _ (core_next _ _ _ _ _ _ _ Hc H0) (a, b)) as H.
      unfold dget_def in H. rewrite (dget_ddel pair_eqb pair_eqb_eq), pair_eqb_refl in H by exact Hknd. apply Permutation_nil in H. rewrite H. constructor. }
    unfold dget_def in En.
    exists (MkTS (tk_nodes ts) (tk_data ts) (tk_uni ts) (ddel pair_eqb (a, b) (tk_ixs ts)) (tk_lens ts)), segs.
    split; [destruct (dget pair_eqb (a, b) (tk_ixs ts)) as [us|]; [subst us|]; reflexivity|].
    split; [apply merged_refl; assumption|].
    constructor; cbn [tk_nodes tk_data tk_uni tk_ixs tk_lens]; try assumption.
    + exists g. apply core_next; assumption.
    + intros c. rewrite Tu, H0, Hfresh. destruct ((a =? b) && (b =? c)); lia.
    + intros c Hc1. rewrite Te, H0, Hfresh by lia. destruct ((a =? b) && (b =? c)); lia.
  - assert (Hpf : 0 < pair_count (corpus_of segs) (a, b)) by (pose proof (pair_count_nonneg _ (a, b) Hpos); lia).
    destruct (inner_start _ _ _ _ _ order a b Hc Hr Hpf Hord) as (un & Eu & HI). rewrite Eu.
    set (pf := pair_count (corpus_of segs) (a, b)) in *.
    assert (Hp : Permutation un (map fst (occ segs (a, b)))).
    { pose proof (Hixs (a, b)) as H. unfold dget_def in H. rewrite Eu in H. exact H. }
    destruct un as [|u0 un'] eqn:Eun.
    { exfalso. apply Permutation_nil in Hp. apply map_eq_nil in Hp. unfold pf in Hpf. rewrite occ_count, Hp in Hpf. cbn in Hpf. lia. }
    rewrite <- Eun in *. clear Eun u0 un'.
    rewrite (freqs_ok _ _ _ _ Hwf Hp). cbn [bind].
    assert (Ef : zsum (map (freq_at (tk_nodes ts)) un) = pf) by exact (psum_occ _ _ _ _ Hwf Hp). rewrite Ef.
    set (ms0 := MkMS (tk_nodes ts) (dadd Z.eqb b (- pf) (dadd Z.eqb a (- pf) (dset Z.eqb k pf g))) (ddel pair_eqb (a, b) (tk_ixs ts)) []) in *.
    set (ts0 := MkTS (tk_nodes ts) (tk_data ts) (dadd Z.eqb b (- pf) (dadd Z.eqb a (- pf) (dset Z.eqb k pf (tk_uni ts)))) (ddel pair_eqb (a, b) (tk_ixs ts)) (tk_lens ts)).
    assert (Hka : (k =? a) = false) by (apply Z.eqb_neq; lia). assert (Hkb : (k =? b) = false) by (apply Z.eqb_neq; lia).
    assert (Hk0 : ucount k (ms_uni ms0) = pf).
    { cbn [ms0 ms_uni]. rewrite !ucount_dadd, Hka, Hkb. unfold dget_def. rewrite (dget_dset Z.eqb Z.eqb_eq), Z.eqb_refl. lia. }
    assert (HF : follows data a b k pf err ms0 segs ts0).
    { constructor; try assumption; try reflexivity. intros c. rewrite Hk0. cbn [ms0 ts0 ms_uni tk_uni].
      rewrite !ucount_dadd. pose proof (Tu c) as Tc. pose proof (Huni c) as Uc. unfold dget_def in *. rewrite !(dget_dset Z.eqb Z.eqb_eq).
      destruct (Z.eqb_spec c k) as [->|]; [rewrite (Te k) by lia|]; lia. }
    assert (Hnak : a <> k) by lia. assert (Hnbk : b <> k) by lia.
    destruct (track_nodes_ok data a b k segs pf err (order un) Hnak Hnbk (segs_pos segs Hpos) ms0 segs ts0 HI) as (ms' & segs' & ts' & HI' & Hknd' & E & HF').
    { cbn [ms0 ms_ixs]. apply NoDup_ddel, Hknd. } { exact HF. }
    exists ts', segs'. split; [exact E|].
    destruct HI' as [Hwf' Hixs' Hab' _ Hall' _ Hkeys Hdelta Hdneg Huni' Hrep].
    destruct HF' as [F1 F2 F3 F4 F5 F6].
    assert (Hocc : occ segs' (a, b) = []).
    { destruct (occ segs' (a, b)) as [|[n f] l] eqn:Eo; [reflexivity|]. destruct (Hall' n f (or_introl eq_refl)). }
    assert (Huni2 : forall c, ucount c (ms_uni ms') = symbol_count (corpus_of segs') c).
    { intros c. rewrite Huni'. unfold psum. cbn [map]. change (zsum []) with 0. lia. }
    assert (Hm : merged_corpus a b k (corpus_of segs) (corpus_of segs')).
    { unfold merged_corpus, corpus_of. assert (Hadj := occ_nil_adjacent segs' (a, b) Hocc). clear - Hrep Hadj.
      induction Hrep as [|[t0 f0] [t1 f1] s0 s1 [E Hrp] _ IH]; [constructor|]. cbn [map fst snd] in *. subst f1. constructor.
      + cbn [fst snd]. split; [reflexivity|]. split; [exact Hrp|]. apply (Hadj _ f0). left. reflexivity.
      + apply IH. intros s f H. apply (Hadj s f). right. exact H. }
    split; [exact Hm|]. constructor.
    + exists (ms_uni ms'). rewrite F1, F2. constructor; try assumption.
      * intros p. destruct (pair_dec p (a, b)) as [->|Hne]; [|apply Hixs', Hne].
        unfold dget_def. rewrite Hab', Hocc. constructor.
      * intros s f Hin. clear - Hin Hm Hpos. induction Hm as [|[t0 f0] [t1 f1] s0 s1 [E0 _] _ IH]; [destruct Hin|]. cbn [fst snd] in *. subst f1. destruct Hin as [E|Hin].
        -- injection E as <- <-. apply (Hpos t0 f0). left. reflexivity.
        -- apply IH; [|exact Hin]. intros s' f' H. apply (Hpos s' f'). right. exact H.
      * intros s f Hin x Hx. clear - Hin Hm Hrange Hx Hak. induction Hm as [|[t0 f0] [t1 f1] s0 s1 [E0 [Hrp _]] _ IH]; [destruct Hin|]. cbn [fst snd] in *. subst f1. destruct Hin as [E|Hin].
        -- injection E as <- <-. destruct (replaced_in _ _ _ _ _ Hrp x Hx) as [H| ->]; [|lia].
           specialize (Hrange t0 f0 (or_introl eq_refl) x H). lia.
        -- apply IH; [|exact Hin]. intros s' f' H. apply (Hrange s' f'). right. exact H.
    + exact F3.
    + exact F4.
    + exact F5.
    + intros c. rewrite F6, !Huni2. unfold ind. destruct (Z.eqb_spec a b) as [Eab|Nab]; cbn [andb].
      * destruct (Z.eqb_spec b c), (Z.eqb_spec c b); subst; try congruence; lia.
      * rewrite (merged_count a b k _ _ Hm Nab Hnak Hnbk Hfr). fold pf. lia.
    + intros c Hck. rewrite Te by lia. destruct (Z.eqb_spec b c); [lia|]. rewrite andb_false_r. reflexivity.
Qed.

(** ** The index *)
Lemma pget_ixs_add p q i ixs : ~ In i (pget q ixs) -> pget p (ixs_add q i ixs) = pget p ixs ++ (if pair_eqb q p then [i] else []).
Proof.
  intros H. unfold ixs_add, set_add. assert (E : set_mem i (pget q ixs) = false).
  { apply not_true_is_false. intros Hm. apply H. unfold set_mem in Hm. apply existsb_exists in Hm. destruct Hm as (j & Hj & Ej).
    apply Nat.eqb_eq in Ej. subst j. exact Hj. }
  rewrite E. unfold dget_def at 1. rewrite (dget_dset pair_eqb pair_eqb_eq). destruct (pair_eqb p q) eqn:Ep.
  - apply pair_eqb_eq in Ep. subst q. rewrite pair_eqb_refl. reflexivity.
  - destruct (pair_eqb q p) eqn:Eq; [apply pair_eqb_eq in Eq; subst; rewrite pair_eqb_refl in Ep; discriminate|]. rewrite app_nil_r. reflexivity.
Qed.
Lemma index_ixs base s : forall rest pre x ixs, s = pre ++ x :: rest -> NoDup (dkeys ixs) ->
  (forall p n, In n (pget p ixs) -> (n < base + length pre)%nat) ->
  let ixs' := fold_left (fun ixs i => ixs_add (nth i s 0, nth (i + 1) s 0) (base + i)%nat ixs) (List.seq (length pre) (length rest)) ixs in
  NoDup (dkeys ixs') /\ forall p, pget p ixs' = pget p ixs ++ map fst (occ1 1 (tag (base + length pre) (x :: rest)) p).
Proof.
  induction rest as [|y rest IH]; intros pre x ixs Es Hnd Hlt; cbn [length List.seq fold_left].
  - split; [exact Hnd|]. intros p. cbn. rewrite app_nil_r. reflexivity.
  - assert (E1 : nth (length pre) s 0 = x) by (rewrite Es, app_nth2, Nat.sub_diag by lia; reflexivity).
    assert (E2 : nth (length pre + 1) s 0 = y).
    { rewrite Es, app_nth2 by lia. replace (length pre + 1 - length pre)%nat with 1%nat by lia. reflexivity. }
    rewrite E1, E2.
    assert (Hn : ~ In (base + length pre)%nat (pget (x, y) ixs)) by (intros H; specialize (Hlt _ _ H); lia).
    destruct (IH (pre ++ [x]) y (ixs_add (x, y) (base + length pre)%nat ixs)) as [H1 H2].
    + rewrite <- app_assoc. exact Es.
    + apply NoDup_dset; [apply pair_eqb_eq|exact Hnd].
    + intros p n Hin. rewrite (pget_ixs_add _ _ _ _ Hn) in Hin. apply in_app_iff in Hin. rewrite app_length. cbn [length]. destruct Hin as [Hin|Hin].
      * specialize (Hlt _ _ Hin). lia.
      * destruct (pair_eqb (x, y) p); [|destruct Hin]. destruct Hin as [<-|[]]. lia.
    + rewrite app_length in H1, H2. cbn [length] in H1, H2. replace (length pre + 1)%nat with (S (length pre)) in H1, H2 by lia.
      split; [exact H1|]. intros p. rewrite (H2 p), (pget_ixs_add _ _ _ _ Hn), <- app_assoc. f_equal.
      replace (base + S (length pre))%nat with (S (base + length pre)) by lia.
      rewrite (tag_cons _ x). cbn [occ1]. rewrite map_app. f_equal. rewrite tag_cons. cbn [hd_error junc fst snd]. destruct (pair_eqb (x, y) p); reflexivity.
Qed.
Lemma index_uni s : forall u c, ucount c (fold_left (fun u v => dadd Z.eqb v 1 u) s u) = ucount c u + Z.of_nat (count_occ Z.eq_dec s c).
Proof.
  induction s as [|x s IH]; intros u c; cbn [fold_left count_occ]; [lia|]. rewrite IH, ucount_dadd.
  destruct (Z.eq_dec x c), (Z.eqb_spec c x); subst; try congruence; lia.
Qed.
Lemma symbol_count_snoc c s x : symbol_count (c ++ [(s, 1)]) x = symbol_count c x + Z.of_nat (count_occ Z.eq_dec s x).
Proof. unfold symbol_count. rewrite map_app, zsum_app. cbn [map fst snd]. rewrite zsum_cons. change (zsum []) with 0. lia. Qed.

Record indexed_lines (c : corpus) (ts : tstate) : Prop := MkIL {
  il_nodes : fresh_store (tk_nodes ts) c;
  il_data : length (tk_data ts) = total c;
  il_placed : placed (tk_data ts) (segs_from 0 c);
  il_uni : forall x, ucount x (tk_uni ts) = symbol_count c x;
  il_ixs : forall p, pget p (tk_ixs ts) = map fst (occ (segs_from 0 c) p);
  il_nd : NoDup (dkeys (tk_ixs ts));
  il_lens : tk_lens ts = lengths c }.
Lemma segs_from_length b c : length (segs_from b c) = length c.
Proof. revert b. induction c as [|[s f] c IH]; intros b; [reflexivity|]. cbn [segs_from length]. rewrite IH. reflexivity. Qed.
Lemma index_line_ok c ts s : indexed_lines c ts -> indexed_lines (c ++ [(s, 1)]) (index_line ts (Z.of_nat (length c), s)).
Proof.
  intros [H1 H2 H3 H4 H5 H6 H7]. assert (Hl : length (tk_nodes ts) = total c) by apply H1.
  assert (Hlt : forall p n, In n (pget p (tk_ixs ts)) -> (n < total c)%nat).
  { intros p n Hin. rewrite H5 in Hin. apply occ_incl in Hin. rewrite ids_segs_from in Hin. apply in_seq in Hin. lia. }
  constructor; cbn [index_line tk_nodes tk_data tk_uni tk_ixs tk_lens].
  - apply fresh_snoc, H1.
  - rewrite app_length, repeat_length, total_app, total_cons, H2. cbn. lia.
  - intros i sg n Hi Hn. rewrite segs_from_app in Hi. cbn [segs_from Nat.add] in Hi.
    destruct (Nat.lt_ge_cases i (length c)) as [L|L].
    + rewrite nth_error_app1 in Hi by (rewrite segs_from_length; exact L). pose proof (H3 i sg n Hi Hn) as E.
      rewrite nth_error_app1; [exact E|]. apply nth_error_Some. congruence.
    + rewrite nth_error_app2 in Hi by (rewrite segs_from_length; exact L). rewrite segs_from_length in Hi.
      destruct (i - length c)%nat as [|j] eqn:Ei; [|destruct j; discriminate Hi]. cbn [nth_error] in Hi. injection Hi as <-.
      cbn [fst] in Hn. rewrite tag_fst in Hn. apply in_seq in Hn. rewrite nth_error_app2 by lia.
      rewrite Nat2Z.id. replace i with (length c) by lia. apply nth_error_repeat. lia.
  - intros x. rewrite index_uni, H4, symbol_count_snoc. reflexivity.
  - intros p. rewrite segs_from_app, occ_app, map_app. cbn [segs_from Nat.add occ flat_map fst snd]. rewrite app_nil_r, <- H5, <- Hl.
    destruct s as [|x s]; [cbn; rewrite app_nil_r; reflexivity|]. cbn [length]. replace (S (length s) - 1)%nat with (length s) by lia.
    destruct (index_ixs (length (tk_nodes ts)) (x :: s) s [] x (tk_ixs ts) eq_refl H6) as [_ H].
    { intros q n Hin. cbn [length]. specialize (Hlt q n Hin). lia. }
    cbn [length] in H. rewrite Nat.add_0_r in H. apply H.
  - destruct s as [|x s]; [exact H6|]. cbn [length]. replace (S (length s) - 1)%nat with (length s) by lia.
    destruct (index_ixs (length (tk_nodes ts)) (x :: s) s [] x (tk_ixs ts) eq_refl H6) as [H _]; [|exact H].
    intros q n Hin. cbn [length]. specialize (Hlt q n Hin). lia.
  - rewrite H7. unfold lengths. rewrite map_app. reflexivity.
Qed.
Lemma index_lines_ok seqs : forall c ts, indexed_lines c ts ->
  indexed_lines (c ++ once seqs) (fold_left index_line (enum_from (Z.of_nat (length c)) seqs) ts).
Proof.
  induction seqs as [|s seqs IH]; intros c ts H; cbn [once map enum_from fold_left].
  - rewrite app_nil_r. exact H.
  - pose proof (IH (c ++ [(s, 1)]) _ (index_line_ok c ts s H)) as H'. rewrite <- app_assoc in H'. cbn [app] in H'.
    rewrite app_length in H'. cbn [length] in H'. replace (Z.of_nat (length c + 1)) with (Z.of_nat (length c) + 1) in H' by lia. exact H'.
Qed.
Lemma once_positive seqs : positive (once seqs).
Proof. intros s f H. unfold once in H. apply in_map_iff in H. destruct H as (s' & [= <- <-] & _). lia. Qed.
Lemma seg_lens_lengths b c : seg_lens (segs_from b c) = lengths c.
Proof.
  revert b. induction c as [|[s f] c IH]; intros b; [reflexivity|]. cbn [segs_from seg_lens lengths map fst]. f_equal; [|apply IH].
  rewrite <- (map_length fst (tag b s)), tag_fst, seq_length. reflexivity.
Qed.
Lemma seg_lens_corpus segs : seg_lens segs = lengths (corpus_of segs).
Proof. unfold seg_lens, lengths, corpus_of. rewrite map_map. apply map_ext. intros [s f]. cbn [fst]. rewrite map_length. reflexivity. Qed.
Lemma index_tracked k seqs : symbols_below k (once seqs) ->
  exists ts, track_index (seqs, None) = Ok ts /\ tracked (tk_data ts) k (fun _ => 0) (segs_from 0 (once seqs)) ts.
Proof.
  intros Hs. eexists. split; [reflexivity|]. cbn [snd fst].
  assert (H0 : indexed_lines [] (MkTS [] [] [] [] [])).
  { constructor; cbn; try reflexivity; try constructor; try reflexivity.
    - intros s f [].
    - intros i sg n H. destruct i; discriminate. }
  pose proof (index_lines_ok seqs [] _ H0) as H. cbn [app length] in H. change (Z.of_nat 0) with 0 in H.
  change (enum_from 0 seqs) with (enumerate seqs) in H.
  set (ts := fold_left index_line (enumerate seqs) (MkTS [] [] [] [] [])) in *. destruct H as [H1 H2 H3 H4 H5 H6 H7].
  constructor; try reflexivity.
  - exists (tk_uni ts). constructor.
    + apply fresh_wf, H1.
    + intros p. rewrite H5. reflexivity.
    + exact H6.
    + intros c. rewrite H4, corpus_of_segs_from. reflexivity.
    + rewrite corpus_of_segs_from. apply once_positive.
    + rewrite corpus_of_segs_from. exact Hs.
  - rewrite H7, seg_lens_lengths. reflexivity.
  - exact H3.
  - intros c. rewrite H4, corpus_of_segs_from. lia.
Qed.

(** ** The rows *)
Definition row_ok (k : nat) (err : Z -> Z) (c : corpus) (rw : row) : Prop :=
  r_types rw = Z.of_nat k /\ r_lens rw = lengths c /\
  r_counts rw = map (fun i => symbol_count c (Z.of_nat i) - err (Z.of_nat i)) (List.seq 0 k) /\
  earth_mov_dist (r_counts rw) = Ok (r_emd rw) /\ r_mean rw = mean_seq_len (r_lens rw).
Lemma measure_ok data k err segs ts : (0 < k)%nat -> tracked data (Z.of_nat k) err segs ts ->
  exists rw, measure k ts = Ok rw /\ row_ok k err (corpus_of segs) rw.
Proof.
  intros Hk [_ _ Tl _ Tu _]. unfold measure.
  set (counts := map (fun i => ucount (Z.of_nat i) (tk_uni ts)) (List.seq 0 k)).
  assert (He : exists e, earth_mov_dist counts = Ok e).
  { assert (length counts = k) by (unfold counts; rewrite map_length, seq_length; reflexivity).
    destruct counts as [|z l] eqn:E; [cbn in *; lia|]. unfold earth_mov_dist. rewrite <- E. destruct (zsum counts =? 0); eexists; reflexivity. }
  destruct He as (e & He). rewrite He. cbn [bind]. eexists. split; [reflexivity|].
  unfold row_ok. cbn [r_types r_lens r_counts r_emd r_mean]. split; [reflexivity|]. split; [rewrite Tl; apply seg_lens_corpus|].
  split; [|split; [exact He|reflexivity]]. unfold counts. apply map_ext. intros i. apply Tu.
Qed.

Fixpoint rows_ok (k : nat) (err : Z -> Z) (ps : list (Z * Z)) (cs : list corpus) (rows : list row) {struct rows} : Prop :=
  match rows, cs with
  | [rw], [c] => row_ok k err c rw /\ ps = []
  | rw :: rows', c :: ((c' :: _) as cs') =>
      row_ok k err c rw /\
      match ps with
      | (a, b) :: ps' => rows_ok (S k) (fun x => err x + (if (a =? b) && (b =? x) then 2 * (pair_count c (a, b) - symbol_count c' (Z.of_nat k)) else 0)) ps' cs' rows'
      | [] => False
      end
  | _, _ => False
  end.
Lemma track_loop_ok orders data : iteration_orders orders -> forall ts ps i k err segs st, (0 < k)%nat -> tracked data (Z.of_nat k) err segs st ->
  merge_list (Z.of_nat k) ts ps ->
  exists rows cs, track_loop orders i k ts st = Ok rows /\ merging (Z.of_nat k) (corpus_of segs) ps cs /\ rows_ok k err ps cs rows.
Proof.
  intros Ho. induction ts as [|t ts IH]; intros [|[a b] ps] i k err segs st Hk Ht Hm; cbn [merge_list] in Hm; try contradiction;
    destruct (measure_ok data k err segs st Hk Ht) as (rw & E & Hrw); cbn [track_loop]; rewrite E; cbn [bind].
  - exists [rw], [corpus_of segs]. split; [reflexivity|]. split; [constructor|]. cbn [rows_ok]. auto.
  - destruct Hm as (H & (ta & tb & Ek & Ea & Eb) & Ha & Hb & Hm).
    rewrite H, Z.eqb_refl. cbn [assert_ bind].
    destruct (track_merge_ok (orders i) data (Z.of_nat k) err segs st t ta tb a b (Ho i) Ht H Ek Ea Eb (conj Ha Hb)) as (st' & segs' & E' & Hmc & Ht').
    rewrite E'. cbn [bind]. replace (Z.of_nat k + 1) with (Z.of_nat (S k)) in * by lia.
    destruct (IH ps (S i) (S k) _ segs' st' ltac:(lia) Ht' Hm) as (rows & cs & E2 & Hmg & Hrs).
    rewrite E2. cbn [bind]. exists (rw :: rows), (corpus_of segs :: cs). split; [reflexivity|]. split.
    + econstructor; [exact Hmc|]. replace (Z.of_nat k + 1) with (Z.of_nat (S k)) by lia. exact Hmg.
    + assert (Hcs : exists cs', cs = corpus_of segs' :: cs') by (inversion Hmg; eauto). destruct Hcs as (cs' & ->).
      cbn [rows_ok]. destruct rows as [|rw1 rows]; [destruct Hrs|]. split; assumption.
Qed.

Lemma rows_nth : forall rows k err ps cs, rows_ok k err ps cs rows -> length rows = S (length ps) /\ length cs = S (length ps) /\
  forall j rw c, nth_error rows j = Some rw -> nth_error cs j = Some c ->
    row_ok (k + j) (fun x => err x + drift x (Z.of_nat k) ps cs j) c rw.
Proof.
  induction rows as [|rw rows IH]; intros k err ps cs H; [destruct H|]. destruct cs as [|c cs]; [destruct rows; destruct H|].
  assert (Hext : forall k e1 e2 c rw, (forall x, e1 x = e2 x) -> row_ok k e1 c rw -> row_ok k e2 c rw).
  { intros k0 e1 e2 c0 rw0 He (R1 & R2 & R3 & R4 & R5). unfold row_ok. repeat (split; try assumption). rewrite R3. apply map_ext. intros i. rewrite He. reflexivity. }
  destruct cs as [|c' cs].
  - destruct rows as [|? ?]; [|destruct H]. cbn [rows_ok] in H. destruct H as [H ->]. split; [reflexivity|]. split; [reflexivity|].
    intros [|j] rw' c0 E1 E2; [|destruct j; discriminate E1]. injection E1 as <-. injection E2 as <-. rewrite Nat.add_0_r.
    eapply Hext; [|exact H]. intros x. cbn. lia.
  - assert (H' : row_ok k err c rw /\ match ps with (a, b) :: ps' => rows_ok (S k) (fun x => err x + (if (a =? b) && (b =? x) then 2 * (pair_count c (a, b) - symbol_count c' (Z.of_nat k)) else 0)) ps' (c' :: cs) rows | [] => False end)
      by (destruct rows; [destruct H as [H H2]; split; [exact H|exact H2]|exact H]). clear H. destruct H' as [H1 H2].
    destruct ps as [|[a b] ps]; [destruct H2|]. destruct (IH _ _ _ _ H2) as (L1 & L2 & Hn). cbn [length] in *.
    split; [lia|]. split; [lia|]. intros [|j] rw' c0 E1 E2; cbn [nth_error] in E1, E2.
    + injection E1 as <-. injection E2 as <-. rewrite Nat.add_0_r. eapply Hext; [|exact H1]. intros x. cbn. lia.
    + replace (k + S j)%nat with (S k + j)%nat by lia. eapply Hext; [|exact (Hn j rw' c0 E1 E2)].
      intros x. cbn [drift]. replace (Z.of_nat k + 1) with (Z.of_nat (S k)) by lia. lia.
Qed.

Theorem track_merges_ok orders k ts ps seqs : iteration_orders orders -> (0 < k)%nat -> merge_list (Z.of_nat k) ts ps ->
  symbols_below (Z.of_nat k) (once seqs) ->
  exists rows cs, track_merges orders k ts (seqs, None) = Ok rows /\ merging (Z.of_nat k) (once seqs) ps cs /\
    length rows = S (length ps) /\ length cs = S (length ps) /\
    forall j rw c, nth_error rows j = Some rw -> nth_error cs j = Some c ->
      row_ok (k + j) (fun x => drift x (Z.of_nat k) ps cs j) c rw.
Proof.
  intros Ho Hk Hm Hs. destruct (index_tracked (Z.of_nat k) seqs Hs) as (st & E & Ht).
  destruct (track_loop_ok orders _ Ho ts ps O k _ _ st Hk Ht Hm) as (rows & cs & E2 & Hmg & Hr).
  rewrite corpus_of_segs_from in Hmg. exists rows, cs. unfold track_merges. rewrite E. cbn [bind]. split; [exact E2|]. split; [exact Hmg|].
  destruct (rows_nth _ _ _ _ _ Hr) as (L1 & L2 & Hn). split; [exact L1|]. split; [exact L2|]. intros j rw c E1 E3.
  destruct (Hn j rw c E1 E3) as (R1 & R2 & R3 & R4 & R5). unfold row_ok. repeat (split; try assumption).
Qed.

(** ** Consequences *)
Lemma drift_no_doubles x ps : no_doubles ps -> forall k cs j, drift x k ps cs j = 0.
Proof.
  induction ps as [|[a b] ps IH]; intros H k cs [|j]; cbn [drift]; try reflexivity. destruct cs as [|c cs]; [reflexivity|].
  rewrite (proj2 (Z.eqb_neq a b) (H a b (or_introl eq_refl))). cbn [andb]. rewrite IH; [reflexivity|]. intros a' b' Hin. apply H. right. exact Hin.
Qed.

Lemma merging_hd k c ps cs : merging k c ps cs -> nth_error cs 0 = Some c.
Proof. intros H. inversion H; reflexivity. Qed.
Lemma merged_lengths a b r c c' : merged_corpus a b r c c' -> Forall2 Z.ge (lengths c) (lengths c').
Proof.
  intros H. unfold lengths. induction H as [|[s f] [s' f'] c c' [_ [Hr _]] _ IH]; cbn [map]; constructor; [|exact IH].
  cbn [fst] in *. apply replaced_length in Hr. lia.
Qed.
Lemma merging_lengths k c ps cs : merging k c ps cs -> forall i j ci cj, (i <= j)%nat -> nth_error cs i = Some ci -> nth_error cs j = Some cj ->
  Forall2 Z.ge (lengths ci) (lengths cj).
Proof.
  assert (Hrefl : forall l, Forall2 Z.ge l l) by (induction l; constructor; [lia|assumption]).
  assert (Htrans : forall l1 l2, Forall2 Z.ge l1 l2 -> forall l3, Forall2 Z.ge l2 l3 -> Forall2 Z.ge l1 l3).
  { intros l1 l2 H. induction H; intros l3 H3; inversion H3; subst; constructor; [lia|]. auto. }
  induction 1 as [k c|k c a b ps c' cs Hm H IH]; intros i j ci cj Hij Ei Ej.
  - destruct i as [|i]; [|destruct i; discriminate Ei]. destruct j as [|j]; [|destruct j; discriminate Ej]. cbn in *. injection Ei as <-. injection Ej as <-. apply Hrefl.
  - destruct i as [|i], j as [|j]; cbn [nth_error] in *; try lia.
    + injection Ei as <-. injection Ej as <-. apply Hrefl.
    + injection Ei as <-. eapply Htrans; [eapply merged_lengths, Hm|]. apply (IH O j c' cj); [lia|eapply merging_hd, H|exact Ej].
    + apply (IH i j); [lia|exact Ei|exact Ej].
Qed.
Lemma ge_sums l l' : Forall2 Z.ge l l' -> zsum l' <= zsum l /\ length l = length l'.
Proof. induction 1 as [|x y l l' H _ [IH1 IH2]]; [split; [reflexivity|reflexivity]|]. rewrite !zsum_cons. cbn [length]. split; lia. Qed.
Lemma average_mono l l' : l <> [] -> Forall2 Z.ge l l' -> (average l' <= average l)%Q.
Proof.
  intros Hne H. apply ge_sums in H. destruct H as [H1 H2]. unfold average. rewrite <- H2.
  apply Qmult_le_compat_r; [rewrite <- Zle_Qle; exact H1|]. apply Qinv_le_0_compat. rewrite <- (Zle_Qle 0). lia.
Qed.

Lemma emd_simple stats e : earth_mov_dist stats = Ok e -> exists e', EMD_simple stats 1 = Ok e' /\
  match e, e' with Some q, Some q' => (q == q')%Q | None, None => True | _, _ => False end.
Proof.
  unfold earth_mov_dist, EMD_simple. destruct stats as [|z l]; [discriminate|].
  change (negb (Qle_bool 1 0)) with true. cbn [assert_ bind]. cbv zeta.
  destruct (zsum (z :: l) =? 0); intros [= <-]; eexists; (split; [reflexivity|]); [exact I|].
  cbv beta iota. rewrite Qmult_1_r. reflexivity.
Qed.
Lemma true_counts_nonneg k c : positive c -> Forall (fun z => 0 <= z) (true_counts k c).
Proof. intros H. unfold true_counts. apply Forall_map, Forall_forall. intros i _. apply symbol_count_nonneg, H. Qed.
Lemma zsum_Forall_nonneg l : Forall (fun z => 0 <= z) l -> 0 <= zsum l.
Proof. intros H. apply zsum_nonneg. apply Forall_forall, H. Qed.
Lemma merging_positive k c ps cs : merging k c ps cs -> positive c -> forall j cj, nth_error cs j = Some cj -> positive cj.
Proof.
  induction 1 as [k c|k c a b ps c' cs Hm H IH]; intros Hp j cj Ej.
  - destruct j as [|j]; [|destruct j; discriminate Ej]. injection Ej as <-. exact Hp.
  - destruct j as [|j]; [injection Ej as <-; exact Hp|]. apply (IH) with (j := j); [|exact Ej]. clear - Hm Hp.
    induction Hm as [|[s f] [s' f'] c c' [E _] _ IH]; intros t g Hin; [destruct Hin|]. cbn [snd] in E. destruct Hin as [Hin|Hin].
    + injection Hin as -> ->. subst g. apply (Hp s f). left. reflexivity.
    + apply (IH (fun u h Hu => Hp u h (or_intror Hu)) t g Hin).
Qed.
Lemma emd_counts stats e : Forall (fun z => 0 <= z) stats -> earth_mov_dist stats = Ok e ->
  match e with Some q => (q == emd_of stats)%Q | None => zsum stats = 0 end.
Proof.
  intros Hn H. destruct (emd_simple stats e H) as (e' & E' & Hee).
  destruct (Z.eq_dec (zsum stats) 0) as [Hz|Hz].
  - assert (e = None); [|subst; exact Hz]. unfold earth_mov_dist in H. destruct stats; [discriminate|]. rewrite (proj2 (Z.eqb_eq _ _) Hz) in H. congruence.
  - destruct (emd_eq_of stats) as (v & Ev & Hv); [pose proof (zsum_Forall_nonneg _ Hn); lia|].
    rewrite Ev in E'. injection E' as <-. destruct e as [q|]; [|destruct Hee]. rewrite Hee. exact Hv.
Qed.
Lemma mean_average l : l <> [] -> mean_seq_len l = Some (average l).
Proof. destruct l; [contradiction|reflexivity]. Qed.

(** determinism *)
Lemma merged_unique a b r c c1 c2 : a <> b -> merged_corpus a b r c c1 -> merged_corpus a b r c c2 -> c1 = c2.
Proof.
  intros Hab H1. revert c2. induction H1 as [|[s f] [s1 f1] c c1 [E1 M1] _ IH]; intros c2 H2; inversion H2 as [|x [s2 f2] l l' [E2 M2] H3]; subst; [reflexivity|].
  cbn [fst snd] in *. subst. rewrite (merged_replace_left _ _ _ _ _ Hab M1), (merged_replace_left _ _ _ _ _ Hab M2), (IH _ H3). reflexivity.
Qed.
Lemma merging_unique k c ps cs1 : merging k c ps cs1 -> no_doubles ps -> forall cs2, merging k c ps cs2 -> cs1 = cs2.
Proof.
  induction 1 as [k c|k c a b ps c' cs Hm H IH]; intros Hn cs2 H2; inversion H2; subst; [reflexivity|].
  assert (c'0 = c') by (eapply merged_unique; [|eassumption|eassumption]; apply Hn; left; reflexivity). subst.
  f_equal. apply IH; [|assumption]. intros a' b' Hin. apply Hn. right. exact Hin.
Qed.
Lemma row_unique k err c r1 r2 : row_ok k err c r1 -> row_ok k err c r2 -> r1 = r2.
Proof.
  intros (A1 & A2 & A3 & A4 & A5) (B1 & B2 & B3 & B4 & B5). destruct r1 as [t1 e1 m1 c1 l1], r2 as [t2 e2 m2 c2 l2]. cbn [r_types r_emd r_mean r_counts r_lens] in *.
  subst. assert (e1 = e2) by congruence. subst. reflexivity.
Qed.
Lemma track_deterministic o1 o2 k ts ps seqs : iteration_orders o1 -> iteration_orders o2 -> (0 < k)%nat -> merge_list (Z.of_nat k) ts ps ->
  symbols_below (Z.of_nat k) (once seqs) -> no_doubles ps ->
  track_merges o1 k ts (seqs, None) = track_merges o2 k ts (seqs, None).
Proof.
  intros H1 H2 Hk Hm Hs Hn.
  destruct (track_merges_ok o1 k ts ps seqs H1 Hk Hm Hs) as (r1 & cs1 & E1 & M1 & L1 & K1 & R1).
  destruct (track_merges_ok o2 k ts ps seqs H2 Hk Hm Hs) as (r2 & cs2 & E2 & M2 & L2 & K2 & R2).
  pose proof (merging_unique _ _ _ _ M1 Hn _ M2). subst cs2. rewrite E1, E2. f_equal. apply nth_error_ext. intros j.
  destruct (nth_error cs1 j) as [c|] eqn:Ec.
  - assert (Hj : (j < S (length ps))%nat) by (rewrite <- K1; apply nth_error_Some; congruence).
    destruct (nth_error r1 j) as [x|] eqn:X1; [|apply nth_error_None in X1; lia].
    destruct (nth_error r2 j) as [y|] eqn:X2; [|apply nth_error_None in X2; lia].
    f_equal. eapply row_unique; [exact (R1 j x c X1 Ec)|exact (R2 j y c X2 Ec)].
  - apply nth_error_None in Ec. rewrite (proj2 (nth_error_None r1 j)), (proj2 (nth_error_None r2 j)) by lia. reflexivity.
Qed.

(** ** From a vocabulary file *)
Lemma filter_firstn_skipn {A} (f : A -> bool) k l : (forall t, In t (firstn k l) -> f t = true) -> (forall t, In t (skipn k l) -> f t = false) ->
  filter f l = firstn k l.
Proof.
  intros H1 H2. rewrite <- (firstn_skipn k l) at 1. rewrite filter_app.
  assert (E1 : forall m, (forall t, In t m -> f t = true) -> filter f m = m).
  { induction m as [|x m IH]; intros H; [reflexivity|]. cbn [filter]. rewrite (H x (or_introl eq_refl)), IH; [reflexivity|]. intros t Ht. apply H. right. exact Ht. }
  assert (E2 : forall m, (forall t, In t m -> f t = false) -> filter f m = []).
  { induction m as [|x m IH]; intros H; [reflexivity|]. cbn [filter]. rewrite (H x (or_introl eq_refl)), IH; [reflexivity|]. intros t Ht. apply H. right. exact Ht. }
  rewrite (E1 _ H1), (E2 _ H2), app_nil_r. reflexivity.
Qed.
Lemma filter_skipn {A} (f : A -> bool) k l : (forall t, In t (firstn k l) -> f t = false) -> (forall t, In t (skipn k l) -> f t = true) ->
  filter f l = skipn k l.
Proof.
  intros H1 H2. rewrite <- (firstn_skipn k l) at 1. rewrite filter_app.
  assert (E1 : forall m, (forall t, In t m -> f t = true) -> filter f m = m).
  { induction m as [|x m IH]; intros H; [reflexivity|]. cbn [filter]. rewrite (H x (or_introl eq_refl)), IH; [reflexivity|]. intros t Ht. apply H. right. exact Ht. }
  assert (E2 : forall m, (forall t, In t m -> f t = false) -> filter f m = []).
  { induction m as [|x m IH]; intros H; [reflexivity|]. cbn [filter]. rewrite (H x (or_introl eq_refl)), IH; [reflexivity|]. intros t Ht. apply H. right. exact Ht. }
  rewrite (E1 _ H2), (E2 _ H1). reflexivity.
Qed.
Lemma merge_list_kids ts : forall k ps, merge_list k ts ps -> mapM two_kids ts = Ok (repeat tt (length ts)).
Proof.
  induction ts as [|t ts IH]; intros k [|[a b] ps] H; cbn [merge_list] in H; try contradiction; [reflexivity|].
  destruct H as (_ & (ta & tb & Ek & _) & _ & _ & H). cbn [mapM]. unfold two_kids at 1. rewrite Ek. cbn [length Nat.eqb assert_]. rewrite (IH _ _ H). reflexivity.
Qed.

Lemma codec_xt_file version now types meta k ps :
  scalars version -> scalars now -> meta_ok meta -> NoDup (map fst meta) -> ~ In (lit "max_level") (map fst meta) ->
  storable types -> starts_reserved types -> ~ has_name types [] -> (6 <= k)%nat -> bpe_layout k types ps ->
  exists bytes s, write_out version now types meta = (bytes, Ok tt) /\ make_scheme KBpe (firstn k types) = Ok s /\
    codec_xt bytes = Ok (s, skipn k types).
Proof.
  intros Hv Hn Hm Hnd Hml Hst Hr Hnm Hk (Hkl & Hl1 & Hl2 & Hmg).
  destruct (write_read_meta version now types meta Hv Hn Hm Hnd Hst) as (bytes & m & Ew & Er & _ & _ & _ & Hlev & _).
  destruct (Hlev Hml) as (z & Ez & (t & Ht & Etz) & Hmax).
  assert (Hz : z = 1).
  { assert (Hle : z <= 1).
    { subst z. rewrite <- (firstn_skipn k types) in Ht. apply in_app_iff in Ht. destruct Ht as [Ht|Ht]; [pose proof (Hl1 _ Ht); lia|rewrite (Hl2 _ Ht); lia]. }
    destruct (skipn k types) as [|u us] eqn:Es.
    { apply (f_equal (@length Typ)) in Es. rewrite skipn_length in Es. cbn in Es. lia. }
    assert (In u types). { rewrite <- (firstn_skipn k types), in_app_iff. right. rewrite Es. left. reflexivity. }
    pose proof (Hmax u H). rewrite (Hl2 u (or_introl eq_refl)) in H0. lia. }
  assert (Es : exists s, make_scheme KBpe (firstn k types) = Ok s).
  { eexists. apply make_bpe_inv. split; [|split; [|reflexivity]].
    - unfold starts_reserved in *. rewrite <- firstn_map, firstn_firstn. replace (Nat.min 6 k) with 6%nat by lia. exact Hr.
    - intros (u & Hu & E). apply Hnm. exists u. split; [|exact E]. rewrite <- (firstn_skipn k types), in_app_iff. left. exact Hu. }
  destruct Es as (s & Es). exists bytes, s. split; [exact Ew|]. split; [exact Es|].
  unfold codec_xt. rewrite Er. cbn [bind]. destruct m as [|e m]; [discriminate Ez|].
  unfold meta_level. rewrite Ez, Hz. cbn [bind assert_]. rewrite Z.eqb_refl. cbn [assert_ bind].
  rewrite (filter_skipn _ k types).
  2:{ intros u Hu. pose proof (Hl1 u Hu). rewrite Z.geb_leb. apply Z.leb_gt. exact H. }
  2:{ intros u Hu. rewrite (Hl2 u Hu). reflexivity. }
  rewrite (merge_list_kids _ _ _ Hmg). cbn [bind].
  rewrite (filter_firstn_skipn _ k types).
  2:{ intros u Hu. apply Z.ltb_lt. exact (Hl1 u Hu). }
  2:{ intros u Hu. rewrite (Hl2 u Hu). reflexivity. }
  rewrite Es. reflexivity.
Qed.

Lemma lengths_ne c : lengths c = [] <-> c = [].
Proof. unfold lengths. destruct c; cbn; split; congruence. Qed.
Lemma merging_ne k c ps cs : merging k c ps cs -> c <> [] -> forall j cj, nth_error cs j = Some cj -> cj <> [].
Proof.
  intros H Hc j cj Ej E. subst cj. pose proof (merging_lengths k c ps cs H O j c [] ltac:(lia) (merging_hd _ _ _ _ H) Ej) as Hl.
  apply ge_sums in Hl. destruct Hl as [_ Hl]. cbn in Hl. unfold lengths in Hl. rewrite map_length in Hl. destruct c; [contradiction|discriminate].
Qed.
Lemma once_ne seqs : seqs <> [] -> once seqs <> [].
Proof. destruct seqs; [contradiction|discriminate]. Qed.

Theorem lens_exact orders k ts ps seqs : iteration_orders orders -> (0 < k)%nat -> merge_list (Z.of_nat k) ts ps ->
  symbols_below (Z.of_nat k) (once seqs) ->
  exists rows cs, track_merges orders k ts (seqs, None) = Ok rows /\ merging (Z.of_nat k) (once seqs) ps cs /\
    length rows = S (length ps) /\ length cs = S (length ps) /\
    forall j rw c, nth_error rows j = Some rw -> nth_error cs j = Some c ->
      r_types rw = Z.of_nat (k + j) /\ r_lens rw = lengths c /\ (seqs <> [] -> r_mean rw = Some (average (lengths c))).
Proof.
  intros Ho Hk Hm Hs. destruct (track_merges_ok orders k ts ps seqs Ho Hk Hm Hs) as (rows & cs & E & M & L1 & L2 & R).
  exists rows, cs. repeat (split; [assumption|]). intros j rw c E1 E2. destruct (R j rw c E1 E2) as (A1 & A2 & _ & _ & A5).
  split; [exact A1|]. split; [exact A2|]. intros Hne. rewrite A5, A2. apply mean_average. intros H. apply lengths_ne in H.
  exact (merging_ne _ _ _ _ M (once_ne _ Hne) j c E2 H).
Qed.
Theorem mean_decreases orders k ts ps seqs rows : iteration_orders orders -> (0 < k)%nat -> merge_list (Z.of_nat k) ts ps ->
  symbols_below (Z.of_nat k) (once seqs) -> seqs <> [] -> track_merges orders k ts (seqs, None) = Ok rows ->
  forall i j ri rj, (i <= j)%nat -> nth_error rows i = Some ri -> nth_error rows j = Some rj ->
  exists mi mj, r_mean ri = Some mi /\ r_mean rj = Some mj /\ (mj <= mi)%Q.
Proof.
  intros Ho Hk Hm Hs Hne E i j ri rj Hij Ei Ej. destruct (lens_exact orders k ts ps seqs Ho Hk Hm Hs) as (rows' & cs & E' & M & L1 & L2 & R).
  rewrite E in E'. injection E' as <-.
  assert (Hc : forall n r, nth_error rows n = Some r -> exists c, nth_error cs n = Some c).
  { intros n r Hn. destruct (nth_error cs n) as [c|] eqn:Ec; [eauto|]. apply nth_error_None in Ec. assert (n < length rows)%nat by (apply nth_error_Some; congruence). lia. }
  destruct (Hc i ri Ei) as (ci & Eci). destruct (Hc j rj Ej) as (cj & Ecj).
  destruct (R i ri ci Ei Eci) as (_ & _ & A). destruct (R j rj cj Ej Ecj) as (_ & _ & B). specialize (A Hne). specialize (B Hne).
  do 2 eexists. split; [exact A|]. split; [exact B|]. apply average_mono.
  - intros H. apply lengths_ne in H. exact (merging_ne _ _ _ _ M (once_ne _ Hne) i ci Eci H).
  - eapply merging_lengths; eassumption.
Qed.
Theorem counts_drift orders k ts ps seqs : iteration_orders orders -> (0 < k)%nat -> merge_list (Z.of_nat k) ts ps ->
  symbols_below (Z.of_nat k) (once seqs) ->
  exists rows cs, track_merges orders k ts (seqs, None) = Ok rows /\ merging (Z.of_nat k) (once seqs) ps cs /\
    length rows = S (length ps) /\ length cs = S (length ps) /\
    forall j rw c, nth_error rows j = Some rw -> nth_error cs j = Some c ->
      length (r_counts rw) = (k + j)%nat /\
      forall x, (x < k + j)%nat -> nth_error (r_counts rw) x = Some (symbol_count c (Z.of_nat x) - drift (Z.of_nat x) (Z.of_nat k) ps cs j).
Proof.
  intros Ho Hk Hm Hs. destruct (track_merges_ok orders k ts ps seqs Ho Hk Hm Hs) as (rows & cs & E & M & L1 & L2 & R).
  exists rows, cs. repeat (split; [assumption|]). intros j rw c E1 E2. destruct (R j rw c E1 E2) as (_ & _ & A & _ & _). rewrite A.
  split; [rewrite map_length, seq_length; reflexivity|]. intros x Hx. rewrite nth_error_map, (nth_error_nth' _ O) by (rewrite seq_length; exact Hx).
  rewrite seq_nth by exact Hx. reflexivity.
Qed.
Theorem counts_exact orders k ts ps seqs : iteration_orders orders -> (0 < k)%nat -> merge_list (Z.of_nat k) ts ps ->
  symbols_below (Z.of_nat k) (once seqs) -> no_doubles ps ->
  exists rows cs, track_merges orders k ts (seqs, None) = Ok rows /\ merging (Z.of_nat k) (once seqs) ps cs /\
    length rows = S (length ps) /\ length cs = S (length ps) /\
    forall j rw c, nth_error rows j = Some rw -> nth_error cs j = Some c ->
      r_counts rw = true_counts (k + j) c /\
      match r_emd rw with Some e => (e == emd_of (true_counts (k + j) c))%Q | None => zsum (true_counts (k + j) c) = 0 end.
Proof.
  intros Ho Hk Hm Hs Hn. destruct (track_merges_ok orders k ts ps seqs Ho Hk Hm Hs) as (rows & cs & E & M & L1 & L2 & R).
  exists rows, cs. repeat (split; [assumption|]). intros j rw c E1 E2. destruct (R j rw c E1 E2) as (_ & _ & A & B & _).
  assert (Ec : r_counts rw = true_counts (k + j) c).
  { rewrite A. unfold true_counts. apply map_ext. intros i. rewrite (drift_no_doubles _ _ Hn). lia. }
  split; [exact Ec|]. rewrite Ec in B. apply emd_counts in B; [exact B|]. apply true_counts_nonneg.
  eapply merging_positive; [exact M|apply once_positive|exact E2].
Qed.

(** ** The whole tool *)
Theorem estimate_file orders n_cpus version now types meta k ps lines :
  scalars version -> scalars now -> meta_ok meta -> NoDup (map fst meta) -> ~ In (lit "max_level") (map fst meta) ->
  storable types -> starts_reserved types -> ~ has_name types [] -> (6 <= k)%nat -> bpe_layout k types ps ->
  iteration_orders orders -> 1 < n_cpus ->
  exists bytes s seqs, write_out version now types meta = (bytes, Ok tt) /\ make_scheme KBpe (firstn k types) = Ok s /\
    Forall2 (fun line ids => encode s line = Ok ids) lines seqs /\ symbols_below (Z.of_nat k) (once seqs) /\
    forall res, estimate_lens orders n_cpus bytes (lines, None) res -> res = track_merges orders k (skipn k types) (seqs, None).
Proof.
  intros Hv Hn Hm Hnd Hml Hst Hr Hnm Hk Hb Ho Hc.
  destruct (codec_xt_file version now types meta k ps Hv Hn Hm Hnd Hml Hst Hr Hnm Hk Hb) as (bytes & s & Ew & Es & Ex).
  assert (Hkl : (k < length types)%nat) by apply Hb.
  assert (Hw : well_indexed (firstn k types)).
  { intros n t E. apply (proj1 (proj2 Hst)). rewrite <- E. rewrite <- (firstn_skipn k types) at 1. rewrite nth_error_app1; [reflexivity|]. apply nth_error_Some. congruence. }
  assert (He : exists seqs, Forall2 (fun line ids => encode s line = Ok ids) lines seqs /\ symbols_below (Z.of_nat k) (once seqs)).
  { clear - Es Hw Hkl. induction lines as [|l lines (seqs & H1 & H2)].
    - exists []. split; [constructor|]. intros s0 f [].
    - destruct (encode_valid KBpe (firstn k types) s l (or_intror (or_intror (conj eq_refl Hw))) Es) as (ids & E & Hv).
      exists (ids :: seqs). split; [constructor; assumption|]. intros s0 f [Hin|Hin] x Hx; [|exact (H2 s0 f Hin x Hx)].
      injection Hin as <- <-. rewrite Forall_forall in Hv. specialize (Hv x Hx). unfold valid_id in Hv. rewrite firstn_length in Hv. lia. }
  destruct He as (seqs & He & Hsb). exists bytes, s, seqs. repeat (split; [assumption|]).
  intros res H. destruct H as [e H|s' buffer out H Hp]; rewrite Ex in H; [discriminate|]. injection H as <- <-.
  assert (Hs : (0 < N.to_nat 1000)%nat) by lia.
  assert (Eo : out = (seqs, None)).
  { unfold encode_parallel in Hp. rewrite (parallel_map_run (encode s) (lines, None) n_cpus _ out Hc Hs Hp). unfold seen_input. cbn [fst snd].
    rewrite (sequential_all (encode s) lines seqs None); [reflexivity|]. exact (proj2 (mapM_forall2 (encode s) lines seqs) He). }
  subst out. apply make_bpe_inv in Es. destruct Es as (_ & _ & ->). cbn [s_table]. rewrite firstn_length. replace (Nat.min k (length types)) with k by lia. reflexivity.
Qed.
