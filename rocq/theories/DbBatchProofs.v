(** Proofs about reading, iterating and batching a Db. *)
From Verif Require Import Py PyLemmas NumpyModel NumpyProofs DbModel DbSpec DbProofs PackLemmas.
From Coq Require Import Permutation Sorting.Sorted Lia.
Local Open Scope Z_scope.
Local Open Scope list_scope.

Lemma mapM_nth {A B} (f : A -> res B) l ys : length ys = length l ->
  (forall j x, nth_error l j = Some x -> exists y, nth_error ys j = Some y /\ f x = Ok y) -> mapM f l = Ok ys.
Proof.
  revert ys. induction l as [|x l IH]; intros [|y ys] Hl H; try discriminate Hl; [reflexivity|].
  destruct (H 0%nat x eq_refl) as (y' & E & Ef). injection E as <-. cbn [mapM]. rewrite Ef. cbn [bind].
  rewrite (IH ys); [reflexivity|cbn in Hl; lia|]. intros j z Hj. apply (H (S j) z Hj).
Qed.
Lemma mapM_forall2_ok {A B} (f : A -> res B) l ys : Forall2 (fun x y => f x = Ok y) l ys -> mapM f l = Ok ys.
Proof. induction 1 as [|x y l ys E _ IH]; [reflexivity|]. cbn [mapM]. rewrite E, IH. reflexivity. Qed.
Lemma dget_combine {V} names (fs : list V) j n f : NoDup names -> nth_error names j = Some n -> nth_error fs j = Some f -> dget str_eqb n (combine names fs) = Some f.
Proof.
  intros Hnd. revert fs j. induction Hnd as [|x names Hx Hnd IH]; intros fs [|j] Hn Hf; try discriminate Hn; destruct fs as [|g fs]; try discriminate Hf; cbn [combine dget].
  - cbn in Hn, Hf. injection Hn as ->. injection Hf as ->. rewrite (proj2 (str_eqb_eq n n) eq_refl). reflexivity.
  - cbn in Hn, Hf. destruct (str_eqb n x) eqn:E; [|eapply IH; eassumption]. apply str_eqb_eq in E. subst x. exfalso. apply Hx, (nth_error_In _ _ Hn).
Qed.
Lemma in_column j recs id cols : In (id, cols) recs -> In (id, nth j cols []) (column j recs).
Proof. intros H. apply (in_map (fun r : Z * list (list Z) => (fst r, nth j (snd r) []))) in H. exact H. Qed.

Section WithDb.
  Context (names : list str) (recs : list (Z * list (list Z))) (d : db).
  Hypothesis Hd : db_for names recs d.
  Hypothesis Hnames : NoDup names.
  Hypothesis Hids : NoDup (map fst recs).
  Hypothesis Hshape : well_shaped (length names) recs.

  Lemma cols_read id cols : columns_ok faithful (length names) recs -> In (id, cols) recs ->
    exists arrs, db_cols d id = Ok arrs /\ map a_vals arrs = cols.
  Proof.
    intros Hc Hin. destruct Hd as (Hn & _ & _ & fs & Hl & Hf & Hfs). unfold db_cols. rewrite Hn, Hf.
    assert (Hcell : forall j name, nth_error names j = Some name -> exists a,
      match dget str_eqb name (combine names fs) with Some f => get_item f id | None => Raise KeyError end = Ok a /\ a_vals a = nth j cols []).
    { intros j name Hj. destruct (Hfs j name Hj) as (f & Hfj & Hff). rewrite (dget_combine _ _ _ _ _ Hnames Hj Hfj).
      assert (Hjl : (j < length names)%nat) by (apply nth_error_Some; congruence).
      assert (Hndc : NoDup (map fst (column j recs))) by (rewrite column_ids; exact Hids).
      destruct (field_get _ _ _ _ _ Hff Hndc (in_column j _ _ _ Hin)) as (_ & a & Ea & _ & Hh & Hfl & _). exists a. split; [exact Ea|].
      eapply faithful_exact; [exact (Hc j Hjl)| |exact Hh|exact Hfl]. intros v. apply in_all_values with (id := id), in_column, Hin. }
    destruct (mapM_total (fun fn => match dget str_eqb fn (combine names fs) with Some f => get_item f id | None => Raise KeyError end) names) as (arrs & E).
    { intros name Hname. apply In_nth_error in Hname. destruct Hname as (j & Hj). destruct (Hcell j name Hj) as (a & Ea & _). eauto. }
    exists arrs. split; [exact E|]. apply mapM_forall2 in E. pose proof (Forall2_length E) as Hlen. pose proof (Hshape _ Hin) as Hw. cbn [snd] in Hw.
    apply nth_error_ext2. intros j. rewrite nth_error_map. destruct (nth_error names j) as [name|] eqn:En.
    - destruct (Forall2_nth_l _ _ _ _ _ E En) as (a & Ha & Ea). destruct (Hcell j name En) as (a' & Ea' & Hv). rewrite Ea in Ea'. injection Ea' as <-.
      rewrite Ha. cbn [option_map]. rewrite Hv. symmetry. apply nth_error_nth'. rewrite Hw. apply nth_error_Some. congruence.
    - apply nth_error_None in En. rewrite (proj2 (nth_error_None arrs j)), (proj2 (nth_error_None cols j)) by lia. reflexivity.
  Qed.
  Lemma cols_unknown id : names <> [] -> ~ In id (map fst recs) -> db_cols d id = Raise KeyError.
  Proof.
    intros Hne Hid. destruct Hd as (Hn & _ & _ & fs & Hl & Hf & Hfs). unfold db_cols. rewrite Hn, Hf. destruct names as [|name names']; [contradiction|].
    cbn [mapM]. destruct (Hfs 0%nat name eq_refl) as (f & Hfj & Hff). rewrite (dget_combine _ _ 0%nat _ _ Hnames eq_refl Hfj).
    unfold get_item, ref_of. destruct Hff as (_ & -> & _). rewrite ids_dict_none; [reflexivity|]. rewrite column_ids. exact Hid.
  Qed.
  Lemma lens_read id cols : In (id, cols) recs -> mapM (fun nf : str * field => get_len (snd nf) id) (db_fields d) = Ok (map (fun c => Z.of_nat (length c)) cols).
  Proof.
    intros Hin. destruct Hd as (Hn & _ & _ & fs & Hl & Hf & Hfs). rewrite Hf. pose proof (Hshape _ Hin) as Hw. cbn [snd] in Hw. apply mapM_nth.
    - rewrite map_length, combine_length. lia.
    - intros j [name f] Hj. rewrite combine_nth_error in Hj. destruct (nth_error names j) as [name'|] eqn:En; [|discriminate]. destruct (nth_error fs j) as [f'|] eqn:Ef; [|discriminate].
      injection Hj as -> ->. destruct (Hfs j name En) as (f' & Hf' & Hff). rewrite Ef in Hf'. injection Hf' as <-.
      assert (Hjl : (j < length cols)%nat) by (rewrite Hw; apply nth_error_Some; congruence).
      exists (Z.of_nat (length (nth j cols []))). split; [rewrite nth_error_map, (nth_error_nth' _ [] Hjl); reflexivity|].
      assert (Hndc : NoDup (map fst (column j recs))) by (rewrite column_ids; exact Hids).
      apply (field_get _ _ _ _ _ Hff Hndc (in_column j _ _ _ Hin)).
  Qed.

  (** *** rec_type *)
  Lemma no_dup_names_spec l : no_dup_names l = true <-> NoDup l.
  Proof.
    induction l as [|x l IH]; [split; [constructor|reflexivity]|]. cbn [no_dup_names]. rewrite andb_true_iff, negb_true_iff, IH. split.
    - intros [H1 H2]. constructor; [|exact H2]. intros Hin. assert (existsb (str_eqb x) l = true) by (apply existsb_exists; exists x; split; [exact Hin|apply str_eqb_eq; reflexivity]). congruence.
    - intros H. inversion H as [|? ? Hx Hl]; subst. split; [|exact Hl]. destruct (existsb (str_eqb x) l) eqn:E; [|reflexivity]. apply existsb_exists in E. destruct E as (y & Hy & E). apply str_eqb_eq in E. subst y. contradiction.
  Qed.
  Lemma get_read id cols : NoDup ([105%N; 100%N] :: names) -> columns_ok faithful (length names) recs -> In (id, cols) recs ->
    exists r, db_get d id = Ok r /\ same_record (id, cols) r.
  Proof.
    intros Hnn Hc Hin. destruct (cols_read id cols Hc Hin) as (arrs & E & Hv). unfold db_get. rewrite E. cbn [bind]. unfold rec_type.
    destruct Hd as (-> & _). rewrite (proj2 (no_dup_names_spec _) Hnn). cbn [bind]. eexists. split; [reflexivity|]. split; [reflexivity|exact Hv].
  Qed.
  Lemma get_all recs' : NoDup ([105%N; 100%N] :: names) -> columns_ok faithful (length names) recs -> incl recs' recs ->
    exists out, mapM (db_get d) (map fst recs') = Ok out /\ Forall2 same_record recs' out.
  Proof.
    intros Hnn Hc. induction recs' as [|[id cols] recs' IH]; intros Hi; [exists []; split; [reflexivity|constructor]|].
    destruct IH as (out & E & Hout); [intros x Hx; apply Hi; right; exact Hx|]. destruct (get_read id cols Hnn Hc) as (r & Er & Hr); [apply Hi; left; reflexivity|].
    exists (r :: out). cbn [map mapM fst]. rewrite Er, E. split; [reflexivity|]. constructor; assumption.
  Qed.

  (** *** rows *)
  Definition usableb (r : Z * list (list Z)) : bool := forallb (fun c => negb (Nat.eqb (length c) 0)) (snd r).
  Lemma usableb_spec r : usableb r = true <-> usable r.
  Proof.
    unfold usableb, usable. rewrite forallb_forall. split; intros H c Hc; specialize (H c Hc); [intros ->; discriminate|]. destruct c; [contradiction|reflexivity].
  Qed.
  Definition row (r : Z * list (list Z)) : Z * Z := (fst r, longest r).
  Lemma fold_max_zero l : Forall (fun x => 0 <= x) l -> forall a, 0 <= a -> fold_left Z.max l a = Z.max a (fold_right Z.max 0 l).
  Proof.
    induction 1 as [|x l Hx _ IH]; intros a Ha; cbn [fold_left fold_right]; [lia|]. rewrite IH by lia. lia.
  Qed.
  Lemma longest_max r m : py_max (map (fun c => Z.of_nat (length c)) (snd r)) = Ok m -> m = longest r.
  Proof.
    unfold longest, py_max. destruct (snd r) as [|c l]; [discriminate|]. cbn [map fold_right]. intros [= <-]. apply fold_max_zero; [|lia].
    apply Forall_forall. intros x Hx. apply in_map_iff in Hx. destruct Hx as (y & <- & _). lia.
  Qed.
  Lemma min_usable r m : py_min (map (fun c => Z.of_nat (length c)) (snd r)) = Ok m -> (m <? 1) = negb (usableb r).
  Proof.
    intros H. apply py_min_spec in H. destruct H as [Hin Hle]. destruct (usableb r) eqn:E; cbn [negb].
    - apply Z.ltb_ge. apply in_map_iff in Hin. destruct Hin as (c & <- & Hc). pose proof (proj1 (usableb_spec r) E c Hc). destruct c; [contradiction|cbn [length]; lia].
    - apply Z.ltb_lt. destruct (Z.lt_ge_cases m 1) as [|Hge]; [assumption|]. exfalso. assert (usableb r = true); [|congruence]. apply usableb_spec. intros c Hc ->.
      specialize (Hle 0). cbn beta in Hle. assert (In 0 (map (fun c : list Z => Z.of_nat (length c)) (snd r))) by (apply in_map_iff; exists []; auto). specialize (Hle H). lia.
  Qed.
  Lemma rows_read recs' acc : names <> [] -> incl recs' recs ->
    foldM (fun rows id =>
           bind (mapM (fun nf : str * field => get_len (snd nf) id) (db_fields d)) (fun lens =>
           bind (py_min lens) (fun mn => bind (py_max lens) (fun mx =>
           if mn <? 1 then Ok rows else Ok (rows ++ [(id, mx)]))))) (map fst recs') acc = Ok (acc ++ map row (filter usableb recs')).
  Proof.
    intros Hne. revert acc. induction recs' as [|[id cols] recs' IH]; intros acc Hi; [cbn; rewrite app_nil_r; reflexivity|].
    cbn [map foldM fst]. rewrite (lens_read id cols) by (apply Hi; left; reflexivity). cbn [bind].
    assert (Hlen : length cols = length names) by (apply (Hshape (id, cols)), Hi; left; reflexivity).
    destruct (py_min (map (fun c => Z.of_nat (length c)) cols)) as [mn|] eqn:Emn; [|destruct cols; [destruct names; [contradiction|discriminate]|discriminate]].
    destruct (py_max (map (fun c => Z.of_nat (length c)) cols)) as [mx|] eqn:Emx; [|destruct cols; [destruct names; [contradiction|discriminate]|discriminate]].
    cbn [bind]. rewrite (min_usable (id, cols) mn Emn), (longest_max (id, cols) mx Emx). cbn [filter].
    destruct (usableb (id, cols)) eqn:Eu; cbn [negb bind].
    - rewrite IH by (intros x Hx; apply Hi; right; exact Hx). cbn [map]. rewrite <- app_assoc. reflexivity.
    - apply IH. intros x Hx. apply Hi. right. exact Hx.
  Qed.
End WithDb.

(** ** The batching loop on rows *)
Section Loop.
  Context (max_toks : Z) (max_sents : option Z).
  Hypothesis Hsents : match max_sents with Some m => 0 <= m | None => True end.
  Definition sized (g : list (Z * list (list Z))) : Prop := forall r, In r g -> 1 <= longest r.
  Lemma longest_of_app g r : longest_of (g ++ [r]) = Z.max (longest_of g) (longest r).
  Proof.
    unfold longest_of. rewrite map_app. induction g as [|x g IH]; cbn [map app fold_right]; [lia|]. cbn [map] in IH. rewrite IH. lia.
  Qed.
  Lemma over_sents_spec n : over_sents n max_sents = true <-> ~ at_most n max_sents.
  Proof. unfold over_sents, at_most. destruct max_sents; [rewrite Z.ltb_lt; lia|split; [discriminate|tauto]]. Qed.
  Lemma joins_iff g r : ((max_toks <? (Z.of_nat (length g) + 1) * Z.max (longest_of g) (longest r)) || over_sents (length g) max_sents) = true <-> ~ fits_eq_len max_toks max_sents g r.
  Proof.
    unfold fits_eq_len. rewrite orb_true_iff, Z.ltb_lt, over_sents_spec. unfold at_most. destruct max_sents; lia.
  Qed.
  (** the state of the loop: the closed batches and the open one *)
  Definition loop_state (done : list (Z * list (list Z))) (st : list (list Z) * list Z * Z) : Prop :=
    exists gs g, concat gs ++ g = done /\ st = (map (map fst) gs, map fst g, longest_of g) /\
      (g = [] -> gs = []) /\ (g <> [] -> greedy (fits_eq_len max_toks max_sents) (gs ++ [g])).
  Lemma longest_nonneg r : 0 <= longest r.
  Proof. unfold longest. destruct (snd r); cbn; lia. Qed.
  Lemma longest_of_nonneg g : 0 <= longest_of g.
  Proof. unfold longest_of. destruct g; cbn [map fold_right]; [lia|]. pose proof (longest_nonneg p). lia. Qed.
  Lemma step_ok done st r : loop_state done st -> 1 <= longest r -> longest r <= max_toks ->
    exists st', batch_step max_toks max_sents st (row r) = Ok st' /\ loop_state (done ++ [r]) st'.
  Proof.
    intros (gs & g & Hdone & -> & H0 & Hg) H1 Hle. unfold batch_step, row. rewrite (proj2 (Z.ltb_ge _ _) H1). rewrite map_length.
    destruct ((max_toks <? (Z.of_nat (length g) + 1) * Z.max (longest_of g) (longest r)) || over_sents (length g) max_sents) eqn:E.
    - pose proof (proj1 (joins_iff g r) E) as Hno. rewrite (proj2 (Z.ltb_ge _ _) Hle). cbn [bind].
      assert (Hne : g <> []).
      { intros ->. apply Hno. unfold fits_eq_len. cbn [length longest_of map fold_right]. split; [pose proof (longest_nonneg r); lia|]. unfold at_most. destruct max_sents; [cbn; lia|exact I]. }
      eexists. split; [reflexivity|]. exists (gs ++ [g]), [r]. split; [rewrite concat_app; cbn [concat]; rewrite app_nil_r, Hdone; reflexivity|].
      split; [rewrite map_app; cbn [map app longest_of fold_right]; unfold longest_of; cbn [map fold_right]; f_equal; pose proof (longest_nonneg r); lia|].
      split; [discriminate|]. intros _. apply greedy_new; [apply Hg, Hne|exact Hno].
    - cbn [bind]. eexists. split; [reflexivity|]. exists gs, (g ++ [r]). split; [rewrite app_assoc, Hdone; reflexivity|].
      split; [rewrite longest_of_app, map_app; reflexivity|]. split; [intros Hx; destruct g; discriminate|]. intros _.
      destruct g as [|x g]; [rewrite (H0 eq_refl); apply greedy_first|]. apply greedy_join; [apply Hg; discriminate|].
      destruct (Z.le_gt_cases ((Z.of_nat (length (x :: g)) + 1) * Z.max (longest_of (x :: g)) (longest r)) max_toks) as [Hl|Hl].
      + split; [exact Hl|]. apply orb_false_iff in E. destruct E as [_ E]. unfold over_sents in E. unfold at_most. destruct max_sents; [apply Z.ltb_ge in E; exact E|exact I].
      + exfalso. apply orb_false_iff in E. destruct E as [E _]. apply Z.ltb_ge in E. lia.
  Qed.
  Lemma steps_ok rs done st : loop_state done st -> Forall (fun r => 1 <= longest r <= max_toks) rs ->
    exists st', foldM (batch_step max_toks max_sents) (map row rs) st = Ok st' /\ loop_state (done ++ rs) st'.
  Proof.
    intros Hst H. revert done st Hst. induction H as [|r rs [H1 H2] _ IH]; intros done st Hst; [exists st; rewrite app_nil_r; split; [reflexivity|exact Hst]|].
    destruct (step_ok done st r Hst H1 H2) as (st' & E & Hst'). cbn [map foldM]. rewrite E. cbn [bind].
    destruct (IH (done ++ [r]) st' Hst') as (st2 & E2 & H3). exists st2. split; [exact E2|]. rewrite <- app_assoc in H3. exact H3.
  Qed.
  Lemma batch_ids_ok rs : Forall (fun r => 1 <= longest r <= max_toks) rs ->
    exists gs, batch_ids max_toks max_sents (map row rs) = Ok (map (map fst) gs) /\ concat gs = rs /\ greedy (fits_eq_len max_toks max_sents) gs.
  Proof.
    intros H. unfold batch_ids. destruct (steps_ok rs [] ([], [], 0)) as (st' & E & gs & g & Hdone & -> & H0 & Hg); [|exact H|].
    - exists [], []. split; [reflexivity|]. split; [reflexivity|]. split; [reflexivity|]. intros Hx. exfalso. apply Hx. reflexivity.
    - rewrite E. cbn [bind]. destruct g as [|x g].
      + rewrite (H0 eq_refl) in *. exists []. split; [reflexivity|]. split; [exact Hdone|]. apply greedy_nil.
      + exists (gs ++ [x :: g]). split; [rewrite map_app; reflexivity|]. split; [rewrite concat_app; cbn [concat]; rewrite app_nil_r; exact Hdone|]. apply Hg. discriminate.
  Qed.
  Lemma step_raise done st r : loop_state done st -> 1 <= longest r -> max_toks < longest r -> batch_step max_toks max_sents st (row r) = Raise OtherError.
  Proof.
    intros (gs & g & Hdone & -> & H0 & Hg) H1 Hlt. unfold batch_step, row. rewrite (proj2 (Z.ltb_ge _ _) H1). rewrite map_length.
    rewrite (proj2 (joins_iff g r)); [rewrite (proj2 (Z.ltb_lt _ _) Hlt); reflexivity|]. intros [Hf _]. nia.
  Qed.
  Lemma batch_ids_raise rs : Forall (fun r => 1 <= longest r) rs -> Exists (fun r => max_toks < longest r) rs -> batch_ids max_toks max_sents (map row rs) = Raise OtherError.
  Proof.
    intros H1 Hex. unfold batch_ids.
    assert (Hgen : forall done st, loop_state done st -> foldM (batch_step max_toks max_sents) (map row rs) st = Raise OtherError).
    { induction rs as [|r rs IH]; intros done st Hst; [inversion Hex|]. inversion H1 as [|? ? Hr Hrs]; subst. cbn [map foldM].
      destruct (Z.lt_ge_cases max_toks (longest r)) as [Hlt|Hge].
      - rewrite (step_raise done st r Hst Hr Hlt). reflexivity.
      - destruct (step_ok done st r Hst Hr Hge) as (st' & E & Hst'). rewrite E. cbn [bind]. apply IH with (done := done ++ [r]); [exact Hrs| |exact Hst'].
        inversion Hex; subst; [lia|assumption]. }
    rewrite (Hgen []); [reflexivity|]. exists [], []. split; [reflexivity|]. split; [reflexivity|]. split; [reflexivity|]. intros Hx. exfalso. apply Hx. reflexivity.
  Qed.
End Loop.

(** ** Whole databases *)
Lemma faithful_columns_range n recs : columns_ok faithful n recs -> columns_ok in_range n recs.
Proof. intros H j Hj. apply faithful_in_range, H, Hj. Qed.
Lemma no_id_names names : NoDup ([105%N; 100%N] :: names) -> NoDup names.
Proof. intros H. inversion H; assumption. Qed.
Lemma NoDup_ids_recs {B} (recs : list (Z * B)) : NoDup (map fst recs) -> NoDup recs.
Proof. apply NoDup_map_inv. Qed.
Lemma db_iter_ok names recs d order : db_for names recs d -> NoDup ([105%N; 100%N] :: names) -> well_shaped (length names) recs -> columns_ok faithful (length names) recs ->
  NoDup (map fst recs) -> Permutation order (db_ids d) ->
  exists out recs', mapM (db_get d) order = Ok out /\ Permutation recs recs' /\ Forall2 same_record recs' out.
Proof.
  intros Hd Hnn Hw Hc Hnd Hp. pose proof Hd as (_ & Hi & _). rewrite Hi in Hp. apply Permutation_map_inv in Hp. destruct Hp as (recs' & -> & Hp).
  destruct (get_all names recs d Hd (no_id_names _ Hnn) Hnd Hw recs' Hnn Hc) as (out & E & Ho); [intros x Hx; eapply Permutation_in; [apply Permutation_sym, Hp|exact Hx]|].
  exists out, recs'. auto.
Qed.
Theorem db_round_trip names recs : NoDup ([105%N; 100%N] :: names) -> names <> [] -> well_shaped (length names) recs ->
  columns_ok faithful (length names) recs -> columns_ok fits_memory (length names) recs -> recs <> [] -> NoDup (map fst recs) ->
  exists d, db_create names recs = Ok d /\ db_len d = Z.of_nat (length recs) /\ Permutation (db_ids d) (map fst recs) /\
    (forall r, In r recs -> exists got, db_get d (fst r) = Ok got /\ same_record r got) /\
    (forall id, ~ In id (map fst recs) -> db_get d id = Raise KeyError) /\
    (forall order, Permutation order (db_ids d) -> exists out recs', db_iter false order d = Ok out /\ Permutation recs recs' /\ Forall2 same_record recs' out).
Proof.
  intros Hnn Hne Hw Hc Hm Hr Hnd. pose proof (no_id_names _ Hnn) as Hnn'.
  destruct (proj1 (db_create_ok names recs Hnn' Hne Hw (faithful_columns_range _ _ Hc) Hm) (conj Hr Hnd)) as (d & E & Hd).
  exists d. split; [exact E|]. split; [apply Hd|]. split; [destruct Hd as (_ & -> & _); apply Permutation_refl|]. split; [|split].
  - intros [id cols] Hin. apply (get_read names recs d Hd Hnn' Hnd Hw id cols Hnn Hc Hin).
  - intros id Hid. unfold db_get. rewrite (cols_unknown names recs d Hd Hnn' Hw id Hne Hid). reflexivity.
  - intros order Hp. unfold db_iter. cbn [andb]. eapply db_iter_ok; eassumption.
Qed.
Lemma enumerate_ids {A} (l : list A) k : map fst (enum_from k l) = map (fun i => k + Z.of_nat i) (seq 0 (length l)).
Proof.
  revert k. induction l as [|x l IH]; intros k; [reflexivity|]. cbn [enum_from map length seq fst]. f_equal; [lia|]. rewrite IH, <- seq_shift, map_map. apply map_ext. intros; lia.
Qed.
Lemma enumerate_NoDup {A} (l : list A) k : NoDup (map fst (enum_from k l)).
Proof. rewrite enumerate_ids. apply FinFun.Injective_map_NoDup; [intros x y; lia|apply seq_NoDup]. Qed.
Theorem db_refused names recs : NoDup names -> names <> [] -> well_shaped (length names) recs ->
  columns_ok in_range (length names) recs -> columns_ok fits_memory (length names) recs ->
  ((exists d, db_create names recs = Ok d) <-> recs <> [] /\ NoDup (map fst recs)) /\
  (recs = [] \/ ~ NoDup (map fst recs) -> db_create names recs = Raise AssertionError).
Proof.
  intros Hnn Hne Hw Hc Hm. destruct (db_create_ok names recs Hnn Hne Hw Hc Hm) as [H1 H2]. split.
  - split; [|intros H; destruct (H1 H) as (d & E & _); eauto]. intros (d & E). destruct (NoDup_dec_Z (map fst recs)) as [Hnd|Hnd].
    + destruct recs as [|r recs]; [rewrite H2 in E; [discriminate|intros [H _]; apply H; reflexivity]|split; [discriminate|exact Hnd]].
    + rewrite H2 in E; [discriminate|]. tauto.
  - intros H. apply H2. intros [Ha Hb]. tauto.
Qed.
Theorem db_shuffle_small names recs d order : db_create names recs = Ok d -> NoDup ([105%N; 100%N] :: names) -> names <> [] -> well_shaped (length names) recs ->
  columns_ok faithful (length names) recs -> columns_ok fits_memory (length names) recs -> Permutation order (db_ids d) ->
  (length recs = 1%nat -> exists out, db_iter true order d = Ok out /\ Forall2 same_record recs out) /\
  ((2 <= length recs)%nat -> db_iter true order d = Raise TypeError).
Proof.
  intros E Hnn Hne Hw Hc Hm Hp. pose proof (no_id_names _ Hnn) as Hnn'.
  destruct (db_refused names recs Hnn' Hne Hw (faithful_columns_range _ _ Hc) Hm) as [[Hok _] _]. destruct Hok as [Hr Hnd]; [eauto|].
  destruct (proj1 (db_create_ok names recs Hnn' Hne Hw (faithful_columns_range _ _ Hc) Hm) (conj Hr Hnd)) as (d' & E' & Hd). rewrite E in E'. injection E' as <-.
  assert (Hl : length order = length recs) by (rewrite (Permutation_length Hp); destruct Hd as (_ & -> & _); apply map_length).
  unfold db_iter. rewrite Hl. split.
  - intros H1. rewrite H1. cbn [andb Nat.leb]. destruct (db_iter_ok names recs d order Hd Hnn Hw Hc Hnd Hp) as (out & recs' & Eo & Hp' & Ho). exists out. split; [exact Eo|].
    destruct recs as [|r [|r2 recs]]; try discriminate H1. apply Permutation_length_1_inv in Hp'. subst recs'. exact Ho.
  - intros H2. assert (Hx : Nat.leb 2 (length recs) = true) by (apply Nat.leb_le; exact H2). rewrite Hx. reflexivity.
Qed.

(** ** Equal-length batches *)
Lemma StronglySorted_map_inv {A B} (f : A -> B) (R : B -> B -> Prop) l : StronglySorted R (map f l) -> StronglySorted (fun a b => R (f a) (f b)) l.
Proof.
  induction l as [|x l IH]; intros H; [constructor|]. inversion H as [|? ? Hs Hf]; subst. constructor; [apply IH, Hs|]. rewrite Forall_map in Hf. exact Hf.
Qed.
Lemma usable_longest n r : n <> 0%nat -> length (snd r) = n -> usable r -> 1 <= longest r.
Proof.
  intros Hn Hl Hu. unfold longest, usable in *. destruct (snd r) as [|c l]; [cbn in Hl; congruence|]. cbn [map fold_right]. specialize (Hu c (or_introl eq_refl)). destruct c; [contradiction|cbn [length]; lia].
Qed.
Lemma forall2_map_l {A B C} (f : A -> B) (P : B -> C -> Prop) l l' : Forall2 (fun a => P (f a)) l l' -> Forall2 P (map f l) l'.
Proof. induction 1; cbn; constructor; auto. Qed.
Lemma eq_len_ids names recs d max_toks max_sents order arranged :
  db_for names recs d -> NoDup names -> names <> [] -> well_shaped (length names) recs -> NoDup (map fst recs) -> Permutation order (db_ids d) ->
  arranges arranged -> match max_sents with Some m => 0 <= m | None => True end ->
  ((forall r, In r recs -> ~ usable r) -> eq_len_batch_ids d max_toks max_sents order arranged = Raise IndexError) /\
  ((exists r, In r recs /\ usable r /\ max_toks < longest r) -> eq_len_batch_ids d max_toks max_sents order arranged = Raise OtherError) /\
  ((exists r, In r recs /\ usable r) -> (forall r, In r recs -> usable r -> longest r <= max_toks) ->
   exists batches, eq_len_batch_ids d max_toks max_sents order arranged = Ok (map (map fst) batches) /\ batches <> [] /\
     greedy (fits_eq_len max_toks max_sents) batches /\ StronglySorted (fun a b => longest a <= longest b) (concat batches) /\
     NoDup (concat batches) /\ (forall r, In r (concat batches) <-> In r recs /\ usable r)).
Proof.
  intros Hd Hnn' Hne Hw Hnd Hp Harr Hms.
  pose proof Hd as (_ & Hids & _). rewrite Hids in Hp. apply Permutation_map_inv in Hp. destruct Hp as (recs' & -> & Hp).
  assert (Hincl : incl recs' recs) by (intros x Hx; eapply Permutation_in; [apply Permutation_sym, Hp|exact Hx]).
  unfold eq_len_batch_ids, len_rows. rewrite (rows_read names recs d Hd Hnn' Hnd Hw recs' [] Hne Hincl). cbn [app bind].
  assert (Hin : forall r, In r (filter usableb recs') <-> In r recs /\ usable r).
  { intros r. rewrite filter_In, usableb_spec. split; intros [H1 H2]; (split; [|exact H2]); [apply Hincl, H1|eapply Permutation_in; [exact Hp|exact H1]]. }
  destruct (Harr (map row (filter usableb recs'))) as [Ha Hs]. apply Permutation_sym, Permutation_map_inv in Ha. destruct Ha as (arr & Earr & Ha).
  assert (Hin' : forall r, In r arr <-> In r recs /\ usable r).
  { intros r. rewrite <- Hin. split; apply Permutation_in; [apply Permutation_sym|]; exact Ha. }
  assert (Hlong : forall r, In r recs -> usable r -> 1 <= longest r).
  { intros r H1 H2. apply (usable_longest (length names) r); [destruct names; [contradiction|discriminate]|apply Hw, H1|exact H2]. }
  destruct (map row (filter usableb recs')) as [|row0 rows] eqn:Erows.
  - assert (Hno : forall r, In r recs -> ~ usable r).
    { intros r H1 H2. assert (Hx : In r (filter usableb recs')) by (apply Hin; split; assumption). destruct (filter usableb recs'); [destruct Hx|discriminate]. }
    split; [reflexivity|]. split; [intros (r & H1 & H2 & _)|intros (r & H1 & H2)]; exfalso; apply (Hno r H1 H2).
  - rewrite <- Erows in *. rewrite Earr.
    assert (Hex : exists r, In r recs /\ usable r).
    { destruct (filter usableb recs') as [|r0 fr] eqn:Ef; [discriminate|]. exists r0. apply Hin. left. reflexivity. }
    split; [intros Hno; exfalso; destruct Hex as (r & H1 & H2); apply (Hno r H1 H2)|]. split.
    + intros (r & H1 & H2 & H3). apply (batch_ids_raise max_toks max_sents Hms arr).
      * apply Forall_forall. intros x Hx. apply Hin' in Hx. apply Hlong; tauto.
      * apply Exists_exists. exists r. split; [apply Hin'; auto|exact H3].
    + intros _ Hle. destruct (batch_ids_ok max_toks max_sents Hms arr) as (gs & Eb & Hcat & Hg).
      { apply Forall_forall. intros x Hx. apply Hin' in Hx. destruct Hx as [H1 H2]. split; [apply Hlong|apply Hle]; assumption. }
      exists gs. split; [exact Eb|]. split; [intros ->; cbn in Hcat; subst arr; destruct Hex as (r & H1 & H2); apply (proj2 (Hin' r)); auto|].
      split; [exact Hg|]. rewrite Hcat. split; [|split; [|exact Hin']].
      * rewrite Earr in Hs. apply StronglySorted_map_inv in Hs. exact Hs.
      * eapply Permutation_NoDup; [exact Ha|]. apply NoDup_filter. eapply Permutation_NoDup; [exact Hp|]. apply NoDup_ids_recs, Hnd.
Qed.
(** reading the records of shuffled batches *)
Lemma read_shuffled {A} (read : Z -> res A) (same : Z * list (list Z) -> A -> Prop) recs gs shuffled :
  (forall r, In r recs -> exists a, read (fst r) = Ok a /\ same r a) -> (forall g r, In g gs -> In r g -> In r recs) -> (forall l : list (list Z), Permutation l (shuffled l)) ->
  exists groups out, mapM (mapM read) (shuffled (map (map fst) gs)) = Ok out /\ Permutation gs groups /\ Forall2 (Forall2 same) groups out.
Proof.
  intros Hread Hin Hsh. destruct (Permutation_map_inv (map fst) gs (Permutation_sym (Hsh (map (map fst) gs)))) as (groups & Esh & Hpg). rewrite Esh.
  assert (Hg1 : forall g, incl g recs -> exists o, mapM read (map fst g) = Ok o /\ Forall2 same g o).
  { induction g as [|r g IH]; intros Hi; [exists []; split; [reflexivity|constructor]|]. destruct IH as (o & Eo & Ho); [intros x Hx; apply Hi; right; exact Hx|].
    destruct (Hread r) as (a & Ea & Ha); [apply Hi; left; reflexivity|]. exists (a :: o). cbn [map mapM]. rewrite Ea, Eo. split; [reflexivity|]. constructor; assumption. }
  assert (Hout : forall l, (forall g, In g l -> incl g recs) -> exists out, mapM (mapM read) (map (map fst) l) = Ok out /\ Forall2 (Forall2 same) l out).
  { induction l as [|g l IH]; intros Hi; [exists []; split; [reflexivity|constructor]|]. destruct IH as (out & Eo & Ho); [intros x Hx; apply Hi; right; exact Hx|].
    destruct (Hg1 g) as (o & Eg & Hog); [apply Hi; left; reflexivity|]. exists (o :: out). cbn [map mapM]. rewrite Eg, Eo. split; [reflexivity|]. constructor; assumption. }
  destruct (Hout groups) as (out & Eo & Ho); [|exists groups, out; auto].
  intros g Hg x Hx. apply (Hin g); [eapply Permutation_in; [apply Permutation_sym, Hpg|exact Hg]|exact Hx].
Qed.
Theorem eq_len_batches names recs d max_toks max_sents order arranged shuffled :
  db_create names recs = Ok d -> NoDup ([105%N; 100%N] :: names) -> names <> [] -> well_shaped (length names) recs ->
  columns_ok faithful (length names) recs -> columns_ok fits_memory (length names) recs -> Permutation order (db_ids d) ->
  arranges arranged -> (forall l, Permutation l (shuffled l)) -> match max_sents with Some m => 0 <= m | None => True end ->
  ((forall r, In r recs -> ~ usable r) -> eq_len_ran_batches d max_toks max_sents order arranged shuffled = Raise IndexError) /\
  ((exists r, In r recs /\ usable r /\ max_toks < longest r) -> eq_len_ran_batches d max_toks max_sents order arranged shuffled = Raise OtherError) /\
  ((exists r, In r recs /\ usable r) -> (forall r, In r recs -> usable r -> longest r <= max_toks) ->
   exists batches groups out, eq_len_ran_batches d max_toks max_sents order arranged shuffled = Ok out /\
     greedy (fits_eq_len max_toks max_sents) batches /\ StronglySorted (fun a b => longest a <= longest b) (concat batches) /\
     NoDup (concat batches) /\ (forall r, In r (concat batches) <-> In r recs /\ usable r) /\
     Permutation batches groups /\ Forall2 (Forall2 same_record) groups out).
Proof.
  intros E Hnn Hne Hw Hc Hm Hp Harr Hsh Hms. pose proof (no_id_names _ Hnn) as Hnn'.
  destruct (db_refused names recs Hnn' Hne Hw (faithful_columns_range _ _ Hc) Hm) as [[Hok _] _]. destruct Hok as [Hr Hnd]; [eauto|].
  destruct (proj1 (db_create_ok names recs Hnn' Hne Hw (faithful_columns_range _ _ Hc) Hm) (conj Hr Hnd)) as (d' & E' & Hd). rewrite E in E'. injection E' as <-.
  destruct (eq_len_ids names recs d max_toks max_sents order arranged Hd Hnn' Hne Hw Hnd Hp Harr Hms) as (H1 & H2 & H3). unfold eq_len_ran_batches.
  split; [intros H; rewrite (H1 H); reflexivity|]. split; [intros H; rewrite (H2 H); reflexivity|]. intros Hex Hle.
  destruct (H3 Hex Hle) as (gs & Eb & Hgne & Hg & Hs & Hu & Hin). rewrite Eb. cbn [bind].
  destruct (read_shuffled (db_get d) same_record recs gs shuffled) as (groups & out & Eo & Hpg & Ho).
  { intros [id cols] Hi. apply (get_read names recs d Hd Hnn' Hnd Hw id cols Hnn Hc Hi). }
  { intros g r Hgi Hri. apply Hin, in_concat. eauto. }
  { exact Hsh. }
  exists gs, groups, out. split; [destruct gs; [contradiction|exact Eo]|]. auto 10.
Qed.
(** What a packed batch cannot exceed. *)
Lemma longest_of_le g r : In r g -> longest r <= longest_of g.
Proof.
  unfold longest_of. induction g as [|x g IH]; intros H; [destruct H|]. destruct H as [<-|H]; cbn [map fold_right]; [lia|]. specialize (IH H). lia.
Qed.
Theorem eq_len_bounds max_toks max_sents batches : greedy (fits_eq_len max_toks max_sents) batches -> (forall r, In r (concat batches) -> longest r <= max_toks) ->
  match max_sents with Some m => 0 <= m | None => True end ->
  forall g, In g batches -> g <> [] /\ Z.of_nat (length g) * longest_of g <= max_toks /\ match max_sents with Some m => Z.of_nat (length g) <= m + 1 | None => True end.
Proof.
  intros Hg Hle Hms g Hin. split; [apply (proj1 Hg g Hin)|].
  apply (greedy_bound (fits_eq_len max_toks max_sents) (fun g => Z.of_nat (length g) * longest_of g <= max_toks /\ match max_sents with Some m => Z.of_nat (length g) <= m + 1 | None => True end) batches Hg); [| |exact Hin].
  - intros g' r Hg' Hr. cbn [length longest_of map fold_right]. split; [|destruct max_sents; lia]. unfold longest_of. cbn [map fold_right].
    assert (Hx : longest r <= max_toks) by (apply Hle, in_concat; exists g'; auto). pose proof (longest_nonneg r). lia.
  - intros p r _ [H1 H2]. rewrite app_length, longest_of_app. cbn [length]. split; [lia|]. unfold at_most in H2. destruct max_sents; lia.
Qed.
Lemma enumerate_combine_from {A} (l : list A) k : enum_from k l = combine (map (fun i => k + Z.of_nat i) (seq 0 (length l))) l.
Proof.
  revert k. induction l as [|x l IH]; intros k; [reflexivity|]. cbn [enum_from length seq map combine]. f_equal; [f_equal; lia|].
  rewrite IH, <- seq_shift, map_map. f_equal. apply map_ext. intros; lia.
Qed.
Lemma enumerate_combine {A} (l : list A) : enumerate l = combine (map Z.of_nat (seq 0 (length l))) l.
Proof. unfold enumerate. rewrite enumerate_combine_from. f_equal. Qed.
Lemma insert_desc_perm {A} (key : A -> Z) x l : Permutation (x :: l) (insert_desc key x l).
Proof.
  induction l as [|y l IH]; [apply Permutation_refl|]. cbn [insert_desc]. destruct (key y <=? key x); [apply Permutation_refl|].
  eapply Permutation_trans; [apply perm_swap|]. apply perm_skip, IH.
Qed.
Lemma sorted_desc_perm' {A} (key : A -> Z) l : Permutation l (sorted_desc key l).
Proof.
  induction l as [|x l IH]; [apply Permutation_refl|]. cbn [sorted_desc fold_right]. eapply Permutation_trans; [apply perm_skip, IH|]. apply insert_desc_perm.
Qed.
Lemma insert_desc_sorted {A} (key : A -> Z) x l : StronglySorted (fun a b => key b <= key a) l -> StronglySorted (fun a b => key b <= key a) (insert_desc key x l).
Proof.
  induction 1 as [|y l Hs IH Hf]; cbn [insert_desc]; [repeat constructor|]. destruct (key y <=? key x) eqn:E.
  - apply Z.leb_le in E. constructor; [constructor; assumption|]. constructor; [exact E|]. eapply Forall_impl; [|exact Hf]. cbn. intros a Ha. lia.
  - apply Z.leb_gt in E. constructor; [exact IH|]. eapply Permutation_Forall; [apply insert_desc_perm|]. constructor; [lia|exact Hf].
Qed.
Lemma sorted_desc_sorted' {A} (key : A -> Z) l : StronglySorted (fun a b => key b <= key a) (sorted_desc key l).
Proof. induction l as [|x l IH]; [constructor|]. apply insert_desc_sorted, IH. Qed.
Lemma StronglySorted_rev {A} (R : A -> A -> Prop) l : StronglySorted R l -> StronglySorted (fun a b => R b a) (rev l).
Proof.
  induction 1 as [|x l Hs IH Hf]; [constructor|]. cbn [rev].
  assert (Hg : forall l1 y, StronglySorted (fun a b => R b a) l1 -> Forall (fun a => R y a) l1 -> StronglySorted (fun a b => R b a) (l1 ++ [y])).
  { clear. induction l1 as [|z l1 IH]; intros y Hs Hf; [repeat constructor|]. inversion Hs as [|? ? Hs' Hf']; subst. inversion Hf as [|? ? Hz Hf2]; subst.
    cbn [app]. constructor; [apply IH; assumption|]. apply Forall_app. split; [exact Hf'|repeat constructor; exact Hz]. }
  apply Hg; [exact IH|]. apply Forall_rev, Hf.
Qed.
Lemma sort_by_size_arranges : arranges (fun l => rev (sorted_desc snd (rev l))).
Proof.
  intros l. split.
  - eapply Permutation_trans; [apply Permutation_rev|]. eapply Permutation_trans; [apply sorted_desc_perm'|]. apply Permutation_rev.
  - pose proof (StronglySorted_rev _ _ (sorted_desc_sorted' (@snd Z Z) (rev l))) as H. exact H.
Qed.
