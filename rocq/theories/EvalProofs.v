(** Proofs about the evaluation tools. *)
From Coq Require Import QArith Qabs Qround Lqa Lia Sorting.Sorted.
From Verif Require Import Py PyStr PyLemmas StrSpec PyStrProofs CodecModel CodecSpec FlatProofs BpeProofs LearnSpec LearnProofs VocabFileProofs DbBatchProofs EvalModel EvalSpec.
Local Open Scope Z_scope.
Local Open Scope list_scope.
Local Open Scope res_scope.

Lemma gram_eqb_eq a b : gram_eqb a b = true <-> a = b.
Proof. unfold gram_eqb. destruct (list_eq_dec Z.eq_dec a b); split; congruence. Qed.

Lemma filter_length_le {A} (p : A -> bool) l : (length (filter p l) <= length l)%nat.
Proof. induction l as [|x l IH]; cbn [filter length]; [lia|]. destruct (p x); cbn [length]; lia. Qed.

(** ** n-grams *)
Definition windows {A} (n : nat) (sent : list A) : list (list A) :=
  map (fun i => firstn n (skipn i sent)) (seq 0 (length sent + 1 - n)).
Lemma make_n_grams_ok {A} (sent : list A) n : 0 < n -> make_n_grams sent n = Ok (windows (Z.to_nat n) sent).
Proof.
  intros Hn. unfold make_n_grams, assert_. destruct (Z.ltb_spec 0 n); [|lia]. cbn [bind]. unfold windows.
  do 3 f_equal. lia.
Qed.
Lemma make_n_grams_raise {A} (sent : list A) n : n <= 0 -> make_n_grams sent n = Raise AssertionError.
Proof. intros Hn. unfold make_n_grams, assert_. destruct (Z.ltb_spec 0 n); [lia|reflexivity]. Qed.
Lemma windows_length {A} n (sent : list A) : length (windows n sent) = (length sent + 1 - n)%nat.
Proof. unfold windows. rewrite map_length, seq_length. reflexivity. Qed.
Lemma windows_short {A} n (sent : list A) : (length sent < n)%nat -> windows n sent = [].
Proof. intros H. unfold windows. replace (length sent + 1 - n)%nat with 0%nat by lia. reflexivity. Qed.
Lemma windows_cons {A} n x (t : list A) : (n <= length (x :: t))%nat -> (0 < n)%nat -> windows n (x :: t) = firstn n (x :: t) :: windows n t.
Proof.
  intros H Hn. unfold windows. cbn [length] in *. replace (S (length t) + 1 - n)%nat with (S (length t + 1 - n)) by lia.
  cbn [seq map skipn]. f_equal. rewrite <- seq_shift, map_map. apply map_ext. reflexivity.
Qed.
Theorem windows_spec {A} n (sent : list A) : (0 < n)%nat -> ngrams_of n sent (windows n sent).
Proof.
  intros Hn i g. unfold windows. rewrite nth_error_map. split.
  - intros H. destruct (nth_error (seq 0 (length sent + 1 - n)) i) as [j|] eqn:E; [|discriminate]. cbn in H. injection H as <-.
    assert (Hi : (i < length sent + 1 - n)%nat). { rewrite <- (seq_length (length sent + 1 - n) 0). apply nth_error_Some. congruence. }
    apply (nth_error_nth _ _ 0%nat) in E. rewrite seq_nth in E by exact Hi. cbn in E. subst j. split.
    + rewrite firstn_length, skipn_length. lia.
    + exists (firstn i sent), (skipn n (skipn i sent)). split; [rewrite !firstn_skipn; reflexivity|]. rewrite firstn_length. lia.
  - intros [Hg (a & b & -> & Ha)]. rewrite !app_length.
    rewrite (nth_error_nth' _ 0%nat) by (rewrite seq_length; lia). rewrite seq_nth by lia. cbn [option_map plus].
    f_equal. rewrite skipn_app, skipn_all2 by lia. replace (i - length a)%nat with 0%nat by lia. cbn [skipn app].
    rewrite firstn_app, firstn_all2 by lia. replace (n - length g)%nat with 0%nat by lia. rewrite firstn_O, app_nil_r. reflexivity.
Qed.
Lemma windows_In_len {A} n (sent : list A) g : (0 < n)%nat -> In g (windows n sent) -> length g = n.
Proof. intros Hn H. apply In_nth_error in H as [i H]. apply (windows_spec n sent Hn) in H. tauto. Qed.

Lemma times_short g sent : (length sent < length g)%nat -> times g sent = 0.
Proof.
  induction sent as [|x t IH]; intros H; cbn [times].
  - unfold starts_with. destruct (list_eq_dec _ _ _) as [E|]; [|reflexivity]. apply (f_equal (@length Z)) in E. rewrite firstn_length in E. cbn in *. lia.
  - unfold starts_with. destruct (list_eq_dec _ _ _) as [E|]; [apply (f_equal (@length Z)) in E; rewrite firstn_length in E; cbn in *; lia|].
    cbn in H. rewrite IH by lia. lia.
Qed.
Lemma count_windows g sent : (0 < length g)%nat -> Z.of_nat (count_occ (list_eq_dec Z.eq_dec) (windows (length g) sent) g) = times g sent.
Proof.
  intros Hg. induction sent as [|x t IH].
  - rewrite windows_short, times_short by (cbn; lia). reflexivity.
  - destruct (Nat.lt_ge_cases (length (x :: t)) (length g)) as [Hl|Hl].
    + rewrite windows_short, times_short by exact Hl. reflexivity.
    + rewrite windows_cons by assumption. cbn [count_occ times]. unfold starts_with. destruct (list_eq_dec _ _ _); lia.
Qed.
Lemma times_nonneg g sent : 0 <= times g sent.
Proof. induction sent as [|x t IH]; cbn [times]; destruct (starts_with _ _); lia. Qed.
Lemma times_pos g sent : (0 < length g)%nat -> (0 < times g sent <-> exists i, at_pos sent i g).
Proof.
  intros Hg. rewrite <- count_windows by exact Hg. split.
  - intros H. assert (Hin : In g (windows (length g) sent)) by (apply (count_occ_In (list_eq_dec Z.eq_dec)); lia).
    apply In_nth_error in Hin as [i Hi]. apply windows_spec in Hi; [|exact Hg]. exists i. tauto.
  - intros [i Hi]. assert (Hin : In g (windows (length g) sent)).
    { apply (nth_error_In _ i). apply windows_spec; [exact Hg|]. auto. }
    apply (count_occ_In (list_eq_dec Z.eq_dec)) in Hin. lia.
Qed.

(** ** Counter.update with a Counter *)
Section Fold.
  Context {K : Type} (eqb : K -> K -> bool) (Heq : forall a b, eqb a b = true <-> a = b).
  Lemma dset_set k (v v' : Z) d : dset eqb k v (dset eqb k v' d) = dset eqb k v d.
  Proof.
    induction d as [|[k' u] d IH]; simpl.
    - rewrite (proj2 (Heq k k) eq_refl). reflexivity.
    - destruct (eqb k k') eqn:E; simpl; rewrite E; [reflexivity|]. rewrite IH. reflexivity.
  Qed.
  Lemma dadd_dadd k m n d : dadd eqb k n (dadd eqb k m d) = dadd eqb k (m + n) d.
  Proof.
    unfold dadd. rewrite dset_set. f_equal. rewrite (dget_def_dset eqb Heq). rewrite (proj2 (Heq k k) eq_refl). lia.
  Qed.
  Lemma dset_comm_in j k (v w : Z) d : j <> k -> In j (dkeys d) -> dset eqb k w (dset eqb j v d) = dset eqb j v (dset eqb k w d).
  Proof.
    intros Hn. induction d as [|[k' u] d IH]; [intros []|]. intros Hin. simpl.
    destruct (eqb j k') eqn:E1; simpl; destruct (eqb k k') eqn:E2; simpl; rewrite ?E1, ?E2; try reflexivity.
    - apply Heq in E1, E2. congruence.
    - f_equal. apply IH. destruct Hin as [Hin|Hin]; [|exact Hin]. cbn in Hin. subst k'. rewrite (proj2 (Heq j j) eq_refl) in E1. discriminate.
  Qed.
  Lemma dget_def_dset_other j k (v : Z) d : j <> k -> dget_def eqb j 0 (dset eqb k v d) = dget_def eqb j 0 d.
  Proof. intros Hn. rewrite (dget_def_dset eqb Heq). destruct (eqb j k) eqn:E; [|reflexivity]. apply Heq in E. contradiction. Qed.
  Lemma dadd_comm_in j k m n d : j <> k -> In j (dkeys d) -> dadd eqb k n (dadd eqb j m d) = dadd eqb j m (dadd eqb k n d).
  Proof.
    intros Hn Hin. unfold dadd. rewrite !dget_def_dset_other by congruence. apply dset_comm_in; assumption.
  Qed.
  Definition add_items (items d : list (K * Z)) := fold_left (fun d e => dadd eqb (fst e) (snd e) d) items d.
  Lemma dadd_key j k n d : In j (dkeys (dadd eqb k n d)) <-> In j (dkeys d) \/ j = k.
  Proof.
    unfold dadd. rewrite (dkeys_dset eqb). destruct (dmem eqb k d) eqn:E.
    - apply (dmem_spec eqb Heq) in E. split; [auto|]. intros [H| ->]; assumption.
    - rewrite in_app_iff. cbn. split; intros [H|H]; auto. destruct H as [->|[]]; auto.
  Qed.
  Lemma add_items_dadd items j m : forall d, ~ In j (dkeys items) -> In j (dkeys d) ->
    add_items items (dadd eqb j m d) = dadd eqb j m (add_items items d).
  Proof.
    unfold add_items. induction items as [|[k n] items IH]; intros d Hni Hin; cbn [fold_left]; [reflexivity|].
    cbn [fst snd]. rewrite dadd_comm_in; [|intros ->; apply Hni; left; reflexivity|exact Hin].
    rewrite IH; [reflexivity| |apply dadd_key; auto]. intros H. apply Hni. right. exact H.
  Qed.
  Lemma add_items_bump items x : forall d, NoDup (dkeys items) ->
    add_items (dadd eqb x 1 items) d = dadd eqb x 1 (add_items items d).
  Proof.
    intros d Hnd. unfold dadd at 1. destruct (dget eqb x items) as [v|] eqn:E.
    - unfold dget_def. rewrite E. apply (dget_In eqb Heq) in E. apply in_split in E as (a & b & ->).
      assert (Hs : dset eqb x (v + 1) (a ++ (x, v) :: b) = a ++ (x, v + 1) :: b).
      { clear -Heq Hnd. induction a as [|[k u] a IH]; simpl; [rewrite (proj2 (Heq x x) eq_refl); reflexivity|].
        inversion Hnd as [|? ? H1 H2]; subst. destruct (eqb x k) eqn:E; [|f_equal; apply IH; exact H2].
        apply Heq in E. subst k. exfalso. apply H1. unfold dkeys. rewrite map_app, in_app_iff. right. left. reflexivity. }
      rewrite Hs. unfold add_items. rewrite !fold_left_app. cbn [fold_left fst snd]. rewrite <- dadd_dadd.
      apply add_items_dadd; [|apply dadd_key; auto]. unfold dkeys in *. rewrite map_app in Hnd. cbn in Hnd. apply NoDup_remove_2 in Hnd. rewrite in_app_iff in Hnd. tauto.
    - apply (dget_None eqb Heq) in E. rewrite (dset_fresh eqb Heq) by exact E. unfold add_items. rewrite fold_left_app. cbn [fold_left fst snd].
      f_equal. unfold dget_def. destruct (dget eqb x items) eqn:E'; [|reflexivity]. apply (dget_Some_key eqb Heq) in E'. contradiction.
  Qed.
  Lemma add_counter l : forall d, add_items (counter_update eqb l []) d = counter_update eqb l d.
  Proof.
    induction l as [|x l IH] using rev_ind; intros d; [reflexivity|].
    unfold counter_update. rewrite !fold_left_app. cbn [fold_left].
    rewrite add_items_bump by (apply (counter_NoDup eqb Heq); constructor). fold (counter_update eqb l []). rewrite IH. reflexivity.
  Qed.
End Fold.

(** ** Gram scores *)
Lemma dget_def_dset_gen {V} k k0 (v dflt : V) d : dget_def gram_eqb k dflt (dset gram_eqb k0 v d) = if gram_eqb k k0 then v else dget_def gram_eqb k dflt d.
Proof. unfold dget_def. rewrite (dget_dset gram_eqb gram_eqb_eq). destruct (gram_eqb k k0); reflexivity. Qed.
Lemma dmem_keys {V W} k (d : list (gram * V)) (e : list (gram * W)) : dkeys d = dkeys e -> dmem gram_eqb k d = dmem gram_eqb k e.
Proof.
  intros H. destruct (dmem gram_eqb k d) eqn:E1, (dmem gram_eqb k e) eqn:E2; try reflexivity.
  - apply (dmem_spec gram_eqb gram_eqb_eq) in E1. rewrite H in E1. apply (dmem_spec gram_eqb gram_eqb_eq) in E1. congruence.
  - apply (dmem_spec gram_eqb gram_eqb_eq) in E2. rewrite <- H in E2. apply (dmem_spec gram_eqb gram_eqb_eq) in E2. congruence.
Qed.
Section Scores.
  Variable rnd : Q -> Q.
  Definition part (other : list (gram * Z)) (g : gram) (f : Z) : Q :=
    fdiv rnd (inject_Z (Z.min (dget_def gram_eqb g 0 other) f)) (inject_Z f).
  Definition add_scores (other items : list (gram * Z)) sc :=
    fold_left (fun sc e => dappend (fst e) (part other (fst e) (snd e)) sc) items sc.
  Lemma score_grams_eq other items : forall sc fr, (forall g f, In (g, f) items -> 0 < f) ->
    score_grams rnd items other sc fr = Ok (add_scores other items sc, add_items gram_eqb items fr).
  Proof.
    unfold score_grams, add_scores, add_items. induction items as [|[g f] items IH]; intros sc fr Hp; [reflexivity|].
    cbn [foldM fold_left fst snd]. unfold assert_. destruct (Z.ltb_spec 0 f) as [_|H]; [|specialize (Hp g f (or_introl eq_refl)); lia].
    cbn [bind]. apply IH. intros g' f' H. apply (Hp g' f'). right. exact H.
  Qed.
  Lemma add_scores_keys other items : forall sc fr, dkeys sc = dkeys fr -> dkeys (add_scores other items sc) = dkeys (add_items gram_eqb items fr).
  Proof.
    unfold add_scores, add_items. induction items as [|[g f] items IH]; intros sc fr H; [exact H|]. cbn [fold_left fst snd]. apply IH.
    unfold dappend, dadd. rewrite !(dkeys_dset gram_eqb). rewrite (dmem_keys g sc fr H), H. reflexivity.
  Qed.
  Lemma add_scores_get other g items : forall sc, NoDup (dkeys items) ->
    dget_def gram_eqb g [] (add_scores other items sc) =
    dget_def gram_eqb g [] sc ++ match dget gram_eqb g items with Some f => [part other g f] | None => [] end.
  Proof.
    unfold add_scores. induction items as [|[k f] items IH]; intros sc Hnd; cbn [fold_left dget]; [rewrite app_nil_r; reflexivity|].
    inversion Hnd as [|? ? H1 H2]; subst. cbn [fst snd]. rewrite IH by exact H2. unfold dappend. rewrite dget_def_dset_gen.
    destruct (gram_eqb g k) eqn:E; [|reflexivity]. apply gram_eqb_eq in E. subst k.
    destruct (dget gram_eqb g items) eqn:E2; [exfalso; apply H1, (dget_Some_key gram_eqb gram_eqb_eq _ _ _ E2)|]. apply app_nil_r.
  Qed.

  (* one side of the dicts after a list of (own, other) pairs *)
  Definition side (n : nat) (pairs : list (list Z * list Z)) (sc : list (gram * list Q)) (fr : list (gram * Z)) : Prop :=
    dkeys sc = dkeys fr /\ fr = counter_update gram_eqb (flat_map (fun p => windows n (fst p)) pairs) [] /\
    forall g, length g = n -> dget_def gram_eqb g [] sc = map (fun p => rnd (share_of g (fst p) (snd p))) (having g pairs).
  Lemma counter_pos l g f : In (g, f) (counter_update gram_eqb l []) -> f = Z.of_nat (count_occ (list_eq_dec Z.eq_dec) l g) /\ 0 < f.
  Proof.
    intros H. assert (Hnd : NoDup (map fst (counter_update gram_eqb l []))) by (apply (counter_NoDup gram_eqb gram_eqb_eq); constructor).
    pose proof (In_dget gram_eqb gram_eqb_eq g f _ Hnd H) as Hg.
    pose proof (counter_get gram_eqb (list_eq_dec Z.eq_dec) gram_eqb_eq g l []) as Hc. unfold dget_def in Hc at 1. rewrite Hg in Hc. cbn in Hc.
    split; [exact Hc|]. assert (Hin : In g l).
    { apply (in_map fst) in H. apply (counter_keys gram_eqb gram_eqb_eq) in H. destruct H as [[]|H]; exact H. }
    apply (count_occ_In (list_eq_dec Z.eq_dec)) in Hin. unfold gram in *. lia.
  Qed.
  Lemma counter_dget l g : dget gram_eqb g (counter_update gram_eqb l []) =
    if 0 <? Z.of_nat (count_occ (list_eq_dec Z.eq_dec) l g) then Some (Z.of_nat (count_occ (list_eq_dec Z.eq_dec) l g)) else None.
  Proof.
    destruct (dget gram_eqb g (counter_update gram_eqb l [])) as [f|] eqn:E.
    - apply (dget_In gram_eqb gram_eqb_eq) in E. apply counter_pos in E as [-> Hp]. apply Z.ltb_lt in Hp. rewrite Hp. reflexivity.
    - apply (dget_None gram_eqb gram_eqb_eq) in E. destruct (Z.ltb_spec 0 (Z.of_nat (count_occ (list_eq_dec Z.eq_dec) l g))) as [H|H]; [|reflexivity].
      exfalso. apply E. apply (counter_keys gram_eqb gram_eqb_eq). right. apply (count_occ_In (list_eq_dec Z.eq_dec)). unfold gram in *. lia.
  Qed.
  Lemma side_step n pairs own other sc fr : (0 < n)%nat -> side n pairs sc fr ->
    exists sc' fr', score_grams rnd (counter_update gram_eqb (windows n own) []) (counter_update gram_eqb (windows n other) []) sc fr = Ok (sc', fr') /\
      side n (pairs ++ [(own, other)]) sc' fr'.
  Proof.
    intros Hn (Hk & Hf & Hs). eexists _, _. split.
    { apply score_grams_eq. intros g f H. apply counter_pos in H. tauto. }
    split; [|split].
    - apply add_scores_keys, Hk.
    - rewrite (add_counter gram_eqb gram_eqb_eq). rewrite flat_map_app. cbn [flat_map fst]. rewrite app_nil_r, counter_app, <- Hf. reflexivity.
    - intros g Hg. rewrite add_scores_get by (apply (counter_NoDup gram_eqb gram_eqb_eq); constructor). rewrite (Hs g Hg).
      unfold having. rewrite filter_app, map_app. f_equal. rewrite counter_dget. subst n. rewrite count_windows by exact Hn. cbn [filter fst].
      destruct (Z.ltb_spec 0 (times g own)) as [Hp|Hp]; [|reflexivity]. cbn [map fst snd]. unfold part, share_of, fdiv. do 2 f_equal.
      unfold dget_def. rewrite counter_dget, count_windows by exact Hn. rewrite Z.min_comm.
      destruct (Z.ltb_spec 0 (times g other)) as [Ho|Ho]; [reflexivity|]. pose proof (times_nonneg g other). replace (times g other) with 0 by lia. reflexivity.
  Qed.
  Lemma side_nil n : side n [] [] [].
  Proof. split; [reflexivity|]. split; [reflexivity|]. intros g _. reflexivity. Qed.
  Lemma swap_app a b : swap (a ++ b) = swap a ++ swap b.
  Proof. apply map_app. Qed.
  Lemma swap_swap a : swap (swap a) = a.
  Proof. unfold swap. rewrite map_map. rewrite <- (map_id a) at 2. apply map_ext. intros [x y]. reflexivity. Qed.
  Lemma gram_pairs n pairs : 0 < n -> forall done st,
    side (Z.to_nat n) (swap done) (g_recalls st) (g_ref_freqs st) -> side (Z.to_nat n) done (g_precs st) (g_cand_freqs st) ->
    exists st', foldM (gram_pair rnd n) pairs st = Ok st' /\
      side (Z.to_nat n) (swap (done ++ pairs)) (g_recalls st') (g_ref_freqs st') /\ side (Z.to_nat n) (done ++ pairs) (g_precs st') (g_cand_freqs st').
  Proof.
    intros Hn. induction pairs as [|[cand ref] pairs IH]; intros done st H1 H2; cbn [foldM]; [exists st; rewrite app_nil_r; auto|].
    unfold gram_pair at 1. rewrite !make_n_grams_ok by exact Hn. cbn [bind].
    assert (Hn' : (0 < Z.to_nat n)%nat) by lia.
    destruct (side_step _ _ ref cand _ _ Hn' H1) as (sc & fr & -> & H1'). cbn [bind].
    destruct (side_step _ _ cand ref _ _ Hn' H2) as (sc2 & fr2 & -> & H2'). cbn [bind].
    destruct (IH (done ++ [(cand, ref)]) (MkGrams sc fr sc2 fr2)) as (st' & E & Ha & Hb).
    { rewrite swap_app. exact H1'. } { exact H2'. }
    exists st'. rewrite <- app_assoc in Ha, Hb. auto.
  Qed.
  Definition rounded_mean (g : gram) (pairs : list (list Z * list Z)) : Q :=
    average rnd (map (fun p => rnd (share_of g (fst p) (snd p))) (having g pairs)).
  Lemma averages_get g d : dget gram_eqb g (averages rnd d) = option_map (average rnd) (dget gram_eqb g d).
  Proof. unfold averages. induction d as [|[k v] d IH]; cbn [map dget fst snd]; [reflexivity|]. destruct (gram_eqb g k); [reflexivity|exact IH]. Qed.
  Lemma total_app g a b : total_times g (a ++ b) = total_times g a + total_times g b.
  Proof. unfold total_times. rewrite map_app. apply zsum_app. Qed.
  Lemma total_nonneg g l : 0 <= total_times g l.
  Proof. unfold total_times. induction l as [|x l IH]; [reflexivity|]. cbn [map]. rewrite zsum_cons. pose proof (times_nonneg g x). lia. Qed.
  Lemma count_flat g pairs : (0 < length g)%nat ->
    Z.of_nat (count_occ (list_eq_dec Z.eq_dec) (flat_map (fun p : list Z * list Z => windows (length g) (fst p)) pairs) g) = total_times g (map fst pairs).
  Proof.
    intros Hg. unfold total_times. induction pairs as [|[a b] pairs IH]; [reflexivity|]. cbn [flat_map map fst]. rewrite count_occ_app, zsum_cons, <- IH, <- count_windows by exact Hg. lia.
  Qed.
  Lemma side_tabulates n pairs sc fr : (0 < n)%nat -> side n pairs sc fr ->
    tabulates n pairs (averages rnd sc) fr /\
    (forall g v, In (g, v) (averages rnd sc) -> v = rounded_mean g pairs /\ having g pairs <> []).
  Proof.
    intros Hn (Hk & Hf & Hs).
    assert (Hnd : NoDup (map fst fr)) by (rewrite Hf; apply (counter_NoDup gram_eqb gram_eqb_eq); constructor).
    assert (Hav : map fst (averages rnd sc) = map fst sc) by (unfold averages; rewrite map_map; reflexivity).
    assert (Hfr : forall g f, In (g, f) fr <-> length g = n /\ 0 < f /\ f = total_times g (map fst pairs)).
    { intros g f. split.
      - intros H. assert (Hin : In g (flat_map (fun p : list Z * list Z => windows n (fst p)) pairs)).
        { rewrite Hf in H. apply (in_map fst) in H. apply (counter_keys gram_eqb gram_eqb_eq) in H. destruct H as [[]|H]; exact H. }
        apply in_flat_map in Hin as (p & _ & Hin). apply windows_In_len in Hin; [|exact Hn]. split; [exact Hin|].
        rewrite Hf in H. apply counter_pos in H as [-> Hp]. split; [exact Hp|]. subst n. apply count_flat, Hn.
      - intros (Hg & Hp & ->). subst n. rewrite Hf. apply (dget_In gram_eqb gram_eqb_eq). rewrite counter_dget, count_flat by exact Hn.
        apply Z.ltb_lt in Hp. rewrite Hp. reflexivity. }
    split.
    - split; [exact (eq_trans Hav Hk)|]. split; [exact Hnd|exact Hfr].
    - intros g v H. assert (Hgk : In g (map fst fr)). { pose proof (eq_trans Hav Hk : map fst (averages rnd sc) = map fst fr) as Ha. rewrite <- Ha. apply (in_map fst) in H. exact H. }
      apply in_map_iff in Hgk as ([g' f] & Hg' & Hf'). cbn in Hg'. subst g'. apply Hfr in Hf' as (Hl & Hp & Ht).
      apply (In_dget gram_eqb gram_eqb_eq) in H; [|pose proof (eq_trans Hav Hk : dkeys (averages rnd sc) = dkeys fr) as Ha; rewrite Ha; exact Hnd].
      rewrite averages_get in H. specialize (Hs g Hl). unfold dget_def in Hs. destruct (dget gram_eqb g sc) as [l|]; [|discriminate]. cbn in H. injection H as <-.
      split; [unfold rounded_mean; rewrite Hs; reflexivity|].
      intros E. assert (Hz : total_times g (map fst pairs) = 0); [|lia].
      clear -E. unfold total_times, having in *. induction pairs as [|[a b] pairs IH]; [reflexivity|]. cbn [map fst filter] in *. rewrite zsum_cons. pose proof (times_nonneg g a).
      destruct (Z.ltb_spec 0 (times g a)); [discriminate|]. rewrite (IH E). lia.
  Qed.
  Theorem gram_recall_spec cands refs n : 0 < n ->
    exists recalls ref_freqs precs cand_freqs,
      count_gram_recall rnd cands refs n = Ok (recalls, ref_freqs, precs, cand_freqs) /\
      tabulates (Z.to_nat n) (combine refs cands) recalls ref_freqs /\
      (forall g v, In (g, v) recalls -> v = rounded_mean g (combine refs cands) /\ having g (combine refs cands) <> []) /\
      tabulates (Z.to_nat n) (combine cands refs) precs cand_freqs /\
      (forall g v, In (g, v) precs -> v = rounded_mean g (combine cands refs) /\ having g (combine cands refs) <> []).
  Proof.
    intros Hn. unfold count_gram_recall.
    destruct (gram_pairs n (combine cands refs) Hn [] (MkGrams [] [] [] [])) as (st & -> & H1 & H2); [apply side_nil|apply side_nil|]. cbn [bind].
    assert (Hsw : swap (combine cands refs) = combine refs cands).
    { clear. revert refs. induction cands as [|c cands IH]; intros [|r refs]; try reflexivity. cbn. f_equal. apply IH. }
    cbn [app] in H1, H2. rewrite Hsw in H1. apply side_tabulates in H1; [|lia]. apply side_tabulates in H2; [|lia].
    eexists _, _, _, _. split; [reflexivity|]. tauto.
  Qed.
End Scores.

(** ** Bounds under rounding *)
Section Bounds.
  Variable rnd : Q -> Q.
  Hypothesis Hr : rounding rnd.
  Local Open Scope Q_scope.
  Lemma rnd_mono x y : x <= y -> rnd x <= rnd y.
  Proof. apply Hr. Qed.
  Lemma rnd_proper x y : x == y -> rnd x == rnd y.
  Proof. intros H. apply Qle_antisym; apply rnd_mono; rewrite H; apply Qle_refl. Qed.
  Lemma rnd_int z : (Z.abs z <= 9007199254740992)%Z -> rnd (inject_Z z) == inject_Z z.
  Proof. apply Hr. Qed.
  Lemma rnd_idem x : rnd (rnd x) == rnd x.
  Proof. apply Hr. Qed.
  Lemma rnd_double x : rnd x == x -> rnd (2 * x) == 2 * x.
  Proof. apply Hr. Qed.
  Lemma rnd_ge z x : (Z.abs z <= 9007199254740992)%Z -> inject_Z z <= x -> inject_Z z <= rnd x.
  Proof. intros Hz H. rewrite <- (rnd_int z Hz). apply rnd_mono, H. Qed.
  Lemma rnd_le z x : (Z.abs z <= 9007199254740992)%Z -> x <= inject_Z z -> rnd x <= inject_Z z.
  Proof. intros Hz H. rewrite <- (rnd_int z Hz). apply rnd_mono, H. Qed.
  Lemma rnd_unit x : unit_range x -> unit_range (rnd x).
  Proof. intros [H1 H2]. split; [apply (rnd_ge 0)|apply (rnd_le 1)]; (lia || assumption). Qed.
  Lemma rnd_0 : rnd 0 == 0.
  Proof. apply (rnd_int 0). lia. Qed.
  Lemma rnd_1 : rnd 1 == 1.
  Proof. apply (rnd_int 1). lia. Qed.
  Lemma share_unit g own other : (0 < times g own)%Z -> unit_range (share_of g own other).
  Proof.
    intros H. unfold share_of. pose proof (times_nonneg g other). split.
    - apply Qle_shift_div_l; [change 0 with (inject_Z 0); rewrite <- Zlt_Qlt; exact H|]. rewrite Qmult_0_l. change 0 with (inject_Z 0). rewrite <- Zle_Qle. lia.
    - apply Qle_shift_div_r; [change 0 with (inject_Z 0); rewrite <- Zlt_Qlt; exact H|]. rewrite Qmult_1_l. rewrite <- Zle_Qle. lia.
  Qed.
  Lemma fsum_bounds l : Forall unit_range l -> forall acc m, (0 <= m)%Z -> (m + Z.of_nat (length l) <= 9007199254740992)%Z ->
    0 <= acc <= inject_Z m -> 0 <= fold_left (fadd rnd) l acc <= inject_Z (m + Z.of_nat (length l)).
  Proof.
    induction 1 as [|x l [Hx1 Hx2] _ IH]; intros acc m Hm Hl [Ha1 Ha2]; cbn [fold_left length] in *.
    - rewrite Z.add_0_r. auto.
    - replace (m + Z.of_nat (S (length l)))%Z with ((m + 1) + Z.of_nat (length l))%Z by lia. apply IH; try lia. unfold fadd. split.
      + apply (rnd_ge 0); [lia|]. change (inject_Z 0) with 0. lra.
      + apply rnd_le; [lia|]. rewrite inject_Z_plus. change (inject_Z 1) with 1. lra.
  Qed.
  Lemma average_unit l : l <> [] -> (Z.of_nat (length l) <= 9007199254740992)%Z -> Forall unit_range l -> unit_range (average rnd l).
  Proof.
    intros Hne Hl Hf. unfold average, fdiv, fsum. apply rnd_unit.
    destruct (fsum_bounds l Hf 0 0%Z (Z.le_refl 0) Hl) as [H1 H2]; [split; apply Qle_refl|]. cbn [Z.add] in H2.
    assert (Hp : 0 < inject_Z (Z.of_nat (length l))). { change 0 with (inject_Z 0). rewrite <- Zlt_Qlt. destruct l; [contradiction|cbn [length]; lia]. }
    split.
    - apply Qle_shift_div_l; [exact Hp|]. rewrite Qmult_0_l. exact H1.
    - apply Qle_shift_div_r; [exact Hp|]. rewrite Qmult_1_l. exact H2.
  Qed.
  Lemma rounded_mean_unit g pairs : (Z.of_nat (length pairs) <= 9007199254740992)%Z -> having g pairs <> [] -> unit_range (rounded_mean rnd g pairs).
  Proof.
    intros Hl Hne. unfold rounded_mean. apply average_unit.
    - destruct (having g pairs); [contradiction|discriminate].
    - rewrite map_length. unfold having. pose proof (filter_length_le (fun p : list Z * list Z => (0 <? times g (fst p))%Z) pairs). lia.
    - apply Forall_map, Forall_forall. intros p Hp. apply rnd_unit, share_unit. unfold having in Hp. apply filter_In in Hp as [_ Hp]. apply Z.ltb_lt, Hp.
  Qed.
  Lemma rounded_mean_rep g pairs : rnd (rounded_mean rnd g pairs) == rounded_mean rnd g pairs.
  Proof. apply rnd_idem. Qed.
  Lemma Qle_bool_unit x : Qle_bool 0 x && Qle_bool x 1 = true <-> unit_range x.
  Proof. rewrite andb_true_iff, !Qle_bool_iff. reflexivity. Qed.
  Theorem f1_bounds p r : unit_range p -> unit_range r -> rnd p == p -> exists f, f1_measure rnd p r = Ok f /\ unit_range f.
  Proof.
    intros Hp Hr' Hrep. unfold f1_measure, assert_. rewrite (proj2 (Qle_bool_unit p) Hp), (proj2 (Qle_bool_unit r) Hr'). cbn [bind].
    destruct (Qeq_bool (fadd rnd p r) 0) eqn:E.
    - eexists. split; [reflexivity|]. split; [apply Qle_refl|]. discriminate.
    - eexists. split; [reflexivity|]. unfold fdiv. apply rnd_unit. destruct Hp as [Hp1 Hp2], Hr' as [Hr1 Hr2].
      assert (Hd : 0 < fadd rnd p r).
      { assert (H0 : 0 <= fadd rnd p r) by (apply (rnd_ge 0); [lia|change (inject_Z 0) with 0; lra]).
        apply Qle_lteq in H0 as [H0|H0]; [exact H0|]. symmetry in H0. apply Qeq_bool_iff in H0. congruence. }
      assert (Hn : fmul rnd (fmul rnd 2 p) r <= fadd rnd p r).
      { unfold fmul, fadd. apply rnd_mono. rewrite (rnd_double p Hrep). nra. }
      assert (Hn0 : 0 <= fmul rnd (fmul rnd 2 p) r).
      { unfold fmul. apply (rnd_ge 0); [lia|]. change (inject_Z 0) with 0. rewrite (rnd_double p Hrep). nra. }
      split.
      + apply Qle_shift_div_l; [exact Hd|]. rewrite Qmult_0_l. exact Hn0.
      + apply Qle_shift_div_r; [exact Hd|]. rewrite Qmult_1_l. exact Hn.
  Qed.
  Theorem f1_outside p r : ~ unit_range p \/ ~ unit_range r -> f1_measure rnd p r = Raise AssertionError.
  Proof.
    intros H. unfold f1_measure, assert_. destruct (Qle_bool 0 p && Qle_bool p 1) eqn:E1; [|reflexivity].
    destruct (Qle_bool 0 r && Qle_bool r 1) eqn:E2; [|reflexivity]. apply Qle_bool_unit in E1, E2. tauto.
  Qed.
End Bounds.

(** Exact arithmetic *)
Lemma id_rounding : rounding (fun x => x).
Proof. repeat split; intros; auto; reflexivity. Qed.
Lemma eighths_rounding : rounding eighths.
Proof.
  assert (Hf : forall x z, (x == inject_Z z)%Q -> Qfloor x = z).
  { intros x z H. rewrite (Qfloor_comp _ _ H). apply Qfloor_Z. }
  assert (H8 : forall z, Qfloor (8 * (z # 8)) = z).
  { intros z. apply Hf. unfold Qeq, Qmult, inject_Z. cbn [Qnum Qden Pos.mul]. lia. }
  split; [|split; [|split]].
  - intros x y H. unfold eighths. assert (Hle : Qfloor (8 * x) <= Qfloor (8 * y)) by (apply Qfloor_resp_le; lra).
    revert Hle. generalize (Qfloor (8 * x)) (Qfloor (8 * y)). intros a b Hle. unfold Qle. cbn [Qnum Qden]. lia.
  - intros z _. unfold eighths. rewrite (Hf _ (8 * z)); [unfold Qeq, inject_Z; cbn [Qnum Qden Pos.mul]; lia|]. rewrite inject_Z_mult. reflexivity.
  - intros x. unfold eighths. rewrite H8. reflexivity.
  - intros x H. unfold eighths in *. rewrite (Hf (8 * (2 * x))%Q (2 * Qfloor (8 * x))).
    + revert H. generalize (Qfloor (8 * x)). intros z H. rewrite <- H. unfold Qeq, Qmult, inject_Z. cbn [Qnum Qden Pos.mul]. lia.
    + revert H. generalize (Qfloor (8 * x)). intros z H. rewrite <- H. unfold Qeq, Qmult, inject_Z. cbn [Qnum Qden Pos.mul]. lia.
Qed.
Lemma fsum_id l : forall acc, (fold_left (fadd (fun x => x)) l acc == acc + sumQ l)%Q.
Proof.
  induction l as [|x l IH]; intros acc; cbn [fold_left]; [unfold sumQ; cbn [fold_right]; lra|]. rewrite IH. unfold fadd, sumQ. cbn [fold_right]. fold (sumQ l). lra.
Qed.
Lemma rounded_mean_id g pairs : (rounded_mean (fun x => x) g pairs == mean_share g pairs)%Q.
Proof. unfold rounded_mean, mean_share, meanQ, average, fdiv, fsum. rewrite fsum_id, Qplus_0_l. reflexivity. Qed.
Theorem f1_exact p r : unit_range p -> unit_range r -> exists f, f1_measure (fun x => x) p r = Ok f /\ harmonic p r f /\
  (forall lo hi, (lo <= p -> lo <= r -> p <= hi -> r <= hi -> lo <= f /\ f <= hi)%Q).
Proof.
  intros [Hp1 Hp2] [Hr1 Hr2]. unfold f1_measure, assert_. rewrite (proj2 (Qle_bool_unit p)), (proj2 (Qle_bool_unit r)) by (split; assumption). cbn [bind].
  destruct (Qeq_bool (fadd (fun x => x) p r) 0) eqn:E.
  - apply Qeq_bool_iff in E. unfold fadd in E. exists 0%Q. split; [reflexivity|]. split.
    + split; [reflexivity|]. assert (p == 0)%Q by lra. rewrite H. lra.
    + intros; lra.
  - assert (Hne : ~ (p + r == 0)%Q). { intros H. apply Qeq_bool_iff in H. unfold fadd in E. congruence. }
    eexists. split; [reflexivity|]. unfold fdiv, fmul, fadd. assert (Hd : (0 < p + r)%Q) by lra. split.
    + split; [intros H; contradiction|]. field. exact Hne.
    + intros lo hi H1 H2 H3 H4. split; [apply Qle_shift_div_l; [exact Hd|nra]|apply Qle_shift_div_r; [exact Hd|nra]].
Qed.

(** ** The report of pr_measure *)
Lemma dset_all_get {V} (fs : list (gram * V)) g : forall d,
  dget gram_eqb g (fold_left (fun d gf => dset gram_eqb (fst gf) (snd gf) d) fs d) =
  match dget gram_eqb g (rev fs) with Some v => Some v | None => dget gram_eqb g d end.
Proof.
  induction fs as [|[k v] fs IH] using rev_ind; intros d; [reflexivity|]. rewrite fold_left_app, rev_app_distr. cbn [fold_left rev app dget fst snd].
  rewrite (dget_dset gram_eqb gram_eqb_eq). destruct (gram_eqb g k); [reflexivity|apply IH].
Qed.
Lemma dset_all_NoDup {V} (fs : list (gram * V)) : forall d, NoDup (dkeys d) -> NoDup (dkeys (fold_left (fun d gf => dset gram_eqb (fst gf) (snd gf) d) fs d)).
Proof. induction fs as [|[k v] fs IH]; intros d H; cbn [fold_left]; [exact H|]. apply IH, (dset_NoDup gram_eqb gram_eqb_eq), H. Qed.
Lemma dget_app {V} g (a b : list (gram * V)) : dget gram_eqb g (a ++ b) = match dget gram_eqb g a with Some v => Some v | None => dget gram_eqb g b end.
Proof. induction a as [|[k v] a IH]; cbn [app dget]; [reflexivity|]. destruct (gram_eqb g k); [reflexivity|exact IH]. Qed.
Lemma last_entry_get {V} (fs : list (gram * V)) g v : dget gram_eqb g (rev fs) = Some v <-> last_entry fs g v.
Proof.
  split.
  - induction fs as [|[k u] fs IH]; [discriminate|]. cbn [rev]. rewrite dget_app. destruct (dget gram_eqb g (rev fs)) as [w|] eqn:E.
    + intros H. injection H as ->. destruct (IH eq_refl) as (a & b & -> & Hb). exists ((k, u) :: a), b. auto.
    + cbn [dget]. destruct (gram_eqb g k) eqn:Ek; [|discriminate]. intros H. injection H as ->. apply gram_eqb_eq in Ek. subst k.
      exists [], fs. split; [reflexivity|]. apply (dget_None gram_eqb gram_eqb_eq) in E. unfold dkeys in E. rewrite map_rev, <- in_rev in E. exact E.
  - intros (a & b & -> & Hb). rewrite rev_app_distr. cbn [rev]. rewrite <- app_assoc, dget_app.
    destruct (dget gram_eqb g (rev b)) eqn:E.
    + apply (dget_Some_key gram_eqb gram_eqb_eq) in E. unfold dkeys in E. rewrite map_rev, <- in_rev in E. contradiction.
    + cbn [app dget]. rewrite (proj2 (gram_eqb_eq g g) eq_refl). reflexivity.
Qed.
Lemma dset_const_get gs g : forall d : list (gram * Z), dget gram_eqb g (fold_left (fun d g => dset gram_eqb g (-1) d) gs d) =
  if existsb (gram_eqb g) gs then Some (-1) else dget gram_eqb g d.
Proof.
  induction gs as [|k gs IH]; intros d; cbn [fold_left existsb]; [reflexivity|]. rewrite IH, (dget_dset gram_eqb gram_eqb_eq).
  destruct (existsb (gram_eqb g) gs); [rewrite orb_true_r; reflexivity|]. rewrite orb_false_r. reflexivity.
Qed.
Lemma dset_const_NoDup gs : forall d : list (gram * Z), NoDup (dkeys d) -> NoDup (dkeys (fold_left (fun d g => dset gram_eqb g (-1) d) gs d)).
Proof. induction gs as [|k gs IH]; intros d H; cbn [fold_left]; [exact H|]. apply IH, (dset_NoDup gram_eqb gram_eqb_eq), H. Qed.
Lemma In_dget_iff {V} (d : list (gram * V)) g v : NoDup (dkeys d) -> (In (g, v) d <-> dget gram_eqb g d = Some v).
Proof. intros H. split; [apply (In_dget gram_eqb gram_eqb_eq), H|apply (dget_In gram_eqb gram_eqb_eq)]. Qed.
Lemma tab_get n pairs sc fr g : tabulates n pairs sc fr -> length g = n ->
  dget gram_eqb g fr = if 0 <? total_times g (map fst pairs) then Some (total_times g (map fst pairs)) else None.
Proof.
  intros (_ & Hnd & Hf) Hg. destruct (dget gram_eqb g fr) as [f|] eqn:E.
  - apply (dget_In gram_eqb gram_eqb_eq) in E. apply Hf in E as (_ & Hp & ->). apply Z.ltb_lt in Hp. rewrite Hp. reflexivity.
  - apply (dget_None gram_eqb gram_eqb_eq) in E. destruct (Z.ltb_spec 0 (total_times g (map fst pairs))) as [Hp|]; [|reflexivity].
    exfalso. apply E. apply in_map_iff. exists (g, total_times g (map fst pairs)). split; [reflexivity|]. apply Hf. auto.
Qed.
Lemma tab_key n pairs sc fr g : tabulates n pairs sc fr -> (In g (dkeys fr) <-> length g = n /\ 0 < total_times g (map fst pairs)).
Proof.
  intros (_ & Hnd & Hf). unfold dkeys. rewrite in_map_iff. split.
  - intros ([g' f] & <- & H). apply Hf in H as (? & ? & ->). auto.
  - intros [H1 H2]. exists (g, total_times g (map fst pairs)). split; [reflexivity|]. apply Hf. auto.
Qed.
Definition score_at rnd (dflt : Q) (g : gram) (pairs : list (list Z * list Z)) : Q :=
  if 0 <? total_times g (map fst pairs) then rounded_mean rnd g pairs else dflt.
Lemma tab_score rnd n pairs sc fr g dflt : tabulates n pairs sc fr -> (forall g v, In (g, v) sc -> v = rounded_mean rnd g pairs /\ having g pairs <> []) ->
  length g = n -> dget_def gram_eqb g dflt sc = score_at rnd dflt g pairs.
Proof.
  intros Ht Hv Hg. pose proof (tab_key _ _ _ _ g Ht) as Hk. unfold score_at, dget_def. destruct Ht as (Hs & Hnd & Hf).
  assert (Hk' : In g (dkeys sc) <-> length g = n /\ 0 < total_times g (map fst pairs)). { unfold dkeys in *. rewrite <- Hk. rewrite Hs. reflexivity. }
  destruct (dget gram_eqb g sc) as [v|] eqn:E.
  - pose proof (dget_Some_key gram_eqb gram_eqb_eq _ _ _ E) as Hin. apply Hk' in Hin as [_ Hp]. apply Z.ltb_lt in Hp. rewrite Hp.
    apply (dget_In gram_eqb gram_eqb_eq) in E. apply Hv in E. tauto.
  - apply (dget_None gram_eqb gram_eqb_eq) in E. destruct (Z.ltb_spec 0 (total_times g (map fst pairs))); [|reflexivity]. exfalso. apply E, Hk'. auto.
Qed.
Lemma tab_having rnd n pairs sc fr g : tabulates n pairs sc fr -> (forall g v, In (g, v) sc -> v = rounded_mean rnd g pairs /\ having g pairs <> []) ->
  length g = n -> 0 < total_times g (map fst pairs) -> having g pairs <> [].
Proof.
  intros Ht Hv Hg Hp. pose proof (proj2 (tab_key _ _ _ _ g Ht) (conj Hg Hp)) as Hk. destruct Ht as (Hs & _). unfold dkeys in Hk. rewrite <- Hs in Hk.
  apply in_map_iff in Hk as ([g' v] & E & Hin). cbn in E. subst g'. apply Hv in Hin. tauto.
Qed.
Definition row_gram (r : row) : gram := let '(g, _, _, _, _, _, _) := r in g.
Definition row_rank (r : row) : Z := let '(_, k, _, _, _, _, _) := r in k.
Definition row_of rnd (cands refs : list (list Z)) (r : row) : Prop :=
  let '(g, rank, rf, cf, rec, prec, f1) := r in
  rf = or_minus1 (total_times g refs) /\ cf = or_minus1 (total_times g cands) /\
  rec = score_at rnd 0%Q g (combine refs cands) /\ prec = score_at rnd 1%Q g (combine cands refs) /\
  unit_range rec /\ unit_range prec /\ unit_range f1 /\ f1_measure rnd prec rec = Ok f1.
Lemma map_fst_combine {A B} (a : list A) (b : list B) : length a = length b -> map fst (combine a b) = a.
Proof. revert b. induction a as [|x a IH]; intros [|y b] H; try discriminate; [reflexivity|]. cbn. f_equal. apply IH. cbn in H. lia. Qed.
Lemma mapM_rel {A B} (f : A -> res B) (P : A -> B -> Prop) l : (forall a, In a l -> exists b, f a = Ok b /\ P a b) -> exists bs, mapM f l = Ok bs /\ Forall2 P l bs.
Proof.
  induction l as [|a l IH]; intros H; [exists []; split; [reflexivity|constructor]|].
  destruct (H a (or_introl eq_refl)) as (b & E & Hb). destruct IH as (bs & Es & Hbs); [intros x Hx; apply H; right; exact Hx|].
  exists (b :: bs). cbn [mapM]. rewrite E. cbn [bind]. rewrite Es. split; [reflexivity|constructor; assumption].
Qed.
Theorem pr_rows_correct rnd cands refs n freqs : rounding rnd -> length cands = length refs -> Z.of_nat (length refs) <= 9007199254740992 ->
  exists rows, pr_rows rnd cands refs n freqs = Ok rows /\
    (forall g f, In (g, f) (map (fun r => (row_gram r, row_rank r)) rows) <-> length g = 1%nat /\ rank_of refs cands freqs g f) /\
    NoDup (map row_gram rows) /\ StronglySorted (fun a b => row_rank b <= row_rank a) rows /\ Forall (row_of rnd cands refs) rows.
Proof.
  intros Hr Hl Hn. unfold pr_rows, assert_. rewrite Hl, Nat.eqb_refl. cbn [bind].
  destruct (gram_recall_spec rnd cands refs 1 ltac:(lia)) as (recalls & ref_freqs & precs & cand_freqs & -> & Ht1 & Hv1 & Ht2 & Hv2). cbn [bind].
  change (Z.to_nat 1) with 1%nat in *.
  match goal with |- context [sorted_desc snd ?d] => set (gf := d) end.
  assert (Hgf : NoDup (dkeys gf) /\ forall g f, In (g, f) gf <-> length g = 1%nat /\ rank_of refs cands freqs g f).
  { assert (Hk1 : forall g, In g (dkeys ref_freqs) <-> length g = 1%nat /\ 0 < total_times g refs).
    { intros g. rewrite (tab_key _ _ _ _ g Ht1), map_fst_combine by congruence. reflexivity. }
    assert (Hk2 : forall g, In g (dkeys cand_freqs) <-> length g = 1%nat /\ 0 < total_times g cands).
    { intros g. rewrite (tab_key _ _ _ _ g Ht2), map_fst_combine by congruence. reflexivity. }
    subst gf. destruct freqs as [fs|]; cbn [rank_of].
    - set (d1 := fold_left (fun d gf => dset gram_eqb (fst gf) (snd gf) d) fs []).
      set (p := fun gf : gram * Z => dmem gram_eqb (fst gf) ref_freqs || dmem gram_eqb (fst gf) cand_freqs).
      set (d2 := filter p d1).
      assert (Hd1 : NoDup (dkeys d1)) by (apply dset_all_NoDup; constructor).
      assert (Hd2 : NoDup (dkeys d2)) by (apply NoDup_map_filter, Hd1).
      split; [apply dset_const_NoDup, Hd2|]. intros g f. rewrite In_dget_iff by (apply dset_const_NoDup, Hd2). rewrite dset_const_get.
      assert (Hi1 : forall g f, In (g, f) d1 <-> last_entry fs g f).
      { intros g' f'. rewrite In_dget_iff by exact Hd1. unfold d1. rewrite dset_all_get. rewrite <- last_entry_get. destruct (dget gram_eqb g' (rev fs)); [reflexivity|]. cbn. split; discriminate. }
      assert (Hp : forall g f, p (g, f) = true <-> (length g = 1%nat /\ (0 < total_times g refs \/ 0 < total_times g cands))).
      { intros g' f'. unfold p. cbn [fst]. rewrite orb_true_iff, !(dmem_spec gram_eqb gram_eqb_eq), Hk1, Hk2. tauto. }
      assert (Hi2 : forall g f, In (g, f) d2 <-> last_entry fs g f /\ length g = 1%nat /\ (0 < total_times g refs \/ 0 < total_times g cands)).
      { intros g' f'. unfold d2. rewrite filter_In, Hi1, Hp. reflexivity. }
      assert (Hex : existsb (gram_eqb g) (filter (fun g => negb (dmem gram_eqb g d2)) (dkeys ref_freqs)) = true <->
                    length g = 1%nat /\ 0 < total_times g refs /\ ~ In g (map fst fs)).
      { rewrite existsb_exists. split.
        - intros (g' & Hin & E). apply gram_eqb_eq in E. subst g'. apply filter_In in Hin as [Hin Hm]. apply Hk1 in Hin as [H1 H2]. split; [exact H1|]. split; [exact H2|].
          intros Hin. apply negb_true_iff in Hm. assert (Hm' : dmem gram_eqb g d2 = true); [|congruence]. apply (dmem_spec gram_eqb gram_eqb_eq).
          destruct (dget gram_eqb g (rev fs)) as [v|] eqn:E.
          + apply last_entry_get in E. apply in_map_iff. exists (g, v). split; [reflexivity|]. apply Hi2. auto.
          + apply (dget_None gram_eqb gram_eqb_eq) in E. unfold dkeys in E. rewrite map_rev, <- in_rev in E. contradiction.
        - intros (H1 & H2 & H3). exists g. split; [|apply gram_eqb_eq; reflexivity]. apply filter_In. split; [apply Hk1; auto|]. apply negb_true_iff.
          destruct (dmem gram_eqb g d2) eqn:E; [|reflexivity]. apply (dmem_spec gram_eqb gram_eqb_eq) in E. apply in_map_iff in E as ([g' v] & <- & E). apply Hi2 in E as [(a & b & -> & _) _].
          exfalso. apply H3. rewrite map_app, in_app_iff. right. left. reflexivity. }
      destruct (existsb _ _) eqn:E.
      + destruct Hex as [Hex _]. destruct (Hex eq_refl) as (H1 & H2 & H3). split.
        * intros Hf. injection Hf as <-. split; [exact H1|]. right. auto.
        * intros (_ & [[(a & b & -> & _) _]|(-> & _)]); [|reflexivity]. exfalso. apply H3. rewrite map_app, in_app_iff. right. left. reflexivity.
      + rewrite <- In_dget_iff by exact Hd2. rewrite Hi2. split; [tauto|]. intros (H1 & [[H2 H3]|(-> & H2 & H3)]); [tauto|].
        exfalso. assert (Ht : false = true) by (apply Hex; auto). discriminate.
    - split; [apply Ht1|]. intros g f. destruct Ht1 as (_ & _ & Hf). rewrite Hf, map_fst_combine by congruence. reflexivity. }
  destruct Hgf as [Hnd Hin].
  set (key := fun gr : gram * Z => fun r : row => row_gram r = fst gr /\ row_rank r = snd gr /\ row_of rnd cands refs r).
  match goal with |- context [mapM ?f ?l] => destruct (mapM_rel f key l) as (rows & -> & Hrows) end.
  { intros [g rank] Hgr. apply (Permutation_in _ (sorted_desc_perm _ _)) in Hgr. apply Hin in Hgr as [Hg _].
    rewrite (tab_score rnd _ _ _ _ g 0%Q Ht1 Hv1 Hg), (tab_score rnd _ _ _ _ g 1%Q Ht2 Hv2 Hg).
    unfold dget_def. rewrite (tab_get _ _ _ _ g Ht1 Hg), (tab_get _ _ _ _ g Ht2 Hg).
    assert (Hm1 : map fst (combine refs cands) = refs) by (apply map_fst_combine; congruence).
    assert (Hm2 : map fst (combine cands refs) = cands) by (apply map_fst_combine; congruence).
    assert (Hs : forall dflt pairs, (dflt = 0%Q \/ dflt = 1%Q) -> Z.of_nat (length pairs) <= 9007199254740992 -> (0 < total_times g (map fst pairs) -> having g pairs <> []) ->
               unit_range (score_at rnd dflt g pairs) /\ (rnd (score_at rnd dflt g pairs) == score_at rnd dflt g pairs)%Q).
    { intros dflt pairs Hd Hp Hh. unfold score_at. destruct (Z.ltb_spec 0 (total_times g (map fst pairs))) as [H|H].
      - split; [apply rounded_mean_unit; auto|apply rounded_mean_rep, Hr].
      - destruct Hd as [-> | ->]; (split; [split; discriminate|]); [apply rnd_0|apply rnd_1]; exact Hr. }
    destruct (Hs 0%Q (combine refs cands)) as [Hu1 _]; [auto|rewrite combine_length; lia|apply (tab_having rnd _ _ _ _ g Ht1 Hv1 Hg)|].
    destruct (Hs 1%Q (combine cands refs)) as [Hu2 Hrep]; [auto|rewrite combine_length; lia|apply (tab_having rnd _ _ _ _ g Ht2 Hv2 Hg)|].
    destruct (f1_bounds rnd Hr _ _ Hu2 Hu1 Hrep) as (f1 & E & Hf1). rewrite E. cbn [bind]. eexists. split; [reflexivity|].
    unfold key, row_gram, row_rank, row_of. cbn [fst snd]. split; [reflexivity|]. split; [reflexivity|]. rewrite Hm1, Hm2.
    split; [unfold or_minus1; destruct (0 <? total_times g refs); reflexivity|].
    split; [unfold or_minus1; destruct (0 <? total_times g cands); reflexivity|]. auto 10. }
  exists rows. split; [reflexivity|].
  assert (Hpair : map (fun r => (row_gram r, row_rank r)) rows = sorted_desc snd gf).
  { clear -Hrows. induction Hrows as [|[g k] r l rows (H1 & H2 & _) _ IH]; [reflexivity|]. cbn [map]. rewrite IH, H1, H2. reflexivity. }
  split; [|split; [|split]].
  - intros g f. rewrite Hpair. rewrite <- Hin. split; apply Permutation_in; [apply sorted_desc_perm|apply Permutation_sym, sorted_desc_perm].
  - replace (map row_gram rows) with (map fst (sorted_desc snd gf)); [|rewrite <- Hpair, map_map; reflexivity].
    eapply Permutation_NoDup; [apply Permutation_map, Permutation_sym, sorted_desc_perm|]. exact Hnd.
  - clear -Hpair. pose proof (sorted_desc_sorted' (@snd gram Z) gf) as Hs. rewrite <- Hpair in Hs. clear Hpair gf. induction rows as [|r rows IH]; [constructor|].
    cbn [map] in Hs. inversion Hs as [|? ? H1 H2]; subst. constructor; [apply IH, H1|]. rewrite Forall_map in H2. exact H2.
  - clear -Hrows. induction Hrows as [|? ? ? ? (_ & _ & H) _ IH]; constructor; assumption.
Qed.

(** ** Earth mover's distance *)
Lemma injz z : z <> 0 -> ~ (inject_Z z == 0)%Q.
Proof. intros Hz H. apply Hz. unfold Qeq, inject_Z in H. cbn in H. lia. Qed.
Lemma zsum_nonneg l : Forall (fun c => 0 <= c) l -> 0 <= zsum l.
Proof. induction 1 as [|c l H _ IH]; [reflexivity|]. rewrite zsum_cons. lia. Qed.
Lemma zsum_map_lin k S l : zsum (map (fun c => k * c - S) l) = k * zsum l - Z.of_nat (length l) * S.
Proof. induction l as [|c l IH]; [cbn; lia|]. cbn [map length]. rewrite !zsum_cons, IH. lia. Qed.
Lemma zsum_map_abs {A} (f : A -> Z) l : zsum (map (fun c => Z.abs (f c)) l) = 2 * zsum (map (fun c => Z.max 0 (f c)) l) - zsum (map f l).
Proof. induction l as [|c l IH]; [reflexivity|]. cbn [map]. rewrite !zsum_cons, IH. lia. Qed.
Lemma zsum_map_le {A} (f g : A -> Z) l : (forall c, In c l -> f c <= g c) -> zsum (map f l) <= zsum (map g l).
Proof. intros H. induction l as [|c l IH]; [reflexivity|]. cbn [map]. rewrite !zsum_cons. pose proof (H c (or_introl eq_refl)). assert (zsum (map f l) <= zsum (map g l)) by (apply IH; intros; apply H; right; assumption). lia. Qed.
Lemma zsum_map_eq {A} (f g : A -> Z) l : (forall c, In c l -> f c <= g c) -> zsum (map f l) = zsum (map g l) -> forall c, In c l -> f c = g c.
Proof.
  induction l as [|x l IH]; [intros _ _ c []|]. intros H E c [<-|Hc]; cbn [map] in E; rewrite !zsum_cons in E.
  - pose proof (H x (or_introl eq_refl)). pose proof (zsum_map_le f g l (fun c Hc => H c (or_intror Hc))). lia.
  - apply IH; [intros; apply H; right; assumption| |exact Hc]. pose proof (H x (or_introl eq_refl)). pose proof (zsum_map_le f g l (fun c Hc => H c (or_intror Hc))). lia.
Qed.
Lemma zsum_ge l c : Forall (fun c => 0 <= c) l -> In c l -> c <= zsum l.
Proof.
  intros H Hin. apply in_split in Hin as (a & b & ->). apply Forall_app in H as [Ha Hb]. inversion Hb; subst. rewrite zsum_app, zsum_cons.
  pose proof (zsum_nonneg _ Ha). pose proof (zsum_nonneg b). intuition lia.
Qed.
Lemma zsum_scale k l : zsum (map (fun c => k * c) l) = k * zsum l.
Proof. induction l as [|c l IH]; [cbn; lia|]. cbn [map]. rewrite !zsum_cons, IH. lia. Qed.
Lemma emd_eq_of stats : 0 < zsum stats -> exists v, EMD_simple stats 1 = Ok (Some v) /\ (v == emd_of stats)%Q.
Proof.
  intros Hs. assert (Hne : stats <> []) by (intros ->; cbn in Hs; lia). unfold EMD_simple, assert_. cbn [Qle_bool negb bind Qnum Qden Z.mul Z.leb Z.compare Pos.compare].
  destruct stats as [|c0 rest] eqn:E; [contradiction|]. rewrite <- E in *. destruct (Z.eqb_spec (zsum stats) 0); [lia|]. eexists. split; [reflexivity|].
  unfold emd_of. set (S := zsum stats) in *. set (k := Z.of_nat (length stats)). assert (Hk : 0 < k) by (subst k; rewrite E; cbn [length]; lia).
  rewrite map_map. clearbody S k. clear E Hne rest c0.
  assert (Hq : forall l, (fold_right Qplus 0 (map (fun x => Qabs (inject_Z x / inject_Z S - 1 / inject_Z k)) l) == inject_Z (zsum (map (fun c => Z.abs (k * c - S)) l)) / inject_Z (k * S))%Q).
  { induction l as [|c l IH]; cbn [map fold_right].
    - unfold zsum. cbn. reflexivity.
    - rewrite IH, zsum_cons, inject_Z_plus.
      assert (Hc : (Qabs (inject_Z c / inject_Z S - 1 / inject_Z k) == inject_Z (Z.abs (k * c - S)) / inject_Z (k * S))%Q).
      { assert (He : (inject_Z c / inject_Z S - 1 / inject_Z k == inject_Z (k * c - S) / inject_Z (k * S))%Q).
        { unfold Z.sub. rewrite inject_Z_plus, inject_Z_opp, !inject_Z_mult. field. split; apply injz; lia. }
        rewrite He. unfold Qdiv. rewrite Qabs_Qmult. apply Qmult_comp; [reflexivity|].
        apply Qabs_pos. apply Qinv_le_0_compat. change 0%Q with (inject_Z 0). rewrite <- Zle_Qle. nia. }
      rewrite Hc. field. apply injz; nia. }
  rewrite Hq. replace (2 * k * S) with (2 * (k * S)) by lia. rewrite (inject_Z_mult 2 (k * S)). change (inject_Z 2) with 2%Q. change (1 # 2)%Q with (/ 2)%Q. field. apply injz; nia.
Qed.
Section Emd.
  Variable stats : list Z.
  Hypothesis Hnn : Forall (fun c => 0 <= c) stats.
  Hypothesis Hpos : 0 < zsum stats.
  Let S := zsum stats.
  Let k := Z.of_nat (length stats).
  Lemma emd_k : 0 < k.
  Proof. subst k. destruct stats; [cbn in Hpos; lia|cbn [length]; lia]. Qed.
  Lemma emd_num : zsum (map (fun c => Z.abs (k * c - S)) stats) = 2 * zsum (map (fun c => Z.max 0 (k * c - S)) stats).
  Proof. rewrite (zsum_map_abs (fun c => k * c - S)), zsum_map_lin. fold k S. lia. Qed.
  Lemma emd_term c : In c stats -> Z.max 0 (k * c - S) <= (k - 1) * c.
  Proof. intros Hc. pose proof (zsum_ge _ _ Hnn Hc). pose proof emd_k. rewrite Forall_forall in Hnn. specialize (Hnn c Hc). fold S in H. nia. Qed.
  Lemma emd_bounds : (0 <= emd_of stats /\ emd_of stats <= 1 - 1 / inject_Z k)%Q.
  Proof.
    unfold emd_of. fold S k. rewrite emd_num. pose proof emd_k as Hk. fold S in Hpos. set (m := zsum (map (fun c => Z.max 0 (k * c - S)) stats)).
    assert (Hm0 : 0 <= m). { subst m. apply zsum_nonneg. apply Forall_map, Forall_forall. intros; lia. }
    assert (Hm1 : m <= (k - 1) * S). { subst m. unfold S at 2. rewrite <- zsum_scale. apply zsum_map_le. apply emd_term. }
    assert (Hd : (0 < inject_Z (2 * k * S))%Q) by (change 0%Q with (inject_Z 0); rewrite <- Zlt_Qlt; nia). split.
    - apply Qle_shift_div_l; [exact Hd|]. rewrite Qmult_0_l. change 0%Q with (inject_Z 0). rewrite <- Zle_Qle. lia.
    - apply Qle_shift_div_r; [exact Hd|]. assert (He : ((1 - 1 / inject_Z k) * inject_Z (2 * k * S) == inject_Z (2 * (k - 1) * S))%Q).
      { unfold Z.sub. rewrite !inject_Z_mult, inject_Z_plus. change (inject_Z 2) with 2%Q. change (inject_Z (- (1))) with (-(1))%Q. field. apply injz; lia. }
      rewrite He, <- Zle_Qle. lia.
  Qed.
  Lemma emd_div_eq a b : b <> 0 -> (inject_Z a / inject_Z b == 0)%Q <-> a = 0.
  Proof.
    intros Hb. split.
    - intros H. apply inject_Z_injective. change (inject_Z 0) with 0%Q. rewrite <- (Qmult_0_l (inject_Z b)), <- H. field. apply injz; assumption.
    - intros ->. unfold Qdiv. apply Qmult_0_l.
  Qed.
  Lemma emd_zero : (emd_of stats == 0)%Q <-> (forall a b, In a stats -> In b stats -> a = b).
  Proof.
    pose proof emd_k as Hk. fold S in Hpos. unfold emd_of. fold S k. rewrite emd_div_eq by nia. split.
    - intros H. assert (Hall : forall c, In c stats -> k * c = S).
      { intros c Hc. pose proof (zsum_map_eq (fun _ => 0) (fun c => Z.abs (k * c - S)) stats (fun c _ => Z.abs_nonneg _)) as He. cbn beta in He.
        assert (H0 : zsum (map (fun _ : Z => 0) stats) = 0) by (clear; induction stats as [|x l IH]; [reflexivity|]; cbn [map]; rewrite zsum_cons; lia).
        specialize (He ltac:(lia) c Hc). lia. }
      intros a b Ha Hb. pose proof (Hall a Ha). pose proof (Hall b Hb). nia.
    - intros H. assert (Hall : forall c, In c stats -> k * c = S).
      { intros c Hc. subst k S. clear Hpos Hk. assert (Hg : forall l, (forall x, In x l -> x = c) -> Z.of_nat (length l) * c = zsum l).
        { induction l as [|x l IH]; intros Hl; [reflexivity|]. cbn [length]. rewrite zsum_cons, <- IH by (intros; apply Hl; right; assumption). rewrite (Hl x (or_introl eq_refl)). lia. }
        apply Hg. intros x Hx. apply H; assumption. }
      assert (Hz : forall l, (forall c, In c l -> k * c = S) -> zsum (map (fun c => Z.abs (k * c - S)) l) = 0).
      { induction l as [|x l IH]; intros Hl; [reflexivity|]. cbn [map]. rewrite zsum_cons, IH by (intros; apply Hl; right; assumption). rewrite (Hl x (or_introl eq_refl)). lia. }
      apply Hz, Hall.
  Qed.
  Lemma emd_max : (emd_of stats == 1 - 1 / inject_Z k)%Q <-> (forall c, In c stats -> c = 0 \/ c = S).
  Proof.
    pose proof emd_k as Hk. fold S in Hpos. unfold emd_of. fold S k. rewrite emd_num. set (m := zsum (map (fun c => Z.max 0 (k * c - S)) stats)).
    assert (He : (inject_Z (2 * m) / inject_Z (2 * k * S) == 1 - 1 / inject_Z k)%Q <-> m = (k - 1) * S).
    { assert (Hkq : ~ (inject_Z k == 0)%Q) by (apply injz; lia).
      assert (HSq : ~ (inject_Z S == 0)%Q) by (apply injz; lia).
      split.
      - intros H. apply inject_Z_injective. unfold Z.sub. rewrite inject_Z_mult, inject_Z_plus. change (inject_Z (- (1))) with (-(1))%Q.
        assert (H2 : (inject_Z (2 * m) / inject_Z (2 * k * S) * (inject_Z k * inject_Z S) == (1 - 1 / inject_Z k) * (inject_Z k * inject_Z S))%Q) by (rewrite H; reflexivity).
        rewrite !inject_Z_mult in H2. change (inject_Z 2) with 2%Q in H2.
        assert (H3 : (2 * inject_Z m / (2 * inject_Z k * inject_Z S) * (inject_Z k * inject_Z S) == inject_Z m)%Q) by (field; auto).
        assert (H4 : ((1 - 1 / inject_Z k) * (inject_Z k * inject_Z S) == (inject_Z k + - (1)) * inject_Z S)%Q) by (field; auto).
        rewrite <- H4, <- H2, H3. reflexivity.
      - intros ->. unfold Z.sub. rewrite !inject_Z_mult, inject_Z_plus. change (inject_Z 2) with 2%Q. change (inject_Z (- (1))) with (-(1))%Q. field. auto. }
    rewrite He. subst m. unfold S at 2. rewrite <- zsum_scale. split.
    - intros H c Hc. pose proof (zsum_map_eq _ _ stats emd_term H c Hc) as Ht. cbn beta in Ht. pose proof (zsum_ge _ _ Hnn Hc). fold S in H0. rewrite Forall_forall in Hnn. specialize (Hnn c Hc).
      destruct (Z.eq_dec k 1) as [Hk1|Hk1].
      + right. subst k S. destruct stats as [|x [|y l]]; cbn [length] in Hk1; try lia. destruct Hc as [->|[]]. cbn. lia.
      + destruct (Z.max_spec 0 (k * c - S)) as [[_ E]|[_ E]]; rewrite E in Ht; nia.
    - intros H. assert (Hg : forall l, (forall c, In c l -> In c stats) -> zsum (map (fun c => Z.max 0 (k * c - S)) l) = zsum (map (fun c => (k - 1) * c) l)).
      { induction l as [|x l IH]; intros Hl; [reflexivity|]. cbn [map]. rewrite !zsum_cons, IH by (intros; apply Hl; right; assumption). destruct (H x (Hl x (or_introl eq_refl))) as [-> | ->]; nia. }
      apply Hg. auto.
  Qed.
End Emd.
Lemma emd_perm a b : Permutation a b -> emd_of a = emd_of b.
Proof.
  intros H. unfold emd_of. rewrite (zsum_perm _ _ H), (Permutation_length H).
  rewrite (zsum_perm _ _ (Permutation_map (fun c => Z.abs (Z.of_nat (length b) * c - zsum b)) H)). reflexivity.
Qed.

(** ** Quality estimation *)
Lemma encode_valid k table s line : (k = KWord \/ k = KChar \/ (k = KBpe /\ well_indexed table)) -> make_scheme k table = Ok s ->
  exists ids, encode s line = Ok ids /\ Forall (valid_id table) ids.
Proof.
  assert (Hid : forall T, starts_reserved T -> forall w i, id_of T w i -> valid_id T i).
  { intros T Hs w i [H|[-> _]]; [eapply name_at_valid; exact H|]. unfold starts_reserved in Hs. apply (f_equal (@length str)) in Hs. rewrite firstn_length, map_length in Hs. change (length reserved_names) with 6%nat in Hs. unfold valid_id. lia. }
  intros [-> |[-> |[-> Hw]]] H.
  - pose proof (proj1 (make_flat_inv KWord table s (or_introl eq_refl)) H) as (Hs & _). destruct (word_ids table s line H) as (ws & ids & _ & _ & E & Hf & _).
    exists ids. split; [exact E|]. clear E. induction Hf; constructor; eauto.
  - pose proof (proj1 (make_flat_inv KChar table s (or_intror eq_refl)) H) as (Hs & _). destruct (char_ids table s line H) as (ws & ids & _ & _ & E & Hf & _).
    exists ids. split; [exact E|]. clear E. induction Hf; constructor; eauto.
  - destruct (bpe_total table s line H Hw) as (_ & _ & ids & _ & _ & _ & _ & E & _ & Hf). exists ids. auto.
Qed.
Lemma made_table k table s : k <> KByte -> make_scheme k table = Ok s -> s_table s = table.
Proof.
  intros Hk H. destruct k; try contradiction.
  - apply make_flat_inv in H as (_ & _ & ->); [reflexivity|auto].
  - apply make_flat_inv in H as (_ & _ & ->); [reflexivity|auto].
  - apply make_bpe_inv in H as (_ & _ & ->). reflexivity.
  - apply make_class_inv in H as (_ & ->). reflexivity.
Qed.
Lemma made_unk k table s : (k = KWord \/ k = KChar \/ k = KBpe) -> make_scheme k table = Ok s -> s_unk s = Some 1 /\ starts_reserved table.
Proof.
  intros [-> |[-> | ->]] H.
  - apply make_flat_inv in H as (Hs & _ & ->); auto.
  - apply make_flat_inv in H as (Hs & _ & ->); auto.
  - apply make_bpe_inv in H as (Hs & _ & ->). auto.
Qed.
(* counts of the ids 0 .. n-1 *)
Definition id_counts (n : nat) (ids : list Z) : list Z := map (fun i => count_id (Z.of_nat i) ids) (seq 0 n).
Lemma id_counts_nil n : id_counts n [] = repeat 0 n.
Proof. unfold id_counts. generalize 0%nat. induction n as [|n IH]; intros a; [reflexivity|]. cbn [seq map repeat]. f_equal. apply IH. Qed.
Lemma id_counts_length n ids : length (id_counts n ids) = n.
Proof. unfold id_counts. rewrite map_length, seq_length. reflexivity. Qed.
Lemma id_counts_nth n ids i : (i < n)%nat -> nth_error (id_counts n ids) i = Some (count_id (Z.of_nat i) ids).
Proof.
  intros H. unfold id_counts. rewrite nth_error_map, (nth_error_nth' _ 0%nat) by (rewrite seq_length; exact H). rewrite seq_nth by exact H. reflexivity.
Qed.
Lemma nth_error_firstn_lt {A} (l : list A) n i : (i < n)%nat -> nth_error (firstn n l) i = nth_error l i.
Proof. revert n i. induction l as [|x l IH]; intros [|n] [|i] H; try lia; try reflexivity. cbn. apply IH. lia. Qed.
Lemma nth_error_skipn_add {A} (l : list A) n i : nth_error (skipn n l) i = nth_error l (n + i).
Proof. revert n. induction l as [|x l IH]; intros [|n]; try reflexivity; [destruct i; reflexivity|]. cbn. apply IH. Qed.
Lemma nth_error_ext {A} (a b : list A) : (forall i, nth_error a i = nth_error b i) -> a = b.
Proof.
  revert b. induction a as [|x a IH]; intros [|y b] H; [reflexivity|specialize (H 0%nat); discriminate|specialize (H 0%nat); discriminate|].
  pose proof (H 0%nat) as H0. cbn in H0. injection H0 as ->. f_equal. apply IH. intros i. exact (H (S i)).
Qed.
Lemma py_incr_counts n ids i : 0 <= i < Z.of_nat n -> py_incr (id_counts n ids) i = Ok (id_counts n (ids ++ [i])).
Proof.
  intros Hi. unfold py_incr, py_index. rewrite id_counts_length. destruct (Z.leb_spec 0 i); [|lia]. destruct (Z.ltb_spec i (Z.of_nat n)); [|lia].
  f_equal. apply nth_error_ext. intros j.
  assert (Hl : length (firstn (Z.to_nat i) (id_counts n ids)) = Z.to_nat i) by (rewrite firstn_length, id_counts_length; lia).
  assert (Hc : forall j, count_id j (ids ++ [i]) = count_id j ids + if Z.eq_dec i j then 1 else 0).
  { intros j'. unfold count_id. rewrite count_occ_app. cbn [count_occ]. destruct (Z.eq_dec i j'); lia. }
  destruct (Nat.lt_ge_cases j n) as [Hj|Hj].
  - rewrite id_counts_nth by exact Hj. rewrite Hc. destruct (Nat.lt_trichotomy j (Z.to_nat i)) as [Hlt|[->|Hgt]].
    + rewrite nth_error_app1 by lia. rewrite nth_error_firstn_lt by lia. rewrite id_counts_nth by exact Hj. destruct (Z.eq_dec i (Z.of_nat j)); [lia|]. f_equal. lia.
    + rewrite nth_error_app2 by lia. rewrite Hl, Nat.sub_diag. cbn [nth_error]. rewrite (nth_error_nth _ _ _ (id_counts_nth n ids (Z.to_nat i) Hj)). destruct (Z.eq_dec i (Z.of_nat (Z.to_nat i))); [reflexivity|lia].
    + rewrite nth_error_app2 by lia. rewrite Hl. destruct (j - Z.to_nat i)%nat as [|m] eqn:E; [lia|]. cbn [nth_error]. rewrite nth_error_skipn_add. replace (Datatypes.S (Z.to_nat i) + m)%nat with j by lia.
      rewrite id_counts_nth by exact Hj. destruct (Z.eq_dec i (Z.of_nat j)); [lia|]. f_equal. lia.
  - rewrite (proj2 (nth_error_None _ _)), (proj2 (nth_error_None _ _)); [reflexivity|rewrite id_counts_length; lia|].
    rewrite app_length, Hl. cbn [length]. rewrite skipn_length, id_counts_length. lia.
Qed.
Lemma foldM_incr n seq : Forall (fun i => 0 <= i < Z.of_nat n) seq -> forall ids, foldM py_incr seq (id_counts n ids) = Ok (id_counts n (ids ++ seq)).
Proof.
  induction 1 as [|i seq Hi _ IH]; intros ids; cbn [foldM]; [rewrite app_nil_r; reflexivity|]. rewrite py_incr_counts by exact Hi. rewrite IH, <- app_assoc. reflexivity.
Qed.
Lemma id_counts_sum n ids : Forall (fun i => 0 <= i < Z.of_nat n) ids -> zsum (id_counts n ids) = Z.of_nat (length ids).
Proof.
  intros H. induction ids as [|i ids IH].
  - rewrite id_counts_nil. cbn. clear. induction n as [|n IH]; [reflexivity|]. cbn [repeat]. rewrite zsum_cons. lia.
  - inversion H as [|? ? Hi Hr]; subst. specialize (IH Hr). cbn [length].
    assert (Hg : forall a m, zsum (map (fun j => count_id (Z.of_nat j) (i :: ids)) (seq a m)) = zsum (map (fun j => count_id (Z.of_nat j) ids) (seq a m)) + if (Z.of_nat a <=? i) && (i <? Z.of_nat (a + m)) then 1 else 0).
    { intros a m. revert a. induction m as [|m IHm]; intros a; cbn [seq map].
      - replace (a + 0)%nat with a by lia. destruct (Z.leb_spec (Z.of_nat a) i), (Z.ltb_spec i (Z.of_nat a)); cbn; lia.
      - rewrite !zsum_cons, IHm. unfold count_id at 1 3. cbn [count_occ]. replace (a + Datatypes.S m)%nat with (Datatypes.S a + m)%nat by lia.
        destruct (Z.eq_dec i (Z.of_nat a)) as [E|E]; destruct (Z.leb_spec (Z.of_nat (Datatypes.S a)) i), (Z.ltb_spec i (Z.of_nat (Datatypes.S a + m))), (Z.leb_spec (Z.of_nat a) i); cbn [andb]; lia. }
    unfold id_counts in *. rewrite Hg, IH. destruct (Z.leb_spec (Z.of_nat 0) i), (Z.ltb_spec i (Z.of_nat (0 + n))); cbn [andb]; lia.
Qed.
Lemma id_counts_nonneg n ids : Forall (fun c => 0 <= c) (id_counts n ids).
Proof. unfold id_counts. apply Forall_map, Forall_forall. intros i _. unfold count_id. lia. Qed.
Lemma estimate_fold s n lines seqs : Forall2 (fun line seq => encode s line = Ok seq) lines seqs -> Forall (Forall (fun i => 0 <= i < Z.of_nat n)) seqs ->
  forall ids k, foldM (fun st line => let '(stats, n) := st : list Z * Z in
             let* seq := encode s line in let* stats := foldM py_incr seq stats in Ok (stats, n + 1)) lines (id_counts n ids, k)
  = Ok (id_counts n (ids ++ concat seqs), k + Z.of_nat (length lines)).
Proof.
  induction 1 as [|line seq lines seqs E _ IH]; intros Hv ids k; cbn [foldM].
  - cbn. rewrite app_nil_r, Z.add_0_r. reflexivity.
  - inversion Hv; subst. rewrite E. cbn [bind]. rewrite foldM_incr by assumption. cbn [bind]. rewrite IH by assumption. cbn [concat length]. rewrite <- app_assoc. do 2 f_equal. lia.
Qed.
Theorem estimate_correct k table s lines : (k = KWord \/ k = KChar \/ (k = KBpe /\ well_indexed table)) -> make_scheme k table = Ok s -> lines <> [] ->
  exists seqs q, Forall2 (fun line seq => encode s line = Ok seq) lines seqs /\ estimate s lines = Ok q /\
    q_n_types q = Z.of_nat (length table) /\ q_n_tokens q = Z.of_nat (length (concat seqs)) /\
    q_unk_count q = count_id 1 (concat seqs) /\
    (q_mean_seq_len q * inject_Z (Z.of_nat (length lines)) == inject_Z (Z.of_nat (length (concat seqs))))%Q /\
    (concat seqs = [] -> q_imbalance q = None) /\
    (concat seqs <> [] -> exists v, q_imbalance q = Some v /\ (v == emd_of (id_counts (length table) (concat seqs)))%Q).
Proof.
  intros Hk H Hne. assert (Hk' : k = KWord \/ k = KChar \/ k = KBpe) by tauto.
  assert (Ht : s_table s = table) by (apply (made_table k); [destruct Hk' as [-> |[-> | ->]]; discriminate|exact H]).
  destruct (made_unk k table s Hk' H) as [Hu Hs].
  assert (He : exists seqs, Forall2 (fun line seq => encode s line = Ok seq) lines seqs /\ Forall (Forall (fun i => 0 <= i < Z.of_nat (length table))) seqs).
  { clear Hne. induction lines as [|line lines (seqs & H1 & H2)]; [exists []; split; constructor|]. destruct (encode_valid k table s line Hk H) as (ids & E & Hv). exists (ids :: seqs). split; constructor; assumption. }
  destruct He as (seqs & H1 & H2). exists seqs. unfold estimate. rewrite Ht, <- id_counts_nil. rewrite (estimate_fold s (length table) lines seqs H1 H2). cbn [bind app].
  assert (Hv : Forall (fun i => 0 <= i < Z.of_nat (length table)) (concat seqs)).
  { clear -H2. induction H2; cbn; [constructor|]. apply Forall_app. auto. }
  assert (Hlen : (6 <= length table)%nat). { unfold starts_reserved in Hs. apply (f_equal (@length str)) in Hs. rewrite firstn_length, map_length in Hs. change (length reserved_names) with 6%nat in Hs. lia. }
  assert (Hp : 0 < Z.of_nat (length lines)) by (destruct lines; [contradiction|cbn [length]; lia]).
  destruct (Z.eqb_spec (0 + Z.of_nat (length lines)) 0); [lia|]. rewrite Hu.
  assert (Hunk : py_nth (id_counts (length table) (concat seqs)) 1 = Ok (count_id 1 (concat seqs))).
  { apply py_nth_nonneg; [lia|]. apply id_counts_nth. change (Z.to_nat 1) with 1%nat. lia. }
  rewrite Hunk. cbn [bind]. rewrite id_counts_sum by exact Hv.
  assert (Hmean : (inject_Z (Z.of_nat (length (concat seqs))) / inject_Z (0 + Z.of_nat (length lines)) * inject_Z (Z.of_nat (length lines)) == inject_Z (Z.of_nat (length (concat seqs))))%Q).
  { rewrite Z.add_0_l. field. apply injz. lia. }
  destruct (list_eq_dec Z.eq_dec (concat seqs) []) as [E|E].
  - assert (Hem : EMD_simple (id_counts (length table) (concat seqs)) 1 = Ok None).
    { unfold EMD_simple, assert_. cbn [Qle_bool negb bind Qnum Qden Z.mul Z.leb Z.compare Pos.compare]. rewrite id_counts_sum by exact Hv. rewrite E. cbn [length Z.of_nat Z.eqb].
      destruct (id_counts (length table) []) eqn:E2; [|reflexivity]. apply (f_equal (@length Z)) in E2. rewrite id_counts_length in E2. cbn in E2. lia. }
    rewrite Hem. cbn [bind]. eexists. split; [exact H1|]. split; [reflexivity|]. cbn. tauto.
  - destruct (emd_eq_of (id_counts (length table) (concat seqs))) as (v & Ev & Hve).
    { rewrite id_counts_sum by exact Hv. destruct (concat seqs); [contradiction|cbn [length]; lia]. }
    rewrite Ev. cbn [bind]. eexists. split; [exact H1|]. split; [reflexivity|]. cbn [q_n_types q_n_tokens q_unk_count q_mean_seq_len q_imbalance].
    split; [reflexivity|]. split; [reflexivity|]. split; [reflexivity|]. split; [exact Hmean|]. split; [contradiction|]. intros _. exists v. auto.
Qed.
Lemma estimate_no_lines s : estimate s [] = Raise ZeroDivisionError.
Proof. reflexivity. Qed.
(* negative ids index from the end *)
Definition wrap (n i : Z) : Z := if i <? 0 then n + i else i.
Lemma py_incr_wrap stats i : py_incr stats i = py_incr stats (wrap (Z.of_nat (length stats)) i) \/ i < - Z.of_nat (length stats).
Proof.
  unfold wrap. destruct (Z.ltb_spec i 0); [|auto]. destruct (Z.lt_ge_cases i (- Z.of_nat (length stats))) as [?|Hge]; [auto|]. left.
  unfold py_incr, py_index. destruct (Z.leb_spec 0 i); [lia|]. destruct (Z.leb_spec (- Z.of_nat (length stats)) i); [|lia].
  destruct (Z.leb_spec 0 (Z.of_nat (length stats) + i)); [|lia]. destruct (Z.ltb_spec (Z.of_nat (length stats) + i) (Z.of_nat (length stats))); [|lia]. reflexivity.
Qed.
Lemma estimate_fold_class s n lines seqs : Forall2 (fun line seq => encode s line = Ok seq) lines seqs -> Forall (Forall (fun i => - Z.of_nat n <= i < Z.of_nat n)) seqs ->
  forall ids k, foldM (fun st line => let '(stats, n) := st : list Z * Z in
             let* seq := encode s line in let* stats := foldM py_incr seq stats in Ok (stats, n + 1)) lines (id_counts n ids, k)
  = Ok (id_counts n (ids ++ map (wrap (Z.of_nat n)) (concat seqs)), k + Z.of_nat (length lines)).
Proof.
  assert (Hi : forall seq, Forall (fun i => - Z.of_nat n <= i < Z.of_nat n) seq -> forall ids, foldM py_incr seq (id_counts n ids) = Ok (id_counts n (ids ++ map (wrap (Z.of_nat n)) seq))).
  { induction 1 as [|i seq Hi _ IH]; intros ids; cbn [foldM map]; [rewrite app_nil_r; reflexivity|].
    destruct (py_incr_wrap (id_counts n ids) i) as [E|E]; [|rewrite id_counts_length in E; lia]. rewrite id_counts_length in E. rewrite E.
    rewrite py_incr_counts by (unfold wrap; destruct (Z.ltb_spec i 0); lia). rewrite IH, <- app_assoc. reflexivity. }
  induction 1 as [|line seq lines seqs E _ IH]; intros Hv ids k; cbn [foldM].
  - cbn. rewrite app_nil_r, Z.add_0_r. reflexivity.
  - inversion Hv; subst. rewrite E. cbn [bind]. rewrite Hi by assumption. cbn [bind]. rewrite IH by assumption. cbn [concat length]. rewrite map_app, <- app_assoc. do 2 f_equal. lia.
Qed.
Theorem estimate_class table s lines : make_scheme KClass table = Ok s -> table <> [] -> lines <> [] ->
  exists ids q, Forall2 (fun line i => encode s line = Ok [i]) lines ids /\ estimate s lines = Ok q /\
    q_n_types q = Z.of_nat (length table) /\ q_n_tokens q = Z.of_nat (length lines) /\
    q_unk_count q = count_id (-1) ids + count_id (Z.of_nat (length table) - 1) ids.
Proof.
  intros H Htn Hne. assert (Ht : s_table s = table) by (apply (made_table KClass); [discriminate|exact H]).
  assert (Hu : s_unk s = Some (-1)) by (apply make_class_inv in H as (_ & ->); reflexivity).
  set (n := length table) in *. assert (Hn : 0 < Z.of_nat n) by (subst n; destruct table; [contradiction|cbn [length]; lia]).
  assert (He : exists ids, Forall2 (fun line i => encode s line = Ok [i]) lines ids /\ Forall (fun i => -1 <= i < Z.of_nat n) ids).
  { clear Hne. induction lines as [|line lines (ids & H1 & H2)]; [exists []; split; constructor|].
    assert (Hl : exists i, encode s line = Ok [i] /\ -1 <= i < Z.of_nat n).
    { destruct (class_labels table s H) as [Hc _]. destruct (strip_decomp line) as (g1 & g2 & Hg1 & Hg2 & E).
      destruct (Hc line (strip line) g1 g2 E Hg1 Hg2 (strip_stripped line)) as [Hc1 Hc2].
      destruct (has_name_dec table (strip line)) as [Hh|Hh].
      - apply has_name_at in Hh as (i & Hi). exists i. split; [apply Hc1, Hi|]. apply name_at_valid in Hi. unfold valid_id in Hi. fold n in Hi. lia.
      - exists (-1). split; [apply Hc2, Hh|lia]. }
    destruct Hl as (i & E & Hi). exists (i :: ids). split; constructor; assumption. }
  destruct He as (ids & H1 & H2). exists ids.
  assert (H1' : Forall2 (fun line seq => encode s line = Ok seq) lines (map (fun i => [i]) ids)) by (clear -H1; induction H1; constructor; assumption).
  assert (Hlen : length ids = length lines) by (clear -H1; induction H1; cbn; congruence).
  assert (Hcc : concat (map (fun i : Z => [i]) ids) = ids) by (clear; induction ids as [|i ids IH]; [reflexivity|]; cbn; rewrite IH; reflexivity).
  unfold estimate. rewrite Ht. fold n. rewrite <- id_counts_nil. rewrite (estimate_fold_class s n lines _ H1').
  2:{ apply Forall_map. eapply Forall_impl; [|exact H2]. cbn. intros i Hi. constructor; [lia|constructor]. }
  cbn [bind app]. rewrite Hcc.
  assert (Hv : Forall (fun i => 0 <= i < Z.of_nat n) (map (wrap (Z.of_nat n)) ids)).
  { apply Forall_map. eapply Forall_impl; [|exact H2]. cbn. intros i Hi. unfold wrap. destruct (Z.ltb_spec i 0); lia. }
  assert (Hp : 0 < Z.of_nat (length lines)) by (destruct lines; [contradiction|cbn [length]; lia]).
  destruct (Z.eqb_spec (0 + Z.of_nat (length lines)) 0); [lia|]. rewrite Hu, (id_counts_sum _ _ Hv), map_length, Hlen.
  assert (Hunk : py_nth (id_counts n (map (wrap (Z.of_nat n)) ids)) (-1) = Ok (count_id (-1) ids + count_id (Z.of_nat n - 1) ids)).
  { unfold py_nth, py_index. rewrite id_counts_length. destruct (Z.leb_spec 0 (-1)); [lia|]. destruct (Z.leb_spec (- Z.of_nat n) (-1)); [|lia].
    rewrite id_counts_nth by lia. f_equal. rewrite Z2Nat.id by lia. clear -H2 Hn. unfold count_id. induction H2 as [|i ids Hi _ IH]; [reflexivity|].
    cbn [map count_occ]. destruct (Z.eq_dec (wrap (Z.of_nat n) i) (Z.of_nat n + -1)) as [Ew|Ew]; unfold wrap in Ew; destruct (Z.ltb_spec i 0);
    destruct (Z.eq_dec i (-1)), (Z.eq_dec i (Z.of_nat n - 1)); lia. }
  rewrite Hunk. cbn [bind].
  destruct (emd_eq_of (id_counts n (map (wrap (Z.of_nat n)) ids))) as (v & Ev & _); [rewrite (id_counts_sum _ _ Hv), map_length; lia|].
  rewrite Ev. cbn [bind]. eexists. split; [exact H1|]. split; [reflexivity|]. cbn. auto.
Qed.

(** ** Out-of-vocabulary counts *)
Lemma oov_freqs_eq inp : forall d, fold_left (fun tfs line => counter_update str_eqb (split (strip line)) tfs) inp d = counter_update str_eqb (concat (map split inp)) d.
Proof.
  induction inp as [|line inp IH]; intros d; [reflexivity|]. cbn [fold_left map concat]. rewrite IH, split_strip, counter_app. reflexivity.
Qed.
Lemma words_of_map inp : Forall2 words_of inp (map split inp).
Proof. induction inp; constructor; [apply words_of_iff; reflexivity|assumption]. Qed.
Lemma existsb_str_In t vocab : existsb (str_eqb t) vocab = true <-> In t vocab.
Proof. rewrite existsb_exists. split; [intros (x & Hx & E); apply str_eqb_eq in E; subst; exact Hx|intros H; exists t; split; [exact H|apply str_eqb_eq; reflexivity]]. Qed.
Theorem partition_exact inp vocab iv oov : partition_vocab_toks inp vocab = (iv, oov) ->
  exists wss, Forall2 words_of inp wss /\ NoDup (map fst iv) /\ NoDup (map fst oov) /\
    (forall t f, In (t, f) iv <-> In t (concat wss) /\ In t vocab /\ f = occurrences t (concat wss)) /\
    (forall t f, In (t, f) oov <-> In t (concat wss) /\ ~ In t vocab /\ f = occurrences t (concat wss)) /\
    freq_sum iv + freq_sum oov = Z.of_nat (length (concat wss)).
Proof.
  unfold partition_vocab_toks, oov_term_freqs. rewrite oov_freqs_eq. intros H. injection H as <- <-. exists (map split inp). split; [apply words_of_map|].
  set (toks := concat (map split inp)). destruct (counter_exact toks) as [(Hnd & Hk & _) Hc].
  assert (Hin : forall t f, In (t, f) (counter_update str_eqb toks []) <-> In t toks /\ f = occurrences t toks).
  { intros t f. split; [intros Hi; split; [apply Hk, (in_map fst _ _ Hi)|apply Hc, Hi]|]. intros [Ht ->]. apply Hk, in_map_iff in Ht as ([t' f] & E & Hi). cbn in E. subst t'. rewrite <- (Hc t f Hi). exact Hi. }
  split; [apply NoDup_map_filter, Hnd|]. split; [apply NoDup_map_filter, Hnd|]. split; [|split].
  - intros t f. rewrite filter_In, Hin. cbn [fst]. rewrite existsb_str_In. tauto.
  - intros t f. rewrite filter_In, Hin. cbn [fst]. rewrite negb_true_iff, <- not_true_iff_false, existsb_str_In. tauto.
  - rewrite <- freq_sum_app. unfold freq_sum.
    rewrite (zsum_perm _ _ (Permutation_map snd (filter_partition_perm (fun tf : str * Z => existsb (str_eqb (fst tf)) vocab) (counter_update str_eqb toks [])))).
    rewrite counter_sum. reflexivity.
Qed.
Lemma scheme_keys k table s w : k <> KByte -> make_scheme k table = Ok s -> (In w (dkeys (s_str_to_idx s)) <-> has_name table w).
Proof.
  intros Hk H. assert (Hl : In w (dkeys (str_to_idx_last (map t_name table))) <-> has_name table w).
  { rewrite (proj2 (str_to_idx_last_inv (map t_name table)) w), has_name_map. reflexivity. }
  destruct k; try contradiction.
  - apply make_flat_inv in H as (_ & _ & ->); [exact Hl|auto].
  - apply make_flat_inv in H as (_ & _ & ->); [exact Hl|auto].
  - apply make_bpe_inv in H as (_ & _ & ->). cbn [s_str_to_idx]. pose proof (str_to_idx_first_none table w) as Hn. rewrite (dget_None str_eqb str_eqb_eq) in Hn.
    destruct (in_dec str_dec w (dkeys (str_to_idx_first table))); destruct (has_name_dec table w); tauto.
  - apply make_class_inv in H as (_ & ->). exact Hl.
Qed.
Lemma made_kind k table s : k <> KByte -> make_scheme k table = Ok s -> s_kind s = k.
Proof.
  intros Hk H. destruct k; try contradiction.
  - apply make_flat_inv in H as (_ & _ & ->); auto.
  - apply make_flat_inv in H as (_ & _ & ->); auto.
  - apply make_bpe_inv in H as (_ & _ & ->). reflexivity.
  - apply make_class_inv in H as (_ & ->). reflexivity.
Qed.
Theorem oov_report k table s inp : k <> KByte -> make_scheme k table = Ok s -> exists wss, Forall2 words_of inp wss /\
  (concat wss = [] -> oov_counts s inp = Raise ZeroDivisionError) /\
  (concat wss <> [] -> exists iv oov p q, oov_counts s inp = Ok (Z.of_nat (length iv), freq_sum iv, (Z.of_nat (length oov), freq_sum oov), (p, q)) /\
     NoDup (map fst iv) /\ NoDup (map fst oov) /\
     (forall t f, In (t, f) iv <-> In t (concat wss) /\ has_name table t /\ f = occurrences t (concat wss)) /\
     (forall t f, In (t, f) oov <-> In t (concat wss) /\ ~ has_name table t /\ f = occurrences t (concat wss)) /\
     freq_sum iv + freq_sum oov = Z.of_nat (length (concat wss)) /\ (p + q == 100)%Q).
Proof.
  intros Hk H. unfold oov_counts, assert_. rewrite (made_kind k table s Hk H).
  destruct (partition_vocab_toks inp (dkeys (s_str_to_idx s))) as [iv oov] eqn:E. pose proof (partition_exact _ _ _ _ E) as (wss & Hw & H1 & H2 & H3 & H4 & H5).
  exists wss. split; [exact Hw|].
  assert (Hkk : (match k with KByte => false | _ => true end) = true) by (destruct k; auto; contradiction). rewrite Hkk. cbn [bind].
  unfold dvalues. fold (freq_sum iv) (freq_sum oov). rewrite H5. split.
  - intros ->. reflexivity.
  - intros Hne. assert (Hp : 0 < Z.of_nat (length (concat wss))) by (destruct (concat wss); [contradiction|cbn [length]; lia]).
    destruct (Z.eqb_spec (Z.of_nat (length (concat wss))) 0); [lia|]. eexists iv, oov, _, _. split; [reflexivity|]. split; [exact H1|]. split; [exact H2|].
    pose proof (scheme_keys k table s) as Hkey. split; [|split; [|split; [exact H5|]]].
    + intros t f. rewrite H3, (Hkey t Hk H). reflexivity.
    + intros t f. rewrite H4, (Hkey t Hk H). reflexivity.
    + rewrite <- H5, inject_Z_plus, !inject_Z_mult. change (inject_Z 100) with 100%Q. rewrite <- inject_Z_plus, H5. rewrite <- (Qmult_1_r 100) at 3. 
      setoid_replace (100 * inject_Z (freq_sum iv) / inject_Z (Z.of_nat (length (concat wss))) + 100 * inject_Z (freq_sum oov) / inject_Z (Z.of_nat (length (concat wss))))%Q
        with (100 * (inject_Z (freq_sum iv + freq_sum oov) / inject_Z (Z.of_nat (length (concat wss)))))%Q.
      * rewrite H5. field. apply injz. lia.
      * rewrite inject_Z_plus. field. apply injz. lia.
Qed.

(** ** Gram frequencies *)
Lemma make_n_grams_all_eq sents n : 0 < n -> forall d, foldM (fun grams sent => let* gs := make_n_grams sent n in Ok (counter_update gram_eqb gs grams)) sents d =
  Ok (counter_update gram_eqb (flat_map (windows (Z.to_nat n)) sents) d).
Proof.
  intros Hn. induction sents as [|sent sents IH]; intros d; cbn [foldM flat_map]; [reflexivity|]. rewrite make_n_grams_ok by exact Hn. cbn [bind]. rewrite IH, counter_app. reflexivity.
Qed.
Theorem termfreq_correct s table sents n : s_table s = table -> 0 < n -> Forall (Forall (valid_id table)) sents ->
  exists rows, termfreq_rows s sents n = Ok rows /\
    NoDup (map (fun r => fst (fst r)) rows) /\ StronglySorted (fun a b : gram * Z * list str => snd (fst b) <= snd (fst a)) rows /\
    (forall g f, In (g, f) (map fst rows) <-> length g = Z.to_nat n /\ 0 < f /\ f = total_times g sents) /\
    Forall (fun r => Forall2 (name_at table) (fst (fst r)) (snd r)) rows.
Proof.
  intros Ht Hn Hv. unfold termfreq_rows, make_n_grams_all. rewrite make_n_grams_all_eq by exact Hn. cbn [bind]. set (d := counter_update gram_eqb _ []).
  assert (Hd : NoDup (map fst d)) by (apply (counter_NoDup gram_eqb gram_eqb_eq); constructor).
  assert (Hkey : forall g, In g (map fst d) <-> In g (flat_map (windows (Z.to_nat n)) sents)).
  { intros g. unfold d. rewrite (counter_keys gram_eqb gram_eqb_eq). cbn. tauto. }
  assert (Hflat : forall g, length g = Z.to_nat n -> Z.of_nat (count_occ (list_eq_dec Z.eq_dec) (flat_map (windows (Z.to_nat n)) sents) g) = total_times g sents).
  { intros g Hg. rewrite <- Hg. unfold total_times. clear -Hg Hn. induction sents as [|x l IH]; [reflexivity|]. cbn [flat_map map]. rewrite count_occ_app, zsum_cons, <- IH, <- count_windows by lia. lia. }
  assert (Hin : forall g f, In (g, f) d <-> length g = Z.to_nat n /\ 0 < f /\ f = total_times g sents).
  { intros g f. split.
    - intros H. assert (Hg : length g = Z.to_nat n). { apply (in_map fst) in H. apply Hkey, in_flat_map in H as (x & _ & H). apply windows_In_len in H; [exact H|lia]. }
      apply counter_pos in H as [-> Hp]. split; [exact Hg|]. split; [exact Hp|]. apply Hflat, Hg.
    - intros (Hg & Hp & ->). unfold d. apply (dget_In gram_eqb gram_eqb_eq). rewrite counter_dget. unfold gram in *. rewrite Hflat by exact Hg. apply Z.ltb_lt in Hp. rewrite Hp. reflexivity. }
  assert (Hval : forall g, In g (map fst d) -> Forall (valid_id table) g).
  { intros g Hg. apply Hkey, in_flat_map in Hg as (x & Hx & Hg). rewrite Forall_forall in Hv. specialize (Hv x Hx).
    apply In_nth_error in Hg as (i & Hi). apply windows_spec in Hi as (_ & a & b & -> & _); [|lia]. apply Forall_app in Hv as [_ Hv]. apply Forall_app in Hv. tauto. }
  match goal with |- context [mapM ?f ?l] => destruct (mapM_rel f (fun gf r => fst r = gf /\ Forall2 (name_at table) (fst gf) (snd r)) l) as (rows & -> & Hrows) end.
  { intros [g f] Hgf. apply (Permutation_in _ (sorted_desc_perm _ _)) in Hgf. apply (in_map fst), Hval in Hgf. cbn [fst] in *. rewrite Ht.
    assert (Hm : exists names, mapM (fun g => let* t := py_nth table g in Ok (t_name t)) g = Ok names /\ Forall2 (name_at table) g names).
    { apply mapM_rel. intros i Hi. rewrite Forall_forall in Hgf. specialize (Hgf i Hi). destruct (nth_error table (Z.to_nat i)) as [t|] eqn:E.
      - exists (t_name t). rewrite (proj2 (py_nth_nonneg table i t (proj1 Hgf)) E). split; [reflexivity|]. split; [apply Hgf|]. exists t. auto.
      - apply nth_error_None in E. unfold valid_id in Hgf. lia. }
    destruct Hm as (names & E & Hnames). rewrite E. cbn [bind]. eexists. split; [reflexivity|]. cbn. auto. }
  exists rows. split; [reflexivity|].
  assert (Hfst : map fst rows = sorted_desc snd d). { clear -Hrows. induction Hrows as [|? ? ? ? [H _] _ IH]; [reflexivity|]. cbn [map]. rewrite IH, H. reflexivity. }
  split; [|split; [|split]].
  - apply (Permutation_NoDup (l := map fst d)); [|exact Hd]. apply Permutation_trans with (map fst (sorted_desc snd d)); [apply Permutation_map, Permutation_sym, sorted_desc_perm|].
    rewrite <- Hfst, map_map. apply Permutation_refl.
  - pose proof (sorted_desc_sorted' (@snd gram Z) d) as Hs. rewrite <- Hfst in Hs. clear -Hs. induction rows as [|r rows IH]; [constructor|]. cbn [map] in Hs. inversion Hs as [|? ? H1 H2]; subst. constructor; [apply IH, H1|]. rewrite Forall_map in H2. exact H2.
  - intros g f. rewrite <- Hin. assert (Hp : Permutation (map fst rows) d) by (rewrite Hfst; apply sorted_desc_perm).
    split; apply Permutation_in; [exact Hp|exact (Permutation_sym Hp)].
  - clear -Hrows. induction Hrows as [|? ? ? ? [E H] _ IH]; constructor; [rewrite E; exact H|exact IH].
Qed.
