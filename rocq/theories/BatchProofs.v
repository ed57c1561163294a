(** Proofs about batches. *)
From Verif Require Import Py PyLemmas NumpyModel NumpyProofs DbModel DbSpec DbProofs PackLemmas DbBatchProofs BatchModel BatchSpec.
From Coq Require Import Permutation Sorting.Sorted Lia.
Local Open Scope Z_scope.
Local Open Scope list_scope.

(** ** Arrays *)
Lemma cast_hold d v : can_hold d v -> - 2 ^ 53 <= v <= 2 ^ 53 -> cast d v = v.
Proof.
  intros Hc Hv. destruct (is_float d) eqn:E; [destruct d; try discriminate E; apply round53_small, Hv|]. apply cast_fits; [exact E|]. apply can_hold_fits; assumption.
Qed.
Lemma promote_hold_l a b v : can_hold a v -> - 2 ^ 53 <= v <= 2 ^ 53 -> can_hold (promote a b) v.
Proof.
  intros Hc Hv. destruct (is_float (promote a b)) eqn:E; [destruct (promote a b); try discriminate E; cbn [can_hold]; lia|].
  assert (Ha : is_float a = false) by (destruct (is_float a) eqn:Ea; [|reflexivity]; rewrite promote_float in E by (rewrite Ea; reflexivity); discriminate).
  apply (can_hold_fits _ v E), promote_fits_l; [exact E|]. apply can_hold_fits; assumption.
Qed.
Lemma promote_hold_r a b v : can_hold b v -> - 2 ^ 53 <= v <= 2 ^ 53 -> can_hold (promote a b) v.
Proof.
  intros Hc Hv. destruct (is_float (promote a b)) eqn:E; [destruct (promote a b); try discriminate E; cbn [can_hold]; lia|].
  assert (Hb : is_float b = false) by (destruct (is_float b) eqn:Eb; [|reflexivity]; rewrite promote_float in E by (rewrite Eb; apply orb_true_r); discriminate).
  apply (can_hold_fits _ v E), promote_fits_r; [exact E|]. apply can_hold_fits; assumption.
Qed.
Lemma map_cast_id d l : Forall (can_hold d) l -> exact53 l -> map (cast d) l = l.
Proof.
  unfold exact53. induction l as [|v l IH]; intros H1 H2; [reflexivity|]. inversion H1; inversion H2; subst. cbn [map]. rewrite cast_hold, IH by assumption. reflexivity.
Qed.
Lemma concat_sane a b : sane a -> sane b -> sane (concatenate a b) /\ a_vals (concatenate a b) = a_vals a ++ a_vals b.
Proof.
  intros [A1 A2] [B1 B2]. assert (A3 : Forall (can_hold (promote (a_type a) (a_type b))) (a_vals a)).
  { unfold exact53 in *. rewrite Forall_forall in *. intros v Hv. apply promote_hold_l; auto. }
  assert (B3 : Forall (can_hold (promote (a_type a) (a_type b))) (a_vals b)).
  { unfold exact53 in *. rewrite Forall_forall in *. intros v Hv. apply promote_hold_r; auto. }
  assert (E : a_vals (concatenate a b) = a_vals a ++ a_vals b) by (unfold concatenate; cbn [a_vals]; rewrite !map_cast_id by assumption; reflexivity).
  split; [|exact E]. split; rewrite E; [cbn [a_type concatenate]|unfold exact53]; apply Forall_app; split; assumption.
Qed.
Lemma int32_sane v : int32 v -> sane (np_array I32 [v]) /\ a_vals (np_array I32 [v]) = [v].
Proof.
  unfold int32. intros H. assert (Hc : can_hold I32 v) by (cbn [can_hold]; lia). assert (E : cast I32 v = v) by (apply cast_hold; [exact Hc|lia]).
  unfold np_array. cbn [map a_vals]. rewrite E. split; [|reflexivity]. split; cbn [a_type a_vals]; repeat constructor; try assumption; lia.
Qed.

(** ** Markers *)
Lemma starts_spec b s : starts b s = true <-> starts_with b s.
Proof.
  unfold starts, starts_with. destruct s as [|x s]; [split; [discriminate|intros (t & Ht); discriminate]|]. rewrite Z.eqb_eq. split; [intros ->; eauto|intros (t & Ht); injection Ht; auto].
Qed.
Lemma ends_spec e s : starts e (rev s) = true <-> ends_with e s.
Proof.
  rewrite starts_spec. unfold starts_with, ends_with. split; intros (t & Ht); exists (rev t).
  - apply (f_equal (@rev Z)) in Ht. rewrite rev_involutive in Ht. exact Ht.
  - rewrite Ht, rev_unit. reflexivity.
Qed.
Lemma py_last {A} (s : list A) x : py_nth (s ++ [x]) (-1) = Ok x.
Proof.
  unfold py_nth, py_index. change (0 <=? -1) with false. cbv iota. rewrite app_length. cbn [length].
  replace (- Z.of_nat (length s + 1) <=? -1) with true by (symmetry; apply Z.leb_le; lia).
  replace (Z.to_nat (Z.of_nat (length s + 1) + -1)) with (length s) by lia. rewrite nth_error_app2, Nat.sub_diag by lia. reflexivity.
Qed.
Lemma first_check bos b q : int32 b -> sane q -> a_vals q <> [] ->
  (bos = false /\ starts b (a_vals q) = true -> val_exists First bos b q = Raise AssertionError) /\
  ((bos = false -> starts b (a_vals q) = false) -> exists q', val_exists First bos b q = Ok q' /\ sane q' /\
     a_vals q' = (if bos then if starts b (a_vals q) then [] else [b] else []) ++ a_vals q /\ (starts b (a_vals q) = true -> q' = q) /\ (bos = false -> q' = q)).
Proof.
  intros Hb Hq Hne. unfold val_exists, at_pos. destruct (a_vals q) as [|x s] eqn:E; [contradiction|]. cbn [py_nth py_index Z.leb Z.compare length Z.ltb Z.of_nat Z.to_nat nth_error bind].
  change (starts b (x :: s)) with (x =? b). split.
  - intros [-> ->]. reflexivity.
  - intros H. destruct bos.
    + destruct (x =? b) eqn:Ex.
      * exists q. rewrite E. repeat split; try reflexivity; try discriminate; apply Hq.
      * destruct (int32_sane b Hb) as [B1 B2]. destruct (concat_sane _ q B1 Hq) as [C1 C2]. eexists. split; [reflexivity|]. split; [exact C1|].
        cbn [np_append]. rewrite C2, B2, E. repeat split; discriminate.
    + rewrite (H eq_refl). cbn [negb assert_ bind]. exists q. rewrite E. repeat split; try reflexivity; try discriminate; apply Hq.
Qed.
Lemma last_check eos e q : int32 e -> sane q -> a_vals q <> [] ->
  (eos = false /\ starts e (rev (a_vals q)) = true -> val_exists Last eos e q = Raise AssertionError) /\
  ((eos = false -> starts e (rev (a_vals q)) = false) -> exists q', val_exists Last eos e q = Ok q' /\ sane q' /\
     a_vals q' = a_vals q ++ (if eos then if starts e (rev (a_vals q)) then [] else [e] else []) /\ (starts e (rev (a_vals q)) = true -> q' = q) /\ (eos = false -> q' = q)).
Proof.
  intros Hb Hq Hne. unfold val_exists, at_pos. destruct (a_vals q) as [|x s _] eqn:E using rev_ind; [contradiction|]. rewrite py_last. cbn [bind]. rewrite rev_unit.
  change (starts e (x :: rev s)) with (x =? e). split.
  - intros [-> ->]. reflexivity.
  - intros H. destruct eos.
    + destruct (x =? e) eqn:Ex.
      * exists q. rewrite E, app_nil_r. repeat split; try reflexivity; try discriminate; apply Hq.
      * destruct (int32_sane e Hb) as [B1 B2]. destruct (concat_sane q _ Hq B1) as [C1 C2]. eexists. split; [reflexivity|]. split; [exact C1|].
        cbn [np_append]. rewrite C2, B2, E. repeat split; discriminate.
    + rewrite (H eq_refl). cbn [negb assert_ bind]. exists q. rewrite E, app_nil_r. repeat split; try reflexivity; try discriminate; apply Hq.
Qed.
Lemma bool_not_true b : b <> true -> b = false. Proof. destruct b; congruence. Qed.
Lemma starts_app_pre e b s : s <> [] -> starts e (rev ([b] ++ s)) = starts e (rev s).
Proof. intros H. destruct s as [|x s _] using rev_ind; [contradiction|]. rewrite app_assoc, !rev_unit. reflexivity. Qed.
Lemma starts_app s t b : s <> [] -> starts b (s ++ t) = starts b s.
Proof. destruct s; [contradiction|reflexivity]. Qed.

(** the two checks of one sequence *)
Lemma check_seq_ok m bos eos q : sane_meta m -> sane q ->
  acceptable bos (bos_idx m) eos (eos_idx m) (a_vals q) ->
  exists q', check_seq m bos eos q = Ok q' /\ sane q' /\ a_vals q' = marked bos (bos_idx m) eos (eos_idx m) (a_vals q).
Proof.
  intros (Hb & He & _) Hq (Hne & H1 & H2). unfold check_seq.
  destruct (first_check bos (bos_idx m) q Hb Hq Hne) as [_ F]. destruct F as (q1 & E1 & Hq1 & V1 & _).
  { intros Hbos. apply bool_not_true. intros Ht. apply (H1 Hbos), starts_spec, Ht. }
  rewrite E1. cbn [bind]. set (pre := if bos then if starts (bos_idx m) (a_vals q) then [] else [bos_idx m] else []) in *.
  assert (Hne1 : a_vals q1 <> []) by (rewrite V1; destruct pre; [exact Hne|discriminate]).
  assert (Hends : starts (eos_idx m) (rev (a_vals q1)) = starts (eos_idx m) (rev (a_vals q))).
  { rewrite V1. unfold pre. destruct bos; [|reflexivity]. destruct (starts (bos_idx m) (a_vals q)); [reflexivity|apply starts_app_pre, Hne]. }
  destruct (last_check eos (eos_idx m) q1 He Hq1 Hne1) as [_ F]. destruct F as (q2 & E2 & Hq2 & V2 & _).
  { intros Heos. rewrite Hends. apply bool_not_true. intros Ht. apply (H2 Heos), ends_spec, Ht. }
  exists q2. split; [exact E2|]. split; [exact Hq2|]. rewrite V2, Hends, V1. unfold marked. fold pre. rewrite <- app_assoc. reflexivity.
Qed.
Lemma check_seq_fail m bos eos q : sane_meta m -> sane q -> a_vals q <> [] -> ~ acceptable bos (bos_idx m) eos (eos_idx m) (a_vals q) ->
  check_seq m bos eos q = Raise AssertionError.
Proof.
  intros (Hb & He & _) Hq Hne Hno. unfold check_seq. destruct (first_check bos (bos_idx m) q Hb Hq Hne) as [F1 F2].
  destruct (bool_dec bos false) as [->|Hbos].
  - destruct (starts (bos_idx m) (a_vals q)) eqn:Es; [rewrite F1 by auto; reflexivity|]. destruct F2 as (q1 & E1 & _ & _ & _ & Hqq); [auto|]. rewrite E1. cbn [bind]. rewrite (Hqq eq_refl).
    destruct (last_check eos (eos_idx m) q He Hq Hne) as [L1 _]. apply L1. destruct eos.
    + exfalso. apply Hno. split; [exact Hne|]. split; [|discriminate]. intros _ Hs. apply starts_spec in Hs. congruence.
    + split; [reflexivity|]. destruct (starts (eos_idx m) (rev (a_vals q))) eqn:Ee; [reflexivity|]. exfalso. apply Hno. split; [exact Hne|].
      split; intros _ Hs; [apply starts_spec in Hs|apply ends_spec in Hs]; congruence.
  - destruct bos; [|contradiction]. destruct F2 as (q1 & E1 & Hq1 & V1 & _); [discriminate|]. rewrite E1. cbn [bind].
    assert (Hne1 : a_vals q1 <> []) by (rewrite V1; destruct (starts (bos_idx m) (a_vals q)); [exact Hne|discriminate]).
    assert (Hends : starts (eos_idx m) (rev (a_vals q1)) = starts (eos_idx m) (rev (a_vals q))).
    { rewrite V1. destruct (starts (bos_idx m) (a_vals q)); [reflexivity|apply starts_app_pre, Hne]. }
    destruct (last_check eos (eos_idx m) q1 He Hq1 Hne1) as [L1 _]. apply L1. destruct eos.
    + exfalso. apply Hno. split; [exact Hne|]. split; discriminate.
    + split; [reflexivity|]. rewrite Hends. destruct (starts (eos_idx m) (rev (a_vals q))) eqn:Ee; [reflexivity|]. exfalso. apply Hno. split; [exact Hne|].
      split; [discriminate|]. intros _ Hs. apply ends_spec in Hs. congruence.
Qed.
Lemma check_seq_empty m bos eos q : a_vals q = [] -> check_seq m bos eos q = Raise IndexError.
Proof. intros H. unfold check_seq, val_exists, at_pos. rewrite H. reflexivity. Qed.

(** what marking does *)
Lemma marked_shape bos b eos e s : s <> [] -> exists pre post, marked bos b eos e s = pre ++ s ++ post /\
  (pre = [] \/ (pre = [b] /\ bos = true /\ ~ starts_with b s)) /\ (post = [] \/ (post = [e] /\ eos = true /\ ~ ends_with e s)) /\
  (bos = true -> starts_with b (marked bos b eos e s)) /\ (eos = true -> ends_with e (marked bos b eos e s)) /\
  (bos = false -> pre = []) /\ (eos = false -> post = []).
Proof.
  intros Hne. unfold marked. eexists. eexists. split; [reflexivity|]. split; [|split; [|split; [|split; [|split]]]].
  - destruct bos; [|left; reflexivity]. destruct (starts b s) eqn:E; [left; reflexivity|right]. repeat split. intros H. apply starts_spec in H. congruence.
  - destruct eos; [|left; reflexivity]. destruct (starts e (rev s)) eqn:E; [left; reflexivity|right]. repeat split. intros H. apply ends_spec in H. congruence.
  - intros ->. destruct (starts b s) eqn:E; [|eexists; reflexivity]. apply starts_spec in E. destruct E as (t & ->). eexists. reflexivity.
  - intros ->. destruct (starts e (rev s)) eqn:E; [|].
    + apply ends_spec in E. destruct E as (t & ->). rewrite app_nil_r. eexists. rewrite app_assoc. reflexivity.
    + eexists. rewrite app_assoc. reflexivity.
  - intros ->. reflexivity.
  - intros ->. reflexivity.
Qed.
Lemma starts_with_app b s t : s <> [] -> starts_with b (s ++ t) <-> starts_with b s.
Proof. intros H. rewrite <- !starts_spec, starts_app by exact H. reflexivity. Qed.
Lemma ends_with_app e t s : s <> [] -> ends_with e (t ++ s) <-> ends_with e s.
Proof.
  intros H. rewrite <- !ends_spec. rewrite rev_app_distr, starts_app; [reflexivity|]. intros Hr. apply H. apply (f_equal (@rev Z)) in Hr. rewrite rev_involutive in Hr. exact Hr.
Qed.
Lemma marked_again bos b eos e s : acceptable bos b eos e s -> acceptable bos b eos e (marked bos b eos e s) /\ marked bos b eos e (marked bos b eos e s) = marked bos b eos e s.
Proof.
  intros (Hne & H1 & H2). destruct (marked_shape bos b eos e s Hne) as (pre & post & E & _ & _ & Hs & He & Hp0 & Hq0). set (s' := marked bos b eos e s) in *.
  assert (Hne' : s' <> []) by (rewrite E; destruct pre; [destruct s; [contradiction|discriminate]|discriminate]).
  split.
  - split; [exact Hne'|]. split; intros Hf.
    + rewrite E, (Hp0 Hf). cbn [app]. rewrite starts_with_app by exact Hne. apply H1, Hf.
    + rewrite E, (Hq0 Hf), app_nil_r. rewrite ends_with_app by exact Hne. apply H2, Hf.
  - unfold marked at 1. assert (Ep : (if bos then if starts b s' then [] else [b] else []) = []).
    { destruct bos; [|reflexivity]. rewrite (proj2 (starts_spec b s') (Hs eq_refl)). reflexivity. }
    assert (Eq : (if eos then if starts e (rev s') then [] else [e] else []) = []).
    { destruct eos; [|reflexivity]. rewrite (proj2 (ends_spec e s') (He eq_refl)). reflexivity. }
    rewrite Ep, Eq, app_nil_r. reflexivity.
Qed.
Lemma acceptable_dec bos b eos e s : acceptable bos b eos e s \/ ~ acceptable bos b eos e s.
Proof.
  unfold acceptable. rewrite <- starts_spec, <- ends_spec. destruct s as [|x s]; [right; tauto|].
  destruct bos, eos, (starts b (x :: s)), (starts e (rev (x :: s))); intuition (discriminate || congruence).
Qed.
Lemma check_again m bos eos q q' : sane_meta m -> sane q -> check_seq m bos eos q = Ok q' -> check_seq m bos eos q' = Ok q'.
Proof.
  intros Hm Hq E. destruct (list_eq_dec Z.eq_dec (a_vals q) []) as [He|Hne]; [rewrite check_seq_empty in E by exact He; discriminate|].
  assert (Hacc : acceptable bos (bos_idx m) eos (eos_idx m) (a_vals q)).
  { destruct (acceptable_dec bos (bos_idx m) eos (eos_idx m) (a_vals q)) as [H|H]; [exact H|]. rewrite check_seq_fail in E by assumption. discriminate. }
  destruct (check_seq_ok m bos eos q Hm Hq Hacc) as (q2 & E2 & Hq2 & V2). rewrite E in E2. injection E2 as <-.
  destruct (marked_again _ _ _ _ _ Hacc) as [(A0 & A1 & A2) M]. destruct Hm as (Hb & He & _). unfold check_seq.
  destruct (marked_shape bos (bos_idx m) eos (eos_idx m) (a_vals q) Hne) as (pre & post & _ & _ & _ & Hs1 & He1 & _). rewrite <- V2 in *.
  destruct (first_check bos (bos_idx m) q' Hb Hq2 A0) as [_ F]. destruct F as (q3 & E3 & _ & _ & K1 & K2).
  { intros Hf. apply bool_not_true. intros Ht. apply (A1 Hf), starts_spec, Ht. }
  rewrite E3. cbn [bind]. assert (q3 = q') as -> by (destruct bos; [apply K1, starts_spec, Hs1; reflexivity|apply K2; reflexivity]).
  destruct (last_check eos (eos_idx m) q' He Hq2 A0) as [_ F]. destruct F as (q4 & E4 & _ & _ & K3 & K4).
  { intros Hf. apply bool_not_true. intros Ht. apply (A2 Hf), ends_spec, Ht. }
  rewrite E4. f_equal. destruct eos; [apply K3, ends_spec, He1; reflexivity|apply K4; reflexivity].
Qed.

(** ** Padding *)
Lemma exact_i64 l : exact53 l -> map (cast I64) l = l.
Proof.
  unfold exact53. induction 1 as [|v l Hv _ IH]; [reflexivity|]. cbn [map]. rewrite IH, cast_hold; [reflexivity| |exact Hv]. cbn [can_hold]. lia.
Qed.
Lemma pad_row_spec w pad q : exact53 (a_vals q) -> a_len q <= w ->
  length (pad_row w pad q) = Z.to_nat w /\ forall j, (j < Z.to_nat w)%nat -> nth_error (pad_row w pad q) j = Some (nth j (a_vals q) pad).
Proof.
  unfold a_len. intros Hq Hle. unfold pad_row. rewrite exact_i64 by exact Hq. split; [rewrite app_length, repeat_length; lia|].
  intros j Hj. destruct (Nat.lt_ge_cases j (length (a_vals q))) as [Hlt|Hge].
  - rewrite nth_error_app1 by exact Hlt. apply nth_error_nth', Hlt.
  - rewrite nth_error_app2 by exact Hge. rewrite (nth_overflow (a_vals q)) by exact Hge.
    rewrite (nth_error_nth' _ pad) by (rewrite repeat_length; lia). rewrite nth_repeat. reflexivity.
Qed.
Lemma zsum_concat (seqs : list array) : zsum (map a_len seqs) = Z.of_nat (length (concat (map a_vals seqs))).
Proof.
  unfold zsum, a_len. induction seqs as [|q seqs IH]; [reflexivity|]. cbn [map fold_right concat]. rewrite IH, app_length. lia.
Qed.
Lemma side_ok pad bf seqs raw : seqs <> [] -> Forall sane seqs ->
  exists s, make_side pad bf seqs raw = Ok s /\ padded pad bf (map a_vals seqs) s /\ s_raw s = raws raw.
Proof.
  intros Hne Hs. unfold make_side. destruct (map a_len seqs) as [|l0 ls] eqn:El; [destruct seqs; [contradiction|discriminate]|]. rewrite <- El.
  destruct (py_max (map a_len seqs)) as [mx|] eqn:Em; [|rewrite El in Em; discriminate]. cbn [bind]. apply py_max_spec' in Em. destruct Em as [Min Mle].
  eexists. split; [reflexivity|]. cbn [s_len s_toks s_max s_seqs s_raw]. split; [|reflexivity].
  assert (Hle : forall q, In q seqs -> a_len q <= mx) by (intros q Hq; apply Mle, in_map, Hq).
  assert (Hrow : forall q, In q seqs -> length (pad_row mx pad q) = Z.to_nat mx /\ forall j, (j < Z.to_nat mx)%nat -> nth_error (pad_row mx pad q) j = Some (nth j (a_vals q) pad)).
  { intros q Hq. rewrite Forall_forall in Hs. apply pad_row_spec; [apply (Hs q Hq)|apply Hle, Hq]. }
  split; [|split; [|split; [|split; [|split]]]]; cbn [s_len s_toks s_max s_seqs s_raw].
  - rewrite map_map. reflexivity.
  - apply zsum_concat.
  - apply in_map_iff in Min. destruct Min as (q & <- & Hq). exists (a_vals q). split; [apply in_map, Hq|reflexivity].
  - intros q Hq. apply in_map_iff in Hq. destruct Hq as (a & <- & Ha). apply (Hle a Ha).
  - unfold shape. destruct bf; rewrite !map_length.
    + split; [reflexivity|]. intros r Hr. apply in_map_iff in Hr. destruct Hr as (q & <- & Hq). apply Hrow, Hq.
    + unfold transpose. rewrite map_length, seq_length. split; [reflexivity|]. intros r Hr. apply in_map_iff in Hr. destruct Hr as (j & <- & _). rewrite !map_length. reflexivity.
  - intros i q j Hi Hj. rewrite nth_error_map in Hi. destruct (nth_error seqs i) as [a|] eqn:Ea; [|discriminate]. injection Hi as <-.
    destruct (Hrow a (nth_error_In _ _ Ea)) as [_ Hc]. unfold cell. destruct bf.
    + rewrite nth_error_map, Ea. cbn [option_map]. apply Hc, Hj.
    + unfold transpose. rewrite nth_error_map, (nth_error_nth' (seq 0 (Z.to_nat mx)) 0%nat) by (rewrite seq_length; exact Hj). rewrite seq_nth by exact Hj. cbn [option_map Nat.add].
      rewrite nth_error_map, nth_error_map, Ea. cbn [option_map]. f_equal. apply nth_error_nth, Hc, Hj.
Qed.

(** ** Batches *)
Definition checked_x (m : meta) (ex : example) : example := match check_x m ex with Ok e => e | Raise _ => ex end.
Definition checked_y (m : meta) (ex : example) : example := match check_y m ex with Ok e => e | Raise _ => ex end.
Lemma checked_x_spec m ex : sane_meta m -> good_x m ex ->
  check_x m ex = Ok (checked_x m ex) /\ sane (e_x (checked_x m ex)) /\ a_vals (e_x (checked_x m ex)) = marked_x m ex /\
  e_id (checked_x m ex) = e_id ex /\ e_y (checked_x m ex) = e_y ex /\ e_x_raw (checked_x m ex) = e_x_raw ex /\ e_y_raw (checked_x m ex) = e_y_raw ex.
Proof.
  intros Hm [Hs Ha]. unfold checked_x, check_x. destruct (check_seq_ok m (add_bos_x m) (add_eos_x m) (e_x ex) Hm Hs Ha) as (q & E & Hq & V). rewrite E. cbn [bind e_x e_id e_y e_x_raw e_y_raw]. repeat split; try reflexivity; try apply Hq. exact V.
Qed.
Lemma checked_y_spec m ex : sane_meta m -> good_y m ex ->
  check_y m ex = Ok (checked_y m ex) /\ (exists y, e_y (checked_y m ex) = Some y /\ sane y /\ a_vals y = marked_y m ex) /\
  e_id (checked_y m ex) = e_id ex /\ e_x (checked_y m ex) = e_x ex /\ e_x_raw (checked_y m ex) = e_x_raw ex /\ e_y_raw (checked_y m ex) = e_y_raw ex.
Proof.
  intros Hm (y & Ey & Hs & Ha). unfold checked_y, check_y, marked_y, y_vals. rewrite Ey. destruct (check_seq_ok m (add_bos_y m) (add_eos_y m) y Hm Hs Ha) as (q & E & Hq & V). rewrite E. cbn [bind e_x e_id e_y e_x_raw e_y_raw].
  split; [reflexivity|]. split; [exists q; auto|]. repeat split; reflexivity.
Qed.
Lemma mapM_pure {A B} (f : A -> res B) (g : A -> B) l : (forall x, In x l -> f x = Ok (g x)) -> mapM f l = Ok (map g l).
Proof.
  induction l as [|x l IH]; intros H; [reflexivity|]. cbn [mapM map]. rewrite (H x (or_introl eq_refl)), IH by (intros y Hy; apply H; right; exact Hy). reflexivity.
Qed.
Lemma insert_desc_map {A B} (f : A -> B) (key : B -> Z) x l : insert_desc key (f x) (map f l) = map f (insert_desc (fun a => key (f a)) x l).
Proof. induction l as [|y l IH]; [reflexivity|]. cbn [map insert_desc]. destruct (key (f y) <=? key (f x)); [reflexivity|]. rewrite IH. reflexivity. Qed.
Lemma sorted_desc_map {A B} (f : A -> B) (key : B -> Z) l : sorted_desc key (map f l) = map f (sorted_desc (fun a => key (f a)) l).
Proof. unfold sorted_desc. induction l as [|x l IH]; [reflexivity|]. cbn [map fold_right]. rewrite IH. apply insert_desc_map. Qed.
Lemma insert_desc_ext {A} (k1 k2 : A -> Z) x l : (forall a, In a (x :: l) -> k1 a = k2 a) -> insert_desc k1 x l = insert_desc k2 x l.
Proof.
  induction l as [|y l IH]; intros H; [reflexivity|]. cbn [insert_desc]. rewrite (H x), (H y) by (cbn; tauto). destruct (k2 y <=? k2 x); [reflexivity|]. rewrite IH; [reflexivity|]. intros a [->|Ha]; apply H; cbn; tauto.
Qed.
Lemma sorted_desc_ext {A} (k1 k2 : A -> Z) l : (forall a, In a l -> k1 a = k2 a) -> sorted_desc k1 l = sorted_desc k2 l.
Proof.
  unfold sorted_desc. induction l as [|x l IH]; intros H; [reflexivity|]. cbn [fold_right]. rewrite IH by (intros a Ha; apply H; right; exact Ha). apply insert_desc_ext.
  intros a [->|Ha]; [apply H; left; reflexivity|]. apply H. right. fold (sorted_desc k2 l) in Ha. eapply Permutation_in; [apply Permutation_sym, (sorted_desc_perm' k2 l)|exact Ha].
Qed.
Lemma sorted_desc_stable_desc {A} (key : A -> Z) l : stable_desc key l (sorted_desc key l).
Proof. split; [apply Permutation_sym, sorted_desc_perm'|]. split; [apply sorted_desc_sorted'|]. intros k. apply sorted_desc_stable. Qed.

Theorem make_batch_x m sort_dec bf exs : sane_meta m -> exs <> [] -> Forall (good_x m) exs ->
  exists exs' s, arranged_as sort_dec m exs exs' /\ Permutation exs' exs /\
    make_side (pad_idx m) bf (map e_x (map (checked_x m) exs')) (map e_x_raw (map (checked_x m) exs')) = Ok s /\
    padded (pad_idx m) bf (map (marked_x m) exs') s /\ s_raw s = raws (map e_x_raw exs') /\
    mapM (check_x m) exs = Ok (map (checked_x m) exs) /\
    (if sort_dec then sorted_desc (fun ex => a_len (e_x ex)) (map (checked_x m) exs) else map (checked_x m) exs) = map (checked_x m) exs'.
Proof.
  intros Hm Hne Hg. rewrite Forall_forall in Hg.
  assert (Hx : exists exs', arranged_as sort_dec m exs exs' /\ Permutation exs' exs /\
    (if sort_dec then sorted_desc (fun ex => a_len (e_x ex)) (map (checked_x m) exs) else map (checked_x m) exs) = map (checked_x m) exs').
  { destruct sort_dec; [|exists exs; repeat split; apply Permutation_refl]. eexists. split; [apply sorted_desc_stable_desc|]. split; [apply Permutation_sym, sorted_desc_perm'|].
    rewrite sorted_desc_map. f_equal. apply sorted_desc_ext. intros a Ha. unfold a_len. destruct (checked_x_spec m a Hm (Hg a Ha)) as (_ & _ & -> & _). reflexivity. }
  destruct Hx as (exs' & Harr & Hp & Es). assert (Hin : forall a, In a exs' -> In a exs) by (intros a; apply Permutation_in, Hp).
  destruct (side_ok (pad_idx m) bf (map e_x (map (checked_x m) exs')) (map e_x_raw (map (checked_x m) exs'))) as (s & E & Hpad & Hraw).
  { intros H. apply map_eq_nil, map_eq_nil in H. subst exs'. apply Permutation_nil in Hp. contradiction. }
  { rewrite map_map. apply Forall_map, Forall_forall. intros a Ha. apply (checked_x_spec m a Hm (Hg a (Hin a Ha))). }
  exists exs', s. split; [exact Harr|]. split; [exact Hp|]. split; [exact E|]. split; [|split; [|split; [|exact Es]]].
  - replace (map (marked_x m) exs') with (map a_vals (map e_x (map (checked_x m) exs'))); [exact Hpad|]. rewrite !map_map. apply map_ext_in. intros a Ha. apply (checked_x_spec m a Hm (Hg a (Hin a Ha))).
  - rewrite Hraw. f_equal. rewrite map_map. apply map_ext_in. intros a Ha. apply (checked_x_spec m a Hm (Hg a (Hin a Ha))).
  - apply mapM_pure. intros a Ha. apply (checked_x_spec m a Hm (Hg a Ha)).
Qed.
Lemma checked_x_good_y m ex : sane_meta m -> good_x m ex -> good_y m ex -> good_y m (checked_x m ex).
Proof. intros Hm Hx (y & Ey & H). exists y. destruct (checked_x_spec m ex Hm Hx) as (_ & _ & _ & _ & -> & _). auto. Qed.
Lemma head_some {A} (l : list example) (none empty some : res A) ex0 rest y0 : l = ex0 :: rest -> e_y ex0 = Some y0 ->
  match l with ex :: _ => match e_y ex with None => none | Some _ => some end | [] => empty end = some.
Proof. intros -> ->. reflexivity. Qed.
Lemma head_none {A} (l : list example) (none empty some : res A) ex0 rest : l = ex0 :: rest -> e_y ex0 = None ->
  match l with ex :: _ => match e_y ex with None => none | Some _ => some end | [] => empty end = none.
Proof. intros -> ->. reflexivity. Qed.
Lemma raws_column l : raw_column l (raws l).
Proof.
  split.
  - intros s l' -> Hs. destruct s; [contradiction|reflexivity].
  - intros H. destruct l as [|[[|c s]|] l]; try reflexivity. discriminate (H _ _ eq_refl).
Qed.
Theorem make_batch_ok m sort_dec bf exs : sane_meta m -> exs <> [] -> Forall (good_x m) exs -> Forall (good_y m) exs ->
  exists b exs' y, make_batch m sort_dec bf exs = Ok b /\ arranged_as sort_dec m exs exs' /\
    ba_len b = Z.of_nat (length exs) /\ ba_ids b = map e_id exs' /\ ba_y b = Some y /\
    padded (pad_idx m) bf (map (marked_x m) exs') (ba_x b) /\ padded (pad_idx m) bf (map (marked_y m) exs') y /\
    s_raw (ba_x b) = raws (map e_x_raw exs') /\ s_raw y = raws (map e_y_raw exs').
Proof.
  intros Hm Hne Hgx Hgy. destruct (make_batch_x m sort_dec bf exs Hm Hne Hgx) as (exs' & s & Harr & Hp & E & Hpad & Hraw & Em & Es).
  unfold make_batch. rewrite Em. cbn [bind]. rewrite Es, E. cbn [bind]. rewrite Forall_forall in Hgx, Hgy.
  assert (Hin : forall a, In a exs' -> In a exs) by (intros a; apply Permutation_in, Hp).
  assert (Hgy' : forall a, In a exs' -> good_y m (checked_x m a)) by (intros a Ha; apply checked_x_good_y; auto).
  assert (Ecy : mapM (check_y m) (map (checked_x m) exs') = Ok (map (checked_y m) (map (checked_x m) exs'))).
  { apply mapM_pure. intros a Ha. apply in_map_iff in Ha. destruct Ha as (ex & <- & Hex). apply (checked_y_spec m _ Hm (Hgy' ex Hex)). }
  set (yarr := fun ex => match e_y (checked_y m (checked_x m ex)) with Some y => y | None => e_x ex end).
  assert (Hyarr : forall a, In a exs' -> e_y (checked_y m (checked_x m a)) = Some (yarr a) /\ sane (yarr a) /\ a_vals (yarr a) = marked_y m a).
  { intros a Ha. destruct (checked_y_spec m _ Hm (Hgy' a Ha)) as (_ & (y & Ey & Hs & V) & _). unfold yarr. rewrite Ey. split; [reflexivity|]. split; [exact Hs|]. rewrite V.
    unfold marked_y, y_vals. destruct (checked_x_spec m a Hm (Hgx a (Hin a Ha))) as (_ & _ & _ & _ & -> & _). reflexivity. }
  assert (Eys : y_arrays (map (checked_y m) (map (checked_x m) exs')) = Ok (map yarr exs')).
  { unfold y_arrays. rewrite map_map. clear - Hyarr. induction exs' as [|a l IH]; [reflexivity|]. cbn [map mapM]. destruct (Hyarr a (or_introl eq_refl)) as [-> _]. rewrite IH by (intros x Hx; apply Hyarr; right; exact Hx). reflexivity. }
  assert (Hne' : exs' <> []) by (intros ->; apply Permutation_nil in Hp; contradiction).
  destruct (side_ok (pad_idx m) bf (map yarr exs') (map e_y_raw (map (checked_y m) (map (checked_x m) exs')))) as (sy & Esy & Hpy & Hry).
  { intros H. apply map_eq_nil in H. contradiction. }
  { apply Forall_map, Forall_forall. intros a Ha. apply (Hyarr a Ha). }
  destruct exs' as [|ex0 rest] eqn:Ee; [contradiction|]. rewrite <- Ee in *.
  assert (Hey0 : exists y0, e_y (checked_x m ex0) = Some y0).
  { destruct (Hgy' ex0) as (y0 & Ey0 & _); [rewrite Ee; left; reflexivity|]. eauto. }
  destruct Hey0 as (y0 & Ey0). 
  assert (Emap : map (checked_x m) exs' = checked_x m ex0 :: map (checked_x m) rest) by (rewrite Ee; reflexivity).
  rewrite (head_some _ _ _ _ _ _ _ Emap Ey0), Ecy. cbn [bind]. rewrite Eys. cbn [bind]. rewrite Esy. cbn [bind].
  eexists. exists exs', sy. split; [reflexivity|]. cbn [ba_len ba_ids ba_y ba_x]. split; [exact Harr|]. split; [rewrite map_length, (Permutation_length Hp); reflexivity|].
  split; [rewrite map_map; apply map_ext_in; intros a Ha; apply (checked_x_spec m a Hm (Hgx a (Hin a Ha)))|]. split; [reflexivity|]. split; [exact Hpad|].
  split; [|split; [exact Hraw|]].
  - replace (map (marked_y m) exs') with (map a_vals (map yarr exs')); [exact Hpy|]. rewrite map_map. apply map_ext_in. intros a Ha. apply (Hyarr a Ha).
  - rewrite Hry, !map_map. f_equal. apply map_ext_in. intros a Ha. destruct (checked_y_spec m _ Hm (Hgy' a Ha)) as (_ & _ & _ & _ & _ & ->). apply (checked_x_spec m a Hm (Hgx a (Hin a Ha))).
Qed.
Theorem make_batch_no_y m sort_dec bf exs : sane_meta m -> exs <> [] -> Forall (good_x m) exs -> Forall (fun ex => e_y ex = None) exs ->
  exists b exs', make_batch m sort_dec bf exs = Ok b /\ arranged_as sort_dec m exs exs' /\
    ba_len b = Z.of_nat (length exs) /\ ba_ids b = map e_id exs' /\ ba_y b = None /\
    padded (pad_idx m) bf (map (marked_x m) exs') (ba_x b) /\ s_raw (ba_x b) = raws (map e_x_raw exs').
Proof.
  intros Hm Hne Hgx Hgy. destruct (make_batch_x m sort_dec bf exs Hm Hne Hgx) as (exs' & s & Harr & Hp & E & Hpad & Hraw & Em & Es).
  unfold make_batch. rewrite Em. cbn [bind]. rewrite Es, E. cbn [bind]. rewrite Forall_forall in Hgx, Hgy.
  assert (Hin : forall a, In a exs' -> In a exs) by (intros a; apply Permutation_in, Hp).
  destruct exs' as [|ex0 rest] eqn:Ee; [apply Permutation_nil in Hp; contradiction|]. rewrite <- Ee in *.
  assert (Hey0 : e_y (checked_x m ex0) = None).
  { assert (Hi : In ex0 exs) by (apply Hin; rewrite Ee; left; reflexivity). destruct (checked_x_spec m ex0 Hm (Hgx ex0 Hi)) as (_ & _ & _ & _ & -> & _). apply Hgy, Hi. }
  assert (Emap : map (checked_x m) exs' = checked_x m ex0 :: map (checked_x m) rest) by (rewrite Ee; reflexivity).
  rewrite (head_none _ _ _ _ _ _ Emap Hey0). cbn [bind]. eexists. exists exs'. split; [reflexivity|]. cbn [ba_len ba_ids ba_y ba_x]. split; [exact Harr|].
  split; [rewrite map_length, (Permutation_length Hp); reflexivity|].
  split; [rewrite map_map; apply map_ext_in; intros a Ha; apply (checked_x_spec m a Hm (Hgx a (Hin a Ha)))|]. auto.
Qed.
(** the refusals *)
Lemma mapM_raise_first {A B} (f : A -> res B) l a e : In a l -> f a = Raise e -> exists e', mapM f l = Raise e'.
Proof.
  induction l as [|x l IH]; intros H E; [destruct H|]. cbn [mapM]. destruct (f x) as [y|ex] eqn:Ex; [|eexists; reflexivity]. cbn [bind].
  destruct H as [->|H]; [congruence|]. destruct (IH H E) as (e' & ->). eexists. reflexivity.
Qed.
Theorem make_batch_iff m sort_dec bf exs : sane_meta m -> Forall (fun ex => sane (e_x ex) /\ exists y, e_y ex = Some y /\ sane y) exs ->
  ((exists b, make_batch m sort_dec bf exs = Ok b) <-> exs <> [] /\ Forall (good_x m) exs /\ Forall (good_y m) exs).
Proof.
  intros Hm Hs. split.
  - intros (b & Eb). rewrite Forall_forall in Hs.
    assert (Hx : Forall (good_x m) exs).
    { apply Forall_forall. intros ex Hex. destruct (Hs ex Hex) as [Hsx _]. split; [exact Hsx|].
      destruct (acceptable_dec (add_bos_x m) (bos_idx m) (add_eos_x m) (eos_idx m) (a_vals (e_x ex))) as [H|H]; [exact H|]. exfalso.
      assert (Hr : exists e, check_x m ex = Raise e).
      { unfold check_x. destruct (list_eq_dec Z.eq_dec (a_vals (e_x ex)) []) as [He|He]; [rewrite check_seq_empty by exact He|rewrite check_seq_fail by assumption]; eexists; reflexivity. }
      destruct Hr as (e & Hr). destruct (mapM_raise_first _ _ _ _ Hex Hr) as (e' & Em). unfold make_batch in Eb. rewrite Em in Eb. discriminate. }
    destruct exs as [|ex0 rest] eqn:Ee; [cbn in Eb; destruct sort_dec; discriminate|]. rewrite <- Ee in *.
    assert (Hne : exs <> []) by (rewrite Ee; discriminate). split; [exact Hne|]. split; [exact Hx|].
    destruct (make_batch_x m sort_dec bf exs Hm Hne Hx) as (exs' & s & Harr & Hp & E & _ & _ & Em & Es).
    unfold make_batch in Eb. rewrite Em in Eb. cbn [bind] in Eb. rewrite Es, E in Eb. cbn [bind] in Eb.
    apply Forall_forall. intros ex Hex. destruct (Hs ex Hex) as [_ (y & Ey & Hsy)]. exists y. split; [exact Ey|]. split; [exact Hsy|].
    destruct (acceptable_dec (add_bos_y m) (bos_idx m) (add_eos_y m) (eos_idx m) (a_vals y)) as [H|H]; [exact H|]. exfalso.
    rewrite Forall_forall in Hx.
    assert (Hr : exists e, check_y m (checked_x m ex) = Raise e).
    { unfold check_y. destruct (checked_x_spec m ex Hm (Hx ex Hex)) as (_ & _ & _ & _ & -> & _). rewrite Ey.
      destruct (list_eq_dec Z.eq_dec (a_vals y) []) as [He|He]; [rewrite check_seq_empty by exact He|rewrite check_seq_fail by assumption]; eexists; reflexivity. }
    destruct Hr as (e & Hr).
    assert (Hex' : In (checked_x m ex) (map (checked_x m) exs')) by (apply in_map; eapply Permutation_in; [apply Permutation_sym, Hp|exact Hex]).
    destruct (mapM_raise_first _ _ _ _ Hex' Hr) as (e' & Emy).
    destruct exs' as [|ex1 rest'] eqn:Ee'; [destruct Hex'|]. rewrite <- Ee' in *.
    assert (Emap : map (checked_x m) exs' = checked_x m ex1 :: map (checked_x m) rest') by (rewrite Ee'; reflexivity).
    assert (Hi1 : In ex1 exs) by (eapply Permutation_in; [exact Hp|rewrite Ee'; left; reflexivity]).
    destruct (Hs ex1 Hi1) as [_ (y1 & Ey1 & _)]. destruct (checked_x_spec m ex1 Hm (Hx ex1 Hi1)) as (_ & _ & _ & _ & Ey1' & _). rewrite Ey1 in Ey1'.
    rewrite (head_some _ _ _ _ _ _ _ Emap Ey1'), Emy in Eb. discriminate.
  - intros (Hne & Hx & Hy). destruct (make_batch_ok m sort_dec bf exs Hm Hne Hx Hy) as (b & _ & _ & E & _). eauto.
Qed.

(** ** Sequential batching *)
Lemma example_size_nonneg ex : 0 <= example_size ex.
Proof. unfold example_size. lia. Qed.
Lemma max_size_nonneg g : 0 <= max_size g.
Proof. unfold max_size. induction g as [|x g IH]; cbn [map fold_right]; lia. Qed.
Lemma max_size_app g r : max_size (g ++ [r]) = Z.max (max_size g) (example_size r).
Proof.
  unfold max_size. rewrite map_app. induction g as [|x g IH]; cbn [map app fold_right]; [pose proof (example_size_nonneg r); lia|]. cbn [map] in IH. rewrite IH. lia.
Qed.
Lemma max_size_one r : max_size [r] = example_size r.
Proof. unfold max_size. cbn [map fold_right]. pose proof (example_size_nonneg r). lia. Qed.
Lemma max_size_le g r : In r g -> example_size r <= max_size g.
Proof. unfold max_size. induction g as [|x g IH]; intros H; [destruct H|]. destruct H as [<-|H]; cbn [map fold_right]; [lia|]. specialize (IH H). lia. Qed.
Section Loop.
  Context (max_toks : Z) (max_sents : option Z) (Hms : sents_ok max_sents).
  Lemma fits_iff g r : ((Z.of_nat (length g) + 1) * Z.max (max_size g) (example_size r) <=? max_toks) && under_sents (length g) max_sents = true <-> fits_seq max_toks max_sents g r.
  Proof.
    unfold fits_seq, under_sents, at_most. rewrite andb_true_iff, Z.leb_le. destruct max_sents; [rewrite Z.ltb_lt; lia|tauto].
  Qed.
  Lemma used_test ex y : e_y ex = Some y -> (Z.min (a_len (e_x ex)) (a_len y) =? 0) = negb (example_used ex).
  Proof.
    intros E. unfold example_used, y_vals, a_len. rewrite E. destruct (a_vals (e_x ex)) as [|a l]; cbn [length Nat.eqb negb andb]; [apply Z.eqb_eq; lia|].
    destruct (a_vals y) as [|b l']; cbn [length Nat.eqb negb andb]; [apply Z.eqb_eq; lia|apply Z.eqb_neq; lia].
  Qed.
  Lemma size_test ex y : e_y ex = Some y -> Z.max (a_len (e_x ex)) (a_len y) = example_size ex.
  Proof. intros E. unfold example_size, y_vals, a_len. rewrite E. reflexivity. Qed.
  Definition open_ok (gs0 : list (list example)) (batch : list example) : Prop :=
    (batch = [] -> gs0 = []) /\ (batch <> [] -> greedy (fits_seq max_toks max_sents) (gs0 ++ [batch])).
  Lemma first_fits r : example_size r <= max_toks -> fits_seq max_toks max_sents [] r.
  Proof.
    intros H. unfold fits_seq, max_size, at_most. cbn [length map fold_right]. pose proof (example_size_nonneg r). split; [lia|]. unfold sents_ok in Hms. destruct max_sents; [lia|exact I].
  Qed.
  Lemma open_join gs0 batch r : open_ok gs0 batch -> fits_seq max_toks max_sents batch r -> open_ok gs0 (batch ++ [r]).
  Proof.
    intros [H0 Hg] Hf. split; [intros E; destruct batch; discriminate|]. intros _. destruct batch as [|b0 batch]; [rewrite (H0 eq_refl); apply greedy_first|].
    apply greedy_join; [apply Hg; discriminate|exact Hf].
  Qed.
  Lemma open_new gs0 batch r : open_ok gs0 batch -> ~ fits_seq max_toks max_sents batch r -> example_size r <= max_toks -> batch <> [] /\ open_ok (gs0 ++ [batch]) [r].
  Proof.
    intros [H0 Hg] Hf Hle. assert (Hne : batch <> []) by (intros ->; apply Hf, first_fits, Hle). split; [exact Hne|]. split; [discriminate|]. intros _. apply greedy_new; [apply Hg, Hne|exact Hf].
  Qed.
  Lemma loop_ok data : Forall (fun ex => e_y ex <> None) data -> (forall r, In r (filter example_used data) -> example_size r <= max_toks) ->
    forall gs0 batch, open_ok gs0 batch ->
    exists gs, read_loop max_toks max_sents batch (max_size batch) data = (gs, None) /\ concat gs = batch ++ filter example_used data /\
      greedy (fits_seq max_toks max_sents) (gs0 ++ gs).
  Proof.
    induction data as [|ex data IH]; intros Hy Hle gs0 batch Hop.
    - cbn [read_loop filter]. destruct Hop as [H0 Hg]. destruct batch as [|b batch].
      + exists []. rewrite (H0 eq_refl). split; [reflexivity|]. split; [reflexivity|]. apply greedy_nil.
      + exists [b :: batch]. split; [reflexivity|]. split; [cbn [concat]; reflexivity|]. apply Hg. discriminate.
    - inversion Hy as [|? ? Hy1 Hy2]; subst. cbn [read_loop]. destruct (e_y ex) as [y|] eqn:Ey; [|contradiction].
      rewrite (used_test ex y Ey), (size_test ex y Ey). cbn [filter] in *. destruct (example_used ex) eqn:Eu; cbn [negb]; [|apply IH; assumption].
      assert (Hs : example_size ex <= max_toks) by (apply Hle; left; reflexivity).
      assert (Hle' : forall r, In r (filter example_used data) -> example_size r <= max_toks) by (intros r Hr; apply Hle; right; exact Hr).
      destruct (((Z.of_nat (length batch) + 1) * Z.max (max_size batch) (example_size ex) <=? max_toks) && under_sents (length batch) max_sents) eqn:Ef.
      + apply fits_iff in Ef. rewrite <- max_size_app. destruct (IH Hy2 Hle' gs0 (batch ++ [ex]) (open_join _ _ _ Hop Ef)) as (gs & E & Hc & Hg).
        exists gs. rewrite <- app_assoc in Hc. auto.
      + rewrite (proj2 (Z.ltb_ge _ _) Hs). assert (Hnf : ~ fits_seq max_toks max_sents batch ex) by (intros Hf; apply fits_iff in Hf; congruence).
        destruct (open_new gs0 batch ex Hop Hnf Hs) as [Hne Hop']. rewrite <- max_size_one. destruct (IH Hy2 Hle' (gs0 ++ [batch]) [ex] Hop') as (gs & E & Hc & Hg).
        rewrite E. exists (batch :: gs). split; [reflexivity|]. split; [cbn [concat]; rewrite Hc; reflexivity|]. rewrite <- app_assoc in Hg. exact Hg.
  Qed.
  Lemma loop_raise data : Forall (fun ex => e_y ex <> None) data -> forall before r after, filter example_used data = before ++ r :: after ->
    (forall q, In q before -> example_size q <= max_toks) -> max_toks < example_size r ->
    forall gs0 batch, open_ok gs0 batch ->
    exists gs lost, read_loop max_toks max_sents batch (max_size batch) data = (gs, Some OtherError) /\ concat gs ++ lost = batch ++ before /\
      open_ok (gs0 ++ gs) lost.
  Proof.
    induction data as [|ex data IH]; intros Hy before r after Eq Hle Hlong gs0 batch Hop; [destruct before; discriminate|].
    inversion Hy as [|? ? Hy1 Hy2]; subst. cbn [read_loop]. destruct (e_y ex) as [y|] eqn:Ey; [|contradiction].
    rewrite (used_test ex y Ey), (size_test ex y Ey). cbn [filter] in *. destruct (example_used ex) eqn:Eu; cbn [negb]; [|eapply IH; eassumption].
    destruct before as [|b0 before].
    - injection Eq as -> _. assert (Hnf : ((Z.of_nat (length batch) + 1) * Z.max (max_size batch) (example_size r) <=? max_toks) = false) by (apply Z.leb_gt; pose proof (max_size_nonneg batch); pose proof (Z.le_max_r (max_size batch) (example_size r)); pose proof (Z.le_max_l (max_size batch) (example_size r)); nia).
      rewrite Hnf. cbn [andb]. rewrite (proj2 (Z.ltb_lt _ _) Hlong). exists [], batch. split; [reflexivity|]. split; [rewrite app_nil_r; reflexivity|]. rewrite app_nil_r. exact Hop.
    - injection Eq as -> Eq. assert (Hs : example_size b0 <= max_toks) by (apply Hle; left; reflexivity).
      assert (Hle' : forall q, In q before -> example_size q <= max_toks) by (intros q Hq; apply Hle; right; exact Hq).
      destruct (((Z.of_nat (length batch) + 1) * Z.max (max_size batch) (example_size b0) <=? max_toks) && under_sents (length batch) max_sents) eqn:Ef.
      + apply fits_iff in Ef. rewrite <- max_size_app. destruct (IH Hy2 before r after Eq Hle' Hlong gs0 (batch ++ [b0]) (open_join _ _ _ Hop Ef)) as (gs & lost & E & Hc & Hg).
        exists gs, lost. rewrite <- app_assoc in Hc. auto.
      + rewrite (proj2 (Z.ltb_ge _ _) Hs). assert (Hnf : ~ fits_seq max_toks max_sents batch b0) by (intros Hf; apply fits_iff in Hf; congruence).
        destruct (open_new gs0 batch b0 Hop Hnf Hs) as [Hne Hop']. rewrite <- max_size_one. destruct (IH Hy2 before r after Eq Hle' Hlong (gs0 ++ [batch]) [b0] Hop') as (gs & lost & E & Hc & Hg).
        rewrite E. exists (batch :: gs), lost. split; [reflexivity|]. split; [cbn [concat]; rewrite <- app_assoc, Hc; reflexivity|]. rewrite <- app_assoc in Hg. exact Hg.
  Qed.
End Loop.
Lemma wrap_ok m sort_dec bf groups fin : (forall g, In g groups -> exists b, make_batch m sort_dec bf g = Ok b) ->
  exists bs, wrap m sort_dec bf groups fin = (bs, fin) /\ Forall2 (fun g b => make_batch m sort_dec bf g = Ok b) groups bs.
Proof.
  induction groups as [|g groups IH]; intros H; [exists []; split; [reflexivity|constructor]|]. destruct (H g (or_introl eq_refl)) as (b & E).
  destruct IH as (bs & Ew & Hb); [intros x Hx; apply H; right; exact Hx|]. exists (b :: bs). cbn [wrap]. rewrite E, Ew. split; [reflexivity|]. constructor; assumption.
Qed.
Lemma make_batch_good m sort_dec bf g : sane_meta m -> g <> [] -> (forall ex, In ex g -> good m ex) -> exists b, make_batch m sort_dec bf g = Ok b.
Proof.
  intros Hm Hne Hg. destruct (make_batch_ok m sort_dec bf g Hm Hne) as (b & _ & _ & E & _); [apply Forall_forall; intros ex Hex; apply Hg, Hex|apply Forall_forall; intros ex Hex; apply Hg, Hex|eauto].
Qed.
Lemma used_good m ex : good m ex -> example_used ex = true.
Proof.
  intros [(_ & H & _) (y & Ey & _ & H2 & _)]. unfold example_used, y_vals. rewrite Ey. destruct (a_vals (e_x ex)); [contradiction|]. destruct (a_vals y); [contradiction|reflexivity].
Qed.
Theorem read_all_ok m sort_dec bf max_toks max_sents data : sane_meta m -> sents_ok max_sents -> Forall (fun ex => e_y ex <> None) data ->
  (forall ex, In ex data -> example_used ex = true -> good m ex) ->
  ((forall r, In r data -> example_used r = true -> example_size r <= max_toks) ->
   exists groups bs, read_all m sort_dec bf max_toks max_sents data = (bs, None) /\ concat groups = filter example_used data /\
     greedy (fits_seq max_toks max_sents) groups /\ Forall2 (fun g b => make_batch m sort_dec bf g = Ok b) groups bs) /\
  (forall before r after, filter example_used data = before ++ r :: after -> (forall q, In q before -> example_size q <= max_toks) -> max_toks < example_size r ->
   exists groups lost bs, read_all m sort_dec bf max_toks max_sents data = (bs, Some OtherError) /\ concat groups ++ lost = before /\
     (lost = [] -> groups = []) /\ (lost <> [] -> greedy (fits_seq max_toks max_sents) (groups ++ [lost])) /\
     Forall2 (fun g b => make_batch m sort_dec bf g = Ok b) groups bs).
Proof.
  intros Hm Hms Hy Hgood. split.
  - intros Hle. unfold read_all. change 0 with (max_size []).
    destruct (loop_ok max_toks max_sents Hms data Hy) with (gs0 := @nil (list example)) (batch := @nil example) as (gs & E & Hc & Hg).
    { intros r Hr. apply filter_In in Hr. apply Hle; tauto. }
    { split; [reflexivity|]. intros H. exfalso. apply H. reflexivity. }
    rewrite E. cbn [app] in *. destruct (wrap_ok m sort_dec bf gs None) as (bs & Ew & Hb).
    { intros g Hin. apply make_batch_good; [exact Hm|apply (proj1 Hg g Hin)|]. intros ex Hex. assert (Hx : In ex (filter example_used data)) by (rewrite <- Hc; apply in_concat; eauto).
      apply filter_In in Hx. apply Hgood; tauto. }
    exists gs, bs. auto.
  - intros before r after Eq Hle Hlong. unfold read_all. change 0 with (max_size []).
    destruct (loop_raise max_toks max_sents Hms data Hy before r after Eq Hle Hlong) with (gs0 := @nil (list example)) (batch := @nil example) as (gs & lost & E & Hc & Hg1 & Hg2).
    { split; [reflexivity|]. intros H. exfalso. apply H. reflexivity. }
    rewrite E. cbn [app] in *.
    assert (Hgr : forall g, In g gs -> g <> []).
    { intros g Hin. destruct lost as [|l0 lost]; [rewrite (Hg1 eq_refl) in Hin; destruct Hin|]. assert (Hne : l0 :: lost <> []) by discriminate. apply (proj1 (Hg2 Hne)). apply in_app_iff. left. exact Hin. }
    destruct (wrap_ok m sort_dec bf gs (Some OtherError)) as (bs & Ew & Hb).
    { intros g Hin. apply make_batch_good; [exact Hm|apply Hgr, Hin|]. intros ex Hex.
      assert (Hx : In ex (filter example_used data)). { rewrite Eq. apply in_app_iff. left. rewrite <- Hc. apply in_app_iff. left. apply in_concat. eauto. }
      apply filter_In in Hx. apply Hgood; tauto. }
    exists gs, lost, bs. auto.
Qed.
Theorem fits_seq_bounds max_toks max_sents groups : sents_ok max_sents -> greedy (fits_seq max_toks max_sents) groups -> (forall r, In r (concat groups) -> example_size r <= max_toks) ->
  forall g, In g groups -> g <> [] /\ Z.of_nat (length g) * max_size g <= max_toks /\ at_most (length g) max_sents.
Proof.
  intros Hms Hg Hle g Hin. split; [apply (proj1 Hg g Hin)|].
  apply (greedy_bound (fits_seq max_toks max_sents) (fun g => Z.of_nat (length g) * max_size g <= max_toks /\ at_most (length g) max_sents) groups Hg); [| |exact Hin].
  - intros g' r Hg' Hr. rewrite max_size_one. cbn [length]. split; [|unfold at_most, sents_ok in *; destruct max_sents; [lia|exact I]].
    assert (Hx : example_size r <= max_toks) by (apply Hle, in_concat; exists g'; auto). lia.
  - intros p r _ [H1 H2]. rewrite app_length, max_size_app. cbn [length]. split; [lia|]. rewrite Nat.add_1_r. exact H2.
Qed.

(** ** The token budget after padding *)
Lemma marked_length bos b eos e s : Z.of_nat (length (marked bos b eos e s)) <= Z.of_nat (length s) + marks bos eos.
Proof. unfold marked, marks. rewrite !app_length. destruct bos, eos; try destruct (starts b s); try destruct (starts e (rev s)); cbn [length]; lia. Qed.
Lemma arranged_perm sort_dec m exs exs' : arranged_as sort_dec m exs exs' -> Permutation exs' exs.
Proof. unfold arranged_as. destruct sort_dec; [intros (H & _); exact H|intros ->; apply Permutation_refl]. Qed.
Theorem padded_budget m sort_dec bf max_toks g b : sane_meta m -> Forall (good m) g -> make_batch m sort_dec bf g = Ok b -> Z.of_nat (length g) * max_size g <= max_toks ->
  exists y, ba_y b = Some y /\ ba_len b = Z.of_nat (length g) /\
    ba_len b * s_max (ba_x b) <= max_toks + ba_len b * marks (add_bos_x m) (add_eos_x m) /\
    ba_len b * s_max y <= max_toks + ba_len b * marks (add_bos_y m) (add_eos_y m) /\
    (Forall (fun ex => marked_x m ex = a_vals (e_x ex)) g -> ba_len b * s_max (ba_x b) <= max_toks) /\
    (Forall (fun ex => marked_y m ex = y_vals ex) g -> ba_len b * s_max y <= max_toks).
Proof.
  intros Hm Hg Eb Hle. assert (Hne : g <> []) by (intros ->; cbn in Eb; destruct sort_dec; discriminate).
  assert (Hgx : Forall (good_x m) g) by (eapply Forall_impl; [|exact Hg]; intros a Ha; apply Ha).
  assert (Hgy : Forall (good_y m) g) by (eapply Forall_impl; [|exact Hg]; intros a Ha; apply Ha).
  destruct (make_batch_ok m sort_dec bf g Hm Hne Hgx Hgy) as (b' & exs' & y & E & Harr & Hlen & _ & Hy & Hpx & Hpy & _). rewrite Eb in E. injection E as <-.
  exists y. split; [exact Hy|]. split; [exact Hlen|]. rewrite Hlen. apply arranged_perm in Harr.
  assert (Hin : forall ex, In ex exs' -> In ex g) by (intros ex; apply Permutation_in, Harr).
  destruct Hpx as (_ & _ & (qx & Hqx & ->) & _). destruct Hpy as (_ & _ & (qy & Hqy & ->) & _).
  apply in_map_iff in Hqx. destruct Hqx as (ex & <- & Hex). apply in_map_iff in Hqy. destruct Hqy as (ey & <- & Hey).
  pose proof (marked_length (add_bos_x m) (bos_idx m) (add_eos_x m) (eos_idx m) (a_vals (e_x ex))) as L1. fold (marked_x m ex) in L1.
  pose proof (marked_length (add_bos_y m) (bos_idx m) (add_eos_y m) (eos_idx m) (y_vals ey)) as L2. fold (marked_y m ey) in L2.
  pose proof (max_size_le g ex (Hin ex Hex)) as M1. pose proof (max_size_le g ey (Hin ey Hey)) as M2. unfold example_size in M1, M2.
  split; [nia|]. split; [nia|]. split; intros Hall; rewrite Forall_forall in Hall.
  - rewrite (Hall ex (Hin ex Hex)). nia.
  - rewrite (Hall ey (Hin ey Hey)). nia.
Qed.

(** ** The number of batches *)
Theorem num_batches_lower max_toks max_sents groups : sents_ok max_sents -> greedy (fits_seq max_toks max_sents) groups -> 0 < max_toks ->
  (forall r, In r (concat groups) -> 1 <= example_size r <= max_toks) ->
  exists n, num_batches (Z.of_nat (length (concat groups))) max_toks = Ok n /\ n <= Z.of_nat (length groups).
Proof.
  intros Hms Hg Hpos Hs. unfold num_batches. destruct (Z.eqb_spec max_toks 0) as [->|_]; [lia|]. eexists. split; [reflexivity|].
  assert (Hb : forall g, In g groups -> Z.of_nat (length g) <= max_toks).
  { intros g Hin. destruct (fits_seq_bounds max_toks max_sents groups Hms Hg (fun r Hr => proj2 (Hs r Hr)) g Hin) as (Hne & Hle & _). destruct g as [|r g]; [contradiction|].
    assert (Hr : 1 <= example_size r) by (apply Hs, in_concat; exists (r :: g); split; [exact Hin|left; reflexivity]).
    pose proof (max_size_le (r :: g) r (or_introl eq_refl)). nia. }
  assert (Htot : Z.of_nat (length (concat groups)) <= max_toks * Z.of_nat (length groups)).
  { clear - Hb Hpos. induction groups as [|g groups IH]; [cbn; lia|]. cbn [concat length]. rewrite app_length.
    assert (Hl : Z.of_nat (length g) <= max_toks) by (apply Hb; left; reflexivity). specialize (IH (fun g' Hg' => Hb g' (or_intror Hg'))). lia. }
  assert (Hdiv : - Z.of_nat (length groups) <= - Z.of_nat (length (concat groups)) / max_toks) by (apply Z.div_le_lower_bound; lia). lia.
Qed.

(** ** Reading a Db *)
Lemma field_get_sane name recs f id arr : field_for name recs f -> NoDup (map fst recs) -> In (id, arr) recs -> exact53 (all_values recs) ->
  exists a, get_item f id = Ok a /\ sane a /\ a_vals a = arr.
Proof.
  intros Hf Hnd Hin Hex. destruct (field_get _ _ _ _ _ Hf Hnd Hin) as (_ & a & Ea & _ & Hh & _). exists a. split; [exact Ea|].
  assert (Hx : exact53 arr) by (unfold exact53 in *; rewrite Forall_forall in *; intros v Hv; apply Hex, (in_all_values recs id arr v Hin Hv)).
  assert (Hv : a_vals a = arr) by (eapply holds_exact; [exact Hh|right; exact Hx]). split; [|exact Hv]. split; rewrite Hv; [|exact Hx].
  destruct Hh as [_ Hfit]. destruct (is_float (a_type a)) eqn:Ef.
  - destruct (a_type a); try discriminate Ef. exact Hx.
  - specialize (Hfit eq_refl). eapply Forall_impl; [|exact Hfit]. intros v. apply can_hold_fits, Ef.
Qed.
Lemma example_read nx ny recs d id cols : db_for [nx; ny] recs d -> nx <> ny -> NoDup (map fst recs) -> well_shaped 2 recs -> columns_ok exact53 2 recs ->
  In (id, cols) recs -> exists ex, db_example d id = Ok ex /\ example_of (id, cols) ex.
Proof.
  intros Hd Hxy Hnd Hw Hc Hin. pose proof (Hw _ Hin) as Hl. cbn [snd] in Hl. destruct cols as [|cx [|cy [|]]]; try discriminate Hl.
  destruct Hd as (Hn & _ & _ & fs & Hlen & Hf & Hfs). unfold db_example, db_cols. rewrite Hn, Hf.
  destruct fs as [|fx [|fy [|]]]; try discriminate Hlen.
  destruct (Hfs 0%nat nx eq_refl) as (f0 & E0 & Hf0). cbn in E0. injection E0 as <-. destruct (Hfs 1%nat ny eq_refl) as (f1 & E1 & Hf1). cbn in E1. injection E1 as <-.
  assert (Hndc : forall j, NoDup (map fst (column j recs))) by (intros j; rewrite column_ids; exact Hnd).
  destruct (field_get_sane _ _ _ _ _ Hf0 (Hndc _) (in_column 0 _ _ _ Hin) (Hc 0%nat ltac:(lia))) as (ax & Ex & Sx & Vx).
  destruct (field_get_sane _ _ _ _ _ Hf1 (Hndc _) (in_column 1 _ _ _ Hin) (Hc 1%nat ltac:(lia))) as (ay & Ey & Sy & Vy). cbn [nth] in Vx, Vy.
  assert (Hnd2 : NoDup [nx; ny]) by (constructor; [intros [H|[]]; congruence|constructor; [intros []|constructor]]).
  cbn [mapM]. rewrite (dget_combine [nx; ny] [fx; fy] 0 nx fx Hnd2 eq_refl eq_refl), (dget_combine [nx; ny] [fx; fy] 1 ny fy Hnd2 eq_refl eq_refl), Ex, Ey. cbn [bind to_example snd fst].
  eexists. split; [reflexivity|]. unfold example_of. cbn [e_id e_x e_x_raw e_y_raw e_y new_example fst snd]. split; [reflexivity|]. split; [exact Sx|]. split; [reflexivity|]. split; [reflexivity|].
  exists ay. rewrite Vx, Vy. auto.
Qed.
Lemma exact_columns_faithful n recs : columns_ok exact53 n recs -> columns_ok faithful n recs.
Proof. intros H j Hj. right. apply H, Hj. Qed.
Theorem db_examples nx ny recs d order : db_create [nx; ny] recs = Ok d -> nx <> ny -> well_shaped 2 recs -> columns_ok exact53 2 recs -> columns_ok fits_memory 2 recs ->
  Permutation order (db_ids d) ->
  exists data recs', mapM (db_example d) order = Ok data /\ Permutation recs recs' /\ Forall2 example_of recs' data.
Proof.
  intros E Hxy Hw Hc Hm Hp. assert (Hnd2 : NoDup [nx; ny]) by (constructor; [intros [H|[]]; congruence|constructor; [intros []|constructor]]).
  pose proof (faithful_columns_range _ _ (exact_columns_faithful _ _ Hc)) as Hr.
  destruct (db_refused [nx; ny] recs Hnd2 ltac:(discriminate) Hw Hr Hm) as [[Hok _] _]. destruct Hok as [Hne Hnd]; [eauto|].
  destruct (proj1 (db_create_ok [nx; ny] recs Hnd2 ltac:(discriminate) Hw Hr Hm) (conj Hne Hnd)) as (d' & E' & Hd). rewrite E in E'. injection E' as <-.
  pose proof Hd as (_ & Hids & _). rewrite Hids in Hp. apply Permutation_map_inv in Hp. destruct Hp as (recs' & -> & Hp).
  assert (Hi : incl recs' recs) by (intros x Hx; eapply Permutation_in; [apply Permutation_sym, Hp|exact Hx]).
  assert (H : exists data, mapM (db_example d) (map fst recs') = Ok data /\ Forall2 example_of recs' data).
  { clear Hp. induction recs' as [|[id cols] l IH]; [exists []; split; [reflexivity|constructor]|]. destruct IH as (data & Ed & Hdt); [intros x Hx; apply Hi; right; exact Hx|].
    destruct (example_read nx ny recs d id cols Hd Hxy Hnd Hw Hc) as (ex & Ex & Hex); [apply Hi; left; reflexivity|].
    exists (ex :: data). cbn [map mapM fst]. rewrite Ex, Ed. split; [reflexivity|]. constructor; assumption. }
  destruct H as (data & Ed & Hdt). exists data, recs'. auto.
Qed.
Theorem db_eq_len_examples nx ny recs d max_toks max_sents order arranged shuffled :
  db_create [nx; ny] recs = Ok d -> nx <> ny -> well_shaped 2 recs -> columns_ok exact53 2 recs -> columns_ok fits_memory 2 recs ->
  Permutation order (db_ids d) -> arranges arranged -> shuffles shuffled -> match max_sents with Some m => 0 <= m | None => True end ->
  (exists r, In r recs /\ usable r) -> (forall r, In r recs -> usable r -> longest r <= max_toks) ->
  exists batches groups out, eq_len_examples d max_toks max_sents order arranged shuffled = Ok out /\
     greedy (fits_eq_len max_toks max_sents) batches /\ NoDup (concat batches) /\ (forall r, In r (concat batches) <-> In r recs /\ usable r) /\
     Permutation batches groups /\ Forall2 (Forall2 example_of) groups out.
Proof.
  intros E Hxy Hw Hc Hm Hp Harr Hsh Hms Hex Hle. assert (Hnd2 : NoDup [nx; ny]) by (constructor; [intros [H|[]]; congruence|constructor; [intros []|constructor]]).
  pose proof (faithful_columns_range _ _ (exact_columns_faithful _ _ Hc)) as Hr.
  destruct (db_refused [nx; ny] recs Hnd2 ltac:(discriminate) Hw Hr Hm) as [[Hok _] _]. destruct Hok as [Hne Hnd]; [eauto|].
  destruct (proj1 (db_create_ok [nx; ny] recs Hnd2 ltac:(discriminate) Hw Hr Hm) (conj Hne Hnd)) as (d' & E' & Hd). rewrite E in E'. injection E' as <-.
  destruct (eq_len_ids [nx; ny] recs d max_toks max_sents order arranged Hd Hnd2 ltac:(discriminate) Hw Hnd Hp Harr Hms) as (_ & _ & H3).
  destruct (H3 Hex Hle) as (gs & Eb & Hgne & Hg & Hs & Hu & Hin). unfold eq_len_examples. rewrite Eb. cbn [bind].
  destruct (read_shuffled (db_example d) example_of recs gs shuffled) as (groups & out & Eo & Hpg & Ho).
  { intros [id cols] Hi. apply (example_read nx ny recs d id cols Hd Hxy Hnd Hw Hc Hi). }
  { intros g r Hgi Hri. apply Hin, in_concat. eauto. }
  { exact Hsh. }
  exists gs, groups, out. split; [destruct gs; [contradiction|exact Eo]|]. auto 10.
Qed.
(** sizes of examples and records agree *)
Lemma example_of_size r ex : example_of r ex -> example_size ex = longest r.
Proof.
  intros (_ & _ & _ & _ & y & Ey & _ & Er). unfold example_size, y_vals, longest. rewrite Ey, Er. cbn [map fold_right]. lia.
Qed.
Lemma example_of_max g exs : Forall2 example_of g exs -> max_size exs = longest_of g.
Proof. unfold max_size, longest_of. induction 1 as [|r ex g exs H _ IH]; [reflexivity|]. cbn [map fold_right]. rewrite IH, (example_of_size _ _ H). reflexivity. Qed.
Lemma example_of_used r ex : example_of r ex -> (example_used ex = true <-> usable r).
Proof.
  intros (_ & _ & _ & _ & y & Ey & _ & Er). unfold example_used, y_vals, usable. rewrite Ey, Er. split.
  - intros H c [<-|[<-|[]]] Hc; rewrite Hc in H; [discriminate|rewrite andb_false_r in H; discriminate].
  - intros H. pose proof (H (a_vals (e_x ex)) (or_introl eq_refl)). pose proof (H (a_vals y) (or_intror (or_introl eq_refl))). destruct (a_vals (e_x ex)); [contradiction|]. destruct (a_vals y); [contradiction|reflexivity].
Qed.
