(** Proofs about SeqField and Db. *)
From Verif Require Import Py PyLemmas NumpyModel NumpyProofs DbModel DbSpec.
Local Open Scope Z_scope.
Local Open Scope list_scope.

(** ** The types *)
Lemma can_hold_fits d v : is_float d = false -> can_hold d v <-> fits d v.
Proof. unfold fits, dmin, dmax. destruct d; cbn [is_float signed bits can_hold]; intros H; try discriminate H; lia. Qed.
Lemma range_fits_hold d mn mx : is_float d = false -> mn <= mx -> range_fits d mn mx <-> can_hold d mn /\ can_hold d mx.
Proof. intros H Hle. rewrite !can_hold_fits by exact H. unfold range_fits, fits. lia. Qed.
Lemma width_bits d : width d = bits d. Proof. destruct d; reflexivity. Qed.

Theorem best_dtype_minimal mn mx d : mn <= mx -> best_dtype mn mx = Ok d ->
  is_integer_type d /\ can_hold d mn /\ can_hold d mx /\
  (forall d', is_integer_type d' -> can_hold d' mn -> can_hold d' mx -> width d <= width d') /\
  (is_signed d -> mn < 0).
Proof.
  intros Hle H. destruct (best_dtype_sound _ _ _ H) as (Hr & Hf & Hin). apply (range_fits_hold d mn mx Hf Hle) in Hr. destruct Hr as [H1 H2].
  split; [intros ->; discriminate|]. split; [exact H1|]. split; [exact H2|].
  destruct (best_dtype_first _ _ _ H) as (a & b & E & Hno).
  assert (Hno' : forall d', In d' a -> ~ (can_hold d' mn /\ can_hold d' mx)).
  { intros d' Hd' Hc. assert (is_float d' = false).
    { assert (Ho : In d' dtype_options) by (rewrite E; apply in_app_iff; left; exact Hd'). repeat (destruct Ho as [<-|Ho]; [reflexivity|]). destruct Ho. }
    apply (Hno d' Hd'), range_fits_hold; assumption. }
  clear Hno H Hin Hf.
  repeat (destruct a as [|? a]; [injection E as <- E|injection E as <- E]); try (destruct a; discriminate E).
  all: try discriminate E.
  all: try (pose proof (Hno' U8 ltac:(cbn; tauto))); try (pose proof (Hno' I8 ltac:(cbn; tauto))); try (pose proof (Hno' U16 ltac:(cbn; tauto)));
    try (pose proof (Hno' I16 ltac:(cbn; tauto))); try (pose proof (Hno' U32 ltac:(cbn; tauto))); try (pose proof (Hno' I32 ltac:(cbn; tauto)));
    try (pose proof (Hno' U64 ltac:(cbn; tauto))); cbn [can_hold width] in *; clear Hno'.
  all: split; [intros [] Hd' Hc1 Hc2; cbn [can_hold width] in *; try lia; exfalso; apply Hd'; reflexivity|].
  all: intros Hs; try (destruct Hs as [Hs|[Hs|[Hs|Hs]]]; discriminate Hs); lia.
Qed.
Theorem best_dtype_none mn mx : mn <= mx ->
  (best_dtype mn mx = Raise AssertionError <-> forall d, is_integer_type d -> ~ (can_hold d mn /\ can_hold d mx)).
Proof.
  intros Hle. rewrite best_dtype_fails. split; intros H d Hd.
  - assert (Hf : is_float d = false) by (destruct d; try reflexivity; exfalso; apply Hd; reflexivity).
    rewrite <- (range_fits_hold d mn mx Hf Hle). apply H. destruct d; try discriminate Hf; cbn; auto 10.
  - assert (Hf : is_float d = false) by (repeat (destruct Hd as [<-|Hd]; [reflexivity|]); destruct Hd).
    rewrite (range_fits_hold d mn mx Hf Hle). apply H. intros ->. discriminate.
Qed.
Theorem best_dtype_none_explicit mn mx : mn <= mx ->
  (best_dtype mn mx = Raise AssertionError <-> mn < - 2 ^ 63 \/ 2 ^ 64 <= mx \/ (mn < 0 /\ 2 ^ 63 <= mx)).
Proof.
  intros Hle. rewrite (best_dtype_none mn mx Hle). split.
  - intros H. pose proof (H U64 ltac:(discriminate)) as H1. pose proof (H I64 ltac:(discriminate)) as H2. cbn [can_hold] in *. lia.
  - intros H [] Hd [H1 H2]; cbn [can_hold] in *; lia.
Qed.

(** ** The builder *)
Fixpoint refs_from (s : Z) (arrs : list (list Z)) : list (Z * Z) :=
  match arrs with
  | [] => []
  | a :: arrs' => (s, Z.of_nat (length a)) :: refs_from (s + Z.of_nat (length a)) arrs'
  end.
Lemma refs_from_snoc arrs a : forall s, refs_from s (arrs ++ [a]) = refs_from s arrs ++ [(s + Z.of_nat (length (concat arrs)), Z.of_nat (length a))].
Proof.
  induction arrs as [|x arrs IH]; intros s; cbn [app refs_from concat length].
  - rewrite Z.add_0_r. reflexivity.
  - rewrite IH, app_length. do 4 f_equal. lia.
Qed.
Lemma refs_from_length arrs : forall s, length (refs_from s arrs) = length arrs.
Proof. induction arrs as [|a arrs IH]; intros s; cbn [refs_from length]; [reflexivity|]. rewrite IH. reflexivity. Qed.
Lemma refs_from_nth arrs n a : nth_error arrs n = Some a -> forall s,
  nth_error (refs_from s arrs) n = Some (s + Z.of_nat (length (concat (firstn n arrs))), Z.of_nat (length a)).
Proof.
  revert n. induction arrs as [|x arrs IH]; intros [|n] H s; try discriminate H; cbn [refs_from nth_error firstn concat length].
  - injection H as ->. rewrite Z.add_0_r. reflexivity.
  - rewrite (IH n H), app_length. do 2 f_equal. lia.
Qed.
Lemma concat_nth arrs n (a : list Z) : nth_error arrs n = Some a -> concat arrs = concat (firstn n arrs) ++ a ++ concat (skipn (S n) arrs).
Proof.
  revert n. induction arrs as [|x arrs IH]; intros [|n] H; try discriminate H; cbn [nth_error] in H.
  - injection H as ->. reflexivity.
  - cbn [concat firstn skipn]. rewrite (IH n H) at 1. rewrite <- app_assoc. reflexivity.
Qed.

Definition ids_dict (ids : list Z) : list (Z * Z) := fold_left (fun d (it : Z * Z) => dset Z.eqb (snd it) (fst it) d) (enumerate ids) [].
Lemma ids_dict_snoc ids x : ids_dict (ids ++ [x]) = dset Z.eqb x (Z.of_nat (length ids)) (ids_dict ids).
Proof. unfold ids_dict, enumerate. rewrite enum_from_app, fold_left_app. reflexivity. Qed.
Lemma ids_dict_keys ids : NoDup (dkeys (ids_dict ids)) /\ forall x, In x (dkeys (ids_dict ids)) <-> In x ids.
Proof.
  induction ids as [|x ids [IH1 IH2]] using rev_ind; [split; [constructor|tauto]|]. rewrite ids_dict_snoc, dkeys_dset.
  destruct (dmem Z.eqb x (ids_dict ids)) eqn:E.
  - split; [exact IH1|]. intros y. rewrite in_app_iff, IH2. split; [tauto|]. intros [H|[<-|[]]]; [exact H|]. apply (dmem_spec Z.eqb Z.eqb_eq) in E. apply IH2, E.
  - split.
    + apply NoDup_snoc; [exact IH1|]. intros H. apply (dmem_spec Z.eqb Z.eqb_eq) in H. congruence.
    + intros y. rewrite !in_app_iff, IH2. reflexivity.
Qed.
Lemma dlen_keys {K V} (d : list (K * V)) : length d = length (dkeys d).
Proof. unfold dkeys. rewrite map_length. reflexivity. Qed.
Lemma ids_dict_length ids : (length (ids_dict ids) <= length ids)%nat /\ (length ids = length (ids_dict ids) <-> NoDup ids).
Proof.
  induction ids as [|x ids [IH1 IH2]] using rev_ind; [split; [cbn; lia|split; constructor]|].
  destruct (ids_dict_keys ids) as [Hnd Hin]. rewrite ids_dict_snoc, dlen_keys, dkeys_dset, app_length. cbn [length].
  destruct (dmem Z.eqb x (ids_dict ids)) eqn:E.
  - apply (dmem_spec Z.eqb Z.eqb_eq) in E. rewrite <- dlen_keys. split; [lia|]. split; [lia|]. intros Hd. exfalso. apply Hin in E.
    apply NoDup_remove_2 in Hd. rewrite app_nil_r in Hd. contradiction.
  - rewrite app_length, <- dlen_keys. cbn [length]. split; [lia|]. split; intros H.
    + apply NoDup_snoc; [apply IH2; lia|]. intros Hx. apply Hin in Hx. apply (dmem_spec Z.eqb Z.eqb_eq) in Hx. congruence.
    + apply NoDup_remove_1 in H. rewrite app_nil_r in H. apply IH2 in H. lia.
Qed.
Lemma ids_dict_get ids : NoDup ids -> forall n x, nth_error ids n = Some x -> dget Z.eqb x (ids_dict ids) = Some (Z.of_nat n).
Proof.
  induction ids as [|y ids IH] using rev_ind; intros Hnd n x Hn; [destruct n; discriminate|]. rewrite ids_dict_snoc.
  apply NoDup_remove in Hnd. rewrite app_nil_r in Hnd. destruct Hnd as [Hnd Hy].
  destruct (Nat.lt_ge_cases n (length ids)) as [Hl|Hl].
  - rewrite nth_error_app1 in Hn by exact Hl. rewrite (dget_dset_other Z.eqb Z.eqb_eq); [apply IH; assumption|]. intros ->. apply Hy. eapply nth_error_In, Hn.
  - assert (n = length ids) by (assert (Hx : nth_error (ids ++ [y]) n <> None) by congruence; apply nth_error_Some in Hx; rewrite app_length in Hx; cbn in Hx; lia).
    subst n. rewrite nth_error_app2, Nat.sub_diag in Hn by lia. injection Hn as ->. apply (dget_dset_same Z.eqb Z.eqb_eq).
Qed.
Lemma ids_dict_none ids x : ~ In x ids -> dget Z.eqb x (ids_dict ids) = None.
Proof. intros H. apply (dget_None Z.eqb Z.eqb_eq). intros Hx. apply H, (ids_dict_keys ids), Hx. Qed.

(** the builder after some appends *)
Definition built_from (recs : list (Z * list Z)) (b : builder) : Prop :=
  b_ids b = ids_dict (map fst recs) /\
  b_refs b = refs_from 0 (map snd recs) /\
  (exists d pre, holds d pre (b_frozen b) /\ pre ++ b_buffer b = all_values recs /\
     (is_float d = true -> exists v, In v pre /\ 2 ^ 32 <= v) /\ (is_float d = false -> signed d = true)) /\
  (forall r, In r recs -> Z.of_nat (length (snd r)) <= b_max_len b) /\
  0 <= b_max_len b <= Z.of_nat (length (all_values recs)).

Lemma py_min_spec l m : py_min l = Ok m -> In m l /\ forall x, In x l -> m <= x.
Proof.
  destruct l as [|x l]; [discriminate|]. cbn [py_min]. intros H. injection H as <-. revert x.
  induction l as [|y l IH]; intros x; cbn [fold_left].
  - split; [left; reflexivity|]. intros z [<-|[]]. lia.
  - destruct (IH (Z.min x y)) as [H1 H2]. split.
    + destruct H1 as [H1|H1]; [|right; right; exact H1]. destruct (Z.min_spec x y) as [[_ E]|[_ E]]; [left|right; left]; congruence.
    + intros z [<-|[<-|Hz]]; [| |apply H2; right; exact Hz]; specialize (H2 (Z.min x y) (or_introl eq_refl)); lia.
Qed.
Lemma py_max_spec' l m : py_max l = Ok m -> In m l /\ forall x, In x l -> x <= m.
Proof.
  destruct l as [|x l]; [discriminate|]. cbn [py_max]. intros H. injection H as <-. revert x.
  induction l as [|y l IH]; intros x; cbn [fold_left].
  - split; [left; reflexivity|]. intros z [<-|[]]. lia.
  - destruct (IH (Z.max x y)) as [H1 H2]. split.
    + destruct H1 as [H1|H1]; [|right; right; exact H1]. destruct (Z.max_spec x y) as [[_ E]|[_ E]]; [right; left|left]; congruence.
    + intros z [<-|[<-|Hz]]; [| |apply H2; right; exact Hz]; specialize (H2 (Z.max x y) (or_introl eq_refl)); lia.
Qed.
Lemma in_range_best vals mn mx : in_range vals -> py_min vals = Ok mn -> py_max vals = Ok mx -> exists d, best_dtype mn mx = Ok d.
Proof.
  intros H Hn Hx. apply py_min_spec in Hn. apply py_max_spec' in Hx. destruct Hn as [Hn1 Hn2], Hx as [Hx1 Hx2].
  destruct H as [H|H]; rewrite Forall_forall in H; pose proof (H mn Hn1); pose proof (H mx Hx1).
  - apply (best_dtype_ok I64); [cbn; auto 10|]. unfold range_fits, dmin, dmax. cbn [signed bits]. change (64 - 1) with 63. lia.
  - apply (best_dtype_ok U64); [cbn; auto 10|]. unfold range_fits, dmin, dmax. cbn [signed bits]. lia.
Qed.
Lemma in_range_incl a b : (forall v, In v a -> In v b) -> in_range b -> in_range a.
Proof. intros Hi [H|H]; [left|right]; rewrite Forall_forall in *; auto. Qed.

Lemma shrink_ok recs b : built_from recs b -> in_range (all_values recs) ->
  exists b', shrink b = Ok b' /\ built_from recs b' /\ b_buffer b' = [] /\ b_buf_size b' = b_buf_size b /\ b_name b' = b_name b.
Proof.
  intros (H1 & H2 & (d & pre & Hh & Hpre & Hfl & Hsg) & H4 & H5) Hr. unfold shrink. destruct (b_buffer b) as [|x buf] eqn:Eb.
  { exists b. split; [reflexivity|]. split; [|auto]. split; [exact H1|]. split; [exact H2|]. split; [exists d, pre; rewrite Eb; auto|]. auto. }
  rewrite <- Eb in *. assert (Hne : b_buffer b <> []) by (rewrite Eb; discriminate).
  destruct (py_min (b_buffer b)) as [mn|e] eqn:Emn; [|rewrite Eb in Emn; discriminate]. destruct (py_max (b_buffer b)) as [mx|e] eqn:Emx; [|rewrite Eb in Emx; discriminate].
  cbn [bind].
  assert (Hrb : in_range (b_buffer b)) by (eapply in_range_incl; [|exact Hr]; intros v Hv; rewrite <- Hpre; apply in_app_iff; right; exact Hv).
  destruct (in_range_best _ _ _ Hrb Emn Emx) as (d' & Ed). rewrite Ed. cbn [bind]. eexists. split; [reflexivity|]. split; [|auto].
  apply py_min_spec in Emn. apply py_max_spec' in Emx. destruct Emn as [Mn1 Mn2], Emx as [Mx1 Mx2].
  assert (Hle : mn <= mx) by (apply Mn2, Mx1).
  destruct (best_dtype_sound _ _ _ Ed) as ([R1 R2] & Rf & _). destruct (best_dtype_minimal _ _ _ Hle Ed) as (_ & C1 & C2 & Cmin & _).
  assert (Hh' : holds d' (b_buffer b) (np_array d' (b_buffer b))).
  { split; [reflexivity|]. intros _. apply Forall_forall. intros v Hv. specialize (Mn2 v Hv). specialize (Mx2 v Hv). unfold fits. lia. }
  split; [exact H1|]. split; [exact H2|]. split; [|split; assumption].
  exists (promote d d'), (pre ++ b_buffer b). cbn [b_frozen b_buffer]. split; [apply concat_holds; assumption|]. split; [rewrite app_nil_r; exact Hpre|]. split.
  - intros Hf. destruct (is_float d) eqn:Efd.
    + destruct (Hfl eq_refl) as (v & Hv & Hv2). exists v. split; [apply in_app_iff; left; exact Hv|exact Hv2].
    + exists mx. split; [apply in_app_iff; right; exact Mx1|]. specialize (Hsg eq_refl).
      assert (Ed' : d' = U64) by (destruct d, d'; cbn in Hf, Hsg, Rf; congruence). subst d'.
      destruct (Z.le_gt_cases (2 ^ 32) mx) as [Hok|Hlt]; [exact Hok|]. exfalso. specialize (Cmin U32 ltac:(discriminate)). cbn [can_hold width] in *. lia.
  - intros Hf. destruct (is_float d) eqn:Efd; [rewrite promote_float in Hf by (rewrite Efd; reflexivity); discriminate|]. specialize (Hsg eq_refl).
    destruct d, d'; cbn in Hf, Hsg, Rf |- *; congruence.
Qed.

Lemma all_values_snoc recs id arr : all_values (recs ++ [(id, arr)]) = all_values recs ++ arr.
Proof. unfold all_values. rewrite map_app, concat_app. cbn [map concat]. rewrite app_nil_r. reflexivity. Qed.
Lemma append_ok recs b id arr : built_from recs b -> in_range (all_values (recs ++ [(id, arr)])) ->
  exists b', append b id arr = Ok b' /\ built_from (recs ++ [(id, arr)]) b' /\ b_buf_size b' = b_buf_size b /\ b_name b' = b_name b.
Proof.
  intros (H1 & H2 & (d & pre & Hh & Hpre & Hfl & Hsg) & H4 & H5) Hr. unfold append.
  set (b1 := MkBuilder _ _ _ _ _ _ _).
  assert (Hb1 : built_from (recs ++ [(id, arr)]) b1).
  { unfold b1. split; [|split; [|split; [|split]]]; cbn [b_ids b_refs b_frozen b_buffer b_max_len].
    - rewrite map_app. cbn [map fst]. rewrite ids_dict_snoc, <- H1, H2, refs_from_length, !map_length. reflexivity.
    - rewrite map_app. cbn [map snd]. rewrite refs_from_snoc, <- H2. do 3 f_equal. fold (all_values recs). rewrite <- Hpre, app_length, <- (holds_len _ _ _ Hh). unfold a_len. lia.
    - exists d, pre. split; [exact Hh|]. split; [|auto]. rewrite app_assoc, Hpre, all_values_snoc. reflexivity.
    - intros r Hr'. apply in_app_iff in Hr'. destruct Hr' as [Hr'|[<-|[]]]; [specialize (H4 r Hr'); lia|cbn [snd]; lia].
    - rewrite all_values_snoc, app_length. lia. }
  destruct (b_buf_size b <=? Z.of_nat (length (b_buffer b1))); [|exists b1; auto].
  destruct (shrink_ok _ _ Hb1 Hr) as (b' & E & Hb' & _ & Es & En). exists b'. auto.
Qed.
Lemma built_new name buf : built_from [] (new_builder name buf).
Proof.
  split; [reflexivity|]. split; [reflexivity|]. split; [|split; [intros r []|cbn; lia]].
  exists I8, []. split; [split; [reflexivity|constructor]|]. split; [reflexivity|]. split; [discriminate|reflexivity].
Qed.
Lemma in_range_prefix a b : in_range (a ++ b) -> in_range a.
Proof. apply in_range_incl. intros v Hv. apply in_app_iff. left. exact Hv. Qed.
Lemma appends_ok name buf recs : in_range (all_values recs) ->
  exists b, foldM (fun b (r : Z * list Z) => append b (fst r) (snd r)) recs (new_builder name buf) = Ok b /\ built_from recs b /\ b_name b = name.
Proof.
  induction recs as [|[id arr] recs IH] using rev_ind; intros Hr.
  - eexists. split; [reflexivity|]. split; [apply built_new|reflexivity].
  - destruct IH as (b & E & Hb & Hn); [rewrite all_values_snoc in Hr; apply in_range_prefix in Hr; exact Hr|].
    destruct (append_ok recs b id arr Hb Hr) as (b' & E' & Hb' & _ & Hn'). exists b'. rewrite foldM_app, E. cbn [foldM fst snd]. rewrite E'. split; [reflexivity|]. split; [exact Hb'|congruence].
Qed.

(** *** building *)
Definition field_for (name : str) (recs : list (Z * list Z)) (f : field) : Prop :=
  f_name f = name /\ f_ids f = ids_dict (map fst recs) /\ f_refs f = refs_from 0 (map snd recs) /\
  Z.of_nat (length (all_values recs)) <= dmax (f_refs_type f) /\ dmin (f_refs_type f) = 0 /\ is_float (f_refs_type f) = false /\
  exists d, holds d (all_values recs) (f_data f) /\ (is_float d = true -> exists v, In v (all_values recs) /\ 2 ^ 32 <= v).

Lemma len_concat_le arrs n (a : list Z) : nth_error arrs n = Some a -> (length (concat (firstn n arrs)) + length a <= length (concat arrs))%nat.
Proof. intros H. rewrite (concat_nth _ _ _ H), !app_length. lia. Qed.
Lemma refs_from_bound arrs : forall s r, In r (refs_from s arrs) -> s <= fst r /\ 0 <= snd r /\ fst r + snd r <= s + Z.of_nat (length (concat arrs)).
Proof.
  induction arrs as [|a arrs IH]; intros s r [].
  - subst r. cbn [fst snd concat]. rewrite app_length. lia.
  - specialize (IH _ _ H). cbn [concat]. rewrite app_length. lia.
Qed.
Lemma build_ok recs b : built_from recs b -> in_range (all_values recs) -> fits_memory (all_values recs) ->
  (recs <> [] /\ NoDup (map fst recs) -> exists f, build b = Ok f /\ field_for (b_name b) recs f) /\
  (~ (recs <> [] /\ NoDup (map fst recs)) -> build b = Raise AssertionError).
Proof.
  intros Hb Hr Hm. unfold build. destruct (shrink_ok _ _ Hb Hr) as (b' & E & Hb' & Ebuf & _ & Hn). rewrite E. cbn [bind].
  destruct Hb' as (H1 & H2 & (d & pre & Hh & Hpre & Hfl & Hsg) & H4 & H5). rewrite Ebuf, app_nil_r in Hpre. subst pre.
  assert (Hlen : a_len (b_frozen b') = Z.of_nat (length (all_values recs))) by (unfold a_len; rewrite (holds_len _ _ _ Hh); reflexivity).
  rewrite Hlen, Z.max_l by lia. unfold fits_memory in Hm.
  destruct (best_dtype_ok U64 0 (Z.of_nat (length (all_values recs)))) as (dr & Edr); [cbn; auto 10|unfold range_fits, dmin, dmax; cbn [signed bits]; lia|].
  rewrite Edr. cbn [bind]. destruct (best_dtype_sound _ _ _ Edr) as ([R1 R2] & Rf & _). destruct (best_dtype_minimal _ _ _ (Nat2Z.is_nonneg _) Edr) as (_ & _ & _ & _ & Rs).
  assert (Hdm : dmin dr = 0) by (unfold dmin; destruct (signed dr) eqn:Es; [exfalso; assert (0 < 0); [apply Rs; destruct dr; cbn in Es; try discriminate Es; unfold is_signed; auto|lia]|reflexivity]).
  assert (Hrefs : map (fun r => (cast dr (fst r), cast dr (snd r))) (b_refs b') = b_refs b').
  { rewrite H2. rewrite <- (map_id (refs_from 0 _)) at 2. apply map_ext_in. intros [s n] Hin. cbn [fst snd]. apply refs_from_bound in Hin. cbn [fst snd] in Hin.
    fold (all_values recs) in Hin. rewrite !cast_fits; [reflexivity|exact Rf| |exact Rf|]; unfold fits; lia. }
  rewrite Hrefs. unfold seq_field. rewrite H1, H2. destruct (ids_dict_length (map fst recs)) as [_ Hl]. rewrite map_length in Hl.
  split.
  - intros [Hne Hnd]. destruct recs as [|r0 recs0] eqn:Er; [contradiction|]. rewrite <- Er in *.
    destruct (refs_from 0 (map snd recs)) as [|x l] eqn:Erf; [subst recs; discriminate|]. rewrite <- Erf in *.
    rewrite refs_from_length, map_length, (proj2 (Nat.eqb_eq _ _) (proj2 Hl Hnd)). cbn [assert_ bind].
    assert (Hlast : fst (last (refs_from 0 (map snd recs)) (0, 0)) <= a_len (b_frozen b')).
    { assert (Hin : In (last (refs_from 0 (map snd recs)) (0, 0)) (refs_from 0 (map snd recs))).
      { rewrite Erf. clear. revert x. induction l as [|y l IH]; intros x; [left; reflexivity|]. right. change (last (x :: y :: l) (0, 0)) with (last (y :: l) (0, 0)). apply IH. }
      apply refs_from_bound in Hin. fold (all_values recs) in Hin. rewrite Hlen. lia. }
    rewrite (proj2 (Z.leb_le _ _) Hlast). cbn [assert_ bind]. eexists. split; [reflexivity|]. split; [exact Hn|]. split; [reflexivity|]. split; [reflexivity|].
    cbn [f_refs_type f_data]. split; [exact R2|]. split; [exact Hdm|]. split; [exact Rf|]. exists d. split; [exact Hh|exact Hfl].
  - intros Hno. destruct (refs_from 0 (map snd recs)) as [|x l] eqn:Erf; [reflexivity|]. rewrite <- Erf.
    assert (Hne : recs <> []) by (intros ->; discriminate). rewrite refs_from_length, map_length.
    destruct (Nat.eqb_spec (length recs) (length (ids_dict (map fst recs)))) as [El|El]; [exfalso; apply Hno; split; [exact Hne|apply Hl, El]|reflexivity].
Qed.
Theorem field_create_ok name buf recs : in_range (all_values recs) -> fits_memory (all_values recs) ->
  (recs <> [] /\ NoDup (map fst recs) -> exists f, field_create name buf recs = Ok f /\ field_for name recs f) /\
  (~ (recs <> [] /\ NoDup (map fst recs)) -> field_create name buf recs = Raise AssertionError).
Proof.
  intros Hr Hm. unfold field_create. destruct (appends_ok name buf recs Hr) as (b & E & Hb & Hn). rewrite E. cbn [bind]. rewrite <- Hn. apply build_ok; assumption.
Qed.

(** *** reading back *)
Lemma field_ref name recs f n id arr : field_for name recs f -> NoDup (map fst recs) -> nth_error recs n = Some (id, arr) ->
  ref_of f id = Ok (Z.of_nat (length (concat (firstn n (map snd recs)))), Z.of_nat (length arr)).
Proof.
  intros (_ & H1 & H2 & _) Hnd Hn. unfold ref_of. rewrite H1.
  rewrite (ids_dict_get _ Hnd n id) by (rewrite nth_error_map, Hn; reflexivity). apply py_nth_of_nat. rewrite H2.
  rewrite (refs_from_nth _ n arr) by (rewrite nth_error_map, Hn; reflexivity). rewrite Z.add_0_l. reflexivity.
Qed.
Theorem field_get name recs f id arr : field_for name recs f -> NoDup (map fst recs) -> In (id, arr) recs ->
  get_len f id = Ok (Z.of_nat (length arr)) /\
  exists a, get_item f id = Ok a /\ a_type a = a_type (f_data f) /\ holds (a_type a) arr a /\ (is_float (a_type a) = true -> exists v, In v (all_values recs) /\ 2 ^ 32 <= v) /\
  exists start, ref_of f id = Ok (start, Z.of_nat (length arr)) /\ can_hold (f_refs_type f) start /\ can_hold (f_refs_type f) (start + Z.of_nat (length arr)) /\
    cast (f_refs_type f) (start + Z.of_nat (length arr)) = start + Z.of_nat (length arr).
Proof.
  intros Hf Hnd Hin. apply In_nth_error in Hin. destruct Hin as (n & Hn). pose proof (field_ref _ _ _ _ _ _ Hf Hnd Hn) as Hr.
  destruct Hf as (_ & H1 & H2 & Hmax & Hmin & Hif & d & Hh & Hfl).
  assert (Hn' : nth_error (map snd recs) n = Some arr) by (rewrite nth_error_map, Hn; reflexivity).
  pose proof (len_concat_le _ _ _ Hn') as Hle. fold (all_values recs) in Hle.
  assert (Hc : cast (f_refs_type f) (Z.of_nat (length (concat (firstn n (map snd recs)))) + Z.of_nat (length arr)) = Z.of_nat (length (concat (firstn n (map snd recs)))) + Z.of_nat (length arr)).
  { apply cast_fits; [exact Hif|]. unfold fits. lia. }
  unfold get_len, get_item. rewrite Hr. cbn [bind fst snd]. split; [reflexivity|]. rewrite Hc. eexists. split; [reflexivity|].
  destruct Hh as [Hd Hfit]. rewrite Hd. unfold all_values. rewrite (concat_nth _ _ _ Hn'), !map_app.
  replace (length (concat (firstn n (map snd recs)))) with (length (map (cast d) (concat (firstn n (map snd recs))))) by apply map_length.
  replace (length arr) with (length (map (cast d) arr)) by apply map_length. rewrite <- Nat2Z.inj_add, slice_mid. cbn [a_type]. split; [reflexivity|]. split.
  - split; [reflexivity|]. intros Hd'. specialize (Hfit Hd'). unfold all_values in Hfit. rewrite (concat_nth _ _ _ Hn'), !Forall_app in Hfit. apply Hfit.
  - split.
    + intros H. destruct (Hfl H) as (v & Hv & Hv2). exists v. split; [|exact Hv2]. unfold all_values in Hv. rewrite (concat_nth _ _ _ Hn') in Hv. exact Hv.
    + rewrite !map_length. exists (Z.of_nat (length (concat (firstn n (map snd recs))))). split; [reflexivity|].
      rewrite !can_hold_fits by exact Hif. unfold fits. split; [lia|]. split; [lia|]. exact Hc.
Qed.

(** *** faithful values *)
Lemma faithful_in_range vals : faithful vals -> in_range vals.
Proof. intros [H|H]; left; unfold exact53 in *; rewrite Forall_forall in *; intros v Hv; specialize (H v Hv); cbn beta in *; lia. Qed.
Lemma faithful_exact vals arr a : faithful vals -> (forall v, In v arr -> In v vals) -> holds (a_type a) arr a ->
  (is_float (a_type a) = true -> exists v, In v vals /\ 2 ^ 32 <= v) -> a_vals a = arr.
Proof.
  intros Hf Hi Hh Hfl. apply (holds_exact (a_type a) arr a Hh). destruct Hf as [Hf|Hf].
  - left. destruct (is_float (a_type a)); [|reflexivity]. exfalso. destruct (Hfl eq_refl) as (v & Hv & Hv2). rewrite Forall_forall in Hf. specialize (Hf v Hv). cbn beta in Hf. lia.
  - right. unfold exact53 in Hf. rewrite Forall_forall in *. auto.
Qed.
Lemma in_all_values (recs : list (Z * list Z)) id arr v : In (id, arr) recs -> In v arr -> In v (all_values recs).
Proof. intros Hin Hv. apply in_concat. exists arr. split; [apply (in_map snd) in Hin; exact Hin|exact Hv]. Qed.

Lemma NoDup_dec_Z (l : list Z) : NoDup l \/ ~ NoDup l.
Proof. destruct (ListDec.NoDup_dec Z.eq_dec l); auto. Qed.
(** *** C38, C40, C41 for fields *)
Theorem field_reads_back name buf recs : faithful (all_values recs) -> fits_memory (all_values recs) -> recs <> [] -> NoDup (map fst recs) ->
  exists f, field_create name buf recs = Ok f /\ field_len f = Z.of_nat (length recs) /\
    (forall id arr, In (id, arr) recs -> get_len f id = Ok (Z.of_nat (length arr)) /\
       exists a, get_item f id = Ok a /\ a_vals a = arr /\
         (Forall (fun v => v < 2 ^ 32) (all_values recs) -> is_integer_type (a_type a))) /\
    (forall id, ~ In id (map fst recs) -> get_item f id = Raise KeyError /\ get_len f id = Raise KeyError).
Proof.
  intros Hv Hm Hne Hnd. destruct (field_create_ok name buf recs (faithful_in_range _ Hv) Hm) as [H _]. destruct (H (conj Hne Hnd)) as (f & E & Hf).
  exists f. split; [exact E|]. split; [|split].
  - unfold field_len. destruct Hf as (_ & -> & _). destruct (ids_dict_length (map fst recs)) as [_ Hl]. rewrite <- (proj2 Hl Hnd), map_length. reflexivity.
  - intros id arr Hin. destruct (field_get _ _ _ _ _ Hf Hnd Hin) as (Hl & a & Ea & _ & Hh & Hfl & _). split; [exact Hl|]. exists a. split; [exact Ea|]. split.
    + eapply faithful_exact; [exact Hv| |exact Hh|exact Hfl]. intros v. apply in_all_values with (id := id), Hin.
    + intros Hsm Ht. rewrite Ht in Hfl. destruct (Hfl eq_refl) as (v & Hv1 & Hv2). rewrite Forall_forall in Hsm. specialize (Hsm v Hv1). cbn beta in Hsm. lia.
  - intros id Hid. unfold get_item, get_len, ref_of. destruct Hf as (_ & -> & _). rewrite (ids_dict_none _ _ Hid). split; reflexivity.
Qed.
(** what is stored in general: the value, or the value rounded to 53 bits, for the whole field *)
Theorem field_reads_rounded name buf recs : in_range (all_values recs) -> fits_memory (all_values recs) -> recs <> [] -> NoDup (map fst recs) ->
  exists f, field_create name buf recs = Ok f /\
    ((forall id arr, In (id, arr) recs -> exists a, get_item f id = Ok a /\ is_integer_type (a_type a) /\ a_vals a = arr) \/
     (forall id arr, In (id, arr) recs -> exists a, get_item f id = Ok a /\ a_type a = F64 /\ a_vals a = map round53 arr)).
Proof.
  intros Hv Hm Hne Hnd. destruct (field_create_ok name buf recs Hv Hm) as [H _]. destruct (H (conj Hne Hnd)) as (f & E & Hf).
  exists f. split; [exact E|]. destruct (is_float (a_type (f_data f))) eqn:Ef; [right|left]; intros id arr Hin;
    destruct (field_get _ _ _ _ _ Hf Hnd Hin) as (_ & a & Ea & Et & Hh & _); exists a; (split; [exact Ea|]).
  - assert (Et' : a_type a = F64) by (rewrite Et; destruct (a_type (f_data f)); try discriminate Ef; reflexivity). split; [exact Et'|].
    destruct Hh as [-> _]. rewrite Et'. reflexivity.
  - split; [intros Ht; rewrite <- Et, Ht in Ef; discriminate|]. eapply holds_exact; [exact Hh|]. left. rewrite Et. exact Ef.
Qed.
Theorem field_offsets name buf recs f : in_range (all_values recs) -> fits_memory (all_values recs) -> field_create name buf recs = Ok f ->
  forall id, In id (map fst recs) -> exists start len, ref_of f id = Ok (start, len) /\
    can_hold (f_refs_type f) start /\ can_hold (f_refs_type f) (start + len) /\ 0 <= start /\ 0 <= len /\ start + len <= a_len (f_data f) /\
    cast (f_refs_type f) (start + len) = start + len.
Proof.
  intros Hv Hm E id Hid. destruct (field_create_ok name buf recs Hv Hm) as [H1 H2].
  destruct (NoDup_dec_Z (map fst recs)) as [Hnd|Hnd]; [|rewrite H2 in E; [discriminate|tauto]].
  assert (Hne : recs <> []) by (intros ->; destruct Hid). destruct (H1 (conj Hne Hnd)) as (f' & E' & Hf). rewrite E in E'. injection E' as <-.
  apply in_map_iff in Hid. destruct Hid as ([i arr] & <- & Hin). cbn [fst]. pose proof Hin as Hin'. apply In_nth_error in Hin'. destruct Hin' as (n & Hn).
  pose proof (field_ref _ _ _ _ _ _ Hf Hnd Hn) as Hr. destruct (field_get _ _ _ _ _ Hf Hnd Hin) as (_ & a & _ & _ & _ & _ & start & Hr' & H4 & H5 & H6).
  rewrite Hr in Hr'. injection Hr' as <-. eexists. eexists. split; [exact Hr|]. split; [exact H4|]. split; [exact H5|]. split; [lia|]. split; [lia|]. split; [|exact H6].
  destruct Hf as (_ & _ & _ & _ & _ & _ & d & Hh & _). unfold a_len. rewrite (holds_len _ _ _ Hh).
  assert (Hn' : nth_error (map snd recs) n = Some arr) by (rewrite nth_error_map, Hn; reflexivity). pose proof (len_concat_le _ _ _ Hn') as Hle. unfold all_values. lia.
Qed.
Theorem field_refused name buf recs : in_range (all_values recs) -> fits_memory (all_values recs) ->
  ((exists f, field_create name buf recs = Ok f) <-> recs <> [] /\ NoDup (map fst recs)) /\
  (recs = [] \/ ~ NoDup (map fst recs) -> field_create name buf recs = Raise AssertionError).
Proof.
  intros Hv Hm. destruct (field_create_ok name buf recs Hv Hm) as [H1 H2]. split.
  - split; [|intros H; destruct (H1 H) as (f & E & _); eauto]. intros (f & E). destruct (NoDup_dec_Z (map fst recs)) as [Hnd|Hnd].
    + destruct recs as [|r recs]; [rewrite H2 in E; [discriminate|intros [H _]; apply H; reflexivity]|split; [discriminate|exact Hnd]].
    + rewrite H2 in E; [discriminate|]. tauto.
  - intros H. apply H2. intros [Ha Hb]. tauto.
Qed.

(** ** Db *)
Lemma nth_error_ext2 {A} (l l' : list A) : (forall n, nth_error l n = nth_error l' n) -> l = l'.
Proof.
  revert l'. induction l as [|x l IH]; intros [|y l'] H; [reflexivity|discriminate (H 0%nat)|discriminate (H 0%nat)|].
  assert (E := H 0%nat). injection E as ->. f_equal. apply IH. intros n. apply (H (S n)).
Qed.
Lemma Forall2_length {A B} {P : A -> B -> Prop} {l l'} : Forall2 P l l' -> length l = length l'.
Proof. induction 1; cbn; congruence. Qed.
Lemma Forall2_nth_l {A B} (P : A -> B -> Prop) l l' n x : Forall2 P l l' -> nth_error l n = Some x -> exists y, nth_error l' n = Some y /\ P x y.
Proof. intros H. revert n. induction H as [|a b l l' Hab _ IH]; intros [|n] Hn; try discriminate Hn; [injection Hn as <-; exists b; auto|apply IH, Hn]. Qed.
Lemma mapM_total {A B} (f : A -> res B) l : (forall x, In x l -> exists y, f x = Ok y) -> exists ys, mapM f l = Ok ys.
Proof.
  induction l as [|x l IH]; intros H; [exists []; reflexivity|]. destruct (H x (or_introl eq_refl)) as (y & E). destruct IH as (ys & Es); [intros z Hz; apply H; right; exact Hz|].
  exists (y :: ys). cbn [mapM]. rewrite E, Es. reflexivity.
Qed.
Lemma combine_nth_error {A B} (l : list A) (l' : list B) n : nth_error (combine l l') n = match nth_error l n, nth_error l' n with Some a, Some b => Some (a, b) | _, _ => None end.
Proof. revert l' n. induction l as [|x l IH]; intros [|y l'] [|n]; cbn [combine nth_error]; try reflexivity; [destruct (nth_error l n); reflexivity|apply IH]. Qed.

Definition builders_for (names : list str) (recs : list (Z * list (list Z))) (bs : list builder) : Prop :=
  length bs = length names /\
  forall j name, nth_error names j = Some name -> exists b, nth_error bs j = Some b /\ built_from (column j recs) b /\ b_name b = name.
Lemma column_snoc j recs r : column j (recs ++ [r]) = column j recs ++ [(fst r, nth j (snd r) [])].
Proof. unfold column. rewrite map_app. reflexivity. Qed.
Lemma columns_prefix n recs r : columns_ok in_range n (recs ++ [r]) -> columns_ok in_range n recs.
Proof. intros H j Hj. specialize (H j Hj). rewrite column_snoc, all_values_snoc in H. eapply in_range_prefix, H. Qed.
Lemma append_all_ok names recs : well_shaped (length names) recs -> columns_ok in_range (length names) recs ->
  exists bs, foldM append_all recs (map (fun n => new_builder n None) names) = Ok bs /\ builders_for names recs bs.
Proof.
  induction recs as [|[id cols] recs IH] using rev_ind; intros Hw Hc.
  - eexists. split; [reflexivity|]. split; [apply map_length|]. intros j name Hj. eexists. rewrite nth_error_map, Hj. split; [reflexivity|]. split; [apply built_new|reflexivity].
  - destruct IH as (bs & E & Hlen & Hb); [intros r Hr; apply Hw, in_app_iff; left; exact Hr|eapply columns_prefix, Hc|].
    assert (Hcols : length cols = length names) by (apply (Hw (id, cols)), in_app_iff; right; left; reflexivity).
    rewrite foldM_app, E. cbn [foldM]. unfold append_all at 1. cbn [snd fst]. rewrite Hcols, Hlen, Nat.eqb_refl. cbn [assert_ bind].
    assert (Hstep : forall j name b, nth_error names j = Some name -> nth_error bs j = Some b ->
              exists b', append b id (nth j cols []) = Ok b' /\ built_from (column j (recs ++ [(id, cols)])) b' /\ b_name b' = name).
    { intros j name b Hj Hbj. destruct (Hb j name Hj) as (b0 & Hb0 & Hbf & Hbn). rewrite Hbj in Hb0. injection Hb0 as <-.
      assert (Hjl : (j < length names)%nat) by (apply nth_error_Some; congruence). specialize (Hc j Hjl).
      rewrite column_snoc in Hc |- *. cbn [fst snd] in *. destruct (append_ok _ _ _ _ Hbf Hc) as (b' & E' & Hb' & _ & Hn'). exists b'. rewrite Hn'. auto. }
    destruct (mapM_total (fun bc : builder * list Z => append (fst bc) id (snd bc)) (combine bs cols)) as (bs' & Es).
    { intros [b col] Hin. apply In_nth_error in Hin. destruct Hin as (j & Hj). rewrite combine_nth_error in Hj. destruct (nth_error bs j) as [b0|] eqn:Eb; [|discriminate].
      destruct (nth_error cols j) as [c0|] eqn:Ec; [|discriminate]. injection Hj as -> ->. destruct (nth_error names j) as [name|] eqn:En.
      - destruct (Hstep j name b En Eb) as (b' & E' & _). exists b'. cbn [fst snd]. rewrite (nth_error_nth cols j [] Ec) in E'. exact E'.
      - exfalso. apply nth_error_None in En. assert (j < length bs)%nat by (apply nth_error_Some; congruence). lia. }
    rewrite Es. exists bs'. split; [reflexivity|]. apply mapM_forall2 in Es. split.
    + apply Forall2_length in Es. rewrite combine_length in Es. lia.
    + intros j name Hj. destruct (Hb j name Hj) as (b & Hbj & _). destruct (nth_error cols j) as [c|] eqn:Ec.
      * destruct (Forall2_nth_l _ _ _ j (b, c) Es) as (b' & Hb' & Eapp); [rewrite combine_nth_error, Hbj, Ec; reflexivity|]. cbn [fst snd] in Eapp.
        destruct (Hstep j name b Hj Hbj) as (b2 & E2 & H2 & H3). rewrite (nth_error_nth cols j [] Ec), Eapp in E2. injection E2 as <-. exists b'. auto.
      * exfalso. apply nth_error_None in Ec. assert (j < length names)%nat by (apply nth_error_Some; congruence). lia.
Qed.

Definition db_for (names : list str) (recs : list (Z * list (list Z))) (d : db) : Prop :=
  db_names d = names /\ db_ids d = map fst recs /\ db_len d = Z.of_nat (length recs) /\
  exists fs, length fs = length names /\ db_fields d = combine names fs /\
    forall j name, nth_error names j = Some name -> exists f, nth_error fs j = Some f /\ field_for name (column j recs) f.
Lemma column_ids j recs : map fst (column j recs) = map fst recs.
Proof. unfold column. rewrite map_map. reflexivity. Qed.
Lemma ids_dict_dkeys ids : NoDup ids -> dkeys (ids_dict ids) = ids.
Proof.
  induction ids as [|x ids IH] using rev_ind; intros H; [reflexivity|]. apply NoDup_remove in H. rewrite app_nil_r in H. destruct H as [H1 H2].
  rewrite ids_dict_snoc, dkeys_dset. destruct (dmem Z.eqb x (ids_dict ids)) eqn:E; [|rewrite IH by exact H1; reflexivity].
  exfalso. apply (dmem_spec Z.eqb Z.eqb_eq) in E. rewrite IH in E by exact H1. contradiction.
Qed.
Lemma same_set_refl l : same_set l l = true.
Proof.
  unfold same_set. assert (H : forallb (fun x => existsb (Z.eqb x) l) l = true) by (apply forallb_forall; intros x Hx; apply existsb_exists; exists x; split; [exact Hx|apply Z.eqb_refl]).
  rewrite H. reflexivity.
Qed.
Lemma fields_dict names fs : NoDup names -> length fs = length names -> (forall j name, nth_error names j = Some name -> exists f, nth_error fs j = Some f /\ f_name f = name) ->
  fold_left (fun d f => dset str_eqb (f_name f) f d) fs [] = combine names fs.
Proof.
  revert names. induction fs as [|f fs IH] using rev_ind; intros names Hnd Hl Hn; [destruct names; [reflexivity|discriminate]|].
  rewrite app_length in Hl. cbn [length] in Hl.
  destruct names as [|name names] using rev_ind; [cbn in Hl; lia|]. clear IHnames. rewrite app_length in Hl. cbn [length] in Hl.
  rewrite fold_left_app. cbn [fold_left]. apply NoDup_remove in Hnd. rewrite app_nil_r in Hnd. destruct Hnd as [Hnd Hni].
  rewrite (IH names Hnd); [|lia|].
  - assert (En : f_name f = name).
    { destruct (Hn (length names) name) as (f' & Hf' & Hf2); [rewrite nth_error_app2, Nat.sub_diag by lia; reflexivity|].
      rewrite nth_error_app2 in Hf' by lia. replace (length names - length fs)%nat with 0%nat in Hf' by lia. injection Hf' as <-. exact Hf2. }
    rewrite En, (dset_fresh str_eqb str_eqb_eq).
    + assert (Hll : length names = length fs) by lia. clear - Hll. revert fs Hll. induction names as [|n names IH]; intros [|g fs] Hll; try discriminate Hll; [reflexivity|].
      cbn [combine app]. f_equal. apply IH. cbn in Hll. lia.
    + intros Hin. apply Hni. unfold dkeys in Hin. apply in_map_iff in Hin. destruct Hin as ([a b] & <- & Hin). apply in_combine_l in Hin. exact Hin.
  - intros j nm Hj. assert (Hjl : (j < length names)%nat) by (apply nth_error_Some; congruence).
    destruct (Hn j nm) as (f' & Hf' & Hf2); [rewrite nth_error_app1 by exact Hjl; exact Hj|]. rewrite nth_error_app1 in Hf' by lia. eauto.
Qed.
Theorem db_create_ok names recs : NoDup names -> names <> [] -> well_shaped (length names) recs -> columns_ok in_range (length names) recs -> columns_ok fits_memory (length names) recs ->
  (recs <> [] /\ NoDup (map fst recs) -> exists d, db_create names recs = Ok d /\ db_for names recs d) /\
  (~ (recs <> [] /\ NoDup (map fst recs)) -> db_create names recs = Raise AssertionError).
Proof.
  intros Hnn Hne Hw Hc Hm. unfold db_create, create_many. destruct (append_all_ok names recs Hw Hc) as (bs & E & Hlen & Hb). rewrite E. cbn [bind].
  assert (Hbuild : forall j name b, nth_error names j = Some name -> nth_error bs j = Some b ->
     (recs <> [] /\ NoDup (map fst recs) -> exists f, build b = Ok f /\ field_for name (column j recs) f) /\
     (~ (recs <> [] /\ NoDup (map fst recs)) -> build b = Raise AssertionError)).
  { intros j name b Hj Hbj. destruct (Hb j name Hj) as (b0 & Hb0 & Hbf & Hbn). rewrite Hbj in Hb0. injection Hb0 as <-.
    assert (Hjl : (j < length names)%nat) by (apply nth_error_Some; congruence). rewrite <- Hbn, <- (column_ids j recs).
    assert (Hnil : recs <> [] <-> column j recs <> []) by (unfold column; destruct recs; cbn [map]; split; intros H; try discriminate; intros _; apply H; reflexivity).
    destruct (build_ok _ _ Hbf (Hc j Hjl) (Hm j Hjl)) as [B1 B2]. split; intros H; [apply B1|apply B2]; rewrite <- Hnil; exact H. }
  split.
  - intros Hok. destruct (mapM_total build bs) as (fs & Efs).
    { intros b Hin. apply In_nth_error in Hin. destruct Hin as (j & Hj). destruct (nth_error names j) as [name|] eqn:En.
      - destruct (Hbuild j name b En Hj) as [B _]. destruct (B Hok) as (f & Ef & _). eauto.
      - exfalso. apply nth_error_None in En. assert (j < length bs)%nat by (apply nth_error_Some; congruence). lia. }
    rewrite Efs. cbn [bind]. apply mapM_forall2 in Efs. pose proof (Forall2_length Efs) as Hfl.
    assert (Hfs : forall j name, nth_error names j = Some name -> exists f, nth_error fs j = Some f /\ field_for name (column j recs) f).
    { intros j name Hj. destruct (Hb j name Hj) as (b & Hbj & _). destruct (Forall2_nth_l _ _ _ _ _ Efs Hbj) as (f & Hf & Ebf).
      destruct (Hbuild j name b Hj Hbj) as [B _]. destruct (B Hok) as (f' & Ef' & Hf'). rewrite Ebf in Ef'. injection Ef' as <-. eauto. }
    assert (Hids : forall f, In f fs -> f_ids f = ids_dict (map fst recs)).
    { intros f Hin. apply In_nth_error in Hin. destruct Hin as (j & Hj). destruct (nth_error names j) as [name|] eqn:En.
      - destruct (Hfs j name En) as (f' & Hf' & Hff). rewrite Hj in Hf'. injection Hf' as <-. destruct Hff as (_ & -> & _). rewrite column_ids. reflexivity.
      - exfalso. apply nth_error_None in En. assert (j < length fs)%nat by (apply nth_error_Some; congruence). lia. }
    destruct fs as [|f0 fs0] eqn:Ef0; [destruct names; [contradiction|cbn in *; lia]|]. rewrite <- Ef0 in *.
    assert (Hf0 : f_ids f0 = ids_dict (map fst recs)) by (apply Hids; rewrite Ef0; left; reflexivity).
    assert (Hdict : fold_left (fun d f => dset str_eqb (f_name f) f d) fs [] = combine names fs).
    { apply fields_dict; [exact Hnn|lia|]. intros j name Hj. destruct (Hfs j name Hj) as (f & Hf & Hff). exists f. split; [exact Hf|apply Hff]. }
    assert (Hchk : forall l, incl l (combine names fs) -> foldM (fun _ (nf : str * field) => bind (assert_ (field_len f0 =? field_len (snd nf))) (fun _ => assert_ (same_set (dkeys (f_ids f0)) (dkeys (f_ids (snd nf)))))) l tt = Ok tt).
    { induction l as [|[n f] l IH]; intros Hi; [reflexivity|]. cbn [foldM snd].
      assert (Hf : f_ids f = ids_dict (map fst recs)) by (apply Hids; specialize (Hi (n, f) (or_introl eq_refl)); apply in_combine_r in Hi; exact Hi).
      assert (Hl : field_len f = field_len f0) by (unfold field_len; rewrite Hf0, Hf; reflexivity).
      assert (Hd : f_ids f = f_ids f0) by congruence. rewrite Hl, Hd, Z.eqb_refl, same_set_refl. cbn [assert_ bind]. apply IH. intros x Hx. apply Hi. right. exact Hx. }
    unfold make_db. rewrite Ef0. rewrite <- Ef0. rewrite Hdict, (Hchk _ (fun x H => H)). cbn [bind]. eexists. split; [reflexivity|].
    split; [|split; [|split]]; cbn [db_names db_ids db_len db_fields].
    + apply nth_error_ext2. intros j. rewrite nth_error_map. destruct (nth_error names j) as [name|] eqn:En.
      * destruct (Hfs j name En) as (f & Hf & Hff). rewrite Hf. cbn [option_map]. f_equal. apply Hff.
      * destruct (nth_error fs j) as [f|] eqn:Ef; [|reflexivity]. exfalso. apply nth_error_None in En. assert (j < length fs)%nat by (apply nth_error_Some; congruence). lia.
    + rewrite Hf0. apply ids_dict_dkeys, Hok.
    + unfold field_len. rewrite Hf0. destruct (ids_dict_length (map fst recs)) as [_ Hl]. rewrite <- (proj2 Hl (proj2 Hok)), map_length. reflexivity.
    + exists fs. split; [lia|]. split; [reflexivity|exact Hfs].
  - intros Hno. destruct bs as [|b bs]; [destruct names; [contradiction|cbn in *; lia]|]. destruct names as [|name names]; [contradiction|].
    destruct (Hbuild 0%nat name b eq_refl eq_refl) as [_ B]. cbn [mapM]. rewrite (B Hno). reflexivity.
Qed.
