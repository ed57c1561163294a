(** Lemmas about the numpy fragment. *)
From Verif Require Import Py PyLemmas NumpyModel.
Local Open Scope Z_scope.
Local Open Scope list_scope.

(** a value that a dtype represents exactly *)
Definition fits (d : dtype) (v : Z) : Prop := dmin d <= v <= dmax d.

Lemma pow2_pos k : 0 <= k -> 0 < 2 ^ k. Proof. intros. apply Z.pow_pos_nonneg; lia. Qed.
Lemma round53_small v : - 2 ^ 53 <= v <= 2 ^ 53 -> round53 v = v.
Proof.
  intros H. unfold round53. destruct (Z.ltb_spec (Z.abs v) (2 ^ 53)) as [_|Hge]; [reflexivity|].
  assert (Ha : Z.abs v = 2 ^ 53) by lia. rewrite Ha.
  change (Z.log2 (2 ^ 53)) with 53. change (53 - 52) with 1. change (2 ^ 53 / 2 ^ 1) with (2 ^ 52). change (2 ^ 53 mod 2 ^ 1) with 0. change (2 ^ (1 - 1)) with 1.
  change ((1 <? 0) || (0 =? 1) && Z.odd (2 ^ 52)) with false. cbv iota.
  change (2 ^ 52 * 2 ^ 1) with (2 ^ 53). rewrite <- Ha. rewrite Z.mul_comm. apply Z.abs_sgn.
Qed.
(** rounding an integer multiple of 2^e with a 53-bit quotient changes nothing *)
Lemma round53_exact s q e : (s = 1 \/ s = -1) -> 2 ^ 52 <= q < 2 ^ 53 -> 1 <= e -> round53 (s * (q * 2 ^ e)) = s * (q * 2 ^ e).
Proof.
  intros Hs Hq He. assert (Hpe : 0 < 2 ^ e) by (apply pow2_pos; lia).
  assert (Hpos : 0 < q * 2 ^ e) by (apply Z.mul_pos_pos; lia).
  assert (Habs : Z.abs (s * (q * 2 ^ e)) = q * 2 ^ e) by (destruct Hs; subst s; lia).
  assert (Hlog : Z.log2 (q * 2 ^ e) = 52 + e).
  { apply Z.log2_unique; [lia|]. replace (Z.succ (52 + e)) with (53 + e) by lia. rewrite !Z.pow_add_r by lia. split; [apply Z.mul_le_mono_nonneg_r; lia|apply Z.mul_lt_mono_pos_r; lia]. }
  unfold round53. rewrite Habs, Hlog. replace (52 + e - 52) with e by lia.
  assert (Hq' : q * 2 ^ e / 2 ^ e = q) by (apply Z.div_mul; lia). assert (Hr : (q * 2 ^ e) mod 2 ^ e = 0) by (apply Z.mod_mul; lia). rewrite Hq', Hr.
  assert (Hh : 0 < 2 ^ (e - 1)) by (apply pow2_pos; lia).
  destruct (q * 2 ^ e <? 2 ^ 53); [reflexivity|].
  assert (Ec : (2 ^ (e - 1) <? 0) || (0 =? 2 ^ (e - 1)) && Z.odd q = false).
  { rewrite (proj2 (Z.ltb_ge _ _)) by lia. rewrite (proj2 (Z.eqb_neq _ _)) by lia. reflexivity. }
  rewrite Ec. f_equal. destruct Hs; subst s; [rewrite Z.mul_1_l; apply Z.sgn_pos; exact Hpos|apply Z.sgn_neg; lia].
Qed.
Lemma round53_idem v : round53 (round53 v) = round53 v.
Proof.
  destruct (Z.le_gt_cases (Z.abs v) (2 ^ 53)) as [Hs|Hb]; [rewrite (round53_small v) by lia; apply round53_small; lia|].
  unfold round53 at 2. unfold round53 at 2. destruct (Z.ltb_spec (Z.abs v) (2 ^ 53)) as [Hl|_]; [lia|].
  set (n := Z.abs v) in *. set (e := Z.log2 n - 52).
  assert (Hn : 0 < n) by lia. destruct (Z.log2_spec n Hn) as [L1 L2].
  assert (Hlg : 53 <= Z.log2 n) by (apply Z.log2_le_pow2; lia).
  assert (He : 1 <= e) by (unfold e; lia).
  assert (Hpe : 0 < 2 ^ e) by (apply pow2_pos; lia).
  assert (Hq : 2 ^ 52 <= n / 2 ^ e < 2 ^ 53).
  { split.
    - apply Z.div_le_lower_bound; [lia|]. rewrite <- Z.pow_add_r by lia. replace (e + 52) with (Z.log2 n) by (unfold e; lia). exact L1.
    - apply Z.div_lt_upper_bound; [lia|]. rewrite <- Z.pow_add_r by lia. replace (e + 53) with (Z.succ (Z.log2 n)) by (unfold e; lia). exact L2. }
  assert (Hsg : Z.sgn v = 1 \/ Z.sgn v = -1) by (unfold n in Hn; destruct v; cbn; auto; cbn in Hn; lia).
  destruct ((2 ^ (e - 1) <? n mod 2 ^ e) || (n mod 2 ^ e =? 2 ^ (e - 1)) && Z.odd (n / 2 ^ e)); [|apply round53_exact; assumption].
  destruct (Z.eq_dec (n / 2 ^ e + 1) (2 ^ 53)) as [E|E]; [|apply round53_exact; [exact Hsg|lia|exact He]].
  rewrite E. replace (2 ^ 53 * 2 ^ e) with (2 ^ 52 * 2 ^ (e + 1)) by (rewrite Z.pow_add_r by lia; change (2 ^ 53) with (2 ^ 52 * 2); lia).
  apply round53_exact; [exact Hsg|lia|lia].
Qed.

Lemma cast_fits d v : is_float d = false -> fits d v -> cast d v = v.
Proof.
  unfold fits, dmin, dmax, cast. destruct d; cbn [is_float signed bits]; intros Hf H; try discriminate Hf;
  match goal with |- (v + ?a) mod ?m - ?a = v => rewrite (Z.mod_small (v + a) m); lia | |- v mod ?m = v => apply Z.mod_small; lia end.
Qed.

Lemma promote_fits_l a b v : is_float (promote a b) = false -> fits a v -> fits (promote a b) v.
Proof. unfold fits. destruct a, b; cbn; intros Hf H; try discriminate Hf; lia. Qed.
Lemma promote_fits_r a b v : is_float (promote a b) = false -> fits b v -> fits (promote a b) v.
Proof. unfold fits. destruct a, b; cbn; intros Hf H; try discriminate Hf; lia. Qed.
Lemma promote_float a b : is_float a || is_float b = true -> promote a b = F64.
Proof. unfold promote. intros ->. reflexivity. Qed.

(** *** best_dtype *)
Definition range_fits (d : dtype) (mn mx : Z) : Prop := dmin d <= mn /\ mx <= dmax d.
Lemma best_dtype_sound mn mx d : best_dtype mn mx = Ok d -> range_fits d mn mx /\ is_float d = false /\ In d dtype_options.
Proof.
  unfold best_dtype. destruct (find _ dtype_options) as [d'|] eqn:E; intros H; [|discriminate]. injection H as <-.
  apply find_some in E. destruct E as [Hin Hb]. apply andb_true_iff in Hb. destruct Hb as [H1 H2]. apply Z.leb_le in H1, H2.
  split; [split; assumption|]. split; [|exact Hin]. repeat (destruct Hin as [<-|Hin]; [reflexivity|]). destruct Hin.
Qed.
Lemma best_dtype_first mn mx d : best_dtype mn mx = Ok d ->
  exists a b, dtype_options = a ++ d :: b /\ forall d', In d' a -> ~ range_fits d' mn mx.
Proof.
  unfold best_dtype. generalize dtype_options. intros l. induction l as [|x l IH]; cbn [find]; intros H; [discriminate|].
  destruct ((dmin x <=? mn) && (mx <=? dmax x)) eqn:E.
  - injection H as ->. exists [], l. split; [reflexivity|]. intros d' [].
  - destruct (IH H) as (a & b & -> & Ha). exists (x :: a), b. split; [reflexivity|]. intros d' [<-|Hd']; [|apply Ha, Hd'].
    intros [H1 H2]. apply andb_false_iff in E. destruct E as [E|E]; apply Z.leb_gt in E; lia.
Qed.
Lemma best_dtype_fails mn mx : best_dtype mn mx = Raise AssertionError <-> forall d, In d dtype_options -> ~ range_fits d mn mx.
Proof.
  unfold best_dtype. destruct (find _ dtype_options) as [d'|] eqn:E.
  - split; [discriminate|]. intros H. exfalso. apply find_some in E. destruct E as [Hin Hb]. apply andb_true_iff in Hb. destruct Hb as [H1 H2].
    apply Z.leb_le in H1, H2. apply (H d' Hin). split; assumption.
  - split; [|reflexivity]. intros _ d Hd [H1 H2]. apply (find_none _ _ E) in Hd. apply andb_false_iff in Hd. destruct Hd as [Hd|Hd]; apply Z.leb_gt in Hd; lia.
Qed.
Lemma best_dtype_total mn mx : best_dtype mn mx = Raise AssertionError \/ exists d, best_dtype mn mx = Ok d.
Proof. unfold best_dtype. destruct (find _ _); eauto. Qed.
Lemma best_dtype_ok d mn mx : In d dtype_options -> range_fits d mn mx -> exists d', best_dtype mn mx = Ok d'.
Proof.
  intros Hin Hr. destruct (best_dtype_total mn mx) as [H|H]; [|exact H]. exfalso. rewrite best_dtype_fails in H. apply (H d Hin Hr).
Qed.

(** ** arrays holding integers *)
Definition holds (d : dtype) (vals : list Z) (a : array) : Prop := a = MkArr d (map (cast d) vals) /\ (is_float d = false -> Forall (fits d) vals).
Lemma holds_exact d vals a : holds d vals a -> is_float d = false \/ Forall (fun v => - 2 ^ 53 <= v <= 2 ^ 53) vals -> a_vals a = vals.
Proof.
  intros [-> Hf] H. cbn [a_vals]. assert (G : forall l, (forall v, In v l -> cast d v = v) -> map (cast d) l = l).
  { induction l as [|x l IH]; intros Hl; [reflexivity|]. cbn [map]. rewrite (Hl x) by (left; reflexivity). f_equal. apply IH. intros v Hv. apply Hl. right. exact Hv. }
  apply G. intros v Hv. destruct (is_float d) eqn:Ed.
  - destruct H as [H|H]; [discriminate|]. rewrite Forall_forall in H. destruct d; try discriminate Ed. apply round53_small, H, Hv.
  - apply cast_fits; [exact Ed|]. specialize (Hf eq_refl). rewrite Forall_forall in Hf. apply Hf, Hv.
Qed.
Lemma cast_cast d d' v : (is_float d = false -> fits d v) -> (is_float d' = false -> is_float d = false) -> cast d' (cast d v) = cast d' v.
Proof.
  intros H1 H2. destruct (is_float d) eqn:Ed.
  - destruct d; try discriminate Ed. destruct (is_float d') eqn:Ed'; [|discriminate (H2 eq_refl)]. destruct d'; try discriminate Ed'. apply round53_idem.
  - rewrite (cast_fits d v Ed (H1 eq_refl)). reflexivity.
Qed.
Lemma map_cast_cast d d' vals : (is_float d = false -> Forall (fits d) vals) -> (is_float d' = false -> is_float d = false) ->
  map (cast d') (map (cast d) vals) = map (cast d') vals.
Proof.
  intros H1 H2. rewrite map_map. apply map_ext_in. intros v Hv. apply cast_cast; [|exact H2]. intros Hd. specialize (H1 Hd). rewrite Forall_forall in H1. apply H1, Hv.
Qed.
Lemma concat_holds d1 v1 a1 d2 v2 a2 : holds d1 v1 a1 -> holds d2 v2 a2 -> holds (promote d1 d2) (v1 ++ v2) (concatenate a1 a2).
Proof.
  intros [-> H1] [-> H2]. unfold concatenate. cbn [a_type a_vals].
  assert (Hd1 : is_float (promote d1 d2) = false -> is_float d1 = false) by (destruct d1; [reflexivity..|cbn; discriminate]).
  assert (Hd2 : is_float (promote d1 d2) = false -> is_float d2 = false) by (destruct d1, d2; cbn; congruence).
  rewrite !map_cast_cast by assumption. split; [rewrite map_app; reflexivity|]. intros Hf. apply Forall_app. split.
  - specialize (H1 (Hd1 Hf)). eapply Forall_impl; [|exact H1]. intros v. apply promote_fits_l, Hf.
  - specialize (H2 (Hd2 Hf)). eapply Forall_impl; [|exact H2]. intros v. apply promote_fits_r, Hf.
Qed.
Lemma holds_len d vals a : holds d vals a -> length (a_vals a) = length vals.
Proof. intros [-> _]. apply map_length. Qed.

(** *** slices *)
Lemma slice_mid d (a b c : list Z) : slice (MkArr d (a ++ b ++ c)) (Z.of_nat (length a)) (Z.of_nat (length a + length b)) = MkArr d b.
Proof.
  unfold slice. cbn [a_vals a_type]. f_equal. unfold py_bound. rewrite !(proj2 (Z.leb_le 0 _)) by lia. rewrite !Nat2Z.id, !app_length.
  rewrite !Nat.min_l by lia. replace (length a + length b - length a)%nat with (length b) by lia.
  rewrite skipn_app, skipn_all, Nat.sub_diag. cbn [app skipn]. rewrite firstn_app, Nat.sub_diag, firstn_all. cbn [firstn]. apply app_nil_r.
Qed.
