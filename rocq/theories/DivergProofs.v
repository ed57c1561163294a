(** Proofs about the distances between distributions. *)
From Coq Require Import QArith Qabs Lqa Reals Qreals Lra Lia.
From Verif Require Import Py PyLemmas EvalModel DivergModel DivergSpec.
Local Open Scope list_scope.

Lemma np_sum_mass l : np_sum l = mass l.
Proof. induction l as [|x l IH]; [reflexivity|]. cbn. unfold np_sum in IH. rewrite IH. reflexivity. Qed.
Lemma assert_ok b : assert_ b = Ok tt <-> b = true.
Proof. destruct b; cbn; split; congruence. Qed.
Lemma validate_spec d :
  validate_distribution true d = if is_float d && negb (Qle_bool (1 # 10000) (Qabs (np_sum (vals d) - 1))) && forallb (fun x => Qle_bool 0 x) (vals d)
                                 then Ok tt else Raise AssertionError.
Proof. unfold validate_distribution. destruct (is_float d); [|reflexivity]. cbn [bind assert_]. destruct (negb _); [|reflexivity]. cbn. destruct (forallb _ _); reflexivity. Qed.
Lemma Qle_bool_false x y : Qle_bool x y = false <-> (y < x)%Q.
Proof.
  split; intros H.
  - apply Qnot_le_lt. intros C. apply Qle_bool_iff in C. congruence.
  - destruct (Qle_bool x y) eqn:E; [|reflexivity]. apply Qle_bool_iff in E. apply Qlt_not_le in H. contradiction.
Qed.
Lemma validate_iff d : validate_distribution true d = Ok tt <-> is_float d = true /\ distribution (vals d).
Proof.
  rewrite validate_spec, np_sum_mass. unfold distribution.
  split.
  - destruct (is_float d); [|discriminate]. destruct (Qle_bool _ _) eqn:E; [discriminate|].
    destruct (forallb _ _) eqn:F; [|discriminate]. intros _. split; [reflexivity|]. split.
    + intros x Hx. rewrite forallb_forall in F. apply Qle_bool_iff, F, Hx.
    + apply Qle_bool_false in E. apply Qabs_Qlt_condition in E. destruct E as [E1 E2]. split; Lqa.lra.
  - intros [-> [H1 [H2 H3]]]. replace (Qle_bool _ _) with false.
    + replace (forallb _ _) with true; [reflexivity|]. symmetry. apply forallb_forall. intros x Hx. apply Qle_bool_iff, H1, Hx.
    + symmetry. apply Qle_bool_false. apply Qabs_Qlt_condition. split; Lqa.lra.
Qed.
Lemma validate_cases d : validate_distribution true d = Ok tt \/ validate_distribution true d = Raise AssertionError.
Proof. rewrite validate_spec. destruct (_ && _); auto. Qed.

(** *** earth_mov_dist *)
Definition l1 (a b : list Q) : Q := np_sum (map Qabs (np_map2 Qminus a b)).
Lemma l1_cons x y a b : l1 (x :: a) (y :: b) = (Qabs (x - y) + l1 a b)%Q.
Proof. reflexivity. Qed.
Lemma l1_nonneg a b : (0 <= l1 a b)%Q.
Proof.
  revert b. induction a as [|x a IH]; intros [|y b]; try (cbn; Lqa.lra). rewrite l1_cons.
  pose proof (Qabs_nonneg (x - y)). specialize (IH b). Lqa.lra.
Qed.
Lemma l1_sym a b : (l1 a b == l1 b a)%Q.
Proof.
  revert b. induction a as [|x a IH]; intros [|y b]; try reflexivity. rewrite !l1_cons, IH, Qabs_Qminus. reflexivity.
Qed.
Lemma l1_zero a : forall b, length a = length b -> (l1 a b == 0)%Q <-> Forall2 Qeq a b.
Proof.
  induction a as [|x a IH]; intros [|y b] Hl; try discriminate Hl.
  - split; [constructor|reflexivity].
  - rewrite l1_cons. injection Hl as Hl. pose proof (Qabs_nonneg (x - y)) as H1. pose proof (l1_nonneg a b) as H2. split.
    + intros H. assert (E1 : (Qabs (x - y) == 0)%Q) by Lqa.lra. assert (E2 : (l1 a b == 0)%Q) by Lqa.lra.
      constructor; [|apply IH; assumption].
      assert (E : (Qabs (x - y) <= 0)%Q) by Lqa.lra. apply Qabs_Qle_condition in E. destruct E. Lqa.lra.
    + intros H. inversion H as [|? ? ? ? Hxy Hab]; subst. apply IH in Hab; [|exact Hl]. rewrite Hab.
      assert (E : (x - y == 0)%Q) by Lqa.lra. rewrite E. reflexivity.
Qed.
Lemma l1_triangle a : forall b c, length a = length b -> length b = length c -> (l1 a c <= l1 a b + l1 b c)%Q.
Proof.
  induction a as [|x a IH]; intros [|y b] [|z c] H1 H2; try discriminate.
  injection H1 as H1. injection H2 as H2. specialize (IH b c H1 H2). rewrite !l1_cons.
  pose proof (Qabs_triangle (x - y) (y - z)) as T.
  assert (E : (x - y + (y - z) == x - z)%Q) by Lqa.lra. rewrite E in T. Lqa.lra.
Qed.
Lemma l1_bound a : forall b, (forall x, In x a -> 0 <= x)%Q -> (forall x, In x b -> 0 <= x)%Q -> (l1 a b <= mass a + mass b)%Q.
Proof.
  induction a as [|x a IH]; intros b Ha Hb.
  - cbn. induction b as [|y b IHb]; [cbn; Lqa.lra|]. cbn [mass]. pose proof (Hb y (or_introl eq_refl)). assert (forall x, In x b -> 0 <= x)%Q by (intros; apply Hb; right; assumption).
    specialize (IHb H0). Lqa.lra.
  - destruct b as [|y b].
    + cbn. clear IH. assert (0 <= mass a)%Q. { assert (H : forall z, In z a -> (0 <= z)%Q) by (intros; apply Ha; right; assumption). clear Ha. induction a as [|z a IHa]; [cbn; Lqa.lra|]. cbn. pose proof (H z (or_introl eq_refl)). assert (0 <= mass a)%Q by (apply IHa; intros; apply H; right; assumption). Lqa.lra. }
      pose proof (Ha x (or_introl eq_refl)). Lqa.lra.
    + rewrite l1_cons. cbn [mass]. pose proof (Ha x (or_introl eq_refl)). pose proof (Hb y (or_introl eq_refl)).
      assert (IH' : (l1 a b <= mass a + mass b)%Q) by (apply IH; intros; [apply Ha|apply Hb]; right; assumption).
      assert (Qabs (x - y) <= x + y)%Q by (apply Qabs_Qle_condition; split; Lqa.lra). Lqa.lra.
Qed.
Lemma l1_moved a : forall b, length a = length b -> (l1 b a == 2 * moved a b + mass b - mass a)%Q.
Proof.
  induction a as [|x a IH]; intros [|y b] Hl; try discriminate Hl; [cbn; Lqa.lra|].
  injection Hl as Hl. rewrite l1_cons, (IH b Hl). cbn [mass moved]. destruct (Qlt_le_dec y x) as [H|H].
  - rewrite Qabs_neg by Lqa.lra. Lqa.lra.
  - rewrite Qabs_pos by Lqa.lra. Lqa.lra.
Qed.
Lemma emd_unfold a b c v : (v = true -> is_float a = true /\ is_float b = true /\ distribution (vals a) /\ distribution (vals b)) ->
  length (vals a) = length (vals b) -> (0 < c)%Q ->
  earth_mov_dist true a b c v = Ok (c * l1 (vals b) (vals a))%Q.
Proof.
  intros Hv Hl Hc. unfold earth_mov_dist.
  assert (E : (if v then bind (validate_distribution true a) (fun _ => validate_distribution true b) else Ok tt) = Ok tt).
  { destruct v; [|reflexivity]. destruct (Hv eq_refl) as (F1 & F2 & D1 & D2).
    rewrite (proj2 (validate_iff a)) by auto. cbn [bind]. apply validate_iff. auto. }
  rewrite E. cbn [bind]. rewrite Hl, Nat.eqb_refl. cbn [assert_ bind].
  rewrite (proj2 (Qle_bool_false c 0)) by exact Hc. reflexivity.
Qed.
Theorem emd_distance : forall c, (0 < c)%Q -> exists d : farray -> farray -> Q,
  (forall a b v, (v = true -> is_float a = true /\ is_float b = true /\ distribution (vals a) /\ distribution (vals b)) ->
     length (vals a) = length (vals b) -> earth_mov_dist true a b c v = Ok (d a b)) /\
  (forall a b, 0 <= d a b)%Q /\ (forall a b, d a b == d b a)%Q /\
  (forall a b, length (vals a) = length (vals b) -> (d a b == 0)%Q <-> Forall2 Qeq (vals a) (vals b)) /\
  (forall x y z, length (vals x) = length (vals y) -> length (vals y) = length (vals z) -> d x z <= d x y + d y z)%Q /\
  (forall a b, distribution (vals a) -> distribution (vals b) -> d a b <= 2 * c * (1 + (1 # 10000)))%Q /\
  (forall a b, length (vals a) = length (vals b) -> mass (vals a) == mass (vals b) -> d a b == 2 * c * moved (vals a) (vals b))%Q.
Proof.
  intros c Hc. exists (fun a b => c * l1 (vals b) (vals a))%Q.
  split; [intros; apply emd_unfold; assumption|]. split; [|split; [|split; [|split; [|split]]]].
  - intros a b. pose proof (l1_nonneg (vals b) (vals a)). apply Qmult_le_0_compat; Lqa.lra.
  - intros a b. rewrite l1_sym. reflexivity.
  - intros a b Hl. rewrite <- (l1_zero (vals a) (vals b) Hl), l1_sym. split; intros H.
    + apply Qmult_integral in H. destruct H; [Lqa.lra|assumption].
    + rewrite H. Lqa.lra.
  - intros x y z H1 H2. pose proof (l1_triangle (vals x) (vals y) (vals z) H1 H2) as T.
    rewrite (l1_sym (vals z)), (l1_sym (vals y)), (l1_sym (vals z)).
    setoid_replace (c * l1 (vals x) (vals y) + c * l1 (vals y) (vals z))%Q with (c * (l1 (vals x) (vals y) + l1 (vals y) (vals z)))%Q by ring.
    rewrite <- !(Qmult_comm _ c). apply Qmult_le_compat_r; [exact T|Lqa.lra].
  - intros a b [Ha1 [_ Ha2]] [Hb1 [_ Hb2]]. pose proof (l1_bound (vals b) (vals a) Hb1 Ha1) as B.
    setoid_replace (2 * c * (1 + (1 # 10000)))%Q with (c * (2 * (1 + (1 # 10000))))%Q by ring.
    rewrite <- !(Qmult_comm _ c). apply Qmult_le_compat_r; Lqa.lra.
  - intros a b Hl Hm. rewrite (l1_moved (vals a) (vals b) Hl), Hm. ring.
Qed.
Theorem emd_refused : forall a b c v,
  ((v = true -> is_float a = true /\ is_float b = true /\ distribution (vals a) /\ distribution (vals b)) /\
   length (vals a) = length (vals b) /\ (0 < c)%Q) \/ earth_mov_dist true a b c v = Raise AssertionError.
Proof.
  intros a b c v. unfold earth_mov_dist. destruct v.
  - destruct (validate_cases a) as [Ea|Ea]; rewrite Ea; [|right; reflexivity]. cbn [bind].
    destruct (validate_cases b) as [Eb|Eb]; rewrite Eb; [|right; reflexivity]. cbn [bind].
    apply validate_iff in Ea. apply validate_iff in Eb.
    destruct (Nat.eqb _ _) eqn:El; [|right; reflexivity]. apply Nat.eqb_eq in El. cbn [bind assert_].
    destruct (Qle_bool c 0) eqn:Ec; [right; reflexivity|]. apply Qle_bool_false in Ec. left. tauto.
  - cbn [bind]. destruct (Nat.eqb _ _) eqn:El; [|right; reflexivity]. apply Nat.eqb_eq in El. cbn [bind assert_].
    destruct (Qle_bool c 0) eqn:Ec; [right; reflexivity|]. apply Qle_bool_false in Ec. left. split; [discriminate|]. tauto.
Qed.
(* EMD_simple is the distance from the uniform distribution *)
Theorem emd_simple_is_emd : forall stats c, (0 < c)%Q -> zsum stats <> 0%Z ->
  exists v, EMD_simple stats c = Ok (Some v) /\
    forall u d, vals u = repeat (1 / inject_Z (Z.of_nat (length stats)))%Q (length stats) ->
      vals d = map (fun s => inject_Z s / inject_Z (zsum stats))%Q stats ->
      exists w, earth_mov_dist true u d ((1 # 2) * c) false = Ok w /\ (v == w)%Q.
Proof.
  intros stats c Hc Hz. unfold EMD_simple. rewrite (proj2 (Qle_bool_false c 0)) by exact Hc. cbn [negb assert_ bind].
  destruct stats as [|s0 st] eqn:E; [exfalso; apply Hz; reflexivity|]. rewrite <- E in *. clear E s0 st.
  rewrite (proj2 (Z.eqb_neq _ _)) by exact Hz. eexists. split; [reflexivity|]. intros u d Hu Hd.
  eexists. split; [apply emd_unfold; [discriminate| |Lqa.lra]|].
  - rewrite Hu, Hd, repeat_length, map_length. reflexivity.
  - rewrite Hu, Hd. set (k := inject_Z _). set (S := inject_Z (zsum stats)).
    assert (L : forall l, (fold_right Qplus 0 (map (fun x => Qabs (x - 1 / k)) (map (fun s => inject_Z s / S) l)) ==
                       l1 (map (fun s => inject_Z s / S) l) (repeat (1 / k) (length l)))%Q).
    { induction l as [|s l IH]; [reflexivity|]. cbn [map length repeat]. rewrite l1_cons. cbn [fold_right]. rewrite IH. reflexivity. }
    rewrite L. reflexivity.
Qed.
Theorem emd_no_alias : forall a b c, earth_mov_dist false a b c true = Raise AttributeError.
Proof. reflexivity. Qed.

(** *** kl_div *)
Local Open Scope R_scope.
Lemma q_pos x : (0 < x)%Q -> 0 < Q2R x.
Proof. intros H. apply Qlt_Rlt in H. rewrite RMicromega.Q2R_0 in H. exact H. Qed.
Lemma q_nonneg x : (0 <= x)%Q -> 0 <= Q2R x.
Proof. intros H. apply Qle_Rle in H. rewrite RMicromega.Q2R_0 in H. exact H. Qed.
Lemma ln_ratio x y : (0 < x)%Q -> (0 < y)%Q -> ln (Q2R (x / y)) = ln (Q2R x) - ln (Q2R y).
Proof.
  intros Hx Hy. rewrite Q2R_div by (intros C; Lqa.lra). unfold Rdiv.
  rewrite ln_mult; [|apply q_pos, Hx|apply Rinv_0_lt_compat, q_pos, Hy]. rewrite ln_Rinv by apply q_pos, Hy. lra.
Qed.
Definition defined (p q : list Q) : Prop := forall x y, In (x, y) (combine p q) -> (0 < x)%Q -> (0 < y)%Q.
Lemma kl_loop_ok p : forall q t, defined p q -> kl_loop t (combine p q) = Ok (t + relative_entropy p q).
Proof.
  induction p as [|x p IH]; intros [|y q] t H; cbn [combine kl_loop relative_entropy]; try (rewrite Rplus_0_r; reflexivity).
  assert (H' : defined p q) by (intros a b Hab; apply H; right; exact Hab).
  destruct (Qle_bool x 0) eqn:E.
  - apply Qle_bool_iff in E. destruct (Qlt_le_dec 0 x) as [C|_]; [exfalso; Lqa.lra|]. rewrite IH by exact H'. rewrite Rplus_0_l. reflexivity.
  - apply Qle_bool_false in E. destruct (Qlt_le_dec 0 x) as [_|C]; [|exfalso; Lqa.lra].
    assert (Hy : (0 < y)%Q) by (apply (H x y); [left; reflexivity|exact E]).
    rewrite (proj2 (Qle_bool_false y 0)) by exact Hy. cbn [negb assert_ bind]. rewrite IH by exact H'.
    rewrite ln_ratio by assumption. f_equal. ring.
Qed.
Lemma kl_loop_bad p : forall q t x y, In (x, y) (combine p q) -> (0 < x)%Q -> (y <= 0)%Q -> kl_loop t (combine p q) = Raise AssertionError.
Proof.
  induction p as [|x0 p IH]; intros [|y0 q] t x y Hin Hx Hy; try destruct Hin. 
  - injection H as -> ->. cbn [combine kl_loop]. rewrite (proj2 (Qle_bool_false x 0)) by exact Hx.
    rewrite (proj2 (Qle_bool_iff y 0)) by exact Hy. reflexivity.
  - cbn [combine kl_loop]. destruct (Qle_bool x0 0); [eapply IH; eassumption|]. destruct (Qle_bool y0 0); [reflexivity|].
    cbn [negb assert_ bind]. eapply IH; eassumption.
Qed.
Theorem kl_outcome : forall p q,
  (defined p q -> kl_div p q = Ok (relative_entropy p q)) /\
  (~ defined p q -> kl_div p q = Raise AssertionError).
Proof.
  intros p q. unfold kl_div. split; intros H; [rewrite kl_loop_ok by exact H; f_equal; ring|].
  assert (D : (exists x y, In (x, y) (combine p q) /\ (0 < x)%Q /\ (y <= 0)%Q) \/ defined p q).
  { unfold defined. induction (combine p q) as [|[a b] l IH]; [right; intros x y []|].
    destruct IH as [(x & y & Hi & Hx & Hy)|IH]; [left; exists x, y; split; [right; exact Hi|auto]|].
    destruct (Qlt_le_dec 0 a) as [Ha|Ha].
    - destruct (Qlt_le_dec 0 b) as [Hb|Hb].
      + right. intros x y [Hxy|Hxy] Hx; [injection Hxy as <- <-; exact Hb|eapply IH; eassumption].
      + left. exists a, b. split; [left; reflexivity|auto].
    - right. intros x y [Hxy|Hxy] Hx; [injection Hxy as <- <-; exfalso; Lqa.lra|eapply IH; eassumption]. }
  destruct D as [(x & y & Hi & Hx & Hy)|D]; [|contradiction]. eapply kl_loop_bad; eassumption.
Qed.
Lemma ln_le_sub x : 0 < x -> ln x <= x - 1.
Proof. intros H. pose proof (exp_ineq1_le (ln x)) as E. rewrite exp_ln in E by exact H. lra. Qed.
Lemma ln_eq_sub x : 0 < x -> ln x = x - 1 -> x = 1.
Proof.
  intros H E. destruct (Req_dec (ln x) 0) as [L|L]; [lra|]. pose proof (exp_ineq1 (ln x) L) as I. rewrite exp_ln in I by exact H. lra.
Qed.
(* p log (p/q) >= p - q *)
Lemma gibbs p q : 0 < p -> 0 < q -> p - q <= p * (ln p - ln q).
Proof.
  intros Hp Hq. assert (Hr : 0 < q / p) by (apply Rdiv_lt_0_compat; assumption).
  pose proof (ln_le_sub (q / p) Hr) as L. unfold Rdiv in L. rewrite ln_mult in L by (try apply Rinv_0_lt_compat; assumption).
  rewrite ln_Rinv in L by exact Hp. assert (M : p * (ln q - ln p) <= p * (q * / p - 1)) by (apply Rmult_le_compat_l; lra).
  replace (p * (q * / p - 1)) with (q - p) in M by (field; lra). lra.
Qed.
Lemma gibbs_eq p q : 0 < p -> 0 < q -> p * (ln p - ln q) = p - q -> p = q.
Proof.
  intros Hp Hq E. assert (Hr : 0 < q / p) by (apply Rdiv_lt_0_compat; assumption).
  assert (L : ln (q / p) = q / p - 1).
  { unfold Rdiv. rewrite ln_mult by (try apply Rinv_0_lt_compat; assumption). rewrite ln_Rinv by exact Hp.
    apply (Rmult_eq_reg_l p); [|lra]. replace (p * (q * / p - 1)) with (q - p) by (field; lra). lra. }
  apply ln_eq_sub in L; [|exact Hr]. apply (f_equal (Rmult p)) in L. replace (p * (q / p)) with q in L by (field; lra). lra.
Qed.
Definition nonneg (l : list Q) : Prop := forall x, In x l -> (0 <= x)%Q.
Lemma nonneg_cons x l : nonneg (x :: l) -> (0 <= x)%Q /\ nonneg l.
Proof. intros H. split; [apply H; left; reflexivity|intros y Hy; apply H; right; exact Hy]. Qed.
Lemma defined_cons x y p q : defined (x :: p) (y :: q) -> ((0 < x)%Q -> (0 < y)%Q) /\ defined p q.
Proof. intros H. split; [apply H; left; reflexivity|intros a b Hab; apply H; right; exact Hab]. Qed.
Lemma relative_ge p : forall q, length p = length q -> nonneg p -> nonneg q -> defined p q ->
  Q2R (mass p) - Q2R (mass q) <= relative_entropy p q /\
  (relative_entropy p q = Q2R (mass p) - Q2R (mass q) -> Forall2 Qeq p q).
Proof.
  induction p as [|x p IH]; intros [|y q] Hl Hp Hq Hd; try discriminate Hl.
  - cbn. split; [lra|intros _; constructor].
  - injection Hl as Hl. apply nonneg_cons in Hp as [Hx Hp]. apply nonneg_cons in Hq as [Hy Hq]. apply defined_cons in Hd as [Hxy Hd].
    destruct (IH q Hl Hp Hq Hd) as [I1 I2]. cbn [mass relative_entropy]. rewrite !Q2R_plus.
    destruct (Qlt_le_dec 0 x) as [P|P].
    + specialize (Hxy P). pose proof (gibbs _ _ (q_pos _ P) (q_pos _ Hxy)) as G. split; [lra|]. intros E. constructor.
      * apply eqR_Qeq, gibbs_eq; [apply q_pos, P|apply q_pos, Hxy|lra].
      * apply I2. lra.
    + assert (X : (x == 0)%Q) by Lqa.lra. rewrite (Qeq_eqR _ _ X), RMicromega.Q2R_0. pose proof (q_nonneg _ Hy) as Y. split; [lra|].
      intros E. constructor; [|apply I2; lra]. apply eqR_Qeq. rewrite (Qeq_eqR _ _ X), RMicromega.Q2R_0. lra.
Qed.
Lemma relative_same p : forall q, Forall2 Qeq p q -> relative_entropy p q = 0.
Proof.
  induction p as [|x p IH]; intros q H; inversion H as [|? y ? q' Hxy Hpq]; subst; [reflexivity|]. cbn [relative_entropy].
  rewrite (IH q' Hpq), (Qeq_eqR _ _ Hxy). destruct (Qlt_le_dec 0 x); ring.
Qed.
Lemma mass_eq p q : Forall2 Qeq p q -> (mass p == mass q)%Q.
Proof. intros H. induction H; [reflexivity|]. cbn. rewrite H, IHForall2. reflexivity. Qed.
Theorem kl_gibbs : forall p q d, length p = length q -> nonneg p -> nonneg q -> (mass q <= mass p)%Q ->
  kl_div p q = Ok d -> 0 <= d /\ (d = 0 <-> Forall2 Qeq p q).
Proof.
  intros p q d Hl Hp Hq Hm E.
  assert (Hd : defined p q).
  { destruct (kl_outcome p q) as [_ H]. intros x y Hi Hx. apply Qnot_le_lt. intros Hy.
    assert (B : kl_div p q = Raise AssertionError) by (unfold kl_div; eapply kl_loop_bad; eassumption). congruence. }
  rewrite (proj1 (kl_outcome p q) Hd) in E. injection E as <-.
  destruct (relative_ge p q Hl Hp Hq Hd) as [G1 G2]. apply Qle_Rle in Hm. split; [lra|]. split; intros H.
  - apply G2. lra.
  - apply relative_same, H.
Qed.
Theorem kl_zip : forall p q, kl_div p q = kl_div (firstn (length q) p) (firstn (length p) q).
Proof.
  intros p q. unfold kl_div. f_equal. revert q. induction p as [|x p IH]; intros [|y q]; try reflexivity.
  cbn [length firstn combine]. f_equal. apply IH.
Qed.

(** *** js_div *)
Definition middle_of (a b : list Q) : list Q := map (Qmult (1 # 2)) (np_map2 Qplus a b).
Lemma middle_cons x y a b : middle_of (x :: a) (y :: b) = ((1 # 2) * (x + y))%Q :: middle_of a b.
Proof. reflexivity. Qed.
Lemma middle_length a : forall b, length a = length b -> length (middle_of a b) = length a.
Proof. intros b H. unfold middle_of, np_map2. rewrite !map_length, combine_length. lia. Qed.
Lemma middle_defined_l a : forall b, length a = length b -> nonneg a -> nonneg b -> defined a (middle_of a b) /\ defined b (middle_of a b).
Proof.
  induction a as [|x a IH]; intros [|y b] Hl Ha Hb; try discriminate Hl; [split; intros u v []|].
  injection Hl as Hl. apply nonneg_cons in Ha as [Hx Ha]. apply nonneg_cons in Hb as [Hy Hb].
  destruct (IH b Hl Ha Hb) as [I1 I2]. rewrite middle_cons. split; intros u v [E|Hi] Hu.
  - injection E as <- <-. Lqa.lra.
  - eapply I1; eassumption.
  - injection E as <- <-. Lqa.lra.
  - eapply I2; eassumption.
Qed.
Lemma middle_nonneg a : forall b, nonneg a -> nonneg b -> nonneg (middle_of a b).
Proof.
  induction a as [|x a IH]; intros [|y b] Ha Hb; try solve [intros z []]. apply nonneg_cons in Ha as [Hx Ha]. apply nonneg_cons in Hb as [Hy Hb].
  rewrite middle_cons. intros z [<-|Hz]; [Lqa.lra|]. exact (IH b Ha Hb z Hz).
Qed.
Lemma middle_mass a : forall b, length a = length b -> (mass (middle_of a b) == (1 # 2) * (mass a + mass b))%Q.
Proof.
  induction a as [|x a IH]; intros [|y b] Hl; try discriminate Hl; [reflexivity|]. injection Hl as Hl.
  rewrite middle_cons. cbn [mass]. rewrite (IH b Hl). ring.
Qed.
Definition js_value (a b : list Q) : R := (1 / 2) * (relative_entropy a (middle_of a b) + relative_entropy b (middle_of a b)).
Lemma js_unfold a b : is_float a = true -> is_float b = true -> distribution (vals a) -> distribution (vals b) ->
  length (vals a) = length (vals b) -> js_div true a b = Ok (js_value (vals a) (vals b)).
Proof.
  intros F1 F2 D1 D2 Hl. unfold js_div. rewrite (proj2 (validate_iff a)) by auto. rewrite (proj2 (validate_iff b)) by auto.
  cbn [bind]. rewrite Hl, Nat.eqb_refl. cbn [assert_ bind].
  destruct (middle_defined_l (vals a) (vals b) Hl (proj1 D1) (proj1 D2)) as [M1 M2].
  fold (middle_of (vals a) (vals b)). rewrite (proj1 (kl_outcome _ _) M1). cbn [bind]. rewrite (proj1 (kl_outcome _ _) M2). reflexivity.
Qed.
Lemma half_q x y : Q2R ((1 # 2) * (x + y)) = (Q2R x + Q2R y) / 2.
Proof. rewrite Q2R_mult, Q2R_plus. replace (Q2R (1 # 2)) with (/ 2) by (unfold Q2R; cbn; lra). lra. Qed.
Lemma re_middle_sym a : forall b, length a = length b -> relative_entropy a (middle_of a b) = relative_entropy a (middle_of b a).
Proof.
  induction a as [|x a IH]; intros [|y b] Hl; try discriminate Hl; [reflexivity|]. injection Hl as Hl.
  rewrite !middle_cons. cbn [relative_entropy]. rewrite (IH b Hl). rewrite !half_q, (Rplus_comm (Q2R y)). reflexivity.
Qed.
Lemma js_sym a b : length a = length b -> js_value a b = js_value b a.
Proof.
  intros Hl. unfold js_value. rewrite (re_middle_sym a b Hl), (re_middle_sym b a) by auto. ring.
Qed.
Lemma js_nonneg a b : length a = length b -> nonneg a -> nonneg b -> 0 <= js_value a b /\ (js_value a b = 0 <-> Forall2 Qeq a b).
Proof.
  intros Hl Ha Hb. destruct (middle_defined_l a b Hl Ha Hb) as [M1 M2]. pose proof (middle_nonneg a b Ha Hb) as Mn.
  pose proof (middle_length a b Hl) as Ml.
  destruct (relative_ge a _ (eq_sym Ml) Ha Mn M1) as [G1 G2].
  destruct (relative_ge b (middle_of a b) ltac:(congruence) Hb Mn M2) as [G3 G4].
  pose proof (Qeq_eqR _ _ (middle_mass a b Hl)) as Mm. rewrite half_q in Mm. unfold js_value. split; [lra|]. split; intros H.
  - assert (E1 : Forall2 Qeq a (middle_of a b)) by (apply G2; lra). assert (E2 : Forall2 Qeq b (middle_of a b)) by (apply G4; lra).
    clear - E1 E2. revert E1 E2. generalize (middle_of a b) as m. intros m. revert a b. induction m as [|z m IH]; intros a b E1 E2; inversion E1 as [|? ? ? ? U1 U2]; subst; inversion E2 as [|? ? ? ? V1 V2]; subst; constructor.
    + rewrite U1. symmetry. exact V1.
    + apply IH; assumption.
  - assert (Z : forall a b, Forall2 Qeq a b -> Forall2 Qeq a (middle_of a b) /\ Forall2 Qeq b (middle_of a b)).
    { clear. intros a b H. induction H as [|x y a b Hxy H IH]; [split; constructor|]. rewrite middle_cons. destruct IH. split; constructor; try assumption; Lqa.lra. }
    destruct (Z a b H) as [Z1 Z2]. rewrite (relative_same _ _ Z1), (relative_same _ _ Z2). ring.
Qed.
Lemma ln_mono x y : 0 < x -> x <= y -> ln x <= ln y.
Proof. intros H [L|<-]; [left; apply ln_increasing; assumption|right; reflexivity]. Qed.
Lemma half_bound a : forall b, length a = length b -> nonneg a -> nonneg b ->
  relative_entropy a (middle_of a b) <= Q2R (mass a) * ln 2 /\
  ((forall x y, In (x, y) (combine a b) -> (x == 0)%Q \/ (y == 0)%Q) -> relative_entropy a (middle_of a b) = Q2R (mass a) * ln 2).
Proof.
  induction a as [|x a IH]; intros [|y b] Hl Ha Hb; try discriminate Hl.
  - cbn. rewrite RMicromega.Q2R_0. split; intros; lra.
  - injection Hl as Hl. apply nonneg_cons in Ha as [Hx Ha]. apply nonneg_cons in Hb as [Hy Hb].
    destruct (IH b Hl Ha Hb) as [I1 I2]. rewrite middle_cons. cbn [relative_entropy mass]. rewrite Q2R_plus, Rmult_plus_distr_r, half_q.
    pose proof (q_nonneg _ Hx) as X. pose proof (q_nonneg _ Hy) as Y. destruct (Qlt_le_dec 0 x) as [P|P].
    + pose proof (q_pos _ P) as X'.
      assert (E : ln ((Q2R x + Q2R y) / 2) = ln (Q2R x + Q2R y) - ln 2).
      { unfold Rdiv. rewrite ln_mult by lra. rewrite ln_Rinv by lra. ring. }
      rewrite E. split.
      * assert (L : ln (Q2R x) <= ln (Q2R x + Q2R y)) by (apply ln_mono; lra).
        assert (Q2R x * (ln (Q2R x) - (ln (Q2R x + Q2R y) - ln 2)) <= Q2R x * ln 2) by (apply Rmult_le_compat_l; lra). lra.
      * intros D. rewrite I2 by (intros u v Huv; apply D; right; exact Huv).
        destruct (D x y (or_introl eq_refl)) as [C|C]; [exfalso; Lqa.lra|].
        rewrite (Qeq_eqR _ _ C), RMicromega.Q2R_0, Rplus_0_r. ring.
    + assert (C : (x == 0)%Q) by Lqa.lra. rewrite (Qeq_eqR _ _ C), RMicromega.Q2R_0. split; [lra|].
      intros D. rewrite I2 by (intros u v Huv; apply D; right; exact Huv). ring.
Qed.
Lemma half_bound_r a b : length a = length b -> nonneg a -> nonneg b ->
  relative_entropy b (middle_of a b) <= Q2R (mass b) * ln 2 /\
  ((forall x y, In (x, y) (combine a b) -> (x == 0)%Q \/ (y == 0)%Q) -> relative_entropy b (middle_of a b) = Q2R (mass b) * ln 2).
Proof.
  intros Hl Ha Hb. rewrite <- (re_middle_sym b a) by auto. destruct (half_bound b a (eq_sym Hl) Hb Ha) as [H1 H2]. split; [exact H1|].
  intros D. apply H2. clear - D Hl. revert b Hl D. induction a as [|u a IH]; intros [|v b] Hl D x y H; try discriminate Hl; [destruct H|].
  injection Hl as Hl. destruct H as [E|H].
  - injection E as <- <-. destruct (D u v (or_introl eq_refl)); auto.
  - apply (IH b Hl); [intros p q Hpq; apply D; right; exact Hpq|exact H].
Qed.
Lemma xlogx_pos x : (0 < x)%Q -> xlogx x = Q2R x * ln (Q2R x).
Proof. intros H. unfold xlogx. destruct (Qeq_bool x 0) eqn:E; [|reflexivity]. apply Qeq_bool_iff in E. exfalso. Lqa.lra. Qed.
Lemma xlogx_0 x : (x == 0)%Q -> xlogx x = 0.
Proof. intros H. unfold xlogx. apply Qeq_bool_iff in H. rewrite H. reflexivity. Qed.
Lemma js_entropy a : forall b, length a = length b -> nonneg a -> nonneg b ->
  js_value a b = entropy (mean_of a b) - (entropy a + entropy b) / 2.
Proof.
  unfold js_value. induction a as [|x a IH]; intros [|y b] Hl Ha Hb; try discriminate Hl; [cbn; lra|].
  injection Hl as Hl. apply nonneg_cons in Ha as [Hx Ha]. apply nonneg_cons in Hb as [Hy Hb].
  specialize (IH b Hl Ha Hb). rewrite !middle_cons. cbn [relative_entropy entropy mean_of].
  rewrite half_q. pose proof (q_nonneg _ Hx) as X. pose proof (q_nonneg _ Hy) as Y.
  assert (M : Q2R ((x + y) / 2) = (Q2R x + Q2R y) / 2).
  { rewrite Q2R_div by discriminate. rewrite Q2R_plus. replace (Q2R 2) with 2 by (unfold Q2R; cbn; lra). reflexivity. }
  assert (Z0 : forall z, (z <= 0)%Q -> (0 <= z)%Q -> Q2R z = 0 /\ xlogx z = 0).
  { intros z H1 H2. assert (E : (z == 0)%Q) by Lqa.lra. split; [rewrite (Qeq_eqR _ _ E); apply RMicromega.Q2R_0|apply xlogx_0, E]. }
  assert (Mp : (0 < x + y)%Q -> xlogx ((x + y) / 2) = (Q2R x + Q2R y) / 2 * ln ((Q2R x + Q2R y) / 2)).
  { intros H. rewrite xlogx_pos, M; [reflexivity|]. apply Qlt_shift_div_l; Lqa.lra. }
  destruct (Qlt_le_dec 0 x) as [P|P], (Qlt_le_dec 0 y) as [P'|P'].
  - rewrite Mp by Lqa.lra. rewrite !xlogx_pos by assumption. lra.
  - destruct (Z0 y P' Hy) as [E1 E2]. rewrite Mp by Lqa.lra. rewrite E2, (xlogx_pos x P), E1, Rplus_0_r. lra.
  - destruct (Z0 x P Hx) as [E1 E2]. rewrite Mp by Lqa.lra. rewrite E2, (xlogx_pos y P'), E1, Rplus_0_l. lra.
  - destruct (Z0 x P Hx) as [E1 E2], (Z0 y P' Hy) as [E3 E4]. rewrite E2, E4.
    rewrite (xlogx_0 ((x + y) / 2)); [lra|]. assert (E : (x + y == 0)%Q) by Lqa.lra. rewrite E. reflexivity.
Qed.
Theorem js_outcome : forall a b, is_float a = true -> is_float b = true -> distribution (vals a) -> distribution (vals b) ->
  length (vals a) = length (vals b) ->
  exists d, js_div true a b = Ok d /\ js_div true b a = Ok d /\
    d = entropy (mean_of (vals a) (vals b)) - (entropy (vals a) + entropy (vals b)) / 2 /\
    0 <= d <= ln 2 * (Q2R (mass (vals a)) + Q2R (mass (vals b))) / 2 /\
    (d = 0 <-> Forall2 Qeq (vals a) (vals b)) /\
    ((forall x y, In (x, y) (combine (vals a) (vals b)) -> (x == 0)%Q \/ (y == 0)%Q) ->
     d = ln 2 * (Q2R (mass (vals a)) + Q2R (mass (vals b))) / 2).
Proof.
  intros a b F1 F2 D1 D2 Hl. exists (js_value (vals a) (vals b)).
  pose proof (proj1 D1) as N1. pose proof (proj1 D2) as N2.
  destruct (js_nonneg _ _ Hl N1 N2) as [J1 J2].
  destruct (half_bound _ _ Hl N1 N2) as [B1 B2]. destruct (half_bound_r _ _ Hl N1 N2) as [B3 B4].
  split; [apply js_unfold; assumption|]. split; [rewrite (js_sym _ _ Hl); apply js_unfold; auto|].
  split; [apply js_entropy; assumption|]. split; [split; [exact J1|unfold js_value; lra]|]. split; [exact J2|].
  intros D. unfold js_value. rewrite (B2 D), (B4 D). field.
Qed.
Theorem js_refused : forall a b,
  (is_float a = true /\ is_float b = true /\ distribution (vals a) /\ distribution (vals b) /\ length (vals a) = length (vals b)) \/
  js_div true a b = Raise AssertionError.
Proof.
  intros a b. unfold js_div. destruct (validate_cases a) as [Ea|Ea]; rewrite Ea; [|right; reflexivity]. cbn [bind].
  destruct (validate_cases b) as [Eb|Eb]; rewrite Eb; [|right; reflexivity]. cbn [bind].
  apply validate_iff in Ea. apply validate_iff in Eb. destruct (Nat.eqb _ _) eqn:El; [|right; reflexivity]. apply Nat.eqb_eq in El. left. tauto.
Qed.
Theorem js_no_alias : forall a b, js_div false a b = Raise AttributeError.
Proof. reflexivity. Qed.
