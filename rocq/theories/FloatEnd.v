(** The coverage filter with the floats of the code. *)
From Coq Require Import ZArith QArith Qpower Lia Lqa Bool Permutation.
From Coq Require Import Floats.SpecFloat.
From Verif Require Import Py PyLemmas LearnModel LearnSpec ArithModel FloatSpec LearnProofs FloatProofs.
Local Open Scope Z_scope.

Lemma value_Q f V : value f V -> (f64_Q f == inject_Z V / inject_Z ONE)%Q.
Proof.
  assert (HO : ~ (inject_Z ONE == 0)%Q) by (unfold ONE; discriminate).
  destruct f as [[]|[]| |[] m e]; cbn [value f64_Q]; try contradiction.
  - intros ->. reflexivity.
  - intros (C & _ & ->). apply canon_exp in C. rewrite inject_Z_mult, (Zpower_Qpower 2 (e + 1074)) by lia. change (inject_Z 2) with (2 # 1)%Q.
    rewrite (Qpower_plus (2 # 1) e 1074) by discriminate. assert (E : ((2 # 1) ^ 1074 == inject_Z ONE)%Q) by (unfold ONE; rewrite (Zpower_Qpower 2 1074) by lia; reflexivity).
    rewrite E. field. exact HO.
Qed.
Lemma one_value : value (f64_div 1 1) ONE.
Proof. vm_compute. repeat split; discriminate. Qed.
Lemma unit_value c : is_double c -> a_unit arith64 c = true -> exists C, value c C /\ 0 < C <= ONE.
Proof.
  intros Hd Hu. cbn [a_unit arith64] in Hu. apply andb_prop in Hu. destruct Hu as [H1 H2].
  destruct c as [[]|[]| |[] m e]; try discriminate. unfold is_double in Hd. cbn [valid_binary] in Hd. unfold bounded, canonical_mantissa in Hd.
  apply andb_prop in Hd. destruct Hd as [Hc He]. apply Zeq_bool_eq in Hc. apply Z.leb_le in He.
  assert (V : value (S754_finite false m e) (Zpos m * 2 ^ (e + 1074))) by (split; [exact Hc|split; [lia|reflexivity]]).
  exists (Zpos m * 2 ^ (e + 1074)). split; [exact V|]. apply canon_exp in Hc. split; [apply Z.mul_pos_pos; [lia|apply Z.pow_pos_nonneg; lia]|].
  change (SFleb (S754_finite false m e) (f64_div 1 1)) with (f64_leb (S754_finite false m e) (f64_div 1 1)) in H2.
  rewrite (leb_ok _ _ _ _ V one_value) in H2. apply Z.leb_le, H2.
Qed.

(** ** the accumulated shares *)
Lemma freq_sum_cons w f l : freq_sum ((w, f) :: l) = f + freq_sum l. Proof. reflexivity. Qed.
Lemma shares_ok tot l : 0 < tot -> forall c V S k, (forall w f, In (w, f) l -> 0 < f) -> value c V -> 0 <= S -> S + freq_sum l <= tot -> 0 <= k -> k + Z.of_nat (length l) < 2 ^ 52 ->
  Z.abs (V * tot - S * ONE) <= k * tot * 2 ^ 1022 ->
  exists V', value (fold_left (fun c (e : str * Z) => f64_add c (f64_div (snd e) tot)) l c) V' /\
    Z.abs (V' * tot - (S + freq_sum l) * ONE) <= (k + Z.of_nat (length l)) * tot * 2 ^ 1022.
Proof.
  intros Ht. induction l as [|[w f] l IH]; intros c V S k Hpos HV HS Htot Hk Hlen He; cbn [fold_left snd].
  - exists V. split; [exact HV|]. cbn [length Z.of_nat]. change (freq_sum []) with 0. rewrite !Z.add_0_r. exact He.
  - rewrite freq_sum_cons in *. cbn [length] in *. rewrite Nat2Z.inj_succ in *.
    assert (Hf : 0 < f) by (apply (Hpos w); left; reflexivity).
    assert (Hl : forall w f, In (w, f) l -> 0 < f) by (intros a b Hab; apply (Hpos a); right; exact Hab).
    assert (Hn : 0 <= freq_sum l) by (apply freq_sum_nonneg; intros a b Hab; pose proof (Hl a b Hab); lia).
    destruct (div_ok f tot Hf ltac:(lia)) as (W & W1 & W2).
    assert (HA : 2 ^ 1022 = 2 * 2 ^ 1021) by reflexivity. assert (HB : ONE = 2 ^ 52 * 2 ^ 1022) by reflexivity.
    assert (HC : 0 < 2 ^ 1021) by reflexivity. set (T := 2 ^ 1021) in *.
    assert (Hbound : V + W < 2 * ONE).
    { assert (Hx : (V + W) * tot < 2 * ONE * tot); [|nia].
      assert (V * tot <= S * ONE + k * tot * 2 ^ 1022) by lia. assert (W * tot <= f * ONE + tot * T) by lia.
      assert ((S + f) * ONE <= tot * ONE) by (apply Z.mul_le_mono_nonneg_r; [unfold ONE; apply Z.pow_nonneg; lia|lia]).
      assert (k * tot * 2 ^ 1022 + tot * T < tot * ONE); [|lia]. rewrite HB, HA. clearbody T.
      assert (k + 1 < 2 ^ 52) by lia. replace (k * tot * (2 * T) + tot * T) with (tot * T * (2 * k + 1)) by ring.
      replace (tot * (2 ^ 52 * (2 * T))) with (tot * T * (2 * 2 ^ 52)) by ring. apply Z.mul_lt_mono_pos_l; [apply Z.mul_pos_pos; lia|lia]. }
    destruct (add_ok c (f64_div f tot) V W HV W1 Hbound) as (X & X1 & X2). fold T in X2.
    destruct (IH _ X (S + f) (k + 1) Hl X1 ltac:(lia) ltac:(lia) ltac:(lia) ltac:(lia)) as (V' & V1 & V2).
    { rewrite HA in *. assert (Z.abs ((X - (V + W)) * tot) <= T * tot) by (rewrite Z.abs_mul, (Z.abs_eq tot) by lia; apply Z.mul_le_mono_nonneg_r; lia).
      replace ((k + 1) * tot * (2 * T)) with (k * tot * (2 * T) + 2 * (tot * T)) by ring.
      replace (X * tot - (S + f) * ONE) with ((X - (V + W)) * tot + (V * tot - S * ONE) + (W * tot - f * ONE)) by ring. lia. }
    exists V'. split; [exact V1|]. replace (S + (f + freq_sum l)) with (S + f + freq_sum l) by lia.
    replace (k + Z.succ (Z.of_nat (length l))) with (k + 1 + Z.of_nat (length l)) by lia. exact V2.
Qed.
Lemma share_ok tot l : 0 < tot -> (forall w f, In (w, f) l -> 0 < f) -> freq_sum l <= tot -> Z.of_nat (length l) < 2 ^ 52 ->
  exists V, value (share arith64 tot l) V /\ Z.abs (V * tot - freq_sum l * ONE) <= Z.of_nat (length l) * tot * 2 ^ 1022.
Proof. intros Ht Hpos Hs Hl. exact (shares_ok tot l Ht (S754_zero false) 0 0 0 Hpos eq_refl ltac:(lia) ltac:(lia) ltac:(lia) ltac:(lia) ltac:(lia)). Qed.

(** ** reaching the coverage *)
Lemma Q_scale (C S tot n : Z) : 0 < tot ->
  ((inject_Z C / inject_Z ONE <= inject_Z S / inject_Z tot + inject_Z n / inject_Z (2 ^ 52))%Q <-> C * tot <= S * ONE + n * tot * 2 ^ 1022).
Proof.
  intros Ht. assert (HO : (0 < inject_Z ONE)%Q) by reflexivity. assert (HT : (0 < inject_Z tot)%Q) by (unfold Qlt; cbn; lia).
  assert (E : (inject_Z S / inject_Z tot + inject_Z n / inject_Z (2 ^ 52) == inject_Z (S * ONE + n * tot * 2 ^ 1022) / inject_Z (tot * ONE))%Q).
  { assert (E1 : ONE = 2 ^ 52 * 2 ^ 1022) by reflexivity. rewrite E1. rewrite inject_Z_plus, !inject_Z_mult. field.
    repeat split; try discriminate. intros H. rewrite H in HT. discriminate HT. }
  rewrite E. assert (E2 : (inject_Z C / inject_Z ONE == inject_Z (C * tot) / inject_Z (tot * ONE))%Q).
  { rewrite !inject_Z_mult. field. split; [intros H; rewrite H in HO; discriminate HO|intros H; rewrite H in HT; discriminate HT]. }
  rewrite E2. assert (HP : (0 < inject_Z (tot * ONE))%Q) by (rewrite inject_Z_mult; apply Qmult_lt_0_compat; assumption).
  rewrite Zle_Qle. split; intros H.
  - apply (Qmult_le_r _ _ _ (Qinv_lt_0_compat _ HP)). exact H.
  - apply (Qmult_le_r _ _ _ (Qinv_lt_0_compat _ HP)) in H. exact H.
Qed.
Lemma Q_scale_lt (C S tot n : Z) : 0 < tot -> S * ONE < C * tot + n * tot * 2 ^ 1022 ->
  (inject_Z S / inject_Z tot < inject_Z C / inject_Z ONE + inject_Z n / inject_Z (2 ^ 52))%Q.
Proof.
  intros Ht H. apply Qnot_le_lt. intros G. assert (H1 : (inject_Z C / inject_Z ONE <= inject_Z S / inject_Z tot + inject_Z (- n) / inject_Z (2 ^ 52))%Q).
  { rewrite inject_Z_opp. set (a := (inject_Z C / inject_Z ONE)%Q) in *. set (b := (inject_Z S / inject_Z tot)%Q) in *.
    assert (E : (- inject_Z n / inject_Z (2 ^ 52) == - (inject_Z n / inject_Z (2 ^ 52)))%Q) by (field; discriminate).
    rewrite E. set (d := (inject_Z n / inject_Z (2 ^ 52))%Q) in *. clearbody a b d. lra. }
  apply (Q_scale C S tot (- n) Ht) in H1. lia.
Qed.
Theorem reaches_64 tot c l : is_double c -> a_unit arith64 c = true -> 0 < tot -> (forall w f, In (w, f) l -> 0 < f) -> freq_sum l <= tot -> Z.of_nat (length l) < 2 ^ 52 ->
  (reaches arith64 tot c l -> (f64_Q c <= inject_Z (freq_sum l) / inject_Z tot + slack (length l))%Q) /\
  (~ reaches arith64 tot c l -> (inject_Z (freq_sum l) / inject_Z tot < f64_Q c + slack (length l))%Q).
Proof.
  intros Hd Hu Ht Hpos Hs Hl. destruct (unit_value c Hd Hu) as (C & HC & HC1). destruct (share_ok tot l Ht Hpos Hs Hl) as (V & V1 & V2).
  unfold reaches. cbn [a_leb arith64]. change (num arith64) with f64 in c. rewrite (leb_ok _ _ _ _ HC V1). rewrite (value_Q c C HC). unfold slack. split; intros H.
  - apply Q_scale; [exact Ht|]. apply Z.leb_le in H. nia.
  - apply Q_scale_lt; [exact Ht|]. apply not_true_iff_false, Z.leb_gt in H. nia.
Qed.

(** ** coverage 1 on corpora of moderate size *)
Theorem coverage_one_64 types : NoDup (map fst types) -> (forall w f, In (w, f) types -> 0 < f) ->
  Z.of_nat (length types) * freq_sum types <= 2 ^ 52 ->
  exists incl, filter_types_coverage arith64 types (f64_div 1 1) = Ok (incl, 0) /\ Permutation incl types.
Proof.
  intros Hnd Hpos Hsz. destruct (coverage_outcome arith64 types (f64_div 1 1)) as (_ & _ & H3).
  destruct H3 as ((incl & unk) & E).
  - vm_compute. reflexivity.
  - destruct types as [|e l]; [left; reflexivity|right]. pose proof (freq_sum_pos (e :: l) Hpos ltac:(discriminate)). lia.
  - destruct (coverage_spec arith64 types _ incl unk Hnd E) as (rest & [Hp _] & Hu & _ & Hr & _).
    exists incl. assert (Er : rest = []).
    { destruct Hr as [Hr|Hr]; [exact Hr|]. destruct rest as [|e rest]; [reflexivity|exfalso].
      assert (Hrp : 0 < freq_sum (e :: rest)).
      { apply freq_sum_pos; [|discriminate]. intros w f Hin. apply (Hpos w f). eapply Permutation_in; [exact Hp|].
        apply in_app_iff. right. exact Hin. }
      assert (Hip : forall w f, In (w, f) incl -> 0 < f) by (intros w f Hin; apply (Hpos w f); eapply Permutation_in; [exact Hp|]; apply in_app_iff; left; exact Hin).
      assert (Htp : 0 < freq_sum types).
      { apply freq_sum_pos; [exact Hpos|]. intros ->. symmetry in Hp. apply Permutation_nil in Hp. destruct incl; discriminate Hp. }
      pose proof (freq_sum_perm _ _ Hp) as Hs. rewrite freq_sum_app in Hs.
      pose proof (Permutation_length Hp) as Hlen. rewrite app_length in Hlen. cbn [length] in Hlen.
      assert (Hn : Z.of_nat (length incl) < Z.of_nat (length types)) by lia.
      assert (Hb : Z.of_nat (length incl) < 2 ^ 52) by nia.
      destruct (share_ok (freq_sum types) incl Htp Hip ltac:(lia) Hb) as (V & V1 & V2).
      unfold reaches in Hr. cbn [a_leb arith64] in Hr. rewrite (leb_ok _ _ _ _ one_value V1) in Hr. apply Z.leb_le in Hr.
      assert (HB : ONE = 2 ^ 52 * 2 ^ 1022) by reflexivity. assert (HC : 0 < 2 ^ 1022) by reflexivity. rewrite HB in *. set (T := 2 ^ 1022) in *. clearbody T.
      set (n := Z.of_nat (length incl)) in *. set (tot := freq_sum types) in *. set (s := freq_sum incl) in *.
      assert (H1 : 2 ^ 52 * T * tot <= V * tot) by nia.
      assert (H2 : V * tot <= (s * 2 ^ 52 + n * tot) * T) by (replace ((s * 2 ^ 52 + n * tot) * T) with (s * (2 ^ 52 * T) + n * tot * T) by ring; lia).
      assert (H4 : (2 ^ 52 * tot) * T <= (s * 2 ^ 52 + n * tot) * T) by (replace (2 ^ 52 * tot * T) with (2 ^ 52 * T * tot) by ring; lia).
      assert (H5 : 2 ^ 52 * tot <= s * 2 ^ 52 + n * tot) by nia.
      assert (H6 : s <= tot - 1) by lia. assert (H7 : n * tot < 2 ^ 52) by nia. nia. }
    subst rest. rewrite app_nil_r in Hp. split; [|exact Hp]. rewrite E, Hu. reflexivity.
Qed.

(** ** away from ties the float filter is the exact filter *)
Lemma cover_loop_agree A B (c : num A) (c' : num B) tot types : forall cum cum' inc,
  (forall p q, types = p ++ q -> p <> [] -> q <> [] ->
     a_leb A c (fold_left (fun x e => a_add A x (a_div A (snd e) tot)) p cum) =
     a_leb B c' (fold_left (fun x e => a_add B x (a_div B (snd e) tot)) p cum')) ->
  cover_loop A c tot cum types inc = cover_loop B c' tot cum' types inc.
Proof.
  induction types as [|[t f] types IH]; intros cum cum' inc H; cbn [cover_loop]; [reflexivity|].
  destruct (tot =? 0); [reflexivity|]. destruct types as [|e types].
  - cbn [cover_loop]. destruct (a_leb A c _), (a_leb B c' _); reflexivity.
  - pose proof (H [(t, f)] (e :: types) eq_refl ltac:(discriminate) ltac:(discriminate)) as H1. cbn [fold_left snd] in H1. cbv zeta. rewrite <- H1.
    destruct (a_leb A c _); [reflexivity|]. apply IH. intros p q E Hp Hq.
    apply (H ((t, f) :: p) q); [rewrite E; reflexivity|discriminate|exact Hq].
Qed.
Lemma unit_Q c : is_double c -> a_unit arith64 c = true -> a_unit arithQ (f64_Q c) = true.
Proof.
  intros Hd Hu. destruct (unit_value c Hd Hu) as (C & HC & H0 & H1). cbn [a_unit arithQ]. pose proof (value_Q c C HC) as E.
  assert (HP : (0 < / inject_Z ONE)%Q) by reflexivity. apply andb_true_intro. split.
  - apply negb_true_iff, not_true_iff_false. intros H. apply Qle_bool_iff in H. rewrite E in H. apply Qle_not_lt in H. apply H.
    unfold Qdiv. apply Qmult_lt_0_compat; [|exact HP]. rewrite Zlt_Qlt in H0. exact H0.
  - apply Qle_bool_iff. rewrite E. apply Qle_shift_div_r; [reflexivity|]. rewrite Qmult_1_l, <- Zle_Qle. exact H1.
Qed.
Lemma Qle_shift_iff a b t : (0 < t)%Q -> ((a * t <= b)%Q <-> (a <= b / t)%Q).
Proof.
  intros Ht. split; intros H; [apply Qle_shift_div_l; assumption|].
  apply (Qmult_le_compat_r _ _ t) in H; [|apply Qlt_le_weak, Ht]. rewrite (Qmult_comm (b / t) t), Qmult_div_r in H; [exact H|].
  intros E. rewrite E in Ht. discriminate Ht.
Qed.
Theorem coverage_as_exact types c : NoDup (map fst types) -> (forall w f, In (w, f) types -> 0 < f) ->
  Z.of_nat (length types) < 2 ^ 52 -> is_double c -> a_unit arith64 c = true ->
  (forall p q, ranked types (p ++ q) -> p <> [] -> q <> [] ->
     (f64_Q c + slack (length p) < inject_Z (freq_sum p) / inject_Z (freq_sum types))%Q \/
     (inject_Z (freq_sum p) / inject_Z (freq_sum types) < f64_Q c - slack (length p))%Q) ->
  filter_types_coverage arith64 types c = filter_types_coverage arithQ types (f64_Q c).
Proof.
  intros Hnd Hpos Hlen Hd Hu Haway. unfold filter_types_coverage. rewrite Hu, (unit_Q c Hd Hu). cbn [assert_ bind].
  rewrite (cover_loop_agree arith64 arithQ c (f64_Q c) _ _ _ (a_zero arithQ)); [reflexivity|]. intros p q E Hp Hq.
  assert (Hperm : Permutation (p ++ q) types) by (rewrite <- E; apply sorted_desc_perm).
  assert (Hrk : ranked types (p ++ q)) by (rewrite <- E; apply sorted_desc_ranked).
  change (zsum (dvalues types)) with (freq_sum types).
  assert (Htp : 0 < freq_sum types).
  { apply freq_sum_pos; [exact Hpos|]. intros ->. symmetry in Hperm. apply Permutation_nil in Hperm. destruct p; [congruence|discriminate]. }
  assert (Hpp : forall w f, In (w, f) p -> 0 < f) by (intros w f Hin; apply (Hpos w f); eapply Permutation_in; [exact Hperm|]; apply in_app_iff; left; exact Hin).
  assert (Hqp : forall w f, In (w, f) q -> 0 < f) by (intros w f Hin; apply (Hpos w f); eapply Permutation_in; [exact Hperm|]; apply in_app_iff; right; exact Hin).
  pose proof (freq_sum_perm _ _ Hperm) as Hs. rewrite freq_sum_app in Hs. pose proof (freq_sum_pos q Hqp Hq) as Hq0.
  pose proof (Permutation_length Hperm) as Hl. rewrite app_length in Hl.
  destruct (reaches_64 (freq_sum types) c p Hd Hu Htp Hpp ltac:(lia) ltac:(lia)) as [R1 R2].
  pose proof (reaches_Q (freq_sum types) (f64_Q c) p Htp) as RQ. unfold reaches in R1, R2, RQ. unfold share in R1, R2, RQ.
  assert (HT : (0 < inject_Z (freq_sum types))%Q) by (rewrite Zlt_Qlt in Htp; exact Htp).
  assert (RQ' : Qle_bool (f64_Q c) (fold_left (fun x e => Qplus x (Qdiv (inject_Z (snd e)) (inject_Z (freq_sum types)))) p (0 # 1)%Q) = true <-> (f64_Q c <= inject_Z (freq_sum p) / inject_Z (freq_sum types))%Q).
  { rewrite <- (Qle_shift_iff (f64_Q c) _ _ HT). exact RQ. }
  assert (Hsl : (0 <= slack (length p))%Q) by (unfold slack; apply Qle_shift_div_l; [reflexivity|]; rewrite Qmult_0_l; unfold Qle; cbn; lia).
  destruct (Haway p q Hrk Hp Hq) as [H|H].
  - transitivity true; [|symmetry].
    + destruct (a_leb arith64 c _) eqn:Ea; [reflexivity|]. assert (R := R2 ltac:(congruence)). exfalso. lra.
    + apply RQ'. lra.
  - transitivity false; [|symmetry].
    + apply not_true_iff_false. intros Ea. specialize (R1 Ea). lra.
    + apply not_true_iff_false. intros Ea. assert (R := proj1 RQ' Ea). lra.
Qed.

(** ** a ranking is unique *)
Lemma ordered_unique {A} (dec : forall a b : A, {a = b} + {a <> b}) (R : A -> A -> Prop) :
  (forall x y, R x y -> R y x -> False) -> forall l l' : list A, Permutation l l' ->
  (forall x y, earlier x y l -> R x y) -> (forall x y, earlier x y l' -> R x y) -> l = l'.
Proof.
  intros Ha. induction l as [|a l IH]; intros [|b l'] Hp H1 H2; [reflexivity|apply Permutation_nil in Hp; discriminate|symmetry in Hp; apply Permutation_nil in Hp; discriminate|].
  destruct (dec a b) as [->|Hn].
  - f_equal. apply IH; [eapply Permutation_cons_inv, Hp| |].
    + intros x y (u & v & w & ->). apply H1. exists (b :: u), v, w. reflexivity.
    + intros x y (u & v & w & ->). apply H2. exists (b :: u), v, w. reflexivity.
  - exfalso. assert (Ia : In a l') by (destruct (Permutation_in a Hp (or_introl eq_refl)) as [E|E]; [congruence|exact E]).
    assert (Ib : In b l) by (destruct (Permutation_in b (Permutation_sym Hp) (or_introl eq_refl)) as [E|E]; [congruence|exact E]).
    apply in_split in Ia. destruct Ia as (u & v & ->). apply in_split in Ib. destruct Ib as (u' & v' & ->).
    apply (Ha a b); [apply H1; exists [], u', v'; reflexivity|apply H2; exists [], u, v; reflexivity].
Qed.
Lemma earlier_asym {A} (l : list A) x y : NoDup l -> earlier x y l -> earlier y x l -> False.
Proof.
  induction l as [|a l IH]; intros Hn (u & v & w & E) (u' & v' & w' & E'); [destruct u; discriminate|].
  inversion Hn as [|? ? Hi Hn']; subst. destruct u as [|a1 u], u' as [|a2 u']; cbn [app] in E, E'.
  - injection E as Ea El. injection E' as Ea' El'. apply Hi. rewrite Ea, El'. rewrite <- Ea, Ea'. rewrite Ea' in Ea. subst y. rewrite in_app_iff. right. left. reflexivity.
  - injection E as Ea El. injection E' as _ El'. apply Hi. rewrite Ea, El'. rewrite in_app_iff. right. right. rewrite in_app_iff. right. left. reflexivity.
  - injection E as _ El. injection E' as Ea' El'. apply Hi. rewrite Ea', El. rewrite in_app_iff. right. right. rewrite in_app_iff. right. left. reflexivity.
  - injection E as _ El. injection E' as _ El'. apply (IH Hn'); [exists u, v, w; exact El|exists u', v', w'; exact El'].
Qed.
Lemma ranked_unique types l l' : NoDup types -> ranked types l -> ranked types l' -> l = l'.
Proof.
  intros Hn [P1 O1] [P2 O2]. assert (dec : forall a b : str * Z, {a = b} + {a <> b}) by (decide equality; [apply Z.eq_dec|apply str_dec]).
  apply (ordered_unique dec (fun x y => snd y < snd x \/ (snd x = snd y /\ earlier x y types))).
  - intros x y [H|[E H]] [G|[F G]]; try lia. exact (earlier_asym types x y Hn H G).
  - rewrite P1, P2. reflexivity.
  - exact O1.
  - exact O2.
Qed.
