(** Rounding errors of the floats of the standard library (SpecFloat) at the precision of binary64: division of
    integers, addition and comparison, for values from 0 to 2. *)
From Coq Require Import ZArith Lia Bool.
From Coq Require Import Floats.SpecFloat.
From Verif Require Import Py LearnModel ArithModel.
Local Open Scope Z_scope.

(** ** digits *)
Lemma digits_bounds p : 2 ^ (Zpos (digits2_pos p) - 1) <= Zpos p < 2 ^ Zpos (digits2_pos p).
Proof.
  induction p as [p IH|p IH|]; cbn [digits2_pos]; [| |cbn; lia]; rewrite Pos2Z.inj_succ;
    replace (Z.succ (Zpos (digits2_pos p)) - 1) with (Z.succ (Zpos (digits2_pos p) - 1)) by lia; rewrite !Z.pow_succ_r by lia; lia.
Qed.
Lemma zdigits_bounds m : 0 < m -> 2 ^ (Zdigits2 m - 1) <= m < 2 ^ Zdigits2 m.
Proof. destruct m; try lia. intros _. apply digits_bounds. Qed.
Lemma zdigits_pos m : 0 < m -> 0 < Zdigits2 m.
Proof. destruct m; cbn; lia. Qed.
Lemma zdigits_nonneg m : 0 <= m -> 0 <= Zdigits2 m.
Proof. destruct m; cbn; lia. Qed.
Lemma pow_lt_inv a b : 0 <= b -> 2 ^ a < 2 ^ b -> a < b.
Proof. intros Hb H. destruct (Z.lt_ge_cases a 0); [lia|]. apply (Z.pow_lt_mono_r_iff 2); lia. Qed.
Lemma zdigits_le m k : 0 <= k -> 0 <= m < 2 ^ k -> Zdigits2 m <= k.
Proof.
  intros Hk [H1 H2]. destruct (Z.eq_dec m 0) as [->|Hm]; [cbn; lia|]. assert (B := zdigits_bounds m ltac:(lia)).
  assert (P : Zdigits2 m - 1 < k); [|lia]. apply pow_lt_inv; lia.
Qed.
Lemma zdigits_ge m k : 0 <= k -> 2 ^ k <= m -> k < Zdigits2 m.
Proof.
  intros Hk H. assert (Hm : 0 < m) by (assert (0 < 2 ^ k) by (apply Z.pow_pos_nonneg; lia); lia).
  assert (B := zdigits_bounds m Hm). apply pow_lt_inv; [pose proof (zdigits_pos m Hm); lia|lia].
Qed.
Lemma zdigits_eq m d : 0 < d -> 2 ^ (d - 1) <= m < 2 ^ d -> Zdigits2 m = d.
Proof.
  intros Hd [H1 H2]. assert (0 < 2 ^ (d - 1)) by (apply Z.pow_pos_nonneg; lia).
  pose proof (zdigits_le m d ltac:(lia) ltac:(lia)). pose proof (zdigits_ge m (d - 1) ltac:(lia) H1). lia.
Qed.

(** ** shifting right keeps track of what is cut off *)
Definition located (m : Z) (l : location) (X U : Z) : Prop :=
  0 < U /\ match l with
  | loc_Exact => X = m * U
  | loc_Inexact Lt => 0 < 2 * (X - m * U) < U
  | loc_Inexact Eq => 2 * (X - m * U) = U
  | loc_Inexact Gt => U < 2 * (X - m * U) < 2 * U
  end.
Definition rlocated (r : shr_record) (X U : Z) : Prop := 0 <= shr_m r /\ located (shr_m r) (loc_of_shr_record r) X U.
Lemma shr_1_ok r X U : rlocated r X U -> rlocated (shr_1 r) X (2 * U) /\ shr_m (shr_1 r) = shr_m r / 2.
Proof.
  destruct r as [m b s]. intros [Hm [HU H]]. cbn [shr_m] in *.
  assert (E : shr_1 (Build_shr_record m b s) = Build_shr_record (m / 2) (Z.odd m) (b || s)).
  { destruct m as [|[p|p|]|p]; try lia; cbn [shr_1]; f_equal.
    - change (Zpos p~1) with (2 * Zpos p + 1). symmetry. replace (2 * Zpos p + 1) with (1 + Zpos p * 2) by lia. rewrite Z.div_add by lia. reflexivity.
    - change (Zpos p~0) with (2 * Zpos p). rewrite Z.mul_comm, Z.div_mul by lia. reflexivity. }
  rewrite E. cbn [shr_m]. split; [|reflexivity]. split; [cbn [shr_m]; apply Z.div_pos; lia|].
  split; [lia|]. assert (D : m = 2 * (m / 2) + if Z.odd m then 1 else 0)
    by (pose proof (Z.div_mod m 2 ltac:(lia)) as D; rewrite Zmod_odd in D; exact D).
  cbn [shr_m]. revert D. generalize (m / 2) as h. generalize (Z.odd m) as o. intros o h ->. clear E Hm.
  destruct o, b, s; cbn [loc_of_shr_record orb] in *; lia.
Qed.
Lemma shr_iter_ok p : forall r X U, rlocated r X U -> rlocated (SpecFloat.iter_pos shr_1 p r) X (U * 2 ^ Zpos p) /\ shr_m (SpecFloat.iter_pos shr_1 p r) = shr_m r / 2 ^ Zpos p.
Proof.
  assert (T : forall q r X U, (forall r X U, rlocated r X U -> rlocated (SpecFloat.iter_pos shr_1 q r) X (U * 2 ^ Zpos q) /\ shr_m (SpecFloat.iter_pos shr_1 q r) = shr_m r / 2 ^ Zpos q) ->
    rlocated r X U -> rlocated (SpecFloat.iter_pos shr_1 q (SpecFloat.iter_pos shr_1 q r)) X (U * 2 ^ Zpos (q~0)) /\ shr_m (SpecFloat.iter_pos shr_1 q (SpecFloat.iter_pos shr_1 q r)) = shr_m r / 2 ^ Zpos (q~0)).
  { intros q r X U H Hr. destruct (H r X U Hr) as [A1 A2]. destruct (H _ _ _ A1) as [B1 B2]. rewrite B2, A2.
    assert (P : 2 ^ Zpos (q~0) = 2 ^ Zpos q * 2 ^ Zpos q) by (rewrite <- Z.pow_add_r by lia; f_equal; lia). rewrite P, Z.mul_assoc. split; [exact B1|].
    apply Z.div_div; [|apply Z.pow_pos_nonneg; lia]. assert (0 < 2 ^ Zpos q) by (apply Z.pow_pos_nonneg; lia). lia. }
  induction p as [p IH|p IH|]; intros r X U Hr; cbn [SpecFloat.iter_pos].
  - destruct (shr_1_ok r X U Hr) as [A1 A2]. destruct (T p _ X (2 * U) IH A1) as [B1 B2]. rewrite B2, A2.
    assert (P : 2 ^ Zpos (p~1) = 2 * 2 ^ Zpos (p~0)) by (change (Zpos p~1) with (Zpos p~0 + 1); rewrite Z.pow_add_r by lia; lia). rewrite P. split.
    + replace (U * (2 * 2 ^ Zpos p~0)) with (2 * U * 2 ^ Zpos p~0) by ring. exact B1.
    + apply Z.div_div; [lia|apply Z.pow_pos_nonneg; lia].
  - apply T; assumption.
  - replace (U * 2 ^ 1) with (2 * U) by lia. exact (shr_1_ok r X U Hr).
Qed.
Lemma shr_ok r e n X U : rlocated r X U ->
  let k := Z.max n 0 in snd (shr r e n) = e + k /\ rlocated (fst (shr r e n)) X (U * 2 ^ k) /\ shr_m (fst (shr r e n)) = shr_m r / 2 ^ k.
Proof.
  intros Hr. destruct n as [|p|p]; cbn [shr fst snd]; cbn [Z.max Z.compare].
  - rewrite Z.mul_1_r, Z.div_1_r. split; [lia|]. split; [exact Hr|reflexivity].
  - split; [reflexivity|]. apply shr_iter_ok, Hr.
  - rewrite Z.mul_1_r, Z.div_1_r. split; [lia|]. split; [exact Hr|reflexivity].
Qed.
Lemma loc_record m l : shr_m (shr_record_of_loc m l) = m /\ loc_of_shr_record (shr_record_of_loc m l) = l.
Proof. destruct l as [|[]]; split; reflexivity. Qed.
(** rounding to the nearest *)
Lemma round_near m l X U : located m l X U -> 2 * Z.abs (round_nearest_even m l * U - X) <= U /\ m <= round_nearest_even m l <= m + 1.
Proof.
  intros [HU H]. destruct l as [|[]]; cbn [round_nearest_even]; [subst X; lia| |lia|lia]. destruct (Z.even m); lia.
Qed.
Lemma round_exact m X U : located m loc_Exact X U -> round_nearest_even m loc_Exact * U = X.
Proof. intros [_ H]. cbn. congruence. Qed.

(** ** the value of a float, in units of 2 ^ -1074 *)
Definition fexp64 : Z -> Z := fexp 53 1024.
Lemma fexp64_eq e : fexp64 e = Z.max (e - 53) (-1074). Proof. reflexivity. Qed.
Definition value (f : spec_float) (V : Z) : Prop :=
  match f with
  | S754_zero false => V = 0
  | S754_finite false m e => fexp64 (Zpos (digits2_pos m) + e) = e /\ e <= 971 /\ V = Zpos m * 2 ^ (e + 1074)
  | _ => False
  end.
Lemma value_nonneg f V : value f V -> 0 <= V.
Proof. destruct f as [[]|[]| |[] m e]; cbn [value]; try contradiction; [lia|]. intros (_ & _ & ->). apply Z.mul_nonneg_nonneg; [lia|apply Z.pow_nonneg; lia]. Qed.
Lemma pow_shift a b : 0 <= a -> 0 <= b -> 2 ^ (a + b) = 2 ^ a * 2 ^ b.
Proof. intros. apply Z.pow_add_r; lia. Qed.
Lemma round_ok m e l X U : 0 <= m -> located m l X U -> -1074 <= e -> e <= fexp64 (Zdigits2 m + e) -> fexp64 (Zdigits2 m + e) <= 900 ->
  exists V, value (binary_round_aux 53 1024 false m e l) V /\ 2 * Z.abs (V * U - X * 2 ^ (e + 1074)) <= U * 2 ^ (fexp64 (Zdigits2 m + e) + 1074).
Proof.
  intros Hm HL He Hf Hmax. unfold binary_round_aux, shr_fexp. fold (fexp64 (Zdigits2 m + e)). set (f := fexp64 (Zdigits2 m + e)) in *.
  destruct (loc_record m l) as [R1 R2]. assert (Hr : rlocated (shr_record_of_loc m l) X U) by (split; rewrite R1; [exact Hm|rewrite R2; exact HL]).
  destruct (shr_ok _ e (f - e) X U Hr) as (E1 & E2 & E3). destruct (shr (shr_record_of_loc m l) e (f - e)) as [r1 e1]. cbn [fst snd] in *. rewrite R1 in E3.
  rewrite Z.max_l in E1, E2, E3 by lia. replace (e + (f - e)) with f in E1 by lia. subst e1. set (k := f - e) in *.
  destruct E2 as [Hm1 HL1]. destruct (round_near _ _ _ _ HL1) as [N1 N2]. set (m1 := shr_m r1) in *. set (m2 := round_nearest_even m1 (loc_of_shr_record r1)) in *.
  clearbody m2. set (P := 2 ^ k) in *. assert (HP : 0 < P) by (apply Z.pow_pos_nonneg; lia).
  assert (HU : 0 < U) by apply HL.
  assert (F := fexp64_eq (Zdigits2 m + e)). fold f in F.
  (* m1 has at most 53 digits *)
  assert (B1 : m1 < 2 ^ 53).
  { rewrite E3. destruct (Z.eq_dec m 0) as [->|Hn]; [cbn; lia|]. assert (B := zdigits_bounds m ltac:(lia)).
    apply Z.div_lt_upper_bound; [lia|]. eapply Z.lt_le_trans; [apply B|]. unfold P. rewrite <- Z.pow_add_r by lia. apply Z.pow_le_mono_r; lia. }
  assert (B2 : f = -1074 \/ 2 ^ 52 <= m1).
  { destruct (Z.eq_dec f (-1074)) as [->|Hn]; [left; reflexivity|right]. assert (Ef : f = Zdigits2 m + e - 53) by lia. assert (Ek : k = Zdigits2 m - 53) by lia.
    rewrite E3. assert (Hm0 : 0 < m). { destruct (Z.eq_dec m 0) as [->|]; [|lia]. cbn in Ek. lia. }
    assert (B := zdigits_bounds m Hm0). apply Z.div_le_lower_bound; [lia|]. eapply Z.le_trans; [|apply B]. unfold P. rewrite Z.mul_comm, <- Z.pow_add_r by lia. apply Z.pow_le_mono_r; lia. }
  assert (HV : 2 * Z.abs (m2 * 2 ^ (f + 1074) * U - X * 2 ^ (e + 1074)) <= U * 2 ^ (f + 1074)).
  { replace (f + 1074) with (k + (e + 1074)) by lia. rewrite (pow_shift k (e + 1074)) by lia. fold P. set (Q := 2 ^ (e + 1074)). assert (HQ : 0 < Q) by (apply Z.pow_pos_nonneg; lia).
    replace (m2 * (P * Q) * U - X * Q) with ((m2 * (U * P) - X) * Q) by ring. rewrite Z.abs_mul, (Z.abs_eq Q) by lia. nia. }
  destruct (Z.eq_dec m2 (2 ^ 53)) as [Eb|Hb].
  - (* rounded up to the next power of two *)
    rewrite Eb. change (Zdigits2 (2 ^ 53)) with 54. change (fexp 53 1024 (54 + f)) with (fexp64 (54 + f)). rewrite fexp64_eq. replace (Z.max (54 + f - 53) (-1074) - f) with 1 by lia.
    change (shr (shr_record_of_loc (2 ^ 53) loc_Exact) f 1) with (Build_shr_record (2 ^ 52) false false, f + 1). cbn [shr_m]. change (2 ^ 52) with (Zpos 4503599627370496).
    rewrite (proj2 (Z.leb_le (f + 1) (1024 - 53))) by lia. exists (m2 * 2 ^ (f + 1074)). split; [|exact HV]. cbn [value].
    split; [rewrite fexp64_eq; change (Zpos (digits2_pos 4503599627370496)) with 53; lia|]. split; [lia|]. rewrite Eb.
    replace (f + 1 + 1074) with (1 + (f + 1074)) by lia. rewrite (pow_shift 1) by lia. change (2 ^ 53) with (Zpos 4503599627370496 * 2). ring.
  - assert (B3 : m2 < 2 ^ 53) by lia. assert (D2 : Zdigits2 m2 <= 53) by (apply zdigits_le; lia).
    change (fexp 53 1024 (Zdigits2 m2 + f)) with (fexp64 (Zdigits2 m2 + f)). assert (F2 := fexp64_eq (Zdigits2 m2 + f)).
    assert (Hs : shr (shr_record_of_loc m2 loc_Exact) f (fexp64 (Zdigits2 m2 + f) - f) = (Build_shr_record m2 false false, f)).
    { assert (Hn : fexp64 (Zdigits2 m2 + f) - f <= 0) by lia. destruct (fexp64 (Zdigits2 m2 + f) - f); [reflexivity|lia|reflexivity]. }
    rewrite Hs. cbn [shr_m]. exists (m2 * 2 ^ (f + 1074)). split; [|exact HV]. destruct m2 as [|p|p]; [reflexivity| |lia].
    rewrite (proj2 (Z.leb_le f (1024 - 53))) by lia. cbn [value]. split; [|split; [lia|reflexivity]]. change (Zpos (digits2_pos p)) with (Zdigits2 (Zpos p)). rewrite fexp64_eq.
    destruct B2 as [B2|B2]; [lia|]. assert (D3 : 52 < Zdigits2 (Zpos p)) by (apply zdigits_ge; lia). lia.
Qed.

(** ** addition *)
Lemma shift_pos_mul d m : Zpos (shift_pos d m) = Zpos m * 2 ^ Zpos d.
Proof. rewrite shift_pos_correct, Zpower_pos_nat, Zpower_nat_Z, positive_nat_Z. ring. Qed.
Lemma align_mul m e e' : e' <= e -> Zpos (fst (shl_align m e e')) = Zpos m * 2 ^ (e - e') /\ snd (shl_align m e e') = e'.
Proof.
  intros H. unfold shl_align. destruct (e' - e) as [|d|d] eqn:E; [| |]; cbn [fst snd].
  - replace (e - e') with 0 by lia. split; [rewrite Z.mul_1_r; reflexivity|lia].
  - lia.
  - rewrite shift_pos_mul. split; [do 2 f_equal; lia|reflexivity].
Qed.
Lemma digits_shift m k : 0 < m -> 0 <= k -> Zdigits2 (m * 2 ^ k) = Zdigits2 m + k.
Proof.
  intros Hm Hk. assert (B := zdigits_bounds m Hm). assert (D := zdigits_pos m Hm). assert (0 < 2 ^ k) by (apply Z.pow_pos_nonneg; lia).
  apply zdigits_eq; [lia|]. replace (Zdigits2 m + k - 1) with ((Zdigits2 m - 1) + k) by lia. rewrite !Z.pow_add_r by lia. nia.
Qed.
Definition ONE : Z := 2 ^ 1074.
Lemma normalize_ok M e : 0 < M -> -1074 <= e -> M * 2 ^ (e + 1074) < 2 * ONE ->
  exists V, value (binary_normalize 53 1024 M e false) V /\ Z.abs (V - M * 2 ^ (e + 1074)) <= 2 ^ 1021.
Proof.
  intros HM He Hlt. destruct M as [|p|p]; try lia. cbn [binary_normalize]. unfold binary_round. change (Zpos (digits2_pos p)) with (Zdigits2 (Zpos p)).
  change (fexp 53 1024) with fexp64. set (d := Zdigits2 (Zpos p)) in *. assert (Bd := zdigits_bounds (Zpos p) ltac:(lia)). fold d in Bd.
  assert (Dp : 0 < d) by (apply zdigits_pos; lia).
  assert (Hde : d + e <= 1).
  { assert (L : d - 1 + (e + 1074) < 1075); [|lia]. apply pow_lt_inv; [lia|]. rewrite Z.pow_add_r by lia. unfold ONE in Hlt.
    replace (2 ^ 1075) with (2 * 2 ^ 1074) by reflexivity. assert (0 < 2 ^ (e + 1074)) by (apply Z.pow_pos_nonneg; lia). nia. }
  assert (Ff := fexp64_eq (d + e)). assert (Hf : -1074 <= fexp64 (d + e) <= -52) by lia. set (f := fexp64 (d + e)) in *. clearbody f.
  assert (Hpow : 2 ^ (f + 1074) <= 2 * 2 ^ 1021) by (change (2 * 2 ^ 1021) with (2 ^ 1022); apply Z.pow_le_mono_r; lia).
  destruct (Z.lt_ge_cases f e) as [Hfe|Hfe].
  - destruct (align_mul p e f ltac:(lia)) as [A1 A2]. destruct (shl_align p e f) as [mz ez]. cbn [fst snd] in *. subst ez.
    assert (Dz : Zdigits2 (Zpos mz) + f = d + e) by (rewrite A1, digits_shift by lia; fold d; lia).
    assert (Fz : fexp64 (Zdigits2 (Zpos mz) + f) = f) by (rewrite Dz, fexp64_eq; lia).
    destruct (round_ok (Zpos mz) f loc_Exact (Zpos mz) 1 ltac:(lia) ltac:(split; lia) ltac:(lia) ltac:(lia) ltac:(lia)) as (V & V1 & V2).
    exists V. split; [exact V1|]. rewrite Fz in V2. rewrite Z.mul_1_r, Z.mul_1_l in V2. replace (Zpos p * 2 ^ (e + 1074)) with (Zpos mz * 2 ^ (f + 1074)); [lia|].
    rewrite A1, <- Z.mul_assoc, <- Z.pow_add_r by lia. do 2 f_equal. lia.
  - assert (Al : shl_align p e f = (p, e)) by (unfold shl_align; destruct (f - e) eqn:E; [reflexivity|reflexivity|lia]). rewrite Al.
    destruct (round_ok (Zpos p) e loc_Exact (Zpos p) 1 ltac:(lia) ltac:(split; lia) ltac:(lia)) as (V & V1 & V2); [fold d; rewrite fexp64_eq; lia|fold d; rewrite fexp64_eq; lia|].
    exists V. split; [exact V1|]. fold d in V2. assert (Fe : fexp64 (d + e) = f) by (rewrite fexp64_eq; lia). rewrite Fe in V2. rewrite Z.mul_1_r, Z.mul_1_l in V2. lia.
Qed.
Lemma canon_exp m e : fexp64 (Zpos (digits2_pos m) + e) = e -> -1074 <= e.
Proof. rewrite fexp64_eq. lia. Qed.
Lemma add_ok x y X Y : value x X -> value y Y -> X + Y < 2 * ONE -> exists V, value (f64_add x y) V /\ Z.abs (V - (X + Y)) <= 2 ^ 1021.
Proof.
  intros Hx Hy Hlt. assert (T : 0 <= 2 ^ 1021) by (apply Z.pow_nonneg; lia).
  destruct x as [[]|[]| |[] mx ex]; try contradiction; destruct y as [[]|[]| |[] my ey]; try contradiction; unfold f64_add, prec64, emax64; cbn [SFadd Bool.eqb].
  - exists 0. cbn [value] in *. subst. split; [reflexivity|]. cbn [Z.add Z.sub Z.abs]. exact T.
  - exists Y. split; [exact Hy|]. cbn [value] in Hx. subst X. replace (Y - (0 + Y)) with 0 by lia. exact T.
  - exists X. split; [exact Hx|]. cbn [value] in Hy. subst Y. replace (X - (X + 0)) with 0 by lia. exact T.
  - destruct Hx as (Cx & _ & ->), Hy as (Cy & _ & ->). apply canon_exp in Cx. apply canon_exp in Cy. cbn [cond_Zopp].
    set (ez := Z.min ex ey). destruct (align_mul mx ex ez ltac:(lia)) as [A1 _]. destruct (align_mul my ey ez ltac:(lia)) as [B1 _]. rewrite A1, B1.
    assert (EM : (Zpos mx * 2 ^ (ex - ez) + Zpos my * 2 ^ (ey - ez)) * 2 ^ (ez + 1074) = Zpos mx * 2 ^ (ex + 1074) + Zpos my * 2 ^ (ey + 1074)).
    { rewrite Z.mul_add_distr_r, <- !Z.mul_assoc, <- !Z.pow_add_r by lia. replace (ex - ez + (ez + 1074)) with (ex + 1074) by lia. replace (ey - ez + (ez + 1074)) with (ey + 1074) by lia. reflexivity. }
    assert (PM : 0 < Zpos mx * 2 ^ (ex - ez) + Zpos my * 2 ^ (ey - ez)).
    { assert (0 < 2 ^ (ex - ez)) by (apply Z.pow_pos_nonneg; lia). assert (0 < 2 ^ (ey - ez)) by (apply Z.pow_pos_nonneg; lia). nia. }
    destruct (normalize_ok _ ez PM ltac:(lia)) as (V & V1 & V2); [rewrite EM; exact Hlt|]. exists V. split; [exact V1|]. rewrite EM in V2. exact V2.
Qed.

(** ** division of integers *)
Lemma new_location_ok b r : 0 < b -> 0 <= r < b -> forall q, located q (new_location b r) (q * b + r) b.
Proof.
  intros Hb Hr q. split; [exact Hb|]. unfold new_location, new_location_even, new_location_odd.
  assert (Hpar : b = 2 * (b / 2) + if Z.odd b then 1 else 0) by (pose proof (Z.div_mod b 2 ltac:(lia)) as D; rewrite Zmod_odd in D; exact D).
  rewrite <- Z.negb_odd. destruct (Z.odd b); cbn [negb].
  - destruct (Zeq_bool r 0) eqn:E0; [apply Zeq_bool_eq in E0; lia|]. apply Zeq_bool_neq in E0. destruct (Z.compare_spec (2 * r + 1) b); lia.
  - destruct (Zeq_bool r 0) eqn:E0; [apply Zeq_bool_eq in E0; lia|]. apply Zeq_bool_neq in E0. destruct (Z.compare_spec (2 * r) b); lia.
Qed.
Lemma div_ok a b : 0 < a -> a <= b -> exists V, value (f64_div a b) V /\ Z.abs (V * b - a * ONE) <= b * 2 ^ 1021.
Proof.
  intros Ha Hab. assert (U : f64_div a b = let '(mz, ez, lz) := SFdiv_core_binary 53 1024 a 0 b 0 in binary_round_aux 53 1024 false mz ez lz).
  { unfold f64_div, prec64, emax64. destruct a as [|pa|pa]; try lia. destruct b as [|pb|pb]; try lia. reflexivity. }
  rewrite U. clear U. unfold SFdiv_core_binary. change (fexp 53 1024) with fexp64.
  set (d1 := Zdigits2 a). set (d2 := Zdigits2 b). assert (Ba := zdigits_bounds a Ha). fold d1 in Ba. assert (Bb := zdigits_bounds b ltac:(lia)). fold d2 in Bb.
  assert (D1 : 0 < d1) by (apply zdigits_pos; lia). assert (D2 : 0 < d2) by (apply zdigits_pos; lia).
  assert (D12 : d1 <= d2). { apply zdigits_le; [lia|]. lia. }
  replace (d1 + 0 - (d2 + 0)) with (d1 - d2) by lia. assert (Fe := fexp64_eq (d1 - d2)). set (e := fexp64 (d1 - d2)) in *. clearbody e.
  rewrite Z.min_l by lia. replace (0 - 0 - e) with (- e) by lia.
  assert (Es : match - e with 0 => a | Z.pos _ => Z.shiftl a (- e) | Z.neg _ => 0 end = a * 2 ^ (- e)).
  { destruct (- e) eqn:E; [lia| |lia]. apply Z.shiftl_mul_pow2. lia. }
  rewrite Es. clear Es. set (P := 2 ^ (- e)). assert (HP : 0 < P) by (apply Z.pow_pos_nonneg; lia).
  assert (Dv := Z_div_mod (a * P) b ltac:(lia)). destruct (Z.div_eucl (a * P) b) as [q r]. destruct Dv as [Dv Dr].
  assert (L : located q (new_location b r) (a * P) b) by (rewrite Dv, (Z.mul_comm b q); apply new_location_ok; lia).
  assert (Hq : 0 <= q) by nia. assert (HqP : q <= P) by nia.
  assert (Dq : Zdigits2 q <= - e + 1). { apply zdigits_le; [lia|]. rewrite Z.pow_add_r by lia. fold P. lia. }
  assert (Hlow : e <= fexp64 (Zdigits2 q + e)).
  { rewrite fexp64_eq. destruct (Z.lt_ge_cases (d1 - 1 - e - d2) 0) as [Hn|Hn]; [pose proof (zdigits_nonneg q Hq); lia|].
    assert (Hd : d1 - 1 - e - d2 < Zdigits2 q); [|lia]. apply zdigits_ge; [lia|].
    assert (Hx : 2 ^ (d1 - 1) * P = 2 ^ (d1 - 1 - e - d2) * 2 ^ d2) by (unfold P; rewrite <- !Z.pow_add_r by lia; f_equal; lia).
    assert (0 < 2 ^ (d1 - 1 - e - d2)) by (apply Z.pow_pos_nonneg; lia). set (T := 2 ^ (d1 - 1 - e - d2)) in *.
    assert (Hle : T * 2 ^ d2 <= a * P) by (rewrite <- Hx; nia). assert (T * b < q * b + b \/ q * b + b <= T * b) as [|] by lia; [nia|]. exfalso. nia. }
  assert (Fh : fexp64 (Zdigits2 q + e) <= -52) by (rewrite fexp64_eq; lia).
  destruct (round_ok q e (new_location b r) (a * P) b Hq L ltac:(lia) Hlow ltac:(lia)) as (V & V1 & V2). exists V. split; [exact V1|].
  replace (a * P * 2 ^ (e + 1074)) with (a * ONE) in V2 by (unfold ONE, P; rewrite <- Z.mul_assoc, <- Z.pow_add_r by lia; do 2 f_equal; lia).
  assert (Hpow : 2 ^ (fexp64 (Zdigits2 q + e) + 1074) <= 2 * 2 ^ 1021) by (change (2 * 2 ^ 1021) with (2 ^ 1022); apply Z.pow_le_mono_r; lia). nia.
Qed.

(** ** comparison *)
Lemma leb_ok x y X Y : value x X -> value y Y -> f64_leb x y = (X <=? Y).
Proof.
  intros Hx Hy. unfold f64_leb, SFleb.
  assert (Pos : forall m e, -1074 <= e -> 0 < Zpos m * 2 ^ (e + 1074)) by (intros m e He; apply Z.mul_pos_pos; [lia|apply Z.pow_pos_nonneg; lia]).
  destruct x as [[]|[]| |[] mx ex]; try contradiction; destruct y as [[]|[]| |[] my ey]; try contradiction; cbn [SFcompare]; cbn [value] in Hx, Hy.
  - subst. reflexivity.
  - destruct Hy as (Cy & _ & ->). apply canon_exp in Cy. specialize (Pos my ey Cy). subst X. symmetry. apply Z.leb_le. lia.
  - destruct Hx as (Cx & _ & ->). apply canon_exp in Cx. specialize (Pos mx ex Cx). subst Y. symmetry. apply Z.leb_gt. lia.
  - destruct Hx as (Cx & _ & ->), Hy as (Cy & _ & ->). assert (Ex := canon_exp _ _ Cx). assert (Ey := canon_exp _ _ Cy). rewrite fexp64_eq in Cx, Cy.
    assert (Lt : forall m1 e1 m2 e2, Z.max (Zpos (digits2_pos m1) + e1 - 53) (-1074) = e1 -> Z.max (Zpos (digits2_pos m2) + e2 - 53) (-1074) = e2 -> e1 < e2 ->
      Zpos m1 * 2 ^ (e1 + 1074) < Zpos m2 * 2 ^ (e2 + 1074)).
    { intros m1 e1 m2 e2 C1 C2 H. assert (D1 := digits_bounds m1). assert (D2 := digits_bounds m2).
      assert (Hd2 : Zpos (digits2_pos m2) = 53) by lia. rewrite Hd2 in D2. assert (Hd1 : Zpos (digits2_pos m1) <= 53) by lia.
      assert (H1 : Zpos m1 < 2 ^ 53) by (eapply Z.lt_le_trans; [apply D1|apply Z.pow_le_mono_r; lia]).
      assert (E2 : 2 ^ (e2 + 1074) = 2 ^ (e2 - e1) * 2 ^ (e1 + 1074)) by (rewrite <- Z.pow_add_r by lia; f_equal; lia). rewrite E2, Z.mul_assoc.
      apply Z.mul_lt_mono_pos_r; [apply Z.pow_pos_nonneg; lia|]. assert (2 ^ 1 <= 2 ^ (e2 - e1)) by (apply Z.pow_le_mono_r; lia).
      change (2 ^ (53 - 1)) with (2 ^ 52) in D2. change (2 ^ 53) with (2 * 2 ^ 52) in H1. nia. }
    destruct (Z.compare_spec ex ey) as [E|E|E].
    + subst ey. assert (0 < 2 ^ (ex + 1074)) by (apply Z.pow_pos_nonneg; lia). change (Pos.compare_cont Eq mx my) with (mx ?= my)%positive.
      destruct (Pos.compare_spec mx my); symmetry; [apply Z.leb_le|apply Z.leb_le|apply Z.leb_gt]; nia.
    + symmetry. apply Z.leb_le. specialize (Lt mx ex my ey Cx Cy E). lia.
    + symmetry. apply Z.leb_gt. exact (Lt my ey mx ex Cy Cx E).
Qed.
