(** Property theorems about the distances between distributions of qestim.py (C107-C109). *)
From Coq Require Import Lqa QArith Qabs Reals Qreals Lra.
From Verif Require Import Py PyLemmas EvalModel DivergModel DivergSpec DivergProofs.
Local Open Scope list_scope.

Definition float_array (l : list Q) : farray := MkArray true l.

(** *** C107: earth_mov_dist is a distance, bounded by twice the cost, and measures the mass that moves.
    Full statement: whatever version of numpy is installed. It needs one that still has np.float. *)
Theorem C107_distance_partial : forall c, (0 < c)%Q -> exists d : farray -> farray -> Q,
  (forall a b v, (v = true -> is_float a = true /\ is_float b = true /\ distribution (vals a) /\ distribution (vals b)) ->
     length (vals a) = length (vals b) -> earth_mov_dist true a b c v = Ok (d a b)) /\
  (forall a b, 0 <= d a b)%Q /\ (forall a b, d a b == d b a)%Q /\
  (forall a b, length (vals a) = length (vals b) -> (d a b == 0)%Q <-> Forall2 Qeq (vals a) (vals b)) /\
  (forall x y z, length (vals x) = length (vals y) -> length (vals y) = length (vals z) -> d x z <= d x y + d y z)%Q /\
  (forall a b, distribution (vals a) -> distribution (vals b) -> d a b <= 2 * c * (1 + (1 # 10000)))%Q /\
  (forall a b, length (vals a) = length (vals b) -> mass (vals a) == mass (vals b) -> d a b == 2 * c * moved (vals a) (vals b))%Q.
Proof. exact emd_distance. Qed.
Theorem C107_refused : forall a b c v,
  ((v = true -> is_float a = true /\ is_float b = true /\ distribution (vals a) /\ distribution (vals b)) /\
   length (vals a) = length (vals b) /\ (0 < c)%Q) \/ earth_mov_dist true a b c v = Raise AssertionError.
Proof. exact emd_refused. Qed.
(* the imbalance printed by estimate is the distance from the uniform distribution *)
Theorem C107_imbalance : forall stats c, (0 < c)%Q -> zsum stats <> 0%Z ->
  exists v, EMD_simple stats c = Ok (Some v) /\
    forall u d, vals u = repeat (1 / inject_Z (Z.of_nat (length stats)))%Q (length stats) ->
      vals d = map (fun s => inject_Z s / inject_Z (zsum stats))%Q stats ->
      exists w, earth_mov_dist true u d ((1 # 2) * c) false = Ok w /\ (v == w)%Q.
Proof. exact emd_simple_is_emd. Qed.
Example C107_ex_values : distribution [1 # 2; 1 # 2] /\ distribution [1; 0] /\
  earth_mov_dist true (float_array [1 # 2; 1 # 2]) (float_array [1; 0]) (1 # 2) true = Ok (4 # 8)%Q /\
  earth_mov_dist true (float_array [1 # 2; 1 # 3]) (float_array [1; 0]) (1 # 2) true = Raise AssertionError.
Proof.
  split; [|split; [|split; vm_compute; reflexivity]];
  (split; [intros x [<-|[<-|[]]]; Lqa.lra|split; cbn; Lqa.lra]).
Qed.
(* from numpy 1.24 on nothing can be validated *)
Theorem C107_new_numpy_refuted : exists a b c, is_float a = true /\ is_float b = true /\ distribution (vals a) /\ distribution (vals b) /\
  length (vals a) = length (vals b) /\ (0 < c)%Q /\ earth_mov_dist false a b c true = Raise AttributeError.
Proof.
  exists (float_array [1]), (float_array [1]), 1%Q. split; [reflexivity|]. split; [reflexivity|].
  split; [split; [intros x [<-|[]]; Lqa.lra|split; cbn; Lqa.lra]|]. split; [split; [intros x [<-|[]]; Lqa.lra|split; cbn; Lqa.lra]|].
  split; [reflexivity|]. split; [Lqa.lra|reflexivity].
Qed.

Local Open Scope R_scope.
(** *** C108: kl_div is the relative entropy, refuses exactly the cases where it is infinite, and obeys
    Gibbs' inequality. *)
Theorem C108_value : forall p q,
  ((forall x y, In (x, y) (combine p q) -> (0 < x)%Q -> (0 < y)%Q) -> kl_div p q = Ok (relative_entropy p q)) /\
  (~ (forall x y, In (x, y) (combine p q) -> (0 < x)%Q -> (0 < y)%Q) -> kl_div p q = Raise AssertionError).
Proof. exact kl_outcome. Qed.
Theorem C108_gibbs : forall p q d, length p = length q ->
  (forall x, In x p -> (0 <= x)%Q) -> (forall x, In x q -> (0 <= x)%Q) -> (mass q <= mass p)%Q ->
  kl_div p q = Ok d -> 0 <= d /\ (d = 0 <-> Forall2 Qeq p q).
Proof. exact kl_gibbs. Qed.
(* arrays of different lengths are cut to the shorter one without a warning *)
Theorem C108_lengths : forall p q, kl_div p q = kl_div (firstn (length q) p) (firstn (length p) q).
Proof. exact kl_zip. Qed.
Example C108_ex : kl_div [1 # 2; 1 # 2; 0]%Q [1 # 4; 1 # 2; 1 # 4]%Q = Ok (ln 2 / 2) /\
  kl_div [1 # 2; 1 # 2]%Q [1; 0]%Q = Raise AssertionError.
Proof.
  split.
  - rewrite (proj1 (C108_value _ _)).
    + cbn. f_equal. replace (Q2R (1 # 2)) with (/ 2) by (unfold Q2R; cbn; lra). replace (Q2R (1 # 4)) with (/ 4) by (unfold Q2R; cbn; lra).
      replace 4 with (2 * 2) by lra. rewrite !ln_Rinv, ln_mult by lra. lra.
    + cbn. intros x y [H|[H|[H|[]]]]; injection H as <- <-; intros; Lqa.lra.
  - apply (proj2 (C108_value _ _)). intros H. specialize (H (1 # 2)%Q 0%Q). cbn in H.
    assert (C : (0 < 0)%Q) by (apply H; [auto|Lqa.lra]). Lqa.lra.
Qed.

(** *** C109: js_div is the Jensen-Shannon divergence. Full statement: whatever version of numpy. *)
Theorem C109_js_partial : forall a b, is_float a = true -> is_float b = true -> distribution (vals a) -> distribution (vals b) ->
  length (vals a) = length (vals b) ->
  exists d, js_div true a b = Ok d /\ js_div true b a = Ok d /\
    d = entropy (mean_of (vals a) (vals b)) - (entropy (vals a) + entropy (vals b)) / 2 /\
    0 <= d <= ln 2 * (Q2R (mass (vals a)) + Q2R (mass (vals b))) / 2 /\
    (d = 0 <-> Forall2 Qeq (vals a) (vals b)) /\
    ((forall x y, In (x, y) (combine (vals a) (vals b)) -> (x == 0)%Q \/ (y == 0)%Q) ->
     d = ln 2 * (Q2R (mass (vals a)) + Q2R (mass (vals b))) / 2).
Proof. exact js_outcome. Qed.
Theorem C109_refused : forall a b,
  (is_float a = true /\ is_float b = true /\ distribution (vals a) /\ distribution (vals b) /\ length (vals a) = length (vals b)) \/
  js_div true a b = Raise AssertionError.
Proof. exact js_refused. Qed.
Theorem C109_new_numpy_refuted : exists a b, is_float a = true /\ is_float b = true /\ distribution (vals a) /\ distribution (vals b) /\
  length (vals a) = length (vals b) /\ js_div false a b = Raise AttributeError.
Proof.
  exists (float_array [1%Q]), (float_array [1%Q]). split; [reflexivity|]. split; [reflexivity|].
  split; [split; [intros x [<-|[]]; Lqa.lra|split; cbn; Lqa.lra]|]. split; [split; [intros x [<-|[]]; Lqa.lra|split; cbn; Lqa.lra]|].
  split; reflexivity.
Qed.
Example C109_ex : js_div true (float_array [1; 0]%Q) (float_array [0; 1]%Q) = Ok (ln 2).
Proof.
  assert (D1 : distribution [1; 0]%Q) by (split; [intros x [<-|[<-|[]]]; Lqa.lra|split; cbn; Lqa.lra]).
  assert (D2 : distribution [0; 1]%Q) by (split; [intros x [<-|[<-|[]]]; Lqa.lra|split; cbn; Lqa.lra]).
  destruct (C109_js_partial (float_array [1; 0]%Q) (float_array [0; 1]%Q) eq_refl eq_refl D1 D2 eq_refl) as (d & E & _ & _ & _ & _ & H).
  rewrite E. f_equal. rewrite H.
  - cbn. rewrite !Q2R_plus. rewrite RMicromega.Q2R_0, RMicromega.Q2R_1. lra.
  - cbn. intros x y [P|[P|[]]]; injection P as <- <-; [right|left]; reflexivity.
Qed.

Print Assumptions C107_distance_partial.
Print Assumptions C107_refused.
Print Assumptions C107_imbalance.
Print Assumptions C107_new_numpy_refuted.
Print Assumptions C108_value.
Print Assumptions C108_gibbs.
Print Assumptions C108_lengths.
Print Assumptions C109_js_partial.
Print Assumptions C109_refused.
Print Assumptions C109_new_numpy_refuted.
