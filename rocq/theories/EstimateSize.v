(** What estimate says with a smaller and a larger vocabulary. *)
From Coq Require Import Strings.String QArith.
From Verif Require Import Py PyLemmas PyStr StrSpec CodecModel CodecSpec FlatProofs LearnModel GrowSpec GrowProofs PartsProofs EvalModel EvalSpec EvalProofs AgreeGrams EstimateAdd.
Local Open Scope Z_scope.
Local Open Scope list_scope.

Definition cut_off (n : nat) (ids : list Z) : list Z := filter (fun i => Z.of_nat n <=? i) ids.
Lemma cut_count n ids : (1 < n)%nat -> count_id 1 (map (fun i => if i <? Z.of_nat n then i else 1) ids) = count_id 1 ids + Z.of_nat (length (cut_off n ids)).
Proof.
  intros Hn. induction ids as [|i ids IH]; [reflexivity|]. unfold cut_off in *. cbn [map filter].
  destruct (Z.ltb_spec i (Z.of_nat n)), (Z.leb_spec (Z.of_nat n) i); try lia; unfold count_id in *; cbn [count_occ length].
  - destruct (Z.eq_dec i 1); lia.
  - destruct (Z.eq_dec 1 1); [|congruence]. destruct (Z.eq_dec i 1); lia.
Qed.
Theorem estimate_size k t1 t2 s1 s2 n lines : k = KWord \/ k = KChar -> make_scheme k t1 = Ok s1 -> make_scheme k t2 = Ok s2 ->
  map t_name t1 = firstn n (map t_name t2) -> lines <> [] ->
  exists seqs q1 q2, Forall2 (fun line seq => encode s2 line = Ok seq) lines seqs /\ estimate s1 lines = Ok q1 /\ estimate s2 lines = Ok q2 /\
    q_n_tokens q1 = q_n_tokens q2 /\ (q_mean_seq_len q1 == q_mean_seq_len q2)%Q /\
    q_unk_count q1 = q_unk_count q2 + Z.of_nat (length (filter (fun i => Z.of_nat n <=? i) (concat seqs))).
Proof.
  intros Hk H1 H2 Hn Hne. assert (G : forall t, k = KWord \/ k = KChar \/ (k = KBpe /\ well_indexed t)) by tauto.
  destruct (estimate_correct k t1 s1 lines (G t1) H1 Hne) as (a & q1 & F & E1 & A1 & A2 & A3 & A4 & _).
  destruct (estimate_correct k t2 s2 lines (G t2) H2 Hne) as (b & q2 & F' & E2 & B1 & B2 & B3 & B4 & _).
  exists b, q1, q2. split; [exact F'|]. split; [exact E1|]. split; [exact E2|].
  set (f := fun i => if i <? Z.of_nat n then i else 1).
  assert (Ea : a = map (map f) b).
  { apply (same_seqs s1 lines _ _ F). clear - F' Hk H1 H2 Hn. induction F' as [|l ids lines b E _ IH]; constructor; [|exact IH].
    exact (flat_cut k t1 t2 s1 s2 n l ids Hk H1 H2 Hn E). }
  assert (Ec : concat a = map f (concat b)) by (rewrite Ea; symmetry; apply concat_map). rewrite Ec, ?map_length in *.
  assert (Hn1 : (1 < n)%nat).
  { destruct (made_unk k t1 s1) as [_ Hr]; [tauto|exact H1|]. unfold starts_reserved in Hr. apply (f_equal (@length str)) in Hr.
    rewrite firstn_length in Hr. change (length reserved_names) with 6%nat in Hr. rewrite Hn, firstn_length in Hr. lia. }
  split; [congruence|]. split; [|rewrite A3, B3; apply cut_count, Hn1].
  rewrite <- B4 in A4. apply Qmult_inj_r in A4; [exact A4|]. apply injz_pos. destruct lines; [contradiction|cbn [length]; lia].
Qed.

Lemma filter_all {A} (p : A -> bool) l : length l = length (filter p l) -> filter p l = l.
Proof.
  induction l as [|x l IH]; [reflexivity|]. cbn [filter length]. pose proof (filter_length_le p l) as H. destruct (p x); cbn [length]; intros E; [f_equal; apply IH; lia|lia].
Qed.
Lemma firstn_plus {A} (l : list A) : forall a b, firstn a l ++ firstn b (skipn a l) = firstn (a + b) l.
Proof. induction l as [|x l IH]; intros [|a] b; cbn [firstn skipn app Nat.add]; rewrite ?firstn_nil; try reflexivity. f_equal. apply IH. Qed.
Theorem learned_size A k data cov is_tf mf vs1 vs2 t2 : k = KWord \/ k = KChar ->
  vs2 <= 0 /\ (vs1 <= 0 \/ 6 <= vs1) \/ 6 <= vs1 <= vs2 -> learn_flat A k data vs2 mf cov is_tf = Ok t2 ->
  exists t1 n, learn_flat A k data vs1 mf cov is_tf = Ok t1 /\ map t_name t1 = firstn n (map t_name t2) /\
    forall s1 s2 lines, make_scheme k t1 = Ok s1 -> make_scheme k t2 = Ok s2 -> lines <> [] ->
      exists q1 q2, estimate s1 lines = Ok q1 /\ estimate s2 lines = Ok q2 /\ q_n_tokens q1 = q_n_tokens q2 /\ q_unk_count q2 <= q_unk_count q1.
Proof.
  intros Hk Hv H. destruct (flat_nest A k data cov is_tf mf mf vs1 vs2 t2 Hk Hv (Z.le_refl mf) H) as (t1 & E & H6 & Hs).
  assert (Hv2 : vs2 <= 0 /\ (vs2 <= 0 \/ 6 <= vs2) \/ 6 <= vs2 <= vs2) by lia.
  destruct (flat_nest A k data cov is_tf mf mf vs2 vs2 t2 Hk Hv2 (Z.le_refl mf) H) as (t2' & E' & _ & Hs'). rewrite H in E'. injection E' as <-.
  assert (Hf : filter (fun t => frequent mf (t_freq t)) (skipn 6 t2) = skipn 6 t2).
  { apply filter_all. pose proof (filter_length_le (fun t => frequent mf (t_freq t)) (skipn 6 t2)) as L. apply (f_equal (@length Typ)) in Hs'.
    unfold lim in Hs'. destruct (vs2 <=? 0); [exact Hs'|]. rewrite firstn_length in Hs'. lia. }
  rewrite Hf in Hs. assert (Hn : exists n, map t_name t1 = firstn n (map t_name t2)).
  { rewrite <- (firstn_skipn 6 t1), map_app, H6, Hs. unfold lim. destruct (vs1 <=? 0).
    - exists (length t2). rewrite <- map_app, firstn_skipn, <- (map_length t_name t2), firstn_all. reflexivity.
    - exists (6 + Z.to_nat (vs1 - 6))%nat. rewrite <- map_app, firstn_plus, firstn_map. reflexivity. }
  destruct Hn as (n & Hn). exists t1, n. split; [exact E|]. split; [exact Hn|]. intros s1 s2 lines M1 M2 Hne.
  destruct (estimate_size k t1 t2 s1 s2 n lines Hk M1 M2 Hn Hne) as (seqs & q1 & q2 & _ & Q1 & Q2 & T & _ & U). exists q1, q2. repeat (split; [assumption|]). lia.
Qed.
