(** C163: comparing texts. *)
From Coq Require Import QArith Lqa Lia Sorting.Permutation.
From Verif Require Import Py PyStr PyLemmas EvalModel EvalSpec EvalProofs FairSpec.
Local Open Scope Z_scope.
Local Open Scope list_scope.

Lemma times_one x s : times [x] s = Z.of_nat (count_occ Z.eq_dec s x).
Proof.
  induction s as [|y s IH]; [reflexivity|]. cbn [times count_occ]. rewrite IH. unfold starts_with. cbn [length firstn].
  destruct (list_eq_dec Z.eq_dec [y] [x]) as [E|E], (Z.eq_dec y x) as [E'|E']; try (exfalso; congruence); lia.
Qed.
Lemma times_permutation x a b : Permutation a b -> times [x] a = times [x] b.
Proof. intros H. rewrite !times_one. f_equal. apply (Permutation_count_occ Z.eq_dec). exact H. Qed.

(** *** The same words *)
Lemma share_one g own other : 0 < times g own -> times g other = times g own -> (share_of g own other == 1)%Q.
Proof.
  intros H E. unfold share_of. rewrite E, Z.min_id. field. intros X. unfold Qeq in X. cbn in X. lia.
Qed.
Section Ones.
  Variable rnd : Q -> Q.
  Hypothesis Hr : rounding rnd.
  Lemma fsum_ones l : Forall (fun x => x == 1)%Q l -> forall acc m, 0 <= m -> m + Z.of_nat (length l) <= 9007199254740992 ->
    (acc == inject_Z m)%Q -> (fold_left (fadd rnd) l acc == inject_Z (m + Z.of_nat (length l)))%Q.
  Proof.
    induction 1 as [|x l Hx _ IH]; intros acc m Hm Hl Ha; cbn [fold_left length] in *; [rewrite Z.add_0_r; exact Ha|].
    replace (m + Z.of_nat (S (length l))) with ((m + 1) + Z.of_nat (length l)) by lia. apply IH; try lia. unfold fadd.
    rewrite (rnd_proper rnd Hr (acc + x) (inject_Z (m + 1))); [apply rnd_int; [exact Hr|lia]|]. rewrite Ha, Hx, inject_Z_plus. reflexivity.
  Qed.
  Lemma average_ones l : l <> [] -> Z.of_nat (length l) <= 9007199254740992 -> Forall (fun x => x == 1)%Q l -> (average rnd l == 1)%Q.
  Proof.
    intros Hne Hl H. unfold average, fdiv, fsum. rewrite (rnd_proper rnd Hr _ 1); [apply rnd_1, Hr|].
    rewrite (fsum_ones l H 0%Q 0); [|lia|lia|reflexivity]. cbn [Z.add]. field. intros X. unfold Qeq in X. cbn in X. destruct l; [contradiction|cbn [length] in X; lia].
  Qed.
  Lemma mean_ones g pairs : Z.of_nat (length pairs) <= 9007199254740992 -> having g pairs <> [] ->
    (forall p, In p pairs -> times g (fst p) = times g (snd p)) -> (rounded_mean rnd g pairs == 1)%Q.
  Proof.
    intros Hl Hne H. unfold rounded_mean. apply average_ones.
    - destruct (having g pairs); [contradiction|discriminate].
    - rewrite map_length. unfold having. pose proof (filter_length_le (fun p : list Z * list Z => 0 <? times g (fst p)) pairs). lia.
    - apply Forall_map, Forall_forall. intros p Hp. unfold having in Hp. apply filter_In in Hp as [Hp1 Hp2]. apply Z.ltb_lt in Hp2.
      rewrite (rnd_proper rnd Hr _ 1); [apply rnd_1, Hr|]. apply share_one; [exact Hp2|]. symmetry. apply H, Hp1.
  Qed.
  Lemma f1_ones p r f : (p == 1)%Q -> (r == 1)%Q -> f1_measure rnd p r = Ok f -> (f == 1)%Q.
  Proof.
    intros Hp Hq. unfold f1_measure. destruct (assert_ _); [|discriminate]. cbn [bind]. destruct (assert_ _); [|discriminate]. cbn [bind].
    assert (A2 : (rnd 2 == 2)%Q) by (apply (rnd_int rnd Hr 2); lia).
    assert (A : (fadd rnd p r == 2)%Q) by (unfold fadd; rewrite (rnd_proper rnd Hr _ 2); [exact A2|rewrite Hp, Hq; reflexivity]).
    assert (M : (fmul rnd 2 p == 2)%Q) by (unfold fmul; rewrite (rnd_proper rnd Hr _ 2); [exact A2|rewrite Hp; reflexivity]).
    assert (N : (fmul rnd (fmul rnd 2 p) r == 2)%Q) by (unfold fmul at 1; rewrite (rnd_proper rnd Hr _ 2); [exact A2|rewrite M, Hq; reflexivity]).
    destruct (Qeq_bool (fadd rnd p r) 0) eqn:E.
    - apply Qeq_bool_iff in E. rewrite A in E. discriminate.
    - intros X. injection X as <-. unfold fdiv. rewrite (rnd_proper rnd Hr _ 1); [apply rnd_1, Hr|]. rewrite N, A. reflexivity.
  Qed.
End Ones.

Lemma combine_same (P : list Z -> list Z -> Prop) a b : Forall2 P a b -> forall p, In p (combine a b) -> P (fst p) (snd p).
Proof. intros H. induction H as [|x y a b Hxy _ IH]; intros p Hp; [destruct Hp|]. destruct Hp as [<-|Hp]; [exact Hxy|apply IH, Hp]. Qed.
Lemma Forall2_flip {A B} (P : A -> B -> Prop) a b : Forall2 P a b -> Forall2 (fun x y => P y x) b a.
Proof. intros H. induction H; constructor; assumption. Qed.
Lemma Forall2_len {A B} (P : A -> B -> Prop) a b : Forall2 P a b -> length a = length b.
Proof. intros H. induction H as [|x y a b _ _ IH]; [reflexivity|]. cbn [length]. rewrite IH. reflexivity. Qed.
Lemma total_same x a b : same_words a b -> total_times [x] a = total_times [x] b.
Proof.
  intros H. unfold total_times. f_equal. induction H as [|c r a b H _ IH]; [reflexivity|]. cbn [map]. rewrite IH, (times_permutation x c r H). reflexivity.
Qed.
Lemma having_pos g a b : length a = length b -> 0 < total_times g a -> having g (combine a b) <> [].
Proof.
  unfold total_times, having. revert b. induction a as [|x a IH]; intros [|y b] L H E; try discriminate.
  cbn [combine filter fst map] in *. rewrite zsum_cons in H. pose proof (times_nonneg g x). destruct (Z.ltb_spec 0 (times g x)); [discriminate|].
  apply (IH b) in E; [exact E|cbn in L; lia|lia].
Qed.
Lemma ranked_pos refs cands freqs g f : length g = 1%nat -> rank_of refs cands freqs g f -> 0 < total_times g refs \/ 0 < total_times g cands.
Proof. intros _. unfold rank_of. destruct freqs as [fs|]; [intros [[_ H]|(_ & _ & H)]; tauto|]. intros [H1 H2]. left. lia. Qed.

Theorem same_words_perfect rnd cands refs n freqs : rounding rnd -> same_words cands refs -> Z.of_nat (length refs) <= 9007199254740992 ->
  exists rows, pr_rows rnd cands refs n freqs = Ok rows /\ Forall (fun r => perfect r /\ perfect_f1 r /\ same_counts r) rows.
Proof.
  intros Hr H Hn. pose proof (Forall2_len _ _ _ H) as Hl. destruct (pr_rows_correct rnd cands refs n freqs Hr Hl Hn) as (rows & E & H1 & _ & _ & H4).
  exists rows. split; [exact E|]. apply Forall_forall. intros r Hin. rewrite Forall_forall in H4. specialize (H4 r Hin).
  assert (Hg : In (row_gram r, row_rank r) (map (fun r => (row_gram r, row_rank r)) rows)) by (apply (in_map (fun r => (row_gram r, row_rank r))), Hin).
  apply H1 in Hg as [Hg1 Hg2]. apply (ranked_pos _ _ _ _ _ Hg1) in Hg2.
  destruct r as [[[[[[g k] rf] cf] rec] prec] f1]. cbn [row_gram row_rank fst snd] in Hg1, Hg2. cbn in H4.
  destruct g as [|x [|y g]]; try discriminate. rewrite (total_same x cands refs H) in Hg2.
  assert (T : 0 < total_times [x] refs) by tauto. assert (T' : 0 < total_times [x] cands) by (rewrite (total_same x cands refs H); exact T).
  destruct H4 as (-> & -> & -> & -> & _ & _ & _ & Hf). unfold score_at in *. rewrite (map_fst_combine refs cands) in * by congruence. rewrite (map_fst_combine cands refs) in * by congruence.
  unfold or_minus1 in *. rewrite (proj2 (Z.ltb_lt _ _) T) in *. rewrite (proj2 (Z.ltb_lt _ _) T') in *.
  assert (R : (rounded_mean rnd [x] (combine refs cands) == 1)%Q).
  { apply mean_ones; [exact Hr|rewrite combine_length; lia|apply having_pos; [congruence|exact T]|]. intros p Hp.
    apply times_permutation, Permutation_sym. apply (combine_same (fun r c => Permutation c r) refs cands); [|exact Hp]. apply Forall2_flip, H. }
  assert (P : (rounded_mean rnd [x] (combine cands refs) == 1)%Q).
  { apply mean_ones; [exact Hr|rewrite combine_length; lia|apply having_pos; [congruence|exact T']|]. intros p Hp.
    apply times_permutation. apply (combine_same (fun c r => Permutation c r) cands refs); [exact H|exact Hp]. }
  split; [split; assumption|]. split; [exact (f1_ones rnd Hr _ _ _ P R Hf)|]. split; [symmetry; apply total_same, H|exact T].
Qed.

(** *** What a report without a fault means *)
Lemma sum_unit l : Forall unit_range l -> (sumQ l <= inject_Z (Z.of_nat (length l)))%Q.
Proof.
  induction 1 as [|x l [_ H] _ IH]; [apply Qle_refl|]. cbn [sumQ fold_right length]. rewrite Nat2Z.inj_succ, <- Z.add_1_r, inject_Z_plus.
  change (inject_Z 1) with 1%Q. unfold sumQ in IH. lra.
Qed.
Lemma sum_full l : Forall unit_range l -> (sumQ l == inject_Z (Z.of_nat (length l)))%Q -> Forall (fun x => x == 1)%Q l.
Proof.
  induction 1 as [|x l [H1 H2] Hl IH]; [constructor|]. cbn [sumQ fold_right length]. rewrite Nat2Z.inj_succ, <- Z.add_1_r, inject_Z_plus.
  change (inject_Z 1) with 1%Q. pose proof (sum_unit l Hl) as B. unfold sumQ in *. intros E. constructor; [lra|]. apply IH. lra.
Qed.
Lemma share_full g own other : 0 < times g own -> (share_of g own other == 1)%Q -> times g own <= times g other.
Proof.
  intros H E. unfold share_of in E. assert (N : ~ (inject_Z (times g own) == 0)%Q) by (intros X; unfold Qeq in X; cbn in X; lia).
  assert (X : (inject_Z (Z.min (times g own) (times g other)) == inject_Z (times g own))%Q).
  { rewrite <- (Qmult_div_r (inject_Z (Z.min (times g own) (times g other))) (inject_Z (times g own)) N), E. ring. }
  unfold Qeq in X. cbn in X. lia.
Qed.
Lemma mean_full g pairs : having g pairs <> [] -> (mean_share g pairs == 1)%Q -> forall p, In p pairs -> times g (fst p) <= times g (snd p).
Proof.
  intros Hne E p Hp. destruct (Z.ltb_spec 0 (times g (fst p))) as [L|L]; [|pose proof (times_nonneg g (snd p)); lia].
  apply share_full; [exact L|]. unfold mean_share, meanQ in E. set (l := map _ _) in E.
  assert (U : Forall unit_range l).
  { apply Forall_map, Forall_forall. intros q Hq. apply share_unit. unfold having in Hq. apply filter_In in Hq as [_ Hq]. apply Z.ltb_lt, Hq. }
  assert (N : ~ (inject_Z (Z.of_nat (length l)) == 0)%Q).
  { intros X. unfold Qeq in X. cbn in X. unfold l in X. rewrite map_length in X. destruct (having g pairs); [contradiction|cbn [length] in X; lia]. }
  assert (F : Forall (fun x => x == 1)%Q l).
  { apply sum_full; [exact U|]. rewrite <- (Qmult_div_r (sumQ l) (inject_Z (Z.of_nat (length l))) N), E. ring. }
  rewrite Forall_forall in F. apply (F (share_of g (fst p) (snd p))). unfold l. apply (in_map (fun p => share_of g (fst p) (snd p))).
  unfold having. apply filter_In. split; [exact Hp|]. apply Z.ltb_lt, L.
Qed.
Lemma in_total g a (b : list (list Z)) p : length a = length b -> In p (combine a b) -> 0 < times g (fst p) -> 0 < total_times g a.
Proof.
  unfold total_times. revert b. induction a as [|x a IH]; intros [|y b] L Hp T; try destruct Hp; cbn [combine map fst] in *; rewrite zsum_cons.
  - subst p. cbn [fst] in T. pose proof (total_nonneg g a). unfold total_times in *. lia.
  - pose proof (times_nonneg g x). cbn in L. specialize (IH b ltac:(lia) H T). lia.
Qed.
Lemma in_flip {A B} (a : list A) (b : list B) x y : In (x, y) (combine a b) -> In (y, x) (combine b a).
Proof.
  revert b. induction a as [|x0 a IH]; intros [|y0 b] H; try destruct H; [left; congruence|right; apply IH, H].
Qed.
Lemma Forall2_combine {A B} (P : A -> B -> Prop) a b : length a = length b -> (forall x y, In (x, y) (combine a b) -> P x y) -> Forall2 P a b.
Proof.
  revert b. induction a as [|x a IH]; intros [|y b] L H; try discriminate; constructor; [apply H; left; reflexivity|].
  apply IH; [cbn in L; lia|]. intros u v X. apply H. right. exact X.
Qed.
Theorem perfect_same_words cands refs n rows : Z.of_nat (length refs) <= 9007199254740992 ->
  pr_rows (fun x => x) cands refs n None = Ok rows -> Forall perfect rows -> (forall x, In x (concat cands) -> In x (concat refs)) -> same_words cands refs.
Proof.
  intros Hn E HP HS.
  assert (Hl : length cands = length refs).
  { unfold pr_rows, assert_ in E. destruct (Nat.eqb (length cands) (length refs)) eqn:X; [apply Nat.eqb_eq, X|discriminate]. }
  destruct (pr_rows_correct _ cands refs n None id_rounding Hl Hn) as (rows' & E' & H1 & _ & _ & H4). assert (rows' = rows) by congruence. subst rows'.
  assert (R : forall x, 0 < total_times [x] refs -> (mean_share [x] (combine refs cands) == 1)%Q /\ (0 < total_times [x] cands -> (mean_share [x] (combine cands refs) == 1)%Q)).
  { intros x T. assert (I : In ([x], total_times [x] refs) (map (fun r => (row_gram r, row_rank r)) rows)) by (apply H1; split; [reflexivity|]; split; [exact T|reflexivity]).
    apply in_map_iff in I as (r & Er & Ir). rewrite Forall_forall in H4, HP. specialize (H4 r Ir). specialize (HP r Ir).
    destruct r as [[[[[[g k] rf] cf] rec] prec] f1]. cbn in Er. injection Er as -> _. cbn in H4, HP.
    destruct H4 as (_ & _ & -> & -> & _). destruct HP as [P1 P2]. unfold score_at in *. rewrite (map_fst_combine refs cands) in * by congruence. rewrite (map_fst_combine cands refs) in * by congruence.
    rewrite (proj2 (Z.ltb_lt _ _) T) in P1. split; [rewrite <- P1; symmetry; apply rounded_mean_id|].
    intros T'. rewrite (proj2 (Z.ltb_lt _ _) T') in P2. rewrite <- P2. symmetry. apply rounded_mean_id. }
  apply Forall2_combine; [exact Hl|]. intros c r Hp. apply (Permutation_count_occ Z.eq_dec). intros x.
  assert (G : times [x] c = times [x] r); [|rewrite !times_one in G; lia].
  pose proof (times_nonneg [x] c). pose proof (times_nonneg [x] r). apply in_flip in Hp as Hq.
  assert (A : times [x] r <= times [x] c).
  { destruct (Z.ltb_spec 0 (times [x] r)) as [L|L]; [|lia]. assert (T : 0 < total_times [x] refs) by (apply (in_total [x] refs cands (r, c)); [congruence|exact Hq|exact L]).
    apply (mean_full [x] (combine refs cands)) with (p := (r, c)); [apply having_pos; [congruence|exact T]|apply R, T|exact Hq]. }
  assert (B : times [x] c <= times [x] r).
  { destruct (Z.ltb_spec 0 (times [x] c)) as [L|L]; [|lia]. assert (T : 0 < total_times [x] cands) by (apply (in_total [x] cands refs (c, r)); [congruence|exact Hp|exact L]).
    assert (T' : 0 < total_times [x] refs).
    { assert (Ic : In x (concat refs)).
      { apply HS. apply in_concat. exists c. split; [apply (in_combine_l _ _ _ _ Hp)|]. rewrite times_one in L. apply (count_occ_In Z.eq_dec). lia. }
      apply in_concat in Ic as (r' & I1 & I2). apply (count_occ_In Z.eq_dec) in I2. apply In_nth_error in I1 as (i & Hi).
      clear -I2 Hi. unfold total_times. revert i Hi. induction refs as [|y refs IH]; intros [|i] Hi; try discriminate; cbn [map]; rewrite zsum_cons.
      - injection Hi as ->. rewrite times_one. pose proof (total_nonneg [x] refs). unfold total_times in *. lia.
      - specialize (IH i Hi). pose proof (times_nonneg [x] y). lia. }
    apply (mean_full [x] (combine cands refs)) with (p := (c, r)); [apply having_pos; [congruence|exact T]|apply R; [exact T'|exact T]|exact Hp]. }
  lia.
Qed.

(** *** Exchanging the sides *)
Definition turned (st : grams_st) : grams_st := MkGrams (g_precs st) (g_cand_freqs st) (g_recalls st) (g_ref_freqs st).
Lemma scores_ok rnd own other sc fr : exists r, score_grams rnd (counter_update gram_eqb own []) other sc fr = Ok r.
Proof. eexists. apply score_grams_eq. intros g f H. apply counter_pos in H. apply H. Qed.
Lemma pair_turned rnd n st c r : gram_pair rnd n (turned st) (r, c) = match gram_pair rnd n st (c, r) with Ok st' => Ok (turned st') | Raise e => Raise e end.
Proof.
  unfold gram_pair. destruct (Z.ltb_spec 0 n) as [H|H]; [|rewrite !make_n_grams_raise by exact H; reflexivity].
  rewrite !make_n_grams_ok by exact H. cbn [bind turned g_recalls g_ref_freqs g_precs g_cand_freqs].
  match goal with |- context [score_grams rnd (counter_update gram_eqb (windows _ c) []) ?o ?s ?f] => destruct (scores_ok rnd (windows (Z.to_nat n) c) o s f) as ([p cf] & ->) end.
  match goal with |- context [score_grams rnd (counter_update gram_eqb (windows _ r) []) ?o ?s ?f] => destruct (scores_ok rnd (windows (Z.to_nat n) r) o s f) as ([q rf] & ->) end.
  reflexivity.
Qed.
Lemma pairs_turned rnd n cands : forall refs st, foldM (gram_pair rnd n) (combine refs cands) (turned st) =
  match foldM (gram_pair rnd n) (combine cands refs) st with Ok st' => Ok (turned st') | Raise e => Raise e end.
Proof.
  induction cands as [|c cands IH]; intros [|r refs] st; try reflexivity. cbn [combine foldM]. rewrite pair_turned.
  destruct (gram_pair rnd n st (c, r)) as [st'|e]; [|reflexivity]. cbn [bind]. apply IH.
Qed.
Theorem exchanged rnd cands refs n : count_gram_recall rnd refs cands n =
  match count_gram_recall rnd cands refs n with Ok (recalls, ref_freqs, precs, cand_freqs) => Ok (precs, cand_freqs, recalls, ref_freqs) | Raise e => Raise e end.
Proof.
  unfold count_gram_recall. change (MkGrams [] [] [] []) with (turned (MkGrams [] [] [] [])) at 1. rewrite pairs_turned.
  destruct (foldM _ _ _); reflexivity.
Qed.
