(** Proofs about the order in which sums are taken. *)
From Verif Require Import Py PyStr PyLemmas StrSpec PyStrProofs CodecModel LearnSpec LearnProofs DriverModel DriverSpec DriverProofs GroupSpec.
Local Open Scope Z_scope.
Local Open Scope list_scope.

Lemma total_cons k a v l : total k ((a, v) :: l) = (if str_eqb k a then v else 0) + total k l.
Proof. unfold total. cbn [filter fst]. destruct (str_eqb k a); cbn [map fold_right snd]; lia. Qed.
Lemma total_perm k l m : Permutation l m -> total k l = total k m.
Proof.
  induction 1 as [|[a v] l m _ IH|[a v] [b w] l|l m n _ IH1 _ IH2]; [reflexivity| | |congruence].
  - rewrite !total_cons, IH. reflexivity.
  - rewrite !total_cons. lia.
Qed.
Lemma summing_total l m : summing l m -> forall k, total k m = total k l.
Proof.
  induction 1 as [l m H|l k a b rest m H _ IH]; intros k'; [symmetry; apply total_perm, H|].
  rewrite IH, (total_perm _ _ _ H), !total_cons. destruct (str_eqb k' k); lia.
Qed.
Lemma summing_keys l m : summing l m -> forall k, In k (map fst m) <-> In k (map fst l).
Proof.
  induction 1 as [l m H|l k a b rest m H _ IH]; intros k'.
  - split; intros Hi; (eapply Permutation_in; [|exact Hi]); apply Permutation_map; [symmetry|]; exact H.
  - rewrite IH. cbn [map fst]. split; intros Hi.
    + eapply Permutation_in; [symmetry; apply Permutation_map; exact H|]. cbn [map fst]. destruct Hi as [Hi|Hi]; [left; exact Hi|right; right; exact Hi].
    + eapply Permutation_in in Hi; [|apply Permutation_map; exact H]. cbn [map fst] in Hi. destruct Hi as [Hi|[Hi|Hi]]; [left; exact Hi|left; exact Hi|right; exact Hi].
Qed.
Lemma total_absent k l : ~ In k (map fst l) -> total k l = 0.
Proof.
  induction l as [|[a v] l IH]; intros H; [reflexivity|]. rewrite total_cons. cbn [map fst] in H.
  rewrite IH by (intros Hi; apply H; right; exact Hi). destruct (str_eqb k a) eqn:E; [|reflexivity].
  exfalso. apply H. left. symmetry. apply str_eqb_eq, E.
Qed.
Lemma total_in k v m : NoDup (map fst m) -> In (k, v) m -> v = total k m.
Proof.
  induction m as [|[a w] m IH]; intros N Hi; [destruct Hi|]. cbn [map fst] in N. apply NoDup_cons_iff in N. destruct N as [Na N].
  rewrite total_cons. destruct Hi as [E|Hi].
  - injection E as -> ->. rewrite str_eqb_refl, total_absent by exact Na. lia.
  - destruct (str_eqb k a) eqn:E; [|rewrite Z.add_0_l; apply IH; assumption].
    exfalso. apply str_eqb_eq in E as ->. apply Na. apply (in_map fst) in Hi. exact Hi.
Qed.
Lemma nodup_pairs (m : list (str * Z)) : NoDup (map fst m) -> NoDup m.
Proof. intros H. eapply NoDup_map_inv. exact H. Qed.
Lemma same_totals_in m m' : NoDup (map fst m) -> NoDup (map fst m') -> (forall k, In k (map fst m) <-> In k (map fst m')) ->
  (forall k, total k m = total k m') -> forall x, In x m -> In x m'.
Proof.
  intros N N' K T [k v] Hi. pose proof (in_map fst _ _ Hi) as Hk. cbn [fst] in Hk. apply K in Hk. apply in_map_iff in Hk.
  destruct Hk as ([k' v'] & E & Hi'). cbn [fst] in E. subst k'. rewrite (total_in _ _ _ N Hi), T, <- (total_in _ _ _ N' Hi'). exact Hi'.
Qed.
Lemma same_totals m m' : NoDup (map fst m) -> NoDup (map fst m') -> (forall k, In k (map fst m) <-> In k (map fst m')) ->
  (forall k, total k m = total k m') -> Permutation m m'.
Proof.
  intros N N' K T. apply NoDup_Permutation; [apply nodup_pairs, N|apply nodup_pairs, N'|]. intros x. split.
  - apply same_totals_in; assumption.
  - apply same_totals_in; [exact N'|exact N|intros k; symmetry; apply K|intros k; symmetry; apply T].
Qed.

(** The reduction from left to right is one of them. *)
Lemma summing_perm l l' m : Permutation l l' -> summing l' m -> summing l m.
Proof.
  intros P H. destruct H as [l' m H|l' k a b rest m H H']; [apply sum_end; etransitivity; eassumption|].
  eapply sum_two; [etransitivity; [exact P|exact H]|exact H'].
Qed.
Lemma dset_swap k v w (d : list (str * Z)) : dget str_eqb k d = Some v -> exists rest, Permutation d ((k, v) :: rest) /\ Permutation (dset str_eqb k w d) ((k, w) :: rest).
Proof.
  induction d as [|[a x] d IH]; cbn [dget dset]; [discriminate|]. destruct (str_eqb k a) eqn:E; intros H.
  - apply str_eqb_eq in E as ->. injection H as ->. exists d. split; reflexivity.
  - destruct (IH H) as (rest & P1 & P2). exists ((a, x) :: rest). split.
    + rewrite P1. apply perm_swap.
    + rewrite P2. apply perm_swap.
Qed.
Lemma dset_absent k w (d : list (str * Z)) : dget str_eqb k d = None -> Permutation (dset str_eqb k w d) ((k, w) :: d).
Proof.
  induction d as [|[a x] d IH]; cbn [dget dset]; [reflexivity|]. destruct (str_eqb k a) eqn:E; intros H; [discriminate|].
  rewrite (IH H). apply perm_swap.
Qed.
Lemma reduce_summing pairs : forall d, summing (d ++ pairs) (fold_left (fun d kv => dadd str_eqb (fst kv) (snd kv) d) pairs d).
Proof.
  induction pairs as [|[k v] pairs IH]; intros d; cbn [fold_left]; [rewrite app_nil_r; apply sum_end; reflexivity|].
  specialize (IH (dadd str_eqb k v d)). cbn [fst snd]. unfold dadd, dget_def in *. destruct (dget str_eqb k d) as [x|] eqn:E.
  - destruct (dset_swap k x (x + v) d E) as (rest & P1 & P2). eapply sum_two with (k := k) (a := x) (b := v) (rest := rest ++ pairs).
    + rewrite P1. cbn [app]. apply perm_skip. symmetry. apply Permutation_middle.
    + eapply summing_perm; [|exact IH]. rewrite P2. reflexivity.
  - eapply summing_perm; [|exact IH]. rewrite (dset_absent k _ d E). cbn [app]. symmetry. apply Permutation_middle.
Qed.
Theorem reduce_summed pairs : summed pairs (reduce_by_key pairs).
Proof. split; [exact (reduce_summing pairs [])|]. destruct (reduce_keys pairs [] ltac:(constructor)) as [H _]. exact H. Qed.
Theorem summed_reduce pairs m : summed pairs m -> Permutation m (reduce_by_key pairs).
Proof.
  intros [S N]. destruct (reduce_summed pairs) as [S' N']. apply same_totals; [exact N|exact N'| |].
  - intros k. rewrite (summing_keys _ _ S), (summing_keys _ _ S'). reflexivity.
  - intros k. rewrite (summing_total _ _ S), (summing_total _ _ S'). reflexivity.
Qed.
Theorem summed_exact pairs m : summed pairs m -> (forall k, In k (map fst m) <-> In k (map fst pairs)) /\ forall k v, In (k, v) m -> v = total k pairs.
Proof.
  intros [S N]. split; [apply summing_keys, S|]. intros k v Hi. rewrite <- (summing_total _ _ S). apply total_in; assumption.
Qed.
Lemma summed_perm l l' m : Permutation l l' -> summed l m -> summed l' m.
Proof. intros P [S N]. split; [|exact N]. eapply summing_perm; [symmetry; exact P|exact S]. Qed.

(** word_counts with any order of summing. *)
Definition pair_dec (x y : str * Z) : {x = y} + {x <> y}.
Proof. decide equality; [apply Z.eq_dec|apply str_dec]. Defined.
Definition choose {A} (dec : forall x y : A, {x = y} + {x <> y}) (at_ : list A) (give : list A) (other : list A -> list A) (l : list A) : list A :=
  if list_eq_dec dec l at_ then give else other l.
Lemma word_pairs_model rows wss : Forall2 words_of rows wss ->
  word_pairs SENT_TAG wss = flat_map (fun row => map (fun w => (w, 1)) (SENT_TAG :: split (strip row))) rows.
Proof.
  intros H. unfold word_pairs. rewrite flat_map_concat_map. f_equal. induction H as [|r ws rows wss H _ IH]; [reflexivity|].
  cbn [map]. f_equal; [|exact IH]. f_equal. f_equal. apply words_of_iff in H. symmetry. rewrite split_strip. exact H.
Qed.
Lemma char_pairs_model m : char_pairs m = flat_map (fun r => map (fun ch => ([ch], snd r)) (fst r)) m.
Proof. unfold char_pairs. rewrite flat_map_concat_map. reflexivity. Qed.

Lemma ddel_without k (m : list (str * Z)) : NoDup (map fst m) -> ddel str_eqb k m = without k m.
Proof.
  unfold without. induction m as [|[a v] m IH]; intros N; [reflexivity|]. cbn [map fst] in N. apply NoDup_cons_iff in N. destruct N as [Na N].
  cbn [ddel filter fst]. rewrite (str_eqb_sym a k). destruct (str_eqb k a) eqn:E; cbn [negb].
  - apply str_eqb_eq in E as ->. clear IH. induction m as [|[b w] m IH]; [reflexivity|]. cbn [filter fst]. destruct (str_eqb b a) eqn:E.
    + exfalso. apply Na. left. apply str_eqb_eq, E.
    + cbn [negb]. f_equal. apply IH; [intros H; apply Na; right; exact H|]. cbn [map] in N. apply NoDup_cons_iff in N. apply N.
  - f_equal. apply IH, N.
Qed.
Theorem word_counts_any texts dedup rows wss freqs chars :
  texts <> [] -> counted_rows dedup texts rows -> Forall2 words_of rows wss ->
  summed (word_pairs SENT_TAG wss) freqs -> summed (char_pairs (without SENT_TAG freqs)) chars ->
  exists sp, spark_counting sp /\
    word_counts sp texts dedup = match rows with [] => Raise KeyError | _ => Ok (without SENT_TAG freqs, chars, total SENT_TAG (word_pairs SENT_TAG wss)) end.
Proof.
  intros Hne Hr Hw Hf Hc.
  exists (MkCounting (choose str_dec (concat texts) (if dedup then rows else nodup str_dec (concat texts)) (nodup str_dec))
    (choose pair_dec (reduce_by_key (word_pairs SENT_TAG wss)) freqs (fun l => l))
    (choose pair_dec (reduce_by_key (char_pairs (without SENT_TAG freqs))) chars (fun l => l))).
  split.
  - assert (Hnd : forall l : list str, NoDup (nodup str_dec l) /\ forall r, In r (nodup str_dec l) <-> In r l)
      by (intros l; split; [apply NoDup_nodup|intros r; apply nodup_In]).
    split; [|split]; intros l; cbn [distinct_rows collect_words collect_chars]; unfold choose.
    + destruct (list_eq_dec str_dec l (concat texts)) as [->|]; [|apply Hnd]. destruct dedup; [|apply Hnd].
      destruct Hr as [H1 H2]. split; [exact H1|]. intros r. rewrite H2, in_concat. reflexivity.
    + destruct (list_eq_dec pair_dec l _) as [->|]; [apply summed_reduce, Hf|reflexivity].
    + destruct (list_eq_dec pair_dec l _) as [->|]; [apply summed_reduce, Hc|reflexivity].
  - unfold word_counts. destruct texts as [|t0 ts]; [congruence|]. set (texts := t0 :: ts) in *. cbn [bind distinct_rows collect_words collect_chars].
    assert (E : (if dedup then choose str_dec (concat texts) (if dedup then rows else nodup str_dec (concat texts)) (nodup str_dec) (concat texts) else concat texts) = rows).
    { destruct dedup; [|symmetry; exact Hr]. unfold choose. destruct (list_eq_dec str_dec (concat texts) (concat texts)); [reflexivity|congruence]. }
    rewrite E. rewrite <- (word_pairs_model _ _ Hw).
    assert (E2 : choose pair_dec (reduce_by_key (word_pairs SENT_TAG wss)) freqs (fun l => l) (reduce_by_key (word_pairs SENT_TAG wss)) = freqs).
    { unfold choose. destruct (list_eq_dec pair_dec _ _); [reflexivity|congruence]. }
    rewrite E2. clear E E2. destruct (summed_exact _ _ Hf) as [K V]. destruct rows as [|r rows].
    + inversion Hw; subst wss. destruct (dget str_eqb SENT_TAG freqs) as [n|] eqn:En; [exfalso|reflexivity].
      apply (dget_Some_key str_eqb str_eqb_eq) in En. apply K in En. destruct En.
    + destruct (dget str_eqb SENT_TAG freqs) as [n|] eqn:En.
      * cbn [bind]. rewrite (ddel_without _ _ (proj2 Hf)), <- char_pairs_model. do 2 f_equal.
        { f_equal. unfold choose. destruct (list_eq_dec pair_dec _ _); [reflexivity|congruence]. }
        apply (dget_In str_eqb str_eqb_eq) in En. apply V, En.
      * exfalso. apply (dget_None str_eqb str_eqb_eq) in En. apply En. apply K. inversion Hw; subst. left. reflexivity.
Qed.
(** Every run of the model is one of these. *)
Theorem word_counts_some sp texts dedup words chars n : spark_counting sp -> word_counts sp texts dedup = Ok (words, chars, n) ->
  exists rows wss freqs, counted_rows dedup texts rows /\ Forall2 words_of rows wss /\ rows <> [] /\
    summed (word_pairs SENT_TAG wss) freqs /\ words = without SENT_TAG freqs /\ summed (char_pairs words) chars /\ n = total SENT_TAG (word_pairs SENT_TAG wss).
Proof.
  intros (S1 & S2 & S3) H. unfold word_counts in H. destruct texts as [|t0 ts]; [discriminate H|]. set (texts := t0 :: ts) in *. cbn [bind] in H.
  set (rows := if dedup then distinct_rows sp (concat texts) else concat texts) in *.
  assert (Hw : Forall2 words_of rows (map (fun r => split r) rows)).
  { clear. induction rows as [|r rows IH]; [constructor|]. cbn [map]. constructor; [apply words_of_iff; reflexivity|exact IH]. }
  rewrite <- (word_pairs_model _ _ Hw) in H. set (wss := map _ rows) in *. set (freqs := collect_words sp _) in H.
  assert (Hs : forall l m, Permutation m (reduce_by_key l) -> summed l m).
  { intros l m P. destruct (reduce_summed l) as [A B]. split; [|eapply Permutation_NoDup; [apply Permutation_map; symmetry; exact P|exact B]].
    clear B. remember (reduce_by_key l) as z. clear Heqz. revert m P. induction A as [l z P'|l k a b rest z P' _ IH]; intros m P.
    - apply sum_end. etransitivity; [exact P'|symmetry; exact P].
    - eapply sum_two; [exact P'|apply IH, P]. }
  assert (Hf : summed (word_pairs SENT_TAG wss) freqs) by (apply Hs, S2).
  destruct (dget str_eqb SENT_TAG freqs) as [n'|] eqn:En; [|discriminate H]. cbn [bind] in H. injection H as <- <- <-.
  exists rows, wss, freqs. split; [|split; [exact Hw|]].
  { unfold counted_rows, rows. destruct dedup; [|reflexivity]. destruct (S1 (concat texts)) as [H1 H2]. split; [exact H1|].
    intros r. rewrite H2, in_concat. reflexivity. }
  split; [|split; [exact Hf|split; [apply ddel_without, Hf|split]]].
  - intros E. apply (dget_Some_key str_eqb str_eqb_eq) in En. apply (proj1 (summed_exact _ _ Hf)) in En. unfold wss in En. rewrite E in En. destruct En.
  - rewrite char_pairs_model. apply Hs, S3.
  - apply (dget_In str_eqb str_eqb_eq) in En. apply (summed_exact _ _ Hf), En.
Qed.
