(** C165: what estimate and termfreq say about the same text. *)
From Coq Require Import Strings.String QArith Lia Sorting.Sorted.
From Verif Require Import Py PyStr PyLemmas StrSpec CodecModel CodecSpec EvalModel EvalSpec EvalProofs FairProofs.
Local Open Scope Z_scope.
Local Open Scope list_scope.

Lemma count_id_app x a b : count_id x (a ++ b) = count_id x a + count_id x b.
Proof. unfold count_id. rewrite count_occ_app. lia. Qed.
Lemma total_one x seqs : total_times [x] seqs = count_id x (concat seqs).
Proof.
  unfold total_times. induction seqs as [|s seqs IH]; [reflexivity|]. cbn [map concat]. rewrite zsum_cons, IH, count_id_app, times_one. reflexivity.
Qed.
Lemma count_out w t l : w <> t -> count_id w (filter (fun x => negb (x =? t)) l) = count_id w l.
Proof.
  intros H. unfold count_id. f_equal. induction l as [|x l IH]; [reflexivity|]. cbn [filter count_occ].
  destruct (Z.eqb_spec x t) as [->|E]; cbn [negb count_occ].
  - destruct (Z.eq_dec t w); [congruence|exact IH].
  - rewrite IH. reflexivity.
Qed.
Lemma length_out t l : Z.of_nat (length l) = count_id t l + Z.of_nat (length (filter (fun x => negb (x =? t)) l)).
Proof.
  unfold count_id. induction l as [|x l IH]; [reflexivity|]. cbn [filter count_occ length]. destruct (Z.eq_dec x t) as [->|N].
  - rewrite Z.eqb_refl. cbn [negb]. lia.
  - rewrite (proj2 (Z.eqb_neq x t) N). cbn [negb length]. lia.
Qed.
(** A list of all numbers that occur, each once and with its count, sums up to the length. *)
Lemma sum_ids d : forall l, NoDup (map fst d) -> (forall g f, In (g, f) d <-> exists x, g = [x] /\ 0 < f /\ f = count_id x l) ->
  zsum (map snd d) = Z.of_nat (length l).
Proof.
  induction d as [|[g f] d IH]; intros l Hd H.
  - destruct l as [|x l]; [reflexivity|]. exfalso. apply (H [x] (count_id x (x :: l))). exists x. split; [reflexivity|]. split; [|reflexivity].
    unfold count_id. cbn [count_occ]. destruct (Z.eq_dec x x); [lia|contradiction].
  - inversion Hd as [|? ? N Hd']. subst. destruct (proj1 (H g f) (or_introl eq_refl)) as (t & -> & P & ->).
    cbn [map snd]. rewrite zsum_cons, (length_out t l). f_equal. apply IH; [exact Hd'|]. intros g f. split.
    + intros I. assert (G : g <> [t]) by (intros ->; apply N; apply (in_map fst) in I; exact I).
      destruct (proj1 (H g f) (or_intror I)) as (x & -> & Q1 & ->). exists x. rewrite count_out by congruence. auto.
    + intros (x & -> & Q1 & ->). destruct (Z.eq_dec x t) as [->|G].
      * exfalso. clear -Q1. unfold count_id in Q1. assert (X : count_occ Z.eq_dec (filter (fun x => negb (x =? t)) l) t = 0%nat); [|lia].
        apply count_occ_not_In. intros I. apply filter_In in I as [_ I]. rewrite Z.eqb_refl in I. discriminate.
      * rewrite count_out in * by exact G. destruct (proj2 (H [x] (count_id x l)) (ex_intro _ x (conj eq_refl (conj Q1 eq_refl)))) as [X|X]; [congruence|exact X].
Qed.
Lemma same_seqs s lines a b : Forall2 (fun line seq => encode s line = Ok seq) lines a -> Forall2 (fun line seq => encode s line = Ok seq) lines b -> a = b.
Proof.
  intros H. revert b. induction H as [|l x lines a E _ IH]; intros b H2; inversion H2 as [|? ? ? ? X Y]; subst; [reflexivity|]. rewrite (IH _ Y). congruence.
Qed.
Theorem grams_story k table s lines : (k = KWord \/ k = KChar \/ (k = KBpe /\ well_indexed table)) -> make_scheme k table = Ok s -> lines <> [] ->
  exists q seqs rows, estimate s lines = Ok q /\ Forall2 (fun line seq => encode s line = Ok seq) lines seqs /\ termfreq_rows s seqs 1 = Ok rows /\
    zsum (map (fun r => snd (fst r)) rows) = q_n_tokens q /\
    (forall f, In ([1], f) (map fst rows) <-> f = q_unk_count q /\ 0 < f) /\
    Z.of_nat (length rows) <= q_n_types q.
Proof.
  intros Hk Hm HL. destruct (estimate_correct k table s lines Hk Hm HL) as (seqs & q & E1 & E2 & E0 & E3 & E4 & _).
  assert (HV : Forall (Forall (valid_id table)) seqs).
  { clear -Hk Hm E1. induction E1 as [|l x lines seqs E _ IH]; constructor; [|exact IH]. destruct (encode_valid k table s l Hk Hm) as (ids & E' & V). congruence. }
  assert (HT : s_table s = table) by (apply (made_table k); [destruct Hk as [-> |[-> |[-> _]]]; discriminate|exact Hm]).
  destruct (termfreq_correct s table seqs 1 HT ltac:(lia) HV) as (rows & R1 & R2 & _ & R3 & _).
  exists q, seqs, rows. split; [exact E2|]. split; [exact E1|]. split; [exact R1|].
  assert (RF : forall g f, In (g, f) (map fst rows) <-> exists x, g = [x] /\ 0 < f /\ f = count_id x (concat seqs)).
  { intros g f. rewrite R3. split.
    - intros (L & P & F). destruct g as [|x [|y g]]; try discriminate. exists x. rewrite total_one in F. auto.
    - intros (x & -> & P & F). rewrite total_one. auto. }
  assert (ND : NoDup (map fst (map fst rows))) by (rewrite map_map; exact R2).
  split; [rewrite E3; rewrite <- (sum_ids (map fst rows) (concat seqs) ND RF), map_map; reflexivity|]. split.
  - intros f. rewrite RF, E4. split; [intros (x & X & P & F); injection X as <-; auto|]. intros [-> P]. exists 1. auto.
  - rewrite E0. assert (I : (length rows <= length table)%nat); [|lia].
    rewrite <- (map_length (fun r => fst (fst r)) rows), <- (seq_length (length table) 0), <- (map_length (fun n => [Z.of_nat n]) (seq 0 (length table))).
    apply NoDup_incl_length; [exact R2|]. intros g Hg. rewrite <- map_map in Hg. apply in_map_iff in Hg as ([g' f] & X & Hg). cbn [fst] in X. subst g'. apply RF in Hg as (x & -> & P & F).
    assert (J : In x (concat seqs)) by (apply (count_occ_In Z.eq_dec); unfold count_id in F; lia).
    apply in_concat in J as (sq & J1 & J2). rewrite Forall_forall in HV. specialize (HV sq J1). rewrite Forall_forall in HV. specialize (HV x J2). unfold valid_id in HV.
    apply in_map_iff. exists (Z.to_nat x). split; [rewrite Z2Nat.id by lia; reflexivity|]. apply in_seq. lia.
Qed.
