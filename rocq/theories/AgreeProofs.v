(** C164: what estimate and oov_count say about the same text. *)
From Coq Require Import Strings.String QArith Lia.
From Verif Require Import Py PyStr PyLemmas StrSpec PyStrProofs CodecModel CodecSpec FlatProofs LearnSpec EvalModel EvalSpec EvalProofs.
Local Open Scope Z_scope.
Local Open Scope list_scope.

(** Summing the occurrences of the words of one kind counts the words of that kind. *)
Lemma occ_filter_other w t l : w <> t -> occurrences w (filter (fun x => negb (str_eqb x t)) l) = occurrences w l.
Proof.
  intros H. unfold occurrences. f_equal. induction l as [|x l IH]; [reflexivity|]. cbn [filter count_occ].
  destruct (str_eqb x t) eqn:E; cbn [negb count_occ].
  - apply str_eqb_eq in E. subst x. destruct (str_dec t w); [congruence|exact IH].
  - rewrite IH. reflexivity.
Qed.
Lemma count_one (p : str -> bool) t l : p t = true ->
  Z.of_nat (length (filter p l)) = occurrences t l + Z.of_nat (length (filter p (filter (fun x => negb (str_eqb x t)) l))).
Proof.
  intros H. unfold occurrences. induction l as [|x l IH]; [reflexivity|]. cbn [filter count_occ].
  destruct (str_dec x t) as [->|N].
  - rewrite (proj2 (str_eqb_eq t t) eq_refl), H. cbn [negb length]. lia.
  - destruct (str_eqb x t) eqn:E; [apply str_eqb_eq in E; contradiction|]. cbn [negb filter]. destruct (p x); cbn [length]; lia.
Qed.
Lemma sum_counts (p : str -> bool) d : forall l, NoDup (map fst d) ->
  (forall t f, In (t, f) d <-> In t l /\ p t = true /\ f = occurrences t l) -> freq_sum d = Z.of_nat (length (filter p l)).
Proof.
  induction d as [|[t f] d IH]; intros l Hd H.
  - destruct (filter p l) as [|x r] eqn:E; [reflexivity|]. exfalso. assert (I : In x (filter p l)) by (rewrite E; left; reflexivity).
    apply filter_In in I as [I1 I2]. apply (H x (occurrences x l)). auto.
  - inversion Hd as [|? ? N Hd']. subst. destruct (proj1 (H t f) (or_introl eq_refl)) as (I1 & I2 & ->).
    unfold freq_sum. cbn [map snd]. rewrite zsum_cons. fold (freq_sum d). rewrite (count_one p t l I2). f_equal. apply IH; [exact Hd'|].
    intros w g. split.
    + intros I. assert (W : w <> t) by (intros ->; apply N; apply (in_map fst) in I; exact I).
      destruct (proj1 (H w g) (or_intror I)) as (J1 & J2 & ->). split; [|split; [exact J2|symmetry; apply occ_filter_other, W]].
      apply filter_In. split; [exact J1|]. destruct (str_eqb w t) eqn:E; [apply str_eqb_eq in E; contradiction|reflexivity].
    + intros (J1 & J2 & ->). apply filter_In in J1 as [J1 J3]. assert (W : w <> t) by (intros ->; rewrite (proj2 (str_eqb_eq t t) eq_refl) in J3; discriminate).
      rewrite (occ_filter_other w t l W). destruct (proj2 (H w (occurrences w l)) (conj J1 (conj J2 eq_refl))) as [X|X]; [congruence|exact X].
Qed.

(** Number 1 stands for the words without a number and for its own name. *)
Definition named_in (table : list Typ) (w : str) : bool := existsb (fun t => str_eqb (t_name t) w) table.
Lemma named_in_iff table w : named_in table w = true <-> has_name table w.
Proof.
  unfold named_in, has_name. rewrite existsb_exists. split; intros (t & I & E); exists t; (split; [exact I|apply str_eqb_eq, E]).
Qed.
Lemma unk_name table : starts_reserved table -> name_at table 1 (lit "<unk>").
Proof.
  unfold starts_reserved. destruct table as [|a [|b table]]; cbn [map firstn]; intros H; try discriminate. injection H as _ H _.
  split; [lia|]. exists b. split; [reflexivity|exact H].
Qed.
Lemma name_at_same table i j w : distinct_names table -> name_at table i w -> name_at table j w -> i = j.
Proof.
  intros D (Hi & t & E1 & N1) (Hj & u & E2 & N2). assert (Z.to_nat i = Z.to_nat j); [|lia].
  unfold distinct_names in D. rewrite NoDup_nth_error in D. apply D.
  - rewrite map_length. apply nth_error_Some. rewrite E1. discriminate.
  - rewrite !nth_error_map, E1, E2. cbn. congruence.
Qed.
Lemma unk_words table ws ids : starts_reserved table -> distinct_names table -> Forall2 (id_of table) ws ids ->
  count_id 1 ids = Z.of_nat (length (filter (fun w => negb (named_in table w)) ws)) + occurrences (lit "<unk>") ws.
Proof.
  intros HS HD H. pose proof (unk_name table HS) as U. induction H as [|w i ws ids Hw _ IH]; [reflexivity|].
  unfold count_id, occurrences in *. cbn [count_occ filter].
  assert (HU : has_name table (lit "<unk>")) by (destruct U as (_ & t & I & N); exists t; split; [apply (nth_error_In _ _ I)|exact N]).
  destruct (named_in table w) eqn:E; cbn [negb length].
  - apply named_in_iff in E. destruct Hw as [Hw|[_ Hw]]; [|contradiction].
    destruct (Z.eq_dec i 1) as [->|N1], (str_dec w (lit "<unk>")) as [->|N2]; try lia.
    + exfalso. apply N2. destruct Hw as (_ & t & E1 & E2), U as (_ & u & E3 & E4). congruence.
    + exfalso. apply N1. exact (name_at_same table i 1 _ HD Hw U).
  - assert (N : ~ has_name table w) by (intros X; apply named_in_iff in X; congruence).
    destruct Hw as [(_ & t & E1 & E2)|[-> _]]; [exfalso; apply N; exists t; split; [apply (nth_error_In _ _ E1)|exact E2]|].
    destruct (str_dec w (lit "<unk>")) as [->|_]; [contradiction|]. destruct (Z.eq_dec 1 1); [lia|contradiction].
Qed.
Lemma Forall2_concat {A B} (P : A -> B -> Prop) la lb : Forall2 (Forall2 P) la lb -> Forall2 P (concat la) (concat lb).
Proof. intros H. induction H as [|a b la lb H _ IH]; [constructor|]. cbn [concat]. apply Forall2_app; assumption. Qed.
Lemma Forall2_len' {A B} (P : A -> B -> Prop) a b : Forall2 P a b -> length a = length b.
Proof. intros H. induction H as [|x y a b _ _ IH]; [reflexivity|]. cbn [length]. rewrite IH. reflexivity. Qed.

Lemma words_eq l ws ws' : words_of l ws -> words_of l ws' -> ws = ws'.
Proof. rewrite !words_of_iff. congruence. Qed.
Lemma words_lists_eq lines a b : Forall2 words_of lines a -> Forall2 words_of lines b -> a = b.
Proof.
  intros H. revert b. induction H as [|l ws lines wss H1 _ IH]; intros b H2; inversion H2 as [|? ? ? ? X Y]; subst; [reflexivity|].
  rewrite (words_eq l ws _ H1 X), (IH _ Y). reflexivity.
Qed.
Theorem same_story table s lines wss : make_scheme KWord table = Ok s -> Forall2 words_of lines wss -> concat wss <> [] ->
  exists q ti ni to no p, estimate s lines = Ok q /\ oov_counts s lines = Ok (ti, ni, (to, no), p) /\
    q_n_tokens q = ni + no /\ q_unk_count q = no + occurrences (lit "<unk>") (concat wss).
Proof.
  intros Hm HW HN. assert (HL : lines <> []) by (intros ->; inversion HW; subst; apply HN; reflexivity).
  destruct (estimate_correct KWord table s lines (or_introl eq_refl) Hm HL) as (seqs & q & E1 & E2 & _ & E3 & E4 & _).
  destruct (oov_report KWord table s lines ltac:(discriminate) Hm) as (wss' & HW' & _ & HO).
  assert (wss' = wss) as -> by (eapply words_lists_eq; eassumption).
  destruct (HO HN) as (iv & oov & p & r & F1 & _ & F2 & _ & F3 & F4 & _).
  apply make_flat_inv in Hm as Hm'; [|auto]. destruct Hm' as (HS & HD & _).
  assert (HI : Forall2 (Forall2 (id_of table)) wss seqs).
  { clear -Hm HW E1. revert seqs E1. induction HW as [|l ws lines wss Hl _ IH]; intros seqs E; inversion E as [|? ids ? seqs' X Y]; subst; constructor; [|apply IH, Y].
    destruct (word_ids table s l Hm) as (ws' & ids' & _ & W & Z1 & Z2 & _). rewrite (words_eq l ws ws' Hl W). assert (ids = ids') by congruence. subst ids'. exact Z2. }
  apply Forall2_concat in HI. exists q, (Z.of_nat (length iv)), (freq_sum iv), (Z.of_nat (length oov)), (freq_sum oov), (p, r).
  split; [exact E2|]. split; [exact F1|]. split; [rewrite E3, F4, (Forall2_len' _ _ _ HI); reflexivity|].
  rewrite E4, (unk_words table _ _ HS HD HI). f_equal. symmetry. apply sum_counts; [exact F2|].
  intros t f. rewrite F3, negb_true_iff. rewrite <- not_true_iff_false, named_in_iff. reflexivity.
Qed.
