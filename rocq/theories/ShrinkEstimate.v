(** What the estimate of a text says before and after shrinking to that text. *)
From Coq Require Import Strings.String QArith Sorting.Permutation.
From Verif Require Import Py PyLemmas PyStr StrSpec PyStrProofs CodecModel CodecSpec FlatProofs TrieProofs BpeProofs VocabFileModel VocabSpec
     ShrinkModel ShrinkSpec ShrinkProofs ShrinkTwice EvalModel EvalSpec EvalProofs.
Local Open Scope Z_scope.
Local Open Scope list_scope.

Lemma forall2_len {A B} (P : A -> B -> Prop) l l' : Forall2 P l l' -> length l = length l'.
Proof. induction 1; cbn [length]; congruence. Qed.

Lemma zsum_zeros n : zsum (repeat 0 n) = 0.
Proof. induction n as [|n IH]; [reflexivity|]. cbn [repeat]. rewrite zsum_cons, IH. reflexivity. Qed.
Lemma zsum_cat a b : zsum (a ++ b) = zsum a + zsum b.
Proof. induction a as [|x a IH]; [reflexivity|]. cbn [app]. rewrite !zsum_cons, IH. lia. Qed.
(** Entries that never occur only add to the distance from the uniform distribution. *)
Lemma emd_pad c r : Forall (fun x => 0 <= x) c -> 0 < zsum c -> (emd_of c <= emd_of (c ++ repeat 0%Z r))%Q.
Proof.
  intros Hc Hp. assert (Ez : zsum (c ++ repeat 0 r) = zsum c) by (rewrite zsum_cat, zsum_zeros; lia).
  assert (Hp' : 0 < zsum (c ++ repeat 0 r)) by lia.
  assert (Hc' : Forall (fun x => 0 <= x) (c ++ repeat 0 r)).
  { apply Forall_app. split; [exact Hc|]. apply Forall_forall. intros x Hx. apply repeat_spec in Hx. lia. }
  pose proof (emd_k c Hc Hp) as K1. pose proof (emd_k _ Hc' Hp') as K2.
  unfold emd_of. rewrite (emd_num c), (emd_num (c ++ repeat 0 r)), Ez.
  set (S := zsum c) in *. set (k := Z.of_nat (length c)) in *. set (k' := Z.of_nat (length (c ++ repeat 0 r))) in *.
  assert (Hk : k <= k') by (subst k k'; rewrite app_length; lia).
  set (a := zsum (map (fun x => Z.max 0 (k * x - S)) c)). set (b := zsum (map (fun x => Z.max 0 (k' * x - S)) (c ++ repeat 0 r))).
  assert (Hab : k' * a <= k * b).
  { assert (Eb : b = zsum (map (fun x => Z.max 0 (k' * x - S)) c)).
    { subst b. rewrite map_app, zsum_cat. assert (E0 : map (fun x => Z.max 0 (k' * x - S)) (repeat 0 r) = repeat 0 r).
      { clearbody k' S. clear - Hp. induction r as [|r IH]; [reflexivity|]. cbn [repeat map]. rewrite IH. f_equal. lia. }
      rewrite E0, zsum_zeros. lia. }
    rewrite Eb. subst a. rewrite <- !zsum_scale, !map_map. clear - Hc Hk K1 Hp. clearbody S k k'. induction Hc as [|x c Hx _ IH]; [cbn; lia|].
    cbn [map]. rewrite !zsum_cons. assert (k' * Z.max 0 (k * x - S) <= k * Z.max 0 (k' * x - S)) by nia. lia. }
  assert (D : forall z, 0 < z -> (0 < inject_Z z)%Q) by (intros z Hz; change 0%Q with (inject_Z 0); rewrite <- Zlt_Qlt; exact Hz).
  apply Qle_shift_div_r; [apply D; nia|].
  assert (He : (inject_Z (2 * b) / inject_Z (2 * k' * S) * inject_Z (2 * k * S) == inject_Z (2 * (k * b)) / inject_Z k')%Q).
  { rewrite !inject_Z_mult. field. repeat split; try (apply injz; lia). }
  rewrite He. apply Qle_shift_div_l; [apply D; lia|]. rewrite <- inject_Z_mult, <- Zle_Qle. lia.
Qed.
Lemma counts_pad mapping n ids' ids : increasing mapping -> incl mapping (first_ids n) -> Forall2 (translates mapping) ids' ids ->
  exists r, Permutation (id_counts n ids) (id_counts (length mapping) ids' ++ repeat 0 r).
Proof.
  intros Hinc Hi Htr. pose proof (increasing_NoDup _ Hinc) as Hd.
  set (rest := filter (fun i => if in_dec Z.eq_dec i mapping then false else true) (first_ids n)). exists (length rest).
  assert (E1 : id_counts (length mapping) ids' = map (fun i => count_id i ids) mapping).
  { apply nth_error_ext'. intros m. rewrite nth_error_map. destruct (nth_error mapping m) as [i|] eqn:Em; cbn [option_map].
    - rewrite id_counts_nth by (apply nth_error_Some; congruence). unfold count_id. rewrite (count_translated mapping ids' ids m i Hd Em Htr). reflexivity.
    - apply nth_error_None. rewrite id_counts_length. apply nth_error_None, Em. }
  assert (E2 : repeat 0 (length rest) = map (fun i => count_id i ids) rest).
  { assert (Hr : forall i, In i rest -> count_id i ids = 0).
    { intros i H. apply filter_In in H. destruct H as [_ H]. destruct (in_dec Z.eq_dec i mapping) as [|N]; [discriminate|]. unfold count_id.
      destruct (in_dec Z.eq_dec i ids) as [Hin|Hno]; [|apply (count_occ_not_In Z.eq_dec) in Hno; lia].
      exfalso. apply N. clear - Htr Hin. induction Htr as [|x' x l' l [_ Hx] _ IH]; [destruct Hin|]. destruct Hin as [->|Hin]; [eapply nth_error_In, Hx|auto]. }
    clearbody rest. clear - Hr. induction rest as [|x l IH]; [reflexivity|]. cbn [length repeat map]. rewrite (Hr x (or_introl eq_refl)), <- IH; [reflexivity|]. intros i H. apply Hr. right. exact H. }
  rewrite E1, E2, <- map_app. unfold id_counts. rewrite <- (map_map Z.of_nat (fun i => count_id i ids)). apply Permutation_map. fold (first_ids n).
  assert (Hf : NoDup (first_ids n)) by (apply FinFun.Injective_map_NoDup; [intros x y; lia|apply seq_NoDup]).
  apply NoDup_Permutation; [exact Hf| |].
  - apply NoDup_app_intro; [exact Hd|apply NoDup_filter, Hf|]. intros x Hx H. apply filter_In in H. destruct H as [_ H]. destruct (in_dec Z.eq_dec x mapping); [discriminate|contradiction].
  - intros x. rewrite in_app_iff. unfold rest. rewrite filter_In. split.
    + intros H. destruct (in_dec Z.eq_dec x mapping) as [Y|N]; [left; exact Y|right; auto].
    + intros [H|[H _]]; [apply Hi, H|exact H].
Qed.

Theorem shrink_estimate k table s lines min_freq : text_kind k -> make_scheme k table = Ok s -> well_indexed table -> kids_earlier table ->
  reserved_levels table -> min_freq <= 1 -> (exists line ps, In line lines /\ encode_str s line = Ok ps /\ ps <> []) ->
  exists mapping new s' q q', shrink_vocab s lines min_freq = Ok (mapping, new) /\ make_scheme k new = Ok s' /\
    estimate s lines = Ok q /\ estimate s' lines = Ok q' /\
    q_n_tokens q' = q_n_tokens q /\ q_unk_count q' = q_unk_count q /\ (q_mean_seq_len q' == q_mean_seq_len q)%Q /\ q_n_types q' <= q_n_types q /\
    (exists v v', q_imbalance q = Some v /\ q_imbalance q' = Some v' /\ (v' <= v)%Q).
Proof.
  intros Hk Hs Hwi Hke Hrl Hmf Hl. destruct (shrink_encodes k table s lines min_freq Hk Hs Hwi Hke Hrl Hmf Hl) as (mapping & new & s' & E & Hs' & Hall).
  pose proof (scheme_table k table s Hk Hs) as Et. pose proof (text_reserved k table s Hk Hs) as Hr.
  destruct (text_encode_all k table s lines Hk Hs Hwi) as (enc & Eenc & Hval & Hlin).
  assert (Hne : concat enc <> []).
  { destruct Hl as (l0 & ps0 & Hl0 & Hps0 & Hne0). destruct (text_encode k table s l0 Hk Hs Hwi) as (ps & E1 & E2). rewrite Hps0 in E1. injection E1 as <-.
    pose proof (Hlin _ _ Hl0 E2) as Hi. destruct ps0 as [|p ps0]; [contradiction|].
    intros E0. assert (Hx : In (bid table p) (concat enc)) by (apply in_concat; eexists; split; [exact Hi|left; reflexivity]). rewrite E0 in Hx. exact Hx. }
  destruct (shrink_ok s lines enc min_freq) as (mapping0 & new0 & E0 & Hinc & Hst & Hren); try (rewrite Et; assumption); try assumption.
  { intros i Hi. rewrite Et. apply (Hval i Hi). }
  rewrite E in E0. injection E0 as <- <-. rewrite Et in Hst, Hren.
  pose proof (new_well_indexed _ _ _ Hren) as Hwi'.
  assert (Hlen : (6 <= length table)%nat).
  { unfold starts_reserved in Hr. apply (f_equal (@length str)) in Hr. rewrite firstn_length, map_length in Hr. change (length reserved_names) with 6%nat in Hr. lia. }
  assert (Hm : forall n, (n < 6)%nat -> nth_error mapping n = Some (Z.of_nat n)).
  { intros n Hn. rewrite (increasing_prefix 6 mapping 0 Hinc); [f_equal; lia| | |exact Hn].
    - intros x Hx. apply Hst in Hx. clear - Hx Hwi Hke. destruct Hx as [n t|n t|n t k _ Ht Hk]; try lia.
      destruct (Hke _ _ Ht) as [_ H]. destruct (H k Hk) as (m & _ & Hm). rewrite (Hwi _ _ Hm). lia.
    - intros m Hm. apply Hst. rewrite Z.add_0_l. destruct (nth_error table m) as [t|] eqn:Ht; [|apply nth_error_None in Ht; lia].
      eapply st_reserved; [exact Ht|]. eapply Hrl; eassumption. }
  assert (Hi : incl mapping (first_ids (length table))).
  { destruct Hren as [_ Hren0]. intros x Hx. apply In_nth_error in Hx. destruct Hx as (n & Hn). destruct (Hren0 _ _ Hn) as (t & t' & H0 & Ht & _).
    assert ((Z.to_nat x < length table)%nat) by (apply nth_error_Some; congruence).
    apply in_map_iff. exists (Z.to_nat x). split; [lia|apply in_seq; lia]. }
  assert (Hle : (length new <= length table)%nat).
  { destruct Hren as [Hln _]. pose proof (NoDup_incl_length (increasing_NoDup _ Hinc) Hi) as H. unfold first_ids in H. rewrite map_length, seq_length in H. lia. }
  assert (Hln : lines <> []) by (destruct Hl as (l0 & _ & Hl0 & _); intros ->; exact Hl0).
  assert (G : forall t, well_indexed t -> k = KWord \/ k = KChar \/ (k = KBpe /\ well_indexed t)) by (intros t Ht; destruct Hk as [-> |[-> | ->]]; tauto).
  destruct (estimate_correct k table s lines (G _ Hwi) Hs Hln) as (seqs & q & S1 & Eq & T1 & T2 & T3 & T4 & _ & T5).
  destruct (estimate_correct k new s' lines (G _ Hwi') Hs' Hln) as (seqs' & q' & S1' & Eq' & T1' & T2' & T3' & T4' & _ & T5').
  assert (Htr : Forall2 (translates mapping) (concat seqs') (concat seqs)).
  { apply forall2_concat. clear - S1 S1' Hall. revert seqs' S1'.
    induction S1 as [|l ids lines enc H _ IH]; intros enc' E'; inversion E' as [|? ids' ? enc'' H' E'']; subst; [constructor|]. constructor.
    - destruct (Hall l (or_introl eq_refl)) as (ps & i & i' & _ & _ & A & B & C). rewrite H in A. rewrite H' in B. injection A as ->. injection B as ->. exact C.
    - apply IH; [intros l' Hl'; apply Hall; right; exact Hl'|exact E'']. }
  exists mapping, new, s', q, q'. split; [exact E|]. split; [exact Hs'|]. split; [exact Eq|]. split; [exact Eq'|].
  pose proof (forall2_len _ _ _ Htr) as HL. split; [rewrite T2, T2', HL; reflexivity|]. split; [|split].
  - rewrite T3, T3'. unfold count_id. f_equal.
    apply (count_translated mapping _ _ 1%nat 1); [apply increasing_NoDup, Hinc|apply (Hm 1%nat); lia|exact Htr].
  - rewrite HL, <- T4 in T4'. apply Qmult_inj_r in T4'; [exact T4'|]. destruct lines; [contradiction|]. unfold Qeq. cbn. lia.
  - split; [lia|].
    assert (Es : seqs = enc).
    { apply mapM_forall2 in Eenc. clear - S1 Eenc. revert enc Eenc. induction S1 as [|l x lines a H _ IH]; intros b H2; inversion H2 as [|? ? ? ? X Y]; subst; [reflexivity|]. rewrite (IH _ Y). congruence. }
    subst seqs. assert (Hne' : concat seqs' <> []) by (intros E0; rewrite E0 in Htr; inversion Htr; congruence).
    destruct (T5 Hne) as (v & V1 & V2). destruct (T5' Hne') as (v' & V1' & V2'). exists v, v'. split; [exact V1|]. split; [exact V1'|].
    rewrite V2, V2'. destruct (counts_pad mapping (length table) _ _ Hinc Hi Htr) as (r & P). rewrite (emd_perm _ _ P).
    destruct Hren as [Hlm _]. rewrite Hlm. apply emd_pad; [apply id_counts_nonneg|].
    rewrite id_counts_sum; [destruct (concat seqs'); [contradiction|cbn [length]; lia]|].
    apply Forall_forall. intros x Hx. clear - Htr Hx. induction Htr as [|x' y l' l [H0 H] _ IH]; [destruct Hx|]. destruct Hx as [->|Hx]; [|auto].
    assert ((Z.to_nat x < length mapping)%nat) by (apply nth_error_Some; congruence). lia.
Qed.
