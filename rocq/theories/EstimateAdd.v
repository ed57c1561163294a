(** What estimate says about a text, its lines in another order and two texts together. *)
From Coq Require Import Strings.String QArith Sorting.Permutation Lqa.
From Verif Require Import Py PyLemmas PyStr StrSpec CodecModel CodecSpec EvalModel EvalSpec EvalProofs FairProofs AgreeGrams ShrinkEstimate.
Local Open Scope Z_scope.
Local Open Scope list_scope.

Lemma perm_seqs s lines lines' seqs : Permutation lines lines' -> Forall2 (fun line seq => encode s line = Ok seq) lines seqs ->
  exists seqs', Permutation seqs seqs' /\ Forall2 (fun line seq => encode s line = Ok seq) lines' seqs'.
Proof.
  intros H. revert seqs. induction H as [|x l l' _ IH|x y l|l l' l'' _ IH1 _ IH2]; intros seqs F.
  - exists seqs. auto.
  - inversion F as [|? a ? b E F']; subst. destruct (IH _ F') as (c & P & G). exists (a :: c). split; [constructor; exact P|constructor; assumption].
  - inversion F as [|? a ? b E F']; subst. inversion F' as [|? a' ? b' E' F'']; subst. exists (a' :: a :: b'). split; [apply perm_swap|repeat (constructor; try assumption)].
  - destruct (IH1 _ F) as (c & P & G). destruct (IH2 _ G) as (d & P' & G'). exists d. split; [eapply Permutation_trans; eassumption|exact G'].
Qed.
Lemma perm_concat {A} (a b : list (list A)) : Permutation a b -> Permutation (concat a) (concat b).
Proof.
  induction 1 as [|x l l' _ IH|x y l|l l' l'' _ IH1 _ IH2]; cbn [concat]; [constructor|apply Permutation_app_head, IH| |eapply Permutation_trans; eassumption].
  rewrite !app_assoc. apply Permutation_app_tail, Permutation_app_comm.
Qed.
Lemma count_perm x a b : Permutation a b -> count_id x a = count_id x b.
Proof. intros H. unfold count_id. rewrite (proj1 (Permutation_count_occ Z.eq_dec a b) H). reflexivity. Qed.
Lemma injz_pos n : (0 < n)%nat -> ~ (inject_Z (Z.of_nat n) == 0)%Q.
Proof. intros H. unfold Qeq. cbn. lia. Qed.

Definition text_scheme (k : kind) (table : list Typ) : Prop := k = KWord \/ k = KChar \/ (k = KBpe /\ well_indexed table).

Lemma valid_seqs k table s lines seqs : text_scheme k table -> make_scheme k table = Ok s -> Forall2 (fun line seq => encode s line = Ok seq) lines seqs ->
  Forall (fun i => 0 <= i < Z.of_nat (length table)) (concat seqs).
Proof.
  intros Hk Hs. induction 1 as [|l x lines seqs E _ IH]; [constructor|]. cbn [concat]. apply Forall_app. split; [|exact IH].
  destruct (encode_valid k table s l Hk Hs) as (ids & E' & Hv). rewrite E in E'. injection E' as <-. exact Hv.
Qed.

Theorem estimate_perm k table s lines lines' q : text_scheme k table -> make_scheme k table = Ok s -> lines <> [] ->
  Permutation lines lines' -> estimate s lines = Ok q ->
  exists q', estimate s lines' = Ok q' /\ q_n_types q' = q_n_types q /\ q_n_tokens q' = q_n_tokens q /\ q_unk_count q' = q_unk_count q /\
    (q_mean_seq_len q' == q_mean_seq_len q)%Q /\
    match q_imbalance q, q_imbalance q' with Some v, Some v' => (v == v')%Q | None, None => True | _, _ => False end.
Proof.
  intros Hk Hs Hne P Eq. assert (Hne' : lines' <> []) by (intros ->; apply Permutation_sym, Permutation_nil in P; contradiction).
  destruct (estimate_correct k table s lines Hk Hs Hne) as (a & q0 & F & E0 & A1 & A2 & A3 & A4 & A5 & A6). rewrite Eq in E0. injection E0 as <-.
  destruct (estimate_correct k table s lines' Hk Hs Hne') as (b & q' & G & E' & B1 & B2 & B3 & B4 & B5 & B6). exists q'. split; [exact E'|].
  destruct (perm_seqs _ _ _ _ P F) as (b' & Pb & G'). rewrite (same_seqs _ _ _ _ G' G) in Pb. pose proof (perm_concat _ _ Pb) as Pc.
  pose proof (Permutation_length Pc) as Hl. pose proof (Permutation_length P) as Hl'.
  split; [congruence|]. split; [congruence|]. split; [rewrite A3, B3; symmetry; apply count_perm, Pc|]. split.
  - rewrite <- Hl, <- Hl', <- A4 in B4. apply Qmult_inj_r in B4; [exact B4|]. apply injz_pos. destruct lines; [contradiction|cbn [length]; lia].
  - destruct (concat a) as [|x l] eqn:Ea.
    + apply Permutation_nil in Pc. rewrite (A5 eq_refl), (B5 Pc). exact I.
    + assert (Hb : concat b <> []) by (intros E0; rewrite E0 in Pc; apply Permutation_sym, Permutation_nil in Pc; discriminate).
      destruct (A6 ltac:(discriminate)) as (v & V1 & V2). destruct (B6 Hb) as (v' & W1 & W2). rewrite V1, W1, V2, W2.
      replace (id_counts (length table) (concat b)) with (id_counts (length table) (x :: l)); [reflexivity|].
      unfold id_counts. apply map_ext. intros i. apply count_perm, Pc.
Qed.

Lemma emd_join n a b : 0 < zsum (id_counts n a) -> 0 < zsum (id_counts n b) ->
  (emd_of (id_counts n (a ++ b)) * inject_Z (zsum (id_counts n a) + zsum (id_counts n b)) <=
   emd_of (id_counts n a) * inject_Z (zsum (id_counts n a)) + emd_of (id_counts n b) * inject_Z (zsum (id_counts n b)))%Q.
Proof.
  intros Ha Hb. unfold emd_of. rewrite !id_counts_length.
  assert (Es : zsum (id_counts n (a ++ b)) = zsum (id_counts n a) + zsum (id_counts n b)).
  { unfold id_counts. generalize (seq 0 n) as l. induction l as [|i l IH]; [reflexivity|]. cbn [map]. rewrite !zsum_cons, IH, count_id_app. lia. }
  rewrite Es. assert (Hn : (0 < n)%nat) by (destruct n; [cbn in Ha; lia|lia]).
  set (S := zsum (id_counts n a)) in *. set (T := zsum (id_counts n b)) in *. set (k := Z.of_nat n) in *.
  set (x := zsum (map (fun c => Z.abs (k * c - S)) (id_counts n a))). set (y := zsum (map (fun c => Z.abs (k * c - T)) (id_counts n b))).
  set (z := zsum (map (fun c => Z.abs (k * c - (S + T))) (id_counts n (a ++ b)))).
  assert (H : z <= x + y).
  { subst x y z. unfold id_counts. generalize (seq 0 n) as l. clearbody S T k. induction l as [|i l IH]; [cbn; lia|].
    cbn [map]. rewrite !zsum_cons, count_id_app. lia. }
  assert (Hk : 0 < k) by lia.
  assert (E1 : forall u w, 0 < w -> (inject_Z u / inject_Z (2 * k * w) * inject_Z w == inject_Z u / inject_Z (2 * k))%Q).
  { intros u w Hw. rewrite !inject_Z_mult. field. split; apply injz; lia. }
  rewrite !E1 by lia. unfold Qdiv. rewrite <- Qmult_plus_distr_l, <- inject_Z_plus. apply Qmult_le_compat_r; [rewrite <- Zle_Qle; exact H|].
  apply Qinv_le_0_compat. change 0%Q with (inject_Z 0). rewrite <- Zle_Qle. lia.
Qed.

Theorem estimate_join k table s a b qa qb : text_scheme k table -> make_scheme k table = Ok s -> a <> [] -> b <> [] ->
  estimate s a = Ok qa -> estimate s b = Ok qb ->
  exists q, estimate s (a ++ b) = Ok q /\ q_n_types q = q_n_types qa /\ q_n_tokens q = q_n_tokens qa + q_n_tokens qb /\
    q_unk_count q = q_unk_count qa + q_unk_count qb /\
    (q_mean_seq_len q * inject_Z (Z.of_nat (length (a ++ b))) ==
     q_mean_seq_len qa * inject_Z (Z.of_nat (length a)) + q_mean_seq_len qb * inject_Z (Z.of_nat (length b)))%Q /\
    (forall va vb, q_imbalance qa = Some va -> q_imbalance qb = Some vb -> exists v, q_imbalance q = Some v /\
       (v * inject_Z (q_n_tokens q) <= va * inject_Z (q_n_tokens qa) + vb * inject_Z (q_n_tokens qb))%Q).
Proof.
  intros Hk Hs Ha Hb Ea Eb. assert (Hab : a ++ b <> []) by (destruct a; [contradiction|discriminate]).
  destruct (estimate_correct k table s a Hk Hs Ha) as (x & q0 & F & E0 & A1 & A2 & A3 & A4 & A5 & A6). rewrite Ea in E0. injection E0 as <-.
  destruct (estimate_correct k table s b Hk Hs Hb) as (y & q0 & G & E0 & B1 & B2 & B3 & B4 & B5 & B6). rewrite Eb in E0. injection E0 as <-.
  destruct (estimate_correct k table s (a ++ b) Hk Hs Hab) as (z & q & H & E & C1 & C2 & C3 & C4 & C5 & C6). exists q.
  rewrite (same_seqs _ _ _ _ H (Forall2_app F G)), concat_app in *. split; [exact E|]. split; [congruence|].
  split; [rewrite A2, B2, C2, app_length; lia|]. split; [rewrite A3, B3, C3; apply count_id_app|]. split.
  - rewrite C4, A4, B4, <- inject_Z_plus, app_length, Nat2Z.inj_add. reflexivity.
  - intros va vb Va Vb. assert (Nx : concat x <> []) by (intros N; rewrite (A5 N) in Va; discriminate).
    assert (Ny : concat y <> []) by (intros N; rewrite (B5 N) in Vb; discriminate).
    destruct (A6 Nx) as (va' & Va' & Ha'). destruct (B6 Ny) as (vb' & Vb' & Hb'). rewrite Va in Va'. rewrite Vb in Vb'. injection Va' as <-. injection Vb' as <-.
    destruct C6 as (v & Hv & Ev); [destruct (concat x); [contradiction|discriminate]|]. exists v. split; [exact Hv|].
    assert (Sx : zsum (id_counts (length table) (concat x)) = q_n_tokens qa).
    { rewrite A2. apply id_counts_sum. apply (valid_seqs k table s a x Hk Hs F). }
    assert (Sy : zsum (id_counts (length table) (concat y)) = q_n_tokens qb).
    { rewrite B2. apply id_counts_sum. apply (valid_seqs k table s b y Hk Hs G). }
    assert (L : forall l : list Z, l <> [] -> 0 < Z.of_nat (length l)) by (intros [|? ?] N; [contradiction|cbn [length]; lia]).
    rewrite Ev, Ha', Hb'. replace (q_n_tokens q) with (q_n_tokens qa + q_n_tokens qb) by (rewrite A2, B2, C2, app_length; lia). rewrite <- Sx, <- Sy.
    apply emd_join; [rewrite Sx, A2|rewrite Sy, B2]; apply L; assumption.
Qed.
