(** Evaluation tools: C62, C63, C64, C77, C78, C79. *)
From Coq Require Import Strings.String.
From Coq Require Import QArith Lqa Lia Sorting.Sorted.
From Verif Require Import Py PyStr PyLemmas StrSpec PyStrProofs CodecModel CodecSpec FlatProofs LearnSpec EvalModel EvalSpec EvalProofs PropsCodec.
Local Open Scope Z_scope.
Local Open Scope list_scope.

(** *** C62: n-grams, recall, precision, F1. *)
Theorem C62_ngrams : forall (A : Type) (sent : list A) n,
  (0 < n -> exists gs, make_n_grams sent n = Ok gs /\ ngrams_of (Z.to_nat n) sent gs /\
                       Z.of_nat (length gs) = Z.max 0 (Z.of_nat (length sent) - n + 1)) /\
  (n <= 0 -> make_n_grams sent n = Raise AssertionError).
Proof.
  intros A sent n. split; [|apply make_n_grams_raise]. intros Hn. exists (windows (Z.to_nat n) sent).
  split; [apply make_n_grams_ok, Hn|]. split; [apply windows_spec; lia|]. rewrite windows_length. lia.
Qed.
(** The tables of count_gram_recall: grams and frequencies for every rounding, scores exact. *)
Theorem C62_tables : forall cands refs n, 0 < n ->
  exists recalls ref_freqs precs cand_freqs,
    count_gram_recall (fun x => x) cands refs n = Ok (recalls, ref_freqs, precs, cand_freqs) /\
    tabulates (Z.to_nat n) (combine refs cands) recalls ref_freqs /\
    tabulates (Z.to_nat n) (combine cands refs) precs cand_freqs /\
    (forall g v, In (g, v) recalls -> (v == mean_share g (combine refs cands))%Q) /\
    (forall g v, In (g, v) precs -> (v == mean_share g (combine cands refs))%Q).
Proof.
  intros cands refs n Hn. destruct (gram_recall_spec (fun x => x) cands refs n Hn) as (a & b & c & d & E & H1 & H2 & H3 & H4).
  exists a, b, c, d. split; [exact E|]. split; [exact H1|]. split; [exact H3|]. split.
  - intros g v H. destruct (H2 g v H) as [-> _]. apply rounded_mean_id.
  - intros g v H. destruct (H4 g v H) as [-> _]. apply rounded_mean_id.
Qed.
Theorem C62_bounds_any_rounding : forall rnd cands refs n, rounding rnd -> 0 < n ->
  Z.of_nat (length refs) <= 9007199254740992 ->
  exists recalls ref_freqs precs cand_freqs,
    count_gram_recall rnd cands refs n = Ok (recalls, ref_freqs, precs, cand_freqs) /\
    tabulates (Z.to_nat n) (combine refs cands) recalls ref_freqs /\
    tabulates (Z.to_nat n) (combine cands refs) precs cand_freqs /\
    (forall g v, In (g, v) recalls \/ In (g, v) precs -> unit_range v /\ (rnd v == v)%Q).
Proof.
  intros rnd cands refs n Hr Hn Hl. destruct (gram_recall_spec rnd cands refs n Hn) as (a & b & c & d & E & H1 & H2 & H3 & H4).
  exists a, b, c, d. split; [exact E|]. split; [exact H1|]. split; [exact H3|].
  intros g v [H|H]; [destruct (H2 g v H) as [-> Hh]|destruct (H4 g v H) as [-> Hh]];
    (split; [apply rounded_mean_unit; [exact Hr| |exact Hh]; rewrite combine_length; lia|apply rounded_mean_rep, Hr]).
Qed.
Theorem C62_f1_any_rounding : forall rnd p r, rounding rnd -> unit_range p -> unit_range r -> (rnd p == p)%Q ->
  exists f, f1_measure rnd p r = Ok f /\ unit_range f.
Proof. intros rnd p r Hr. exact (f1_bounds rnd Hr p r). Qed.
Theorem C62_f1_between : forall p r, unit_range p -> unit_range r ->
  exists f, f1_measure (fun x => x) p r = Ok f /\ harmonic p r f /\
    (forall lo hi, (lo <= p -> lo <= r -> p <= hi -> r <= hi -> lo <= f /\ f <= hi)%Q).
Proof. exact f1_exact. Qed.
Theorem C62_f1_refuses : forall rnd p r, ~ unit_range p \/ ~ unit_range r -> f1_measure rnd p r = Raise AssertionError.
Proof. exact f1_outside. Qed.
Example C62_roundings : rounding (fun x => x) /\ rounding eighths.
Proof. split; [exact id_rounding|exact eighths_rounding]. Qed.
Example C62_ex :
  make_n_grams [7; 8; 7; 8] 2 = Ok [[7; 8]; [8; 7]; [7; 8]] /\ times [7; 8] [7; 8; 7; 8] = 2 /\
  count_gram_recall (fun x => x) [[7; 8]; [7]] [[7; 8; 7; 8]; [9]] 1
    = Ok ([([7], 1 # 2); ([8], 1 # 2); ([9], 0%Q)], [([7], 2); ([8], 2); ([9], 1)], [([7], 1 # 2); ([8], 1%Q)], [([7], 2); ([8], 1)]) /\
  f1_measure (fun x => x) 1 (1 # 2) = Ok (4 # 6)%Q /\ unit_range 1 /\ unit_range (1 # 2).
Proof. repeat split; vm_compute; try reflexivity; discriminate. Qed.

(** *** C63: the imbalance measure, in exact arithmetic. *)
Theorem C63_emd_value : forall stats, 0 < zsum stats ->
  exists v, EMD_simple stats 1 = Ok (Some v) /\ (v == emd_of stats)%Q.
Proof. exact emd_eq_of. Qed.
Theorem C63_emd_bounds : forall stats v,
  Forall (fun c => 0 <= c) stats -> 0 < zsum stats -> EMD_simple stats 1 = Ok (Some v) ->
  (0 <= v /\ v <= 1 - 1 / inject_Z (Z.of_nat (length stats)))%Q /\
  ((v == 0)%Q <-> forall a b, In a stats -> In b stats -> a = b) /\
  ((v == 1 - 1 / inject_Z (Z.of_nat (length stats)))%Q <-> forall c, In c stats -> c = 0 \/ c = zsum stats).
Proof.
  intros stats v Hn Hp H. destruct (emd_eq_of stats Hp) as (v' & E & Hv). assert (v' = v) by congruence. subst v'.
  rewrite Hv. split; [apply emd_bounds; assumption|]. split; [apply emd_zero; assumption|apply emd_max; assumption].
Qed.
Theorem C63_emd_order : forall a b u v, Permutation a b -> 0 < zsum a ->
  EMD_simple a 1 = Ok (Some u) -> EMD_simple b 1 = Ok (Some v) -> (u == v)%Q.
Proof.
  intros a b u v Hp Ha Hu Hv. destruct (emd_eq_of a Ha) as (u' & Eu & Hu'). rewrite (zsum_perm _ _ Hp) in Ha. destruct (emd_eq_of b Ha) as (v' & Ev & Hv').
  assert (u' = u) by congruence. assert (v' = v) by congruence. subst. rewrite Hu', Hv', (emd_perm a b Hp). reflexivity.
Qed.
Example C63_ex : Forall (fun c => 0 <= c) [3; 1; 0; 0] /\ 0 < zsum [3; 1; 0; 0] /\ Permutation [3; 1] [1; 3] /\
  exists v, EMD_simple [3; 1; 0; 0] 1 = Ok (Some v) /\ (v == 1 # 2)%Q.
Proof.
  split; [repeat constructor; discriminate|]. split; [reflexivity|]. split; [apply perm_swap|].
  eexists. split; [vm_compute; reflexivity|]. vm_compute. reflexivity.
Qed.

(** *** C64: quality estimation; holds for word, character and BPE schemes. *)
Theorem C64_estimate_partial : forall k table s lines,
  (k = KWord \/ k = KChar \/ (k = KBpe /\ well_indexed table)) -> make_scheme k table = Ok s -> lines <> [] ->
  exists seqs q, Forall2 (fun line seq => encode s line = Ok seq) lines seqs /\ estimate s lines = Ok q /\
    q_n_types q = Z.of_nat (length table) /\ q_n_tokens q = Z.of_nat (length (concat seqs)) /\
    q_unk_count q = count_id 1 (concat seqs) /\
    (q_mean_seq_len q * inject_Z (Z.of_nat (length lines)) == inject_Z (Z.of_nat (length (concat seqs))))%Q /\
    (concat seqs = [] -> q_imbalance q = None) /\
    (concat seqs <> [] -> exists v, q_imbalance q = Some v /\
       (v == emd_of (map (fun i => count_id (Z.of_nat i) (concat seqs)) (seq 0 (length table))))%Q).
Proof. exact estimate_correct. Qed.
(** A class model has no UNK type: its unk_count is the number of unknown labels plus the number of
    lines with the last label; a byte model has no unk_idx at all. *)
Theorem C64_class_counts_last_label : forall table s lines,
  make_scheme KClass table = Ok s -> table <> [] -> lines <> [] ->
  exists ids q, Forall2 (fun line i => encode s line = Ok [i]) lines ids /\ estimate s lines = Ok q /\
    q_n_types q = Z.of_nat (length table) /\ q_n_tokens q = Z.of_nat (length lines) /\
    q_unk_count q = count_id (-1) ids + count_id (Z.of_nat (length table) - 1) ids.
Proof. exact estimate_class. Qed.
Theorem C64_no_lines : forall s, estimate s [] = Raise ZeroDivisionError.
Proof. exact estimate_no_lines. Qed.
Theorem C64_estimate_refuted :
  (exists s q, make_scheme KClass ex_class = Ok s /\ encode s (lit "pos") = Ok [1] /\
     estimate s [lit "pos"] = Ok q /\ q_unk_count q = 1) /\
  (exists s, make_scheme KByte [] = Ok s /\ encode s (lit "x") = Ok [120] /\
     estimate s [lit "x"] = Raise AttributeError).
Proof.
  split.
  - exists (built KClass ex_class). eexists. split; [vm_compute; reflexivity|]. split; [vm_compute; reflexivity|]. split; vm_compute; reflexivity.
  - exists (built KByte []). split; [vm_compute; reflexivity|]. split; vm_compute; reflexivity.
Qed.
Example C64_ex : exists s q, make_scheme KWord ex_word = Ok s /\ encode s (lit "ab zz c") = Ok [6; 1; 7] /\
  estimate s [lit "ab zz c"; lit "c"] = Ok q /\ q_n_tokens q = 4 /\ q_unk_count q = 1.
Proof.
  exists (built KWord ex_word). eexists. split; [vm_compute; reflexivity|]. split; [vm_compute; reflexivity|]. split; [vm_compute; reflexivity|]. split; vm_compute; reflexivity.
Qed.

(** *** C77: the report of pr_measure; its --n option has no effect. *)
Theorem C77_report_partial : forall rnd cands refs freqs,
  rounding rnd -> length cands = length refs -> Z.of_nat (length refs) <= 9007199254740992 ->
  exists rows, pr_rows rnd cands refs 1 freqs = Ok rows /\
    (forall g f, In (g, f) (map (fun r => (row_gram r, row_rank r)) rows) <->
                 length g = 1%nat /\ rank_of refs cands freqs g f) /\
    NoDup (map row_gram rows) /\ StronglySorted (fun a b => row_rank b <= row_rank a) rows /\
    Forall (fun r => let '(g, _, rf, cf, rec, prec, f1) := r in
              rf = or_minus1 (total_times g refs) /\ cf = or_minus1 (total_times g cands) /\
              unit_range rec /\ unit_range prec /\ unit_range f1) rows.
Proof.
  intros rnd cands refs freqs Hr Hl Hn. destruct (pr_rows_correct rnd cands refs 1 freqs Hr Hl Hn) as (rows & E & H1 & H2 & H3 & H4).
  exists rows. split; [exact E|]. split; [exact H1|]. split; [exact H2|]. split; [exact H3|].
  eapply Forall_impl; [|exact H4]. intros [[[[[[g k] rf] cf] rec] prec] f1]. cbn. tauto.
Qed.
Theorem C77_report_exact_partial : forall cands refs freqs,
  length cands = length refs -> Z.of_nat (length refs) <= 9007199254740992 ->
  exists rows, pr_rows (fun x => x) cands refs 1 freqs = Ok rows /\
    Forall (fun r => let '(g, _, _, _, rec, prec, f1) := r in
              (rec == if 0 <? total_times g refs then mean_share g (combine refs cands) else 0)%Q /\
              (prec == if 0 <? total_times g cands then mean_share g (combine cands refs) else 1)%Q /\
              harmonic prec rec f1) rows.
Proof.
  intros cands refs freqs Hl Hn. destruct (pr_rows_correct _ cands refs 1 freqs id_rounding Hl Hn) as (rows & E & _ & _ & _ & H4).
  exists rows. split; [exact E|]. eapply Forall_impl; [|exact H4]. intros [[[[[[g k] rf] cf] rec] prec] f1]. cbn.
  intros (_ & _ & -> & -> & Hu1 & Hu2 & _ & Hf). unfold score_at in *. rewrite (map_fst_combine refs cands) in * by congruence. rewrite (map_fst_combine cands refs) in * by congruence.
  split; [destruct (0 <? total_times g refs); [apply rounded_mean_id|reflexivity]|]. split; [destruct (0 <? total_times g cands); [apply rounded_mean_id|reflexivity]|].
  destruct (f1_exact _ _ Hu2 Hu1) as (f & Ef & Hh & _). assert (f = f1) by congruence. subst f. exact Hh.
Qed.
Theorem C77_line_counts_differ : forall rnd cands refs n freqs,
  length cands <> length refs -> pr_rows rnd cands refs n freqs = Raise AssertionError.
Proof.
  intros rnd cands refs n freqs H. unfold pr_rows, assert_. apply Nat.eqb_neq in H. rewrite H. reflexivity.
Qed.
Theorem C77_n_is_ignored_refuted :
  exists cands refs rows, pr_rows (fun x => x) cands refs 2 None = Ok rows /\
    (exists g, length g = 2%nat /\ 0 < total_times g refs) /\ rows <> [] /\ Forall (fun r => length (row_gram r) = 1%nat) rows.
Proof.
  exists [[7; 8]], [[7; 8]]. eexists. split; [vm_compute; reflexivity|]. split; [exists [7; 8]; split; reflexivity|].
  split; [discriminate|]. repeat constructor.
Qed.
Example C77_ex : exists rows, pr_rows (fun x => x) [[7; 8]; [7]] [[7; 8; 7; 8]; [9]] 1 (Some [([8], 5); ([3], 9); ([8], 4)]) = Ok rows /\
  map (fun r => (row_gram r, row_rank r)) rows = [([8], 4); ([7], -1); ([9], -1)].
Proof. eexists. split; vm_compute; reflexivity. Qed.

(** *** C78: out-of-vocabulary counts. *)
Theorem C78_oov_report : forall k table s inp,
  k <> KByte -> make_scheme k table = Ok s -> exists wss, Forall2 words_of inp wss /\
  (concat wss = [] -> oov_counts s inp = Raise ZeroDivisionError) /\
  (concat wss <> [] -> exists iv oov p q,
     oov_counts s inp = Ok (Z.of_nat (length iv), freq_sum iv, (Z.of_nat (length oov), freq_sum oov), (p, q)) /\
     NoDup (map fst iv) /\ NoDup (map fst oov) /\
     (forall t f, In (t, f) iv <-> In t (concat wss) /\ has_name table t /\ f = occurrences t (concat wss)) /\
     (forall t f, In (t, f) oov <-> In t (concat wss) /\ ~ has_name table t /\ f = occurrences t (concat wss)) /\
     freq_sum iv + freq_sum oov = Z.of_nat (length (concat wss)) /\ (p + q == 100)%Q).
Proof. exact oov_report. Qed.
Theorem C78_partition : forall inp vocab iv oov,
  partition_vocab_toks inp vocab = (iv, oov) ->
  exists wss, Forall2 words_of inp wss /\ NoDup (map fst iv) /\ NoDup (map fst oov) /\
    (forall t f, In (t, f) iv <-> In t (concat wss) /\ In t vocab /\ f = occurrences t (concat wss)) /\
    (forall t f, In (t, f) oov <-> In t (concat wss) /\ ~ In t vocab /\ f = occurrences t (concat wss)) /\
    freq_sum iv + freq_sum oov = Z.of_nat (length (concat wss)).
Proof. exact partition_exact. Qed.
Example C78_ex : exists s p q, make_scheme KWord ex_word = Ok s /\
  oov_counts s [lit "ab zz c"; lit " c"] = Ok (2, 3, (1, 1), (p, q)) /\ (p == 75)%Q /\ (q == 25)%Q.
Proof.
  exists (built KWord ex_word). eexists _, _. split; [vm_compute; reflexivity|]. split; [vm_compute; reflexivity|]. split; vm_compute; reflexivity.
Qed.

(** *** C79: gram frequencies. *)
Theorem C79_termfreq : forall k table s lines n,
  (k = KWord \/ k = KChar \/ (k = KBpe /\ well_indexed table)) -> make_scheme k table = Ok s -> 0 < n ->
  exists seqs rows, Forall2 (fun line seq => encode s line = Ok seq) lines seqs /\ termfreq_rows s seqs n = Ok rows /\
    NoDup (map (fun r => fst (fst r)) rows) /\
    StronglySorted (fun a b : gram * Z * list str => snd (fst b) <= snd (fst a)) rows /\
    (forall g f, In (g, f) (map fst rows) <-> length g = Z.to_nat n /\ 0 < f /\ f = total_times g seqs) /\
    Forall (fun r => Forall2 (name_at table) (fst (fst r)) (snd r)) rows.
Proof.
  intros k table s lines n Hk H Hn.
  assert (He : exists seqs, Forall2 (fun line seq => encode s line = Ok seq) lines seqs /\ Forall (Forall (valid_id table)) seqs).
  { induction lines as [|line lines (seqs & H1 & H2)]; [exists []; split; constructor|]. destruct (encode_valid k table s line Hk H) as (ids & E & Hv). exists (ids :: seqs). split; constructor; assumption. }
  destruct He as (seqs & H1 & H2). assert (Ht : s_table s = table) by (apply (made_table k); [destruct Hk as [-> |[-> |[-> _]]]; discriminate|exact H]).
  destruct (termfreq_correct s table seqs n Ht Hn H2) as (rows & H3). exists seqs, rows. split; [exact H1|exact H3].
Qed.
Example C79_ex : termfreq_rows (built KWord ex_word) [[6; 7; 6]; [6; 7]] 2 =
  Ok [([6; 7], 2, [lit "ab"; lit "c"]); ([7; 6], 1, [lit "c"; lit "ab"])].
Proof. vm_compute. reflexivity. Qed.

Print Assumptions C62_ngrams.
Print Assumptions C62_tables.
Print Assumptions C62_bounds_any_rounding.
Print Assumptions C62_f1_any_rounding.
Print Assumptions C62_f1_between.
Print Assumptions C62_f1_refuses.
Print Assumptions C63_emd_value.
Print Assumptions C63_emd_bounds.
Print Assumptions C63_emd_order.
Print Assumptions C64_estimate_partial.
Print Assumptions C64_class_counts_last_label.
Print Assumptions C64_no_lines.
Print Assumptions C64_estimate_refuted.
Print Assumptions C77_report_partial.
Print Assumptions C77_report_exact_partial.
Print Assumptions C77_line_counts_differ.
Print Assumptions C77_n_is_ignored_refuted.
Print Assumptions C78_oov_report.
Print Assumptions C78_partition.
Print Assumptions C79_termfreq.
