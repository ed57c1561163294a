(** Following lengths and imbalance over the merges of a vocabulary: C65, C84-C87. *)
From Coq Require Import Strings.String QArith Lia.
From Verif Require Import Py PyStr PyLemmas CodecModel CodecSpec JsonProofs VocabFileModel VocabSpec VocabFileProofs BatchModel MapredModel
     EvalSpec LearnModel HeapModel BpeSpec LearnBpeModel LearnBpeProofs PropsCodec PropsVocab PropsBpe TrackModel TrackSpec TrackProofs.
Local Open Scope Z_scope.
Local Open Scope list_scope.

(** The letters of a word list as types, and one more type that joins two earlier ones. *)
Definition ex_join (table : list Typ) (a b : nat) : list Typ :=
  match nth_error table a, nth_error table b with
  | Some ta, Some tb => table ++ [MkType (t_name ta ++ t_name tb) 1 (Z.of_nat (length table)) 1 (Some [ta; tb])]
  | _, _ => table
  end.
Definition ex_aa : list Typ := ex_join (ex_chars [97%N]) 6 6.
Definition ex_abcd_corpus : corpus := [([7; 8], 3); ([6; 7], 2); ([8; 9], 1)].
Definition ex_abcd : list Typ := table_of (learn_codes as_is ex_abcd_corpus (ex_chars [97; 98; 99; 100]%N) 3 1 1).
Definition rows_or_none (r : res (list row)) : list row := match r with Ok l => l | Raise _ => [] end.
Definition swap_first (i : nat) (l : list nat) : list nat := match l with x :: y :: l' => y :: x :: l' | _ => l end.
Lemma swap_first_order : iteration_orders swap_first.
Proof. intros i l. destruct l as [|x [|y l]]; try reflexivity. apply perm_swap. Qed.
Definition no_row : row := MkRow 0 None None [] [].
Definition ex_aa_rows : list row := rows_or_none (track_merges as_is 7 (skipn 7 ex_aa) ([[6; 6; 6; 5]], None)).
Definition ex_aaaa_rows (o : nat -> list nat -> list nat) : list row := rows_or_none (track_merges o 7 (skipn 7 ex_aa) ([[6; 6; 6; 6; 5]], None)).
Definition ex_abcd_rows : list row := rows_or_none (track_merges as_is 10 (skipn 10 ex_abcd) ([[6; 7; 8; 9; 5]], None)).
Ltac below_tac := intros s f H x Hx; cbn in H; repeat (destruct H as [H|H]; [injection H as <- <-; cbn in Hx |- *; lia|]); destruct H.
Ltac merged_tac := constructor; [split; [reflexivity|]; split; [cbn; repeat constructor|cbn; intuition discriminate]|constructor].
Ltac kids_tac := cbn; repeat split; try lia; do 2 eexists; repeat split.

Lemma ex_abcd_learnable : learnable ex_abcd_corpus (ex_chars [97; 98; 99; 100]%N).
Proof.
  apply ex_learnable_chars.
  - cbn. repeat (constructor; [cbn; intuition discriminate|]). constructor.
  - intros ch H. cbn in H. repeat (destruct H as [<-|H]; [discriminate|]). destruct H.
  - discriminate.
  - intros s f H. cbn in H. repeat (destruct H as [H|H]; [injection H as <- <-; lia|]). destruct H.
  - below_tac.
Qed.
Lemma ex_abcd_merges : merge_list 10 (skipn 10 ex_abcd) [(7, 8); (6, 7); (8, 9)].
Proof. vm_compute. repeat split; try discriminate; do 2 eexists; repeat split. Qed.

(** *** C84: every run gives one row for each vocabulary size, with the exact sequence lengths: they are
    those of the lines after the merges so far, one after the other, whatever the iteration order. *)
Theorem C84_lengths_exact : forall orders k ts ps seqs,
  iteration_orders orders -> (0 < k)%nat -> merge_list (Z.of_nat k) ts ps -> symbols_below (Z.of_nat k) (once seqs) ->
  exists rows cs, track_merges orders k ts (seqs, None) = Ok rows /\
    merging (Z.of_nat k) (once seqs) ps cs /\ length rows = S (length ps) /\ length cs = S (length ps) /\
    forall j rw c, nth_error rows j = Some rw -> nth_error cs j = Some c ->
      r_types rw = Z.of_nat (k + j) /\ r_lens rw = lengths c /\ (seqs <> [] -> r_mean rw = Some (average (lengths c))).
Proof. exact lens_exact. Qed.
(* from a vocabulary file and the lines of a corpus *)
Theorem C84_whole_tool : forall orders n_cpus version now types meta k ps lines,
  scalars version -> scalars now -> meta_ok meta -> NoDup (map fst meta) -> ~ In (lit "max_level") (map fst meta) ->
  storable types -> starts_reserved types -> ~ has_name types [] -> (6 <= k)%nat -> bpe_layout k types ps ->
  iteration_orders orders -> 1 < n_cpus ->
  exists bytes s seqs, write_out version now types meta = (bytes, Ok tt) /\ make_scheme KBpe (firstn k types) = Ok s /\
    Forall2 (fun line ids => encode s line = Ok ids) lines seqs /\
    forall result, estimate_lens orders n_cpus bytes (lines, None) result ->
    exists rows cs, result = Ok rows /\ merging (Z.of_nat k) (once seqs) ps cs /\
      length rows = S (length ps) /\ length cs = S (length ps) /\
      forall j rw c, nth_error rows j = Some rw -> nth_error cs j = Some c ->
        r_types rw = Z.of_nat (k + j) /\ (lines <> [] -> r_mean rw = Some (average (lengths c))).
Proof.
  intros orders n_cpus version now types meta k ps lines H1 H2 H3 H4 H5 H6 H7 H8 H9 H10 H11 H12.
  destruct (estimate_file orders n_cpus version now types meta k ps lines H1 H2 H3 H4 H5 H6 H7 H8 H9 H10 H11 H12) as (bytes & s & seqs & A & B & C & D & R).
  exists bytes, s, seqs. split; [exact A|]. split; [exact B|]. split; [exact C|]. intros result Hr. rewrite (R result Hr).
  destruct (lens_exact orders k (skipn k types) ps seqs H11 ltac:(lia) (proj2 (proj2 (proj2 H10))) D) as (rows & cs & E & M & L1 & L2 & X).
  exists rows, cs. repeat (split; [assumption|]). intros j rw c Ej Ec. destruct (X j rw c Ej Ec) as (X1 & _ & X3). split; [exact X1|].
  intros Hl. apply X3. intros ->. inversion C. subst lines. contradiction.
Qed.
(* the table a, b, ab, abb and the lines "abb ab", "a" *)
Lemma ex_bpe_layout : bpe_layout 8 ex_bpe [(6, 7); (8, 7)].
Proof.
  split; [cbn; lia|]. split; [|split].
  - intros t H. cbn in H. repeat (destruct H as [<-|H]; [reflexivity|]). destruct H.
  - intros t H. cbn in H. repeat (destruct H as [<-|H]; [reflexivity|]). destruct H.
  - kids_tac.
Qed.
Example C84_ex : storable ex_bpe /\ starts_reserved ex_bpe /\ ~ has_name ex_bpe [] /\ bpe_layout 8 ex_bpe [(6, 7); (8, 7)] /\
  map (encode (built KBpe (firstn 8 ex_bpe))) [lit "abb ab"; lit "a"] = [Ok [6; 7; 7; 5; 6; 7; 5]; Ok [6; 5]] /\
  symbols_below 8 (once [[6; 7; 7; 5; 6; 7; 5]; [6; 5]]) /\
  map (fun rw => (r_types rw, r_mean rw, r_lens rw, r_counts rw))
    (rows_or_none (track_merges as_is 8 (skipn 8 ex_bpe) ([[6; 7; 7; 5; 6; 7; 5]; [6; 5]], None)))
  = [(8, Some (9 # 2)%Q, [7; 2], [0; 0; 0; 0; 0; 3; 3; 3]); (9, Some (7 # 2)%Q, [5; 2], [0; 0; 0; 0; 0; 3; 1; 1; 2]);
     (10, Some (6 # 2)%Q, [4; 2], [0; 0; 0; 0; 0; 3; 1; 0; 1; 1])].
Proof.
  split; [exact C15_ex|]. split; [reflexivity|]. split; [|split; [exact ex_bpe_layout|split; [vm_compute; reflexivity|split; [|vm_compute; reflexivity]]]].
  - intros (t & H & E). cbn in H. repeat (destruct H as [<-|H]; [discriminate E|]). destruct H.
  - intros s f H x Hx. cbn in H. repeat (destruct H as [H|H]; [injection H as <- <-; cbn in Hx; lia|]). destruct H.
Qed.

(** *** C85: the reported mean length never grows with the vocabulary. *)
Theorem C85_mean_never_grows : forall orders k ts ps seqs rows,
  iteration_orders orders -> (0 < k)%nat -> merge_list (Z.of_nat k) ts ps -> symbols_below (Z.of_nat k) (once seqs) -> seqs <> [] ->
  track_merges orders k ts (seqs, None) = Ok rows ->
  forall i j ri rj, (i <= j)%nat -> nth_error rows i = Some ri -> nth_error rows j = Some rj ->
  exists mi mj, r_mean ri = Some mi /\ r_mean rj = Some mj /\ (mj <= mi)%Q.
Proof. exact mean_decreases. Qed.

(** *** C65: the counts kept while merging. Full statement: after every merge the count kept for each type
    is its number of occurrences in the merged lines, and the reported imbalance is that of those counts.
    It holds when no merge joins a type with itself. Missing: the other merges, where it is false. *)
Theorem C65_counts_exact_partial : forall orders k ts ps seqs,
  iteration_orders orders -> (0 < k)%nat -> merge_list (Z.of_nat k) ts ps -> symbols_below (Z.of_nat k) (once seqs) -> no_doubles ps ->
  exists rows cs, track_merges orders k ts (seqs, None) = Ok rows /\
    merging (Z.of_nat k) (once seqs) ps cs /\ length rows = S (length ps) /\ length cs = S (length ps) /\
    forall j rw c, nth_error rows j = Some rw -> nth_error cs j = Some c ->
      r_counts rw = true_counts (k + j) c /\
      match r_emd rw with Some e => (e == emd_of (true_counts (k + j) c))%Q | None => zsum (true_counts (k + j) c) = 0 end.
Proof. exact counts_exact. Qed.
(* in general: how far every count is off *)
Theorem C65_error : forall orders k ts ps seqs,
  iteration_orders orders -> (0 < k)%nat -> merge_list (Z.of_nat k) ts ps -> symbols_below (Z.of_nat k) (once seqs) ->
  exists rows cs, track_merges orders k ts (seqs, None) = Ok rows /\
    merging (Z.of_nat k) (once seqs) ps cs /\ length rows = S (length ps) /\ length cs = S (length ps) /\
    forall j rw c, nth_error rows j = Some rw -> nth_error cs j = Some c ->
      length (r_counts rw) = (k + j)%nat /\
      forall x, (x < k + j)%nat -> nth_error (r_counts rw) x = Some (symbol_count c (Z.of_nat x) - drift (Z.of_nat x) (Z.of_nat k) ps cs j).
Proof. exact counts_drift. Qed.
(* "aaa" and the merge a a: the lines become aa a; the counts say a: -1, and the imbalance, which cannot
   be more than 1, is given as 7/4 *)
Lemma ex_aa_merges : merge_list 7 (skipn 7 ex_aa) [(6, 6)].
Proof. kids_tac. Qed.
Theorem C65_counts_exact_refuted : exists orders k ts ps seqs rows cs rw c e,
  iteration_orders orders /\ (0 < k)%nat /\ merge_list (Z.of_nat k) ts ps /\ symbols_below (Z.of_nat k) (once seqs) /\
  track_merges orders k ts (seqs, None) = Ok rows /\ merging (Z.of_nat k) (once seqs) ps cs /\
  nth_error rows 1 = Some rw /\ nth_error cs 1 = Some c /\
  true_counts (k + 1) c = [0; 0; 0; 0; 0; 1; 1; 1] /\ r_counts rw = [0; 0; 0; 0; 0; 1; -1; 1] /\
  r_emd rw = Some e /\ (1 < e)%Q.
Proof.
  exists as_is, 7%nat, (skipn 7 ex_aa), [(6, 6)], [[6; 6; 6; 5]], ex_aa_rows, [once [[6; 6; 6; 5]]; once [[7; 6; 5]]].
  exists (nth 1 ex_aa_rows no_row), (once [[7; 6; 5]]), (match r_emd (nth 1 ex_aa_rows no_row) with Some e => e | None => 0%Q end).
  split; [exact as_is_order|]. split; [lia|]. split; [exact ex_aa_merges|]. split; [below_tac|].
  split; [vm_compute; reflexivity|]. split.
  { eapply mrg_step; [|apply mrg_end]. merged_tac. }
  repeat (split; [vm_compute; reflexivity|]). vm_compute. reflexivity.
Qed.
Example C65_ex : merge_list 8 (skipn 8 ex_bpe) [(6, 7); (8, 7)] /\ no_doubles [(6, 7); (8, 7)] /\
  map (fun rw => option_map Qred (r_emd rw)) (rows_or_none (track_merges as_is 8 (skipn 8 ex_bpe) ([[6; 7; 7; 5; 6; 7; 5]; [6; 5]], None)))
  = map (fun c => Some (Qred (emd_of c))) [[0; 0; 0; 0; 0; 3; 3; 3]; [0; 0; 0; 0; 0; 3; 1; 1; 2]; [0; 0; 0; 0; 0; 3; 1; 0; 1; 1]].
Proof.
  split; [exact (proj2 (proj2 (proj2 ex_bpe_layout)))|]. split; [|vm_compute; reflexivity].
  intros a b [E|[E|[]]]; injection E as <- <-; lia.
Qed.

(** *** C86: the row for k types and the codec with the first k types. Full statement: the mean length
    reported for k types is the mean length of the lines encoded with the first k types. It holds for the
    first row. Missing: the later rows, where it is false. *)
Theorem C86_mean_is_of_encoding_partial : forall orders n_cpus version now types meta k ps lines,
  scalars version -> scalars now -> meta_ok meta -> NoDup (map fst meta) -> ~ In (lit "max_level") (map fst meta) ->
  storable types -> starts_reserved types -> ~ has_name types [] -> (6 <= k)%nat -> bpe_layout k types ps ->
  iteration_orders orders -> 1 < n_cpus -> lines <> [] ->
  exists bytes s seqs, write_out version now types meta = (bytes, Ok tt) /\ make_scheme KBpe (firstn k types) = Ok s /\
    Forall2 (fun line ids => encode s line = Ok ids) lines seqs /\
    forall result, estimate_lens orders n_cpus bytes (lines, None) result ->
    exists rows rw, result = Ok rows /\ nth_error rows 0 = Some rw /\ r_types rw = Z.of_nat k /\
      r_mean rw = Some (average (map (fun ids => Z.of_nat (length ids)) seqs)).
Proof.
  intros orders n_cpus version now types meta k ps lines H1 H2 H3 H4 H5 H6 H7 H8 H9 H10 H11 H12 Hl.
  destruct (C84_whole_tool orders n_cpus version now types meta k ps lines H1 H2 H3 H4 H5 H6 H7 H8 H9 H10 H11 H12) as (bytes & s & seqs & A & B & C & R).
  exists bytes, s, seqs. split; [exact A|]. split; [exact B|]. split; [exact C|]. intros result Hr.
  destruct (R result Hr) as (rows & cs & E & M & L1 & L2 & X). destruct rows as [|rw rows]; [discriminate|].
  exists (rw :: rows), rw. split; [exact E|]. split; [reflexivity|].
  destruct (X O rw (once seqs) eq_refl (merging_hd _ _ _ _ M)) as (X1 & X2). rewrite Nat.add_0_r in X1. split; [exact X1|].
  rewrite (X2 Hl). unfold lengths, once. rewrite map_map. reflexivity.
Qed.
(* a learned vocabulary with the merges bc, ab, cd, and the line "abcd": the row for all 13 types says 4,
   encoding gives ab, cd and the mark *)
Theorem C86_mean_is_of_encoding_refuted : exists corpus base types k ps line seq s s' ids rows rw,
  learnable corpus base /\ learn_codes as_is corpus base 3 1 1 = Ok types /\ length base = k /\
  (k < length types)%nat /\ merge_list (Z.of_nat k) (skipn k types) ps /\
  make_scheme KBpe (firstn k types) = Ok s /\ encode s line = Ok seq /\ make_scheme KBpe types = Ok s' /\ encode s' line = Ok ids /\
  track_merges as_is k (skipn k types) ([seq], None) = Ok rows /\
  nth_error rows (length types - k) = Some rw /\ r_types rw = Z.of_nat (length types) /\
  r_mean rw = Some 4%Q /\ length ids = 3%nat.
Proof.
  exists ex_abcd_corpus, (ex_chars [97; 98; 99; 100]%N), ex_abcd, 10%nat, [(7, 8); (6, 7); (8, 9)], (lit "abcd"), [6; 7; 8; 9; 5],
    (built KBpe (firstn 10 ex_abcd)), (built KBpe ex_abcd), [11; 12; 5], ex_abcd_rows, (nth 3 ex_abcd_rows no_row).
  split; [exact ex_abcd_learnable|]. split; [vm_compute; reflexivity|]. split; [reflexivity|]. split; [vm_compute; lia|]. split; [exact ex_abcd_merges|].
  repeat (split; [vm_compute; reflexivity|]). reflexivity.
Qed.

(** *** C87: the result does not depend on the iteration order of the sets of positions. Full statement:
    track_merges gives the same rows for any two orders. It holds when no merge joins a type with itself.
    Missing: the other merges, where it is false. *)
Theorem C87_deterministic_partial : forall o1 o2 k ts ps seqs,
  iteration_orders o1 -> iteration_orders o2 -> (0 < k)%nat -> merge_list (Z.of_nat k) ts ps ->
  symbols_below (Z.of_nat k) (once seqs) -> no_doubles ps ->
  track_merges o1 k ts (seqs, None) = track_merges o2 k ts (seqs, None).
Proof. exact track_deterministic. Qed.
(* "aaaa" and the merge a a: aa aa or a aa a *)
Theorem C87_deterministic_refuted : exists o1 o2 k ts ps seqs rows1 rows2 rw1 rw2,
  iteration_orders o1 /\ iteration_orders o2 /\ (0 < k)%nat /\ merge_list (Z.of_nat k) ts ps /\ symbols_below (Z.of_nat k) (once seqs) /\
  track_merges o1 k ts (seqs, None) = Ok rows1 /\ track_merges o2 k ts (seqs, None) = Ok rows2 /\
  nth_error rows1 1 = Some rw1 /\ nth_error rows2 1 = Some rw2 /\ r_mean rw1 = Some 3%Q /\ r_mean rw2 = Some 4%Q.
Proof.
  exists as_is, swap_first, 7%nat, (skipn 7 ex_aa), [(6, 6)], [[6; 6; 6; 6; 5]],
    (ex_aaaa_rows as_is), (ex_aaaa_rows swap_first), (nth 1 (ex_aaaa_rows as_is) no_row), (nth 1 (ex_aaaa_rows swap_first) no_row).
  split; [exact as_is_order|]. split; [exact swap_first_order|]. split; [lia|]. split; [exact ex_aa_merges|]. split; [below_tac|].
  repeat (split; [vm_compute; reflexivity|]). vm_compute. reflexivity.
Qed.

Print Assumptions C84_lengths_exact.
Print Assumptions C84_whole_tool.
Print Assumptions C85_mean_never_grows.
Print Assumptions C65_counts_exact_partial.
Print Assumptions C65_error.
Print Assumptions C65_counts_exact_refuted.
Print Assumptions C86_mean_is_of_encoding_partial.
Print Assumptions C86_mean_is_of_encoding_refuted.
Print Assumptions C87_deterministic_partial.
Print Assumptions C87_deterministic_refuted.
