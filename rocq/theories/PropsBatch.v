(** Property theorems about padded batches and the batch iterator (C46-C49, C75). *)
From Coq Require Import Strings.String.
From Verif Require Import Py NumpyModel DbModel DbSpec PackLemmas BatchModel BatchSpec BatchProofs PropsDb.
From Coq Require Import Permutation Sorting.Sorted Lia.
Local Open Scope Z_scope.
Local Open Scope list_scope.

(** *** C46. The generator yields the batches [bs] and then stops or raises.
    The examples are those that the data yields; max_sents is None for infinity. *)
Theorem C46_sequential_batches : forall m sort_dec bf max_toks max_sents data,
  sane_meta m -> sents_ok max_sents -> Forall (fun ex => e_y ex <> None) data ->
  (forall ex, In ex data -> example_used ex = true -> good m ex) ->
  ((forall r, In r data -> example_used r = true -> example_size r <= max_toks) ->
   exists groups bs, read_all m sort_dec bf max_toks max_sents data = (bs, None) /\ concat groups = filter example_used data /\
     greedy (fits_seq max_toks max_sents) groups /\ Forall2 (fun g b => make_batch m sort_dec bf g = Ok b) groups bs) /\
  (* the first record that is too long ends the iteration; the batch being filled is lost *)
  (forall before r after, filter example_used data = before ++ r :: after -> (forall q, In q before -> example_size q <= max_toks) -> max_toks < example_size r ->
   exists groups lost bs, read_all m sort_dec bf max_toks max_sents data = (bs, Some OtherError) /\ concat groups ++ lost = before /\
     (lost = [] -> groups = []) /\ (lost <> [] -> greedy (fits_seq max_toks max_sents) (groups ++ [lost])) /\
     Forall2 (fun g b => make_batch m sort_dec bf g = Ok b) groups bs).
Proof. exact read_all_ok. Qed.
Theorem C46_limits : forall max_toks max_sents groups, sents_ok max_sents -> greedy (fits_seq max_toks max_sents) groups ->
  (forall r, In r (concat groups) -> example_size r <= max_toks) ->
  forall g, In g groups -> g <> [] /\ Z.of_nat (length g) * max_size g <= max_toks /\ at_most (length g) max_sents.
Proof. exact fits_seq_bounds. Qed.
(** The examples that a Db yields, in the order of its ids. *)
Theorem C46_db_examples : forall nx ny recs d order,
  db_create [nx; ny] recs = Ok d -> nx <> ny -> well_shaped 2 recs -> columns_ok exact53 2 recs -> columns_ok fits_memory 2 recs ->
  Permutation order (db_ids d) ->
  exists data recs', mapM (db_example d) order = Ok data /\ Permutation recs recs' /\ Forall2 example_of recs' data.
Proof. exact db_examples. Qed.
Theorem C46_example_of_record : forall r ex, example_of r ex -> example_size ex = longest r /\ (example_used ex = true <-> usable r).
Proof. intros r ex H. split; [exact (example_of_size r ex H)|exact (example_of_used r ex H)]. Qed.
(** The equal-length batches as the iterator gets them. *)
Theorem C44_eq_len_examples : forall nx ny recs d max_toks max_sents order arranged shuffled,
  db_create [nx; ny] recs = Ok d -> nx <> ny -> well_shaped 2 recs -> columns_ok exact53 2 recs -> columns_ok fits_memory 2 recs ->
  Permutation order (db_ids d) -> arranges arranged -> shuffles shuffled -> match max_sents with Some m => 0 <= m | None => True end ->
  (exists r, In r recs /\ usable r) -> (forall r, In r recs -> usable r -> longest r <= max_toks) ->
  exists batches groups out, eq_len_examples d max_toks max_sents order arranged shuffled = Ok out /\
     greedy (fits_eq_len max_toks max_sents) batches /\ NoDup (concat batches) /\ (forall r, In r (concat batches) <-> In r recs /\ usable r) /\
     Permutation batches groups /\ Forall2 (Forall2 example_of) groups out.
Proof. exact db_eq_len_examples. Qed.

Definition ex_meta : meta := def_meta 0 1 2.                 (* pad, bos, eos; eos added on both sides *)
Definition arr (l : list Z) : array := MkArr I64 l.
Definition exa (id : Z) (x y : list Z) : example := new_example id (arr x) (Some (arr y)).
Definition ex_data : list example := [exa 10 [5; 6] [7]; exa 11 [] [7]; exa 12 [8; 2] [9; 9; 2]; exa 13 [5] [5]].
Lemma good_exa id x y : x <> [] -> y <> [] -> Forall (fun v => 2 <= v <= 100) (x ++ y) -> good ex_meta (exa id x y).
Proof.
  intros Hx Hy H. apply Forall_app in H. destruct H as [H1 H2].
  assert (Hs : forall l, Forall (fun v => 2 <= v <= 100) l -> sane (arr l)).
  { intros l Hl. split; cbn [arr a_type a_vals can_hold]; unfold exact53; eapply Forall_impl; try exact Hl; cbn; intros a Ha; lia. }
  assert (Ha : forall l, l <> [] -> Forall (fun v => 2 <= v <= 100) l -> acceptable false 1 true 2 l).
  { intros l Hl Hf. split; [exact Hl|]. split; [|discriminate]. intros _ (t & ->). inversion Hf; lia. }
  split; [split; [apply Hs, H1|apply Ha; assumption]|]. exists (arr y). split; [reflexivity|]. split; [apply Hs, H2|apply Ha; assumption].
Qed.
Example C46_ex_hyp : sane_meta ex_meta /\ Forall (fun ex => e_y ex <> None) ex_data /\
  (forall ex, In ex ex_data -> example_used ex = true -> good ex_meta ex) /\ (forall r, In r ex_data -> example_used r = true -> example_size r <= 6).
Proof.
  split; [unfold sane_meta, int32; cbn; lia|]. split; [repeat constructor; discriminate|]. split.
  - intros ex [<-|[<-|[<-|[<-|[]]]]]; try discriminate; intros _; apply good_exa; try discriminate; cbn; repeat constructor; lia.
  - intros r [<-|[<-|[<-|[<-|[]]]]]; try discriminate; intros _; vm_compute; discriminate.
Qed.
Example C46_ex :
  match read_all ex_meta false true 6 None ex_data with
  | (bs, None) => map ba_ids bs = [[10; 12]; [13]] /\ map (fun b => s_seqs (ba_x b)) bs = [[[5; 6; 2]; [8; 2; 0]]; [[5; 2]]]
  | _ => False
  end.
Proof. vm_compute. repeat split. Qed.
Example C46_ex_too_long :
  match read_all ex_meta false true 2 None ex_data with (bs, Some OtherError) => bs = [] | _ => False end.
Proof. vm_compute. reflexivity. Qed.

(** *** C47 *)
Theorem C47_batch_padding : forall m sort_dec bf exs, sane_meta m -> exs <> [] -> Forall (good_x m) exs -> Forall (good_y m) exs ->
  exists b exs' y, make_batch m sort_dec bf exs = Ok b /\ arranged_as sort_dec m exs exs' /\
    ba_len b = Z.of_nat (length exs) /\ ba_ids b = map e_id exs' /\ ba_y b = Some y /\
    padded (pad_idx m) bf (map (marked_x m) exs') (ba_x b) /\ padded (pad_idx m) bf (map (marked_y m) exs') y /\
    raw_column (map e_x_raw exs') (s_raw (ba_x b)) /\ raw_column (map e_y_raw exs') (s_raw y).
Proof.
  intros m sort_dec bf exs Hm Hne Hx Hy. destruct (make_batch_ok m sort_dec bf exs Hm Hne Hx Hy) as (b & exs' & y & H1 & H2 & H3 & H4 & H5 & H6 & H7 & H8 & H9).
  exists b, exs', y. repeat (split; [assumption|]). rewrite H8, H9. split; apply raws_column.
Qed.
Theorem C47_batch_without_y : forall m sort_dec bf exs, sane_meta m -> exs <> [] -> Forall (good_x m) exs -> Forall (fun ex => e_y ex = None) exs ->
  exists b exs', make_batch m sort_dec bf exs = Ok b /\ arranged_as sort_dec m exs exs' /\
    ba_len b = Z.of_nat (length exs) /\ ba_ids b = map e_id exs' /\ ba_y b = None /\
    padded (pad_idx m) bf (map (marked_x m) exs') (ba_x b) /\ raw_column (map e_x_raw exs') (s_raw (ba_x b)).
Proof.
  intros m sort_dec bf exs Hm Hne Hx Hy. destruct (make_batch_no_y m sort_dec bf exs Hm Hne Hx Hy) as (b & exs' & H1 & H2 & H3 & H4 & H5 & H6 & H7).
  exists b, exs'. repeat (split; [assumption|]). rewrite H7. apply raws_column.
Qed.
Theorem C47_batch_accepts : forall m sort_dec bf exs, sane_meta m ->
  Forall (fun ex => sane (e_x ex) /\ exists y, e_y ex = Some y /\ sane y) exs ->
  ((exists b, make_batch m sort_dec bf exs = Ok b) <-> exs <> [] /\ Forall (good_x m) exs /\ Forall (good_y m) exs).
Proof. exact make_batch_iff. Qed.
Example C47_ex :
  match make_batch ex_meta true false [exa 4 [5] [6; 7]; exa 5 [8; 9; 3] [6]] with
  | Ok b => ba_ids b = [5; 4] /\ s_len (ba_x b) = [4; 2] /\ s_toks (ba_x b) = 6 /\ s_seqs (ba_x b) = [[8; 5]; [9; 2]; [3; 0]; [2; 0]] /\
            option_map s_seqs (ba_y b) = Some [[6; 6]; [2; 7]; [0; 2]]
  | Raise _ => False
  end.
Proof. vm_compute. repeat split. Qed.
Example C47_ex_good : Forall (good ex_meta) [exa 4 [5] [6; 7]; exa 5 [8; 9; 3] [6]].
Proof. repeat apply Forall_cons; try apply Forall_nil; apply good_exa; try discriminate; cbn; repeat constructor; lia. Qed.

(** *** C48 *)
Theorem C48_markers_added : forall m bos eos q, sane_meta m -> sane q -> acceptable bos (bos_idx m) eos (eos_idx m) (a_vals q) ->
  exists q', check_seq m bos eos q = Ok q' /\ sane q' /\ a_vals q' = marked bos (bos_idx m) eos (eos_idx m) (a_vals q).
Proof. exact check_seq_ok. Qed.
Theorem C48_marked_means : forall bos b eos e s, s <> [] -> exists pre post, marked bos b eos e s = pre ++ s ++ post /\
  (pre = [] \/ (pre = [b] /\ bos = true /\ ~ starts_with b s)) /\ (post = [] \/ (post = [e] /\ eos = true /\ ~ ends_with e s)) /\
  (bos = true -> starts_with b (marked bos b eos e s)) /\ (eos = true -> ends_with e (marked bos b eos e s)) /\
  (bos = false -> pre = []) /\ (eos = false -> post = []).
Proof. exact marked_shape. Qed.
Theorem C48_idempotent : forall m bos eos q q', sane_meta m -> sane q -> check_seq m bos eos q = Ok q' -> check_seq m bos eos q' = Ok q'.
Proof. exact check_again. Qed.
Theorem C48_refuses_marker : forall m bos eos q, sane_meta m -> sane q -> a_vals q <> [] ->
  ~ acceptable bos (bos_idx m) eos (eos_idx m) (a_vals q) -> check_seq m bos eos q = Raise AssertionError.
Proof. exact check_seq_fail. Qed.
Theorem C48_empty_sequence : forall m bos eos q, a_vals q = [] -> check_seq m bos eos q = Raise IndexError.
Proof. exact check_seq_empty. Qed.
Example C48_ex : let m := MkMeta 0 1 2 true true true true in
  check_seq m true true (arr [7; 8]) = Ok (arr [1; 7; 8; 2]) /\ check_seq m true true (arr [1; 8]) = Ok (arr [1; 8; 2]) /\
  check_seq m true true (arr [1; 7; 8; 2]) = Ok (arr [1; 7; 8; 2]) /\ check_seq m false true (arr [1; 8]) = Raise AssertionError /\
  check_seq m true true (MkArr U8 [7]) = Ok (MkArr I32 [1; 7; 2]).
Proof. vm_compute. repeat split. Qed.

(** *** C49: false: the markers are added after the budget was checked *)
Theorem C49_budget_partial : forall m sort_dec bf max_toks g b, sane_meta m -> Forall (good m) g -> make_batch m sort_dec bf g = Ok b ->
  Z.of_nat (length g) * max_size g <= max_toks ->
  exists y, ba_y b = Some y /\ ba_len b = Z.of_nat (length g) /\
    ba_len b * s_max (ba_x b) <= max_toks + ba_len b * marks (add_bos_x m) (add_eos_x m) /\
    ba_len b * s_max y <= max_toks + ba_len b * marks (add_bos_y m) (add_eos_y m) /\
    (Forall (fun ex => marked_x m ex = a_vals (e_x ex)) g -> ba_len b * s_max (ba_x b) <= max_toks) /\
    (Forall (fun ex => marked_y m ex = y_vals ex) g -> ba_len b * s_max y <= max_toks).
Proof. exact padded_budget. Qed.
Theorem C49_budget_refuted : exists data bs b, read_all ex_meta false true 4 None data = (bs, None) /\ In b bs /\
  s_seqs (ba_x b) = [[5; 6; 2]; [7; 8; 2]] /\ (4 < List.length (concat (s_seqs (ba_x b))))%nat.
Proof.
  exists [exa 0 [5; 6] [5]; exa 1 [7; 8] [5]].
  exists (fst (read_all ex_meta false true 4 None [exa 0 [5; 6] [5]; exa 1 [7; 8] [5]])).
  exists (hd (MkBatch 0 [] (MkSide [] 0 0 [] None) None) (fst (read_all ex_meta false true 4 None [exa 0 [5; 6] [5]; exa 1 [7; 8] [5]]))).
  split; [vm_compute; reflexivity|]. split; [vm_compute; left; reflexivity|]. split; [vm_compute; reflexivity|]. vm_compute. lia.
Qed.

(** *** C75: num_batches; false in general, a lower bound when no record is skipped *)
Theorem C75_num_batches_partial : forall max_toks max_sents groups, sents_ok max_sents -> greedy (fits_seq max_toks max_sents) groups -> 0 < max_toks ->
  (forall r, In r (concat groups) -> 1 <= example_size r <= max_toks) ->
  exists n, num_batches (Z.of_nat (length (concat groups))) max_toks = Ok n /\ n <= Z.of_nat (length groups).
Proof. exact num_batches_lower. Qed.
Theorem C75_num_batches_refuted : exists data bs, read_all ex_meta false true 4 None data = (bs, None) /\
  num_batches (Z.of_nat (length data)) 4 = Ok 1 /\ length bs = 3%nat.
Proof.
  exists [exa 0 [5; 6; 7] [5]; exa 1 [7; 8; 9] [5]; exa 2 [7; 8; 9] [5]].
  exists (fst (read_all ex_meta false true 4 None [exa 0 [5; 6; 7] [5]; exa 1 [7; 8; 9] [5]; exa 2 [7; 8; 9] [5]])).
  vm_compute. repeat split.
Qed.

Print Assumptions C46_sequential_batches.
Print Assumptions C46_limits.
Print Assumptions C46_db_examples.
Print Assumptions C46_example_of_record.
Print Assumptions C44_eq_len_examples.
Print Assumptions C47_batch_padding.
Print Assumptions C47_batch_without_y.
Print Assumptions C47_batch_accepts.
Print Assumptions C48_markers_added.
Print Assumptions C48_marked_means.
Print Assumptions C48_idempotent.
Print Assumptions C48_refuses_marker.
Print Assumptions C48_empty_sequence.
Print Assumptions C49_budget_partial.
Print Assumptions C49_budget_refuted.
Print Assumptions C75_num_batches_partial.
Print Assumptions C75_num_batches_refuted.
