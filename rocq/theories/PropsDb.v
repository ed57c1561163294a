(** Property theorems about stored sequences, databases and equal-length batches (C37-C45). *)
From Coq Require Import Strings.String.
From Verif Require Import Py NumpyModel NumpyProofs DbModel DbSpec DbProofs PackLemmas DbBatchProofs.
From Coq Require Import Permutation Sorting.Sorted Lia.
Local Open Scope Z_scope.
Local Open Scope list_scope.

(** *** C37 *)
Theorem C37_best_dtype_minimal : forall mn mx d, mn <= mx -> best_dtype mn mx = Ok d ->
  is_integer_type d /\ can_hold d mn /\ can_hold d mx /\
  (forall d', is_integer_type d' -> can_hold d' mn -> can_hold d' mx -> width d <= width d') /\
  (is_signed d -> mn < 0).
Proof. exact best_dtype_minimal. Qed.
Theorem C37_best_dtype_fails : forall mn mx, mn <= mx ->
  (best_dtype mn mx = Raise AssertionError <-> mn < - 2 ^ 63 \/ 2 ^ 64 <= mx \/ (mn < 0 /\ 2 ^ 63 <= mx)).
Proof. exact best_dtype_none_explicit. Qed.
Theorem C37_best_dtype_only_failure : forall mn mx,
  best_dtype mn mx = Raise AssertionError \/ (exists d, best_dtype mn mx = Ok d).
Proof. exact best_dtype_total. Qed.
Example C37_ex : best_dtype 0 255 = Ok U8 /\ best_dtype (-1) 127 = Ok I8 /\ best_dtype (-1) 128 = Ok I16 /\ best_dtype 0 (2 ^ 64 - 1) = Ok U64 /\
  best_dtype (-1) (2 ^ 63) = Raise AssertionError.
Proof. vm_compute. repeat split. Qed.

(** *** C38: [buf] is the size at which the buffer is compacted, None for the default. *)
Theorem C38_field_reads_back : forall name buf recs,
  faithful (all_values recs) -> fits_memory (all_values recs) -> recs <> [] -> NoDup (map fst recs) ->
  exists f, field_create name buf recs = Ok f /\ field_len f = Z.of_nat (length recs) /\
    (forall id arr, In (id, arr) recs -> get_len f id = Ok (Z.of_nat (length arr)) /\
       exists a, get_item f id = Ok a /\ a_vals a = arr /\
         (Forall (fun v => v < 2 ^ 32) (all_values recs) -> is_integer_type (a_type a))) /\
    (forall id, ~ In id (map fst recs) -> get_item f id = Raise KeyError /\ get_len f id = Raise KeyError).
Proof. exact field_reads_back. Qed.
Definition ex_recs : list (Z * list Z) := [(7, [1; 300; 2]); (3, []); (5, [70000; 1]); (1, [4])].
Example C38_ex_hyp : faithful (all_values ex_recs) /\ fits_memory (all_values ex_recs) /\ ex_recs <> [] /\ NoDup (map fst ex_recs).
Proof.
  split; [left|split; [|split; [discriminate|]]].
  - cbn. repeat (apply Forall_cons; [lia|]). apply Forall_nil.
  - unfold fits_memory. cbn. lia.
  - repeat constructor; cbn; intuition discriminate.
Qed.
(* compacting after every record, after two values, and only at the end: three different internal types *)
Example C38_ex : forall buf, In buf [Some 1; Some 2; None] ->
  match field_create (lit "x") buf ex_recs with
  | Ok f => map (fun id => match get_item f id with Ok a => a_vals a | Raise _ => [-1] end) [7; 3; 5; 1] = [[1; 300; 2]; []; [70000; 1]; [4]]
  | Raise _ => False
  end.
Proof. intros buf [<-|[<-|[<-|[]]]]; vm_compute; reflexivity. Qed.

(** *** C39: false: a stored value above 2^53 may come back rounded *)
Theorem C39_large_values_partial : forall name buf recs,
  in_range (all_values recs) -> fits_memory (all_values recs) -> recs <> [] -> NoDup (map fst recs) ->
  exists f, field_create name buf recs = Ok f /\
    ((forall id arr, In (id, arr) recs -> exists a, get_item f id = Ok a /\ is_integer_type (a_type a) /\ a_vals a = arr) \/
     (forall id arr, In (id, arr) recs -> exists a, get_item f id = Ok a /\ a_type a = F64 /\ a_vals a = map round53 arr)).
Proof. exact field_reads_rounded. Qed.
(** rounding to 53 bits changes nothing up to 2^53 *)
Theorem C39_rounding_exact : forall v, - 2 ^ 53 <= v <= 2 ^ 53 -> round53 v = v.
Proof. exact round53_small. Qed.
Theorem C39_large_values_refuted : exists recs f a,
  Forall (fun v => 0 <= v < 2 ^ 64) (all_values recs) /\ NoDup (map fst recs) /\ field_create (lit "x") None recs = Ok f /\
  In (0, [9007199254740993]) recs /\ get_item f 0 = Ok a /\ a_type a = F64 /\ a_vals a = [9007199254740992].
Proof.
  exists [(0, [9007199254740993])].
  exists (match field_create (lit "x") None [(0, [9007199254740993])] with Ok f => f | Raise _ => MkField [] [] U8 [] (MkArr U8 []) end).
  exists (MkArr F64 [9007199254740992]). split; [cbn; apply Forall_cons; [lia|apply Forall_nil]|].
  split; [repeat constructor; intros []|]. split; [vm_compute; reflexivity|]. split; [left; reflexivity|]. split; [vm_compute; reflexivity|]. split; reflexivity.
Qed.

(** *** C40 *)
Theorem C40_offsets_never_wrap : forall name buf recs f,
  in_range (all_values recs) -> fits_memory (all_values recs) -> field_create name buf recs = Ok f ->
  forall id, In id (map fst recs) -> exists start len, ref_of f id = Ok (start, len) /\
    can_hold (f_refs_type f) start /\ can_hold (f_refs_type f) (start + len) /\ 0 <= start /\ 0 <= len /\ start + len <= a_len (f_data f) /\
    cast (f_refs_type f) (start + len) = start + len.
Proof. exact field_offsets. Qed.
Example C40_ex :
  match field_create (lit "x") None [(0, List.repeat 5 200); (1, List.repeat 6 55)] with
  | Ok f => f_refs_type f = U8 /\ ref_of f 1 = Ok (200, 55) /\ cast U8 (200 + 55) = 255
  | Raise _ => False
  end.
Proof. vm_compute. repeat split. Qed.
Example C40_ex_wider :
  match field_create (lit "x") None [(0, List.repeat 5 200); (1, List.repeat 6 56)] with
  | Ok f => f_refs_type f = U16 /\ cast U8 (200 + 56) = 0
  | Raise _ => False
  end.
Proof. vm_compute. repeat split. Qed.

(** *** C41 *)
Theorem C41_field_refused : forall name buf recs, in_range (all_values recs) -> fits_memory (all_values recs) ->
  ((exists f, field_create name buf recs = Ok f) <-> recs <> [] /\ NoDup (map fst recs)) /\
  (recs = [] \/ ~ NoDup (map fst recs) -> field_create name buf recs = Raise AssertionError).
Proof. exact field_refused. Qed.
Theorem C41_db_refused : forall names recs, NoDup names -> names <> [] -> well_shaped (length names) recs ->
  columns_ok in_range (length names) recs -> columns_ok fits_memory (length names) recs ->
  ((exists d, db_create names recs = Ok d) <-> recs <> [] /\ NoDup (map fst recs)) /\
  (recs = [] \/ ~ NoDup (map fst recs) -> db_create names recs = Raise AssertionError).
Proof. exact db_refused. Qed.
Example C41_ex : field_create (lit "x") None [(1, [2]); (4, []); (1, [3])] = Raise AssertionError /\ db_create [lit "x"; lit "y"] [] = Raise AssertionError.
Proof. vm_compute. repeat split. Qed.

(** *** C42: [order] is the order in which the set of ids is iterated *)
Theorem C42_db_round_trip : forall names recs,
  NoDup (lit "id" :: names) -> names <> [] -> well_shaped (length names) recs ->
  columns_ok faithful (length names) recs -> columns_ok fits_memory (length names) recs -> recs <> [] -> NoDup (map fst recs) ->
  exists d, db_create names recs = Ok d /\ db_len d = Z.of_nat (length recs) /\ Permutation (db_ids d) (map fst recs) /\
    (forall r, In r recs -> exists got, db_get d (fst r) = Ok got /\ same_record r got) /\
    (forall id, ~ In id (map fst recs) -> db_get d id = Raise KeyError) /\
    (forall order, Permutation order (db_ids d) ->
       exists out recs', db_iter false order d = Ok out /\ Permutation recs recs' /\ Forall2 same_record recs' out).
Proof. exact db_round_trip. Qed.
(** Generated ids count from 0. *)
Theorem C42_auto_ids : forall names recs, db_create_auto names recs = db_create names (combine (map Z.of_nat (seq 0 (length recs))) recs).
Proof. intros. unfold db_create_auto. f_equal. apply enumerate_combine. Qed.
Definition ex_db_recs : list (Z * list (list Z)) := [(2, [[1; 2; 3]; [4]]); (9, [[300]; [5; 5]]); (4, [[]; [6]]); (5, [[7; 7]; [8; 8; 8]])].
Definition ex_db : db := match db_create [lit "x"; lit "y"] ex_db_recs with Ok d => d | Raise _ => MkDb [] [] [] 0 end.
Example C42_ex_hyp : NoDup [lit "id"; lit "x"; lit "y"] /\ well_shaped 2 ex_db_recs /\ columns_ok faithful 2 ex_db_recs /\ columns_ok fits_memory 2 ex_db_recs /\ NoDup (map fst ex_db_recs).
Proof.
  split; [repeat constructor; vm_compute; intuition discriminate|]. split; [intros r Hr; repeat destruct Hr as [<-|Hr]; try reflexivity; destruct Hr|].
  split; [|split].
  - intros [|[|j]] Hj; [left|left|lia]; cbn; repeat (apply Forall_cons; [lia|]); apply Forall_nil.
  - intros [|[|j]] Hj; [| |lia]; unfold fits_memory; cbn; lia.
  - repeat constructor; cbn; intuition discriminate.
Qed.
Example C42_ex : db_create [lit "x"; lit "y"] ex_db_recs = Ok ex_db /\ db_len ex_db = 4 /\
  db_get ex_db 9 = Ok (9, [MkArr I32 [300]; MkArr I16 [5; 5]]) /\ db_get ex_db 3 = Raise KeyError.
Proof. vm_compute. repeat split. Qed.

(** *** C43: false: shuffling fails as soon as there are two records *)
Theorem C43_shuffle_partial : forall names recs d order,
  db_create names recs = Ok d -> NoDup (lit "id" :: names) -> names <> [] -> well_shaped (length names) recs ->
  columns_ok faithful (length names) recs -> columns_ok fits_memory (length names) recs -> Permutation order (db_ids d) ->
  (length recs = 1%nat -> exists out, db_iter true order d = Ok out /\ Forall2 same_record recs out) /\
  ((2 <= length recs)%nat -> db_iter true order d = Raise TypeError).
Proof. exact db_shuffle_small. Qed.
Theorem C43_shuffle_refuted : exists names recs d, db_create names recs = Ok d /\ forall order, Permutation order (db_ids d) -> db_iter true order d = Raise TypeError.
Proof.
  exists [lit "x"; lit "y"], ex_db_recs, ex_db. split; [vm_compute; reflexivity|]. intros order Hp. unfold db_iter.
  rewrite (Permutation_length Hp). vm_compute. reflexivity.
Qed.

(** *** C44: [order]: the set of ids as iterated; [arranged]: the shuffle and sort by size;
    [shuffled]: the shuffle of the batches. *)
Theorem C44_eq_len_batches : forall names recs d max_toks max_sents order arranged shuffled,
  db_create names recs = Ok d -> NoDup (lit "id" :: names) -> names <> [] -> well_shaped (length names) recs ->
  columns_ok faithful (length names) recs -> columns_ok fits_memory (length names) recs -> Permutation order (db_ids d) ->
  arranges arranged -> shuffles shuffled -> match max_sents with Some m => 0 <= m | None => True end ->
  ((forall r, In r recs -> ~ usable r) -> eq_len_ran_batches d max_toks max_sents order arranged shuffled = Raise IndexError) /\
  ((exists r, In r recs /\ usable r /\ max_toks < longest r) -> eq_len_ran_batches d max_toks max_sents order arranged shuffled = Raise OtherError) /\
  ((exists r, In r recs /\ usable r) -> (forall r, In r recs -> usable r -> longest r <= max_toks) ->
   exists batches groups out, eq_len_ran_batches d max_toks max_sents order arranged shuffled = Ok out /\
     greedy (fits_eq_len max_toks max_sents) batches /\ StronglySorted (fun a b => longest a <= longest b) (concat batches) /\
     NoDup (concat batches) /\ (forall r, In r (concat batches) <-> In r recs /\ usable r) /\
     Permutation batches groups /\ Forall2 (Forall2 same_record) groups out).
Proof. exact eq_len_batches. Qed.
Theorem C44_token_budget : forall max_toks max_sents batches,
  greedy (fits_eq_len max_toks max_sents) batches -> (forall r, In r (concat batches) -> longest r <= max_toks) ->
  match max_sents with Some m => 0 <= m | None => True end ->
  forall g, In g batches -> g <> [] /\ Z.of_nat (length g) * longest_of g <= max_toks /\
    match max_sents with Some m => Z.of_nat (length g) <= m + 1 | None => True end.
Proof. exact eq_len_bounds. Qed.
(** The packing is determined by the arrangement of the records. *)
Theorem C44_packing_unique : forall (R : Type) (fits : list R -> R -> Prop) batches batches',
  greedy fits batches -> greedy fits batches' -> concat batches = concat batches' -> batches = batches'.
Proof. exact @greedy_unique. Qed.
(* a stable sort by size *)
Definition ex_sort (l : list (Z * Z)) : list (Z * Z) := rev (sorted_desc snd (rev l)).
Example C44_ex : eq_len_batch_ids ex_db 6 None [2; 9; 4; 5] ex_sort = Ok [[9; 2]; [5]] /\
  eq_len_batch_ids ex_db 9 None [2; 9; 4; 5] ex_sort = Ok [[9; 2; 5]] /\ eq_len_batch_ids ex_db 2 None [2; 9; 4; 5] ex_sort = Raise OtherError.
Proof. vm_compute. repeat split. Qed.
Example C44_ex_arranges : arranges ex_sort.
Proof. exact sort_by_size_arranges. Qed.

(** *** C45: false: a batch may have max_sents + 1 records *)
Theorem C45_max_sents_partial : forall max_toks m batches,
  greedy (fits_eq_len max_toks (Some m)) batches -> (forall r, In r (concat batches) -> longest r <= max_toks) -> 0 <= m ->
  forall g, In g batches -> Z.of_nat (length g) <= m + 1.
Proof. intros max_toks m batches Hg Hl Hm g Hin. exact (proj2 (proj2 (eq_len_bounds max_toks (Some m) batches Hg Hl Hm g Hin))). Qed.
Theorem C45_max_sents_refuted : exists d arranged, arranges arranged /\
  eq_len_batch_ids d 100 (Some 1) [2; 9; 4; 5] arranged = Ok [[9; 2]; [5]].
Proof. exists ex_db, ex_sort. split; [exact sort_by_size_arranges|vm_compute; reflexivity]. Qed.

Print Assumptions C37_best_dtype_minimal.
Print Assumptions C37_best_dtype_fails.
Print Assumptions C37_best_dtype_only_failure.
Print Assumptions C38_field_reads_back.
Print Assumptions C39_large_values_partial.
Print Assumptions C39_rounding_exact.
Print Assumptions C39_large_values_refuted.
Print Assumptions C40_offsets_never_wrap.
Print Assumptions C41_field_refused.
Print Assumptions C41_db_refused.
Print Assumptions C42_db_round_trip.
Print Assumptions C42_auto_ids.
Print Assumptions C43_shuffle_partial.
Print Assumptions C43_shuffle_refuted.
Print Assumptions C44_eq_len_batches.
Print Assumptions C44_token_budget.
Print Assumptions C44_packing_unique.
Print Assumptions C45_max_sents_partial.
Print Assumptions C45_max_sents_refuted.
