(** Property theorems about BatchIterable from stored data to batches (C98-C102). *)
From Coq Require Import Strings.String.
From Verif Require Import Py PyLemmas PyStr NumpyModel JsonProofs DbModel DbSpec BatchModel BatchSpec MultipartModel MultipartSpec BatchIterModel BatchIterSpec BatchIterProofs.
From Coq Require Import Permutation Sorting.Sorted Lia.
Local Open Scope Z_scope.
Local Open Scope list_scope.

(** *** C98: reading in order. The records come in some order [recs']; those with an empty side are
    left out. A record that is too long ends the iteration, and loses the open batch. *)
Theorem C98_each_record_once : forall nx ny recs size n is_path bs bm sd bf sort_by keep it c,
  pairs_ok nx ny recs -> stored nx ny recs size n -> fair c -> sane_meta bm -> sents_ok (snd (limits bs)) ->
  (forall r, In r recs -> usable r -> wanted bm r) -> strategy_of sort_by = Ok ReadAll -> open_iterable n is_path bs bm sd bf sort_by keep = Ok it ->
  num_items it = Z.of_nat (List.length recs) /\
  exists recs', Permutation recs recs' /\
  ((forall r, In r recs -> usable r -> longest r <= fst (limits bs)) ->
   exists groups out, iterate it c = (out, None) /\ Forall2 (shows bm sd bf) groups out /\ concat groups = filter used recs' /\
     forall g, In g groups -> in_limits (fst (limits bs)) (snd (limits bs)) g) /\
  ((exists r, In r recs /\ usable r /\ fst (limits bs) < longest r) ->
   exists groups out r lost rest, iterate it c = (out, Some OtherError) /\ Forall2 (shows bm sd bf) groups out /\
     filter used recs' = concat groups ++ lost ++ r :: rest /\ fst (limits bs) < longest r /\
     forall g, In g groups -> in_limits (fst (limits bs)) (snd (limits bs)) g).
Proof. exact iterate_in_order. Qed.
Theorem C98_used_means : forall r, used r = true <-> usable r.
Proof. exact used_usable. Qed.

Definition bi_recs : list rec := [(7, [[5; 6]; [7]]); (3, [[]; [8]]); (9, [[8]; [9; 9; 9]]); (4, [[6]; [6]])].
Definition bi_world : world := MkWorld (fun l => l) (@rev str) (fun _ => 77).
Definition bi_files : list (str * content) :=
  match now (mdb_create bi_world [lit "x"; lit "y"] false 3 2 (bi_recs, None) None) with Some fs => fs | None => [] end.
Definition bi_db : db := match db_create [lit "x"; lit "y"] bi_recs with Ok p => p | Raise _ => MkDb [] [] [] 0 end.
Fixpoint insert_len (r : Z * Z) (l : list (Z * Z)) : list (Z * Z) :=
  match l with [] => [r] | q :: l' => if snd r <=? snd q then r :: l else q :: insert_len r l' end.
Definition bi_chances : chances := MkChances (fun l => l) (fun p => db_ids p) (fold_right insert_len []) (fun l => l).
Definition bi_meta : meta := def_meta 0 1 2.
Lemma insert_len_perm r l : Permutation (r :: l) (insert_len r l).
Proof. induction l as [|q l IH]; cbn; [apply Permutation_refl|]. destruct (snd r <=? snd q); [apply Permutation_refl|]. eapply perm_trans; [apply perm_swap|]. apply perm_skip, IH. Qed.
Lemma insert_len_sorted r l : StronglySorted (fun a b => snd a <= snd b) l -> StronglySorted (fun a b => snd a <= snd b) (insert_len r l).
Proof.
  induction 1 as [|q l Hs IH Hq]; cbn; [repeat constructor|]. destruct (snd r <=? snd q) eqn:E.
  - apply Z.leb_le in E. constructor; [constructor; assumption|]. constructor; [exact E|]. eapply Forall_impl; [|exact Hq]. intros a Ha. cbn in Ha. lia.
  - apply Z.leb_gt in E. constructor; [exact IH|]. apply Forall_forall. intros a Ha. apply (Permutation_in _ (Permutation_sym (insert_len_perm r l))) in Ha. destruct Ha as [<-|Ha]; [lia|]. rewrite Forall_forall in Hq. apply Hq, Ha.
Qed.
Example bi_fair : fair bi_chances.
Proof.
  split; [intros l; apply Permutation_refl|]. split; [intros p; apply Permutation_refl|]. split; [|intros l; apply Permutation_refl]. intros l. cbn [arranged bi_chances]. induction l as [|r l [IH1 IH2]]; cbn [fold_right]; [split; constructor|]. split.
  - eapply perm_trans; [apply perm_skip, IH1|apply insert_len_perm].
  - apply insert_len_sorted, IH2.
Qed.
Example bi_pairs : pairs_ok (lit "x") (lit "y") bi_recs.
Proof.
  assert (Hv : forall v, In v [5; 6; 8; 7; 9; 2] -> - 2 ^ 53 <= v <= 2 ^ 53) by (intros v H; cbn in H; lia).
  split; [discriminate|]. split; [cbn; repeat constructor; cbn; intuition lia|]. split; [cbn; repeat constructor; cbn; intuition discriminate|]. split; [repeat constructor|]. split; [repeat constructor|].
  split; [intros r [<-|[<-|[<-|[<-|[]]]]]; reflexivity|]. split.
  - intros [|[|j]] Hj; [| |lia]; apply Forall_forall; intros v Hin; cbn in Hin; apply Hv; cbn; tauto.
  - intros [|[|j]] Hj; [| |lia]; vm_compute; reflexivity.
Qed.
Example bi_stored : stored (lit "x") (lit "y") bi_recs (Some 2) (DirAt bi_files) /\ stored (lit "x") (lit "y") bi_recs None (FileAt (Pickle bi_db)).
Proof.
  split; [|constructor; vm_compute; reflexivity]. apply (stored_dir _ _ _ bi_world false 3 2 None); [split; intros l; [apply Permutation_refl|apply Permutation_rev]|lia|left; reflexivity|vm_compute; reflexivity].
Qed.
Example bi_wanted : sane_meta bi_meta /\ forall r, In r bi_recs -> usable r -> wanted bi_meta r /\ longest r <= 6.
Proof.
  split; [unfold sane_meta, int32; cbn; lia|]. assert (Ha : forall l, l <> [] -> Forall (fun v => 3 <= v) l -> acceptable false 1 true 2 l).
  { intros l Hl Hf. split; [exact Hl|]. split; [|discriminate]. intros _ (t & ->). inversion Hf. lia. }
  assert (Hb : forall id x y, x <> [] -> y <> [] -> Forall (fun v => 3 <= v) x -> Forall (fun v => 3 <= v) y -> wanted bi_meta (id, [x; y])) by (intros id x y Hx Hy Fx Fy; split; apply Ha; assumption).
  intros r [<-|[<-|[<-|[<-|[]]]]] Hu; [|exfalso; apply (Hu []); [left; reflexivity|reflexivity]| |]; (split; [apply Hb; [discriminate|discriminate| |]; repeat (constructor; [lia|]); constructor|vm_compute; discriminate]).
Qed.
Definition summary (s : stream batch) : list (list Z * list (list Z)) * option exn := (map (fun b => (ba_ids b, s_seqs (ba_x b))) (fst s), snd s).
Definition opened (n : node) (bs : batch_size) (sort_by : option str) : iterable :=
  match open_iterable n true bs bi_meta false true sort_by false with Ok it => it | Raise _ => MkIter (OneDb bi_db) bi_meta 0 None false true ReadAll end.
Example C98_ex :
  (exists it, open_iterable (DirAt bi_files) true (Toks 6) bi_meta false true None false = Ok it /\
     num_items it = 4 /\ summary (iterate it bi_chances) = ([([9; 4], [[8; 2]; [6; 2]]); ([7], [[5; 6; 2]])], None)) /\
  (exists it, open_iterable (FileAt (Pickle bi_db)) true (ToksSents 6 1) bi_meta false true None false = Ok it /\
     summary (iterate it bi_chances) = ([([7], [[5; 6; 2]]); ([9], [[8; 2]]); ([4], [[6; 2]])], None)) /\
  (exists it, open_iterable (FileAt (Pickle bi_db)) true (Toks 2) bi_meta false true None false = Ok it /\
     summary (iterate it bi_chances) = ([], Some OtherError)).
Proof.
  split; [exists (opened (DirAt bi_files) (Toks 6) None)|split; [exists (opened (FileAt (Pickle bi_db)) (ToksSents 6 1) None)|exists (opened (FileAt (Pickle bi_db)) (Toks 2) None)]]; vm_compute; repeat split.
Qed.

(** *** C99: false: with sort_by='eq_len_rand_batch' a part without a usable record ends the iteration with
    an exception, and a batch may hold one sentence more than max_sents. *)
Theorem C99_eq_len_partial : forall nx ny recs size n is_path bs bm sd bf sort_by keep it c,
  pairs_ok nx ny recs -> stored nx ny recs size n -> fair c -> sane_meta bm -> match snd (limits bs) with Some m => 0 <= m | None => True end ->
  (forall r, In r recs -> usable r -> wanted bm r) -> strategy_of sort_by = Ok EqLen -> open_iterable n is_path bs bm sd bf sort_by keep = Ok it ->
  exists parts, parts_of size recs parts /\
  ((forall part, In part parts -> exists r, In r part /\ usable r) -> (forall r, In r recs -> usable r -> longest r <= fst (limits bs)) ->
   exists groups out, iterate it c = (out, None) /\ Forall2 (shows bm sd bf) groups out /\
     (forall g, In g groups -> in_budget (fst (limits bs)) g /\ match snd (limits bs) with Some m => Z.of_nat (List.length g) <= m + 1 | None => True end /\
        exists part, In part parts /\ incl g part) /\
     Permutation (concat groups) (filter used recs)) /\
  ((exists part, In part parts /\ forall r, In r part -> ~ usable r) \/ (exists r, In r recs /\ usable r /\ fst (limits bs) < longest r) ->
   exists out e, iterate it c = (out, Some e)).
Proof. exact iterate_eq_len. Qed.
Definition bi_gap : list rec := [(1, [[5]; [6]]); (2, [[]; [6]])].
Definition bi_gap_files : list (str * content) :=
  match now (mdb_create bi_world [lit "x"; lit "y"] false 3 1 (bi_gap, None) None) with Some fs => fs | None => [] end.
Theorem C99_eq_len_refuted : exists recs files it bs, pairs_ok (lit "x") (lit "y") recs /\ stored (lit "x") (lit "y") recs (Some 1) (DirAt files) /\
  (forall r, In r recs -> usable r -> wanted bi_meta r /\ longest r <= 100) /\ (exists r, In r recs /\ usable r) /\
  open_iterable (DirAt files) true (Toks 100) bi_meta false true (Some EQ_LEN) false = Ok it /\ iterate it bi_chances = (bs, Some IndexError).
Proof.
  exists bi_gap, bi_gap_files, (opened (DirAt bi_gap_files) (Toks 100) (Some EQ_LEN)), (fst (iterate (opened (DirAt bi_gap_files) (Toks 100) (Some EQ_LEN)) bi_chances)).
  assert (Hv : forall v, In v [5; 6] -> - 2 ^ 53 <= v <= 2 ^ 53) by (intros v H; cbn in H; lia).
  split; [|split; [|split; [|split; [|split]]]].
  - split; [discriminate|]. split; [cbn; repeat constructor; cbn; intuition lia|]. split; [cbn; repeat constructor; cbn; intuition discriminate|]. split; [repeat constructor|]. split; [repeat constructor|].
    split; [intros r [<-|[<-|[]]]; reflexivity|]. split.
    + intros [|[|j]] Hj; [| |lia]; apply Forall_forall; intros v Hin; cbn in Hin; apply Hv; cbn; tauto.
    + intros [|[|j]] Hj; [| |lia]; vm_compute; reflexivity.
  - apply (stored_dir _ _ _ bi_world false 3 1 None); [split; intros l; [apply Permutation_refl|apply Permutation_rev]|lia|left; reflexivity|vm_compute; reflexivity].
  - assert (Ha : forall v, 3 <= v -> acceptable false 1 true 2 [v]) by (intros v Hv3; split; [discriminate|]; split; [|discriminate]; intros _ (t & E); injection E as E _; lia).
    intros r [<-|[<-|[]]] Hu; [|exfalso; apply (Hu []); [left; reflexivity|reflexivity]]. split; [split; apply Ha; lia|vm_compute; discriminate].
  - exists (1, [[5]; [6]]). split; [left; reflexivity|]. intros c [<-|[<-|[]]]; discriminate.
  - vm_compute. reflexivity.
  - vm_compute. reflexivity.
Qed.
Example C99_ex : exists it, open_iterable (DirAt bi_files) true (ToksSents 6 1) bi_meta true true (Some EQ_LEN) true = Ok it /\
  summary (iterate it bi_chances) = ([([4; 9], [[6; 2]; [8; 2]]); ([7], [[5; 6; 2]])], None).
Proof.
  exists (match open_iterable (DirAt bi_files) true (ToksSents 6 1) bi_meta true true (Some EQ_LEN) true with Ok it => it | Raise _ => opened Missing (Toks 1) None end). vm_compute. repeat split.
Qed.
Example C99_ex_parts : parts_of (Some 2) bi_recs [[(7, [[5; 6]; [7]]); (3, [[]; [8]])]; [(9, [[8]; [9; 9; 9]]); (4, [[6]; [6]])]] /\
  (forall part, In part [[(7, [[5; 6]; [7]]); (3, [[]; [8]])]; [(9, [[8]; [9; 9; 9]]); (4, [[6]; [6]])]] -> exists r, In r part /\ usable r).
Proof.
  split.
  - split; [reflexivity|]. split; [intros c [<-|[<-|[]]]; (split; [discriminate|cbn; lia])|]. intros [|b1 [|b2 before]] c after E Ha; try (injection E as <- E); try reflexivity; cbn in E; try discriminate; try (injection E as _ E); subst; try contradiction; try (destruct before; discriminate).
  - intros part [<-|[<-|[]]]; [exists (7, [[5; 6]; [7]])|exists (4, [[6]; [6]])]; (split; [cbn; auto|]); intros c [<-|[<-|[]]]; discriminate.
Qed.

(** *** C100: false for a directory given as a str, though a str is meant to be accepted *)
Theorem C100_open_partial : forall nx ny recs size n is_path bs bm sd bf sort_by keep, pairs_ok nx ny recs -> stored nx ny recs size n ->
  In sort_by [None; Some EQ_LEN; Some RANDOM] ->
  ((exists it, open_iterable n is_path bs bm sd bf sort_by keep = Ok it) <-> is_path = true \/ size = None) /\
  (is_path = false -> size <> None -> open_iterable n is_path bs bm sd bf sort_by keep = Raise AttributeError).
Proof. exact open_stored. Qed.
Theorem C100_open_refuted : exists recs files, pairs_ok (lit "x") (lit "y") recs /\ stored (lit "x") (lit "y") recs (Some 2) (DirAt files) /\
  open_iterable (DirAt files) false (Toks 6) bi_meta false true None false = Raise AttributeError.
Proof. exists bi_recs, bi_files. split; [exact bi_pairs|]. split; [exact (proj1 bi_stored)|]. reflexivity. Qed.
Theorem C100_refused : forall n is_path bs bm sd bf sort_by keep,
  open_iterable Missing is_path bs bm sd bf sort_by keep = Raise AssertionError /\
  (~ In sort_by [None; Some EQ_LEN; Some RANDOM] -> open_iterable n is_path bs bm sd bf sort_by keep = Raise AssertionError).
Proof.
  intros n is_path bs bm sd bf sort_by keep. unfold open_iterable. destruct (limits bs) as [t s]. split.
  - destruct sort_by as [b|]; [|reflexivity]. cbn [strategy_of]. destruct (str_eqb b EQ_LEN); [reflexivity|]. destruct (str_eqb b RANDOM); reflexivity.
  - intros H. destruct sort_by as [b|]; [|exfalso; apply H; left; reflexivity]. cbn [strategy_of].
    destruct (str_eqb b EQ_LEN) eqn:E1; [apply str_eqb_eq in E1; subst b; exfalso; apply H; right; left; reflexivity|].
    destruct (str_eqb b RANDOM) eqn:E2; [apply str_eqb_eq in E2; subst b; exfalso; apply H; right; right; left; reflexivity|]. reflexivity.
Qed.
(* A file that is no whole pickle of a Db, and a path that is neither file nor directory, are refused. *)
Theorem C100_damaged : forall n is_path bs bm sd bf sort_by keep it,
  open_iterable n is_path bs bm sd bf sort_by keep = Ok it ->
  (exists d, n = FileAt (Pickle d) /\ it_data it = OneDb d) \/ (exists files m, n = DirAt files /\ is_path = true /\ it_data it = Parts files m).
Proof.
  intros n is_path bs bm sd bf sort_by keep it. unfold open_iterable. destruct (limits bs) as [t s].
  destruct (strategy_of sort_by) as [how|]; [|discriminate]. cbn [bind]. destruct n as [|[]| |]; try discriminate; try (destruct is_path; discriminate).
  - intros [= <-]. left. eexists. split; reflexivity.
  - destruct is_path; [|discriminate]. destruct (mdb_load _ _ _ _) as [m|]; [|discriminate]. intros [= <-]. right. do 2 eexists. repeat split; reflexivity.
Qed.

(** *** C101: false: sort_by='random' is accepted and does what None does; chance has no part in it *)
Theorem C101_random_refuted : forall n is_path bs bm sd bf keep it it',
  open_iterable n is_path bs bm sd bf (Some RANDOM) keep = Ok it -> open_iterable n is_path bs bm sd bf None keep = Ok it' ->
  it = it' /\ forall c c', ids_order c = ids_order c' -> iterate it c = iterate it' c'.
Proof. exact iterate_random_is_none. Qed.
Theorem C101_random_partial : forall nx ny recs size n is_path bs bm sd bf keep it c,
  pairs_ok nx ny recs -> stored nx ny recs size n -> fair c -> sane_meta bm -> sents_ok (snd (limits bs)) ->
  (forall r, In r recs -> usable r -> wanted bm r) -> (forall r, In r recs -> usable r -> longest r <= fst (limits bs)) ->
  open_iterable n is_path bs bm sd bf (Some RANDOM) keep = Ok it ->
  exists groups out, iterate it c = (out, None) /\ Forall2 (shows bm sd bf) groups out /\ Permutation (concat groups) (filter used recs).
Proof. exact iterate_random. Qed.
Example C101_ex : exists it, open_iterable (DirAt bi_files) true (Toks 6) bi_meta false true (Some RANDOM) false = Ok it /\
  summary (iterate it bi_chances) = ([([9; 4], [[8; 2]; [6; 2]]); ([7], [[5; 6; 2]])], None).
Proof. exists (opened (DirAt bi_files) (Toks 6) (Some RANDOM)). vm_compute. repeat split. Qed.

(** *** C102: for any directory, whatever is in its files *)
Theorem C102_lost_part : forall files is_path bs bm sd bf sort_by keep it m c name e, fair c ->
  open_iterable (DirAt files) is_path bs bm sd bf sort_by keep = Ok it -> it_data it = Parts files m -> In name (m_parts m) ->
  db_load (Some files) name = Raise e -> exists out e', iterate it c = (out, Some e').
Proof. exact iterate_lost_part. Qed.
Definition bi_damaged : list (str * content) := dset str_eqb (lit "part-000") Incomplete bi_files.
Example C102_ex : exists it m, open_iterable (DirAt bi_damaged) true (Toks 6) bi_meta false true None false = Ok it /\ it_data it = Parts bi_damaged m /\
  In (lit "part-000") (m_parts m) /\ db_load (Some bi_damaged) (lit "part-000") = Raise OtherError /\
  summary (iterate it bi_chances) = ([], Some OtherError) /\
  open_iterable (DirAt bi_damaged) true (Toks 6) bi_meta false true None true = Raise OtherError.
Proof.
  exists (opened (DirAt bi_damaged) (Toks 6) None), (match it_data (opened (DirAt bi_damaged) (Toks 6) None) with Parts _ m => m | OneDb _ => MkMdb [] [] 0 0 false false [] end).
  vm_compute. repeat split; auto.
Qed.

Print Assumptions C98_each_record_once.
Print Assumptions C98_used_means.
Print Assumptions C99_eq_len_partial.
Print Assumptions C99_eq_len_refuted.
Print Assumptions C100_open_partial.
Print Assumptions C100_open_refuted.
Print Assumptions C100_refused.
Print Assumptions C100_damaged.
Print Assumptions C101_random_refuted.
Print Assumptions C101_random_partial.
Print Assumptions C102_lost_part.
