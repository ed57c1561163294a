(** C134: from parallel text to the batches of a training run, through the stored data. *)
From Coq Require Import Strings.String Permutation.
From Verif Require Import Py PyStr CodecModel VocabFileModel JsonProofs NumpyModel DbModel DbSpec BatchModel BatchSpec MultipartModel MultipartSpec BitextModel BitextSpec
     BatchIterModel BatchIterSpec TrainProofs PropsBitext PropsBatchIter.
From Coq Require Import Lia.
Local Open Scope Z_scope.
Local Open Scope list_scope.

(* truncate cuts the lines at the limits; without it the lines at or above a limit are left out *)
Theorem C134_text_to_batches : forall w cl pad sm tm xs ys np sc tc sl tl (truncate : bool) d m, spark cl -> lists w -> (0 < sl)%nat -> (0 < tl)%nat ->
  let r := bitextdb w cl pad sm tm xs ys np sc tc (Z.of_nat sl) (Z.of_nat tl) truncate d in
  val r = Ok m ->
  exists s t rows, load_scheme sm = Ok s /\ match tm with Some b => load_scheme b = Ok t | None => t = s end /\
    exactly rows ((if truncate then cut_to else below) sl tl (line_pair xs ys (encode s) (encode t))) /\
    (columns_ok exact53 2 (map as_rec rows) -> columns_ok fits_memory 2 (map as_rec rows) ->
     exists files, now r = Some files /\
     forall bs bm sd bf sort_by keep c, fair c -> sane_meta bm -> (forall r, In r (map as_rec rows) -> wanted bm r) ->
     Z.of_nat (Nat.max sl tl) <= fst (limits bs) -> sents_ok (snd (limits bs)) -> In sort_by [None; Some EQ_LEN; Some RANDOM] ->
     exists it groups out, open_iterable (DirAt files) true bs bm sd bf sort_by keep = Ok it /\ num_items it = Z.of_nat (List.length rows) /\
       iterate it c = (out, None) /\ Forall2 (shows bm sd bf) groups out /\ Permutation (concat groups) (map as_rec rows) /\
       (forall g, In g groups -> in_budget (fst (limits bs)) g) /\
       (forall g n, In g groups -> snd (limits bs) = Some n -> Z.of_nat (List.length g) <= n + 1) /\
       (sort_by <> Some EQ_LEN -> forall g, In g groups -> at_most (List.length g) (snd (limits bs)))).
Proof. exact text_to_batches. Qed.

Definition tr_files : list (str * content) := match now (ex_run (lit "x") (lit "y")) with Some fs => fs | None => [] end.
Definition tr_rows : list tok_row := [(2, ([7], [6; 6])); (0, ([6; 7], [7]))].
Definition tr_it (sort_by : option str) : iterable :=
  match open_iterable (DirAt tr_files) true (ToksSents 4 1) bi_meta false true sort_by false with Ok it => it | Raise _ => opened Missing (Toks 1) None end.
Example C134_ex :
  (match val (ex_run (lit "x") (lit "y")) with Ok _ => True | Raise _ => False end) /\ now (ex_run (lit "x") (lit "y")) = Some tr_files /\
  columns_ok exact53 2 (map as_rec tr_rows) /\ columns_ok fits_memory 2 (map as_rec tr_rows) /\ (forall r, In r (map as_rec tr_rows) -> wanted bi_meta r) /\
  summary (iterate (tr_it None) bi_chances) = ([([2], [[7; 2]]); ([0], [[6; 7; 2]])], None) /\
  summary (iterate (tr_it (Some EQ_LEN)) bi_chances) = ([([2], [[7; 2]]); ([0], [[6; 7; 2]])], None).
Proof.
  split; [vm_compute; exact I|]. split; [vm_compute; reflexivity|].
  assert (Hv : forall v, In v [6; 7] -> - 2 ^ 53 <= v <= 2 ^ 53) by (intros v H; cbn in H; lia).
  split; [intros [|[|j]] Hj; [| |lia]; apply Forall_forall; intros v Hin; cbn in Hin; apply Hv; cbn; tauto|].
  split; [intros [|[|j]] Hj; [| |lia]; vm_compute; reflexivity|].
  split.
  - assert (Ha : forall v l, 3 <= v -> acceptable false 1 true 2 (v :: l)) by (intros v l Hv3; split; [discriminate|]; split; [|discriminate]; intros _ (t & E); injection E as E _; lia).
    intros r [<-|[<-|[]]]; split; apply Ha; lia.
  - split; vm_compute; reflexivity.
Qed.

Print Assumptions C134_text_to_batches.
Print Assumptions C134_ex.
