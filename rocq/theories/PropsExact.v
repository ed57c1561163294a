(** Exact outcomes: batches of equal length over parts (C76, C99), loading by level (C103), storing parallel text (C81). *)
From Coq Require Import Strings.String.
From Verif Require Import Py PyLemmas PyStr NumpyModel JsonModel JsonProofs CodecModel CodecSpec VocabFileModel VocabSpec DbModel DbSpec BatchModel BatchSpec MultipartModel MultipartSpec BatchIterModel BatchIterSpec
     BitextModel BitextSpec PropsCodec PropsBitext PropsBatchIter PropsMultipart EqLenSpec EqLenProofs ExactProofs.
From Coq Require Import Permutation Lia.
Local Open Scope Z_scope.
Local Open Scope list_scope.

(** *** C76: the parts are visited in some order up to the first that has no batch to give; all before it are
    served in full. *)
Theorem C76_outcome : forall w names ow pad size recs d0 arity keep shuffle m max_toks max_sents parts_order ids_order arranged shuffled,
  lists w -> Forall scalars names -> storable names recs -> recs <> [] -> NoDup (map fst recs) -> 1 <= size -> d0 = None \/ d0 = Some [] \/ ow = true ->
  let d := now (mdb_create w names ow pad size (recs, None) d0) in
  arity = None \/ arity = Some (List.length names) -> mdb_load d arity keep shuffle = Ok m ->
  shuffles parts_order -> set_order ids_order -> arranges arranged -> shuffles shuffled -> match max_sents with Some m => 0 <= m | None => True end ->
  exists chunks visited rest groups out fin, chunked (Z.to_nat size) recs chunks /\ Permutation chunks (visited ++ rest) /\
    mdb_eq_len d m parts_order max_toks max_sents ids_order arranged shuffled = (out, fin) /\
    Forall2 (Forall2 same_record) groups out /\ served max_toks max_sents visited groups /\
    match rest with [] => fin = None | c :: _ => exists e, fin = Some e /\ spoilt max_toks c e end.
Proof. exact create_eq_len_outcome. Qed.

(** *** C99: the same for BatchIterable. *)
Theorem C99_outcome : forall nx ny recs size n is_path bs bm sd bf sort_by keep it c,
  pairs_ok nx ny recs -> stored nx ny recs size n -> fair c -> sane_meta bm -> match snd (limits bs) with Some m => 0 <= m | None => True end ->
  (forall r, In r recs -> usable r -> wanted bm r) -> strategy_of sort_by = Ok EqLen -> open_iterable n is_path bs bm sd bf sort_by keep = Ok it ->
  exists parts visited rest groups out fin, parts_of size recs parts /\ Permutation parts (visited ++ rest) /\
    iterate it c = (out, fin) /\ Forall2 (shows bm sd bf) groups out /\ served (fst (limits bs)) (snd (limits bs)) visited groups /\
    match rest with [] => fin = None | part :: _ => exists e, fin = Some e /\ spoilt (fst (limits bs)) part e end.
Proof. exact iterate_eq_len_outcome. Qed.
(* three records in parts of one, the second without a y side; the third part is visited first *)
Definition ex3 : list rec := [(1, [[5]; [6]]); (2, [[7]; []]); (3, [[8; 9]; [6]])].
Definition ex3_files : list (str * content) :=
  match now (mdb_create bi_world [lit "x"; lit "y"] false 3 1 (ex3, None) None) with Some fs => fs | None => [] end.
Example C99_outcome_ex : pairs_ok (lit "x") (lit "y") ex3 /\ stored (lit "x") (lit "y") ex3 (Some 1) (DirAt ex3_files) /\
  (forall r, In r ex3 -> usable r -> wanted bi_meta r) /\ spoilt 100 [(2, [[7]; []])] IndexError /\
  (exists it, open_iterable (DirAt ex3_files) true (Toks 100) bi_meta false true (Some EQ_LEN) false = Ok it /\
     summary (iterate it bi_chances) = ([([3], [[8; 9; 2]])], Some IndexError)).
Proof.
  assert (Hv : forall v, In v [5; 6; 7; 8; 9] -> - 2 ^ 53 <= v <= 2 ^ 53) by (intros v H; cbn in H; lia).
  split; [|split; [|split; [|split]]].
  - split; [discriminate|]. split; [cbn; repeat constructor; cbn; intuition lia|]. split; [cbn; repeat constructor; cbn; intuition discriminate|]. split; [repeat constructor|]. split; [repeat constructor|].
    split; [intros r [<-|[<-|[<-|[]]]]; reflexivity|]. split.
    + intros [|[|j]] Hj; [| |lia]; apply Forall_forall; intros v Hin; cbn in Hin; apply Hv; cbn; tauto.
    + intros [|[|j]] Hj; [| |lia]; vm_compute; reflexivity.
  - apply (stored_dir _ _ _ bi_world false 3 1 None); [split; intros l; [apply Permutation_refl|apply Permutation_rev]|lia|left; reflexivity|vm_compute; reflexivity].
  - assert (Ha : forall v l, 3 <= v -> acceptable false 1 true 2 (v :: l)) by (intros v l Hv3; split; [discriminate|]; split; [|discriminate]; intros _ (t & E); injection E as E _; lia).
    intros r [<-|[<-|[<-|[]]]] Hu; [split; apply Ha; lia|exfalso; apply (Hu []); [right; left; reflexivity|reflexivity]|split; apply Ha; lia].
  - left. split; [|reflexivity]. intros r [<-|[]] Hu. apply (Hu []); [right; left; reflexivity|reflexivity].
  - exists (opened (DirAt ex3_files) (Toks 100) (Some EQ_LEN)). split; vm_compute; reflexivity.
Qed.

(** *** C103: every header. *)
Theorem C103_outcome : forall bytes types kv m, read_vocab bytes = Ok (types, Some (JObj (kv :: m))) ->
  load_scheme bytes = match jget (lit "scheme") (kv :: m) with
    | Some (JStr name) => match dget str_eqb name published_schemes with Some k => make_scheme k types | None => Raise KeyError end
    | Some (JArr _) | Some (JObj _) => Raise TypeError
    | Some _ => Raise KeyError
    | None => match jget (lit "max_level") (kv :: m) with
              | Some (JInt z) => if z <? -4 then Raise IndexError else if 3 <? z then Raise AssertionError
                                 else make_scheme (nth (Z.to_nat (z mod 4)) schemes_by_level KByte) types
              | Some (JBool b) => make_scheme (if b then KBpe else KChar) types
              | Some _ => Raise TypeError
              | None => Raise KeyError
              end
    end.
Proof. exact load_outcome'. Qed.

(* "max_level": -2 is taken for a word vocabulary, -5 fails while indexing *)
Example C103_outcome_ex :
  (exists types m, read_vocab (lit "#{""max_level"": -2}" ++ [10%N] ++ lit "0" ++ [9%N] ++ lit "a" ++ [9%N] ++ lit "-2" ++ [9%N] ++ lit "5") = Ok (types, Some (JObj m)) /\ jget (lit "max_level") m = Some (JInt (-2))) /\
  nth (Z.to_nat ((-2) mod 4)) schemes_by_level KByte = KWord /\
  load_scheme (lit "#{""max_level"": -5}" ++ [10%N] ++ lit "0" ++ [9%N] ++ lit "a" ++ [9%N] ++ lit "-5" ++ [9%N] ++ lit "5") = Raise IndexError.
Proof. split; [do 2 eexists; split; [vm_compute; reflexivity|vm_compute; reflexivity]|]. split; vm_compute; reflexivity. Qed.

(** *** C81: exactly when it succeeds. *)
Theorem C81_iff : forall w cl names ow pad n parts d, spark cl -> lists w -> Forall scalars names -> storable names (concat parts) -> concat parts <> [] -> NoDup (map fst (concat parts)) ->
  d = None \/ d = Some [] \/ ow = true ->
  let r := rdd_as_db w cl names ow pad n parts d in
  ((exists m, val r = Ok m) <-> forall p, In p (if 0 <? n then repartition cl (Z.to_nat n) parts else parts) -> p <> []) /\
  forall m, val r = Ok m -> complete (List.length names) (concat parts) (now r) /\ mdb_size m = Z.of_nat (List.length (concat parts)).
Proof. exact rdd_iff. Qed.
(* the hypotheses are those of C81_ex *)
Example C81_iff_ex : (forall p, In p [[(3, [[4; 5]; [6]])]; [(0, [[7]; [8; 9]])]] -> p <> @nil rec) /\
  (exists m, val (rdd_as_db ex_w ex_cluster [lit "x"; lit "y"] false 3 0 [[(3, [[4; 5]; [6]])]; [(0, [[7]; [8; 9]])]] None) = Ok m /\ mdb_size m = 2) /\
  (exists e, val (rdd_as_db ex_w ex_cluster [lit "x"; lit "y"] false 3 0 [[(3, [[4; 5]; [6]])]; []] None) = Raise e).
Proof. split; [intros p [<-|[<-|[]]]; discriminate|]. split; eexists; [split; vm_compute; reflexivity|vm_compute; reflexivity]. Qed.

Print Assumptions C76_outcome.
Print Assumptions C99_outcome.
Print Assumptions C103_outcome.
Print Assumptions C81_iff.
