(** Property theorems about multipart databases (C50-C55, C76). *)
From Coq Require Import Strings.String.
From Verif Require Import Py PyStr Utf8Model JsonModel JsonProofs NumpyModel DbModel DbSpec DbProofs DbBatchProofs BatchModel MultipartModel MultipartSpec MultipartProofs PropsDb.
From Coq Require Import Permutation Lia.
Local Open Scope Z_scope.
Local Open Scope list_scope.

(** *** C50: the slices of a stream, each with the exception it ends in, and the exception the
    generator itself ends in *)
Theorem C50_slices : forall (A : Type) (l : list A) size, 1 <= size ->
  exists chunks, slices (l, None) size = (map (fun c => (c, None)) chunks, None) /\ chunked (Z.to_nat size) l chunks.
Proof. intros A. exact (@slices_ok A). Qed.
Theorem C50_unique : forall (A : Type) size (l : list A) chunks chunks', chunked size l chunks -> chunked size l chunks' -> chunks = chunks'.
Proof. intros A. exact (@chunked_unique A). Qed.
(* a stream that raises: the exception reaches the consumer after the items before it *)
Theorem C50_failing_stream : forall (A : Type) (l : list A) e size, 1 <= size ->
  exists full last, l = concat full ++ last /\ (forall c, In c full -> length c = Z.to_nat size) /\ (length last < Z.to_nat size)%nat /\
    slices (l, Some e) size = (map (fun c => (c, None)) full ++ (match last with [] => [] | _ => [(last, Some e)] end),
                               match last with [] => Some e | _ => None end).
Proof. intros A. exact (@slices_raise A). Qed.
Example C50_ex : slices ([1; 2; 3; 4; 5], None) 2 = ([([1; 2], None); ([3; 4], None); ([5], None)], None) /\
  slices ([1; 2; 3; 4], None) 2 = ([([1; 2], None); ([3; 4], None)], None) /\ slices ([1; 2; 3], Some KeyError) 2 = ([([1; 2], None); ([3], Some KeyError)], None) /\
  slices ([] : list Z, None) 3 = ([], None) /\ slices ([1], None) (-1) = ([], Some ValueError) /\ slices ([1], None) 0 = ([], None).
Proof. vm_compute. repeat split. Qed.

(** *** C51: [w]: the file system's listing orders; [pad]: the width of part numbers; the directory
    is absent, empty, or may be overwritten. The database that create returns is the one loaded
    from the directory it leaves. *)
Theorem C51_create_round_trip : forall w names ow pad size recs d,
  lists w -> Forall scalars names -> storable names recs -> recs <> [] -> NoDup (map fst recs) -> 1 <= size ->
  d = None \/ d = Some [] \/ ow = true ->
  let r := mdb_create w names ow pad size (recs, None) d in
  complete (length names) recs (now r) /\ val r = mdb_load (now r) None false false.
Proof. exact create_complete. Qed.
(* has_id=False: the records are numbered from 0 *)
Theorem C51_numbered : forall w names ow pad size cols d,
  lists w -> Forall scalars names -> storable names (enumerate cols) -> cols <> [] -> 1 <= size ->
  d = None \/ d = Some [] \/ ow = true ->
  let r := mdb_create_auto w names ow pad size (cols, None) d in
  complete (length names) (enumerate cols) (now r) /\ val r = mdb_load (now r) None false false.
Proof.
  intros w names ow pad size cols d Hl Hn Hst Hc Hsz Hd. apply create_complete; auto; [|apply enumerate_NoDup].
  intros E. apply Hc. destruct cols; [reflexivity|discriminate E].
Qed.
Definition ex_names : list str := [lit "x"; lit "y"].
Definition ex_world : world := MkWorld (fun l => l) (@rev str) (fun _ => 77).
Example C51_ex_hyp : lists ex_world /\ Forall scalars ex_names /\ storable ex_names ex_db_recs /\ ex_db_recs <> [] /\ NoDup (map fst ex_db_recs).
Proof.
  destruct C42_ex_hyp as (H1 & H2 & H3 & H4 & H5). split; [split; intros l; [apply Permutation_refl|apply Permutation_rev]|].
  split; [repeat constructor|]. split; [|split; [discriminate|exact H5]]. unfold storable. split; [exact H1|]. split; [discriminate|]. auto.
Qed.
Definition ex_dir : dir := now (mdb_create ex_world ex_names false 3 2 (ex_db_recs, None) None).
Definition ids_of (s : stream record) : list Z * option exn := (map fst (fst s), snd s).
Example C51_ex : match ex_dir with Some fs => dkeys fs | None => [] end =
    [lit "part-000"; lit "part-000.meta"; lit "part-001"; lit "part-001.meta"; lit "_SUCCESS"] /\
  match mdb_load ex_dir (Some 2%nat) false false with
  | Ok m => m_len m = 4 /\ m_parts m = [lit "part-001"; lit "part-000"] /\ ids_of (mdb_iter ex_dir m (fun l => l) db_ids) = ([4; 5; 2; 9], None)
  | Raise _ => False
  end.
Proof. vm_compute. repeat split. Qed.
(* shuffling without keeping the parts in memory fails on a part with two records, as in C43 *)
Definition ex_mdb : mdb := MkMdb [lit "part-001"; lit "part-000"] [2; 2] 4 2 false true [None; None].
Example ex_mdb_loaded : mdb_load ex_dir None false true = Ok ex_mdb /\
  (exists p, db_load ex_dir (lit "part-000") = Ok p /\ length (db_ids p) = 2%nat) /\ (exists p, db_load ex_dir (lit "part-001") = Ok p /\ length (db_ids p) = 2%nat).
Proof.
  split; [vm_compute; reflexivity|].
  split; [exists (match db_load ex_dir (lit "part-000") with Ok p => p | Raise _ => MkDb [] [] [] 0 end)|exists (match db_load ex_dir (lit "part-001") with Ok p => p | Raise _ => MkDb [] [] [] 0 end)];
    (split; vm_compute; reflexivity).
Qed.
Theorem C43_multipart_refuted : exists d recs m, complete 2 recs d /\ mdb_load d None false true = Ok m /\
  forall parts_order ids_order, shuffles parts_order -> set_order ids_order -> exists out, mdb_iter d m parts_order ids_order = (out, Some TypeError).
Proof.
  destruct C51_ex_hyp as (H1 & H2 & H3 & H4 & H5). destruct ex_mdb_loaded as (Em & (p0 & E0 & L0) & (p1 & E1 & L1)).
  exists ex_dir, ex_db_recs, ex_mdb. split; [apply (C51_create_round_trip ex_world ex_names false 3 2 ex_db_recs None); auto; lia|]. split; [exact Em|].
  intros po io Hpo Hio. unfold mdb_iter, ex_mdb. cbn [m_parts m_mem m_keep m_shuffle combine].
  match goal with |- context [po ?l] => set (l0 := l); pose proof (Hpo l0) as Hp; destruct (po l0) as [|pm rest] eqn:E end.
  - apply Permutation_sym, Permutation_nil in Hp. discriminate Hp.
  - assert (Hin : In pm l0) by (eapply Permutation_in; [apply Permutation_sym, Hp|left; reflexivity]). cbn [yield_all negb andb]. exists [].
    destruct Hin as [<-|[<-|[]]]; cbn [fst]; [rewrite E1, (Permutation_length (Hio p1)), L1|rewrite E0, (Permutation_length (Hio p0)), L0]; reflexivity.
Qed.

(** *** C52: the states a crash can leave: the initial one and those passed through *)
Theorem C52_interrupted_create : forall w names ow pad size recs d0,
  lists w -> Forall scalars names -> storable names recs -> recs <> [] -> NoDup (map fst recs) -> 1 <= size -> d0 = None \/ d0 = Some [] ->
  forall d, In d (d0 :: seen (mdb_create w names ow pad size (recs, None) d0)) -> refuses d \/ complete (length names) recs d.
Proof. exact create_crash. Qed.
(* any use of a Writer, of any records: what loads is only what a finished block leaves *)
Theorem C52_interrupted_writer : forall w names ow pad calls fin d0, lists w -> Forall scalars names -> d0 = None \/ d0 = Some [] ->
  let r := with_writer w names ow pad calls fin d0 in
  (forall d, In d (d0 :: seen r) -> refuses d \/ (d = now r /\ val r = Ok tt)) /\ (val r <> Ok tt -> refuses (now r)) /\ (fin <> None -> val r <> Ok tt).
Proof. exact writer_crash. Qed.
(* an exception in the block: the directory was refused and is untouched, or there is no flag *)
Theorem C52_exception_in_block : forall w names ow pad calls fin d0, lists w -> Forall scalars names ->
  let r := with_writer w names ow pad calls fin d0 in
  val r <> Ok tt ->
  (exists f fs, d0 = Some (f :: fs) /\ ow = false /\ r = MkRun [] d0 (Raise OtherError)) \/
  (exists fs, now r = Some fs /\ dget str_eqb (lit "_SUCCESS") fs = None).
Proof. exact writer_exception. Qed.
(* the stream of records raises: create raises and nothing it leaves loads *)
Theorem C52_failing_stream : forall w names ow pad size l e d0, lists w -> Forall scalars names -> 1 <= size -> d0 = None \/ d0 = Some [] ->
  let r := mdb_create w names ow pad size (l, Some e) d0 in
  (exists e', val r = Raise e') /\ forall d, In d (d0 :: seen r ++ [now r]) -> refuses d.
Proof. exact create_raise. Qed.
Example C52_ex : let r := mdb_create ex_world ex_names false 3 2 (ex_db_recs, None) None in
  existsb (fun d => match mdb_load d None true false with Ok _ => true | Raise _ => false end) (removelast (seen r)) = false /\
  (100 < length (seen r))%nat /\ last (seen r) None = now r /\
  val (mdb_create ex_world ex_names false 3 2 (ex_db_recs, Some KeyError) None) = Raise KeyError.
Proof. vm_compute. repeat split; lia. Qed.

(** *** C53: false: files of the old database are removed one by one, in any order, and the flag
    may be among the last. *)
Theorem C53_interrupted_overwrite_partial : forall w names pad size recs fs0,
  lists w -> Forall scalars names -> storable names recs -> recs <> [] -> NoDup (map fst recs) -> 1 <= size -> NoDup (dkeys fs0) ->
  forall d, In d (Some fs0 :: seen (mdb_create w names true pad size (recs, None) (Some fs0))) ->
  refuses d \/ complete (length names) recs d \/ exists fs, d = Some fs /\ files_removed fs0 fs.
Proof. exact overwrite_crash. Qed.
(* what is left of the old database reads like the old one or ends in FileNotFoundError; records are not lost silently *)
Theorem C53_leftover_partial : forall fs0 fs, files_removed fs0 fs -> forall arity keep shuffle m, mdb_load (Some fs) arity keep shuffle = Ok m ->
  mdb_load (Some fs0) arity keep shuffle = Ok m /\
  forall parts_order ids_order,
    mdb_iter (Some fs) m parts_order ids_order = mdb_iter (Some fs0) m parts_order ids_order \/
    exists out more, mdb_iter (Some fs) m parts_order ids_order = (out, Some FileNotFound) /\ fst (mdb_iter (Some fs0) m parts_order ids_order) = out ++ more.
Proof. exact leftover_reads. Qed.
(* with the flag removed first the property holds *)
Theorem C53_flag_first_partial : forall w names pad size recs fs0 rest,
  lists w -> Forall scalars names -> storable names recs -> recs <> [] -> NoDup (map fst recs) -> 1 <= size -> NoDup (dkeys fs0) ->
  rm_order w (dkeys fs0) = lit "_SUCCESS" :: rest ->
  forall d, In d (seen (mdb_create w names true pad size (recs, None) (Some fs0))) -> refuses d \/ complete (length names) recs d.
Proof. exact overwrite_flag_first. Qed.
Lemma hd_error_in {A} (l : list A) x : hd_error l = Some x -> In x l.
Proof. destruct l; [discriminate|]. intros [= <-]. left. reflexivity. Qed.
Definition ex_left : dir := match ex_dir with Some (_ :: fs) => Some fs | d => d end.
Definition ex_left_mdb : mdb := MkMdb [lit "part-001"; lit "part-000"] [2; 2] 4 2 false false [None; None].
Example ex_left_loaded : mdb_load ex_left None false false = Ok ex_left_mdb /\ snd (mdb_iter ex_left ex_left_mdb (fun l => l) db_ids) = Some FileNotFound.
Proof. split; vm_compute; reflexivity. Qed.
Theorem C53_interrupted_overwrite_refuted : exists w names old new d0 d, lists w /\ complete 2 old d0 /\
  In d (seen (mdb_create w names true 3 2 (new, None) d0)) /\ ~ refuses d /\ forall recs, ~ complete 2 recs d.
Proof.
  destruct C51_ex_hyp as (H1 & H2 & H3 & H4 & H5). destruct ex_left_loaded as [El Ei]. exists ex_world, ex_names, ex_db_recs, ex_db_recs, ex_dir, ex_left.
  split; [exact H1|]. split; [apply (C51_create_round_trip ex_world ex_names false 3 2 ex_db_recs None); auto; lia|]. split; [apply hd_error_in; vm_compute; reflexivity|]. split.
  - intros H. destruct (H None false false) as (e & E). rewrite El in E. discriminate E.
  - intros recs H. destruct (H None false false (or_introl eq_refl)) as (m & E & _ & Hit); [discriminate|]. rewrite El in E. injection E as <-.
    destruct (Hit (fun l => l) db_ids) as (out & recs' & E & _); [intros l; apply Permutation_refl|intros p; apply Permutation_refl|].
    rewrite E in Ei. discriminate Ei.
Qed.
Example C53_ex : rm_order (MkWorld (@rev str) (@rev str) (fun _ => 77)) (match ex_dir with Some fs => dkeys fs | None => [] end) =
  lit "_SUCCESS" :: [lit "part-001.meta"; lit "part-001"; lit "part-000.meta"; lit "part-000"].
Proof. vm_compute. reflexivity. Qed.

(** *** C54 *)
Theorem C54_no_overwrite : forall w names pad size recs f fs,
  let r := mdb_create w names false pad size recs (Some (f :: fs)) in now r = Some (f :: fs) /\ seen r = [] /\ val r = Raise OtherError.
Proof. intros w names pad size recs f fs. cbv zeta. rewrite no_overwrite. repeat split. Qed.
Example C54_ex : let r := mdb_create ex_world ex_names false 3 2 (ex_db_recs, None) (Some [(lit "notes.txt", Text (lit "keep"))]) in
  now r = Some [(lit "notes.txt", Text (lit "keep"))] /\ val r = Raise OtherError.
Proof. vm_compute. repeat split. Qed.

(** *** C55 *)
Theorem C55_distinct_names : forall pad a b, part_name pad a = part_name pad b -> a = b.
Proof. exact part_name_inj. Qed.
Theorem C55_recovered : forall pad n, rstrip_set (lit ".meta") (meta_name (part_name pad n)) = part_name pad n.
Proof. exact recovered_name. Qed.
Theorem C55_separate_files : forall pad a b, part_name pad a <> meta_name (part_name pad b) /\ lit "_SUCCESS" <> part_name pad a /\ lit "_SUCCESS" <> meta_name (part_name pad a).
Proof. intros pad a b. split; [apply part_not_meta|]. split; [apply flag_not_part|apply flag_not_meta]. Qed.
(* the glob of close() finds exactly the .meta files *)
Theorem C55_glob : forall pad n, is_part_meta (part_name pad n) = false /\ is_part_meta (meta_name (part_name pad n)) = true.
Proof. intros pad n. split; [apply part_is_not_meta|apply meta_is_meta]. Qed.
Example C55_ex : part_name 3 7 = lit "part-007" /\ part_name 3 1234 = lit "part-1234" /\ part_name 1 70 = lit "part-70" /\ meta_name (part_name 3 7) = lit "part-007.meta" /\
  rstrip_set (lit ".meta") (lit "part-a.meta") = lit "part-".
Proof. vm_compute. repeat split. Qed.

(** *** C76: false: a part without usable records ends the batches with IndexError *)
Theorem C76_multipart_eq_len_partial : forall w names ow pad size recs d0 arity keep shuffle m max_toks max_sents parts_order ids_order arranged shuffled,
  lists w -> Forall scalars names -> storable names recs -> recs <> [] -> NoDup (map fst recs) -> 1 <= size -> d0 = None \/ d0 = Some [] \/ ow = true ->
  let d := now (mdb_create w names ow pad size (recs, None) d0) in
  arity = None \/ arity = Some (length names) -> mdb_load d arity keep shuffle = Ok m ->
  shuffles parts_order -> set_order ids_order -> arranges arranged -> shuffles shuffled -> match max_sents with Some m => 0 <= m | None => True end ->
  exists chunks, chunked (Z.to_nat size) recs chunks /\
  let s := mdb_eq_len d m parts_order max_toks max_sents ids_order arranged shuffled in
  ((forall c, In c chunks -> exists r, In r c /\ usable r) -> (forall r, In r recs -> usable r -> longest r <= max_toks) ->
   exists groups out, s = (out, None) /\ Forall2 (Forall2 same_record) groups out /\
     (forall g, In g groups -> in_budget max_toks g /\ match max_sents with Some m => Z.of_nat (length g) <= m + 1 | None => True end) /\
     (forall g, In g groups -> exists c, In c chunks /\ incl g c) /\
     NoDup (concat groups) /\ (forall r, In r (concat groups) <-> In r recs /\ usable r)) /\
  ((exists c, In c chunks /\ forall r, In r c -> ~ usable r) \/ (exists r, In r recs /\ usable r /\ max_toks < longest r) -> exists out e, s = (out, Some e)).
Proof. exact create_eq_len. Qed.
Example C76_ex : match mdb_load ex_dir None false false with
  | Ok m => let s := mdb_eq_len ex_dir m (fun l => l) 6 None db_ids ex_sort (fun l => l) in map (map fst) (fst s) = [[5]; [9; 2]] /\ snd s = None
  | Raise _ => False
  end.
Proof. vm_compute. repeat split. Qed.
Theorem C76_multipart_eq_len_refuted : exists d recs m r, complete 2 recs d /\ mdb_load d None false false = Ok m /\ In r recs /\ usable r /\
  exists out, mdb_eq_len d m (fun l => l) 6 None db_ids ex_sort (fun l => l) = (out, Some IndexError) /\ ~ In (fst r) (map fst (concat out)).
Proof.
  exists (now (mdb_create ex_world ex_names false 3 1 (ex_db_recs, None) None)) , ex_db_recs. destruct C51_ex_hyp as (H1 & H2 & H3 & H4 & H5).
  set (d := now (mdb_create ex_world ex_names false 3 1 (ex_db_recs, None) None)).
  exists (match mdb_load d None false false with Ok m => MkMdb (m_parts m) (m_counts m) (m_len m) (m_arity m) (m_keep m) (m_shuffle m) (m_mem m) | Raise _ => MkMdb [] [] 0 0 false false [] end), (2, [[1; 2; 3]; [4]]).
  split; [apply (C51_create_round_trip ex_world ex_names false 3 1 ex_db_recs None); auto; lia|]. split; [vm_compute; reflexivity|]. split; [left; reflexivity|].
  split; [intros c [<-|[<-|[]]]; discriminate|].
  exists [[(5, [MkArr I16 [7; 7]; MkArr I16 [8; 8; 8]])]]. split; [vm_compute; reflexivity|]. cbn. intros [H|[]]. discriminate H.
Qed.

Print Assumptions C50_slices.
Print Assumptions C50_unique.
Print Assumptions C50_failing_stream.
Print Assumptions C51_create_round_trip.
Print Assumptions C51_numbered.
Print Assumptions C43_multipart_refuted.
Print Assumptions C52_interrupted_create.
Print Assumptions C52_interrupted_writer.
Print Assumptions C52_exception_in_block.
Print Assumptions C52_failing_stream.
Print Assumptions C53_interrupted_overwrite_partial.
Print Assumptions C53_leftover_partial.
Print Assumptions C53_flag_first_partial.
Print Assumptions C53_interrupted_overwrite_refuted.
Print Assumptions C54_no_overwrite.
Print Assumptions C55_distinct_names.
Print Assumptions C55_recovered.
Print Assumptions C55_separate_files.
Print Assumptions C55_glob.
Print Assumptions C76_multipart_eq_len_partial.
Print Assumptions C76_multipart_eq_len_refuted.
