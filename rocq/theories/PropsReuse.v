(** Property theorems about examples that batches share and change in place, IdExample.val_exists_at, and the
    tensor helpers of Batch (C116-C119). *)
From Coq Require Import Strings.String.
From Verif Require Import Py NumpyModel DbModel DbSpec BatchModel BatchSpec ReuseModel ReuseSpec ReuseProofs PropsBatch.
From Coq Require Import Lia.
Local Open Scope Z_scope.
Local Open Scope list_scope.

(** *** C116. Examples may be used again, and may be given twice: whatever batches were built from them before,
    finished or failed, the next batch is the one that fresh copies give. *)
Theorem C116_reuse : forall m earlier sort_dec bf h refs, sane_meta m -> Forall sane_example h -> valid h refs ->
  snd (batch_at m sort_dec bf (after m h earlier) refs) = make_batch m sort_dec bf (map (eget h) refs).
Proof. intros m us sd bf h refs Hm Hs. apply reuse; [exact Hm|apply heap_sane_of, Hs]. Qed.
(** All that the batches do to an example is adding markers where they are asked for and missing. *)
Theorem C116_what_is_left : forall m earlier h r, sane_meta m -> Forall sane_example h ->
  grown_example m (eget h r) (eget (after m h earlier) r).
Proof. intros m us h r Hm Hs. apply after_left; [exact Hm|apply heap_sane_of, Hs]. Qed.
Theorem C116_others_untouched : forall m sort_dec bf h refs r, sane_meta m -> Forall sane_example h -> ~ In r refs ->
  eget (fst (batch_at m sort_dec bf h refs)) r = eget h r.
Proof. intros m sd bf h refs r Hm Hs. apply batch_at_left; [exact Hm|apply heap_sane_of, Hs]. Qed.
Theorem C116_after_success : forall m sort_dec bf h refs b, sane_meta m -> Forall sane_example h -> valid h refs ->
  snd (batch_at m sort_dec bf h refs) = Ok b ->
  forall r, In r refs -> let ex := eget h r in let ex' := eget (fst (batch_at m sort_dec bf h refs)) r in
  a_vals (e_x ex') = marked_x m ex /\
  match ba_y b with
  | None => e_y ex' = e_y ex
  | Some _ => e_y ex <> None /\ e_y ex' <> None /\ y_vals ex' = marked_y m ex
  end.
Proof. intros m sd bf h refs b Hm Hs. apply batch_at_done; [exact Hm|apply heap_sane_of, Hs]. Qed.
Lemma sane_exa id x y : Forall (fun v => 0 <= v <= 100) (x ++ y) -> sane_example (exa id x y).
Proof.
  intros H. apply Forall_app in H. destruct H as [H1 H2].
  assert (Hs : forall l, Forall (fun v => 0 <= v <= 100) l -> sane (arr l)).
  { intros l Hl. split; cbn [arr a_type a_vals can_hold]; unfold exact53; eapply Forall_impl; try exact Hl; cbn; intros a Ha; lia. }
  split; [apply Hs, H1|]. cbn. intros z [= <-]. apply Hs, H2.
Qed.
(** Examples 0 and 1 are used in a batch, then 2, whose y starts with bos, fails after the x got its marker. *)
Definition ex_heap : eheap := [exa 10 [5; 6] [7]; exa 11 [8; 2] [9; 9]; exa 12 [4] [1; 5]].
Example C116_ex : sane_meta ex_meta /\ Forall sane_example ex_heap /\ valid ex_heap [1; 0; 0]%nat /\
  map (fun ex => (a_vals (e_x ex), y_vals ex)) (after ex_meta ex_heap [(true, true, [0; 1]%nat); (false, true, [2]%nat)]) =
    [([5; 6; 2], [7; 2]); ([8; 2], [9; 9; 2]); ([4; 2], [1; 5])] /\
  snd (batch_at ex_meta false true ex_heap [2]%nat) = Raise AssertionError /\
  match snd (batch_at ex_meta true true (after ex_meta ex_heap [(true, true, [0; 1]%nat); (false, true, [2]%nat)]) [1; 0; 0]%nat) with
  | Ok b => ba_ids b = [10; 10; 11] /\ s_seqs (ba_x b) = [[5; 6; 2]; [5; 6; 2]; [8; 2; 0]]
  | Raise _ => False
  end.
Proof.
  split; [unfold sane_meta, int32; cbn; lia|].
  split; [apply Forall_forall; intros ex [<-|[<-|[<-|[]]]]; apply sane_exa; cbn; repeat constructor; lia|].
  split; [repeat constructor|]. vm_compute. repeat split.
Qed.

(** *** C117. Batches with other settings: the markers of the first batch are still there. The same batch without
    markers, asked for of fresh copies, succeeds, and of the used examples fails. *)
Theorem C117_other_settings_refuted : exists m m' h refs, sane_meta m /\ sane_meta m' /\ Forall sane_example h /\ valid h refs /\
  (exists b, make_batch m' false true (map (eget h) refs) = Ok b) /\
  (exists b, snd (batch_at m false true h refs) = Ok b) /\
  snd (batch_at m' false true (fst (batch_at m false true h refs)) refs) = Raise AssertionError.
Proof.
  exists ex_meta, (MkMeta 0 1 2 false false false false), [exa 10 [5; 6] [7]], [0%nat].
  split; [unfold sane_meta, int32; cbn; lia|]. split; [unfold sane_meta, int32; cbn; lia|].
  split; [constructor; [apply sane_exa; cbn; repeat constructor; lia|constructor]|]. split; [repeat constructor|].
  split; [eexists; vm_compute; reflexivity|]. split; [eexists; vm_compute; reflexivity|]. vm_compute. reflexivity.
Qed.
(** What does hold: see C116_reuse, for one setting. *)
Theorem C117_other_settings_partial : forall m earlier sort_dec bf sort_dec' bf' h refs, sane_meta m -> Forall sane_example h -> valid h refs ->
  snd (batch_at m sort_dec bf (after m h (earlier ++ [(sort_dec', bf', refs)])) refs) = snd (batch_at m sort_dec bf h refs).
Proof.
  intros m us sd bf sd' bf' h refs Hm Hs Hv. rewrite C116_reuse by assumption. symmetry. exact (C116_reuse m [] sd bf h refs Hm Hs Hv).
Qed.

(** *** C118. val_exists_at *)
Theorem C118_marker_added : forall ex on_x front v q, int32 v -> side_seq on_x ex = Some q -> sane q -> a_vals q <> [] ->
  exists ex' q', val_exists_at ex (side_name on_x) (place front) true v = Ok ex' /\ side_seq on_x ex' = Some q' /\ sane q' /\
    a_vals q' = marked front v (negb front) v (a_vals q) /\ (a_vals q' = a_vals q -> ex' = ex) /\
    side_seq (negb on_x) ex' = side_seq (negb on_x) ex /\ e_id ex' = e_id ex /\ e_x_raw ex' = e_x_raw ex /\ e_y_raw ex' = e_y_raw ex.
Proof. exact val_at_ok. Qed.
Theorem C118_marker_added_once : forall ex on_x front v ex', int32 v -> (forall q, side_seq on_x ex = Some q -> sane q) ->
  val_exists_at ex (side_name on_x) (place front) true v = Ok ex' -> val_exists_at ex' (side_name on_x) (place front) true v = Ok ex'.
Proof. exact val_at_again. Qed.
(** a marker that should not be there is only warned about *)
Theorem C118_unwanted_marker_stays : forall ex on_x front v q, side_seq on_x ex = Some q -> a_vals q <> [] ->
  val_exists_at ex (side_name on_x) (place front) false v = Ok ex.
Proof. exact val_at_false. Qed.
Theorem C118_errors : forall ex on_x front exist v,
  (side_seq on_x ex = None -> val_exists_at ex (side_name on_x) (place front) exist v = Raise TypeError) /\
  (forall q, side_seq on_x ex = Some q -> a_vals q = [] -> val_exists_at ex (side_name on_x) (place front) exist v = Raise IndexError).
Proof. exact val_at_errors. Qed.
Theorem C118_refused : forall ex sd p exist v, (sd <> lit "x" /\ sd <> lit "y") \/ (p <> 0 /\ p <> -1) ->
  val_exists_at ex sd p exist v = Raise AssertionError.
Proof. exact val_at_refused. Qed.
Example C118_ex : int32 2 /\ sane (arr [7]) /\
  val_exists_at (exa 10 [5; 6] [7]) (side_name false) (place false) true 2 = Ok (exa 10 [5; 6] [7; 2]) /\
  val_exists_at (exa 10 [5; 6] [7]) (lit "x") 0 true 1 = Ok (exa 10 [1; 5; 6] [7]) /\
  val_exists_at (exa 10 [5; 6] [7]) (lit "x") 0 true 5 = Ok (exa 10 [5; 6] [7]) /\
  val_exists_at (exa 10 [5; 6] [7]) (lit "x") (-1) false 6 = Ok (exa 10 [5; 6] [7]) /\
  val_exists_at (exa 10 [5; 6] [7]) (lit "x") 1 true 5 = Raise AssertionError.
Proof. split; [unfold int32; lia|]. split; [split; repeat constructor; cbn; lia|]. vm_compute. repeat split. Qed.

(** *** C119. to and the masks always fail. *)
Theorem C119_device_refuted : forall b, batch_to b = Raise (match ba_y b with Some _ => AttributeError | None => TypeError end).
Proof. exact to_fails. Qed.
Theorem C119_mask_refuted : forall seqs size, exists e, make_autoreg_mask seqs size = Raise e.
Proof. exact mask_fails. Qed.
Example C119_ex : exists b, make_batch ex_meta false true [exa 10 [5; 6] [7]] = Ok b /\ batch_to b = Raise AttributeError.
Proof. eexists. split; vm_compute; reflexivity. Qed.

Print Assumptions C116_reuse.
Print Assumptions C116_what_is_left.
Print Assumptions C116_others_untouched.
Print Assumptions C116_after_success.
Print Assumptions C117_other_settings_refuted.
Print Assumptions C117_other_settings_partial.
Print Assumptions C118_marker_added.
Print Assumptions C118_marker_added_once.
Print Assumptions C118_unwanted_marker_stays.
Print Assumptions C118_errors.
Print Assumptions C118_refused.
Print Assumptions C119_device_refuted.
Print Assumptions C119_mask_refuted.
