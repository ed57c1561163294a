(** Listing a stored field: keys, values, items and lengths. *)
From Verif Require Import Py PyLemmas NumpyModel NumpyProofs DbModel DbSpec DbProofs.
From Coq Require Import Lia.
Local Open Scope Z_scope.
Local Open Scope list_scope.

Lemma ids_dict_rows ids : NoDup ids -> ids_dict ids = map (fun it : Z * Z => (snd it, fst it)) (enumerate ids).
Proof.
  induction ids as [|x ids IH] using rev_ind; intros H; [reflexivity|]. pose proof H as H0. apply NoDup_remove in H. rewrite app_nil_r in H. destruct H as [H1 H2].
  rewrite ids_dict_snoc. unfold enumerate in *. rewrite enum_from_app, map_app, <- (IH H1). cbn [enum_from map fst snd].
  assert (Hn : ~ In x (dkeys (ids_dict ids))) by (rewrite ids_dict_dkeys by exact H1; exact H2). clear - Hn.
  induction (ids_dict ids) as [|[k v] d IHd]; [reflexivity|]. cbn [dkeys map fst In] in Hn. cbn [dset].
  destruct (Z.eqb_spec x k) as [E|E]; [exfalso; apply Hn; left; symmetry; exact E|]. cbn [app]. f_equal. apply IHd. intros Hin. apply Hn. right. exact Hin.
Qed.
Section Listing.
  Context (name : str) (recs : list (Z * list Z)) (f : field).
  Hypothesis Hf : field_for name recs f.
  Hypothesis Hnd : NoDup (map fst recs).
  Let cut (r : Z * Z) : array := slice (f_data f) (fst r) (cast (f_refs_type f) (fst r + snd r)).
  Lemma row_read n id arr : nth_error recs n = Some (id, arr) ->
    exists r, nth_error (f_refs f) n = Some r /\ snd r = Z.of_nat (length arr) /\ get_item f id = Ok (cut r).
  Proof.
    intros Hn. pose proof (field_ref _ _ _ _ _ _ Hf Hnd Hn) as Hr. destruct Hf as (_ & _ & H2 & _).
    assert (Hn' : nth_error (map snd recs) n = Some arr) by (rewrite nth_error_map, Hn; reflexivity).
    eexists. split; [rewrite H2; apply (refs_from_nth _ _ _ Hn')|]. split; [reflexivity|]. unfold get_item. rewrite Hr. reflexivity.
  Qed.
  Lemma values_rows : Forall2 (fun rec a => get_item f (fst rec) = Ok a) recs (field_values f).
  Proof.
    unfold field_values. fold cut.
    assert (Hl : length (f_refs f) = length recs) by (destruct Hf as (_ & _ & -> & _); rewrite refs_from_length, map_length; reflexivity).
    assert (Hi : forall n id arr, nth_error recs n = Some (id, arr) -> exists r, nth_error (f_refs f) n = Some r /\ get_item f id = Ok (cut r)).
    { intros n id arr Hn. destruct (row_read n id arr Hn) as (r & H1 & _ & H3). eauto. }
    clear - Hl Hi. revert Hl Hi. generalize (f_refs f) as l. generalize recs as rs. induction rs as [|[id arr] rs IH]; intros [|r l] Hl Hi; try discriminate Hl; [constructor|].
    cbn [map]. constructor.
    - destruct (Hi 0%nat id arr eq_refl) as (r' & E & H). injection E as ->. exact H.
    - apply IH; [injection Hl as Hl; exact Hl|]. intros n. apply (Hi (S n)).
  Qed.
  Lemma rows_listed {A} (g : Z * (Z * Z) -> A) l : f_refs f = l ->
    mapM (fun kv : Z * Z => bind (py_nth (f_refs f) (snd kv)) (fun r => Ok (g (fst kv, r)))) (f_ids f) = Ok (map g (combine (map fst recs) l)).
  Proof.
    intros <-. destruct Hf as (_ & Hids & Hrefs & _). rewrite Hids, (ids_dict_rows _ Hnd).
    assert (Hl : length (f_refs f) = length (map fst recs)) by (rewrite Hrefs, refs_from_length, !map_length; reflexivity).
    unfold enumerate. clear - Hl.
    assert (Hg : forall ids k l2, (length l2 = length ids)%nat -> (forall n, nth_error (f_refs f) (k + n) = nth_error l2 n) ->
              mapM (fun kv : Z * Z => bind (py_nth (f_refs f) (snd kv)) (fun r => Ok (g (fst kv, r))))
                   (map (fun it : Z * Z => (snd it, fst it)) (enum_from (Z.of_nat k) ids)) = Ok (map g (combine ids l2))).
    { induction ids as [|x ids IH]; intros k [|r l2] El Hn; try discriminate El; [reflexivity|].
      cbn [enum_from map combine mapM fst snd]. rewrite (proj2 (py_nth_of_nat (f_refs f) k r)) by (rewrite <- (Nat.add_0_r k); apply (Hn 0%nat)). cbn [bind].
      replace (Z.of_nat k + 1) with (Z.of_nat (S k)) by lia. rewrite (IH (S k) l2); [reflexivity|injection El as El; exact El|].
      intros n. rewrite Nat.add_succ_comm. apply (Hn (S n)). }
    apply (Hg _ 0%nat _ Hl). intros n. reflexivity.
  Qed.
End Listing.
Lemma map_combine_snd {A B} (l : list A) (l' : list B) : length l' = length l -> map snd (combine l l') = l'.
Proof. revert l'. induction l as [|x l IH]; intros [|y l'] H; try discriminate H; [reflexivity|]. cbn. f_equal. apply IH. injection H as H. exact H. Qed.
Theorem field_lists name buf recs f : field_create name buf recs = Ok f -> in_range (all_values recs) -> fits_memory (all_values recs) ->
  field_keys f = map fst recs /\ field_items f = Ok (field_values f) /\
  Forall2 (fun rec a => get_item f (fst rec) = Ok a) recs (field_values f) /\
  field_lengths f = Ok (map (fun rec => (fst rec, Z.of_nat (length (snd rec)))) recs).
Proof.
  intros Hc Hr Hm. destruct (field_create_ok name buf recs Hr Hm) as [Hok Hno].
  destruct (field_refused name buf recs Hr Hm) as [Hiff _]. destruct (proj1 Hiff (ex_intro _ f Hc)) as [Hne Hnd].
  destruct (Hok (conj Hne Hnd)) as (f' & E & Hf). assert (f' = f) by congruence. subst f'. clear E Hok Hno Hiff.
  assert (Hl : length (f_refs f) = length (map fst recs)).
  { destruct Hf as (_ & _ & -> & _). rewrite refs_from_length, !map_length. reflexivity. }
  split; [|split; [|split]].
  - unfold field_keys. destruct Hf as (_ & -> & _). apply ids_dict_dkeys, Hnd.
  - unfold field_items, field_values.
    etransitivity; [exact (rows_listed name recs f Hf Hnd (fun kr => slice (f_data f) (fst (snd kr)) (cast (f_refs_type f) (fst (snd kr) + snd (snd kr)))) _ eq_refl)|].
    rewrite <- (map_map snd (fun r => slice (f_data f) (fst r) (cast (f_refs_type f) (fst r + snd r)))), map_combine_snd by exact Hl. reflexivity.
  - eapply values_rows; eassumption.
  - unfold field_lengths. etransitivity; [exact (rows_listed name recs f Hf Hnd (fun kr => (fst kr, snd (snd kr))) _ eq_refl)|]. f_equal.
    destruct Hf as (_ & _ & -> & _). clear. generalize 0. induction recs as [|[id arr] recs IH]; intros s; [reflexivity|]. cbn. f_equal. apply IH.
Qed.
