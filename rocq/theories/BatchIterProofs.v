(** Lemmas about iterating over stored data in batches. *)
From Coq Require Import Strings.String.
From Verif Require Import Py PyLemmas PyStr NumpyModel JsonModel JsonProofs DbModel DbSpec DbProofs PackLemmas DbBatchProofs BatchModel BatchSpec BatchProofs MultipartModel MultipartSpec MultipartProofs BatchIterModel BatchIterSpec.
From Coq Require Import Permutation Sorting.Sorted Lia.
Local Open Scope Z_scope.
Local Open Scope list_scope.

(** ** arrays that are read are sane *)
Definition sane_rec (r : record) : Prop := length (snd r) = 2%nat /\ Forall sane (snd r).
Lemma get_item_in f id a name recs : field_for name recs f -> get_item f id = Ok a -> In id (map fst recs).
Proof.
  intros (_ & Hi & _) E. unfold get_item, ref_of in E. rewrite Hi in E. destruct (dget Z.eqb id (ids_dict (map fst recs))) as [i|] eqn:Ed; [|discriminate].
  apply (dget_Some_key Z.eqb Z.eqb_eq) in Ed. apply ids_dict_keys, Ed.
Qed.
Lemma read_sane nx ny recs p id r : db_for [nx; ny] recs p -> nx <> ny -> NoDup (map fst recs) -> well_shaped 2 recs -> columns_ok exact53 2 recs ->
  read_as 2 p id = Ok r -> sane_rec r.
Proof.
  intros Hd Hxy Hnd Hw Hc E. unfold read_as in E. destruct (db_cols p id) as [cols|] eqn:Ec; [|discriminate]. cbn [bind] in E.
  destruct (Nat.eqb (length cols) 2) eqn:El; [|discriminate]. apply Nat.eqb_eq in El.
  assert (Er : (id, cols) = r) by congruence. subst r. clear E.
  assert (Hin : In id (map fst recs)).
  { destruct Hd as (Hn & _ & _ & fs & Hlen & Hf & Hfs). unfold db_cols in Ec. rewrite Hn, Hf in Ec. destruct (Hfs 0%nat nx eq_refl) as (f0 & E0 & Hf0). destruct fs as [|fx fs]; [discriminate|]. cbn in E0. injection E0 as ->.
    assert (Hnd2 : NoDup [nx; ny]) by (constructor; [intros [H|[]]; congruence|constructor; [intros []|constructor]]).
    cbn [mapM] in Ec. rewrite (dget_combine [nx; ny] (f0 :: fs) 0 nx f0 Hnd2 eq_refl eq_refl) in Ec. destruct (get_item f0 id) eqn:Eg; [|discriminate].
    apply (get_item_in _ _ _ _ _ Hf0) in Eg. rewrite column_ids in Eg. exact Eg. }
  apply in_map_iff in Hin. destruct Hin as ([id' cin] & E & Hin). cbn [fst] in E. subst id'.
  destruct (example_read nx ny recs p id cin Hd Hxy Hnd Hw Hc Hin) as (ex & Eex & _ & Hsx & _ & _ & y & Ey & Hsy & _).
  unfold db_example in Eex. rewrite Ec in Eex. cbn [bind] in Eex. unfold to_example in Eex. cbn [snd fst] in Eex. destruct cols as [|cx [|cy [|]]]; try discriminate El.
  assert (Ee : new_example id cx (Some cy) = ex) by congruence. subst ex. cbn [new_example e_x e_y] in *. assert (y = cy) by congruence. subst y.
  split; [reflexivity|]. cbn [snd]. repeat constructor; assumption || apply Hsx || apply Hsy.
Qed.
Lemma sane_example r got : same_record r got -> sane_rec got -> exists ex, to_example got = Ok ex /\ example_of r ex.
Proof.
  intros [H1 H2] [Hl Hs]. destruct got as [id cols]. cbn [fst snd] in *. destruct cols as [|cx [|cy [|]]]; try discriminate Hl. exists (new_example id cx (Some cy)). split; [reflexivity|].
  pose proof (Forall_inv Hs) as Hx. pose proof (Forall_inv (Forall_inv_tail Hs)) as Hy. unfold example_of. cbn [new_example e_id e_x e_y e_x_raw e_y_raw]. split; [exact H1|]. split; [exact Hx|]. split; [reflexivity|]. split; [reflexivity|].
  exists cy. split; [reflexivity|]. split; [exact Hy|]. symmetry. exact H2.
Qed.
Lemma yield_map_Forall {A B} (P : B -> Prop) (f : A -> res B) l : (forall x y, In x l -> f x = Ok y -> P y) -> Forall P (fst (yield_map f l)).
Proof.
  induction l as [|x l IH]; intros H; [constructor|]. cbn [yield_map]. destruct (f x) as [y|] eqn:E; [|constructor].
  specialize (IH (fun x' y' Hx => H x' y' (or_intror Hx))). destruct (yield_map f l) as [ys fin]. constructor; [apply (H x y (or_introl eq_refl) E)|exact IH].
Qed.
Lemma yield_all_Forall {A B} (P : B -> Prop) (f : A -> stream B) l : (forall x, In x l -> Forall P (fst (f x))) -> Forall P (fst (yield_all f l)).
Proof.
  induction l as [|x l IH]; intros H; [constructor|]. cbn [yield_all]. pose proof (H x (or_introl eq_refl)) as Hx. specialize (IH (fun y Hy => H y (or_intror Hy))).
  destruct (f x) as [ys [e|]]; [exact Hx|]. destruct (yield_all f l) as [zs fin]. cbn [fst] in *. apply Forall_app. auto.
Qed.
Lemma mapM_Forall {A B} (P : B -> Prop) (f : A -> res B) l ys : (forall x y, In x l -> f x = Ok y -> P y) -> mapM f l = Ok ys -> Forall P ys.
Proof.
  revert ys. induction l as [|x l IH]; intros ys H; cbn [mapM]; [intros [= <-]; constructor|]. destruct (f x) as [y|] eqn:E; [|discriminate]. cbn [bind].
  destruct (mapM f l) as [zs|]; [|discriminate]. cbn [bind]. intros [= <-]. constructor; [apply (H x y (or_introl eq_refl) E)|apply IH; [intros x' y' Hx; apply H; right; exact Hx|reflexivity]].
Qed.

(** ** over_stream *)
Lemma over_stream_ok {A B} (f : A -> res B) l fin ys : mapM f l = Ok ys -> over_stream f (l, fin) = (ys, fin).
Proof. intros E. unfold over_stream. cbn [fst snd]. rewrite (yield_map_ok _ _ _ E). reflexivity. Qed.
Lemma over_stream_raises {A B} (f : A -> res B) l e : exists ys e', over_stream f (l, Some e) = (ys, Some e').
Proof. unfold over_stream. cbn [fst snd]. destruct (yield_map f l) as [ys [e'|]]; eauto. Qed.
Lemma examples_exist recs out : Forall2 same_record recs out -> Forall sane_rec out -> exists data, mapM to_example out = Ok data /\ Forall2 example_of recs data.
Proof.
  induction 1 as [|r got recs out H _ IH]; intros Hs; [exists []; split; [reflexivity|constructor]|]. inversion Hs as [|? ? H1 H2]; subst.
  destruct (IH H2) as (data & Ed & Hd). destruct (sane_example r got H H1) as (ex & Ex & Hex). exists (ex :: data). cbn [mapM]. rewrite Ex, Ed. split; [reflexivity|]. constructor; assumption.
Qed.
Lemma groups_exist groups out : Forall2 (Forall2 same_record) groups out -> Forall (Forall sane_rec) out -> exists data, mapM (mapM to_example) out = Ok data /\ Forall2 (Forall2 example_of) groups data.
Proof.
  induction 1 as [|g got groups out H _ IH]; intros Hs; [exists []; split; [reflexivity|constructor]|]. inversion Hs as [|? ? H1 H2]; subst.
  destruct (IH H2) as (data & Ed & Hd). destruct (examples_exist g got H H1) as (ex & Ex & Hex). exists (ex :: data). cbn [mapM]. rewrite Ex, Ed. split; [reflexivity|]. constructor; assumption.
Qed.

(** ** the read loop *)
Lemma read_from_none max_toks max_sents data : forall batch max_len, read_from max_toks max_sents batch max_len data None = read_loop max_toks max_sents batch max_len data.
Proof.
  induction data as [|ex data IH]; intros batch max_len; [reflexivity|]. cbn [read_from read_loop]. destruct (e_y ex) as [y|]; [|reflexivity].
  rewrite !IH. reflexivity.
Qed.
Lemma read_from_raises max_toks max_sents data e : forall batch max_len, exists gs e', read_from max_toks max_sents batch max_len data (Some e) = (gs, Some e').
Proof.
  induction data as [|ex data IH]; intros batch max_len; cbn [read_from]; [eauto|]. destruct (e_y ex) as [y|]; [|eauto].
  destruct (Z.min _ _ =? 0); [apply IH|]. cbv zeta. destruct (_ && _); [apply IH|]. destruct (max_toks <? _); [eauto|].
  destruct (IH [ex] (Z.max (a_len (e_x ex)) (a_len y))) as (gs & e' & ->). eauto.
Qed.
Lemma wrap_raises m sd bf gs e : exists bs e', wrap m sd bf gs (Some e) = (bs, Some e').
Proof.
  induction gs as [|g gs IH]; cbn [wrap]; [eauto|]. destruct (make_batch m sd bf g); [|eauto]. destruct IH as (bs & e' & ->). eauto.
Qed.

(** ** batches show records *)
Definition rec_of (ex : example) : rec := (e_id ex, [a_vals (e_x ex); y_vals ex]).
Lemma rec_of_example r ex : example_of r ex -> rec_of ex = r.
Proof.
  intros (Hi & _ & _ & _ & y & Ey & _ & Es). unfold rec_of, y_vals. rewrite Ey. destruct r as [id cols]. cbn [fst snd] in *. congruence.
Qed.
Lemma recs_of_examples g exs : Forall2 example_of g exs -> map rec_of exs = g.
Proof. induction 1 as [|r ex g exs H _ IH]; [reflexivity|]. cbn [map]. rewrite (rec_of_example _ _ H), IH. reflexivity. Qed.
Lemma stable_desc_map {A B} (f : A -> B) (k : A -> Z) (k' : B -> Z) l l' : (forall a, k' (f a) = k a) -> stable_desc k l l' -> stable_desc k' (map f l) (map f l').
Proof.
  intros Hk (Hp & Hs & Hf). split; [apply Permutation_map, Hp|]. split.
  - clear - Hk Hs. induction Hs as [|a l Hs IH Hl]; [constructor|]. cbn [map]. constructor; [exact IH|]. apply Forall_map. eapply Forall_impl; [|exact Hl]. intros b Hb. rewrite !Hk. exact Hb.
  - assert (E : forall k0 l0, filter (fun b => k' b =? k0) (map f l0) = map f (filter (fun a => k a =? k0) l0)).
    { intros k0 l0. induction l0 as [|a l0 IH]; [reflexivity|]. cbn [map filter]. rewrite Hk. destruct (k a =? k0); cbn [map]; rewrite IH; reflexivity. }
    intros k0. rewrite !E, Hf. reflexivity.
Qed.
Lemma batch_shows m sd bf g exs b : sane_meta m -> Forall2 example_of g exs -> Forall (good m) exs -> g <> [] -> make_batch m sd bf exs = Ok b -> shows m sd bf g b.
Proof.
  intros Hm Hf Hg Hne E. assert (Hne' : exs <> []) by (intros ->; inversion Hf; subst; contradiction).
  assert (Hx : Forall (good_x m) exs) by (eapply Forall_impl; [|exact Hg]; intros ex H; apply H). assert (Hy : Forall (good_y m) exs) by (eapply Forall_impl; [|exact Hg]; intros ex H; apply H).
  destruct (make_batch_ok m sd bf exs Hm Hne' Hx Hy) as (b' & exs' & y & E' & Ha & Hl & Hi & Ey & Px & Py & _). rewrite E in E'. assert (b = b') by congruence. subst b'.
  exists (map rec_of exs'), y. rewrite <- (recs_of_examples _ _ Hf).
  split. { destruct sd; cbn [arranged_as] in Ha; [|rewrite Ha; reflexivity]. eapply stable_desc_map; [|exact Ha]. intros ex. reflexivity. }
  split; [rewrite map_length; exact Hl|]. split; [rewrite map_map; exact Hi|]. split; [exact Ey|]. rewrite !map_map. split; [exact Px|exact Py].
Qed.
Lemma used_example r ex : example_of r ex -> used r = example_used ex.
Proof.
  intros H. rewrite <- (rec_of_example _ _ H). unfold used, rec_of, example_used. cbn [snd forallb]. rewrite andb_true_r. reflexivity.
Qed.
Lemma used_usable r : used r = true <-> usable r.
Proof.
  unfold used, usable. rewrite forallb_forall. split; intros H c Hc; specialize (H c Hc); destruct c; try discriminate; try reflexivity; contradiction.
Qed.
Lemma good_example m r ex : example_of r ex -> wanted m r -> good m ex.
Proof.
  intros H [Wx Wy]. pose proof H as (_ & Sx & _ & _ & y & Ey & Sy & Es). rewrite Es in Wx, Wy. cbn [nth] in Wx, Wy. split; [split; assumption|]. exists y. auto.
Qed.
Lemma filter_used recs data : Forall2 example_of recs data -> Forall2 example_of (filter used recs) (filter example_used data).
Proof.
  induction 1 as [|r ex recs data H _ IH]; [constructor|]. cbn [filter]. rewrite (used_example _ _ H). destruct (example_used ex); [constructor; assumption|exact IH].
Qed.
Lemma split_groups exss : forall recs, Forall2 example_of recs (concat exss) -> exists groups, concat groups = recs /\ Forall2 (Forall2 example_of) groups exss.
Proof.
  induction exss as [|exs exss IH]; intros recs H; cbn [concat] in H; [inversion H; subst; exists []; split; [reflexivity|constructor]|].
  apply Forall2_app_inv_r in H. destruct H as (r1 & r2 & H1 & H2 & ->). destruct (IH r2 H2) as (gs & <- & Hg). exists (r1 :: gs). split; [reflexivity|]. constructor; assumption.
Qed.
Lemma shows_all m sd bf groups exss bs : sane_meta m -> Forall2 (Forall2 example_of) groups exss -> (forall g, In g groups -> g <> [] /\ Forall (wanted m) g) ->
  Forall2 (fun g b => make_batch m sd bf g = Ok b) exss bs -> Forall2 (shows m sd bf) groups bs.
Proof.
  intros Hm Hf. revert bs. induction Hf as [|g exs groups exss H _ IH]; intros bs Hw Hb; inversion Hb as [|? b ? bs' E Hb']; subst; constructor.
  - destruct (Hw g (or_introl eq_refl)) as [Hne Hg]. eapply batch_shows; [exact Hm|exact H| |exact Hne|exact E].
    clear - H Hg. induction H as [|r ex g exs H _ IH]; [constructor|]. inversion Hg; subst. constructor; [eapply good_example; eassumption|auto].
  - apply IH; [intros g' Hg'; apply Hw; right; exact Hg'|exact Hb'].
Qed.
Lemma groups_ok m sd bf groups exss fin : sane_meta m -> Forall2 (Forall2 example_of) groups exss -> (forall g, In g groups -> g <> [] /\ Forall (wanted m) g) ->
  exists bs, wrap m sd bf exss fin = (bs, fin) /\ Forall2 (shows m sd bf) groups bs.
Proof.
  intros Hm Hf Hw. destruct (wrap_ok m sd bf exss fin) as (bs & E & Hb).
  { intros exs Hin. assert (H : exists g, In g groups /\ Forall2 example_of g exs).
    { clear - Hf Hin. induction Hf as [|g e gs es H _ IH]; [destruct Hin|]. destruct Hin as [->|Hin]; [exists g; split; [left; reflexivity|exact H]|]. destruct (IH Hin) as (g' & Hg & H'). exists g'. split; [right; exact Hg|exact H']. }
    destruct H as (g & Hg & H). destruct (Hw g Hg) as [Hne Hg']. apply make_batch_good; [exact Hm|intros ->; inversion H; subst; contradiction|].
    intros ex Hex. clear - H Hg' Hex. induction H as [|r e g es H _ IH]; [destruct Hex|]. inversion Hg'; subst. destruct Hex as [->|Hex]; [eapply good_example; eassumption|auto]. }
  exists bs. split; [exact E|]. eapply shows_all; eassumption.
Qed.

(** ** stored data *)
Lemma exact_incl n l recs : incl l recs -> columns_ok exact53 n recs -> columns_ok exact53 n l.
Proof.
  intros Hi H j Hj. specialize (H j Hj). unfold exact53, all_values, column in *. rewrite Forall_forall in *. intros v Hv. apply H. rewrite map_map in *. apply in_concat in Hv. destruct Hv as (c & Hc & Hv).
  apply in_concat. exists c. split; [|exact Hv]. apply in_map_iff in Hc. destruct Hc as (r & <- & Hr). apply in_map_iff. exists r. auto.
Qed.
Lemma pairs_storable nx ny recs : pairs_ok nx ny recs -> storable [nx; ny] recs /\ Forall scalars [nx; ny] /\ nx <> ny.
Proof.
  intros (_ & _ & Hnd & Sx & Sy & Hw & Hc & Hm). split; [|split].
  - split; [exact Hnd|]. split; [discriminate|]. split; [exact Hw|]. split; [apply exact_columns_faithful, Hc|exact Hm].
  - repeat constructor; assumption.
  - inversion Hnd as [|? ? _ Hn]; subst. inversion Hn as [|? ? Hni _]; subst. intros ->. apply Hni. left. reflexivity.
Qed.
Section Finished.
Variables (w : world) (nx ny : str) (pad : nat) (ts ts' : list piece) (keep : bool).
Hypotheses (Hnums : NoDup (map p_num ts)) (Hp : Permutation ts ts') (Hok : Forall (piece_ok [nx; ny]) ts) (Hxy : nx <> ny) (Hex : columns_ok exact53 2 (p_all ts)).
Let d := finished w [nx; ny] pad ts ts'.
Let m := loaded pad ts' 2 keep false.
Lemma piece_sane t id r : In t ts -> read_as 2 (p_db t) id = Ok r -> sane_rec r.
Proof.
  intros Ht. rewrite Forall_forall in Hok. destruct (Hok t Ht) as (_ & Hd & Hnd & Hw & _). apply (read_sane nx ny (p_recs t)); auto.
  eapply exact_incl; [|exact Hex]. intros x Hx. apply in_concat. exists (p_recs t). split; [apply in_map, Ht|exact Hx].
Qed.
Lemma iter_sane po ids : Forall sane_rec (fst (mdb_iter d m po ids)).
Proof.
  unfold mdb_iter, m, loaded. cbn [m_parts m_mem m_keep m_shuffle m_arity]. rewrite combine_map. apply yield_all_Forall. intros pm Hin. apply in_map_iff in Hin. destruct Hin as (t & <- & Ht). cbn [fst snd].
  assert (Ht' : In t ts) by (eapply Permutation_in; [apply Permutation_sym, Hp|exact Ht]).
  assert (E : (if keep || Nat.eqb (length ts') 1 then match (if keep || Nat.eqb (length ts') 1 then Some (p_db t) else None) with Some p => Ok p | None => Raise TypeError end else db_load d (p_name pad t)) = Ok (p_db t)).
  { destruct (keep || Nat.eqb (length ts') 1); [reflexivity|]. apply load_part; assumption. }
  rewrite E. rewrite andb_false_r. cbn [andb]. apply yield_map_Forall. intros id r _. apply piece_sane, Ht'.
Qed.
Lemma eq_len_sane po toks sents ids arr sh : shuffles po -> Forall (Forall sane_rec) (fst (mdb_eq_len d m po toks sents ids arr sh)).
Proof.
  intros Hpo. unfold mdb_eq_len, m, loaded. cbn [m_parts m_mem m_keep m_shuffle m_arity]. rewrite combine_map. apply yield_all_Forall. intros pm Hin.
  apply (Permutation_in _ (Permutation_sym (Hpo _))) in Hin. apply in_map_iff in Hin. destruct Hin as (t & <- & Ht). cbn [fst snd].
  assert (Ht' : In t ts) by (eapply Permutation_in; [apply Permutation_sym, Hp|exact Ht]).
  assert (E : (match (if keep || Nat.eqb (length ts') 1 then Some (p_db t) else None) with Some p => Ok p | None => db_load d (p_name pad t) end) = Ok (p_db t)).
  { destruct (keep || Nat.eqb (length ts') 1); [reflexivity|]. apply load_part; assumption. }
  rewrite E. unfold part_eq_len. destruct (eq_len_batch_ids _ _ _ _ _) as [[|b bs]|]; [constructor| |constructor].
  apply yield_map_Forall. intros idl r _ E2. eapply mapM_Forall; [|exact E2]. intros id r' _. apply piece_sane, Ht'.
Qed.
End Finished.
(** what the iterator gets from stored data *)
Lemma file_db nx ny recs p : pairs_ok nx ny recs -> db_create [nx; ny] recs = Ok p -> db_for [nx; ny] recs p.
Proof.
  intros Hpk E. pose proof (pairs_storable _ _ _ Hpk) as ((_ & _ & Hw & Hf & Hm) & _ & Hxy). destruct Hpk as (Hne & Hnd & _).
  assert (Hnd2 : NoDup [nx; ny]) by (constructor; [intros [H|[]]; congruence|constructor; [intros []|constructor]]).
  destruct (proj1 (db_create_ok [nx; ny] recs Hnd2 ltac:(discriminate) Hw (faithful_columns_range _ _ Hf) Hm) (conj Hne Hnd)) as (d' & E' & Hd). rewrite E in E'. congruence.
Qed.
(** opening: what the source is *)
Inductive source_of (nx ny : str) (recs : list rec) : option Z -> bool -> source -> Prop :=
| source_file p keep : db_create [nx; ny] recs = Ok p -> source_of nx ny recs None keep (OneDb p)
| source_dir w ow pad size d0 files m keep : lists w -> 1 <= size -> d0 = None \/ d0 = Some [] \/ ow = true ->
    now (mdb_create w [nx; ny] ow pad size (recs, None) d0) = Some files -> mdb_load (Some files) (Some 2%nat) keep false = Ok m ->
    source_of nx ny recs (Some size) keep (Parts files m).
Lemma open_source nx ny recs size n is_path bs bm sd bf sort_by keep it : stored nx ny recs size n -> open_iterable n is_path bs bm sd bf sort_by keep = Ok it ->
  source_of nx ny recs size keep (it_data it) /\ it_meta it = bm /\ it_toks it = fst (limits bs) /\ it_sents it = snd (limits bs) /\ it_desc it = sd /\ it_first it = bf /\ strategy_of sort_by = Ok (it_how it).
Proof.
  intros Hst E. unfold open_iterable in E. destruct (limits bs) as [toks sents] eqn:Elim. destruct (strategy_of sort_by) as [how|] eqn:Eh; [|discriminate]. cbn [bind] in E.
  destruct Hst as [p Ep|w ow pad sz d0 files Hl Hsz Hd0 En].
  - cbn [load_content bind] in E. assert (Ei : MkIter (OneDb p) bm toks sents sd bf how = it) by congruence. subst it. cbn. repeat split; auto. constructor. exact Ep.
  - destruct is_path; [|discriminate]. destruct (mdb_load (Some files) (Some 2%nat) keep false) as [m|] eqn:Em; [|discriminate]. cbn [bind] in E.
    assert (Ei : MkIter (Parts files m) bm toks sents sd bf how = it) by congruence. subst it. cbn. repeat split; auto. econstructor; eauto.
Qed.
Lemma source_examples nx ny recs size keep src c : pairs_ok nx ny recs -> source_of nx ny recs size keep src -> fair c ->
  exists data recs', examples_of src c = (data, None) /\ Permutation recs recs' /\ Forall2 example_of recs' data.
Proof.
  intros Hpk Hs (Hpo & Hio & _ & _). pose proof (pairs_storable _ _ _ Hpk) as (Hst & Hsc & Hxy). pose proof Hpk as (Hne & Hnd & Hnn & _ & _ & Hw & Hc & Hm).
  destruct Hs as [p keep Ep|w ow pad sz d0 files m keep Hl Hsz Hd0 En Em].
  - destruct (db_examples nx ny recs p (ids_order c p) Ep Hxy Hw Hc Hm (Hio p)) as (data & recs' & Ed & Hp & Hf). exists data, recs'. cbn [examples_of]. rewrite (yield_map_ok _ _ _ Ed). auto.
  - destruct (create_pieces w [nx; ny] ow pad sz recs d0 Hl Hsc Hst Hne Hnd Hsz (init_ok w ow d0 Hd0)) as (ts & ts' & chunks & _ & _ & Hnums & Hp & Htne & Hok & Hall & Ef & _).
    pose proof (finished_complete w [nx; ny] pad ts ts' Hnums Hp Htne Hsc Hnn Hok) as Hcomp. rewrite En in Ef. rewrite <- Ef, Hall in Hcomp. 
    destruct (Hcomp (Some 2%nat) keep false (or_intror eq_refl) ltac:(discriminate)) as (m' & Em' & _ & Hit). rewrite Em in Em'. assert (m = m') by congruence. subst m'.
    destruct (Hit (parts_order c) (ids_order c) Hpo Hio) as (out & recs' & Eo & Hpr & Ho).
    assert (Hsane : Forall sane_rec out).
    { assert (Eload : mdb_load (Some files) (Some 2%nat) keep false = Ok (loaded pad ts' 2 keep false)) by (rewrite Ef; apply (load_finished w [nx; ny] pad ts ts' (Some 2%nat) keep false); assumption).
      rewrite Em in Eload. assert (m = loaded pad ts' 2 keep false) by congruence. subst m. rewrite Ef in Eo.
      pose proof (iter_sane w nx ny pad ts ts' keep Hnums Hp Hok Hxy ltac:(rewrite Hall; exact Hc) (parts_order c) (ids_order c)) as H. rewrite Eo in H. exact H. }
    destruct (examples_exist recs' out Ho Hsane) as (data & Ed & Hf). exists data, recs'. cbn [examples_of]. rewrite Eo, (over_stream_ok _ _ _ _ Ed). auto.
Qed.
Lemma open_count nx ny recs size keep it : pairs_ok nx ny recs -> source_of nx ny recs size keep (it_data it) -> num_items it = Z.of_nat (length recs).
Proof.
  intros Hpk Hs. unfold num_items. pose proof (pairs_storable _ _ _ Hpk) as (Hst & Hsc & Hxy). pose proof Hpk as (Hne & Hnd & _).
  destruct Hs as [p keep Ep|w ow pad sz d0 files m keep Hl Hsz Hd0 En Em].
  - apply (file_db nx ny recs p Hpk Ep).
  - destruct (create_complete w [nx; ny] ow pad sz recs d0 Hl Hsc Hst Hne Hnd Hsz Hd0) as [Hcomp _]. rewrite En in Hcomp.
    destruct (Hcomp (Some 2%nat) keep false (or_intror eq_refl) ltac:(discriminate)) as (m' & Em' & Hsize & _). rewrite Em in Em'. assert (m = m') by congruence. subst m'. exact Hsize.
Qed.
(** ** C98: reading in order *)
Lemma in_limits_groups toks sents groups exss : sents_ok sents -> Forall2 (Forall2 example_of) groups exss -> greedy (fits_seq toks sents) exss ->
  (forall r, In r (concat groups) -> longest r <= toks) -> forall g, In g groups -> in_limits toks sents g.
Proof.
  intros Hs Hf Hg Hle.
  assert (Hle' : forall ex, In ex (concat exss) -> example_size ex <= toks).
  { assert (H : Forall2 example_of (concat groups) (concat exss)) by (clear - Hf; induction Hf; cbn [concat]; [constructor|apply Forall2_app; assumption]).
    intros ex Hex. clear - H Hex Hle. induction H as [|r e l l' H _ IH]; [destruct Hex|]. destruct Hex as [->|Hex]; [rewrite (example_of_size _ _ H); apply Hle; left; reflexivity|apply IH; [intros r' Hr'; apply Hle; right; exact Hr'|exact Hex]]. }
  pose proof (fits_seq_bounds toks sents exss Hs Hg Hle') as Hb. clear Hg Hle Hle'. intros g Hin.
  assert (H : exists exs, In exs exss /\ Forall2 example_of g exs).
  { clear - Hf Hin. induction Hf as [|g0 e gs es H _ IH]; [destruct Hin|]. destruct Hin as [->|Hin]; [exists e; split; [left; reflexivity|exact H]|]. destruct (IH Hin) as (e' & He & H'). exists e'. split; [right; exact He|exact H']. }
  destruct H as (exs & He & H). destruct (Hb exs He) as (B1 & B2 & B3). rewrite (example_of_max g exs H) in B2. assert (El : length g = length exs) by (clear - H; induction H; [reflexivity|cbn; congruence]). rewrite <- El in B2, B3.
  split; [|auto]. intros ->. apply B1. inversion H. reflexivity.
Qed.
Lemma iterate_source recs recs' data bs bm sd bf it c : sane_meta bm -> sents_ok (snd (limits bs)) ->
  (forall r, In r recs -> usable r -> wanted bm r) -> it_how it = ReadAll -> it_meta it = bm -> it_toks it = fst (limits bs) -> it_sents it = snd (limits bs) -> it_desc it = sd -> it_first it = bf ->
  examples_of (it_data it) c = (data, None) -> Permutation recs recs' -> Forall2 example_of recs' data ->
  ((forall r, In r recs -> usable r -> longest r <= fst (limits bs)) ->
   exists groups out, iterate it c = (out, None) /\ Forall2 (shows bm sd bf) groups out /\ concat groups = filter used recs' /\ forall g, In g groups -> in_limits (fst (limits bs)) (snd (limits bs)) g) /\
  ((exists r, In r recs /\ usable r /\ fst (limits bs) < longest r) ->
   exists groups out r lost rest, iterate it c = (out, Some OtherError) /\ Forall2 (shows bm sd bf) groups out /\ filter used recs' = concat groups ++ lost ++ r :: rest /\
     fst (limits bs) < longest r /\ forall g, In g groups -> in_limits (fst (limits bs)) (snd (limits bs)) g).
Proof.
  intros Hm Hs Hw Ehow Em Et Es Ed Ef Edata Hp Hf.
  assert (Hin : forall r, In r recs' <-> In r recs) by (intros r; split; apply Permutation_in; [apply Permutation_sym|]; exact Hp).
  assert (Hy : Forall (fun ex => e_y ex <> None) data) by (clear - Hf; induction Hf as [|r ex l l' (_ & _ & _ & _ & y & Ey & _) _ IH]; constructor; [congruence|exact IH]).
  pose proof (filter_used recs' data Hf) as Hfu.
  assert (Hwant : forall r, In r (filter used recs') -> wanted bm r) by (intros r Hr; apply filter_In in Hr; destruct Hr as [Hr Hu]; apply Hw; [apply Hin, Hr|apply used_usable, Hu]).
  set (toks := fst (limits bs)) in *. set (sents := snd (limits bs)) in *.
  assert (Eit : iterate it c = (let (groups, fin) := read_loop toks sents [] 0 data in wrap bm sd bf groups fin)).
  { unfold iterate. rewrite Ehow, Edata, read_from_none, Em, Et, Es, Ed, Ef. reflexivity. }
  split.
  - intros Hle.
    destruct (loop_ok toks sents Hs data Hy) with (gs0 := @nil (list example)) (batch := @nil example) as (gs & E & Hcat & Hg).
    { intros ex Hex. clear - Hfu Hex Hle Hin. assert (Hall : forall r, In r (filter used recs') -> longest r <= toks) by (intros r Hr; apply filter_In in Hr; destruct Hr; apply Hle; [apply Hin; assumption|apply used_usable; assumption]).
      clear Hle Hin. induction Hfu as [|r e l l' H _ IH]; [destruct Hex|]. destruct Hex as [->|Hex]; [rewrite (example_of_size _ _ H); apply Hall; left; reflexivity|apply IH; [exact Hex|intros r' Hr'; apply Hall; right; exact Hr']]. }
    { split; [reflexivity|]. intros H. exfalso. apply H. reflexivity. }
    change (max_size []) with 0 in E. cbn [app] in *. rewrite <- Hcat in Hfu. destruct (split_groups gs _ Hfu) as (groups & Hcg & Hgs).
    assert (Hlim : forall g, In g groups -> in_limits toks sents g).
    { apply (in_limits_groups toks sents groups gs Hs Hgs Hg). intros r Hr. rewrite Hcg in Hr. apply filter_In in Hr. destruct Hr. apply Hle; [apply Hin; assumption|apply used_usable; assumption]. }
    destruct (groups_ok bm sd bf groups gs None Hm Hgs) as (out & Ew & Ho).
    { intros g Hgi. split; [apply (Hlim g Hgi)|]. apply Forall_forall. intros r Hr. apply Hwant. rewrite <- Hcg. apply in_concat. eauto. }
    exists groups, out. rewrite Eit, E, Ew. auto.
  - intros (r0 & Hr0 & Hu0 & Hlong0).
    assert (Hfirst : exists before r after, filter used recs' = before ++ r :: after /\ (forall q, In q before -> longest q <= toks) /\ toks < longest r).
    { assert (Hin0 : In r0 (filter used recs')) by (apply filter_In; split; [apply Hin, Hr0|apply used_usable, Hu0]). clear - Hin0 Hlong0. induction (filter used recs') as [|x l IH]; [destruct Hin0|].
      destruct (Z_le_gt_dec (longest x) toks) as [Hx|Hx].
      - destruct Hin0 as [->|Hin0]; [lia|]. destruct (IH Hin0) as (b & r & a & -> & Hb & Hr). exists (x :: b), r, a. split; [reflexivity|]. split; [|exact Hr]. intros q [<-|Hq]; auto.
      - exists [], x, l. split; [reflexivity|]. split; [intros q []|lia]. }
    destruct Hfirst as (before & r & after & Efu & Hb & Hr). rewrite Efu in Hfu.
    apply Forall2_app_inv_l in Hfu. destruct Hfu as (eb & ea & Hfb & Hfa & Eex). inversion Hfa as [|? er ? eaf Her Hfa' E1 E2]; subst ea.
    destruct (loop_raise toks sents Hs data Hy eb er eaf Eex) with (gs0 := @nil (list example)) (batch := @nil example) as (gs & lost & E & Hcat & Hg1 & Hg2).
    { intros ex Hex. clear - Hfb Hex Hb. induction Hfb as [|q e l l' H _ IH]; [destruct Hex|]. destruct Hex as [->|Hex]; [rewrite (example_of_size _ _ H); apply Hb; left; reflexivity|apply IH; [intros q' Hq'; apply Hb; right; exact Hq'|exact Hex]]. }
    { rewrite (example_of_size _ _ Her). exact Hr. }
    { split; [reflexivity|]. intros Hz. exfalso. apply Hz. reflexivity. }
    change (max_size []) with 0 in E. cbn [app] in *. rewrite <- Hcat in Hfb. apply Forall2_app_inv_r in Hfb. destruct Hfb as (b1 & b2 & Hb1 & Hb2 & Eb). destruct (split_groups gs _ Hb1) as (groups & Hcg & Hgs).
    assert (Hgr : gs <> [] -> greedy (fits_seq toks sents) (gs ++ [lost])) by (intros Hne; apply Hg2; intros Hl; apply Hne, Hg1, Hl).
    assert (Hlim : forall g, In g groups -> in_limits toks sents g).
    { destruct gs as [|g0 gs0]; [inversion Hgs; intros g []|]. specialize (Hgr ltac:(discriminate)).
      assert (Hgs2 : Forall2 (Forall2 example_of) (groups ++ [b2]) ((g0 :: gs0) ++ [lost])) by (apply Forall2_app; [exact Hgs|constructor; [exact Hb2|constructor]]).
      intros g Hgi. apply (in_limits_groups toks sents _ _ Hs Hgs2 Hgr); [|apply in_or_app; left; exact Hgi].
      intros q Hq. rewrite concat_app, Hcg in Hq. cbn [concat] in Hq. rewrite app_nil_r in Hq. apply Hb. rewrite Eb. exact Hq. }
    destruct (groups_ok bm sd bf groups gs (Some OtherError) Hm Hgs) as (out & Ew & Ho).
    { intros g Hgi. split; [apply (Hlim g Hgi)|]. apply Forall_forall. intros q Hq. apply Hwant. rewrite Efu, Eb. apply in_or_app. left. apply in_or_app. left. rewrite <- Hcg. apply in_concat. eauto. }
    exists groups, out, r, b2, after. rewrite Eit, E, Ew. split; [reflexivity|]. split; [exact Ho|]. split; [|auto]. etransitivity; [exact Efu|]. rewrite Eb, <- app_assoc. apply (f_equal (fun l => l ++ b2 ++ r :: after)). symmetry. exact Hcg.
Qed.

Theorem iterate_in_order nx ny recs size n is_path bs bm sd bf sort_by keep it c : pairs_ok nx ny recs -> stored nx ny recs size n -> fair c -> sane_meta bm -> sents_ok (snd (limits bs)) ->
  (forall r, In r recs -> usable r -> wanted bm r) -> strategy_of sort_by = Ok ReadAll -> open_iterable n is_path bs bm sd bf sort_by keep = Ok it ->
  num_items it = Z.of_nat (length recs) /\
  exists recs', Permutation recs recs' /\
  ((forall r, In r recs -> usable r -> longest r <= fst (limits bs)) ->
   exists groups out, iterate it c = (out, None) /\ Forall2 (shows bm sd bf) groups out /\ concat groups = filter used recs' /\ forall g, In g groups -> in_limits (fst (limits bs)) (snd (limits bs)) g) /\
  ((exists r, In r recs /\ usable r /\ fst (limits bs) < longest r) ->
   exists groups out r lost rest, iterate it c = (out, Some OtherError) /\ Forall2 (shows bm sd bf) groups out /\ filter used recs' = concat groups ++ lost ++ r :: rest /\
     fst (limits bs) < longest r /\ forall g, In g groups -> in_limits (fst (limits bs)) (snd (limits bs)) g).
Proof.
  intros Hpk Hst Hfair Hm Hs Hw Eh Eo. destruct (open_source _ _ _ _ _ _ _ _ _ _ _ _ _ Hst Eo) as (Hsrc & Em & Et & Es & Ed & Ef & Eh'). rewrite Eh in Eh'. assert (Ehow : it_how it = ReadAll) by congruence.
  split; [apply (open_count nx ny recs size keep it Hpk Hsrc)|].
  destruct (source_examples nx ny recs size keep (it_data it) c Hpk Hsrc Hfair) as (data & recs' & Edata & Hp & Hf). exists recs'. split; [exact Hp|].
  exact (iterate_source recs recs' data bs bm sd bf it c Hm Hs Hw Ehow Em Et Es Ed Ef Edata Hp Hf).
Qed.

(** ** C99: batches of equal length *)
Definition eq_limits (toks : Z) (sents : option Z) (g : list rec) : Prop :=
  in_budget toks g /\ match sents with Some m => Z.of_nat (length g) <= m + 1 | None => True end.
Lemma concat_perm {A} (a b : list (list A)) : Permutation a b -> Permutation (concat a) (concat b).
Proof. induction 1; cbn [concat]; [constructor|apply Permutation_app_head; assumption|rewrite !app_assoc; apply Permutation_app_tail, Permutation_app_comm|eapply perm_trans; eassumption]. Qed.
Lemma file_eq_len nx ny recs p c toks sents : pairs_ok nx ny recs -> db_create [nx; ny] recs = Ok p -> fair c -> match sents with Some m => 0 <= m | None => True end ->
  let s := eq_len_of_source (OneDb p) toks sents c in
  ((exists r, In r recs /\ usable r) -> (forall r, In r recs -> usable r -> longest r <= toks) ->
   exists groups exss, s = (exss, None) /\ Forall2 (Forall2 example_of) groups exss /\ (forall g, In g groups -> eq_limits toks sents g) /\
     NoDup (concat groups) /\ (forall r, In r (concat groups) <-> In r recs /\ usable r)) /\
  ((forall r, In r recs -> ~ usable r) \/ (exists r, In r recs /\ usable r /\ toks < longest r) -> exists out e, s = (out, Some e)).
Proof.
  intros Hpk Ep (Hpo & Hio & Harr & Hsh) Hms s. pose proof (pairs_storable _ _ _ Hpk) as (Hst & Hsc & Hxy). pose proof Hpk as (Hne & Hnd & Hnn & _ & _ & Hw & Hc & Hm). split.
  - intros Hex Hle. destruct (db_eq_len_examples nx ny recs p toks sents (ids_order c p) (arranged c) (shuffled c) Ep Hxy Hw Hc Hm (Hio p) Harr Hsh Hms Hex Hle) as (batches & groups & out & Eo & Hg & Hnb & Hin & Hp & Ho).
    exists groups, out. unfold s, eq_len_of_source. rewrite Eo. split; [reflexivity|]. split; [exact Ho|]. split; [|split].
    + intros g Hgi. apply (Permutation_in _ (Permutation_sym Hp)) in Hgi.
      destruct (eq_len_bounds toks sents batches Hg ltac:(intros r Hr; apply Hin in Hr; apply Hle; apply Hr) Hms g Hgi) as (B1 & B2 & B3). split; [split; assumption|exact B3].
    + eapply Permutation_NoDup; [apply concat_perm, Hp|exact Hnb].
    + intros r. rewrite <- Hin. split; apply Permutation_in; [apply Permutation_sym|]; apply concat_perm, Hp.
  - assert (Hnd2 : NoDup [nx; ny]) by (constructor; [intros [H|[]]; congruence|constructor; [intros []|constructor]]).
    destruct (eq_len_ids [nx; ny] recs p toks sents (ids_order c p) (arranged c) (file_db _ _ _ _ Hpk Ep) Hnd2 ltac:(discriminate) Hw Hnd (Hio p) Harr Hms) as (H1 & H2 & _).
    unfold s, eq_len_of_source, eq_len_examples. intros [H|H]; [rewrite (H1 H)|rewrite (H2 H)]; cbn [bind]; eauto.
Qed.
Lemma source_eq_len nx ny recs size keep src c toks sents : pairs_ok nx ny recs -> source_of nx ny recs size keep src -> fair c -> match sents with Some m => 0 <= m | None => True end ->
  exists parts, parts_of size recs parts /\
  let s := eq_len_of_source src toks sents c in
  ((forall part, In part parts -> exists r, In r part /\ usable r) -> (forall r, In r recs -> usable r -> longest r <= toks) ->
   exists groups exss, s = (exss, None) /\ Forall2 (Forall2 example_of) groups exss /\ (forall g, In g groups -> eq_limits toks sents g /\ exists part, In part parts /\ incl g part) /\
     NoDup (concat groups) /\ (forall r, In r (concat groups) <-> In r recs /\ usable r)) /\
  ((exists part, In part parts /\ forall r, In r part -> ~ usable r) \/ (exists r, In r recs /\ usable r /\ toks < longest r) -> exists out e, s = (out, Some e)).
Proof.
  intros Hpk Hs Hfair Hms. destruct Hs as [p keep Ep|w ow pad sz d0 files m keep Hl Hsz Hd0 En Em].
  - exists [recs]. split; [reflexivity|]. destruct (file_eq_len nx ny recs p c toks sents Hpk Ep Hfair Hms) as [H1 H2]. split.
    + intros Hpart Hle. destruct (H1 (Hpart recs (or_introl eq_refl)) Hle) as (groups & exss & E & Ho & Hlim & Hn & Hin). exists groups, exss. split; [exact E|]. split; [exact Ho|]. split; [|auto].
      intros g Hg. split; [apply Hlim, Hg|]. exists recs. split; [left; reflexivity|]. intros r Hr. apply Hin. apply in_concat. eauto.
    + intros [(part & [<-|[]] & H)|H]; apply H2; auto.
  - pose proof (pairs_storable _ _ _ Hpk) as (Hst & Hsc & Hxy). pose proof Hpk as (Hne & Hnd & Hnn & _ & _ & Hw & Hc & Hm). pose proof Hfair as (Hpo & Hio & Harr & Hsh).
    pose proof (create_eq_len w [nx; ny] ow pad sz recs d0 (Some 2%nat) keep false m toks sents (parts_order c) (ids_order c) (arranged c) (shuffled c) Hl Hsc Hst Hne Hnd Hsz Hd0) as Hce. rewrite En in Hce.
    destruct (Hce (or_intror eq_refl) Em Hpo Hio Harr Hsh Hms) as (chunks & Hch & H1 & H2). exists chunks. split; [exact Hch|]. cbn [eq_len_of_source]. split.
    + intros Hpart Hle. destruct (H1 Hpart Hle) as (groups & out & E & Ho & Hlim & Hsub & Hn & Hin).
      assert (Hsane : Forall (Forall sane_rec) out).
      { destruct (create_pieces w [nx; ny] ow pad sz recs d0 Hl Hsc Hst Hne Hnd Hsz (init_ok w ow d0 Hd0)) as (ts & ts' & chunks' & _ & _ & Hnums & Hp & Htne & Hok & Hall & Ef & _). rewrite En in Ef.
        assert (Eload : mdb_load (Some files) (Some 2%nat) keep false = Ok (loaded pad ts' 2 keep false)) by (rewrite Ef; apply (load_finished w [nx; ny] pad ts ts' (Some 2%nat) keep false); assumption).
        rewrite Em in Eload. assert (m = loaded pad ts' 2 keep false) by congruence. subst m. rewrite Ef in E.
        pose proof (eq_len_sane w nx ny pad ts ts' keep Hnums Hp Hok Hxy ltac:(rewrite Hall; exact Hc) (parts_order c) toks sents (ids_order c) (arranged c) (shuffled c) Hpo) as H. rewrite E in H. exact H. }
      destruct (groups_exist groups out Ho Hsane) as (exss & Ex & Hf). exists groups, exss. rewrite E, (over_stream_ok _ _ _ _ Ex). split; [reflexivity|]. split; [exact Hf|]. split; [|auto].
      intros g Hg. split; [apply Hlim, Hg|apply Hsub, Hg].
    + intros H. destruct (H2 H) as (out & e & E). rewrite E. apply over_stream_raises.
Qed.
Theorem iterate_eq_len nx ny recs size n is_path bs bm sd bf sort_by keep it c : pairs_ok nx ny recs -> stored nx ny recs size n -> fair c -> sane_meta bm ->
  match snd (limits bs) with Some m => 0 <= m | None => True end ->
  (forall r, In r recs -> usable r -> wanted bm r) -> strategy_of sort_by = Ok EqLen -> open_iterable n is_path bs bm sd bf sort_by keep = Ok it ->
  exists parts, parts_of size recs parts /\
  ((forall part, In part parts -> exists r, In r part /\ usable r) -> (forall r, In r recs -> usable r -> longest r <= fst (limits bs)) ->
   exists groups out, iterate it c = (out, None) /\ Forall2 (shows bm sd bf) groups out /\
     (forall g, In g groups -> in_budget (fst (limits bs)) g /\ match snd (limits bs) with Some m => Z.of_nat (length g) <= m + 1 | None => True end /\ exists part, In part parts /\ incl g part) /\
     Permutation (concat groups) (filter used recs)) /\
  ((exists part, In part parts /\ forall r, In r part -> ~ usable r) \/ (exists r, In r recs /\ usable r /\ fst (limits bs) < longest r) -> exists out e, iterate it c = (out, Some e)).
Proof.
  intros Hpk Hst Hfair Hm Hms Hw Eh Eo. destruct (open_source _ _ _ _ _ _ _ _ _ _ _ _ _ Hst Eo) as (Hsrc & Em & Et & Es & Ed & Ef & Eh'). rewrite Eh in Eh'. assert (Ehow : it_how it = EqLen) by congruence.
  set (toks := fst (limits bs)) in *. set (sents := snd (limits bs)) in *.
  destruct (source_eq_len nx ny recs size keep (it_data it) c toks sents Hpk Hsrc Hfair Hms) as (parts & Hparts & H1 & H2). exists parts. split; [exact Hparts|].
  assert (Eit : iterate it c = (let (groups, fin) := eq_len_of_source (it_data it) toks sents c in wrap bm sd bf groups fin)).
  { unfold iterate. rewrite Ehow, Em, Et, Es, Ed, Ef. reflexivity. }
  split.
  - intros Hpart Hle. destruct (H1 Hpart Hle) as (groups & exss & E & Ho & Hlim & Hn & Hin).
    destruct (groups_ok bm sd bf groups exss None Hm Ho) as (out & Ew & Hsh).
    { intros g Hg. split; [apply (Hlim g Hg)|]. apply Forall_forall. intros r Hr. assert (Hr' : In r (concat groups)) by (apply in_concat; eauto). apply Hin in Hr'. apply Hw; apply Hr'. }
    exists groups, out. rewrite Eit, E, Ew. split; [reflexivity|]. split; [exact Hsh|]. split.
    + intros g Hg. destruct (Hlim g Hg) as [[B1 B2] B3]. auto.
    + apply NoDup_Permutation; [exact Hn|apply NoDup_filter; eapply NoDup_map_inv; apply Hpk|]. intros r. rewrite Hin, filter_In, used_usable. reflexivity.
  - intros H. destruct (H2 H) as (out & e & E). rewrite Eit, E. destruct (wrap_raises bm sd bf out e) as (bs' & e' & ->). eauto.
Qed.

(** ** C100: what can be opened *)
Theorem open_stored nx ny recs size n is_path bs bm sd bf sort_by keep : pairs_ok nx ny recs -> stored nx ny recs size n -> In sort_by [None; Some EQ_LEN; Some RANDOM] ->
  ((exists it, open_iterable n is_path bs bm sd bf sort_by keep = Ok it) <-> is_path = true \/ size = None) /\
  (is_path = false -> size <> None -> open_iterable n is_path bs bm sd bf sort_by keep = Raise AttributeError).
Proof.
  intros Hpk Hst Hsb. assert (Eh : exists how, strategy_of sort_by = Ok how) by (destruct Hsb as [<-|[<-|[<-|[]]]]; eexists; reflexivity). destruct Eh as (how & Eh).
  pose proof (pairs_storable _ _ _ Hpk) as (Hstb & Hsc & Hxy). pose proof Hpk as (Hne & Hnd & _). unfold open_iterable. destruct (limits bs) as [toks sents]. rewrite Eh. cbn [bind].
  destruct Hst as [p Ep|w ow pad sz d0 files Hl Hsz Hd0 En].
  - cbn [load_content bind]. split; [|intros _ H; contradiction]. split; [auto|]. intros _. eauto.
  - destruct (create_complete w [nx; ny] ow pad sz recs d0 Hl Hsc Hstb Hne Hnd Hsz Hd0) as [Hcomp _]. rewrite En in Hcomp.
    destruct (Hcomp (Some 2%nat) keep false (or_intror eq_refl) ltac:(discriminate)) as (m & Em & _). rewrite Em. cbn [bind]. destruct is_path.
    + split; [|discriminate]. split; [auto|]. intros _. eexists. reflexivity.
    + split; [|reflexivity]. split; [intros (it & E); discriminate|]. intros [H|H]; discriminate.
Qed.

(** ** C102: a part that cannot be read *)
Lemma yield_all_stops {X B} (f : X -> stream B) l x e : In x l -> f x = ([], Some e) -> exists out e', yield_all f l = (out, Some e').
Proof.
  induction l as [|x' l IH]; intros Hin E; [destruct Hin|]. cbn [yield_all]. destruct Hin as [->|Hin]; [rewrite E; eauto|].
  destruct (f x') as [ys [e'|]]; [eauto|]. destruct (IH Hin E) as (out & e' & E2). rewrite E2. eauto.
Qed.
Lemma load_mem d arity keep shuffle m : mdb_load d arity keep shuffle = Ok m ->
  (m_keep m = true /\ Forall2 (fun name mem => exists p, db_load d name = Ok p /\ mem = Some p) (m_parts m) (m_mem m)) \/
  (m_keep m = false /\ m_mem m = map (fun _ => None) (m_parts m)).
Proof.
  unfold mdb_load. destruct d as [fs|]; [|discriminate]. destruct (dget str_eqb FLAG fs) as [[s| |]|]; try discriminate. destruct (loads s) as [[| | | |top|]|]; cbn [bind]; try discriminate.
  intros E.
  match type of E with bind ?a _ = _ => destruct a as [parts|]; [|discriminate] end. cbn [bind] in E.
  match type of E with bind ?a _ = _ => destruct a as [n|]; [|discriminate] end. cbn [bind] in E.
  match type of E with bind ?a _ = _ => destruct a as [u|]; [|discriminate] end. cbn [bind] in E.
  match type of E with bind ?a _ = _ => destruct a as [counts|]; [|discriminate] end. cbn [bind] in E.
  destruct (keep || Nat.eqb (length parts) 1) eqn:Ek.
  - left. match type of E with bind ?a _ = _ => destruct a as [mem|] eqn:Em; [|discriminate] end. cbn [bind] in E.
    assert (Emm : MkMdb (map fst parts) counts (zsum counts) n true shuffle mem = m) by congruence. subst m. cbn [m_keep m_parts m_mem]. split; [reflexivity|].
    clear - Em. revert mem Em. induction parts as [|kv parts IH]; intros mem; cbn [mapM map]; [intros [= <-]; constructor|].
    destruct (db_load (Some fs) (fst kv)) as [p|] eqn:El; [|discriminate]. cbn [bind]. destruct (mapM _ parts) as [mem'|]; [|discriminate]. cbn [bind]. intros [= <-]. constructor; [eauto|apply IH; reflexivity].
  - right. cbn [bind] in E. assert (Emm : MkMdb (map fst parts) counts (zsum counts) n false shuffle (map (fun _ => None) parts) = m) by congruence. subst m. cbn [m_keep m_parts m_mem]. split; [reflexivity|]. rewrite map_map. reflexivity.
Qed.
Theorem iterate_lost_part files is_path bs bm sd bf sort_by keep it m c name e : fair c ->
  open_iterable (DirAt files) is_path bs bm sd bf sort_by keep = Ok it -> it_data it = Parts files m -> In name (m_parts m) -> db_load (Some files) name = Raise e ->
  exists out e', iterate it c = (out, Some e').
Proof.
  intros (Hpo & _) Eo Edata Hname El. unfold open_iterable in Eo. destruct (limits bs) as [toks sents]. destruct (strategy_of sort_by) as [how|]; [|discriminate]. cbn [bind] in Eo.
  destruct is_path; [|discriminate]. destruct (mdb_load (Some files) (Some 2%nat) keep false) as [m0|] eqn:Em; [|discriminate]. cbn [bind] in Eo.
  assert (Ei : MkIter (Parts files m0) bm toks sents sd bf how = it) by congruence. subst it. cbn [it_data] in Edata. assert (m0 = m) by congruence. subst m0. clear Eo Edata.
  destruct (load_mem _ _ _ _ _ Em) as [[_ Hf]|[Hk Hmem]].
  { exfalso. clear - Hf Hname El. induction Hf as [|a b l l' (p & E & _) _ IH]; [destruct Hname|]. destruct Hname as [->|Hname]; [congruence|auto]. }
  assert (Hin : In (name, None) (combine (m_parts m) (m_mem m))).
  { rewrite Hmem. clear - Hname. induction (m_parts m) as [|x l IH]; [destruct Hname|]. cbn. destruct Hname as [->|Hname]; [left; reflexivity|right; apply IH, Hname]. }
  assert (Hgroups : exists gs e', (match how with
    | ReadAll => let (data, fin) := examples_of (Parts files m) c in read_from toks sents [] 0 data fin
    | EqLen => eq_len_of_source (Parts files m) toks sents c end) = (gs, Some e')).
  { destruct how; cbn [examples_of eq_len_of_source].
    - assert (H : exists out e', mdb_iter (Some files) m (parts_order c) (ids_order c) = (out, Some e')).
      { unfold mdb_iter. apply (yield_all_stops _ _ (name, None) e); [|cbn [fst snd]; rewrite Hk, El; reflexivity]. destruct (m_shuffle m); [eapply Permutation_in; [apply Hpo|exact Hin]|exact Hin]. }
      destruct H as (out & e' & E). rewrite E. destruct (over_stream_raises to_example out e') as (ys & e2 & E2). rewrite E2. apply read_from_raises.
    - assert (H : exists out e', mdb_eq_len (Some files) m (parts_order c) toks sents (ids_order c) (arranged c) (shuffled c) = (out, Some e')).
      { unfold mdb_eq_len. eapply yield_all_stops; [eapply Permutation_in; [apply Hpo|exact Hin]|]. cbn [fst snd]. rewrite El. reflexivity. }
      destruct H as (out & e' & E). rewrite E. apply over_stream_raises. }
  destruct Hgroups as (gs & e' & E). unfold iterate. cbn [it_how it_data it_toks it_sents it_meta it_desc it_first]. rewrite E. apply wrap_raises.
Qed.
Theorem iterate_random_is_none n is_path bs bm sd bf keep it it' : open_iterable n is_path bs bm sd bf (Some RANDOM) keep = Ok it -> open_iterable n is_path bs bm sd bf None keep = Ok it' ->
  it = it' /\ forall c c', ids_order c = ids_order c' -> iterate it c = iterate it' c'.
Proof.
  intros E E'. assert (Es : open_iterable n is_path bs bm sd bf (Some RANDOM) keep = open_iterable n is_path bs bm sd bf None keep) by reflexivity.
  rewrite Es, E' in E. assert (it' = it) by congruence. subst it'. split; [reflexivity|]. clear Es E.
  intros c c' Hc. unfold open_iterable in E'. destruct (limits bs) as [toks sents]. cbn [strategy_of bind] in E'.
  assert (H : it_how it = ReadAll /\ match it_data it with OneDb _ => True | Parts _ m => m_shuffle m = false end).
  { destruct n as [|cont|files|]; [discriminate| | |destruct is_path; discriminate].
    - destruct (load_content cont) as [p|]; [|discriminate]. cbn [bind] in E'. assert (Ei : MkIter (OneDb p) bm toks sents sd bf ReadAll = it) by congruence. subst it. split; [reflexivity|exact I].
    - destruct is_path; [|discriminate]. destruct (mdb_load (Some files) (Some 2%nat) keep false) as [m|] eqn:Em; [|discriminate]. cbn [bind] in E'.
      assert (Ei : MkIter (Parts files m) bm toks sents sd bf ReadAll = it) by congruence. subst it. split; [reflexivity|]. cbn [it_data].
      clear - Em. unfold mdb_load in Em. destruct (dget str_eqb FLAG files) as [[s| |]|]; try discriminate. destruct (loads s) as [[| | | |top|]|]; cbn [bind] in Em; try discriminate.
      repeat (match type of Em with bind ?a _ = _ => destruct a; [|discriminate] end; cbn [bind] in Em).
      match type of Em with Ok ?a = Ok _ => assert (Emm : a = m) by congruence; subst m end. reflexivity. }
  destruct H as [H1 H2]. unfold iterate. rewrite H1. assert (Ee : examples_of (it_data it) c = examples_of (it_data it) c'); [|rewrite Ee; reflexivity].
  destruct (it_data it) as [p|files m]; cbn [examples_of]; [rewrite Hc; reflexivity|]. unfold mdb_iter. rewrite H2, Hc. reflexivity.
Qed.
Lemma filter_perm {A} (f : A -> bool) l l' : Permutation l l' -> Permutation (filter f l) (filter f l').
Proof.
  induction 1 as [|x l l' _ IH|x y l|a b c _ IH1 _ IH2]; cbn [filter]; [constructor| | |eapply perm_trans; eassumption].
  - destruct (f x); [apply perm_skip|]; exact IH.
  - destruct (f x), (f y); try apply Permutation_refl. apply perm_swap.
Qed.
Theorem iterate_random nx ny recs size n is_path bs bm sd bf keep it c : pairs_ok nx ny recs -> stored nx ny recs size n -> fair c -> sane_meta bm -> sents_ok (snd (limits bs)) ->
  (forall r, In r recs -> usable r -> wanted bm r) -> (forall r, In r recs -> usable r -> longest r <= fst (limits bs)) ->
  open_iterable n is_path bs bm sd bf (Some RANDOM) keep = Ok it ->
  exists groups out, iterate it c = (out, None) /\ Forall2 (shows bm sd bf) groups out /\ Permutation (concat groups) (filter used recs).
Proof.
  intros Hpk Hst Hf Hm Hs Hw Hle Eo. destruct (iterate_in_order nx ny recs size n is_path bs bm sd bf (Some RANDOM) keep it c Hpk Hst Hf Hm Hs Hw eq_refl Eo) as (_ & recs' & Hp & H1 & _).
  destruct (H1 Hle) as (groups & out & E & Ho & Hc & _). exists groups, out. split; [exact E|]. split; [exact Ho|]. rewrite Hc. apply filter_perm, Permutation_sym, Hp.
Qed.
