(** Word, char and class schemes: constructors, encoding, decoding. *)
From Coq Require Import Strings.String.
From Verif Require Import Py PyLemmas PyStr StrSpec PyStrProofs Utf8Model CodecModel CodecSpec.
Local Open Scope Z_scope.
Local Open Scope list_scope.
Local Open Scope res_scope.

(** ** name tables *)
Lemma has_name_map table w : has_name table w <-> In w (map t_name table).
Proof.
  unfold has_name. rewrite in_map_iff. split; intros (t & H1 & H2); exists t; auto.
Qed.
Lemma has_name_dec table w : {has_name table w} + {~ has_name table w}.
Proof.
  destruct (in_dec str_dec w (map t_name table)) as [H|H]; [left|right]; rewrite has_name_map; exact H.
Defined.
Lemma name_at_nth table i w :
  name_at table i w <-> 0 <= i /\ nth_error (map t_name table) (Z.to_nat i) = Some w.
Proof.
  unfold name_at. rewrite nth_error_map.
  destruct (nth_error table (Z.to_nat i)) as [t|]; simpl; split; intros [H1 H2]; split; auto.
  - destruct H2 as (t' & H2 & H3). congruence.
  - exists t. split; congruence.
  - destruct H2 as (t' & H2 & H3). congruence.
  - discriminate.
Qed.
Lemma name_at_has table i w : name_at table i w -> has_name table w.
Proof. intros (_ & t & H1 & H2). exists t. split; [eapply nth_error_In; eauto|exact H2]. Qed.
Lemma has_name_at table w : has_name table w -> exists i, name_at table i w.
Proof.
  intros (t & Hin & Hn). apply In_nth_error in Hin as (n & Hn'). exists (Z.of_nat n).
  split; [lia|]. exists t. rewrite Nat2Z.id. auto.
Qed.
Lemma name_at_valid table i w : name_at table i w -> valid_id table i.
Proof.
  intros (H & t & H1 & _). split; [exact H|].
  assert (Z.to_nat i < length table)%nat by (apply nth_error_Some; congruence). lia.
Qed.
Lemma name_at_py_nth table i w : name_at table i w -> py_nth (map t_name table) i = Ok w.
Proof. intros H. apply name_at_nth in H as [H0 H]. apply py_nth_nonneg; assumption. Qed.

(** ** str_to_idx *)
Lemma str_to_idx_last_snoc names x :
  str_to_idx_last (names ++ [x]) = dset str_eqb x (Z.of_nat (length names)) (str_to_idx_last names).
Proof.
  unfold str_to_idx_last, enumerate. rewrite enum_from_app, fold_left_app. simpl. reflexivity.
Qed.
Lemma str_to_idx_last_inv names :
  NoDup (dkeys (str_to_idx_last names)) /\
  (forall w, In w (dkeys (str_to_idx_last names)) <-> In w names).
Proof.
  induction names as [|x names [IH1 IH2]] using rev_ind.
  - split; [constructor|]. intros w; reflexivity.
  - rewrite str_to_idx_last_snoc. split.
    + apply dset_NoDup; [apply str_eqb_eq|exact IH1].
    + intros w. rewrite dkeys_dset. rewrite in_app_iff.
      destruct (dmem str_eqb x (str_to_idx_last names)) eqn:E.
      * apply (dmem_spec str_eqb str_eqb_eq) in E. rewrite IH2. simpl. split; [tauto|].
        intros [H|[<-|[]]]; [exact H|]. apply IH2, E.
      * rewrite in_app_iff, IH2. reflexivity.
Qed.
Lemma str_to_idx_last_length names :
  (length (str_to_idx_last names) <= length names)%nat /\
  (length names = length (str_to_idx_last names) <-> NoDup names).
Proof.
  induction names as [|x names [IH1 IH2]] using rev_ind.
  - simpl. split; [lia|]. split; constructor.
  - destruct (str_to_idx_last_inv names) as [Hnd Hin].
    rewrite str_to_idx_last_snoc.
    assert (Hl : forall (d : list (str * Z)), length d = length (dkeys d)) by
      (intros d; unfold dkeys; rewrite map_length; reflexivity).
    rewrite Hl, dkeys_dset, app_length. simpl.
    destruct (dmem str_eqb x (str_to_idx_last names)) eqn:E.
    + apply (dmem_spec str_eqb str_eqb_eq) in E. rewrite <- Hl. split; [lia|].
      split; [lia|]. intros Hd. exfalso. apply Hin in E.
      apply NoDup_remove_2 in Hd. rewrite app_nil_r in Hd. contradiction.
    + rewrite app_length, <- Hl. simpl. split; [lia|].
      split; intros H.
      * apply NoDup_snoc; [apply IH2; lia|]. intros Hx. apply Hin in Hx.
        apply (dmem_spec str_eqb str_eqb_eq) in Hx. congruence.
      * apply NoDup_remove_1 in H. rewrite app_nil_r in H. apply IH2 in H. lia.
Qed.
Lemma str_to_idx_last_get names w i :
  NoDup names ->
  (dget str_eqb w (str_to_idx_last names) = Some i <->
   0 <= i /\ nth_error names (Z.to_nat i) = Some w).
Proof.
  revert i. induction names as [|x names IH] using rev_ind; intros i Hnd.
  - simpl. split; [discriminate|]. intros [_ H]. destruct (Z.to_nat i); discriminate.
  - rewrite str_to_idx_last_snoc, (dget_dset str_eqb str_eqb_eq).
    assert (Hx : ~ In x names).
    { apply NoDup_remove_2 in Hnd. rewrite app_nil_r in Hnd. exact Hnd. }
    apply NoDup_remove_1 in Hnd. rewrite app_nil_r in Hnd.
    destruct (str_eqb w x) eqn:E.
    + apply str_eqb_eq in E as ->. split.
      * intros H. injection H as <-. split; [lia|]. rewrite Nat2Z.id.
        rewrite nth_error_app2 by lia. rewrite Nat.sub_diag. reflexivity.
      * intros [H0 H]. f_equal.
        destruct (lt_dec (Z.to_nat i) (length names)) as [Hlt|Hge].
        -- rewrite nth_error_app1 in H by exact Hlt. apply nth_error_In in H. contradiction.
        -- assert (Z.to_nat i < length (names ++ [x]))%nat by (apply nth_error_Some; congruence).
           rewrite app_length in H1. simpl in H1. lia.
    + rewrite IH by exact Hnd. apply str_eqb_neq in E.
      split; intros [H0 H]; split; auto.
      * rewrite nth_error_app1; [exact H|]. apply nth_error_Some. congruence.
      * destruct (lt_dec (Z.to_nat i) (length names)) as [Hlt|Hge].
        -- rewrite nth_error_app1 in H by exact Hlt. exact H.
        -- rewrite nth_error_app2 in H by lia.
           destruct (Z.to_nat i - length names)%nat as [|[|k]]; simpl in H; congruence.
Qed.

Lemma str_to_idx_first_snoc table t :
  str_to_idx_first (table ++ [t]) =
  if dmem str_eqb (t_name t) (str_to_idx_first table) then str_to_idx_first table
  else dset str_eqb (t_name t) (Z.of_nat (length table)) (str_to_idx_first table).
Proof.
  unfold str_to_idx_first, enumerate. rewrite enum_from_app, fold_left_app. simpl. reflexivity.
Qed.
Lemma str_to_idx_first_get table w i :
  dget str_eqb w (str_to_idx_first table) = Some i <->
  name_at table i w /\ (forall j, name_at table j w -> i <= j).
Proof.
  revert i. induction table as [|t table IH] using rev_ind; intros i.
  - simpl. split; [discriminate|]. intros [(_ & t & H & _) _]. destruct (Z.to_nat i); discriminate.
  - rewrite str_to_idx_first_snoc.
    assert (Hsn : forall j v, name_at (table ++ [t]) j v <->
                  name_at table j v \/ (j = Z.of_nat (length table) /\ v = t_name t)).
    { intros j v. unfold name_at. split.
      - intros (H0 & u & Hu & Hn).
        destruct (lt_dec (Z.to_nat j) (length table)) as [Hlt|Hge].
        + left. rewrite nth_error_app1 in Hu by exact Hlt. split; [exact H0|]. exists u; auto.
        + right. assert (Z.to_nat j < length (table ++ [t]))%nat by (apply nth_error_Some; congruence).
          rewrite app_length in H. simpl in H. rewrite nth_error_app2 in Hu by lia.
          destruct (Z.to_nat j - length table)%nat as [|k] eqn:E; [|lia].
          simpl in Hu. split; [lia|congruence].
      - intros [(H0 & u & Hu & Hn)|[-> ->]].
        + split; [exact H0|]. exists u. split; [|exact Hn].
          rewrite nth_error_app1; [exact Hu|]. apply nth_error_Some; congruence.
        + split; [lia|]. exists t. rewrite Nat2Z.id, nth_error_app2, Nat.sub_diag by lia. auto. }
    assert (Hrange : forall j v, name_at table j v -> j < Z.of_nat (length table)).
    { intros j v H. apply name_at_valid in H. unfold valid_id in H. lia. }
    destruct (dmem str_eqb (t_name t) (str_to_idx_first table)) eqn:E.
    + rewrite IH. split.
      * intros [H1 H2]. split; [apply Hsn; left; exact H1|].
        intros j Hj. apply Hsn in Hj as [Hj|[-> _]]; [apply H2, Hj|].
        specialize (Hrange _ _ H1). lia.
      * intros [H1 H2]. apply Hsn in H1 as [H1|[-> ->]].
        -- split; [exact H1|]. intros j Hj. apply H2, Hsn. left; exact Hj.
        -- exfalso. unfold dmem in E.
           destruct (dget str_eqb (t_name t) (str_to_idx_first table)) as [k|] eqn:Ek; [|discriminate].
           destruct (proj1 (IH k) eq_refl) as [Ek' _]. rename Ek' into Ek2.
           assert (Z.of_nat (length table) <= k) by (apply H2, Hsn; left; exact Ek2).
           specialize (Hrange _ _ Ek2). lia.
    + rewrite (dget_dset str_eqb str_eqb_eq). destruct (str_eqb w (t_name t)) eqn:Ew.
      * apply str_eqb_eq in Ew as ->.
        assert (Hno : forall j, ~ name_at table j (t_name t)).
        { intros j Hj. unfold dmem in E.
          destruct (dget str_eqb (t_name t) (str_to_idx_first table)) as [k|] eqn:Ek; [discriminate|].
          apply (dget_None str_eqb str_eqb_eq) in Ek. apply Ek. clear Ek IH E.
          (* the key is present since a name occurs *)
          assert (Hmem : forall l v, In v (map t_name l) -> In v (dkeys (str_to_idx_first l))).
          { clear. induction l as [|u l IHl] using rev_ind; intros v Hv; [destruct Hv|].
            rewrite map_app, in_app_iff in Hv. rewrite str_to_idx_first_snoc.
            destruct (dmem str_eqb (t_name u) (str_to_idx_first l)) eqn:Em.
            - destruct Hv as [Hv|[<-|[]]]; [apply IHl, Hv|].
              apply (dmem_spec str_eqb str_eqb_eq) in Em. exact Em.
            - rewrite dkeys_dset, Em, in_app_iff. destruct Hv as [Hv|Hv]; [left; apply IHl, Hv|right; exact Hv]. }
          apply Hmem. apply has_name_map. eapply name_at_has; eauto. }
        split.
        -- intros H. injection H as <-. split; [apply Hsn; right; auto|].
           intros j Hj. apply Hsn in Hj as [Hj|[-> _]]; [exfalso; eapply Hno; eauto|lia].
        -- intros [H1 _]. apply Hsn in H1 as [H1|[-> _]]; [exfalso; eapply Hno; eauto|reflexivity].
      * apply str_eqb_neq in Ew. rewrite IH. split.
        -- intros [H1 H2]. split; [apply Hsn; left; exact H1|].
           intros j Hj. apply Hsn in Hj as [Hj|[_ Hj]]; [apply H2, Hj|contradiction].
        -- intros [H1 H2]. apply Hsn in H1 as [H1|[_ H1]]; [|contradiction].
           split; [exact H1|]. intros j Hj. apply H2, Hsn; left; exact Hj.
Qed.
Lemma str_to_idx_first_none table w :
  dget str_eqb w (str_to_idx_first table) = None <-> ~ has_name table w.
Proof.
  split.
  - intros H Hn. revert H.
    induction table as [|u l IHl] using rev_ind; [destruct Hn as (t & [] & _)|].
    rewrite str_to_idx_first_snoc. intros H.
    assert (Hc : has_name l w \/ w = t_name u).
    { apply has_name_map in Hn. rewrite map_app, in_app_iff in Hn. simpl in Hn.
      rewrite has_name_map. destruct Hn as [Hn|[Hn|[]]]; auto. }
    destruct (dmem str_eqb (t_name u) (str_to_idx_first l)) eqn:Em.
    + destruct Hc as [Hc| ->]; [apply IHl; assumption|].
      unfold dmem in Em. rewrite H in Em. discriminate.
    + rewrite (dget_dset str_eqb str_eqb_eq) in H. destruct (str_eqb w (t_name u)) eqn:E; [discriminate|].
      destruct Hc as [Hc| ->]; [apply IHl; assumption|]. rewrite str_eqb_refl in E. discriminate.
  - intros H. destruct (dget str_eqb w (str_to_idx_first table)) as [i|] eqn:E; [|reflexivity].
    exfalso. apply H. apply str_to_idx_first_get in E as [E _]. eapply name_at_has; eauto.
Qed.

(** ** constructors *)
Lemma validate_forall table l :
  foldM (fun _ ti => let* t := py_nth table (snd ti) in assert_ (str_eqb (fst ti) (t_name t))) l tt
    = Ok tt <-> Forall (fun ti => py_nth (map t_name table) (snd ti) = Ok (fst ti)) l.
Proof.
  induction l as [|x l IH]; simpl; [split; constructor|].
  rewrite Forall_cons_iff, <- IH, py_nth_map.
  destruct (py_nth table (snd x)) as [t|e]; simpl.
  - unfold assert_. destruct (str_eqb (fst x) (t_name t)) eqn:E.
    + apply str_eqb_eq in E. rewrite E. tauto.
    + apply str_eqb_neq in E. split; [discriminate|]. intros [H _]. congruence.
  - split; [discriminate|]. intros [H _]; discriminate.
Qed.
Lemma validate_reserved_spec table : validate_reserved table = Ok tt <-> starts_reserved table.
Proof.
  unfold validate_reserved, starts_reserved. rewrite validate_forall.
  generalize (map t_name table) as names. intros names.
  unfold RESERVED. rewrite !Forall_cons_iff. cbn [fst snd].
  rewrite !py_nth_nonneg by lia.
  change (Z.to_nat 0) with 0%nat. change (Z.to_nat 1) with 1%nat. change (Z.to_nat 2) with 2%nat.
  change (Z.to_nat 3) with 3%nat. change (Z.to_nat 4) with 4%nat. change (Z.to_nat 5) with 5%nat.
  unfold reserved_names.
  change (lit "<pad>") with PAD_TOK. change (lit "<unk>") with UNK_TOK.
  change (lit "<s>") with BOS_TOK. change (lit "</s>") with EOS_TOK.
  change (lit "<cls>") with CLS_TOK. change [9601%N] with SPACE_TOK.
  destruct names as [|a [|b [|c [|d [|e [|f rest]]]]]]; cbn [nth_error firstn];
    (split; [intros (H1 & H2 & H3 & H4 & H5 & H6 & _); try discriminate;
             injection H1 as ->; injection H2 as ->; injection H3 as ->;
             injection H4 as ->; injection H5 as ->; injection H6 as ->; reflexivity
            |intros H; try discriminate H]).
  injection H as -> -> -> -> -> ->. repeat split; constructor.
Qed.
Lemma validate_reserved_cases table :
  validate_reserved table = Ok tt \/
  validate_reserved table = Raise AssertionError \/ validate_reserved table = Raise IndexError.
Proof.
  unfold validate_reserved. generalize RESERVED.
  intros l. induction l as [|x l IH]; simpl; [auto|].
  destruct (py_nth table (snd x)) as [t|e] eqn:E; simpl.
  - unfold assert_. destruct (str_eqb _ _); auto.
  - apply py_nth_raise in E as ->. auto.
Qed.

Lemma encoder_init_inv k table root unk s hr :
  encoder_init k table hr true unk root = Ok s <->
  (hr = true -> starts_reserved table) /\ distinct_names table /\
  s = MkScheme k table (map t_name table) (str_to_idx_last (map t_name table))
               (if hr then Some 1 else unk) root.
Proof.
  unfold encoder_init, idx_to_str_of, distinct_names.
  destruct (str_to_idx_last_length (map t_name table)) as [_ Hl].
  assert (Hv : (if hr then validate_reserved table else Ok tt) = Ok tt <-> (hr = true -> starts_reserved table)).
  { destruct hr.
    - rewrite validate_reserved_spec. tauto.
    - split; [intros _ H; discriminate H|reflexivity]. }
  destruct (if hr then validate_reserved table else Ok tt) as [[]|e] eqn:E; simpl.
  - destruct (Nat.eqb_spec (length (map t_name table)) (length (str_to_idx_last (map t_name table)))) as [En|En]; simpl.
    + split.
      * intros H. injection H as <-. split; [apply Hv; reflexivity|]. split; [apply Hl; exact En|].
        destruct hr; reflexivity.
      * intros (_ & _ & ->). destruct hr; reflexivity.
    + split; [discriminate|]. intros (_ & H & _). exfalso. apply En, Hl, H.
  - split; [discriminate|]. intros (H & _). apply Hv in H. discriminate.
Qed.

Lemma make_flat_inv k table s :
  k = KWord \/ k = KChar ->
  (make_scheme k table = Ok s <->
   starts_reserved table /\ distinct_names table /\
   s = MkScheme k table (map t_name table) (str_to_idx_last (map t_name table)) (Some 1) tr_empty).
Proof.
  intros [-> | ->]; simpl; rewrite encoder_init_inv; tauto.
Qed.
Lemma make_class_inv table s :
  make_scheme KClass table = Ok s <->
  distinct_names table /\
  s = MkScheme KClass table (map t_name table) (str_to_idx_last (map t_name table)) (Some (-1)) tr_empty.
Proof.
  simpl. rewrite encoder_init_inv. split; [tauto|]. intros [H1 H2]. split; [discriminate|auto].
Qed.

(** ** ids of pieces *)
Definition id_fun (table : list Typ) (unk : Z) (w : str) : Z :=
  dget_def str_eqb w unk (str_to_idx_last (map t_name table)).
Lemma id_fun_known table unk w :
  distinct_names table -> has_name table w -> name_at table (id_fun table unk w) w.
Proof.
  intros Hd Hn. unfold id_fun, dget_def.
  destruct (dget str_eqb w (str_to_idx_last (map t_name table))) as [i|] eqn:E.
  - apply str_to_idx_last_get in E; [|exact Hd]. apply name_at_nth. exact E.
  - exfalso. apply (dget_None str_eqb str_eqb_eq) in E. apply E.
    apply str_to_idx_last_inv. apply has_name_map. exact Hn.
Qed.
Lemma id_fun_unknown table unk w : ~ has_name table w -> id_fun table unk w = unk.
Proof.
  intros Hn. unfold id_fun, dget_def.
  destruct (dget str_eqb w (str_to_idx_last (map t_name table))) as [i|] eqn:E; [|reflexivity].
  exfalso. apply Hn. apply has_name_map. apply str_to_idx_last_inv.
  eapply dget_Some_key; [apply str_eqb_eq|exact E].
Qed.
Lemma id_fun_id_of table w : distinct_names table -> id_of table w (id_fun table 1 w).
Proof.
  intros Hd. destruct (has_name_dec table w) as [H|H].
  - left. apply id_fun_known; assumption.
  - right. split; [apply id_fun_unknown; exact H|exact H].
Qed.
Lemma name_at_inj table i j w :
  distinct_names table -> name_at table i w -> name_at table j w -> i = j.
Proof.
  intros Hd Hi Hj. apply name_at_nth in Hi as [Hi0 Hi]. apply name_at_nth in Hj as [Hj0 Hj].
  assert (Z.to_nat i = Z.to_nat j); [|lia].
  unfold distinct_names in Hd. rewrite NoDup_nth_error in Hd. apply Hd; [|congruence].
  apply nth_error_Some; congruence.
Qed.
Lemma id_of_unique table w i j : distinct_names table -> id_of table w i -> id_of table w j -> i = j.
Proof.
  intros Hd [Hi|[-> Hi]] [Hj|[-> Hj]]; try reflexivity.
  - eapply name_at_inj; eauto.
  - exfalso; apply Hj; eapply name_at_has; eauto.
  - exfalso; apply Hi; eapply name_at_has; eauto.
Qed.
Lemma id_of_fun table w i : distinct_names table -> id_of table w i -> i = id_fun table 1 w.
Proof. intros Hd H. eapply id_of_unique; [exact Hd|exact H|apply id_fun_id_of, Hd]. Qed.
Lemma starts_reserved_unk table : starts_reserved table -> name_at table 1 (lit "<unk>").
Proof.
  unfold starts_reserved. intros H. apply name_at_nth. split; [lia|].
  change (Z.to_nat 1) with 1%nat.
  destruct (map t_name table) as [|a [|b l]]; try discriminate H.
  cbn in H. injection H as -> ->. reflexivity.
Qed.
Lemma id_of_valid table w i : starts_reserved table -> id_of table w i -> valid_id table i.
Proof.
  intros Hr [H|[-> _]]; eapply name_at_valid; [exact H|apply starts_reserved_unk, Hr].
Qed.

(** what decoding the id of a piece gives *)
Definition show_fun (table : list Typ) (w : str) : str :=
  if has_name_dec table w then w else lit "<unk>".
Lemma show_fun_shown table w : shown table w (show_fun table w).
Proof. unfold show_fun, shown. destruct (has_name_dec table w); auto. Qed.
Lemma shown_fun table w o : shown table w o -> o = show_fun table w.
Proof. unfold show_fun. intros [[H ->]|[H ->]]; destruct (has_name_dec table w); tauto. Qed.
Lemma id_fun_shown table w :
  starts_reserved table -> distinct_names table ->
  py_nth (map t_name table) (id_fun table 1 w) = Ok (show_fun table w).
Proof.
  intros Hr Hd. unfold show_fun. destruct (has_name_dec table w) as [H|H].
  - apply name_at_py_nth, id_fun_known; assumption.
  - rewrite id_fun_unknown by exact H. apply name_at_py_nth, starts_reserved_unk, Hr.
Qed.

Section Flat.
  Variables (k : kind) (table : list Typ) (s : scheme).
  Hypothesis Hk : k = KWord \/ k = KChar.
  Hypothesis Hs : make_scheme k table = Ok s.
  Let Hinv := proj1 (make_flat_inv k table s Hk) Hs.
  Lemma flat_reserved : starts_reserved table. Proof. apply Hinv. Qed.
  Lemma flat_distinct : distinct_names table. Proof. apply Hinv. Qed.
  Lemma flat_piece_id w : piece_id s w = Ok (id_fun table 1 w).
  Proof. destruct Hinv as (_ & _ & ->). reflexivity. Qed.
  Lemma flat_encode line ps :
    encode_str s line = Ok ps -> encode s line = Ok (map (id_fun table 1) ps).
  Proof.
    intros H. unfold encode. rewrite H. simpl.
    assert (Hkind : s_kind s = k) by (destruct Hinv as (_ & _ & ->); reflexivity).
    assert (E : mapM (piece_id s) ps = Ok (map (id_fun table 1) ps)).
    { apply mapM_ok. intros w _. apply flat_piece_id. }
    rewrite Hkind. destruct Hk as [-> | ->]; exact E.
  Qed.
  Lemma flat_decode_ids ps :
    mapM (py_nth (s_idx_to_str s)) (map (id_fun table 1) ps) = Ok (map (show_fun table) ps).
  Proof.
    rewrite mapM_map. apply mapM_ok. intros w _.
    destruct Hinv as (Hr & Hd & ->). apply id_fun_shown; assumption.
  Qed.
  Lemma flat_decode_encode ps :
    decode s (map (id_fun table 1) ps) = decode_str s (map (show_fun table) ps).
  Proof. unfold decode. rewrite flat_decode_ids. reflexivity. Qed.
End Flat.

Lemma Forall2_map_r {A B} (P : A -> B -> Prop) (f : A -> B) l :
  (forall x, In x l -> P x (f x)) -> Forall2 P l (map f l).
Proof.
  induction l as [|x l IH]; simpl; intros H; constructor; auto.
Qed.
Lemma Forall2_fun {A B} (P : A -> B -> Prop) (f : A -> B) l l' :
  (forall x y, P x y -> y = f x) -> Forall2 P l l' -> l' = map f l.
Proof. intros Hf. induction 1; simpl; [reflexivity|]. f_equal; auto. Qed.

(** *** C01, C02, C03 *)
Lemma word_pieces_roundtrip s line :
  s_kind s = KWord ->
  exists ps out, encode_str s line = Ok ps /\ words_of line ps /\
                 decode_str s ps = Ok out /\ normal line out.
Proof.
  intros Hk. exists (split line), (join [SPACE] (split line)).
  unfold encode_str, decode_str. rewrite Hk.
  split; [reflexivity|]. split; [apply words_of_split|]. split; [reflexivity|].
  apply normal_spaced. apply join_spaced.
Qed.
Lemma word_ids table s line :
  make_scheme KWord table = Ok s ->
  exists ws ids outs,
    words_of line ws /\
    encode s line = Ok ids /\ Forall2 (id_of table) ws ids /\
    Forall2 (shown table) ws outs /\ decode s ids = Ok (spaced SPACE outs).
Proof.
  intros Hs. pose proof (make_flat_inv KWord table s (or_introl eq_refl)) as Hi.
  apply Hi in Hs as Hi'. destruct Hi' as (Hr & Hd & Es).
  exists (split line), (map (id_fun table 1) (split line)), (map (show_fun table) (split line)).
  split; [apply words_of_split|]. split.
  { apply (flat_encode KWord table s (or_introl eq_refl) Hs).
    rewrite Es; reflexivity. }
  split. { apply Forall2_map_r. intros w _. apply id_fun_id_of, Hd. }
  split. { apply Forall2_map_r. intros w _. apply show_fun_shown. }
  rewrite (flat_decode_encode KWord table s (or_introl eq_refl) Hs).
  rewrite Es. unfold decode_str. simpl. rewrite join_spaced. reflexivity.
Qed.
Lemma py_nth_valid table i :
  valid_id table i -> exists w, name_at table i w /\ py_nth (map t_name table) i = Ok w.
Proof.
  intros [H0 H1].
  destruct (nth_error table (Z.to_nat i)) as [t|] eqn:E.
  - assert (Hn : name_at table i (t_name t)) by (split; [lia|]; exists t; auto).
    exists (t_name t). split; [exact Hn|]. apply name_at_py_nth, Hn.
  - apply nth_error_None in E. lia.
Qed.
Lemma py_nth_valids table ids :
  Forall (valid_id table) ids ->
  exists ws, Forall2 (fun i w => name_at table i w) ids ws /\
             mapM (py_nth (map t_name table)) ids = Ok ws.
Proof.
  induction 1 as [|i ids Hi Hids (ws & H1 & H2)]; simpl.
  - exists []. split; [constructor|reflexivity].
  - destruct (py_nth_valid table i Hi) as (w & Hw & ->). rewrite H2.
    exists (w :: ws). split; [constructor; assumption|reflexivity].
Qed.
Lemma id_fun_name_at table i w : distinct_names table -> name_at table i w -> id_fun table 1 w = i.
Proof.
  intros Hd H. eapply id_of_unique; [exact Hd|apply id_fun_id_of, Hd|left; exact H].
Qed.
Lemma id_fun_names table ids ws :
  distinct_names table -> Forall2 (fun i w => name_at table i w) ids ws ->
  map (id_fun table 1) ws = ids.
Proof.
  intros Hd. induction 1 as [|i w ids ws Hi Hr IH]; simpl; [reflexivity|].
  rewrite IH. f_equal. apply id_fun_name_at; assumption.
Qed.
Lemma word_ids_roundtrip table s ids :
  make_scheme KWord table = Ok s ->
  (forall t, In t table -> is_word (t_name t)) ->
  Forall (valid_id table) ids ->
  exists line, decode s ids = Ok line /\ encode s line = Ok ids.
Proof.
  intros Hs Hw Hids.
  apply (make_flat_inv KWord table s (or_introl eq_refl)) in Hs as Hi'.
  destruct Hi' as (Hr & Hd & Es).
  destruct (py_nth_valids table ids Hids) as (ws & Hws & Hm).
  exists (join [SPACE] ws). split.
  - unfold decode. rewrite Es. cbn [s_idx_to_str]. rewrite Hm. reflexivity.
  - rewrite (flat_encode KWord table s (or_introl eq_refl) Hs _ ws).
    + f_equal. apply id_fun_names; assumption.
    + rewrite Es. unfold encode_str. simpl. rewrite split_join_space; [reflexivity|].
      clear Hm. induction Hws as [|i w ids ws Hi Hr' IH]; constructor.
      * apply name_at_has in Hi as (t & Ht & <-). apply Hw, Ht.
      * inversion Hids; subst. apply IH; assumption.
Qed.

(** *** C04 *)
Lemma concat_singletons (s : str) : concat (map (fun c => [c]) s) = s.
Proof. induction s as [|c s IH]; simpl; [reflexivity|]. rewrite IH; reflexivity. Qed.
Lemma char_pieces_roundtrip s line :
  s_kind s = KChar ->
  exists ps norm, encode_str s line = Ok ps /\ Forall (fun p => length p = 1%nat) ps /\
    normal line norm /\ decode_str s ps = Ok (unmark norm).
Proof.
  intros Hk. exists (map (fun c => [c]) (join [MARK] (split line))), (spaced SPACE (split line)).
  split. { unfold encode_str. rewrite Hk. reflexivity. }
  split. { apply Forall_map. apply Forall_forall. intros; reflexivity. }
  split. { apply normal_spaced. reflexivity. }
  unfold decode_str. rewrite Hk, concat_singletons, replace_char_unmark, join_spaced, unmark_spaced.
  reflexivity.
Qed.
Lemma replace_concat a b l : replace_char a b (concat l) = concat (map (replace_char a b) l).
Proof. induction l as [|x l IH]; simpl; [reflexivity|]. unfold replace_char in *. rewrite map_app, IH. reflexivity. Qed.

(** The text shown after a round trip through the ids of a char scheme: known characters as they
    are (the marker as a space), unknown ones as "<unk>". *)
Definition char_view (table : list Typ) (c : N) : str :=
  if has_name_dec table [c] then [if N.eqb c MARK then SPACE else c] else lit "<unk>".
Lemma char_ids table s line :
  make_scheme KChar table = Ok s ->
  exists ws ids outs,
    words_of line ws /\
    encode s line = Ok ids /\ Forall2 (fun c i => id_of table [c] i) (spaced MARK ws) ids /\
    Forall2 (fun c o => shown table [c] o) (spaced MARK ws) outs /\
    decode s ids = Ok (unmark (concat outs)).
Proof.
  intros Hs. apply (make_flat_inv KChar table s (or_intror eq_refl)) in Hs as Hi'.
  destruct Hi' as (Hr & Hd & Es).
  set (txt := spaced MARK (split line)).
  exists (split line), (map (fun c => id_fun table 1 [c]) txt), (map (fun c => show_fun table [c]) txt).
  split; [apply words_of_split|]. split.
  { rewrite (flat_encode KChar table s (or_intror eq_refl) Hs _ (map (fun c => [c]) txt)).
    - rewrite map_map. reflexivity.
    - rewrite Es. unfold encode_str. simpl. rewrite join_spaced. reflexivity. }
  split. { apply Forall2_map_r. intros c _. apply id_fun_id_of, Hd. }
  split. { apply Forall2_map_r. intros c _. apply show_fun_shown. }
  rewrite <- (map_map (fun c => [c]) (id_fun table 1)).
  rewrite (flat_decode_encode KChar table s (or_intror eq_refl) Hs).
  rewrite map_map, Es. unfold decode_str. simpl. reflexivity.
Qed.

(** *** C10, C11 *)
Lemma class_encode_str s line : s_kind s = KClass -> encode_str s line = Ok [strip line].
Proof. intros H. unfold encode_str. rewrite H. reflexivity. Qed.
Lemma class_encode table s line :
  make_scheme KClass table = Ok s -> encode s line = Ok [id_fun table (-1) (strip line)].
Proof.
  intros Hs. apply make_class_inv in Hs as (Hd & ->). reflexivity.
Qed.
Lemma class_labels table s :
  make_scheme KClass table = Ok s ->
  (forall line lab g1 g2, line = g1 ++ lab ++ g2 -> gap g1 -> gap g2 -> stripped lab ->
     (forall i, name_at table i lab -> encode s line = Ok [i] /\ decode s [i] = Ok lab) /\
     (~ has_name table lab -> encode s line = Ok [-1])) /\
  (forall i lab, name_at table i lab -> decode s [i] = Ok lab).
Proof.
  intros Hs.
  assert (Hdec : forall i lab, name_at table i lab -> decode s [i] = Ok lab).
  { intros i lab H. apply make_class_inv in Hs as (Hd & ->). unfold decode.
    cbn [s_idx_to_str mapM]. rewrite (name_at_py_nth _ _ _ H). reflexivity. }
  split; [|exact Hdec].
  intros line lab g1 g2 -> H1 H2 Hl.
  rewrite (class_encode table s _ Hs). rewrite strip_unique by assumption.
  apply make_class_inv in Hs as (Hd & Es). split.
  - intros i Hi. split; [|apply Hdec, Hi]. do 2 f_equal.
    eapply name_at_inj; [exact Hd| |exact Hi]. apply id_fun_known; [exact Hd|].
    eapply name_at_has; eauto.
  - intros Hn. rewrite id_fun_unknown by exact Hn. reflexivity.
Qed.
Lemma class_unknown_last table s line :
  make_scheme KClass table = Ok s -> table <> [] -> ~ has_name table (strip line) ->
  exists ids lab, encode s line = Ok ids /\ decode s ids = Ok lab /\
                  name_at table (Z.of_nat (length table) - 1) lab.
Proof.
  intros Hs Hne Hn. exists [-1].
  destruct (exists_last Hne) as (l & t & E). exists (t_name t).
  split. { rewrite (class_encode table s _ Hs), id_fun_unknown by exact Hn. reflexivity. }
  assert (Hat : name_at table (Z.of_nat (length table) - 1) (t_name t)).
  { subst table. split; [rewrite app_length; simpl; lia|]. exists t. split; [|reflexivity].
    rewrite app_length. simpl. replace (Z.to_nat _) with (length l) by lia.
    rewrite nth_error_app2, Nat.sub_diag by lia. reflexivity. }
  split; [|exact Hat].
  apply make_class_inv in Hs as (Hd & ->). unfold decode. cbn [s_idx_to_str mapM].
  unfold py_nth, py_index. rewrite map_length.
  destruct (Z.leb_spec 0 (-1)); [lia|].
  assert (length table > 0)%nat by (subst table; rewrite app_length; simpl; lia).
  destruct (Z.leb_spec (- Z.of_nat (length table)) (-1)); [|lia].
  apply name_at_nth in Hat as [_ Hat].
  replace (Z.to_nat (Z.of_nat (length table) + -1)) with (Z.to_nat (Z.of_nat (length table) - 1)) by lia.
  rewrite Hat. reflexivity.
Qed.
Lemma class_distinct table s i j lab :
  make_scheme KClass table = Ok s -> name_at table i lab -> name_at table j lab -> i = j.
Proof. intros Hs. apply make_class_inv in Hs as (Hd & _). apply name_at_inj, Hd. Qed.
Lemma class_unknown_marked table s line :
  make_scheme KClass table = Ok s ->
  (~ has_name table (strip line) <-> encode s line = Ok [-1]).
Proof.
  intros Hs. rewrite (class_encode table s _ Hs). apply make_class_inv in Hs as (Hd & _). split.
  - intros Hn. rewrite id_fun_unknown by exact Hn. reflexivity.
  - intros H Hn. apply (id_fun_known table (-1) _ Hd) in Hn as [H0 _].
    assert (E : id_fun table (-1) (strip line) = -1) by congruence. lia.
Qed.
