(** Proofs about LearnModel.v. *)
From Coq Require Import Strings.String.
From Coq Require Import QArith Sorted.
From Verif Require Import Py PyStr PyLemmas StrSpec PyStrProofs NumProofs Utf8Model JsonModel JsonProofs CodecModel CodecSpec FlatProofs
     VocabFileModel VocabSpec VocabFileProofs LearnModel ArithModel LearnSpec.
Local Open Scope Z_scope.
Local Open Scope list_scope.

(** ** counting *)
Section Counter.
  Context {K : Type} (eqb : K -> K -> bool) (dec : forall a b : K, {a = b} + {a <> b}).
  Hypothesis Heq : forall a b, eqb a b = true <-> a = b.

  Lemma dget_def_dset k k0 (v : Z) d dflt :
    dget_def eqb k dflt (dset eqb k0 v d) = if eqb k k0 then v else dget_def eqb k dflt d.
  Proof. unfold dget_def. rewrite (dget_dset eqb Heq). destruct (eqb k k0); reflexivity. Qed.
  Lemma dget_def_dadd k k0 n d :
    dget_def eqb k 0 (dadd eqb k0 n d) = dget_def eqb k 0 d + if eqb k k0 then n else 0.
  Proof.
    unfold dadd. rewrite dget_def_dset. destruct (eqb k k0) eqn:E; [|lia].
    apply Heq in E. subst. reflexivity.
  Qed.
  Lemma counter_get w xs : forall d,
    dget_def eqb w 0 (counter_update eqb xs d) = dget_def eqb w 0 d + Z.of_nat (count_occ dec xs w).
  Proof.
    unfold counter_update. induction xs as [|x xs IH]; intros d; cbn [fold_left count_occ]; [lia|].
    rewrite IH, dget_def_dadd. destruct (dec x w) as [->|Hn].
    - rewrite (proj2 (Heq w w) eq_refl). lia.
    - destruct (eqb w x) eqn:E; [apply Heq in E; subst; contradiction|]. lia.
  Qed.
  Lemma counter_app xs ys d : counter_update eqb (xs ++ ys) d = counter_update eqb ys (counter_update eqb xs d).
  Proof. unfold counter_update. apply fold_left_app. Qed.
  Lemma first_seen_nil : @first_seen K [] [].
  Proof.
    split; [constructor|]. split; [intros x; tauto|]. intros [|? ?] ? ? ? H; discriminate H.
  Qed.
  Lemma first_seen_old (l ks : list K) x : first_seen l ks -> In x ks -> first_seen (l ++ [x]) ks.
  Proof.
    intros (H1 & H2 & H3) Hx. split; [exact H1|]. split.
    - intros y. rewrite in_app_iff, H2. simpl. split; [tauto|]. intros [H|[<-|[]]]; [exact H|]. apply H2. exact Hx.
    - intros k1 y k2 z E Hz. destruct (H3 k1 y k2 z E Hz) as (l1 & l2 & -> & Hn).
      exists l1, (l2 ++ [x]). split; [|exact Hn]. rewrite <- app_assoc. reflexivity.
  Qed.
  Lemma first_seen_new (l ks : list K) x : first_seen l ks -> ~ In x ks -> first_seen (l ++ [x]) (ks ++ [x]).
  Proof.
    intros (H1 & H2 & H3) Hx. split; [apply NoDup_snoc; assumption|]. split.
    - intros y. rewrite !in_app_iff, H2. tauto.
    - intros k1 y k2 z E Hz. destruct k2 as [|u k2 _] using rev_ind.
      { destruct Hz. }
      assert (Es : ks ++ [x] = (k1 ++ y :: k2) ++ [u]).
      { rewrite E, <- app_assoc. reflexivity. }
      apply app_inj_tail in Es. destruct Es as [E1 E2]. subst u.
      apply in_app_iff in Hz. destruct Hz as [Hz|[<-|[]]].
      + destruct (H3 k1 y k2 z E1 Hz) as (l1 & l2 & -> & Hn).
        exists l1, (l2 ++ [x]). split; [|exact Hn]. rewrite <- app_assoc. reflexivity.
      + assert (Hy : In y l). { apply H2. rewrite E1. apply in_elt. }
        apply in_split in Hy. destruct Hy as (l1 & l2 & ->). exists l1, (l2 ++ [x]).
        split; [rewrite <- app_assoc; reflexivity|]. intros Hi. apply Hx, H2. apply in_app_iff. auto.
  Qed.
  Lemma counter_first_seen xs : first_seen xs (map fst (counter_update eqb xs [])).
  Proof.
    induction xs as [|x xs IH] using rev_ind; [apply first_seen_nil|].
    rewrite counter_app. unfold counter_update at 1. cbn [fold_left]. unfold dadd.
    match goal with |- context [map fst (dset eqb x ?v ?d)] => pose proof (dkeys_dset eqb x v d) as E end.
    unfold dkeys in E. rewrite E.
    destruct (dmem eqb x (counter_update eqb xs [])) eqn:Em.
    - apply first_seen_old; [exact IH|]. apply (dmem_spec eqb Heq) in Em. exact Em.
    - apply first_seen_new; [exact IH|]. intros Hi. apply (dmem_spec eqb Heq) in Hi. congruence.
  Qed.
End Counter.

Lemma counter_exact toks : exact_counts toks (counter_update str_eqb toks []).
Proof.
  split; [apply counter_first_seen, str_eqb_eq|]. intros w f Hin.
  pose proof (counter_get str_eqb str_dec str_eqb_eq w toks []) as Hg. cbn in Hg.
  unfold occurrences. rewrite <- Hg. unfold dget_def.
  rewrite (In_dget str_eqb str_eqb_eq w f); [reflexivity| |exact Hin].
  apply (counter_NoDup str_eqb str_eqb_eq). constructor.
Qed.

Lemma term_frequencies_eq k data :
  term_frequencies k data =
  (counter_update str_eqb (flat_map (fun l => flat_pieces k (strip l)) data) [], Z.of_nat (length data)).
Proof.
  unfold term_frequencies.
  assert (G : forall data st n,
    fold_left (fun st0 line => let '(stats, m) := st0 in
                 (counter_update str_eqb (flat_pieces k (strip line)) stats, m + 1)) data (st, n) =
    (counter_update str_eqb (flat_map (fun l => flat_pieces k (strip l)) data) st, n + Z.of_nat (length data))).
  { clear. induction data as [|l data IH]; intros st n; cbn [fold_left flat_map length].
    - rewrite Z.add_0_r. reflexivity.
    - rewrite IH, counter_app. f_equal. lia. }
  rewrite G. f_equal.
Qed.

Lemma tokens_of_fun k data toks : tokens_of k data toks ->
  toks = flat_map (fun l => flat_pieces k (strip l)) data.
Proof.
  destruct k; simpl; try contradiction.
  - intros (wss & H & ->). induction H as [|l ws data wss Hw _ IH]; [reflexivity|].
    simpl. rewrite IH. f_equal. rewrite split_strip. symmetry. apply split_words_of, Hw.
  - intros (wss & H & ->). induction H as [|l ws data wss Hw _ IH]; [reflexivity|].
    simpl. rewrite map_app, IH. f_equal. rewrite join_spaced, split_strip.
    rewrite (split_words_of _ _ Hw). reflexivity.
  - intros H. induction H as [|l t data toks Ht _ IH]; [reflexivity|].
    simpl. rewrite IH. f_equal. rewrite strip_idem. apply trimmed_strip, Ht.
Qed.
Lemma tokens_of_exist k data : k = KWord \/ k = KChar \/ k = KClass ->
  tokens_of k data (flat_map (fun l => flat_pieces k (strip l)) data).
Proof.
  assert (Hw : Forall2 words_of data (map split data)).
  { induction data; constructor; [apply words_of_split|assumption]. }
  intros [-> |[-> | ->]]; simpl.
  - exists (map split data). split; [exact Hw|]. clear. induction data as [|l d IH]; [reflexivity|].
    simpl. rewrite IH, split_strip. reflexivity.
  - exists (map split data). split; [exact Hw|]. clear. induction data as [|l d IH]; [reflexivity|].
    simpl. rewrite IH, split_strip, map_app, join_spaced. reflexivity.
  - clear. induction data as [|l d IH]; [constructor|]. simpl. constructor; [|exact IH].
    rewrite strip_idem. apply trimmed_strip. reflexivity.
Qed.

Theorem term_frequencies_exact k data toks stats n :
  tokens_of k data toks -> term_frequencies k data = (stats, n) ->
  exact_counts toks stats /\ n = Z.of_nat (length data).
Proof.
  intros Ht H. rewrite term_frequencies_eq, <- (tokens_of_fun k data toks Ht) in H.
  injection H as <- <-. split; [apply counter_exact|reflexivity].
Qed.
Lemma term_frequencies_NoDup k data : NoDup (map fst (fst (term_frequencies k data))).
Proof. rewrite term_frequencies_eq. apply (counter_NoDup str_eqb str_eqb_eq). constructor. Qed.

Lemma counter_sum toks : forall d, zsum (map snd (counter_update str_eqb toks d)) = zsum (map snd d) + Z.of_nat (length toks).
Proof.
  unfold counter_update. induction toks as [|w toks IH]; intros d; cbn [fold_left length]; [lia|].
  rewrite IH. assert (zsum (map snd (dadd str_eqb w 1 d)) = zsum (map snd d) + 1); [|lia].
  unfold dadd, dget_def. clear IH. induction d as [|[k v] d IHd]; simpl; [reflexivity|].
  destruct (str_eqb w k) eqn:E; simpl; rewrite ?zsum_cons; [lia|].
  change (zsum (map snd (dset str_eqb w (match dget str_eqb w d with Some v0 => v0 | None => 0 end + 1) d)) =
          zsum (map snd d) + 1) in IHd. lia.
Qed.

(** ** earlier *)
Lemma earlier_filter {A} (p : A -> bool) x y l :
  earlier x y (filter p l) <-> earlier x y l /\ p x = true /\ p y = true.
Proof.
  split.
  - intros H. induction l as [|a l IH]; simpl in H.
    + destruct H as ([|? ?] & l2 & l3 & E); discriminate E.
    + destruct (p a) eqn:Ep.
      * destruct H as (l1 & l2 & l3 & E). destruct l1 as [|b l1]; injection E as Ea E.
        { subst a. assert (Hy : In y (filter p l)) by (rewrite E; apply in_elt).
          apply filter_In in Hy. destruct Hy as [Hy Hp]. apply in_split in Hy. destruct Hy as (m1 & m2 & ->).
          split; [|split; assumption]. exists [], m1, m2. reflexivity. }
        { subst b. destruct IH as [(m1 & m2 & m3 & E1) Hp]; [exists l1, l2, l3; exact E|].
          split; [|exact Hp]. exists (a :: m1), m2, m3. rewrite E1. reflexivity. }
      * destruct (IH H) as [(m1 & m2 & m3 & ->) Hp]. split; [|exact Hp]. exists (a :: m1), m2, m3. reflexivity.
  - intros ((l1 & l2 & l3 & ->) & Hx & Hy).
    exists (filter p l1), (filter p l2), (filter p l3).
    rewrite filter_app. simpl. rewrite Hx, filter_app. simpl. rewrite Hy. reflexivity.
Qed.
Lemma earlier_app_l {A} (x y : A) l r : earlier x y l -> earlier x y (l ++ r).
Proof.
  intros (l1 & l2 & l3 & ->). exists l1, l2, (l3 ++ r). rewrite <- !app_assoc. simpl. rewrite <- app_assoc. reflexivity.
Qed.

Lemma desc_earlier (l : list (str * Z)) x y : desc snd l -> earlier x y l -> snd y <= snd x.
Proof.
  intros Hd (l1 & l2 & l3 & ->). induction l1 as [|a l1 IH]; simpl in Hd; inversion Hd as [|? ? Hle Hd']; subst.
  - apply Hle. apply in_elt.
  - apply IH, Hd'.
Qed.
Lemma sorted_desc_ranked tf : ranked tf (sorted_desc snd tf).
Proof.
  split; [apply sorted_desc_perm|]. intros x y H.
  pose proof (desc_earlier _ x y (sorted_desc_desc snd tf) H) as Hle.
  destruct (Z.eq_dec (snd x) (snd y)) as [E|E]; [|left; lia]. right. split; [exact E|].
  assert (Hf : earlier x y (filter (fun e => snd e =? snd x) (sorted_desc snd tf))).
  { apply earlier_filter. split; [exact H|]. split; [lia|]. lia. }
  rewrite sorted_desc_stable in Hf. apply earlier_filter in Hf. tauto.
Qed.
Lemma Permutation_filter {A} (p : A -> bool) l l' : Permutation l l' -> Permutation (filter p l) (filter p l').
Proof.
  induction 1; simpl.
  - constructor.
  - destruct (p x); [constructor|]; assumption.
  - destruct (p x), (p y); try reflexivity. apply perm_swap.
  - etransitivity; eassumption.
Qed.
Lemma ranked_filter p src out : ranked src out -> ranked (filter p src) (filter p out).
Proof.
  intros [H1 H2]. split; [apply Permutation_filter, H1|]. intros x y H. apply earlier_filter in H.
  destruct H as (H & Hx & Hy). destruct (H2 x y H) as [Hl|[He Hr]]; [left; exact Hl|right].
  split; [exact He|]. apply earlier_filter. auto.
Qed.
Lemma filter_filter {A} (p q : A -> bool) l : filter p (filter q l) = filter (fun x => q x && p x) l.
Proof.
  induction l as [|x l IH]; simpl; [reflexivity|]. destruct (q x) eqn:Eq; simpl; [|exact IH].
  destruct (p x); rewrite IH; reflexivity.
Qed.
Lemma filter_partition_perm {A} (p : A -> bool) l : Permutation (filter p l ++ filter (fun x => negb (p x)) l) l.
Proof.
  induction l as [|x l IH]; simpl; [constructor|]. destruct (p x); simpl.
  - constructor. exact IH.
  - symmetry. apply Permutation_cons_app. symmetry. exact IH.
Qed.
Lemma filter_true {A} (p : A -> bool) l : (forall x, In x l -> p x = true) -> filter p l = l.
Proof.
  induction l as [|x l IH]; intros H; [reflexivity|]. simpl. rewrite (H x) by (left; reflexivity).
  rewrite IH; [reflexivity|]. intros y Hy. apply H. right. exact Hy.
Qed.
Lemma filter_nil {A} (p : A -> bool) l : (forall x, In x l -> p x = false) -> filter p l = [].
Proof.
  induction l as [|x l IH]; intros H; [reflexivity|]. simpl. rewrite (H x) by (left; reflexivity).
  apply IH. intros y Hy. apply H. right. exact Hy.
Qed.

(** ** popping reserved names *)
Lemma ddel_filter {V} k (d : list (str * V)) : NoDup (map fst d) ->
  ddel str_eqb k d = filter (fun e => negb (str_eqb k (fst e))) d.
Proof.
  induction d as [|[k' v] d IH]; intros H; [reflexivity|]. simpl in *. inversion H as [|? ? Hn Hd]; subst.
  destruct (str_eqb k k') eqn:E; simpl.
  - apply str_eqb_eq in E. subst k'. symmetry. apply filter_true. intros [a b] Hin. simpl.
    destruct (str_eqb k a) eqn:E; [|reflexivity]. apply str_eqb_eq in E. subst a. exfalso. apply Hn.
    apply in_map_iff. exists (k, b). auto.
  - rewrite IH by assumption. reflexivity.
Qed.
Lemma NoDup_map_filter {A B} (f : A -> B) p l : NoDup (map f l) -> NoDup (map f (filter p l)).
Proof.
  induction l as [|x l IH]; intros H; [constructor|]. simpl in *. inversion H as [|? ? Hn Hl]; subst.
  destruct (p x); simpl; [|apply IH, Hl]. constructor; [|apply IH, Hl].
  intros Hi. apply Hn. apply in_map_iff in Hi. destruct Hi as (y & E & Hy). apply filter_In in Hy.
  rewrite <- E. apply in_map. tauto.
Qed.
Definition pop_step (st : list (str * Z) * list (str * Z)) (r : Typ) :=
  let '(res_stats, tf) := st in
  match dget str_eqb (t_name r) tf with
  | Some f => (dset str_eqb (t_name r) f res_stats, ddel str_eqb (t_name r) tf)
  | None => st
  end.
Lemma pop_fold rs : forall rst tf, NoDup (map t_name rs) -> NoDup (map fst tf) ->
  (forall w, In w (map t_name rs) -> dget str_eqb w rst = None) ->
  exists rst', fold_left pop_step rs (rst, tf) =
               (rst', filter (fun e => negb (existsb (str_eqb (fst e)) (map t_name rs))) tf) /\
  forall w, dget str_eqb w rst' = if existsb (str_eqb w) (map t_name rs) then dget str_eqb w tf else dget str_eqb w rst.
Proof.
  induction rs as [|r rs IH]; intros rst tf Hnd Htf Hr.
  - exists rst. simpl. split; [|reflexivity]. f_equal. symmetry. apply filter_true. reflexivity.
  - simpl in Hnd. inversion Hnd as [|? ? Hni Hnd']; subst. cbn [fold_left].
    assert (Hex : forall w, In w (map t_name rs) -> str_eqb w (t_name r) = false).
    { intros w Hw. apply str_eqb_neq. intros ->. contradiction. }
    unfold pop_step at 2. destruct (dget str_eqb (t_name r) tf) as [f|] eqn:E.
    + rewrite ddel_filter by exact Htf.
      destruct (IH (dset str_eqb (t_name r) f rst) (filter (fun e => negb (str_eqb (t_name r) (fst e))) tf)) as (rst' & E1 & E2).
      * exact Hnd'.
      * apply NoDup_map_filter, Htf.
      * intros w Hw. rewrite (dget_dset str_eqb str_eqb_eq), Hex by exact Hw. apply Hr. right. exact Hw.
      * exists rst'. split.
        { rewrite E1, filter_filter. f_equal. apply filter_ext. intros [a b]. simpl.
          rewrite (str_eqb_sym (t_name r) a). destruct (str_eqb a (t_name r)); reflexivity. }
        { intros w. rewrite E2. simpl. rewrite (dget_dset str_eqb str_eqb_eq).
          destruct (existsb (str_eqb w) (map t_name rs)) eqn:Ex.
          - apply existsb_exists in Ex. destruct Ex as (x & Hx & Exx). apply str_eqb_eq in Exx. subst x.
            rewrite (Hex w Hx). simpl.
            assert (Hdel : forall d, NoDup (map fst d) -> dget str_eqb w (filter (fun e : str * Z => negb (str_eqb (t_name r) (fst e))) d) = dget str_eqb w d).
            { clear - Hex Hx. induction d as [|[a b] d IHd]; intros Hd; [reflexivity|]. simpl in *. inversion Hd; subst.
              destruct (str_eqb (t_name r) a) eqn:Ea; simpl; rewrite IHd by assumption; [|reflexivity].
              apply str_eqb_eq in Ea. subst a. rewrite (Hex w Hx). reflexivity. }
            apply Hdel, Htf.
          - destruct (str_eqb w (t_name r)) eqn:Ew; simpl; [|reflexivity].
            apply str_eqb_eq in Ew. subst w. symmetry. exact E. }
    + destruct (IH rst tf) as (rst' & E1 & E2).
      * exact Hnd'.
      * exact Htf.
      * intros w Hw. apply Hr. right. exact Hw.
      * exists rst'. split.
        { rewrite E1. f_equal. apply filter_ext_in. intros [a b] Hab. simpl.
          destruct (str_eqb a (t_name r)) eqn:Ea; [|reflexivity]. apply str_eqb_eq in Ea. subst a.
          apply (dget_None str_eqb str_eqb_eq) in E. exfalso. apply E. apply in_map_iff. exists (t_name r, b). auto. }
        { intros w. rewrite E2. simpl. destruct (str_eqb w (t_name r)) eqn:Ew; simpl; [|reflexivity].
          apply str_eqb_eq in Ew. subst w. rewrite E. rewrite Hr by (left; reflexivity).
          destruct (existsb _ _); reflexivity. }
Qed.
Definition nonres (tf : list (str * Z)) : list (str * Z) := filter (fun e => negb (reserved_name (fst e))) tf.
Lemma pop_reserved_eq tf : NoDup (map fst tf) ->
  exists rst, pop_reserved tf = (rst, nonres tf) /\
  forall w, dget str_eqb w rst = if reserved_name w then dget str_eqb w tf else None.
Proof.
  intros H. destruct (pop_fold with_reserved_types [] tf) as (rst & E1 & E2).
  - vm_compute. repeat constructor; simpl; intuition congruence.
  - exact H.
  - reflexivity.
  - exists rst. split; [exact E1|exact E2].
Qed.

(** ** coverage *)
Lemma cover_loop_spec A c tot types : forall cum inc out,
  NoDup (map fst (inc ++ types)) -> cover_loop A c tot cum types inc = Ok out ->
  exists pre post, types = pre ++ post /\ out = inc ++ pre /\
    (types <> [] -> pre <> []) /\
    (post = [] \/ a_leb A c (fold_left (fun c e => a_add A c (a_div A (snd e) tot)) pre cum) = true) /\
    (forall p q, pre = p ++ q -> p <> [] -> q <> [] ->
       a_leb A c (fold_left (fun c e => a_add A c (a_div A (snd e) tot)) p cum) = false).
Proof.
  induction types as [|[t f] types IH]; intros cum inc out Hnd H; cbn [cover_loop] in H.
  - injection H as <-. exists [], []. 
    split; [reflexivity|]. split; [symmetry; apply app_nil_r|]. split; [congruence|]. split; [left; reflexivity|].
    intros [|? ?] q E; [congruence|discriminate].
  - destruct (tot =? 0); [discriminate|].
    assert (Hfresh : dset str_eqb t f inc = inc ++ [(t, f)]).
    { apply (dset_fresh str_eqb str_eqb_eq). unfold dkeys. rewrite map_app in Hnd. simpl in Hnd.
      apply NoDup_remove_2 in Hnd. intros Hi. apply Hnd. apply in_app_iff. left. exact Hi. }
    rewrite Hfresh in H. cbv zeta in H.
    destruct (a_leb A c (a_add A cum (a_div A f tot))) eqn:El.
    + injection H as <-. exists [(t, f)], types. split; [reflexivity|]. split; [reflexivity|].
      split; [discriminate|]. split; [right; exact El|].
      intros [|a p] q E Hp Hq; [congruence|]. injection E as <- E. destruct p; simpl in E; [|discriminate].
      subst q. congruence.
    + apply IH in H; [|rewrite <- app_assoc; exact Hnd].
      destruct H as (pre & post & -> & -> & _ & H2 & H3). exists ((t, f) :: pre), post.
      split; [reflexivity|]. split; [rewrite <- app_assoc; reflexivity|]. split; [discriminate|]. split; [exact H2|].
      intros [|a p] q E Hp Hq; [congruence|]. injection E as <- E. cbn [fold_left snd].
      destruct p as [|b p]; [exact El|]. apply (H3 (b :: p) q E); [discriminate|exact Hq].
Qed.
Lemma cover_loop_ok A c tot types : forall cum inc, tot <> 0 -> exists out, cover_loop A c tot cum types inc = Ok out.
Proof.
  induction types as [|[t f] types IH]; intros cum inc Ht; simpl; [eauto|].
  destruct (Z.eqb_spec tot 0); [contradiction|]. destruct (a_leb _ _ _); eauto.
Qed.
Lemma excludes_eq types : forall (inc : list (str * Z)) d, NoDup (map fst (d ++ types)) ->
  fold_left (fun d tf => if dmem str_eqb (fst tf) inc then d else dset str_eqb (fst tf) (snd tf) d) types d =
  d ++ filter (fun e : str * Z => negb (dmem str_eqb (fst e) inc)) types.
Proof.
  induction types as [|[t f] types IH]; intros inc d H; cbn [fold_left filter fst snd].
  - rewrite app_nil_r. reflexivity.
  - destruct (dmem str_eqb t inc) eqn:E; simpl.
    + apply IH. rewrite map_app in *. simpl in H. apply NoDup_remove_1 in H. exact H.
    + rewrite (dset_fresh str_eqb str_eqb_eq).
      * rewrite IH by (rewrite <- app_assoc; exact H). rewrite <- app_assoc. reflexivity.
      * unfold dkeys. rewrite map_app in H. simpl in H. apply NoDup_remove_2 in H.
        intros Hi. apply H. apply in_app_iff. left. exact Hi.
Qed.
Lemma NoDup_app_disjoint {A} (l l' : list A) x : NoDup (l ++ l') -> In x l -> In x l' -> False.
Proof.
  induction l as [|y l IH]; intros H H1 H2; [destruct H1|]. simpl in H. inversion H; subst.
  destruct H1 as [->|H1]; [|eauto]. apply H4. apply in_app_iff. auto.
Qed.
Theorem coverage_spec A types c incl unk :
  NoDup (map fst types) -> filter_types_coverage A types c = Ok (incl, unk) ->
  exists rest, ranked types (incl ++ rest) /\ unk = freq_sum rest /\
    (types <> [] -> incl <> []) /\
    (rest = [] \/ reaches A (freq_sum types) c incl) /\
    (forall p q, incl = p ++ q -> p <> [] -> q <> [] -> ~ reaches A (freq_sum types) c p).
Proof.
  intros Hnd H. unfold filter_types_coverage in H. destruct (assert_ (a_unit A c)) as [[]|e]; [|discriminate]. cbn [bind] in H.
  destruct (cover_loop A c (zsum (dvalues types)) (a_zero A) (sorted_desc snd types) []) as [inc|e] eqn:E; [|discriminate].
  cbn [bind] in H. injection H as <- <-.
  pose proof (sorted_desc_perm snd types) as Hp.
  assert (Hnd' : NoDup (map fst (sorted_desc snd types))).
  { eapply Permutation_NoDup; [|exact Hnd]. apply Permutation_map. symmetry. exact Hp. }
  apply cover_loop_spec in E; [|exact Hnd'].
  destruct E as (pre & post & E & -> & H1 & H2 & H3). simpl. exists post.
  rewrite E in Hnd'. split; [rewrite <- E; apply sorted_desc_ranked|]. split; [|split; [|split]].
  - rewrite excludes_eq by (rewrite E; exact Hnd'). simpl. rewrite E, filter_app.
    rewrite (filter_nil _ pre), (filter_true _ post); [reflexivity| |].
    + intros [a b] Hab. simpl. destruct (dmem str_eqb a pre) eqn:Em; [|reflexivity].
      apply (dmem_spec str_eqb str_eqb_eq) in Em. exfalso. rewrite map_app in Hnd'.
      eapply NoDup_app_disjoint; [exact Hnd'|exact Em|]. apply in_map_iff. exists (a, b). auto.
    + intros [a b] Hab. simpl. assert (Em : dmem str_eqb a pre = true); [|rewrite Em; reflexivity].
      apply (dmem_spec str_eqb str_eqb_eq). apply in_map_iff. exists (a, b). auto.
  - intros Hne. apply H1. intros E0. rewrite E0 in Hp. apply Permutation_nil in Hp. contradiction.
  - exact H2.
  - intros p q Ep Hp0 Hq. specialize (H3 p q Ep Hp0 Hq). unfold reaches, share, freq_sum. unfold dvalues in H3. rewrite H3. discriminate.
Qed.
Theorem coverage_outcome A types c :
  (a_unit A c = false -> filter_types_coverage A types c = Raise AssertionError) /\
  (a_unit A c = true -> types <> [] -> freq_sum types = 0 -> filter_types_coverage A types c = Raise ZeroDivisionError) /\
  (a_unit A c = true -> types = [] \/ freq_sum types <> 0 -> exists r, filter_types_coverage A types c = Ok r).
Proof.
  unfold filter_types_coverage. split; [|split].
  - intros ->. reflexivity.
  - intros -> Hne H0. cbn. change (zsum (dvalues types)) with (freq_sum types). rewrite H0.
    destruct (sorted_desc snd types) as [|[t f] l] eqn:E; [|reflexivity].
    exfalso. pose proof (sorted_desc_perm snd types) as Hp. rewrite E in Hp. apply Permutation_nil in Hp. contradiction.
  - intros -> [-> |Hn]; cbn; [eauto|].
    destruct (cover_loop_ok A c (zsum (dvalues types)) (sorted_desc snd types) (a_zero A) [] Hn) as (out & ->). cbn. eauto.
Qed.

(** Exact rationals: reaching the coverage is the inequality one expects. *)
Lemma share_Q tot l : tot <> 0 -> forall c, fold_left (fun c e => Qplus c (Qdiv (inject_Z (snd e)) (inject_Z tot))) l c ==
  (c + inject_Z (freq_sum l) / inject_Z tot)%Q.
Proof.
  intros Ht. assert (Hq : ~ (inject_Z tot == 0)%Q). { intros E. apply Ht. unfold Qeq in E. simpl in E. lia. }
  induction l as [|[t f] l IH]; intros c; cbn [fold_left snd].
  - unfold freq_sum. simpl. field. exact Hq.
  - rewrite IH. unfold freq_sum. simpl. rewrite inject_Z_plus. field. exact Hq.
Qed.
Theorem reaches_Q tot c l : 0 < tot -> (reaches arithQ tot c l <-> (c * inject_Z tot <= inject_Z (freq_sum l))%Q).
Proof.
  intros Ht. unfold reaches, share. simpl. rewrite Qle_bool_iff, (share_Q tot l) by lia. rewrite Qplus_0_l.
  assert (Hp : (0 < inject_Z tot)%Q). { unfold Qlt. simpl. lia. }
  split; intros H.
  - apply (Qmult_le_r _ _ (inject_Z tot) Hp) in H. rewrite Qmult_comm in H.
    assert (E : (inject_Z (freq_sum l) / inject_Z tot * inject_Z tot == inject_Z (freq_sum l))%Q).
    { field. intros E. rewrite E in Hp. discriminate Hp. }
    rewrite E in H. rewrite Qmult_comm in H. exact H.
  - apply Qle_shift_div_l; assumption.
Qed.

(** ** get_init_vocab *)
Lemma freq_sum_perm a b : Permutation a b -> freq_sum a = freq_sum b.
Proof. intros H. apply zsum_perm, Permutation_map, H. Qed.
Lemma freq_sum_app a b : freq_sum (a ++ b) = freq_sum a + freq_sum b.
Proof. unfold freq_sum. rewrite map_app. apply zsum_app. Qed.
Lemma py_take_drop {A} (l : list A) i : py_take l i ++ py_drop l i = l.
Proof. apply firstn_skipn. Qed.

Definition rows (level k : Z) (l : list (str * Z)) : list Typ :=
  map (fun it => MkType (fst (snd it)) level (fst it) (snd (snd it)) None) (enum_from k l).
Definition head_rows (rst : list (str * Z)) (unk : Z) (lc : option Z) : list Typ :=
  map (reserved_row rst unk lc) (enumerate with_reserved_types).

(** What survives: after coverage, after min_freq, after the size cut. *)
Lemma Ok_inj {A} (a b : A) : Ok a = Ok b -> b = a.
Proof. intros H. injection H as H. symmetry. exact H. Qed.
Ltac unk_tac := match goal with |- map (reserved_row _ ?u _) _ ++ _ = head_rows ?r ?v ?l ++ _ =>
  let H := fresh in assert (H : v = u) by (rewrite ?freq_sum_app; unfold freq_sum in *; lia); rewrite H; reflexivity end.
Lemma init_split A level tf cov lc mf vs table :
  NoDup (map fst tf) -> get_init_vocab A level tf cov lc mf vs = Ok table ->
  exists rst kept dropped cut,
    (forall w, dget str_eqb w rst = if reserved_name w then dget str_eqb w tf else None) /\
    Permutation (kept ++ dropped) (nonres tf) /\
    table = head_rows rst (freq_sum dropped) lc ++ rows level 6 kept /\
    (cov = None -> ranked (candidates mf tf) cut) /\
    kept = (if (vs >? 0) && (6 + Z.of_nat (length cut) >? vs) then py_take cut (vs - 6) else cut).
Proof.
  intros Hnd H. unfold get_init_vocab in H.
  destruct (pop_reserved_eq tf Hnd) as (rst & E & Hr). rewrite E in H. cbv zeta in H.
  change (Z.of_nat (length with_reserved_types)) with 6 in H.
  assert (Hn : NoDup (map fst (nonres tf))) by (apply NoDup_map_filter, Hnd).
  assert (Hc : exists c u rest, (match cov with Some c => filter_types_coverage A (nonres tf) c | None => Ok (nonres tf, 0) end) = Ok (c, u) /\
     Permutation (c ++ rest) (nonres tf) /\ u = freq_sum rest /\ (cov = None -> c = nonres tf)).
  { destruct cov as [c|].
    - destruct (filter_types_coverage A (nonres tf) c) as [[i u]|e] eqn:Ec; [|discriminate].
      destruct (coverage_spec _ _ _ _ _ Hn Ec) as (rest & [Hp _] & Hu & _). exists i, u, rest.
      split; [reflexivity|]. split; [exact Hp|]. split; [exact Hu|discriminate].
    - exists (nonres tf), 0, []. rewrite app_nil_r. auto. }
  destruct Hc as (c & u & rest & Ec & Hp & Hu & Hcov). rewrite Ec in H. cbn [bind] in H. clear Ec.
  set (s := sorted_desc snd c) in *. assert (Hs : Permutation s c) by apply sorted_desc_perm.
  destruct (mf >? 1) eqn:Em.
  - set (cut := filter (fun e : str * Z => snd e >=? mf) s) in *.
    assert (Hdrop : filter (fun e : str * Z => snd e <? mf) s = filter (fun e => negb (snd e >=? mf)) s).
    { apply filter_ext. intros [a b]. simpl. lia. }
    destruct ((vs >? 0) && (6 + Z.of_nat (length cut) >? vs)) eqn:Ev.
    + apply Ok_inj in H; subst table.
      exists rst, (py_take cut (vs - 6)), (py_drop cut (vs - 6) ++ filter (fun e : str * Z => snd e <? mf) s ++ rest), cut.
      rewrite Ev. split; [exact Hr|]. split; [|split; [|split; [|reflexivity]]].
      * rewrite app_assoc, py_take_drop, app_assoc. unfold cut. rewrite Hdrop, filter_partition_perm, Hs. exact Hp.
      * unk_tac.
      * intros Hno. unfold cut, s. rewrite (Hcov Hno). unfold candidates.
        assert (Ef : filter (fun e : str * Z => negb (reserved_name (fst e)) && ((mf <=? 1) || (mf <=? snd e))) tf =
                     filter (fun e : str * Z => snd e >=? mf) (nonres tf)).
        { unfold nonres. rewrite filter_filter. apply filter_ext. intros [a b]. simpl. f_equal. lia. }
        rewrite Ef. apply ranked_filter, sorted_desc_ranked.
    + apply Ok_inj in H; subst table. exists rst, cut, (filter (fun e : str * Z => snd e <? mf) s ++ rest), cut. rewrite Ev.
      split; [exact Hr|]. split; [|split; [|split; [|reflexivity]]].
      * rewrite app_assoc. unfold cut. rewrite Hdrop, filter_partition_perm, Hs. exact Hp.
      * unk_tac.
      * intros Hno. unfold cut, s. rewrite (Hcov Hno). unfold candidates.
        assert (Ef : filter (fun e : str * Z => negb (reserved_name (fst e)) && ((mf <=? 1) || (mf <=? snd e))) tf =
                     filter (fun e : str * Z => snd e >=? mf) (nonres tf)).
        { unfold nonres. rewrite filter_filter. apply filter_ext. intros [a b]. simpl. f_equal. lia. }
        rewrite Ef. apply ranked_filter, sorted_desc_ranked.
  - assert (Hrk : cov = None -> ranked (candidates mf tf) s).
    { intros Hno. unfold s. rewrite (Hcov Hno). unfold candidates, nonres.
      assert (Ef : filter (fun e : str * Z => negb (reserved_name (fst e)) && ((mf <=? 1) || (mf <=? snd e))) tf =
                   filter (fun e : str * Z => negb (reserved_name (fst e))) tf).
      { apply filter_ext. intros [a b]. simpl. rewrite andb_comm. replace (mf <=? 1) with true by lia. reflexivity. }
      rewrite Ef. apply sorted_desc_ranked. }
    destruct ((vs >? 0) && (6 + Z.of_nat (length s) >? vs)) eqn:Ev.
    + apply Ok_inj in H; subst table. exists rst, (py_take s (vs - 6)), (py_drop s (vs - 6) ++ rest), s. rewrite Ev.
      split; [exact Hr|]. split; [|split; [|split; [exact Hrk|reflexivity]]].
      * rewrite app_assoc, py_take_drop, Hs. exact Hp.
      * unk_tac.
    + apply Ok_inj in H; subst table. exists rst, s, rest, s. rewrite Ev.
      split; [exact Hr|]. split; [|split; [|split; [exact Hrk|reflexivity]]].
      * rewrite Hs. exact Hp.
      * unk_tac.
Qed.

Lemma head_names rst unk lc : map t_name (head_rows rst unk lc) = reserved_names.
Proof.
  unfold head_rows. rewrite map_map.
  assert (E : map (fun x => t_name (reserved_row rst unk lc x)) (enumerate with_reserved_types) =
              map (fun x => t_name (snd x)) (enumerate with_reserved_types)).
  { apply map_ext. intros [i [n l j f k]]. unfold reserved_row. cbn [snd].
    destruct (_ =? 0); reflexivity. }
  rewrite E. reflexivity.
Qed.
Lemma head_idx rst unk lc : map t_idx (head_rows rst unk lc) = [0; 1; 2; 3; 4; 5].
Proof.
  unfold head_rows. rewrite map_map.
  assert (E : map (fun x => t_idx (reserved_row rst unk lc x)) (enumerate with_reserved_types) =
              map (fun x => t_idx (snd x)) (enumerate with_reserved_types)).
  { apply map_ext. intros [i [n l j f k]]. unfold reserved_row. cbn [snd].
    destruct (_ =? 0); reflexivity. }
  rewrite E. reflexivity.
Qed.
Lemma head_shape rst unk lc t : In t (head_rows rst unk lc) -> t_level t = -1 /\ t_kids t = None.
Proof.
  intros H. apply in_map_iff in H. destruct H as ([i r] & <- & Hin).
  assert (Hr : t_level r = -1 /\ t_kids r = None).
  { repeat (destruct Hin as [Hin|Hin]; [injection Hin as <- <-; split; reflexivity|]). destruct Hin. }
  unfold reserved_row. destruct r as [n l j f k]. destruct (_ =? 0); exact Hr.
Qed.
Lemma head_length rst unk lc : length (head_rows rst unk lc) = 6%nat.
Proof. reflexivity. Qed.
Lemma rows_names level k l : map t_name (rows level k l) = map fst l.
Proof. revert k. induction l as [|[a b] l IH]; intros k; [reflexivity|]. simpl. f_equal. apply (IH (k + 1)). Qed.
Lemma rows_pairs level k l : map (fun t => (t_name t, t_freq t)) (rows level k l) = l.
Proof. revert k. induction l as [|[a b] l IH]; intros k; [reflexivity|]. simpl. f_equal. apply (IH (k + 1)). Qed.
Lemma rows_length level k l : length (rows level k l) = length l.
Proof. unfold rows. rewrite map_length. apply enum_from_length. Qed.
Lemma rows_nth level l : forall k n t, nth_error (rows level k l) n = Some t -> t_idx t = k + Z.of_nat n.
Proof.
  induction l as [|[a b] l IH]; intros k [|n] t H; try discriminate H.
  - injection H as <-. simpl. lia.
  - apply (IH (k + 1)) in H. lia.
Qed.
Lemma rows_shape level k l t : In t (rows level k l) -> t_level t = level /\ t_kids t = None.
Proof.
  revert k. induction l as [|[a b] l IH]; intros k H; [destruct H|]. destruct H as [<-|H]; [split; reflexivity|]. apply (IH (k + 1) H).
Qed.
Lemma In_nonres e tf : In e (nonres tf) <-> In e tf /\ ~ In (fst e) reserved_names.
Proof.
  unfold nonres. rewrite filter_In. split; intros [H1 H2]; (split; [exact H1|]).
  - intros Hi. assert (E : reserved_name (fst e) = true).
    { apply existsb_exists. exists (fst e). split; [exact Hi|apply str_eqb_refl]. }
    rewrite E in H2. discriminate.
  - unfold reserved_name. destruct (existsb (str_eqb (fst e)) reserved_names) eqn:E; [|reflexivity].
    apply existsb_exists in E. destruct E as (x & Hx & Ex). apply str_eqb_eq in Ex. subst x. contradiction.
Qed.

Theorem init_layout A level tf cov lc mf vs table :
  NoDup (map fst tf) -> get_init_vocab A level tf cov lc mf vs = Ok table ->
  starts_reserved table /\ well_indexed table /\ distinct_names table /\
  (forall n t, nth_error table n = Some t -> t_kids t = None /\ t_level t = if (n <? 6)%nat then -1 else level).
Proof.
  intros Hnd H. destruct (init_split A level tf cov lc mf vs table Hnd H) as (rst & kept & dropped & cut & _ & Hp & -> & _ & _).
  split; [|split; [|split]].
  - unfold starts_reserved. rewrite map_app, head_names. reflexivity.
  - intros n t Hn. destruct (Nat.ltb_spec n 6) as [Hl|Hl].
    + rewrite nth_error_app1 in Hn by exact Hl. apply (map_nth_error t_idx) in Hn. rewrite head_idx in Hn.
      do 6 (destruct n as [|n]; [injection Hn as <-; reflexivity|]). lia.
    + rewrite nth_error_app2 in Hn by exact Hl. apply rows_nth in Hn. rewrite head_length in Hn. lia.
  - unfold distinct_names. rewrite map_app, head_names, rows_names.
    assert (Hk : NoDup (map fst kept)).
    { assert (Hn : NoDup (map fst (kept ++ dropped))).
      { eapply Permutation_NoDup; [apply Permutation_map; symmetry; exact Hp|]. apply NoDup_map_filter, Hnd. }
      rewrite map_app in Hn. revert Hn. generalize (map fst kept). clear. induction l as [|x l IH]; intros Hn; [constructor|].
      simpl in Hn. inversion Hn; subst. constructor; [|auto]. intros Hi. apply H1. apply in_app_iff. auto. }
    assert (Hd : forall w, In w (map fst kept) -> ~ In w reserved_names).
    { intros w Hw. apply in_map_iff in Hw. destruct Hw as (e & <- & He). apply (In_nonres e tf).
      eapply Permutation_in; [exact Hp|]. apply in_app_iff. auto. }
    assert (Hr : NoDup reserved_names).
    { vm_compute. repeat constructor; simpl; intuition congruence. }
    revert Hr Hd. generalize reserved_names. intros r Hr Hd. induction r as [|x r IH]; [exact Hk|].
    inversion Hr; subst. simpl. constructor.
    + intros Hi. apply in_app_iff in Hi. destruct Hi as [Hi|Hi]; [contradiction|]. apply (Hd x Hi). left. reflexivity.
    + apply IH; [assumption|]. intros w Hw Hi. apply (Hd w Hw). right. exact Hi.
  - intros n t Hn. destruct (Nat.ltb_spec n 6) as [Hl|Hl].
    + rewrite nth_error_app1 in Hn by exact Hl. apply nth_error_In in Hn. apply head_shape in Hn. tauto.
    + rewrite nth_error_app2 in Hn by exact Hl. apply nth_error_In in Hn. apply rows_shape in Hn. tauto.
Qed.

Lemma freq_in_dget tf w : NoDup (map fst tf) -> freq_in tf w = dget_def str_eqb w 0 tf.
Proof.
  unfold freq_in, dget_def. induction tf as [|[a b] tf IH]; intros H; [reflexivity|]. simpl in *.
  inversion H as [|? ? Hn Hd]; subst. destruct (str_eqb w a) eqn:E; simpl.
  - apply str_eqb_eq in E. subst a. rewrite filter_nil; [apply Z.add_0_r|].
    intros [c d] Hcd. simpl. apply str_eqb_neq. intros ->. apply Hn. apply in_map_iff. exists (c, d). auto.
  - apply IH, Hd.
Qed.

Definition lc_of (lc : option Z) : Z := match lc with Some n => n | None => 0 end.
Theorem init_mass A level tf cov lc mf vs table :
  NoDup (map fst tf) -> (forall w f, In (w, f) tf -> 0 <= f) -> 0 <= lc_of lc ->
  get_init_vocab A level tf cov lc mf vs = Ok table ->
  total_mass table = freq_sum tf + 3 * lc_of lc /\
  map mass (firstn 6 table) =
    [freq_in tf (lit "<pad>"); freq_in tf (lit "<unk>") + missing_mass tf table;
     freq_in tf (lit "<s>") + lc_of lc; freq_in tf (lit "</s>") + lc_of lc;
     freq_in tf (lit "<cls>") + lc_of lc; freq_in tf [9601%N]] /\
  forall t, In t (skipn 6 table) -> In (t_name t, t_freq t) tf.
Proof.
  intros Hnd Hpos Hlc H. pose proof (init_layout _ _ _ _ _ _ _ _ Hnd H) as (_ & _ & Hdist & _).
  destruct (init_split A level tf cov lc mf vs table Hnd H) as (rst & kept & dropped & cut & Hrst & Hp & E & _ & _).
  assert (Hkept : forall e, In e kept -> In e tf /\ ~ In (fst e) reserved_names).
  { intros e He. apply (In_nonres e tf). eapply Permutation_in; [exact Hp|]. apply in_app_iff. auto. }
  assert (Hdrop : forall e, In e dropped -> In e tf /\ ~ In (fst e) reserved_names).
  { intros e He. apply (In_nonres e tf). eapply Permutation_in; [exact Hp|]. apply in_app_iff. auto. }
  assert (Hmiss : missing_mass tf table = freq_sum dropped).
  { unfold missing_mass.
    transitivity (freq_sum (filter (fun e => negb (existsb (fun t => str_eqb (fst e) (t_name t)) table)) (nonres tf))).
    { f_equal. unfold nonres. rewrite filter_filter. apply filter_ext. intros [a b]. cbn [fst].
      destruct (reserved_name a) eqn:Er; [|reflexivity]. simpl.
      assert (Ex : existsb (fun t => str_eqb a (t_name t)) table = true); [|rewrite Ex; reflexivity].
      apply existsb_exists in Er. destruct Er as (x & Hx & Ex). apply str_eqb_eq in Ex. subst x.
      rewrite E, existsb_app. apply orb_true_iff. left. apply existsb_exists.
      rewrite <- (head_names rst (freq_sum dropped) lc) in Hx. apply in_map_iff in Hx.
      destruct Hx as (t & <- & Ht). exists t. split; [exact Ht|apply str_eqb_refl]. }
    rewrite <- (freq_sum_perm _ _ (Permutation_filter _ _ _ Hp)), filter_app.
    rewrite (filter_nil _ kept), (filter_true _ dropped); [reflexivity| |].
    - intros e He. apply negb_true_iff. destruct (existsb _ table) eqn:Ex; [|reflexivity]. exfalso.
      apply existsb_exists in Ex. destruct Ex as (t & Ht & Et). apply str_eqb_eq in Et.
      rewrite E in Ht. apply in_app_iff in Ht. destruct Ht as [Ht|Ht].
      + destruct (Hdrop e He) as [_ Hn]. apply Hn. rewrite Et, <- (head_names rst (freq_sum dropped) lc). apply in_map, Ht.
      + apply (in_map t_name) in Ht. rewrite rows_names, <- Et in Ht.
        assert (Hn : NoDup (map fst (kept ++ dropped))).
        { eapply Permutation_NoDup; [apply Permutation_map; symmetry; exact Hp|]. apply NoDup_map_filter, Hnd. }
        rewrite map_app in Hn. eapply NoDup_app_disjoint; [exact Hn|exact Ht|]. apply in_map, He.
    - intros e He. apply negb_false_iff. apply existsb_exists.
      assert (Hi : In (fst e) (map t_name (rows level 6 kept))) by (rewrite rows_names; apply in_map, He).
      apply in_map_iff in Hi. destruct Hi as (t & Et & Ht). exists t. split; [rewrite E; apply in_app_iff; auto|].
      rewrite Et. apply str_eqb_refl. }
  assert (Hf : forall w, reserved_name w = true -> dget_def str_eqb w 0 rst = freq_in tf w).
  { intros w Hw. rewrite (freq_in_dget tf w Hnd). unfold dget_def. rewrite Hrst, Hw. reflexivity. }
  assert (Hfp : forall w, 0 <= freq_in tf w).
  { intros w. rewrite (freq_in_dget tf w Hnd). unfold dget_def. destruct (dget str_eqb w tf) as [f|] eqn:Ed; [|lia].
    apply (dget_In str_eqb str_eqb_eq) in Ed. apply (Hpos w f Ed). }
  assert (Hdp : 0 <= freq_sum dropped).
  { unfold freq_sum. clear - Hdrop Hpos. induction dropped as [|[a b] d IH]; simpl; [lia|]. rewrite ?zsum_cons.
    assert (0 <= b) by (apply (Hpos a); apply (Hdrop (a, b)); left; reflexivity).
    assert (0 <= zsum (map snd d)) by (apply IH; intros e He; apply Hdrop; right; exact He). unfold zsum in *. simpl. lia. }
  assert (Hm : forall n j x, 0 <= x -> mass (if x =? 0 then MkType n (-1) j (-1) None else with_freq (MkType n (-1) j (-1) None) x) = x).
  { intros n j x Hx. destruct (Z.eqb_spec x 0) as [->|Hn]; unfold mass; simpl; lia. }
  assert (Hhead : map mass (head_rows rst (freq_sum dropped) lc) =
    [freq_in tf (lit "<pad>"); freq_in tf (lit "<unk>") + freq_sum dropped;
     freq_in tf (lit "<s>") + lc_of lc; freq_in tf (lit "</s>") + lc_of lc;
     freq_in tf (lit "<cls>") + lc_of lc; freq_in tf [9601%N]]).
  { unfold head_rows. change (enumerate with_reserved_types) with
      [(0, MkType (lit "<pad>") (-1) 0 (-1) None); (1, MkType (lit "<unk>") (-1) 1 (-1) None);
       (2, MkType (lit "<s>") (-1) 2 (-1) None); (3, MkType (lit "</s>") (-1) 3 (-1) None);
       (4, MkType (lit "<cls>") (-1) 4 (-1) None); (5, MkType [9601%N] (-1) 5 (-1) None)].
    cbn [map]. unfold reserved_row. cbn [t_name].
    rewrite !Hf by reflexivity. fold (lc_of lc).
    change (0 =? UNK_IDX) with false. change (1 =? UNK_IDX) with true. change (2 =? UNK_IDX) with false.
    change (3 =? UNK_IDX) with false. change (4 =? UNK_IDX) with false. change (5 =? UNK_IDX) with false.
    change (existsb (Z.eqb 0) [BOS_IDX; EOS_IDX; CLS_IDX]) with false.
    change (existsb (Z.eqb 1) [BOS_IDX; EOS_IDX; CLS_IDX]) with false.
    change (existsb (Z.eqb 2) [BOS_IDX; EOS_IDX; CLS_IDX]) with true.
    change (existsb (Z.eqb 3) [BOS_IDX; EOS_IDX; CLS_IDX]) with true.
    change (existsb (Z.eqb 4) [BOS_IDX; EOS_IDX; CLS_IDX]) with true.
    change (existsb (Z.eqb 5) [BOS_IDX; EOS_IDX; CLS_IDX]) with false. cbv iota.
    pose proof (Hfp (lit "<pad>")). pose proof (Hfp (lit "<unk>")). pose proof (Hfp (lit "<s>")).
    pose proof (Hfp (lit "</s>")). pose proof (Hfp (lit "<cls>")). pose proof (Hfp [9601%N]).
    rewrite !Hm by lia. reflexivity. }
  split; [|split].
  - rewrite E. unfold total_mass. rewrite map_app, zsum_app, Hhead.
    assert (Hk : zsum (map mass (rows level 6 kept)) = freq_sum kept).
    { unfold freq_sum. f_equal. unfold mass. rewrite <- (rows_pairs level 6 kept) at 2.
      rewrite map_map. simpl. apply map_ext_in. intros t Ht.
      assert (Hi : In (t_name t, t_freq t) kept).
      { rewrite <- (rows_pairs level 6 kept). apply (in_map (fun t => (t_name t, t_freq t))). exact Ht. }
      destruct (Hkept _ Hi) as [Hi' _]. specialize (Hpos _ _ Hi'). lia. }
    rewrite Hk.
    assert (Hs : freq_sum tf = freq_sum kept + freq_sum dropped + freq_sum (filter (fun e => reserved_name (fst e)) tf)).
    { rewrite <- freq_sum_app, (freq_sum_perm _ _ Hp), <- freq_sum_app. apply freq_sum_perm. symmetry.
      rewrite Permutation_app_comm.
      etransitivity; [|apply (filter_partition_perm (fun e => reserved_name (fst e)))]. reflexivity. }
    assert (Hres : freq_sum (filter (fun e => reserved_name (fst e)) tf) =
      freq_in tf (lit "<pad>") + freq_in tf (lit "<unk>") + freq_in tf (lit "<s>") + freq_in tf (lit "</s>") +
      freq_in tf (lit "<cls>") + freq_in tf [9601%N]).
    { clear. unfold freq_in, freq_sum. induction tf as [|[a b] tf IH]; [reflexivity|]. cbn [filter fst].
      unfold reserved_name, reserved_names in *. cbn [existsb] in *.
      repeat match goal with |- context [str_eqb a ?r] => rewrite (str_eqb_sym a r) end.
      repeat match goal with |- context [str_eqb ?r a] =>
        let E := fresh "E" in destruct (str_eqb r a) eqn:E; [apply str_eqb_eq in E; subst a|] end;
      cbn [orb]; repeat match goal with |- context [str_eqb ?x ?y] =>
         let v := eval vm_compute in (str_eqb x y) in change (str_eqb x y) with v end; cbv iota; cbn [map snd];
      rewrite ?zsum_cons; lia. }
    rewrite !zsum_cons. change (zsum []) with 0. lia.
  - rewrite Hmiss. rewrite E. rewrite firstn_app, head_length. change (6 - 6)%nat with 0%nat.
    rewrite firstn_O, app_nil_r. exact Hhead.
  - intros t Ht. rewrite E, skipn_app, head_length in Ht. change (6 - 6)%nat with 0%nat in Ht. simpl in Ht.
    apply Hkept. rewrite <- (rows_pairs level 6 kept). apply (in_map (fun t => (t_name t, t_freq t))). exact Ht.
Qed.

Theorem init_size A level tf cov lc mf vs table :
  NoDup (map fst tf) -> 6 <= vs -> get_init_vocab A level tf cov lc mf vs = Ok table ->
  Z.of_nat (length table) <= vs.
Proof.
  intros Hnd Hvs H.
  destruct (init_split A level tf cov lc mf vs table Hnd H) as (rst & kept & dropped & cut & _ & _ & -> & _ & ->).
  rewrite app_length, head_length, rows_length.
  destruct ((vs >? 0) && (6 + Z.of_nat (length cut) >? vs)) eqn:E.
  - unfold py_take. rewrite firstn_length. unfold py_bound. destruct (0 <=? vs - 6) eqn:E0; lia.
  - lia.
Qed.
Theorem init_ranking A level tf lc mf vs table :
  NoDup (map fst tf) -> vs <= 0 \/ 6 <= vs -> get_init_vocab A level tf None lc mf vs = Ok table ->
  exists ranking, ranked (candidates mf tf) ranking /\
    map (fun t => (t_name t, t_freq t)) (skipn 6 table) =
    if vs <=? 0 then ranking else firstn (Z.to_nat (vs - 6)) ranking.
Proof.
  intros Hnd Hvs H.
  destruct (init_split A level tf None lc mf vs table Hnd H) as (rst & kept & dropped & cut & _ & _ & -> & Hr & Ek).
  exists cut. split; [apply Hr; reflexivity|].
  rewrite skipn_app, head_length. change (6 - 6)%nat with 0%nat. simpl skipn. rewrite app_nil_l, rows_pairs, Ek.
  destruct (Z.leb_spec vs 0) as [Hl|Hl].
  - replace (vs >? 0) with false by lia. reflexivity.
  - replace (vs >? 0) with true by lia. rewrite andb_true_l. destruct (6 + Z.of_nat (length cut) >? vs) eqn:E.
    + unfold py_take, py_bound. replace (0 <=? vs - 6) with true by lia. f_equal. lia.
    + symmetry. apply firstn_all2. lia.
Qed.
Theorem init_outcome A level tf cov lc mf vs : NoDup (map fst tf) ->
  match get_init_vocab A level tf cov lc mf vs with
  | Ok _ => True
  | Raise e => exists c, cov = Some c /\
      ((e = AssertionError /\ a_unit A c = false) \/
       (e = ZeroDivisionError /\ a_unit A c = true /\ freq_sum (nonres tf) = 0 /\ nonres tf <> []))
  end.
Proof.
  intros Hnd. unfold get_init_vocab. destruct (pop_reserved_eq tf Hnd) as (rst & E & _). rewrite E.
  destruct cov as [c|].
  - destruct (coverage_outcome A (nonres tf) c) as (H1 & H2 & H3).
    destruct (a_unit A c) eqn:Eu.
    + destruct (nonres tf) as [|e l] eqn:En.
      * destruct H3 as ((i & u) & ->); [reflexivity|left; reflexivity|]. cbn [bind].
        destruct (mf >? 1); destruct ((vs >? 0) && _); exact I.
      * destruct (Z.eq_dec (freq_sum (e :: l)) 0) as [Hz|Hz].
        { rewrite H2 by (try reflexivity; try discriminate; exact Hz). cbn [bind]. exists c. split; [reflexivity|].
          right. split; [reflexivity|]. split; [exact Eu|]. split; [exact Hz|discriminate]. }
        { destruct H3 as ((i & u) & ->); [reflexivity|right; exact Hz|]. cbn [bind].
          destruct (mf >? 1); destruct ((vs >? 0) && _); exact I. }
    + rewrite H1 by reflexivity. cbn [bind]. exists c. split; [reflexivity|]. left. split; [reflexivity|exact Eu].
  - cbn [bind]. destruct (mf >? 1); destruct ((vs >? 0) && _); exact I.
Qed.

(** ** order on strings *)
Lemma str_ltb_lex a b : str_ltb a b = true <-> lex_lt a b.
Proof.
  revert b. induction a as [|x a IH]; intros [|y b]; simpl.
  - split; [discriminate|]. intros [(c & r & E)|(p & c & d & r1 & r2 & E & _)]; [discriminate|destruct p; discriminate].
  - split; [|reflexivity]. intros _. left. exists y, b. reflexivity.
  - split; [discriminate|]. intros [(c & r & E)|(p & c & d & r1 & r2 & _ & E & _)]; [discriminate|destruct p; discriminate].
  - destruct (N.ltb_spec x y) as [Hl|Hl].
    + split; [|reflexivity]. intros _. right. exists [], x, y, a, b. auto.
    + destruct (N.eqb_spec x y) as [->|Hn].
      * rewrite IH. split; intros [(c & r & E)|(p & c & d & r1 & r2 & E1 & E2 & Hc)].
        { left. exists c, r. rewrite E. reflexivity. }
        { right. exists (y :: p), c, d, r1, r2. rewrite E1, E2. auto. }
        { left. injection E as E. exists c, r. exact E. }
        { right. destruct p as [|z p]; injection E1 as E1 E1'; injection E2 as E2 E2'; [subst; lia|].
          exists p, c, d, r1, r2. auto. }
      * split; [discriminate|]. intros [(c & r & E)|(p & c & d & r1 & r2 & E1 & E2 & Hc)].
        { injection E as E _. congruence. }
        { destruct p as [|z p]; injection E1 as E1 E1'; injection E2 as E2 E2'; subst; [lia|congruence]. }
Qed.
Lemma str_ltb_irrefl a : str_ltb a a = false.
Proof. induction a as [|x a IH]; [reflexivity|]. simpl. rewrite N.ltb_irrefl, N.eqb_refl. exact IH. Qed.
Lemma str_ltb_trans a b c : str_ltb a b = true -> str_ltb b c = true -> str_ltb a c = true.
Proof.
  revert b c. induction a as [|x a IH]; intros [|y b] [|z c]; simpl; try discriminate; try reflexivity.
  destruct (N.ltb_spec x y), (N.ltb_spec y z), (N.ltb_spec x z); try lia; try reflexivity;
  destruct (N.eqb_spec x y), (N.eqb_spec y z), (N.eqb_spec x z); try lia; try discriminate; try reflexivity. apply IH.
Qed.
Lemma str_ltb_total a b : str_ltb a b = false -> a <> b -> str_ltb b a = true.
Proof.
  revert b. induction a as [|x a IH]; intros [|y b]; simpl; try congruence.
  destruct (N.ltb_spec x y), (N.ltb_spec y x); try lia; try discriminate; try reflexivity.
  destruct (N.eqb_spec x y), (N.eqb_spec y x); try lia; try congruence. subst. intros H1 H2. apply IH; congruence.
Qed.

Section Asc.
  Context {B : Type}.
  Definition asc_lt (a b : str * B) : Prop := str_ltb (fst a) (fst b) = true.
  Lemma insert_asc_perm (x : str * B) l : Permutation (insert_asc x l) (x :: l).
  Proof.
    induction l as [|y l IH]; simpl; [reflexivity|]. destruct (str_ltb (fst y) (fst x)); [|reflexivity].
    rewrite IH. apply perm_swap.
  Qed.
  Lemma sorted_asc_perm (l : list (str * B)) : Permutation (sorted_asc l) l.
  Proof.
    unfold sorted_asc. induction l as [|x l IH]; simpl; [reflexivity|]. rewrite insert_asc_perm. constructor. exact IH.
  Qed.
  Lemma insert_asc_sorted (x : str * B) l : StronglySorted asc_lt l -> ~ In (fst x) (map fst l) -> StronglySorted asc_lt (insert_asc x l).
  Proof.
    induction l as [|y l IH]; intros H Hn; simpl.
    - constructor; constructor.
    - inversion H as [|? ? Hs Hf]; subst. destruct (str_ltb (fst y) (fst x)) eqn:E.
      + constructor; [apply IH; [exact Hs|]; intros Hi; apply Hn; right; exact Hi|].
        eapply Permutation_Forall; [symmetry; apply insert_asc_perm|]. constructor; [exact E|exact Hf].
      + assert (Hlt : str_ltb (fst x) (fst y) = true).
        { apply str_ltb_total; [exact E|]. intros Ee. apply Hn. left. exact Ee. }
        constructor; [exact H|]. constructor; [exact Hlt|].
        eapply Forall_impl; [|exact Hf]. intros z Hz. unfold asc_lt in *. eapply str_ltb_trans; eassumption.
  Qed.
  Lemma sorted_asc_sorted (l : list (str * B)) : NoDup (map fst l) -> StronglySorted asc_lt (sorted_asc l).
  Proof.
    unfold sorted_asc. induction l as [|x l IH]; intros H; simpl; [constructor|]. simpl in H. inversion H; subst.
    apply insert_asc_sorted; [apply IH; assumption|]. intros Hi. apply H2.
    eapply Permutation_in; [|exact Hi]. apply Permutation_map, sorted_asc_perm.
  Qed.
  Lemma sorted_unique (l l' : list (str * B)) : StronglySorted asc_lt l -> StronglySorted asc_lt l' -> Permutation l l' -> l = l'.
  Proof.
    revert l'. induction l as [|x l IH]; intros l' H H' Hp.
    - apply Permutation_nil in Hp. subst. reflexivity.
    - destruct l' as [|y l']; [symmetry in Hp; apply Permutation_nil in Hp; discriminate|].
      inversion H as [|? ? Hs Hf]; subst. inversion H' as [|? ? Hs' Hf']; subst.
      assert (E : x = y).
      { assert (Hx : In x (y :: l')) by (eapply Permutation_in; [exact Hp|left; reflexivity]).
        assert (Hy : In y (x :: l)) by (eapply Permutation_in; [symmetry; exact Hp|left; reflexivity]).
        destruct Hx as [->|Hx]; [reflexivity|]. destruct Hy as [->|Hy]; [reflexivity|].
        rewrite Forall_forall in Hf, Hf'. specialize (Hf y Hy). specialize (Hf' x Hx). unfold asc_lt in *.
        pose proof (str_ltb_trans _ _ _ Hf Hf') as Ht. rewrite str_ltb_irrefl in Ht. discriminate. }
      subst y. f_equal. apply IH; [exact Hs|exact Hs'|]. apply Permutation_cons_inv in Hp. exact Hp.
  Qed.
End Asc.

(** ** class vocabularies *)
Lemma exact_counts_perm toks toks' s s' :
  exact_counts toks s -> exact_counts toks' s' -> Permutation toks toks' -> Permutation s s'.
Proof.
  intros [[N1 [I1 _]] C1] [[N2 [I2 _]] C2] Hp.
  assert (Ho : forall w, occurrences w toks = occurrences w toks').
  { intros w. unfold occurrences. f_equal. apply Permutation_count_occ. exact Hp. }
  apply NoDup_Permutation.
  - apply (NoDup_map_inv fst), N1.
  - apply (NoDup_map_inv fst), N2.
  - intros [w f]. split; intros Hin.
    + pose proof (C1 _ _ Hin) as Ef. apply (in_map fst) in Hin. apply I1 in Hin.
      eapply Permutation_in in Hin; [|exact Hp]. apply I2 in Hin. apply in_map_iff in Hin.
      destruct Hin as ([w' f'] & Ew & Hin). simpl in Ew. subst w'. pose proof (C2 _ _ Hin) as Ef'.
      rewrite Ef, Ho, <- Ef'. exact Hin.
    + pose proof (C2 _ _ Hin) as Ef. apply (in_map fst) in Hin. apply I2 in Hin.
      eapply Permutation_in in Hin; [|symmetry; exact Hp]. apply I1 in Hin. apply in_map_iff in Hin.
      destruct Hin as ([w' f'] & Ew & Hin). simpl in Ew. subst w'. pose proof (C1 _ _ Hin) as Ef'.
      rewrite Ef, <- Ho, <- Ef'. exact Hin.
Qed.
Lemma class_vocab_rows s : class_init_vocab s = rows L_clasz 0 (sorted_asc s).
Proof. reflexivity. Qed.
Theorem class_learn A data data' toks vs mf cov :
  tokens_of KClass data toks -> Permutation data data' ->
  exists table,
    learn_flat A KClass data vs mf cov false = Ok table /\
    learn_flat A KClass data' vs mf cov false = Ok table /\
    StronglySorted lex_lt (map t_name table) /\ well_indexed table /\
    (forall w, has_name table w <-> In w toks) /\
    (forall t, In t table -> t_freq t = occurrences (t_name t) toks /\ t_kids t = None).
Proof.
  intros Ht Hp. pose proof (tokens_of_exist KClass data' (or_intror (or_intror eq_refl))) as Ht'.
  set (toks' := flat_map (fun l => flat_pieces KClass (strip l)) data') in *.
  assert (Hpt : Permutation toks toks').
  { rewrite (tokens_of_fun KClass data toks Ht). unfold toks'. apply Permutation_flat_map. exact Hp. }
  destruct (term_frequencies KClass data) as [s n] eqn:E. destruct (term_frequencies KClass data') as [s' n'] eqn:E'.
  destruct (term_frequencies_exact KClass data toks s n Ht E) as [Hc _].
  destruct (term_frequencies_exact KClass data' toks' s' n' Ht' E') as [Hc' _].
  pose proof (exact_counts_perm _ _ _ _ Hc Hc' Hpt) as Hss.
  assert (Es : sorted_asc s' = sorted_asc s).
  { symmetry. apply sorted_unique; [apply sorted_asc_sorted, Hc|apply sorted_asc_sorted, Hc'|].
    rewrite !sorted_asc_perm. exact Hss. }
  exists (rows L_clasz 0 (sorted_asc s)). split; [|split; [|split; [|split; [|split]]]].
  - unfold learn_flat. rewrite E. reflexivity.
  - unfold learn_flat. rewrite E'. cbn [bind]. rewrite class_vocab_rows, Es. reflexivity.
  - rewrite rows_names. pose proof (sorted_asc_sorted s (proj1 (proj1 Hc))) as Hs.
    clear - Hs.     induction Hs as [|x l Hl IH Hf]; [constructor|]. simpl. constructor; [exact IH|].
    apply Forall_map. eapply Forall_impl; [|exact Hf]. intros z Hz. apply str_ltb_lex. exact Hz.
  - intros k t Hk. apply rows_nth in Hk. lia.
  - intros w. rewrite has_name_map, rows_names. destruct Hc as [(_ & Hi & _) _]. rewrite <- Hi.
    split; apply Permutation_in; [|symmetry]; apply Permutation_map, sorted_asc_perm.
  - intros t Hin. split; [|apply (rows_shape L_clasz 0 _ t Hin)].
    destruct Hc as [_ Hc]. apply Hc. eapply Permutation_in; [apply sorted_asc_perm|].
    rewrite <- (rows_pairs L_clasz 0 (sorted_asc s)). apply (in_map (fun t => (t_name t, t_freq t))). exact Hin.
Qed.

(** Saving and reloading a class vocabulary. *)
Theorem class_reload A version now data toks vs mf cov :
  scalars version -> scalars now -> tokens_of KClass data toks -> data <> [] ->
  (forall lab, In lab toks -> plain_text lab) ->
  exists table s bytes,
    learn_flat A KClass data vs mf cov false = Ok table /\ make_scheme KClass table = Ok s /\
    save version now s = (bytes, Ok tt) /\ load_scheme bytes = Ok s.
Proof.
  intros Hv Hn Ht Hne Hpl.
  destruct (class_learn A data data toks vs mf cov Ht (Permutation_refl _)) as (table & E & _ & Hs & Hw & Hnm & Hk).
  assert (Hd : distinct_names table).
  { unfold distinct_names. clear - Hs. induction Hs as [|x l Hl IH Hf]; constructor; [|exact IH].
    intros Hi. rewrite Forall_forall in Hf. apply Hf in Hi. apply str_ltb_lex in Hi. rewrite str_ltb_irrefl in Hi. discriminate. }
  exists table. eexists. assert (Hm := proj2 (make_class_inv table _) (conj Hd eq_refl)).
  destruct (save_load version now KClass table _ Hv Hn Hm) as (bytes & E1 & E2).
  - simpl. split; [|split; [exact Hw|split]].
    + destruct Ht as [|l t data toks Hl _]; [congruence|].
      assert (Hi : has_name table t) by (apply Hnm; left; reflexivity).
      destruct Hi as (x & Hx & _). intros ->. destruct Hx.
    + intros n t Hnt. apply nth_error_In in Hnt. destruct (Hk t Hnt) as [_ Ek]. rewrite Ek. split; [discriminate|].
      unfold kids_of. rewrite Ek. intros k [].
    + intros t Hin. apply Hpl, Hnm. exists t. auto.
  - exists bytes. split; [exact E|]. split; [exact Hm|]. split; [exact E1|exact E2].
Qed.

(** ** term-frequency files *)
Lemma foldM_read_rows rows : forall i st n,
  0 < i -> NoDup (map fst (st ++ rows)) -> Forall (fun e => is_word (fst e)) rows ->
  foldM read_tf_line (enum_from i (map (fun e : str * Z => with_nl (fst e ++ [TAB] ++ str_of_Z (snd e))) rows)) (st, n) = Ok (st ++ rows, n).
Proof.
  induction rows as [|[t f] rows IH]; intros i st n Hi Hnd Hw; cbn [map enum_from foldM].
  - rewrite app_nil_r. reflexivity.
  - inversion Hw as [|? ? Ht Hws]; subst. cbn [fst snd] in *.
    assert (E : read_tf_line (st, n) (i, with_nl (t ++ [TAB] ++ str_of_Z f)) = Ok (st ++ [(t, f)], n)).
    { unfold read_tf_line. cbn [fst snd].
      assert (Er : rstrip_set [LF] (with_nl (t ++ [TAB] ++ str_of_Z f)) = t ++ [TAB] ++ str_of_Z f).
      { unfold with_nl, rstrip_set. rewrite rev_app_distr. cbn [rev app lstrip_set existsb]. rewrite N.eqb_refl. cbn [orb].
        fold (rstrip_set [LF] (t ++ [TAB] ++ str_of_Z f)).
        apply (rstrip_set_nl (t ++ [TAB] ++ str_of_Z f)).
        apply (stripped_mid t [TAB] (str_of_Z f)); [exact Ht|apply str_of_Z_is_word]. }
      rewrite Er. replace (i =? 0) with false by lia. cbn [andb].
      assert (Ej : split_on TAB (t ++ [TAB] ++ str_of_Z f) = [t; str_of_Z f]).
      { change (t ++ [TAB] ++ str_of_Z f) with (join [TAB] [t; str_of_Z f]). apply split_on_join; [discriminate|].
        constructor; [|constructor; [|constructor]].
        - intros Hc. destruct Ht as [_ Ht]. rewrite Forall_forall in Ht. apply Ht in Hc. discriminate Hc.
        - intros Hc. destruct (str_of_Z_is_word f) as [_ Hf]. rewrite Forall_forall in Hf. apply Hf in Hc. discriminate Hc. }
      rewrite Ej, int_of_str_of_Z. cbn [bind]. rewrite (stripped_strip t) by (apply is_word_stripped, Ht).
      rewrite (dset_fresh str_eqb str_eqb_eq); [reflexivity|].
      unfold dkeys. rewrite map_app in Hnd. simpl in Hnd. apply NoDup_remove_2 in Hnd. intros Hc. apply Hnd. apply in_app_iff. auto. }
    rewrite E, IH; [rewrite <- app_assoc; reflexivity|lia|rewrite <- app_assoc; exact Hnd|exact Hws].
Qed.
Definition tf_meta_ok (meta : list (str * json)) : Prop := meta_ok meta /\ NoDup (map fst meta).
Theorem tf_roundtrip_any stats meta n :
  NoDup (map fst stats) -> (forall w f, In (w, f) stats -> is_word w) ->
  tf_meta_ok meta -> jget (lit "line_count") meta = Some (JInt n) \/ (jget (lit "line_count") meta = None /\ n = -1) ->
  read_term_freqs (file_lines (write_stats stats meta)) = Ok (sorted_desc snd stats, n).
Proof.
  intros Hnd Hw [Hm Hmn] Hlc. unfold write_stats. set (s := sorted_desc snd stats).
  assert (Hp : Permutation s stats) by apply sorted_desc_perm.
  set (hdr := fold_left _ meta _).
  assert (Hj : json_ok (JObj hdr)).
  { unfold hdr. apply update_ok; [exact Hm|]. apply json_ok_obj. split.
    - simpl. constructor; [|constructor; [intros []|constructor]]. intros [H|[]]. discriminate H.
    - constructor; [split; [apply lit_scalars|exact I]|]. constructor; [split; [apply lit_scalars|exact I]|constructor]. }
  assert (Hpr : Forall printable (35%N :: dumps (JObj hdr))).
  { constructor; [unfold printable; lia|]. apply dumps_printable, Hj. }
  assert (Et : [35%N] ++ dumps (JObj hdr) ++ [LF] ++ flat_map (fun tf => fst tf ++ [TAB] ++ str_of_Z (snd tf) ++ [LF]) s =
               flat_map with_nl ((35%N :: dumps (JObj hdr)) :: map (fun e : str * Z => fst e ++ [TAB] ++ str_of_Z (snd e)) s)).
  { cbn [flat_map]. unfold with_nl at 1. cbn [app]. f_equal. rewrite <- app_assoc. f_equal. cbn [app]. f_equal.
    clear. induction s as [|[a b] s IH]; [reflexivity|]. cbn [flat_map map fst snd]. rewrite IH. unfold with_nl. rewrite <- !app_assoc. cbn [app]. rewrite <- !app_assoc. reflexivity. }
  rewrite Et, file_lines_of.
  2:{ constructor.
      - split; apply (no_in_printable _ _ Hpr); reflexivity.
      - apply Forall_map. apply Forall_forall. intros [w f] Hin. cbn [fst snd].
        assert (Hww : is_word w). { apply (Hw w f). eapply Permutation_in; [exact Hp|exact Hin]. }
        destruct Hww as [_ Hww]. destruct (str_of_Z_is_word f) as [_ Hff]. rewrite Forall_forall in Hww, Hff.
        split; intros Hc; apply in_app_iff in Hc; (destruct Hc as [Hc|Hc]; [apply Hww in Hc; discriminate Hc|]);
          (destruct Hc as [Hc|Hc]; [discriminate Hc|]); apply Hff in Hc; discriminate Hc. }
  unfold read_term_freqs, enumerate. cbn [map enum_from foldM].
  assert (Eh : read_tf_line ([], -1) (0, with_nl (35%N :: dumps (JObj hdr))) = Ok ([], n)).
  { unfold read_tf_line. cbn [fst snd].
    assert (Er : rstrip_set [LF] (with_nl (35%N :: dumps (JObj hdr))) = 35%N :: dumps (JObj hdr)).
    { unfold with_nl, rstrip_set. rewrite rev_app_distr. cbn [rev app lstrip_set existsb]. rewrite N.eqb_refl. cbn [orb].
      rewrite dumps_obj. change (35%N :: [123%N] ++ join COMMA_SP (map dump_member hdr) ++ [125%N]) with
        ((35%N :: [123%N] ++ join COMMA_SP (map dump_member hdr)) ++ [125%N]).
      replace (rev ([123%N] ++ join COMMA_SP (map dump_member hdr) ++ [125%N]) ++ [35%N]) with
        (125%N :: rev (join COMMA_SP (map dump_member hdr)) ++ [123%N; 35%N]).
      2:{ rewrite !rev_app_distr. cbn [rev app]. rewrite <- app_assoc. reflexivity. }
      cbn [lstrip_set existsb]. change (125 =? LF)%N with false. cbn [orb].
      cbn [rev]. rewrite rev_app_distr, rev_involutive. reflexivity. }
    rewrite Er. cbn [Z.eqb andb]. change (startswith (lit "#") (35%N :: dumps (JObj hdr))) with true. cbn [andb].
    assert (Es : split_on TAB (35%N :: dumps (JObj hdr)) = [35%N :: dumps (JObj hdr)]).
    { change (35%N :: dumps (JObj hdr)) with (join [TAB] [35%N :: dumps (JObj hdr)]) at 1.
      apply split_on_join; [discriminate|]. constructor; [|constructor]. apply (no_in_printable _ _ Hpr). reflexivity. }
    rewrite Es. cbn [length Nat.eqb negb]. unfold header_line_count. cbn [skipn]. rewrite loads_dumps by exact Hj.
    unfold hdr. rewrite jget_update by exact Hmn. unfold jget in Hlc. destruct Hlc as [Hlc|[Hlc ->]]; rewrite Hlc; reflexivity. }
  rewrite Eh. change (0 + 1) with 1. rewrite map_map.
  rewrite foldM_read_rows; [reflexivity|lia| |].
  - eapply Permutation_NoDup; [|exact Hnd]. apply Permutation_map. symmetry. exact Hp.
  - apply Forall_forall. intros [w f] Hin. apply (Hw w f). eapply Permutation_in; [exact Hp|exact Hin].
Qed.

Theorem tf_roundtrip stats meta n :
  NoDup (map fst stats) -> (forall w f, In (w, f) stats -> is_word w) ->
  tf_meta_ok meta -> jget (lit "line_count") meta = Some (JInt n) ->
  read_term_freqs (file_lines (write_stats stats meta)) = Ok (sorted_desc snd stats, n).
Proof. intros H1 H2 H3 H4. apply tf_roundtrip_any; auto. Qed.
Theorem tf_header stats meta : tf_meta_ok meta ->
  exists h m rest, write_stats stats meta = [35%N] ++ h ++ [LF] ++ rest /\ ~ In LF h /\ loads h = Ok (JObj m) /\
    (jget (lit "types") meta = None -> jget (lit "types") m = Some (JInt (Z.of_nat (length stats)))) /\
    (jget (lit "tokens") meta = None -> jget (lit "tokens") m = Some (JInt (freq_sum stats))) /\
    (forall k v, jget k meta = Some v -> jget k m = Some v).
Proof.
  intros [Hm Hmn]. unfold write_stats. set (s := sorted_desc snd stats).
  assert (Hp : Permutation s stats) by apply sorted_desc_perm.
  set (hdr := fold_left _ meta _).
  assert (Hj : json_ok (JObj hdr)).
  { unfold hdr. apply update_ok; [exact Hm|]. apply json_ok_obj. split.
    - simpl. constructor; [|constructor; [intros []|constructor]]. intros [H|[]]. discriminate H.
    - constructor; [split; [apply lit_scalars|exact I]|]. constructor; [split; [apply lit_scalars|exact I]|constructor]. }
  exists (dumps (JObj hdr)), hdr, (flat_map (fun tf => fst tf ++ [TAB] ++ str_of_Z (snd tf) ++ [LF]) s).
  split; [reflexivity|]. split; [apply (no_in_printable _ _ (dumps_printable _ Hj)); reflexivity|].
  split; [apply loads_dumps, Hj|]. unfold hdr.
  assert (J : forall k, jget k hdr = match dget str_eqb k meta with Some v => Some v | None =>
      jget k [(lit "types", JInt (Z.of_nat (length s))); (lit "tokens", JInt (zsum (map snd s)))] end).
  { intros k. unfold hdr. apply jget_update, Hmn. }
  split; [|split].
  - intros H. fold hdr. rewrite J. unfold jget in H. rewrite H. rewrite <- (Permutation_length Hp). reflexivity.
  - intros H. fold hdr. rewrite J. unfold jget in H. rewrite H. rewrite <- (freq_sum_perm _ _ Hp). reflexivity.
  - intros k v H. fold hdr. rewrite J. unfold jget in H. rewrite H. reflexivity.
Qed.

(** ** coverage 1 *)
Lemma freq_sum_nonneg l : (forall w f, In (w, f) l -> 0 <= f) -> 0 <= freq_sum l.
Proof.
  induction l as [|[w f] l IH]; intros H; [reflexivity|].
  change (freq_sum ((w, f) :: l)) with (f + freq_sum l).
  assert (0 <= f) by (apply (H w); left; reflexivity).
  assert (0 <= freq_sum l) by (apply IH; intros a b Hab; apply (H a b); right; exact Hab). lia.
Qed.
Lemma freq_sum_pos l : (forall w f, In (w, f) l -> 0 < f) -> l <> [] -> 0 < freq_sum l.
Proof.
  intros H Hne. destruct l as [|[w f] l]; [congruence|].
  change (freq_sum ((w, f) :: l)) with (f + freq_sum l).
  assert (0 < f) by (apply (H w); left; reflexivity).
  assert (0 <= freq_sum l); [|lia]. apply freq_sum_nonneg. intros a b Hab.
  assert (0 < b) by (apply (H a b); right; exact Hab). lia.
Qed.
Theorem coverage_one_exact types : NoDup (map fst types) -> (forall w f, In (w, f) types -> 0 < f) ->
  exists incl, filter_types_coverage arithQ types (1 # 1)%Q = Ok (incl, 0) /\ Permutation incl types.
Proof.
  intros Hnd Hpos. destruct (coverage_outcome arithQ types (1 # 1)%Q) as (_ & _ & H3).
  destruct H3 as ((incl & unk) & E).
  - reflexivity.
  - destruct types as [|e l]; [left; reflexivity|right]. pose proof (freq_sum_pos (e :: l) Hpos). assert (e :: l <> []) by discriminate.
    specialize (H H0). lia.
  - destruct (coverage_spec arithQ types _ incl unk Hnd E) as (rest & [Hp _] & Hu & _ & Hr & _).
    exists incl. assert (Er : rest = []).
    { destruct Hr as [Hr|Hr]; [exact Hr|]. destruct rest as [|e rest]; [reflexivity|exfalso].
      assert (Hrp : 0 < freq_sum (e :: rest)).
      { apply freq_sum_pos; [|discriminate]. intros w f Hin. apply (Hpos w f). eapply Permutation_in; [exact Hp|].
        apply in_app_iff. right. exact Hin. }
      assert (Htp : 0 < freq_sum types).
      { apply freq_sum_pos; [exact Hpos|]. intros ->. symmetry in Hp. apply Permutation_nil in Hp. destruct incl; discriminate Hp. }
      apply (reaches_Q (freq_sum types) (1 # 1)%Q incl Htp) in Hr.
      rewrite <- (freq_sum_perm _ _ Hp), freq_sum_app in Hr. rewrite Qmult_1_l, <- Zle_Qle in Hr. lia. }
    subst rest. rewrite app_nil_r in Hp. split; [|exact Hp]. rewrite E, Hu. reflexivity.
Qed.

(** ** learning from a corpus *)
Lemma occurrences_nonneg w toks : 0 <= occurrences w toks.
Proof. unfold occurrences. lia. Qed.
Lemma filter_as_count toks w stats : exact_counts toks stats -> freq_in stats w = occurrences w toks.
Proof.
  intros [[Hnd [Hi _]] Hc]. rewrite (freq_in_dget stats w Hnd). unfold dget_def.
  destruct (dget str_eqb w stats) as [f|] eqn:E.
  - apply (dget_In str_eqb str_eqb_eq) in E. apply Hc, E.
  - apply (dget_None str_eqb str_eqb_eq) in E. unfold occurrences.
    rewrite (proj1 (count_occ_not_In str_dec toks w)); [reflexivity|]. intros H. apply E. apply Hi, H.
Qed.
Theorem learn_mass A k data toks vs mf cov table :
  k = KWord \/ k = KChar -> tokens_of k data toks ->
  learn_flat A k data vs mf cov false = Ok table ->
  total_mass table = Z.of_nat (length toks) + 3 * Z.of_nat (length data) /\
  forall t, In t (skipn 6 table) -> t_freq t = occurrences (t_name t) toks /\ In (t_name t) toks.
Proof.
  intros Hk Ht H. destruct (term_frequencies k data) as [stats n] eqn:E.
  destruct (term_frequencies_exact k data toks stats n Ht E) as [Hc Hn].
  assert (Hg : get_init_vocab A (level_of k) stats cov (Some n) mf vs = Ok table).
  { destruct Hk as [-> | ->]; unfold learn_flat in H; rewrite E in H; exact H. }
  destruct (init_mass A (level_of k) stats cov (Some n) mf vs table) as (H1 & _ & H3).
  - apply Hc.
  - intros w f Hin. rewrite (proj2 Hc w f Hin). apply occurrences_nonneg.
  - simpl. lia.
  - exact Hg.
  - split.
    + rewrite H1. simpl lc_of. rewrite Hn. f_equal.
      rewrite term_frequencies_eq, <- (tokens_of_fun k data toks Ht) in E. injection E as <- _.
      unfold freq_sum. rewrite counter_sum. reflexivity.
    + intros t Hin. apply H3 in Hin. split; [apply Hc, Hin|]. apply (in_map fst) in Hin. apply Hc in Hin. exact Hin.
Qed.
Theorem learn_accepts A k data vs mf cov is_tf table :
  k <> KBpe -> learn_flat A k data vs mf cov is_tf = Ok table ->
  exists s, make_scheme k table = Ok s /\ s_table s = table.
Proof.
  intros Hk H.
  assert (Hstats : forall stats n, (if is_tf then read_term_freqs data else Ok (term_frequencies k data)) = Ok (stats, n) -> NoDup (map fst stats)).
  { intros stats n Hs. destruct is_tf.
    - unfold read_term_freqs in Hs.
      assert (G : forall l st st', foldM read_tf_line l st = Ok st' -> NoDup (map fst (fst st)) -> NoDup (map fst (fst st'))).
      { clear. induction l as [|x l IH]; intros st st' H Hst; simpl in H; [injection H as <-; exact Hst|].
        destruct (read_tf_line st x) as [st1|e] eqn:E; [|discriminate]. apply (IH st1 st' H).
        unfold read_tf_line in E. destruct st as [stats lc].
        destruct ((fst x =? 0) && _ && _).
        - destruct (header_line_count _ _); [|discriminate]. injection E as <-. exact Hst.
        - destruct (split_on _ _) as [|a [|b [|? ?]]]; try discriminate. destruct (int_of_str b); [|discriminate].
          injection E as <-. apply (dset_NoDup str_eqb str_eqb_eq). exact Hst. }
      apply (G _ _ _ Hs). constructor.
    - injection Hs as Hs. pose proof (term_frequencies_NoDup k data) as Hd. rewrite Hs in Hd. exact Hd. }
  destruct k; try (now (exfalso; apply Hk; reflexivity)).
  - unfold learn_flat in H. destruct (if is_tf then _ else _) as [[stats n]|e] eqn:E; [|discriminate]. cbn [bind] in H.
    pose proof (init_layout _ _ _ _ _ _ _ _ (Hstats _ _ eq_refl) H) as (H1 & _ & H2 & _).
    eexists. split; [apply (make_flat_inv KWord); [auto|]; split; [exact H1|]; split; [exact H2|reflexivity]|reflexivity].
  - unfold learn_flat in H. destruct (if is_tf then _ else _) as [[stats n]|e] eqn:E; [|discriminate]. cbn [bind] in H.
    pose proof (init_layout _ _ _ _ _ _ _ _ (Hstats _ _ eq_refl) H) as (H1 & _ & H2 & _).
    eexists. split; [apply (make_flat_inv KChar); [auto|]; split; [exact H1|]; split; [exact H2|reflexivity]|reflexivity].
  - unfold learn_flat in H. destruct (if is_tf then _ else _) as [[stats n]|e] eqn:E; [|discriminate]. cbn [bind] in H.
    injection H as <-. eexists. split; [apply make_class_inv; split; [|reflexivity]|reflexivity].
    unfold distinct_names. rewrite class_vocab_rows, rows_names.
    eapply Permutation_NoDup; [apply Permutation_map; symmetry; apply sorted_asc_perm|]. exact (Hstats _ _ eq_refl).
  - cbn in H. injection H as <-. eexists. split; [vm_compute; reflexivity|reflexivity].
Qed.
