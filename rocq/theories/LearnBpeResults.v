(** learn_codes refines textbook BPE, and what follows about its results. *)
From Coq Require Import Strings.String.
From Verif Require Import Py PyLemmas PyStr CodecModel CodecSpec VocabFileProofs LearnModel HeapModel HeapProofs BpeSpec LearnBpeModel
     LearnBpeProofs LearnBpeLoop LearnBpeIndex.
Local Open Scope Z_scope.
Local Open Scope list_scope.

(** ** learn_codes *)
Lemma distinct_count_NoDup {A} (dec : A -> A -> bool) (Hdec : forall a b, dec a b = true <-> a = b) l :
  NoDup l -> distinct_count dec l = length l.
Proof.
  intros Hnd. unfold distinct_count.
  assert (H : forall l s, NoDup (s ++ l) -> fold_left (fun s x => if existsb (dec x) s then s else s ++ [x]) l s = s ++ l).
  { clear l Hnd. induction l as [|x l IH]; intros s Hnd; cbn [fold_left]; [rewrite app_nil_r; reflexivity|].
    destruct (existsb (dec x) s) eqn:E.
    - apply existsb_exists in E. destruct E as (y & Hy & E). apply Hdec in E. subst y. exfalso.
      apply NoDup_remove_2 in Hnd. apply Hnd. apply in_app_iff. left. exact Hy.
    - rewrite IH; rewrite <- app_assoc; [reflexivity|exact Hnd]. }
  rewrite H by exact Hnd. reflexivity.
Qed.
Lemma well_indexed_NoDup table : well_indexed table -> NoDup (map t_idx table).
Proof.
  intros H. apply NoDup_nth_error. intros i j Hi E. rewrite !nth_error_map in E. rewrite map_length in Hi.
  destruct (nth_error table i) as [t|] eqn:Ei; [|apply nth_error_None in Ei; lia].
  destruct (nth_error table j) as [u|] eqn:Ej; [|discriminate]. cbn [option_map] in E. injection E as E.
  rewrite (H _ _ Ei), (H _ _ Ej) in E. lia.
Qed.


Lemma bpe_init_ok c vocab : well_indexed vocab -> distinct_names vocab -> starts_nonempty c -> nonnegative c ->
  symbols_below (Z.of_nat (length vocab)) c -> exists ix, create_index c = Ok ix /\ indexed ix c /\ bpe_init c vocab = Ok ix.
Proof.
  intros Hwi Hdn Hs Hnn Hr. destruct (create_index_ok c) as (ix & E & Hix); [destruct c as [|[s f] c]; [exact I|exact Hs]|].
  exists ix. split; [exact E|]. split; [exact Hix|]. unfold bpe_init.
  rewrite (distinct_count_NoDup Z.eqb Z.eqb_eq) by (apply well_indexed_NoDup, Hwi).
  rewrite (distinct_count_NoDup str_eqb str_eqb_eq) by exact Hdn. rewrite !map_length, Nat.eqb_refl. cbn [assert_ bind].
  rewrite foldM_checks; [cbn [bind]|].
  - rewrite E. cbn [bind]. rewrite (validate_ok ix c vocab Hix Hnn Hr Hwi); [reflexivity|].
    destruct c as [|[s f] c]; [destruct Hs|]. exists s, f. split; [left; reflexivity|exact Hs].
  - intros [i t] Hin. cbn [fst snd]. apply In_nth_error in Hin. destruct Hin as (n & Hn). unfold enumerate in Hn. rewrite enum_from_nth in Hn.
    destruct (nth_error vocab n) as [t'|] eqn:Et; [|discriminate]. cbn [option_map] in Hn. injection Hn as <- <-.
    rewrite (Hwi _ _ Et). cbn [Z.add]. rewrite Z.eqb_refl. reflexivity.
Qed.

Lemma positive_nonnegative c : positive c -> nonnegative c.
Proof. intros H s f Hin. specialize (H s f Hin). lia. Qed.

Lemma start_outer ix c vocab heap : indexed ix c -> positive c -> symbols_below (Z.of_nat (length vocab)) c ->
  stores pair_ltb heap (ix_bi ix) ->
  outer (MkLS (ix_nodes ix) (ix_uni ix) (ix_bi_ixs ix) heap [] vocab) (segs_from 0 c).
Proof.
  intros [Hf [H1 H2 H3 H4 H5 H6 H7 H8]] Hpos Hr Hst. unfold outer. cbn [ls_nodes ls_uni ls_ixs ls_heap ls_dirty ls_vocab]. cbv zeta.
  rewrite !corpus_of_segs_from. split.
  - constructor; rewrite ?corpus_of_segs_from; auto.
    + apply fresh_wf, Hf.
    + intros p. rewrite H1. reflexivity.
    + rewrite <- H4. exact H5.
  - exists (ix_bi ix). split; [constructor|].
    + exact Hst.
    + exact H5.
    + constructor.
    + intros p d H. discriminate.
    + intros p d H. discriminate.
    + intros p v Hin. rewrite <- H2. unfold dget_def. rewrite (In_dget pair_eqb pair_eqb_eq p v (ix_bi ix)) by assumption. cbn [dget]. lia.
    + intros p v Hin _.
      assert (E : dcount p (ix_bi ix) = v) by (unfold dget_def; rewrite (In_dget pair_eqb pair_eqb_eq p v (ix_bi ix)) by assumption; reflexivity).
      rewrite H2 in E. assert (Hk : In p (dkeys (ix_bi ix))) by (apply in_map_iff; exists (p, v); auto).
      apply H7 in Hk. destruct Hk as (s & f & Hs & Ha). destruct (Z.eq_dec v 0) as [->|]; [|pose proof (pair_count_nonneg c p Hpos); lia].
      exfalso. apply (pair_count_zero_inv c p Hpos E s f Hs Ha).
    + intros p v Hin. assert (Hk : In p (dkeys (ix_bi ix))) by (apply in_map_iff; exists (p, v); auto).
      apply H7 in Hk. destruct Hk as (s & f & Hs & Ha). apply adjacent_in in Ha. destruct Ha. split; eapply Hr; eassumption.
    + intros p Hn. rewrite <- H2. unfold dget_def. rewrite (proj2 (dget_None pair_eqb pair_eqb_eq p (ix_bi ix)) Hn). reflexivity.
Qed.

(** What learn_codes needs from its input. *)

Theorem learn_codes_refines orders c vocab n_merges min_co level : learnable c vocab -> iteration_orders orders ->
  bpe min_co level (Z.to_nat n_merges) c vocab (learn_codes orders c vocab n_merges min_co level).
Proof.
  intros [Hwi Hdn Hs Hpos Hr] Hord.
  destruct (bpe_init_ok c vocab Hwi Hdn Hs (positive_nonnegative c Hpos) Hr) as (ix & _ & Hix & E).
  unfold learn_codes. rewrite E. cbn [bind]. unfold learn_codes_state.
  destruct (mh_init_spec pair_ltb pair_ltb_irrefl pair_ltb_trans pair_ltb_total (ix_bi ix)) as (heap & Eh & Hst).
  rewrite Eh. cbn [bind].
  pose proof (start_outer ix c vocab heap Hix Hpos Hr Hst) as HO.
  assert (Hlen : (length (ids (segs_from 0 c)) < S (length (ix_nodes ix)))%nat).
  { rewrite ids_segs_from, seq_length. destruct Hix as [[Hl _] _]. lia. }
  destruct (learn_loop_refines orders n_merges min_co level Hord _ 0 _ _ HO Hlen) as [(st' & segs' & E' & _ & Hb)|[E' Hb]];
    rewrite E'; cbn [bind]; cbn [ls_vocab] in Hb; rewrite corpus_of_segs_from, Z.sub_0_r in Hb; exact Hb.
Qed.

(** ** Consequences of the textbook relation *)
Lemma bpe_outcome min_co level n c t r : bpe min_co level n c t r -> (exists t', r = Ok t') \/ r = Raise IndexError.
Proof. induction 1; eauto. Qed.

Lemma merged_positive a b r c c' : merged_corpus a b r c c' -> positive c -> positive c'.
Proof.
  induction 1 as [|[s f] [s' f'] c c' [E _] _ IH]; intros Hp; [exact Hp|]. cbn [fst snd] in E. subst f'.
  intros u g [E|Hin]; [injection E as <- <-; apply (Hp s f); left; reflexivity|].
  apply (IH (fun v h Hv => Hp v h (or_intror Hv)) u g Hin).
Qed.
Lemma merged_range a b k c c' : 0 <= k -> merged_corpus a b k c c' -> symbols_below k c -> symbols_below (k + 1) c'.
Proof.
  intros Hk. induction 1 as [|[s f] [s' f'] c c' [_ [Hrp _]] _ IH]; intros Hp; [intros s f []|]. cbn [fst snd] in *.
  intros u g [E|Hin] x Hx.
  - injection E as <- <-. destruct (replaced_in _ _ _ _ _ Hrp x Hx) as [H| ->]; [|lia]. specialize (Hp s f (or_introl eq_refl) x H). lia.
  - apply (IH (fun v h Hv => Hp v h (or_intror Hv)) u g Hin x Hx).
Qed.
Lemma best_positive_occurs c p f : best c p f -> exists s g, In (s, g) c /\ In p (adjacent s).
Proof.
  intros (E & Hf & _). destruct (Exists_dec (fun sg => In p (adjacent (fst sg))) c) as [H|H].
  - intros sg. apply in_dec, pair_dec.
  - apply Exists_exists in H. destruct H as ([s g] & H1 & H2). exists s, g. auto.
  - exfalso. rewrite pair_count_zero in E; [lia|]. intros s g Hin Ha. apply H. apply Exists_exists. exists (s, g). auto.
Qed.

(** No pair of the merged corpus is more frequent than the merged pair. *)
Lemma replaced_new a b r s s' : replaced a b r s s' -> ~ In r s ->
  (count_occ Z.eq_dec s' r <= count_occ pair_dec (adjacent s) (a, b))%nat.
Proof.
  induction 1 as [|x s s' Hr IH|s s' Hr IH]; intros Hn.
  - apply le_n.
  - rewrite count_occ_cons_neq by (intros ->; apply Hn; left; reflexivity).
    specialize (IH (fun H => Hn (or_intror H))). destruct s as [|y s]; [inversion Hr; subst; cbn; lia|].
    rewrite adjacent_cons2. cbn [count_occ]. destruct (pair_dec (x, y) (a, b)); lia.
  - rewrite count_occ_cons_eq by reflexivity. specialize (IH (fun H => Hn (or_intror (or_intror H)))).
    rewrite adjacent_cons2, count_occ_cons_eq by reflexivity.
    assert (count_occ pair_dec (adjacent s) (a, b) <= count_occ pair_dec (adjacent (b :: s)) (a, b))%nat; [|lia].
    destruct s as [|y s]; [apply le_n|]. rewrite adjacent_cons2. cbn [count_occ]. destruct (pair_dec (b, y) (a, b)); lia.
Qed.
Lemma replaced_old a b r p s s' : replaced a b r s s' -> fst p <> r -> snd p <> r ->
  (count_occ pair_dec (adjacent s') p <= count_occ pair_dec (adjacent s) p)%nat /\
  (hd_error s' = hd_error s \/ hd_error s' = Some r).
Proof.
  intros H H1 H2. induction H as [|x s s' Hr [IH1 IH2]|s s' Hr [IH1 IH2]]; cbn [hd_error].
  - split; [apply le_n|auto].
  - split; [|auto]. destruct s' as [|y' s']; [cbn; lia|]. rewrite adjacent_cons2. cbn [hd_error] in IH2.
    destruct IH2 as [E|E].
    + destruct s as [|y s]; [discriminate|]. cbn [hd_error] in E. injection E as ->. rewrite adjacent_cons2. cbn [count_occ].
      destruct (pair_dec (x, y) p); lia.
    + injection E as ->. rewrite count_occ_cons_neq by (intros <-; apply H2; reflexivity).
      destruct s as [|y s]; [cbn in *; lia|]. rewrite adjacent_cons2. cbn [count_occ]. destruct (pair_dec (x, y) p); lia.
  - split; [|auto].
    assert (Hs : (count_occ pair_dec (adjacent s) p <= count_occ pair_dec (adjacent (a :: b :: s)) p)%nat).
    { rewrite adjacent_cons2. cbn [count_occ]. assert (count_occ pair_dec (adjacent s) p <= count_occ pair_dec (adjacent (b :: s)) p)%nat.
      { destruct s as [|y s]; [apply le_n|]. rewrite adjacent_cons2. cbn [count_occ]. destruct (pair_dec (b, y) p); lia. }
      destruct (pair_dec (a, b) p); lia. }
    destruct s' as [|y' s']; [cbn; lia|]. rewrite adjacent_cons2. rewrite count_occ_cons_neq by (intros <-; apply H1; reflexivity). lia.
Qed.
Lemma merged_bound a b k c c' f : merged_corpus a b k c c' -> positive c -> symbols_below k c ->
  best c (a, b) f -> forall p, pair_count c' p <= f.
Proof.
  intros Hm Hpos Hr (Ef & Hf & Hb) p.
  assert (Hold : fst p <> k -> snd p <> k -> pair_count c' p <= pair_count c p).
  { intros H1 H2. clear - Hm Hpos H1 H2. induction Hm as [|[s g] [s' g'] c c' [E [Hrp _]] _ IH]; [lia|]. cbn [fst snd] in *. subst g'.
    change ((s', g) :: c') with ([(s', g)] ++ c'). change ((s, g) :: c) with ([(s, g)] ++ c). rewrite !pair_count_app, !pair_count_one.
    specialize (IH (fun v h Hv => Hpos v h (or_intror Hv))). pose proof (Hpos s g (or_introl eq_refl)).
    destruct (replaced_old _ _ _ p _ _ Hrp H1 H2) as [Hle _]. nia. }
  assert (Hnew : symbol_count c' k <= f).
  { subst f. clear - Hm Hpos Hr. induction Hm as [|[s g] [s' g'] c c' [E [Hrp _]] _ IH]; [reflexivity|]. cbn [fst snd] in *. subst g'.
    change ((s', g) :: c') with ([(s', g)] ++ c'). change ((s, g) :: c) with ([(s, g)] ++ c). rewrite symbol_count_app, pair_count_app, pair_count_one, symbol_count_one.
    specialize (IH (fun v h Hv => Hpos v h (or_intror Hv)) (fun v h Hv => Hr v h (or_intror Hv))). pose proof (Hpos s g (or_introl eq_refl)).
    assert (Hn : ~ In k s) by (intros Hin; pose proof (Hr s g (or_introl eq_refl) k Hin); lia).
    pose proof (replaced_new _ _ _ _ _ Hrp Hn). nia. }
  destruct p as [x y]. cbn [fst snd] in Hold.
  destruct (pair_le_symbols c' x y (positive_nonnegative _ (merged_positive _ _ _ _ _ Hm Hpos))) as (_ & P1 & P2).
  destruct (Z.eq_dec x k) as [->|Hx]; [lia|]. destruct (Z.eq_dec y k) as [->|Hy]; [lia|].
  specialize (Hold Hx Hy). destruct (pair_dec (x, y) (a, b)) as [E|E]; [rewrite E in *; lia|].
  destruct (Hb (x, y) E) as [|[]]; lia.
Qed.

(** Structure of the learned table. *)
Theorem bpe_structure min_co level n c t r : bpe min_co level n c t r -> positive c -> symbols_below (Z.of_nat (length t)) c ->
  forall F, (forall p, pair_count c p <= F) -> forall t', r = Ok t' ->
  exists new, t' = t ++ new /\ (length new <= n)%nat /\
    (forall m ty, nth_error t' m = Some ty -> (length t <= m)%nat ->
       t_idx ty = Z.of_nat m /\ t_level ty = level /\ min_co <= t_freq ty <= F /\ 0 < t_freq ty /\
       exists i j ti tj, (i < m)%nat /\ (j < m)%nat /\ nth_error t' i = Some ti /\ nth_error t' j = Some tj /\
         t_kids ty = Some [ti; tj] /\ t_name ty = t_name ti ++ t_name tj) /\
    (forall m m' ty ty', (length t <= m)%nat -> (m <= m')%nat -> nth_error t' m = Some ty -> nth_error t' m' = Some ty' ->
       t_freq ty' <= t_freq ty).
Proof.
  intros HB. induction HB as [c t|n c t p f Hbest Hrare|n c t H0|n c c' t a b f ta tb r Hbest Hfreq Ha Eta Hb Etb Hm HB IH];
    intros Hpos Hr F HF t' Er.
  - injection Er as <-. exists []. rewrite app_nil_r. split; [reflexivity|]. split; [apply le_n|]. split.
    + intros m ty Hm Hl. assert (m < length t)%nat by (apply nth_error_Some; congruence). lia.
    + intros m m' ty ty' Hl _ Hm _. assert (m < length t)%nat by (apply nth_error_Some; congruence). lia.
  - injection Er as <-. exists []. rewrite app_nil_r. split; [reflexivity|]. split; [cbn; lia|]. split.
    + intros m ty Hm Hl. assert (m < length t)%nat by (apply nth_error_Some; congruence). lia.
    + intros m m' ty ty' Hl _ Hm _. assert (m < length t)%nat by (apply nth_error_Some; congruence). lia.
  - discriminate.
  - set (nt := MkType _ _ _ _ _) in *.
    assert (Hla : (Z.to_nat a < length t)%nat) by (apply nth_error_Some; congruence).
    assert (Hlb : (Z.to_nat b < length t)%nat) by (apply nth_error_Some; congruence).
    destruct (IH (merged_positive _ _ _ _ _ Hm Hpos)) with (F := f) (t' := t') as (new & E & Hlen & Hst & Hmono).
    + rewrite app_length. cbn [length]. rewrite Nat2Z.inj_add. apply (merged_range a b _ c); [lia|exact Hm|exact Hr].
    + apply (merged_bound a b (Z.of_nat (length t)) c); assumption.
    + exact Er.
    + assert (HfF : f <= F) by (destruct Hbest as [<- _]; apply HF).
      rewrite app_length in Hst, Hmono. cbn [length] in Hst, Hmono.
      assert (Ent : nth_error t' (length t) = Some nt).
      { rewrite E, <- app_assoc. cbn [app]. rewrite nth_error_app2 by lia. rewrite Nat.sub_diag. reflexivity. }
      assert (Hpre : forall i x, nth_error t i = Some x -> nth_error t' i = Some x).
      { intros i x Hi. rewrite E, <- app_assoc. rewrite nth_error_app1; [exact Hi|]. apply nth_error_Some. congruence. }
      exists (nt :: new). rewrite E, <- app_assoc. split; [reflexivity|]. split; [cbn [length]; lia|].
      assert (E' : t ++ [nt] ++ new = t') by (rewrite E, <- app_assoc; reflexivity). rewrite E'. clear E'. split.
      * intros m ty Hmt Hl. destruct (Nat.eq_dec m (length t)) as [->|Hne].
        -- rewrite Ent in Hmt. injection Hmt as <-. cbn [nt t_idx t_level t_freq t_kids t_name]. split; [reflexivity|]. split; [reflexivity|].
           split; [lia|]. split; [apply Hbest|]. exists (Z.to_nat a), (Z.to_nat b), ta, tb. auto 10.
        -- destruct (Hst m ty Hmt ltac:(lia)) as (S1 & S2 & S3 & S4 & S5). split; [exact S1|]. split; [exact S2|]. split; [lia|]. split; [exact S4|exact S5].
      * intros m m' ty ty' Hl Hle H1 H2. destruct (Nat.eq_dec m (length t)) as [->|Hne].
        -- rewrite Ent in H1. injection H1 as <-. cbn [nt t_freq]. destruct (Nat.eq_dec m' (length t)) as [->|Hne'].
           ++ rewrite Ent in H2. injection H2 as <-. cbn [nt t_freq]. lia.
           ++ destruct (Hst m' ty' H2 ltac:(lia)) as (_ & _ & S3 & _). lia.
        -- apply (Hmono m m' ty ty'); auto. lia.
Qed.

(** A property of types that merging preserves holds for everything learned. *)
Lemma bpe_invariant min_co level n c t r (P : Typ -> Prop) : bpe min_co level n c t r ->
  (forall ta tb i f, P ta -> P tb -> P (MkType (t_name ta ++ t_name tb) level i f (Some [ta; tb]))) ->
  (forall s f x, In (s, f) c -> In x s -> exists ty, nth_error t (Z.to_nat x) = Some ty /\ P ty) ->
  forall t', r = Ok t' -> exists new, t' = t ++ new /\ Forall P new.
Proof.
  intros HB HP. induction HB as [c t|n c t p f Hbest Hrare|n c t H0|n c c' t a b f ta tb r Hbest Hfreq Ha Eta Hb Etb Hm HB IH];
    intros Hc t' Er.
  - injection Er as <-. exists []. rewrite app_nil_r. auto.
  - injection Er as <-. exists []. rewrite app_nil_r. auto.
  - discriminate.
  - set (nt := MkType _ _ _ _ _) in *.
    assert (Hnt : P nt).
    { destruct (best_positive_occurs _ _ _ Hbest) as (s & g & Hin & Hadj). apply adjacent_in in Hadj. cbn [fst snd] in Hadj. destruct Hadj as [H1 H2].
      destruct (Hc s g a Hin H1) as (ta' & E1 & P1). destruct (Hc s g b Hin H2) as (tb' & E2 & P2). apply HP; congruence. }
    destruct IH with (t' := t') as (new & E & Hall).
    + intros s' f' x Hin Hx. unfold merged_corpus in Hm.
      assert (HH : exists s, In (s, f') c /\ replaced a b (Z.of_nat (length t)) s s').
      { clear - Hm Hin. induction Hm as [|[s g] [s2 g2] c c' [E [Hrp _]] _ IH]; [destruct Hin|]. cbn [fst snd] in *. subst g2.
        destruct Hin as [E|Hin]; [injection E as <- <-; exists s; split; [left; reflexivity|exact Hrp]|].
        destruct (IH Hin) as (s0 & H1 & H2). exists s0. split; [right; exact H1|exact H2]. }
      destruct HH as (s & Hs & Hrp). destruct (replaced_in _ _ _ _ _ Hrp x Hx) as [Hxs| ->].
      * destruct (Hc s f' x Hs Hxs) as (ty & E1 & P1). exists ty. split; [|exact P1]. rewrite nth_error_app1; [exact E1|]. apply nth_error_Some. congruence.
      * exists nt. split; [|exact Hnt]. rewrite Nat2Z.id, nth_error_app2, Nat.sub_diag by lia. reflexivity.
    + exact Er.
    + exists (nt :: new). rewrite E, <- app_assoc. split; [reflexivity|]. constructor; assumption.
Qed.

(** ** Determinism *)
Lemma replace_left_cons2 a b r x y s : replace_left a b r (x :: y :: s) =
  if (x =? a) && (y =? b) then r :: replace_left a b r s else x :: replace_left a b r (y :: s).
Proof. reflexivity. Qed.
Lemma merged_replace_left a b r s s' : a <> b -> merged a b r s s' -> s' = replace_left a b r s.
Proof.
  intros Hab [Hrp Hno]. revert s' Hrp Hno.
  assert (G : forall n s, (length s < n)%nat -> forall s', replaced a b r s s' -> ~ In (a, b) (adjacent s') -> s' = replace_left a b r s).
  { induction n as [|n IH]; intros s0 Hl s' Hrp Hno; [lia|]. inversion Hrp as [E1 E2|x s1 s1' Hr1 E1 E2|s1 s1' Hr1 E1 E2]; subst.
    - reflexivity.
    - cbn [length] in Hl.
      assert (Hno1 : ~ In (a, b) (adjacent s1')) by (intros H; apply Hno; destruct s1'; [destruct H|]; rewrite adjacent_cons2; right; exact H).
      destruct s1 as [|y s2]; [inversion Hr1; subst; reflexivity|]. rewrite replace_left_cons2.
      destruct (Z.eqb_spec x a) as [->|Hx]; [|cbn [andb]; rewrite <- (IH (y :: s2)) with (s' := s1') by (auto; cbn [length] in *; lia); reflexivity].
      destruct (Z.eqb_spec y b) as [->|Hy].
      + exfalso. inversion Hr1 as [|x' s3 s3' Hr3 E1 E2|]; subst; [|congruence]. apply Hno. rewrite adjacent_cons2. left. reflexivity.
      + cbn [andb]. rewrite <- (IH (y :: s2)) with (s' := s1') by (auto; cbn [length] in *; lia). reflexivity.
    - cbn [length] in Hl. rewrite replace_left_cons2. rewrite !Z.eqb_refl. cbn [andb]. f_equal. apply IH; [lia|exact Hr1|].
      intros H. apply Hno. destruct s1'; [destruct H|]. rewrite adjacent_cons2. right. exact H. }
  intros s' Hrp Hno. apply (G (S (length s)) s (Nat.lt_succ_diag_r _) s' Hrp Hno).
Qed.
Lemma replace_left_merged a b r s : a <> b -> a <> r -> b <> r -> merged a b r s (replace_left a b r s).
Proof.
  intros Hab Har Hbr.
  assert (G : forall n s, (length s < n)%nat -> replaced a b r s (replace_left a b r s) /\ ~ In (a, b) (adjacent (replace_left a b r s)) /\
     (hd_error (replace_left a b r s) = hd_error s \/ hd_error (replace_left a b r s) = Some r)).
  { induction n as [|n IH]; intros s0 Hl; [lia|]. destruct s0 as [|x [|y s0]].
    - split; [constructor|]. split; [intros []|left; reflexivity].
    - split; [constructor; constructor|]. split; [intros []|left; reflexivity].
    - rewrite replace_left_cons2. cbn [length] in Hl. destruct (Z.eqb_spec x a) as [Hx|Hx], (Z.eqb_spec y b) as [Hy|Hy]; cbn [andb];
        [destruct (IH s0 ltac:(lia)) as (I1 & I2 & I3)|destruct (IH (y :: s0) ltac:(cbn [length]; lia)) as (I1 & I2 & I3)..].
      + subst x y. split; [apply rep_merge, I1|]. split; [|right; reflexivity]. destruct (replace_left a b r s0) as [|z zs]; [intros []|].
        rewrite adjacent_cons2. intros [E|H]; [congruence|contradiction].
      + split; [apply rep_keep, I1|]. split; [|left; reflexivity]. destruct (replace_left a b r (y :: s0)) as [|z zs] eqn:E; [intros []|].
        rewrite adjacent_cons2. intros [E1|H]; [|contradiction]. injection E1 as _ ->. cbn [hd_error] in I3. destruct I3 as [I3|I3]; congruence.
      + split; [apply rep_keep, I1|]. split; [|left; reflexivity]. destruct (replace_left a b r (y :: s0)) as [|z zs] eqn:E; [intros []|].
        rewrite adjacent_cons2. intros [E1|H]; [|contradiction]. congruence.
      + split; [apply rep_keep, I1|]. split; [|left; reflexivity]. destruct (replace_left a b r (y :: s0)) as [|z zs] eqn:E; [intros []|].
        rewrite adjacent_cons2. intros [E1|H]; [|contradiction]. congruence. }
  destruct (G (S (length s)) s (Nat.lt_succ_diag_r _)) as (H1 & H2 & _). split; assumption.
Qed.
Lemma merged_corpus_fun a b r c c1 c2 : a <> b -> merged_corpus a b r c c1 -> merged_corpus a b r c c2 -> c1 = c2.
Proof.
  intros Hab H1. revert c2. induction H1 as [|[s f] [s1 f1] c c1 [E M] _ IH]; intros c2 H2; inversion H2 as [|? [s2 f2] ? c2' [E2 M2] H2']; subst; [reflexivity|].
  cbn [fst snd] in *. subst f1 f2. rewrite (merged_replace_left _ _ _ _ _ Hab M), (merged_replace_left _ _ _ _ _ Hab M2). f_equal. apply IH, H2'.
Qed.
Lemma best_fun c p f q g : best c p f -> best c q g -> p = q /\ f = g.
Proof.
  intros (E1 & F1 & B1) (E2 & F2 & B2). destruct (pair_dec p q) as [->|Hn]; [split; congruence|]. exfalso.
  destruct (B1 q (not_eq_sym Hn)) as [L|[L1 L2]], (B2 p Hn) as [M|[M1 M2]]; try lia. unfold pair_lt in *. lia.
Qed.
Theorem bpe_deterministic min_co level n c t r1 : bpe min_co level n c t r1 -> forall r2, bpe min_co level n c t r2 ->
  r1 = r2 \/ exists u ty k, t_kids ty = Some [k; k] /\ extends (t ++ u ++ [ty]) r1 /\ extends (t ++ u ++ [ty]) r2.
Proof.
  induction 1 as [c t|n c t p f Hbest Hrare|n c t H0|n c c' t a b f ta tb r Hbest Hfreq Ha Eta Hb Etb Hm HB IH];
    intros r2 H2; inversion H2 as [|? ? ? p2 f2 Hbest2 Hrare2|? ? ? H02|? ? c2 ? a2 b2 f2 ta2 tb2 ? Hbest2 Hfreq2 Ha2 Eta2 Hb2 Etb2 Hm2 HB2]; subst.
  - left. reflexivity.
  - left. reflexivity.
  - destruct Hbest as (E & F & _). rewrite H02 in E. lia.
  - destruct (best_fun _ _ _ _ _ Hbest Hbest2) as [_ ->]. lia.
  - destruct Hbest2 as (E & F & _). rewrite H0 in E. lia.
  - left. reflexivity.
  - destruct Hbest2 as (E & F & _). rewrite H0 in E. lia.
  - destruct (best_fun _ _ _ _ _ Hbest Hbest2) as [_ ->]. lia.
  - destruct Hbest as (E & F & _). rewrite H02 in E. lia.
  - destruct (best_fun _ _ _ _ _ Hbest Hbest2) as [E <-]. injection E as <- <-.
    assert (ta2 = ta) by congruence. assert (tb2 = tb) by congruence. subst ta2 tb2.
    set (nt := MkType _ _ _ _ _) in *.
    destruct (Z.eq_dec a b) as [<-|Hab].
    + right. exists [], nt, ta. assert (tb = ta) by congruence. subst tb. split; [reflexivity|].
      assert (G : forall n c t r, bpe min_co level n c t r -> extends t r).
      { clear. induction 1 as [c t|n c t p f Hbest Hrare|n c t H0|n c c' t a b f ta tb r Hbest Hfreq Ha Eta Hb Etb Hm HB IH]; intros t' E; try discriminate.
        - injection E as <-. exists []. rewrite app_nil_r. reflexivity.
        - injection E as <-. exists []. rewrite app_nil_r. reflexivity.
        - destruct (IH t' E) as (rest & ->). rewrite <- app_assoc. eexists. reflexivity. }
      cbn [app]. split; eapply G; eassumption.
    + rewrite <- (merged_corpus_fun _ _ _ _ _ _ Hab Hm Hm2) in HB2. destruct (IH _ HB2) as [E|(u & ty & k & Hk & X1 & X2)]; [left; exact E|].
      right. exists (nt :: u), ty, k. split; [exact Hk|]. rewrite <- app_assoc in X1, X2. split; assumption.
Qed.
