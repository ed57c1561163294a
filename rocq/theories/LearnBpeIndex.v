(** The initial index of the BPE learner. *)
From Coq Require Import Strings.String.
From Verif Require Import Py PyLemmas PyStr CodecModel CodecSpec VocabFileProofs LearnModel HeapModel HeapProofs BpeSpec LearnBpeModel LearnBpeProofs LearnBpeLoop.
Local Open Scope Z_scope.
Local Open Scope list_scope.

Definition tag (base : nat) (s : list Z) : list (nat * Z) := combine (List.seq base (length s)) s.
Fixpoint segs_from (base : nat) (c : corpus) : list seg :=
  match c with
  | [] => []
  | (s, f) :: c' => (tag base s, f) :: segs_from (base + length s) c'
  end.
Lemma tag_cons base x s : tag base (x :: s) = (base, x) :: tag (S base) s. Proof. reflexivity. Qed.
Lemma tag_fst base s : map fst (tag base s) = List.seq base (length s).
Proof. revert base. induction s as [|x s IH]; intros base; [reflexivity|]. rewrite tag_cons. cbn [map fst length List.seq]. rewrite IH. reflexivity. Qed.
Lemma tag_snd base s : map snd (tag base s) = s.
Proof. revert base. induction s as [|x s IH]; intros base; [reflexivity|]. rewrite tag_cons. cbn [map snd]. rewrite IH. reflexivity. Qed.
Lemma corpus_of_segs_from base c : corpus_of (segs_from base c) = c.
Proof.
  revert base. induction c as [|[s f] c IH]; intros base; [reflexivity|]. cbn [segs_from corpus_of map fst snd].
  fold (corpus_of (segs_from (base + length s) c)). rewrite IH, tag_snd. reflexivity.
Qed.
Definition total (c : corpus) : nat := list_sum (map (fun sf => length (fst sf)) c).
Lemma total_cons s f c : total ((s, f) :: c) = (length s + total c)%nat.
Proof. reflexivity. Qed.
Lemma ids_segs_from base c : ids (segs_from base c) = List.seq base (total c).
Proof.
  revert base. induction c as [|[s f] c IH]; intros base; [reflexivity|]. cbn [segs_from ids flat_map fst].
  fold (ids (segs_from (base + length s) c)). rewrite IH, tag_fst, total_cons, seq_app. reflexivity.
Qed.
Lemma segs_from_app base c1 c2 : segs_from base (c1 ++ c2) = segs_from base c1 ++ segs_from (base + total c1) c2.
Proof.
  revert base. induction c1 as [|[s f] c1 IH]; intros base; cbn [app segs_from].
  - rewrite Nat.add_0_r. reflexivity.
  - rewrite IH, total_cons, Nat.add_assoc. reflexivity.
Qed.
Lemma total_app c1 c2 : total (c1 ++ c2) = (total c1 + total c2)%nat.
Proof. unfold total. rewrite map_app, list_sum_app. reflexivity. Qed.

(** *** The new nodes *)
Lemma tag_split base s : forall l1 x l2, tag base s = l1 ++ x :: l2 ->
  fst x = (base + length l1)%nat /\ nth_error s (length l1) = Some (snd x) /\
  option_map fst (last_opt l1) = (if (0 <? length l1)%nat then Some (base + length l1 - 1)%nat else None) /\
  option_map fst (hd_error l2) = (if (length l1 + 1 <? length s)%nat then Some (base + length l1 + 1)%nat else None).
Proof.
  intros l1 x l2 E.
  assert (E1 := f_equal (map fst) E). rewrite tag_fst, map_app in E1. cbn [map] in E1.
  assert (E2 := f_equal (map snd) E). rewrite tag_snd, map_app in E2. cbn [map] in E2.
  assert (Hl : length s = (length l1 + S (length l2))%nat).
  { pose proof (f_equal (@length _) E2) as H. rewrite app_length in H. cbn [length] in H. rewrite !map_length in H. exact H. }
  assert (Hn : forall j, (j < length s)%nat -> nth_error (map fst l1 ++ fst x :: map fst l2) j = Some (base + j)%nat).
  { intros j Hj. rewrite <- E1. rewrite (nth_error_nth' _ O) by (rewrite seq_length; exact Hj). rewrite seq_nth by exact Hj. reflexivity. }
  split; [|split; [|split]].
  - specialize (Hn (length l1) ltac:(lia)). rewrite nth_error_app2 in Hn by (rewrite map_length; lia).
    rewrite map_length, Nat.sub_diag in Hn. cbn [nth_error] in Hn. congruence.
  - rewrite E2. rewrite nth_error_app2 by (rewrite map_length; lia). rewrite map_length, Nat.sub_diag. reflexivity.
  - destruct (last_opt l1) as [y|] eqn:El.
    + apply last_opt_some in El. destruct El as (l & ->). rewrite app_length. cbn [length].
      destruct (Nat.ltb_spec 0 (length l + 1)); [|lia]. cbn [option_map].
      specialize (Hn (length l) ltac:(rewrite Hl, app_length; cbn [length]; lia)). rewrite map_app, <- app_assoc in Hn. cbn [map app] in Hn.
      rewrite nth_error_app2 in Hn by (rewrite map_length; lia). rewrite map_length, Nat.sub_diag in Hn. cbn [nth_error] in Hn.
      injection Hn as Hn. f_equal. lia.
    + apply last_opt_none in El. subst l1. reflexivity.
  - destruct l2 as [|y l2]; cbn [hd_error option_map length] in *.
    + destruct (Nat.ltb_spec (length l1 + 1) (length s)); [lia|reflexivity].
    + destruct (Nat.ltb_spec (length l1 + 1) (length s)); [|lia].
      specialize (Hn (length l1 + 1)%nat ltac:(lia)). rewrite nth_error_app2 in Hn by (rewrite map_length; lia).
      rewrite map_length in Hn. replace (length l1 + 1 - length l1)%nat with 1%nat in Hn by lia. cbn [map nth_error] in Hn.
      injection Hn as Hn. f_equal. lia.
Qed.
Lemma from_seq_nth base s f j v : nth_error s j = Some v -> nth_error (from_seq base s f) j =
  Some (MkNode v (if (0 <? j)%nat then Some (base + j - 1)%nat else None)
                 (if (j + 1 <? length s)%nat then Some (base + j + 1)%nat else None) f).
Proof.
  intros H. unfold from_seq, enumerate. rewrite nth_error_map, enum_from_nth, H. cbn [option_map fst snd].
  rewrite Z.add_0_l, Nat2Z.id. reflexivity.
Qed.
Lemma from_seq_length base s f : length (from_seq base s f) = length s.
Proof. unfold from_seq, enumerate. rewrite map_length, enum_from_length. reflexivity. Qed.

(** the store holds exactly the nodes of the corpus *)
Definition fresh_store (st : list lnode) (c : corpus) : Prop :=
  length st = total c /\ forall s f, In (s, f) (segs_from 0 c) -> chain st f s.
Lemma fresh_wf st c : fresh_store st c -> wf st (segs_from 0 c).
Proof.
  intros [Hl Hc]. split; [rewrite ids_segs_from; apply seq_NoDup|split; [exact Hc|]].
  intros i nd H Hn. exfalso. apply Hn. rewrite ids_segs_from. apply in_seq.
  assert (i < length st)%nat by (apply nth_error_Some; congruence). lia.
Qed.
Lemma chain_extend st ext f s : chain st f s -> chain (st ++ ext) f s.
Proof.
  intros H l1 x l2 E. specialize (H l1 x l2 E). rewrite nth_error_app1; [exact H|]. apply nth_error_Some. congruence.
Qed.
Lemma fresh_snoc st c s f : fresh_store st c -> fresh_store (st ++ from_seq (length st) s f) (c ++ [(s, f)]).
Proof.
  intros [Hl Hc]. split.
  - rewrite app_length, from_seq_length, total_app, total_cons, Hl. cbn [total map list_sum fold_right]. lia.
  - intros s' f' Hin. rewrite segs_from_app in Hin. apply in_app_iff in Hin. destruct Hin as [Hin|Hin].
    + apply chain_extend, Hc, Hin.
    + cbn [segs_from] in Hin. destruct Hin as [E|[]]. injection E as <- <-. intros l1 x l2 E.
      apply tag_split in E. destruct E as (E1 & E2 & -> & ->). cbn [Nat.add] in *. rewrite E1, <- Hl.
      rewrite nth_error_app2 by lia. replace (length st + length l1 - length st)%nat with (length l1) by lia.
      apply from_seq_nth, E2.
Qed.

(** *** Counting *)
Record counted (ix : index) (c : corpus) : Prop := MkCounted {
  k_ixs : forall p, pget p (ix_bi_ixs ix) = map fst (occ (segs_from 0 c) p);
  k_bi : forall p, dcount p (ix_bi ix) = pair_count c p;
  k_uni : forall x, ucount x (ix_uni ix) = symbol_count c x;
  k_keys : dkeys (ix_bi ix) = dkeys (ix_bi_ixs ix);
  k_nd : NoDup (dkeys (ix_bi ix));
  k_und : NoDup (dkeys (ix_uni ix));
  k_bkeys : forall p, In p (dkeys (ix_bi ix)) <-> exists s f, In (s, f) c /\ In p (adjacent s);
  k_ukeys : forall x, In x (dkeys (ix_uni ix)) <-> exists s f, In (s, f) c /\ In x s }.

Lemma In_dset_keys {K V} (eqb : K -> K -> bool) (Heq : forall a b, eqb a b = true <-> a = b) k (v : V) d q :
  In q (dkeys (dset eqb k v d)) <-> In q (dkeys d) \/ q = k.
Proof.
  rewrite dkeys_dset. destruct (dmem eqb k d) eqn:E.
  - apply (dmem_spec eqb Heq) in E. split; [auto|]. intros [H| ->]; assumption.
  - rewrite in_app_iff. cbn [In]. intuition.
Qed.
Lemma dkeys_dset_same {K V W} (eqb : K -> K -> bool) (Heq : forall a b, eqb a b = true <-> a = b) k (v : V) (w : W) d e :
  dkeys d = dkeys e -> dkeys (dset eqb k v d) = dkeys (dset eqb k w e).
Proof.
  intros H. rewrite !dkeys_dset, H. destruct (dmem eqb k d) eqn:E, (dmem eqb k e) eqn:E'; try reflexivity.
  - apply (dmem_spec eqb Heq) in E. rewrite H in E. apply (dmem_spec eqb Heq) in E. congruence.
  - apply (dmem_spec eqb Heq) in E'. rewrite <- H in E'. apply (dmem_spec eqb Heq) in E'. congruence.
Qed.

Lemma index_positions base s f : forall rest pre x ix, s = pre ++ x :: rest ->
  (forall p n, In n (pget p (ix_bi_ixs ix)) -> (n < base + length pre)%nat) ->
  dkeys (ix_bi ix) = dkeys (ix_bi_ixs ix) -> NoDup (dkeys (ix_bi ix)) -> NoDup (dkeys (ix_uni ix)) ->
  exists ix', foldM (index_pos base s f) (List.seq (length pre) (length rest)) ix = Ok ix' /\
    ix_nodes ix' = ix_nodes ix /\
    (forall p, pget p (ix_bi_ixs ix') = pget p (ix_bi_ixs ix) ++ map fst (occ1 f (tag (base + length pre) (x :: rest)) p)) /\
    (forall p, dcount p (ix_bi ix') = dcount p (ix_bi ix) + f * Z.of_nat (count_occ pair_dec (adjacent (x :: rest)) p)) /\
    (forall c, ucount c (ix_uni ix') + f * ind c (last (x :: rest) 0) = ucount c (ix_uni ix) + f * Z.of_nat (count_occ Z.eq_dec (x :: rest) c)) /\
    dkeys (ix_bi ix') = dkeys (ix_bi_ixs ix') /\ NoDup (dkeys (ix_bi ix')) /\ NoDup (dkeys (ix_uni ix')) /\
    (forall p, In p (dkeys (ix_bi ix')) <-> In p (dkeys (ix_bi ix)) \/ In p (adjacent (x :: rest))) /\
    (forall c, In c (dkeys (ix_uni ix')) \/ c = last (x :: rest) 0 <-> In c (dkeys (ix_uni ix)) \/ In c (x :: rest)).
Proof.
  assert (Hcnt1 : forall c x, Z.of_nat (count_occ Z.eq_dec [x] c) = ind c x).
  { intros c x. unfold ind. cbn [count_occ]. destruct (Z.eq_dec x c), (Z.eqb_spec c x); congruence || reflexivity. }
  induction rest as [|y rest IH]; intros pre x ix Es Hlt Hk Hnd Hund.
  - cbn [length List.seq foldM]. exists ix. split; [reflexivity|]. split; [reflexivity|]. cbn [tag length List.seq combine occ1 hd_error junc app map adjacent tl last].
    split; [intros p; rewrite app_nil_r; reflexivity|].
    split; [intros p; cbn [combine count_occ]; lia|].
    split; [intros c; rewrite Hcnt1; lia|]. do 3 (split; [assumption|]).
    split; [intros p; cbn [combine In]; tauto|]. intros c. cbn [In]. intuition.
  - cbn [length List.seq foldM]. unfold index_pos at 1.
    assert (E1 : nth (length pre) s 0 = x) by (rewrite Es, app_nth2, Nat.sub_diag by lia; reflexivity).
    assert (E2 : nth (length pre + 1) s 0 = y).
    { rewrite Es, app_nth2 by lia. replace (length pre + 1 - length pre)%nat with 1%nat by lia. reflexivity. }
    rewrite E1, E2. cbv zeta.
    assert (Hnin : ~ In (base + length pre)%nat (pget (x, y) (ix_bi_ixs ix))) by (intros H; specialize (Hlt _ _ H); lia).
    destruct (set_mem (base + length pre)%nat (pget (x, y) (ix_bi_ixs ix))) eqn:Em; [apply set_mem_In in Em; contradiction|].
    cbn [negb assert_ bind fst].
    assert (Eadd : set_add (base + length pre)%nat (pget (x, y) (ix_bi_ixs ix)) = pget (x, y) (ix_bi_ixs ix) ++ [(base + length pre)%nat])
      by (unfold set_add; rewrite Em; reflexivity).
    rewrite Eadd.
    set (ix1 := MkIndex _ _ _ _).
    assert (Hget1 : forall p, pget p (ix_bi_ixs ix1) = pget p (ix_bi_ixs ix) ++ map fst (junc f (Some ((base + length pre)%nat, x)) (Some (S (base + length pre), y)) p)).
    { intros p. cbn [ix1 ix_bi_ixs junc fst snd]. unfold dget_def. rewrite (dget_dset pair_eqb pair_eqb_eq).
      destruct (pair_eqb p (x, y)) eqn:Ep.
      - apply pair_eqb_eq in Ep. subst p. rewrite pair_eqb_refl. reflexivity.
      - assert (Ep' : pair_eqb (x, y) p = false) by (apply pair_eqb_neq; apply pair_eqb_neq in Ep; congruence).
        rewrite Ep'. cbn [map]. rewrite app_nil_r. reflexivity. }
    destruct (IH (pre ++ [x]) y ix1) as (ix' & E & Hn & Hg & Hb & Hu & Hk' & Hnd' & Hund' & Hbk & Huk).
    + rewrite Es, <- app_assoc. reflexivity.
    + intros p n Hin. rewrite app_length. cbn [length]. rewrite Hget1 in Hin. apply in_app_iff in Hin. destruct Hin as [Hin|Hin].
      * specialize (Hlt _ _ Hin). lia.
      * cbn [junc] in Hin. destruct (pair_eqb _ p); [|destruct Hin]. destruct Hin as [<-|[]]. cbn [fst]. lia.
    + cbn [ix1 ix_bi ix_bi_ixs]. apply dkeys_dset_same; [apply pair_eqb_eq|exact Hk].
    + cbn [ix1 ix_bi]. apply NoDup_dset; [apply pair_eqb_eq|exact Hnd].
    + cbn [ix1 ix_uni]. apply NoDup_dset; [apply Z.eqb_eq|exact Hund].
    + rewrite app_length in E, Hg. cbn [length] in E, Hg. rewrite Nat.add_1_r in E. exists ix'. split; [exact E|]. split; [exact Hn|].
      split; [|split; [|split; [|split; [exact Hk'|split; [exact Hnd'|split; [exact Hund'|split]]]]]].
      * intros p. rewrite Hg, Hget1, <- app_assoc. f_equal. replace (base + (length pre + 1))%nat with (S (base + length pre)) by lia.
        rewrite !tag_cons. rewrite <- map_app. reflexivity.
      * intros p. rewrite Hb. cbn [ix1 ix_bi]. rewrite dcount_dadd. rewrite adjacent_cons2. destruct (pair_eqb p (x, y)) eqn:Ep.
        -- apply pair_eqb_eq in Ep. subst p. rewrite count_occ_cons_eq by reflexivity. lia.
        -- apply pair_eqb_neq in Ep. rewrite count_occ_cons_neq by congruence. lia.
      * intros c. specialize (Hu c). cbn [ix1 ix_uni] in Hu. rewrite ucount_dadd in Hu.
        change (last (x :: y :: rest) 0) with (last (y :: rest) 0).
        destruct (Z.eqb_spec c x) as [Ec|Hc].
        -- rewrite count_occ_cons_eq by congruence. lia.
        -- rewrite (count_occ_cons_neq _ (y :: rest)) by congruence. lia.
      * intros p. rewrite Hbk. cbn [ix1 ix_bi]. unfold dadd. rewrite (In_dset_keys pair_eqb pair_eqb_eq). rewrite adjacent_cons2. cbn [In]. intuition.
      * intros c. change (last (x :: y :: rest) 0) with (last (y :: rest) 0). rewrite Huk. cbn [ix1 ix_uni]. unfold dadd. rewrite (In_dset_keys Z.eqb Z.eqb_eq).
        cbn [In]. intuition.
Qed.

Lemma pair_count_app c1 c2 p : pair_count (c1 ++ c2) p = pair_count c1 p + pair_count c2 p.
Proof. unfold pair_count. rewrite map_app, zsum_app. reflexivity. Qed.
Lemma symbol_count_app c1 c2 p : symbol_count (c1 ++ c2) p = symbol_count c1 p + symbol_count c2 p.
Proof. unfold symbol_count. rewrite map_app, zsum_app. reflexivity. Qed.
Lemma pair_count_one s f p : pair_count [(s, f)] p = f * Z.of_nat (count_occ pair_dec (adjacent s) p).
Proof. unfold pair_count. cbn [map fst snd zsum fold_right]. lia. Qed.
Lemma symbol_count_one s f p : symbol_count [(s, f)] p = f * Z.of_nat (count_occ Z.eq_dec s p).
Proof. unfold symbol_count. cbn [map fst snd zsum fold_right]. lia. Qed.

Definition indexed (ix : index) (c : corpus) : Prop := fresh_store (ix_nodes ix) c /\ counted ix c.

Lemma index_seq_ok ix c i s f : indexed ix c -> (i = 0 -> s <> []) ->
  exists ix', index_seq ix (i, (s, f)) = Ok ix' /\ indexed ix' (c ++ [(s, f)]).
Proof.
  intros [Hf Hc] Hi. unfold index_seq.
  assert (E0 : exists z, (if i =? 0 then py_nth s 0 else Ok 0) = Ok z).
  { destruct (Z.eqb_spec i 0) as [->|]; [|eauto]. destruct s as [|x s]; [exfalso; apply Hi; reflexivity|]. exists x. reflexivity. }
  destruct E0 as (z & ->). cbn [bind]. destruct s as [|x rest].
  - exists ix. split; [reflexivity|]. destruct Hf as [Hl Hch], Hc as [H1 H2 H3 H4 H5 H6 H7 H8]. split.
    + split; [rewrite total_app; cbn [total map fst length list_sum fold_right]; lia|]. intros s' f' Hin. rewrite segs_from_app in Hin.
      apply in_app_iff in Hin. destruct Hin as [Hin|[E|[]]]; [apply Hch, Hin|]. injection E as <- <-. intros l1 y l2 E. destruct l1; discriminate.
    + constructor; auto.
      * intros p. rewrite H1, segs_from_app, occ_app. cbn [segs_from occ flat_map fst tag combine occ1 length List.seq]. rewrite !app_nil_r. reflexivity.
      * intros p. rewrite H2, pair_count_app, pair_count_one. cbn [adjacent combine count_occ]. lia.
      * intros p. rewrite H3, symbol_count_app, symbol_count_one. cbn [count_occ]. lia.
      * intros p. rewrite H7. split; intros (s & g & H & Ha); exists s, g; (split; [|exact Ha]).
        -- apply in_app_iff. left. exact H.
        -- apply in_app_iff in H. destruct H as [H|[E|[]]]; [exact H|]. injection E as <- <-. destruct Ha.
      * intros p. rewrite H8. split; intros (s & g & H & Ha); exists s, g; (split; [|exact Ha]).
        -- apply in_app_iff. left. exact H.
        -- apply in_app_iff in H. destruct H as [H|[E|[]]]; [exact H|]. injection E as <- <-. destruct Ha.
  - cbv zeta. pose proof Hc as [H1 H2 H3 H4 H5 H6 H7 H8].
    set (ix0 := MkIndex _ _ _ _). assert (Hlen : length (ix_nodes ix) = total c) by apply Hf.
    destruct (index_positions (length (ix_nodes ix)) (x :: rest) f rest [] x ix0 eq_refl) as (ix' & E & Hn & Hg & Hb & Hu & Hk' & Hnd' & Hund' & Hbk & Huk).
    + intros p n Hin. cbn [ix0 ix_bi_ixs] in Hin. rewrite H1 in Hin. apply occ_incl in Hin. rewrite ids_segs_from in Hin. apply in_seq in Hin. cbn [length]. lia.
    + exact H4.
    + exact H5.
    + exact H6.
    + replace (length (x :: rest) - 1)%nat with (length rest) by (cbn [length]; lia). cbn [length] in E, Hg. rewrite E. cbn [bind]. eexists. split; [reflexivity|].
      split; cbn [ix_nodes].
      * rewrite Hn. cbn [ix0 ix_nodes]. apply fresh_snoc, Hf.
      * constructor; cbn [ix_bi_ixs ix_bi ix_uni]; auto.
        -- intros p. rewrite Hg. cbn [ix0 ix_bi_ixs]. rewrite H1, segs_from_app, occ_app, map_app. f_equal. cbn [segs_from occ flat_map fst snd].
           rewrite app_nil_r, Hlen. rewrite Nat.add_0_r. reflexivity.
        -- intros p. rewrite Hb. cbn [ix0 ix_bi]. rewrite H2, pair_count_app, pair_count_one. reflexivity.
        -- intros p. specialize (Hu p). cbn [ix0 ix_uni] in Hu. rewrite H3 in Hu. rewrite ucount_dadd, symbol_count_app, symbol_count_one.
           fold (ind p (last (x :: rest) 0)) in *. unfold ind in *. destruct (p =? last (x :: rest) 0); lia.
        -- apply NoDup_dset; [apply Z.eqb_eq|exact Hund'].
        -- intros p. rewrite Hbk. cbn [ix0 ix_bi]. rewrite H7. split.
           ++ intros [(s & g & H & Ha)|Ha]; [exists s, g; split; [apply in_app_iff; left; exact H|exact Ha]|].
              exists (x :: rest), f. split; [apply in_app_iff; right; left; reflexivity|exact Ha].
           ++ intros (s & g & H & Ha). apply in_app_iff in H. destruct H as [H|[E'|[]]]; [left; exists s, g; auto|].
              injection E' as <- <-. right. exact Ha.
        -- intros p. unfold dadd. rewrite (In_dset_keys Z.eqb Z.eqb_eq). rewrite Huk. cbn [ix0 ix_uni]. rewrite H8. split.
           ++ intros [(s & g & H & Ha)|Ha]; [exists s, g; split; [apply in_app_iff; left; exact H|exact Ha]|].
              exists (x :: rest), f. split; [apply in_app_iff; right; left; reflexivity|exact Ha].
           ++ intros (s & g & H & Ha). apply in_app_iff in H. destruct H as [H|[E'|[]]]; [left; exists s, g; auto|].
              injection E' as <- <-. right. exact Ha.
Qed.

Lemma index_rest c2 : forall i ix c, 0 < i -> indexed ix c ->
  exists ix', foldM index_seq (enum_from i c2) ix = Ok ix' /\ indexed ix' (c ++ c2).
Proof.
  induction c2 as [|[s f] c2 IH]; intros i ix c Hi Hc; cbn [enum_from foldM].
  - exists ix. rewrite app_nil_r. auto.
  - destruct (index_seq_ok ix c i s f Hc ltac:(lia)) as (ix1 & E1 & Hc1). rewrite E1.
    destruct (IH (i + 1) ix1 _ ltac:(lia) Hc1) as (ix' & E & H). exists ix'. split; [exact E|]. rewrite <- app_assoc in H. exact H.
Qed.
Lemma create_index_ok c : match c with (s, _) :: _ => s <> [] | [] => True end ->
  exists ix, create_index c = Ok ix /\ indexed ix c.
Proof.
  intros H. unfold create_index, enumerate.
  assert (H0 : indexed (MkIndex [] [] [] []) []).
  { split; [split; [reflexivity|intros s f []]|]. constructor; cbn [ix_bi_ixs ix_bi ix_uni]; try reflexivity; try constructor.
    - intros [].
    - intros (s & f & [] & _).
    - intros [].
    - intros (s & f & [] & _). }
  destruct c as [|[s f] c]; [exists (MkIndex [] [] [] []); auto|]. cbn [enum_from foldM].
  destruct (index_seq_ok _ _ 0 s f H0 (fun _ => H)) as (ix1 & E1 & Hc1). rewrite E1.
  destruct (index_rest c 1 ix1 _ ltac:(lia) Hc1) as (ix' & E & H'). exists ix'. split; [exact E|exact H'].
Qed.

(** *** Validation *)
Lemma count_adjacent_fst s x y : (count_occ pair_dec (adjacent s) (x, y) <= count_occ Z.eq_dec s x)%nat.
Proof.
  induction s as [|a s IH]; [apply le_n|]. destruct s as [|b s]; [cbn [adjacent tl combine count_occ]; lia|]. rewrite adjacent_cons2.
  destruct (Z.eq_dec a x) as [->|Hn].
  - rewrite (count_occ_cons_eq Z.eq_dec) by reflexivity.
    destruct (pair_dec (x, b) (x, y)) as [E|E]; [rewrite count_occ_cons_eq by exact E|rewrite count_occ_cons_neq by exact E]; lia.
  - rewrite (count_occ_cons_neq Z.eq_dec) by exact Hn. rewrite count_occ_cons_neq by congruence. exact IH.
Qed.
Lemma count_adjacent_snd s x y : (count_occ pair_dec (adjacent s) (x, y) <= count_occ Z.eq_dec (tl s) y)%nat.
Proof.
  induction s as [|a s IH]; [apply le_n|]. destruct s as [|b s]; [cbn [adjacent tl combine count_occ]; lia|]. rewrite adjacent_cons2.
  cbn [tl] in *. destruct (Z.eq_dec b y) as [->|Hn].
  - rewrite (count_occ_cons_eq Z.eq_dec) by reflexivity.
    destruct (pair_dec (a, y) (x, y)) as [E|E]; [rewrite count_occ_cons_eq by exact E|rewrite count_occ_cons_neq by exact E]; lia.
  - rewrite (count_occ_cons_neq Z.eq_dec) by exact Hn. rewrite count_occ_cons_neq by congruence. exact IH.
Qed.
Lemma pair_le_symbols c x y : nonnegative c ->
  0 <= pair_count c (x, y) /\ pair_count c (x, y) <= symbol_count c x /\ pair_count c (x, y) <= symbol_count c y.
Proof.
  induction c as [|[s f] c IH]; intros H; [cbn; lia|].
  destruct (IH (fun s' f' H' => H s' f' (or_intror H'))) as (I1 & I2 & I3). pose proof (H s f (or_introl eq_refl)) as Hf.
  change ((s, f) :: c) with ([(s, f)] ++ c). rewrite pair_count_app, !symbol_count_app, pair_count_one, !symbol_count_one.
  pose proof (count_adjacent_fst s x y). pose proof (count_adjacent_snd s x y).
  assert (count_occ Z.eq_dec (tl s) y <= count_occ Z.eq_dec s y)%nat.
  { destruct s as [|a s]; [apply le_n|]. cbn [tl count_occ]. destruct (Z.eq_dec a y); lia. }
  nia.
Qed.
Lemma symbol_nonneg c x : nonnegative c -> 0 <= symbol_count c x.
Proof.
  intros H. apply zsum_nonneg. intros z Hz. apply in_map_iff in Hz. destruct Hz as ([s f] & <- & Hin). cbn [fst snd].
  specialize (H s f Hin). nia.
Qed.
Lemma foldM_checks {A} (f : unit -> A -> res unit) l : (forall x, In x l -> f tt x = Ok tt) -> foldM f l tt = Ok tt.
Proof.
  induction l as [|x l IH]; intros H; [reflexivity|]. cbn [foldM]. rewrite (H x (or_introl eq_refl)). apply IH. intros y Hy. apply H. right. exact Hy.
Qed.
Lemma mapM_node_freqs nodes l fs : map (fun n => option_map n_freq (nth_error nodes n)) l = map Some fs ->
  mapM (fun n => bind (node_at nodes n) (fun x => Ok (n_freq x))) l = Ok fs.
Proof.
  revert fs. induction l as [|n l IH]; intros fs H; destruct fs as [|f fs]; try discriminate; [reflexivity|]. cbn [map] in H. injection H as H1 H2.
  cbn [mapM]. rewrite (IH _ H2). unfold node_at. destruct (nth_error nodes n) as [nd|]; [|discriminate]. cbn [bind option_map] in *. injection H1 as ->.
  reflexivity.
Qed.
Lemma validate_ok ix c vocab : indexed ix c -> nonnegative c -> symbols_below (Z.of_nat (length vocab)) c ->
  well_indexed vocab -> (exists s f, In (s, f) c /\ s <> []) -> validate_index ix vocab = Ok tt.
Proof.
  intros [Hf Hc] Hnn Hr Hwi (s0 & f0 & Hin0 & Hs0). pose proof (fresh_wf _ _ Hf) as Hwf. destruct Hc as [H1 H2 H3 H4 H5 H6 H7 H8].
  unfold validate_index.
  destruct s0 as [|x0 s0]; [contradiction|].
  assert (Hx0 : In x0 (dkeys (ix_uni ix))) by (apply H8; exists (x0 :: s0), f0; split; [exact Hin0|left; reflexivity]).
  assert (Hpm : forall l : list Z, l <> [] -> exists z, py_max l = Ok z) by (intros [|z l] H; [contradiction|]; eexists; reflexivity).
  destruct (Hpm (dkeys (ix_uni ix))) as (mc & Emc); [intros E; rewrite E in Hx0; destruct Hx0|]. rewrite Emc. cbn [bind].
  apply py_max_spec in Emc. destruct Emc as [Hmc _]. apply H8 in Hmc. destruct Hmc as (s1 & f1 & Hin1 & Hmc). pose proof (Hr s1 f1 Hin1 mc Hmc) as Hmr.
  destruct (Hpm (map t_idx vocab)) as (mi & Emi); [destruct vocab; [cbn [length] in Hmr; lia|discriminate]|]. rewrite Emi. cbn [bind].
  apply py_max_spec in Emi. destruct Emi as [_ Hmi].
  assert (Hmci : mc <= mi).
  { destruct (nth_error vocab (Z.to_nat mc)) as [t|] eqn:Et; [|apply nth_error_None in Et; lia].
    pose proof (Hwi _ _ Et) as Hidx. specialize (Hmi (t_idx t) (in_map t_idx _ _ (nth_error_In _ _ Et))). lia. }
  rewrite (proj2 (Z.ltb_lt mc _)) by lia. rewrite (proj2 (Z.leb_le mc mi)) by lia. cbn [andb bind].
  assert (El : Nat.eqb (length (ix_bi ix)) (length (ix_bi_ixs ix)) = true).
  { apply Nat.eqb_eq. pose proof (f_equal (@length _) H4) as H. unfold dkeys in H. rewrite !map_length in H. exact H. }
  rewrite El. cbn [bind].
  rewrite foldM_checks; [cbn [bind]|].
  - apply foldM_checks. intros [u f] Hin. cbn [snd].
    assert (E : ucount u (ix_uni ix) = f) by (unfold dget_def; rewrite (In_dget Z.eqb Z.eqb_eq u f) by assumption; reflexivity).
    rewrite H3 in E. pose proof (symbol_nonneg c u Hnn). rewrite Z.geb_leb, (proj2 (Z.leb_le 0 f)) by lia. reflexivity.
  - intros [[x y] f] Hin.
    assert (E : dcount (x, y) (ix_bi ix) = f) by (unfold dget_def; rewrite (In_dget pair_eqb pair_eqb_eq (x, y) f) by assumption; reflexivity).
    rewrite H2 in E. destruct (pair_le_symbols c x y Hnn) as (P1 & P2 & P3). rewrite !H3. cbn [fst snd].
    rewrite Z.geb_leb, (proj2 (Z.leb_le 0 f)) by lia. cbn [bind].
    assert (Hk : In (x, y) (dkeys (ix_bi_ixs ix))) by (rewrite <- H4; apply in_map_iff; exists ((x, y), f); auto).
    rewrite (proj2 (dmem_spec pair_eqb pair_eqb_eq (x, y) (ix_bi_ixs ix)) Hk). cbn [bind].
    rewrite (mapM_node_freqs _ _ (map snd (occ (segs_from 0 c) (x, y)))).
    + cbn [bind]. pose proof (occ_count (segs_from 0 c) (x, y)) as Ho. rewrite corpus_of_segs_from in Ho. rewrite <- Ho, E, Z.eqb_refl. cbn [bind].
      rewrite (proj2 (Z.leb_le f _)) by lia. cbn [bind]. rewrite (proj2 (Z.leb_le f _)) by lia. reflexivity.
    + rewrite H1, !map_map. apply map_ext_in. intros [n g] Ho. cbn [fst snd]. apply In_occ in Ho. destruct Ho as (l1 & m & l2 & Ho).
      destruct Hwf as (_ & Hch & _). specialize (Hch _ _ Ho l1 _ _ eq_refl). cbn [fst] in Hch. rewrite Hch. reflexivity.
Qed.
