(** The learner of experimental/bpepp.py follows that of nlcodec/bpe.py node by node as long as no occurrence
    of the merged pair overlaps another one; every round is then one textbook merge. *)
From Coq Require Import Strings.String.
From Verif Require Import Py PyLemmas PyStr CodecModel CodecSpec LearnModel HeapModel BpeSpec LearnBpeModel LearnBpeProofs
  LearnBpeLoop LearnBpeIndex BpeppModel BpeppSpec.
Local Open Scope Z_scope.
Local Open Scope list_scope.

(** ** Stores that agree on the live nodes *)
Definition agree (st gst : list lnode) (segs : list seg) : Prop :=
  forall i, In i (ids segs) -> nth_error st i = nth_error gst i.

Lemma pp_delete_set st n m (y : option nat) r va vb lf f :
  n <> m -> y <> Some n -> y <> Some m ->
  nth_error st n = Some (MkNode va lf (Some m) f) ->
  nth_error st m = Some (MkNode vb (Some n) y f) ->
  exists st1, pp_delete m st = Ok st1 /\
    forall i, i <> m -> nth_error (upd n (set_val r) st1) i =
      if Nat.eqb i n then Some (MkNode r lf y f)
      else if match y with Some y => Nat.eqb i y | None => false end
           then match nth_error st i with Some nd => Some (set_left (Some n) nd) | None => None end
      else nth_error st i.
Proof.
  intros Hnm Hyn Hym En Em. unfold pp_delete, node_at. rewrite Em. cbn [bind n_left n_right].
  eexists. split; [reflexivity|]. intros i Him. rewrite upd_nth.
  destruct y as [y|]; cbn [upd_opt]; rewrite !upd_nth.
  - assert (Hny : Nat.eqb n y = false) by (apply Nat.eqb_neq; congruence).
    assert (Hyn' : Nat.eqb y n = false) by (apply Nat.eqb_neq; congruence).
    rewrite Hny, Hyn', Nat.eqb_refl, En.
    destruct (Nat.eqb_spec i n) as [->|Hin]; [reflexivity|].
    destruct (Nat.eqb_spec i y) as [->|Hiy]; reflexivity.
  - rewrite Nat.eqb_refl, En. destruct (Nat.eqb_spec i n) as [->|Hin]; reflexivity.
Qed.

(** ** One side *)
Lemma ixs_remove_member p i ixs ixs' : In i (pget p ixs) -> ixs_remove p i ixs = Ok ixs' -> pp_ixs_remove p i ixs = Ok ixs'.
Proof.
  unfold ixs_remove, pp_ixs_remove, dget_def. destruct (dget pair_eqb p ixs) as [[|z s]|]; try (intros []; fail). auto.
Qed.
Lemma pget_kept q k p new i ixs ixs' : k <> i -> In k (pget q ixs) -> ixs_remove p i ixs = Ok ixs' ->
  In k (pget q (ixs_add new i ixs')).
Proof.
  intros Hki Hin E.
  assert (H1 : In k (pget q ixs')).
  { unfold ixs_remove in E. destruct (dget pair_eqb p ixs) as [[|z s]|] eqn:Ep; try (injection E as <-; exact Hin).
    unfold set_remove in E. destruct (set_mem i (z :: s)); [|discriminate]. cbn [bind] in E.
    assert (E' : dset pair_eqb p (filter (fun j => negb (Nat.eqb i j)) (z :: s)) ixs = ixs') by congruence. rewrite <- E'. clear E E'.
    unfold dget_def in *. rewrite (dget_dset pair_eqb pair_eqb_eq). destruct (pair_eqb q p) eqn:Eq; [|exact Hin].
    apply pair_eqb_eq in Eq. subst q. rewrite Ep in Hin. apply filter_In. split; [exact Hin|].
    apply negb_true_iff, Nat.eqb_neq. congruence. }
  unfold ixs_add, dget_def in *. rewrite (dget_dset pair_eqb pair_eqb_eq). destruct (pair_eqb q new) eqn:Eq; [|exact H1].
  apply pair_eqb_eq in Eq. subst q. unfold set_add. destruct (set_mem i _); [exact H1|]. apply in_app_iff. left. exact H1.
Qed.

Definition pind (p q : Z * Z) : Z := if pair_eqb p q then 1 else 0.
Lemma pp_side_ok old new f i j bi ixs ixs1 : 0 < f -> f <= dcount old bi -> In i (pget old ixs) ->
  ixs_remove old i ixs = Ok ixs1 -> NoDup (dkeys bi) ->
  exists bi', pp_side old new f i j (bi, ixs) = Ok (bi', ixs_add new j ixs1) /\ NoDup (dkeys bi') /\
    forall p, dcount p bi' = dcount p bi + f * pind p new - f * pind p old.
Proof.
  intros Hf Hc Hin E Hnd. unfold pp_side, dtouch. rewrite !dcount_dadd, pair_eqb_refl.
  rewrite Z.add_0_r, Z.gtb_ltb, (proj2 (Z.ltb_lt 0 _)) by lia.
  rewrite Z.geb_leb, (proj2 (Z.leb_le 0 _)) by lia. cbn [assert_ bind].
  rewrite (ixs_remove_member _ _ _ _ Hin E). cbn [bind]. eexists. split; [reflexivity|]. split.
  - repeat (apply NoDup_dset; [apply pair_eqb_eq|]). exact Hnd.
  - intros p. rewrite !dcount_dadd. unfold pind. destruct (pair_eqb p new), (pair_eqb p old); lia.
Qed.

(** ** One node *)
(** The state of bpepp beside the state of bpe.py. *)
Record sim (a b : Z) (ps : ppstate) (ms : mstate) (segs : list seg) : Prop := MkSim {
  s_nodes : agree (pp_nodes ps) (ms_nodes ms) segs;
  s_ixs : pp_ixs ps = ms_ixs ms;
  s_bi : forall p, p <> (a, b) -> dcount p (pp_bi ps) = pair_count (corpus_of segs) p;
  s_ab : dcount (a, b) (pp_bi ps) = 0;
  s_keys : NoDup (dkeys (pp_bi ps)) }.

Lemma sums_nonneg segs p : (forall s f, In (s, f) segs -> 0 < f) -> 0 <= zsum (map snd (occ segs p)).
Proof.
  intros H. rewrite <- occ_count. apply pair_count_nonneg. intros s f Hin. apply corpus_of_in in Hin. destruct Hin as (t & Hin & _).
  exact (H t f Hin).
Qed.
Lemma base_sum S1 S2 l1 l2 f p : (forall s g, In (s, g) S1 -> 0 < g) -> (forall s g, In (s, g) S2 -> 0 < g) -> 0 < f ->
  0 <= zsum (map snd (base S1 S2 l1 l2 f p)).
Proof.
  intros H1 H2 Hf. unfold base. rewrite !map_app, !zsum_app.
  pose proof (sums_nonneg S1 p H1) as P1. pose proof (sums_nonneg S2 p H2) as P2.
  assert (P3 : forall l, 0 <= zsum (map snd (occ1 f l p))) by (intros l; rewrite occ1_count; nia).
  pose proof (P3 l1). pose proof (P3 l2). lia.
Qed.
Lemma junc_sum f x y p : zsum (map snd (junc f (Some x) (Some y) p)) = f * pind p (snd x, snd y).
Proof.
  cbn [junc]. unfold pind.
  assert (E : pair_eqb (snd x, snd y) p = pair_eqb p (snd x, snd y)).
  { destruct (pair_eqb p (snd x, snd y)) eqn:E; [apply pair_eqb_eq in E; subst p; apply pair_eqb_refl|].
    apply pair_eqb_neq in E. apply pair_eqb_neq. congruence. }
  rewrite E. destruct (pair_eqb p _); cbn [map snd]; rewrite ?zsum_cons; change (zsum []) with 0; lia.
Qed.
Lemma segs_freq_pos a b r (segs0 segs : list seg) : (forall s f, In (s, f) segs0 -> 0 < f) ->
  Forall2 (fun x y => snd x = snd y /\ replaced a b r (map snd (fst x)) (map snd (fst y))) segs0 segs ->
  forall s f, In (s, f) segs -> 0 < f.
Proof.
  intros Hpos H. revert Hpos. induction H as [|[s0 f0] [s1 f1] l l' [E _] _ IH]; intros Hpos s f Hin; [destruct Hin|].
  destruct Hin as [Hin|Hin].
  - injection Hin as -> ->. cbn [snd] in E. subst f0. apply (Hpos s0). left. reflexivity.
  - apply (IH (fun s2 f2 H2 => Hpos s2 f2 (or_intror H2)) s f Hin).
Qed.

Section Node.
  Context (a b r : Z) (segs0 : list seg) (n : nat) (pend : list nat) (ms : mstate) (ps : ppstate).
  Hypothesis Har : a <> r.
  Hypothesis Hbr : b <> r.
  Hypothesis Hpos : forall s f, In (s, f) segs0 -> 0 < f.

  Lemma pp_step S1 S2 l1 l2 m f :
    inner a b r segs0 (n :: pend) ms (S1 ++ (l1 ++ (n, a) :: (m, b) :: l2, f) :: S2) ->
    sim a b ps ms (S1 ++ (l1 ++ (n, a) :: (m, b) :: l2, f) :: S2) ->
    (forall x, last_opt l1 = Some x -> (snd x, a) <> (a, b)) ->
    (forall y, hd_error l2 = Some y -> (b, snd y) <> (a, b)) ->
    exists ms' ps', merge_node a b r ms n = Ok ms' /\ pp_merge_node a b r ps n = Ok ps' /\
      inner a b r segs0 pend ms' (S1 ++ (l1 ++ (n, r) :: l2, f) :: S2) /\
      sim a b ps' ms' (S1 ++ (l1 ++ (n, r) :: l2, f) :: S2) /\
      ms_uni ms' = ms_uni ms /\ pp_uni ps' = pp_uni ps /\ pp_vocab ps' = pp_vocab ps.
  Proof.
    set (segs := S1 ++ (l1 ++ (n, a) :: (m, b) :: l2, f) :: S2).
    set (segs' := S1 ++ (l1 ++ (n, r) :: l2, f) :: S2).
    intros HI [Hag Hix Hbi Hab0 Hkb] Hxa Hby.
    destruct (merge_step a b r segs0 n pend ms Har Hbr Hpos S1 S2 l1 l2 m f HI) as (ms' & E & HI').
    exists ms'. pose proof HI as [Hwf Hixs Hab Hnd Hall Hpend Hkeys Hdelta Hdneg Huni Hrep].
    pose proof HI' as [Hwf' _ _ _ _ _ _ Hdelta' _ _ _].
    destruct (surgery_distinct _ _ _ _ _ _ _ _ r _ _ Hwf) as (Hnm & Hn & Hm & Hndr).
    pose proof (node_n _ _ _ _ _ _ _ _ _ _ Hwf) as En. pose proof (node_m _ _ _ _ _ _ _ _ _ _ Hwf) as Em.
    pose proof (segs_freq_pos a b r segs0 segs Hpos Hrep) as Hfp.
    assert (Hf : 0 < f) by (apply (Hfp (l1 ++ (n, a) :: (m, b) :: l2)); unfold segs; apply in_elt).
    assert (Hbase : forall p, 0 <= zsum (map snd (base S1 S2 l1 l2 f p))).
    { intros p. apply base_sum; [| |exact Hf]; intros s g Hin; apply (Hfp s g); unfold segs; apply in_app_iff; [left|right; right]; exact Hin. }
    assert (Hnl : In n (ids segs)) by (unfold segs; rewrite ids_before; left; reflexivity).
    assert (Hml : In m (ids segs)) by (unfold segs; rewrite ids_before; right; left; reflexivity).
    assert (Hy : forall y, option_map fst (hd_error l2) = Some y -> y <> n /\ y <> m).
    { intros y Hy. destruct l2 as [|[y' yv] l2']; [discriminate|]. cbn in Hy. injection Hy as <-.
      assert (Hin : In y' (map fst l1 ++ map fst ((y', yv) :: l2') ++ ids S1 ++ ids S2)) by (rewrite in_app_iff; right; left; reflexivity).
      split; intros ->; [apply Hn, Hin|apply Hm, Hin]. }
    assert (Hyn : option_map fst (hd_error l2) <> Some n) by (intros Ey; destruct (Hy n Ey); congruence).
    assert (Hym : option_map fst (hd_error l2) <> Some m) by (intros Ey; destruct (Hy m Ey); congruence).
    destruct (delete_set (ms_nodes ms) n m _ r a b _ f Hnm Hyn Hym En Em) as (gst & Eg & Hg).
    pose proof (Hag n Hnl) as Pn. rewrite En in Pn. pose proof (Hag m Hml) as Pm. rewrite Em in Pm.
    destruct (pp_delete_set (pp_nodes ps) n m _ r a b _ f Hnm Hyn Hym Pn Pm) as (pst & Ep & Hp).
    assert (Hagree : agree (upd n (set_val r) pst) (upd n (set_val r) gst) segs').
    { intros i Hi. unfold segs' in Hi. rewrite ids_after in Hi.
      assert (Him : i <> m) by (intros ->; destruct Hi as [Hi|Hi]; [congruence|contradiction]).
      rewrite (Hp i Him), Hg. rewrite (proj2 (Nat.eqb_neq i m) Him).
      assert (Hil : In i (ids segs)) by (unfold segs; rewrite ids_before; destruct Hi as [Hi|Hi]; [left; exact Hi|right; right; exact Hi]).
      rewrite (Hag i Hil). reflexivity. }
    (* what bpe.py does *)
    unfold merge_node, node_at in E. rewrite En in E. cbn [bind n_left n_right n_val n_freq is_unlinked is_none andb] in E.
    rewrite Em in E. cbn [bind n_left n_right n_val n_freq] in E.
    destruct (Z.eqb_spec r a) as [|_]; [congruence|]. destruct (Z.eqb_spec r b) as [|_]; [congruence|].
    rewrite orb_false_r, andb_false_r, !Z.eqb_refl in E. cbn [negb orb assert_ bind] in E. rewrite Eg in E. cbn [bind] in E.
    (* what bpepp does *)
    assert (Eps : exists ps', pp_merge_node a b r ps n = Ok ps' /\ sim a b ps' ms' segs' /\ ms_uni ms' = ms_uni ms /\
                              pp_uni ps' = pp_uni ps /\ pp_vocab ps' = pp_vocab ps).
    2:{ destruct Eps as (ps' & E1 & E2 & E3 & E4 & E5). exists ps'.
        split; [|split; [exact E1|split; [exact HI'|split; [exact E2|auto]]]].
        unfold merge_node, node_at. rewrite En. cbn [bind n_left n_right n_val n_freq is_unlinked is_none andb].
        rewrite Em. cbn [bind n_left n_right n_val n_freq].
        destruct (Z.eqb_spec r a) as [|_]; [congruence|]. destruct (Z.eqb_spec r b) as [|_]; [congruence|].
        rewrite orb_false_r, andb_false_r, !Z.eqb_refl. cbn [negb orb assert_ bind]. rewrite Eg. cbn [bind]. exact E. }
    unfold pp_merge_node, node_at. rewrite Pn. cbn [bind n_left n_right n_val n_freq]. rewrite Z.eqb_refl. cbn [negb].
    rewrite Pm. cbn [bind n_left n_right n_val n_freq]. rewrite !Z.eqb_refl. cbn [negb assert_ bind]. rewrite Ep. cbn [bind].
    set (gnodes := upd n (set_val r) gst) in *. set (pnodes := upd n (set_val r) pst) in *.
    destruct Hwf' as (Hnd' & Hch' & _).
    assert (Hchain : chain gnodes f (l1 ++ (n, r) :: l2)).
    { assert (En' : ms_nodes ms' = gnodes).
      { revert E. clear. intros E.
        match type of E with bind ?m _ = _ => destruct m as [[? ?]|]; [|discriminate] end. cbn [bind] in E.
        match type of E with bind ?m _ = _ => destruct m as [[? ?]|]; [|discriminate] end. cbn [bind] in E.
        injection E as <-. reflexivity. }
      rewrite <- En'. apply Hch'. unfold segs'. apply in_elt. }
    assert (Hsegcount : forall p, p <> (a, b) -> pair_count (corpus_of segs) p =
       zsum (map snd (junc f (last_opt l1) (Some (n, a)) p)) + zsum (map snd (junc f (Some (m, b)) (hd_error l2) p))
       + zsum (map snd (base S1 S2 l1 l2 f p))).
    { intros p Hpne. rewrite occ_count. pose proof (zsum_perm _ _ (Permutation_map snd (occ_before S1 S2 l1 l2 n m a b f p))) as EB.
      change (zsum (map snd (occ segs p)) = zsum (map snd (junc f (last_opt l1) (Some (n, a)) p ++ junc f (Some (m, b)) (hd_error l2) p ++ junc f (Some (n, a)) (Some (m, b)) p ++ base S1 S2 l1 l2 f p))) in EB.
      rewrite EB, !map_app, !zsum_app.
      assert (Ej : junc f (Some (n, a)) (Some (m, b)) p = []).
      { cbn [junc snd]. destruct (pair_eqb (a, b) p) eqn:Eq; [apply pair_eqb_eq in Eq; congruence|reflexivity]. }
      rewrite Ej. cbn [map]. change (zsum []) with 0. lia. }
    (* the left neighbour *)
    assert (HX : exists ixs1 deltas1 bi1,
      match option_map fst (last_opt l1) with
      | Some x => bind (match nth_error gnodes x with Some n0 => Ok n0 | None => Raise OtherError end)
         (fun xd => let deltas := dadd pair_eqb (n_val xd, a) (- n_freq xd) (ms_deltas ms) in
            bind (ixs_remove (n_val xd, a) x (ms_ixs ms))
             (fun ixs => Ok (ixs_add (n_val xd, r) x ixs, dadd pair_eqb (n_val xd, r) (n_freq xd) deltas)))
      | None => Ok (ms_ixs ms, ms_deltas ms)
      end = Ok (ixs1, deltas1) /\
      match option_map fst (last_opt l1) with
      | Some x => bind (match nth_error pnodes x with Some n0 => Ok n0 | None => Raise OtherError end)
         (fun xd => pp_side (n_val xd, a) (n_val xd, r) (n_freq xd) x x (pp_bi ps, pp_ixs ps))
      | None => Ok (pp_bi ps, pp_ixs ps)
      end = Ok (bi1, ixs1) /\ NoDup (dkeys bi1) /\
      (forall p, dcount p bi1 = dcount p (pp_bi ps) + dcount p deltas1 - dcount p (ms_deltas ms)) /\
      (forall p, dcount p bi1 = dcount p (pp_bi ps) + zsum (map snd (junc f (last_opt l1) (Some (n, r)) p)) - zsum (map snd (junc f (last_opt l1) (Some (n, a)) p))) /\
      (forall y l, l2 = y :: l -> In m (pget (b, snd y) ixs1)) /\ dcount (a, b) bi1 = 0).
    { destruct (last_opt l1) as [[x xv]|] eqn:El; cbn [option_map fst].
      - pose proof El as El'. apply last_opt_some in El'. destruct El' as (l1' & El').
        assert (Hxs : In x (ids segs')).
        { unfold segs'. rewrite ids_after. right. apply in_app_iff. left. rewrite El', map_app, in_app_iff. right. left. reflexivity. }
        assert (Hxm : x <> m).
        { intros ->. apply Hm. apply in_app_iff. left. rewrite El', map_app, in_app_iff. right. left. reflexivity. }
        assert (Ex : nth_error gnodes x = Some (MkNode xv (option_map fst (last_opt l1')) (Some n) f)).
        { pose proof (Hchain l1' (x, xv) ((n, r) :: l2)) as Hc. cbn [fst snd hd_error option_map] in Hc. apply Hc. rewrite El', <- app_assoc. reflexivity. }
        cbn [option_map fst] in E. rewrite Ex in E. rewrite (Hagree x Hxs), Ex. cbn [bind n_val n_freq] in E |- *.
        assert (Hne : (xv, a) <> (a, b)) by (apply (Hxa (x, xv)); reflexivity).
        assert (Hcnt : f <= dcount (xv, a) (pp_bi ps)).
        { rewrite (Hbi _ Hne), (Hsegcount _ Hne), junc_sum. cbn [snd]. unfold pind at 1. rewrite pair_eqb_refl.
          specialize (Hbase (xv, a)). destruct (hd_error l2) as [y|]; [rewrite junc_sum; unfold pind; destruct (pair_eqb _ _); lia|].
          cbn [junc map]. change (zsum []) with 0. lia. }
        assert (Hmem : In x (pget (xv, a) (ms_ixs ms))).
        { rewrite (Hixs _ Hne). unfold segs. rewrite (Permutation_map fst (occ_before S1 S2 l1 l2 n m a b f (xv, a))), El, map_app, in_app_iff.
          left. cbn [junc snd]. rewrite pair_eqb_refl. left. reflexivity. }
        destruct (ixs_remove (xv, a) x (ms_ixs ms)) as [ixs'|] eqn:Er; [|discriminate]. cbn [bind] in *.
        rewrite Hix. destruct (pp_side_ok (xv, a) (xv, r) f x x (pp_bi ps) (ms_ixs ms) ixs' Hf Hcnt Hmem Er Hkb) as (bi1 & Es & Hk1 & Hd1).
        rewrite Es. do 3 eexists. split; [reflexivity|]. split; [reflexivity|]. split; [exact Hk1|]. split; [|split; [|split]].
        + intros p. rewrite Hd1, !dcount_dadd. unfold pind. destruct (pair_eqb p (xv, r)), (pair_eqb p (xv, a)); lia.
        + intros p. rewrite Hd1, !junc_sum. cbn [snd]. reflexivity.
        + intros y l Ey. apply (pget_kept (b, snd y) m (xv, a) (xv, r) x (ms_ixs ms) ixs'); [congruence| |exact Er].
          assert (Hne2 : (b, snd y) <> (a, b)) by (apply (Hby y); rewrite Ey; reflexivity).
          rewrite (Hixs _ Hne2). unfold segs. rewrite (Permutation_map fst (occ_before S1 S2 l1 l2 n m a b f (b, snd y))), !map_app, !in_app_iff.
          right. left. rewrite Ey. cbn [hd_error junc snd]. rewrite pair_eqb_refl. left. reflexivity.
        + rewrite Hd1, Hab0. unfold pind. rewrite (proj2 (pair_eqb_neq (a, b) (xv, a))) by congruence.
          rewrite (proj2 (pair_eqb_neq (a, b) (xv, r))) by congruence. lia.
      - do 3 eexists. split; [reflexivity|]. rewrite Hix. split; [reflexivity|]. split; [exact Hkb|]. split; [intros p; lia|].
        split; [intros p; cbn [junc map]; change (zsum []) with 0; lia|].
        split; [|exact Hab0]. intros y l Ey. assert (Hne2 : (b, snd y) <> (a, b)) by (apply (Hby y); rewrite Ey; reflexivity).
        rewrite (Hixs _ Hne2). unfold segs. rewrite (Permutation_map fst (occ_before S1 S2 l1 l2 n m a b f (b, snd y))), !map_app, !in_app_iff.
        right. left. rewrite Ey. cbn [hd_error junc snd]. rewrite pair_eqb_refl. left. reflexivity. }
    destruct HX as (ixs1 & deltas1 & bi1 & EX & PX & Hk1 & Hd1 & Hj1 & Hmem & Hab1). cbv zeta in EX, E. rewrite EX in E. cbn [bind] in E. rewrite PX. cbn [bind].
    (* the right neighbour *)
    assert (HY : exists ixs2 deltas2 bi2,
      match option_map fst (hd_error l2) with
      | Some y => bind (match nth_error gnodes y with Some n0 => Ok n0 | None => Raise OtherError end)
         (fun yd => bind (ixs_remove (b, n_val yd) m ixs1)
             (fun ixs => Ok (ixs_add (r, n_val yd) n ixs, dadd pair_eqb (r, n_val yd) f (dadd pair_eqb (b, n_val yd) (- f) deltas1))))
      | None => Ok (ixs1, deltas1)
      end = Ok (ixs2, deltas2) /\
      match option_map fst (hd_error l2) with
      | Some y => bind (match nth_error pnodes y with Some n0 => Ok n0 | None => Raise OtherError end)
         (fun yd => pp_side (b, n_val yd) (r, n_val yd) f m n (bi1, ixs1))
      | None => Ok (bi1, ixs1)
      end = Ok (bi2, ixs2) /\ NoDup (dkeys bi2) /\
      (forall p, dcount p bi2 = dcount p bi1 + dcount p deltas2 - dcount p deltas1) /\ dcount (a, b) bi2 = 0).
    { destruct l2 as [|[y yv] l2'] eqn:El; cbn [hd_error option_map fst].
      - do 3 eexists. split; [reflexivity|]. split; [reflexivity|]. split; [exact Hk1|]. split; [intros p; lia|exact Hab1].
      - assert (Hys : In y (ids segs')).
        { unfold segs'. rewrite ids_after. right. apply in_app_iff. right. left. reflexivity. }
        assert (Ey : exists lf, nth_error gnodes y = Some (MkNode yv lf (option_map fst (hd_error l2')) f)).
        { eexists. apply (Hchain (l1 ++ [(n, r)]) (y, yv) l2'). rewrite <- app_assoc. reflexivity. }
        destruct Ey as (lf & Ey). rewrite (Hagree y Hys), Ey in *. cbn [hd_error option_map fst bind n_val n_freq] in *. rewrite Ey in E. cbn [bind n_val] in E.
        assert (Hne : (b, yv) <> (a, b)) by (apply (Hby (y, yv)); reflexivity).
        assert (Hcnt : f <= dcount (b, yv) bi1).
        { rewrite (Hj1 (b, yv)), (Hbi _ Hne), (Hsegcount _ Hne), junc_sum. cbn [snd]. unfold pind. rewrite pair_eqb_refl.
          specialize (Hbase (b, yv)).
          assert (H0 : 0 <= zsum (map snd (junc f (last_opt l1) (Some (n, r)) (b, yv)))).
          { destruct (last_opt l1) as [x|]; [rewrite junc_sum; unfold pind; destruct (pair_eqb _ _); lia|cbn; lia]. }
          lia. }
        specialize (Hmem (y, yv) l2' eq_refl). cbn [snd] in Hmem.
        destruct (ixs_remove (b, yv) m ixs1) as [ixs'|] eqn:Er; [|discriminate]. cbn [bind] in *.
        destruct (pp_side_ok (b, yv) (r, yv) f m n bi1 ixs1 ixs' Hf Hcnt Hmem Er Hk1) as (bi2 & Es & Hk2 & Hd2).
        rewrite Es. do 3 eexists. split; [reflexivity|]. split; [reflexivity|]. split; [exact Hk2|]. split.
        + intros p. rewrite Hd2, !dcount_dadd. unfold pind. destruct (pair_eqb p (r, yv)), (pair_eqb p (b, yv)); lia.
        + rewrite Hd2, Hab1. unfold pind. rewrite (proj2 (pair_eqb_neq (a, b) (b, yv))) by congruence.
          rewrite (proj2 (pair_eqb_neq (a, b) (r, yv))) by congruence. lia. }
    destruct HY as (ixs2 & deltas2 & bi2 & EY & PY & Hk2 & Hd2 & Hab2). rewrite EY in E. cbn [bind] in E. rewrite PY. cbn [bind].
    injection E as <-. eexists. split; [reflexivity|]. cbn [ms_uni pp_uni pp_vocab]. split; [|auto].
    assert (Hcount : forall p, p <> (a, b) -> dcount p bi2 = pair_count (corpus_of segs') p).
    { intros p Hpne. rewrite Hd2, Hd1, (Hbi p Hpne). pose proof (Hdelta p Hpne) as D1. pose proof (Hdelta' p Hpne) as D2.
      cbn [ms_deltas] in D2. fold segs in D1. fold segs' in D2. lia. }
    constructor; cbn [pp_nodes pp_ixs pp_bi ms_nodes ms_ixs].
    - exact Hagree.
    - reflexivity.
    - exact Hcount.
    - exact Hab2.
    - exact Hk2.
  Qed.
End Node.

(** ** All nodes of a pair *)
(** No occurrence of the pair overlaps another one. *)
Definition apart (a b : Z) (segs : list seg) : Prop := a = b -> ~ thrice a (corpus_of segs).

Lemma apart_left a b S1 S2 (l1 l2 : list (nat * Z)) n m f x : apart a b (S1 ++ (l1 ++ (n, a) :: (m, b) :: l2, f) :: S2) ->
  last_opt l1 = Some x -> (snd x, a) <> (a, b).
Proof.
  intros Ha El E. injection E as Ex Eb. apply last_opt_some in El. destruct El as (l & ->).
  apply (Ha Eb). exists (map snd ((l ++ [x]) ++ (n, a) :: (m, b) :: l2)), f. split.
  - apply corpus_of_in. eexists. split; [apply in_elt|reflexivity].
  - exists (map snd l), (map snd l2). rewrite <- app_assoc, map_app. cbn [app map snd]. rewrite Ex, <- Eb. reflexivity.
Qed.
Lemma apart_right a b S1 S2 (l1 l2 : list (nat * Z)) n m f y : apart a b (S1 ++ (l1 ++ (n, a) :: (m, b) :: l2, f) :: S2) ->
  hd_error l2 = Some y -> (b, snd y) <> (a, b).
Proof.
  intros Ha El E. injection E as Eb Ey. destruct l2 as [|y' l2']; [discriminate|]. cbn [hd_error] in El. injection El as ->.
  symmetry in Eb. apply (Ha Eb). exists (map snd (l1 ++ (n, a) :: (m, b) :: y :: l2')), f. split.
  - apply corpus_of_in. eexists. split; [apply in_elt|reflexivity].
  - exists (map snd l1), (map snd l2'). rewrite map_app. cbn [map snd]. rewrite Ey, <- Eb. reflexivity.
Qed.
Lemma apart_step a b r S1 S2 (l1 l2 : list (nat * Z)) n m f : a <> r -> apart a b (S1 ++ (l1 ++ (n, a) :: (m, b) :: l2, f) :: S2) ->
  apart a b (S1 ++ (l1 ++ (n, r) :: l2, f) :: S2).
Proof.
  intros Har Ha Eb (s & g & Hin & k1 & k2 & Es). apply corpus_of_in in Hin. destruct Hin as (t & Hin & Et).
  apply in_app_iff in Hin. destruct Hin as [Hin|[Hin|Hin]].
  - apply (Ha Eb). exists s, g. split; [apply corpus_of_in; exists t; split; [apply in_app_iff; left; exact Hin|exact Et]|]. exists k1, k2. exact Es.
  - injection Hin as <- <-. apply (Ha Eb). exists (map snd (l1 ++ (n, a) :: (m, b) :: l2)), f.
    split; [apply corpus_of_in; eexists; split; [apply in_elt|reflexivity]|].
    rewrite Et, map_app in Es. cbn [map snd] in Es. unfold run_of_three. rewrite map_app. cbn [map snd].
    destruct (app_mid_inv _ _ _ _ _ _ Es) as [(k' & E1 & E2)|[(_ & E2 & _)|(k' & E1 & E2)]].
    + destruct k' as [|z k']; [cbn [app] in E2; congruence|]. destruct k' as [|w k']; [cbn [app] in E2; congruence|].
      cbn [app] in E2. injection E2 as E3 E4 _. subst z w. rewrite E1.
      exists k1, (k' ++ a :: b :: map snd l2). rewrite <- app_assoc. reflexivity.
    + congruence.
    + rewrite E2. exists (map snd l1 ++ a :: b :: k'), k2. rewrite <- app_assoc. reflexivity.
  - apply (Ha Eb). exists s, g. split; [apply corpus_of_in; exists t; split; [apply in_app_iff; right; right; exact Hin|exact Et]|]. exists k1, k2. exact Es.
Qed.

Lemma pp_nodes_ok a b r segs0 pend : a <> r -> b <> r -> (forall s f, In (s, f) segs0 -> 0 < f) -> forall ms ps segs,
  inner a b r segs0 pend ms segs -> sim a b ps ms segs -> apart a b segs ->
  Permutation pend (map fst (occ segs (a, b))) ->
  exists ms' ps' segs', foldM (merge_node a b r) pend ms = Ok ms' /\ foldM (pp_merge_node a b r) pend ps = Ok ps' /\
    inner a b r segs0 [] ms' segs' /\ sim a b ps' ms' segs' /\
    ms_uni ms' = ms_uni ms /\ pp_uni ps' = pp_uni ps /\ pp_vocab ps' = pp_vocab ps.
Proof.
  intros Har Hbr Hpos. induction pend as [|n pend IH]; intros ms ps segs HI HS Ha Hperm; cbn [foldM].
  - exists ms, ps, segs. auto 10.
  - assert (Hn : In n (map fst (occ segs (a, b)))) by (rewrite <- Hperm; left; reflexivity).
    apply in_map_iff in Hn. destruct Hn as ([n' f] & En & Hn). cbn [fst] in En. subst n'.
    apply In_occ in Hn. cbn [fst snd] in Hn. destruct Hn as (l1 & m & l2 & Hin).
    apply in_split in Hin. destruct Hin as (S1 & S2 & ->).
    pose proof (apart_left a b S1 S2 l1 l2 n m f) as Hl. pose proof (apart_right a b S1 S2 l1 l2 n m f) as Hr.
    destruct (pp_step a b r segs0 n pend ms ps Har Hbr Hpos S1 S2 l1 l2 m f HI HS (fun x => Hl x Ha) (fun y => Hr y Ha))
      as (ms1 & ps1 & E1 & P1 & HI1 & HS1 & U1 & U2 & V1).
    rewrite E1, P1.
    assert (Hperm' : Permutation pend (map fst (occ (S1 ++ (l1 ++ (n, r) :: l2, f) :: S2) (a, b)))).
    { rewrite (Permutation_map fst (occ_after S1 S2 l1 l2 n r f (a, b))), !map_app.
      rewrite (Permutation_map fst (occ_before S1 S2 l1 l2 n m a b f (a, b))), !map_app in Hperm.
      assert (J1 : junc f (last_opt l1) (Some (n, a)) (a, b) = []).
      { destruct (last_opt l1) as [x|] eqn:El; [|reflexivity]. cbn [junc snd]. specialize (Hl x Ha eq_refl).
        destruct (pair_eqb (snd x, a) (a, b)) eqn:Eq; [apply pair_eqb_eq in Eq; contradiction|reflexivity]. }
      assert (J2 : junc f (Some (m, b)) (hd_error l2) (a, b) = []).
      { destruct (hd_error l2) as [y|] eqn:El; [|reflexivity]. cbn [junc snd]. specialize (Hr y Ha eq_refl).
        destruct (pair_eqb (b, snd y) (a, b)) eqn:Eq; [apply pair_eqb_eq in Eq; contradiction|reflexivity]. }
      assert (J3 : junc f (Some (n, r)) (hd_error l2) (a, b) = []).
      { destruct (hd_error l2) as [y|]; [|reflexivity]. cbn [junc snd].
        destruct (pair_eqb (r, snd y) (a, b)) eqn:Eq; [apply pair_eqb_eq in Eq; congruence|reflexivity]. }
      assert (J4 : junc f (last_opt l1) (Some (n, r)) (a, b) = []).
      { destruct (last_opt l1) as [x|]; [|reflexivity]. cbn [junc snd].
        destruct (pair_eqb (snd x, r) (a, b)) eqn:Eq; [apply pair_eqb_eq in Eq; congruence|reflexivity]. }
      rewrite J1, J2 in Hperm. rewrite J3, J4. cbn [junc snd] in Hperm. rewrite pair_eqb_refl in Hperm. cbn [map app fst] in Hperm |- *.
      apply Permutation_cons_inv in Hperm. exact Hperm. }
    destruct (IH ms1 ps1 _ HI1 HS1 (apart_step a b r S1 S2 l1 l2 n m f Har Ha) Hperm')
      as (ms' & ps' & segs' & E' & P' & HI' & HS' & U1' & U2' & V').
    exists ms', ps', segs'. split; [exact E'|]. split; [exact P'|]. split; [exact HI'|]. split; [exact HS'|].
    split; [congruence|]. split; congruence.
Qed.

(** ** One merge *)
Record pouter (st : ppstate) (segs : list seg) : Prop := MkPouter {
  po_core : exists gn, core gn (pp_uni st) (pp_ixs st) (Z.of_nat (length (pp_vocab st))) segs /\ agree (pp_nodes st) gn segs;
  po_bi : forall p, dcount p (pp_bi st) = pair_count (corpus_of segs) p;
  po_keys : NoDup (dkeys (pp_bi st)) }.

Lemma pp_merge_ok order level a b pf st segs :
  let k := Z.of_nat (length (pp_vocab st)) in
  (forall l, Permutation (order l) l) -> pouter st segs -> in_range k (a, b) ->
  pair_count (corpus_of segs) (a, b) = pf -> 0 < pf -> apart a b segs ->
  exists st' segs' ta tb, pp_merge_pair order level a b pf st = Ok st' /\ pouter st' segs' /\
    merged_corpus a b k (corpus_of segs) (corpus_of segs') /\
    nth_error (pp_vocab st) (Z.to_nat a) = Some ta /\ nth_error (pp_vocab st) (Z.to_nat b) = Some tb /\
    pp_vocab st' = pp_vocab st ++ [MkType (t_name ta ++ t_name tb) level k pf (Some [ta; tb])].
Proof.
  intros k Hord [(gn & Hcore & Hag) Hbi Hkb] Hr Hc Hpf Hap.
  destruct (inner_start _ _ _ _ _ order a b Hcore Hr ltac:(lia) Hord) as (un & Eu & HI).
  pose proof Hcore as [Hwf Hixs Hknd Huni Hpos Hrange]. fold k in Hrange, HI.
  assert (Hak : 0 <= a < k) by apply Hr. assert (Hbk : 0 <= b < k) by apply Hr.
  assert (Hnak : a <> k) by lia. assert (Hnbk : b <> k) by lia.
  destruct (py_nth_some (pp_vocab st) a Hak) as (ta & Ea & Ea').
  destruct (py_nth_some (pp_vocab st) b Hbk) as (tb & Eb & Eb').
  rewrite Hc in HI.
  set (uni := dadd Z.eqb b (- pf) (dadd Z.eqb a (- pf) (dset Z.eqb k pf (pp_uni st)))) in *.
  set (vocab' := pp_vocab st ++ [MkType (t_name ta ++ t_name tb) level k pf (Some [ta; tb])]).
  set (ms0 := MkMS gn uni (ddel pair_eqb (a, b) (pp_ixs st)) []) in *.
  set (ps0 := MkPP (pp_nodes st) uni (ddel pair_eqb (a, b) (pp_bi st)) (ddel pair_eqb (a, b) (pp_ixs st)) vocab').
  assert (HS : sim a b ps0 ms0 segs).
  { constructor; cbn [ps0 ms0 pp_nodes pp_ixs pp_bi ms_nodes ms_ixs].
    - exact Hag.
    - reflexivity.
    - intros p Hp. unfold dget_def. rewrite (dget_ddel pair_eqb pair_eqb_eq) by exact Hkb.
      rewrite (proj2 (pair_eqb_neq p (a, b)) Hp). apply Hbi.
    - unfold dget_def. rewrite (dget_ddel pair_eqb pair_eqb_eq) by exact Hkb. rewrite pair_eqb_refl. reflexivity.
    - apply NoDup_ddel, Hkb. }
  assert (Hperm : Permutation (order un) (map fst (occ segs (a, b)))).
  { rewrite Hord. pose proof (Hixs (a, b)) as H. unfold dget_def in H. rewrite Eu in H. exact H. }
  destruct (pp_nodes_ok a b k segs (order un) Hnak Hnbk (segs_pos segs Hpos) ms0 ps0 segs HI HS Hap Hperm)
    as (ms' & ps' & segs' & Em & Ep & HI' & HS' & U1 & U2 & V').
  destruct (merge_nodes_ok a b k segs (order un) Hnak Hnbk (segs_pos segs Hpos) _ segs HI) as (ms2 & segs2 & Em2 & _ & Hknd').
  { cbn [ms0 ms_ixs]. apply NoDup_ddel, Hknd. }
  rewrite Em in Em2. assert (ms2 = ms') by congruence. subst ms2. clear Em2 segs2.
  destruct HI' as [Hwf' Hixs' Hab' _ Hall' _ Hkeys Hdelta Hdneg Huni' Hrep].
  assert (Hocc : occ segs' (a, b) = []).
  { destruct (occ segs' (a, b)) as [|[n f] l] eqn:E; [reflexivity|]. destruct (Hall' n f (or_introl eq_refl)). }
  assert (Hcnt0 : pair_count (corpus_of segs') (a, b) = 0) by (rewrite occ_count, Hocc; reflexivity).
  assert (Huni2 : forall c, ucount c uni = symbol_count (corpus_of segs') c).
  { intros c. pose proof (Huni' c) as H. rewrite U1 in H. cbn [ms0 ms_uni] in H. rewrite H. unfold psum. cbn [map]. change (zsum []) with 0. lia. }
  assert (Hpos' : positive (corpus_of segs')).
  { intros s f Hin. apply corpus_of_in in Hin. destruct Hin as (t & Hin & ->).
    exact (segs_freq_pos a b k segs segs' (segs_pos segs Hpos) Hrep t f Hin). }
  assert (Hrange' : symbols_below (k + 1) (corpus_of segs')).
  { intros s f Hin x Hx. apply corpus_of_in in Hin. destruct Hin as (t & Hin & ->). clear - Hin Hrep Hrange Hx Hak.
    induction Hrep as [|[t0 f0] [t1 f1] s0 s1 [E Hrp] _ IH]; [destruct Hin|]. cbn [fst snd] in *. subst f1. destruct Hin as [E|Hin].
    - injection E as <- <-. destruct (replaced_in _ _ _ _ _ Hrp x Hx) as [H| ->]; [|lia].
      specialize (Hrange (map snd t0) f0 (or_introl eq_refl) x H). lia.
    - apply IH; [|exact Hin]. intros s f' H. apply (Hrange s f'). right. exact H. }
  exists ps', segs', ta, tb. split; [|split; [|split; [|split; [exact Ea'|split; [exact Eb'|rewrite V'; reflexivity]]]]].
  - unfold pp_merge_pair. cbv zeta. fold k. rewrite Ea, Eb. cbn [bind]. fold vocab'. fold uni. rewrite (Huni2 a), (Huni2 b).
    pose proof (symbol_count_nonneg _ a Hpos') as Hsa. pose proof (symbol_count_nonneg _ b Hpos') as Hsb.
    rewrite !Z.geb_leb, (proj2 (Z.leb_le 0 _) Hsa), (proj2 (Z.leb_le 0 _) Hsb). cbn [assert_ bind]. rewrite Eu. exact Ep.
  - destruct HS' as [Hag' Hix' Hbi' Hab0 Hkb']. constructor.
    + exists (ms_nodes ms'). split; [|exact Hag'].
      rewrite V'. cbn [ps0 pp_vocab]. unfold vocab'. rewrite app_length. cbn [length].
      replace (Z.of_nat (length (pp_vocab st) + 1)) with (k + 1) by (unfold k; lia). rewrite U2. cbn [ps0 pp_uni]. rewrite Hix'.
      constructor; [exact Hwf'| |exact Hknd'|exact Huni2|exact Hpos'|exact Hrange'].
      intros p. destruct (pair_dec p (a, b)) as [->|Hne]; [|apply Hixs', Hne].
      unfold dget_def. rewrite Hab', Hocc. constructor.
    + intros p. destruct (pair_dec p (a, b)) as [->|Hne]; [rewrite Hcnt0; exact Hab0|apply Hbi', Hne].
    + exact Hkb'.
  - unfold merged_corpus, corpus_of. assert (Hadj := occ_nil_adjacent segs' (a, b) Hocc). clear - Hrep Hadj.
    induction Hrep as [|[t0 f0] [t1 f1] s0 s1 [E Hrp] _ IH]; [constructor|]. cbn [map fst snd] in *. subst f1. constructor.
    + cbn [fst snd]. split; [reflexivity|]. split; [exact Hrp|]. apply (Hadj _ f0). left. reflexivity.
    + apply IH. intros s f H. apply (Hadj s f). right. exact H.
Qed.

(** ** The loop *)
Lemma max_key_spec d : forall e, let m := max_key e d in (m = e \/ In m d) /\ snd e <= snd m /\ forall x, In x d -> snd x <= snd m.
Proof.
  induction d as [|x d IH]; intros e; cbn [max_key].
  - split; [auto|]. split; [lia|]. intros x [].
  - destruct (Z.ltb_spec (snd e) (snd x)) as [H|H].
    + destruct (IH x) as ([H1|H1] & H2 & H3); (split; [|split]).
      * right. left. congruence.
      * lia.
      * intros y [<-|Hy]; [exact H2|apply H3, Hy].
      * right. right. exact H1.
      * lia.
      * intros y [<-|Hy]; [exact H2|apply H3, Hy].
    + destruct (IH e) as ([H1|H1] & H2 & H3); (split; [|split]); auto.
      * intros y [<-|Hy]; [lia|apply H3, Hy].
      * right. right. exact H1.
      * intros y [<-|Hy]; [lia|apply H3, Hy].
Qed.

Lemma thrice_dec a c : {thrice a c} + {~ thrice a c}.
Proof.
  assert (Hs : forall s, {run_of_three a s} + {~ run_of_three a s}).
  { induction s as [|x s [IH|IH]].
    - right. intros ([|? ?] & l2 & E); discriminate.
    - left. destruct IH as (l1 & l2 & ->). exists (x :: l1), l2. reflexivity.
    - destruct s as [|y [|z s]].
      + right. intros ([|? [|? ?]] & l2 & E); discriminate.
      + right. intros ([|? [|? [|? ?]]] & l2 & E); discriminate.
      + destruct (Z.eq_dec x a) as [->|N]; [|right; intros ([|? l1] & l2 & E); cbn [app] in E; injection E as E1 E2; [congruence|apply IH; exists l1, l2; congruence]].
        destruct (Z.eq_dec y a) as [->|N]; [|right; intros ([|? l1] & l2 & E); cbn [app] in E; injection E as E1 E2; [congruence|apply IH; exists l1, l2; congruence]].
        destruct (Z.eq_dec z a) as [->|N]; [left; exists [], s; reflexivity|right; intros ([|? l1] & l2 & E); cbn [app] in E; injection E as E1 E2; [congruence|apply IH; exists l1, l2; congruence]]. }
  induction c as [|[s f] c [IH|IH]].
  - right. intros (s & f & [] & _).
  - left. destruct IH as (s' & f' & H & Hr). exists s', f'. split; [right; exact H|exact Hr].
  - destruct (Hs s) as [H|H]; [left; exists s, f; split; [left; reflexivity|exact H]|].
    right. intros (s' & f' & [E|Hin] & Hr); [injection E as <- <-; contradiction|]. apply IH. exists s', f'. auto.
Defined.

Lemma pp_loop_refines orders min_co level : iteration_orders orders -> 1 <= min_co -> forall n i st segs, pouter st segs ->
  pp_bpe min_co level n (corpus_of segs) (pp_vocab st)
    (match pp_learn_loop n orders i min_co level st with Ok st' => Ok (pp_vocab st') | Raise e => Raise e end).
Proof.
  intros Hord Hmc. induction n as [|n IH]; intros i st segs HO; cbn [pp_learn_loop]; [constructor|].
  pose proof HO as [(gn & Hcore & Hag) Hbi Hkb]. pose proof (c_pos _ _ _ _ _ Hcore) as Hpos.
  destruct (pp_bi st) as [|e d] eqn:Ebi; cbn [py_max_key bind].
  { apply pb_none; [|auto]. intros p. rewrite <- Hbi. reflexivity. }
  destruct (max_key_spec d e) as (Hin & He & Hd). destruct (max_key e d) as [[a b] f] eqn:Em. cbn [fst snd] in *.
  assert (Hin' : In ((a, b), f) (e :: d)) by (destruct Hin as [->|Hin]; [left; reflexivity|right; exact Hin]).
  assert (Hc : pair_count (corpus_of segs) (a, b) = f).
  { rewrite <- Hbi. unfold dget_def. rewrite (In_dget pair_eqb pair_eqb_eq (a, b) f); [reflexivity|exact Hkb|exact Hin']. }
  assert (Hle : forall q, pair_count (corpus_of segs) q <= f).
  { intros q. rewrite <- Hbi. unfold dget_def. destruct (dget pair_eqb q (e :: d)) as [v|] eqn:Eq.
    - apply (dget_In pair_eqb pair_eqb_eq) in Eq. destruct Eq as [->|Eq]; [exact He|exact (Hd _ Eq)].
    - rewrite <- Hc. apply pair_count_nonneg, Hpos. }
  pose proof (pair_count_nonneg _ (a, b) Hpos) as Hnn.
  destruct (Z.ltb_spec f min_co) as [Hrare|Hfreq].
  - destruct (Z.eq_dec f 0) as [->|Hf0].
    + apply pb_none; [|auto]. intros p. pose proof (pair_count_nonneg _ p Hpos). specialize (Hle p). lia.
    + eapply pb_rare; [|exact Hrare]. split; [exact Hc|]. split; [lia|exact Hle].
  - assert (Htop : top (corpus_of segs) (a, b) f) by (split; [exact Hc|split; [lia|exact Hle]]).
    assert (Hdec : apart a b segs \/ (a = b /\ thrice a (corpus_of segs))).
    { destruct (Z.eq_dec a b) as [E|E]; [|left; intros E'; contradiction].
      destruct (thrice_dec a (corpus_of segs)) as [H|H]; [right; auto|left; intros _; exact H]. }
    destruct Hdec as [Hap|[Eb Ht]]; [|subst b; eapply pb_thrice; eassumption].
    assert (Hr : in_range (Z.of_nat (length (pp_vocab st))) (a, b)).
    { apply (pair_count_range _ (corpus_of segs)); [apply (c_range _ _ _ _ _ Hcore)|lia]. }
    assert (HO' : pouter st segs) by (constructor; [exists gn; auto|rewrite Ebi; exact Hbi|rewrite Ebi; exact Hkb]).
    destruct (pp_merge_ok (orders i) level a b f st segs (Hord i) HO' Hr Hc ltac:(lia) Hap)
      as (st' & segs' & ta & tb & Emm & HO2 & Hm & Eta & Etb & Ev).
    rewrite Emm. cbn [bind]. specialize (IH (S i) st' segs' HO2). rewrite Ev in IH.
    eapply pb_merge; try eassumption; apply Hr.
Qed.
