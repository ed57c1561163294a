(** The outer loop of the BPE learner: every round is one textbook merge. *)
From Coq Require Import Strings.String.
From Verif Require Import Py PyLemmas PyStr CodecModel CodecSpec LearnModel HeapModel HeapProofs BpeSpec LearnBpeModel LearnBpeProofs.
Local Open Scope Z_scope.
Local Open Scope list_scope.

(** ** Corpora *)
Lemma zsum_nonneg l : (forall x, In x l -> 0 <= x) -> 0 <= zsum l.
Proof.
  induction l as [|x l IH]; intros H; [cbn; lia|]. rewrite zsum_cons. pose proof (H x (or_introl eq_refl)).
  specialize (IH (fun y Hy => H y (or_intror Hy))). lia.
Qed.
Lemma pair_count_nonneg c p : positive c -> 0 <= pair_count c p.
Proof.
  intros H. apply zsum_nonneg. intros x Hx. apply in_map_iff in Hx. destruct Hx as ([s f] & <- & Hin). cbn [fst snd].
  specialize (H s f Hin). nia.
Qed.
Lemma symbol_count_nonneg c p : positive c -> 0 <= symbol_count c p.
Proof.
  intros H. apply zsum_nonneg. intros x Hx. apply in_map_iff in Hx. destruct Hx as ([s f] & <- & Hin). cbn [fst snd].
  specialize (H s f Hin). nia.
Qed.
Lemma pair_count_zero c p : (forall s f, In (s, f) c -> ~ In p (adjacent s)) -> pair_count c p = 0.
Proof.
  unfold pair_count. induction c as [|[s f] c IH]; intros H; [reflexivity|]. cbn [map fst snd]. rewrite zsum_cons, IH.
  - rewrite (proj1 (count_occ_not_In pair_dec _ _) (H s f (or_introl eq_refl))). lia.
  - intros s' f' Hin. apply (H s' f'). right. exact Hin.
Qed.
Lemma pair_count_zero_inv c p : positive c -> pair_count c p = 0 -> forall s f, In (s, f) c -> ~ In p (adjacent s).
Proof.
  unfold pair_count. induction c as [|[s f] c IH]; intros Hp H0; [intros s f []|]. cbn [map fst snd] in H0. rewrite zsum_cons in H0.
  assert (Hp' : positive c) by (intros s' f' Hin; apply (Hp s' f'); right; exact Hin).
  pose proof (pair_count_nonneg c p Hp') as Hn. unfold pair_count in Hn. pose proof (Hp s f (or_introl eq_refl)) as Hf.
  intros s' f' [E|Hin].
  - injection E as <- <-. intros Hin. apply (count_occ_In pair_dec) in Hin. nia.
  - apply (IH Hp' ltac:(nia) s' f' Hin).
Qed.
Lemma symbol_count_zero c x : (forall s f, In (s, f) c -> ~ In x s) -> symbol_count c x = 0.
Proof.
  unfold symbol_count. induction c as [|[s f] c IH]; intros H; [reflexivity|]. cbn [map fst snd]. rewrite zsum_cons, IH.
  - rewrite (proj1 (count_occ_not_In Z.eq_dec _ _) (H s f (or_introl eq_refl))). lia.
  - intros s' f' Hin. apply (H s' f'). right. exact Hin.
Qed.
Lemma adjacent_in {A} (s : list A) p : In p (adjacent s) -> In (fst p) s /\ In (snd p) s.
Proof.
  unfold adjacent. destruct p as [x y]. intros H. split; [exact (in_combine_l _ _ _ _ H)|].
  apply in_combine_r in H. destruct s; [exact H|right; exact H].
Qed.
Lemma pair_count_range k c p : symbols_below k c -> pair_count c p <> 0 -> in_range k p.
Proof.
  intros Hk Hn. unfold in_range.
  assert (H : exists s f, In (s, f) c /\ In p (adjacent s)).
  { clear Hk. induction c as [|[s f] c IH]; [exfalso; apply Hn; reflexivity|].
    destruct (in_dec pair_dec p (adjacent s)) as [Hin|Hin]; [exists s, f; split; [left; reflexivity|exact Hin]|].
    destruct IH as (s' & f' & H1 & H2).
    - intros E. apply Hn. unfold pair_count in *. cbn [map fst snd]. rewrite zsum_cons, E.
      rewrite (proj1 (count_occ_not_In pair_dec _ _) Hin). lia.
    - exists s', f'. split; [right; exact H1|exact H2]. }
  destruct H as (s & f & H1 & H2). apply adjacent_in in H2. destruct H2 as [Ha Hb].
  split; eapply Hk; eassumption.
Qed.

Lemma corpus_of_in segs s f : In (s, f) (corpus_of segs) <-> exists t, In (t, f) segs /\ s = map snd t.
Proof.
  unfold corpus_of. rewrite in_map_iff. split.
  - intros ([t g] & E & Hin). cbn [fst snd] in E. injection E as <- <-. exists t. auto.
  - intros (t & Hin & ->). exists (t, f). auto.
Qed.

(** ** Replacement *)
Lemma replaced_in a b r s s' : replaced a b r s s' -> forall x, In x s' -> In x s \/ x = r.
Proof.
  induction 1; intros z Hz; [destruct Hz| |]; destruct Hz as [<-|Hz]; auto.
  - left. left. reflexivity.
  - destruct (IHreplaced z Hz); [left; right; assumption|auto].
  - destruct (IHreplaced z Hz); [left; right; right; assumption|auto].
Qed.
Lemma replaced_length a b r s s' : replaced a b r s s' -> (length s' <= length s)%nat /\ (length s' = length s -> s' = s).
Proof.
  induction 1 as [|x s s' _ [IH1 IH2]|s s' _ [IH1 IH2]]; cbn [length]; split; auto; try lia.
  - intros E. rewrite IH2 by lia. reflexivity.
Qed.

Definition rep_segs (a b r : Z) (x y : seg) : Prop := snd x = snd y /\ replaced a b r (map snd (fst x)) (map snd (fst y)).
Lemma ids_length segs : length (ids segs) = list_sum (map (fun sg : seg => length (fst sg)) segs).
Proof.
  unfold ids. induction segs as [|sg segs IH]; [reflexivity|]. cbn [flat_map map list_sum fold_right].
  rewrite app_length, map_length, IH. reflexivity.
Qed.
Lemma rep_segs_length a b r s0 s1 : Forall2 (rep_segs a b r) s0 s1 ->
  (length (ids s1) <= length (ids s0))%nat /\ (length (ids s1) = length (ids s0) -> corpus_of s1 = corpus_of s0).
Proof.
  rewrite !ids_length. induction 1 as [|[t f] [u g] s0 s1 [Hf Hr] _ [IH1 IH2]]; [split; [lia|reflexivity]|].
  cbn [fst snd] in *. subst g. destruct (replaced_length _ _ _ _ _ Hr) as [L1 L2]. rewrite !map_length in *.
  cbn [map list_sum fold_right fst snd corpus_of]. fold (list_sum (map (fun sg : seg => length (fst sg)) s0)).
  fold (list_sum (map (fun sg : seg => length (fst sg)) s1)). split; [lia|]. intros E.
  fold (corpus_of s0) (corpus_of s1). rewrite IH2, L2 by lia. reflexivity.
Qed.

(** ** The invariant of the loop *)
Record core (nodes : list lnode) (uni : list (Z * Z)) (ixs : list ((Z * Z) * list nat)) (k : Z) (segs : list seg) : Prop := MkCore {
  c_wf : wf nodes segs;
  c_ixs : forall p, Permutation (pget p ixs) (map fst (occ segs p));
  c_knd : NoDup (dkeys ixs);
  c_uni : forall c, ucount c uni = symbol_count (corpus_of segs) c;
  c_pos : positive (corpus_of segs);
  c_range : symbols_below k (corpus_of segs) }.
Definition outer (st : lstate) (segs : list seg) : Prop :=
  let k := Z.of_nat (length (ls_vocab st)) in
  core (ls_nodes st) (ls_uni st) (ls_ixs st) k segs /\
  exists bag, hinv (pair_count (corpus_of segs)) k (ls_heap st) (ls_dirty st) bag /\
    forall p, ~ In p (map fst bag) -> pair_count (corpus_of segs) p = 0.

Lemma merge_node_keys a b r ms n ms' : merge_node a b r ms n = Ok ms' ->
  NoDup (dkeys (ms_ixs ms)) -> NoDup (dkeys (ms_ixs ms')).
Proof.
  assert (Hadd : forall p i ixs, NoDup (dkeys ixs) -> NoDup (dkeys (ixs_add p i ixs))).
  { intros p i ixs H. apply NoDup_dset; [apply pair_eqb_eq|exact H]. }
  assert (Hrem : forall p i ixs ixs', ixs_remove p i ixs = Ok ixs' -> NoDup (dkeys ixs) -> NoDup (dkeys ixs')).
  { intros p i ixs ixs'. unfold ixs_remove. destruct (dget pair_eqb p ixs) as [[|z s]|]; intros E H; try (injection E as <-; exact H).
    destruct (set_remove i (z :: s)); [|discriminate]. cbn [bind] in E. injection E as <-. apply NoDup_dset; [apply pair_eqb_eq|exact H]. }
  intros E Hnd. unfold merge_node in E. destruct (node_at (ms_nodes ms) n) as [nd|]; [|discriminate]. cbn [bind] in E. cbv zeta in E.
  destruct (is_unlinked nd); [injection E as <-; exact Hnd|]. destruct (n_right nd) as [bn|]; [|discriminate].
  destruct (node_at (ms_nodes ms) bn) as [bd|]; [|discriminate]. cbn [bind] in E.
  destruct ((a =? b) && ((r =? n_val nd) || (r =? n_val bd))); [injection E as <-; exact Hnd|].
  destruct (assert_ (negb (negb (n_val nd =? a) || negb (n_val bd =? b)))); [|discriminate]. cbn [bind] in E.
  destruct (assert_ (n_freq nd =? n_freq bd)); [|discriminate]. cbn [bind] in E.
  destruct (delete bn (ms_nodes ms)) as [nodes|]; [|discriminate]. cbn [bind] in E.
  match type of E with (bind ?m _) = _ => assert (H1 : forall ixs d, m = Ok (ixs, d) -> NoDup (dkeys ixs)) end.
  { intros ixs d H. destruct (n_left nd) as [x|]; [|injection H as <- <-; exact Hnd].
    destruct (node_at _ x) as [xd|]; [|discriminate]. cbn [bind] in H.
    destruct (ixs_remove (n_val xd, a) x (ms_ixs ms)) as [ixs1|] eqn:Er; [|discriminate]. cbn [bind] in H. injection H as <- <-.
    apply Hadd. eapply Hrem; eassumption. }
  match type of E with (bind ?m _) = _ => destruct m as [[ixs d]|] end; [|discriminate]. specialize (H1 _ _ eq_refl). cbn [bind] in E.
  match type of E with (bind ?m _) = _ => assert (H2 : forall ixs d, m = Ok (ixs, d) -> NoDup (dkeys ixs)) end.
  { intros ixs' d' H. destruct (n_right bd) as [y|]; [|injection H as <- <-; exact H1].
    destruct (node_at _ y) as [yd|]; [|discriminate]. cbn [bind] in H.
    destruct (ixs_remove (b, n_val yd) bn ixs) as [ixs1|] eqn:Er; [|discriminate]. cbn [bind] in H. injection H as <- <-.
    apply Hadd. eapply Hrem; eassumption. }
  match type of E with (bind ?m _) = _ => destruct m as [[ixs' d']|] end; [|discriminate]. specialize (H2 _ _ eq_refl). cbn [bind] in E.
  injection E as <-. exact H2.
Qed.

Lemma merge_nodes_ok a b r segs0 pend : a <> r -> b <> r -> (forall s f, In (s, f) segs0 -> 0 < f) -> forall ms segs,
  inner a b r segs0 pend ms segs -> NoDup (dkeys (ms_ixs ms)) ->
  exists ms' segs', foldM (merge_node a b r) pend ms = Ok ms' /\ inner a b r segs0 [] ms' segs' /\ NoDup (dkeys (ms_ixs ms')).
Proof.
  intros Ha Hb Hpos. induction pend as [|n pend IH]; intros ms segs HI Hnd; cbn [foldM].
  - exists ms, segs. auto.
  - destruct (merge_node_ok a b r segs0 n pend ms Ha Hb Hpos segs HI) as (ms1 & segs1 & E & HI1). rewrite E.
    apply (IH ms1 segs1 HI1). eapply merge_node_keys; eassumption.
Qed.

Lemma psum_occ nodes segs p l : wf nodes segs -> Permutation l (map fst (occ segs p)) ->
  psum nodes l = pair_count (corpus_of segs) p.
Proof.
  intros (_ & Hc & _) Hp. rewrite occ_count. unfold psum. rewrite (zsum_perm _ _ (Permutation_map (freq_at nodes) Hp)).
  rewrite map_map. f_equal. apply map_ext_in. intros [n g] Hin. cbn [fst snd]. apply In_occ in Hin. destruct Hin as (l1 & m & l2 & Hin).
  specialize (Hc _ _ Hin l1 _ _ eq_refl). cbn [fst] in Hc. unfold freq_at. rewrite Hc. reflexivity.
Qed.

Lemma segs_pos segs : positive (corpus_of segs) -> forall s f, In (s, f) segs -> 0 < f.
Proof. intros H s f Hin. apply (H (map snd s) f). apply corpus_of_in. exists s. auto. Qed.

Lemma inner_start nodes uni ixs k segs order a b : core nodes uni ixs k segs -> in_range k (a, b) ->
  0 < pair_count (corpus_of segs) (a, b) -> (forall l, Permutation (order l) l) ->
  exists un, dget pair_eqb (a, b) ixs = Some un /\
    inner a b k segs (order un)
          (MkMS nodes (dadd Z.eqb b (- pair_count (corpus_of segs) (a, b)) (dadd Z.eqb a (- pair_count (corpus_of segs) (a, b))
             (dset Z.eqb k (pair_count (corpus_of segs) (a, b)) uni))) (ddel pair_eqb (a, b) ixs) []) segs.
Proof.
  intros [Hwf Hixs Hknd Huni Hpos Hrange] [Ha Hb] Hpf Hord. cbn [fst snd] in Ha, Hb.
  destruct (dget pair_eqb (a, b) ixs) as [un|] eqn:Eu.
  2:{ exfalso. pose proof (Hixs (a, b)) as H. unfold dget_def in H. rewrite Eu in H. apply Permutation_nil in H.
      rewrite occ_count in Hpf. apply map_eq_nil in H. rewrite H in Hpf. cbn in Hpf. lia. }
  exists un. split; [reflexivity|].
  assert (Hp : Permutation (order un) (map fst (occ segs (a, b)))).
  { rewrite Hord. pose proof (Hixs (a, b)) as H. unfold dget_def in H. rewrite Eu in H. exact H. }
  assert (Hfresh : symbol_count (corpus_of segs) k = 0).
  { apply symbol_count_zero. intros s f Hin Hk. specialize (Hrange s f Hin k Hk). lia. }
  constructor; cbn [ms_nodes ms_ixs ms_deltas ms_uni].
  - exact Hwf.
  - intros p Hne. unfold dget_def. rewrite (dget_ddel pair_eqb pair_eqb_eq) by exact Hknd.
    rewrite (proj2 (pair_eqb_neq p (a, b)) Hne). apply Hixs.
  - rewrite (dget_ddel pair_eqb pair_eqb_eq) by exact Hknd. rewrite pair_eqb_refl. reflexivity.
  - rewrite Hp. apply occ_NoDup. apply Hwf.
  - intros n f Hin. rewrite Hp. apply in_map_iff. exists (n, f). auto.
  - intros n Hin. right. rewrite Hp in Hin. apply in_map_iff in Hin. destruct Hin as ([n' f] & E & Hin). cbn [fst] in E. subst n'.
    apply In_occ in Hin. cbn [fst snd] in Hin. destruct Hin as (l1 & m & l2 & Hin). exists l1, m, b, l2, f. auto.
  - constructor.
  - intros p _. cbn [dget_def dget]. lia.
  - intros p _ _. cbn [dget_def dget]. lia.
  - intros c. rewrite (psum_occ nodes segs (a, b)) by assumption. rewrite !ucount_dadd. unfold dget_def. rewrite (dget_dset Z.eqb Z.eqb_eq).
    unfold ind. pose proof (Huni c) as Hc. unfold dget_def in Hc.
    destruct (Z.eqb_spec c k) as [->|Hck].
    + rewrite Hfresh. destruct (Z.eqb_spec k a), (Z.eqb_spec k b); lia.
    + rewrite Hc. destruct (c =? a), (c =? b); lia.
  - clear. induction segs as [|sg segs IH]; constructor; [split; [reflexivity|apply replaced_refl]|exact IH].
Qed.

Lemma adjacent_cons2 {A} (x y : A) s : adjacent (x :: y :: s) = (x, y) :: adjacent (y :: s).
Proof. reflexivity. Qed.
Lemma occ_nil_adjacent segs p : occ segs p = [] -> forall s f, In (s, f) (corpus_of segs) -> ~ In p (adjacent s).
Proof.
  intros H s f Hin Ha. apply corpus_of_in in Hin. destruct Hin as (t & Hin & ->).
  assert (Ho : occ1 f t p = []).
  { destruct (occ1 f t p) as [|o os] eqn:E; [reflexivity|]. exfalso.
    assert (Hx : In o (occ segs p)) by (unfold occ; apply in_flat_map; exists (t, f); split; [exact Hin|cbn [fst snd]; rewrite E; left; reflexivity]).
    rewrite H in Hx. destruct Hx. }
  clear - Ho Ha. induction t as [|x t IH]; [destruct Ha|]. destruct t as [|y t]; [destruct Ha|].
  cbn [map] in Ha. rewrite adjacent_cons2 in Ha. cbn [occ1] in Ho. apply app_eq_nil in Ho. destruct Ho as [H1 H2].
  cbn [hd_error junc] in H1. destruct Ha as [<-|Ha]; [rewrite pair_eqb_refl in H1; discriminate|]. exact (IH Ha H2).
Qed.

Lemma py_nth_some {A} (l : list A) i : 0 <= i < Z.of_nat (length l) ->
  exists x, py_nth l i = Ok x /\ nth_error l (Z.to_nat i) = Some x.
Proof.
  intros H. unfold py_nth, py_index. rewrite (proj2 (Z.leb_le 0 i)) by lia. rewrite (proj2 (Z.ltb_lt i _)) by lia.
  destruct (nth_error l (Z.to_nat i)) as [x|] eqn:E; [exists x; auto|]. apply nth_error_None in E. lia.
Qed.

Lemma merge_pair_ok order level a b pf heap dirty st segs bag :
  let k := Z.of_nat (length (ls_vocab st)) in
  (forall l, Permutation (order l) l) ->
  core (ls_nodes st) (ls_uni st) (ls_ixs st) k segs ->
  hinv (pair_count (corpus_of segs)) k heap dirty bag -> in_range k (a, b) ->
  pair_count (corpus_of segs) (a, b) = pf -> 0 < pf -> ~ In (a, b) (map fst bag) ->
  (forall q, q <> (a, b) -> ~ In q (map fst bag) -> pair_count (corpus_of segs) q = 0) ->
  exists st' segs' ta tb, merge_pair order level a b pf heap dirty st = Ok st' /\ outer st' segs' /\
    merged_corpus a b k (corpus_of segs) (corpus_of segs') /\
    nth_error (ls_vocab st) (Z.to_nat a) = Some ta /\ nth_error (ls_vocab st) (Z.to_nat b) = Some tb /\
    ls_vocab st' = ls_vocab st ++ [MkType (t_name ta ++ t_name tb) level k pf (Some [ta; tb])] /\
    (length (ids segs') < length (ids segs))%nat.
Proof.
  intros k Hord Hcore Hh Hr Hc Hpf Hab Hall.
  destruct (inner_start _ _ _ _ _ order a b Hcore Hr ltac:(lia) Hord) as (un & Eu & HI).
  destruct Hcore as [Hwf Hixs Hknd Huni Hpos Hrange].
  assert (Hak : 0 <= a < k) by apply Hr. assert (Hbk : 0 <= b < k) by apply Hr.
  assert (Hnak : a <> k) by lia. assert (Hnbk : b <> k) by lia.
  destruct (merge_nodes_ok a b k segs (order un) Hnak Hnbk (segs_pos segs Hpos) _ segs HI) as (ms' & segs' & Em & HI' & Hknd').
  { cbn [ms_ixs]. apply NoDup_ddel, Hknd. }
  rewrite Hc in Em.
  destruct HI' as [Hwf' Hixs' Hab' _ Hall' _ Hkeys Hdelta Hdneg Huni' Hrep].
  assert (Hocc : occ segs' (a, b) = []).
  { destruct (occ segs' (a, b)) as [|[n f] l] eqn:E; [reflexivity|]. destruct (Hall' n f (or_introl eq_refl)). }
  assert (Hcnt0 : pair_count (corpus_of segs') (a, b) = 0) by (rewrite occ_count, Hocc; reflexivity).
  assert (Huni2 : forall c, ucount c (ms_uni ms') = symbol_count (corpus_of segs') c).
  { intros c. rewrite Huni'. unfold psum. cbn [map]. change (zsum []) with 0. lia. }
  assert (Hpos' : positive (corpus_of segs')).
  { intros s f Hin. apply corpus_of_in in Hin. destruct Hin as (t & Hin & ->). clear - Hin Hrep Hpos.
    induction Hrep as [|[t0 f0] [t1 f1] s0 s1 [E _] _ IH]; [destruct Hin|]. cbn [fst snd] in *. subst f1. destruct Hin as [E|Hin].
    - injection E as <- <-. apply (Hpos (map snd t0) f0). left. reflexivity.
    - apply IH; [|exact Hin]. intros s f' H. apply (Hpos s f'). right. exact H. }
  assert (Hrange' : symbols_below (k + 1) (corpus_of segs')).
  { intros s f Hin x Hx. apply corpus_of_in in Hin. destruct Hin as (t & Hin & ->). clear - Hin Hrep Hrange Hx Hak.
    induction Hrep as [|[t0 f0] [t1 f1] s0 s1 [E Hrp] _ IH]; [destruct Hin|]. cbn [fst snd] in *. subst f1. destruct Hin as [E|Hin].
    - injection E as <- <-. destruct (replaced_in _ _ _ _ _ Hrp x Hx) as [H| ->]; [|lia].
      specialize (Hrange (map snd t0) f0 (or_introl eq_refl) x H). lia.
    - apply IH; [|exact Hin]. intros s f' H. apply (Hrange s f'). right. exact H. }
  assert (Hfresh : forall p, fst p = k \/ snd p = k -> pair_count (corpus_of segs) p = 0).
  { intros p Hp. apply pair_count_zero. intros s f Hin Ha. apply adjacent_in in Ha. destruct Ha as [H1 H2].
    pose proof (Hrange s f Hin _ H1). pose proof (Hrange s f Hin _ H2). lia. }
  assert (Hds : forall p d, In (p, d) (ms_deltas ms') -> dcount p (ms_deltas ms') = d).
  { intros p d Hin. unfold dget_def. rewrite (In_dget pair_eqb pair_eqb_eq p d (ms_deltas ms') Hkeys Hin). reflexivity. }
  assert (Hrk : forall p, fst p = k \/ snd p = k -> p <> (a, b)) by (intros p Hp ->; cbn [fst snd] in Hp; lia).
  destruct (deltas_spec k (ms_deltas ms') heap dirty bag (h_st _ _ _ _ _ Hh) Hkeys (h_dnd _ _ _ _ _ Hh)) as (heap' & dirty' & Ed & Hst' & Hdnd' & Hg).
  { intros p d Hin. pose proof (Hds p d Hin) as E. split; intros Hd.
    - destruct (Z.eq_dec (fst p) k) as [|N1]; [auto|]. destruct (Z.eq_dec (snd p) k) as [|N2]; [auto|].
      pose proof (Hdneg p N1 N2). lia.
    - assert (H : ~ (fst p = k \/ snd p = k)); [|tauto]. intros Hp. pose proof (Hdelta p (Hrk p Hp)) as H1.
      rewrite (Hfresh p Hp) in H1. pose proof (pair_count_nonneg _ p Hpos'). lia. }
  destruct (py_nth_some (ls_vocab st) a Hak) as (ta & Ea & Ea').
  destruct (py_nth_some (ls_vocab st) b Hbk) as (tb & Eb & Eb').
  unfold merge_pair. cbv zeta. fold k. rewrite Ea, Eb. cbn [bind]. rewrite Eu, Em. cbn [bind].
  rewrite (Huni2 a), (Huni2 b). pose proof (symbol_count_nonneg _ a Hpos') as Hsa. pose proof (symbol_count_nonneg _ b Hpos') as Hsb.
  rewrite !Z.geb_leb, (proj2 (Z.leb_le 0 _) Hsa), (proj2 (Z.leb_le 0 _) Hsb). cbn [assert_ bind]. rewrite Ed. cbn [bind].
  do 4 eexists. split; [reflexivity|]. cbn [ls_vocab]. split; [|split; [|split; [exact Ea'|split; [exact Eb'|split; [reflexivity|]]]]].
  - unfold outer. cbn [ls_nodes ls_uni ls_ixs ls_heap ls_dirty ls_vocab]. cbv zeta.
    rewrite app_length. cbn [length]. replace (Z.of_nat (length (ls_vocab st) + 1)) with (k + 1) by (unfold k; lia).
    split; [constructor; [exact Hwf'| |exact Hknd'|exact Huni2|exact Hpos'|exact Hrange']|].
    + intros p. destruct (pair_dec p (a, b)) as [->|Hne]; [|apply Hixs', Hne].
      unfold dget_def. rewrite Hab', Hocc. constructor.
    + exists (filter (fun e => 0 <? snd e) (ms_deltas ms') ++ bag).
      destruct Hh as [Hst Hnd Hdnd Hdn Hdr Hval Hcl Hbr].
      assert (Hposk : forall p d, In (p, d) (filter (fun e => 0 <? snd e) (ms_deltas ms')) ->
                dcount p (ms_deltas ms') = d /\ 0 < d /\ (fst p = k \/ snd p = k)).
      { intros p d Hin. apply filter_In in Hin. destruct Hin as [Hin Hd]. cbn [snd] in Hd. apply Z.ltb_lt in Hd.
        pose proof (Hds p d Hin) as E. split; [exact E|split; [exact Hd|]].
        destruct (Z.eq_dec (fst p) k) as [|N1]; [auto|]. destruct (Z.eq_dec (snd p) k) as [|N2]; [auto|].
        pose proof (Hdneg p N1 N2). lia. }
      assert (Hdc : forall p, dcount p dirty <= 0).
      { intros p. unfold dget_def. destruct (dget pair_eqb p dirty) eqn:E; [apply Hdn in E|]; lia. }
      assert (Hbk' : forall p v, In (p, v) bag -> fst p <> k /\ snd p <> k).
      { intros p v Hin. destruct (Hbr p v Hin). lia. }
      assert (Hbab : forall p v, In (p, v) bag -> p <> (a, b)).
      { intros p v Hin ->. apply Hab. apply in_map_iff. exists ((a, b), v). auto. }
      split; [constructor|].
      * exact Hst'.
      * rewrite map_app. apply NoDup_app_iff. split; [|split; [exact Hnd|]].
        -- clear - Hkeys. unfold dkeys in Hkeys. induction (ms_deltas ms') as [|[p d] l IH]; [constructor|].
           cbn [map fst] in Hkeys. inversion Hkeys as [|? ? Hni Hnd]; subst. cbn [filter snd]. destruct (0 <? d); [|exact (IH Hnd)].
           cbn [map fst]. constructor; [|exact (IH Hnd)]. intros H. apply Hni. apply in_map_iff in H. destruct H as (e & <- & H).
           apply filter_In in H. apply in_map, H.
        -- intros p H1 H2. apply in_map_iff in H1, H2. destruct H1 as ([p1 d1] & E1 & H1). destruct H2 as ([p2 d2] & E2 & H2).
           cbn [fst] in *. subst p1 p2. destruct (Hposk p d1 H1) as (_ & _ & Hk). destruct (Hbk' p d2 H2). tauto.
      * exact Hdnd'.
      * intros p d H. rewrite Hg in H. destruct (Z.ltb_spec (dcount p (ms_deltas ms')) 0) as [Hl|Hl].
        -- injection H as <-. specialize (Hdc p). lia.
        -- apply (Hdn p d H).
      * intros p d H. rewrite Hg in H. destruct (Z.ltb_spec (dcount p (ms_deltas ms')) 0) as [Hl|Hl].
        -- assert (Hir : in_range k p); [|destruct Hir; split; lia].
           destruct (pair_dec p (a, b)) as [->|Hne]; [exact Hr|]. apply (pair_count_range k (corpus_of segs)); [exact Hrange|].
           pose proof (Hdelta p Hne). pose proof (pair_count_nonneg _ p Hpos'). lia.
        -- destruct (Hdr p d H). split; lia.
      * intros p v Hin. apply in_app_iff in Hin. destruct Hin as [Hin|Hin].
        -- destruct (Hposk p v Hin) as (E & Hd & Hk). pose proof (Hdelta p (Hrk p Hk)) as H1. rewrite (Hfresh p Hk) in H1.
           unfold dget_def at 1. rewrite Hg. destruct (Z.ltb_spec (dcount p (ms_deltas ms')) 0) as [Hl|Hl]; [lia|].
           destruct (dget pair_eqb p dirty) eqn:E2; [|lia]. destruct (Hdr _ _ E2). lia.
        -- destruct (Hbk' p v Hin) as [N1 N2]. pose proof (Hdelta p (Hbab p v Hin)) as H1. pose proof (Hdneg p N1 N2) as H2.
           pose proof (Hval p v Hin) as H3. unfold dget_def at 1. rewrite Hg. destruct (Z.ltb_spec (dcount p (ms_deltas ms')) 0) as [Hl|Hl]; [lia|].
           unfold dget_def in H3 at 1. lia.
      * intros p v Hin H. apply in_app_iff in Hin. destruct Hin as [Hin|Hin].
        -- destruct (Hposk p v Hin) as (_ & Hd & _). exact Hd.
        -- rewrite Hg in H. destruct (Z.ltb_spec (dcount p (ms_deltas ms')) 0) as [Hl|Hl]; [discriminate|]. exact (Hcl p v Hin H).
      * intros p v Hin. apply in_app_iff in Hin. destruct Hin as [Hin|Hin].
        -- destruct (Hposk p v Hin) as (E & Hd & Hk). apply (pair_count_range (k + 1) (corpus_of segs')); [exact Hrange'|].
           pose proof (Hdelta p (Hrk p Hk)) as H1. rewrite (Hfresh p Hk) in H1. lia.
        -- destruct (Hbr p v Hin). split; lia.
      * intros p Hn. rewrite map_app, in_app_iff in Hn. pose proof (pair_count_nonneg _ p Hpos') as Hnn.
        destruct (pair_dec p (a, b)) as [->|Hne]; [exact Hcnt0|]. pose proof (Hdelta p Hne) as H1.
        destruct (Z.eq_dec (pair_count (corpus_of segs') p) 0) as [|Hnz]; [assumption|]. exfalso. apply Hn.
        destruct (Z.eq_dec (fst p) k) as [Hk|N1]; [left|destruct (Z.eq_dec (snd p) k) as [Hk|N2]; [left|]].
        1,2: (rewrite (Hfresh p) in H1 by auto;
           destruct (dget pair_eqb p (ms_deltas ms')) as [d|] eqn:E; unfold dget_def in H1; rewrite E in H1; [|lia];
           apply in_map_iff; exists (p, d); split; [reflexivity|]; apply filter_In; split; [apply (dget_In pair_eqb pair_eqb_eq), E|];
           cbn [snd]; apply Z.ltb_lt; lia).
        right. destruct (in_dec pair_dec p (map fst bag)) as [|Hnb]; [assumption|]. exfalso.
        rewrite (Hall p Hne Hnb) in H1. pose proof (Hdneg p N1 N2). lia.
  - unfold merged_corpus, corpus_of. assert (Hadj := occ_nil_adjacent segs' (a, b) Hocc). clear - Hrep Hadj.
    induction Hrep as [|[t0 f0] [t1 f1] s0 s1 [E Hrp] _ IH]; [constructor|]. cbn [map fst snd] in *. subst f1. constructor.
    + cbn [fst snd]. split; [reflexivity|]. split; [exact Hrp|]. apply (Hadj _ f0). left. reflexivity.
    + apply IH. intros s f H. apply (Hadj s f). right. exact H.
  - destruct (rep_segs_length a b k segs segs' Hrep) as [L1 L2].
    destruct (Nat.eq_dec (length (ids segs')) (length (ids segs))) as [E|E]; [|lia].
    rewrite (L2 E) in Hcnt0. lia.
Qed.

(** ** Refinement *)
Lemma learn_loop_refines orders n_merges min_co level : iteration_orders orders ->
  forall fuel i st segs, outer st segs -> (length (ids segs) < fuel)%nat ->
  (exists st' segs', learn_loop fuel orders i n_merges min_co level st = Ok st' /\
     core (ls_nodes st') (ls_uni st') (ls_ixs st') (Z.of_nat (length (ls_vocab st'))) segs' /\
     bpe min_co level (Z.to_nat (n_merges - Z.of_nat i)) (corpus_of segs) (ls_vocab st) (Ok (ls_vocab st'))) \/
  (learn_loop fuel orders i n_merges min_co level st = Raise IndexError /\
     bpe min_co level (Z.to_nat (n_merges - Z.of_nat i)) (corpus_of segs) (ls_vocab st) (Raise IndexError)).
Proof.
  intros Hord. induction fuel as [|fuel IH]; intros i st segs HO Hf; [lia|]. cbn [learn_loop].
  destruct (Z.leb_spec n_merges (Z.of_nat i)) as [Hle|Hgt].
  - left. exists st, segs. split; [reflexivity|]. split; [apply HO|]. replace (Z.to_nat (n_merges - Z.of_nat i)) with O by lia. constructor.
  - replace (Z.to_nat (n_merges - Z.of_nat i)) with (S (Z.to_nat (n_merges - Z.of_nat (S i)))) by lia.
    destruct HO as (Hcore & bag & Hh & Hall).
    destruct (pop_clean_spec _ _ (fun p => pair_count_nonneg _ p (c_pos _ _ _ _ _ Hcore)) (S (length (ls_dirty st))) _ _ _ (Nat.lt_succ_diag_r _) Hh Hall)
      as [[E H0]|(p & v & heap' & dirty' & bag' & E & Hh' & Hc & Hv & Hr & Hnp & Hall' & Hbest)]; rewrite E; cbn [bind].
    + right. split; [reflexivity|]. apply bpe_exhausted, H0.
    + assert (HB : best (corpus_of segs) p v) by (split; [exact Hc|split; [exact Hv|exact Hbest]]).
      destruct (Z.ltb_spec v min_co) as [Hrare|Hfreq].
      * left. eexists _, segs. split; [reflexivity|]. cbn [ls_nodes ls_uni ls_ixs ls_vocab]. split; [exact Hcore|]. eapply bpe_rare; eassumption.
      * destruct p as [a b]. cbn [fst snd].
        destruct (merge_pair_ok (orders i) level a b v heap' dirty' st segs bag' (Hord i) Hcore Hh' Hr Hc Hv Hnp Hall')
          as (st' & segs' & ta & tb & Em & HO' & Hm & Eta & Etb & Evoc & Hlt).
        rewrite Em. cbn [bind]. destruct (IH (S i) st' segs' HO' ltac:(lia)) as [(st2 & segs2 & E2 & Hc2 & Hb)|[E2 Hb]]; rewrite E2.
        -- left. exists st2, segs2. split; [reflexivity|]. split; [exact Hc2|]. rewrite Evoc in Hb.
           eapply bpe_merge; try eassumption; apply Hr.
        -- right. split; [reflexivity|]. rewrite Evoc in Hb. eapply bpe_merge; try eassumption; apply Hr.
Qed.
