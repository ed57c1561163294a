(** Distinct names of the subwords learned from text. *)
From Coq Require Import Strings.String.
From Verif Require Import Py PyStr PyLemmas StrSpec CodecModel CodecSpec VocabSpec LearnModel ArithModel LearnSpec BpeSpec LearnBpeModel BpeppSpec DistinctSpec
     LearnBpeProofs LearnBpeLoop LearnBpeResults LearnBpeEnd BpeppModel BpeppLearn BpeppProofs BpeppEnd DistinctProofs.
From Coq Require Import Lia.
Local Open Scope Z_scope.
Local Open Scope list_scope.

Lemma spelling_nonempty k t m l : spelling k t m l -> l <> [].
Proof. induction 1 as [|m ty a b la lb H E Ek _ IHa _ IHb]; [discriminate|]. destruct la; [contradiction|discriminate]. Qed.
Lemma cube_free_apart k t c : cube_free_corpus c -> doubles_apart k t c.
Proof. intros H m ty x l s f _ _ _ Hs Hin. apply (H s f Hin). eapply spelling_nonempty, Hs. Qed.

Lemma run_grown c t t2 : run c t t2 -> forall m ty, nth_error t2 m = Some ty -> (length t <= m)%nat -> t_idx ty = Z.of_nat m /\
  exists i j ti tj, nth_error t2 i = Some ti /\ nth_error t2 j = Some tj /\ t_kids ty = Some [ti; tj] /\ t_name ty = t_name ti ++ t_name tj.
Proof.
  induction 1 as [c t|c c' t a b ta tb level f t2 Hab Ha Ea Hb Eb Hm Hrun IH]; intros m ty Hn Hge.
  - exfalso. assert (m < length t)%nat by (apply nth_error_Some; congruence). lia.
  - destruct (Nat.eq_dec m (length t)) as [->|Hne]; [|apply (IH m ty Hn); rewrite app_length; cbn [length]; lia].
    destruct (run_extends _ _ _ Hrun) as (new & Et). rewrite Et, <- app_assoc, nth_error_app2, Nat.sub_diag in Hn by lia. injection Hn as <-. cbn [t_idx t_kids t_name].
    split; [reflexivity|]. exists (Z.to_nat a), (Z.to_nat b), ta, tb.
    assert (Hup : forall i x, nth_error t i = Some x -> nth_error t2 i = Some x).
    { intros i x Hi. rewrite Et, <- app_assoc, nth_error_app1; [exact Hi|]. apply nth_error_Some. congruence. }
    auto.
Qed.

(** ** The learner of experimental/bpepp.py *)
Lemma top_occurs c p f : top c p f -> exists s g, In (s, g) c /\ In p (adjacent s).
Proof.
  intros (E & Hf & _). destruct (Exists_dec (fun sg => In p (adjacent (fst sg))) c) as [H|H].
  - intros sg. apply in_dec, pair_dec.
  - apply Exists_exists in H. destruct H as ([s g] & H1 & H2). exists s, g. auto.
  - exfalso. rewrite pair_count_zero in E; [lia|]. intros s g Hin Ha. apply H. apply Exists_exists. exists (s, g). auto.
Qed.
Lemma pp_run mco level n c t r : pp_bpe mco level n c t r -> forall k c0 E t2, inv k c0 c t E -> cube_free_corpus c0 -> r = Ok t2 -> run c t t2.
Proof.
  induction 1 as [c t|n c t p f Hb Hf|n c t r Hno Hr|n c c' t a b f ta tb r Ht Hf Hap Ha Ea Hb Eb Hm HB IH|n c t a f r Ht Hf H3]; intros k c0 E t2 HI Hc Er.
  - injection Er as <-. constructor.
  - injection Er as <-. constructor.
  - destruct Hr as [Hr|Hr]; [|congruence]. assert (t2 = t) by congruence. subst t2. constructor.
  - pose proof (top_occurs _ _ _ Ht) as (s & g & Hin & Hab).
    refine (run_merge c c' t a b ta tb level f t2 (ex_intro _ s (ex_intro _ g (conj Hin Hab))) Ha Ea Hb Eb Hm _).
    apply (IH k c0 (E ++ [spell1 E a ++ spell1 E b]) t2); [|exact Hc|exact Er].
    apply (inv_step k c0 c c' t E a b ta tb level f HI); try assumption; [exists s, g; split; [exact Hin|apply adjacent_part, Hab]|].
    intros _ s0 g0 Hs0. apply (Hc s0 g0 Hs0).
    eapply (spelling_nonempty k t (Z.of_nat (Z.to_nat a))). apply (i_spell _ _ _ _ _ HI). apply nth_error_nth'. rewrite (i_len _ _ _ _ _ HI). apply nth_error_Some. congruence.
  - exfalso. destruct H3 as (s & g & Hin & l1 & l2 & Es).
    assert (Ho : occurs [a; a; a] c) by (exists s, g; split; [exact Hin|exists l1, l2; exact Es]).
    destruct (spell_occurs _ _ _ _ _ _ HI Ho) as (s0 & g0 & Hs0 & Hp). cbn [spell flat_map] in Hp. rewrite app_nil_r in Hp. apply (Hc s0 g0 Hs0 (spell1 E a)); [|exact Hp].
    pose proof (occurs_range _ _ _ (i_range _ _ _ _ _ HI) Ho a (or_introl eq_refl)) as Ra.
    eapply (spelling_nonempty k t (Z.of_nat (Z.to_nat a))). apply (i_spell _ _ _ _ _ HI). apply nth_error_nth'. rewrite (i_len _ _ _ _ _ HI). lia.
Qed.

(** ** From text *)
Section Text.
  Context (init table : list Typ) (toks : list str) (tfs : list (str * Z)) (c : corpus).
  Hypothesis Hres : starts_reserved init.
  Hypothesis Hdist : distinct_names init.
  Hypothesis Hidx : well_indexed init.
  Hypothesis Hchars : forall n t, nth_error init n = Some t -> (6 <= n)%nat -> exists ch, t_name t = [ch].
  Hypothesis Hcorpus : spelled_corpus init tfs c.
  Hypothesis Hwords : forall w f, In (w, f) tfs -> In w toks.
  Hypothesis Hrun : run c init table.
  Hypothesis Hall : forall w f ch, In (w, f) tfs -> In ch (w ++ [MARK]) -> has_name init [ch].
  Let k := Z.of_nat (length init).
  Definition init_name (x : Z) : str := match nth_error init (Z.to_nat x) with Some t => t_name t | None => [] end.

  Lemma Hgr : (exists new, table = init ++ new) /\
    forall m ty, nth_error table m = Some ty -> (length init <= m)%nat -> t_idx ty = Z.of_nat m /\
      exists i j ti tj, nth_error table i = Some ti /\ nth_error table j = Some tj /\ t_kids ty = Some [ti; tj] /\ t_name ty = t_name ti ++ t_name tj.
  Proof. split; [exact (run_extends _ _ _ Hrun)|exact (run_grown _ _ _ Hrun)]. Qed.
  Lemma table_indexed : well_indexed table.
  Proof.
    intros n t Hn. destruct Hgr as [(new & E) Hg]. destruct (Nat.lt_ge_cases n (length init)) as [Hl|Hl].
    - rewrite E, nth_error_app1 in Hn by exact Hl. exact (Hidx n t Hn).
    - apply (Hg n t Hn Hl).
  Qed.
  Lemma spelled_name m l : spelling k table m l -> forall ty, nth_error table (Z.to_nat m) = Some ty -> t_name ty = flat_map init_name l.
  Proof.
    destruct Hgr as [(new & E) Hg].
    induction 1 as [m H|m ty a b la lb H Et Ek _ IHa _ IHb]; intros ty' Hty.
    - cbn [flat_map]. rewrite app_nil_r. unfold init_name. rewrite E, nth_error_app1 in Hty by (unfold k in H; lia). rewrite Hty. reflexivity.
    - assert (ty' = ty) by congruence. subst ty'. destruct (Hg _ _ Et) as (_ & i & j & ti & tj & Ei & Ej & Ek' & En); [unfold k in H; lia|].
      rewrite Ek in Ek'. injection Ek' as <- <-. rewrite flat_map_app, En. f_equal.
      + apply IHa. rewrite (table_indexed _ _ Ei), Nat2Z.id. exact Ei.
      + apply IHb. rewrite (table_indexed _ _ Ej), Nat2Z.id. exact Ej.
  Qed.
  Definition charlike (x : Z) : Prop := 0 <= x < k /\ exists ch, init_name x = [ch].
  Lemma corpus_text s f : In (s, f) c -> Forall charlike s /\ exists w, In w toks /\ flat_map init_name s = w ++ [MARK].
  Proof.
    intros Hin. pose proof Hcorpus as Hc.
    assert (Hp : exists w, In (w, f) tfs /\ Forall2 (fun i ch => id_of init [ch] i) s (w ++ [MARK])).
    { apply In_nth_error in Hin. destruct Hin as (n & Hn). clear - Hc Hn. revert n Hn. induction Hc as [|[w g] [s' g'] tfs c [E H] Hc IH]; intros [|n] Hn; try discriminate Hn; cbn [nth_error] in Hn.
      - injection Hn as -> ->. cbn [fst snd] in *. subst g. exists w. split; [left; reflexivity|exact H].
      - destruct (IH n Hn) as (w' & H1 & H2). exists w'. split; [right; exact H1|exact H2]. }
    destruct Hp as (w & Hw & H).
    assert (G : forall s chs, (forall ch, In ch chs -> has_name init [ch]) -> Forall2 (fun i ch => id_of init [ch] i) s chs -> Forall charlike s /\ flat_map init_name s = chs).
    { clear. intros s chs Hch H. induction H as [|i ch s chs Hi H IH]; [split; [constructor|reflexivity]|].
      destruct IH as [I1 I2]; [intros ch' Hin; apply Hch; right; exact Hin|].
      destruct Hi as [(Hp & t & Et & En)|[_ Hno]]; [|exfalso; apply Hno, Hch; left; reflexivity].
      assert (E : init_name i = [ch]) by (unfold init_name; rewrite Et; exact En). split.
      - constructor; [|exact I1]. split; [|eauto]. assert (Z.to_nat i < length init)%nat by (apply nth_error_Some; congruence). unfold k. lia.
      - cbn [flat_map]. rewrite E, I2. reflexivity. }
    destruct (G s (w ++ [MARK])) as [G1 G2]; [intros ch Hin'; exact (Hall w f ch Hw Hin')|exact H|]. split; [exact G1|]. exists w. split; [|exact G2].
    exact (Hwords w f Hw).
  Qed.
  Lemma init_name_inj x y : charlike x -> charlike y -> init_name x = init_name y -> x = y.
  Proof.
    intros [Hx _] [Hy _] E. unfold init_name in E. unfold k in *.
    destruct (nth_error init (Z.to_nat x)) as [tx|] eqn:Ex; [|apply nth_error_None in Ex; lia].
    destruct (nth_error init (Z.to_nat y)) as [ty|] eqn:Ey; [|apply nth_error_None in Ey; lia].
    assert (Z.to_nat x = Z.to_nat y); [|lia].
    apply (proj1 (NoDup_nth_error _) Hdist); [rewrite map_length; lia|]. rewrite !nth_error_map, Ex, Ey. cbn [option_map]. congruence.
  Qed.
  Lemma text_inj l l' : Forall charlike l -> Forall charlike l' -> flat_map init_name l = flat_map init_name l' -> l = l'.
  Proof.
    intros H. revert l'. induction H as [|x l Hx H IH]; intros l' H' E; destruct H' as [|y l' Hy H'].
    - reflexivity.
    - destruct Hy as [_ (ch & Ey)]. cbn [flat_map] in E. rewrite Ey in E. discriminate E.
    - destruct Hx as [_ (ch & Ex)]. cbn [flat_map] in E. rewrite Ex in E. discriminate E.
    - pose proof Hx as [_ (chx & Ex)]. pose proof Hy as [_ (chy & Ey)]. cbn [flat_map] in E. rewrite Ex, Ey in E. injection E as E1 E2. subst chy. f_equal.
      + apply init_name_inj; [exact Hx|exact Hy|congruence].
      + apply IH; assumption.
  Qed.
  Lemma text_length l : Forall charlike l -> length (flat_map init_name l) = length l.
  Proof. induction 1 as [|x l [_ (ch & E)] H IH]; [reflexivity|]. cbn [flat_map]. rewrite E. cbn [app length]. rewrite IH. reflexivity. Qed.
  Lemma occurs_text u : occurs u c -> Forall charlike u /\ exists w, In w toks /\ part_of (flat_map init_name u) (w ++ [MARK]).
  Proof.
    intros (s & f & Hin & p & q & ->). destruct (corpus_text _ _ Hin) as (H & w & Hw & E). rewrite !Forall_app in H. split; [apply H|]. exists w. split; [exact Hw|].
    exists (flat_map init_name p), (flat_map init_name q). rewrite <- E, !flat_map_app. reflexivity.
  Qed.

  Hypothesis Hcubes : forall ty x w, In ty table -> t_kids ty = Some [x; x] -> t_name x <> [] -> In w toks -> ~ part_of (t_name x ++ t_name x ++ t_name x) (w ++ [MARK]).
  Lemma text_apart : doubles_apart k table c.
  Proof.
    intros m ty x l s f Hn Hk Ekids Hsp Hin Hp. destruct Hgr as [_ Hg].
    destruct (Hg m ty Hn) as (_ & i & j & ti & tj & Ei & _ & Ek & _); [unfold k in Hk; lia|].
    rewrite Ekids in Ek. injection Ek as <- _.
    pose proof (spelled_name _ _ Hsp x) as Enm. rewrite (table_indexed _ _ Ei), Nat2Z.id in Enm. specialize (Enm Ei).
    destruct (occurs_text (l ++ l ++ l)) as (Hcl & w & Hw & Hpw); [exists s, f; auto|].
    apply (Hcubes ty x w); [eapply nth_error_In; exact Hn|exact Ekids| |exact Hw|].
    { intros E0. apply spelling_nonempty in Hsp. rewrite Forall_app in Hcl. pose proof (text_length l (proj1 Hcl)) as Hlen. rewrite <- Enm, E0 in Hlen. destruct l; [contradiction|discriminate Hlen]. } rewrite Enm. rewrite <- !flat_map_app. exact Hpw.
  Qed.
  Lemma learned_spelled m ty : nth_error table m = Some ty -> (length init <= m)%nat ->
    exists l, spelling k table (Z.of_nat m) l /\ occurs l c /\ t_name ty = flat_map init_name l /\ (2 <= length (t_name ty))%nat.
  Proof.
    intros Hn Hge.
    assert (Hr : symbols_below (Z.of_nat (length init)) c).
    { intros s f Hin x Hx. destruct (corpus_text _ _ Hin) as (H & _). rewrite Forall_forall in H. apply (H x Hx). }
    destruct (run_distinct c init table Hrun Hidx Hr text_apart) as [H1 _].
    assert (Hm : 0 <= Z.of_nat m < Z.of_nat (length table)) by (assert (m < length table)%nat by (apply nth_error_Some; congruence); lia).
    destruct (H1 _ Hm) as (l & Hs & Ho). specialize (Ho ltac:(lia)). exists l. split; [exact Hs|]. split; [exact Ho|].
    assert (En : t_name ty = flat_map init_name l) by (apply (spelled_name _ _ Hs); rewrite Nat2Z.id; exact Hn). split; [exact En|].
    destruct (occurs_text l Ho) as [Hch _]. rewrite En, text_length by exact Hch.
    inversion Hs as [m' H E1 E2|m' ty' a b la lb H Et Ek Ha Hb E1 E2]; subst; [unfold k in H; lia|].
    apply spelling_nonempty in Ha. apply spelling_nonempty in Hb. rewrite app_length. destruct la; [contradiction|]. destruct lb; [contradiction|]. cbn [length]. lia.
  Qed.
  Lemma learned_apart m m' ty ty' : nth_error table m = Some ty -> nth_error table m' = Some ty' -> (5 <= m)%nat -> (5 <= m')%nat -> t_name ty = t_name ty' -> m = m'.
  Proof.
    assert (Hr : symbols_below (Z.of_nat (length init)) c).
    { intros s f Hin x Hx. destruct (corpus_text _ _ Hin) as (H & _). rewrite Forall_forall in H. apply (H x Hx). }
    destruct (run_distinct c init table Hrun Hidx Hr text_apart) as [_ H2].
    destruct Hgr as [(new & E) _].
    assert (Hshort : forall n t, nth_error table n = Some t -> (5 <= n)%nat -> (n < length init)%nat -> length (t_name t) = 1%nat).
    { intros n t Hn H5 Hl. rewrite E, nth_error_app1 in Hn by exact Hl. destruct (Nat.eq_dec n 5) as [->|Hne].
      - pose proof Hres as Hres'. unfold starts_reserved in Hres'. pose proof (nth_error_map t_name 5 init) as H. rewrite Hn in H. cbn [option_map] in H.
        assert (Hf : nth_error (firstn 6 (map t_name init)) 5 = Some (t_name t)).
        { rewrite <- H. clear. generalize (map t_name init). intros l. do 6 (destruct l as [|? l]; [reflexivity|]). reflexivity. }
        rewrite Hres' in Hf. injection Hf as <-. reflexivity.
      - destruct (Hchars n t Hn) as (ch & ->); [lia|]. reflexivity. }
    intros Hn Hn' H5 H5' En.
    destruct (Nat.lt_ge_cases m (length init)) as [Hl|Hl], (Nat.lt_ge_cases m' (length init)) as [Hl'|Hl'].
    - rewrite E, nth_error_app1 in Hn by exact Hl. rewrite E, nth_error_app1 in Hn' by exact Hl'.
      apply (proj1 (NoDup_nth_error _) Hdist); [rewrite map_length; lia|]. rewrite !nth_error_map, Hn, Hn'. cbn [option_map]. congruence.
    - exfalso. pose proof (Hshort m ty Hn H5 Hl) as H1. destruct (learned_spelled m' ty' Hn' Hl') as (l & _ & _ & _ & Hlen). rewrite <- En in Hlen. lia.
    - exfalso. pose proof (Hshort m' ty' Hn' H5' Hl') as H1. destruct (learned_spelled m ty Hn Hl) as (l & _ & _ & _ & Hlen). rewrite En in Hlen. lia.
    - destruct (learned_spelled m ty Hn Hl) as (l & Hs & Ho & E1 & _). destruct (learned_spelled m' ty' Hn' Hl') as (l' & Hs' & Ho' & E1' & _).
      assert (l = l').
      { apply text_inj; [apply occurs_text, Ho|apply occurs_text, Ho'|congruence]. }
      subst l'. pose proof (H2 _ _ _ Hs Hs'). lia.
  Qed.

  Hypothesis Hplace : forall w p, In w toks -> In p placeholders -> ~ part_of p w.
  Lemma placeholder_free w p : In w toks -> In p placeholders -> ~ part_of p (w ++ [MARK]).
  Proof.
    intros Hw Hp (l & q & E). destruct q as [|x q] using rev_ind.
    - assert (Hlast : last (l ++ p ++ []) 0%N = last p 0%N).
      { clear - Hp. rewrite app_nil_r. induction l as [|x l IH]; [reflexivity|]. cbn [app last]. rewrite IH. destruct (l ++ p) eqn:El; [|reflexivity].
        apply app_eq_nil in El. destruct El as [_ ->]. repeat (destruct Hp as [Hp|Hp]; [discriminate Hp|]). destruct Hp. }
      rewrite <- E in Hlast. assert (E2 : last (w ++ [MARK]) 0%N = MARK) by (clear; induction w as [|x w IH]; [reflexivity|]; cbn [app last]; rewrite IH; destruct (w ++ [MARK]) eqn:El; [destruct w; discriminate El|reflexivity]).
      rewrite E2 in Hlast. repeat (destruct Hp as [<-|Hp]; [discriminate Hlast|]). destruct Hp.
    - apply (Hplace w p Hw Hp). exists l, q. rewrite !app_assoc in E. apply app_inj_tail in E. destruct E as [E _]. rewrite E, !app_assoc. reflexivity.
  Qed.
  Theorem text_distinct : distinct_names table.
  Proof.
    unfold distinct_names. apply NoDup_nth_error. intros m m' Hm E. rewrite map_length in Hm. rewrite !nth_error_map in E.
    destruct (nth_error table m) as [ty|] eqn:Hn; [|apply nth_error_None in Hn; lia]. destruct (nth_error table m') as [ty'|] eqn:Hn'; [|discriminate E].
    injection E as E. destruct Hgr as [(new & Et) _].
    assert (Hlow : forall n t, nth_error table n = Some t -> (n < 5)%nat -> (n < length init)%nat /\ In (t_name t) placeholders).
    { intros n t Ht Hl. pose proof Hres as Hres'. unfold starts_reserved in Hres'.
      assert (H6 : (6 <= length init)%nat).
      { destruct (Nat.le_gt_cases 6 (length init)) as [H|H]; [exact H|]. apply (f_equal (@length str)) in Hres'. rewrite firstn_length, map_length in Hres'. change (length reserved_names) with 6%nat in Hres'. lia. }
      split; [lia|]. rewrite Et, nth_error_app1 in Ht by lia. pose proof (nth_error_map t_name n init) as H. rewrite Ht in H. cbn [option_map] in H.
      assert (Hf : nth_error (firstn 6 (map t_name init)) n = Some (t_name t)).
      { rewrite <- H. clear - Hl. revert Hl. generalize (map t_name init). intros l Hl. do 5 (destruct n as [|n]; [do 6 (destruct l as [|? l]; [reflexivity|]); reflexivity|]). lia. }
      rewrite Hres' in Hf. do 5 (destruct n as [|n]; [injection Hf as <-; cbn; tauto|]). lia. }
    assert (Hmix : forall n t n' t', nth_error table n = Some t -> nth_error table n' = Some t' -> (n < 5)%nat -> (5 <= n')%nat -> t_name t <> t_name t').
    { intros n t n' t' H1 H2 Hl Hge Enm. destruct (Hlow n t H1 Hl) as [Hli Hp]. destruct (Nat.lt_ge_cases n' (length init)) as [Hl'|Hl'].
      - rewrite Et, nth_error_app1 in H1 by exact Hli. rewrite Et, nth_error_app1 in H2 by exact Hl'.
        assert (n = n') by (apply (proj1 (NoDup_nth_error _) Hdist); [rewrite map_length; lia|]; rewrite !nth_error_map, H1, H2; cbn [option_map]; congruence). lia.
      - destruct (learned_spelled n' t' H2 Hl') as (l & _ & Ho & En & _). destruct (occurs_text l Ho) as (_ & w & Hw & Hpw). rewrite <- En, <- Enm in Hpw.
        exact (placeholder_free w _ Hw Hp Hpw). }
    destruct (Nat.lt_ge_cases m 5) as [Hl|Hl], (Nat.lt_ge_cases m' 5) as [Hl'|Hl'].
    - destruct (Hlow m ty Hn Hl) as [H1 _]. destruct (Hlow m' ty' Hn' Hl') as [H2 _]. rewrite Et, nth_error_app1 in Hn by exact H1. rewrite Et, nth_error_app1 in Hn' by exact H2.
      apply (proj1 (NoDup_nth_error _) Hdist); [rewrite map_length; lia|]. rewrite !nth_error_map, Hn, Hn'. cbn [option_map]. congruence.
    - exfalso. exact (Hmix _ _ _ _ Hn Hn' Hl Hl' E).
    - exfalso. exact (Hmix _ _ _ _ Hn' Hn Hl' Hl (eq_sym E)).
    - exact (learned_apart m m' ty ty' Hn Hn' Hl Hl' E).
  Qed.
End Text.
Theorem learn_bpe_distinct A orders data toks vs mco table : tokens_of KWord data toks -> iteration_orders orders ->
  learn_bpe A orders data vs None mco false = Ok table ->
  (forall ty x w, In ty table -> t_kids ty = Some [x; x] -> In w toks -> ~ part_of (t_name x ++ t_name x ++ t_name x) (w ++ [MARK])) ->
  (forall m m' ty ty', nth_error table m = Some ty -> nth_error table m' = Some ty' -> (5 <= m)%nat -> (5 <= m')%nat -> t_name ty = t_name ty' -> m = m') /\
  ((forall w p, In w toks -> In p placeholders -> ~ part_of p w) -> distinct_names table).
Proof.
  intros Ht Ho H Hc. destruct (learn_bpe_text A orders data toks vs None mco table Ht Ho H) as (init & tfs & c & [] & Hall). specialize (Hall eq_refl).
  assert (Hw : forall w f, In (w, f) tfs -> In w toks).
  { intros w f Hin. destruct tl_counts as [[_ [Hkeys _]] _]. apply Hkeys. apply (in_map fst) in Hin. exact Hin. }
  pose proof (bpe_run _ _ _ _ _ _ tl_bpe table eq_refl) as Hrun. split.
  - eapply learned_apart; try eassumption. intros ty x w H1 H2 _. exact (Hc ty x w H1 H2).
  - intros Hp. eapply text_distinct; try eassumption. intros ty x w H1 H2 _. exact (Hc ty x w H1 H2).
Qed.

(** ** The learner of experimental/bpepp.py, from text *)
Lemma cleaned_same b c c' : (forall s f, In (s, f) c -> s <> [] /\ ~ has_run s) -> cleaned b c c' -> c' = c.
Proof.
  intros H Hc. induction Hc as [|f c c' Hc IH|s f c c' H1 H2 Hc IH|s s' f c c' E H1 H2 Hc IH|s f c c' E H1 Hc IH].
  - reflexivity.
  - exfalso. exact (proj1 (H [] f (or_introl eq_refl)) eq_refl).
  - f_equal. apply IH. intros s1 f1 Hin. apply (H s1 f1 (or_intror Hin)).
  - exfalso. exact (proj2 (H s f (or_introl eq_refl)) H1).
  - exfalso. exact (proj2 (H s f (or_introl eq_refl)) H1).
Qed.
Theorem pp_learn_distinct orders lines toks vs mco wmf table : tokens_of KWord lines toks -> iteration_orders orders -> 1 <= mco ->
  (forall w, In w toks -> cube_free (w ++ [MARK])) -> (forall w p, In w toks -> In p placeholders -> ~ part_of p w) ->
  pp_learn_from_corpus orders lines vs mco 1 wmf = Ok table -> distinct_names table.
Proof.
  intros Ht Ho Hmco Hcube Hplace H. pose proof (pp_level1 orders lines toks vs mco 1 wmf Ht) as P. cbv zeta in P. destruct P as (tf & Hcnt & Hlow & Hrest).
  destruct (Z.lt_ge_cases wmf 1) as [Hw|Hw]; [rewrite Hlow in H by (right; exact Hw); discriminate|].
  destruct (Hrest ltac:(lia) Hw) as (init & Hct & R1 & R2 & R3 & R4).
  destruct (char_table_names _ _ _ Hct) as (N1 & N2 & N3 & _).
  destruct (Z.eq_dec vs (-1)) as [E|Hvs]; [rewrite (R1 E) in H; injection H as <-; exact N3|].
  destruct (Z.le_gt_cases vs (Z.of_nat (length init))) as [Hle|Hgt]; [rewrite (R2 Hvs Hle) in H; discriminate|].
  destruct (often wmf tf) as [|wf0 rest] eqn:Eo; [rewrite (R3 Hgt eq_refl) in H; discriminate|]. rewrite <- Eo in *.
  destruct (R4 Hgt ltac:(rewrite Eo; discriminate)) as (c & c' & Hsp & Hcl & HB & _). specialize (HB Ho Hmco).
  assert (Hw2 : forall w f, In (w, f) (often wmf tf) -> In w toks).
  { intros w f Hin. apply filter_In in Hin. destruct Hin as [Hin _]. destruct Hcnt as [[_ [Hkeys _]] _]. apply Hkeys. apply (in_map fst) in Hin. exact Hin. }
  destruct Hct as (chars & C1 & C2 & _ & _ & _ & C6).
  assert (En : map t_name init = reserved_names ++ map (fun cf => [fst cf]) chars).
  { apply (f_equal (map fst)) in C2. rewrite map_map, map_app, !map_map in C2. cbn [fst] in C2. rewrite map_id in C2. exact C2. }
  assert (Hch : forall n t, nth_error init n = Some t -> (6 <= n)%nat -> exists ch, t_name t = [ch]).
  { intros n t Hn Hge. pose proof (nth_error_map t_name n init) as Hm. rewrite En, Hn in Hm. cbn [option_map] in Hm.
    rewrite nth_error_app2, nth_error_map in Hm by exact Hge. destruct (nth_error chars _) as [[ch g]|]; [|discriminate Hm]. injection Hm as <-. exists ch. reflexivity. }
  assert (Hall : forall w f ch, In (w, f) (often wmf tf) -> In ch (w ++ [MARK]) -> has_name init [ch]).
  { intros w f ch Hin Hc. assert (Hnm : In [ch] (map t_name init)).
    { rewrite En. apply in_app_iff. destruct (N.eq_dec ch MARK) as [->|Hne]; [left; cbn; tauto|right].
      apply in_map_iff. exists (ch, char_weight (map (fun wf => (fst wf ++ [MARK], snd wf)) (often wmf tf)) ch). split; [reflexivity|]. apply C6.
      split; [exact Hne|]. split; [|split; [reflexivity|lia]]. exists (w ++ [MARK]), f. split; [|exact Hc]. apply in_map_iff. exists (w, f). auto. }
    apply in_map_iff in Hnm. destruct Hnm as (t & E & Hin'). exists t. auto. }
  assert (Hcf : cube_free_corpus c).
  { intros s f Hin x Hx Hp. destruct (occurs_text init toks _ c Hsp Hw2 Hall (x ++ x ++ x)) as (Hcl' & w & Hwt & Hpw); [exists s, f; auto|].
    rewrite !flat_map_app in Hpw. apply (Hcube w Hwt (flat_map (init_name init) x)); [|exact Hpw].
    intros Ee. apply (f_equal (@length N)) in Ee. rewrite Forall_app in Hcl'. rewrite (text_length init) in Ee by apply Hcl'. destruct x; [contradiction|discriminate Ee]. }
  assert (Hrange : symbols_below (Z.of_nat (length init)) c).
  { intros s f Hin x Hx. destruct (corpus_text init toks _ c Hsp Hw2 Hall s f Hin) as (Hf & _). rewrite Forall_forall in Hf. apply (Hf x Hx). }
  assert (c' = c).
  { apply (cleaned_same true c c'); [|exact Hcl]. intros s f Hin. destruct (corpus_text init toks _ c Hsp Hw2 Hall s f Hin) as (_ & w & _ & E). split.
    - intros ->. cbn in E. destruct w; discriminate E.
    - intros (x & l1 & l2 & El). apply (Hcf s f Hin [x]); [discriminate|]. exists l1, l2. exact El. }
  subst c'.
  pose proof (pp_run _ _ _ _ _ _ HB _ _ _ table (inv_start c init N2 Hrange) Hcf H) as Hrun.
  eapply (text_distinct init table toks (often wmf tf) c); try eassumption.
  intros ty x w _ _ Hne Hwt. exact (Hcube w Hwt (t_name x) Hne).
Qed.

Theorem learn_bpe_cube_free A orders data toks vs mco table : tokens_of KWord data toks -> iteration_orders orders ->
  learn_bpe A orders data vs None mco false = Ok table ->
  (forall w, In w toks -> cube_free (w ++ [MARK])) -> (forall w p, In w toks -> In p placeholders -> ~ part_of p w) ->
  distinct_names table.
Proof.
  intros Ht Ho H Hcube Hp. destruct (learn_bpe_text A orders data toks vs None mco table Ht Ho H) as (init & tfs & c & [] & Hall). specialize (Hall eq_refl).
  assert (Hw : forall w f, In (w, f) tfs -> In w toks).
  { intros w f Hin. destruct tl_counts as [[_ [Hkeys _]] _]. apply Hkeys. apply (in_map fst) in Hin. exact Hin. }
  pose proof (bpe_run _ _ _ _ _ _ tl_bpe table eq_refl) as Hrun. eapply text_distinct; try eassumption.
  intros ty x w _ _ Hne Hwt. exact (Hcube w Hwt (t_name x) Hne).
Qed.
