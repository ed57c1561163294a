(** When the result of learning and of following merges does not depend on the order in which places are
    visited, and when the counts kept are right. *)
From Coq Require Import Strings.String.
From Coq Require Import QArith.
From Verif Require Import Py PyStr PyLemmas StrSpec CodecModel CodecSpec VocabSpec LearnModel ArithModel LearnSpec LearnProofs BpeSpec LearnBpeModel BpeppSpec DistinctSpec OrderSpec
     LearnBpeProofs LearnBpeLoop LearnBpeIndex LearnBpeResults LearnBpeEnd GrowProofs TrackModel TrackSpec TrackProofs DistinctProofs DistinctEnd.
From Coq Require Import Lia.
Local Open Scope Z_scope.
Local Open Scope list_scope.

(** ** One merge *)
Lemma merged_corpus_one a b r c : (a = b -> ~ thrice a c) -> forall c1 c2, merged_corpus a b r c c1 -> merged_corpus a b r c c2 -> c1 = c2.
Proof.
  intros H c1 c2 H1. revert H c2. induction H1 as [|[s f] [s1 f1] c c1 [E M] _ IH]; intros H c2 H2; inversion H2 as [|? [s2 f2] ? c2' [E2 M2] H2']; subst; [reflexivity|].
  cbn [fst snd] in *. subst f1 f2. f_equal.
  - f_equal. eapply merged_one; [|exact M|exact M2]. intros Eab Hr. apply (H Eab). exists s, f. split; [left; reflexivity|exact Hr].
  - apply IH; [|exact H2']. intros Eab (s0 & f0 & Hin & Hr). apply (H Eab). exists s0, f0. split; [right; exact Hin|exact Hr].
Qed.

(** ** Two runs of the learner *)
Lemma bpe_extends mco level n c t r : bpe mco level n c t r -> extends t r.
Proof.
  induction 1 as [c t|n c t p f Hbest Hrare|n c t H0|n c c' t a b f ta tb r Hbest Hfreq Ha Eta Hb Etb Hm HB IH]; intros t' E; try discriminate.
  - injection E as <-. exists []. rewrite app_nil_r. reflexivity.
  - injection E as <-. exists []. rewrite app_nil_r. reflexivity.
  - destruct (IH t' E) as (rest & ->). rewrite <- app_assoc. eexists. reflexivity.
Qed.
Theorem bpe_agree mco level n c t r1 : bpe mco level n c t r1 -> forall r2, bpe mco level n c t r2 ->
  r1 = r2 \/ exists j c' t' a f ta, merges mco level j c t c' t' /\ best c' (a, a) f /\ thrice a c' /\
    0 <= a /\ nth_error t' (Z.to_nat a) = Some ta /\
    let ty := MkType (t_name ta ++ t_name ta) level (Z.of_nat (length t')) f (Some [ta; ta]) in
    extends (t' ++ [ty]) r1 /\ extends (t' ++ [ty]) r2.
Proof.
  induction 1 as [c t|n c t p f Hbest Hrare|n c t H0|n c c' t a b f ta tb r Hbest Hfreq Ha Eta Hb Etb Hm HB IH];
    intros r2 H2; inversion H2 as [|? ? ? p2 f2 Hbest2 Hrare2|? ? ? H02|? ? c2 ? a2 b2 f2 ta2 tb2 ? Hbest2 Hfreq2 Ha2 Eta2 Hb2 Etb2 Hm2 HB2]; subst.
  - left. reflexivity.
  - left. reflexivity.
  - destruct Hbest as (E & F & _). rewrite H02 in E. lia.
  - destruct (best_fun _ _ _ _ _ Hbest Hbest2) as [_ ->]. lia.
  - destruct Hbest2 as (E & F & _). rewrite H0 in E. lia.
  - left. reflexivity.
  - destruct Hbest2 as (E & F & _). rewrite H0 in E. lia.
  - destruct (best_fun _ _ _ _ _ Hbest Hbest2) as [_ ->]. lia.
  - destruct Hbest as (E & F & _). rewrite H02 in E. lia.
  - destruct (best_fun _ _ _ _ _ Hbest Hbest2) as [E <-]. injection E as <- <-.
    assert (ta2 = ta) by congruence. assert (tb2 = tb) by congruence. subst ta2 tb2.
    assert (Hdec : {a = b /\ thrice a c} + {a = b -> ~ thrice a c}).
    { destruct (Z.eq_dec a b) as [E|E]; [|right; intros E'; contradiction].
      destruct (Exists_dec (fun sg => run_of_three a (fst sg)) c) as [H|H].
      - intros [s g]. cbn [fst]. clear. induction s as [|x s [IH|IH]]; [right; intros (l1 & l2 & E); destruct l1; discriminate E| |].
        + left. destruct IH as (l1 & l2 & ->). exists (x :: l1), l2. reflexivity.
        + destruct s as [|y [|z s]]; [right; intros ([|? [|? ?]] & l2 & E); discriminate E|right; intros ([|? [|? [|? ?]]] & l2 & E); discriminate E|].
          destruct (Z.eq_dec x a) as [->|Hx]; [destruct (Z.eq_dec y a) as [->|Hy]; [destruct (Z.eq_dec z a) as [->|Hz]|]|].
          * left. exists [], s. reflexivity.
          * right. intros ([|? l1] & l2 & E); injection E; intros; [congruence|]. apply IH. exists l1, l2. congruence.
          * right. intros ([|? l1] & l2 & E); injection E; intros; [congruence|]. apply IH. exists l1, l2. congruence.
          * right. intros ([|? l1] & l2 & E); injection E; intros; [congruence|]. apply IH. exists l1, l2. congruence.
      - left. split; [exact E|]. apply Exists_exists in H. destruct H as ([s g] & H1 & H2'). exists s, g. auto.
      - right. intros _ (s & g & H1 & H2'). apply H. apply Exists_exists. exists (s, g). auto. }
    destruct Hdec as [[<- H3]|Hno].
    + right. exists O, c, t, a, f, ta. assert (tb = ta) by congruence. subst tb. split; [constructor|]. repeat (split; [assumption|]).
      split; eapply bpe_extends; eassumption.
    + rewrite <- (merged_corpus_one _ _ _ _ Hno _ _ Hm Hm2) in HB2. destruct (IH _ HB2) as [E|(j & c1 & t1 & a1 & f1 & ta1 & M1 & Hrest)]; [left; exact E|].
      right. exists (S j), c1, t1, a1, f1, ta1. split; [|exact Hrest]. exact (mg_step mco level j c c' t a b f ta tb c1 t1 Hbest Hfreq Ha Eta Hb Etb Hm M1).
Qed.

(** ** When the text rules ambiguous merges out *)
Lemma merges_extends mco level j c t c' t' : merges mco level j c t c' t' -> exists new, t' = t ++ new.
Proof.
  induction 1 as [c t|j c c1 t a b f ta tb c2 t2 Hb Hf Ha Ea Hb' Eb Hm H (new & ->)]; [exists []; rewrite app_nil_r; reflexivity|].
  eexists. rewrite <- app_assoc. reflexivity.
Qed.
Lemma merges_inv mco level j c t c' t' : merges mco level j c t c' t' -> forall k c0 E rest, inv k c0 c t E -> doubles_apart k (t' ++ rest) c0 -> exists E', inv k c0 c' t' E'.
Proof.
  induction 1 as [c t|j c c1 t a b f ta tb c2 t2 Hb Hf Ha Ea Hb' Eb Hm H IH]; intros k c0 E rest HI Hd; [eauto|].
  destruct (merges_extends _ _ _ _ _ _ _ H) as (new & Et2). eapply IH; [|exact Hd]. destruct (best_positive_occurs _ _ _ Hb) as (s & g & Hin & Hab).
  pose proof (i_len _ _ _ _ _ HI) as Hl. pose proof (i_k _ _ _ _ _ HI) as Hk.
  apply (inv_step k c0 c c1 t E a b ta tb level f HI); try assumption.
  - exists s, g. split; [exact Hin|apply adjacent_part, Hab].
  - intros <- s0 g0 Hs0. assert (tb = ta) by congruence. subst tb. assert (La : (Z.to_nat a < length t)%nat) by (apply nth_error_Some; congruence).
    apply (Hd (length t) (MkType (t_name ta ++ t_name ta) level (Z.of_nat (length t)) f (Some [ta; ta])) ta (spell1 E a) s0 g0); [| |reflexivity| |exact Hs0].
    + rewrite Et2, <- !app_assoc, nth_error_app2, Nat.sub_diag by lia. reflexivity.
    + lia.
    + rewrite (i_idx _ _ _ _ _ HI _ _ Ea). rewrite Et2, <- !app_assoc. apply spelling_mono. apply (i_spell _ _ _ _ _ HI). apply nth_error_nth'. rewrite Hl. exact La.
Qed.
Lemma inv_not_thrice k c0 c t E a : inv k c0 c t E -> 0 <= a -> (forall s g, In (s, g) c0 -> ~ part_of (spell1 E a ++ spell1 E a ++ spell1 E a) s) -> ~ thrice a c.
Proof.
  intros HI Ha Hno (s & g & Hin & l1 & l2 & Es). assert (Ho : occurs [a; a; a] c) by (exists s, g; split; [exact Hin|exists l1, l2; exact Es]).
  destruct (spell_occurs _ _ _ _ _ _ HI Ho) as (s0 & g0 & Hs0 & Hp). cbn [spell flat_map] in Hp. rewrite app_nil_r in Hp. exact (Hno s0 g0 Hs0 Hp).
Qed.

Theorem codes_order o1 o2 c vocab n mco level table : learnable c vocab -> iteration_orders o1 -> iteration_orders o2 ->
  learn_codes o1 c vocab n mco level = Ok table -> doubles_apart (Z.of_nat (length vocab)) table c -> learn_codes o2 c vocab n mco level = Ok table.
Proof.
  intros Hl H1 H2 E Hd. pose proof (learn_codes_refines o1 c vocab n mco level Hl H1) as B1. rewrite E in B1.
  destruct (bpe_agree _ _ _ _ _ _ B1 _ (learn_codes_refines o2 c vocab n mco level Hl H2)) as [<-|(j & c' & t' & a & f & ta & M & _ & H3 & Ha & Eta & X1 & _)]; [reflexivity|].
  exfalso. destruct (X1 table eq_refl) as (rest & Et). rewrite <- app_assoc in Et.
  destruct (merges_inv _ _ _ _ _ _ _ M _ _ _ ([MkType (t_name ta ++ t_name ta) level (Z.of_nat (length t')) f (Some [ta; ta])] ++ rest) (inv_start c vocab (l_wi _ _ Hl) (l_range _ _ Hl))) as (E' & HI).
  { rewrite <- Et. exact Hd. }
  assert (La : (Z.to_nat a < length t')%nat) by (apply nth_error_Some; congruence).
  apply (inv_not_thrice _ _ _ _ _ _ HI Ha); [|exact H3]. intros s g Hs. pose proof (i_k _ _ _ _ _ HI) as Hk.
  apply (Hd (length t') (MkType (t_name ta ++ t_name ta) level (Z.of_nat (length t')) f (Some [ta; ta])) ta (spell1 E' a) s g); [| |reflexivity| |exact Hs].
  - rewrite Et, nth_error_app2, Nat.sub_diag by lia. reflexivity.
  - lia.
  - rewrite (i_idx _ _ _ _ _ HI _ _ Eta), Et. apply spelling_mono. apply (i_spell _ _ _ _ _ HI). apply nth_error_nth'. rewrite (i_len _ _ _ _ _ HI). exact La.
Qed.
Theorem codes_order_cube_free o1 o2 c vocab n mco level : learnable c vocab -> iteration_orders o1 -> iteration_orders o2 ->
  cube_free_corpus c -> learn_codes o1 c vocab n mco level = learn_codes o2 c vocab n mco level.
Proof.
  intros Hl H1 H2 Hc.
  destruct (bpe_agree _ _ _ _ _ _ (learn_codes_refines o1 c vocab n mco level Hl H1) _ (learn_codes_refines o2 c vocab n mco level Hl H2)) as [E|(j & c' & t' & a & f & ta & M & _ & H3 & Ha & Eta & _)]; [exact E|].
  exfalso. destruct (merges_inv _ _ _ _ _ _ _ M _ _ _ [] (inv_start c vocab (l_wi _ _ Hl) (l_range _ _ Hl)) (cube_free_apart _ _ _ Hc)) as (E' & HI).
  assert (La : (Z.to_nat a < length t')%nat) by (apply nth_error_Some; congruence).
  apply (inv_not_thrice _ _ _ _ _ _ HI Ha); [|exact H3]. intros s g Hs. apply (Hc s g Hs).
  eapply (spelling_nonempty _ t' (Z.of_nat (Z.to_nat a))). apply (i_spell _ _ _ _ _ HI). apply nth_error_nth'. rewrite (i_len _ _ _ _ _ HI). exact La.
Qed.

(** ** From text *)
Lemma codes_none o1 o2 vocab n mco level : learn_codes o1 [] vocab n mco level = learn_codes o2 [] vocab n mco level.
Proof. unfold learn_codes, bpe_init. destruct (assert_ _); [|reflexivity]. cbn [bind]. destruct (foldM _ _ tt); reflexivity. Qed.
Lemma learn_bpe_common A data toks : tokens_of KWord data toks ->
  exists init tfs c, exact_counts toks tfs /\ well_indexed init /\
    (forall n t, nth_error init n = Some t -> (6 <= n)%nat -> exists ch, t_name t = [ch]) /\ spelled_corpus init tfs c /\
    (forall w f ch, In (w, f) tfs -> In ch (w ++ [MARK]) -> has_name init [ch]) /\ (c = [] \/ learnable c init) /\
    forall orders vs mco, 0 < effective_size vs mco ->
      learn_bpe A orders data vs None mco false =
      if Z.of_nat (length init) <? effective_size vs mco
      then learn_codes orders c init (effective_size vs mco - Z.of_nat (length init)) mco L_subword
      else Raise AssertionError.
Proof.
  intros Ht. destruct (term_frequencies KWord data) as [tfs lc] eqn:Etf.
  destruct (term_frequencies_exact KWord data toks tfs lc Ht Etf) as [Hex _].
  assert (Hnd : NoDup (map fst tfs)) by apply Hex.
  assert (Hk : NoDup (map fst (char_freqs (map (fun wf => (fst wf ++ [MARK], snd wf)) tfs)))) by apply char_freqs_keys.
  pose proof (init_outcome A L_char _ None (Some lc) 1 (-1) Hk) as Ho.
  destruct (get_init_vocab A L_char (char_freqs (map (fun wf => (fst wf ++ [MARK], snd wf)) tfs)) None (Some lc) 1 (-1)) as [init|e] eqn:Hi.
  2:{ exfalso. destruct Ho as (c & Hc & _). discriminate. }
  destruct (init_names A tfs None lc init Hnd Hi) as (L1 & L2 & L3 & L4 & L5 & L6).
  destruct (make_idxs_spec init tfs L1 L3 L2 (init_name_shape init L1 L5)) as (c & E & Hc).
  exists init, tfs, c. split; [exact Hex|]. split; [exact L2|]. split; [exact L5|]. split; [exact Hc|]. split; [|split].
  - intros w f ch Hw Hch. apply in_app_iff in Hch. destruct Hch as [Hch|[<-|[]]]; [eapply L6; [reflexivity|eassumption..]|].
    unfold starts_reserved in L1. assert (Hx : In [MARK] (firstn 6 (map t_name init))) by (rewrite L1; cbn; tauto).
    assert (Hx2 : In [MARK] (map t_name init)) by (rewrite <- (firstn_skipn 6 (map t_name init)); apply in_app_iff; left; exact Hx).
    apply in_map_iff in Hx2. destruct Hx2 as (t & E1 & E2). exists t. auto.
  - destruct tfs as [|wf tfs].
    + left. inversion Hc. reflexivity.
    + right. apply (spelled_learnable init (wf :: tfs) c L1 L3 L2 Hc); [discriminate|apply (words_positive _ _ Hex)].
  - intros orders vs mco Hp. unfold learn_bpe. cbv zeta.
    change (if (mco >? 1) && (vs <=? 1) then maxsize else vs) with (effective_size vs mco).
    rewrite (proj2 (Z.gtb_lt _ 0)) by lia. cbn [assert_ bind]. rewrite Etf. cbn [bind].
    unfold learn_subwords. cbv zeta. fold (marked_words tfs). rewrite (marked_words_eq tfs Hnd), Hi. cbn [bind].
    assert (Hvs : effective_size vs mco <> -1) by lia.
    rewrite (proj2 (Z.eqb_neq _ (-1)) Hvs). unfold learn_codes_words. cbv zeta. rewrite (rev_idx_eq init L3).
    rewrite map_length, Nat.eqb_refl. cbn [assert_ bind]. rewrite Z.gtb_ltb. destruct (Z.of_nat (length init) <? effective_size vs mco); [|reflexivity].
    cbn [assert_ bind]. rewrite E. reflexivity.
Qed.
Lemma learn_bpe_negative A orders data vs mco : effective_size vs mco <= 0 -> learn_bpe A orders data vs None mco false = Raise AssertionError.
Proof.
  intros H. unfold learn_bpe. cbv zeta. change (if (mco >? 1) && (vs <=? 1) then maxsize else vs) with (effective_size vs mco).
  destruct (Z.gtb_spec (effective_size vs mco) 0); [lia|reflexivity].
Qed.
Theorem learn_bpe_order A o1 o2 data toks vs mco table : tokens_of KWord data toks -> iteration_orders o1 -> iteration_orders o2 ->
  learn_bpe A o1 data vs None mco false = Ok table ->
  (forall ty x w, In ty table -> t_kids ty = Some [x; x] -> t_name x <> [] -> In w toks -> ~ part_of (t_name x ++ t_name x ++ t_name x) (w ++ [MARK])) ->
  learn_bpe A o2 data vs None mco false = Ok table.
Proof.
  intros Ht H1 H2 H Hc. destruct (learn_bpe_common A data toks Ht) as (init & tfs & c & Hex & Hwi & Hch & Hsp & Hall & Hl & Heq).
  destruct (Z.le_gt_cases (effective_size vs mco) 0) as [Hn|Hp]; [rewrite learn_bpe_negative in H by exact Hn; discriminate|].
  rewrite Heq in H |- * by exact Hp. destruct (_ <? _); [|discriminate H].
  assert (Hw : forall w f, In (w, f) tfs -> In w toks).
  { intros w f Hin. destruct Hex as [[_ [Hkeys _]] _]. apply Hkeys. apply (in_map fst) in Hin. exact Hin. }
  destruct Hl as [->|Hl]; [rewrite (codes_none o2 o1); exact H|].
  eapply codes_order; [exact Hl|exact H1|exact H2|exact H|].
  pose proof (learn_codes_refines o1 c init (effective_size vs mco - Z.of_nat (length init)) mco L_subword Hl H1) as HB. rewrite H in HB.
  exact (text_apart init table toks tfs c Hwi Hch Hsp Hw (bpe_run _ _ _ _ _ _ HB table eq_refl) Hall Hc).
Qed.
Theorem learn_bpe_order_cube_free A o1 o2 data toks vs mco : tokens_of KWord data toks -> iteration_orders o1 -> iteration_orders o2 ->
  (forall w, In w toks -> cube_free (w ++ [MARK])) ->
  learn_bpe A o1 data vs None mco false = learn_bpe A o2 data vs None mco false.
Proof.
  intros Ht H1 H2 Hc.
  assert (G : forall o1 o2 table, iteration_orders o1 -> iteration_orders o2 -> learn_bpe A o1 data vs None mco false = Ok table -> learn_bpe A o2 data vs None mco false = Ok table).
  { clear o1 o2 H1 H2. intros o1 o2 table H1 H2 E. apply (learn_bpe_order A o1 o2 data toks vs mco table Ht H1 H2 E). intros ty x w _ _ Hne Hw. exact (Hc w Hw (t_name x) Hne). }
  destruct (learn_bpe A o1 data vs None mco false) as [t1|e1] eqn:E1; [symmetry; exact (G _ _ _ H1 H2 E1)|].
  destruct (learn_bpe A o2 data vs None mco false) as [t2|e2] eqn:E2; [rewrite (G _ _ _ H2 H1 E2) in E1; discriminate|].
  destruct (learn_bpe_common A data toks Ht) as (init & tfs & c & _ & _ & _ & _ & _ & Hl & Heq).
  destruct (Z.le_gt_cases (effective_size vs mco) 0) as [Hn|Hp]; [rewrite learn_bpe_negative in E1, E2 by exact Hn; congruence|].
  rewrite Heq in E1, E2 by exact Hp. destruct (_ <? _); [|congruence]. destruct Hl as [->|Hl]; [rewrite (codes_none o1 o2), E2 in E1; congruence|].
  pose proof (learn_codes_refines o1 c init (effective_size vs mco - Z.of_nat (length init)) mco L_subword Hl H1) as B1.
  pose proof (learn_codes_refines o2 c init (effective_size vs mco - Z.of_nat (length init)) mco L_subword Hl H2) as B2.
  apply bpe_outcome in B1. apply bpe_outcome in B2. rewrite E1 in B1. rewrite E2 in B2.
  destruct B1 as [(? & B1)|B1]; [discriminate B1|]. destruct B2 as [(? & B2)|B2]; [discriminate B2|]. congruence.
Qed.

(** ** Following merges: how many places a merge of a symbol with itself replaces *)
Lemma replaced_self a r s s' : r <> a -> ~ In r s -> replaced a a r s s' -> ~ In (a, a) (adjacent s') ->
  (count_occ Z.eq_dec s' r <= count_occ pair_dec (adjacent s) (a, a))%nat /\
  (count_occ Z.eq_dec s' r = count_occ pair_dec (adjacent s) (a, a) <-> ~ run_of_three a s).
Proof.
  intros Hra Hr H. induction H as [|x s s' H IH|s s' H IH]; intros Hno.
  - cbn. split; [lia|]. split; [|reflexivity]. intros _ (l1 & l2 & E). destruct l1; discriminate E.
  - assert (Hx : x <> r) by (intros ->; apply Hr; left; reflexivity).
    destruct IH as [I1 I2]; [intros Hin; apply Hr; right; exact Hin| |].
    { intros Hin. apply Hno. destruct s' as [|y s']; [destruct Hin|]. rewrite adjacent_cons2. right. exact Hin. }
    rewrite (count_occ_cons_neq _ _ Hx). destruct s as [|y s].
    + inversion H; subst. cbn. split; [lia|]. split; [|reflexivity]. intros _ (l1 & l2 & E). destruct l1 as [|? l1]; [discriminate E|]. destruct l1; discriminate E.
    + rewrite adjacent_cons2. destruct (pair_dec (x, y) (a, a)) as [E|E].
      * rewrite (count_occ_cons_eq _ _ E). injection E as -> ->. split; [lia|]. split; [lia|]. intros Hrun. exfalso.
        inversion H as [|z s1 s1' H1 E1 E2|s1 s1' H1 E1 E2]; subst.
        -- apply Hno. rewrite adjacent_cons2. left. reflexivity.
        -- apply Hrun. exists [], s1. reflexivity.
      * rewrite (count_occ_cons_neq _ _ E). split; [exact I1|]. rewrite I2. split.
        -- intros Hn (l1 & l2 & El). destruct l1 as [|z l1]; [injection El; intros; subst; congruence|]. injection El as <- El. apply Hn. exists l1, l2. exact El.
        -- intros Hn (l1 & l2 & El). apply Hn. exists (x :: l1), l2. rewrite El. reflexivity.
  - destruct IH as [I1 I2]; [intros Hin; apply Hr; right; right; exact Hin| |].
    { intros Hin. apply Hno. destruct s' as [|y s']; [destruct Hin|]. rewrite adjacent_cons2. right. exact Hin. }
    rewrite (count_occ_cons_eq _ _ eq_refl), adjacent_cons2, (count_occ_cons_eq _ _ eq_refl). destruct s as [|y s].
    + inversion H; subst. cbn. split; [lia|]. split; [|reflexivity]. intros _ ([|? [|? [|? l1]]] & l2 & E); discriminate E.
    + rewrite adjacent_cons2. destruct (pair_dec (a, y) (a, a)) as [E|E].
      * rewrite (count_occ_cons_eq _ _ E). injection E as ->. split; [lia|]. split; [lia|]. intros Hrun. exfalso. apply Hrun. exists [], s. reflexivity.
      * rewrite (count_occ_cons_neq _ _ E). assert (Hy : y <> a) by congruence. split; [lia|]. split.
        -- intros Eq. assert (Hn : ~ run_of_three a (y :: s)) by (apply I2; lia).
           intros (l1 & l2 & El). destruct l1 as [|z [|z2 l1]]; [injection El; intros; congruence|injection El; intros; congruence|].
           injection El as <- <- El. apply Hn. exists l1, l2. exact El.
        -- intros Hn. f_equal. apply I2. intros (l1 & l2 & El). apply Hn. exists (a :: a :: l1), l2. rewrite El. reflexivity.
Qed.
Lemma merged_self a r c c' : r <> a -> (forall s f, In (s, f) c -> ~ In r s) -> positive c -> merged_corpus a a r c c' ->
  symbol_count c' r <= pair_count c (a, a) /\ (symbol_count c' r = pair_count c (a, a) <-> ~ thrice a c).
Proof.
  intros Hra Hr Hp H. induction H as [|[s f] [s' f'] c c' [E [M Hno]] H IH].
  - cbn. split; [lia|]. split; [|reflexivity]. intros _ (s & f & [] & _).
  - cbn [fst snd] in *. subst f'. destruct IH as [I1 I2]; [intros s0 f0 Hin; apply (Hr s0 f0); right; exact Hin|intros s0 f0 Hin; apply (Hp s0 f0); right; exact Hin|].
    pose proof (Hp s f (or_introl eq_refl)) as Hf. destruct (replaced_self a r s s' Hra (Hr s f (or_introl eq_refl)) M Hno) as [J1 J2].
    change (symbol_count ((s', f) :: c') r) with (f * Z.of_nat (count_occ Z.eq_dec s' r) + symbol_count c' r).
    change (pair_count ((s, f) :: c) (a, a)) with (f * Z.of_nat (count_occ pair_dec (adjacent s) (a, a)) + pair_count c (a, a)).
    assert (J1' : f * Z.of_nat (count_occ Z.eq_dec s' r) <= f * Z.of_nat (count_occ pair_dec (adjacent s) (a, a))) by nia.
    split; [lia|]. split.
    + intros Eq (s0 & f0 & [E0|Hin] & Hrun).
      * injection E0 as -> ->. apply J2; [|exact Hrun]. nia.
      * apply I2; [lia|]. exists s0, f0. auto.
    + intros Hn. assert (X1 : ~ run_of_three a s) by (intros Hrun; apply Hn; exists s, f; split; [left; reflexivity|exact Hrun]).
      assert (X2 : ~ thrice a c) by (intros (s0 & f0 & Hin & Hrun); apply Hn; exists s0, f0; split; [right; exact Hin|exact Hrun]).
      apply J2 in X1. apply I2 in X2. rewrite X1, X2. reflexivity.
Qed.

Lemma drift_zero k c ps cs : merging k c ps cs -> forall ts, merge_list k ts ps -> 0 <= k -> symbols_below k c -> positive c -> forall x j,
  0 <= drift x k ps cs j /\
  (drift x k ps cs j = 0 <-> forall i ci, (i < j)%nat -> nth_error ps i = Some (x, x) -> nth_error cs i = Some ci -> ~ thrice x ci).
Proof.
  induction 1 as [k c|k c a b ps c' cs Hm H IH]; intros ts Hml Hk Hs Hp x [|j].
  - cbn. split; [lia|]. split; [intros _ i ci Hi; lia|reflexivity].
  - cbn. split; [lia|]. split; [|reflexivity]. intros _ [|i] ci _ E; discriminate E.
  - cbn. split; [lia|]. split; [intros _ i ci Hi; lia|reflexivity].
  - destruct ts as [|t ts]; [destruct Hml|]. destruct Hml as (_ & _ & Ha & Hb & Hml).
    destruct (IH ts Hml ltac:(lia) (merged_range _ _ _ _ _ Hk Hm Hs) (merged_positive _ _ _ _ _ Hm Hp) x j) as [I1 I2]. cbn [drift].
    assert (Ecs : exists cs', cs = c' :: cs') by (inversion H; eauto). destruct Ecs as (cs' & ->).
    destruct ((a =? b) && (b =? x)) eqn:Eab.
    + apply andb_true_iff in Eab. destruct Eab as [Ea Eb]. apply Z.eqb_eq in Ea, Eb. subst b a.
      destruct (merged_self x k c c' ltac:(lia)) as [J1 J2]; [intros s f Hin Hx; specialize (Hs s f Hin k Hx); lia|exact Hp|exact Hm|].
      split; [lia|]. split.
      * intros E [|i] ci Hi Ep Ec; cbn [nth_error] in Ep, Ec; [injection Ec as <-; apply J2; lia|]. apply (proj1 I2 ltac:(lia) i ci); [lia|exact Ep|exact Ec].
      * intros Hall. assert (E1 : symbol_count c' k = pair_count c (x, x)) by (apply J2; exact (Hall O c ltac:(lia) eq_refl eq_refl)).
        assert (E2 : drift x (k + 1) ps (c' :: cs') j = 0) by (apply I2; intros i ci Hi Ep Ec; exact (Hall (S i) ci ltac:(lia) Ep Ec)). rewrite E1, E2. lia.
    + split; [lia|]. rewrite Z.add_0_l, I2. split.
      * intros Hall [|i] ci Hi Ep Ec; cbn [nth_error] in Ep, Ec; [|exact (Hall i ci ltac:(lia) Ep Ec)].
        injection Ep as -> ->. rewrite !Z.eqb_refl in Eab. discriminate.
      * intros Hall i ci Hi Ep Ec. exact (Hall (S i) ci ltac:(lia) Ep Ec).
Qed.

Theorem counts_right orders k ts ps seqs : iteration_orders orders -> (0 < k)%nat -> merge_list (Z.of_nat k) ts ps ->
  symbols_below (Z.of_nat k) (once seqs) ->
  exists rows cs, track_merges orders k ts (seqs, None) = Ok rows /\ merging (Z.of_nat k) (once seqs) ps cs /\
    length rows = S (length ps) /\ length cs = S (length ps) /\
    forall j rw c, nth_error rows j = Some rw -> nth_error cs j = Some c ->
      (r_counts rw = true_counts (k + j) c <-> unambiguous j ps cs) /\
      forall x, (x < k + j)%nat -> exists v, nth_error (r_counts rw) x = Some v /\ v <= symbol_count c (Z.of_nat x) /\
        (v = symbol_count c (Z.of_nat x) <->
         forall i ci, (i < j)%nat -> nth_error ps i = Some (Z.of_nat x, Z.of_nat x) -> nth_error cs i = Some ci -> ~ thrice (Z.of_nat x) ci).
Proof.
  intros Ho Hk Hm Hs. destruct (counts_drift orders k ts ps seqs Ho Hk Hm Hs) as (rows & cs & E & M & L1 & L2 & R).
  exists rows, cs. repeat (split; [assumption|]). intros j rw c E1 E2. destruct (R j rw c E1 E2) as [R1 R2].
  assert (D : forall x, 0 <= drift x (Z.of_nat k) ps cs j /\
    (drift x (Z.of_nat k) ps cs j = 0 <-> forall i ci, (i < j)%nat -> nth_error ps i = Some (x, x) -> nth_error cs i = Some ci -> ~ thrice x ci)).
  { intros x. apply (drift_zero _ _ _ _ M ts Hm ltac:(lia) Hs (once_positive seqs)). }
  split.
  - split.
    + intros Eq i [a b] ci Hi Ep Ec [Hab Ht]. cbn [fst snd] in Hab, Ht. subst b.
      assert (Ha : 0 <= a < Z.of_nat (k + j)).
      { assert (G : forall ts0 k0 ps0, merge_list k0 ts0 ps0 -> forall i0, nth_error ps0 i0 = Some (a, a) -> 0 <= a < k0 + Z.of_nat i0).
        { clear. induction ts0 as [|t ts0 IH]; intros k0 [|[a0 b0] ps0] H i0 E; try (destruct i0; discriminate E); try (destruct H; fail).
          destruct H as (_ & _ & Ha & _ & H). destruct i0 as [|i0]; [injection E as -> _; lia|]. specialize (IH _ _ H _ E). lia. }
        specialize (G _ _ _ Hm i Ep). lia. }
      specialize (R2 (Z.to_nat a) ltac:(lia)). rewrite Eq in R2. unfold true_counts in R2. rewrite nth_error_map, (nth_error_nth' _ O) in R2 by (rewrite seq_length; lia).
      rewrite seq_nth in R2 by lia. cbn [option_map] in R2. injection R2 as R2. cbn [Nat.add] in R2. rewrite Z2Nat.id in R2 by lia.
      apply (proj1 (proj2 (D a)) ltac:(lia) i ci Hi Ep Ec Ht).
    + intros Hu. apply nth_error_ext. intros x. destruct (Nat.lt_ge_cases x (k + j)) as [Hx|Hx].
      * rewrite (R2 x Hx). unfold true_counts. rewrite nth_error_map, (nth_error_nth' _ O) by (rewrite seq_length; exact Hx). rewrite seq_nth by exact Hx. cbn [option_map Nat.add]. f_equal.
        assert (D0 : drift (Z.of_nat x) (Z.of_nat k) ps cs j = 0); [|lia].
        apply (D (Z.of_nat x)). intros i ci Hi Ep Ec Ht. apply (Hu i _ ci Hi Ep Ec). split; [reflexivity|exact Ht].
      * rewrite (proj2 (nth_error_None (r_counts rw) x)) by lia. symmetry. apply nth_error_None. unfold true_counts. rewrite map_length, seq_length. lia.
  - intros x Hx. eexists. split; [exact (R2 x Hx)|]. destruct (D (Z.of_nat x)) as [D1 D2]. split; [lia|]. rewrite <- D2. lia.
Qed.

(** ** Following merges: the order *)
Lemma merging_one k c ps cs1 : merging k c ps cs1 -> unambiguous (length ps) ps cs1 -> forall cs2, merging k c ps cs2 -> cs1 = cs2.
Proof.
  induction 1 as [k c|k c a b ps c' cs Hm H IH]; intros Hu cs2 H2; inversion H2 as [|? ? ? ? ? c2 cs2' Hm2 H2']; subst; [reflexivity|].
  assert (c2 = c').
  { eapply merged_corpus_one; [|exact Hm2|exact Hm]. intros Eab Ht. apply (Hu O (a, b) c ltac:(cbn; lia) eq_refl eq_refl). split; [exact Eab|exact Ht]. }
  subst c2. f_equal. apply IH; [|exact H2']. intros i p ci Hi Ep Ec. apply (Hu (S i) p ci); [cbn; lia|exact Ep|exact Ec].
Qed.
Theorem track_order o1 o2 k ts ps seqs cs : iteration_orders o1 -> iteration_orders o2 -> (0 < k)%nat -> merge_list (Z.of_nat k) ts ps ->
  symbols_below (Z.of_nat k) (once seqs) -> merging (Z.of_nat k) (once seqs) ps cs -> unambiguous (length ps) ps cs ->
  track_merges o1 k ts (seqs, None) = track_merges o2 k ts (seqs, None).
Proof.
  intros H1 H2 Hk Hm Hs Hmg Hu.
  destruct (track_merges_ok o1 k ts ps seqs H1 Hk Hm Hs) as (r1 & cs1 & E1 & M1 & L1 & K1 & R1).
  destruct (track_merges_ok o2 k ts ps seqs H2 Hk Hm Hs) as (r2 & cs2 & E2 & M2 & L2 & K2 & R2).
  pose proof (merging_one _ _ _ _ Hmg Hu _ M1). pose proof (merging_one _ _ _ _ Hmg Hu _ M2). subst cs1 cs2. rewrite E1, E2. f_equal. apply nth_error_ext. intros j.
  destruct (nth_error cs j) as [c|] eqn:Ec.
  - assert (Hj : (j < S (length ps))%nat) by (rewrite <- K1; apply nth_error_Some; congruence).
    destruct (nth_error r1 j) as [x|] eqn:X1; [|apply nth_error_None in X1; lia].
    destruct (nth_error r2 j) as [y|] eqn:X2; [|apply nth_error_None in X2; lia].
    f_equal. eapply row_unique; [exact (R1 j x c X1 Ec)|exact (R2 j y c X2 Ec)].
  - apply nth_error_None in Ec. rewrite (proj2 (nth_error_None r1 j)), (proj2 (nth_error_None r2 j)) by lia. reflexivity.
Qed.

(** Lines in which nothing occurs three times in a row. *)
Lemma merging_apart k c ps cs : merging k c ps cs -> forall ts E c0, merge_list k ts ps -> k = Z.of_nat (length E) -> symbols_below k c ->
  (forall l, In l E -> l <> []) -> Forall2 (fun s0 s => fst s0 = spell E (fst s)) c0 c -> cube_free_corpus c0 -> unambiguous (length ps) ps cs.
Proof.
  induction 1 as [k c|k c a b ps c' cs Hm H IH]; intros ts E c0 Hml Hk Hs Hne Ht Hc i p ci Hi Ep Ec.
  - cbn in Hi. lia.
  - destruct ts as [|t ts]; [destruct Hml|]. destruct Hml as (_ & _ & Ha & Hb & Hml). destruct i as [|i]; cbn [nth_error] in Ep, Ec.
    + injection Ep as <-. injection Ec as <-. intros [Eab (s & g & Hin & l1 & l2 & Es)]. cbn [fst snd] in *. subst b.
      assert (G : exists s0 g0, In (s0, g0) c0 /\ s0 = spell E s).
      { clear - Ht Hin. induction Ht as [|[s0 g0] [s1 g1] c0 c E1 Ht IH]; [destruct Hin|]. destruct Hin as [E2|Hin]; [injection E2 as -> ->; exists s0, g0; split; [left; reflexivity|exact E1]|].
        destruct (IH Hin) as (s2 & g2 & H1 & H2). exists s2, g2. split; [right; exact H1|exact H2]. }
      destruct G as (s0 & g0 & Hs0 & Es0). apply (Hc s0 g0 Hs0 (spell1 E a)).
      * apply Hne. unfold spell1. apply nth_In. lia.
      * rewrite Es0, Es. rewrite spell_app. cbn [spell flat_map]. exists (spell E l1), (spell E l2). rewrite <- !app_assoc. reflexivity.
    + apply (IH ts (E ++ [spell1 E a ++ spell1 E b]) c0 Hml) with (i := i); try assumption.
      * rewrite app_length. cbn [length]. lia.
      * subst k. apply (merged_range a b _ c); [lia|exact Hm|exact Hs].
      * intros l Hl. apply in_app_iff in Hl. destruct Hl as [Hl|[<-|[]]]; [exact (Hne l Hl)|]. intros E0. apply app_eq_nil in E0. destruct E0 as [E0 _].
        apply (Hne (spell1 E a)); [|exact E0]. unfold spell1. apply nth_In. lia.
      * clear - Ht Hm Hs Hk. revert c' Hm. induction Ht as [|[s0 g0] [s1 g1] c0 c E1 Ht IH]; intros c' Hm; inversion Hm as [|? [s2 g2] ? c2 [E2 [M _]] Hm']; subst; constructor.
        -- cbn [fst] in *. rewrite E1. symmetry. apply spell_replaced; [|exact M]. intros x Hx. exact (Hs s1 g1 (or_introl eq_refl) x Hx).
        -- apply IH; [|exact Hm']. intros s f Hin. exact (Hs s f (or_intror Hin)).
      * cbn [length] in Hi. lia.
Qed.
Theorem lines_apart k ts ps seqs cs : merge_list (Z.of_nat k) ts ps -> symbols_below (Z.of_nat k) (once seqs) -> merging (Z.of_nat k) (once seqs) ps cs ->
  (forall s, In s seqs -> cube_free s) -> unambiguous (length ps) ps cs.
Proof.
  intros Hm Hs Hmg Hc. apply (merging_apart _ _ _ _ Hmg ts (map (fun n => [Z.of_nat n]) (seq 0 k)) (once seqs) Hm).
  - rewrite map_length, seq_length. reflexivity.
  - exact Hs.
  - intros l Hl. apply in_map_iff in Hl. destruct Hl as (n & <- & _). discriminate.
  - clear - Hs. unfold once in *. induction seqs as [|s seqs IH]; cbn [map] in *; constructor.
    + cbn [fst]. assert (Hb : forall x, In x s -> 0 <= x < Z.of_nat k) by (intros x Hx; exact (Hs s 1 (or_introl eq_refl) x Hx)). clear - Hb.
      induction s as [|x s IH]; [reflexivity|]. cbn [spell flat_map]. unfold spell in IH. rewrite <- IH by (intros y Hy; apply Hb; right; exact Hy).
      unfold spell1. pose proof (Hb x (or_introl eq_refl)) as Hx. rewrite (nth_indep _ [] [Z.of_nat 0]) by (rewrite map_length, seq_length; lia).
      rewrite (map_nth (fun n => [Z.of_nat n]) (seq 0 k) O). rewrite seq_nth by lia. cbn [Nat.add app]. rewrite Z2Nat.id by lia. reflexivity.
    + apply IH. intros s0 f0 Hin. exact (Hs s0 f0 (or_intror Hin)).
  - intros s f Hin. unfold once in Hin. apply in_map_iff in Hin. destruct Hin as (s' & E & Hin). injection E as <- <-. exact (Hc s' Hin).
Qed.
