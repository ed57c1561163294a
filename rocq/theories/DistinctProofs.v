(** Merging pairs gives entries with different spellings, as long as no doubled entry occurs three times in
    a row. *)
From Coq Require Import Strings.String.
From Verif Require Import Py PyStr PyLemmas CodecModel CodecSpec BpeSpec BpeppSpec DistinctSpec LearnBpeProofs LearnBpeLoop LearnBpeResults.
From Coq Require Import Lia.
Local Open Scope Z_scope.
Local Open Scope list_scope.

(** ** Parts *)
Lemma part_trans {A} (u v w : list A) : part_of u v -> part_of v w -> part_of u w.
Proof. intros (p & q & ->) (p' & q' & ->). exists (p' ++ p), (q ++ q'). rewrite !app_assoc. reflexivity. Qed.
Lemma part_adjacent {A} (u s : list A) p : part_of u s -> In p (adjacent u) -> In p (adjacent s).
Proof.
  intros (l & q & ->) H. induction l as [|x l IH].
  - cbn [app]. revert H. induction u as [|x u IH]; [intros []|]. destruct u as [|y u]; [intros []|]. cbn [app]. rewrite !adjacent_cons2.
    intros [H|H]; [left; exact H|right; apply IH, H].
  - cbn [app]. destruct (l ++ u ++ q) as [|y m]; [destruct IH|]. rewrite adjacent_cons2. right. exact IH.
Qed.
Lemma adjacent_part {A} (a b : A) s : In (a, b) (adjacent s) -> part_of [a; b] s.
Proof.
  induction s as [|x s IH]; [intros []|]. destruct s as [|y s]; [intros []|]. rewrite adjacent_cons2. intros [E|H].
  - injection E as -> ->. exists [], s. reflexivity.
  - destruct (IH H) as (p & q & E). exists (x :: p), q. cbn [app]. rewrite E. reflexivity.
Qed.

(** ** Replacing and parts *)
Lemma replaced_app_inv a b r s l m : replaced a b r s (l ++ m) -> exists s1 s2, s = s1 ++ s2 /\ replaced a b r s1 l /\ replaced a b r s2 m.
Proof.
  revert s. induction l as [|x l IH]; intros s H.
  - exists [], s. split; [reflexivity|]. split; [constructor|exact H].
  - cbn [app] in H. inversion H as [|y s1 s1' H1 E1 E2|s1 s1' H1 E1 E2]; subst.
    + destruct (IH _ H1) as (t1 & t2 & -> & R1 & R2). exists (x :: t1), t2. split; [reflexivity|]. split; [constructor; exact R1|exact R2].
    + destruct (IH _ H1) as (t1 & t2 & -> & R1 & R2). exists (a :: b :: t1), t2. split; [reflexivity|]. split; [constructor; exact R1|exact R2].
Qed.
Lemma merged_part a b r s s' u' : merged a b r s s' -> part_of u' s' -> exists u, part_of u s /\ merged a b r u u'.
Proof.
  intros [H Hno] Hp. pose proof Hp as (p & q & ->). destruct (replaced_app_inv _ _ _ _ _ _ H) as (s1 & s2 & -> & _ & R2).
  destruct (replaced_app_inv _ _ _ _ _ _ R2) as (s3 & s4 & -> & R3 & _). exists s3. split; [exists s1, s4; reflexivity|]. split; [exact R3|].
  intros Hin. apply Hno. eapply part_adjacent; eassumption.
Qed.
Lemma merged_alone a r s s' : ~ run_of_three a s -> merged a a r s s' -> s' = replace_left a a r s.
Proof.
  assert (G : forall n s, (length s < n)%nat -> forall s', ~ run_of_three a s -> replaced a a r s s' -> ~ In (a, a) (adjacent s') -> s' = replace_left a a r s).
  2:{ intros Hr [H1 H2]. exact (G (S (length s)) s (Nat.lt_succ_diag_r _) s' Hr H1 H2). }
  clear s s'. induction n as [|n IH]; intros s Hl s' Hr Hrp Hno; [lia|]. inversion Hrp as [E1 E2|x s1 s1' Hr1 E1 E2|s1 s1' Hr1 E1 E2]; subst.
  - reflexivity.
  - assert (Hno1 : ~ In (a, a) (adjacent s1')) by (intros H; apply Hno; destruct s1'; [destruct H|]; rewrite adjacent_cons2; right; exact H).
    assert (Hrt : ~ run_of_three a s1) by (intros (l1 & l2 & E); apply Hr; exists (x :: l1), l2; rewrite E; reflexivity).
    cbn [length] in Hl. destruct s1 as [|y s2]; [inversion Hr1; subst; reflexivity|]. rewrite replace_left_cons2.
    rewrite <- (IH (y :: s2)) with (s' := s1') by (auto; cbn [length] in *; lia).
    destruct (Z.eqb_spec x a) as [->|Hx]; [|reflexivity]. destruct (Z.eqb_spec y a) as [->|Hy]; [|reflexivity]. exfalso.
    inversion Hr1 as [|x' s3 s3' Hr3 E1 E2|s3 s3' Hr3 E1 E2]; subst.
    + apply Hno. rewrite adjacent_cons2. left. reflexivity.
    + apply Hr. exists [], s3. reflexivity.
  - assert (Hrt : ~ run_of_three a s1) by (intros (l1 & l2 & E); apply Hr; exists (a :: a :: l1), l2; rewrite E; reflexivity).
    cbn [length] in Hl. rewrite replace_left_cons2. rewrite !Z.eqb_refl. cbn [andb]. f_equal. apply IH; [lia|exact Hrt|exact Hr1|].
    intros H. apply Hno. destruct s1'; [destruct H|]. rewrite adjacent_cons2. right. exact H.
Qed.
Lemma merged_one a b r s s1 s2 : (a = b -> ~ run_of_three a s) -> merged a b r s s1 -> merged a b r s s2 -> s1 = s2.
Proof.
  intros H M1 M2. destruct (Z.eq_dec a b) as [<-|Hab].
  - rewrite (merged_alone _ _ _ _ (H eq_refl) M1), (merged_alone _ _ _ _ (H eq_refl) M2). reflexivity.
  - rewrite (merged_replace_left _ _ _ _ _ Hab M1), (merged_replace_left _ _ _ _ _ Hab M2). reflexivity.
Qed.

(** ** Expanding symbols *)
Definition spell1 (E : list (list Z)) (x : Z) : list Z := nth (Z.to_nat x) E [].
Definition spell (E : list (list Z)) (s : list Z) : list Z := flat_map (spell1 E) s.
Lemma spell_app E s s' : spell E (s ++ s') = spell E s ++ spell E s'.
Proof. apply flat_map_app. Qed.
Lemma spell_part E u s : part_of u s -> part_of (spell E u) (spell E s).
Proof. intros (p & q & ->). exists (spell E p), (spell E q). rewrite !spell_app. reflexivity. Qed.
Lemma spell1_old E l x : 0 <= x < Z.of_nat (length E) -> spell1 (E ++ [l]) x = spell1 E x.
Proof. intros H. unfold spell1. apply app_nth1. lia. Qed.
Lemma spell1_new E l : spell1 (E ++ [l]) (Z.of_nat (length E)) = l.
Proof. unfold spell1. rewrite Nat2Z.id, app_nth2, Nat.sub_diag by lia. reflexivity. Qed.
Lemma spell_replaced E a b u u' : (forall x, In x u -> 0 <= x < Z.of_nat (length E)) ->
  replaced a b (Z.of_nat (length E)) u u' -> spell (E ++ [spell1 E a ++ spell1 E b]) u' = spell E u.
Proof.
  intros Hb H. induction H as [|x s s' H IH|s s' H IH]; cbn [spell flat_map].
  - reflexivity.
  - rewrite spell1_old by (apply Hb; left; reflexivity). f_equal. apply IH. intros y Hy. apply Hb. right. exact Hy.
  - rewrite spell1_new, <- app_assoc. do 2 f_equal. apply IH. intros y Hy. apply Hb. right. right. exact Hy.
Qed.

(** ** Merging, whatever the choice of the pairs *)
Inductive run : corpus -> list Typ -> list Typ -> Prop :=
| run_done c t : run c t t
| run_merge c c' t a b ta tb level f t2 :
    (exists s g, In (s, g) c /\ In (a, b) (adjacent s)) -> 0 <= a -> nth_error t (Z.to_nat a) = Some ta -> 0 <= b -> nth_error t (Z.to_nat b) = Some tb ->
    merged_corpus a b (Z.of_nat (length t)) c c' ->
    run c' (t ++ [MkType (t_name ta ++ t_name tb) level (Z.of_nat (length t)) f (Some [ta; tb])]) t2 -> run c t t2.
Lemma bpe_run mco level n c t r : bpe mco level n c t r -> forall t2, r = Ok t2 -> run c t t2.
Proof.
  induction 1 as [c t|n c t p f Hb Hf|n c t H|n c c' t a b f ta tb r Hb Hf Ha Ea Hb' Eb Hm HB IH]; intros t2 Er.
  - injection Er as <-. constructor.
  - injection Er as <-. constructor.
  - discriminate.
  - exact (run_merge c c' t a b ta tb level f t2 (best_positive_occurs _ _ _ Hb) Ha Ea Hb' Eb Hm (IH t2 Er)).
Qed.
Lemma run_extends c t t2 : run c t t2 -> exists new, t2 = t ++ new.
Proof. induction 1 as [|? ? ? ? ? ? ? ? ? ? ? ? ? ? ? ? ? (new & ->)]; [exists []; rewrite app_nil_r; reflexivity|]. eexists. rewrite <- app_assoc. reflexivity. Qed.

Definition occurs (u : list Z) (c : corpus) : Prop := exists s f, In (s, f) c /\ part_of u s.
Lemma merged_occurs a b r c c' u' : merged_corpus a b r c c' -> occurs u' c' -> exists u, occurs u c /\ merged a b r u u'.
Proof.
  intros H (s' & f & Hin & Hp). apply In_nth_error in Hin. destruct Hin as (n & Hn). revert n Hn.
  induction H as [|[s1 f1] [s1' f1'] c c' [E M] H IH]; intros [|n] Hn; try discriminate Hn; cbn [nth_error] in Hn.
  - injection Hn as <- <-. cbn [fst snd] in *. destruct (merged_part _ _ _ _ _ _ M Hp) as (u & P & R). exists u. split; [|exact R]. exists s1, f1. split; [left; reflexivity|exact P].
  - destruct (IH n Hn) as (u & (s & g & Hs & P) & R). exists u. split; [|exact R]. exists s, g. split; [right; exact Hs|exact P].
Qed.
Lemma spelling_mono k t new m l : spelling k t m l -> spelling k (t ++ new) m l.
Proof.
  induction 1 as [m H|m ty a b la lb H E Ek _ IHa _ IHb]; [constructor; exact H|].
  eapply sp_joined; try eassumption. rewrite nth_error_app1; [exact E|]. apply nth_error_Some. congruence.
Qed.

Record inv (k : Z) (c0 c : corpus) (t : list Typ) (E : list (list Z)) : Prop := MkInv {
  i_len : length E = length t;
  i_idx : well_indexed t;
  i_k : 0 <= k <= Z.of_nat (length t);
  i_spell : forall m l, nth_error E m = Some l -> spelling k t (Z.of_nat m) l;
  i_occurs : forall m l, nth_error E m = Some l -> k <= Z.of_nat m -> occurs l c0;
  i_text : Forall2 (fun s0 s => fst s0 = spell E (fst s)) c0 c;
  i_range : symbols_below (Z.of_nat (length t)) c;
  i_one : forall u u', occurs u c -> occurs u' c -> spell E u = spell E u' -> u = u';
  i_entry : forall u m l, occurs u c -> nth_error E m = Some l -> spell E u = l -> u = [Z.of_nat m];
  i_distinct : NoDup E }.

Lemma occurs_range k c u : symbols_below k c -> occurs u c -> forall x, In x u -> 0 <= x < k.
Proof. intros H (s & f & Hin & p & q & ->) x Hx. apply (H _ _ Hin). rewrite !in_app_iff. auto. Qed.
Lemma spell_occurs k c0 c t E u : inv k c0 c t E -> occurs u c -> occurs (spell E u) c0.
Proof.
  intros H (s & f & Hin & Hp). apply In_nth_error in Hin. destruct Hin as (n & Hn).
  pose proof (i_text _ _ _ _ _ H) as HT. clear H. revert n Hn. induction HT as [|[s0 f0] [s1 f1] c0 c E1 HT IH]; intros [|n] Hn; try discriminate Hn; cbn [nth_error] in Hn.
  - injection Hn as -> ->. cbn [fst] in E1. exists s0, f0. split; [left; reflexivity|]. rewrite E1. apply spell_part, Hp.
  - destruct (IH n Hn) as (s2 & f2 & H1 & H2). exists s2, f2. split; [right; exact H1|exact H2].
Qed.
Lemma spell_entry E x l : spell1 E x = l -> spell E [x] = l.
Proof. intros <-. cbn [spell flat_map]. apply app_nil_r. Qed.

Lemma inv_step k c0 c c' t E a b ta tb level f : inv k c0 c t E ->
  occurs [a; b] c -> nth_error t (Z.to_nat a) = Some ta -> nth_error t (Z.to_nat b) = Some tb ->
  merged_corpus a b (Z.of_nat (length t)) c c' ->
  (a = b -> forall s g, In (s, g) c0 -> ~ part_of (spell1 E a ++ spell1 E a ++ spell1 E a) s) ->
  inv k c0 c' (t ++ [MkType (t_name ta ++ t_name tb) level (Z.of_nat (length t)) f (Some [ta; tb])]) (E ++ [spell1 E a ++ spell1 E b]).
Proof.
  intros HI Hab Ea Eb Hm Hap. set (nt := MkType _ _ _ _ _). pose proof (i_len _ _ _ _ _ HI) as Hl. pose proof (i_range _ _ _ _ _ HI) as Hr.
  set (E' := E ++ [spell1 E a ++ spell1 E b]).
  assert (Ra : 0 <= a < Z.of_nat (length t)) by (apply (occurs_range _ _ _ Hr Hab); left; reflexivity).
  assert (Rb : 0 <= b < Z.of_nat (length t)) by (apply (occurs_range _ _ _ Hr Hab); right; left; reflexivity).
  assert (Hwi : well_indexed (t ++ [nt])).
  { intros n ty Hn. destruct (Nat.lt_ge_cases n (length t)) as [Hlt|Hge].
    - rewrite nth_error_app1 in Hn by exact Hlt. exact (i_idx _ _ _ _ _ HI n ty Hn).
    - rewrite nth_error_app2 in Hn by exact Hge. destruct (n - length t)%nat as [|j] eqn:Ej; [|destruct j; discriminate Hn]. injection Hn as <-. cbn [nt t_idx]. lia. }
  assert (Hback : forall u', occurs u' c' -> exists u, occurs u c /\ merged a b (Z.of_nat (length t)) u u' /\ spell E' u' = spell E u).
  { intros u' Hu. destruct (merged_occurs _ _ _ _ _ _ Hm Hu) as (u & Ou & M). exists u. split; [exact Ou|]. split; [exact M|].
    unfold E'. apply spell_replaced; rewrite Hl; [|exact (proj1 M)]. exact (occurs_range _ _ _ Hr Ou). }
  assert (Hrun : forall u, occurs u c -> a = b -> ~ run_of_three a u).
  { intros u Ou Eab (l1 & l2 & El). destruct (spell_occurs _ _ _ _ _ _ HI Ou) as (s & g & Hin & Hp). apply (Hap Eab s g Hin).
    eapply part_trans; [|exact Hp]. subst u. exists (spell E l1), (spell E l2). rewrite spell_app. cbn [spell flat_map]. rewrite <- !app_assoc. reflexivity. }
  assert (Hnew : forall u, occurs u c -> spell E u = spell1 E a ++ spell1 E b -> u = [a; b]).
  { intros u Ou Es. apply (i_one _ _ _ _ _ HI); [exact Ou|exact Hab|]. rewrite Es. cbn [spell flat_map]. rewrite app_nil_r. reflexivity. }
  constructor.
  - unfold E'. rewrite !app_length, Hl. reflexivity.
  - exact Hwi.
  - rewrite app_length. pose proof (i_k _ _ _ _ _ HI). lia.
  - intros m l Hn. destruct (Nat.lt_ge_cases m (length E)) as [Hlt|Hge].
    + unfold E' in Hn. rewrite nth_error_app1 in Hn by exact Hlt. apply spelling_mono, (i_spell _ _ _ _ _ HI), Hn.
    + unfold E' in Hn. rewrite nth_error_app2 in Hn by exact Hge. destruct (m - length E)%nat as [|j] eqn:Ej; [|destruct j; discriminate Hn]. injection Hn as <-.
      assert (Em : m = length t) by lia. subst m.
      eapply (sp_joined _ _ _ nt ta tb).
      * pose proof (i_k _ _ _ _ _ HI). lia.
      * rewrite Nat2Z.id, nth_error_app2, Nat.sub_diag by lia. reflexivity.
      * reflexivity.
      * rewrite (i_idx _ _ _ _ _ HI _ _ Ea). apply spelling_mono, (i_spell _ _ _ _ _ HI). unfold spell1. apply nth_error_nth'. lia.
      * rewrite (i_idx _ _ _ _ _ HI _ _ Eb). apply spelling_mono, (i_spell _ _ _ _ _ HI). unfold spell1. apply nth_error_nth'. lia.
  - intros m l Hn Hk. destruct (Nat.lt_ge_cases m (length E)) as [Hlt|Hge].
    + unfold E' in Hn. rewrite nth_error_app1 in Hn by exact Hlt. exact (i_occurs _ _ _ _ _ HI m l Hn Hk).
    + unfold E' in Hn. rewrite nth_error_app2 in Hn by exact Hge. destruct (m - length E)%nat as [|j] eqn:Ej; [|destruct j; discriminate Hn]. injection Hn as <-.
      pose proof (spell_occurs _ _ _ _ _ _ HI Hab) as H. cbn [spell flat_map] in H. rewrite app_nil_r in H. exact H.
  - pose proof (i_text _ _ _ _ _ HI) as HT. clear - HT Hm Hr Hl. revert Hr c' Hm. unfold E'. induction HT as [|[s0 f0] [s1 f1] c0 c E1 HT IH]; intros Hr c' Hm; inversion Hm as [|? [s2 f2] ? c2 [Ef M] Hm']; subst; [constructor|].
    cbn [fst snd] in *. constructor.
    + cbn [fst]. rewrite E1. symmetry. apply spell_replaced; rewrite Hl; [|exact (proj1 M)]. exact (Hr s1 f1 (or_introl eq_refl)).
    + apply IH; [|exact Hm']. intros s f H. apply (Hr s f). right. exact H.
  - rewrite app_length. cbn [length]. rewrite Nat2Z.inj_add. change (Z.of_nat 1) with 1. eapply merged_range; [lia|exact Hm|exact Hr].
  - intros u' v' Hu Hv Es. destruct (Hback u' Hu) as (u & Ou & Mu & Eu). destruct (Hback v' Hv) as (v & Ov & Mv & Ev).
    assert (u = v) by (apply (i_one _ _ _ _ _ HI); [exact Ou|exact Ov|congruence]). subst v.
    exact (merged_one _ _ _ _ _ _ (Hrun u Ou) Mu Mv).
  - intros u' m l Hu Hn Es. destruct (Hback u' Hu) as (u & Ou & Mu & Eu). destruct (Nat.lt_ge_cases m (length E)) as [Hlt|Hge].
    + unfold E' in Hn. rewrite nth_error_app1 in Hn by exact Hlt.
      assert (Eu1 : u = [Z.of_nat m]) by (apply (i_entry _ _ _ _ _ HI u m l Ou Hn); congruence). subst u.
      destruct Mu as [Mu _]. inversion Mu as [|x s s' H0 E1 E2|]; subst. inversion H0; subst. reflexivity.
    + unfold E' in Hn. rewrite nth_error_app2 in Hn by exact Hge. destruct (m - length E)%nat as [|j] eqn:Ej; [|destruct j; discriminate Hn]. injection Hn as <-.
      assert (Em : m = length t) by lia. subst m. assert (Eu1 : u = [a; b]) by (apply Hnew; [exact Ou|congruence]). subst u.
      destruct Mu as [Mu Hno]. inversion Mu as [|x s s' H0 E1 E2|s s' H0 E1 E2]; subst.
      * inversion H0 as [|x s1 s1' H1 E1 E2|s1 s1' H1 E1 E2]; subst. inversion H1; subst. exfalso. apply Hno. left. reflexivity.
      * inversion H0; subst. reflexivity.
  - unfold E'. apply NoDup_app_iff. split; [exact (i_distinct _ _ _ _ _ HI)|]. split; [repeat constructor; intros []|].
    intros l H1 H2. destruct H2 as [<-|[]]. apply In_nth_error in H1. destruct H1 as (m & Hm').
    assert (H : [a; b] = [Z.of_nat m]).
    { apply (i_entry _ _ _ _ _ HI _ _ _ Hab Hm'). cbn [spell flat_map]. rewrite app_nil_r. reflexivity. }
    discriminate H.
Qed.

Lemma spelling_one k t m l : spelling k t m l -> forall l', spelling k t m l' -> l = l'.
Proof.
  induction 1 as [m H|m ty a b la lb H E Ek _ IHa _ IHb]; intros l' H'; inversion H' as [m' H1|m' ty' a' b' la' lb' H1 E' Ek' Ha' Hb']; subst; try lia; [reflexivity|].
  assert (ty' = ty) by congruence. subst ty'. rewrite Ek in Ek'. injection Ek' as <- <-. rewrite (IHa _ Ha'), (IHb _ Hb'). reflexivity.
Qed.
Lemma spelling_range k t m l : 0 <= k <= Z.of_nat (length t) -> spelling k t m l -> 0 <= m < Z.of_nat (length t).
Proof.
  intros Hk H. destruct H as [m H|m ty a b la lb H E Ek _ _]; [lia|]. assert (Z.to_nat m < length t)%nat by (apply nth_error_Some; congruence). lia.
Qed.

Lemma inv_start c t : well_indexed t -> symbols_below (Z.of_nat (length t)) c ->
  inv (Z.of_nat (length t)) c c t (map (fun n => [Z.of_nat n]) (seq 0 (length t))).
Proof.
  intros Hwi Hr. set (E := map _ _).
  assert (Hn : forall m l, nth_error E m = Some l <-> (m < length t)%nat /\ l = [Z.of_nat m]).
  { intros m l. unfold E. rewrite nth_error_map. destruct (Nat.lt_ge_cases m (length t)) as [H|H].
    - rewrite (nth_error_nth' _ 0%nat) by (rewrite seq_length; exact H). rewrite seq_nth by exact H. cbn [option_map Nat.add].
      split; [intros [= <-]; auto|intros [_ ->]; reflexivity].
    - rewrite (proj2 (nth_error_None _ _)) by (rewrite seq_length; exact H). split; [discriminate|intros [H1 _]; lia]. }
  assert (H1 : forall x, 0 <= x < Z.of_nat (length t) -> spell1 E x = [x]).
  { intros x Hx. unfold spell1. apply nth_error_nth. apply Hn. split; [lia|]. f_equal. lia. }
  assert (Hs : forall s, (forall x, In x s -> 0 <= x < Z.of_nat (length t)) -> spell E s = s).
  { induction s as [|x s IH]; intros H; [reflexivity|]. cbn [spell flat_map]. rewrite H1 by (apply H; left; reflexivity). cbn [app]. f_equal. apply IH. intros y Hy. apply H. right. exact Hy. }
  assert (Ho : forall u, occurs u c -> spell E u = u) by (intros u Hu; apply Hs; exact (occurs_range _ _ _ Hr Hu)).
  constructor.
  - unfold E. rewrite map_length, seq_length. reflexivity.
  - exact Hwi.
  - lia.
  - intros m l H. apply Hn in H. destruct H as [H ->]. constructor. lia.
  - intros m l H Hk. apply Hn in H. lia.
  - assert (G : forall c1 : corpus, (forall s f, In (s, f) c1 -> In (s, f) c) -> Forall2 (fun s0 s => fst s0 = spell E (fst s)) c1 c1).
    { induction c1 as [|[s f] c1 IH]; intros H; constructor.
      - cbn [fst]. symmetry. apply Hs. exact (Hr s f (H s f (or_introl eq_refl))).
      - apply IH. intros s1 f1 H2. apply H. right. exact H2. }
    apply G. auto.
  - exact Hr.
  - intros u u' Hu Hu' Es. rewrite !Ho in Es by assumption. exact Es.
  - intros u m l Hu Hm Es. apply Hn in Hm. destruct Hm as [_ ->]. rewrite Ho in Es by exact Hu. exact Es.
  - unfold E. apply FinFun.Injective_map_NoDup; [|apply seq_NoDup]. intros x y H. injection H as H. lia.
Qed.

Lemma run_inv c t t2 : run c t t2 -> forall k c0 E, inv k c0 c t E -> doubles_apart k t2 c0 -> exists c2 E2, inv k c0 c2 t2 E2.
Proof.
  induction 1 as [c t|c c' t a b ta tb level f t2 (s & g & Hin & Hab) Ha Ea Hb Eb Hm Hrun IH]; intros k c0 E HI Hd; [eauto|].
  destruct (run_extends _ _ _ Hrun) as (new & Et2). eapply IH; [|exact Hd].
  pose proof (i_len _ _ _ _ _ HI) as Hl. pose proof (i_k _ _ _ _ _ HI) as Hk.
  apply (inv_step k c0 c c' t E a b ta tb level f HI); try assumption.
  - exists s, g. split; [exact Hin|]. apply adjacent_part, Hab.
  - intros <- s0 g0 Hs0. assert (tb = ta) by congruence. subst tb.
    assert (En : nth_error t2 (length t) = Some (MkType (t_name ta ++ t_name ta) level (Z.of_nat (length t)) f (Some [ta; ta])))
      by (rewrite Et2, <- app_assoc, nth_error_app2, Nat.sub_diag by lia; reflexivity).
    eapply (Hd _ _ ta _ s0 g0 En); [lia|reflexivity| |exact Hs0].
    rewrite (i_idx _ _ _ _ _ HI _ _ Ea), Et2. rewrite <- app_assoc. apply spelling_mono, (i_spell _ _ _ _ _ HI). unfold spell1. apply nth_error_nth'.
    assert (Z.to_nat a < length t)%nat by (apply nth_error_Some; congruence). lia.
Qed.

Theorem run_distinct c t t2 : run c t t2 -> well_indexed t -> symbols_below (Z.of_nat (length t)) c ->
  doubles_apart (Z.of_nat (length t)) t2 c ->
  (forall m, 0 <= m < Z.of_nat (length t2) -> exists l, spelling (Z.of_nat (length t)) t2 m l /\ (Z.of_nat (length t) <= m -> occurs l c)) /\
  (forall m m' l, spelling (Z.of_nat (length t)) t2 m l -> spelling (Z.of_nat (length t)) t2 m' l -> m = m').
Proof.
  intros Hrun Hwi Hr Hd. destruct (run_inv _ _ _ Hrun _ _ _ (inv_start c t Hwi Hr) Hd) as (c2 & E2 & HI). set (k := Z.of_nat (length t)) in *.
  pose proof (i_len _ _ _ _ _ HI) as Hl. pose proof (i_k _ _ _ _ _ HI) as Hk.
  assert (Hex : forall m, 0 <= m < Z.of_nat (length t2) -> nth_error E2 (Z.to_nat m) = Some (spell1 E2 m)) by (intros m Hm; apply nth_error_nth'; lia).
  assert (Hsp : forall m, 0 <= m < Z.of_nat (length t2) -> spelling k t2 m (spell1 E2 m)).
  { intros m Hm. rewrite <- (Z2Nat.id m) at 1 by lia. apply (i_spell _ _ _ _ _ HI), Hex, Hm. }
  split.
  - intros m Hm. exists (spell1 E2 m). split; [apply Hsp, Hm|]. intros Hkm. apply (i_occurs _ _ _ _ _ HI _ _ (Hex m Hm)). lia.
  - intros m m' l H H'. pose proof (spelling_range _ _ _ _ Hk H) as Rm. pose proof (spelling_range _ _ _ _ Hk H') as Rm'.
    pose proof (spelling_one _ _ _ _ H _ (Hsp m Rm)) as E1. pose proof (spelling_one _ _ _ _ H' _ (Hsp m' Rm')) as E1'.
    assert (Z.to_nat m = Z.to_nat m').
    { apply (proj1 (NoDup_nth_error E2) (i_distinct _ _ _ _ _ HI)); [lia|]. rewrite (Hex m Rm), (Hex m' Rm'). congruence. }
    lia.
Qed.
