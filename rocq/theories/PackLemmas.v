(** Facts about greedy packing. *)
From Verif Require Import Py DbSpec.
From Coq Require Import Lia.
Local Open Scope Z_scope.
Local Open Scope list_scope.

Section Greedy.
  Context {R : Type} (fits : list R -> R -> Prop).
  Lemma app_two_last (a b : list (list R)) g h x : a ++ g :: h :: b = x -> forall y z, x = y ++ [z] ->
    (b = [] /\ z = h /\ y = a ++ [g]) \/ exists b', b = b' ++ [z] /\ y = a ++ g :: h :: b'.
  Proof.
    intros <- y z E. destruct b as [|b0 b] using rev_ind.
    - left. change (a ++ [g; h]) with (a ++ [g] ++ [h]) in E. rewrite app_assoc in E. apply app_inj_tail in E. destruct E as [<- <-]. auto.
    - right. clear IHb. exists b. replace (a ++ g :: h :: b ++ [b0]) with ((a ++ g :: h :: b) ++ [b0]) in E by (rewrite <- app_assoc; reflexivity).
      apply app_inj_tail in E. destruct E as [<- <-]. auto.
  Qed.
  Lemma greedy_nil : greedy fits [].
  Proof. split; [intros g []|]. intros [|b0 b] g r h a E; discriminate E. Qed.
  Lemma greedy_first r : greedy fits [[r]].
  Proof.
    split.
    - intros g [<-|[]]. split; [discriminate|]. intros [|x p] r' s E Hp; [contradiction|]. destruct p; discriminate E.
    - intros [|b0 [|b1 b]] g r' h a E; discriminate E.
  Qed.
  Lemma greedy_join gs g r : greedy fits (gs ++ [g]) -> fits g r -> greedy fits (gs ++ [g ++ [r]]).
  Proof.
    intros [H1 H2] Hf. split.
    - intros x Hx. apply in_app_iff in Hx. destruct Hx as [Hx|[<-|[]]]; [apply H1, in_app_iff; left; exact Hx|].
      destruct (H1 g) as [Hg Hp]; [apply in_app_iff; right; left; reflexivity|]. split; [destruct g; discriminate|].
      intros p r' s E Hpne. destruct s as [|s0 s] using rev_ind.
      + apply app_inj_tail in E. destruct E as [<- <-]. exact Hf.
      + clear IHs. replace (p ++ r' :: s ++ [s0]) with ((p ++ r' :: s) ++ [s0]) in E by (rewrite <- app_assoc; reflexivity). apply app_inj_tail in E. destruct E as [-> _].
        apply (Hp p r' s eq_refl Hpne).
    - intros a x r' h b E. symmetry in E. destruct (app_two_last _ _ _ _ _ E _ _ eq_refl) as [(-> & E1 & E2)|(b' & -> & E2)].
      + destruct g as [|g0 g]; [exfalso; destruct (H1 []) as [Hx _]; [apply in_app_iff; right; left; reflexivity|apply Hx; reflexivity]|].
        cbn [app] in E1. injection E1 as <- <-. apply (H2 a x g0 g []). rewrite E2, <- app_assoc. reflexivity.
      + apply (H2 a x r' h (b' ++ [g])). rewrite E2, <- app_assoc. reflexivity.
  Qed.
  Lemma greedy_new gs g r : greedy fits (gs ++ [g]) -> ~ fits g r -> greedy fits ((gs ++ [g]) ++ [[r]]).
  Proof.
    intros [H1 H2] Hf. split.
    - intros x Hx. apply in_app_iff in Hx. destruct Hx as [Hx|Hx]; [apply H1, Hx|]. apply (proj1 (greedy_first r)), Hx.
    - intros a x r' h b E. symmetry in E. destruct (app_two_last _ _ _ _ _ E _ _ eq_refl) as [(-> & E1 & E2)|(b' & -> & E2)].
      + injection E1 as <- <-. apply app_inj_tail in E2. destruct E2 as [_ <-]. exact Hf.
      + apply (H2 a x r' h b'). exact E2.
  Qed.
  (** bounds carry over to the batches *)
  Lemma greedy_bound (B : list R -> Prop) gs : greedy fits gs -> (forall g r, In g gs -> In r g -> B [r]) ->
    (forall p r, p <> [] -> fits p r -> B (p ++ [r])) -> forall g, In g gs -> B g.
  Proof.
    intros [H1 _] Hs Hp g Hg. destruct (H1 g Hg) as [Hne Hf]. destruct g as [|r g] using rev_ind; [contradiction|]. clear IHg.
    destruct g as [|x g]; [apply (Hs _ r Hg); left; reflexivity|]. apply Hp; [discriminate|]. apply (Hf (x :: g) r []); [reflexivity|discriminate].
  Qed.
  (** a packing is determined by the sequence *)
  Lemma greedy_tail g gs : greedy fits (g :: gs) -> greedy fits gs.
  Proof.
    intros [H1 H2]. split; [intros x Hx; apply H1; right; exact Hx|]. intros a x r h b E. apply (H2 (g :: a) x r h b). rewrite E. reflexivity.
  Qed.
  Lemma greedy_unique gs gs' : greedy fits gs -> greedy fits gs' -> concat gs = concat gs' -> gs = gs'.
  Proof.
    revert gs'. induction gs as [|g gs IH]; intros [|g' gs'] H H' E; [reflexivity| | |].
    - exfalso. destruct (proj1 H' g' (or_introl eq_refl)) as [Hne _]. destruct g'; [contradiction|discriminate].
    - exfalso. destruct (proj1 H g (or_introl eq_refl)) as [Hne _]. destruct g; [contradiction|discriminate].
    - assert (Hg : g = g').
      { cbn [concat] in E. assert (Hcase : exists l, g = g' ++ l /\ l ++ concat gs = concat gs' \/ g' = g ++ l /\ concat gs = l ++ concat gs').
        { clear - E. revert g' E. induction g as [|x g IHg]; intros g' E; [exists g'; right; split; [reflexivity|exact E]|].
          destruct g' as [|y g']; [exists (x :: g); left; split; [reflexivity|exact E]|]. cbn [app] in E. injection E as -> E.
          destruct (IHg g' E) as (l & [[-> E2]|[-> E2]]); exists l; [left|right]; auto. }
        destruct Hcase as (l & [[Eg E2]|[Eg E2]]); (destruct l as [|r l]; [rewrite app_nil_r in Eg; auto|]); exfalso.
        - destruct (proj1 H g (or_introl eq_refl)) as [_ Hp]. specialize (Hp g' r l Eg). destruct gs' as [|h gs']; [discriminate|].
          destruct (proj1 H' h) as [Hh _]; [right; left; reflexivity|]. destruct h as [|r' h]; [contradiction|]. cbn [concat app] in E2. injection E2 as <- _.
          apply (proj2 H' [] g' r h gs' eq_refl). apply Hp. apply (proj1 H' g' (or_introl eq_refl)).
        - destruct (proj1 H' g' (or_introl eq_refl)) as [_ Hp]. specialize (Hp g r l Eg). destruct gs as [|h gs]; [discriminate|].
          destruct (proj1 H h) as [Hh _]; [right; left; reflexivity|]. destruct h as [|r' h]; [contradiction|]. cbn [concat app] in E2. injection E2 as -> _.
          apply (proj2 H [] g r h gs eq_refl). apply Hp. apply (proj1 H g (or_introl eq_refl)). }
      subst g'. f_equal. apply IH; [eapply greedy_tail, H|eapply greedy_tail, H'|]. cbn [concat] in E. apply app_inv_head in E. exact E.
  Qed.
End Greedy.
