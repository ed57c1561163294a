(** Lemmas about the string model: split/strip/join against StrSpec, int()/str(), files. *)
From Verif Require Import Py PyLemmas PyStr StrSpec.
Local Open Scope list_scope.

(** ** split *)
Lemma split_aux_word w cur s :
  Forall (fun c => is_space c = false) w -> split_aux cur (w ++ s) = split_aux (rev w ++ cur) s.
Proof.
  intros H. revert cur. induction H as [|c w Hc Hw IH]; intros cur; simpl; [reflexivity|].
  rewrite Hc, IH. rewrite <- app_assoc. reflexivity.
Qed.
Lemma split_aux_gap g s : gap g -> split_aux [] (g ++ s) = split_aux [] s.
Proof. induction 1 as [|c g Hc Hg IH]; simpl; [reflexivity|]. rewrite Hc. exact IH. Qed.
Lemma rev_neq_nil {A} (l : list A) : l <> [] -> rev l <> [].
Proof. intros H E. apply H. rewrite <- (rev_involutive l), E. reflexivity. Qed.

Lemma split_words_of line ws : words_of line ws -> split line = ws.
Proof.
  unfold split. induction 1 as [g Hg | g w Hg [Hn Hw] | g w c rest ws Hg [Hn Hw] Hc Hr IH].
  - rewrite <- (app_nil_r g). rewrite split_aux_gap by exact Hg. reflexivity.
  - rewrite split_aux_gap by exact Hg.
    rewrite <- (app_nil_r w) at 1. rewrite split_aux_word by exact Hw.
    rewrite app_nil_r. simpl. destruct (rev w) as [|x r] eqn:E.
    + exfalso. apply rev_neq_nil in Hn. contradiction.
    + rewrite <- E, rev_involutive. reflexivity.
  - rewrite split_aux_gap by exact Hg. rewrite split_aux_word by exact Hw.
    rewrite app_nil_r. simpl. rewrite Hc. destruct (rev w) as [|x r] eqn:E.
    + exfalso. apply rev_neq_nil in Hn. contradiction.
    + rewrite <- E, rev_involutive, IH. reflexivity.
Qed.

Lemma words_of_gap g line ws : gap g -> words_of line ws -> words_of (g ++ line) ws.
Proof.
  intros Hg H. destruct H.
  - apply W_end. apply Forall_app; split; assumption.
  - rewrite app_assoc. apply W_last; [|assumption]. apply Forall_app; split; assumption.
  - rewrite app_assoc. apply W_more; try assumption. apply Forall_app; split; assumption.
Qed.

(** Every line has exactly one list of words. *)
Lemma words_of_split_aux cur s :
  Forall (fun c => is_space c = false) cur ->
  words_of (rev cur ++ s) (split_aux cur s).
Proof.
  revert cur. induction s as [|c s IH]; intros cur Hcur; simpl.
  - rewrite app_nil_r. destruct cur as [|x cur'] eqn:E.
    + apply W_end. constructor.
    + rewrite <- E in *. apply (W_last [] (rev cur)); [constructor|]. split.
      * apply rev_neq_nil. congruence.
      * apply Forall_rev; exact Hcur.
  - destruct (is_space c) eqn:Ec.
    + destruct cur as [|x cur'] eqn:E.
      * simpl. apply (words_of_gap [c]); [repeat constructor; exact Ec|]. apply (IH []). constructor.
      * rewrite <- E in *. apply (W_more [] (rev cur) c s); [constructor| |exact Ec|].
        -- split; [apply rev_neq_nil; congruence|apply Forall_rev; exact Hcur].
        -- apply (IH []). constructor.
    + specialize (IH (c :: cur)). simpl in IH. rewrite <- app_assoc in IH. apply IH.
      constructor; assumption.
Qed.
Lemma words_of_split line : words_of line (split line).
Proof. apply (words_of_split_aux [] line). constructor. Qed.
Lemma words_of_iff line ws : words_of line ws <-> split line = ws.
Proof.
  split; [apply split_words_of|]. intros <-. apply words_of_split.
Qed.
Lemma split_is_word line : Forall is_word (split line).
Proof.
  induction (words_of_split line); constructor; auto.
Qed.

(** ** join *)
Lemma join_spaced sep ws : join [sep] ws = spaced sep ws.
Proof.
  induction ws as [|w [|w' ws] IH]; [reflexivity|reflexivity|].
  change (w ++ [sep] ++ join [sep] (w' :: ws) = w ++ sep :: spaced sep (w' :: ws)).
  rewrite IH. reflexivity.
Qed.
Lemma join_cons2 sep w w' ws : join sep (w :: w' :: ws) = w ++ sep ++ join sep (w' :: ws).
Proof. reflexivity. Qed.

Lemma is_space_SPACE : is_space SPACE = true. Proof. reflexivity. Qed.
Lemma is_space_MARK : is_space MARK = false. Proof. reflexivity. Qed.

Lemma words_of_spaced ws : Forall is_word ws -> words_of (spaced SPACE ws) ws.
Proof.
  induction 1 as [|w ws Hw Hws IH]; [apply W_end; constructor|].
  destruct ws as [|w' ws].
  - apply (W_last [] w); [constructor|assumption].
  - apply (W_more [] w SPACE); try assumption; [constructor|reflexivity].
Qed.
Lemma split_join_space ws : Forall is_word ws -> split (join [SPACE] ws) = ws.
Proof. intros H. rewrite join_spaced. apply split_words_of, words_of_spaced, H. Qed.

(** ** strip *)
Lemma lstrip_gap g s : gap g -> lstrip (g ++ s) = lstrip s.
Proof. induction 1 as [|c g Hc Hg IH]; simpl; [reflexivity|]. rewrite Hc; exact IH. Qed.
Lemma gap_rev g : gap g -> gap (rev g).
Proof. apply Forall_rev. Qed.
Lemma rstrip_gap s g : gap g -> rstrip (s ++ g) = rstrip s.
Proof.
  intros H. unfold rstrip. rewrite rev_app_distr. rewrite lstrip_gap; [reflexivity|apply gap_rev, H].
Qed.
Lemma lstrip_head c s : is_space c = false -> lstrip (c :: s) = c :: s.
Proof. intros H. simpl. rewrite H. reflexivity. Qed.
Lemma rstrip_last s c : is_space c = false -> rstrip (s ++ [c]) = s ++ [c].
Proof.
  intros H. unfold rstrip. rewrite rev_app_distr. simpl. rewrite H. simpl.
  rewrite rev_involutive. reflexivity.
Qed.
Lemma lstrip_decomp s : exists g, gap g /\ s = g ++ lstrip s.
Proof.
  induction s as [|c s (g & Hg & E)]; simpl.
  - exists []. split; [constructor|reflexivity].
  - destruct (is_space c) eqn:Ec.
    + exists (c :: g). split; [constructor; assumption|]. simpl. congruence.
    + exists []. split; [constructor|reflexivity].
Qed.
Lemma lstrip_head_nonspace s c r : lstrip s = c :: r -> is_space c = false.
Proof.
  induction s as [|x s IH]; simpl; [discriminate|].
  destruct (is_space x) eqn:E; [exact IH|]. congruence.
Qed.
Lemma rstrip_decomp s : exists g, gap g /\ s = rstrip s ++ g.
Proof.
  destruct (lstrip_decomp (rev s)) as (g & Hg & E).
  exists (rev g). split; [apply gap_rev, Hg|].
  unfold rstrip. rewrite <- rev_app_distr, <- E, rev_involutive. reflexivity.
Qed.
Lemma strip_decomp s : exists g1 g2, gap g1 /\ gap g2 /\ s = g1 ++ strip s ++ g2.
Proof.
  destruct (lstrip_decomp s) as (g1 & H1 & E1).
  destruct (rstrip_decomp (lstrip s)) as (g2 & H2 & E2).
  exists g1, g2. split; [exact H1|]. split; [exact H2|].
  unfold strip. rewrite <- E2. exact E1.
Qed.

Lemma stripped_strip s : stripped s -> strip s = s.
Proof.
  intros [H1 H2]. unfold strip. destruct s as [|c r]; [reflexivity|].
  rewrite lstrip_head by (eapply H1; reflexivity).
  destruct (exists_last (l := c :: r)) as (r' & c' & E); [discriminate|].
  rewrite E. apply rstrip_last. eapply H2. exact E.
Qed.
Lemma rstrip_last_nonspace s c r : rstrip s = r ++ [c] -> is_space c = false.
Proof.
  unfold rstrip. intros H. apply (f_equal (@rev N)) in H.
  rewrite rev_involutive, rev_app_distr in H. simpl in H.
  eapply lstrip_head_nonspace; exact H.
Qed.
Lemma strip_stripped s : stripped (strip s).
Proof.
  unfold strip. split; intros c r H.
  - destruct (rstrip_decomp (lstrip s)) as (g & Hg & E).
    rewrite H in E. simpl in E. eapply lstrip_head_nonspace; exact E.
  - eapply rstrip_last_nonspace; exact H.
Qed.
Lemma strip_idem s : strip (strip s) = strip s.
Proof. apply stripped_strip, strip_stripped. Qed.
Lemma strip_unique g1 s g2 : gap g1 -> gap g2 -> stripped s -> strip (g1 ++ s ++ g2) = s.
Proof.
  intros H1 H2 Hs. unfold strip. rewrite lstrip_gap by exact H1.
  destruct s as [|c r].
  - simpl. rewrite <- (app_nil_r g2). rewrite lstrip_gap by exact H2. reflexivity.
  - simpl app. rewrite lstrip_head by (destruct Hs as [Hs _]; eapply Hs; reflexivity).
    change (c :: r ++ g2) with ((c :: r) ++ g2). rewrite rstrip_gap by exact H2.
    destruct (exists_last (l := c :: r)) as (r' & c' & E); [discriminate|].
    rewrite E. apply rstrip_last. destruct Hs as [_ Hs]. eapply Hs. exact E.
Qed.

Lemma words_of_app_gap line ws g : words_of line ws -> gap g -> words_of (line ++ g) ws.
Proof.
  intros H Hg. induction H as [g0 H0 | g0 w H0 Hw | g0 w c rest ws H0 Hw Hc Hr IH].
  - apply W_end. apply Forall_app; split; assumption.
  - destruct g as [|c g].
    + rewrite app_nil_r. apply W_last; assumption.
    + rewrite <- app_assoc. simpl. inversion Hg; subst. apply W_more; try assumption.
      apply W_end; assumption.
  - rewrite <- !app_assoc. simpl. apply W_more; assumption.
Qed.
Lemma split_strip s : split (strip s) = split s.
Proof.
  destruct (strip_decomp s) as (g1 & g2 & H1 & H2 & E).
  symmetry. rewrite E at 1. apply split_words_of. apply words_of_gap; [exact H1|].
  apply words_of_app_gap; [apply words_of_split|exact H2].
Qed.

Lemma spaced_stripped sep ws : Forall is_word ws -> stripped (spaced sep ws).
Proof.
  intros H. split; intros c r E.
  - destruct H as [|w ws [Hn Hw] Hws]; [discriminate|].
    destruct w as [|x w]; [contradiction|]. inversion Hw; subst.
    destruct ws; simpl in E; injection E as -> _; assumption.
  - revert c r E. induction H as [|w ws [Hn Hw] Hws IH]; intros c r E.
    + destruct r; discriminate.
    + destruct ws as [|w' ws].
      * simpl in E. subst w. apply Forall_app in Hw as [_ Hw]. inversion Hw; assumption.
      * change (spaced sep (w :: w' :: ws)) with (w ++ sep :: spaced sep (w' :: ws)) in E.
        destruct (spaced sep (w' :: ws)) as [|y s'] eqn:Es.
        -- exfalso. inversion Hws as [|? ? [Hn' _] _]; subst.
           destruct w' as [|z w']; [contradiction|]. destruct ws; discriminate.
        -- destruct (exists_last (l := y :: s')) as (r' & c' & E'); [discriminate|].
           rewrite E' in E.
           assert (Ec : c' = c).
           { rewrite app_comm_cons, app_assoc in E. apply app_inj_tail in E as [_ E]. exact E. }
           subst c'. apply (IH c r'). exact E'.
Qed.

Lemma normal_spaced line out : normal line out <-> out = spaced SPACE (split line).
Proof.
  split.
  - intros (ws & H & ->). apply split_words_of in H as <-. reflexivity.
  - intros ->. exists (split line). split; [apply words_of_split|reflexivity].
Qed.

(** ** replace *)
Lemma replace_char_unmark s : replace_char MARK SPACE s = unmark s.
Proof. reflexivity. Qed.
Lemma unmark_app a b : unmark (a ++ b) = unmark a ++ unmark b.
Proof. apply map_app. Qed.
Lemma unmark_id s : ~ In MARK s -> unmark s = s.
Proof.
  unfold unmark. induction s as [|c s IH]; simpl; intros H; [reflexivity|].
  rewrite IH by tauto. destruct (N.eqb_spec c MARK); [subst; tauto|reflexivity].
Qed.
Lemma unmark_spaced ws : unmark (spaced MARK ws) = unmark (spaced SPACE ws).
Proof.
  induction ws as [|w [|w' ws] IH]; [reflexivity|reflexivity|].
  change (unmark (w ++ MARK :: spaced MARK (w' :: ws)) = unmark (w ++ SPACE :: spaced SPACE (w' :: ws))).
  rewrite !unmark_app. f_equal. change (SPACE :: unmark (spaced MARK (w' :: ws)) = SPACE :: unmark (spaced SPACE (w' :: ws))).
  rewrite IH. reflexivity.
Qed.
Lemma In_spaced c sep ws : In c (spaced sep ws) -> (exists w, In w ws /\ In c w) \/ c = sep.
Proof.
  induction ws as [|w [|w' ws] IH]; [intros []| |].
  - intros H; left; exists w; simpl; auto.
  - intros H. change (In c (w ++ sep :: spaced sep (w' :: ws))) in H.
    apply in_app_iff in H as [H|[H|H]].
    + left; exists w; simpl; auto.
    + right; auto.
    + destruct (IH H) as [(v & Hv & Hc)|Hs]; [left; exists v; simpl in *; auto|right; exact Hs].
Qed.
Lemma words_of_chars line ws c w : words_of line ws -> In w ws -> In c w -> In c line.
Proof.
  induction 1 as [g Hg | g v Hg Hv | g v x rest ws Hg Hv Hx Hr IH]; simpl; intros Hw Hc.
  - destruct Hw.
  - destruct Hw as [->|[]]. apply in_app_iff; auto.
  - rewrite !in_app_iff. simpl. destruct Hw as [->|Hw]; auto.
Qed.

Lemma trimmed_strip s out : trimmed s out <-> out = strip s.
Proof.
  split.
  - intros (g1 & g2 & H1 & H2 & -> & Hs). symmetry. apply strip_unique; assumption.
  - intros ->. destruct (strip_decomp s) as (g1 & g2 & H1 & H2 & E).
    exists g1, g2. repeat split; auto; apply strip_stripped.
Qed.
