From Verif Require Import Py PyLemmas PyStr BatchModel MapredModel RestModel ReduceSpec.

(** ** The lazy reduction as streams: what every level still has to give *)
Section Any.
  Context {T : Type}.
  Variable f : T -> T -> res T.
  Variable default : T.
  Let func (a b : T) (_ : unit) : res (T * unit) := match f a b with Ok c => Ok (c, tt) | Raise e => Raise e end.

  Fixpoint pairs (l : list T) (fin : option exn) : stream T :=
    match l with
    | x :: y :: l' => match f x y with Ok c => let s := pairs l' fin in (c :: fst s, snd s) | Raise e => ([], Some e) end
    | [x] => match fin with
             | None => match f x default with Ok c => ([c], None) | Raise e => ([], Some e) end
             | Some e => ([], Some e)
             end
    | [] => ([], fin)
    end.
  Definition opt {A} (o : option A) : list A := match o with Some a => [a] | None => [] end.
  Fixpoint den (stages : list (stage T)) (s : stream T) : stream T :=
    match stages with
    | [] => s
    | g :: stages' =>
        let r := match s_gen g with Run _ _ => pairs (fst (den stages' s)) (snd (den stages' s)) | _ => ([], None) end in
        (opt (s_head g) ++ fst r, snd r)
    end.
  Definition gen_wf (gs : gstate T) : Prop :=
    match gs with Run idx last => Nat.even idx = true /\ 2 <= idx /\ last <> None | _ => True end.
  Definition wf (stages : list (stage T)) : Prop := Forall (fun s => gen_wf (s_gen s)) stages.

  Definition good_pull (n : nat) (p : pstate T unit -> unit -> step T * pstate T unit * unit) (stages : list (stage T)) (s : stream T) : Prop :=
    match den stages s with
    | ([], None) => exists stages' s', p (stages, pure_src s) tt = (Stop, (stages', pure_src s'), tt) /\ length stages' = n /\ wf stages' /\ den stages' s' = ([], None)
    | ([], Some e) => exists st', p (stages, pure_src s) tt = (Fail e, st', tt)
    | (x :: l, fin) => exists stages' s', p (stages, pure_src s) tt = (Yield x, (stages', pure_src s'), tt) /\ length stages' = n /\ wf stages' /\ den stages' s' = (l, fin)
    end.

  Lemma pull_src_good s : good_pull 0 (pull func default 0) [] s.
  Proof.
    unfold good_pull. cbn [den pull]. destruct s as [[|x l] fin]; unfold pull_src, pure_src; cbn [fst snd map app].
    - destruct fin as [e|].
      + eexists. reflexivity.
      + exists [], ([], None). split; [reflexivity|]. split; [reflexivity|]. split; [constructor|reflexivity].
    - exists [], (l, fin). split; [reflexivity|]. split; [reflexivity|]. split; [constructor|reflexivity].
  Qed.

  Definition good_map (n : nat) (p : pstate T unit -> unit -> step T * pstate T unit * unit) (idx : nat) (last : option T)
    (stages : list (stage T)) (s : stream T) : Prop :=
    let r := map_next func default p (Run idx last) (stages, pure_src s) tt in
    match den stages s with
    | (x :: y :: l, fin) =>
        match f x y with
        | Ok c => exists b stages' s', r = (Yield c, Run (S (S idx)) (Some b), (stages', pure_src s'), tt) /\ length stages' = n /\ wf stages' /\ den stages' s' = (l, fin)
        | Raise e => exists gs st', r = (Fail e, gs, st', tt)
        end
    | ([x], None) =>
        if idx =? 0 then exists st', r = (Single x, Closed, st', tt)
        else match f x default with
             | Ok c => exists stages' s', r = (Yield c, Tail, (stages', pure_src s'), tt) /\ length stages' = n /\ wf stages'
             | Raise e => exists gs st', r = (Fail e, gs, st', tt)
             end
    | ([], None) =>
        if idx =? 0 then exists st', r = (Fail AssertionError, Closed, st', tt)
        else exists stages' s', r = (Stop, Closed, (stages', pure_src s'), tt) /\ length stages' = n /\ wf stages'
    | (_, Some e) => exists gs st', r = (Fail e, gs, st', tt)
    end.

  Lemma map_good n p idx last stages s :
    (forall stages s, length stages = n -> wf stages -> good_pull n p stages s) ->
    Nat.even idx = true -> (idx = 0 \/ last <> None) -> length stages = n -> wf stages -> good_map n p idx last stages s.
  Proof.
    intros IH Hev Hlast Hn Hwf. unfold good_map. cbv zeta.
    assert (Ho : Nat.even (S idx) = false). { rewrite Nat.even_succ, <- Nat.negb_even, Hev. reflexivity. }
    assert (Hee : Nat.even (S (S idx)) = true). { rewrite Nat.even_succ, Nat.odd_succ. exact Hev. }
    pose proof (IH stages s Hn Hwf) as H1. unfold good_pull in H1.
    unfold map_next, gen_next. cbn [pair_next].
    destruct (den stages s) as [[|x l] fin] eqn:Ed.
    - destruct fin as [e|].
      + destruct H1 as (st' & E). rewrite E. eexists _, _. reflexivity.
      + destruct H1 as (st1 & s1 & E & Hn1 & Hwf1 & Hd1). rewrite E. cbn [andb].
        destruct (idx =? 0) eqn:E0; [eexists; reflexivity|].
        exists st1, s1. split; [|split; assumption].
        destruct last as [l|]; [|reflexivity].
        assert (idx =? 1 = false) as ->. { apply Nat.eqb_neq. intros ->. discriminate Hev. }
        assert (Nat.odd idx = false) as ->. { rewrite <- Nat.negb_even, Hev. reflexivity. }
        reflexivity.
    - destruct H1 as (st1 & s1 & E & Hn1 & Hwf1 & Hd1). rewrite E, Ho.
      pose proof (IH st1 s1 Hn1 Hwf1) as H2. unfold good_pull in H2. rewrite Hd1 in H2.
      destruct l as [|y l].
      + destruct fin as [e|].
        * destruct H2 as (st' & E2). rewrite E2. eexists _, _. reflexivity.
        * destruct H2 as (st2 & s2 & E2 & Hn2 & Hwf2 & Hd2). rewrite E2. cbn [andb].
          assert (S idx =? 0 = false) as -> by reflexivity.
          destruct (idx =? 0) eqn:E0.
          -- apply Nat.eqb_eq in E0. subst idx. cbn [Nat.eqb]. eexists. reflexivity.
          -- assert (S idx =? 1 = false) as ->. { apply Nat.eqb_neq. apply Nat.eqb_neq in E0. lia. }
             assert (Nat.odd (S idx) = true) as ->. { rewrite <- Nat.negb_even, Ho. reflexivity. }
             unfold func. destruct (f x default) as [c|e].
             ++ exists st2, s2. split; [reflexivity|]. split; assumption.
             ++ eexists _, _. reflexivity.
      + destruct H2 as (st2 & s2 & E2 & Hn2 & Hwf2 & Hd2). rewrite E2, Hee.
        unfold func. destruct (f x y) as [c|e].
        * exists y, st2, s2. split; [reflexivity|]. split; [assumption|]. split; assumption.
        * eexists _, _. reflexivity.
  Qed.

  Lemma pull_good n : forall stages s, length stages = n -> wf stages -> good_pull n (pull func default n) stages s.
  Proof.
    induction n as [|n IH]; intros stages s Hn Hwf.
    - destruct stages; [|discriminate]. apply pull_src_good.
    - destruct stages as [|g stages]; [discriminate|]. injection Hn as Hn.
      inversion Hwf as [|s0 l0 Hs Hwf']; subst s0 l0.
      unfold good_pull. cbn [den pull]. unfold chain_next.
      destruct g as [hd gs]. cbn [s_head s_gen] in *.
      destruct hd as [h|]; cbn [opt app].
      + exists (MkStage None gs :: stages), s.
        split; [reflexivity|]. split; [cbn; congruence|]. split; [constructor; assumption|reflexivity].
      + destruct gs as [idx last| |].
        * destruct Hs as (Hev & H2 & Hl).
          pose proof (map_good n (pull func default n) idx last stages s IH Hev (or_intror Hl) Hn Hwf') as Hm.
          unfold good_map in Hm. cbv zeta in Hm.
          assert (E0 : idx =? 0 = false). { apply Nat.eqb_neq. lia. }
          rewrite E0 in Hm.
          destruct (den stages s) as [[|x [|y l]] fin] eqn:Ed; cbn [pairs fst snd].
          -- destruct fin as [e|].
             ++ destruct Hm as (gs & (st', src') & E). rewrite E. eexists. reflexivity.
             ++ destruct Hm as (st1 & s1 & E & Hn1 & Hwf1). rewrite E.
                exists (MkStage None Closed :: st1), s1. split; [reflexivity|]. split; [cbn; congruence|].
                split; [constructor; [exact I|exact Hwf1]|reflexivity].
          -- destruct fin as [e|].
             ++ destruct Hm as (gs & (st', src') & E). rewrite E. eexists. reflexivity.
             ++ destruct (f x default) as [c|e]; cbn [fst snd].
                ** destruct Hm as (st1 & s1 & E & Hn1 & Hwf1). rewrite E.
                   exists (MkStage None Tail :: st1), s1. split; [reflexivity|]. split; [cbn; congruence|].
                   split; [constructor; [exact I|exact Hwf1]|reflexivity].
                ** destruct Hm as (gs & (st', src') & E). rewrite E. eexists. reflexivity.
          -- destruct (f x y) as [c|e]; cbn [fst snd].
             ++ destruct Hm as (b & st1 & s1 & E & Hn1 & Hwf1 & Hd1). rewrite E.
                exists (MkStage None (Run (S (S idx)) (Some b)) :: st1), s1.
                split; [reflexivity|]. split; [cbn; congruence|].
                split. { constructor; [|exact Hwf1]. split; [|split; [lia|discriminate]]. rewrite Nat.even_succ, Nat.odd_succ. exact Hev. }
                cbn [den s_head s_gen opt app]. rewrite Hd1. cbn [fst snd]. reflexivity.
             ++ destruct Hm as (gs & (st', src') & E). rewrite E. eexists. reflexivity.
        * unfold map_next, gen_next. cbn [fst snd].
          exists (MkStage None Closed :: stages), s. split; [reflexivity|]. split; [cbn; congruence|].
          split; [constructor; [exact I|exact Hwf']|reflexivity].
        * unfold map_next, gen_next. cbn [fst snd].
          exists (MkStage None Closed :: stages), s. split; [reflexivity|]. split; [cbn; congruence|].
          split; [constructor; [exact I|exact Hwf']|reflexivity].
  Qed.

  Lemma pairs_length_ind k : forall l fin, length l <= k -> length (fst (pairs l fin)) <= length l /\ (2 <= length l -> length (fst (pairs l fin)) < length l).
  Proof.
    induction k as [|k IH]; intros l fin Hk.
    - destruct l; [cbn; lia|cbn in Hk; lia].
    - destruct l as [|x [|y l]]; cbn [pairs length] in *; [cbn; lia| |].
      + destruct fin; [cbn; lia|]. destruct (f x default); cbn; lia.
      + destruct (f x y); cbn [fst length]; [|lia]. destruct (IH l fin) as [H1 H2]; lia.
  Qed.

  (** the outcome, level by level on streams *)
  Fixpoint outcome (fuel : nat) (s : stream T) : res T :=
    match fuel with
    | O => Raise OutOfFuel
    | S fuel' =>
        match s with
        | ([], None) => Raise AssertionError
        | ([], Some e) => Raise e
        | ([x], None) => Ok x
        | ([x], Some e) => Raise e
        | (x :: y :: l, fin) => match f x y with Raise e => Raise e | Ok _ => outcome fuel' (pairs (x :: y :: l) fin) end
        end
    end.

  Lemma loop_outcome fuel : forall stages s, wf stages ->
    match reduce_loop func default fuel (stages, pure_src s) tt with Ok (x, _) => Ok x | Raise e => Raise e end = outcome fuel (den stages s).
  Proof.
    induction fuel as [|fuel IH]; intros stages s Hwf; [reflexivity|].
    cbn [reduce_loop fst].
    pose proof (map_good (length stages) (pull func default (length stages)) 0 None stages s
                  (pull_good _) eq_refl (or_introl eq_refl) eq_refl Hwf) as Hm.
    unfold good_map in Hm. cbv zeta in Hm. cbn [Nat.eqb] in Hm.
    destruct (den stages s) as [[|x [|y l]] fin] eqn:Ed.
    - destruct fin as [e|]; cbn [outcome].
      + destruct Hm as (gs & st' & E). rewrite E. reflexivity.
      + destruct Hm as (st' & E). rewrite E. reflexivity.
    - destruct fin as [e|]; cbn [outcome].
      + destruct Hm as (gs & st' & E). rewrite E. reflexivity.
      + destruct Hm as (st' & E). rewrite E. reflexivity.
    - cbn [outcome]. destruct (f x y) as [c|e] eqn:Ef.
      + destruct Hm as (b & st1 & s1 & E & Hn1 & Hwf1 & Hd1). rewrite E.
        rewrite IH. { f_equal. cbn [den s_head s_gen opt app pairs]. rewrite Hd1, Ef. reflexivity. }
        constructor; [|exact Hwf1]. split; [reflexivity|]. split; [lia|discriminate].
      + destruct Hm as (gs & st' & E). rewrite E. reflexivity.
  Qed.

  Lemma ireduce_outcome data : ireduce_pure f default data = outcome (S (S (length (pure_src data)))) data.
  Proof. unfold ireduce_pure, ireduce. exact (loop_outcome _ [] data (Forall_nil _)). Qed.

  (** a stream of pairs without an exception is a level *)
  Lemma pairs_level_ind k : forall l fin, length l <= k -> snd (pairs l fin) = None -> fin = None /\ level f default l (fst (pairs l fin)).
  Proof.
    induction k as [|k IH]; intros l fin Hk H.
    - destruct l; [|cbn in Hk; lia]. cbn in *. split; [exact H|constructor].
    - destruct l as [|x [|y l]]; cbn [pairs length] in *.
      + cbn in *. split; [exact H|constructor].
      + destruct fin; [discriminate H|]. split; [reflexivity|].
        destruct (f x default) as [c|e] eqn:E; cbn [fst snd] in *; [|discriminate H]. constructor. exact E.
      + destruct (f x y) as [c|e] eqn:E; cbn [fst snd] in *; [|discriminate H].
        destruct (IH l fin) as [Hf Hl]; [lia|exact H|]. split; [exact Hf|]. constructor; assumption.
  Qed.
  Lemma level_pairs l l' : level f default l l' -> pairs l None = (l', None).
  Proof. induction 1 as [|x c E|x y c l l' E H IH]; cbn [pairs]; [reflexivity| |]; rewrite E; [reflexivity|]. rewrite IH. reflexivity. Qed.

  (** where an exception at the end of a stream of pairs comes from *)
  Lemma pairs_error_ind k : forall l fin e, length l <= k -> snd (pairs l fin) = Some e -> fin = Some e \/ exists a b, f a b = Raise e.
  Proof.
    induction k as [|k IH]; intros l fin e Hk H.
    - destruct l; [|cbn in Hk; lia]. left. exact H.
    - destruct l as [|x [|y l]]; cbn [pairs length] in *.
      + left. exact H.
      + destruct fin; [left; exact H|]. destruct (f x default) as [c|e'] eqn:E; cbn [snd] in H; [discriminate H|].
        right. exists x, default. congruence.
      + destruct (f x y) as [c|e'] eqn:E; cbn [snd] in H.
        * apply (IH l fin e); [lia|exact H].
        * right. exists x, y. congruence.
  Qed.
  Lemma pairs_nonempty x y l fin c : f x y = Ok c -> fst (pairs (x :: y :: l) fin) <> [].
  Proof. intro E. cbn [pairs]. rewrite E. discriminate. Qed.

  Lemma outcome_ok fuel : forall s r, outcome fuel s = Ok r -> snd s = None /\ reduced f default (fst s) r.
  Proof.
    induction fuel as [|fuel IH]; intros [[|x [|y l]] fin] r H; cbn [outcome] in H; try discriminate H.
    - destruct fin; discriminate H.
    - destruct fin; [discriminate H|]. injection H as <-. split; [reflexivity|constructor].
    - destruct (f x y) as [c|e] eqn:E; [|discriminate H]. apply IH in H. destruct H as [Hn Hr].
      apply (pairs_level_ind (length (x :: y :: l))) in Hn; [|lia]. destruct Hn as [-> Hl].
      split; [reflexivity|]. cbn [fst]. econstructor; eassumption.
  Qed.
  Lemma level_length l l' : level f default l l' -> length l' <= length l /\ (2 <= length l -> length l' < length l).
  Proof. induction 1 as [|x c E|x y c l l' E H IH]; cbn [length]; lia. Qed.
  Lemma reduced_outcome l r : reduced f default l r -> forall fuel, length l < fuel -> outcome fuel (l, None) = Ok r.
  Proof.
    induction 1 as [x|x y l l' r Hl Hr IH]; intros [|fuel] Hf; try (cbn [length] in Hf; lia); [reflexivity|].
    cbn [outcome]. pose proof (level_pairs _ _ Hl) as Hp. rewrite Hp.
    pose proof (level_length _ _ Hl) as [_ Hlen]. cbn [length] in *.
    inversion Hl; subst. match goal with H : f x y = Ok _ |- _ => rewrite H end. apply IH. cbn [length] in *. lia.
  Qed.
  Lemma outcome_raise fuel : forall s e, length (fst s) < fuel -> outcome fuel s = Raise e ->
    s = ([], None) /\ e = AssertionError \/ snd s = Some e \/ exists a b, f a b = Raise e.
  Proof.
    induction fuel as [|fuel IH]; intros [[|x [|y l]] fin] e Hf H; cbn [fst length] in Hf; try lia; cbn [outcome] in H.
    - destruct fin; injection H as <-; [right; left; reflexivity|left; split; reflexivity].
    - destruct fin; [|discriminate H]. injection H as <-. right. left. reflexivity.
    - destruct (f x y) as [c|e'] eqn:E.
      + apply IH in H.
        * destruct H as [[H _]|[H|H]].
          -- exfalso. apply (pairs_nonempty x y l fin c E). rewrite H. reflexivity.
          -- right. apply (pairs_error_ind (length (x :: y :: l))) in H; [exact H|lia].
          -- right. right. exact H.
        * pose proof (pairs_length_ind (length (x :: y :: l)) (x :: y :: l) fin (le_n _)) as [_ HH]. cbn [length] in *. lia.
      + injection H as <-. right. right. exists x, y. exact E.
  Qed.

  Lemma pure_src_length (data : stream T) : length (fst data) < S (S (length (pure_src data))).
  Proof. unfold pure_src. rewrite app_length, map_length. lia. Qed.

  Theorem ireduce_any_ok items r : ireduce_pure f default (items, None) = Ok r <-> reduced f default items r.
  Proof.
    rewrite ireduce_outcome. split; intro H.
    - apply outcome_ok in H. apply H.
    - apply reduced_outcome; [exact H|]. apply (pure_src_length (items, None)).
  Qed.
  Theorem ireduce_any_raise items fin e : ireduce_pure f default (items, fin) = Raise e ->
    items = [] /\ fin = None /\ e = AssertionError \/ fin = Some e \/ exists a b, f a b = Raise e.
  Proof.
    rewrite ireduce_outcome. intro H. apply outcome_raise in H; [|apply pure_src_length].
    destruct H as [[H ->]|[H|H]]; [|right; left; exact H|right; right; exact H].
    injection H as -> ->. left. repeat split.
  Qed.
  Theorem ireduce_any_broken items e r : ireduce_pure f default (items, Some e) <> Ok r.
  Proof. rewrite ireduce_outcome. intro H. apply outcome_ok in H. destruct H as [H _]. discriminate H. Qed.

  Theorem ireduce_first_call x y items fin e : f x y = Raise e -> ireduce_pure f default (x :: y :: items, fin) = Raise e.
  Proof. intro E. rewrite ireduce_outcome. cbn [outcome]. rewrite E. reflexivity. Qed.

  (** an item of a level stands for one or two of the level before *)
  Lemma level_bracketed ls l : Forall2 (bracketed f default) ls l -> forall l', level f default l l' ->
    exists ls', concat ls' = concat ls /\ Forall2 (bracketed f default) ls' l'.
  Proof.
    intros HF l' Hl. revert ls HF. induction Hl as [|x c E|x y c l l' E H IH]; intros ls HF.
    - inversion HF; subst. exists []. split; [reflexivity|constructor].
    - inversion HF as [|a ? ls0 ? Ha HF0]; subst. inversion HF0; subst. exists [a]. split; [reflexivity|].
      constructor; [|constructor]. eapply bracketed_default; eassumption.
    - inversion HF as [|a ? ls0 ? Ha HF0]; subst. inversion HF0 as [|b ? ls1 ? Hb HF1]; subst.
      destruct (IH ls1 HF1) as (ls' & Hc & HF'). exists ((a ++ b) :: ls'). split.
      + cbn [concat]. rewrite Hc, app_assoc. reflexivity.
      + constructor; [|exact HF']. eapply bracketed_call; eassumption.
  Qed.
  Theorem reduced_bracketed items r : reduced f default items r -> bracketed f default items r.
  Proof.
    intro H. assert (G : forall ls, Forall2 (bracketed f default) ls items -> bracketed f default (concat ls) r).
    { induction H as [x|x y l l' r Hl Hr IH]; intros ls HF.
      - inversion HF as [|a ? ls0 ? Ha HF0]; subst. inversion HF0; subst. cbn [concat]. rewrite app_nil_r. exact Ha.
      - destruct (level_bracketed ls _ HF l' Hl) as (ls' & Hc & HF'). rewrite <- Hc. apply IH. exact HF'. }
    assert (Hs : Forall2 (bracketed f default) (map (fun x => [x]) items) items).
    { clear. induction items; constructor; [constructor|assumption]. }
    apply G in Hs. replace (concat (map (fun x => [x]) items)) with items in Hs; [exact Hs|].
    clear. induction items as [|x l IH]; [reflexivity|]. cbn. congruence.
  Qed.
End Any.

Lemma yields_all {A T} (mapper : A -> res T) items fin out : yields mapper items fin = (out, None) ->
  fin = None /\ Forall2 (fun a t => mapper a = Ok t) items out.
Proof.
  revert out. induction items as [|a l IH]; intros out H; cbn [yields] in H.
  - injection H as <- ->. split; [reflexivity|constructor].
  - destruct (mapper a) as [t|e] eqn:E; [|discriminate H]. destruct (yields mapper l fin) as [ys e] eqn:Ey. injection H as <- ->.
    destruct (IH ys eq_refl) as [Hf Hl]. split; [exact Hf|]. constructor; assumption.
Qed.
Lemma yields_ok {A T} (mapper : A -> res T) items out : Forall2 (fun a t => mapper a = Ok t) items out -> yields mapper items None = (out, None).
Proof. induction 1 as [|a t l out E H IH]; cbn [yields]; [reflexivity|]. rewrite E, IH. reflexivity. Qed.
Theorem map_reduce_any {A T} (mapper : A -> res T) (f : T -> T -> res T) (default : T) items r :
  map_reduce mapper f default (items, None) MapPool MapPool = Ok r <->
  exists mapped, Forall2 (fun a t => mapper a = Ok t) items mapped /\ reduced f default mapped r.
Proof.
  unfold map_reduce. cbn [fst snd]. split.
  - intro H. destruct (yields mapper items None) as [out [e|]] eqn:Ey.
    + exfalso. exact (ireduce_any_broken f default out e r H).
    + exists out. split; [apply (yields_all mapper items None out Ey)|]. apply ireduce_any_ok. exact H.
  - intros (out & HF & Hr). rewrite (yields_ok _ _ _ HF). apply ireduce_any_ok. exact Hr.
Qed.
