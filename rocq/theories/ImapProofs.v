From Verif Require Import Py PyLemmas PyStr BatchModel LearnBpeProofs DbProofs MapredModel MapredSpec.
Local Open Scope nat_scope.

(** ** IMapIterator under every schedule *)
Section Imap.
  Context {V : Type}.
  Variable R : list (res V).
  Notation n := (length R).

  Definition failpart (m : mode) : list (res V) := match m with Failed e => [Raise e] | _ => [] end.

  (** the entries of _unsorted are the finished tasks from [index] on *)
  Definition stored (index : nat) (done : list nat) (un : list (nat * res V)) : Prop :=
    NoDup (dkeys un) /\
    forall i v, In (i, v) un <-> In i done /\ index <= i /\ nth_error R i = Some v.

  Definition inv (x : list nat * imap V) : Prop :=
    let '(done, s) := x in
    NoDup done /\ (forall i, In i done -> i < n) /\
    (forall i, i < im_index s -> In i done) /\ ~ In (im_index s) done /\ im_index s <= n /\
    firstn (im_index s) R = map Ok (im_out s) ++ failpart (im_mode s) ++ im_items s /\
    stored (im_index s) done (im_unsorted s) /\
    (im_length s = None \/ im_length s = Some n) /\
    match im_mode s with
    | Waiting => im_items s = [] /\ at_length (im_index s) (im_length s) = false
    | Woken => im_items s <> [] \/ at_length (im_index s) (im_length s) = true
    | Stopped => im_items s = [] /\ at_length (im_index s) (im_length s) = true
    | _ => True
    end.

  Lemma dget_nat i (un : list (nat * res V)) v : NoDup (dkeys un) -> (dget Nat.eqb i un = Some v <-> In (i, v) un).
  Proof.
    intro H. split; [apply (dget_In Nat.eqb Nat.eqb_eq)|apply (In_dget Nat.eqb Nat.eqb_eq); exact H].
  Qed.

  Lemma drain_spec P done : forall fuel items index un,
    length un <= fuel -> (forall i, In i done -> i < n) ->
    (forall i, i < index -> In i done) -> index <= n ->
    firstn index R = P ++ items -> stored index done un ->
    let '(items', index', un') := drain fuel items index un in
    (forall i, i < index' -> In i done) /\ ~ In index' done /\ index' <= n /\ index <= index' /\
    firstn index' R = P ++ items' /\ stored index' done un' /\ (items <> [] -> items' <> []).
  Proof.
    induction fuel as [|fuel IH]; intros items index un Hlen Hlt Hall Hn HP Hst.
    - cbn [drain]. assert (un = []) by (destruct un; [reflexivity|cbn in Hlen; lia]). subst un.
      split; [exact Hall|]. split; [|split; [exact Hn|split; [lia|split; [exact HP|split; [exact Hst|auto]]]]].
      intro Hin. destruct (nth_error R index) as [v|] eqn:E.
      + apply (proj2 (proj2 Hst index v)). auto.
      + apply nth_error_None in E. apply Hlt in Hin. lia.
    - cbn [drain]. destruct (dget Nat.eqb index un) as [v|] eqn:Ed.
      + assert (Hst' := Hst). destruct Hst as [Hnd Hiff]. apply (dget_nat _ _ _ Hnd) in Ed as Hin.
        apply Hiff in Hin as (Hd & _ & Hv).
        assert (Hl : length (ddel Nat.eqb index un) < length un).
        { clear - Ed. induction un as [|[k x] un IH]; cbn in *; [discriminate|].
          destruct (index =? k); cbn; [lia|]. specialize (IH Ed). lia. }
        specialize (IH (items ++ [v]) (S index) (ddel Nat.eqb index un)).
        destruct (drain fuel (items ++ [v]) (S index) (ddel Nat.eqb index un)) as [[items' index'] un'].
        destruct IH as (A & B & C & D & E & F & G).
        * lia.
        * exact Hlt.
        * intros i Hi. destruct (Nat.eq_dec i index) as [->|Hne]; [exact Hd|]. apply Hall. lia.
        * apply Hlt in Hd. lia.
        * assert (firstn (S index) R = firstn index R ++ [v]) as ->.
          { clear - Hv. revert index Hv. induction R as [|r l IH]; intros [|i] H; cbn in *; try discriminate.
            - injection H as ->. reflexivity.
            - f_equal. apply IH. exact H. }
          rewrite HP. rewrite app_assoc. reflexivity.
        * split; [apply NoDup_ddel; exact Hnd|].
          intros i x.
          assert (Hnd' : NoDup (dkeys (ddel Nat.eqb index un))) by (apply NoDup_ddel; exact Hnd).
          rewrite <- (dget_nat _ _ _ Hnd'). rewrite (dget_ddel Nat.eqb Nat.eqb_eq) by exact Hnd.
          destruct (i =? index) eqn:Ei.
          -- apply Nat.eqb_eq in Ei. split; [discriminate|]. intros (_ & HH & _). lia.
          -- apply Nat.eqb_neq in Ei. rewrite (dget_nat _ _ _ Hnd), Hiff. split; intros (X & Y & Z); repeat split; auto; lia.
        * split; [exact A|]. split; [exact B|]. split; [exact C|]. split; [lia|]. split; [exact E|]. split; [exact F|].
          intros _. apply G. destruct items; discriminate.
      + split; [exact Hall|]. split; [|split; [exact Hn|split; [lia|split; [exact HP|split; [exact Hst|auto]]]]].
        intro Hin. destruct Hst as [Hnd Hiff]. destruct (nth_error R index) as [v|] eqn:E.
        * assert (In (index, v) un) as HH by (apply Hiff; auto). apply (dget_nat _ _ _ Hnd) in HH. congruence.
        * apply nth_error_None in E. apply Hlt in Hin. lia.
  Qed.

  Lemma notify_cases m : notify m = m \/ m = Waiting /\ notify m = Woken.
  Proof. destruct m; auto. Qed.
  Lemma failpart_notify m : failpart (notify m) = failpart m.
  Proof. destruct m; reflexivity. Qed.

  Lemma inv_init : inv ([], imap0).
  Proof.
    split; [constructor|]. split; [intros i []|]. split; [intros i Hi; cbn in Hi; lia|]. split; [intros []|]. split; [cbn; lia|].
    split; [reflexivity|]. split; [|split; [left; reflexivity|exact I]].
    split; [constructor|]. intros i v. cbn. tauto.
  Qed.

  Lemma inv_step x e y : inv x -> istep R x e y -> inv y.
  Proof.
    intros Hinv Hs. destruct Hs as [done s i v Hv Hni|done s Hl|done s Hm|done s Hm];
      destruct Hinv as (Hnd & Hlt & Hall & Hidx & Hn & HP & Hst & Hlen & Hmode).
    - assert (Hi : i < n) by (apply nth_error_Some; congruence).
      unfold im_set. destruct (im_index s =? i) eqn:Ei.
      + apply Nat.eqb_eq in Ei. subst i.
        assert (Hnd' : NoDup (im_index s :: done)) by (constructor; assumption).
        assert (Hlt' : forall i, In i (im_index s :: done) -> i < n) by (intros i [<-|H]; auto).
        pose proof (drain_spec (map Ok (im_out s) ++ failpart (im_mode s)) (im_index s :: done)
                      (length (im_unsorted s)) (im_items s ++ [v]) (S (im_index s)) (im_unsorted s)) as Hd.
        destruct (drain (length (im_unsorted s)) (im_items s ++ [v]) (S (im_index s)) (im_unsorted s)) as [[items index] un].
        destruct Hd as (A & B & C & D & E & F & G).
        * lia.
        * exact Hlt'.
        * intros j Hj. destruct (Nat.eq_dec j (im_index s)) as [->|Hne]; [left; reflexivity|]. right. apply Hall. lia.
        * lia.
        * assert (firstn (S (im_index s)) R = firstn (im_index s) R ++ [v]) as ->.
          { clear - Hv. revert Hv. generalize (im_index s) as k. induction R as [|r l IH]; intros [|k] H; cbn in *; try discriminate.
            - injection H as ->. reflexivity.
            - f_equal. apply IH. exact H. }
          rewrite HP. rewrite <- !app_assoc. reflexivity.
        * destruct Hst as [Hu Hiff]. split; [exact Hu|]. intros j x. rewrite Hiff. split.
          -- intros (X & Y & Z). split; [right; exact X|]. split; [|exact Z].
             destruct (Nat.eq_dec j (im_index s)) as [->|Hne]; [contradiction|]. lia.
          -- intros ([<-|X] & Y & Z); [lia|]. split; [exact X|]. split; [lia|exact Z].
        * assert (Hit : items <> []) by (apply G; destruct (im_items s); discriminate).
          cbn [inv]. unfold inv. cbn [im_items im_index im_length im_unsorted im_mode im_out].
          split; [exact Hnd'|]. split; [exact Hlt'|]. split; [exact A|]. split; [exact B|]. split; [exact C|].
          split. { rewrite failpart_notify. rewrite E, <- app_assoc. reflexivity. }
          split; [exact F|]. split; [exact Hlen|].
          destruct (im_mode s); cbn [notify]; auto.
          (* Stopped: the index was the length already *)
          destruct Hmode as [_ Hat]. exfalso. unfold at_length in Hat.
          destruct Hlen as [Hl|Hl]; rewrite Hl in Hat; [discriminate|]. apply Nat.eqb_eq in Hat. lia.
      + apply Nat.eqb_neq in Ei. unfold inv. cbn [im_items im_index im_length im_unsorted im_mode im_out].
        split; [constructor; assumption|]. split; [intros j [<-|H]; auto|].
        split; [intros j Hj; right; apply Hall; exact Hj|]. split; [intros [H|H]; [congruence|contradiction]|].
        split; [exact Hn|]. split; [exact HP|]. split; [|split; [exact Hlen|exact Hmode]].
        destruct Hst as [Hu Hiff]. assert (Hu' : NoDup (dkeys (dset Nat.eqb i v (im_unsorted s)))) by (apply dset_NoDup; [apply Nat.eqb_eq|exact Hu]).
        split; [exact Hu'|]. intros j x. rewrite <- (dget_nat _ _ _ Hu'), (dget_dset Nat.eqb Nat.eqb_eq).
        destruct (j =? i) eqn:Ej.
        * apply Nat.eqb_eq in Ej. subst j. split.
          -- intro H. injection H as <-. split; [left; reflexivity|]. split; [|exact Hv].
             destruct (Nat.le_gt_cases (im_index s) i) as [H|H]; [exact H|]. apply Hall in H. contradiction.
          -- intros (_ & _ & H). congruence.
        * apply Nat.eqb_neq in Ej. rewrite (dget_nat _ _ _ Hu), Hiff. split.
          -- intros (X & Y & Z). split; [right; exact X|]. auto.
          -- intros ([X|X] & Y & Z); [congruence|]. auto.
    - unfold im_set_length, inv. cbn [im_items im_index im_length im_unsorted im_mode im_out].
      split; [exact Hnd|]. split; [exact Hlt|]. split; [exact Hall|]. split; [exact Hidx|]. split; [exact Hn|].
      split. { destruct (im_index s =? n); rewrite ?failpart_notify; exact HP. }
      split; [exact Hst|]. split; [right; reflexivity|].
      unfold at_length in *. rewrite Hl in Hmode. destruct (im_index s =? n) eqn:E.
      + destruct (im_mode s); cbn [notify]; auto. destruct Hmode; auto.
      + destruct (im_mode s); try exact Hmode.
    - unfold im_next. rewrite Hm in HP. cbn [failpart app] in HP.
      destruct (im_items s) as [|[v|e] items] eqn:Eit; unfold inv; cbn [im_items im_index im_length im_unsorted im_mode im_out];
        (split; [exact Hnd|]; split; [exact Hlt|]; split; [exact Hall|]; split; [exact Hidx|]; split; [exact Hn|]).
      + split. { rewrite HP. destruct (at_length _ _); reflexivity. }
        split; [exact Hst|]. split; [exact Hlen|]. destruct (at_length (im_index s) (im_length s)); auto.
      + split. { rewrite HP, map_app, <- app_assoc. reflexivity. }
        split; [exact Hst|]. split; [exact Hlen|exact I].
      + split. { rewrite HP. reflexivity. }
        split; [exact Hst|]. split; [exact Hlen|exact I].
    - unfold im_next. rewrite Hm in HP, Hmode. cbn [failpart app] in HP.
      destruct (im_items s) as [|[v|e] items] eqn:Eit; unfold inv; cbn [im_items im_index im_length im_unsorted im_mode im_out];
        (split; [exact Hnd|]; split; [exact Hlt|]; split; [exact Hall|]; split; [exact Hidx|]; split; [exact Hn|]).
      + destruct Hmode as [H|H]; [contradiction|]. rewrite H.
        split; [exact HP|]. split; [exact Hst|]. split; [exact Hlen|]. auto.
      + split. { rewrite HP, map_app, <- app_assoc. reflexivity. }
        split; [exact Hst|]. split; [exact Hlen|exact I].
      + split. { rewrite HP. reflexivity. }
        split; [exact Hst|]. split; [exact Hlen|exact I].
  Qed.
  Lemma inv_steps x es y : isteps R x es y -> inv x -> inv y.
  Proof. induction 1 as [x|x y z es e _ IH Hs]; intro H; [exact H|]. eapply inv_step; [apply IH; exact H|exact Hs]. Qed.
  Lemma reach_inv es x : isteps R ([], imap0) es x -> inv x.
  Proof. intro H. eapply inv_steps; [exact H|apply inv_init]. Qed.

  (** what the consumer has got so far is the results in task order *)
  Lemma reach_out es done s : isteps R ([], imap0) es (done, s) ->
    exists rest, R = map Ok (im_out s) ++ failpart (im_mode s) ++ rest.
  Proof.
    intro H. apply reach_inv in H. destruct H as (_ & _ & _ & _ & _ & HP & _).
    exists (im_items s ++ skipn (im_index s) R).
    rewrite <- (firstn_skipn (im_index s) R) at 1. rewrite HP, <- !app_assoc. reflexivity.
  Qed.
  Lemma reach_stopped es done s : isteps R ([], imap0) es (done, s) -> im_mode s = Stopped -> R = map Ok (im_out s).
  Proof.
    intros H Hm. apply reach_inv in H. destruct H as (_ & _ & _ & _ & _ & HP & _ & Hlen & Hmode).
    rewrite Hm in *. destruct Hmode as [Hit Hat]. unfold at_length in Hat.
    destruct Hlen as [Hl|Hl]; rewrite Hl in Hat; [discriminate|]. apply Nat.eqb_eq in Hat.
    rewrite Hat, firstn_all, Hit in HP. cbn in HP. rewrite app_nil_r in HP. exact HP.
  Qed.
  (** no TimeoutError: a failure is the exception of a task *)
  Lemma reach_failed es done s e : isteps R ([], imap0) es (done, s) -> im_mode s = Failed e ->
    exists rest, R = map Ok (im_out s) ++ Raise e :: rest.
  Proof. intros H Hm. destruct (reach_out _ _ _ H) as [rest Hr]. rewrite Hm in Hr. exists rest. exact Hr. Qed.

  (** until the consumer is at its end something can happen *)
  Lemma reach_progress es done s : isteps R ([], imap0) es (done, s) ->
    (im_mode s = Stopped \/ exists e, im_mode s = Failed e) \/ exists ev y, istep R (done, s) ev y.
  Proof.
    intro H. apply reach_inv in H. destruct H as (Hnd & Hlt & Hall & Hidx & Hn & HP & Hst & Hlen & Hmode).
    destruct (le_lt_dec n (im_index s)) as [Hge|Hlt'].
    - destruct Hlen as [Hl|Hl].
      + right. exists ELen. eexists. apply st_len. exact Hl.
      + destruct (im_mode s) eqn:Em.
        * right. exists ENext. eexists. apply st_next. exact Em.
        * destruct Hmode as [_ Hat]. rewrite Hl in Hat. cbn in Hat. apply Nat.eqb_neq in Hat. lia.
        * right. exists EWake. eexists. apply st_wake. exact Em.
        * left. left. reflexivity.
        * left. right. eexists. reflexivity.
    - right. destruct (nth_error R (im_index s)) as [v|] eqn:E.
      + exists (ESet (im_index s)). eexists. apply st_set with (v := v); [exact E|exact Hidx].
      + apply nth_error_None in E. lia.
  Qed.

  (** and only so often *)
  Definition got (s : imap V) : nat := length (im_out s) + length (failpart (im_mode s)).
  Definition mode_weight (m : mode) : nat := match m with Running => 2 | Waiting | Woken => 1 | _ => 0 end.
  Definition weight (x : list nat * imap V) : nat :=
    let '(done, s) := x in
    (n - length done) + (match im_length s with None => 1 | Some _ => 0 end) + 2 * (n - got s) + mode_weight (im_mode s).

  Lemma weight_step x e y : inv x -> istep R x e y -> weight y < weight x.
  Proof.
    intros Hinv Hs. pose proof (inv_step _ _ _ Hinv Hs) as Hinv'.
    assert (Hgot : forall done s, inv (done, s) -> got s <= n).
    { intros done s (_ & _ & _ & _ & Hn & HP & _). apply (f_equal (@length _)) in HP.
      rewrite !app_length, map_length, firstn_length_le in HP by exact Hn. unfold got. lia. }
    destruct Hs as [done s i v Hv Hni|done s Hl|done s Hm|done s Hm]; unfold weight.
    - assert (Hd : length (i :: done) <= n).
      { destruct Hinv' as (Hnd & Hlt & _). rewrite <- (seq_length n 0). apply NoDup_incl_length; [exact Hnd|].
        intros j Hj. apply in_seq. apply Hlt in Hj. lia. }
      cbn [length] in *.
      assert (Hg : got (im_set i v s) = got s /\ mode_weight (im_mode (im_set i v s)) = mode_weight (im_mode s) /\ im_length (im_set i v s) = im_length s).
      { unfold im_set, got. destruct (im_index s =? i); cbn [im_out im_mode]; auto.
        destruct (drain _ _ _ _) as [[items index] un]. cbn [im_out im_mode im_length].
        rewrite failpart_notify. split; [reflexivity|]. split; [destruct (im_mode s); reflexivity|reflexivity]. }
      destruct Hg as (-> & -> & ->). lia.
    - unfold im_set_length, got. cbn [im_out im_mode im_length]. rewrite Hl.
      destruct (im_index s =? n); rewrite ?failpart_notify; destruct (im_mode s); cbn; lia.
    - pose proof (Hgot _ _ Hinv'). unfold im_next, got in *. rewrite Hm.
      destruct (im_items s) as [|[v|e] items]; cbn [im_out im_mode im_length mode_weight failpart length] in *.
      + destruct (at_length _ _); cbn; lia.
      + rewrite app_length in *. cbn [length] in *. lia.
      + lia.
    - pose proof (Hgot _ _ Hinv'). unfold im_next, got in *. rewrite Hm.
      destruct Hinv as (_ & _ & _ & _ & _ & _ & _ & _ & Hmode). rewrite Hm in Hmode.
      destruct (im_items s) as [|[v|e] items]; cbn [im_out im_mode im_length mode_weight failpart length] in *.
      + destruct Hmode as [HH|HH]; [contradiction|]. rewrite HH. cbn. lia.
      + rewrite app_length in *. cbn [length] in *. lia.
      + lia.
  Qed.
  Lemma reach_bound es x : isteps R ([], imap0) es x -> length es <= 3 * n + 3.
  Proof.
    assert (H : forall z es x, isteps R z es x -> inv z -> length es + weight x <= weight z).
    { clear es x. induction 1 as [z|z y x es' e Hs IH Hst]; intro Hz; [cbn; lia|]. specialize (IH Hz).
      assert (Hy : inv y) by (eapply inv_steps; eauto). pose proof (weight_step _ _ _ Hy Hst).
      rewrite app_length. cbn [length]. lia. }
    intro Hs. apply H in Hs; [|apply inv_init]. unfold weight in Hs at 2. cbn in Hs. lia.
  Qed.
End Imap.

(** ** chunks and the sequential map *)
Section Chunks.
  Context {A B : Type} (f : A -> res B).

  Lemma sequential_app l1 ys1 l2 fin : mapM f l1 = Ok ys1 ->
    sequential f (l1 ++ l2) fin = (ys1 ++ fst (sequential f l2 fin), snd (sequential f l2 fin)).
  Proof.
    revert ys1. induction l1 as [|x l1 IH]; intros ys1 H; cbn [mapM app sequential] in *.
    - injection H as <-. destruct (sequential f l2 fin). reflexivity.
    - destruct (f x) as [y|e]; [|discriminate]. destruct (mapM f l1) as [ys|e]; [|discriminate].
      injection H as <-. rewrite (IH ys eq_refl). reflexivity.
  Qed.
  Lemma sequential_fail l1 e l2 fin : mapM f l1 = Raise e ->
    exists ys, sequential f (l1 ++ l2) fin = (ys, Some e) /\ length ys < length l1.
  Proof.
    induction l1 as [|x l1 IH]; intro H; cbn [mapM app sequential length] in *; [discriminate|].
    destruct (f x) as [y|e']; [|injection H as <-; exists []; split; [reflexivity|cbn; lia]].
    destruct (mapM f l1) as [ys|e']; [discriminate|]. destruct (IH H) as (ys & -> & Hl).
    exists (y :: ys). split; [reflexivity|]. cbn. lia.
  Qed.
  Lemma sequential_all l ys fin : mapM f l = Ok ys -> sequential f l fin = (ys, fin).
  Proof.
    intro H. pose proof (sequential_app l ys [] fin H) as E. rewrite app_nil_r in E. rewrite E. cbn. rewrite app_nil_r. reflexivity.
  Qed.

  Lemma chunks_run size : 0 < size -> forall fuel l extra out r tail fin,
    length l <= fuel ->
    map (mapM f) (chunks fuel size l) ++ extra = map Ok out ++ tail ->
    (tail = [] /\ extra = [] /\ fin = None /\ r = None) \/
    (exists e rest, tail = Raise e :: rest /\ r = Some e /\
       ((extra = [] /\ fin = None) \/ (exists e', extra = [Raise e'] /\ fin = Some e' /\ exists q, length l = size * q))) ->
    (concat out, r) = cut size (sequential f l fin).
  Proof.
    intros Hsz. induction fuel as [|fuel IH]; intros l extra out r tail fin Hl HR Hc.
    - assert (l = []) by (destruct l; [reflexivity|cbn in Hl; lia]). subst l. cbn [chunks map app] in HR.
      destruct Hc as [(-> & -> & -> & ->)|(e & rest & -> & -> & [(-> & ->)|(e' & -> & -> & _)])].
      + rewrite app_nil_r in HR. destruct out; [reflexivity|discriminate].
      + destruct out; discriminate.
      + destruct out as [|o out]; [|discriminate]. injection HR as -> _. cbn. rewrite firstn_nil. reflexivity.
    - destruct l as [|x l].
      + cbn [chunks map app] in HR.
        destruct Hc as [(-> & -> & -> & ->)|(e & rest & -> & -> & [(-> & ->)|(e' & -> & -> & _)])].
        * rewrite app_nil_r in HR. destruct out; [reflexivity|discriminate].
        * destruct out; discriminate.
        * destruct out as [|o out]; [|discriminate]. injection HR as -> _. cbn. rewrite firstn_nil. reflexivity.
      + cbn [chunks] in HR. remember (x :: l) as xs eqn:Exs. cbn [map app] in HR.
        assert (Hxs : xs = firstn size xs ++ skipn size xs) by (symmetry; apply firstn_skipn).
        assert (Hne : 0 < length xs) by (subst xs; cbn; lia).
        destruct (mapM f (firstn size xs)) as [ys|e1] eqn:E1.
        * destruct out as [|o out].
          { cbn [map app] in HR. destruct Hc as [(-> & _)|(e & rest & -> & _)]; discriminate HR. }
          cbn [map app] in HR. injection HR as Hy HR. subst o.
          specialize (IH (skipn size xs) extra out r tail fin).
          rewrite skipn_length in IH.
          assert (IH' : (concat out, r) = cut size (sequential f (skipn size xs) fin)).
          { apply IH; [lia|exact HR|].
            destruct Hc as [Hc|(e & rest & Ht & Hr & [Hc|(e' & He & Hf & q & Hq)])]; [left; exact Hc|right|right];
              exists e, rest; (split; [exact Ht|split; [exact Hr|]]); [left; exact Hc|].
            right. exists e'. split; [exact He|]. split; [exact Hf|]. exists (q - 1). rewrite Hq, Nat.mul_sub_distr_l. lia. }
          rewrite Hxs, (sequential_app _ ys _ _ E1).
          destruct (sequential f (skipn size xs) fin) as [ys2 r2] eqn:E2. unfold cut in *. cbn [fst snd concat] in *.
          destruct r2 as [e2|].
          -- injection IH' as Hc' ->. f_equal.
             assert (Hlen : length ys = size \/ skipn size xs = [] /\ ys2 = []).
             { destruct (le_lt_dec size (length xs)) as [H|H].
               - left. apply mapM_length in E1. rewrite firstn_length_le in E1 by exact H. exact E1.
               - right. rewrite skipn_all2 in * by lia. split; [reflexivity|]. cbn in E2. injection E2 as <- _. reflexivity. }
             destruct Hlen as [Hlen|[Hs Hy2]].
             ++ rewrite app_length, Hlen.
                replace (size + length ys2) with (length ys2 + 1 * size) by lia. rewrite Nat.div_add by lia.
                replace (size * (length ys2 / size + 1)) with (length ys + size * (length ys2 / size)) by lia.
                rewrite firstn_app_2, Hc'. reflexivity.
             ++ (* a failure after a short last chunk cannot be *)
                subst ys2. rewrite Hs in E2. cbn in E2. injection E2 as E2. rewrite E2 in *. cbn in Hc'. rewrite firstn_nil in Hc'. rewrite Hc', ?app_nil_r.
                destruct Hc as [(_ & _ & Hf & _)|(e & rest & Ht & Hr & [(_ & Hf)|(e' & He & Hf & q & Hq)])]; try discriminate.
                assert (length ys = size * q).
                { apply mapM_length in E1. rewrite E1, <- Hq. rewrite Hxs at 2. rewrite Hs, app_nil_r. reflexivity. }
                rewrite H, (Nat.mul_comm size q), Nat.div_mul by lia. rewrite (Nat.mul_comm size q), (Nat.mul_comm q size), <- H. symmetry. apply firstn_all.
          -- injection IH' as <- ->. reflexivity.
        * assert (out = [] /\ tail <> []) as [-> Htail].
          { destruct out as [|o out]; [|discriminate HR]. split; [reflexivity|]. intros ->. discriminate HR. }
          cbn [map app] in HR. destruct Hc as [(-> & _)|(e & rest & -> & -> & Hc)]; [congruence|].
          injection HR as -> _.
          destruct (sequential_fail (firstn size xs) e (skipn size xs) fin E1) as (ys & Hs & Hlt).
          rewrite Hxs, Hs. unfold cut. cbn [fst snd concat].
          rewrite Nat.div_small; [rewrite Nat.mul_0_r; reflexivity|]. rewrite firstn_length in Hlt. lia.
  Qed.

  Lemma full_chunks_prefix size : 0 < size -> forall fuel (l : list A), length l <= fuel ->
    filter (fun c => length c =? size) (chunks fuel size l) =
    chunks (length (firstn (size * (length l / size)) l)) size (firstn (size * (length l / size)) l).
  Proof.
    intros Hsz. induction fuel as [|fuel IH]; intros l Hl.
    - assert (l = []) by (destruct l; [reflexivity|cbn in Hl; lia]). subst l. rewrite firstn_nil. reflexivity.
    - destruct l as [|x l]; [rewrite firstn_nil; reflexivity|].
      cbn [chunks]. remember (x :: l) as xs eqn:Exs. cbn [filter].
      assert (Hne : 0 < length xs) by (subst xs; cbn; lia).
      destruct (le_lt_dec size (length xs)) as [H|H].
      + rewrite firstn_length_le by exact H. rewrite Nat.eqb_refl. rewrite IH by (rewrite skipn_length; lia).
        rewrite skipn_length.
        assert (Hq : length xs / size = S ((length xs - size) / size)).
        { replace (length xs) with ((length xs - size) + 1 * size) at 1 by lia. rewrite Nat.div_add by lia. lia. }
        assert (Hm : forall q, firstn (size * S q) xs = firstn size xs ++ firstn (size * q) (skipn size xs)).
        { intro q. replace (size * S q) with (size + size * q) by lia.
          rewrite <- (firstn_skipn size xs) at 1.
          replace (size + size * q) with (length (firstn size xs) + size * q) by (rewrite firstn_length_le by exact H; reflexivity).
          rewrite firstn_app_2. reflexivity. }
        rewrite Hq, Hm. set (rest := firstn (size * ((length xs - size) / size)) (skipn size xs)).
        rewrite app_length, firstn_length_le by exact H.
        assert (Hc : forall fu r, length r <= fu -> chunks (size + fu) size (firstn size xs ++ r) = firstn size xs :: chunks fu size r).
        { intros fu r Hr.
          assert (Hmono : forall f1 f2 (r : list A), length r <= f1 -> length r <= f2 -> chunks f1 size r = chunks f2 size r).
          { clear - Hsz. induction f1 as [|f1 IHf]; intros f2 r H1 H2.
            - destruct r; [destruct f2; reflexivity|cbn in H1; lia].
            - destruct r as [|y r]; [destruct f2; reflexivity|]. destruct f2 as [|f2]; [cbn in H2; lia|].
              cbn [chunks]. f_equal. apply IHf; rewrite skipn_length; cbn [length] in *; lia. }
          destruct size as [|sz] eqn:Es; [lia|]. rewrite <- Es in *. replace (S sz + fu) with (S (sz + fu)) by lia.
          assert (Hlen : length (firstn size xs) = size) by (apply firstn_length_le; lia).
          destruct (firstn size xs ++ r) as [|z zs] eqn:Ez.
          - apply (f_equal (@length _)) in Ez. rewrite app_length, Hlen in Ez. cbn in Ez. lia.
          - rewrite <- Ez. replace (size + fu) with (S (sz + fu)) by lia.
            transitivity (firstn size (firstn size xs ++ r) :: chunks (sz + fu) size (skipn size (firstn size xs ++ r))).
            { rewrite Ez. reflexivity. }
            rewrite firstn_app, skipn_app, Hlen, Nat.sub_diag.
            rewrite (firstn_all2 (firstn size xs)), (skipn_all2 (firstn size xs)) by lia. cbn [firstn skipn app]. rewrite app_nil_r.
            f_equal. apply Hmono; lia. }
        rewrite Hc by lia. reflexivity.
      + assert (length (firstn size xs) =? size = false) as ->.
        { apply Nat.eqb_neq. rewrite firstn_length. lia. }
        rewrite Nat.div_small by exact H. rewrite Nat.mul_0_r. cbn [firstn length chunks].
        rewrite skipn_all2 by lia. destruct fuel; reflexivity.
  Qed.
End Chunks.

Lemma parallel_map_run {A B} (f : A -> res B) data n_cpus size out :
  (1 < n_cpus)%Z -> 0 < size -> parallel_map f data n_cpus size out ->
  out = cut size (sequential f (seen_input size data) (snd data)).
Proof.
  intros Hn Hs Hp. destruct Hp as [H|H1 H2|es done s fin H1 H2 Hes Hend]; [lia|lia|].
  unfold pm_end in Hend. unfold pm_yields. destruct data as [l e0]. unfold seen_input. cbn [fst snd] in *.
  assert (HR : exists tail, task_results f size (l, e0) = map Ok (im_out s) ++ tail /\
             ((tail = [] /\ fin = None) \/ (exists e rest, tail = Raise e :: rest /\ fin = Some e))).
  { destruct (im_mode s) as [| | | |e] eqn:Em; try discriminate; injection Hend as <-.
    - exists []. rewrite app_nil_r. split; [eapply reach_stopped; eauto|left; auto].
    - destruct (reach_failed _ _ _ _ _ Hes Em) as [rest HR]. exists (Raise e :: rest). split; [exact HR|]. right. eauto. }
  destruct HR as (tail & HR & Hc). unfold task_results in HR. cbn [fst snd] in HR. destruct e0 as [e0|].
  - unfold full_chunks in HR. rewrite (full_chunks_prefix size Hs (length l) l) in HR by lia.
    eapply chunks_run with (extra := [Raise e0]) (tail := tail) (r := fin) (fin := Some e0); [exact Hs| |exact HR|].
    + lia.
    + destruct Hc as [[-> ->]|(e & rest & -> & ->)].
      * exfalso. rewrite app_nil_r in HR. apply (f_equal (@rev _)) in HR. rewrite rev_app_distr, <- (map_rev Ok) in HR. cbn [rev app] in HR. destruct (rev (im_out s)); cbn [map] in HR; congruence.
      * right. exists e, rest. split; [reflexivity|]. split; [reflexivity|]. right. exists e0. split; [reflexivity|]. split; [reflexivity|].
        exists (length l / size). rewrite firstn_length. apply Nat.min_l. apply Nat.mul_div_le. lia.
  - rewrite <- (app_nil_r (map (mapM f) _)) in HR.
    eapply chunks_run with (extra := []) (tail := tail) (r := fin) (fin := None); [exact Hs| |exact HR|].
    + lia.
    + destruct Hc as [[-> ->]|(e & rest & -> & ->)]; [left; auto|]. right. exists e, rest. auto.
Qed.

(** there is a run to the end, whatever happened so far *)
Lemma isteps_app {V} (R : list (res V)) x es1 y es2 z : isteps R x es1 y -> isteps R y es2 z -> isteps R x (es1 ++ es2) z.
Proof.
  intros H1 H2. induction H2 as [y|y z z' es e _ IH Hs]; [rewrite app_nil_r; exact H1|].
  rewrite app_assoc. eapply sts_snoc; [apply IH; exact H1|exact Hs].
Qed.
Lemma reach_finish {V} (R : list (res V)) : forall k es done s, isteps R ([], imap0) es (done, s) -> 3 * length R + 3 - length es <= k ->
  exists es' done' s', isteps R (done, s) es' (done', s') /\ (im_mode s' = Stopped \/ exists e, im_mode s' = Failed e).
Proof.
  induction k as [|k IH]; intros es done s H Hk.
  - destruct (reach_progress R es done s H) as [Hm|(ev & [d' s'] & Hst)].
    + exists [], done, s. split; [constructor|exact Hm].
    + pose proof (sts_snoc _ _ _ _ _ _ H Hst) as H'. apply reach_bound in H'. rewrite app_length in H'. cbn in H'. lia.
  - destruct (reach_progress R es done s H) as [Hm|(ev & [d' s'] & Hst)].
    + exists [], done, s. split; [constructor|exact Hm].
    + pose proof (sts_snoc _ _ _ _ _ _ H Hst) as H'.
      destruct (IH _ _ _ H') as (es' & d2 & s2 & H2 & Hm). { rewrite app_length. cbn [length]. lia. }
      exists ([ev] ++ es'), d2, s2. split; [|exact Hm]. eapply isteps_app; [|exact H2].
      apply (sts_snoc R (done, s) (done, s) (d', s') [] ev); [constructor|exact Hst].
Qed.

Lemma step_out {V} (R : list (res V)) x e y : istep R x e y -> exists more, im_out (snd y) = im_out (snd x) ++ more.
Proof.
  destruct 1 as [done s i v _ _|done s _|done s _|done s _]; cbn [snd].
  - unfold im_set. destruct (im_index s =? i); [destruct (drain _ _ _ _) as [[? ?] ?]|]; exists []; rewrite app_nil_r; reflexivity.
  - exists []. rewrite app_nil_r. reflexivity.
  - unfold im_next. destruct (im_items s) as [|[v|e] items]; cbn [im_out]; [exists []|exists [v]|exists []]; rewrite ?app_nil_r; reflexivity.
  - unfold im_next. destruct (im_items s) as [|[v|e] items]; cbn [im_out]; [exists []|exists [v]|exists []]; rewrite ?app_nil_r; reflexivity.
Qed.
Lemma steps_out {V} (R : list (res V)) x es y : isteps R x es y -> exists more, im_out (snd y) = im_out (snd x) ++ more.
Proof.
  induction 1 as [x|x y z es e _ [m IH] Hs]; [exists []; rewrite app_nil_r; reflexivity|].
  destruct (step_out _ _ _ _ Hs) as [m' E]. exists (m ++ m'). rewrite E, IH, app_assoc. reflexivity.
Qed.

(** at every moment the values handed out are the first values of the sequential run *)
Lemma running_prefix {A B} (f : A -> res B) data size es done s :
  0 < size -> isteps (task_results f size data) ([], imap0) es (done, s) ->
  exists more, fst (sequential f (seen_input size data) (snd data)) = pm_yields s ++ more.
Proof.
  intros Hs Hes. destruct (reach_finish _ _ _ _ _ Hes (Nat.le_refl _)) as (es' & d' & s' & Hes' & Hm).
  assert (Hend : exists fin, pm_end s' = Some fin).
  { unfold pm_end. destruct Hm as [->|[e ->]]; eauto. }
  destruct Hend as [fin Hend].
  pose proof (pm_run f data 2 size _ _ _ _ eq_refl Hs (isteps_app _ _ _ _ _ _ Hes Hes') Hend) as Hp.
  apply parallel_map_run in Hp; [|reflexivity|exact Hs].
  destruct (steps_out _ _ _ _ Hes') as [more Hmore]. cbn [snd] in Hmore.
  set (sq := sequential f (seen_input size data) (snd data)) in *.
  assert (Hcut : exists m2, fst sq = fst (cut size sq) ++ m2).
  { unfold cut. destruct (snd sq); [|exists []; rewrite app_nil_r; reflexivity]. cbn [fst].
    eexists. symmetry. apply firstn_skipn. }
  destruct Hcut as [m2 Hcut]. exists (concat more ++ m2).
  rewrite Hcut, <- Hp. cbn [fst]. unfold pm_yields. rewrite Hmore, concat_app, <- app_assoc. reflexivity.
Qed.

(** running a given schedule *)
Definition exec1 {V} (R : list (res V)) (x : list nat * imap V) (e : event) : option (list nat * imap V) :=
  let '(done, s) := x in
  match e with
  | ESet i => match nth_error R i with
              | Some v => if existsb (Nat.eqb i) done then None else Some (i :: done, im_set i v s)
              | None => None
              end
  | ELen => match im_length s with None => Some (done, im_set_length (length R) s) | Some _ => None end
  | ENext => match im_mode s with Running => Some (done, im_next false s) | _ => None end
  | EWake => match im_mode s with Woken => Some (done, im_next true s) | _ => None end
  end.
Fixpoint exec {V} (R : list (res V)) (x : list nat * imap V) (es : list event) : option (list nat * imap V) :=
  match es with
  | [] => Some x
  | e :: es' => match exec1 R x e with Some y => exec R y es' | None => None end
  end.
Lemma exec1_step {V} (R : list (res V)) x e y : exec1 R x e = Some y -> istep R x e y.
Proof.
  destruct x as [done s], e as [i| | |]; cbn.
  - destruct (nth_error R i) as [v|] eqn:E; [|discriminate]. destruct (existsb (Nat.eqb i) done) eqn:Eb; [discriminate|].
    intro H. injection H as <-. apply st_set; [exact E|]. intro Hin.
    assert (existsb (Nat.eqb i) done = true) by (apply existsb_exists; exists i; split; [exact Hin|apply Nat.eqb_refl]). congruence.
  - destruct (im_length s) eqn:E; [discriminate|]. intro H. injection H as <-. apply st_len. exact E.
  - destruct (im_mode s) eqn:E; try discriminate. intro H. injection H as <-. apply st_next. exact E.
  - destruct (im_mode s) eqn:E; try discriminate. intro H. injection H as <-. apply st_wake. exact E.
Qed.
Lemma exec_steps {V} (R : list (res V)) es : forall x y, exec R x es = Some y -> isteps R x es y.
Proof.
  induction es as [|e es IH]; intros x y H; cbn [exec] in H; [injection H as <-; constructor|].
  destruct (exec1 R x e) as [z|] eqn:E; [|discriminate]. apply exec1_step in E. apply IH in H.
  change (e :: es) with ([e] ++ es). eapply isteps_app; [|exact H]. apply (sts_snoc R x x z [] e); [constructor|exact E].
Qed.
Lemma parallel_map_exec {A B} (f : A -> res B) data n size es done s out : (1 < n)%Z -> 0 < size ->
  exec (task_results f size data) ([], imap0) es = Some (done, s) ->
  option_map (fun fin => (pm_yields s, fin)) (pm_end s) = Some out -> parallel_map f data n size out.
Proof.
  intros Hn Hs He Ho. destruct (pm_end s) as [fin|] eqn:Ee; [|discriminate]. cbn in Ho. injection Ho as <-.
  eapply pm_run; [exact Hn|exact Hs|apply exec_steps; exact He|exact Ee].
Qed.
