(** experimental/bpepp.py: long runs, the constructor of the learner, and the learner as a whole. *)
From Coq Require Import Strings.String.
From Verif Require Import Py PyLemmas PyStr CodecModel CodecSpec VocabFileProofs LearnModel HeapModel BpeSpec LearnBpeModel LearnBpeProofs LearnBpeLoop
     LearnBpeIndex LearnBpeResults TrackProofs BpeppModel BpeppSpec BpeppLearn.
Local Open Scope Z_scope.
Local Open Scope list_scope.

(** ** Long runs *)
Lemma skipn_nth_cons i (s : list Z) : (i < length s)%nat -> skipn i s = nth i s 0 :: skipn (S i) s.
Proof. revert i. induction s as [|x s IH]; intros [|i] H; cbn [length] in H; try lia; [reflexivity|]. cbn [skipn nth]. apply IH. lia. Qed.

Lemma trouble_iff s : is_troublesome_seq s = true <-> has_run s.
Proof.
  unfold is_troublesome_seq. rewrite existsb_exists. split.
  - intros (i & Hin & H). apply in_seq in Hin. apply andb_true_iff in H. destruct H as [H1 H2]. apply Z.eqb_eq in H1, H2.
    exists (nth (i - 2) s 0), (firstn (i - 2) s), (skipn (S i) s).
    rewrite <- (firstn_skipn (i - 2) s) at 1. f_equal.
    rewrite skipn_nth_cons by lia. f_equal. rewrite skipn_nth_cons by lia. replace (S (i - 2))%nat with (i - 1)%nat by lia. f_equal; [exact H2|].
    rewrite skipn_nth_cons by lia. replace (S (i - 1))%nat with i by lia. f_equal. congruence.
  - intros (x & l1 & l2 & ->). exists (length l1 + 2)%nat. split.
    + apply in_seq. rewrite app_length. cbn [length]. lia.
    + rewrite !app_nth2 by lia. replace (length l1 + 2 - length l1)%nat with 2%nat by lia.
      replace (length l1 + 2 - 1 - length l1)%nat with 1%nat by lia. replace (length l1 + 2 - 2 - length l1)%nat with 0%nat by lia.
      cbn [nth]. rewrite Z.eqb_refl. reflexivity.
Qed.

(** how long the run is that ends at each position *)
Fixpoint counts (p : Z) (k : nat) (s : list Z) : list nat :=
  match s with
  | [] => []
  | x :: s' => let k' := if x =? p then S k else 1%nat in k' :: counts x k' s'
  end.
Lemma nth_mid {A} (l1 l2 : list A) x d : nth (length l1) (l1 ++ x :: l2) d = x.
Proof. rewrite app_nth2 by lia. rewrite Nat.sub_diag. reflexivity. Qed.
Lemma buffer_fold rest : forall pre p bpre k, length bpre = length pre ->
  fold_left (fun buf i => if nth i (pre ++ p :: rest) 0 =? nth (i - 1) (pre ++ p :: rest) 0 then set_nth i (nth (i - 1) buf 0%nat + 1)%nat buf else buf)
            (List.seq (S (length pre)) (length rest)) (bpre ++ k :: repeat 1%nat (length rest)) = bpre ++ k :: counts p k rest.
Proof.
  induction rest as [|x rest IH]; intros pre p bpre k Hl; cbn [length List.seq fold_left repeat counts]; [reflexivity|].
  assert (E1 : nth (S (length pre)) (pre ++ p :: x :: rest) 0 = x).
  { replace (pre ++ p :: x :: rest) with ((pre ++ [p]) ++ x :: rest) by (rewrite <- app_assoc; reflexivity).
    replace (S (length pre)) with (length (pre ++ [p])) by (rewrite app_length; cbn [length]; lia). apply nth_mid. }
  assert (E2 : nth (S (length pre) - 1) (pre ++ p :: x :: rest) 0 = p) by (cbn [Nat.sub]; rewrite Nat.sub_0_r; apply nth_mid).
  assert (E3 : nth (S (length pre) - 1) (bpre ++ k :: 1%nat :: repeat 1%nat (length rest)) 0%nat = k) by (cbn [Nat.sub]; rewrite Nat.sub_0_r, <- Hl; apply nth_mid).
  rewrite E1, E2, E3.
  specialize (IH (pre ++ [p]) x (bpre ++ [k]) (if x =? p then S k else 1%nat)).
  rewrite !app_length in IH. cbn [length] in IH. rewrite <- !app_assoc in IH. cbn [app] in IH.
  replace (S (length pre + 1)) with (S (S (length pre))) in IH by lia. specialize (IH ltac:(lia)). rewrite <- IH. f_equal.
  destruct (x =? p); [|reflexivity].
  replace (bpre ++ k :: 1%nat :: repeat 1%nat (length rest)) with ((bpre ++ [k]) ++ 1%nat :: repeat 1%nat (length rest)) by (rewrite <- app_assoc; reflexivity).
  replace (S (length pre)) with (length (bpre ++ [k])) by (rewrite app_length; cbn [length]; lia). rewrite set_nth_app, <- app_assoc. cbn [app].
  replace (k + 1)%nat with (S k) by lia. reflexivity.
Qed.
Lemma trouble_buffer_eq p s : trouble_buffer (p :: s) = 1%nat :: counts p 1 s.
Proof.
  unfold trouble_buffer. cbn [length]. rewrite Nat.sub_succ, Nat.sub_0_r. cbn [repeat].
  exact (buffer_fold s [] p [] 1%nat eq_refl).
Qed.

(** cutting in one pass *)
Fixpoint cut2 (p : Z) (k : nat) (s : list Z) : list Z :=
  match s with
  | [] => []
  | x :: s' => let k' := if x =? p then S k else 1%nat in if (k' <=? 2)%nat then x :: cut2 x k' s' else cut2 x k' s'
  end.
Lemma cut2_counts s : forall p k, map fst (filter (fun xf => (snd xf <=? 2)%nat) (combine s (counts p k s))) = cut2 p k s.
Proof.
  induction s as [|x s IH]; intros p k; [reflexivity|]. cbn [counts combine filter cut2]. cbn [snd].
  destruct (_ <=? 2)%nat; cbn [map fst]; rewrite IH; reflexivity.
Qed.
Lemma replace_trouble_eq p s : replace_trouble (p :: s) = p :: cut2 p 1 s.
Proof. unfold replace_trouble. rewrite trouble_buffer_eq. cbn [combine filter snd Nat.leb map fst]. rewrite cut2_counts. reflexivity. Qed.

(** a sequence as maximal runs, the first of symbol p with k copies already seen *)
Lemma cut2_runs s : forall p k, (0 < k)%nat -> exists n runs,
  maximal_runs ((p, (k + n)%nat) :: runs) /\ s = repeat p n ++ expand runs /\
  cut2 p k s = repeat p (Nat.min 2 (k + n) - Nat.min 2 k) ++ expand (map (fun xn => (fst xn, Nat.min 2 (snd xn))) runs).
Proof.
  induction s as [|x s IH]; intros p k Hk.
  - exists 0%nat, []. split; [|split; [reflexivity|]].
    + split; [intros y m [E|[]]; injection E as <- <-; lia|]. intros [|[z m] l1] y n y' m' l2 E; try discriminate. destruct l1; discriminate.
    + rewrite Nat.add_0_r, Nat.sub_diag. reflexivity.
  - destruct (Z.eqb_spec x p) as [->|Hne].
    + destruct (IH p (S k) ltac:(lia)) as (n & runs & H1 & H2 & H3). exists (S n), runs. replace (k + S n)%nat with (S k + n)%nat by lia.
      split; [exact H1|]. split; [rewrite H2; reflexivity|]. cbn [cut2]. rewrite Z.eqb_refl, H3. clear.
      destruct (Nat.leb_spec (S k) 2) as [H|H].
      * replace (Nat.min 2 (S k + n) - Nat.min 2 k)%nat with (S (Nat.min 2 (S k + n) - Nat.min 2 (S k)))%nat by lia. reflexivity.
      * replace (Nat.min 2 (S k + n) - Nat.min 2 k)%nat with (Nat.min 2 (S k + n) - Nat.min 2 (S k))%nat by lia. reflexivity.
    + destruct (IH x 1%nat ltac:(lia)) as (n & runs & [M1 M2] & H2 & H3). exists 0%nat, ((x, (1 + n)%nat) :: runs). split; [|split].
      * split.
        -- intros y m [E|Hin]; [injection E as <- <-; lia|apply (M1 y m Hin)].
        -- intros [|e l1] y m y' m' l2 E; cbn [app] in E; [injection E as <- _ <- _ _; congruence|].
           injection E as _ E. apply (M2 l1 y m y' m' l2 E).
      * rewrite H2. reflexivity.
      * cbn [cut2]. rewrite (proj2 (Z.eqb_neq x p) Hne). cbn [Nat.leb]. rewrite H3, Nat.add_0_r, Nat.sub_diag. cbn [repeat app map fst snd expand flat_map].
        replace (Nat.min 2 (1 + n)) with (S (Nat.min 2 (1 + n) - 1))%nat at 2 by lia. cbn [repeat app]. reflexivity.
Qed.
Lemma replace_trouble_capped s : capped s (replace_trouble s).
Proof.
  destruct s as [|p s].
  - exists []. split; [|split; reflexivity]. split; [intros x n []|]. intros [|? ?] x n y m l2 E; discriminate.
  - destruct (cut2_runs s p 1%nat ltac:(lia)) as (n & runs & H1 & H2 & H3). exists ((p, (1 + n)%nat) :: runs). split; [exact H1|]. split.
    + rewrite H2. reflexivity.
    + rewrite replace_trouble_eq, H3. cbn [map fst snd expand flat_map].
      replace (Nat.min 2 (1 + n)) with (S (Nat.min 2 (1 + n) - 1))%nat at 2 by lia. cbn [repeat app]. reflexivity.
Qed.

(** maximal runs are determined by the sequence *)
Lemma maximal_tail e runs : maximal_runs (e :: runs) -> maximal_runs runs.
Proof.
  intros [H1 H2]. split; [intros x n Hin; apply (H1 x n); right; exact Hin|].
  intros l1 x n y m l2 E. apply (H2 (e :: l1) x n y m l2). rewrite E. reflexivity.
Qed.
Lemma maximal_unique r1 : forall r2, maximal_runs r1 -> maximal_runs r2 -> expand r1 = expand r2 -> r1 = r2.
Proof.
  assert (Hhd : forall x n r y l, maximal_runs ((x, n) :: r) -> expand r = y :: l -> x <> y).
  { intros x n [|[z m] r] y l HM E; [discriminate|]. cbn [expand flat_map fst snd] in E.
    destruct m as [|m]; [destruct HM as [HM _]; specialize (HM z 0%nat (or_intror (or_introl eq_refl))); lia|].
    cbn [repeat app] in E. injection E as -> _. apply (proj2 HM [] x n y (S m) r). reflexivity. }
  assert (Hcons : forall x n r, maximal_runs ((x, S (S n)) :: r) -> maximal_runs ((x, S n) :: r)).
  { intros x n r [H1 H2]. split.
    - intros y m [E|Hin]; [injection E as <- <-; lia|apply (H1 y m); right; exact Hin].
    - intros [|e l1] y m y' m' l2 E; cbn [app] in E.
      + injection E as E1 E2 E3. rewrite <- E1. apply (H2 [] x (S (S n)) y' m' l2). cbn [app]. congruence.
      + injection E as _ E. apply (H2 ((x, S (S n)) :: l1) y m y' m' l2). cbn [app]. congruence. }
  induction r1 as [|[x n] r1 IH]; intros r2 M1 M2 E.
  - destruct r2 as [|[y m] r2]; [reflexivity|]. destruct M2 as [M2 _]. specialize (M2 y m (or_introl eq_refl)). destruct m; [lia|discriminate].
  - destruct r2 as [|[y m] r2]; [destruct M1 as [M1 _]; specialize (M1 x n (or_introl eq_refl)); destruct n; [lia|discriminate]|].
    assert (Hn : (0 < n)%nat) by (apply (proj1 M1 x n); left; reflexivity). assert (Hm : (0 < m)%nat) by (apply (proj1 M2 y m); left; reflexivity).
    destruct n as [|n]; [lia|]. destruct m as [|m]; [lia|]. clear Hn Hm.
    assert (Exy : x = y) by (cbn [expand flat_map fst snd repeat app] in E; injection E as E _; exact E). subst y.
    revert m M1 M2 E. induction n as [|n IHn]; intros [|m] M1 M2 E.
    + cbn [expand flat_map fst snd repeat app] in E. injection E as E. f_equal. apply IH; [eapply maximal_tail; exact M1|eapply maximal_tail; exact M2|exact E].
    + exfalso. cbn [expand flat_map fst snd repeat app] in E. injection E as E. apply (Hhd x 1%nat r1 x _ M1 E). reflexivity.
    + exfalso. cbn [expand flat_map fst snd repeat app] in E. injection E as E. symmetry in E. apply (Hhd x 1%nat r2 x _ M2 E). reflexivity.
    + assert (G : (x, S n) :: r1 = (x, S m) :: r2).
      { apply IHn; [apply Hcons, M1|apply Hcons, M2|]. cbn [expand flat_map fst snd repeat app] in E |- *. injection E as E. rewrite E. reflexivity. }
      injection G as -> ->. reflexivity.
Qed.
Lemma capped_unique s s1 s2 : capped s s1 -> capped s s2 -> s1 = s2.
Proof.
  intros (r1 & M1 & E1 & ->) (r2 & M2 & E2 & ->). rewrite (maximal_unique r1 r2 M1 M2); [reflexivity|]. congruence.
Qed.
Lemma capped_replace s s' : capped s s' -> s' = replace_trouble s.
Proof. intros H. eapply capped_unique; [exact H|apply replace_trouble_capped]. Qed.

(** what is cut: no run stays, nothing changes without one, no symbol disappears *)
Lemma cut2_run s : forall p k, (0 < k)%nat ->
  forall l1 x l2, repeat p (Nat.min 2 k) ++ cut2 p k s = l1 ++ x :: x :: x :: l2 -> False.
Proof.
  induction s as [|y s IH]; intros p k Hk l1 x l2 E.
  - cbn [cut2] in E. rewrite app_nil_r in E. apply (f_equal (@length Z)) in E. rewrite repeat_length, app_length in E. cbn [length] in E. lia.
  - cbn [cut2] in E. destruct (Z.eqb_spec y p) as [->|Hne].
    + destruct (Nat.leb_spec (S k) 2) as [H|H].
      * assert (k = 1%nat) by lia. subst k. apply (IH p 2%nat ltac:(lia) l1 x l2). exact E.
      * apply (IH p (S k) ltac:(lia) l1 x l2). rewrite <- E. replace (Nat.min 2 (S k)) with (Nat.min 2 k) by lia. reflexivity.
    + cbn [Nat.leb] in E. destruct (Nat.leb_spec (length l1) (Nat.min 2 k)) as [Hl|Hl].
      * destruct (Nat.eq_dec (length l1) (Nat.min 2 k)) as [Hl'|Hl'].
        -- assert (E2 : y :: cut2 y 1 s = x :: x :: x :: l2).
           { apply (f_equal (skipn (Nat.min 2 k))) in E. rewrite !skipn_app, repeat_length, Nat.sub_diag, Hl', Nat.sub_diag in E.
             rewrite (skipn_all2 (repeat p (Nat.min 2 k))) in E by (rewrite repeat_length; lia). rewrite (skipn_all2 l1) in E by lia. exact E. }
           apply (IH y 1%nat ltac:(lia) [] x l2). exact E2.
        -- exfalso. assert (Hlt : (length l1 < Nat.min 2 k)%nat) by lia.
           assert (Ex : nth (length l1) (repeat p (Nat.min 2 k) ++ y :: cut2 y 1 s) 0 = x) by (rewrite E; apply nth_mid).
           rewrite app_nth1 in Ex by (rewrite repeat_length; exact Hlt). rewrite (nth_indep _ 0 p) in Ex by (rewrite repeat_length; exact Hlt). rewrite nth_repeat in Ex. subst x.
           assert (Ey : nth (Nat.min 2 k) (repeat p (Nat.min 2 k) ++ y :: cut2 y 1 s) 0 = y).
           { replace (Nat.min 2 k) with (length (repeat p (Nat.min 2 k))) at 1 by apply repeat_length. apply nth_mid. }
           rewrite E in Ey. rewrite app_nth2 in Ey by lia.
           assert (Hc : (Nat.min 2 k - length l1 = 1 \/ Nat.min 2 k - length l1 = 2)%nat) by lia. destruct Hc as [Hc|Hc]; rewrite Hc in Ey; cbn [nth] in Ey; congruence.
      * assert (E2 : exists l, y :: cut2 y 1 s = l ++ x :: x :: x :: l2).
        { exists (skipn (Nat.min 2 k) l1). apply (f_equal (skipn (Nat.min 2 k))) in E. rewrite !skipn_app, repeat_length, Nat.sub_diag in E.
          rewrite (skipn_all2 (repeat p (Nat.min 2 k))) in E by (rewrite repeat_length; lia).
          replace (Nat.min 2 k - length l1)%nat with 0%nat in E by lia. exact E. }
        destruct E2 as (l & E2). apply (IH y 1%nat ltac:(lia) l x l2). exact E2.
Qed.
Lemma replace_no_run s : ~ has_run (replace_trouble s).
Proof.
  intros (x & l1 & l2 & E). destruct s as [|p s]; [destruct l1; discriminate|]. rewrite replace_trouble_eq in E.
  apply (cut2_run s p 1%nat ltac:(lia) l1 x l2). exact E.
Qed.
Lemma cut2_id s : forall p k, (k <= 2)%nat -> (0 < k)%nat -> ~ has_run (repeat p k ++ s) -> cut2 p k s = s.
Proof.
  induction s as [|y s IH]; intros p k Hk Hk0 Hn; [reflexivity|]. cbn [cut2]. destruct (Z.eqb_spec y p) as [->|Hne].
  - destruct (Nat.leb_spec (S k) 2) as [H|H].
    + assert (k = 1%nat) by lia. subst k. f_equal. apply IH; [lia|lia|exact Hn].
    + exfalso. assert (k = 2%nat) by lia. subst k. apply Hn. exists p, [], s. reflexivity.
  - cbn [Nat.leb]. f_equal. apply IH; [lia|lia|]. intros (x & l1 & l2 & E). apply Hn. exists x, (repeat p k ++ l1), l2. rewrite <- app_assoc, <- E. reflexivity.
Qed.
Lemma replace_id s : ~ has_run s -> replace_trouble s = s.
Proof. intros H. destruct s as [|p s]; [reflexivity|]. rewrite replace_trouble_eq. f_equal. apply cut2_id; [lia|lia|exact H]. Qed.
Lemma cut2_in s : forall p k x, In x (cut2 p k s) -> In x s.
Proof.
  induction s as [|y s IH]; intros p k x; [intros []|]. cbn [cut2]. destruct (_ <=? 2)%nat.
  - intros [->|H]; [left; reflexivity|right; eapply IH; exact H].
  - intros H. right. eapply IH, H.
Qed.
Lemma replace_in s x : In x (replace_trouble s) -> In x s.
Proof. destruct s as [|p s]; [intros []|]. rewrite replace_trouble_eq. intros [->|H]; [left; reflexivity|right; eapply cut2_in; exact H]. Qed.
Lemma replace_nonempty s : s <> [] -> replace_trouble s <> [].
Proof. destruct s as [|p s]; [congruence|]. intros _. rewrite replace_trouble_eq. discriminate. Qed.

(** ** The corpus learned from *)
Definition cuts (tr : troubles) : bool := match tr with Replace => true | Ignore => false end.
Definition clean1 (tr : troubles) (sf : list Z * Z) : corpus :=
  match fst sf with
  | [] => []
  | _ => if is_troublesome_seq (fst sf) then match tr with Ignore => [] | Replace => [(replace_trouble (fst sf), snd sf)] end else [sf]
  end.
Lemma cleaned_flat tr c c' : cleaned (cuts tr) c c' <-> c' = flat_map (clean1 tr) c.
Proof.
  split.
  - induction 1 as [|f c c' _ IH|s f c c' Hs Hn _ IH|s s' f c c' Ht Hr Hc _ IH|s f c c' Ht Hr _ IH]; cbn [flat_map]; rewrite <- ?IH; try reflexivity.
    + unfold clean1. cbn [fst snd]. destruct s as [|x s]; [congruence|]. destruct (is_troublesome_seq (x :: s)) eqn:E; [apply trouble_iff in E; contradiction|]. reflexivity.
    + unfold clean1. cbn [fst snd]. destruct s as [|x s]; [destruct Hr as (y & [|? ?] & l2 & E); discriminate|].
      rewrite (proj2 (trouble_iff (x :: s)) Hr). destruct tr; [discriminate|]. rewrite (capped_replace _ _ Hc). reflexivity.
    + unfold clean1. cbn [fst snd]. destruct s as [|x s]; [reflexivity|]. rewrite (proj2 (trouble_iff (x :: s)) Hr). destruct tr; [|discriminate]. reflexivity.
  - intros ->. induction c as [|[s f] c IH]; [constructor|]. cbn [flat_map]. unfold clean1 at 1. cbn [fst snd].
    destruct s as [|x s]; [constructor; exact IH|]. destruct (is_troublesome_seq (x :: s)) eqn:E.
    + apply trouble_iff in E. destruct tr; cbn [app].
      * apply cl_drop; [reflexivity|exact E|exact IH].
      * apply cl_cut; [reflexivity|exact E|apply replace_trouble_capped|exact IH].
    + cbn [app]. apply cl_keep; [discriminate| |exact IH]. intros H. apply trouble_iff in H. congruence.
Qed.
Lemma clean1_in tr s f s' f' : In (s', f') (clean1 tr (s, f)) -> f' = f /\ s' <> [] /\ ~ has_run s' /\ forall x, In x s' -> In x s.
Proof.
  unfold clean1. cbn [fst snd]. destruct s as [|y s]; [intros []|]. destruct (is_troublesome_seq (y :: s)) eqn:E.
  - destruct tr; [intros []|]. intros [H|[]]. injection H as <- <-. split; [reflexivity|]. split; [apply replace_nonempty; discriminate|].
    split; [apply replace_no_run|]. apply replace_in.
  - intros [H|[]]. injection H as <- <-. split; [reflexivity|]. split; [discriminate|]. split; [|auto]. intros H. apply trouble_iff in H. congruence.
Qed.
Lemma clean_in tr c s' f' : In (s', f') (flat_map (clean1 tr) c) -> s' <> [] /\ ~ has_run s' /\ exists s, In (s, f') c /\ forall x, In x s' -> In x s.
Proof.
  intros H. apply in_flat_map in H. destruct H as ([s f] & Hin & H). apply clean1_in in H. destruct H as (-> & H1 & H2 & H3).
  split; [exact H1|]. split; [exact H2|]. exists s. auto.
Qed.
Lemma cleaned_no_run b c c' : cleaned b c c' -> forall s f, In (s, f) c' -> s <> [] /\ ~ has_run s.
Proof.
  intros H s f Hin. replace b with (cuts (if b then Replace else Ignore)) in H by (destruct b; reflexivity). apply cleaned_flat in H. subst c'.
  apply clean_in in Hin. tauto.
Qed.
Lemma cleaned_total b c : exists c', cleaned b c c'.
Proof. replace b with (cuts (if b then Replace else Ignore)) by (destruct b; reflexivity). eexists. apply cleaned_flat. reflexivity. Qed.
Lemma cleaned_unique b c c1 c2 : cleaned b c c1 -> cleaned b c c2 -> c1 = c2.
Proof. replace b with (cuts (if b then Replace else Ignore)) by (destruct b; reflexivity). rewrite !cleaned_flat. congruence. Qed.

(** ** The constructor *)
Lemma pp_index_ok tr ix c i s f : indexed ix c -> (i = 0 -> s <> []) ->
  exists ix', pp_index_seq tr ix (i, Ok (s, f)) = Ok ix' /\ indexed ix' (c ++ clean1 tr (s, f)).
Proof.
  intros Hix Hi. unfold pp_index_seq. cbn [bind].
  assert (E0 : exists z, (if i =? 0 then py_nth s 0 else Ok 0) = Ok z).
  { destruct (Z.eqb_spec i 0) as [->|]; [|eauto]. destruct s as [|x s]; [exfalso; apply Hi; reflexivity|]. exists x. reflexivity. }
  destruct E0 as (z & ->). cbn [bind]. unfold clean1. cbn [fst snd]. destruct s as [|x s].
  - exists ix. rewrite app_nil_r. auto.
  - destruct (is_troublesome_seq (x :: s)).
    + destruct tr.
      * exists ix. rewrite app_nil_r. auto.
      * apply index_seq_ok; [exact Hix|discriminate].
    + apply index_seq_ok; [exact Hix|discriminate].
Qed.
Lemma pp_index_rest tr c2 : forall i ix c, 0 < i -> indexed ix c ->
  exists ix', foldM (pp_index_seq tr) (enum_from i (map (fun sf => Ok sf) c2)) ix = Ok ix' /\ indexed ix' (c ++ flat_map (clean1 tr) c2).
Proof.
  induction c2 as [|[s f] c2 IH]; intros i ix c Hi Hc; cbn [map enum_from foldM flat_map].
  - exists ix. rewrite app_nil_r. auto.
  - destruct (pp_index_ok tr ix c i s f Hc ltac:(lia)) as (ix1 & E1 & Hc1). rewrite E1.
    destruct (IH (i + 1) ix1 _ ltac:(lia) Hc1) as (ix' & E & H). exists ix'. split; [exact E|]. rewrite <- app_assoc in H. exact H.
Qed.
Lemma empty_indexed : indexed (MkIndex [] [] [] []) [].
Proof.
  split; [split; [reflexivity|intros s f []]|]. constructor; cbn [ix_bi_ixs ix_bi ix_uni]; try reflexivity; try constructor.
  - intros [].
  - intros (s & f & [] & _).
  - intros [].
  - intros (s & f & [] & _).
Qed.
Lemma pp_index_all tr c : (forall f rest, c <> ([], f) :: rest) ->
  exists ix, foldM (pp_index_seq tr) (enumerate (map (fun sf => Ok sf) c)) (MkIndex [] [] [] []) = Ok ix /\ indexed ix (flat_map (clean1 tr) c).
Proof.
  intros H. destruct c as [|[s f] c]; [exists (MkIndex [] [] [] []); split; [reflexivity|apply empty_indexed]|].
  unfold enumerate. cbn [map enum_from foldM flat_map].
  destruct (pp_index_ok tr _ _ 0 s f empty_indexed) as (ix1 & E1 & Hc1); [intros _ ->; apply (H f c); reflexivity|]. rewrite E1.
  exact (pp_index_rest tr c 1 ix1 _ ltac:(lia) Hc1).
Qed.

Lemma distinct_count_le {A} (dec : A -> A -> bool) l : (distinct_count dec l <= length l)%nat.
Proof.
  unfold distinct_count. assert (G : forall l s, (length (fold_left (fun s x => if existsb (dec x) s then s else s ++ [x]) l s) <= length s + length l)%nat).
  { clear l. induction l as [|x l IH]; intros s; cbn [fold_left length]; [lia|]. specialize (IH (if existsb (dec x) s then s else s ++ [x])).
    destruct (existsb (dec x) s); [lia|]. rewrite app_length in IH. cbn [length] in IH. lia. }
  specialize (G l []). cbn [length] in G. lia.
Qed.
Lemma distinct_count_full {A} (dec : A -> A -> bool) (Hdec : forall a b, dec a b = true <-> a = b) l : distinct_count dec l = length l -> NoDup l.
Proof.
  unfold distinct_count.
  assert (L : forall l s, (length (fold_left (fun s x => if existsb (dec x) s then s else s ++ [x]) l s) <= length s + length l)%nat).
  { clear l. induction l as [|x l IH]; intros s; cbn [fold_left length]; [lia|]. specialize (IH (if existsb (dec x) s then s else s ++ [x])).
    destruct (existsb (dec x) s); [lia|]. rewrite app_length in IH. cbn [length] in IH. lia. }
  assert (G : forall l s, NoDup s -> length (fold_left (fun s x => if existsb (dec x) s then s else s ++ [x]) l s) = (length s + length l)%nat -> NoDup (s ++ l)).
  { clear l. induction l as [|x l IH]; intros s Hs H; cbn [fold_left length] in H; [rewrite app_nil_r; exact Hs|].
    destruct (existsb (dec x) s) eqn:E; [specialize (L l s); lia|].
    assert (Hn : ~ In x s).
    { intros Hin. assert (existsb (dec x) s = true); [|congruence]. apply existsb_exists. exists x. split; [exact Hin|apply Hdec; reflexivity]. }
    specialize (IH (s ++ [x])). rewrite <- app_assoc in IH. apply IH.
    - clear - Hs Hn. induction s as [|y s IHs]; cbn [app]; [constructor; [intros []|constructor]|].
      inversion Hs as [|? ? Hy Hs']; subst. constructor.
      + rewrite in_app_iff. intros [H|[->|[]]]; [contradiction|]. apply Hn. left. reflexivity.
      + apply IHs; [exact Hs'|]. intros H. apply Hn. right. exact H.
    - rewrite app_length. cbn [length]. lia. }
  intros H. apply (G l [] (NoDup_nil _)). exact H.
Qed.

Lemma indices_check vocab : forall i, foldM (fun _ (iv : Z * Typ) => assert_ (fst iv =? t_idx (snd iv))) (enum_from i vocab) tt =
  if forallb (fun iv => fst iv =? t_idx (snd iv)) (enum_from i vocab) then Ok tt else Raise AssertionError.
Proof.
  induction vocab as [|t vocab IH]; intros i; [reflexivity|]. cbn [enum_from foldM forallb fst snd]. destruct (i =? t_idx t); cbn [assert_ andb]; [apply IH|reflexivity].
Qed.
Lemma indices_iff vocab : forallb (fun iv => fst iv =? t_idx (snd iv)) (enumerate vocab) = true <-> well_indexed vocab.
Proof.
  rewrite forallb_forall. unfold enumerate. split.
  - intros H n t Hn. specialize (H (Z.of_nat n, t)). cbn [fst snd] in H. symmetry. apply Z.eqb_eq, H.
    apply (nth_error_In _ n). rewrite enum_from_nth, Hn. reflexivity.
  - intros H [i t] Hin. cbn [fst snd]. apply In_nth_error in Hin. destruct Hin as (n & Hn). rewrite enum_from_nth in Hn.
    destruct (nth_error vocab n) as [t'|] eqn:Et; [|discriminate]. cbn [option_map] in Hn. injection Hn as <- <-. rewrite (H _ _ Et). apply Z.eqb_refl.
Qed.
(** the two assertions on the table *)
Lemma table_checks {A} vocab (k : res A) :
  (let* _ := assert_ (Nat.eqb (distinct_count Z.eqb (map t_idx vocab)) (distinct_count str_eqb (map t_name vocab))) in
   let* _ := foldM (fun _ (iv : Z * Typ) => assert_ (fst iv =? t_idx (snd iv))) (enumerate vocab) tt in k)%res =
  if Nat.eqb (distinct_count Z.eqb (map t_idx vocab)) (distinct_count str_eqb (map t_name vocab)) &&
     forallb (fun iv => fst iv =? t_idx (snd iv)) (enumerate vocab) then k else Raise AssertionError.
Proof.
  unfold enumerate. rewrite indices_check. destruct (Nat.eqb _ _); [|reflexivity]. cbn [assert_ bind andb]. destruct (forallb _ _); reflexivity.
Qed.
Lemma table_checks_iff vocab : Nat.eqb (distinct_count Z.eqb (map t_idx vocab)) (distinct_count str_eqb (map t_name vocab)) &&
     forallb (fun iv => fst iv =? t_idx (snd iv)) (enumerate vocab) = true <-> well_indexed vocab /\ distinct_names vocab.
Proof.
  rewrite andb_true_iff, indices_iff, Nat.eqb_eq. split.
  - intros [H Hw]. split; [exact Hw|]. rewrite (distinct_count_NoDup Z.eqb Z.eqb_eq) in H by (apply well_indexed_NoDup, Hw).
    apply (distinct_count_full str_eqb str_eqb_eq). rewrite <- H, !map_length. reflexivity.
  - intros [Hw Hd]. split; [|exact Hw]. rewrite (distinct_count_NoDup Z.eqb Z.eqb_eq) by (apply well_indexed_NoDup, Hw).
    rewrite (distinct_count_NoDup str_eqb str_eqb_eq) by exact Hd. rewrite !map_length. reflexivity.
Qed.

Lemma validate_bad ix c vocab : indexed ix c -> (forall s f, In (s, f) c -> s <> [] /\ forall x, In x s -> 0 <= x) ->
  well_indexed vocab -> c = [] \/ ~ symbols_below (Z.of_nat (length vocab)) c -> validate_index ix vocab = Raise ValueError.
Proof.
  intros [_ Hc] Hne Hwi Hbad. destruct Hc as [_ _ _ _ _ _ _ H8]. unfold validate_index.
  destruct (py_max (dkeys (ix_uni ix))) as [mc|e] eqn:Emc.
  2:{ destruct (dkeys (ix_uni ix)); [|discriminate]. cbn [py_max] in Emc. injection Emc as <-. reflexivity. }
  cbn [bind]. destruct (py_max (map t_idx vocab)) as [mi|e] eqn:Emi.
  2:{ destruct vocab; [|discriminate]. cbn [py_max map] in Emi. injection Emi as <-. reflexivity. }
  cbn [bind]. destruct (Z.ltb_spec mc (Z.of_nat (length vocab))) as [Hlt|Hge]; [|reflexivity]. exfalso.
  apply py_max_spec in Emc. destruct Emc as [Hmc Hmax]. apply H8 in Hmc. destruct Hmc as (s & f & Hin & Hs).
  destruct Hbad as [->|Hbad]; [destruct Hin|]. apply Hbad. intros s' f' Hin' x Hx. split; [apply (proj2 (Hne s' f' Hin') x Hx)|].
  assert (Hk : In x (dkeys (ix_uni ix))) by (apply H8; exists s', f'; auto). specialize (Hmax x Hk). lia.
Qed.

Lemma first_empty_dec c : {first_empty c} + {forall f rest, c <> ([], f) :: rest}.
Proof. destruct c as [|[[|x s] f] c]; [right; discriminate|left; exists f, c; reflexivity|right; discriminate]. Qed.

Lemma symbols_below_dec k c : {symbols_below k c} + {~ symbols_below k c}.
Proof.
  destruct (forallb (fun sf => forallb (fun x => (0 <=? x) && (x <? k)) (fst sf)) c) eqn:E.
  - left. intros s f Hin x Hx. rewrite forallb_forall in E. specialize (E _ Hin). cbn [fst] in E. rewrite forallb_forall in E. specialize (E _ Hx).
    apply andb_true_iff in E. destruct E as [E1 E2]. apply Z.leb_le in E1. apply Z.ltb_lt in E2. lia.
  - right. intros H. assert (forallb (fun sf => forallb (fun x => (0 <=? x) && (x <? k)) (fst sf)) c = true); [|congruence].
    apply forallb_forall. intros [s f] Hin. apply forallb_forall. intros x Hx. specialize (H s f Hin x Hx). apply andb_true_iff. split; [apply Z.leb_le|apply Z.ltb_lt]; lia.
Qed.

Lemma pp_init_outcome tr c c' vocab : (forall s f, In (s, f) c -> 0 <= f /\ forall x, In x s -> 0 <= x) -> cleaned (cuts tr) c c' ->
  let start := pp_init tr (map (fun sf => Ok sf) c) vocab in
  (~ (well_indexed vocab /\ distinct_names vocab) /\ start = Raise AssertionError) \/
  ((well_indexed vocab /\ distinct_names vocab) /\
   ((first_empty c /\ start = Raise IndexError) \/
    (~ first_empty c /\
     (((c' = [] \/ ~ symbols_below (Z.of_nat (length vocab)) c') /\ start = Raise ValueError) \/
      (c' <> [] /\ symbols_below (Z.of_nat (length vocab)) c' /\ exists ix, start = Ok ix /\ indexed ix c'))))).
Proof.
  intros Hnn Hcl start. unfold start, pp_init. rewrite table_checks. pose proof (table_checks_iff vocab) as Ht.
  destruct (_ && _).
  2:{ left. split; [|reflexivity]. intros H. apply Ht in H. discriminate. }
  right. split; [apply Ht; reflexivity|]. destruct (proj1 Ht eq_refl) as [Hwi Hdn]. apply cleaned_flat in Hcl. subst c'.
  destruct (first_empty_dec c) as [Hf|Hf].
  - left. split; [exact Hf|]. destruct Hf as (f & rest & ->). reflexivity.
  - right. split; [intros (f & rest & E); exact (Hf f rest E)|]. destruct (pp_index_all tr c Hf) as (ix & E & Hix). rewrite E. cbn [bind].
    assert (Hcl : forall s f, In (s, f) (flat_map (clean1 tr) c) -> s <> [] /\ forall x, In x s -> 0 <= x).
    { intros s f Hin. apply clean_in in Hin. destruct Hin as (H1 & _ & s0 & Hin & H2). split; [exact H1|]. intros x Hx. apply (proj2 (Hnn s0 f Hin)), H2, Hx. }
    destruct (flat_map (clean1 tr) c) as [|sf c0] eqn:Ec.
    + left. split; [left; reflexivity|]. rewrite (validate_bad ix [] vocab Hix Hcl Hwi (or_introl eq_refl)). reflexivity.
    + rewrite <- Ec in *. destruct (symbols_below_dec (Z.of_nat (length vocab)) (flat_map (clean1 tr) c)) as [Hs|Hs].
      * right. split; [rewrite Ec; discriminate|]. split; [exact Hs|]. exists ix. split; [|exact Hix].
        rewrite (validate_ok ix (flat_map (clean1 tr) c) vocab Hix); [reflexivity| |exact Hs|exact Hwi|].
        -- intros s f Hin. apply clean_in in Hin. destruct Hin as (_ & _ & s0 & Hin & _). apply (proj1 (Hnn s0 f Hin)).
        -- destruct sf as [s f]. exists s, f. split; [rewrite Ec; left; reflexivity|]. apply (Hcl s f). rewrite Ec. left. reflexivity.
      * left. split; [right; exact Hs|]. rewrite (validate_bad ix _ vocab Hix Hcl Hwi (or_intror Hs)). reflexivity.
Qed.

(** ** The learner *)
Lemma pp_start ix c vocab : indexed ix c -> positive c -> symbols_below (Z.of_nat (length vocab)) c ->
  pouter (MkPP (ix_nodes ix) (ix_uni ix) (ix_bi ix) (ix_bi_ixs ix) vocab) (segs_from 0 c).
Proof.
  intros [Hf [H1 H2 H3 H4 H5 H6 H7 H8]] Hpos Hr. pose proof (fresh_wf _ _ Hf) as Hwf. constructor; cbn [pp_nodes pp_uni pp_ixs pp_bi pp_vocab].
  - exists (ix_nodes ix). split.
    + constructor; rewrite ?corpus_of_segs_from; auto.
      * intros p. rewrite H1. reflexivity.
      * rewrite <- H4. exact H5.
    + intros n _. reflexivity.
  - intros p. rewrite corpus_of_segs_from. apply H2.
  - exact H5.
Qed.

Theorem pp_learn_refines tr orders c c' vocab n min_co level :
  well_indexed vocab -> distinct_names vocab -> positive c -> ~ first_empty c -> cleaned (cuts tr) c c' -> c' <> [] ->
  symbols_below (Z.of_nat (length vocab)) c' -> (forall s f, In (s, f) c -> forall x, In x s -> 0 <= x) ->
  iteration_orders orders -> 1 <= min_co ->
  pp_bpe min_co level (Z.to_nat n) c' vocab (pp_learn_codes tr orders (map (fun sf => Ok sf) c) vocab n min_co level).
Proof.
  intros Hwi Hdn Hpos Hfe Hcl Hne Hr Hx Hord Hmc.
  destruct (pp_init_outcome tr c c' vocab) as [[H _]|(_ & [[H _]|(_ & [[[H|H] _]|(_ & _ & ix & E & Hix)])])]; try tauto.
  { intros s f Hin. split; [specialize (Hpos s f Hin); lia|apply (Hx s f Hin)]. }
  unfold pp_learn_codes. rewrite E. cbn [bind].
  assert (Hpos' : positive c').
  { apply cleaned_flat in Hcl. subst c'. intros s f Hin. apply clean_in in Hin. destruct Hin as (_ & _ & s0 & Hin & _). apply (Hpos s0 f Hin). }
  pose proof (pp_loop_refines orders min_co level Hord Hmc (Z.to_nat n) 0 _ _ (pp_start ix c' vocab Hix Hpos' Hr)) as HB.
  rewrite corpus_of_segs_from in HB. cbn [pp_vocab] in HB. destruct (pp_learn_loop _ _ _ _ _ _); exact HB.
Qed.

(** ** The shape of every result *)
Lemma py_nth_In {A} (l : list A) i x : py_nth l i = Ok x -> In x l.
Proof.
  unfold py_nth. destruct (py_index _ _); [|discriminate].
  destruct (nth_error _ _) eqn:E; [|discriminate]. intros H. injection H as <-. eapply nth_error_In, E.
Qed.
