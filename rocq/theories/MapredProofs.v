From Verif Require Import Py PyLemmas PyStr StrSpec PyStrProofs LearnSpec LearnProofs BatchModel DbProofs MapredModel MapredSpec.

(** ** The lazy tree reduction, for any state and any reduce function that respects [ok] *)
Section Generic.
  Context {T W M : Type}.
  Variable func : T -> T -> W -> res (T * W).
  Variable default : T.
  Variable g : M -> M -> M.
  Variable val : T -> W -> M.
  Variable ok : list T -> W -> Prop.
  Variable fin : option exn.

  Definition frame (L : list T) (w w' : W) : Prop := forall x, In x L -> val x w' = val x w.

  Hypothesis ok_perm : forall L L' w, Permutation L L' -> ok L w -> ok L' w.
  Hypothesis ok_func : forall a b L w, ok (a :: b :: L) w ->
    exists c w', func a b w = Ok (c, w') /\ ok (c :: L) w' /\ val c w' = g (val a w) (val b w) /\ frame L w w'.
  Hypothesis ok_def : forall a L w, ok (a :: L) w ->
    exists c w', func a default w = Ok (c, w') /\ ok (c :: L) w' /\ val c w' = val a w /\ frame L w w'.

  Definition thunk_ok (t : W -> res (T * W)) (m : M) : Prop :=
    forall L w, ok L w -> exists c w', t w = Ok (c, w') /\ ok (c :: L) w' /\ val c w' = m /\ frame L w w'.
  Definition src_ok (src : list (W -> res (T * W))) (vs : list M) : Prop :=
    exists ts, Forall2 thunk_ok ts vs /\
      src = ts ++ match fin with Some e => [fun _ => Raise e] | None => [] end.

  Fixpoint pairup (l : list M) : list M :=
    match l with
    | x :: y :: l' => g x y :: pairup l'
    | [x] => match fin with None => [x] | Some _ => [] end
    | [] => []
    end.
  Definition opt {A} (o : option A) : list A := match o with Some a => [a] | None => [] end.
  Fixpoint rest (stages : list (stage T)) (vs : list M) (w : W) : list M :=
    match stages with
    | [] => vs
    | s :: stages' => map (fun x => val x w) (opt (s_head s))
                      ++ match s_gen s with Run _ _ => pairup (rest stages' vs w) | _ => [] end
    end.
  Fixpoint live (stages : list (stage T)) : list T :=
    match stages with [] => [] | s :: stages' => opt (s_head s) ++ live stages' end.
  Definition gen_wf (gs : gstate T) : Prop :=
    match gs with
    | Run idx last => Nat.even idx = true /\ 2 <= idx /\ last <> None
    | _ => fin = None
    end.
  Definition wf (stages : list (stage T)) : Prop := Forall (fun s => gen_wf (s_gen s)) stages.

  Lemma frame_refl L w : frame L w w.
  Proof. intros x _. reflexivity. Qed.
  Lemma frame_trans L w1 w2 w3 : frame L w1 w2 -> frame L w2 w3 -> frame L w1 w3.
  Proof. intros H1 H2 x Hx. rewrite (H2 x Hx). apply H1. exact Hx. Qed.
  Lemma frame_incl L L' w w' : incl L' L -> frame L w w' -> frame L' w w'.
  Proof. intros Hi H x Hx. apply H. apply Hi. exact Hx. Qed.

  Lemma rest_ext stages vs w w' : frame (live stages) w w' -> rest stages vs w' = rest stages vs w.
  Proof.
    induction stages as [|s stages IH]; intro Hf; [reflexivity|].
    cbn [rest live] in *. f_equal.
    - apply map_ext_in. intros x Hx. apply Hf. apply in_or_app. left. exact Hx.
    - destruct (s_gen s); try reflexivity. f_equal. apply IH.
      intros x Hx. apply Hf. apply in_or_app. right. exact Hx.
  Qed.

  (** the outcome of next() on the levels [stages] over [src] *)
  Definition good_pull (n : nat) (f : pstate T W -> W -> step T * pstate T W * W)
    (stages : list (stage T)) (src : list (W -> res (T * W))) (vs : list M) (w : W) (L : list T) : Prop :=
    match rest stages vs w with
    | [] =>
        match fin with
        | Some e => exists st' w', f (stages, src) w = (Fail e, st', w')
        | None => exists stages' src' vs' w',
            f (stages, src) w = (Stop, (stages', src'), w') /\ length stages' = n /\ wf stages' /\ src_ok src' vs' /\
            ok (live stages' ++ L) w' /\ rest stages' vs' w' = [] /\ frame L w w'
        end
    | x :: r => exists c stages' src' vs' w',
        f (stages, src) w = (Yield c, (stages', src'), w') /\ length stages' = n /\ wf stages' /\ src_ok src' vs' /\
        ok (c :: live stages' ++ L) w' /\ val c w' = x /\ rest stages' vs' w' = r /\ frame L w w'
    end.

  Lemma pull_src_good stages src vs w L :
    stages = [] -> src_ok src vs -> ok L w -> good_pull 0 (pull func default 0) stages src vs w L.
  Proof.
    intros -> (ts & Hts & ->) Hok. unfold good_pull. cbn [rest pull]. unfold pull_src.
    destruct Hts as [|t m ts vs Ht Hts].
    - destruct fin as [e|] eqn:Ef; cbn [app].
      + exists ([], []), w. reflexivity.
      + exists [], [], [], w. split; [reflexivity|]. split; [reflexivity|]. split; [constructor|].
        split. { exists []. split; [constructor|]. rewrite Ef. reflexivity. }
        split; [exact Hok|]. split; [reflexivity|]. apply frame_refl.
    - cbn [app]. destruct (Ht L w Hok) as (c & w' & E & Hok' & Hv & Hf). rewrite E.
      exists c, [], (ts ++ match fin with Some e => [fun _ => Raise e] | None => [] end), vs, w'.
      split; [reflexivity|]. split; [reflexivity|]. split; [constructor|].
      split. { exists ts. split; [exact Hts|reflexivity]. }
      split; [exact Hok'|]. split; [exact Hv|]. split; [reflexivity|exact Hf].
  Qed.

  (** one level, given that the level below behaves *)
  Definition good_map (n : nat) (f : pstate T W -> W -> step T * pstate T W * W) (idx : nat) (last : option T)
    (stages : list (stage T)) (src : list (W -> res (T * W))) (vs : list M) (w : W) (L : list T) : Prop :=
    let r := map_next func default f (Run idx last) (stages, src) w in
    match rest stages vs w with
    | x :: y :: l => exists c b stages' src' vs' w',
        r = (Yield c, Run (S (S idx)) (Some b), (stages', src'), w') /\ length stages' = n /\ wf stages' /\ src_ok src' vs' /\
        ok (c :: live stages' ++ L) w' /\ val c w' = g x y /\ rest stages' vs' w' = l /\ frame L w w'
    | [x] =>
        match fin with
        | Some e => exists gs st' w', r = (Fail e, gs, st', w')
        | None => exists c stages' src' vs' w',
            length stages' = n /\ wf stages' /\ src_ok src' vs' /\
            ok (c :: live stages' ++ L) w' /\ val c w' = x /\ frame L w w' /\
            r = (if idx =? 0 then (Single c, Closed, (stages', src'), w') else (Yield c, Tail, (stages', src'), w'))
        end
    | [] =>
        match fin with
        | Some e => exists gs st' w', r = (Fail e, gs, st', w')
        | None => exists stages' src' vs' w',
            length stages' = n /\ wf stages' /\ src_ok src' vs' /\ ok (live stages' ++ L) w' /\ frame L w w' /\
            r = (if idx =? 0 then (Fail AssertionError, Closed, (stages', src'), w') else (Stop, Closed, (stages', src'), w'))
        end
    end.

  Lemma map_good n f idx last stages src vs w L :
    (forall stages src vs w L, length stages = n -> wf stages -> src_ok src vs -> ok (live stages ++ L) w -> good_pull n f stages src vs w L) ->
    Nat.even idx = true -> (idx = 0 \/ last <> None) ->
    length stages = n -> wf stages -> src_ok src vs -> ok (live stages ++ L) w ->
    good_map n f idx last stages src vs w L.
  Proof.
    intros IH Hev Hlast Hn Hwf Hsrc Hok. unfold good_map. cbv zeta.
    assert (Ho : Nat.even (S idx) = false).
    { rewrite Nat.even_succ. rewrite <- Nat.negb_even, Hev. reflexivity. }
    assert (Hee : Nat.even (S (S idx)) = true).
    { rewrite Nat.even_succ, Nat.odd_succ. exact Hev. }
    pose proof (IH stages src vs w L Hn Hwf Hsrc Hok) as H1. unfold good_pull in H1.
    unfold map_next, gen_next. cbn [pair_next].
    destruct (rest stages vs w) as [|x l] eqn:Er.
    - destruct fin as [e|] eqn:Efin.
      + destruct H1 as (st' & w' & E). rewrite E. eauto.
      + destruct H1 as (st1 & src1 & vs1 & w1 & E & Hn1 & Hwf1 & Hs1 & Hok1 & Hr1 & Hf1). rewrite E. cbn [andb].
        exists st1, src1, vs1, w1. repeat (split; [assumption|]).
        destruct (idx =? 0) eqn:E0; [reflexivity|].
        destruct last as [l|]; [|reflexivity].
        assert (idx =? 1 = false) as ->. { apply Nat.eqb_neq. intros ->. discriminate Hev. }
        assert (Nat.odd idx = false) as ->. { rewrite <- Nat.negb_even, Hev. reflexivity. }
        reflexivity.
    - destruct H1 as (a & st1 & src1 & vs1 & w1 & E & Hn1 & Hwf1 & Hs1 & Hok1 & Hv1 & Hr1 & Hf1).
      rewrite E, Ho.
      assert (Hok1' : ok (live st1 ++ a :: L) w1). { eapply ok_perm; [|exact Hok1]. apply Permutation_middle. }
      pose proof (IH st1 src1 vs1 w1 (a :: L) Hn1 Hwf1 Hs1 Hok1') as H2. unfold good_pull in H2. rewrite Hr1 in H2.
      destruct l as [|y l].
      + destruct fin as [e|] eqn:Efin.
        * destruct H2 as (st' & w' & E2). rewrite E2. eauto.
        * destruct H2 as (st2 & src2 & vs2 & w2 & E2 & Hn2 & Hwf2 & Hs2 & Hok2 & Hr2 & Hf2). rewrite E2. cbn [andb].
          assert (Hok2' : ok (a :: live st2 ++ L) w2).
          { eapply ok_perm; [|exact Hok2]. apply Permutation_sym, Permutation_middle. }
          assert (Hva : val a w2 = x). { rewrite (Hf2 a (or_introl eq_refl)). exact Hv1. }
          assert (HfL : frame L w w2). { eapply frame_trans; [exact Hf1|]. eapply frame_incl; [|exact Hf2]. intros z Hz. right. exact Hz. }
          assert (S idx =? 0 = false) as -> by reflexivity.
          destruct (idx =? 0) eqn:E0.
          -- apply Nat.eqb_eq in E0. subst idx. cbn [Nat.eqb].
             exists a, st2, src2, vs2, w2. repeat (split; [assumption|]). reflexivity.
          -- assert (S idx =? 1 = false) as ->. { apply Nat.eqb_neq. apply Nat.eqb_neq in E0. lia. }
             assert (Nat.odd (S idx) = true) as ->. { rewrite <- Nat.negb_even, Ho. reflexivity. }
             destruct (ok_def a _ _ Hok2') as (c & w3 & Ec & Hok3 & Hv3 & Hf3). rewrite Ec.
             exists c, st2, src2, vs2, w3. split; [exact Hn2|]. split; [exact Hwf2|]. split; [exact Hs2|].
             split; [exact Hok3|]. split; [rewrite Hv3; exact Hva|].
             split; [|reflexivity].
             eapply frame_trans; [exact HfL|]. eapply frame_incl; [|exact Hf3]. intros z Hz. apply in_or_app. right. exact Hz.
      + destruct H2 as (b & st2 & src2 & vs2 & w2 & E2 & Hn2 & Hwf2 & Hs2 & Hok2 & Hv2 & Hr2 & Hf2). rewrite E2.
        rewrite Hee.
        assert (Hok2' : ok (a :: b :: live st2 ++ L) w2).
        { eapply ok_perm; [|exact Hok2]. rewrite perm_swap. apply perm_skip.
          apply Permutation_sym, Permutation_middle. }
        assert (Hva : val a w2 = x). { rewrite (Hf2 a (or_introl eq_refl)). exact Hv1. }
        assert (HfL : frame L w w2). { eapply frame_trans; [exact Hf1|]. eapply frame_incl; [|exact Hf2]. intros z Hz. right. exact Hz. }
        destruct (ok_func _ _ _ _ Hok2') as (c & w3 & Ec & Hok3 & Hv3 & Hf3). rewrite Ec.
        exists c, b, st2, src2, vs2, w3. split; [reflexivity|]. split; [exact Hn2|]. split; [exact Hwf2|]. split; [exact Hs2|].
        split; [exact Hok3|]. split; [rewrite Hv3, Hva, Hv2; reflexivity|].
        split. { rewrite <- Hr2. apply rest_ext. eapply frame_incl; [|exact Hf3]. intros z Hz. apply in_or_app. left. exact Hz. }
        eapply frame_trans; [exact HfL|]. eapply frame_incl; [|exact Hf3]. intros z Hz. apply in_or_app. right. exact Hz.
  Qed.

  Lemma pull_good n : forall stages src vs w L,
    length stages = n -> wf stages -> src_ok src vs -> ok (live stages ++ L) w ->
    good_pull n (pull func default n) stages src vs w L.
  Proof.
    induction n as [|n IH]; intros stages src vs w L Hn Hwf Hsrc Hok.
    - destruct stages; [|discriminate]. apply pull_src_good; auto.
    - destruct stages as [|s stages]; [discriminate|]. injection Hn as Hn.
      inversion Hwf as [|s0 l0 Hs Hwf']; subst s0 l0.
      unfold good_pull. cbn [rest pull]. unfold chain_next.
      destruct s as [hd gs]. cbn [s_head s_gen] in *. cbn [live s_head] in Hok.
      destruct hd as [h|]; cbn [opt map app] in *.
      + exists h, (MkStage None gs :: stages), src, vs, w.
        split; [reflexivity|]. split; [cbn; congruence|]. split; [constructor; assumption|]. split; [exact Hsrc|].
        split; [exact Hok|]. split; [reflexivity|]. split; [reflexivity|]. apply frame_refl.
      + destruct gs as [idx last| |].
        * destruct Hs as (Hev & H2 & Hl).
          pose proof (map_good n (pull func default n) idx last stages src vs w L IH Hev (or_intror Hl) Hn Hwf' Hsrc Hok) as Hm.
          unfold good_map in Hm. cbv zeta in Hm.
          assert (E0 : idx =? 0 = false). { apply Nat.eqb_neq. lia. }
          rewrite E0 in Hm.
          destruct (rest stages vs w) as [|x [|y l]] eqn:Er.
          -- cbn [pairup]. destruct fin as [e|] eqn:Efin.
             ++ destruct Hm as (gs & (st', src') & w' & E). rewrite E. eexists; eexists; reflexivity.
             ++ destruct Hm as (st1 & src1 & vs1 & w1 & Hn1 & Hwf1 & Hs1 & Hok1 & Hf1 & E). rewrite E.
                exists (MkStage None Closed :: st1), src1, vs1, w1. split; [reflexivity|]. split; [cbn; congruence|].
                split. { constructor; [exact Efin|exact Hwf1]. }
                split; [exact Hs1|]. split; [exact Hok1|]. split; [reflexivity|exact Hf1].
          -- cbn [pairup]. destruct fin as [e|] eqn:Efin.
             ++ destruct Hm as (gs & (st', src') & w' & E). rewrite E. eexists; eexists; reflexivity.
             ++ destruct Hm as (c & st1 & src1 & vs1 & w1 & Hn1 & Hwf1 & Hs1 & Hok1 & Hv1 & Hf1 & E). rewrite E.
                exists c, (MkStage None Tail :: st1), src1, vs1, w1. split; [reflexivity|]. split; [cbn; congruence|].
                split. { constructor; [exact Efin|exact Hwf1]. }
                split; [exact Hs1|]. split; [exact Hok1|]. split; [exact Hv1|]. split; [reflexivity|exact Hf1].
          -- destruct Hm as (c & b & st1 & src1 & vs1 & w1 & E & Hn1 & Hwf1 & Hs1 & Hok1 & Hv1 & Hr1 & Hf1). rewrite E.
             exists c, (MkStage None (Run (S (S idx)) (Some b)) :: st1), src1, vs1, w1.
             split; [reflexivity|]. split; [cbn; congruence|].
             split. { constructor; [|exact Hwf1]. split; [|split; [lia|discriminate]]. rewrite Nat.even_succ, Nat.odd_succ. exact Hev. }
             split; [exact Hs1|]. split; [exact Hok1|]. split; [exact Hv1|]. split; [|exact Hf1].
             cbn [rest s_head s_gen opt map app]. rewrite Hr1. reflexivity.
        * unfold map_next, gen_next. rewrite Hs in *.
          exists (MkStage None Closed :: stages), src, vs, w. split; [reflexivity|]. split; [cbn; congruence|].
          split. { constructor; [exact Hs|exact Hwf']. }
          split; [exact Hsrc|]. split; [exact Hok|]. split; [reflexivity|]. apply frame_refl.
        * unfold map_next, gen_next. rewrite Hs in *.
          exists (MkStage None Closed :: stages), src, vs, w. split; [reflexivity|]. split; [cbn; congruence|].
          split. { constructor; [exact Hs|exact Hwf']. }
          split; [exact Hsrc|]. split; [exact Hok|]. split; [reflexivity|]. apply frame_refl.
  Qed.

  Lemma pairup_length_ind : forall k l, length l <= k -> length (pairup l) <= length l /\ (2 <= length l -> length (pairup l) < length l).
  Proof.
    induction k as [|k IH]; intros l Hk.
    - destruct l; [cbn; lia|cbn in Hk; lia].
    - destruct l as [|x [|y l]]; cbn [pairup length] in *; [lia| |].
      + destruct fin; cbn; lia.
      + destruct (IH l) as [H1 H2]; lia.
  Qed.
  Lemma pairup_length l : 2 <= length l -> length (pairup l) < length l.
  Proof. apply (pairup_length_ind (length l)); lia. Qed.

  (** the result of the while loop: with an input that ends, the items reduced level by level *)
  Fixpoint levels (k : nat) (l : list M) : list M := match k with O => l | S k' => levels k' (pairup l) end.

  Definition good_reduce (l : list M) (L : list T) (w : W) (r : res (T * W)) : Prop :=
    match fin with
    | Some e => r = Raise e
    | None =>
        match l with
        | [] => r = Raise AssertionError
        | _ => exists c w' m L', r = Ok (c, w') /\ val c w' = m /\ ok (c :: L' ++ L) w' /\ frame L w w' /\ exists k, levels k l = [m]
        end
    end.

  Lemma reduce_good : forall fuel stages src vs w l L,
    wf stages -> src_ok src vs -> ok (live stages ++ L) w -> rest stages vs w = l -> length l < fuel ->
    good_reduce l L w (reduce_loop func default fuel (stages, src) w).
  Proof.
    induction fuel as [|fuel IH]; intros stages src vs w l L Hwf Hsrc Hok Hr Hl; [lia|].
    cbn [reduce_loop fst].
    pose proof (map_good (length stages) (pull func default (length stages)) 0 None stages src vs w L
                  (pull_good _) eq_refl (or_introl eq_refl) eq_refl Hwf Hsrc Hok) as Hm.
    unfold good_map in Hm. cbv zeta in Hm. rewrite Hr in Hm. unfold good_reduce.
    destruct l as [|x [|y l]].
    - destruct fin as [e|] eqn:Efin.
      + destruct Hm as (gs & st' & w' & E). rewrite E. reflexivity.
      + destruct Hm as (st1 & src1 & vs1 & w1 & Hn1 & Hwf1 & Hs1 & Hok1 & Hf1 & E). rewrite E. reflexivity.
    - destruct fin as [e|] eqn:Efin.
      + destruct Hm as (gs & st' & w' & E). rewrite E. reflexivity.
      + destruct Hm as (c & st1 & src1 & vs1 & w1 & Hn1 & Hwf1 & Hs1 & Hok1 & Hv1 & Hf1 & E). rewrite E. cbn [Nat.eqb].
        exists c, w1, x. eexists. split; [reflexivity|]. split; [exact Hv1|]. split; [exact Hok1|]. split; [exact Hf1|]. exists 0. reflexivity.
    - destruct Hm as (c & b & st1 & src1 & vs1 & w1 & E & Hn1 & Hwf1 & Hs1 & Hok1 & Hv1 & Hr1 & Hf1). rewrite E.
      assert (Hp : rest (MkStage (Some c) (Run 2 (Some b)) :: st1) vs1 w1 = pairup (x :: y :: l)).
      { cbn [rest s_head s_gen opt map app pairup]. rewrite Hr1, Hv1. reflexivity. }
      assert (Hg : good_reduce (pairup (x :: y :: l)) L w1 (reduce_loop func default fuel (MkStage (Some c) (Run 2 (Some b)) :: st1, src1) w1)).
      { apply IH with (vs := vs1).
        - constructor; [|exact Hwf1]. split; [reflexivity|]. split; [lia|discriminate].
        - exact Hs1.
        - exact Hok1.
        - exact Hp.
        - pose proof (pairup_length (x :: y :: l)) as HH. cbn [length] in *. lia. }
      unfold good_reduce in Hg. destruct fin as [e|] eqn:Efin; [exact Hg|].
      destruct (pairup (x :: y :: l)) as [|p ps] eqn:Ep; [discriminate Ep|].
      destruct Hg as (c' & w' & m & L' & H1 & H2 & H3 & H5 & k & H4).
      exists c', w', m, L'. split; [exact H1|]. split; [exact H2|]. split; [exact H3|]. split; [eapply frame_trans; [exact Hf1|exact H5]|].
      exists (S k). cbn [levels]. rewrite Ep. exact H4.
  Qed.

  Lemma ireduce_good src vs w L :
    src_ok src vs -> ok L w -> good_reduce vs L w (ireduce func default src w).
  Proof.
    intros Hs Hok. unfold ireduce. eapply reduce_good with (vs := vs); [constructor|exact Hs|exact Hok|reflexivity|].
    destruct Hs as (ts & H2 & ->). rewrite app_length. apply Forall2_length in H2. destruct fin; cbn; lia.
  Qed.
End Generic.

(** pairing neighbours and then folding gives the same as folding *)
Section Fold.
  Context {M : Type} (g : M -> M -> M).
  Hypothesis assoc : forall a b c, g a (g b c) = g (g a b) c.

  Lemma fold_pairup_ind : forall k l x, length l <= k ->
    fold_left g (pairup g None l) x = fold_left g l x.
  Proof.
    induction k as [|k IH]; intros l x Hk.
    - destruct l; [reflexivity|cbn in Hk; lia].
    - destruct l as [|a [|b l]]; [reflexivity|reflexivity|].
      cbn [pairup fold_left]. cbn [length] in Hk. rewrite IH by lia. rewrite assoc. reflexivity.
  Qed.

  Lemma levels_fold k : forall x l m, levels g None k (x :: l) = [m] -> m = fold_left g l x.
  Proof.
    induction k as [|k IH]; intros x l m H.
    - cbn in H. injection H as <- ->. reflexivity.
    - cbn [levels] in H. destruct l as [|y l].
      + cbn [pairup] in H. exact (IH _ _ _ H).
      + cbn [pairup] in H. apply IH in H. rewrite H. cbn [fold_left].
        apply (fold_pairup_ind (length l)). lia.
  Qed.
End Fold.
