(** Sharing examples between batches. *)
From Coq Require Import Strings.String.
From Verif Require Import Py PyLemmas NumpyModel DbModel DbSpec DbBatchProofs BatchModel BatchSpec BatchProofs ReuseModel ReuseSpec.
From Coq Require Import Lia.
Local Open Scope Z_scope.
Local Open Scope list_scope.

(** ** the memory *)
Lemma eget_put_same h r ex : (r < length h)%nat -> eget (eput h r ex) r = ex.
Proof. revert r. induction h as [|x h IH]; intros r Hr; [simpl in Hr; lia|]. destruct r as [|r]; [reflexivity|]. apply IH. simpl in Hr. lia. Qed.
Lemma eget_put_other h r s ex : r <> s -> eget (eput h r ex) s = eget h s.
Proof.
  revert r s. induction h as [|x h IH]; intros r s Hr; [destruct r; reflexivity|]. destruct r as [|r], s as [|s]; try reflexivity; [congruence|].
  apply IH. congruence.
Qed.
Lemma eput_length h r ex : length (eput h r ex) = length h.
Proof. revert r. induction h as [|x h IH]; intros [|r]; simpl; auto. Qed.

(** ** the checks leave sequences that check in the same way *)
Lemma val_again p exist v q q' : int32 v -> sane q -> val_exists p exist v q = Ok q' -> val_exists p exist v q' = Ok q' /\ sane q'.
Proof.
  intros Hv Hq E. unfold val_exists in E. destruct (at_pos p q) as [w|e] eqn:Ea; [|discriminate E]. cbn [bind] in E. destruct exist.
  - destruct (w =? v) eqn:Ew.
    + injection E as <-. split; [|exact Hq]. unfold val_exists. rewrite Ea. cbn [bind]. rewrite Ew. reflexivity.
    + injection E as <-. destruct (int32_sane v Hv) as [B1 B2]. destruct p; cbn [np_append].
      * destruct (concat_sane _ q B1 Hq) as [C1 C2]. split; [|exact C1]. unfold val_exists, at_pos. rewrite C2, B2. cbn. rewrite Z.eqb_refl. reflexivity.
      * destruct (concat_sane q _ Hq B1) as [C1 C2]. split; [|exact C1]. unfold val_exists, at_pos. rewrite C2, B2, py_last. cbn [bind]. rewrite Z.eqb_refl. reflexivity.
  - destruct (negb (w =? v)) eqn:Ew; [|discriminate E]. cbn in E. injection E as <-. split; [|exact Hq]. unfold val_exists. rewrite Ea. cbn [bind]. rewrite Ew. reflexivity.
Qed.
Definition outcome {A} (p : A * option exn) : res A := match p with (a, None) => Ok a | (_, Some e) => Raise e end.
Lemma touch_check m bos eos q : outcome (touch_seq m bos eos q) = check_seq m bos eos q.
Proof.
  unfold touch_seq, check_seq. destruct (val_exists First bos (bos_idx m) q) as [s1|e]; [|reflexivity]. cbn [bind].
  destruct (val_exists Last eos (eos_idx m) s1); reflexivity.
Qed.
Lemma touch_seq_again m bos eos q : sane_meta m -> sane q ->
  check_seq m bos eos (fst (touch_seq m bos eos q)) = check_seq m bos eos q /\ sane (fst (touch_seq m bos eos q)).
Proof.
  intros Hm Hq. assert (Hm' := Hm). destruct Hm' as (Hb & He & _). unfold touch_seq.
  destruct (val_exists First bos (bos_idx m) q) as [s1|e] eqn:E1; [|split; [reflexivity|exact Hq]].
  destruct (val_again First bos _ q s1 Hb Hq E1) as [A1 S1].
  destruct (val_exists Last eos (eos_idx m) s1) as [s2|e] eqn:E2; cbn [fst].
  - destruct (val_again Last eos _ s1 s2 He S1 E2) as [A2 S2]. split; [|exact S2].
    assert (E : check_seq m bos eos q = Ok s2) by (unfold check_seq; rewrite E1; cbn [bind]; exact E2). rewrite E. apply (check_again m bos eos q); assumption.
  - split; [|exact S1]. unfold check_seq. rewrite A1, E1. reflexivity.
Qed.

(** ** examples that make the same batches *)
Definition same (m : meta) (ex ex' : example) : Prop :=
  e_id ex = e_id ex' /\ e_x_raw ex = e_x_raw ex' /\ e_y_raw ex = e_y_raw ex' /\
  check_seq m (add_bos_x m) (add_eos_x m) (e_x ex) = check_seq m (add_bos_x m) (add_eos_x m) (e_x ex') /\
  match e_y ex, e_y ex' with
  | None, None => True
  | Some y, Some y' => check_seq m (add_bos_y m) (add_eos_y m) y = check_seq m (add_bos_y m) (add_eos_y m) y'
  | _, _ => False
  end.
Lemma same_refl m ex : same m ex ex.
Proof. unfold same. destruct (e_y ex); auto. Qed.
Lemma same_trans m a b c : same m a b -> same m b c -> same m a c.
Proof.
  intros (H1 & H2 & H3 & H4 & H5) (K1 & K2 & K3 & K4 & K5). do 4 (split; [congruence|]).
  destruct (e_y a), (e_y b), (e_y c); try contradiction; congruence || exact I.
Qed.
Lemma touch_x_same m ex : sane_meta m -> sane_example ex -> same m (fst (touch_x m ex)) ex /\ sane_example (fst (touch_x m ex)).
Proof.
  intros Hm [Hx Hy]. unfold touch_x. destruct (touch_seq_again m (add_bos_x m) (add_eos_x m) (e_x ex) Hm Hx) as [A S].
  destruct (touch_seq m (add_bos_x m) (add_eos_x m) (e_x ex)) as [x e]. cbn [fst] in *. split; [|split; [exact S|exact Hy]].
  unfold same. cbn [e_id e_x_raw e_y_raw e_x e_y]. do 4 (split; [auto|]). destruct (e_y ex); auto.
Qed.
Lemma touch_y_same m ex : sane_meta m -> sane_example ex -> same m (fst (touch_y m ex)) ex /\ sane_example (fst (touch_y m ex)).
Proof.
  intros Hm [Hx Hy]. unfold touch_y. destruct (e_y ex) as [y|] eqn:Ey; [|split; [apply same_refl|split; [exact Hx|cbn [fst]; rewrite Ey; discriminate]]].
  destruct (touch_seq_again m (add_bos_y m) (add_eos_y m) y Hm (Hy y eq_refl)) as [A S].
  destruct (touch_seq m (add_bos_y m) (add_eos_y m) y) as [y' e]. cbn [fst] in *. split.
  - unfold same. cbn [e_id e_x_raw e_y_raw e_x e_y]. rewrite Ey. auto.
  - split; [exact Hx|]. intros z Hz. cbn [e_y] in Hz. injection Hz as <-. exact S.
Qed.
Definition heap_same (m : meta) (h h' : eheap) : Prop := length h = length h' /\ forall r, same m (eget h r) (eget h' r).
Definition heap_sane (h : eheap) : Prop := forall r, sane_example (eget h r).
Lemma pass_same m f h refs : (forall ex, sane_example ex -> same m (fst (f ex)) ex /\ sane_example (fst (f ex))) -> heap_sane h ->
  heap_same m (fst (pass f h refs)) h /\ heap_sane (fst (pass f h refs)).
Proof.
  intros Hf. revert h. induction refs as [|r refs IH]; intros h Hh; cbn [pass].
  - split; [split; [reflexivity|intros r; apply same_refl]|exact Hh].
  - destruct (f (eget h r)) as [ex e] eqn:E. destruct (Hf (eget h r) (Hh r)) as [F1 F2]. rewrite E in F1, F2. cbn [fst] in F1, F2.
    assert (G : heap_same m (eput h r ex) h /\ heap_sane (eput h r ex)).
    { destruct (Nat.lt_ge_cases r (length h)) as [Hr|Hr].
      - split; [split; [apply eput_length|]|]; intros s; (destruct (Nat.eq_dec r s) as [<-|Hs]; [rewrite eget_put_same by exact Hr; assumption|rewrite eget_put_other by exact Hs]);
          [apply same_refl|apply Hh].
      - assert (Eh : eput h r ex = h) by (clear - Hr; revert r Hr; induction h as [|x h IH]; intros [|r] Hr; simpl in *; try reflexivity; [lia|f_equal; apply IH; lia]).
        rewrite Eh. split; [split; [reflexivity|intros s; apply same_refl]|exact Hh]. }
    destruct G as [[G1 G2] G3]. destruct e as [e|]; [split; [split; assumption|exact G3]|].
    destruct (IH _ G3) as [[K1 K2] K3]. split; [|exact K3]. split; [congruence|]. intros s. eapply same_trans; [apply K2|apply G2].
Qed.
Theorem batch_at_same m sd bf h refs : sane_meta m -> heap_sane h ->
  heap_same m (fst (batch_at m sd bf h refs)) h /\ heap_sane (fst (batch_at m sd bf h refs)).
Proof.
  intros Hm Hh. unfold batch_at. destruct (pass_same m (touch_x m) h refs (fun ex => touch_x_same m ex Hm) Hh) as [[A1 A2] A3].
  destruct (pass (touch_x m) h refs) as [h1 [e|]]; cbn [fst] in *; [split; [split|]; assumption|].
  set (refs1 := if sd then _ else refs). destruct (make_side _ bf _ _); [|split; [split|]; assumption].
  destruct (map (eget h1) refs1) as [|ex l]; [split; [split|]; assumption|]. destruct (e_y ex); [|split; [split|]; assumption].
  destruct (pass_same m (touch_y m) h1 refs1 (fun ex => touch_y_same m ex Hm) A3) as [[B1 B2] B3].
  destruct (pass (touch_y m) h1 refs1) as [h2 [e2|]]; cbn [fst] in *; (split; [|exact B3]); (split; [congruence|]); intros s; (eapply same_trans; [apply B2|apply A2]).
Qed.

(** ** such examples make the same batches *)
Lemma forall2_impl {A B} (R S : A -> B -> Prop) l l' : (forall a b, R a b -> S a b) -> Forall2 R l l' -> Forall2 S l l'.
Proof. intros H. induction 1; constructor; auto. Qed.
Lemma mapM_ext2 {A B C} (f : A -> res C) (g : B -> res C) l l' : Forall2 (fun a b => f a = g b) l l' -> mapM f l = mapM g l'.
Proof. induction 1 as [|a b l l' H HF IH]; [reflexivity|]. cbn [mapM]. rewrite H, IH. reflexivity. Qed.
Lemma mapM_rel {A B} (R : B -> B -> Prop) (f : A -> res B) l l' :
  Forall2 (fun a b => match f a, f b with Ok x, Ok y => R x y | Raise e, Raise e' => e = e' | _, _ => False end) l l' ->
  match mapM f l, mapM f l' with Ok x, Ok y => Forall2 R x y | Raise e, Raise e' => e = e' | _, _ => False end.
Proof.
  induction 1 as [|a b l l' H HF IH]; cbn [mapM]; [constructor|]. destruct (f a), (f b); try contradiction; [|exact H].
  destruct (mapM f l), (mapM f l'); try contradiction; [|exact IH]. constructor; assumption.
Qed.
Lemma insert_rel {A} (R : A -> A -> Prop) key x y l l' : (forall a b, R a b -> key a = key b) -> R x y -> Forall2 R l l' ->
  Forall2 R (insert_desc key x l) (insert_desc key y l').
Proof.
  intros Hk Hxy. induction 1 as [|a b l l' H HF IH]; cbn [insert_desc]; [repeat constructor; exact Hxy|].
  rewrite (Hk a b H), (Hk x y Hxy). destruct (key b <=? key y); repeat (constructor; try assumption).
Qed.
Lemma sorted_rel {A} (R : A -> A -> Prop) key l l' : (forall a b, R a b -> key a = key b) -> Forall2 R l l' ->
  Forall2 R (sorted_desc key l) (sorted_desc key l').
Proof. intros Hk. induction 1 as [|a b l l' H HF IH]; cbn [sorted_desc fold_right]; [constructor|]. apply insert_rel; assumption. Qed.
Definition same_checked (m : meta) (ex ex' : example) : Prop :=
  e_id ex = e_id ex' /\ e_x ex = e_x ex' /\ e_x_raw ex = e_x_raw ex' /\ e_y_raw ex = e_y_raw ex' /\
  match e_y ex, e_y ex' with
  | None, None => True
  | Some y, Some y' => check_seq m (add_bos_y m) (add_eos_y m) y = check_seq m (add_bos_y m) (add_eos_y m) y'
  | _, _ => False
  end.
Lemma f2_map {A B} (f : A -> B) (R : A -> A -> Prop) l l' : (forall a b, R a b -> f a = f b) -> Forall2 R l l' -> map f l = map f l'.
Proof. intros Hf. induction 1 as [|a b l l' H HF IH]; [reflexivity|]. cbn [map]. rewrite (Hf a b H), IH. reflexivity. Qed.
Lemma f2_len {A} (R : A -> A -> Prop) l l' : Forall2 R l l' -> length l = length l'.
Proof. induction 1; simpl; congruence. Qed.
Theorem make_batch_same m sd bf exs exs' : Forall2 (same m) exs exs' -> make_batch m sd bf exs = make_batch m sd bf exs'.
Proof.
  intros H. unfold make_batch.
  assert (G : match mapM (check_x m) exs, mapM (check_x m) exs' with Ok x, Ok y => Forall2 (same_checked m) x y | Raise e, Raise e' => e = e' | _, _ => False end).
  { apply mapM_rel. eapply forall2_impl; [|exact H]. intros a b (H1 & H2 & H3 & H4 & H5). unfold check_x. rewrite H4.
    destruct (check_seq m (add_bos_x m) (add_eos_x m) (e_x b)); cbn [bind]; [|reflexivity]. unfold same_checked. cbn [e_id e_x e_y e_x_raw e_y_raw]. auto. }
  clear H. destruct (mapM (check_x m) exs) as [l|e], (mapM (check_x m) exs') as [l'|e']; try contradiction; [|rewrite G; reflexivity]. cbn [bind].
  assert (K : Forall2 (same_checked m) (if sd then sorted_desc (fun ex => a_len (e_x ex)) l else l) (if sd then sorted_desc (fun ex => a_len (e_x ex)) l' else l')).
  { destruct sd; [|exact G]. apply sorted_rel; [|exact G]. intros a b (_ & -> & _). reflexivity. }
  revert K. generalize (if sd then sorted_desc (fun ex => a_len (e_x ex)) l else l). generalize (if sd then sorted_desc (fun ex => a_len (e_x ex)) l' else l').
  clear l l' G. intros l' l K. assert (E1 : map e_x l = map e_x l') by (eapply f2_map; [|exact K]; intros a b (_ & -> & _); reflexivity).
  assert (E2 : map e_x_raw l = map e_x_raw l') by (eapply f2_map; [|exact K]; intros a b (_ & _ & -> & _); reflexivity).
  assert (E3 : map e_id l = map e_id l') by (eapply f2_map; [|exact K]; intros a b (-> & _); reflexivity).
  rewrite E1, E2, E3, (f2_len _ _ _ K). destruct (make_side (pad_idx m) bf (map e_x l') (map e_x_raw l')) as [x|e]; [|reflexivity]. cbn [bind].
  assert (E4 : mapM (check_y m) l = mapM (check_y m) l').
  { apply mapM_ext2. eapply forall2_impl; [|exact K]. intros a b (H1 & H2 & H3 & H4 & H5). unfold check_y.
    destruct (e_y a) as [ya|], (e_y b) as [yb|]; try contradiction; [|reflexivity]. rewrite H1, H2, H3, H4, H5. reflexivity. }
  rewrite E4. inversion K as [|a b k k' Hab HK]; subst; [reflexivity|].
  destruct Hab as (_ & _ & _ & _ & Hy). destruct (e_y a), (e_y b); try contradiction; reflexivity.
Qed.

(** ** the memory model gives the batches of the model that returns the examples *)
Lemma pass_runs f g h0 : (forall ex, outcome (f ex) = g ex) -> (forall ex ex', sane_example ex -> g ex = Ok ex' -> g ex' = Ok ex' /\ sane_example ex') -> heap_sane h0 ->
  forall refs h, length h = length h0 -> valid h0 refs -> (forall r, eget h r = eget h0 r \/ g (eget h0 r) = Ok (eget h r)) ->
  match pass f h refs with
  | (h', None) => length h' = length h0 /\ mapM g (map (eget h0) refs) = Ok (map (eget h') refs) /\ (forall r, eget h' r = eget h0 r \/ g (eget h0 r) = Ok (eget h' r)) /\
                  (forall r, g (eget h0 r) = Ok (eget h r) -> eget h' r = eget h r)
  | (_, Some e) => mapM g (map (eget h0) refs) = Raise e
  end.
Proof.
  intros Hf Hg Hs. induction refs as [|r refs IH]; intros h Hl Hv Hi; cbn [pass map mapM]; [repeat split; auto|].
  inversion Hv as [|? ? Hr Hv']; subst.
  assert (E : g (eget h r) = g (eget h0 r)).
  { destruct (Hi r) as [E|E]; [rewrite E; reflexivity|]. destruct (Hg _ _ (Hs r) E) as [E' _]. rewrite E', E. reflexivity. }
  assert (F := Hf (eget h r)). destruct (f (eget h r)) as [ex [e|]]; cbn [outcome] in F.
  - rewrite <- E, <- F. reflexivity.
  - rewrite <- E, <- F. cbn [bind].
    assert (Hi' : forall s, eget (eput h r ex) s = eget h0 s \/ g (eget h0 s) = Ok (eget (eput h r ex) s)).
    { intros s. destruct (Nat.eq_dec r s) as [<-|Hne]; [right; rewrite eget_put_same by (rewrite Hl; exact Hr); congruence|].
      rewrite eget_put_other by exact Hne. apply Hi. }
    assert (Hl' : length (eput h r ex) = length h0) by (rewrite eput_length; exact Hl).
    specialize (IH (eput h r ex) Hl' Hv' Hi'). destruct (pass f (eput h r ex) refs) as [h' [e|]].
    + rewrite IH. reflexivity.
    + destruct IH as (I1 & I2 & I3 & I4). rewrite I2. cbn [bind].
      assert (Er : eget h' r = ex).
      { rewrite (I4 r); [apply eget_put_same; rewrite Hl; exact Hr|]. rewrite eget_put_same by (rewrite Hl; exact Hr). congruence. }
      rewrite Er. split; [exact I1|]. split; [reflexivity|]. split; [exact I3|]. intros s Hs'. destruct (Nat.eq_dec r s) as [<-|Hne].
      * rewrite Er. congruence.
      * rewrite (I4 s); rewrite eget_put_other by exact Hne; [reflexivity|exact Hs'].
Qed.
Lemma touch_x_out m ex : outcome (touch_x m ex) = check_x m ex.
Proof.
  unfold touch_x, check_x. rewrite <- touch_check. destruct (touch_seq m (add_bos_x m) (add_eos_x m) (e_x ex)) as [x [e|]]; reflexivity.
Qed.
Lemma touch_y_out m ex : outcome (touch_y m ex) = check_y m ex.
Proof.
  unfold touch_y, check_y. destruct (e_y ex) as [y|]; [|reflexivity]. rewrite <- touch_check.
  destruct (touch_seq m (add_bos_y m) (add_eos_y m) y) as [x [e|]]; reflexivity.
Qed.
Lemma check_sane m bos eos q q' : sane_meta m -> sane q -> check_seq m bos eos q = Ok q' -> sane q'.
Proof.
  intros Hm Hq E. destruct (touch_seq_again m bos eos q Hm Hq) as [_ S]. assert (T := touch_check m bos eos q). rewrite E in T.
  destruct (touch_seq m bos eos q) as [x [e|]]; cbn in T; [discriminate T|]. injection T as ->. exact S.
Qed.
Lemma check_x_again m ex ex' : sane_meta m -> sane_example ex -> check_x m ex = Ok ex' -> check_x m ex' = Ok ex' /\ sane_example ex'.
Proof.
  intros Hm [Hx Hy] E. unfold check_x in E. destruct (check_seq m (add_bos_x m) (add_eos_x m) (e_x ex)) as [x|] eqn:Ex; [|discriminate E].
  cbn [bind] in E. injection E as <-. unfold check_x. cbn [e_x e_y e_id e_x_raw e_y_raw]. rewrite (check_again _ _ _ _ _ Hm Hx Ex). cbn [bind].
  split; [reflexivity|]. split; [exact (check_sane _ _ _ _ _ Hm Hx Ex)|exact Hy].
Qed.
Lemma check_y_again m ex ex' : sane_meta m -> sane_example ex -> check_y m ex = Ok ex' -> check_y m ex' = Ok ex' /\ sane_example ex'.
Proof.
  intros Hm [Hx Hy] E. unfold check_y in E. destruct (e_y ex) as [y|] eqn:Ey; [|discriminate E].
  destruct (check_seq m (add_bos_y m) (add_eos_y m) y) as [z|] eqn:Ez; [|discriminate E].
  cbn [bind] in E. injection E as <-. unfold check_y. cbn [e_x e_y e_id e_x_raw e_y_raw]. rewrite (check_again _ _ _ _ _ Hm (Hy y eq_refl) Ez). cbn [bind].
  split; [reflexivity|]. split; [exact Hx|]. cbn [e_y]. intros ? [= <-]. exact (check_sane _ _ _ _ _ Hm (Hy y eq_refl) Ez).
Qed.
Lemma mapM_check_y_ids m l l' : mapM (check_y m) l = Ok l' -> map e_id l' = map e_id l /\ length l' = length l.
Proof.
  revert l'. induction l as [|ex l IH]; intros l' E; cbn [mapM] in E; [injection E as <-; auto|].
  destruct (check_y m ex) as [ex'|] eqn:Ee; [|discriminate E]. destruct (mapM (check_y m) l) as [k|]; [|discriminate E]. cbn [bind] in E. injection E as <-.
  destruct (IH k eq_refl) as [I1 I2]. cbn [map length]. rewrite I1, I2. split; [|reflexivity]. f_equal.
  unfold check_y in Ee. destruct (e_y ex); [|discriminate Ee]. destruct (check_seq _ _ _ _); [|discriminate Ee]. cbn in Ee. injection Ee as <-. reflexivity.
Qed.
Theorem batch_at_runs m sd bf h refs : sane_meta m -> heap_sane h -> valid h refs -> snd (batch_at m sd bf h refs) = make_batch m sd bf (map (eget h) refs).
Proof.
  intros Hm Hs Hv. unfold batch_at, make_batch.
  assert (P := pass_runs (touch_x m) (check_x m) h (touch_x_out m) (fun ex ex' => check_x_again m ex ex' Hm) Hs refs h eq_refl Hv (fun r => or_introl eq_refl)).
  destruct (pass_same m (touch_x m) h refs (fun ex => touch_x_same m ex Hm) Hs) as [_ Hs1].
  destruct (pass (touch_x m) h refs) as [h1 [e|]]; [rewrite P; reflexivity|]. destruct P as (L1 & P & _ & _). rewrite P. cbn [bind fst] in *.
  set (refs1 := if sd then sorted_desc (fun r => a_len (e_x (eget h1 r))) refs else refs).
  assert (E : (if sd then sorted_desc (fun ex => a_len (e_x ex)) (map (eget h1) refs) else map (eget h1) refs) = map (eget h1) refs1)
    by (unfold refs1; destruct sd; [apply (sorted_desc_map (eget h1) (fun ex => a_len (e_x ex)))|reflexivity]).
  rewrite E. assert (Hv1 : valid h1 refs1).
  { apply Forall_forall. intros r Hr. rewrite L1. apply (proj1 (Forall_forall _ _) Hv). unfold refs1 in Hr. destruct sd; [|exact Hr].
    eapply Permutation.Permutation_in; [apply Permutation.Permutation_sym, sorted_desc_perm'|exact Hr]. }
  clearbody refs1. clear E P Hv.
  destruct (make_side _ bf (map e_x (map (eget h1) refs1)) _) as [x|e]; [|reflexivity]. cbn [bind].
  destruct (map (eget h1) refs1) as [|ex l] eqn:El; [reflexivity|]. destruct (e_y ex); [|reflexivity].
  assert (P := pass_runs (touch_y m) (check_y m) h1 (touch_y_out m) (fun ex ex' => check_y_again m ex ex' Hm) Hs1 refs1 h1 eq_refl Hv1 (fun r => or_introl eq_refl)).
  rewrite El in P. destruct (pass (touch_y m) h1 refs1) as [h2 [e|]]; [rewrite P; reflexivity|]. destruct P as (_ & P & _ & _). rewrite P. cbn [bind snd].
  destruct (mapM_check_y_ids m _ _ P) as [I1 I2]. rewrite I1, I2. destruct (y_arrays (map (eget h2) refs1)) as [ys|]; [|reflexivity]. cbn [bind].
  destruct (make_side _ bf ys _); reflexivity.
Qed.

(** ** histories *)
Lemma after_same m us : sane_meta m -> forall h, heap_sane h -> heap_same m (after m h us) h /\ heap_sane (after m h us).
Proof.
  intros Hm. induction us as [|u us IH]; intros h Hs; [split; [split; [reflexivity|intros r; apply same_refl]|exact Hs]|]. cbn [after fold_left].
  destruct (batch_at_same m (fst (fst u)) (snd (fst u)) h (snd u) Hm Hs) as [[A1 A2] A3]. destruct (IH _ A3) as [[B1 B2] B3]. split; [|exact B3].
  split; [etransitivity; [exact B1|exact A1]|]. intros r. eapply same_trans; [apply B2|apply A2].
Qed.
Theorem reuse m us sd bf h refs : sane_meta m -> heap_sane h -> valid h refs ->
  snd (batch_at m sd bf (after m h us) refs) = make_batch m sd bf (map (eget h) refs).
Proof.
  intros Hm Hs Hv. destruct (after_same m us Hm h Hs) as [[A1 A2] A3]. rewrite batch_at_runs; [|exact Hm|exact A3|unfold valid; rewrite A1; exact Hv].
  apply make_batch_same. clear - A2. induction refs as [|r refs IH]; constructor; auto.
Qed.

(** ** what a batch leaves in its examples *)
Lemma marked_none b e s : marked false b false e s = s.
Proof. unfold marked. cbn. apply app_nil_r. Qed.
Lemma grown_refl bos b eos e s : grown bos b eos e s s.
Proof. split; [auto|]. exists false, false. split; [discriminate|]. split; [discriminate|]. symmetry. apply marked_none. Qed.
Lemma marked_starts bos b eos e s : s <> [] -> starts b (marked bos b eos e s) = if bos then true else starts b s.
Proof.
  intros H. unfold marked. destruct bos; cbn [app]; [|rewrite starts_app by exact H; reflexivity]. destruct (starts b s) eqn:E; cbn [app].
  - rewrite starts_app by exact H. exact E.
  - cbn. apply Z.eqb_refl.
Qed.
Lemma marked_ends bos b eos e s : s <> [] -> starts e (rev (marked bos b eos e s)) = if eos then true else starts e (rev s).
Proof.
  intros H. unfold marked. set (pre := if bos then _ else _).
  assert (P : forall t, t <> [] -> starts e (rev (pre ++ t)) = starts e (rev t)).
  { intros t Ht. rewrite rev_app_distr. apply starts_app. intros Hr. apply Ht. rewrite <- (rev_involutive t), Hr. reflexivity. }
  rewrite P by (destruct s; [contradiction|discriminate]). destruct eos; [|rewrite app_nil_r; reflexivity]. destruct (starts e (rev s)) eqn:E.
  - rewrite app_nil_r. exact E.
  - rewrite rev_unit. cbn. apply Z.eqb_refl.
Qed.
Lemma marked_twice b1 b2 b e1 e2 e s : s <> [] -> marked b2 b e2 e (marked b1 b e1 e s) = marked (b1 || b2) b (e1 || e2) e s.
Proof.
  intros H. unfold marked at 1. rewrite marked_starts, marked_ends by exact H. unfold marked.
  destruct b1, b2, e1, e2; cbn [orb]; rewrite ?app_nil_r, <- ?app_assoc; cbn [app]; try reflexivity;
  destruct (starts b s), (starts e (rev s)); cbn [app]; rewrite ?app_nil_r; reflexivity.
Qed.
Lemma grown_trans bos b eos e s s' s'' : grown bos b eos e s s' -> grown bos b eos e s' s'' -> grown bos b eos e s s''.
Proof.
  intros (N1 & b1 & e1 & B1 & E1 & ->) (N2 & b2 & e2 & B2 & E2 & H). split; [auto|].
  destruct s as [|x s]; [exists false, false; split; [discriminate|]; split; [discriminate|]; rewrite N2 by (apply N1; reflexivity); reflexivity|].
  exists (b1 || b2)%bool, (e1 || e2)%bool. rewrite H, marked_twice by discriminate. split; [destruct b1; auto|]. split; [destruct e1; auto|reflexivity].
Qed.
Lemma touch_grown m bos eos q : sane_meta m -> sane q -> grown bos (bos_idx m) eos (eos_idx m) (a_vals q) (a_vals (fst (touch_seq m bos eos q))).
Proof.
  intros Hm Hq. assert (Hm' := Hm). destruct Hm' as (Hb & He & _). unfold touch_seq.
  destruct (list_eq_dec Z.eq_dec (a_vals q) []) as [Hn|Hne].
  { unfold val_exists, at_pos. rewrite Hn. cbn [py_nth py_index Z.leb Z.compare length Z.ltb Z.of_nat bind fst]. rewrite Hn. apply grown_refl. }
  destruct (first_check bos (bos_idx m) q Hb Hq Hne) as [F1 F2].
  assert (D : (bos = false /\ starts (bos_idx m) (a_vals q) = true) \/ (bos = false -> starts (bos_idx m) (a_vals q) = false))
    by (destruct bos, (starts (bos_idx m) (a_vals q)); auto; right; discriminate).
  destruct D as [D|D]; [rewrite (F1 D); apply grown_refl|]. destruct (F2 D) as (q1 & E1 & S1 & V1 & _). rewrite E1.
  assert (G1 : grown bos (bos_idx m) eos (eos_idx m) (a_vals q) (a_vals q1)).
  { split; [contradiction|]. exists bos, false. split; [auto|]. split; [discriminate|]. unfold marked. rewrite app_nil_r. exact V1. }
  assert (Hne1 : a_vals q1 <> []) by (rewrite V1; intros N; apply app_eq_nil in N; destruct N; contradiction).
  destruct (last_check eos (eos_idx m) q1 He S1 Hne1) as [L1 L2].
  assert (D2 : (eos = false /\ starts (eos_idx m) (rev (a_vals q1)) = true) \/ (eos = false -> starts (eos_idx m) (rev (a_vals q1)) = false))
    by (destruct eos, (starts (eos_idx m) (rev (a_vals q1))); auto; right; discriminate).
  destruct D2 as [D2|D2]; [rewrite (L1 D2); exact G1|]. destruct (L2 D2) as (q2 & E2 & S2 & V2 & _). rewrite E2. cbn [fst].
  eapply grown_trans; [exact G1|]. split; [contradiction|]. exists false, eos. split; [discriminate|]. split; [auto|]. exact V2.
Qed.
Lemma grown_ex_refl m ex : grown_example m ex ex.
Proof. do 3 (split; [reflexivity|]). split; [apply grown_refl|]. destruct (e_y ex); [apply grown_refl|exact I]. Qed.
Lemma grown_ex_trans m a b c : grown_example m a b -> grown_example m b c -> grown_example m a c.
Proof.
  intros (H1 & H2 & H3 & H4 & H5) (K1 & K2 & K3 & K4 & K5). do 3 (split; [congruence|]). split; [eapply grown_trans; eassumption|].
  destruct (e_y a), (e_y b), (e_y c); try contradiction; [eapply grown_trans; eassumption|exact I].
Qed.
Lemma touch_x_grown m ex : sane_meta m -> sane_example ex -> grown_example m ex (fst (touch_x m ex)).
Proof.
  intros Hm [Hx Hy]. unfold touch_x. assert (T := touch_grown m (add_bos_x m) (add_eos_x m) (e_x ex) Hm Hx).
  destruct (touch_seq m (add_bos_x m) (add_eos_x m) (e_x ex)) as [x e]. cbn [fst] in *. do 3 (split; [reflexivity|]). split; [exact T|].
  cbn [e_y]. destruct (e_y ex); [apply grown_refl|exact I].
Qed.
Lemma touch_y_grown m ex : sane_meta m -> sane_example ex -> grown_example m ex (fst (touch_y m ex)).
Proof.
  intros Hm [Hx Hy]. unfold touch_y. destruct (e_y ex) as [y|] eqn:Ey; [|apply grown_ex_refl].
  assert (T := touch_grown m (add_bos_y m) (add_eos_y m) y Hm (Hy y eq_refl)).
  destruct (touch_seq m (add_bos_y m) (add_eos_y m) y) as [y' e]. cbn [fst] in *. do 3 (split; [reflexivity|]). split; [apply grown_refl|].
  rewrite Ey. exact T.
Qed.
Lemma pass_grown m f refs : (forall ex, sane_example ex -> same m (fst (f ex)) ex /\ sane_example (fst (f ex))) ->
  (forall ex, sane_example ex -> grown_example m ex (fst (f ex))) -> forall h, heap_sane h ->
  (forall r, grown_example m (eget h r) (eget (fst (pass f h refs)) r)) /\ (forall r, ~ In r refs -> eget (fst (pass f h refs)) r = eget h r).
Proof.
  intros Hs Hf. induction refs as [|r refs IH]; intros h Hh; cbn [pass]; [split; [intros r; apply grown_ex_refl|reflexivity]|].
  destruct (Hs _ (Hh r)) as [_ F2]. assert (F := Hf _ (Hh r)). destruct (f (eget h r)) as [ex e]. cbn [fst] in F, F2.
  assert (G : forall s, grown_example m (eget h s) (eget (eput h r ex) s)).
  { intros s. destruct (Nat.eq_dec r s) as [<-|Hne]; [|rewrite eget_put_other by exact Hne; apply grown_ex_refl].
    destruct (Nat.lt_ge_cases r (length h)) as [Hr|Hr]; [rewrite eget_put_same by exact Hr; exact F|]. unfold eget at 2. rewrite nth_overflow by (rewrite eput_length; exact Hr).
    unfold eget. rewrite nth_overflow by exact Hr. apply grown_ex_refl. }
  assert (S1 : heap_sane (eput h r ex)).
  { intros s. destruct (Nat.eq_dec r s) as [<-|Hne]; [|rewrite eget_put_other by exact Hne; apply Hh].
    destruct (Nat.lt_ge_cases r (length h)) as [Hr|Hr]; [rewrite eget_put_same by exact Hr; exact F2|]. unfold eget. rewrite nth_overflow by (rewrite eput_length; exact Hr).
    specialize (Hh r). unfold eget in Hh. rewrite nth_overflow in Hh by exact Hr. exact Hh. }
  assert (N : forall s, ~ In s (r :: refs) -> eget (eput h r ex) s = eget h s) by (intros s Hn; apply eget_put_other; intros ->; apply Hn; left; reflexivity).
  destruct e as [e|]; [split; [exact G|exact N]|]. destruct (IH _ S1) as [I1 I2]. split; [intros s; eapply grown_ex_trans; [apply G|apply I1]|].
  intros s Hn. rewrite I2 by (intros Hi; apply Hn; right; exact Hi). apply N, Hn.
Qed.
Theorem batch_at_left m sd bf h refs : sane_meta m -> heap_sane h ->
  (forall r, grown_example m (eget h r) (eget (fst (batch_at m sd bf h refs)) r)) /\ (forall r, ~ In r refs -> eget (fst (batch_at m sd bf h refs)) r = eget h r).
Proof.
  intros Hm Hh. unfold batch_at.
  destruct (pass_same m (touch_x m) h refs (fun ex => touch_x_same m ex Hm) Hh) as [_ A3].
  destruct (pass_grown m (touch_x m) refs (fun ex => touch_x_same m ex Hm) (fun ex => touch_x_grown m ex Hm) h Hh) as [G1 N1].
  destruct (pass (touch_x m) h refs) as [h1 [e|]]; cbn [fst] in *; [split; assumption|].
  set (refs1 := if sd then _ else refs). destruct (make_side _ bf _ _); [|split; assumption].
  destruct (map (eget h1) refs1) as [|ex l]; [split; assumption|]. destruct (e_y ex); [|split; assumption].
  destruct (pass_grown m (touch_y m) refs1 (fun ex => touch_y_same m ex Hm) (fun ex => touch_y_grown m ex Hm) h1 A3) as [G2 N2].
  assert (N3 : forall r, ~ In r refs -> ~ In r refs1).
  { intros r Hn Hi. apply Hn. unfold refs1 in Hi. destruct sd; [|exact Hi]. eapply Permutation.Permutation_in; [apply Permutation.Permutation_sym, sorted_desc_perm'|exact Hi]. }
  destruct (pass (touch_y m) h1 refs1) as [h2 [e2|]]; cbn [fst] in *;
    (split; [intros r; eapply grown_ex_trans; [apply G1|apply G2]|intros r Hn; rewrite N2 by (apply N3, Hn); apply N1, Hn]).
Qed.
Lemma after_left m us : sane_meta m -> forall h, heap_sane h -> forall r, grown_example m (eget h r) (eget (after m h us) r).
Proof.
  intros Hm. induction us as [|u us IH]; intros h Hs r; [apply grown_ex_refl|]. cbn [after fold_left].
  destruct (batch_at_same m (fst (fst u)) (snd (fst u)) h (snd u) Hm Hs) as [_ A3].
  eapply grown_ex_trans; [apply (batch_at_left m (fst (fst u)) (snd (fst u)) h (snd u) Hm Hs)|apply (IH _ A3)].
Qed.
Lemma check_marked m bos eos q q' : sane_meta m -> sane q -> check_seq m bos eos q = Ok q' -> a_vals q' = marked bos (bos_idx m) eos (eos_idx m) (a_vals q).
Proof.
  intros Hm Hq E. destruct (list_eq_dec Z.eq_dec (a_vals q) []) as [He|Hne]; [rewrite check_seq_empty in E by exact He; discriminate|].
  destruct (acceptable_dec bos (bos_idx m) eos (eos_idx m) (a_vals q)) as [H|H]; [|rewrite check_seq_fail in E by assumption; discriminate].
  destruct (check_seq_ok m bos eos q Hm Hq H) as (q2 & E2 & _ & V2). assert (q2 = q') by congruence. subst. exact V2.
Qed.
Lemma mapM_map_in {A B C} (g : B -> res C) (f : A -> B) (f' : A -> C) l : mapM g (map f l) = Ok (map f' l) -> forall a, In a l -> g (f a) = Ok (f' a).
Proof.
  induction l as [|x l IH]; intros E a Ha; [destruct Ha|]. cbn [map mapM] in E. destruct (g (f x)) as [c|] eqn:Ec; [|discriminate E].
  destruct (mapM g (map f l)) as [k|] eqn:Ek; [|discriminate E]. cbn [bind] in E. injection E as -> ->. destruct Ha as [<-|Ha]; [exact Ec|]. apply IH; auto.
Qed.
Theorem batch_at_done m sd bf h refs b : sane_meta m -> heap_sane h -> valid h refs -> snd (batch_at m sd bf h refs) = Ok b ->
  forall r, In r refs -> let ex := eget h r in let ex' := eget (fst (batch_at m sd bf h refs)) r in
  a_vals (e_x ex') = marked_x m ex /\
  match ba_y b with
  | None => e_y ex' = e_y ex
  | Some _ => e_y ex <> None /\ e_y ex' <> None /\ y_vals ex' = marked_y m ex
  end.
Proof.
  intros Hm Hs Hv. unfold batch_at.
  assert (P := pass_runs (touch_x m) (check_x m) h (touch_x_out m) (fun ex ex' => check_x_again m ex ex' Hm) Hs refs h eq_refl Hv (fun r => or_introl eq_refl)).
  destruct (pass_same m (touch_x m) h refs (fun ex => touch_x_same m ex Hm) Hs) as [_ Hs1].
  destruct (pass (touch_x m) h refs) as [h1 [e|]]; [discriminate|]. destruct P as (L1 & P & _ & _). cbn [fst] in *.
  set (refs1 := if sd then sorted_desc (fun r => a_len (e_x (eget h1 r))) refs else refs).
  assert (Hin : forall r, In r refs <-> In r refs1).
  { intros r. unfold refs1. destruct sd; [|reflexivity].
    split; intros Hr; (eapply Permutation.Permutation_in; [|exact Hr]); [|apply Permutation.Permutation_sym]; apply sorted_desc_perm'. }
  assert (Hv1 : valid h1 refs1) by (apply Forall_forall; intros r Hr; rewrite L1; apply (proj1 (Forall_forall _ _) Hv), Hin, Hr).
  assert (X : forall r, In r refs -> a_vals (e_x (eget h1 r)) = marked_x m (eget h r) /\ e_y (eget h1 r) = e_y (eget h r)).
  { intros r Hr. assert (E := mapM_map_in _ _ _ _ P r Hr). unfold check_x in E. destruct (Hs r) as [Hx _].
    destruct (check_seq m (add_bos_x m) (add_eos_x m) (e_x (eget h r))) as [x|] eqn:Ex; [|discriminate E]. cbn [bind] in E.
    assert (E' : eget h1 r = MkEx (e_id (eget h r)) x (e_y (eget h r)) (e_x_raw (eget h r)) (e_y_raw (eget h r))) by congruence. rewrite E'. cbn [e_x e_y].
    split; [exact (check_marked _ _ _ _ _ Hm Hx Ex)|reflexivity]. }
  clearbody refs1. destruct (make_side _ bf (map e_x (map (eget h1) refs1)) _) as [x|e]; [|discriminate].
  destruct (map (eget h1) refs1) as [|ex l] eqn:El; [discriminate|]. destruct (e_y ex) eqn:Ey.
  2:{ cbn [snd fst]. intros [= <-] r Hr. cbn [ba_y]. exact (X r Hr). }
  assert (Q := pass_runs (touch_y m) (check_y m) h1 (touch_y_out m) (fun ex ex' => check_y_again m ex ex' Hm) Hs1 refs1 h1 eq_refl Hv1 (fun r => or_introl eq_refl)).
  destruct (pass (touch_y m) h1 refs1) as [h2 [e|]]; [discriminate|]. destruct Q as (_ & Q & _ & _). cbn [snd fst].
  destruct (y_arrays (map (eget h2) refs1)) as [ys|]; [|discriminate]. cbn [bind]. destruct (make_side _ bf ys _); [|discriminate]. cbn [bind].
  intros [= <-] r Hr. cbn [ba_y]. destruct (X r Hr) as [X1 X2]. assert (E := mapM_map_in _ _ _ _ Q r (proj1 (Hin r) Hr)). unfold check_y in E.
  destruct (Hs1 r) as [_ Hy1]. destruct (e_y (eget h1 r)) as [y|] eqn:Ey1; [|discriminate E].
  destruct (check_seq m (add_bos_y m) (add_eos_y m) y) as [z|] eqn:Ez; [|discriminate E]. cbn [bind] in E.
  assert (E' : eget h2 r = MkEx (e_id (eget h1 r)) (e_x (eget h1 r)) (Some z) (e_x_raw (eget h1 r)) (e_y_raw (eget h1 r))) by congruence. rewrite E'. cbn [e_x e_y].
  split; [exact X1|]. rewrite <- X2. split; [discriminate|]. split; [discriminate|]. unfold marked_y, y_vals. cbn [e_y]. rewrite <- X2.
  exact (check_marked _ _ _ _ _ Hm (Hy1 y eq_refl) Ez).
Qed.
Lemma heap_sane_of h : Forall sane_example h -> heap_sane h.
Proof.
  intros H r. unfold eget. destruct (Nat.lt_ge_cases r (length h)) as [Hr|Hr]; [apply (proj1 (Forall_forall _ _) H), nth_In, Hr|]. rewrite nth_overflow by exact Hr.
  split; [|discriminate]. split; constructor.
Qed.

(** ** IdExample.val_exists_at *)
Lemma py_first {A} (x : A) s : py_nth (x :: s) 0 = Ok x. Proof. reflexivity. Qed.
Lemma val_at_refused ex sd p exist v : (sd <> lit "x" /\ sd <> lit "y") \/ (p <> 0 /\ p <> -1) -> val_exists_at ex sd p exist v = Raise AssertionError.
Proof.
  intros H. unfold val_exists_at. destruct (str_eqb sd (lit "x")) eqn:Ex, (str_eqb sd (lit "y")) eqn:Ey; cbn [orb assert_ bind]; try reflexivity;
  (destruct H as [[H1 H2]|[H1 H2]]; [apply str_eqb_eq in Ex; contradiction || (apply str_eqb_eq in Ey; contradiction)|
   rewrite (proj2 (Z.eqb_neq _ _) H1), (proj2 (Z.eqb_neq _ _) H2); reflexivity]) || idtac.
  destruct H as [[H1 H2]|[H1 H2]]; [apply str_eqb_eq in Ey; contradiction|]. rewrite (proj2 (Z.eqb_neq _ _) H1), (proj2 (Z.eqb_neq _ _) H2). reflexivity.
Qed.
Lemma val_at_unfold ex on_x front exist v :
  val_exists_at ex (side_name on_x) (place front) exist v =
  match side_seq on_x ex with
  | None => Raise TypeError
  | Some q =>
      match at_pos (if front then First else Last) q with
      | Raise e => Raise e
      | Ok w => Ok (if exist && negb (w =? v) then
                      let q' := np_append (if front then First else Last) v q in
                      if on_x then MkEx (e_id ex) q' (e_y ex) (e_x_raw ex) (e_y_raw ex) else MkEx (e_id ex) (e_x ex) (Some q') (e_x_raw ex) (e_y_raw ex)
                    else ex)
      end
  end.
Proof.
  unfold val_exists_at. destruct on_x.
  - change (str_eqb (side_name true) (lit "x")) with true. cbn [orb assert_ bind side_seq]. destruct front; cbn [place Z.eqb Pos.eqb orb assert_ bind];
    unfold at_pos; (destruct (py_nth (a_vals (e_x ex)) _) as [w|]; [|reflexivity]); cbn [bind]; destruct (exist && negb (w =? v)); reflexivity.
  - change (str_eqb (side_name false) (lit "x")) with false. change (str_eqb (side_name false) (lit "y")) with true. cbn [orb assert_ bind side_seq].
    destruct (e_y ex) as [q|]; [|destruct front; reflexivity]. destruct front; cbn [place Z.eqb Pos.eqb orb assert_ bind];
    unfold at_pos; (destruct (py_nth (a_vals q) _) as [w|]; [|reflexivity]); cbn [bind]; destruct (exist && negb (w =? v)); reflexivity.
Qed.
Theorem val_at_ok ex on_x front v q : int32 v -> side_seq on_x ex = Some q -> sane q -> a_vals q <> [] ->
  exists ex' q', val_exists_at ex (side_name on_x) (place front) true v = Ok ex' /\ side_seq on_x ex' = Some q' /\ sane q' /\
    a_vals q' = marked front v (negb front) v (a_vals q) /\ (a_vals q' = a_vals q -> ex' = ex) /\
    side_seq (negb on_x) ex' = side_seq (negb on_x) ex /\ e_id ex' = e_id ex /\ e_x_raw ex' = e_x_raw ex /\ e_y_raw ex' = e_y_raw ex.
Proof.
  intros Hv Hq Hs Hne. rewrite val_at_unfold, Hq. cbn [andb]. destruct (int32_sane v Hv) as [B1 B2]. destruct front; cbn [negb].
  - destruct (a_vals q) as [|x s] eqn:Es; [contradiction|]. unfold at_pos. rewrite Es, py_first. unfold marked. cbn [starts]. rewrite app_nil_r.
    destruct (x =? v); cbn [negb]; [exists ex, q; rewrite Es; auto 10|]. destruct (concat_sane _ q B1 Hs) as [C1 C2]. cbn [np_append].
    destruct on_x; cbn [side_seq negb e_x e_y e_id e_x_raw e_y_raw] in *; do 2 eexists; (split; [reflexivity|]); cbn [e_x e_y e_id e_x_raw e_y_raw]; (split; [reflexivity|]); (split; [exact C1|]);
      rewrite C2, B2, Es; (split; [reflexivity|]); (split; [intros N; exfalso; apply (f_equal (@length Z)) in N; cbn [app length] in N; lia|]); auto.
  - destruct (a_vals q) as [|x s _] eqn:Es using rev_ind; [contradiction|]. unfold at_pos. rewrite Es, py_last. unfold marked. rewrite rev_unit. cbn [starts app].
    destruct (x =? v); cbn [negb]; [exists ex, q; rewrite Es, app_nil_r; auto 10|]. destruct (concat_sane q _ Hs B1) as [C1 C2]. cbn [np_append].
    destruct on_x; cbn [side_seq negb e_x e_y e_id e_x_raw e_y_raw] in *; do 2 eexists; (split; [reflexivity|]); cbn [e_x e_y e_id e_x_raw e_y_raw]; (split; [reflexivity|]); (split; [exact C1|]);
      rewrite C2, B2, Es; (split; [reflexivity|]); (split; [intros N; exfalso; apply (f_equal (@length Z)) in N; rewrite !app_length in N; cbn [length] in N; lia|]); auto.
Qed.
Theorem val_at_again ex on_x front v ex' : int32 v -> (forall q, side_seq on_x ex = Some q -> sane q) ->
  val_exists_at ex (side_name on_x) (place front) true v = Ok ex' -> val_exists_at ex' (side_name on_x) (place front) true v = Ok ex'.
Proof.
  intros Hv Hs E. destruct (side_seq on_x ex) as [q|] eqn:Hq; [|rewrite val_at_unfold, Hq in E; discriminate]. specialize (Hs q eq_refl).
  destruct (list_eq_dec Z.eq_dec (a_vals q) []) as [Hn|Hn]; [rewrite val_at_unfold, Hq in E; unfold at_pos in E; rewrite Hn in E; destruct front; discriminate E|].
  destruct (val_at_ok ex on_x front v q Hv Hq Hs Hn) as (e1 & q1 & R1 & R2 & R3 & R4 & _). assert (e1 = ex') by congruence. subst e1.
  assert (Hn1 : a_vals q1 <> []). { rewrite R4. unfold marked. intros N. apply app_eq_nil in N. destruct N as [_ N]. apply app_eq_nil in N. destruct N. contradiction. }
  destruct (val_at_ok ex' on_x front v q1 Hv R2 R3 Hn1) as (e2 & q2 & S1 & S2 & S3 & S4 & S5 & _). rewrite S1. f_equal. apply S5. rewrite S4, R4.
  rewrite marked_twice by exact Hn. destruct front; reflexivity.
Qed.
Theorem val_at_false ex on_x front v q : side_seq on_x ex = Some q -> a_vals q <> [] -> val_exists_at ex (side_name on_x) (place front) false v = Ok ex.
Proof.
  intros Hq Hn. rewrite val_at_unfold, Hq. unfold at_pos. destruct front.
  - destruct (a_vals q); [contradiction|]. reflexivity.
  - destruct (a_vals q) as [|x s _] using rev_ind; [contradiction|]. rewrite py_last. reflexivity.
Qed.
Theorem val_at_errors ex on_x front exist v :
  (side_seq on_x ex = None -> val_exists_at ex (side_name on_x) (place front) exist v = Raise TypeError) /\
  (forall q, side_seq on_x ex = Some q -> a_vals q = [] -> val_exists_at ex (side_name on_x) (place front) exist v = Raise IndexError).
Proof.
  split; [intros H|intros q H Hn]; rewrite val_at_unfold, H; [reflexivity|]. unfold at_pos. rewrite Hn. destruct front; reflexivity.
Qed.
(** the helpers of the model class *)
Theorem to_fails b : batch_to b = Raise (match ba_y b with Some _ => AttributeError | None => TypeError end).
Proof. unfold batch_to. destruct (ba_y b); reflexivity. Qed.
Theorem mask_fails o n : exists e, make_autoreg_mask o n = Raise e.
Proof. destruct o; cbn; [eauto|]. unfold subsequent_mask. destruct (n <? 0); cbn; eauto. Qed.
