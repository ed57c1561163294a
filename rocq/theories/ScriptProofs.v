(** Lemmas about ScriptModel.v. *)
From Coq Require Import Strings.String.
From Verif Require Import Py PyStr PyLemmas ScriptModel ScriptSpec.
Local Open Scope N_scope.
Local Open Scope list_scope.

Lemma in_set_iff c s : in_set c s = true <-> In c s.
Proof.
  unfold in_set. rewrite existsb_exists. split.
  - intros (x & Hx & E). apply N.eqb_eq in E. subst x. exact Hx.
  - intros H. exists c. split; [exact H|apply N.eqb_refl].
Qed.

Lemma nd_disjoint {A} (l l' : list A) x : NoDup (l ++ l') -> In x l -> In x l' -> False.
Proof.
  induction l as [|y l IH]; simpl; [tauto|]. intros H [->|Hx] Hx'; inversion H as [|? ? H1 H2]; subst; [|auto].
  apply H1, in_or_app. right. exact Hx'.
Qed.
Lemma nd_right {A} (l l' : list A) : NoDup (l ++ l') -> NoDup l'.
Proof. induction l as [|y l IH]; [tauto|]. intros H. inversion H; auto. Qed.
Lemma nd_left {A} (l l' : list A) : NoDup (l ++ l') -> NoDup l.
Proof.
  induction l as [|y l IH]; intros H; [constructor|]. inversion H as [|? ? H1 H2]; subst. constructor; [|auto].
  intros Hy. apply H1, in_or_app. left. exact Hy.
Qed.

(** ** uxdx.py *)
Lemma ux_id l : ~ In impl_vowel_form l -> ux_decode (ux_encode l) = l.
Proof.
  unfold ux_decode. induction l as [|c l IH]; intros H; [reflexivity|]. cbn [ux_encode filter].
  assert (Hc : (c =? impl_vowel_form) = false) by (apply N.eqb_neq; intros ->; apply H; left; reflexivity).
  rewrite Hc. cbn [negb]. f_equal. rewrite filter_app, IH by (intros Hi; apply H; right; exact Hi).
  replace (filter _ _) with (@nil N); [reflexivity|]. symmetry.
  destruct l as [|c' l]; [reflexivity|]. destruct (in_set c DEVANAGARI_CONSONANTS && in_set c' DEVANAGARI_CONSONANTS); [|reflexivity].
  cbn [filter]. rewrite N.eqb_refl. reflexivity.
Qed.
Lemma ux_decode_clean l : ~ In impl_vowel_form (ux_decode l).
Proof. unfold ux_decode. intros H. apply filter_In in H. destruct H as [_ H]. rewrite N.eqb_refl in H. discriminate H. Qed.
Lemma ux_id_iff l : ux_decode (ux_encode l) = l <-> ~ In impl_vowel_form l.
Proof. split; [intros <-; apply ux_decode_clean|apply ux_id]. Qed.
Lemma mark_no_consonant : in_set impl_vowel_form DEVANAGARI_CONSONANTS = false.
Proof. vm_compute. reflexivity. Qed.
Lemma ux_fixed l : (forall a c c' b, l = a ++ c :: c' :: b -> ~ (In c DEVANAGARI_CONSONANTS /\ In c' DEVANAGARI_CONSONANTS)) -> ux_encode l = l.
Proof.
  induction l as [|c l IH]; intros H; [reflexivity|]. cbn [ux_encode]. rewrite IH.
  - destruct l as [|c' l]; [reflexivity|].
    destruct (in_set c DEVANAGARI_CONSONANTS && in_set c' DEVANAGARI_CONSONANTS) eqn:E; [|reflexivity].
    apply andb_prop in E. rewrite !in_set_iff in E. exfalso. exact (H [] c c' l eq_refl E).
  - intros a x y b E. apply (H (c :: a) x y b). rewrite E. reflexivity.
Qed.
Lemma ux_head c l : exists r, ux_encode (c :: l) = c :: r.
Proof. eexists. reflexivity. Qed.
Lemma ux_sparse l : sparse (ux_encode l).
Proof.
  induction l as [|c l IH]; intros a x y b E [Hx Hy]; [destruct a; discriminate E|].
  cbn [ux_encode] in E. destruct l as [|c' l].
  - cbn in E. destruct a as [|? [|? ?]]; discriminate E.
  - destruct (in_set c DEVANAGARI_CONSONANTS && in_set c' DEVANAGARI_CONSONANTS) eqn:Ec.
    + destruct a as [|a0 [|a1 a]].
      * assert (y = impl_vowel_form) by (cbn [app] in E; congruence). subst y. apply in_set_iff in Hy. rewrite mark_no_consonant in Hy. discriminate Hy.
      * assert (x = impl_vowel_form) by (cbn [app] in E; congruence). subst x. apply in_set_iff in Hx. rewrite mark_no_consonant in Hx. discriminate Hx.
      * apply (IH a x y b); [|split; assumption]. cbn [app] in E. congruence.
    + destruct a as [|a0 a].
      * destruct (ux_head c' l) as (r & Er). cbn [app] in E. rewrite Er in E. assert (x = c /\ y = c') as [-> ->] by (split; congruence).
        apply in_set_iff in Hx, Hy. rewrite Hx, Hy in Ec. discriminate Ec.
      * apply (IH a x y b); [|split; assumption]. cbn [app] in E. congruence.
Qed.
Lemma ux_idempotent l : ux_encode (ux_encode l) = ux_encode l.
Proof. apply ux_fixed, ux_sparse. Qed.

(** ** unicode_fix.py: who is who *)
Lemma vowel_iff L c : is_vowel L c = true <-> In c (map fst (vowels L)).
Proof.
  unfold is_vowel, dmem. destruct (dget N.eqb c (vowels L)) as [v|] eqn:E.
  - apply (dget_In N.eqb N.eqb_eq) in E. split; [intros _|reflexivity]. apply (in_map fst) in E. exact E.
  - apply (dget_None N.eqb N.eqb_eq) in E. split; [discriminate|]. intros H. contradiction.
Qed.
Lemma cons_iff L c : is_consonant L c = true <-> In c (consonants L).
Proof. apply in_set_iff. Qed.
Lemma space_iff c : is_space_code c = true <-> blank c.
Proof. unfold is_space_code, blank. rewrite in_set_iff. simpl. intuition congruence. Qed.
Lemma form_some L c v : form_to_vowel L c = Some v -> In (v, Some c) (vowels L).
Proof.
  unfold form_to_vowel. destruct (find _ (vowels L)) as [[a f]|] eqn:E; [|discriminate]. intros H. apply find_some in E. destruct E as [E1 E2].
  cbn in H, E2. destruct f as [f|]; [|discriminate E2]. apply N.eqb_eq in E2. injection H as <-. subst f. exact E1.
Qed.
Lemma form_iff L c : ~ In 0 (signs L) -> (is_vowel_form L c = true <-> In c (signs L)).
Proof.
  intros H0. unfold is_vowel_form, signs. split.
  - intros H. apply andb_prop in H. destruct H as [_ H]. destruct (form_to_vowel L c) as [v|] eqn:E; [|discriminate H].
    apply form_some in E. apply in_flat_map. exists (v, Some c). split; [exact E|left; reflexivity].
  - intros H. assert (Hc : c <> 0) by (intros ->; apply H0, H). apply N.eqb_neq in Hc. rewrite Hc. cbn [negb andb].
    apply in_flat_map in H. destruct H as ([v [f|]] & Hv & Hf); [|destruct Hf]. destruct Hf as [<-|[]]. unfold form_to_vowel.
    destruct (find (fun v0 => match snd v0 with Some f0 => f0 =? f | None => false end) (vowels L)) as [p|] eqn:E; [reflexivity|].
    apply (find_none _ _ E) in Hv. cbn in Hv. rewrite N.eqb_refl in Hv. discriminate Hv.
Qed.
Lemma nodup_get {B} (d : list (N * B)) k v : NoDup (map fst d) -> In (k, v) d -> dget N.eqb k d = Some v.
Proof. intros Hn Hi. apply (In_dget N.eqb N.eqb_eq); assumption. Qed.

Record roles (L : lang) : Prop := MkRoles {
  r_vowel : forall c, is_vowel L c = true -> is_consonant L c = false /\ is_vowel_form L c = false /\ is_virama L c = false /\ is_space_code c = false /\ (c =? internal_full_vowel) = false;
  r_cons : forall c, is_consonant L c = true -> is_vowel L c = false /\ is_vowel_form L c = false /\ is_virama L c = false /\ is_space_code c = false /\ (c =? internal_full_vowel) = false;
  r_form : forall c, is_vowel_form L c = true -> is_vowel L c = false /\ is_consonant L c = false /\ is_virama L c = false /\ is_space_code c = false /\ (c =? internal_full_vowel) = false;
  r_vir : is_vowel L (virama L) = false /\ is_consonant L (virama L) = false /\ is_vowel_form L (virama L) = false /\ is_space_code (virama L) = false /\ (virama L =? internal_full_vowel) = false;
  r_sign : forall c, is_vowel_form L c = true -> exists v, form_to_vowel L c = Some v /\ is_vowel L v = true /\ sign_of L v = [c];
  r_impl : is_vowel L (impl_vowel L) = true /\ sign_of L (impl_vowel L) = [] }.
Lemma bool_false (b : bool) (P : Prop) : (b = true <-> P) -> ~ P -> b = false.
Proof. intros H HP. destruct b; [exfalso; apply HP, H; reflexivity|reflexivity]. Qed.
Lemma script_roles L : script L -> roles L.
Proof.
  intros [Hn Hi].
  set (V := map fst (vowels L)) in *. set (S := signs L) in *. set (K := consonants L) in *.
  set (T := [virama L; 32; 9; 10; 0xE000; 0]) in *.
  assert (VS : forall x, In x V -> ~ In x (S ++ K ++ T)) by (intros x H1 H2; exact (nd_disjoint _ _ x Hn H1 H2)).
  assert (Hn1 : NoDup (S ++ K ++ T)) by (eapply nd_right; exact Hn).
  assert (SK : forall x, In x S -> ~ In x (K ++ T)) by (intros x H1 H2; exact (nd_disjoint _ _ x Hn1 H1 H2)).
  assert (Hn2 : NoDup (K ++ T)) by (eapply nd_right; exact Hn1).
  assert (KT : forall x, In x K -> ~ In x T) by (intros x H1 H2; exact (nd_disjoint _ _ x Hn2 H1 H2)).
  assert (HnT : NoDup T) by (eapply nd_right; exact Hn2).
  assert (HnV : NoDup V) by (eapply nd_left; exact Hn).
  assert (H0 : ~ In 0 S) by (intros H; apply (SK _ H), in_or_app; right; unfold T; simpl; tauto).
  assert (FI := fun c => form_iff L c H0).
  assert (IT : forall c, is_virama L c = true \/ is_space_code c = true \/ (c =? internal_full_vowel) = true -> In c T).
  { intros c [H|[H|H]]; unfold T.
    - apply N.eqb_eq in H. subst c. left. reflexivity.
    - apply space_iff in H. unfold blank in H. simpl. intuition congruence.
    - apply N.eqb_eq in H. subst c. right. right. right. right. left. reflexivity. }
  assert (NT : forall c, ~ In c T -> is_virama L c = false /\ is_space_code c = false /\ (c =? internal_full_vowel) = false).
  { intros c H. repeat split.
    - destruct (is_virama L c) eqn:E; [exfalso; apply H, IT; left; exact E|reflexivity].
    - destruct (is_space_code c) eqn:E; [exfalso; apply H, IT; right; left; exact E|reflexivity].
    - destruct (c =? internal_full_vowel) eqn:E; [exfalso; apply H, IT; right; right; exact E|reflexivity]. }
  constructor.
  - intros c H. apply vowel_iff in H. specialize (VS c H). rewrite !in_app_iff in VS. destruct (NT c) as (N1 & N2 & N3); [tauto|].
    repeat split; try assumption; [eapply bool_false; [apply cons_iff|fold K; tauto]|eapply bool_false; [apply FI|fold S; tauto]].
  - intros c H. apply cons_iff in H. destruct (NT c) as (N1 & N2 & N3); [apply KT, H|].
    repeat split; try assumption; [eapply bool_false; [apply vowel_iff|]|eapply bool_false; [apply FI|]].
    + intros Hv. apply (VS c Hv). rewrite !in_app_iff. tauto.
    + intros Hs. apply (SK c Hs). rewrite !in_app_iff. tauto.
  - intros c H. apply FI in H. specialize (SK c H). rewrite in_app_iff in SK. destruct (NT c) as (N1 & N2 & N3); [tauto|].
    repeat split; try assumption; [eapply bool_false; [apply vowel_iff|]|eapply bool_false; [apply cons_iff|fold K; tauto]].
    intros Hv. apply (VS c Hv). rewrite !in_app_iff. tauto.
  - assert (Hv : In (virama L) T) by (left; reflexivity).
    repeat split.
    + eapply bool_false; [apply vowel_iff|]. intros H. apply (VS _ H). rewrite !in_app_iff. tauto.
    + eapply bool_false; [apply cons_iff|]. intros H. apply (KT _ H Hv).
    + eapply bool_false; [apply FI|]. intros H. apply (SK _ H). rewrite in_app_iff. tauto.
    + eapply bool_false; [apply space_iff|]. intros H. inversion HnT as [|? ? Ht _]; subst. apply Ht. unfold blank in H. simpl. intuition congruence.
    + apply N.eqb_neq. intros H. inversion HnT as [|? ? Ht _]; subst. apply Ht. rewrite H. simpl. tauto.
  - intros c H. unfold is_vowel_form in H. apply andb_prop in H. destruct H as [_ H]. destruct (form_to_vowel L c) as [v|] eqn:E; [|discriminate H].
    exists v. apply form_some in E. split; [reflexivity|]. split.
    + apply vowel_iff. apply (in_map fst) in E. exact E.
    + unfold sign_of. rewrite (nodup_get _ v (Some c) HnV E). reflexivity.
  - split; [apply vowel_iff; apply (in_map fst) in Hi; exact Hi|]. unfold sign_of. rewrite (nodup_get _ _ _ HnV Hi). reflexivity.
Qed.

(** ** the condition, from left to right *)
Fixpoint ok_from (L : lang) (prev : option N) (l : str) : bool :=
  match l with
  | [] => true
  | c :: r =>
      (if is_virama L c then match prev with Some p => is_consonant L p | None => false end && (at_ending r || next_is (is_consonant L) r)
       else if is_vowel_form L c then negb (at_beginning prev) else true) && ok_from L (Some c) r
  end.
Definition last_of (a : str) : option N := match rev a with [] => None | x :: _ => Some x end.
Lemma last_snoc a x : last_of (a ++ [x]) = Some x.
Proof. unfold last_of. rewrite rev_app_distr. reflexivity. Qed.
Lemma last_some a x : last_of a = Some x <-> exists a', a = a' ++ [x].
Proof.
  split.
  - unfold last_of. intros H. destruct (rev a) as [|y r] eqn:E; [discriminate H|]. injection H as ->. exists (rev r).
    rewrite <- (rev_involutive a), E. reflexivity.
  - intros (a' & ->). apply last_snoc.
Qed.
Lemma ending_iff L b : at_ending b || next_is (is_consonant L) b = true <-> (b = [] \/ exists n b', b = n :: b' /\ (blank n \/ In n (consonants L))).
Proof.
  destruct b as [|n b]; cbn [at_ending next_is].
  - split; auto.
  - rewrite orb_true_iff, space_iff, cons_iff. split.
    + intros H. right. exists n, b. auto.
    + intros [H|(n' & b' & E & H)]; [discriminate H|]. injection E as <- <-. exact H.
Qed.
Lemma ok_iff L l : script L -> (ok_from L None l = true <-> viramas_between_consonants L l /\ signs_inside_words L l).
Proof.
  intros Hs. assert (R := script_roles L Hs). assert (FI : forall c, is_vowel_form L c = true <-> In c (signs L)).
  { intros c. apply form_iff. intros H. destruct Hs as [Hn _]. apply nd_right in Hn. apply (nd_disjoint _ _ 0 Hn H). apply in_or_app. right. simpl. tauto. }
  assert (G : forall l p, ok_from L (last_of p) l = true <->
     (forall a b, l = a ++ virama L :: b -> (exists a' k, p ++ a = a' ++ [k] /\ In k (consonants L)) /\ (b = [] \/ exists n b', b = n :: b' /\ (blank n \/ In n (consonants L)))) /\
     (forall a x b, l = a ++ x :: b -> In x (signs L) -> exists a' q, p ++ a = a' ++ [q] /\ ~ blank q)).
  { clear l. induction l as [|c l IH]; intros p.
    - cbn. split; [|reflexivity]. intros _. split; intros [|? ?]; discriminate.
    - cbn [ok_from]. rewrite andb_true_iff. rewrite <- (last_snoc p c), (IH (p ++ [c])). split.
      + intros [H1 [H2 H3]]. split.
        * intros [|a0 a] b E.
          -- cbn [app] in E. injection E as -> ->. unfold is_virama in H1. rewrite N.eqb_refl in H1. apply andb_prop in H1. destruct H1 as [H1 H4].
             apply ending_iff in H4. split; [|exact H4]. destruct (last_of p) as [k|] eqn:Ep; [|discriminate H1]. apply last_some in Ep. destruct Ep as (a' & ->).
             exists a', k. rewrite app_nil_r. split; [reflexivity|apply cons_iff, H1].
          -- cbn [app] in E. injection E as <- ->. destruct (H2 a b eq_refl) as [H4 H5]. split; [|exact H5]. rewrite <- app_assoc in H4. exact H4.
        * intros [|a0 a] x b E Hx.
          -- cbn [app] in E. injection E as -> ->. apply FI in Hx. destruct (r_form L R x Hx) as (_ & _ & Hv & _). rewrite Hv, Hx in H1.
             destruct (last_of p) as [q|] eqn:Ep; [|discriminate H1]. cbn [at_beginning] in H1. apply last_some in Ep. destruct Ep as (a' & ->). exists a', q. rewrite app_nil_r.
             split; [reflexivity|]. intros Hb. apply space_iff in Hb. rewrite Hb in H1. discriminate H1.
          -- cbn [app] in E. injection E as <- ->. specialize (H3 a x b eq_refl Hx). rewrite <- app_assoc in H3. exact H3.
      + intros [H1 H2]. split; [|split].
        * destruct (is_virama L c) eqn:Ec.
          -- apply N.eqb_eq in Ec. subst c. destruct (H1 [] l eq_refl) as [(a' & k & E & Hk) H4]. rewrite app_nil_r in E. subst p. rewrite last_snoc.
             apply ending_iff in H4. apply cons_iff in Hk. rewrite Hk, H4. reflexivity.
          -- destruct (is_vowel_form L c) eqn:Ef; [|reflexivity]. destruct (H2 [] c l eq_refl) as (a' & q & E & Hq); [apply FI, Ef|].
             rewrite app_nil_r in E. subst p. rewrite last_snoc. cbn [at_beginning]. apply negb_true_iff. eapply bool_false; [apply space_iff|exact Hq].
        * intros a b E. destruct (H1 (c :: a) b) as [H3 H4]; [rewrite E; reflexivity|]. split; [|exact H4]. rewrite <- app_assoc. exact H3.
        * intros a x b E Hx. rewrite <- app_assoc. apply (H2 (c :: a) x b); [rewrite E; reflexivity|exact Hx]. }
  exact (G l []).
Qed.

(** ** spelling back *)
Section spell.
  Variable L : lang.
  Hypothesis R : roles L.
  Notation E := (encode_from L).
  Notation D := (decode_from L).
  Definition clean (l : str) : Prop := ~ In internal_full_vowel l.
  Lemma clean_tl c l : clean (c :: l) -> clean l.
  Proof. intros H Hi. apply H. right. exact Hi. Qed.
  Lemma clean_hd c l : clean (c :: l) -> (c =? internal_full_vowel) = false.
  Proof. intros H. apply N.eqb_neq. intros ->. apply H. left. reflexivity. Qed.
  Lemma vir_eq c : is_virama L c = true -> c = virama L.
  Proof. apply N.eqb_eq. Qed.
  Lemma marker_blank : is_space_code internal_full_vowel = false.
  Proof. reflexivity. Qed.
  Lemma D_prev p q l : at_beginning p = at_beginning q -> D p l = D q l.
  Proof.
    intros H. destruct l as [|c l]; [reflexivity|]. cbn [decode_from].
    assert (Hv : (if at_beginning p then [c] else vowel_inside L p c) = (if at_beginning q then [c] else vowel_inside L q c)).
    { rewrite H. destruct (at_beginning q) eqn:Eq; [reflexivity|]. destruct p as [p|]; [|discriminate H]. destruct q as [q|]; [|discriminate Eq].
      cbn [vowel_inside]. destruct (is_consonant L p), (is_consonant L q); reflexivity. }
    destruct (c =? internal_full_vowel); [reflexivity|]. destruct (is_consonant L c); [reflexivity|]. destruct (is_vowel L c); [|reflexivity].
    destruct l as [|m l]; [exact Hv|]. destruct (negb (is_space_code m) && (m =? internal_full_vowel)); [reflexivity|].
    exact (f_equal (fun x => x ++ D (Some c) (m :: l)) Hv).
  Qed.
  (* The head of an encoding is a letter that is not the marker. *)
  Lemma E_head l : forall p, clean l -> match E p l with [] => True | c :: _ => (c =? internal_full_vowel) = false end.
  Proof.
    induction l as [|c l IH]; intros p H; [exact I|]. cbn [encode_from].
    destruct (is_virama L c); [apply IH, (clean_tl c), H|]. destruct (is_vowel L c); [apply (clean_hd c l), H|].
    destruct (is_consonant L c); [apply (clean_hd c l), H|]. destruct (is_vowel_form L c) eqn:Ef; [|apply (clean_hd c l), H].
    destruct (r_sign L R c Ef) as (v & Ev & Hv & _). rewrite Ev. cbn [app]. apply (r_vowel L R v Hv).
  Qed.
  (* One letter *)
  Lemma D_vowel q v r : is_vowel L v = true -> match r with [] => True | c :: _ => (c =? internal_full_vowel) = false end ->
    D q (v :: r) = (if at_beginning q then [v] else sign_of L v) ++ D (Some v) r.
  Proof.
    intros Hv Hr. destruct (r_vowel L R v Hv) as (Hc & _ & _ & _ & Hm). cbn [decode_from]. rewrite Hm, Hc, Hv.
    assert (Hi : (if at_beginning q then [v] else vowel_inside L q v) = if at_beginning q then [v] else sign_of L v).
    { destruct q as [q|]; [|reflexivity]. cbn [at_beginning vowel_inside]. destruct (is_space_code q); [reflexivity|]. destruct (is_consonant L q); reflexivity. }
    destruct r as [|m r]; [cbn [decode_from]; rewrite app_nil_r; exact Hi|]. rewrite Hr, andb_false_r.
    exact (f_equal (fun x => x ++ D (Some v) (m :: r)) Hi).
  Qed.
  Lemma D_marked q v r : is_vowel L v = true -> D q (v :: internal_full_vowel :: r) = v :: D (Some internal_full_vowel) r.
  Proof. intros Hv. destruct (r_vowel L R v Hv) as (Hc & _ & _ & _ & Hm). cbn [decode_from]. rewrite Hm, Hc, Hv. rewrite marker_blank, N.eqb_refl. reflexivity. Qed.
  Lemma D_cons q c r : is_consonant L c = true ->
    D q (c :: r) = c :: (if at_ending r || next_is (is_consonant L) r then [virama L] else []) ++ D (Some c) r.
  Proof. intros Hc. destruct (r_cons L R c Hc) as (_ & _ & _ & _ & Hm). cbn [decode_from]. rewrite Hm, Hc. reflexivity. Qed.
  Lemma D_other q c r : is_consonant L c = false -> is_vowel L c = false -> (c =? internal_full_vowel) = false -> D q (c :: r) = c :: D (Some c) r.
  Proof. intros Hc Hv Hm. cbn [decode_from]. rewrite Hm, Hc, Hv. reflexivity. Qed.
  Lemma beg_cons c : is_space_code c = false -> at_beginning (Some c) = false.
  Proof. intros H. exact H. Qed.
  Lemma vowel_next v r : is_vowel L v = true -> at_ending (v :: r) || next_is (is_consonant L) (v :: r) = false.
  Proof. intros Hv. destruct (r_vowel L R v Hv) as (Hc & _ & _ & Hs & _). cbn [at_ending next_is]. rewrite Hc, Hs. reflexivity. Qed.

  (* What comes back, by the cases of the first letters. *)
  Inductive back : option N -> option N -> str -> str -> Prop :=
  | B_nil p q : back p q [] []
  | B_virama p q c l out : is_virama L c = true -> back (Some c) q l out -> back p q (c :: l) out
  | B_vowel p q c l out q' : is_virama L c = false -> is_vowel L c = true -> at_beginning q' = false -> back (Some c) q' l out -> back p q (c :: l) (c :: out)
  | B_cons p q c l out : is_virama L c = false -> is_vowel L c = false -> is_consonant L c = true -> next_is (is_virama L) l = false ->
      back (Some c) (Some c) l out -> back p q (c :: l) (c :: out)
  | B_dead p q c d l out : is_virama L c = false -> is_vowel L c = false -> is_consonant L c = true -> is_virama L d = true ->
      back (Some d) (Some c) l out ->
      back p q (c :: d :: l) (c :: (if at_ending (E (Some d) l) || next_is (is_consonant L) (E (Some d) l) then [virama L] else []) ++ out)
  | B_sign p q c v l out : is_virama L c = false -> is_vowel L c = false -> is_consonant L c = false -> is_vowel_form L c = true ->
      form_to_vowel L c = Some v -> is_vowel L v = true ->
      back (Some c) (Some v) l out -> back p q (c :: l) ((if at_beginning q then v else c) :: out)
  | B_other p q c l out : is_virama L c = false -> is_vowel L c = false -> is_consonant L c = false -> is_vowel_form L c = false ->
      back (Some c) (Some c) l out -> back p q (c :: l) (c :: out).
  Lemma back_D n : forall l p q, (length l <= n)%nat -> clean l -> (at_beginning p = true -> at_beginning q = true) -> back p q l (D q (E p l)).
  Proof.
    induction n as [|n IH]; intros l p q Hl Hc Hpq.
    { destruct l; [constructor|simpl in Hl; lia]. }
    destruct l as [|c l]; [constructor|]. simpl in Hl. assert (Hc' := clean_tl c l Hc). cbn [encode_from].
    destruct (is_virama L c) eqn:Ev.
    { cbn [app]. apply B_virama; [exact Ev|]. apply IH; [lia|exact Hc'|]. apply vir_eq in Ev. subst c. cbn [at_beginning]. destruct (r_vir L R) as (_ & _ & _ & Hs & _). rewrite Hs. discriminate. }
    destruct (is_vowel L c) eqn:Ew.
    { destruct (r_vowel L R c Ew) as (_ & _ & _ & Hs & _). destruct (at_beginning p) eqn:Ep.
      - cbn [app]. rewrite D_vowel by (try exact Ew; apply E_head, Hc'). rewrite (Hpq eq_refl). cbn [app].
        apply (B_vowel p q c l _ (Some c)); try assumption. apply IH; [lia|exact Hc'|tauto].
      - cbn [app]. rewrite D_marked by exact Ew. apply (B_vowel p q c l _ (Some internal_full_vowel)); try assumption; [reflexivity|].
        apply IH; [lia|exact Hc'|]. cbn [at_beginning]. rewrite Hs. discriminate. }
    destruct (is_consonant L c) eqn:Ek.
    { destruct (r_cons L R c Ek) as (_ & _ & _ & Hs & _). destruct l as [|d l].
      - cbn [at_ending orb encode_from app]. destruct (r_impl L R) as [Hi1 Hi2]. rewrite D_cons by exact Ek. rewrite vowel_next by exact Hi1. cbn [app].
        rewrite D_vowel by (try exact Hi1; exact I). cbn [at_beginning]. rewrite Hs, Hi2. apply B_cons; try assumption; [reflexivity|constructor].
      - cbn [at_ending next_is]. destruct (is_virama L d) eqn:Ed.
        + assert (E0 := vir_eq d Ed). destruct (r_vir L R) as (_ & _ & _ & Hvs & _). rewrite <- E0 in Hvs. rewrite Hvs, orb_true_r. cbn [orb negb app].
          rewrite D_cons by exact Ek. cbn [encode_from]. rewrite Ed. cbn [app]. apply B_dead; try assumption. apply IH; [simpl in Hl; lia|apply (clean_tl d), Hc'|].
          cbn [at_beginning]. rewrite Hvs. discriminate.
        + rewrite orb_false_r. destruct (is_vowel_form L d) eqn:Ef.
          * destruct (r_form L R d Ef) as (Hd1 & Hd2 & Hd3 & Hd4 & Hd5). rewrite Hd4. cbn [orb negb app]. rewrite D_cons by exact Ek.
            assert (En : at_ending (E (Some c) (d :: l)) || next_is (is_consonant L) (E (Some c) (d :: l)) = false).
            { cbn [encode_from]. rewrite Ed, Hd1, Hd2, Ef. destruct (r_sign L R d Ef) as (v & Hv1 & Hv2 & _). rewrite Hv1. cbn [app]. apply vowel_next, Hv2. }
            rewrite En. cbn [app]. apply B_cons; try assumption. apply IH; [simpl in *; lia|exact Hc'|tauto].
          * cbn [negb]. rewrite orb_true_r. cbn [app]. destruct (r_impl L R) as [Hi1 Hi2]. rewrite D_cons by exact Ek. rewrite vowel_next by exact Hi1. cbn [app].
            rewrite D_vowel by (try exact Hi1; apply E_head, Hc'). cbn [at_beginning]. rewrite Hs, Hi2. cbn [app].
            rewrite (D_prev (Some (impl_vowel L)) (Some c)) by (cbn [at_beginning]; rewrite Hs; apply (r_vowel L R _ Hi1)).
            apply B_cons; try assumption. apply IH; [simpl in *; lia|exact Hc'|tauto]. }
    destruct (is_vowel_form L c) eqn:Ef.
    { destruct (r_sign L R c Ef) as (v & Hv1 & Hv2 & Hv3). rewrite Hv1. cbn [app]. rewrite D_vowel by (try exact Hv2; apply E_head, Hc'). rewrite Hv3.
      replace ((if at_beginning q then [v] else [c]) ++ D (Some v) (E (Some c) l)) with ((if at_beginning q then v else c) :: D (Some v) (E (Some c) l)) by (destruct (at_beginning q); reflexivity).
      apply B_sign; try assumption. apply IH; [lia|exact Hc'|]. cbn [at_beginning]. destruct (r_form L R c Ef) as (_ & _ & _ & Hs & _). rewrite Hs. discriminate. }
    cbn [app]. rewrite D_other by (try assumption; apply (clean_hd c l), Hc). apply B_other; try assumption. apply IH; [lia|exact Hc'|tauto].
  Qed.
  Lemma back_len p q l out : back p q l out -> (length out <= length l)%nat.
  Proof.
    induction 1 as [| | | |p q c d l out H1 H2 H3 H4 H IH| |]; simpl in *; try lia. rewrite app_length.
    destruct (at_ending (E (Some d) l) || next_is (is_consonant L) (E (Some d) l)); simpl; lia.
  Qed.
  Lemma E_ending p l : next_is (is_virama L) l = false ->
    at_ending (E p l) || next_is (is_consonant L) (E p l) = at_ending l || next_is (is_consonant L) l.
  Proof.
    intros H. destruct l as [|c l]; [reflexivity|]. cbn [next_is] in H. cbn [encode_from]. rewrite H. destruct (is_vowel L c) eqn:Ev; [reflexivity|].
    destruct (is_consonant L c) eqn:Ec; [reflexivity|]. destruct (is_vowel_form L c) eqn:Ef; [|reflexivity].
    destruct (r_sign L R c Ef) as (v & Hv1 & Hv2 & _). rewrite Hv1. cbn [app]. destruct (r_vowel L R v Hv2) as (N1 & _ & _ & N2 & _).
    destruct (r_form L R c Ef) as (_ & N3 & _ & N4 & _). cbn [at_ending next_is]. rewrite N1, N2, N3, N4. reflexivity.
  Qed.
  Lemma ok_no_virama d l : is_consonant L d = false -> ok_from L (Some d) l = true -> next_is (is_virama L) l = false.
  Proof.
    intros Hd H. destruct l as [|c l]; [reflexivity|]. cbn [next_is]. destruct (is_virama L c) eqn:E0; [|reflexivity]. cbn [ok_from] in H. rewrite E0, Hd in H. discriminate H.
  Qed.
  Lemma back_iff p q l out : back p q l out -> at_beginning p = at_beginning q ->
    (forall p0, p = Some p0 -> is_consonant L p0 = true -> next_is (is_virama L) l = false) -> (out = l <-> ok_from L p l = true).
  Proof.
    induction 1 as [p q|p q c l out H1 H IH|p q c l out q' H1 H2 Hq H IH|p q c l out H1 H2 H3 H4 H IH|p q c d l out H1 H2 H3 H4 H IH|p q c v l out H1 H2 H3 H4 H5 H6 H IH|p q c l out H1 H2 H3 H4 H IH];
      intros Hpq Hp; cbn [ok_from].
    - tauto.
    - apply back_len in H. rewrite H1. split.
      + intros ->. simpl in H. lia.
      + intros Hok. exfalso. destruct p as [p0|]; [|discriminate Hok]. destruct (is_consonant L p0) eqn:Ep; [|discriminate Hok].
        specialize (Hp p0 eq_refl Ep). cbn [next_is] in Hp. congruence.
    - destruct (r_vowel L R c H2) as (N1 & N2 & _ & N3 & _). rewrite H1, N2. cbn [andb].
      rewrite <- IH; [|cbn [at_beginning]; rewrite N3, Hq; reflexivity|intros p0 E0 Hc; assert (p0 = c) by congruence; subst p0; congruence].
      split; [intros E0; congruence|intros ->; reflexivity].
    - destruct (r_cons L R c H3) as (_ & N2 & _). rewrite H1, N2. cbn [andb].
      rewrite <- IH; [|reflexivity|intros p0 E0 Hc; assumption]. split; [intros E0; congruence|intros ->; reflexivity].
    - assert (E0 := vir_eq d H4). destruct (r_cons L R c H3) as (_ & N2 & _). destruct (r_vir L R) as (_ & V2 & _ & V4 & _). rewrite <- E0 in V2, V4.
      rewrite H1, N2, H4, H3. cbn [andb].
      assert (Hk : forall p0, Some d = Some p0 -> is_consonant L p0 = true -> next_is (is_virama L) l = false) by (intros p0 Ep Hc; assert (p0 = d) by congruence; subst p0; congruence).
      assert (Hbeg : at_beginning (Some d) = at_beginning (Some c)) by (cbn [at_beginning]; rewrite V4; symmetry; apply (r_cons L R c H3)).
      specialize (IH Hbeg Hk). apply back_len in H. split.
      + intros E1. assert (E2 : (if at_ending (E (Some d) l) || next_is (is_consonant L) (E (Some d) l) then [virama L] else []) ++ out = d :: l) by congruence. clear E1.
        destruct (at_ending (E (Some d) l) || next_is (is_consonant L) (E (Some d) l)) eqn:Ee.
        * assert (E3 : out = l) by (cbn [app] in E2; congruence). assert (Hok := proj1 IH E3). rewrite Hok, andb_true_r.
          rewrite <- (E_ending (Some d) l); [exact Ee|apply (ok_no_virama d); assumption].
        * cbn [app] in E2. subst out. simpl in H. lia.
      + intros Hok. apply andb_prop in Hok. destruct Hok as [Hok1 Hok2]. assert (E3 := proj2 IH Hok2). subst out.
        rewrite (E_ending (Some d) l) by (apply (ok_no_virama d); assumption). rewrite Hok1, <- E0. reflexivity.
    - destruct (r_form L R c H4) as (_ & _ & _ & N4 & _). rewrite H1, H4, Hpq.
      rewrite andb_true_iff, <- IH; [|cbn [at_beginning]; rewrite N4; symmetry; apply (r_vowel L R v H6)|intros p0 E0 Hc; assert (p0 = c) by congruence; subst p0; congruence].
      split.
      + intros E0. destruct (at_beginning q); [|split; [reflexivity|congruence]]. assert (v = c) by congruence. subst v. congruence.
      + intros [E1 ->]. destruct (at_beginning q); [discriminate E1|reflexivity].
    - rewrite H1, H4. cbn [andb]. rewrite <- IH; [|reflexivity|intros p0 E0 Hc; assert (p0 = c) by congruence; subst p0; congruence].
      split; [intros E0; congruence|intros ->; reflexivity].
  Qed.
  Lemma D_clean n : forall l q, (length l <= n)%nat -> clean (D q l).
  Proof.
    assert (Hs : forall v, ~ In internal_full_vowel (sign_of L v)).
    { intros v Hi. unfold sign_of in Hi. destruct (dget N.eqb v (vowels L)) as [[f|]|] eqn:E0; [|destruct Hi|destruct Hi]. destruct Hi as [Hi|[]].
      apply (dget_In N.eqb N.eqb_eq) in E0. destruct (f =? 0) eqn:Ez; [apply N.eqb_eq in Ez; rewrite Ez in Hi; discriminate Hi|].
      assert (Ef : is_vowel_form L f = true).
      { unfold is_vowel_form. rewrite Ez. cbn [negb andb]. unfold form_to_vowel.
        destruct (find (fun v0 => match snd v0 with Some f0 => f0 =? f | None => false end) (vowels L)) as [p|] eqn:En; [reflexivity|].
        apply (find_none _ _ En) in E0. cbn in E0. rewrite N.eqb_refl in E0. discriminate E0. }
      destruct (r_form L R f Ef) as (_ & _ & _ & _ & N5). subst f. discriminate N5. }
    assert (Hvir : virama L <> internal_full_vowel) by (destruct (r_vir L R) as (_ & _ & _ & _ & N5); apply N.eqb_neq, N5).
    induction n as [|n IH]; intros l q Hl; (destruct l as [|c l]; [intros []|simpl in Hl; try lia]).
    cbn [decode_from]. destruct (c =? internal_full_vowel) eqn:Ec; [apply IH; lia|]. apply N.eqb_neq in Ec.
    destruct (is_consonant L c).
    { intros [Hi|Hi]; [congruence|]. apply in_app_or in Hi. destruct Hi as [Hi|Hi]; [|revert Hi; apply IH; lia].
      destruct (at_ending l || next_is (is_consonant L) l); [destruct Hi as [Hi|[]]; congruence|destruct Hi]. }
    destruct (is_vowel L c).
    { assert (Hv : ~ In internal_full_vowel (if at_beginning q then [c] else vowel_inside L q c)).
      { destruct (at_beginning q); [intros [Hi|[]]; congruence|]. unfold vowel_inside. destruct q as [q|]; [|intros []]. destruct (is_consonant L q); apply Hs. }
      destruct l as [|m l]; [exact Hv|]. destruct (negb (is_space_code m) && (m =? internal_full_vowel)).
      - intros [Hi|Hi]; [congruence|]. revert Hi. apply IH. simpl in Hl. lia.
      - intros Hi. apply in_app_or in Hi. destruct Hi as [Hi|Hi]; [exact (Hv Hi)|]. revert Hi. apply IH. lia. }
    intros [Hi|Hi]; [congruence|]. revert Hi. apply IH. lia.
  Qed.
End spell.

Theorem spelled_back L l : script L ->
  (decode L (encode L l) = l <-> ~ In 0xE000 l /\ viramas_between_consonants L l /\ signs_inside_words L l).
Proof.
  intros Hs. assert (R := script_roles L Hs). unfold decode, encode. rewrite <- (ok_iff L l Hs).
  assert (G : clean l -> (decode_from L None (encode_from L None l) = l <-> ok_from L None l = true)).
  { intros Hc. apply (back_iff L R None None); [apply (back_D L R (length l)); [lia|exact Hc|tauto]|reflexivity|discriminate]. }
  split.
  - intros H. assert (Hc : clean l) by (rewrite <- H; apply (D_clean L R _ _ _ (le_n _))). split; [exact Hc|]. apply G; assumption.
  - intros [Hc Hok]. apply G; assumption.
Qed.

(** ** the lite spelling *)
Fixpoint lite_ok (L : lang) (prev : option N) (l : str) : bool :=
  match l with
  | [] => true
  | c :: r =>
      (if is_virama L c then match prev with Some p => is_consonant L p | None => false end && (at_ending r || next_is (is_consonant L) r)
       else negb (is_consonant L c && next_is (N.eqb (impl_vowel L)) r)) && lite_ok L (Some c) r
  end.
Lemma lite_ok_iff L l : script L -> (lite_ok L None l = true <-> viramas_between_consonants L l /\ no_written_implicit_vowel L l).
Proof.
  intros Hs. assert (R := script_roles L Hs).
  assert (G : forall l p, lite_ok L (last_of p) l = true <->
     (forall a b, l = a ++ virama L :: b -> (exists a' k, p ++ a = a' ++ [k] /\ In k (consonants L)) /\ (b = [] \/ exists n b', b = n :: b' /\ (blank n \/ In n (consonants L)))) /\ (forall a k b, l = a ++ k :: impl_vowel L :: b -> ~ In k (consonants L))).
  { clear l. induction l as [|c l IH]; intros p.
    - cbn. split; [|reflexivity]. intros _. split; intros [|? ?]; discriminate.
    - cbn [lite_ok]. rewrite andb_true_iff. rewrite <- (last_snoc p c), (IH (p ++ [c])). split.
      + intros [H1 [H2 H3]]. split.
        * intros [|a0 a] b E.
          -- cbn [app] in E. injection E as -> ->. unfold is_virama in H1. rewrite N.eqb_refl in H1. apply andb_prop in H1. destruct H1 as [H1 H4].
             apply ending_iff in H4. split; [|exact H4]. destruct (last_of p) as [k|] eqn:Ep; [|discriminate H1]. apply last_some in Ep. destruct Ep as (a' & ->).
             exists a', k. rewrite app_nil_r. split; [reflexivity|apply cons_iff, H1].
          -- cbn [app] in E. injection E as <- ->. destruct (H2 a b eq_refl) as [H4 H5]. split; [|exact H5]. rewrite <- app_assoc in H4. exact H4.
        * intros [|a0 a] k b E Hk.
          -- cbn [app] in E. injection E as -> ->. apply cons_iff in Hk. destruct (r_cons L R k Hk) as (_ & _ & Hv & _). rewrite Hv, Hk in H1.
             cbn [next_is] in H1. rewrite N.eqb_refl in H1. discriminate H1.
          -- cbn [app] in E. injection E as <- ->. exact (H3 a k b eq_refl Hk).
      + intros [H1 H2]. split; [|split].
        * destruct (is_virama L c) eqn:Ec.
          -- apply N.eqb_eq in Ec. subst c. destruct (H1 [] l eq_refl) as [(a' & k & E & Hk) H4]. rewrite app_nil_r in E. subst p. rewrite last_snoc.
             apply ending_iff in H4. apply cons_iff in Hk. rewrite Hk, H4. reflexivity.
          -- apply negb_true_iff. destruct (is_consonant L c) eqn:Ek; [|reflexivity]. cbn [andb]. destruct l as [|n l]; [reflexivity|]. cbn [next_is].
             apply N.eqb_neq. intros <-. apply (H2 [] c l eq_refl). apply cons_iff, Ek.
        * intros a b E. destruct (H1 (c :: a) b) as [H3 H4]; [rewrite E; reflexivity|]. split; [|exact H4]. rewrite <- app_assoc. exact H3.
        * intros a k b E Hk. apply (H2 (c :: a) k b); [rewrite E; reflexivity|exact Hk]. }
  exact (G l []).
Qed.
Section lite.
  Variable L : lang.
  Hypothesis R : roles L.
  Notation E := (lite_encode L).
  Notation D := (lite_decode L).
  Inductive lback : str -> str -> Prop :=
  | LB_nil : lback [] []
  | LB_virama c l out : is_virama L c = true -> lback l out -> lback (c :: l) out
  | LB_other c l out : is_virama L c = false -> is_consonant L c = false -> lback l out -> lback (c :: l) (c :: out)
  | LB_cons c l out : is_virama L c = false -> is_consonant L c = true -> next_is (is_virama L) l = false -> next_is (N.eqb (impl_vowel L)) l = false ->
      lback l out -> lback (c :: l) (c :: out)
  | LB_lost c d l out : is_virama L c = false -> is_consonant L c = true -> impl_vowel L = d -> lback l out -> lback (c :: d :: l) (c :: out)
  | LB_dead c d l out : is_virama L c = false -> is_consonant L c = true -> is_virama L d = true ->
      at_ending (E l) || next_is (is_consonant L) (E l) = true -> lback l out -> lback (c :: d :: l) (c :: virama L :: out)
  | LB_short c d l out : is_virama L c = false -> is_consonant L c = true -> is_virama L d = true ->
      at_ending (E l) || next_is (is_consonant L) (E l) = false -> (length out <= length l)%nat -> lback (c :: d :: l) (c :: out).
  Lemma lite_len n : forall l, (length l <= n)%nat -> (length (D (E l)) <= length l)%nat.
  Proof.
    induction n as [|n IH]; intros l Hl; (destruct l as [|c l]; [simpl; lia|simpl in Hl; try lia]).
    cbn [lite_encode]. destruct (is_virama L c) eqn:Ev; [cbn [app]; specialize (IH l); simpl; lia|].
    destruct (is_consonant L c) eqn:Ek; [|cbn [andb app lite_decode]; rewrite Ek; cbn [length]; specialize (IH l); lia].
    cbn [andb app lite_decode]. rewrite Ek. destruct (r_impl L R) as [Hi _]. destruct (r_vowel L R _ Hi) as (Hi1 & _ & Hi3 & Hi4 & _).
    destruct (at_ending l || next_is (is_consonant L) l) eqn:Ee.
    - cbn [app at_ending next_is]. rewrite Hi1, Hi4. cbn [orb]. rewrite N.eqb_refl. cbn [length]. specialize (IH l). lia.
    - cbn [app]. destruct l as [|d l]; [discriminate Ee|]. cbn [at_ending next_is] in Ee. apply orb_false_iff in Ee. destruct Ee as [Ed1 Ed2].
      cbn [lite_encode]. destruct (is_virama L d) eqn:Ed.
      + cbn [app]. destruct (at_ending (E l) || next_is (is_consonant L) (E l)); [cbn [length]; specialize (IH l); simpl in Hl; lia|].
        destruct (E l) as [|x r] eqn:Ex; [cbn; lia|]. destruct (impl_vowel L =? x) eqn:Exi.
        * assert (Hlen : (length (D (E l)) <= length l)%nat) by (apply IH; simpl in Hl; lia). rewrite Ex in Hlen. cbn [lite_decode] in Hlen.
          apply N.eqb_eq in Exi. subst x. rewrite Hi1 in Hlen. cbn [length] in *. lia.
        * rewrite <- Ex. cbn [length]. specialize (IH l). simpl in Hl. lia.
      + cbn [app at_ending next_is]. rewrite Ed1, Ed2. cbn [orb]. destruct (impl_vowel L =? d).
        * cbn [andb app length]. specialize (IH l). simpl in Hl. lia.
        * specialize (IH (d :: l)). cbn [lite_encode] in IH. rewrite Ed, Ed2 in IH. cbn [andb app length] in *. lia.
  Qed.
  Lemma lback_D n : forall l, (length l <= n)%nat -> lback l (D (E l)).
  Proof.
    induction n as [|n IH]; intros l Hl; (destruct l as [|c l]; [constructor|simpl in Hl; try lia]).
    assert (IHl : lback l (D (E l))) by (apply IH; lia).
    cbn [lite_encode]. destruct (is_virama L c) eqn:Ev; [apply LB_virama; assumption|].
    destruct (is_consonant L c) eqn:Ek; [|cbn [andb app lite_decode]; rewrite Ek; apply LB_other; assumption].
    cbn [andb app lite_decode]. rewrite Ek. destruct (r_impl L R) as [Hi _]. destruct (r_vowel L R _ Hi) as (Hi1 & _ & Hi3 & Hi4 & _).
    destruct (r_vir L R) as (Hv1 & Hv2 & _ & Hv4 & _).
    destruct (at_ending l || next_is (is_consonant L) l) eqn:Ee.
    - cbn [app at_ending next_is]. rewrite Hi1, Hi4. cbn [orb]. rewrite N.eqb_refl.
      assert (Hn : next_is (is_virama L) l = false /\ next_is (N.eqb (impl_vowel L)) l = false).
      { destruct l as [|d l]; [split; reflexivity|]. cbn [at_ending next_is] in *. split.
        - destruct (is_virama L d) eqn:Ed; [|reflexivity]. apply N.eqb_eq in Ed. subst d. rewrite Hv2, Hv4 in Ee. discriminate Ee.
        - apply N.eqb_neq. intros <-. rewrite Hi1, Hi4 in Ee. discriminate Ee. }
      apply LB_cons; tauto.
    - cbn [app]. destruct l as [|d l]; [discriminate Ee|]. cbn [at_ending next_is] in Ee. apply orb_false_iff in Ee. destruct Ee as [Ed1 Ed2].
      cbn [lite_encode]. destruct (is_virama L d) eqn:Ed.
      + cbn [app]. assert (IHl' : lback l (D (E l))) by (apply IH; simpl in Hl; lia).
        destruct (at_ending (E l) || next_is (is_consonant L) (E l)) eqn:Ee; [apply LB_dead; assumption|].
        assert (Hlen := lite_len (length l) l (le_n _)). apply LB_short; try assumption.
        destruct (E l) as [|x r] eqn:Ex; [discriminate Ee|]. destruct (impl_vowel L =? x) eqn:Exi; [|exact Hlen].
        apply N.eqb_eq in Exi. subst x. cbn [lite_decode] in Hlen. rewrite Hi1 in Hlen. cbn [length] in Hlen. lia.
      + cbn [app at_ending next_is]. rewrite Ed1, Ed2. cbn [orb andb app]. destruct (impl_vowel L =? d) eqn:Ei.
        * apply N.eqb_eq in Ei. apply LB_lost; try assumption. apply IH. simpl in Hl. lia.
        * apply LB_cons; try assumption. cbn [lite_encode] in IHl. rewrite Ed, Ed2 in IHl. exact IHl.
  Qed.
  Lemma lback_len l out : lback l out -> (length out <= length l)%nat.
  Proof. induction 1; simpl in *; lia. Qed.
  Lemma LE_ending l : next_is (is_virama L) l = false ->
    at_ending (E l) || next_is (is_consonant L) (E l) = at_ending l || next_is (is_consonant L) l.
  Proof. intros H. destruct l as [|c l]; [reflexivity|]. cbn [next_is] in H. cbn [lite_encode]. rewrite H. reflexivity. Qed.
  Lemma lite_no_virama d l : is_consonant L d = false -> lite_ok L (Some d) l = true -> next_is (is_virama L) l = false.
  Proof.
    intros Hd H. destruct l as [|c l]; [reflexivity|]. cbn [next_is]. destruct (is_virama L c) eqn:E0; [|reflexivity]. cbn [lite_ok] in H. rewrite E0, Hd in H. discriminate H.
  Qed.
  Lemma lback_iff l out : lback l out -> forall p, (forall p0, p = Some p0 -> is_consonant L p0 = true -> next_is (is_virama L) l = false) ->
    (out = l <-> lite_ok L p l = true).
  Proof.
    assert (KV : is_consonant L (virama L) = false) by apply (r_vir L R).
    induction 1 as [|c l out H1 H IH|c l out H1 H2 H IH|c l out H1 H2 H3 H4 H IH|c d l out H1 H2 H3 H IH|c d l out H1 H2 H3 H4 H IH|c d l out H1 H2 H3 H4 H];
      intros p Hp; cbn [lite_ok].
    - tauto.
    - apply lback_len in H. rewrite H1. split.
      + intros ->. simpl in H. lia.
      + intros Hok. exfalso. destruct p as [p0|]; [|discriminate Hok]. destruct (is_consonant L p0) eqn:Ep; [|discriminate Hok].
        specialize (Hp p0 eq_refl Ep). cbn [next_is] in Hp. congruence.
    - rewrite H1, H2. cbn [andb negb]. rewrite <- (IH (Some c)); [|intros p0 E0 Hc; assert (p0 = c) by congruence; subst p0; congruence].
      split; [intros E0; congruence|intros ->; reflexivity].
    - rewrite H1, H4, andb_false_r. cbn [andb negb]. rewrite <- (IH (Some c)); [|intros; assumption].
      split; [intros E0; congruence|intros ->; reflexivity].
    - apply lback_len in H. subst d. rewrite H1, H2. cbn [next_is]. rewrite N.eqb_refl. cbn [andb negb]. split; [|discriminate].
      intros E0. assert (E1 : out = impl_vowel L :: l) by congruence. subst out. simpl in H. lia.
    - assert (E0 := vir_eq L d H3). destruct (r_impl L R) as [Hi _]. destruct (r_vowel L R _ Hi) as (_ & _ & Hi3 & _).
      assert (Ei : (impl_vowel L =? d) = false) by (apply N.eqb_neq; intros E1; rewrite E1 in Hi3; congruence).
      rewrite H1, H2, H3. cbn [next_is]. rewrite Ei. cbn [andb negb].
      specialize (IH (Some d)). rewrite <- E0 in KV.
      assert (Hk : forall p0, Some d = Some p0 -> is_consonant L p0 = true -> next_is (is_virama L) l = false) by (intros p0 Ep Hc; assert (p0 = d) by congruence; subst p0; congruence).
      specialize (IH Hk). split.
      + intros E1. assert (E3 : out = l) by congruence. assert (Hok := proj1 IH E3). rewrite Hok, andb_true_r.
        rewrite <- LE_ending; [exact H4|apply (lite_no_virama d); assumption].
      + intros Hok. apply andb_prop in Hok. destruct Hok as [Hok1 Hok2]. rewrite (proj2 IH Hok2), <- E0. reflexivity.
    - assert (E0 := vir_eq L d H3). rewrite <- E0 in KV. split.
      + intros E1. assert (E2 : out = d :: l) by congruence. subst out. simpl in H. lia.
      + intros Hok. exfalso. apply andb_prop in Hok. destruct Hok as [_ Hok]. rewrite H3, H2 in Hok. cbn [andb] in Hok.
        apply andb_prop in Hok. destruct Hok as [Hok1 Hok2]. rewrite <- LE_ending in Hok1 by (apply (lite_no_virama d); assumption). congruence.
  Qed.
End lite.
Theorem lite_spelled_back L l : script L ->
  (lite_decode L (lite_encode L l) = l <-> viramas_between_consonants L l /\ no_written_implicit_vowel L l).
Proof.
  intros Hs. assert (R := script_roles L Hs). rewrite <- (lite_ok_iff L l Hs).
  apply (lback_iff L R); [apply (lback_D L R (length l)); lia|discriminate].
Qed.

(** ** the script of Hindi *)
Definition hindi : lang := MkLang HINDI_VOWELS DEVANAGARI_CONSONANTS 0x905 0x94D.
Lemma hindi_ok name : In name [lit "hin"; lit "sanskrit"; lit "devanagari"; lit "hindi"] -> get_aubugida name = Ok hindi.
Proof. intros H. repeat (destruct H as [<-|H]; [vm_compute; reflexivity|]). destruct H. Qed.
Fixpoint nodupb (l : list N) : bool := match l with [] => true | x :: r => negb (in_set x r) && nodupb r end.
Lemma nodupb_ok l : nodupb l = true -> NoDup l.
Proof.
  induction l as [|x l IH]; intros H; [constructor|]. cbn [nodupb] in H. apply andb_prop in H. destruct H as [H1 H2]. constructor; [|apply IH, H2].
  intros Hi. apply in_set_iff in Hi. rewrite Hi in H1. discriminate H1.
Qed.
Lemma hindi_script : script hindi.
Proof. split; [apply nodupb_ok; vm_compute; reflexivity|left; reflexivity]. Qed.
