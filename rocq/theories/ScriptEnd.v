(** The re-spelling tools on whole texts, and canonical spellings. *)
From Coq Require Import Strings.String.
From Verif Require Import Py PyStr PyLemmas VocabFileProofs CliSpec CliProofs ScriptModel ScriptSpec ScriptProofs.
Local Open Scope N_scope.
Local Open Scope list_scope.

(** ** line by line *)
Lemma lines_no_break text ls : lines_of text ls -> Forall no_break ls.
Proof. induction 1; constructor; try assumption. constructor. Qed.
Lemma unlines_lines ls : Forall no_break ls -> lines_of (unlines ls) ls.
Proof.
  induction 1 as [|l ls Hl H IH]; [constructor|]. unfold unlines. cbn [flat_map]. rewrite <- app_assoc. apply Lo_lf; [exact Hl|exact IH].
Qed.
Lemma rstrip_line x l : line_read x l -> no_break l -> rstrip_set [LF] x = l.
Proof.
  intros Hx [Hl _]. assert (G : rstrip_set [LF] l = l).
  { unfold rstrip_set. destruct (rev l) as [|c r] eqn:E; [apply (f_equal (@rev N)) in E; rewrite rev_involutive in E; exact (eq_sym E)|].
    cbn [lstrip_set existsb]. assert (Hc : (c =? LF) = false).
    { apply N.eqb_neq. intros ->. apply Hl. apply in_rev. rewrite E. left. reflexivity. }
    rewrite Hc. cbn [orb]. rewrite <- E. apply rev_involutive. }
  destruct Hx as [->| ->]; [exact G|]. unfold rstrip_set. rewrite rev_app_distr. cbn [rev app lstrip_set existsb]. rewrite N.eqb_refl. cbn [orb]. exact G.
Qed.
Lemma by_lines f text ls : lines_of text ls -> line_by_line f text = unlines (map f ls).
Proof.
  intros H. assert (Hb := lines_no_break text ls H). apply file_lines_spec in H. unfold line_by_line, unlines.
  induction H as [|x l xs ls Hx H IH]; [reflexivity|]. cbn [flat_map map]. rewrite IH by (inversion Hb; assumption).
  rewrite (rstrip_line x l Hx) by (inversion Hb; assumption). reflexivity.
Qed.
Lemma there_and_back f g text ls : lines_of text ls -> (forall l, In l ls -> no_break l -> no_break (f l)) -> (forall l, In l ls -> g (f l) = l) ->
  line_by_line g (line_by_line f text) = unlines ls.
Proof.
  intros H Hf Hg. rewrite (by_lines f text ls H), (by_lines g (unlines (map f ls)) (map f ls)).
  - rewrite map_map. f_equal. rewrite <- (map_id ls) at 2. apply map_ext_in. exact Hg.
  - apply unlines_lines. apply lines_no_break in H. rewrite Forall_forall in *. intros x Hx. apply in_map_iff in Hx. destruct Hx as (l & <- & Hl). auto.
Qed.

(** ** uxdx.py *)
Lemma ux_chars l c : In c (ux_encode l) -> In c l \/ c = impl_vowel_form.
Proof.
  induction l as [|x l IH]; [intros []|]. cbn [ux_encode]. intros [->|H]; [left; left; reflexivity|]. apply in_app_or in H. destruct H as [H|H].
  - right. destruct l as [|y l]; [destruct H|]. destruct (in_set x DEVANAGARI_CONSONANTS && in_set y DEVANAGARI_CONSONANTS); [|destruct H]. destruct H as [H|[]]. auto.
  - destruct (IH H); [left; right; assumption|auto].
Qed.
Lemma ux_no_break l : no_break l -> no_break (ux_encode l).
Proof. intros [H1 H2]. split; intros H; apply ux_chars in H; destruct H as [H|H]; try contradiction; discriminate H. Qed.
Theorem ux_text text ls : lines_of text ls -> (forall l, In l ls -> ~ In impl_vowel_form l) -> ux_main (ux_main text false) true = unlines ls.
Proof.
  intros H Hm. unfold ux_main. apply (there_and_back ux_encode ux_decode text ls H); [intros l _; apply ux_no_break|]. intros l Hl. apply ux_id, Hm, Hl.
Qed.

(** Canonical spellings: what encode gives *)
Lemma mark_not_in : ~ In impl_vowel_form DEVANAGARI_CONSONANTS.
Proof. intros H. apply in_set_iff in H. rewrite mark_no_consonant in H. discriminate H. Qed.
Lemma ux_marks l : ~ In impl_vowel_form l -> marks_between (ux_encode l).
Proof.
  induction l as [|c l IH]; intros Hn a b E; [destruct a; discriminate E|].
  assert (Hc : c <> impl_vowel_form) by (intros ->; apply Hn; left; reflexivity). cbn [ux_encode] in E.
  assert (IH' := IH (fun H => Hn (or_intror H))). destruct l as [|d l].
  - cbn [ux_encode app] in E. destruct a as [|? [|? ?]]; cbn [app] in E; [exfalso; apply Hc; congruence|discriminate E|discriminate E].
  - destruct (in_set c DEVANAGARI_CONSONANTS && in_set d DEVANAGARI_CONSONANTS) eqn:Ec.
    + apply andb_prop in Ec. rewrite !in_set_iff in Ec. destruct a as [|a0 [|a1 a]].
      * cbn [app] in E. congruence.
      * assert (a0 = c /\ b = ux_encode (d :: l)) as [-> ->] by (cbn [app] in E; split; congruence). destruct (ux_head d l) as (r & Er).
        exists [], c, d, r. rewrite Er. tauto.
      * assert (E1 : ux_encode (d :: l) = a ++ impl_vowel_form :: b) by (cbn [app] in E; congruence). destruct (IH' a b E1) as (a' & k & k' & b' & -> & -> & H1 & H2).
        exists (a0 :: a1 :: a'), k, k', b'. repeat split; assumption.
    + destruct a as [|a0 a]; [cbn [app] in E; congruence|].
      assert (E1 : ux_encode (d :: l) = a ++ impl_vowel_form :: b) by (cbn [app] in E; congruence). destruct (IH' a b E1) as (a' & k & k' & b' & -> & -> & H1 & H2).
      exists (a0 :: a'), k, k', b'. repeat split; assumption.
Qed.
Lemma sparse_tl c l : sparse (c :: l) -> sparse l.
Proof. intros H a x y b E. apply (H (c :: a) x y b). rewrite E. reflexivity. Qed.
Lemma between_tl c l : marks_between (c :: l) -> (forall r, l <> impl_vowel_form :: r) -> marks_between l.
Proof.
  intros H Hl a b E. destruct (H (c :: a) b) as (a' & k & k' & b' & E1 & E2 & H1 & H2); [rewrite E; reflexivity|].
  destruct a' as [|x a']; [cbn [app] in E1; assert (a = []) by congruence; subst a; exfalso; exact (Hl b E)|].
  exists a', k, k', b'. cbn [app] in E1. assert (a = a' ++ [k]) by congruence. tauto.
Qed.
Lemma ux_canonical_back n : forall l, (length l <= n)%nat -> sparse l -> marks_between l -> ux_encode (ux_decode l) = l.
Proof.
  induction n as [|n IH]; intros l Hl Hs Hm; (destruct l as [|c l]; [reflexivity|simpl in Hl; try lia]).
  assert (Hc : (c =? impl_vowel_form) = false).
  { apply N.eqb_neq. intros ->. destruct (Hm [] l eq_refl) as (a' & k & _ & _ & E & _). destruct a'; discriminate E. }
  unfold ux_decode. cbn [filter]. rewrite Hc. cbn [negb]. fold (ux_decode l). cbn [ux_encode].
  destruct l as [|d l]; [reflexivity|]. destruct (d =? impl_vowel_form) eqn:Ed.
  - apply N.eqb_eq in Ed. subst d. destruct (Hm [c] l eq_refl) as (a' & k & k' & b' & E & -> & H1 & H2).
    assert (k = c) by (destruct a' as [|? [|? ?]]; [|discriminate E|discriminate E]; cbn [app] in E; congruence). subst k.
    assert (Hk' : (k' =? impl_vowel_form) = false) by (apply N.eqb_neq; intros ->; apply mark_not_in, H2).
    unfold ux_decode. cbn [filter]. rewrite N.eqb_refl, Hk'. cbn [negb].
    apply in_set_iff in H1, H2. rewrite H1, H2. cbn [andb app]. f_equal. f_equal.
    transitivity (ux_encode (ux_decode (k' :: b'))); [unfold ux_decode; cbn [filter]; rewrite Hk'; reflexivity|].
    apply IH; [simpl in *; lia|apply (sparse_tl impl_vowel_form), (sparse_tl c), Hs|].
    intros a b E1. destruct a as [|a0 a]; [cbn [app] in E1; apply N.eqb_neq in Hk'; congruence|].
    destruct (Hm (c :: impl_vowel_form :: a0 :: a) b) as (a2 & x & y & b2 & E2 & -> & H3 & H4); [cbn [app] in *; congruence|].
    destruct a2 as [|? [|? a2]]; [discriminate E2|destruct a; discriminate E2|]. exists a2, x, y, b2. cbn [app] in E2. repeat split; try assumption. congruence.
  - assert (Hd : ux_decode (d :: l) = d :: ux_decode l) by (unfold ux_decode; cbn [filter]; rewrite Ed; reflexivity).
    rewrite Hd. assert (Ek : in_set c DEVANAGARI_CONSONANTS && in_set d DEVANAGARI_CONSONANTS = false).
    { destruct (in_set c DEVANAGARI_CONSONANTS && in_set d DEVANAGARI_CONSONANTS) eqn:Ek; [|reflexivity]. apply andb_prop in Ek. rewrite !in_set_iff in Ek.
      exfalso. exact (Hs [] c d l eq_refl Ek). }
    rewrite Ek. cbn [app]. f_equal. rewrite <- Hd. apply IH; [simpl in *; lia|apply (sparse_tl c), Hs|].
    apply (between_tl c); [exact Hm|]. intros r E. assert (d = impl_vowel_form) by congruence. subst d. rewrite N.eqb_refl in Ed. discriminate Ed.
Qed.
Theorem ux_canonical l : ux_encode (ux_decode l) = l <-> sparse l /\ marks_between l.
Proof.
  split.
  - intros H. rewrite <- H. split; [apply ux_sparse|apply ux_marks, ux_decode_clean].
  - intros [H1 H2]. apply (ux_canonical_back (length l)); [lia|assumption|assumption].
Qed.

(** ** unicode_fix.py *)
Lemma encode_chars L l : script L -> forall p c, In c (encode_from L p l) -> In c l \/ In c (map fst (vowels L)) \/ c = internal_full_vowel.
Proof.
  intros [_ Hi]. apply (in_map fst) in Hi. cbn [fst] in Hi. induction l as [|x l IH]; intros p c H; [destruct H|]. cbn [encode_from] in H. apply in_app_or in H. destruct H as [H|H].
  - destruct (is_virama L x); [destruct H|]. destruct (is_vowel L x).
    { destruct H as [<-|H]; [left; left; reflexivity|]. destruct (at_beginning p); [destruct H|]. destruct H as [<-|[]]. auto. }
    destruct (is_consonant L x).
    { destruct H as [<-|H]; [left; left; reflexivity|]. destruct (at_ending l || negb (next_is (is_vowel_form L) l || next_is (is_virama L) l)); [|destruct H].
      destruct H as [<-|[]]. auto. }
    destruct (is_vowel_form L x).
    { destruct (form_to_vowel L x) as [v|] eqn:E; [|destruct H]. destruct H as [<-|[]]. apply form_some in E. apply (in_map fst) in E. auto. }
    destruct H as [<-|[]]. left. left. reflexivity.
  - destruct (IH _ _ H) as [H1|H1]; [left; right; exact H1|right; exact H1].
Qed.
Lemma hindi_no_break l : no_break l -> no_break (encode hindi l).
Proof.
  intros [H1 H2]. assert (G : forall c, (c = 10 \/ c = 13) -> ~ In c l -> ~ In c (encode hindi l)).
  { intros c Hc Hl H. apply (encode_chars hindi l hindi_script) in H. destruct H as [H|[H|H]]; [contradiction| |destruct Hc; subst c; discriminate H].
    apply in_set_iff in H. destruct Hc; subst c; discriminate H. }
  split; apply G; auto.
Qed.
Theorem fix_text name text ls : In name [lit "hin"; lit "sanskrit"; lit "devanagari"; lit "hindi"] -> lines_of text ls ->
  (forall l, In l ls -> ~ In 0xE000 l /\ viramas_between_consonants hindi l /\ signs_inside_words hindi l) ->
  exists enc, fix_main text name false = Ok enc /\ fix_main enc name true = Ok (unlines ls).
Proof.
  intros Hn H Hl. unfold fix_main. rewrite (hindi_ok name Hn). eexists. split; [reflexivity|]. f_equal.
  apply (there_and_back (encode hindi) (decode hindi) text ls H); [intros l _; apply hindi_no_break|].
  intros l Hi. apply (spelled_back hindi l hindi_script), Hl, Hi.
Qed.

(** The letters that count as consonants, and the scripts that the constructor accepts *)
Lemma code_range_in a b c : In c (code_range a b) <-> a <= c <= b.
Proof.
  unfold code_range. rewrite in_map_iff. split.
  - intros (k & <- & Hk). apply in_seq in Hk. lia.
  - intros H. exists (N.to_nat (c - a)). split; [lia|]. apply in_seq. lia.
Qed.
Lemma devanagari_consonants c : In c DEVANAGARI_CONSONANTS <-> 0x915 <= c <= 0x939 \/ 0x958 <= c <= 0x95F.
Proof. unfold DEVANAGARI_CONSONANTS. rewrite in_app_iff, !code_range_in. reflexivity. Qed.
Lemma opt_eqb_eq a b : opt_eqb a b = true <-> a = b.
Proof. destruct a, b; cbn; try (rewrite N.eqb_eq); split; congruence. Qed.
Lemma distinct_values_iff l : distinct_values l = true <-> NoDup l.
Proof.
  induction l as [|x l IH]; cbn [distinct_values]; [split; [constructor|reflexivity]|]. rewrite andb_true_iff, negb_true_iff, IH. split.
  - intros [H1 H2]. constructor; [|exact H2]. intros Hi. rewrite <- not_true_iff_false in H1. apply H1, existsb_exists. exists x. split; [exact Hi|apply opt_eqb_eq; reflexivity].
  - intros H. inversion H as [|? ? H1 H2]; subst. split; [|exact H2]. apply not_true_iff_false. intros He. apply existsb_exists in He. destruct He as (y & Hy & E).
    apply opt_eqb_eq in E. subst y. contradiction.
Qed.
Theorem constructor_accepts vs cs iv vi :
  (NoDup (map snd vs) /\ (forall v, In v (map fst vs) -> ~ In v cs) -> make_lang vs cs iv vi = Ok (MkLang vs cs iv vi)) /\
  (~ (NoDup (map snd vs) /\ (forall v, In v (map fst vs) -> ~ In v cs)) -> make_lang vs cs iv vi = Raise AssertionError).
Proof.
  unfold make_lang. assert (D := distinct_values_iff (map snd vs)).
  assert (E : existsb (fun v => in_set (fst v) cs) vs = true <-> ~ (forall v, In v (map fst vs) -> ~ In v cs)).
  { rewrite existsb_exists. split.
    - intros ((v & f) & Hv & Hc) H. cbn [fst] in Hc. apply in_set_iff in Hc. apply (H v); [|exact Hc]. apply in_map_iff. exists (v, f). auto.
    - intros H. induction vs as [|[v f] vs IH]; [exfalso; apply H; intros ? []|]. destruct (in_set v cs) eqn:Ec; [exists (v, f); split; [left; reflexivity|exact Ec]|].
      destruct IH as (w & Hw & Hc).
      + apply distinct_values_iff.
      + intros Hn. apply H. cbn [map fst]. intros w [<-|Hw]; [|apply Hn, Hw]. intros Hi. apply in_set_iff in Hi. congruence.
      + exists w. split; [right; exact Hw|exact Hc]. }
  destruct (distinct_values (map snd vs)).
  - destruct (existsb (fun v => in_set (fst v) cs) vs); split; intros H; try reflexivity; exfalso.
    + destruct H as [_ H]. exact (proj1 E eq_refl H).
    + apply H. split; [apply D; reflexivity|]. intros v Hv Hi. assert (F : false = true); [|discriminate F]. apply E. intros Hn. exact (Hn v Hv Hi).
  - split; intros H; [|reflexivity]. destruct H as [H _]. apply D in H. discriminate H.
Qed.
