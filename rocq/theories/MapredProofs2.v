From Coq Require Import Sorted.
From Verif Require Import Py PyLemmas PyStr StrSpec PyStrProofs LearnSpec LearnProofs VocabFileProofs BatchModel DbProofs MapredModel MapredSpec MapredProofs.

(** ** Plain values *)
Section Pure.
  Context {T : Type} (g : T -> T -> T) (d : T).
  Hypothesis right_id : forall a, g a d = a.

  Definition lifted (a b : T) (_ : unit) : res (T * unit) := Ok (g a b, tt).

  Lemma pure_good (data : stream T) :
    good_reduce g (fun x (_ : unit) => x) (fun _ _ => True) (snd data) (fst data) [] tt
      (ireduce lifted d (pure_src data) tt).
  Proof.
    apply ireduce_good.
    - auto.
    - intros a b L w _. exists (g a b), tt. repeat split.
    - intros a L w _. exists (g a d), tt. unfold lifted. rewrite right_id. repeat split.
    - exists (map (fun x (_ : unit) => Ok (x, tt)) (fst data)). split; [|reflexivity].
      induction (fst data) as [|x l IH]; cbn [map]; constructor; [|exact IH].
      intros L w _. exists x, tt. repeat split.
    - exact I.
  Qed.

  Lemma ireduce_pure_eq data :
    ireduce_pure (fun a b => Ok (g a b)) d data =
    match ireduce lifted d (pure_src data) tt with Ok (x, _) => Ok x | Raise e => Raise e end.
  Proof. reflexivity. Qed.

  Lemma ireduce_fold (assoc : forall a b c, g a (g b c) = g (g a b) c) x l :
    ireduce_pure (fun a b => Ok (g a b)) d (x :: l, None) = Ok (left_fold g x l).
  Proof.
    rewrite ireduce_pure_eq. pose proof (pure_good (x :: l, None)) as H. cbn [fst snd] in H. unfold good_reduce in H.
    destruct H as (c & w' & m & L & -> & <- & _ & _ & k & Hk). f_equal. unfold left_fold.
    exact (levels_fold g assoc k x l c Hk).
  Qed.
  Lemma ireduce_empty : ireduce_pure (fun a b => Ok (g a b)) d ([], None) = Raise AssertionError.
  Proof. rewrite ireduce_pure_eq. pose proof (pure_good ([], None)) as H. cbn [fst snd] in H. unfold good_reduce in H. rewrite H. reflexivity. Qed.
  Lemma ireduce_raises l e : ireduce_pure (fun a b => Ok (g a b)) d (l, Some e) = Raise e.
  Proof. rewrite ireduce_pure_eq. pose proof (pure_good (l, Some e)) as H. cbn [fst snd] in H. unfold good_reduce in H. rewrite H. reflexivity. Qed.
End Pure.

(** ** pair_subsequent on its own *)
Fixpoint mates {T} (d : T) (l : list T) : list (T * T) :=
  match l with
  | a :: b :: l' => (a, b) :: mates d l'
  | [a] => [(a, d)]
  | [] => []
  end.
Lemma pairs_all_mates {T} (d : T) : forall k l idx last fuel, length l <= k -> S (length l) < fuel -> Nat.even idx = true -> (idx = 0 \/ last <> None) ->
  pairs_all fuel d (Run idx last) (pure_src (l, None)) = (mates d l, None).
Proof.
  induction k as [|k IH]; intros l idx last fuel Hk Hfuel Hev Hlast.
  - destruct l; [|cbn in Hk; lia]. destruct fuel as [|fuel]; [lia|].
    cbn. destruct last as [x|]; [|reflexivity]. destruct (Nat.odd idx) eqn:E; [|reflexivity].
    rewrite <- Nat.negb_even, Hev in E. discriminate.
  - assert (Ho : Nat.even (S idx) = false). { rewrite Nat.even_succ, <- Nat.negb_even, Hev. reflexivity. }
    assert (He : Nat.even (S (S idx)) = true). { rewrite Nat.even_succ, Nat.odd_succ. exact Hev. }
    destruct fuel as [|fuel]; [lia|]. destruct l as [|a [|b l]].
    + cbn. destruct last as [x|]; [|reflexivity]. destruct (Nat.odd idx) eqn:E; [|reflexivity].
      rewrite <- Nat.negb_even, Hev in E. discriminate.
    + unfold pure_src. cbn [map fst snd app]. cbn [pairs_all]. unfold gen_next. cbn [pair_next pull pull_src]. rewrite Ho.
      cbn [andb]. assert (Nat.odd (S idx) = true) as ->. { rewrite <- Nat.negb_even, Ho. reflexivity. }
      destruct fuel as [|fuel]; [cbn in Hfuel; lia|]. reflexivity.
    + unfold pure_src. cbn [map fst snd app]. cbn [pairs_all]. unfold gen_next. cbn [pair_next pull pull_src]. rewrite Ho, He.
      cbn [length] in *.
      assert (H : pairs_all fuel d (Run (S (S idx)) (Some b)) (pure_src (l, None)) = (mates d l, None)).
      { apply IH; [lia|lia|exact He|right; discriminate]. }
      unfold pure_src in H. cbn [fst snd] in H. rewrite H. reflexivity.
Qed.
Lemma mates_paired {T} (d : T) : forall k l, length l <= k -> paired d l (mates d l).
Proof.
  induction k as [|k IH]; intros l Hk.
  - destruct l; [|cbn in Hk; lia]. split; [cbn; lia|]. intros [|i] a b H; discriminate H.
  - destruct l as [|a [|b l]].
    + split; [cbn; lia|]. intros [|i] a b H; discriminate H.
    + split; [cbn; lia|]. intros [|i] x y H; cbn in H; [|destruct i; discriminate H]. injection H as <- <-. cbn. auto.
    + cbn [length] in Hk. destruct (IH l) as [H1 H2]; [lia|]. split; [cbn [mates length] in *; lia|].
      intros [|i] x y H; cbn [mates nth_error] in H.
      * injection H as <- <-. cbn. auto.
      * destruct (H2 i x y H) as [H3 H4]. replace (2 * S i) with (S (S (2 * i))) by lia. cbn [nth_error]. auto.
Qed.
Lemma pair_subsequent_paired {T} (d : T) l :
  exists ps, pair_subsequent d (l, None) = (ps, None) /\ paired d l ps.
Proof.
  exists (mates d l). split; [|apply (mates_paired d (length l)); lia].
  unfold pair_subsequent. cbn [fst]. apply (pairs_all_mates d (length l)); auto.
Qed.

(** ** Word counts *)
Definition oadd (a b : option Z) : option Z :=
  match a, b with Some x, Some y => Some (x + y)%Z | Some x, None => Some x | None, b => b end.
Lemma oadd_assoc a b c : oadd a (oadd b c) = oadd (oadd a b) c.
Proof. destruct a, b, c; cbn; try reflexivity. f_equal. lia. Qed.
Lemma oadd_comm a b : oadd a b = oadd b a.
Proof. destruct a, b; cbn; try reflexivity. f_equal. lia. Qed.

Lemma merge_into_NoDup dump : forall keep, NoDup (dkeys keep) -> NoDup (dkeys (merge_into keep dump)).
Proof.
  unfold merge_into. induction dump as [|[k v] dump IH]; intros keep H; [exact H|]. cbn [fold_left].
  apply IH. apply dset_NoDup; [apply str_eqb_eq|exact H].
Qed.
Lemma merge_into_get k dump : NoDup (dkeys dump) -> forall keep,
  dget str_eqb k (merge_into keep dump) = oadd (dget str_eqb k keep) (dget str_eqb k dump).
Proof.
  unfold merge_into. induction dump as [|[k' v] dump IH]; intros Hnd keep.
  - cbn. destruct (dget str_eqb k keep); reflexivity.
  - cbn [fold_left fst snd dget]. inversion Hnd as [|? ? Hni Hnd']; subst. rewrite (IH Hnd').
    rewrite (dget_dset str_eqb str_eqb_eq). destruct (str_eqb k k') eqn:E; [|reflexivity].
    apply str_eqb_eq in E. subst k'. apply (dget_None str_eqb str_eqb_eq) in Hni. rewrite Hni.
    unfold dget_def. destruct (dget str_eqb k keep); cbn; reflexivity.
Qed.
Lemma merge_nil keep : merge_into keep [] = keep.
Proof. reflexivity. Qed.

Lemma put_same h r d : r < length h -> obj (put h r d) r = d.
Proof. revert r. induction h as [|x h IH]; intros [|r] H; cbn in *; try lia; [reflexivity|]. apply IH. lia. Qed.
Lemma put_other h r r' d : r <> r' -> obj (put h r d) r' = obj h r'.
Proof. revert r r'. induction h as [|x h IH]; intros [|r] [|r'] H; cbn in *; try reflexivity; try contradiction. apply IH. congruence. Qed.
Lemma put_length h r d : length (put h r d) = length h.
Proof. revert r. induction h as [|x h IH]; intros [|r]; cbn; auto. Qed.
Lemma obj_app h d r : r < length h -> obj (h ++ [d]) r = obj h r.
Proof. intro H. unfold obj. apply app_nth1. exact H. Qed.
Lemma obj_new h d : obj (h ++ [d]) (length h) = d.
Proof. unfold obj. rewrite app_nth2 by lia. rewrite Nat.sub_diag. reflexivity. Qed.

(** the live dicts are distinct objects, none of them is the shared default, which is empty *)
Definition heap_ok (L : list nat) (h : dheap) : Prop :=
  NoDup L /\ obj h 0 = [] /\ 0 < length h /\
  forall r, In r L -> r <> 0 /\ r < length h /\ NoDup (dkeys (obj h r)).

Definition count_at (k : str) (r : nat) (h : dheap) : option Z := dget str_eqb k (obj h r).

Lemma heap_ok_perm L L' h : Permutation L L' -> heap_ok L h -> heap_ok L' h.
Proof.
  intros Hp (H1 & H2 & H3 & H4). split; [eapply Permutation_NoDup; eauto|]. split; [exact H2|]. split; [exact H3|].
  intros r Hr. apply H4. eapply Permutation_in; [apply Permutation_sym; exact Hp|exact Hr].
Qed.
Lemma merge_keeps k keep dump L h :
  heap_ok (keep :: dump :: L) h ->
  heap_ok (keep :: L) (put h keep (merge_into (obj h keep) (obj h dump))) /\
  count_at k keep (put h keep (merge_into (obj h keep) (obj h dump))) = oadd (count_at k keep h) (count_at k dump h) /\
  frame (count_at k) L h (put h keep (merge_into (obj h keep) (obj h dump))).
Proof.
  intros (H1 & H2 & H3 & H4). inversion H1 as [|? ? Hn1 H1']; subst. inversion H1' as [|? ? Hn2 H1'']; subst.
  destruct (H4 keep (or_introl eq_refl)) as (Hk0 & Hkl & Hknd).
  destruct (H4 dump (or_intror (or_introl eq_refl))) as (Hd0 & Hdl & Hdnd).
  assert (HkL : ~ In keep L). { intro HH. apply Hn1. right. exact HH. }
  split; [|split].
  - split. { constructor; [exact HkL|exact H1'']. }
    split. { rewrite put_other; [exact H2|exact Hk0]. }
    rewrite put_length. split; [exact H3|].
    intros r [<-|Hr].
    + rewrite put_same by exact Hkl. split; [exact Hk0|]. split; [exact Hkl|]. apply merge_into_NoDup. exact Hknd.
    + destruct (H4 r (or_intror (or_intror Hr))) as (A & B & C). split; [exact A|]. split; [exact B|].
      rewrite put_other; [exact C|]. intros ->. contradiction.
  - unfold count_at. rewrite put_same by exact Hkl. apply merge_into_get. exact Hdnd.
  - intros r Hr. unfold count_at. rewrite put_other; [reflexivity|]. intros ->. contradiction.
Qed.

Lemma merge_func_ok k a b L h : heap_ok (a :: b :: L) h ->
  exists c h', merge_freqs a b h = Ok (c, h') /\ heap_ok (c :: L) h' /\
    count_at k c h' = oadd (count_at k a h) (count_at k b h) /\ frame (count_at k) L h h'.
Proof.
  intro H. unfold merge_freqs. destruct (length (obj h a) <? length (obj h b)).
  - assert (H' : heap_ok (b :: a :: L) h) by (eapply heap_ok_perm; [apply perm_swap|exact H]).
    destruct (merge_keeps k _ _ _ _ H') as (H1 & H2 & H3).
    eexists; eexists. split; [reflexivity|]. split; [exact H1|]. split; [rewrite oadd_comm; exact H2|exact H3].
  - destruct (merge_keeps k _ _ _ _ H) as (H1 & H2 & H3).
    eexists; eexists. split; [reflexivity|]. auto.
Qed.
Lemma put_id h r : r < length h -> put h r (obj h r) = h.
Proof. revert r. induction h as [|x h IH]; intros [|r] H; cbn in *; try lia; [reflexivity|]. f_equal. apply IH. lia. Qed.
Lemma merge_def a L h : heap_ok (a :: L) h -> merge_freqs a 0 h = Ok (a, h).
Proof.
  intros (H1 & H2 & H3 & H4). unfold merge_freqs. rewrite H2. cbn [length].
  assert (length (obj h a) <? 0 = false) as -> by (apply Nat.ltb_ge; lia).
  rewrite H2, merge_nil, put_id; [reflexivity|]. apply (H4 a). left. reflexivity.
Qed.

Definition line_counts (text : str) : tfs := counter_update str_eqb (split text) [].
Lemma line_counts_NoDup text : NoDup (dkeys (line_counts text)).
Proof. apply (counter_NoDup str_eqb str_eqb_eq). constructor. Qed.

(** all the objects of a heap but the default *)
Definition others (h : dheap) : list nat := seq 1 (length h - 1).
Definition heap_wf (h : dheap) : Prop := 0 < length h /\ nth 0 h [] = [] /\ Forall (fun d => NoDup (map fst d)) h.
Lemma heap_wf_ok h : heap_wf h -> heap_ok (others h) h.
Proof.
  intros (H1 & H2 & H3). split; [apply seq_NoDup|]. split; [exact H2|]. split; [exact H1|].
  intros r Hr. apply in_seq in Hr. split; [lia|]. split; [lia|]. rewrite Forall_forall in H3. apply H3. apply nth_In. lia.
Qed.
Lemma thunk_line k t : thunk_ok (count_at k) heap_ok (word_count_line t) (dget str_eqb k (line_counts t)).
Proof.
  intros L h (H1 & H2 & H3 & H4). unfold word_count_line.
  exists (length h), (h ++ [line_counts t]). split; [reflexivity|]. split; [|split].
  + split. { constructor; [|exact H1]. intro Hin. apply H4 in Hin. lia. }
    split. { rewrite obj_app; assumption. }
    rewrite app_length. cbn [length]. split; [lia|]. intros r [<-|Hr].
    * split; [lia|]. split; [lia|]. rewrite obj_new. apply line_counts_NoDup.
    * destruct (H4 r Hr) as (A & B & C). split; [exact A|]. split; [lia|]. rewrite obj_app; assumption.
  + unfold count_at. rewrite obj_new. reflexivity.
  + intros r Hr. unfold count_at. rewrite obj_app; [reflexivity|]. apply (H4 r Hr).
Qed.
Lemma word_counter_good k h lines : heap_wf h ->
  good_reduce oadd (count_at k) heap_ok None (map (fun t => dget str_eqb k (line_counts t)) lines) (others h) h (word_counter h lines).
Proof.
  intro Hwf. unfold word_counter. apply ireduce_good.
  - exact heap_ok_perm.
  - intros a b L h'. apply merge_func_ok.
  - intros a L h' H. exists a, h'. split; [eapply merge_def; exact H|]. split; [exact H|]. split; [reflexivity|apply frame_refl].
  - exists (map word_count_line lines). split; [|rewrite app_nil_r; reflexivity].
    induction lines as [|t lines IH]; cbn [map]; constructor; [apply thunk_line|exact IH].
  - apply heap_wf_ok. exact Hwf.
Qed.

(** the same with the whole dicts as values: objects that exist before the call are not changed *)
Definition merge_dicts (a b : tfs) : tfs := if length a <? length b then merge_into b a else merge_into a b.
Definition dict_at (r : nat) (h : dheap) : tfs := obj h r.
Lemma merge_func_dict a b L h : heap_ok (a :: b :: L) h ->
  exists c h', merge_freqs a b h = Ok (c, h') /\ heap_ok (c :: L) h' /\
    dict_at c h' = merge_dicts (dict_at a h) (dict_at b h) /\ frame dict_at L h h'.
Proof.
  intro H. unfold merge_freqs, merge_dicts, dict_at.
  assert (HL : forall r, In r L -> a <> r /\ b <> r).
  { destruct H as (H1 & _). inversion H1 as [|? ? Hn1 H1']; subst. inversion H1' as [|? ? Hn2 H1'']; subst.
    intros r Hr. split; intros ->; [apply Hn1; right; exact Hr|contradiction]. }
  destruct (length (obj h a) <? length (obj h b)).
  - assert (H' : heap_ok (b :: a :: L) h) by (eapply heap_ok_perm; [apply perm_swap|exact H]).
    destruct (merge_keeps [] _ _ _ _ H') as (H1 & _).
    eexists; eexists. split; [reflexivity|]. split; [exact H1|]. split.
    + apply put_same. destruct H' as (_ & _ & _ & H4). apply (H4 b). left. reflexivity.
    + intros r Hr. apply put_other. apply HL. exact Hr.
  - destruct (merge_keeps [] _ _ _ _ H) as (H1 & _).
    eexists; eexists. split; [reflexivity|]. split; [exact H1|]. split.
    + apply put_same. destruct H as (_ & _ & _ & H4). apply (H4 a). left. reflexivity.
    + intros r Hr. apply put_other. apply HL. exact Hr.
Qed.
Lemma thunk_line_dict t : thunk_ok dict_at heap_ok (word_count_line t) (line_counts t).
Proof.
  intros L h Hok. destruct (thunk_line [] t L h Hok) as (c & h' & E & H1 & _ & _).
  exists c, h'. split; [exact E|]. split; [exact H1|]. unfold word_count_line in E. injection E as <- <-.
  split; [apply obj_new|]. intros r Hr. apply obj_app. apply Hok. exact Hr.
Qed.
Lemma word_counter_dicts h lines : heap_wf h ->
  good_reduce merge_dicts dict_at heap_ok None (map line_counts lines) (others h) h (word_counter h lines).
Proof.
  intro Hwf. unfold word_counter. apply ireduce_good.
  - exact heap_ok_perm.
  - intros a b L h'. apply merge_func_dict.
  - intros a L h' H. exists a, h'. split; [eapply merge_def; exact H|]. split; [exact H|]. split; [reflexivity|apply frame_refl].
  - exists (map word_count_line lines). split; [|rewrite app_nil_r; reflexivity].
    induction lines as [|t lines IH]; cbn [map]; constructor; [apply thunk_line_dict|exact IH].
  - apply heap_wf_ok. exact Hwf.
Qed.

(** the sum over the lines *)
Definition ocount (k : str) (toks : list str) : option Z :=
  if in_dec str_dec k toks then Some (occurrences k toks) else None.
Lemma occurrences_app k a b : occurrences k (a ++ b) = (occurrences k a + occurrences k b)%Z.
Proof. unfold occurrences. rewrite count_occ_app. lia. Qed.
Lemma occurrences_notin k a : ~ In k a -> occurrences k a = 0%Z.
Proof. intro H. unfold occurrences. apply (count_occ_not_In str_dec) in H. rewrite H. reflexivity. Qed.
Lemma ocount_app k a b : ocount k (a ++ b) = oadd (ocount k a) (ocount k b).
Proof.
  unfold ocount. destruct (in_dec str_dec k (a ++ b)) as [H|H], (in_dec str_dec k a) as [Ha|Ha], (in_dec str_dec k b) as [Hb|Hb];
    rewrite in_app_iff in H; try tauto; cbn [oadd]; rewrite ?occurrences_app; try reflexivity.
  - rewrite (occurrences_notin k b Hb). f_equal. lia.
  - rewrite (occurrences_notin k a Ha). f_equal.
Qed.
Lemma line_counts_get k t : dget str_eqb k (line_counts t) = ocount k (split t).
Proof.
  unfold line_counts, ocount. pose proof (counter_exact (split t)) as [Hf Hc].
  destruct (in_dec str_dec k (split t)) as [H|H].
  - destruct Hf as (_ & Hkeys & _) || idtac.
    destruct (dget str_eqb k (counter_update str_eqb (split t) [])) as [v|] eqn:E.
    + f_equal. apply Hc. apply (dget_In str_eqb str_eqb_eq). exact E.
    + exfalso. apply (dget_None str_eqb str_eqb_eq) in E. apply E.
      apply (counter_first_seen str_eqb str_eqb_eq). exact H.
  - apply (dget_None str_eqb str_eqb_eq). intro Hin. apply H.
    apply (counter_first_seen str_eqb str_eqb_eq). exact Hin.
Qed.
Lemma fold_ocount k lines : forall toks,
  fold_left oadd (map (fun t => dget str_eqb k (line_counts t)) lines) (ocount k toks) =
  ocount k (toks ++ concat (map split lines)).
Proof.
  induction lines as [|t lines IH]; intro toks; cbn [map fold_left concat].
  - rewrite app_nil_r. reflexivity.
  - rewrite line_counts_get, <- ocount_app, IH, app_assoc. reflexivity.
Qed.
Lemma counts_of_get toks d : NoDup (dkeys d) -> (forall k, dget str_eqb k d = ocount k toks) -> counts_of toks d.
Proof.
  intros Hnd Hg. split; [exact Hnd|]. intros w n. split.
  - intro Hin. apply (In_dget str_eqb str_eqb_eq) in Hin; [|exact Hnd]. rewrite Hg in Hin. unfold ocount in Hin.
    destruct (in_dec str_dec w toks) as [H|H]; [|discriminate]. injection Hin as <-. auto.
  - intros [-> H]. apply (dget_In str_eqb str_eqb_eq). rewrite Hg. unfold ocount.
    destruct (in_dec str_dec w toks); [reflexivity|contradiction].
Qed.

Lemma words_split lines wss : Forall2 words_of lines wss -> concat (map split lines) = concat wss.
Proof. induction 1 as [|l ws lines wss H _ IH]; [reflexivity|]. cbn. rewrite (split_words_of _ _ H), IH. reflexivity. Qed.

Lemma word_counter_exact h line lines wss :
  heap_wf h -> Forall2 words_of (line :: lines) wss ->
  exists r h', word_counter h (line :: lines) = Ok (r, h') /\ length h <= r < length h' /\
    counts_of (concat wss) (nth r h' []) /\ (forall r', r' < length h -> nth r' h' [] = nth r' h []).
Proof.
  intros Hwf Hw. apply words_split in Hw.
  pose proof (word_counter_dicts h (line :: lines) Hwf) as H0. unfold good_reduce in H0. cbn [map] in H0.
  destruct H0 as (r & h' & m & L & E & _ & Hok & Hf & _).
  exists r, h'. split; [exact E|].
  assert (Hr : ~ In r (others h)).
  { destruct Hok as (Hnd & _). inversion Hnd as [|? ? Hn _]; subst. intro Hin. apply Hn. apply in_or_app. right. exact Hin. }
  destruct Hok as (_ & Hd & _ & H4). destruct (H4 r (or_introl eq_refl)) as (A & B & C).
  split. { split; [|exact B]. unfold others in Hr. rewrite in_seq in Hr. destruct Hwf. lia. }
  split.
  - apply counts_of_get; [exact C|]. intro k.
    pose proof (word_counter_good k h (line :: lines) Hwf) as Hk. unfold good_reduce in Hk. cbn [map] in Hk.
    destruct Hk as (r2 & h2 & m' & L' & E' & Hm & _ & _ & n & Hl). rewrite E in E'. injection E' as <- <-.
    apply (levels_fold oadd oadd_assoc) in Hl. unfold count_at, obj in Hm. rewrite Hm, Hl, line_counts_get, fold_ocount, <- Hw. reflexivity.
  - intros [|r'] Hr'.
    + destruct Hwf as (_ & Hz & _). unfold obj in Hd. rewrite Hz. exact Hd.
    + apply (Hf (S r')). apply in_seq. lia.
Qed.

Lemma word_counter_empty h : word_counter h [] = Raise AssertionError.
Proof. reflexivity. Qed.

(** the same on values *)
Definition merge_lift (a b : tfs) (_ : unit) : res (tfs * unit) :=
  match merge_freqs_val a b with Ok c => Ok (c, tt) | Raise e => Raise e end.
Definition vals_ok (L : list tfs) (_ : unit) : Prop := Forall (fun d => NoDup (dkeys d)) L.
Lemma word_counter_val_good k lines :
  good_reduce oadd (fun d (_ : unit) => dget str_eqb k d) vals_ok None (map (fun t => dget str_eqb k (line_counts t)) lines) [] tt
    (ireduce merge_lift [] (pure_src (map line_counts lines, None)) tt).
Proof.
  apply ireduce_good.
  - intros L L' w Hp H. unfold vals_ok in *. eapply Permutation_Forall; eauto.
  - intros a b L w H. inversion H as [|? ? Ha H']; subst. inversion H' as [|? ? Hb HL]; subst.
    unfold merge_lift, merge_freqs_val. eexists; exists tt. split; [reflexivity|]. destruct (length a <? length b).
    + split; [constructor; [apply merge_into_NoDup; exact Hb|exact HL]|].
      split; [rewrite merge_into_get by exact Ha; apply oadd_comm|intros x _; reflexivity].
    + split; [constructor; [apply merge_into_NoDup; exact Ha|exact HL]|].
      split; [apply merge_into_get; exact Hb|intros x _; reflexivity].
  - intros a L w H. unfold merge_lift, merge_freqs_val. exists a, tt. cbn [length].
    assert (length a <? 0 = false) as -> by (apply Nat.ltb_ge; lia).
    split; [reflexivity|]. split; [exact H|]. split; [reflexivity|intros x _; reflexivity].
  - exists (map (fun x (_ : unit) => Ok (x, tt)) (map line_counts lines)). split; [|reflexivity].
    induction lines as [|t lines IH]; cbn [map]; constructor; [|exact IH].
    intros L w H. exists (line_counts t), tt. split; [reflexivity|]. split; [constructor; [apply line_counts_NoDup|exact H]|].
    split; [reflexivity|intros x _; reflexivity].
  - constructor.
Qed.
Lemma word_counter_procs_exact mp rp line lines wss :
  (1 <= mp)%Z -> (1 <= rp)%Z -> Forall2 words_of (line :: lines) wss ->
  exists d, word_counter_procs mp rp (line :: lines) = Ok d /\ counts_of (concat wss) d.
Proof.
  intros Hmp Hrp Hw. apply words_split in Hw. unfold word_counter_procs.
  apply Z.leb_le in Hmp. apply Z.leb_le in Hrp. rewrite Hmp, Hrp. cbn [andb].
  change (ireduce_pure merge_freqs_val [] (map (fun text => counter_update str_eqb (split text) []) (line :: lines), None))
    with (match ireduce merge_lift [] (pure_src (map line_counts (line :: lines), None)) tt with Ok (x, _) => Ok x | Raise e => Raise e end).
  pose proof (word_counter_val_good [] (line :: lines)) as H0. unfold good_reduce in H0.
  cbn [map] in H0. destruct H0 as (d & u & m & L & E & _ & Hok & _ & _). cbn [map]. rewrite E. exists d. split; [reflexivity|].
  inversion Hok as [|? ? Hnd _]; subst. apply counts_of_get; [exact Hnd|]. intro k.
  pose proof (word_counter_val_good k (line :: lines)) as Hk. unfold good_reduce in Hk. cbn [map] in Hk.
  destruct Hk as (d' & u' & m' & L' & E' & Hm & _ & _ & n & Hl). rewrite E in E'. injection E' as <- <-.
  apply (levels_fold oadd oadd_assoc) in Hl. cbn beta in Hm. rewrite Hm, Hl, line_counts_get, fold_ocount, <- Hw. reflexivity.
Qed.

(** merge_freqs adds pointwise *)
Lemma merge_freqs_adds a b h : a <> b -> a < length h -> b < length h ->
  NoDup (map fst (nth a h [])) -> NoDup (map fst (nth b h [])) ->
  exists c h', merge_freqs a b h = Ok (c, h') /\ (c = a \/ c = b) /\
    (forall k, dget_def str_eqb k 0%Z (nth c h' []) = (dget_def str_eqb k 0 (nth a h []) + dget_def str_eqb k 0 (nth b h []))%Z) /\
    (forall r, r <> c -> nth r h' [] = nth r h []).
Proof.
  intros Hab Ha Hb Hna Hnb. unfold merge_freqs. fold (obj h a) (obj h b) in *.
  assert (Hadd : forall k x y, NoDup (dkeys y) -> dget_def str_eqb k 0%Z (merge_into x y) = (dget_def str_eqb k 0 x + dget_def str_eqb k 0 y)%Z).
  { intros k x y Hy. unfold dget_def. rewrite merge_into_get by exact Hy.
    destruct (dget str_eqb k x), (dget str_eqb k y); cbn; lia. }
  destruct (length (obj h a) <? length (obj h b)).
  - eexists; eexists. split; [reflexivity|]. split; [right; reflexivity|]. split.
    + intro k. change (nth b ?h' []) with (obj h' b). rewrite put_same by exact Hb. rewrite Hadd by exact Hna. apply Z.add_comm.
    + intros r Hr. apply (put_other h b r). congruence.
  - eexists; eexists. split; [reflexivity|]. split; [left; reflexivity|]. split.
    + intro k. change (nth a ?h' []) with (obj h' a). rewrite put_same by exact Ha. rewrite Hadd by exact Hnb. reflexivity.
    + intros r Hr. apply (put_other h a r). congruence.
Qed.

Lemma desc_sorted (l : list (str * Z)) : desc snd l -> StronglySorted (fun a b => (snd b <= snd a)%Z) l.
Proof.
  induction 1 as [|x l Hx Hl IH]; constructor; [exact IH|]. apply Forall_forall. exact Hx.
Qed.
Lemma main_counts_exact line lines wss :
  Forall2 words_of (line :: lines) wss ->
  exists d, main_counts (line :: lines) = Ok d /\ counts_of (concat wss) d /\
            StronglySorted (fun a b => (snd b <= snd a)%Z) d.
Proof.
  intros Hw. destruct (word_counter_procs_exact 2 2 line lines wss) as (d & Ed & Hd); [lia|lia|exact Hw|].
  exists (sorted_desc snd d). unfold main_counts. rewrite Ed. split; [reflexivity|]. split.
  - destruct Hd as [H1 H2]. pose proof (sorted_desc_perm snd d) as Hp. split.
    + eapply Permutation_NoDup; [apply Permutation_map; symmetry; exact Hp|exact H1].
    + intros w n. rewrite <- H2. split; apply Permutation_in; [exact Hp|symmetry; exact Hp].
  - apply desc_sorted, sorted_desc_desc.
Qed.
