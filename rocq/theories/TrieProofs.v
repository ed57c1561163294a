(** The prefix trie (dstruct.py TrNode, codec.py:448-455) as a map from names. *)
From Coq Require Import Strings.String.
From Verif Require Import Py PyLemmas PyStr StrSpec PyStrProofs CodecModel CodecSpec FlatProofs.
Local Open Scope list_scope.
Local Open Scope res_scope.

Definition look (p : str) (n : trnode) : option Typ :=
  match tr_get p n with Ok m => tr_data m | Raise _ => None end.
Definition node_at (p : str) (n : trnode) : Prop := exists m, tr_get p n = Ok m.

Lemma N_eqb_eq' a b : N.eqb a b = true <-> a = b. Proof. apply N.eqb_eq. Qed.

Lemma tr_get_app p q n :
  tr_get (p ++ q) n = match tr_get p n with Ok m => tr_get q m | Raise e => Raise e end.
Proof.
  revert n; induction p as [|c p IH]; intros n; simpl; [reflexivity|].
  destruct (dget N.eqb c (tr_kids n)); [apply IH|reflexivity].
Qed.

Lemma look_insert p q t n :
  look p (tr_insert q t n) = if str_dec p q then Some t else look p n.
Proof.
  unfold look. revert p n. induction q as [|c q IH]; intros p n.
  - simpl. destruct p as [|d p]; [reflexivity|]. simpl.
    destruct (str_dec (d :: p) []); [discriminate|reflexivity].
  - destruct p as [|d p].
    + simpl. destruct (str_dec [] (c :: q)); [discriminate|reflexivity].
    + simpl. rewrite (dget_dset N.eqb N_eqb_eq'). destruct (N.eqb_spec d c) as [->|Hn].
      * rewrite IH.
        destruct (str_dec p q) as [Hp|Hp];
          destruct (str_dec (c :: p) (c :: q)) as [E|E]; try congruence; try reflexivity.
        destruct (dget N.eqb c (tr_kids n)); [reflexivity|].
        destruct p; reflexivity.
      * destruct (str_dec (d :: p) (c :: q)) as [E|E]; [congruence|].
        reflexivity.
Qed.

Definition prefix_of (p w : str) : Prop := exists r, w = p ++ r.

Lemma node_at_insert p q t n :
  node_at p (tr_insert q t n) <-> node_at p n \/ prefix_of p q.
Proof.
  unfold node_at. revert p n. induction q as [|c q IH]; intros p n.
  - simpl. destruct p as [|d p]; simpl.
    + split; [intros _; left; eexists; reflexivity|intros _; eexists; reflexivity].
    + split; [intros H; left; exact H|]. intros [H|[r H]]; [exact H|discriminate].
  - destruct p as [|d p].
    + simpl. split; [intros _; left; eexists; reflexivity|intros _; eexists; reflexivity].
    + simpl. rewrite (dget_dset N.eqb N_eqb_eq'). destruct (N.eqb_spec d c) as [->|Hn].
      * rewrite IH. destruct (dget N.eqb c (tr_kids n)) as [k|].
        -- split; intros [H|[r H]]; auto.
           ++ right. exists r. simpl. congruence.
           ++ right. exists r. simpl in H. congruence.
        -- split; intros [H|[r H]].
           ++ destruct p as [|e p]; [|destruct H as [m H]; discriminate H].
              right. exists q. reflexivity.
           ++ right. exists r. simpl. congruence.
           ++ destruct H as [m H]; discriminate H.
           ++ right. exists r. simpl in H. congruence.
      * split; [intros H; left; exact H|]. intros [H|[r H]]; [exact H|]. simpl in H. congruence.
Qed.

(** ** building *)
Definition build (n : trnode) (vocab : list Typ) : trnode :=
  fold_left (fun n t => tr_insert (t_name t) t n) vocab n.

Lemma look_empty p : look p tr_empty = None.
Proof. destruct p; reflexivity. Qed.

(** [last_named vocab w t]: t is the last entry named w. *)
Definition last_named (vocab : list Typ) (w : str) (t : Typ) : Prop :=
  exists a b, vocab = a ++ t :: b /\ t_name t = w /\ ~ has_name b w.

Lemma has_name_app a b w : has_name (a ++ b) w <-> has_name a w \/ has_name b w.
Proof.
  rewrite !has_name_map, map_app, in_app_iff. reflexivity.
Qed.

Lemma look_build vocab w t :
  look w (build tr_empty vocab) = Some t <-> last_named vocab w t.
Proof.
  revert t. induction vocab as [|x vocab IH] using rev_ind; intros t.
  - simpl. rewrite look_empty. split; [discriminate|]. intros (a & b & E & _). destruct a; discriminate.
  - unfold build. rewrite fold_left_app. simpl. rewrite look_insert.
    destruct (str_dec w (t_name x)) as [->|Hn].
    + split.
      * intros H. injection H as <-. exists vocab, []. repeat split. intros (u & [] & _).
      * intros (a & b & E & Ht & Hb). destruct b as [|y b] using rev_ind.
        -- apply app_inj_tail in E as [_ ->]. reflexivity.
        -- rewrite app_comm_cons, app_assoc in E. apply app_inj_tail in E as [_ <-].
           exfalso. apply Hb. apply has_name_app. right. exists x. simpl; auto.
    + fold (build tr_empty vocab). rewrite IH. split; intros (a & b & E & Ht & Hb).
      * subst vocab. exists a, (b ++ [x]). rewrite <- app_assoc. repeat split; auto.
        rewrite has_name_app. intros [H|(u & [<-|[]] & H)]; [tauto|congruence].
      * destruct b as [|y b _] using rev_ind.
        -- apply app_inj_tail in E as [_ ->]. congruence.
        -- rewrite app_comm_cons, app_assoc in E. apply app_inj_tail in E as [-> <-].
           exists a, b. repeat split; auto. rewrite has_name_app in Hb. tauto.
Qed.
Lemma look_build_none vocab w : look w (build tr_empty vocab) = None <-> ~ has_name vocab w.
Proof.
  induction vocab as [|x vocab IH] using rev_ind.
  - simpl. rewrite look_empty. split; [intros _ (t & [] & _)|reflexivity].
  - unfold build. rewrite fold_left_app. simpl. rewrite look_insert, has_name_app.
    destruct (str_dec w (t_name x)) as [->|Hn].
    + split; [discriminate|]. intros H. exfalso. apply H. right. exists x; simpl; auto.
    + fold (build tr_empty vocab). rewrite IH. split; [|tauto].
      intros H [H1|(u & [<-|[]] & H1)]; [tauto|congruence].
Qed.
Lemma node_at_build vocab p :
  node_at p (build tr_empty vocab) <-> p = [] \/ exists w, has_name vocab w /\ prefix_of p w.
Proof.
  induction vocab as [|x vocab IH] using rev_ind.
  - unfold node_at. simpl. destruct p; simpl.
    + split; [auto|]. intros _; eexists; reflexivity.
    + split; [intros [m H]; discriminate|]. intros [H|(w & (t & [] & _) & _)]; discriminate.
  - unfold build. rewrite fold_left_app. simpl. rewrite node_at_insert.
    fold (build tr_empty vocab). rewrite IH. split.
    + intros [[H|(w & Hw & Hp)]|Hp]; auto.
      * right. exists w. rewrite has_name_app. auto.
      * right. exists (t_name x). rewrite has_name_app. split; [|exact Hp]. right. exists x; simpl; auto.
    + intros [H|(w & Hw & Hp)]; auto. rewrite has_name_app in Hw.
      destruct Hw as [Hw|(u & [<-|[]] & <-)]; [left; right; exists w; auto|auto].
Qed.

Lemma make_trie_inv vocab root :
  make_vocab_prefix_trie vocab = Ok root <-> root = build tr_empty vocab /\ ~ has_name vocab [].
Proof.
  unfold make_vocab_prefix_trie. fold (build tr_empty vocab).
  pose proof (look_build_none vocab []) as H. unfold look in H. simpl in H.
  destruct (tr_data (build tr_empty vocab)) eqn:E; simpl.
  - split; [discriminate|]. intros [_ Hn]. apply H in Hn. discriminate.
  - split; [intros Hr; injection Hr as <-|intros [-> _]; reflexivity].
    split; [reflexivity|]. apply H; reflexivity.
Qed.

(** ** counting *)
Section TrInd.
  Variable P : trnode -> Prop.
  Hypothesis H : forall d ks, (forall c k, In (c, k) ks -> P k) -> P (TrNode d ks).
  Fixpoint trnode_ind2 (n : trnode) : P n :=
    match n with
    | TrNode d ks =>
        H d ks ((fix go (l : list (N * trnode)) : forall c k, In (c, k) l -> P k :=
                   match l with
                   | [] => fun c k H => match H with end
                   | (c0, k0) :: l' => fun c k Hin =>
                       match Hin with
                       | or_introl E => eq_ind k0 P (trnode_ind2 k0) k (f_equal snd E)
                       | or_intror Hin' => go l' c k Hin'
                       end
                   end) ks)
    end.
End TrInd.

Inductive wf_tr : trnode -> Prop :=
| Wf d ks : NoDup (map fst ks) -> (forall c k, In (c, k) ks -> wf_tr k) -> wf_tr (TrNode d ks).

Lemma wf_tr_kids n : wf_tr n -> NoDup (map fst (tr_kids n)) /\ (forall c k, In (c, k) (tr_kids n) -> wf_tr k).
Proof. intros H; inversion H; subst; simpl; auto. Qed.

Lemma In_dset_N {V} c (v : V) d c' v' :
  In (c', v') (dset N.eqb c v d) -> (c' = c /\ v' = v) \/ In (c', v') d.
Proof.
  induction d as [|[x y] d IH]; simpl.
  - intros [E|[]]. injection E as <- <-. auto.
  - destruct (N.eqb_spec c x) as [->|Hn]; simpl.
    + intros [E|E]; [injection E as <- <-; auto|auto].
    + intros [E|E]; [auto|]. destruct (IH E); auto.
Qed.

Lemma wf_insert q t n : wf_tr n -> wf_tr (tr_insert q t n).
Proof.
  revert n. induction q as [|c q IH]; intros n Hn; destruct (wf_tr_kids n Hn) as [H1 H2]; simpl.
  - constructor; assumption.
  - constructor.
    + apply (dset_NoDup N.eqb N_eqb_eq'). exact H1.
    + intros c' k' Hin. apply In_dset_N in Hin as [[-> ->]|Hin].
      * apply IH. destruct (dget N.eqb c (tr_kids n)) as [k|] eqn:E.
        -- apply (dget_In N.eqb N_eqb_eq') in E. eapply H2; eauto.
        -- constructor; [constructor|intros ? ? []].
      * eapply H2; eauto.
Qed.
Lemma wf_build vocab : wf_tr (build tr_empty vocab).
Proof.
  induction vocab as [|x vocab IH] using rev_ind; simpl.
  - constructor; [constructor|intros ? ? []].
  - unfold build. rewrite fold_left_app. simpl. apply wf_insert, IH.
Qed.

(** all paths of a trie, and those carrying data *)
Fixpoint paths (n : trnode) : list str :=
  match n with
  | TrNode _ ks =>
      [] :: (fix go (l : list (N * trnode)) : list str :=
               match l with [] => [] | (c, k) :: l' => map (cons c) (paths k) ++ go l' end) ks
  end.
Fixpoint dpaths (n : trnode) : list str :=
  match n with
  | TrNode d ks =>
      (match d with Some _ => [[]] | None => [] end) ++
      (fix go (l : list (N * trnode)) : list str :=
         match l with [] => [] | (c, k) :: l' => map (cons c) (dpaths k) ++ go l' end) ks
  end.
Definition kids_paths (f : trnode -> list str) (ks : list (N * trnode)) : list str :=
  flat_map (fun ck => map (cons (fst ck)) (f (snd ck))) ks.
Lemma paths_eq d ks : paths (TrNode d ks) = [] :: kids_paths paths ks.
Proof.
  simpl. f_equal. induction ks as [|[c k] ks IH]; simpl; [reflexivity|]. rewrite IH; reflexivity.
Qed.
Lemma dpaths_eq d ks :
  dpaths (TrNode d ks) = (match d with Some _ => [[]] | None => [] end) ++ kids_paths dpaths ks.
Proof.
  simpl. f_equal. induction ks as [|[c k] ks IH]; simpl; [reflexivity|]. rewrite IH; reflexivity.
Qed.

Lemma In_kids_paths f ks p :
  In p (kids_paths f ks) <-> exists c q k, p = c :: q /\ In (c, k) ks /\ In q (f k).
Proof.
  unfold kids_paths. rewrite in_flat_map. split.
  - intros ([c k] & Hin & Hp). apply in_map_iff in Hp as (q & <- & Hq). exists c, q, k. auto.
  - intros (c & q & k & -> & Hin & Hq). exists (c, k). split; [exact Hin|]. apply in_map_iff. exists q; auto.
Qed.
Lemma NoDup_map_inj {A B} (f : A -> B) l :
  (forall x y, f x = f y -> x = y) -> NoDup l -> NoDup (map f l).
Proof.
  intros Hf. induction 1 as [|x l Hx Hl IH]; simpl; constructor; [|exact IH].
  intros H. apply in_map_iff in H as (y & E & Hy). apply Hf in E as ->. contradiction.
Qed.
Lemma NoDup_app_intro {A} (l1 l2 : list A) :
  NoDup l1 -> NoDup l2 -> (forall x, In x l1 -> In x l2 -> False) -> NoDup (l1 ++ l2).
Proof.
  induction 1 as [|x l Hx Hl IH]; simpl; intros H2 Hd; [exact H2|].
  constructor.
  - rewrite in_app_iff. intros [H|H]; [contradiction|]. eapply Hd; [left; reflexivity|exact H].
  - apply IH; [exact H2|]. intros y H H'. eapply Hd; [right; exact H|exact H'].
Qed.
Lemma NoDup_kids_paths f ks :
  NoDup (map fst ks) -> (forall c k, In (c, k) ks -> NoDup (f k)) -> NoDup (kids_paths f ks).
Proof.
  induction ks as [|[c k] ks IH]; simpl; intros Hnd Hf; [constructor|].
  inversion Hnd as [|? ? Hni Hnd']; subst.
  apply NoDup_app_intro.
  - apply NoDup_map_inj; [congruence|]. eapply Hf; left; reflexivity.
  - apply IH; [exact Hnd'|]. intros c' k' H. eapply Hf; right; exact H.
  - intros p H1 H2. apply in_map_iff in H1 as (q & <- & _).
    apply In_kids_paths in H2 as (c' & q' & k' & E & Hin & _). injection E as -> ->.
    apply Hni. apply in_map_iff. exists (c', k'). auto.
Qed.

Lemma paths_spec n : wf_tr n ->
  NoDup (paths n) /\ (forall p, In p (paths n) <-> node_at p n) /\ length (paths n) = tr_size n.
Proof.
  induction n as [d ks IH] using trnode_ind2. intros Hwf.
  inversion Hwf as [? ? Hnd Hk]; subst.
  rewrite paths_eq. split; [|split].
  - constructor.
    + intros H. apply In_kids_paths in H as (c & q & k & E & _). discriminate.
    + apply NoDup_kids_paths; [exact Hnd|]. intros c k Hin. apply (IH c k Hin), (Hk c k Hin).
  - intros p. simpl. rewrite In_kids_paths. unfold node_at. split.
    + intros [<-|(c & q & k & -> & Hin & Hq)]; [eexists; reflexivity|].
      simpl. rewrite (In_dget N.eqb N_eqb_eq' c k ks Hnd Hin).
      apply (IH c k Hin); [eapply Hk; eauto|exact Hq].
    + destruct p as [|c p]; [auto|]. simpl.
      destruct (dget N.eqb c ks) as [k|] eqn:E; [|intros [m H]; discriminate].
      intros H. right. exists c, p, k. apply (dget_In N.eqb N_eqb_eq') in E.
      split; [reflexivity|]. split; [exact E|]. apply (IH c k E); [eapply Hk; eauto|exact H].
  - simpl. f_equal. unfold kids_paths.
    assert (Hl : forall c k, In (c, k) ks -> length (paths k) = tr_size k).
    { intros c k Hin. apply (IH c k Hin), (Hk c k Hin). }
    clear -Hl. induction ks as [|[c k] ks IHks]; simpl; [reflexivity|].
    rewrite app_length, map_length. f_equal; [apply (Hl c k); left; reflexivity|].
    apply IHks. intros c' k' H. eapply Hl; right; exact H.
Qed.
Lemma dpaths_spec n : wf_tr n ->
  NoDup (dpaths n) /\ (forall p, In p (dpaths n) <-> look p n <> None) /\
  length (dpaths n) = tr_data_count n.
Proof.
  induction n as [d ks IH] using trnode_ind2. intros Hwf.
  inversion Hwf as [? ? Hnd Hk]; subst.
  rewrite dpaths_eq. split; [|split].
  - apply NoDup_app_intro.
    + destruct d; repeat constructor. intros [].
    + apply NoDup_kids_paths; [exact Hnd|]. intros c k Hin. apply (IH c k Hin), (Hk c k Hin).
    + intros p H1 H2. destruct d; [destruct H1 as [<-|[]]|destruct H1].
      apply In_kids_paths in H2 as (c & q & k & E & _). discriminate.
  - intros p. rewrite in_app_iff, In_kids_paths. unfold look. split.
    + intros [H|(c & q & k & -> & Hin & Hq)].
      * destruct d; [destruct H as [<-|[]]|destruct H]. simpl. discriminate.
      * simpl. rewrite (In_dget N.eqb N_eqb_eq' c k ks Hnd Hin).
        apply (IH c k Hin) in Hq; [exact Hq|eapply Hk; eauto].
    + destruct p as [|c p]; simpl.
      * intros H. left. destruct d; [left; reflexivity|contradiction].
      * destruct (dget N.eqb c ks) as [k|] eqn:E; [|congruence].
        intros H. right. exists c, p, k. apply (dget_In N.eqb N_eqb_eq') in E.
        split; [reflexivity|]. split; [exact E|]. apply (IH c k E); [eapply Hk; eauto|exact H].
  - simpl. rewrite app_length. f_equal; [destruct d; reflexivity|]. unfold kids_paths.
    assert (Hl : forall c k, In (c, k) ks -> length (dpaths k) = tr_data_count k).
    { intros c k Hin. apply (IH c k Hin), (Hk c k Hin). }
    clear -Hl. induction ks as [|[c k] ks IHks]; simpl; [reflexivity|].
    rewrite app_length, map_length. f_equal; [apply (Hl c k); left; reflexivity|].
    apply IHks. intros c' k' H. eapply Hl; right; exact H.
Qed.

(** *** C14 *)
Lemma trie_is_map vocab root :
  make_vocab_prefix_trie vocab = Ok root ->
  (forall w t, (exists m, tr_get w root = Ok m /\ tr_data m = Some t) <-> last_named vocab w t) /\
  (exists names, NoDup names /\ (forall w, In w names <-> has_name vocab w) /\
                 tr_data_count root = length names) /\
  (exists pre, NoDup pre /\
     (forall p, In p pre <-> p = [] \/ exists w, has_name vocab w /\ prefix_of p w) /\
     tr_size root = length pre).
Proof.
  intros H. apply make_trie_inv in H as [-> Hne]. split; [|split].
  - intros w t. rewrite <- look_build. unfold look. split.
    + intros (m & -> & H); exact H.
    + destruct (tr_get w (build tr_empty vocab)) as [m|e]; [|discriminate]. intros H; exists m; auto.
  - exists (dpaths (build tr_empty vocab)). destruct (dpaths_spec _ (wf_build vocab)) as (H1 & H2 & H3).
    split; [exact H1|]. split; [|symmetry; exact H3]. intros w. rewrite H2, look_build_none.
    split.
    + intros H. destruct (has_name_dec vocab w); tauto.
    + tauto.
  - exists (paths (build tr_empty vocab)). destruct (paths_spec _ (wf_build vocab)) as (H1 & H2 & H3).
    split; [exact H1|]. split; [|symmetry; exact H3]. intros p. rewrite H2. apply node_at_build.
Qed.
Lemma trie_accepts vocab :
  (exists root, make_vocab_prefix_trie vocab = Ok root) <-> ~ has_name vocab [].
Proof.
  split.
  - intros [root H]. apply make_trie_inv in H. tauto.
  - intros H. exists (build tr_empty vocab). apply make_trie_inv. auto.
Qed.
