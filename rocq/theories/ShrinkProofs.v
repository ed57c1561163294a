(** Proofs about shrink_vocab. *)
From Coq Require Import Strings.String.
From Verif Require Import Py PyLemmas PyStr StrSpec PyStrProofs CodecModel CodecSpec FlatProofs TrieProofs BpeProofs
     JsonProofs VocabFileModel VocabSpec VocabFileProofs LearnModel LearnSpec LearnProofs ShrinkModel ShrinkSpec.
Local Open Scope Z_scope.
Local Open Scope list_scope.

Lemma Forall2_impl {A B} (P Q : A -> B -> Prop) l l' : (forall a b, P a b -> Q a b) -> Forall2 P l l' -> Forall2 Q l l'.
Proof. induction 2; constructor; auto. Qed.

(** ** Lists of flags *)
Definition set_at {A} (l : list A) (k : nat) (v : A) : list A := firstn k l ++ v :: skipn (S k) l.
Lemma set_at_length {A} (l : list A) k v : (k < length l)%nat -> length (set_at l k v) = length l.
Proof. intros H. unfold set_at. rewrite app_length, firstn_length, Nat.min_l by lia. cbn [length]. rewrite skipn_length. lia. Qed.
Lemma set_at_nth {A} (l : list A) k v i d : (k < length l)%nat -> nth i (set_at l k v) d = if Nat.eqb i k then v else nth i l d.
Proof.
  intros H. unfold set_at. destruct (Nat.eqb_spec i k) as [->|Hn].
  - rewrite app_nth2; rewrite firstn_length, Nat.min_l by lia; [|lia]. rewrite Nat.sub_diag. reflexivity.
  - destruct (Nat.lt_ge_cases i k).
    + rewrite app_nth1 by (rewrite firstn_length; lia). rewrite <- (firstn_skipn k l) at 2. rewrite app_nth1 by (rewrite firstn_length; lia). reflexivity.
    + rewrite app_nth2; rewrite firstn_length, Nat.min_l by lia; [|lia]. destruct (i - k)%nat as [|j] eqn:E; [lia|]. cbn [nth].
      rewrite <- (firstn_skipn (S k) l) at 2. rewrite app_nth2; rewrite firstn_length, Nat.min_l by lia; [|lia]. f_equal. lia.
Qed.
Lemma py_nth_nth {A} (l : list A) (n : nat) d : (n < length l)%nat -> py_nth l (Z.of_nat n) = Ok (nth n l d).
Proof. intros H. apply py_nth_of_nat. rewrite (nth_error_nth' l d H). reflexivity. Qed.
Lemma py_set_nat {A} (l : list A) (n : nat) v : (n < length l)%nat -> py_set l (Z.of_nat n) v = Ok (set_at l n v).
Proof.
  intros H. unfold py_set, py_index. rewrite (proj2 (Z.leb_le _ _)) by lia. rewrite (proj2 (Z.ltb_lt _ _)) by lia. rewrite Nat2Z.id. reflexivity.
Qed.

Section Removal.
  Variables (table : list Typ) (count : Z -> Z) (min_freq : Z).
  Hypothesis Hwi : well_indexed table.
  Hypothesis Hke : kids_earlier table.
  Let N := length table.
  Let stay i := stays table count min_freq (Z.of_nat i).

  Lemma kid_pos n t k : nth_error table n = Some t -> In k (kids_of t) ->
    exists m, (m < n)%nat /\ nth_error table m = Some k /\ t_idx k = Z.of_nat m.
  Proof. intros Hn Hk. destruct (Hke n t Hn) as [_ H]. destruct (H k Hk) as (m & Hm & Em). exists m. split; [exact Hm|]. split; [exact Em|]. apply Hwi, Em. Qed.

  (** rem: flags after the entries from position j on were handled *)
  Definition handled (j : nat) (rem : list bool) : Prop :=
    length rem = N /\
    (forall i, nth i rem true = false -> stay i) /\
    (forall n t, nth_error table n = Some t -> t_level t = -1 \/ min_freq <= count (Z.of_nat n) -> nth n rem true = false) /\
    (forall n t k m, (j <= n)%nat -> nth_error table n = Some t -> nth n rem true = false -> In k (kids_of t) -> t_idx k = Z.of_nat m -> nth m rem true = false).

  Lemma spare_pieces_ok n t rem : handled (S n) rem -> nth_error table n = Some t -> nth n rem true = false ->
    exists rem', foldM spare_piece (kids_of t) rem = Ok rem' /\ handled n rem'.
  Proof.
    intros Hh Hn Hf.
    assert (G : forall ks done rem, kids_of t = done ++ ks -> handled (S n) rem -> nth n rem true = false ->
              (forall k m, In k done -> t_idx k = Z.of_nat m -> nth m rem true = false) ->
              exists rem', foldM spare_piece ks rem = Ok rem' /\ handled n rem').
    { clear rem Hh Hf. induction ks as [|k ks IH]; intros done rem E Hh Hf Hd.
      - exists rem. split; [reflexivity|]. destruct Hh as (H1 & H2 & H3 & H4). split; [exact H1|]. split; [exact H2|]. split; [exact H3|].
        intros n' t' k m Hge Hn' Hf' Hk Hm. destruct (Nat.eq_dec n' n) as [->|Hne].
        + rewrite Hn in Hn'. injection Hn' as <-. rewrite app_nil_r in E. rewrite E in Hk. apply (Hd k m Hk Hm).
        + apply (H4 n' t' k m); try assumption. lia.
      - assert (Hk : In k (kids_of t)) by (rewrite E; apply in_app_iff; right; left; reflexivity).
        destruct (kid_pos n t k Hn Hk) as (m & Hm & Em & Eidx). pose proof Hh as (H1 & H2 & H3 & H4).
        assert (Hl : (m < length rem)%nat) by (rewrite H1; apply nth_error_Some; congruence).
        cbn [foldM]. unfold spare_piece at 1. rewrite Eidx, (py_nth_nth rem m true Hl). cbn [bind].
        assert (Hst : stay m).
        { assert (Hs := H2 n Hf). unfold stay in *. rewrite <- Eidx. eapply st_kid; eassumption. }
        destruct (nth m rem true) eqn:Er.
        + rewrite (py_set_nat rem m false Hl). apply (IH (done ++ [k])).
          * rewrite <- app_assoc. exact E.
          * assert (Hnew : forall i, nth i (set_at rem m false) true = false <-> i = m \/ nth i rem true = false).
            { intros i. rewrite set_at_nth by exact Hl. destruct (Nat.eqb_spec i m) as [->|Hne]; [tauto|]. split; [auto|]. intros [H|H]; [contradiction|exact H]. }
            split; [rewrite set_at_length by exact Hl; exact H1|]. split; [|split].
            -- intros i Hi. apply Hnew in Hi. destruct Hi as [->|Hi]; [exact Hst|apply H2, Hi].
            -- intros n' t' Hn' Hb. apply Hnew. right. eapply H3; eassumption.
            -- intros n' t' k' m' Hge Hn' Hf' Hk' Hm'. apply Hnew. right. apply Hnew in Hf'. destruct Hf' as [->|Hf']; [lia|].
               eapply H4; eassumption.
          * rewrite set_at_nth by exact Hl. destruct (Nat.eqb n m); [reflexivity|exact Hf].
          * intros k' m' Hk' Hm'. rewrite set_at_nth by exact Hl. destruct (Nat.eqb_spec m' m) as [->|Hne]; [reflexivity|].
            apply in_app_iff in Hk'. destruct Hk' as [Hk'|[<-|[]]]; [apply (Hd k' m' Hk' Hm')|]. exfalso. lia.
        + apply (IH (done ++ [k])); [rewrite <- app_assoc; exact E|exact Hh|exact Hf|].
          intros k' m' Hk' Hm'. apply in_app_iff in Hk'. destruct Hk' as [Hk'|[<-|[]]]; [apply (Hd k' m' Hk' Hm')|].
          assert (m' = m) by lia. subst m'. exact Er. }
    apply (G (kids_of t) [] rem eq_refl Hh Hf). intros k m [].
  Qed.
  Lemma spare_kids_ok n t rem : handled (S n) rem -> nth_error table n = Some t ->
    exists rem', spare_kids rem (Z.of_nat n, t) = Ok rem' /\ handled n rem'.
  Proof.
    intros Hh Hn. unfold spare_kids. rewrite (Hwi n t Hn), Z.eqb_refl. cbn [assert_ bind].
    assert (Hl : (n < length rem)%nat) by (destruct Hh as (H1 & _); rewrite H1; apply nth_error_Some; congruence).
    rewrite (py_nth_nth rem n true Hl). cbn [bind]. destruct (nth n rem true) eqn:Er; [|apply spare_pieces_ok; assumption].
    exists rem. split; [reflexivity|]. destruct Hh as (H1 & H2 & H3 & H4). split; [exact H1|]. split; [exact H2|]. split; [exact H3|].
    intros n' t' k m Hge Hn' Hf' Hk Hm. destruct (Nat.eq_dec n' n) as [->|Hne]; [congruence|]. apply (H4 n' t' k m); try assumption. lia.
  Qed.
  Lemma spare_prefix pre : forall suf rem, table = pre ++ suf -> handled (length pre) rem ->
    exists rem', foldM spare_kids (rev (enumerate pre)) rem = Ok rem' /\ handled 0 rem'.
  Proof.
    induction pre as [|t pre IH] using rev_ind; intros suf rem E Hh; [exists rem; split; [reflexivity|exact Hh]|].
    unfold enumerate. rewrite enum_from_app, rev_app_distr. cbn [enum_from rev app foldM].
    rewrite app_length in Hh. cbn [length] in Hh. rewrite Nat.add_1_r in Hh.
    assert (Hn : nth_error table (length pre) = Some t) by (rewrite E, <- app_assoc, nth_error_app2, Nat.sub_diag by lia; reflexivity).
    destruct (spare_kids_ok _ t rem Hh Hn) as (rem1 & E1 & H1). rewrite Z.add_0_l. rewrite E1. apply (IH (t :: suf)); [rewrite E, <- app_assoc; reflexivity|exact H1].
  Qed.
  Lemma initial_handled freqs : (forall i, dget_def Z.eqb i 0 freqs = count i) -> handled N (initial_removals table freqs min_freq).
  Proof.
    intros Hc. unfold initial_removals, enumerate.
    assert (Hnth : forall i, nth i (map (fun it : Z * Typ => if t_level (snd it) =? L_reserved then false else dget_def Z.eqb (fst it) 0 freqs <? min_freq) (enum_from 0 table)) true =
              match nth_error table i with Some t => if t_level t =? L_reserved then false else count (Z.of_nat i) <? min_freq | None => true end).
    { intros i. destruct (nth_error table i) as [t|] eqn:Et.
      - apply nth_error_nth. rewrite nth_error_map, enum_from_nth, Et. cbn [option_map fst snd]. rewrite Hc. reflexivity.
      - apply nth_overflow. rewrite map_length, enum_from_length. apply nth_error_None, Et. }
    split; [rewrite map_length, enum_from_length; reflexivity|]. split; [|split].
    - intros i. rewrite Hnth. destruct (nth_error table i) as [t|] eqn:Et; [|discriminate]. unfold L_reserved. destruct (Z.eqb_spec (t_level t) (-1)) as [El|_].
      + intros _. eapply st_reserved; eassumption.
      + intros Hf. apply Z.ltb_ge in Hf. eapply st_frequent; eassumption.
    - intros n t Hn Hb. rewrite Hnth, Hn. unfold L_reserved. destruct (Z.eqb_spec (t_level t) (-1)); [reflexivity|]. destruct Hb as [Hb|Hb]; [contradiction|]. apply Z.ltb_ge, Hb.
    - intros n t k m Hge Hn. assert (n < N)%nat by (apply nth_error_Some; congruence). lia.
  Qed.
  Lemma handled_exact rem : handled 0 rem -> forall i, nth i rem true = false <-> stay i.
  Proof.
    intros (H1 & H2 & H3 & H4) i. split; [apply H2|]. unfold stay. remember (Z.of_nat i) as z eqn:Ez. intros Hs. revert i Ez.
    induction Hs as [n t Hn Hl|n t Hn Hf|n t k Hs IH Hn Hk]; intros i Ez.
    - apply Nat2Z.inj in Ez. subst i. eapply H3; eauto.
    - apply Nat2Z.inj in Ez. subst i. eapply H3; eauto.
    - eapply (H4 n t k i); [lia|exact Hn|apply IH; reflexivity|exact Hk|exact Ez].
  Qed.
  Lemma spare_all_ok freqs : (forall i, dget_def Z.eqb i 0 freqs = count i) ->
    exists rem, spare_all table (initial_removals table freqs min_freq) = Ok rem /\ length rem = N /\
      forall i, nth i rem true = false <-> stay i.
  Proof.
    intros Hc. unfold spare_all. destruct (spare_prefix table [] _ (eq_sym (app_nil_r _)) (initial_handled freqs Hc)) as (rem & E & Hh).
    exists rem. split; [exact E|]. split; [apply Hh|]. apply handled_exact, Hh.
  Qed.

  (** ** The mapping *)
  Definition kept_ids (rem : list bool) : list Z :=
    map Z.of_nat (filter (fun i => negb (nth i rem true)) (List.seq 0 N)).
  Lemma mapping_ok rem : length rem = N -> mapping_of rem table = Ok (kept_ids rem).
  Proof.
    intros Hl. unfold mapping_of.
    assert (G : forall pre suf, table = pre ++ suf ->
              foldM (fun mapping (it : Z * (bool * Typ)) => let '(idx, (is_remove, typ)) := it in
                 bind (assert_ (idx =? t_idx typ)) (fun _ => if is_remove then Ok mapping else Ok (mapping ++ [idx])))
                (enumerate (combine rem pre)) [] =
              Ok (map Z.of_nat (filter (fun i => negb (nth i rem true)) (List.seq 0 (length pre))))).
    { induction pre as [|t pre IH] using rev_ind; intros suf E; [destruct rem; reflexivity|].
      assert (Hlt : (length pre < length rem)%nat) by (rewrite Hl; unfold N; rewrite E, !app_length; cbn [length]; lia).
      assert (Ec : combine rem (pre ++ [t]) = combine rem pre ++ [(nth (length pre) rem true, t)]).
      { rewrite <- (firstn_skipn (length pre) rem) at 1 2.
        destruct (skipn (length pre) rem) as [|b rest] eqn:Es; [assert (H := f_equal (@length _) Es); rewrite skipn_length in H; cbn [length] in H; lia|].
        assert (Hfl : length (firstn (length pre) rem) = length pre) by (rewrite firstn_length; lia).
        assert (Hb : nth (length pre) rem true = b).
        { rewrite <- (firstn_skipn (length pre) rem), Es, app_nth2 by lia. rewrite Hfl, Nat.sub_diag. reflexivity. }
        rewrite Hb. clear - Hfl. revert Hfl. generalize (firstn (length pre) rem). intros l. revert l.
        induction pre as [|p pre IH]; intros [|x l] Hfl; try discriminate Hfl; [destruct rest; reflexivity|].
        cbn [app combine]. f_equal. apply IH. cbn [length] in Hfl. lia. }
      rewrite Ec. unfold enumerate. rewrite enum_from_app, foldM_app. fold (enumerate (combine rem pre)).
      rewrite (IH (t :: suf)) by (rewrite E, <- app_assoc; reflexivity). cbn [bind enum_from foldM].
      assert (Hcl : length (combine rem pre) = length pre) by (rewrite combine_length; lia).
      rewrite Hcl, Z.add_0_l. rewrite (Hwi (length pre) t) by (rewrite E, <- app_assoc, nth_error_app2, Nat.sub_diag by lia; reflexivity).
      rewrite Z.eqb_refl. cbn [assert_ bind]. rewrite app_length. cbn [length]. rewrite Nat.add_1_r, seq_S, filter_app, map_app. cbn [filter Nat.add].
      destruct (nth (length pre) rem true); cbn [negb map]; [rewrite app_nil_r|]; reflexivity. }
    apply (G table []). symmetry. apply app_nil_r.
  Qed.
  Lemma kept_increasing rem : increasing (kept_ids rem).
  Proof.
    unfold kept_ids. generalize N at 1. intros n. generalize 0%nat at 1. induction n as [|n IH]; intros a; [exact I|]. cbn [List.seq filter].
    destruct (negb (nth a rem true)); [|apply IH]. cbn [map increasing]. split; [|apply IH].
    intros y Hy. apply in_map_iff in Hy. destruct Hy as (m & <- & Hm). apply filter_In in Hm. destruct Hm as [Hm _]. apply in_seq in Hm. lia.
  Qed.
  Lemma kept_in rem : length rem = N -> (forall i, nth i rem true = false <-> stay i) ->
    forall i, In i (kept_ids rem) <-> stays table count min_freq i.
  Proof.
    intros Hl Hs i. unfold kept_ids. rewrite in_map_iff. split.
    - intros (m & <- & Hm). apply filter_In in Hm. destruct Hm as [_ Hm]. apply Hs. apply negb_true_iff, Hm.
    - intros H. assert (Hn : exists n, i = Z.of_nat n).
      { destruct H as [n t Hn _|n t Hn _|n t k _ Hn Hk]; [exists n; reflexivity|exists n; reflexivity|]. destruct (kid_pos n t k Hn Hk) as (m & _ & _ & E). exists m. exact E. }
      destruct Hn as (n & ->). apply Hs in H. exists n. split; [reflexivity|]. apply filter_In. split; [|rewrite H; reflexivity].
      apply in_seq. destruct (Nat.lt_ge_cases n N) as [Hlt|Hge]; [lia|]. rewrite nth_overflow in H by lia. discriminate.
  Qed.
End Removal.

(** ** Renumbering *)
Lemma increasing_nth l : increasing l -> forall a b x y, nth_error l a = Some x -> nth_error l b = Some y -> (a < b)%nat <-> x < y.
Proof.
  induction l as [|z l IH]; intros Hi a b x y Ha Hb; [destruct a; discriminate|]. destruct Hi as [H1 H2].
  destruct a as [|a], b as [|b]; cbn in Ha, Hb.
  - injection Ha as <-. injection Hb as <-. lia.
  - injection Ha as <-. apply nth_error_In in Hb. specialize (H1 y Hb). lia.
  - injection Hb as <-. apply nth_error_In in Ha. specialize (H1 x Ha). lia.
  - specialize (IH H2 a b x y Ha Hb). lia.
Qed.
Lemma increasing_NoDup l : increasing l -> NoDup l.
Proof. induction l as [|x l IH]; intros H; constructor; [intros Hx; destruct H as [H _]; specialize (H x Hx); lia|apply IH, H]. Qed.
Lemma rev_mapping_get mapping : NoDup mapping -> forall i j,
  dget Z.eqb i (rev_mapping_of mapping) = Some j <-> 0 <= j /\ nth_error mapping (Z.to_nat j) = Some i.
Proof.
  intros Hnd i j.
  assert (G : forall m, NoDup m -> rev_mapping_of m = map (fun it => (snd it, fst it)) (enumerate m)).
  { induction m as [|x m IH] using rev_ind; intros H; [reflexivity|]. unfold rev_mapping_of, enumerate in *. rewrite enum_from_app, fold_left_app, map_app. cbn [enum_from fold_left map fst snd].
    apply NoDup_remove in H. rewrite app_nil_r in H. destruct H as [H1 H2]. rewrite (IH H1). apply (dset_fresh Z.eqb Z.eqb_eq).
    unfold dkeys. rewrite map_map. cbn [fst snd]. rewrite enum_from_snd. exact H2. }
  rewrite (G _ Hnd). clear G.
  assert (Hk : NoDup (dkeys (map (fun it : Z * Z => (snd it, fst it)) (enumerate mapping)))) by (unfold dkeys, enumerate; rewrite map_map; cbn [fst snd]; rewrite enum_from_snd; exact Hnd).
  split.
  - intros H. apply (dget_In Z.eqb Z.eqb_eq) in H. apply in_map_iff in H. destruct H as ([a b] & E & H). cbn [fst snd] in E. injection E as -> ->.
    apply In_nth_error in H. destruct H as (n & Hn). unfold enumerate in Hn. rewrite enum_from_nth in Hn. destruct (nth_error mapping n) as [x|] eqn:Ex; [|discriminate].
    cbn [option_map] in Hn. injection Hn as <- <-. split; [lia|]. rewrite Nat2Z.id. exact Ex.
  - intros [Hj Hn]. apply (In_dget Z.eqb Z.eqb_eq _ _ _ Hk). apply in_map_iff. exists (j, i). split; [reflexivity|].
    apply (nth_error_In _ (Z.to_nat j)). unfold enumerate. rewrite enum_from_nth, Hn. cbn [option_map]. f_equal. f_equal. lia.
Qed.

Lemma renumber_ok table mapping : well_indexed table -> kids_earlier table -> increasing mapping ->
  (forall i, In i mapping -> valid_id table i) ->
  (forall i t k, In i mapping -> nth_error table (Z.to_nat i) = Some t -> In k (kids_of t) -> In (t_idx k) mapping) ->
  exists new, renumber table mapping = Ok new /\ renumbered table mapping new.
Proof.
  intros Hwi Hke Hinc Hval Hcl. unfold renumber. pose proof (increasing_NoDup _ Hinc) as Hnd.
  set (good := fun (pre : list Z) (new : list Typ) => length new = length pre /\
    forall n i, nth_error pre n = Some i ->
    exists t t', 0 <= i /\ nth_error table (Z.to_nat i) = Some t /\ nth_error new n = Some t' /\
      t_name t' = t_name t /\ t_level t' = t_level t /\ t_freq t' = t_freq t /\ t_idx t' = Z.of_nat n /\
      t_kids t' <> Some [] /\
      Forall2 (fun k k' => exists m, nth_error mapping m = Some (t_idx k) /\ nth_error new m = Some k') (kids_of t) (kids_of t')).
  assert (G : forall pre suf, mapping = pre ++ suf -> exists new, foldM (renumber_step table (rev_mapping_of mapping)) (enumerate pre) [] = Ok new /\ good pre new).
  { induction pre as [|i pre IH] using rev_ind; intros suf E.
    { exists []. split; [reflexivity|]. split; [reflexivity|]. intros [|n] i H; discriminate. }
    destruct (IH (i :: suf)) as (new & Enew & Hlen & Hg); [rewrite E, <- app_assoc; reflexivity|].
    unfold enumerate in *. rewrite enum_from_app, foldM_app, Enew. cbn [bind enum_from foldM]. rewrite Z.add_0_l. unfold renumber_step at 1.
    rewrite Hlen, Z.eqb_refl. cbn [assert_ bind].
    assert (Hi : In i mapping) by (rewrite E; rewrite !in_app_iff; left; right; left; reflexivity).
    assert (Hpos : nth_error mapping (length pre) = Some i) by (rewrite E, <- app_assoc, nth_error_app2, Nat.sub_diag by lia; reflexivity).
    pose proof (Hval i Hi) as [Hi0 Hi1]. destruct (nth_error table (Z.to_nat i)) as [t|] eqn:Et; [|apply nth_error_None in Et; lia].
    assert (Hpy : py_nth table i = Ok t).
    { replace i with (Z.of_nat (Z.to_nat i)) by lia. apply py_nth_of_nat, Et. }
    rewrite Hpy. cbn [bind].
    assert (Hkids : forall ks, incl ks (kids_of t) -> exists ks', mapM (fun k => match dget Z.eqb (t_idx k) (rev_mapping_of mapping) with Some j => py_nth new j | None => Raise KeyError end) ks = Ok ks' /\
              Forall2 (fun k k' => exists m, nth_error mapping m = Some (t_idx k) /\ nth_error new m = Some k') ks ks').
    { induction ks as [|k ks IHk]; intros Hinc'; [exists []; split; [reflexivity|constructor]|].
      destruct IHk as (ks' & Em & Hf); [intros x Hx; apply Hinc'; right; exact Hx|].
      assert (Hk : In k (kids_of t)) by (apply Hinc'; left; reflexivity).
      pose proof (Hcl i t k Hi Et Hk) as Hkm. apply In_nth_error in Hkm. destruct Hkm as (m & Hm).
      destruct (Hke _ _ Et) as [_ Hkk]. destruct (Hkk k Hk) as (p & Hp & Ep). pose proof (Hwi _ _ Ep) as Eidx.
      assert (Hml : (m < length pre)%nat) by (apply (increasing_nth _ Hinc m (length pre) _ _ Hm Hpos); lia).
      assert (Ed : dget Z.eqb (t_idx k) (rev_mapping_of mapping) = Some (Z.of_nat m)).
      { apply (rev_mapping_get mapping Hnd). rewrite Nat2Z.id. split; [lia|exact Hm]. }
      destruct (nth_error new m) as [k'|] eqn:Ek'; [|apply nth_error_None in Ek'; lia].
      exists (k' :: ks'). cbn [mapM]. rewrite Ed, (proj2 (py_nth_of_nat new m k') Ek'), Em. split; [reflexivity|]. constructor; [eauto|exact Hf]. }
    destruct (Hkids (kids_of t) (fun x Hx => Hx)) as (ks' & Em & Hf).
    set (nk := match kids_of t with [] => None | _ => Some ks' end).
    assert (Enk : match kids_of t with
                  | [] => Ok None
                  | _ => bind (mapM (fun k => match dget Z.eqb (t_idx k) (rev_mapping_of mapping) with Some j => py_nth new j | None => Raise KeyError end) (kids_of t)) (fun nk => Ok (Some nk)) end = Ok nk).
    { unfold nk. destruct (kids_of t) eqn:Ekt; [reflexivity|]. rewrite Em. reflexivity. }
    match goal with |- context [bind ?X _] => replace X with (Ok nk) end. cbn [bind].
    2:{ rewrite <- Enk. destruct (kids_of t); reflexivity. }
    eexists. split; [reflexivity|]. split; [rewrite !app_length, Hlen; reflexivity|].
    intros n j Hnj. destruct (Nat.lt_ge_cases n (length pre)) as [Hl|Hl].
    - rewrite nth_error_app1 in Hnj by exact Hl. destruct (Hg n j Hnj) as (u & u' & G0 & G1 & G2 & G3 & G4 & G5 & G6 & G7 & G8).
      exists u, u'. rewrite nth_error_app1 by lia. repeat (split; [assumption|]).
      eapply Forall2_impl; [|exact G8]. intros k k' (m & M1 & M2). exists m. split; [exact M1|]. rewrite nth_error_app1; [exact M2|]. apply nth_error_Some. congruence.
    - assert (n = length pre).
      { assert (Hx : nth_error (pre ++ [i]) n <> None) by congruence. apply nth_error_Some in Hx. rewrite app_length in Hx. cbn [length] in Hx. lia. }
      subst n. rewrite nth_error_app2, Nat.sub_diag in Hnj by lia. injection Hnj as <-. exists t. eexists. split; [exact Hi0|]. split; [exact Et|].
      split; [rewrite nth_error_app2 by lia; rewrite Hlen, Nat.sub_diag; reflexivity|]. cbn [t_name t_level t_freq t_idx t_kids].
      repeat (split; [reflexivity|]). unfold kids_of at 2. cbn [t_kids]. unfold nk.
      destruct (kids_of t) as [|k ks] eqn:Ekt; [split; [discriminate|constructor]|].
      split; [intros H; inversion H; subst ks'; inversion Hf|].
      eapply Forall2_impl; [|exact Hf]. intros k0 k' (m & M1 & M2). exists m. split; [exact M1|]. rewrite nth_error_app1; [exact M2|]. apply nth_error_Some. congruence. }
  destruct (G mapping [] (eq_sym (app_nil_r _))) as (new & E & Hg). exists new. split; [exact E|exact Hg].
Qed.

(** *** shrink_table *)
Theorem shrink_table_ok table freqs count min_freq : well_indexed table -> kids_earlier table ->
  (forall i, dget_def Z.eqb i 0 freqs = count i) -> freqs <> [] -> (forall i, In i (dkeys freqs) -> i < Z.of_nat (length table)) ->
  exists mapping new, shrink_table table freqs min_freq = Ok (mapping, new) /\
    increasing mapping /\ (forall i, In i mapping <-> stays table count min_freq i) /\ renumbered table mapping new.
Proof.
  intros Hwi Hke Hc Hne Hr. unfold shrink_table.
  assert (Hmx : exists mx, py_max (dkeys freqs) = Ok mx) by (destruct freqs as [|[k v] freqs]; [contradiction|eexists; reflexivity]).
  destruct Hmx as (mx & Emx). rewrite Emx. cbn [bind]. apply py_max_spec in Emx. destruct Emx as [Hin _]. specialize (Hr mx Hin).
  rewrite Z.gtb_ltb, (proj2 (Z.ltb_lt _ _) Hr). cbn [assert_ bind].
  destruct (spare_all_ok table count min_freq Hwi Hke freqs Hc) as (rem & Erem & Hl & Hs). rewrite Erem. cbn [bind].
  rewrite (mapping_ok table count min_freq Hwi rem Hl). cbn [bind].
  pose proof (kept_in table count min_freq Hwi Hke rem Hl Hs) as Hk. pose proof (kept_increasing table count min_freq rem) as Hinc.
  assert (Hval : forall i, In i (kept_ids table rem) -> valid_id table i).
  { intros i Hi. unfold kept_ids in Hi. apply in_map_iff in Hi. destruct Hi as (m & <- & Hm). apply filter_In in Hm. destruct Hm as [Hm _]. apply in_seq in Hm. unfold valid_id. lia. }
  destruct (renumber_ok table (kept_ids table rem) Hwi Hke Hinc Hval) as (new & Enew & Hren).
  { intros i t k Hi Ht Hkid. apply Hk. apply Hk in Hi. pose proof (Hval i (proj2 (Hk i) Hi)) as [H0 _]. eapply (st_kid _ _ _ (Z.to_nat i)); [rewrite Z2Nat.id by exact H0; exact Hi|exact Ht|exact Hkid]. }
  rewrite Enew. cbn [bind]. exists (kept_ids table rem), new. auto.
Qed.

(** ** From lines to frequencies *)
Lemma id_freqs_ok s lines enc : mapM (encode s) lines = Ok enc ->
  id_freqs s lines = Ok (fold_left (fun d ids => counter_update Z.eqb ids d) enc []).
Proof.
  unfold id_freqs. generalize (@nil (Z * Z)). revert enc. induction lines as [|l lines IH]; intros enc d H; cbn [mapM] in H.
  - injection H as <-. reflexivity.
  - destruct (encode s l) as [ids|e] eqn:E; [|discriminate]. cbn [bind] in H. destruct (mapM (encode s) lines) as [enc'|e'] eqn:Em; [|discriminate].
    injection H as <-. cbn [foldM fold_left]. rewrite E. cbn [bind]. apply IH. reflexivity.
Qed.
Lemma id_freqs_raise s lines e : mapM (encode s) lines = Raise e -> id_freqs s lines = Raise e.
Proof.
  unfold id_freqs. generalize (@nil (Z * Z)). induction lines as [|l lines IH]; intros d H; cbn [mapM] in H; [discriminate|].
  cbn [foldM]. destruct (encode s l) as [ids|e'] eqn:E; cbn [bind] in *; [|congruence]. destruct (mapM (encode s) lines) as [enc'|e'] eqn:Em; [discriminate|].
  apply IH. exact H.
Qed.
Lemma counters_concat enc : forall d, fold_left (fun d ids => counter_update Z.eqb ids d) enc d = counter_update Z.eqb (concat enc) d.
Proof. induction enc as [|x enc IH]; intros d; [reflexivity|]. cbn [fold_left concat]. rewrite IH, counter_app. reflexivity. Qed.

Theorem shrink_ok s lines enc min_freq : well_indexed (s_table s) -> kids_earlier (s_table s) ->
  mapM (encode s) lines = Ok enc -> (forall i, In i (concat enc) -> i < Z.of_nat (length (s_table s))) -> concat enc <> [] ->
  exists mapping new, shrink_vocab s lines min_freq = Ok (mapping, new) /\ increasing mapping /\
    (forall i, In i mapping <-> stays (s_table s) (id_count enc) min_freq i) /\ renumbered (s_table s) mapping new.
Proof.
  intros Hwi Hke Henc Hr Hne. unfold shrink_vocab. rewrite (id_freqs_ok _ _ _ Henc). cbn [bind]. rewrite counters_concat.
  apply shrink_table_ok; try assumption.
  - intros i. rewrite (counter_get Z.eqb Z.eq_dec Z.eqb_eq). reflexivity.
  - intros H. destruct (concat enc) as [|i l] eqn:E; [contradiction|].
    assert (Hin : In i (dkeys (counter_update Z.eqb (i :: l) []))) by (apply (counter_first_seen Z.eqb Z.eqb_eq); left; reflexivity).
    rewrite H in Hin. exact Hin.
  - intros i Hi. apply (proj1 (proj2 (counter_first_seen Z.eqb Z.eqb_eq (concat enc)))) in Hi. apply Hr, Hi.
Qed.
Theorem shrink_no_tokens s lines enc min_freq : mapM (encode s) lines = Ok enc -> concat enc = [] ->
  shrink_vocab s lines min_freq = Raise ValueError.
Proof. intros Henc E. unfold shrink_vocab. rewrite (id_freqs_ok _ _ _ Henc). cbn [bind]. rewrite counters_concat, E. reflexivity. Qed.

Lemma nth_error_ext' {A} (l l' : list A) : (forall n, nth_error l n = nth_error l' n) -> l = l'.
Proof.
  revert l'. induction l as [|x l IH]; intros [|y l'] H; [reflexivity|discriminate (H 0%nat)|discriminate (H 0%nat)|].
  assert (E := H 0%nat). injection E as ->. f_equal. apply IH. intros n. apply (H (S n)).
Qed.

(** ** The shrunk table as a vocabulary *)
Section Shrunk.
  Variables (table : list Typ) (mapping : list Z) (new : list Typ).
  Hypothesis Hinc : increasing mapping.
  Hypothesis Hren : renumbered table mapping new.

  Lemma new_at n t' : nth_error new n = Some t' -> exists i t, 0 <= i /\ nth_error mapping n = Some i /\ nth_error table (Z.to_nat i) = Some t /\
    t_name t' = t_name t /\ t_level t' = t_level t /\ t_freq t' = t_freq t /\ t_idx t' = Z.of_nat n /\ t_kids t' <> Some [] /\
    Forall2 (fun k k' => exists m, nth_error mapping m = Some (t_idx k) /\ nth_error new m = Some k') (kids_of t) (kids_of t').
  Proof.
    intros H. destruct Hren as [Hl Hr]. destruct (nth_error mapping n) as [i|] eqn:E.
    - destruct (Hr n i E) as (t & t2 & G0 & G1 & G2 & G3). rewrite H in G2. injection G2 as <-. exists i, t. tauto.
    - apply nth_error_None in E. assert (n < length new)%nat by (apply nth_error_Some; congruence). lia.
  Qed.
  Lemma new_name_at j w : name_at new j w <-> exists i, translates mapping j i /\ name_at table i w.
  Proof.
    split.
    - intros (Hj & t' & Ht & Hw). destruct (new_at _ _ Ht) as (i & t & G0 & G1 & G2 & G3 & _). exists i. split; [split; assumption|].
      split; [exact G0|]. exists t. split; [exact G2|congruence].
    - intros (i & [Hj Hm] & Hi & t & Ht & Hw). destruct Hren as [_ Hr]. destruct (Hr _ _ Hm) as (t2 & t' & G0 & G1 & G2 & G3 & _).
      split; [exact Hj|]. exists t'. split; [exact G2|]. rewrite Ht in G1. injection G1 as <-. congruence.
  Qed.
  Lemma new_has_name w : has_name new w -> has_name table w.
  Proof. intros H. apply has_name_at in H. destruct H as (j & H). apply new_name_at in H. destruct H as (i & _ & H). eapply name_at_has, H. Qed.
  Lemma new_well_indexed : well_indexed new.
  Proof. intros n t' H. destruct (new_at _ _ H) as (i & t & G). tauto. Qed.
  Lemma new_kids_earlier : well_indexed table -> kids_earlier table -> kids_earlier new.
  Proof.
    intros Hwi Hke n t' H. destruct (new_at _ _ H) as (i & t & G0 & G1 & G2 & _ & _ & _ & _ & G7 & G8). split; [exact G7|].
    intros k' Hk'. destruct (Hke _ _ G2) as [_ Hk].
    assert (Hx : exists k, In k (kids_of t) /\ exists m, nth_error mapping m = Some (t_idx k) /\ nth_error new m = Some k').
    { clear - G8 Hk'. induction G8 as [|k k2 ks ks2 Hm _ IH]; [destruct Hk'|]. destruct Hk' as [<-|Hk']; [exists k; split; [left; reflexivity|exact Hm]|].
      destruct (IH Hk') as (k3 & H1 & H2). exists k3. split; [right; exact H1|exact H2]. }
    destruct Hx as (k & Hin & m & Hm & Hn). exists m. split; [|exact Hn]. destruct (Hk k Hin) as (p & Hp & Ep). pose proof (Hwi _ _ Ep) as Ei.
    apply (increasing_nth _ Hinc m n _ _ Hm G1). lia.
  Qed.
  Lemma new_distinct : distinct_names table -> distinct_names new.
  Proof.
    intros Hd. unfold distinct_names. apply NoDup_nth_error. intros a b Ha Hab. rewrite map_length in Ha.
    destruct (nth_error new a) as [ta|] eqn:Ea; [|apply nth_error_None in Ea; lia]. rewrite !nth_error_map, Ea in Hab. cbn [option_map] in Hab.
    destruct (nth_error new b) as [tb|] eqn:Eb; [|discriminate]. cbn [option_map] in Hab. injection Hab as Hab.
    destruct (new_at _ _ Ea) as (i & t & G0 & G1 & G2 & G3 & _). destruct (new_at _ _ Eb) as (j & u & F0 & F1 & F2 & F3 & _).
    assert (Eij : i = j). { apply (name_at_inj table i j (t_name ta) Hd); [split; [exact G0|]; exists t; split; [exact G2|congruence]|split; [exact F0|]; exists u; split; [exact F2|congruence]]. }
    subst j. pose proof (increasing_NoDup _ Hinc) as Hnd. rewrite NoDup_nth_error in Hnd. apply Hnd; [apply nth_error_Some; congruence|congruence].
  Qed.
  Lemma new_bid w : In (bid table w) mapping -> nth_error mapping 1 = Some 1 -> translates mapping (bid new w) (bid table w).
  Proof.
    intros Hin H1. destruct (has_name_dec table w) as [Hw|Hw].
    - destruct (bid_known table w Hw) as [Hat Hmin]. apply In_nth_error in Hin. destruct Hin as (j0 & Hj0).
      assert (Hat' : name_at new (Z.of_nat j0) w) by (apply new_name_at; exists (bid table w); split; [split; [lia|rewrite Nat2Z.id; exact Hj0]|exact Hat]).
      destruct (bid_known new w (name_at_has _ _ _ Hat')) as [Hn Hnm]. specialize (Hnm _ Hat').
      apply new_name_at in Hn. destruct Hn as (i & [Hi0 Hi1] & Hi). specialize (Hmin i Hi).
      assert (E : bid new w = Z.of_nat j0).
      { destruct (Z.eq_dec (bid new w) (Z.of_nat j0)) as [E|E]; [exact E|]. exfalso.
        assert (Hlt : (Z.to_nat (bid new w) < j0)%nat) by lia. apply (increasing_nth _ Hinc _ _ _ _ Hi1 Hj0) in Hlt. lia. }
      rewrite E. split; [lia|]. rewrite Nat2Z.id. exact Hj0.
    - assert (E1 : bid table w = 1).
      { unfold bid, dget_def. rewrite (proj2 (str_to_idx_first_none table w)) by exact Hw. reflexivity. }
      assert (E2 : bid new w = 1).
      { unfold bid, dget_def. rewrite (proj2 (str_to_idx_first_none new w)); [reflexivity|]. intros H. apply Hw, new_has_name, H. }
      rewrite E1, E2. split; [lia|exact H1].
  Qed.
  Lemma new_starts_reserved : starts_reserved table -> (forall n, (n < 6)%nat -> nth_error mapping n = Some (Z.of_nat n)) -> starts_reserved new.
  Proof.
    intros Hr Hm. unfold starts_reserved in *. rewrite <- Hr. apply nth_error_ext'. intros n. destruct (Nat.lt_ge_cases n 6) as [Hn|Hn].
    - rewrite !nth_error_firstn_lt by exact Hn. destruct Hren as [_ Hx]. destruct (Hx n _ (Hm n Hn)) as (t & t' & _ & G1 & G2 & G3 & _). rewrite Nat2Z.id in G1.
      rewrite !nth_error_map, G1, G2. cbn [option_map]. congruence.
    - transitivity (@None str); [|symmetry]; apply nth_error_None; rewrite firstn_length; lia.
  Qed.
End Shrunk.
Lemma increasing_prefix c : forall l a, increasing l -> (forall x, In x l -> a <= x) -> (forall n, (n < c)%nat -> In (a + Z.of_nat n) l) ->
  forall n, (n < c)%nat -> nth_error l n = Some (a + Z.of_nat n).
Proof.
  induction c as [|c IH]; intros l a Hi Hge Hin n Hn; [lia|]. destruct l as [|x l]; [destruct (Hin 0%nat); lia|]. destruct Hi as [H1 H2].
  assert (Ex : x = a).
  { assert (Hx := Hge x (or_introl eq_refl)). destruct (Hin 0%nat ltac:(lia)) as [E|E]; [lia|]. specialize (H1 _ E). lia. }
  subst x. destruct n as [|n]; [cbn; f_equal; lia|]. cbn [nth_error]. rewrite (IH l (a + 1)); [f_equal; lia|exact H2| | |lia].
  - intros x Hx. specialize (H1 x Hx). lia.
  - intros m Hm. destruct (Hin (S m) ltac:(lia)) as [E|E]; [lia|]. replace (a + 1 + Z.of_nat m) with (a + Z.of_nat (S m)) by lia. exact E.
Qed.

Lemma flat_bid table w : distinct_names table -> id_fun table 1 w = bid table w.
Proof.
  intros Hd. symmetry. apply id_of_fun; [exact Hd|]. destruct (has_name_dec table w) as [H|H]; [left; apply bid_known, H|right; split; [|exact H]].
  unfold bid, dget_def. rewrite (proj2 (str_to_idx_first_none table w)) by exact H. reflexivity.
Qed.
Lemma text_encode k table s line : text_kind k -> make_scheme k table = Ok s -> well_indexed table ->
  exists ps, encode_str s line = Ok ps /\ encode s line = Ok (map (bid table) ps).
Proof.
  intros Hk Hs Hw. destruct Hk as [-> | [-> | ->]].
  - pose proof (flat_distinct KWord table s (or_introl eq_refl) Hs) as Hd. exists (split line).
    assert (E : encode_str s line = Ok (split line)) by (apply (make_flat_inv KWord table s (or_introl eq_refl)) in Hs; destruct Hs as (_ & _ & ->); reflexivity).
    split; [exact E|]. rewrite (flat_encode KWord table s (or_introl eq_refl) Hs line _ E). f_equal. apply map_ext. intros w. apply flat_bid, Hd.
  - pose proof (flat_distinct KChar table s (or_intror eq_refl) Hs) as Hd.
    assert (E : exists ps, encode_str s line = Ok ps) by (apply (make_flat_inv KChar table s (or_intror eq_refl)) in Hs; destruct Hs as (_ & _ & ->); eexists; reflexivity).
    destruct E as (ps & E). exists ps. split; [exact E|]. rewrite (flat_encode KChar table s (or_intror eq_refl) Hs line _ E). f_equal. apply map_ext. intros w. apply flat_bid, Hd.
  - destruct (bpe_greedy table s line _ Hs Hw (bpe_text_marked line)) as (segs & _ & E). eexists. split; [exact E|]. apply (bpe_encode_ids table); assumption.
Qed.
Lemma text_encode_str_indep k t1 t2 s1 s2 line : k = KWord \/ k = KChar -> make_scheme k t1 = Ok s1 -> make_scheme k t2 = Ok s2 -> encode_str s1 line = encode_str s2 line.
Proof. intros Hk H1 H2. apply (make_flat_inv k _ _ Hk) in H1, H2. destruct H1 as (_ & _ & ->), H2 as (_ & _ & ->). destruct Hk as [-> | ->]; reflexivity. Qed.
Lemma greedy_subset t1 t2 text segs : (forall w, has_name t2 w -> has_name t1 w) -> greedy t1 text segs ->
  (forall p, In (Known p) segs -> has_name t2 p) -> greedy t2 text segs.
Proof.
  intros Hsub. induction 1 as [|p rest segs Hp Hn Hl Hg IH|c rest segs Hl Hg IH]; intros Hin; constructor.
  - exact Hp.
  - apply Hin. left. reflexivity.
  - intros q r Hq E. apply (Hl q r (Hsub q Hq) E).
  - apply IH. intros q Hq. apply Hin. right. exact Hq.
  - intros q r Hq E. apply (Hl q r (Hsub q Hq) E).
  - apply IH. intros q Hq. apply Hin. right. exact Hq.
Qed.

(** *** lines whose ids all stay are encoded as before *)
Theorem shrunk_encodes k table s mapping new : text_kind k -> make_scheme k table = Ok s -> well_indexed table ->
  increasing mapping -> renumbered table mapping new -> (forall n, (n < 6)%nat -> nth_error mapping n = Some (Z.of_nat n)) ->
  exists s', make_scheme k new = Ok s' /\
    forall line ids, encode s line = Ok ids -> (forall i, In i ids -> In i mapping) ->
      exists ps ids', encode_str s line = Ok ps /\ encode_str s' line = Ok ps /\ encode s' line = Ok ids' /\ Forall2 (translates mapping) ids' ids.
Proof.
  intros Hk Hs Hwi Hinc Hren Hm.
  pose proof (new_well_indexed _ _ _ Hren) as Hwi'.
  assert (Hs' : exists s', make_scheme k new = Ok s').
  { destruct Hk as [-> | [-> | ->]].
    - eexists. apply (make_flat_inv KWord new _ (or_introl eq_refl)). apply (make_flat_inv KWord table _ (or_introl eq_refl)) in Hs. destruct Hs as (H1 & H2 & _).
      split; [eapply new_starts_reserved; eassumption|]. split; [eapply new_distinct; eassumption|reflexivity].
    - eexists. apply (make_flat_inv KChar new _ (or_intror eq_refl)). apply (make_flat_inv KChar table _ (or_intror eq_refl)) in Hs. destruct Hs as (H1 & H2 & _).
      split; [eapply new_starts_reserved; eassumption|]. split; [eapply new_distinct; eassumption|reflexivity].
    - eexists. apply make_bpe_inv. apply make_bpe_inv in Hs. destruct Hs as (H1 & H2 & _).
      split; [eapply new_starts_reserved; eassumption|]. split; [|reflexivity]. intros H. apply H2. eapply new_has_name; eassumption. }
  destruct Hs' as (s' & Hs'). exists s'. split; [exact Hs'|]. intros line ids Henc Hin.
  destruct (text_encode k table s line Hk Hs Hwi) as (ps & E1 & E2). rewrite E2 in Henc. injection Henc as <-.
  assert (Estr : encode_str s' line = Ok ps).
  { destruct Hk as [Hk|[Hk|Hk]]; [rewrite <- E1; symmetry; eapply text_encode_str_indep; [left; exact Hk| |]; eassumption|rewrite <- E1; symmetry; eapply text_encode_str_indep; [right; exact Hk| |]; eassumption|].
    subst k. destruct (bpe_greedy table s line _ Hs Hwi (bpe_text_marked line)) as (segs & Hg & E). rewrite E1 in E. injection E as ->.
    destruct (bpe_greedy new s' line _ Hs' Hwi' (bpe_text_marked line)) as (segs' & Hg' & E'). rewrite E'. f_equal. f_equal.
    eapply greedy_unique; [exact Hg'|]. eapply greedy_subset; [|exact Hg|].
    - intros w. eapply new_has_name; eassumption.
    - intros p Hp.
      assert (Hpt : has_name table p).
      { clear - Hg Hp. induction Hg as [|q rest segs H1 H2 H3 Hg IH|c rest segs H1 Hg IH]; [destruct Hp| |]; (destruct Hp as [E|Hp]; [try discriminate E; injection E as <-; exact H2|apply IH, Hp]). }
      assert (Hb : In (bid table p) mapping) by (apply Hin, in_map, in_map_iff; exists (Known p); split; [reflexivity|exact Hp]).
      apply In_nth_error in Hb. destruct Hb as (j & Hj). eapply (name_at_has _ (Z.of_nat j)). eapply new_name_at; [eassumption|].
      exists (bid table p). split; [split; [lia|rewrite Nat2Z.id; exact Hj]|apply bid_known, Hpt]. }
  destruct (text_encode k new s' line Hk Hs' Hwi') as (ps' & E3 & E4). rewrite Estr in E3. injection E3 as <-.
  exists ps, (map (bid new) ps). split; [exact E1|]. split; [exact Estr|]. split; [exact E4|].
  clear - Hin Hinc Hren Hm. induction ps as [|w ps IH]; cbn [map]; constructor.
  - eapply new_bid; [exact Hinc|exact Hren|apply Hin; left; reflexivity|]. apply (Hm 1%nat). lia.
  - apply IH. intros i Hi. apply Hin. right. exact Hi.
Qed.
Lemma text_reserved k table s : text_kind k -> make_scheme k table = Ok s -> starts_reserved table.
Proof.
  intros [-> | [-> | ->]] Hs; [apply (make_flat_inv KWord table s (or_introl eq_refl)) in Hs|apply (make_flat_inv KChar table s (or_intror eq_refl)) in Hs|apply make_bpe_inv in Hs]; apply Hs.
Qed.
Lemma scheme_table k table s : text_kind k -> make_scheme k table = Ok s -> s_table s = table.
Proof.
  intros [-> | [-> | ->]] Hs; [apply (make_flat_inv KWord table s (or_introl eq_refl)) in Hs|apply (make_flat_inv KChar table s (or_intror eq_refl)) in Hs|apply make_bpe_inv in Hs]; destruct Hs as (_ & _ & ->); reflexivity.
Qed.
Lemma text_encode_all k table s lines : text_kind k -> make_scheme k table = Ok s -> well_indexed table ->
  exists enc, mapM (encode s) lines = Ok enc /\ (forall i, In i (concat enc) -> valid_id table i) /\
    forall line ids, In line lines -> encode s line = Ok ids -> In ids enc.
Proof.
  intros Hk Hs Hwi. pose proof (text_reserved k table s Hk Hs) as Hr. induction lines as [|l lines (enc & E & Hv & Hin)]; [exists []; split; [reflexivity|]; split; [intros i []|intros line ids []]|].
  destruct (text_encode k table s l Hk Hs Hwi) as (ps & _ & E2). exists (map (bid table) ps :: enc). cbn [mapM]. rewrite E2, E. split; [reflexivity|]. split.
  - intros i Hi. cbn [concat] in Hi. apply in_app_iff in Hi. destruct Hi as [Hi|Hi]; [|apply Hv, Hi].
    apply in_map_iff in Hi. destruct Hi as (w & <- & _). destruct (has_name_dec table w) as [Hw|Hw]; [eapply name_at_valid, bid_known, Hw|].
    assert (E1 : bid table w = 1) by (unfold bid, dget_def; rewrite (proj2 (str_to_idx_first_none table w)) by exact Hw; reflexivity).
    rewrite E1. eapply name_at_valid, starts_reserved_unk, Hr.
  - intros line ids [<-|Hl] He; [rewrite E2 in He; injection He as <-; left; reflexivity|right; eapply Hin; eassumption].
Qed.

(** *** C35 *)
Theorem shrink_encodes k table s lines min_freq : text_kind k -> make_scheme k table = Ok s -> well_indexed table -> kids_earlier table ->
  reserved_levels table -> min_freq <= 1 ->
  (exists line ps, In line lines /\ encode_str s line = Ok ps /\ ps <> []) ->
  exists mapping new s', shrink_vocab s lines min_freq = Ok (mapping, new) /\ make_scheme k new = Ok s' /\
    forall line, In line lines -> exists ps ids ids',
      encode_str s line = Ok ps /\ encode_str s' line = Ok ps /\ encode s line = Ok ids /\ encode s' line = Ok ids' /\
      Forall2 (translates mapping) ids' ids.
Proof.
  intros Hk Hs Hwi Hke Hrl Hmf (l0 & ps0 & Hl0 & Hps0 & Hne0). pose proof (scheme_table k table s Hk Hs) as Et. pose proof (text_reserved k table s Hk Hs) as Hr.
  destruct (text_encode_all k table s lines Hk Hs Hwi) as (enc & Eenc & Hval & Hlin).
  assert (Hne : concat enc <> []).
  { destruct (text_encode k table s l0 Hk Hs Hwi) as (ps & E1 & E2). rewrite Hps0 in E1. injection E1 as <-. pose proof (Hlin _ _ Hl0 E2) as Hi. destruct ps0 as [|p ps0]; [contradiction|].
    intros E. assert (Hx : In (bid table p) (concat enc)) by (apply in_concat; eexists; split; [exact Hi|left; reflexivity]). rewrite E in Hx. exact Hx. }
  destruct (shrink_ok s lines enc min_freq) as (mapping & new & E & Hinc & Hst & Hren); try (rewrite Et; assumption); try assumption.
  { intros i Hi. rewrite Et. apply (Hval i Hi). }
  rewrite Et in Hst, Hren.
  assert (Hlen : (6 <= length table)%nat).
  { unfold starts_reserved in Hr. apply (f_equal (@length str)) in Hr. rewrite firstn_length, map_length in Hr. change (length reserved_names) with 6%nat in Hr. lia. }
  assert (Hm : forall n, (n < 6)%nat -> nth_error mapping n = Some (Z.of_nat n)).
  { intros n Hn. rewrite (increasing_prefix 6 mapping 0 Hinc); [f_equal; lia| | |exact Hn].
    - intros x Hx. apply Hst in Hx. clear - Hx Hwi Hke. destruct Hx as [n t|n t|n t k _ Ht Hk]; try lia.
      destruct (Hke _ _ Ht) as [_ H]. destruct (H k Hk) as (m & _ & Hm). rewrite (Hwi _ _ Hm). lia.
    - intros m Hm. apply Hst. rewrite Z.add_0_l. destruct (nth_error table m) as [t|] eqn:Ht; [|apply nth_error_None in Ht; lia].
      eapply st_reserved; [exact Ht|]. eapply Hrl; eassumption. }
  destruct (shrunk_encodes k table s mapping new Hk Hs Hwi Hinc Hren Hm) as (s' & Hs' & Hall).
  exists mapping, new, s'. split; [exact E|]. split; [exact Hs'|]. intros line Hl.
  destruct (text_encode k table s line Hk Hs Hwi) as (ps & E1 & E2).
  destruct (Hall line _ E2) as (ps' & ids' & F1 & F2 & F3 & F4).
  { intros i Hi. apply Hst. pose proof (Hlin _ _ Hl E2) as Hi2. assert (Hic : In i (concat enc)) by (apply in_concat; eauto).
    destruct (Hval i Hic) as [H0 H1]. destruct (nth_error table (Z.to_nat i)) as [t|] eqn:Ht; [|apply nth_error_None in Ht; lia].
    replace i with (Z.of_nat (Z.to_nat i)) by lia. eapply st_frequent; [exact Ht|]. rewrite Z2Nat.id by lia. unfold id_count.
    apply (count_occ_In Z.eq_dec) in Hic. lia. }
  exists ps', (map (bid table) ps), ids'. auto.
Qed.

(** *** C36: which kind a shrunk vocabulary loads as *)
Theorem shrink_loads version now new : scalars version -> scalars now -> storable new ->
  exists bytes z, shrink_save version now new = (bytes, Ok tt) /\ (exists t, In t new /\ t_level t = z) /\ (forall t, In t new -> t_level t <= z) /\
    load_scheme bytes = bind (kind_of_level z) (fun k => make_scheme k new).
Proof.
  intros Hv Hn Hst. destruct (write_read version now new [] Hv Hn) as (bytes & z & H1 & Hz & H2); [constructor|exact Hst|].
  exists bytes, z. split; [exact H1|]. apply py_max_spec in Hz. destruct Hz as [Hz1 Hz2]. unfold dkeys, levels_of in *. split; [|split].
  - apply (counter_keys Z.eqb Z.eqb_eq) in Hz1. destruct Hz1 as [[]|Hz1]. apply in_map_iff in Hz1. destruct Hz1 as (t & E & Ht). eauto.
  - intros t Ht. apply Hz2. apply (counter_keys Z.eqb Z.eqb_eq). right. apply in_map, Ht.
  - unfold load_scheme. rewrite H2. reflexivity.
Qed.
Lemma shrunk_storable table mapping new : storable table -> increasing mapping -> mapping <> [] -> renumbered table mapping new -> storable new.
Proof.
  intros (Hne & Hwi & Hke & Hpl) Hinc Hm Hren. split; [|split; [|split]].
  - intros ->. destruct Hren as [Hl _]. destruct mapping; [contradiction|discriminate].
  - eapply new_well_indexed, Hren.
  - eapply new_kids_earlier; eassumption.
  - intros t' H. apply In_nth_error in H. destruct H as (n & H). destruct (new_at _ _ _ Hren _ _ H) as (i & t & _ & _ & G2 & G3 & _). rewrite G3. apply Hpl. eapply nth_error_In, G2.
Qed.
Theorem shrink_loads_same version now k new : scalars version -> scalars now -> storable new -> text_kind k ->
  (forall t, In t new -> t_level t <= own_level k) -> (exists t, In t new /\ t_level t = own_level k) ->
  exists bytes, shrink_save version now new = (bytes, Ok tt) /\ load_scheme bytes = make_scheme k new.
Proof.
  intros Hv Hn Hst Hk Hle (t & Ht & Hl). destruct (shrink_loads version now new Hv Hn Hst) as (bytes & z & H1 & (u & Hu & Hz) & Hmax & H2).
  exists bytes. split; [exact H1|]. rewrite H2. assert (z = own_level k) by (specialize (Hmax t Ht); specialize (Hle u Hu); lia). subst z.
  rewrite H. destruct Hk as [-> | [-> | ->]]; reflexivity.
Qed.
