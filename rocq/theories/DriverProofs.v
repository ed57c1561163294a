(** Proofs about the learning drivers. *)
From Coq Require Import Strings.String.
From Verif Require Import Py PyStr PyLemmas StrSpec PyStrProofs JsonModel JsonProofs CodecModel CodecSpec BpeProofs
     VocabFileModel VocabSpec VocabFileProofs LearnModel ArithModel LearnSpec LearnProofs DriverModel DriverSpec.
Local Open Scope Z_scope.
Local Open Scope list_scope.

(** ** sorted lists *)
Lemma In_firstn_ {A} (x : A) n l : In x (firstn n l) -> In x l.
Proof. intros H. rewrite <- (firstn_skipn n l). apply in_app_iff. left. exact H. Qed.
Lemma In_skipn_ {A} (x : A) n l : In x (skipn n l) -> In x l.
Proof. intros H. rewrite <- (firstn_skipn n l). apply in_app_iff. right. exact H. Qed.
Lemma sorted_desc_id {A} (key : A -> Z) l : desc key l -> sorted_desc key l = l.
Proof.
  induction 1 as [|x l Hx Hl IH]; [reflexivity|]. change (sorted_desc key (x :: l)) with (insert_desc key x (sorted_desc key l)).
  rewrite IH. destruct l as [|y l]; [reflexivity|]. simpl. destruct (Z.leb_spec (key y) (key x)) as [|H]; [reflexivity|].
  specialize (Hx y (or_introl eq_refl)). lia.
Qed.
Lemma desc_firstn {A} (key : A -> Z) l : desc key l -> forall n, desc key (firstn n l).
Proof.
  induction 1 as [|x l Hx Hl IH]; intros [|n]; try constructor.
  - intros y Hy. apply Hx. eapply In_firstn_. exact Hy.
  - apply IH.
Qed.
Lemma desc_map {A} (key : A -> Z) l : desc key l -> desc (fun z => z) (map key l).
Proof.
  induction 1 as [|x l Hx Hl IH]; simpl; constructor; [|exact IH]. intros y Hy. apply in_map_iff in Hy. destruct Hy as (z & <- & Hz). auto.
Qed.
Lemma desc_unique (l : list Z) : desc (fun z => z) l -> forall l', desc (fun z => z) l' -> Permutation l l' -> l = l'.
Proof.
  induction 1 as [|x l Hx Hl IH]; intros l' Hl' Hp.
  - apply Permutation_nil in Hp. congruence.
  - destruct Hl' as [|y l' Hy Hl']; [symmetry in Hp; apply Permutation_nil in Hp; discriminate|].
    assert (x = y) as ->.
    { assert (H1 : In x (y :: l')) by (eapply Permutation_in; [exact Hp|left; reflexivity]).
      assert (H2 : In y (x :: l)) by (eapply Permutation_in; [symmetry; exact Hp|left; reflexivity]).
      destruct H1 as [->|H1]; [reflexivity|]. destruct H2 as [->|H2]; [reflexivity|].
      specialize (Hx _ H2). specialize (Hy _ H1). lia. }
    f_equal. apply IH; [exact Hl'|]. eapply Permutation_cons_inv. exact Hp.
Qed.
Lemma sorted_keys_perm {A} (key : A -> Z) l l' : Permutation l l' -> map key (sorted_desc key l) = map key (sorted_desc key l').
Proof.
  intros H. apply desc_unique; try (apply desc_map, sorted_desc_desc). apply Permutation_map.
  rewrite !sorted_desc_perm. exact H.
Qed.
Lemma desc_filter_prefix {A} (key : A -> Z) m l : desc key l ->
  filter (fun e => key e >=? m) l = firstn (length (filter (fun f => f >=? m) (map key l))) l /\
  filter (fun e => key e <? m) l = skipn (length (filter (fun f => f >=? m) (map key l))) l.
Proof.
  induction 1 as [|x l Hx Hl [IH1 IH2]]; [split; reflexivity|]. cbn [filter map].
  destruct (Z.geb_spec (key x) m) as [H|H].
  - cbn [length firstn skipn]. rewrite <- IH1, <- IH2. assert (E : key x <? m = false) by (apply Z.ltb_ge; lia). rewrite E. auto.
  - assert (E : key x <? m = true) by (apply Z.ltb_lt; lia). rewrite E.
    assert (G : forall y, In y l -> key y < m) by (intros y Hy; specialize (Hx y Hy); lia).
    assert (E1 : filter (fun f => f >=? m) (map key l) = []).
    { apply filter_nil. intros y Hy. apply in_map_iff in Hy. destruct Hy as (z & <- & Hz). specialize (G z Hz).
      destruct (Z.geb_spec (key z) m); [lia|reflexivity]. }
    rewrite E1 in *. simpl in *. rewrite IH1. split; [reflexivity|]. f_equal. exact IH2.
Qed.

(** ** the learned table as a prefix of the ranking, cut at a place that depends on the frequencies only *)
Fixpoint cover_len (A : arith) (c : num A) (tot : Z) (cum : num A) (fs : list Z) : res nat :=
  match fs with
  | [] => Ok 0%nat
  | f :: fs' =>
      if tot =? 0 then Raise ZeroDivisionError
      else let cum := a_add A cum (a_div A f tot) in
           if a_leb A c cum then Ok 1%nat
           else match cover_len A c tot cum fs' with Ok n => Ok (S n) | Raise e => Raise e end
  end.
Lemma cover_loop_len A c tot types : forall cum inc, NoDup (map fst (inc ++ types)) ->
  cover_loop A c tot cum types inc =
  match cover_len A c tot cum (map snd types) with Ok n => Ok (inc ++ firstn n types) | Raise e => Raise e end.
Proof.
  induction types as [|[t f] types IH]; intros cum inc Hnd; cbn [cover_loop cover_len map snd].
  - rewrite firstn_nil, app_nil_r. reflexivity.
  - destruct (tot =? 0); [reflexivity|].
    rewrite (dset_fresh str_eqb str_eqb_eq t f inc).
    2:{ intros Hi. rewrite map_app in Hnd. apply (NoDup_app_disjoint _ _ t Hnd Hi). left. reflexivity. }
    destruct (a_leb A c _); [reflexivity|]. rewrite IH by (rewrite <- app_assoc; exact Hnd).
    destruct (cover_len A c tot _ _); [|reflexivity]. rewrite <- app_assoc. reflexivity.
Qed.
Lemma cover_len_le A c tot fs : forall cum n, cover_len A c tot cum fs = Ok n -> (n <= length fs)%nat.
Proof.
  induction fs as [|f fs IH]; intros cum n H; cbn [cover_len length] in *; [injection H as <-; lia|].
  destruct (tot =? 0); [discriminate|]. destruct (a_leb A c _); [injection H as <-; lia|].
  destruct (cover_len A c tot _ fs) eqn:E; [|discriminate]. injection H as <-. apply IH in E. lia.
Qed.
Lemma filter_not_in (a b : list (str * Z)) : NoDup (map fst (a ++ b)) ->
  filter (fun e : str * Z => negb (dmem str_eqb (fst e) a)) (a ++ b) = b.
Proof.
  intros H. rewrite filter_app. rewrite (filter_nil _ a), (filter_true _ b); [reflexivity| |].
  - intros x Hx. apply negb_true_iff. destruct (dmem str_eqb (fst x) a) eqn:E; [|reflexivity].
    apply (dmem_spec str_eqb str_eqb_eq) in E. rewrite map_app in H. destruct (NoDup_app_disjoint _ _ (fst x) H E). apply in_map, Hx.
  - intros x Hx. apply negb_false_iff. apply (dmem_spec str_eqb str_eqb_eq). apply in_map, Hx.
Qed.
Lemma coverage_len A types c : NoDup (map fst types) ->
  filter_types_coverage A types c =
  if a_unit A c then
    match cover_len A c (zsum (map snd (sorted_desc snd types))) (a_zero A) (map snd (sorted_desc snd types)) with
    | Ok n => Ok (firstn n (sorted_desc snd types), freq_sum (skipn n (sorted_desc snd types)))
    | Raise e => Raise e
    end
  else Raise AssertionError.
Proof.
  intros Hnd. unfold filter_types_coverage, assert_. destruct (a_unit A c); [|reflexivity]. cbn [bind].
  assert (Hn : NoDup (map fst (sorted_desc snd types))).
  { eapply Permutation_NoDup; [apply Permutation_map; symmetry; apply sorted_desc_perm|exact Hnd]. }
  assert (Et : zsum (dvalues types) = zsum (map snd (sorted_desc snd types))).
  { apply zsum_perm, Permutation_map. symmetry. apply sorted_desc_perm. }
  cbv zeta. rewrite Et, (cover_loop_len A c _ (sorted_desc snd types) (a_zero A) []) by exact Hn.
  destruct (cover_len A c _ _ _) as [n|e]; [|reflexivity]. cbn [bind app].
  rewrite (excludes_eq (sorted_desc snd types) _ []) by exact Hn. cbn [app].
  pose proof (filter_not_in (firstn n (sorted_desc snd types)) (skipn n (sorted_desc snd types))) as F.
  rewrite firstn_skipn in F. specialize (F Hn). unfold dvalues. unfold freq_sum. f_equal. f_equal. f_equal. f_equal. exact F.
Qed.

Definition cut_len (A : arith) (cov : option (num A)) (mf vs : Z) (fs : list Z) : res nat :=
  match (match cov with
         | Some c => if a_unit A c then cover_len A c (zsum fs) (a_zero A) fs else Raise AssertionError
         | None => Ok (length fs)
         end) with
  | Raise e => Raise e
  | Ok k1 =>
      let k2 := if mf >? 1 then length (filter (fun f => f >=? mf) (firstn k1 fs)) else k1 in
      Ok (if (vs >? 0) && (6 + Z.of_nat k2 >? vs) then py_bound k2 (vs - 6) else k2)
  end.
Lemma freq_sum_split n l : freq_sum (firstn n l) + freq_sum (skipn n l) = freq_sum l.
Proof. rewrite <- freq_sum_app, firstn_skipn. reflexivity. Qed.
Lemma firstn_le_min {A} (l : list A) n k : (n <= k)%nat -> firstn n (firstn k l) = firstn n l.
Proof. intros H. rewrite firstn_firstn. f_equal. lia. Qed.
Lemma skipn_split_sum n k (l : list (str * Z)) : (n <= k)%nat -> freq_sum (skipn k l) + freq_sum (skipn n (firstn k l)) = freq_sum (skipn n l).
Proof.
  intros H. pose proof (freq_sum_split n l). pose proof (freq_sum_split k l). pose proof (freq_sum_split n (firstn k l)) as H2.
  rewrite (firstn_le_min l n k H) in H2. lia.
Qed.
Lemma py_bound_le n i : (py_bound n i <= n)%nat.
Proof. unfold py_bound. destruct (Z.leb_spec 0 i); lia. Qed.

Lemma init_form A level tf cov lc mf vs : NoDup (map fst tf) -> exists rst,
  (forall w, dget str_eqb w rst = if reserved_name w then dget str_eqb w tf else None) /\
  get_init_vocab A level tf cov lc mf vs =
  let S := sorted_desc snd (nonres tf) in
  match cut_len A cov mf vs (map snd S) with
  | Ok k => Ok (head_rows rst (freq_sum (skipn k S)) lc ++ rows level 6 (firstn k S))
  | Raise e => Raise e
  end.
Proof.
  intros Hnd. destruct (pop_reserved_eq tf Hnd) as (rst & E & Hr). exists rst. split; [exact Hr|].
  unfold get_init_vocab. rewrite E. cbv zeta. change (Z.of_nat (length with_reserved_types)) with 6.
  assert (Hn : NoDup (map fst (nonres tf))) by (apply NoDup_map_filter, Hnd).
  set (S := sorted_desc snd (nonres tf)). pose proof (sorted_desc_desc snd (nonres tf)) as Hd. fold S in Hd.
  assert (G : forall k1, (k1 <= length S)%nat ->
    (let '(tfs, unk_count) :=
       if mf >? 1 then (filter (fun tf0 => snd tf0 >=? mf) (firstn k1 S), freq_sum (skipn k1 S) + zsum (map snd (filter (fun tf0 => snd tf0 <? mf) (firstn k1 S))))
       else (firstn k1 S, freq_sum (skipn k1 S)) in
     let '(tfs0, unk_count0) :=
       if (vs >? 0) && (6 + Z.of_nat (length tfs) >? vs) then (py_take tfs (vs - 6), unk_count + zsum (map snd (py_drop tfs (vs - 6))))
       else (tfs, unk_count) in
     Ok (map (reserved_row rst unk_count0 lc) (enumerate with_reserved_types) ++ map (fun it => MkType (fst (snd it)) level (fst it) (snd (snd it)) None) (enum_from 6 tfs0))) =
    let k2 := if mf >? 1 then length (filter (fun f => f >=? mf) (firstn k1 (map snd S))) else k1 in
    let k := if (vs >? 0) && (6 + Z.of_nat k2 >? vs) then py_bound k2 (vs - 6) else k2 in
    Ok (head_rows rst (freq_sum (skipn k S)) lc ++ rows level 6 (firstn k S))).
  { intros k1 Hk1. cbv zeta.
    set (k2 := if mf >? 1 then length (filter (fun f => f >=? mf) (firstn k1 (map snd S))) else k1).
    assert (Hk2 : (k2 <= k1)%nat).
    { subst k2. destruct (mf >? 1); [|lia]. rewrite firstn_map. destruct (desc_filter_prefix snd mf (firstn k1 S) (desc_firstn snd S Hd k1)) as [F _].
      apply (f_equal (@length _)) in F. rewrite firstn_length in F.
      assert (L : length (filter (fun f => f >=? mf) (map snd (firstn k1 S))) = length (filter (fun e : str * Z => snd e >=? mf) (firstn k1 S))).
      { generalize (firstn k1 S). intros l. clear. induction l as [|x l IH]; [reflexivity|]. cbn [map filter]. destruct (snd x >=? mf); cbn [length]; rewrite ?IH; reflexivity. }
      rewrite L. rewrite firstn_length in F. lia. }
    assert (H1 : (if mf >? 1 then (filter (fun tf0 => snd tf0 >=? mf) (firstn k1 S), freq_sum (skipn k1 S) + zsum (map snd (filter (fun tf0 => snd tf0 <? mf) (firstn k1 S))))
       else (firstn k1 S, freq_sum (skipn k1 S))) = (firstn k2 S, freq_sum (skipn k2 S))).
    { subst k2. destruct (mf >? 1); [|reflexivity]. rewrite firstn_map in *. destruct (desc_filter_prefix snd mf (firstn k1 S) (desc_firstn snd S Hd k1)) as [F1 F2].
      rewrite F1, F2. rewrite firstn_le_min by exact Hk2. f_equal. exact (skipn_split_sum _ _ S Hk2). }
    rewrite H1. rewrite firstn_length, Nat.min_l by lia.
    destruct ((vs >? 0) && (6 + Z.of_nat k2 >? vs)); [|reflexivity].
    unfold py_take, py_drop. rewrite firstn_length, Nat.min_l by lia.
    pose proof (py_bound_le k2 (vs - 6)) as Hb. rewrite firstn_le_min by exact Hb.
    pose proof (skipn_split_sum _ _ S Hb) as Hs. unfold freq_sum at 2 in Hs. rewrite Hs. reflexivity. }
  unfold cut_len. destruct cov as [c|].
  - rewrite (coverage_len A (nonres tf) c Hn). fold S. destruct (a_unit A c); [|reflexivity].
    destruct (cover_len A c _ _ _) as [k1|e] eqn:Ec; [|reflexivity]. cbn [bind].
    apply cover_len_le in Ec. rewrite map_length in Ec. rewrite (sorted_desc_id snd (firstn k1 S)) by (apply desc_firstn, Hd).
    exact (G k1 Ec).
  - cbn [bind]. fold S. rewrite map_length. specialize (G (length S) (le_n _)). rewrite firstn_all, skipn_all in G. exact G.
Qed.

(** ** two term-frequency maps with the same entries *)
Lemma same_keys (l l' : list (str * Z)) : desc snd l -> desc snd l' -> Permutation l l' -> map snd l = map snd l'.
Proof. intros H H' Hp. apply desc_unique; try (apply desc_map; assumption). apply Permutation_map, Hp. Qed.
Lemma prefix_ties (l l' : list (str * Z)) k (w : str) (f : Z) : desc snd l -> desc snd l' -> Permutation l l' ->
  (exists r, In r (firstn k l) /\ snd r < f) -> In (w, f) (firstn k l) -> In (w, f) (firstn k l').
Proof.
  intros Hd Hd' Hp (r & Hr & Hlt) Hin.
  assert (Hm : In (snd r) (map snd (firstn k l'))).
  { rewrite <- firstn_map, <- (same_keys l l' Hd Hd' Hp), firstn_map. apply in_map, Hr. }
  apply in_map_iff in Hm. destruct Hm as (r' & Er & Hr').
  assert (Hi : In (w, f) l') by (eapply Permutation_in; [exact Hp|eapply In_firstn_; exact Hin]).
  rewrite <- (firstn_skipn k l') in Hi. apply in_app_iff in Hi. destruct Hi as [Hi|Hi]; [exact Hi|exfalso].
  assert (G : forall (l : list (str * Z)) k x y, desc snd l -> In x (firstn k l) -> In y (skipn k l) -> snd y <= snd x).
  { clear. induction l as [|a l IH]; intros k x y H Hx Hy; [rewrite firstn_nil in Hx; destruct Hx|].
    destruct k as [|k]; [destruct Hx|]. cbn [firstn skipn] in *. inversion H as [|? ? Ha Hl]; subst.
    destruct Hx as [<-|Hx]; [apply Ha; eapply In_skipn_; exact Hy|eapply IH; eassumption]. }
  specialize (G l' k r' (w, f) Hd' Hr' Hi). simpl in G. lia.
Qed.
Lemma distinct_keys_unique (l : list (str * Z)) : desc snd l -> NoDup (map snd l) -> forall l', desc snd l' -> Permutation l l' -> l = l'.
Proof.
  induction 1 as [|x l Hx Hl IH]; intros Hnd l' Hl' Hp.
  - apply Permutation_nil in Hp. congruence.
  - pose proof (same_keys (x :: l) l' (desc_cons snd x l Hx Hl) Hl' Hp) as Hk.
    destruct Hl' as [|y l' Hy Hl']; [discriminate|]. cbn [map] in Hk. injection Hk as Exy Hk.
    inversion Hnd as [|? ? Hn Hnd']; subst.
    assert (x = y) as <-.
    { assert (H : In y (x :: l)) by (eapply Permutation_in; [symmetry; exact Hp|left; reflexivity]).
      destruct H as [H|H]; [exact H|]. exfalso. apply Hn. rewrite Exy. apply in_map, H. }
    f_equal. apply IH; [exact Hnd'|exact Hl'|]. eapply Permutation_cons_inv. exact Hp.
Qed.
Lemma skipn_head rst unk lc r : skipn 6 (head_rows rst unk lc ++ r) = r.
Proof. change 6%nat with (length (head_rows rst unk lc)). rewrite skipn_app, skipn_all, Nat.sub_diag. reflexivity. Qed.
Lemma rows_freqs level k l : map t_freq (rows level k l) = map snd l.
Proof. rewrite <- (rows_pairs level k l) at 2. rewrite map_map. reflexivity. Qed.

Definition agree_at (i : nat) (tf tf' : list (str * Z)) : Prop :=
  forall w, nth_error reserved_names i = Some w -> dget_def str_eqb w 0 tf = dget_def str_eqb w 0 tf'.
Lemma dget_reserved w (tf rst : list (str * Z)) : In w reserved_names ->
  (forall w, dget str_eqb w rst = if reserved_name w then dget str_eqb w tf else None) -> dget_def str_eqb w 0 rst = dget_def str_eqb w 0 tf.
Proof.
  intros Hw H. unfold dget_def. rewrite H. assert (E : reserved_name w = true); [|rewrite E; reflexivity].
  unfold reserved_name. apply existsb_exists. exists w. split; [exact Hw|apply str_eqb_refl].
Qed.
Lemma nth_map_enum {A B} (f : Z * A -> B) l n : nth_error (map f (enumerate l)) n = option_map (fun x => f (Z.of_nat n, x)) (nth_error l n).
Proof. rewrite nth_error_map. unfold enumerate. rewrite enum_from_nth. destruct (nth_error l n); reflexivity. Qed.
Lemma head_alike rst rst' tf tf' unk lc i : 
  (forall w, dget str_eqb w rst = if reserved_name w then dget str_eqb w tf else None) ->
  (forall w, dget str_eqb w rst' = if reserved_name w then dget str_eqb w tf' else None) ->
  agree_at i tf tf' -> nth_error (head_rows rst unk lc) i = nth_error (head_rows rst' unk lc) i.
Proof.
  intros H H' Ha. unfold head_rows. rewrite !nth_map_enum. destruct (nth_error with_reserved_types i) as [t|] eqn:E; [|reflexivity].
  assert (En : nth_error reserved_names i = Some (t_name t)).
  { change reserved_names with (map t_name with_reserved_types). rewrite nth_error_map, E. reflexivity. }
  specialize (Ha _ En). assert (Hin : In (t_name t) reserved_names) by (eapply nth_error_In; exact En).
  rewrite <- (dget_reserved _ tf rst Hin H), <- (dget_reserved _ tf' rst' Hin H') in Ha.
  cbn [option_map]. unfold reserved_row. rewrite Ha. reflexivity.
Qed.
Theorem init_alike A level tf tf' cov lc mf vs : NoDup (map fst tf) -> NoDup (map fst tf') -> Permutation (nonres tf) (nonres tf') ->
  match get_init_vocab A level tf cov lc mf vs, get_init_vocab A level tf' cov lc mf vs with
  | Ok t, Ok t' => same_but_ties t t' /\ (forall i, (i < 6)%nat -> agree_at i tf tf' -> nth_error t i = nth_error t' i) /\
                   (NoDup (map snd (nonres tf)) -> skipn 6 t = skipn 6 t')
  | Raise e, Raise e' => e = e'
  | _, _ => False
  end.
Proof.
  intros Hn Hn' Hp. destruct (init_form A level tf cov lc mf vs Hn) as (rst & Hr & ->).
  destruct (init_form A level tf' cov lc mf vs Hn') as (rst' & Hr' & ->). cbv zeta.
  pose proof (sorted_desc_desc snd (nonres tf)) as Hd. pose proof (sorted_desc_desc snd (nonres tf')) as Hd'.
  assert (HP : Permutation (sorted_desc snd (nonres tf)) (sorted_desc snd (nonres tf'))) by (rewrite !sorted_desc_perm; exact Hp).
  assert (HN : NoDup (map snd (nonres tf)) -> NoDup (map snd (sorted_desc snd (nonres tf)))).
  { intros H. eapply Permutation_NoDup; [|exact H]. apply Permutation_map. symmetry. apply sorted_desc_perm. }
  set (S := sorted_desc snd (nonres tf)) in *. set (S' := sorted_desc snd (nonres tf')) in *.
  pose proof (same_keys S S' Hd Hd' HP) as Hk. rewrite <- Hk. destruct (cut_len A cov mf vs (map snd S)) as [k|e]; [|reflexivity].
  assert (Hu : freq_sum (skipn k S) = freq_sum (skipn k S')) by (unfold freq_sum; rewrite <- !skipn_map, Hk; reflexivity).
  split; [|split].
  - unfold same_but_ties, entries. rewrite !skipn_head, !rows_freqs, !rows_pairs. split; [rewrite <- !firstn_map, Hk; reflexivity|].
    intros w f (r & Hr0 & Hlt). assert (Hin : exists e, In e (firstn k S) /\ snd e < f).
    { assert (Hi : In (t_freq r) (map t_freq (rows level 6 (firstn k S)))) by (apply in_map, Hr0). rewrite rows_freqs in Hi.
      apply in_map_iff in Hi. destruct Hi as (e & E & He). exists e. split; [exact He|lia]. }
    split; intros Hi; [exact (prefix_ties S S' k w f Hd Hd' HP Hin Hi)|].
    apply (prefix_ties S' S k w f Hd' Hd (Permutation_sym HP)); [|exact Hi].
    destruct Hin as (e & He & Hl). assert (Hm : In (snd e) (map snd (firstn k S'))) by (rewrite <- firstn_map, <- Hk, firstn_map; apply in_map, He).
    apply in_map_iff in Hm. destruct Hm as (e' & E & He'). exists e'. split; [exact He'|lia].
  - intros i Hi Ha. rewrite !nth_error_app1 by (rewrite head_length; exact Hi). rewrite Hu. eapply head_alike; eauto.
  - intros Hnd. rewrite !skipn_head. rewrite (distinct_keys_unique S Hd (HN Hnd) S' Hd' HP). reflexivity.
Qed.

(** ** counting *)
Lemma counts_perm toks m m' : counts toks m -> counts toks m' -> Permutation m m'.
Proof.
  intros (N1 & I1 & C1) (N2 & I2 & C2).
  assert (G : forall (a b : list (str * Z)), (forall w, In w (map fst a) <-> In w toks) -> (forall w, In w (map fst b) <-> In w toks) ->
    (forall w f, In (w, f) a -> f = occurrences w toks) -> (forall w f, In (w, f) b -> f = occurrences w toks) -> forall x, In x a -> In x b).
  { intros a b Ia Ib Ca Cb [w f] H. assert (Hw : In w (map fst b)) by (apply Ib, Ia; apply (in_map fst) in H; exact H).
    apply in_map_iff in Hw. destruct Hw as ([w' f'] & E & Hw). simpl in E. subst w'. rewrite (Ca w f H), <- (Cb w f' Hw). exact Hw. }
  apply NoDup_Permutation; [eapply NoDup_map_inv; exact N1|eapply NoDup_map_inv; exact N2|]. intros x. split; apply G; auto.
Qed.
Lemma counts_of_perm toks m m' : Permutation m m' -> counts toks m -> counts toks m'.
Proof.
  intros Hp (N & I & C). split; [eapply Permutation_NoDup; [apply Permutation_map; exact Hp|exact N]|]. split.
  - intros w. rewrite <- I. split; intros H; (eapply Permutation_in; [|exact H]); apply Permutation_map; [symmetry|]; exact Hp.
  - intros w f H. apply C. eapply Permutation_in; [symmetry; exact Hp|exact H].
Qed.
Lemma exact_counts_counts toks m : exact_counts toks m -> counts toks m.
Proof. intros [(H1 & H2 & _) H3]. split; [exact H1|split; [exact H2|exact H3]]. Qed.
Lemma counter_counts toks : counts toks (counter_update str_eqb toks []).
Proof. apply exact_counts_counts, counter_exact. Qed.
Lemma fold_ones toks : forall d, fold_left (fun d kv => dadd str_eqb (fst kv) (snd kv) d) (map (fun w : str => (w, 1)) toks) d = counter_update str_eqb toks d.
Proof. unfold counter_update. induction toks as [|w toks IH]; intros d; [reflexivity|]. exact (IH _). Qed.
Lemma reduce_ones toks : reduce_by_key (map (fun w : str => (w, 1)) toks) = counter_update str_eqb toks [].
Proof. exact (fold_ones toks []). Qed.
Lemma weighted_sum g toks : forall d, zsum (map (fun e => snd e * g (fst e)) (counter_update str_eqb toks d)) =
  zsum (map (fun e => snd e * g (fst e)) d) + zsum (map g toks).
Proof.
  unfold counter_update. induction toks as [|w toks IH]; intros d; cbn [fold_left map]; [rewrite Z.add_0_r; reflexivity|].
  rewrite IH, zsum_cons. assert (E : forall d : list (str * Z), zsum (map (fun e => snd e * g (fst e)) (dadd str_eqb w 1 d)) = zsum (map (fun e => snd e * g (fst e)) d) + g w); [|rewrite E; lia].
  clear. intros d. unfold dadd, dget_def. induction d as [|[k v] d IH]; [cbn -[Z.mul]; lia|]. cbn [dget dset].
  destruct (str_eqb w k) eqn:E; cbn [map fst snd]; rewrite !zsum_cons.
  - apply str_eqb_eq in E as <-. cbn [fst snd]. nia.
  - unfold zsum in *. cbn [fst snd]. rewrite IH. lia.
Qed.
Lemma counts_weighted g toks m : counts toks m -> zsum (map (fun e => snd e * g (fst e)) m) = zsum (map g toks).
Proof.
  intros H. rewrite (zsum_perm _ (map (fun e => snd e * g (fst e)) (counter_update str_eqb toks []))).
  - rewrite weighted_sum. reflexivity.
  - apply Permutation_map. eapply counts_perm; [exact H|apply counter_counts].
Qed.
Lemma reduce_get pairs : forall d w, dget_def str_eqb w 0 (fold_left (fun d kv => dadd str_eqb (fst kv) (snd kv) d) pairs d) =
  dget_def str_eqb w 0 d + zsum (map (fun kv => if str_eqb w (fst kv) then snd kv else 0) pairs).
Proof.
  induction pairs as [|[k v] pairs IH]; intros d w; cbn [fold_left map fst snd]; [cbn; lia|].
  rewrite IH, zsum_cons. unfold dadd, dget_def. rewrite (dget_dset str_eqb str_eqb_eq).
  destruct (str_eqb w k) eqn:E; [apply str_eqb_eq in E as <-; lia|lia].
Qed.
Lemma reduce_keys pairs : forall d, NoDup (map fst d) ->
  NoDup (map fst (fold_left (fun d kv => dadd str_eqb (fst kv) (snd kv) d) pairs d)) /\
  forall w, In w (map fst (fold_left (fun d kv => dadd str_eqb (fst kv) (snd kv) d) pairs d)) <-> In w (map fst d) \/ In w (map fst pairs).
Proof.
  induction pairs as [|[k v] pairs IH]; intros d Hd; cbn [fold_left map fst snd]; [split; [exact Hd|simpl; tauto]|].
  destruct (IH (dadd str_eqb k v d)) as [H1 H2]; [apply (dset_NoDup str_eqb str_eqb_eq), Hd|]. split; [exact H1|].
  intros w. rewrite H2. unfold dadd. pose proof (dkeys_dset str_eqb k (dget_def str_eqb k 0 d + v) d) as E. unfold dkeys in E. rewrite E.
  destruct (dmem str_eqb k d) eqn:Em.
  - apply (dmem_spec str_eqb str_eqb_eq) in Em. unfold dkeys in Em. simpl. split; [tauto|]. intros [H|[<-|H]]; auto.
  - rewrite in_app_iff. simpl. tauto.
Qed.
Lemma zsum_flat_map {A} (f : A -> list Z) l : zsum (flat_map f l) = zsum (map (fun x => zsum (f x)) l).
Proof. induction l as [|x l IH]; [reflexivity|]. cbn [flat_map map]. rewrite zsum_app, zsum_cons, IH. reflexivity. Qed.
Lemma occur_app w a b : occurrences w (a ++ b) = occurrences w a + occurrences w b.
Proof. unfold occurrences. rewrite count_occ_app. lia. Qed.
Lemma occur_cons w a b : occurrences w (a :: b) = (if str_eqb w a then 1 else 0) + occurrences w b.
Proof.
  unfold occurrences. cbn [count_occ]. destruct (str_dec a w) as [->|H]; [rewrite str_eqb_refl; lia|].
  assert (E : str_eqb w a = false) by (apply str_eqb_neq; congruence). rewrite E. lia.
Qed.
Lemma occur_letters c toks : occurrences c (letters toks) = zsum (map (fun w => occurrences c (map (fun x => [x]) w)) toks).
Proof.
  unfold letters. induction toks as [|w toks IH]; [reflexivity|]. cbn [concat map]. rewrite map_app, occur_app, zsum_cons, IH. reflexivity.
Qed.
Lemma letter_sum (w : str) (g : Z) (u : str) :
  zsum (map (fun kv : str * Z => if str_eqb w (fst kv) then snd kv else 0) (map (fun ch : N => ([ch], g)) u)) = g * occurrences w (map (fun x : N => [x]) u).
Proof.
  induction u as [|ch u IHu]; [cbn; lia|]. cbn [map]. rewrite zsum_cons, occur_cons. cbn [fst snd].
  match goal with |- ?a + ?b = _ => replace b with (g * occurrences w (map (fun x : N => [x]) u)) by (symmetry; exact IHu) end.
  destruct (str_eqb w [ch]); lia.
Qed.
Lemma char_pairs_sum (w : str) (m : list (str * Z)) :
  zsum (map (fun kv : str * Z => if str_eqb w (fst kv) then snd kv else 0) (flat_map (fun r : str * Z => map (fun ch : N => ([ch], snd r)) (fst r)) m)) =
  zsum (map (fun e : str * Z => snd e * occurrences w (map (fun x : N => [x]) (fst e))) m).
Proof.
  induction m as [|[u g] m IH]; [reflexivity|]. cbn [flat_map map]. rewrite map_app, zsum_app, zsum_cons.
  f_equal; [exact (letter_sum w g u)|exact IH].
Qed.
Lemma char_reduce_counts toks m : counts toks m ->
  counts (letters toks) (reduce_by_key (flat_map (fun r => map (fun ch => ([ch], snd r)) (fst r)) m)).
Proof.
  intros Hc. unfold reduce_by_key. set (pairs := flat_map (fun r : str * Z => map (fun ch => ([ch], snd r)) (fst r)) m). destruct (reduce_keys pairs [] ltac:(constructor)) as [H1 H2].
  split; [exact H1|]. assert (HI : forall w, In w (map fst pairs) <-> In w (letters toks)).
  { intros w. destruct Hc as (_ & HI & _). unfold letters, pairs. rewrite !in_map_iff. split.
    - intros ([w' f] & <- & H). apply in_flat_map in H. destruct H as ([u g] & Hu & H). apply in_map_iff in H. destruct H as (ch & E & Hch).
      injection E as <- <-. exists ch. split; [reflexivity|]. apply in_concat. exists u. split; [|exact Hch]. apply HI. apply (in_map fst) in Hu. exact Hu.
    - intros (ch & <- & H). apply in_concat in H. destruct H as (u & Hu & Hch). apply HI in Hu. apply in_map_iff in Hu. destruct Hu as ([u' g] & E & Hu).
      simpl in E. subst u'. exists ([ch], g). split; [reflexivity|]. apply in_flat_map. exists (u, g). split; [exact Hu|].
      apply in_map_iff. exists ch. split; [reflexivity|exact Hch]. }
  split; [intros w; etransitivity; [apply H2|]; rewrite <- HI; split; [intros [[]|H]; exact H|intros H; right; exact H]|].
  intros w f Hin. pose proof (reduce_get pairs [] w) as G. unfold dget_def at 1 in G.
  rewrite (In_dget str_eqb str_eqb_eq w f _ H1 Hin) in G. cbn [dget_def dget] in G. rewrite G.
  rewrite occur_letters. refine (eq_trans _ (counts_weighted (fun u => occurrences w (map (fun x => [x]) u)) toks m Hc)). rewrite Z.add_0_l.
  exact (char_pairs_sum w m).
Qed.
Lemma occur_filter w p toks : p w = true -> occurrences w (filter p toks) = occurrences w toks.
Proof.
  intros Hp. induction toks as [|a toks IH]; [reflexivity|]. cbn [filter]. rewrite occur_cons. destruct (p a) eqn:E; [rewrite occur_cons, IH; reflexivity|].
  rewrite IH. assert (En : str_eqb w a = false) by (apply str_eqb_neq; intros ->; congruence). rewrite En. lia.
Qed.
Lemma counts_ddel toks m t : counts toks m -> counts (filter (fun w => negb (str_eqb w t)) toks) (ddel str_eqb t m).
Proof.
  intros (N & I & C). rewrite (ddel_filter t m N). split; [apply NoDup_map_filter, N|]. split.
  - intros w. rewrite filter_In, in_map_iff. split.
    + intros ([w' f] & <- & H). apply filter_In in H. destruct H as [H Hn]. cbn [fst] in *. rewrite str_eqb_sym in Hn. split; [|exact Hn].
      apply I. apply (in_map fst) in H. exact H.
    + intros [H Hn]. apply I in H. apply in_map_iff in H. destruct H as (e & <- & H). exists e. split; [reflexivity|]. apply filter_In. split; [exact H|].
      rewrite str_eqb_sym. exact Hn.
  - intros w f H. apply filter_In in H. destruct H as [H Hn]. cbn [fst] in Hn. rewrite occur_filter by (rewrite str_eqb_sym; exact Hn). apply C, H.
Qed.
Lemma rows_words rows wss : Forall2 words_of rows wss -> map split rows = wss.
Proof. induction 1 as [|r ws rows wss H _ IH]; [reflexivity|]. cbn [map]. rewrite (split_words_of _ _ H), IH. reflexivity. Qed.
Lemma tagged_words rows : flat_map (fun row => map (fun w => (w, 1)) (SENT_TAG :: split (strip row))) rows =
  map (fun w => (w, 1)) (flat_map (fun row => SENT_TAG :: split row) rows).
Proof.
  induction rows as [|r rows IH]; [reflexivity|]. cbn [flat_map]. rewrite map_app, IH, split_strip. reflexivity.
Qed.
Lemma tagged_filter rows : filter (fun w => negb (str_eqb w SENT_TAG)) (flat_map (fun row => SENT_TAG :: split row) rows) =
  filter (fun w => negb (str_eqb w SENT_TAG)) (concat (map split rows)).
Proof.
  induction rows as [|r rows IH]; [reflexivity|]. cbn [flat_map map concat]. change (SENT_TAG :: split r) with ([SENT_TAG] ++ split r).
  rewrite <- app_assoc, !filter_app, IH. reflexivity.
Qed.
Lemma tagged_count rows : occurrences SENT_TAG (flat_map (fun row => SENT_TAG :: split row) rows) =
  Z.of_nat (length rows) + occurrences SENT_TAG (concat (map split rows)).
Proof.
  induction rows as [|r rows IH]; [reflexivity|]. cbn [flat_map map concat length]. change (SENT_TAG :: split r) with ([SENT_TAG] ++ split r).
  rewrite !occur_app, IH. change (occurrences SENT_TAG [SENT_TAG]) with 1. lia.
Qed.
Theorem word_counts_spec sp texts dedup : spark_counting sp -> texts <> [] ->
  exists rows, counted_rows dedup texts rows /\ forall wss, Forall2 words_of rows wss ->
  match word_counts sp texts dedup with
  | Ok (words, chars, n) =>
      let toks := filter (fun w => negb (str_eqb w SENT_TAG)) (concat wss) in
      rows <> [] /\ counts toks words /\ counts (letters toks) chars /\ n = Z.of_nat (length rows) + occurrences SENT_TAG (concat wss)
  | Raise e => rows = [] /\ e = KeyError
  end.
Proof.
  intros (S1 & S2 & S3) Hne. exists (if dedup then distinct_rows sp (concat texts) else concat texts). split.
  { unfold counted_rows. destruct dedup; [|reflexivity]. destruct (S1 (concat texts)) as [H1 H2]. split; [exact H1|].
    intros r. rewrite H2, in_concat. reflexivity. }
  intros wss Hw. unfold word_counts. destruct texts as [|t0 ts]; [congruence|]. set (texts := t0 :: ts) in *. cbn [bind].
  set (rows := if dedup then distinct_rows sp (concat texts) else concat texts) in *. apply rows_words in Hw. subst wss.
  rewrite tagged_words, reduce_ones. set (toks0 := flat_map _ rows).
  pose proof (counts_of_perm _ _ _ (Permutation_sym (S2 _)) (counter_counts toks0)) as Hc.
  set (freqs := collect_words sp _) in *. destruct (dget str_eqb SENT_TAG freqs) as [n|] eqn:En; cbn [bind].
  - pose proof (counts_ddel _ _ SENT_TAG Hc) as Hd. unfold toks0 in Hd. rewrite tagged_filter in Hd. fold SENT_TAG in Hd.
    split; [|split; [exact Hd|split]].
    + apply (dget_Some_key str_eqb str_eqb_eq) in En. apply Hc in En. intros E. unfold toks0 in En. rewrite E in En. destruct En.
    + eapply counts_of_perm; [symmetry; apply S3|]. apply char_reduce_counts, Hd.
    + apply (dget_In str_eqb str_eqb_eq) in En. apply Hc in En. rewrite En. apply tagged_count.
  - split; [|reflexivity]. apply (dget_None str_eqb str_eqb_eq) in En. destruct rows as [|r rows]; [reflexivity|exfalso].
    apply En. unfold dkeys. apply Hc. left. reflexivity.
Qed.
