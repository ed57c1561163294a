(** Proofs about the codec that takes over merges one by one. *)
From Coq Require Import Strings.String.
From Verif Require Import Py PyStr PyLemmas CodecModel CodecSpec TrieProofs FlatProofs BpeProofs LearnBpeProofs DbBatchProofs JsonModel JsonProofs VocabFileModel VocabSpec VocabFileProofs LearnModel LearnBpeModel BatchModel MapredModel
     BpeSpec TrackModel TrackSpec TrackProofs XtModel XtSpec.
From Coq Require Import Lia.
Local Open Scope Z_scope.
Local Open Scope list_scope.

(** The state after the entries [new] were taken over by a codec built from [table]. *)
Fixpoint later (d : list (str * Z)) (new : list Typ) : list (str * Z) :=
  match new with [] => d | t :: new' => later (dset str_eqb (t_name t) (t_idx t) d) new' end.
Definition grown_codec (table new : list Typ) : scheme :=
  MkScheme KBpe (table ++ new) (map t_name (table ++ new)) (later (str_to_idx_first table) new) (Some 1) (build tr_empty (table ++ new)).
Lemma later_snoc d new t : later d (new ++ [t]) = dset str_eqb (t_name t) (t_idx t) (later d new).
Proof. revert d. induction new as [|u new IH]; intros d; [reflexivity|]. cbn [app later]. apply IH. Qed.

Lemma merge_grown table done t rest : t_idx t = Z.of_nat (length (table ++ done)) ->
  xt_merge (MkXt (grown_codec table done) (t :: rest)) = Ok (t, MkXt (grown_codec table (done ++ [t])) rest).
Proof.
  intros Ht. unfold xt_merge, grown_codec. cbn [x_buffer x_codec s_table s_idx_to_str s_str_to_idx s_unk s_root s_kind].
  rewrite map_length, Nat.eqb_refl, Ht, Z.eqb_refl. cbn [andb assert_ bind]. rewrite later_snoc, app_assoc, Ht. revert Ht. generalize (table ++ done). intros tb Ht.
  rewrite (map_app t_name tb [t]). unfold build. rewrite (fold_left_app _ tb [t]). reflexivity.
Qed.
Lemma merges_grown table new : forall done rest, in_place (length (table ++ done)) new ->
  xt_merges (length new) (MkXt (grown_codec table done) (new ++ rest)) = Ok (MkXt (grown_codec table (done ++ new)) rest).
Proof.
  induction new as [|t new IH]; intros done rest H; [rewrite app_nil_r; reflexivity|]. cbn [length xt_merges app].
  rewrite merge_grown by (rewrite (H O t eq_refl), Nat.add_0_r; reflexivity). cbn [bind]. rewrite IH, <- app_assoc; [reflexivity|].
  intros n u Hn. rewrite (H (S n) u Hn). rewrite !app_length. cbn [length]. lia.
Qed.
Lemma start_grown table s : make_scheme KBpe table = Ok s -> s = grown_codec table [].
Proof. intros H. apply make_bpe_inv in H. destruct H as (_ & _ & ->). unfold grown_codec. rewrite app_nil_r. reflexivity. Qed.

(** Where the names of a grown codec point. *)
Lemma name_at_app table t i w : name_at (table ++ [t]) i w <-> name_at table i w \/ (i = Z.of_nat (length table) /\ t_name t = w).
Proof.
  unfold name_at. split.
  - intros (H0 & u & Hu & En). destruct (Nat.lt_ge_cases (Z.to_nat i) (length table)) as [H|H].
    + left. rewrite nth_error_app1 in Hu by exact H. split; [exact H0|]. exists u. auto.
    + right. rewrite nth_error_app2 in Hu by exact H. destruct (Z.to_nat i - length table)%nat eqn:Ed; [|destruct n; discriminate Hu]. injection Hu as <-. split; [lia|exact En].
  - intros [(H0 & u & Hu & En)|[-> En]].
    + split; [exact H0|]. exists u. split; [|exact En]. rewrite nth_error_app1; [exact Hu|]. apply nth_error_Some. congruence.
    + split; [lia|]. exists t. split; [|exact En]. rewrite Nat2Z.id, nth_error_app2, Nat.sub_diag by lia. reflexivity.
Qed.
Lemma later_get table new : in_place (length table) new -> forall w,
  (forall i, dget str_eqb w (later (str_to_idx_first table) new) = Some i -> name_at (table ++ new) i w) /\
  (dget str_eqb w (later (str_to_idx_first table) new) = None -> ~ has_name (table ++ new) w).
Proof.
  induction new as [|t new IH] using rev_ind; intros Hp w.
  - rewrite app_nil_r. cbn [later]. split.
    + intros i H. apply str_to_idx_first_get in H. apply H.
    + intros H. exact (proj1 (str_to_idx_first_none table w) H).
  - destruct (IH (fun n u Hn => Hp n u ltac:(rewrite nth_error_app1 by (apply nth_error_Some; congruence); exact Hn)) w) as [I1 I2].
    assert (Et : t_idx t = Z.of_nat (length (table ++ new))).
    { rewrite (Hp (length new) t), app_length; [reflexivity|]. rewrite nth_error_app2, Nat.sub_diag by lia. reflexivity. }
    rewrite later_snoc, (dget_dset str_eqb str_eqb_eq). rewrite app_assoc. destruct (str_eqb w (t_name t)) eqn:E.
    + apply str_eqb_eq in E. subst w. split; [|discriminate]. intros i H. injection H as <-. apply name_at_app. right. auto.
    + assert (Hne : t_name t <> w) by (intros <-; rewrite (proj2 (str_eqb_eq _ _) eq_refl) in E; discriminate). split.
      * intros i H. apply name_at_app. left. exact (I1 i H).
      * intros H (u & Hu & Eu). apply in_app_iff in Hu. destruct Hu as [Hu|[<-|[]]]; [|contradiction]. apply (I2 H). exists u. auto.
Qed.

Lemma later_same table new : in_place (length table) new -> NoDup (map t_name (table ++ new)) -> later (str_to_idx_first table) new = str_to_idx_first (table ++ new).
Proof.
  induction new as [|t new IH] using rev_ind; intros Hp Hd; [rewrite app_nil_r; reflexivity|].
  assert (Et : t_idx t = Z.of_nat (length (table ++ new))).
  { rewrite (Hp (length new) t), app_length; [reflexivity|]. rewrite nth_error_app2, Nat.sub_diag by lia. reflexivity. }
  rewrite app_assoc in Hd |- *. rewrite later_snoc, str_to_idx_first_snoc.
  rewrite map_app in Hd. pose proof (proj1 (proj1 (NoDup_app_iff _ _) Hd)) as Hd1. rewrite IH; [|intros n u Hn; apply Hp; rewrite nth_error_app1 by (apply nth_error_Some; congruence); exact Hn|exact Hd1].
  destruct (dmem str_eqb (t_name t) (str_to_idx_first (table ++ new))) eqn:E; [exfalso|rewrite Et; reflexivity].
  unfold dmem in E. destruct (dget str_eqb (t_name t) (str_to_idx_first (table ++ new))) as [i|] eqn:Ei; [|discriminate E].
  apply str_to_idx_first_get in Ei. destruct Ei as [(_ & u & Hu & En) _]. apply (NoDup_remove_2 (map t_name (table ++ new)) [] (t_name t)); [exact Hd|]. rewrite app_nil_r.
  rewrite <- En. apply in_map. eapply nth_error_In. exact Hu.
Qed.

Theorem grown_like table new s s' rest : make_scheme KBpe table = Ok s -> make_scheme KBpe (table ++ new) = Ok s' -> in_place (length table) new ->
  exists x, xt_merges (length new) (MkXt s (new ++ rest)) = Ok x /\ x_buffer x = rest /\ s_table (x_codec x) = table ++ new /\
    (forall line, encode_str (x_codec x) line = encode_str s' line) /\
    (forall draws line, bpe_encode_str (x_codec x) draws line = bpe_encode_str s' draws line) /\
    (forall ids, decode (x_codec x) ids = decode s' ids) /\
    (NoDup (map t_name (table ++ new)) -> x_codec x = s').
Proof.
  intros Hs Hs' Hp. exists (MkXt (grown_codec table new) rest). rewrite (start_grown _ _ Hs).
  split; [apply (merges_grown table new [] rest); rewrite app_nil_r; exact Hp|]. split; [reflexivity|]. split; [reflexivity|]. cbn [x_codec].
  apply make_bpe_inv in Hs'. destruct Hs' as (_ & _ & ->). split; [reflexivity|]. split; [reflexivity|]. split; [reflexivity|].
  intros Hd. unfold grown_codec. rewrite (later_same _ _ Hp Hd). reflexivity.
Qed.

(** The ids: the same names, hence the same text. *)
Theorem grown_ids table new s s' rest x line ids' : make_scheme KBpe table = Ok s -> make_scheme KBpe (table ++ new) = Ok s' -> well_indexed (table ++ new) ->
  xt_merges (length new) (MkXt s (new ++ rest)) = Ok x -> encode s' line = Ok ids' ->
  exists ids pieces, encode (x_codec x) line = Ok ids /\ encode_str s' line = Ok pieces /\
    Forall2 (name_at (table ++ new)) ids pieces /\ Forall2 (name_at (table ++ new)) ids' pieces /\ decode (x_codec x) ids = decode s' ids'.
Proof.
  intros Hs Hs' Hw Hx He.
  assert (Hp : in_place (length table) new).
  { intros n t Hn. apply Hw. rewrite nth_error_app2 by lia. replace (length table + n - length table)%nat with n by lia. exact Hn. }
  rewrite (start_grown _ _ Hs) in Hx. rewrite (merges_grown table new [] rest) in Hx by (rewrite app_nil_r; exact Hp). cbn [app] in Hx. injection Hx as <-. cbn [x_codec].
  assert (Es' : s' = MkScheme KBpe (table ++ new) (map t_name (table ++ new)) (str_to_idx_first (table ++ new)) (Some 1) (build tr_empty (table ++ new))) by (apply make_bpe_inv in Hs'; apply Hs').
  unfold encode in He. destruct (encode_str s' line) as [pieces|e] eqn:Ep; [|discriminate He]. cbn [bind] in He.
  assert (Ek : s_kind s' = KBpe) by (rewrite Es'; reflexivity). rewrite Ek in He.
  assert (Hnames : Forall (has_name (table ++ new)) pieces).
  { unfold encode_str in Ep. rewrite Ek in Ep. unfold bpe_encode_str in Ep. rewrite Es' in Ep at 1. cbn [s_unk] in Ep.
    destruct (bpe_segment s' 1 line) as [is|e]; [|discriminate Ep]. cbn [bind] in Ep. rewrite Es' in Ep. cbn [s_table] in Ep. clear - Ep. apply mapM_forall2 in Ep.
    induction Ep as [|i w is pieces E _ IH]; constructor; [|exact IH]. destruct (py_nth (table ++ new) i) as [t|] eqn:Et; [|discriminate E]. injection E as <-.
    exists t. split; [|reflexivity]. apply py_nth_ok_range in Et. apply Et. }
  exists (map (fun w => dget_def str_eqb w 1 (later (str_to_idx_first table) new)) pieces), pieces.
  assert (F1 : Forall2 (name_at (table ++ new)) (map (fun w => dget_def str_eqb w 1 (later (str_to_idx_first table) new)) pieces) pieces).
  { clear - Hnames Hp. induction Hnames as [|w pieces Hw _ IH]; cbn [map]; constructor; [|exact IH]. destruct (later_get table new Hp w) as [L1 L2]. unfold dget_def.
    destruct (dget str_eqb w (later (str_to_idx_first table) new)) as [i|]; [apply L1; reflexivity|exfalso; exact (L2 eq_refl Hw)]. }
  assert (F2 : Forall2 (name_at (table ++ new)) ids' pieces).
  { apply mapM_forall2 in He. clear - He Hnames Es'. induction He as [|w i pieces ids E _ IH]; inversion Hnames as [|? ? Hw Hn]; subst; constructor; [|exact (IH Hn)].
    unfold piece_id in E. cbn [s_unk s_str_to_idx] in E. injection E as <-. unfold dget_def.
    destruct (dget str_eqb w (str_to_idx_first (table ++ new))) as [i|] eqn:Ei; [apply str_to_idx_first_get in Ei; apply Ei|apply str_to_idx_first_none in Ei; contradiction]. }
  assert (Hdec : forall ids, Forall2 (name_at (table ++ new)) ids pieces -> decode s' ids = decode_str s' pieces).
  { intros ids F. unfold decode. rewrite Es' at 1. cbn [s_idx_to_str].
    assert (E : mapM (py_nth (map t_name (table ++ new))) ids = Ok pieces); [|rewrite E; reflexivity].
    apply mapM_forall2. clear - F. induction F as [|i w ids0 ws (H0 & t & Ht & En) _ IH]; constructor; [|exact IH].
    rewrite <- (Z2Nat.id i) by exact H0. apply py_nth_of_nat. rewrite nth_error_map, Ht. cbn [option_map]. rewrite En. reflexivity. }
  split; [|split; [reflexivity|split; [exact F1|split; [exact F2|]]]].
  - unfold encode.
    assert (E1 : encode_str (grown_codec table new) line = encode_str s' line) by (rewrite Es'; reflexivity). rewrite E1, Ep. cbn [bind]. unfold grown_codec at 1. cbn [s_kind].
    apply mapM_forall2. clear. induction pieces as [|w pieces IH]; cbn [map]; constructor; [reflexivity|exact IH].
  - rewrite (Hdec _ F2). assert (E1 : forall ids, decode (grown_codec table new) ids = decode s' ids) by (intros ids; rewrite Es'; reflexivity). rewrite E1. apply Hdec, F1.
Qed.

(** What is refused. *)
Lemma merges_end n : forall x x', xt_merges n x = Ok x' -> (n <= length (x_buffer x))%nat.
Proof.
  induction n as [|n IH]; intros x x' H; [lia|]. cbn [xt_merges] in H. destruct (xt_merge x) as [[m x1]|e] eqn:E; [|discriminate H]. cbn [bind] in H.
  unfold xt_merge in E. destruct (x_buffer x) as [|t rest] eqn:Eb; [discriminate E|]. cbv zeta in E. destruct (_ && _); [|discriminate E]. cbn [assert_ bind] in E. injection E as <- <-.
  specialize (IH _ _ H). cbn [x_buffer length] in *. lia.
Qed.
Theorem merge_refused table new s t rest : make_scheme KBpe table = Ok s -> in_place (length table) new ->
  exists x, xt_merges (length new) (MkXt s new) = Ok x /\ xt_merge x = Raise AssertionError /\
  forall (Ht : t_idx t <> Z.of_nat (length (table ++ new))), exists x2, xt_merges (length new) (MkXt s (new ++ t :: rest)) = Ok x2 /\ xt_merge x2 = Raise AssertionError.
Proof.
  intros Hs Hp. rewrite (start_grown _ _ Hs). exists (MkXt (grown_codec table new) []).
  split; [pose proof (merges_grown table new [] []) as M; rewrite !app_nil_r in M; exact (M Hp)|]. split; [reflexivity|].
  intros Ht. exists (MkXt (grown_codec table new) (t :: rest)). split; [apply (merges_grown table new [] (t :: rest)); rewrite app_nil_r; exact Hp|].
  unfold xt_merge, grown_codec. cbn [x_buffer x_codec s_table s_idx_to_str]. rewrite map_length, Nat.eqb_refl. cbn [andb].
  rewrite (proj2 (Z.eqb_neq _ _)) by congruence. reflexivity.
Qed.

(** The tracker. *)
Lemma track_codec_loop_eq orders table buffer : forall i done st,
  track_codec_loop orders i (grown_codec table done) buffer st =
  bind (track_loop orders i (length (table ++ done)) buffer st) (fun rows => Ok (rows, MkXt (grown_codec table (done ++ buffer)) [])).
Proof.
  induction buffer as [|t rest IH]; intros i done st.
  - cbn [track_codec_loop track_loop]. change (s_table (grown_codec table done)) with (table ++ done). destruct (measure _ st); [|reflexivity]. cbn [bind]. rewrite app_nil_r. reflexivity.
  - cbn [track_codec_loop track_loop]. change (s_table (grown_codec table done)) with (table ++ done). destruct (measure _ st) as [here|]; [|reflexivity]. cbn [bind].
    destruct (Z.eq_dec (t_idx t) (Z.of_nat (length (table ++ done)))) as [E|E].
    + rewrite (merge_grown table done t rest E). cbn [bind x_codec]. rewrite E, Z.eqb_refl. cbn [assert_ bind]. destruct (track_merge _ t st) as [st'|]; [|reflexivity]. cbn [bind].
      rewrite IH. rewrite !app_assoc, (app_length (table ++ done)). cbn [length]. rewrite Nat.add_1_r. destruct (track_loop _ _ _ rest st'); cbn [bind]; [|reflexivity]. rewrite <- !app_assoc. reflexivity.
    + unfold xt_merge, grown_codec. cbn [x_buffer x_codec s_table s_idx_to_str]. rewrite map_length, Nat.eqb_refl. cbn [andb].
      rewrite (proj2 (Z.eqb_neq (Z.of_nat (length (table ++ done))) (t_idx t))) by congruence. reflexivity.
Qed.
Theorem track_codec_eq orders table s buffer data : make_scheme KBpe table = Ok s ->
  track_codec orders (MkXt s buffer) data =
  bind (track_merges orders (length table) buffer data) (fun rows => Ok (rows, MkXt (grown_codec table buffer) [])).
Proof.
  intros Hs. unfold track_codec, track_merges. destruct (track_index data) as [st|]; [|reflexivity]. cbn [bind x_codec x_buffer].
  rewrite (start_grown _ _ Hs), (track_codec_loop_eq orders table buffer 0 [] st), app_nil_r. reflexivity.
Qed.
Theorem track_codec_grown orders table s buffer data rows x : make_scheme KBpe table = Ok s ->
  track_codec orders (MkXt s buffer) data = Ok (rows, x) ->
  track_merges orders (length table) buffer data = Ok rows /\ xt_merges (length buffer) (MkXt s buffer) = Ok x.
Proof.
  intros Hs H. rewrite (track_codec_eq _ _ _ _ _ Hs) in H. destruct (track_merges orders (length table) buffer data) as [rows'|] eqn:E; [|discriminate H].
  cbn [bind] in H. injection H as <- <-. split; [reflexivity|].
  assert (G : forall b i k st r, track_loop orders i k b st = Ok r -> in_place k b).
  { clear. induction b as [|t b IH]; intros i k st r H n u Hn; [destruct n; discriminate Hn|]. cbn [track_loop] in H. destruct (measure k st); [|discriminate H]. cbn [bind] in H.
    destruct (Z.eqb_spec (Z.of_nat k) (t_idx t)) as [E|]; [|discriminate H]. cbn [assert_ bind] in H. destruct (track_merge (orders i) t st) as [st'|]; [|discriminate H]. cbn [bind] in H.
    destruct (track_loop orders (S i) (S k) b st') as [r'|] eqn:Er; [|discriminate H]. destruct n as [|n]; [injection Hn as <-; rewrite Nat.add_0_r; symmetry; exact E|].
    rewrite (IH _ _ _ _ Er n u Hn). f_equal. lia. }
  unfold track_merges in E. destruct (track_index data) as [st|]; [|discriminate E]. cbn [bind] in E. apply G in E.
  rewrite (start_grown _ _ Hs). pose proof (merges_grown table buffer [] []) as M. rewrite !app_nil_r in M. exact (M E).
Qed.

(** From a file. *)
Lemma skipn_plus {A} k j (l : list A) : skipn j (skipn k l) = skipn (k + j) l.
Proof. revert l. induction k as [|k IH]; intros [|x l]; cbn [skipn Nat.add]; [reflexivity|reflexivity|destruct j; reflexivity|apply IH]. Qed.
Theorem file_grown version now types meta k ps j :
  scalars version -> scalars now -> meta_ok meta -> NoDup (map fst meta) -> ~ In (lit "max_level") (map fst meta) ->
  storable types -> starts_reserved types -> ~ has_name types [] -> (6 <= k)%nat -> bpe_layout k types ps -> (k + j <= length types)%nat ->
  exists bytes x0 x s, write_out version now types meta = (bytes, Ok tt) /\ xt_open bytes = Ok x0 /\ merges_remaining x0 = Z.of_nat (length types - k) /\ total_types x0 = Z.of_nat (length types) /\
    xt_merges j x0 = Ok x /\ x_buffer x = skipn (k + j) types /\ s_table (x_codec x) = firstn (k + j) types /\
    make_scheme KBpe (firstn (k + j) types) = Ok s /\
    (forall line, encode_str (x_codec x) line = encode_str s line) /\ (forall ids, decode (x_codec x) ids = decode s ids) /\
    (distinct_names (firstn (k + j) types) -> x_codec x = s).
Proof.
  intros Hv Hn Hm Hnd Hml Hst Hr Hnm Hk Hb Hj.
  destruct (codec_xt_file version now types meta k ps Hv Hn Hm Hnd Hml Hst Hr Hnm Hk Hb) as (bytes & s0 & Ew & Es & Ex).
  assert (E1 : firstn (k + j) types = firstn k types ++ firstn j (skipn k types)).
  { rewrite <- (firstn_skipn k types) at 1. rewrite firstn_app, firstn_firstn, firstn_length. replace (Nat.min (k + j) k) with k by lia. replace (k + j - Nat.min k (length types))%nat with j by lia. reflexivity. }
  assert (E2 : skipn k types = firstn j (skipn k types) ++ skipn (k + j) types).
  { rewrite <- (firstn_skipn j (skipn k types)) at 1. f_equal. apply skipn_plus. }
  assert (Lj : length (firstn j (skipn k types)) = j) by (rewrite firstn_length, skipn_length; lia).
  assert (Lk : length (firstn k types) = k) by (rewrite firstn_length; lia).
  assert (Hs' : exists s', make_scheme KBpe (firstn (k + j) types) = Ok s').
  { eexists. apply make_bpe_inv. split; [|split; [|reflexivity]].
    - unfold starts_reserved in *. rewrite <- firstn_map, firstn_firstn. replace (Nat.min 6 (k + j)) with 6%nat by lia. exact Hr.
    - intros (u & Hu & E). apply Hnm. exists u. split; [|exact E]. rewrite <- (firstn_skipn (k + j) types), in_app_iff. left. exact Hu. }
  destruct Hs' as (s' & Hs'). rewrite E1 in Hs'.
  assert (Hp : in_place (length (firstn k types)) (firstn j (skipn k types))).
  { intros n t Hn'. assert (n < j)%nat by (rewrite <- Lj; apply nth_error_Some; congruence). apply (proj1 (proj2 Hst)). rewrite Lk. rewrite <- Hn'.
    rewrite <- (firstn_skipn k types) at 1. rewrite nth_error_app2 by lia. rewrite Lk. replace (k + n - k)%nat with n by lia.
    rewrite E2 at 1. rewrite nth_error_app1 by lia. reflexivity. }
  destruct (grown_like _ _ _ _ (skipn (k + j) types) Es Hs' Hp) as (x & X1 & X2 & X3 & X4 & _ & X5 & X6).
  exists bytes, (MkXt s0 (skipn k types)), x, s'. split; [exact Ew|]. split; [unfold xt_open; rewrite Ex; reflexivity|].
  assert (Et : s_table s0 = firstn k types) by (apply make_bpe_inv in Es; destruct Es as (_ & _ & ->); reflexivity).
  split; [unfold merges_remaining; cbn [x_buffer]; rewrite skipn_length; reflexivity|].
  split; [unfold total_types, xt_len, merges_remaining; cbn [x_buffer x_codec]; rewrite Et, Lk, skipn_length; lia|].
  split; [rewrite E2; rewrite Lj in X1; exact X1|]. split; [exact X2|]. rewrite E1. split; [exact X3|]. split; [exact Hs'|]. split; [exact X4|]. split; [exact X5|exact X6].
Qed.

(** What peek_merge shows is what the next merge takes over. *)
Theorem peek_next x : (forall t x', xt_merge x = Ok (t, x') -> peek_merge x = Ok t) /\ (x_buffer x = [] -> peek_merge x = Raise IndexError).
Proof.
  unfold xt_merge, peek_merge. destruct (x_buffer x) as [|m rest]; (split; [intros t x'|]).
  - discriminate.
  - reflexivity.
  - destruct (assert_ _); [|discriminate]. cbn [bind]. intros E. injection E as <- _. reflexivity.
  - discriminate.
Qed.
