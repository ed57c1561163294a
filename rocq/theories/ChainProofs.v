(** Three commands in a row: learn, encode, decode. *)
From Coq Require Import Strings.String Lia.
From Verif Require Import Py PyStr PyLemmas StrSpec JsonProofs CodecModel CodecSpec LearnModel LearnSpec LearnBpeModel BpeSpec EvalModel CliSpec MainModel MainSpec MainProofs
     ArgModel ArgSpec CmdModel CmdSpec ArgProofs ArgSound CmdProofs CmdEnd ChainSpec.
Local Open Scope list_scope.

Lemma option_eq_dec_file (a b : option (list N)) : {a = b} + {a <> b}.
Proof. decide equality. apply (list_eq_dec N.eq_dec). Qed.

(** Files are never removed. *)
Lemma opens_stay l f p : f p <> None -> fold_left opens l f p <> None.
Proof.
  revert f. induction l as [|s l IH]; intros f H; [exact H|]. cbn [fold_left]. apply IH. destruct s; try exact H. cbn [opens].
  destruct (str_eqb p0 (lit "-")); [exact H|]. destruct (str_eqb p p0); [discriminate|exact H].
Qed.
Lemma left_stay (A : arith) (Y : system A) f task model q r p : f p <> None -> left_on_disk Y f task model q r p <> None.
Proof.
  intros H. unfold left_on_disk. destruct (match q_out q with Some o => _ | None => false end); [discriminate|].
  destruct (str_eqb task (lit "learn") && str_eqb p model)%bool; [destruct (r_model r); [discriminate|exact H]|exact H].
Qed.

Lemma sensible_more E f g x : (forall p, f p <> None -> g p <> None) -> sensible E f x -> sensible E g x.
Proof.
  intros H. destruct x as [st s]. intros [H1 H2]. split; [|exact H2]. destruct s; auto. destruct H1 as [H1|H1]; [left; exact H1|right; apply H, H1].
Qed.

(** An --out that was given last is among the files opened. *)
Lemma opened l f p : In (SOut p) l -> p <> lit "-" -> fold_left opens l f p = Some [].
Proof.
  revert f. induction l as [|s l IH]; intros f H Hp; [destruct H|]. cbn [fold_left].
  assert (K : forall l f, f p = Some [] -> fold_left opens l f p = Some []).
  { clear - Hp. induction l as [|s l IH]; intros f H; [exact H|]. cbn [fold_left]. apply IH. destruct s; try exact H. cbn [opens].
    destruct (str_eqb p0 (lit "-")); [exact H|]. destruct (str_eqb p p0); [reflexivity|exact H]. }
  destruct H as [->|H]; [|apply IH; assumption]. apply K. cbn [opens]. rewrite (proj2 (str_eqb_neq p (lit "-")) Hp), (proj2 (str_eqb_eq p p) eq_refl). reflexivity.
Qed.
Lemma asked_out_named l p : q_out (fold_left ask l nothing_asked) = Some p -> In (SOut p) l /\ p <> lit "-".
Proof.
  intros H. assert (Z : forall l q, (forall p, q_out q = Some p -> p <> lit "-") -> forall p, q_out (fold_left ask l q) = Some p -> p <> lit "-").
  { clear. induction l as [|s l IH]; intros q Hq p H; [apply Hq, H|]. cbn [fold_left] in H. apply (IH _) in H; [exact H|].
    intros x Hx. destruct q, s; cbn in Hx, Hq |- *; try (apply Hq, Hx). unfold path_of in Hx. destruct (str_eqb p0 (lit "-")) eqn:E; [discriminate|]. injection Hx as <-. apply str_eqb_neq, E. }
  split; [|apply (Z l nothing_asked) in H; [exact H|discriminate]]. apply asked_out in H as [H|H]; [exact H|discriminate].
Qed.

Section Chain.
  Context (A : arith) (Y : system A) (orders : nat -> list nat -> list nat) (version now stdin1 stdin2 stdin3 : str).
  Context (b1 a1 b2 a2 b3 a3 : list (style * setting)) (fs : files) (bt bf : list N) (t m f o d : str).
  Let q1 := fold_left ask (settings b1 a1) nothing_asked.
  Let q2 := fold_left ask (settings b2 a2) nothing_asked.
  Let q3 := fold_left ask (settings b3 a3) nothing_asked.
  Context (S1 : Forall (sensible (y_env Y) (lookup fs)) (b1 ++ a1)).
  Context (S2 : Forall (sensible (y_env Y) (lookup fs)) (b2 ++ a2)).
  Context (S3 : Forall (sensible (y_env Y) (fun p => if str_eqb p o then Some [] else lookup fs p)) (b3 ++ a3)).
  Context (T : lookup fs t = Some bt) (F : lookup fs f = Some bf).
  Context (I1 : q_inp q1 = Some t) (M1 : q_model q1 = Some m) (O1 : forall p, ~ In (SOut p) (settings b1 a1)).
  Context (I2 : q_inp q2 = Some f) (M2 : q_model q2 = Some m) (O2 : q_out q2 = Some o) (P2 : forall p, In (SOut p) (settings b2 a2) -> p <> m /\ p <> f).
  Context (I3 : q_inp q3 = Some o) (M3 : q_model q3 = Some m) (O3 : q_out q3 = Some d) (P3 : forall p, In (SOut p) (settings b3 a3) -> p <> m /\ p <> o).
  Context (FM : f <> m) (Same : q_idx q3 = q_idx q2) (YN : y_bytes Y [] = []).

  Lemma model_given q l : q_model (fold_left ask l nothing_asked) = Some q -> exists p, In (SModel p) l.
  Proof.
    intros H. assert (Z : forall l x, q_model (fold_left ask l x) <> None -> (exists p, In (SModel p) l) \/ q_model x <> None).
    { clear. induction l as [|s l IH]; intros x H; [auto|]. cbn [fold_left] in H. apply IH in H as [[p H]|H]; [left; exists p; right; exact H|].
      destruct x, s; cbn in H |- *; auto. left. eexists. left. reflexivity. }
    destruct (Z l nothing_asked) as [X|X]; [congruence|exact X|]. destruct X. reflexivity.
  Qed.

  Theorem chain (Q : str -> str -> Prop) ls' :
    lines_of (y_text Y bf) ls' ->
    (exists bytes, (forall old, main A orders version now old (asked_options Y (lookup fs) stdin1 (lit "learn") q1) = MkRun (Some bytes) [] None None) /\
       (forall e d', o_task e = lit "encode" -> o_task d' = lit "decode" -> o_indices d' = o_indices e -> lines_of (o_inp e) ls' -> decodes A orders version now bytes e d' Q ls')) ->
    exists e1 e2 encs,
      program A orders version now Y fs stdin1 (line "learn" b1 a1) = Some e1 /\ x_status e1 = 0%Z /\
      program A orders version now Y (x_files e1) stdin2 (line "encode" b2 a2) = Some e2 /\ x_status e2 = 0%Z /\
      lookup (x_files e2) o = Some (y_bytes Y (unlines encs)) /\ List.length encs = List.length ls' /\
      (y_text Y (y_bytes Y (unlines encs)) = unlines encs ->
       exists e3 outs, program A orders version now Y (x_files e2) stdin3 (line "decode" b3 a3) = Some e3 /\ x_status e3 = 0%Z /\
         lookup (x_files e3) d = Some (y_bytes Y (unlines outs)) /\ Forall2 Q ls' outs).
  Proof.
    intros HL (bytes & R1 & RD).
    (* learn *)
    pose proof (nlcodec_understood A Y orders version now fs stdin1 b1 (lit "learn") a1 ltac:(left; reflexivity) S1) as X.
    specialize (X (model_given _ _ M1)). cbv zeta in X. fold (settings b1 a1) in X. fold q1 in X.
    destruct X as (m1 & e1 & QM1 & E1 & St1 & _ & _ & _ & D1). rewrite M1 in QM1. injection QM1 as <-.
    assert (NO : forall p, fold_left opens (settings b1 a1) (lookup fs) p = lookup fs p).
    { intros p. destruct (fold_left opens (settings b1 a1) (lookup fs) p) as [x|] eqn:E, (lookup fs p) as [y|] eqn:E'; try reflexivity.
      - destruct (list_eq_dec N.eq_dec x y) as [->|N]; [reflexivity|]. destruct (O1 p). apply (opens_only _ (lookup fs)). rewrite E, E'. congruence.
      - destruct (O1 p). apply (opens_only _ (lookup fs)). rewrite E, E'. discriminate.
      - destruct (O1 p). apply (opens_only _ (lookup fs)). rewrite E, E'. discriminate. }
    assert (AO : asked_options Y (fold_left opens (settings b1 a1) (lookup fs)) stdin1 (lit "learn") q1 = asked_options Y (lookup fs) stdin1 (lit "learn") q1).
    { unfold asked_options, asked_input. rewrite I1, NO. reflexivity. }
    rewrite AO, R1 in St1, D1. cbn [r_exc] in St1.
    assert (Q1 : q_out q1 = None).
    { destruct (q_out q1) as [p|] eqn:E; [|reflexivity]. apply asked_out_named in E as [E _]. destruct (O1 _ E). }
    assert (L1 : forall p, lookup (x_files e1) p = if str_eqb p m then Some bytes else lookup fs p).
    { intros p. rewrite D1. unfold left_on_disk. rewrite Q1. cbn [r_model].
      change (str_eqb (lit "learn") (lit "learn")) with true. cbn [andb]. destruct (str_eqb p m); [reflexivity|apply NO]. }
    clear D1 AO NO.
    (* encode *)
    assert (S2' : Forall (sensible (y_env Y) (lookup (x_files e1))) (b2 ++ a2)).
    { eapply Forall_impl; [|exact S2]. intros x. apply sensible_more. intros p Hp. rewrite L1. destruct (str_eqb p m); [discriminate|exact Hp]. }
    pose proof (nlcodec_understood A Y orders version now (x_files e1) stdin2 b2 (lit "encode") a2 ltac:(right; left; reflexivity) S2') as X.
    specialize (X (model_given _ _ M2)). cbv zeta in X. fold (settings b2 a2) in X. fold q2 in X.
    destruct X as (m2 & e2 & QM2 & E2 & St2 & _ & _ & _ & D2). rewrite M2 in QM2. injection QM2 as <-.
    set (g2 := fold_left opens (settings b2 a2) (lookup (x_files e1))) in *.
    assert (G2 : forall p, (p = m \/ p = f) -> g2 p = lookup (x_files e1) p).
    { intros p Hp. destruct (list_eq_dec (list_eq_dec N.eq_dec) [] []) as [_|n]; [|destruct n; reflexivity].
      unfold g2. destruct (fold_left opens (settings b2 a2) (lookup (x_files e1)) p) as [x|] eqn:E, (lookup (x_files e1) p) as [y|] eqn:E'; try reflexivity;
        [destruct (list_eq_dec N.eq_dec x y) as [->|N]; [reflexivity|]| | ];
        (destruct (P2 p) as [N1 N2]; [apply (opens_only _ (lookup (x_files e1))); rewrite E, E'; congruence|destruct Hp; contradiction]). }
    assert (G2m : g2 m = Some bytes) by (rewrite G2, L1, (proj2 (str_eqb_eq m m) eq_refl); auto).
    assert (G2f : g2 f = Some bf) by (rewrite G2, L1, (proj2 (str_eqb_neq f m) FM); auto).
    assert (IN2 : o_inp (asked_options Y g2 stdin2 (lit "encode") q2) = y_text Y bf) by (cbn; unfold asked_input; rewrite I2, G2f; reflexivity).
    rewrite G2m in St2, D2.
    set (eo := asked_options Y g2 stdin2 (lit "encode") q2) in *.
    (* decode, given what encode wrote *)
    destruct (asked_out_named _ _ O2) as [O2i O2n].
    assert (OM : o <> m) by (apply (P2 o O2i)).
    assert (DEC : exists encs, main A orders version now (Some bytes) eo = MkRun (Some bytes) (unlines encs) None None /\ List.length encs = List.length ls').
    { destruct (RD eo (MkOptions (lit "decode") [] false (q_idx q2) 0 None None None 0) eq_refl eq_refl eq_refl) as (encs & outs & W1 & W2 & _); [rewrite IN2; exact HL|].
      exists encs. auto. }
    destruct DEC as (encs & W1 & W2). rewrite W1 in St2, D2. cbn [r_exc] in St2.
    assert (L2 : forall p, (p = o -> lookup (x_files e2) p = Some (y_bytes Y (unlines encs))) /\ (p = m -> lookup (x_files e2) p = Some bytes) /\
                           (lookup fs p <> None -> lookup (x_files e2) p <> None)).
    { intros p. rewrite D2. unfold left_on_disk. rewrite O2. cbn [r_out r_model].
      change (str_eqb (lit "encode") (lit "learn")) with false. cbn [andb].
      split; [|split].
      - intros ->. rewrite (proj2 (str_eqb_eq o o) eq_refl). cbn [andb]. destruct (unlines encs) as [|c u]; [|reflexivity].
        unfold g2. rewrite (opened _ _ _ O2i O2n), YN. reflexivity.
      - intros ->. rewrite (proj2 (str_eqb_neq m o)); [|congruence]. cbn [andb]. exact G2m.
      - intros Hp. destruct (str_eqb p o && _)%bool; [discriminate|]. apply opens_stay. rewrite L1. destruct (str_eqb p m); [discriminate|exact Hp]. }
    clear D2. exists e1, e2, encs.
    split; [exact E1|]. split; [exact St1|]. split; [exact E2|]. split; [exact St2|]. split; [apply L2; reflexivity|]. split; [exact W2|].
    intros HT.
    assert (S3' : Forall (sensible (y_env Y) (lookup (x_files e2))) (b3 ++ a3)).
    { eapply Forall_impl; [|exact S3]. intros x. apply sensible_more. intros p Hp. destruct (L2 p) as (Z1 & _ & Z3).
      destruct (str_eqb p o) eqn:Eo; [apply str_eqb_eq in Eo; rewrite (Z1 Eo); discriminate|apply Z3, Hp]. }
    pose proof (nlcodec_understood A Y orders version now (x_files e2) stdin3 b3 (lit "decode") a3 ltac:(right; right; left; reflexivity) S3') as X.
    specialize (X (model_given _ _ M3)). cbv zeta in X. fold (settings b3 a3) in X. fold q3 in X.
    destruct X as (m3 & e3 & QM3 & E3 & St3 & _ & _ & _ & D3). rewrite M3 in QM3. injection QM3 as <-.
    set (g3 := fold_left opens (settings b3 a3) (lookup (x_files e2))) in *.
    assert (G3 : forall p, (p = m \/ p = o) -> g3 p = lookup (x_files e2) p).
    { intros p Hp.
      unfold g3. destruct (fold_left opens (settings b3 a3) (lookup (x_files e2)) p) as [x|] eqn:E, (lookup (x_files e2) p) as [y|] eqn:E'; try reflexivity;
        [destruct (list_eq_dec N.eq_dec x y) as [->|N]; [reflexivity|]| | ];
        (destruct (P3 p) as [N1 N2]; [apply (opens_only _ (lookup (x_files e2))); rewrite E, E'; congruence|destruct Hp; contradiction]). }
    assert (G3m : g3 m = Some bytes) by (rewrite G3; [apply L2; reflexivity|auto]).
    assert (IN3 : o_inp (asked_options Y g3 stdin3 (lit "decode") q3) = unlines encs).
    { cbn. unfold asked_input. rewrite I3, G3 by auto. rewrite (proj1 (L2 o) eq_refl). exact HT. }
    rewrite G3m in St3, D3. set (do_ := asked_options Y g3 stdin3 (lit "decode") q3) in *.
    destruct (RD eo do_ eq_refl eq_refl Same) as (encs' & outs & V1 & V2 & V3 & V4); [rewrite IN2; exact HL|].
    rewrite W1 in V1. injection V1 as V1. rewrite V1 in IN3. specialize (V3 IN3).
    rewrite V3 in St3, D3. cbn [r_exc] in St3. exists e3, outs. split; [exact E3|]. split; [exact St3|]. split; [|exact V4].
    destruct (asked_out_named _ _ O3) as [O3i O3n].
    rewrite D3. unfold left_on_disk. rewrite O3. cbn [r_out r_model]. rewrite (proj2 (str_eqb_eq d d) eq_refl). cbn [andb].
    destruct (unlines outs) as [|c u]; [|reflexivity].
    change (str_eqb (lit "decode") (lit "learn")) with false. cbn [andb]. unfold g3. rewrite (opened _ _ _ O3i O3n), YN. reflexivity.
  Qed.
End Chain.

Section Levels.
  Context (A : arith) (Y : system A) (orders : nat -> list nat -> list nat) (version now stdin1 stdin2 stdin3 : str).
  Context (b1 a1 b2 a2 b3 a3 : list (style * setting)) (fs : files) (bt bf : list N) (t m f o d : str) (ls ls' : list str).
  Context (TL : three_lines Y fs b1 a1 b2 a2 b3 a3 t m f o d) (T : lookup fs t = Some bt) (F : lookup fs f = Some bf) (YN : y_bytes Y [] = []).
  Context (Hv : scalars version) (Hn : scalars now) (Ho : iteration_orders orders).
  Context (L1 : lines_of (y_text Y bt) ls) (SC : scalars (y_text Y bt)) (L2 : lines_of (y_text Y bf) ls').
  Context (Tf : q_tfs (asked_by b1 a1) = false).
  Notation back := (comes_back A Y orders version now fs stdin1 stdin2 stdin3 b1 a1 b2 a2 b3 a3 o d).
  Let o1 := asked_options Y (lookup fs) stdin1 (lit "learn") (asked_by b1 a1).

  Lemma o1_inp : o_inp o1 = y_text Y bt.
  Proof. unfold o1. cbn. unfold asked_input. rewrite (tl_i1 _ _ _ _ _ _ _ _ _ _ _ _ _ TL), T. reflexivity. Qed.

  Lemma back_of (Q : str -> str -> Prop) :
    (exists bytes, main A orders version now None o1 = MkRun (Some bytes) [] None None /\
       (forall e d', o_task e = lit "encode" -> o_task d' = lit "decode" -> o_indices d' = o_indices e -> lines_of (o_inp e) ls' -> decodes A orders version now bytes e d' Q ls')) ->
    back Q ls'.
  Proof.
    intros (bytes & H1 & H2). destruct TL. eapply chain; try eassumption. exists bytes. split; [|exact H2]. fold (asked_by b1 a1). fold o1.
    clear - H1. revert H1. unfold main. change (str_eqb (o_task o1) (lit "learn")) with true. cbv iota. destruct (o_level o1) as [[|c l]|]; [discriminate| |discriminate].
    destruct (DriverModel.learn_vocab A orders version now _ _ _ _ _ _ _ _) as [w r] eqn:E. intros H old'. injection H as H1 H2. rewrite H2.
    destruct w as [w|]; [rewrite H1; reflexivity|discriminate H1].
  Qed.

  Theorem word_back : q_level (asked_by b1 a1) = Some (lit "word") -> (q_vs (asked_by b1 a1) <= 0)%Z ->
    (forall k, q_mf (asked_by b1 a1) = Some k -> (k <= 1)%Z) ->
    (forall l ws w, In l ls' -> StrSpec.words_of l ws -> In w ws -> exists l0 ws0, In l0 ls /\ StrSpec.words_of l0 ws0 /\ In w ws0) ->
    back normal ls'.
  Proof.
    intros HL HV HM HC. apply back_of.
    destruct (word_run A orders version now Hv Hn Ho o1 ls None eq_refl HL Tf HV HM) as (bytes & R1 & R2); [rewrite o1_inp; exact L1|rewrite o1_inp; exact SC|].
    exists bytes. split; [exact R1|]. intros e d' He Hd Hi Hl. apply R2; assumption.
  Qed.

  Theorem char_back : q_level (asked_by b1 a1) = Some (lit "char") -> (q_vs (asked_by b1 a1) <= 0)%Z ->
    q_mf (asked_by b1 a1) = Some 1%Z -> y_num Y (q_cv (asked_by b1 a1)) = None ->
    (forall l c, In l ls' -> In c l -> is_space c = false -> exists l0, In l0 ls /\ In c l0) ->
    back (fun l out => exists norm, normal l norm /\ out = unmark norm) ls'.
  Proof.
    intros HL HV HM HK HC. apply back_of.
    destruct (char_run A orders version now Hv Hn Ho o1 ls None eq_refl HL Tf HV HM HK) as (bytes & R1 & R2); [rewrite o1_inp; exact L1|rewrite o1_inp; exact SC|].
    exists bytes. split; [exact R1|]. intros e d' He Hd Hi Hl. apply R2; assumption.
  Qed.

  Theorem bpe_back e0 : q_level (asked_by b1 a1) = Some (lit "bpe") -> y_num Y (q_cv (asked_by b1 a1)) = None ->
    program A orders version now Y fs stdin1 (line "learn" b1 a1) = Some e0 -> x_status e0 = 0%Z ->
    (forall l c, In l ls' -> In c l -> is_space c = false -> exists l0, In l0 ls /\ In c l0) ->
    back (fun l out => exists norm, normal l norm /\ trimmed (unmark norm) out /\ (~ In MARK l -> out = norm)) ls'.
  Proof.
    intros HL HK E0 X0 HC. apply back_of.
    assert (RE : r_exc (main A orders version now None o1) = None).
    { destruct TL as [s1 s2 s3 i1 mm1 oo1].  clear - s1 i1 mm1 oo1 E0 X0 T.
      pose proof (nlcodec_understood A Y orders version now fs stdin1 b1 (lit "learn") a1 ltac:(left; reflexivity) s1) as X.
      specialize (X (model_given _ _ mm1)). cbv zeta in X. fold (settings b1 a1) in X. fold (asked_by b1 a1) in X.
      destruct X as (m1 & e1 & QM1 & E1 & St1 & _). unfold line in E0. rewrite E0 in E1. injection E1 as <-. rewrite X0 in St1.
      assert (AO : asked_options Y (fold_left opens (settings b1 a1) (lookup fs)) stdin1 (lit "learn") (asked_by b1 a1) = o1).
      { unfold o1, asked_options, asked_input. rewrite i1. replace (fold_left opens (settings b1 a1) (lookup fs) t) with (lookup fs t); [reflexivity|].
        destruct (option_eq_dec_file (fold_left opens (settings b1 a1) (lookup fs) t) (lookup fs t)) as [->|N]; [reflexivity|].
        destruct (oo1 t). apply (opens_only _ _ _ N). }
      rewrite AO in St1. revert St1. clear. generalize (fold_left opens (settings b1 a1) (lookup fs) m1). intros old.
      unfold main. change (str_eqb (o_task o1) (lit "learn")) with true. cbv iota. destruct (o_level o1) as [[|c l]|]; [discriminate| |discriminate].
      destruct (DriverModel.learn_vocab A orders version now _ _ _ _ _ _ _ _) as [w r]. cbn [r_exc]. destruct r; [reflexivity|discriminate]. }
    destruct (bpe_run A orders version now Hv Hn Ho o1 ls None eq_refl HL Tf HK) as (bytes & R1 & R2); [rewrite o1_inp; exact L1|rewrite o1_inp; exact SC|exact RE|].
    exists bytes. split; [exact R1|]. intros e d' He Hd Hi Hl. apply R2; assumption.
  Qed.
End Levels.
