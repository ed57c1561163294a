(** What the program bpepp does with a line in the documented form, and with any line. *)
From Coq Require Import Strings.String Lia.
From Verif Require Import Py PyStr PyLemmas NumProofs BpeppModel ArgModel ArgSpec ArgProofs ArgSound CmdModel CmdProofs PpArgModel PpCmdSpec PpCmdProofs.
Local Open Scope list_scope.

Lemma vocab_got ns P l w : default_of (lit "vocab") P = Some VNone ->
  (forall d x, str_eqb (lit "inp") (lit d) = false -> default_of (lit d) P = Some x -> get ns d = Some (last_given (lit d) (map asg l) x)) ->
  vocab_said l = Some w -> get ns "vocab" = Some (VText w).
Proof.
  intros D H V. rewrite (H "vocab"%string VNone eq_refl D).
  rewrite (last_given_said (fun s => match s with SVocab p => Some (Some p) | _ => None end) (fun o => match o with Some p => VText p | None => VNone end) (lit "vocab") l None)
    by (intros []; cbn; auto).
  fold (vocab_said l). rewrite V. reflexivity.
Qed.

Theorem encode_said W fs stdin pieces before d inps after v vocab :
  let E := w_env W in let c := if pieces : bool then SEncode else SDecode in let l := before ++ after in
  Forall (good E c) before -> Forall (good E c) after -> named d inps after ->
  vocab_said l = Some vocab -> pos_value c (lookup fs) inps v ->
  exists fs1, (forall p, lookup fs1 p = opened l (lookup fs) p) /\
    pp_program W fs stdin (line c before d inps after) =
    Some (pp_output W fs1 (if str_eqb (out_said l) [45%N] then VStdout else VOut (out_said l))
           (match opened l (lookup fs) vocab with
            | None => ([], Some FileNotFound)
            | Some model => if pieces then pp_cli_encode model (pieces_said l) (pp_input W fs1 stdin v) else pp_cli_decode model (pp_input W fs1 stdin v)
            end)).
Proof.
  intros E c l HB HA HI HV HP.
  destruct (line_parsed E fs c before d inps after v HB HA HI) as (ns & fs1 & P & F & _ & N1 & N2 & N3); try assumption.
  { fold l. rewrite HV. discriminate. }
  { unfold c. destruct pieces; (split; [intros [X|X]; discriminate|split; [intros [X|X]; discriminate|discriminate]]). }
  exists fs1. split; [exact F|]. unfold pp_program. fold E. rewrite P. unfold pp_run.
  rewrite (vocab_got ns (pp_parser c) l vocab) by (try assumption; unfold c; destruct pieces; reflexivity).
  rewrite N1.
  assert (O : get ns "out" = Some (if str_eqb (out_said l) [45%N] then VStdout else VOut (out_said l))).
  { rewrite (N2 "out"%string VStdout eq_refl) by (unfold c; destruct pieces; reflexivity).
    exact (f_equal Some (last_given_said (fun s => match s with SOut p => Some p | _ => None end) (fun p => if str_eqb p [45%N] then VStdout else VOut p) (lit "out") l [45%N]
      ltac:(intros []; cbn; auto))). }
  rewrite O. change (dget str_eqb vocab fs1) with (lookup fs1 vocab). rewrite F.
  fold l. destruct pieces; unfold c.
  - assert (PI : get ns "pieces" = Some (VBool (pieces_said l))).
    { rewrite (N2 "pieces"%string (VBool false) eq_refl eq_refl).
      exact (f_equal Some (last_given_said (fun s => match s with SPieces => Some true | _ => None end) VBool (lit "pieces") l false
        ltac:(intros []; cbn; auto))). }
    rewrite PI. reflexivity.
  - reflexivity.
Qed.

(** The same, seen from outside. *)
Lemma output_seen W fs1 out r p :
  let e := pp_output W fs1 (if str_eqb out [45%N] then VStdout else VOut out) r in
  x_exc e = snd r /\ x_status e = match snd r with None => 0%Z | Some _ => 1%Z end /\ x_printed e = None /\
  x_stdout e = (if str_eqb out [45%N] then fst r else []) /\
  (str_eqb out [45%N] = true \/ p <> out -> lookup (x_files e) p = lookup fs1 p) /\
  (out <> [45%N] -> lookup fs1 out = Some [] -> lookup (x_files e) out = Some (match fst r with [] => [] | t => w_bytes W t end)).
Proof.
  unfold pp_output. destruct (str_eqb out [45%N]) eqn:O; cbn.
  - repeat split; auto. intros H. apply str_eqb_eq in O. congruence.
  - repeat split; auto.
    + intros [X|X]; [discriminate|]. destruct (fst r); [reflexivity|]. apply (dget_dset_other str_eqb str_eqb_eq). exact X.
    + intros _ X. destruct (fst r); [exact X|]. apply (dget_dset_same str_eqb str_eqb_eq).
Qed.

Lemma last_out_in l d : last_said (fun s => match s with SOut p => Some p | _ => None end) l d = d \/
  exists n j, In (SOut (last_said (fun s => match s with SOut p => Some p | _ => None end) l d), n, j) l.
Proof.
  revert d. induction l as [|[[s n] j] l IH]; intros d; cbn [last_said]; [auto|].
  destruct s as [q|q| |z|z|z|z|z|z|q|];
    try (destruct (IH d) as [X|(n' & j' & X)]; [left; exact X|right; exists n', j'; right; exact X]).
  destruct (IH q) as [X|(n' & j' & X)].
  - rewrite X. right. exists n, j. left. reflexivity.
  - right. exists n', j'. right. exact X.
Qed.

Lemma out_opened l f : out_said l <> [45%N] -> opened l f (out_said l) = Some [].
Proof.
  intros H. unfold opened. destruct (last_out_in l [45%N]) as [X|(n & j & X)]; [contradiction|].
  fold (out_said l) in X. replace (existsb _ l) with true; [reflexivity|]. symmetry. apply existsb_exists. eexists. split; [exact X|].
  cbn. apply str_eqb_neq in H. rewrite H, str_eqb_refl. reflexivity.
Qed.

Theorem coding_command W fs stdin pieces before d inps after v vocab :
  let E := w_env W in let c := if pieces : bool then SEncode else SDecode in let l := before ++ after in
  let disk1 := opened l (lookup fs) in
  Forall (good E c) before -> Forall (good E c) after -> named d inps after ->
  vocab_said l = Some vocab -> pos_value c (lookup fs) inps v ->
  let text := match v with VIn p => match disk1 p with Some b => w_text W b | None => [] end | _ => stdin end in
  let r := match disk1 vocab with
           | None => ([], Some FileNotFound)
           | Some model => if pieces then pp_cli_encode model (pieces_said l) text else pp_cli_decode model text
           end in
  exists e, pp_program W fs stdin (line c before d inps after) = Some e /\
    x_exc e = snd r /\ x_status e = match snd r with None => 0%Z | Some _ => 1%Z end /\ x_printed e = None /\
    if str_eqb (out_said l) [45%N] then x_stdout e = fst r /\ (forall p, lookup (x_files e) p = disk1 p)
    else x_stdout e = [] /\ lookup (x_files e) (out_said l) = Some (match fst r with [] => [] | t => w_bytes W t end) /\
         (forall p, p <> out_said l -> lookup (x_files e) p = disk1 p).
Proof.
  intros E c l disk1 HB HA HI HV HP text r.
  destruct (encode_said W fs stdin pieces before d inps after v vocab HB HA HI HV HP) as (fs1 & F & X).
  fold E c l in X. fold disk1 in X.
  assert (T : pp_input W fs1 stdin v = text).
  { unfold text, pp_input. destruct v; try reflexivity. change (dget str_eqb s fs1) with (lookup fs1 s). rewrite F. reflexivity. }
  rewrite T in X. fold r in X. eexists. split; [exact X|].
  pose proof (fun p => output_seen W fs1 (out_said l) r p) as S. cbv zeta in S.
  destruct (S []) as (S1 & S2 & S3 & S4 & _). split; [exact S1|]. split; [exact S2|]. split; [exact S3|].
  destruct (str_eqb (out_said l) [45%N]) eqn:O.
  - split; [exact S4|]. intros p. destruct (S p) as (_ & _ & _ & _ & S5 & _). rewrite S5 by auto. apply F.
  - split; [exact S4|]. pose proof O as O'. apply str_eqb_neq in O'. split.
    + destruct (S []) as (_ & _ & _ & _ & _ & S6). apply S6; [exact O'|]. rewrite F. apply out_opened, O'.
    + intros p Hp. destruct (S p) as (_ & _ & _ & _ & S5 & _). rewrite S5 by auto. apply F.
Qed.

(** Learning. *)
Lemma int_got ns P l d z0 (f : pp_setting -> option Z) :
  (forall d x, str_eqb (lit "inp") (lit d) = false -> default_of (lit d) P = Some x -> get ns d = Some (last_given (lit d) (map asg l) x)) ->
  (forall d, default_of d P = None -> dget str_eqb d ns = None) ->
  str_eqb (lit "inp") (lit d) = false ->
  (forall s, match f s with Some w => str_eqb (a_dest (opt_of s)) (lit d) = true /\ value_of s = VInt w | None => str_eqb (a_dest (opt_of s)) (lit d) = false end) ->
  default_of (lit d) P = Some (VInt z0) \/ (default_of (lit d) P = None /\ forall x, In x l -> f (fst (fst x)) = None) ->
  int_or ns d z0 = last_said f l z0.
Proof.
  intros N2 N3 Hd Hf [D|[D HL]]; unfold int_or.
  - rewrite (N2 d _ Hd D), (last_given_said f VInt (lit d) l z0 Hf). reflexivity.
  - unfold get. rewrite (N3 _ D). clear - HL. induction l as [|[[s n] j] l IH]; [reflexivity|]. cbn [last_said].
    pose proof (HL (s, n, j) (or_introl eq_refl)) as X. cbn [fst] in X. rewrite X. apply IH. intros x Hx. apply HL. right. exact Hx.
Qed.

Lemma size_got ns P l d (f : pp_setting -> option (option Z)) :
  (forall d x, str_eqb (lit "inp") (lit d) = false -> default_of (lit d) P = Some x -> get ns d = Some (last_given (lit d) (map asg l) x)) ->
  (forall d, default_of d P = None -> dget str_eqb d ns = None) ->
  str_eqb (lit "inp") (lit d) = false ->
  (forall s, match f s with Some w => str_eqb (a_dest (opt_of s)) (lit d) = true /\ value_of s = match w with Some z => VInt z | None => VNone end
             | None => str_eqb (a_dest (opt_of s)) (lit d) = false end) ->
  default_of (lit d) P = Some VNone \/ (default_of (lit d) P = None /\ forall x, In x l -> f (fst (fst x)) = None) ->
  int_or ns d 0 = or_zero (last_said f l None).
Proof.
  intros N2 N3 Hd Hf [D|[D HL]]; unfold int_or.
  - rewrite (N2 d _ Hd D).
    pose proof (last_given_said f (fun w => match w with Some z => VInt z | None => VNone end) (lit d) l None Hf) as X. cbv beta iota in X. rewrite X.
    destruct (last_said f l None); reflexivity.
  - unfold get. rewrite (N3 _ D). clear - HL. induction l as [|[[s n] j] l IH]; [reflexivity|]. cbn [last_said].
    pose proof (HL (s, n, j) (or_introl eq_refl)) as X. cbn [fst] in X. rewrite X. apply IH. intros x Hx. apply HL. right. exact Hx.
Qed.

Ltac absent H :=
  (left; reflexivity) ||
  (right; split; [reflexivity|];
   let s := fresh in let n := fresh in let j := fresh in let Hx := fresh in let X := fresh in
   intros [[s n] j] Hx; rewrite Forall_forall in H; destruct (H _ Hx) as (X & _);
   destruct s; cbn in X |- *; try reflexivity; try discriminate X; destruct X; discriminate).

Theorem learn_said W fs stdin c before d inps after vocab :
  let E := w_env W in let l := before ++ after in
  c <> SEncode -> c <> SDecode ->
  Forall (good E c) before -> Forall (good E c) after -> named d inps after -> inps <> [] ->
  vocab_said l = Some vocab -> enough c l ->
  let r := pp_stages W c (map VText inps) vocab (vocab_l1_said l) (args_said l) fs in
  pp_program W fs stdin (line c before d inps after) = Some (MkEnding (match snd r with None => 0 | Some _ => 1 end)%Z (fst r) [] None (snd r)).
Proof.
  intros E l C1 C2 HB HA HI HN HV HQ r.
  assert (PO : pp_pos c = pp_inps_opt) by (destruct c; congruence || reflexivity).
  destruct (line_parsed E fs c before d inps after (VMany (map VText inps)) HB HA HI) as (ns & fs1 & P & _ & F & N1 & N2 & N3).
  { fold l. rewrite HV. discriminate. }
  { exact HQ. }
  { apply pos_files; assumption. }
  specialize (F C1 C2). subst fs1. fold l in N2. assert (HL : Forall (good E c) l) by (apply Forall_app; auto).
  unfold pp_program. fold E. rewrite P. unfold pp_run.
  rewrite (vocab_got ns (pp_parser c) l vocab) by (try assumption; destruct c; reflexivity). rewrite N1.
  assert (A : pp_learn_args ns = args_said l).
  { unfold pp_learn_args, args_said. f_equal.
    - apply (int_got ns (pp_parser c)); try assumption; [reflexivity|intros []; cbn; auto|]. clear - HL C1 C2. destruct c; try congruence; absent HL.
    - apply (int_got ns (pp_parser c)); try assumption; [reflexivity|intros []; cbn; auto|]. clear - HL C1 C2. destruct c; try congruence; absent HL.
    - apply (size_got ns (pp_parser c)); try assumption; [reflexivity|intros []; cbn; auto|]. clear - HL C1 C2. destruct c; try congruence; absent HL.
    - apply (int_got ns (pp_parser c)); try assumption; [reflexivity|intros []; cbn; auto|]. clear - HL C1 C2. destruct c; try congruence; absent HL.
    - apply (size_got ns (pp_parser c)); try assumption; [reflexivity|intros []; cbn; auto|]. clear - HL C1 C2. destruct c; try congruence; absent HL.
    - apply (int_got ns (pp_parser c)); try assumption; [reflexivity|intros []; cbn; auto|]. clear - HL C1 C2. destruct c; try congruence; absent HL.
    - set (f := fun s => match s with SPrepared => Some true | _ => None end).
      assert (D : default_of (lit "prepared") (pp_parser c) = Some (VBool false) \/ (default_of (lit "prepared") (pp_parser c) = None /\ forall x, In x l -> f (fst (fst x)) = None)).
      { clear - HL C1 C2. destruct c; try congruence; absent HL. }
      destruct D as [D|[D D2]].
      + rewrite (N2 "prepared"%string _ eq_refl D).
        pose proof (last_given_said f VBool (lit "prepared") l false ltac:(intros []; cbn; auto)) as X. rewrite X. reflexivity.
      + unfold get. rewrite (N3 _ D). clear - D2. induction l as [|[[s n] j] l IH]; [reflexivity|]. cbn [last_said].
        pose proof (D2 (s, n, j) (or_introl eq_refl)) as X. cbn [fst] in X. rewrite X. apply IH. intros x Hx. apply D2. right. exact Hx. }
  assert (L1 : match get ns "vocab_l1" with Some (VText p) => Some p | _ => None end = vocab_l1_said l).
  { set (f := fun s => match s with SVocabL1 p => Some (Some p) | _ => None end).
    assert (D : default_of (lit "vocab_l1") (pp_parser c) = Some VNone \/ (default_of (lit "vocab_l1") (pp_parser c) = None /\ forall x, In x l -> f (fst (fst x)) = None)).
    { clear - HL C1 C2. destruct c; try congruence; absent HL. }
    unfold vocab_l1_said. fold f. destruct D as [D|[D D2]].
    + rewrite (N2 "vocab_l1"%string _ eq_refl D).
      pose proof (last_given_said f (fun w => match w with Some p => VText p | None => VNone end) (lit "vocab_l1") l None ltac:(intros []; cbn; auto)) as X. cbv beta iota in X. rewrite X.
      destruct (last_said f l None); reflexivity.
    + unfold get. rewrite (N3 _ D). clear - D2. induction l as [|[[s n] j] l IH]; [reflexivity|]. cbn [last_said].
      pose proof (D2 (s, n, j) (or_introl eq_refl)) as X. cbn [fst] in X. rewrite X. apply IH. intros x Hx. apply D2. right. exact Hx. }
  rewrite A, L1. fold r. destruct c; try congruence; unfold r; destruct (pp_stages W _ _ _ _ _ fs) as [fs' e]; reflexivity.
Qed.
