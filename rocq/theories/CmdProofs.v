(** nlcodec from its command line. *)
From Coq Require Import Strings.String Lia.
From Verif Require Import Py PyStr PyLemmas NumProofs LearnModel EvalModel MainModel ArgModel ArgSpec CmdModel CmdSpec ArgProofs ArgSound.
Local Open Scope list_scope.

(** The parsers are proper: decided by computation. *)
Definition proper_nameb (n : str) : bool :=
  match n with
  | d :: c :: r => N.eqb d 45 && negb (str_eqb n [45; 45]%N) && negb (existsb (N.eqb 61) n) && negb (is_digit c)
  | _ => false
  end.
Fixpoint nodupb (l : list str) : bool := match l with [] => true | s :: l' => negb (existsb (str_eqb s) l') && nodupb l' end.
Fixpoint distinctb (P : list opt) : bool :=
  match P with [] => true | o :: P' => negb (existsb (same_opt o) P') && distinctb P' end.
Definition properb (P : list opt) : bool :=
  forallb (fun o => forallb proper_nameb (a_names o)) P && nodupb (map fst (option_strings P)) && distinctb P &&
  forallb (fun o => match a_group o with Some _ => match a_kind o with KFlag _ => true | _ => false end | None => true end) P.

Lemma nodupb_ok l : nodupb l = true -> NoDup l.
Proof.
  induction l as [|s l IH]; intros H; constructor; cbn [nodupb] in H; apply andb_true_iff in H as [H1 H2]; [|apply IH, H2].
  intros X. apply negb_true_iff in H1. assert (existsb (str_eqb s) l = true) as Y by (apply existsb_exists; exists s; split; [assumption|apply str_eqb_refl]).
  rewrite Y in H1. discriminate.
Qed.

Lemma same_opt_sym a b : same_opt a b = same_opt b a.
Proof.
  unfold same_opt. rewrite (str_eqb_sym (a_dest a)). f_equal.
  destruct (strs_eqb (a_names a) (a_names b)) eqn:X.
  - apply strs_eqb_eq in X. rewrite X. symmetry. apply strs_eqb_refl.
  - destruct (strs_eqb (a_names b) (a_names a)) eqn:Y; [|reflexivity]. apply strs_eqb_eq in Y. rewrite Y, strs_eqb_refl in X. discriminate.
Qed.

Lemma distinctb_ok P o p : distinctb P = true -> In o P -> In p P -> same_opt o p = true -> o = p.
Proof.
  induction P as [|q P IH]; intros H Ho Hp S; [destruct Ho|]. cbn [distinctb] in H. apply andb_true_iff in H as [H1 H2]. apply negb_true_iff in H1.
  assert (X : forall r, In r P -> same_opt q r = false).
  { intros r Hr. destruct (same_opt q r) eqn:E; [|reflexivity]. assert (existsb (same_opt q) P = true) as Y by (apply existsb_exists; eauto). rewrite Y in H1. discriminate. }
  destruct Ho as [<-|Ho], Hp as [<-|Hp]; [reflexivity| | |auto].
  - rewrite X in S by assumption. discriminate.
  - rewrite same_opt_sym, X in S by assumption. discriminate.
Qed.

Lemma properb_ok P : properb P = true -> proper P.
Proof.
  unfold properb. rewrite !andb_true_iff. intros (((H1 & H2) & H3) & H4). split; [|split; [|split]].
  - intros o n Ho Hn. rewrite forallb_forall in H1. specialize (H1 o Ho). rewrite forallb_forall in H1. specialize (H1 n Hn).
    destruct n as [|d [|c r]]; try discriminate H1. cbn [proper_nameb] in H1. rewrite !andb_true_iff, !negb_true_iff in H1.
    destruct H1 as (((A & B) & C) & D). apply N.eqb_eq in A. subst d. apply str_eqb_neq in B.
    exists c, r. split; [reflexivity|]. split; [assumption|]. split.
    + intros X. assert (existsb (N.eqb 61) (45%N :: c :: r) = true) as Y by (apply existsb_exists; exists 61%N; split; [assumption|reflexivity]). rewrite Y in C. discriminate.
    + intros [X Y]. unfold is_digit in D. apply N.leb_le in X. apply N.leb_le in Y. rewrite X, Y in D. discriminate.
  - apply nodupb_ok, H2.
  - intros o p Ho Hp En Ed. apply (distinctb_ok P); try assumption. unfold same_opt. rewrite En, Ed, strs_eqb_refl, str_eqb_refl. reflexivity.
  - intros o p g Ho Hp Go Gp. rewrite forallb_forall in H4. pose proof (H4 o Ho) as X. pose proof (H4 p Hp) as Y. rewrite Go in X. rewrite Gp in Y.
    destruct (a_kind o); try discriminate X. destruct (a_kind p); try discriminate Y. eauto.
Qed.

Definition parsers : list (list opt) :=
  [main_parser; learn_parser; freq_parser; bitext_parser; codec_parser; oov_parser; gram_parser; recall_parser; ux_parser; fix_parser].

Lemma parsers_proper P : In P parsers -> proper P.
Proof.
  intros H. apply properb_ok. revert P H. apply Forall_forall. unfold parsers.
  repeat (constructor; [vm_compute; reflexivity|]). constructor.
Qed.

Lemma parsers_simple P : In P parsers -> simple P.
Proof.
  intros H. revert P H. apply Forall_forall. unfold parsers.
  constructor; [|repeat (constructor; [split; [vm_compute; auto|intros o []]|]); constructor].
  split; [vm_compute; auto|]. intros o [<-|[]]. eexists _, _. reflexivity.
Qed.

Definition task_opt : opt := MkOpt [] (lit "task") (KOne CText (Some TASKS)) true VNone None.

Lemma main_positionals : positionals main_parser = [task_opt].
Proof. reflexivity. Qed.

Lemma main_no_many : no_many main_parser.
Proof. intros o c Ho K. assert (Forall (fun o => a_kind o <> KMany c) main_parser) as F by (repeat (constructor; [discriminate|]); constructor).
  rewrite Forall_forall in F. exact (F o Ho K). Qed.

(** Settings as things said. *)
Definition opt_of (s : setting) : opt :=
  match s with
  | SInp _ => one "-i" "--inp" "inp" CRead false VStdin
  | STermFreqs => flag ["-tfs"; "--term-freqs"]%string "term_freqs" true (VBool false) None
  | SOut _ => one "-o" "--out" "out" CWrite false VStdout
  | SModel _ => one "-m" "--model" "model" CText true VNone
  | SIndices => flag ["-idx"; "--indices"]%string "indices" true VNone None
  | SVocabSize _ => one "-vs" "--vocab-size" "vocab_size" CInt false (VInt (-1))
  | SLevel _ => MkOpt [lit "-l"; lit "--level"] (lit "level") (KOne CText (Some LEVELS)) false VNone None
  | SMinFreq _ => one "-mf" "--min-freq" "min_freq" CInt false VNone
  | SCoverage _ => one "-cv" "--char-coverage" "char_coverage" CFloat false (VNum DEF_CHAR_COVERAGE_TEXT)
  | SMinCoEv _ => one "-mce" "--min-co-ev" "min_co_ev" CInt false (VInt 95)
  end.

Definition said_of (ss : style * setting) : said :=
  let (st, s) := ss in
  let '(short, long, arg) := spelt s in
  Given (opt_of s) (match st with Short => lit short | _ => lit long end)
        (match arg with Some a => [a] | None => [] end)
        (match arg, st with Some _, Equals => true | _, _ => false end).

Lemma written_said_of ss : written (said_of ss) = words_of ss.
Proof.
  destruct ss as [st s]. unfold said_of, words_of. destruct (spelt s) as [[short long] [a|]], st; cbn; rewrite ?app_nil_r; reflexivity.
Qed.

Lemma str_of_N_digits n : forall c, In c (str_of_N n) -> (48 <= c <= 57)%N.
Proof.
  intros c Hc. destruct (str_of_N_spec n) as (_ & H & _). unfold NumProofs.all_digits in H. rewrite Forall_forall in H. specialize (H c Hc).
  unfold is_digit in H. apply andb_true_iff in H as [H1 H2]. apply N.leb_le in H1. apply N.leb_le in H2. lia.
Qed.

Lemma plain_int z : plain (str_of_Z z).
Proof.
  assert (X : forall n, plain (str_of_N n)).
  { intros n. left. intros r E. assert (In 45%N (str_of_N n)) as Y by (rewrite E; left; reflexivity). apply str_of_N_digits in Y. lia. }
  destruct z as [|p|p]; cbn [str_of_Z]; [left; intros r; discriminate|apply X|].
  right; right. destruct (str_of_N (Npos p)) as [|d r] eqn:E.
  - destruct (str_of_N_spec (Npos p)) as (H & _). congruence.
  - exists d, r. split; [reflexivity|]. intros c Hc. rewrite <- E in Hc. apply str_of_N_digits in Hc. exact Hc.
Qed.

Lemma well_said_of E f ss : sensible E f ss -> well_said main_parser (said_of ss).
Proof.
  destruct ss as [st s]. intros [_ H].
  assert (IN : In (opt_of s) main_parser) by (destruct s; cbn; tauto).
  destruct s, st; cbn [said_of spelt well_said]; (split; [exact IN|]); (split; [cbn; tauto|]); (split; [reflexivity|]);
    try reflexivity; intros x Hx; (destruct Hx as [<-|[]] || destruct Hx); try apply plain_int; apply H; discriminate.
Qed.

Definition value_of (s : setting) : value :=
  match s with
  | SInp p => if str_eqb p (lit "-") then VStdin else VIn p
  | STermFreqs => VBool true
  | SOut p => if str_eqb p (lit "-") then VStdout else VOut p
  | SModel p => VText p
  | SIndices => VBool true
  | SVocabSize z => VInt z
  | SLevel l => VText l
  | SMinFreq z => VInt z
  | SCoverage t => VNum t
  | SMinCoEv z => VInt z
  end.

Lemma asks_setting E f ss : sensible E f ss ->
  forall bs r f2, asks E task_opt bs (opens f (snd ss)) r f2 ->
  asks E task_opt (said_of ss :: bs) f ((opt_of (snd ss), value_of (snd ss)) :: r) f2.
Proof.
  destruct ss as [st s]. intros [H _] bs r f2 HA. cbn [snd] in *.
  destruct s as [p| |p|p| |z|l|z|t|z]; cbn [said_of spelt opens value_of] in *.
  - destruct (str_eqb p (lit "-")) eqn:X.
    + apply str_eqb_eq in X. subst p. eapply asks_one; [reflexivity|discriminate|apply reads_stdin|exact HA].
    + apply str_eqb_neq in X. destruct H as [H|H]; [contradiction|].
      eapply asks_one; [reflexivity|discriminate|apply reads_file; assumption|exact HA].
  - eapply asks_flag; [reflexivity|exact HA].
  - destruct (str_eqb p (lit "-")) eqn:X.
    + apply str_eqb_eq in X. subst p. eapply asks_one; [reflexivity|discriminate|apply reads_stdout|exact HA].
    + apply str_eqb_neq in X. destruct H as [H|H]; [contradiction|].
      eapply asks_one; [reflexivity|discriminate|apply reads_output; assumption|exact HA].
  - eapply asks_one; [reflexivity|discriminate|apply reads_text|exact HA].
  - eapply asks_flag; [reflexivity|exact HA].
  - eapply asks_one; [reflexivity|discriminate|apply reads_int|exact HA].
  - eapply asks_one; [reflexivity| |apply reads_text|exact HA]. intros l' X. injection X as <-. exact H.
  - eapply asks_one; [reflexivity|discriminate|apply reads_int|exact HA].
  - eapply asks_one; [reflexivity|discriminate|apply reads_float; assumption|exact HA].
  - eapply asks_one; [reflexivity|discriminate|apply reads_int|exact HA].
Qed.

Lemma opens_keeps f s p : f p <> None -> opens f s p <> None.
Proof.
  intros H. destruct s as [| |o| | | | | | |]; try exact H. cbn [opens]. destruct (str_eqb o (lit "-")); [exact H|].
  destruct (str_eqb p o); [discriminate|exact H].
Qed.

Lemma sensible_opens E f s ss : sensible E f ss -> sensible E (opens f s) ss.
Proof.
  destruct ss as [st t]. intros [H1 H2]. split; [|exact H2]. destruct t as [p| | | | | | | | |]; try exact H1.
  destruct H1 as [H1|H1]; [left; exact H1|right; apply opens_keeps, H1].
Qed.

Definition assignments (l : list (style * setting)) : list (opt * value) := map (fun ss => (opt_of (snd ss), value_of (snd ss))) l.

Lemma asks_settings E l f : Forall (sensible E f) l ->
  forall bs r f2, asks E task_opt bs (fold_left opens (map snd l) f) r f2 ->
  asks E task_opt (map said_of l ++ bs) f (assignments l ++ r) f2.
Proof.
  revert f. induction l as [|ss l IH]; intros f H bs r f2 HA; [exact HA|].
  inversion H as [|x y H1 H2]; subst. cbn [map app assignments]. apply asks_setting; [assumption|]. apply IH; [|exact HA].
  eapply Forall_impl; [|exact H2]. intros a. apply sensible_opens.
Qed.

(** The values of the namespace for what was asked. *)
Inductive field : Type := FInp | FTfs | FOut | FModel | FIdx | FVs | FLevel | FMf | FCv | FMce.
Definition dest_of (d : field) : string :=
  match d with FInp => "inp" | FTfs => "term_freqs" | FOut => "out" | FModel => "model" | FIdx => "indices" | FVs => "vocab_size"
  | FLevel => "level" | FMf => "min_freq" | FCv => "char_coverage" | FMce => "min_co_ev" end%string.
Definition field_value (q : asked) (d : field) : value :=
  match d with
  | FInp => match q_inp q with None => VStdin | Some p => VIn p end
  | FTfs => VBool (q_tfs q)
  | FOut => match q_out q with None => VStdout | Some p => VOut p end
  | FModel => match q_model q with None => VNone | Some p => VText p end
  | FIdx => if q_idx q then VBool true else VNone
  | FVs => VInt (q_vs q)
  | FLevel => match q_level q with None => VNone | Some l => VText l end
  | FMf => match q_mf q with None => VNone | Some z => VInt z end
  | FCv => VNum (q_cv q)
  | FMce => VInt (q_mce q)
  end.

Lemma field_step q s d : (if str_eqb (a_dest (opt_of s)) (lit (dest_of d)) then value_of s else field_value q d) = field_value (ask q s) d.
Proof.
  destruct q as [inp tfs out model idx vs level mf cv mce].
  destruct s as [p| |p|p| |z|l|z|t|z], d; cbn -[lit]; try reflexivity; unfold path_of; destruct (str_eqb p (lit "-")); reflexivity.
Qed.

Lemma fields_asked l q d r : last_given (lit (dest_of d)) (assignments l ++ r) (field_value q d)
  = last_given (lit (dest_of d)) r (field_value (fold_left ask (map snd l) q) d).
Proof.
  revert q. induction l as [|ss l IH]; intros q; [reflexivity|]. cbn [assignments map app last_given fold_left]. rewrite field_step. apply IH.
Qed.

Lemma task_kept l v r : last_given (lit "task") (assignments l ++ r) v = last_given (lit "task") r v.
Proof. induction l as [|[st s] l IH]; [reflexivity|]. cbn [assignments map app last_given]. destruct s; exact IH. Qed.

Lemma ask_model q s : q_model q <> None -> q_model (ask q s) <> None.
Proof. destruct q, s; cbn; congruence. Qed.
Lemma asked_model (l : list (style * setting)) q p : In (SModel p) (map snd l) \/ q_model q <> None -> q_model (fold_left ask (map snd l) q) <> None.
Proof.
  revert q. induction l as [|ss l IH]; intros q H; [destruct H as [[]|H]; exact H|]. cbn [map fold_left]. apply IH.
  destruct H as [[H|H]|H]; [right; rewrite H; destruct q; discriminate|left; exact H|right; apply ask_model, H].
Qed.

Theorem nlcodec_understood (A : arith) (Y : system A) orders version now fs stdin before task after :
  In task TASKS -> Forall (sensible (y_env Y) (lookup fs)) (before ++ after) ->
  (exists p, In (SModel p) (map snd (before ++ after))) ->
  let q := fold_left ask (map snd (before ++ after)) nothing_asked in
  let f := fold_left opens (map snd (before ++ after)) (lookup fs) in
  exists model e, q_model q = Some model /\
    let r := main A orders version now (f model) (asked_options Y f stdin task q) in
    program A orders version now Y fs stdin (flat_map words_of before ++ [task] ++ flat_map words_of after) = Some e /\
    x_status e = match r_exc r with None => 0%Z | Some _ => 1%Z end /\
    x_exc e = r_exc r /\ x_printed e = r_printed r /\
    x_stdout e = match q_out q with None => r_out r | Some _ => [] end /\
    (forall p, lookup (x_files e) p = left_on_disk Y f task model q r p).
Proof.
  intros HT HS [mp HM] q f.
  assert (Hq : q_model q <> None) by (apply (asked_model _ _ mp); left; exact HM).
  destruct (q_model q) as [model|] eqn:QM; [|destruct Hq; reflexivity]. clear Hq.
  set (bs := map said_of before ++ [Word task] ++ map said_of after).
  assert (Eargv : flat_map words_of before ++ [task] ++ flat_map words_of after = flat_map written bs).
  { unfold bs. rewrite !flat_map_app. cbn [flat_map written]. rewrite app_nil_r.
    assert (Z : forall l, flat_map words_of l = flat_map written (map said_of l)).
    { induction l as [|x l IH]; [reflexivity|]. cbn [map flat_map]. rewrite written_said_of, IH. reflexivity. }
    rewrite !Z. reflexivity. }
  rewrite Eargv. clear Eargv.
  assert (HSb : Forall (sensible (y_env Y) (lookup fs)) before /\ Forall (sensible (y_env Y) (lookup fs)) after) by (apply Forall_app; exact HS).
  destruct HSb as [HSb HSa].
  assert (HW : Forall (well_said main_parser) bs).
  { unfold bs. apply Forall_app. split; [|apply Forall_app; split].
    - apply Forall_map. eapply Forall_impl; [|exact HSb]. intros a. apply well_said_of.
    - constructor; [|constructor]. cbn [well_said]. left. intros x ->. cbn in HT. intuition discriminate.
    - apply Forall_map. eapply Forall_impl; [|exact HSa]. intros a. apply well_said_of. }
  assert (Hwords : words bs = 1).
  { unfold words, bs. rewrite !filter_app, !app_length.
    assert (Z : forall l, filter is_word (map said_of l) = []).
    { induction l as [|[st s] l IH]; [reflexivity|]. cbn [map filter]. unfold said_of at 1. destruct (spelt s) as [[a b] c]. exact IH. }
    rewrite !Z. reflexivity. }
  set (asg := assignments before ++ (task_opt, VText task) :: assignments after).
  assert (HA : asks (y_env Y) task_opt bs (lookup fs) asg f).
  { unfold bs, asg, f. rewrite map_app, fold_left_app. apply asks_settings; [exact HSb|]. cbn [app].
    eapply asks_word; [reflexivity| |apply reads_text|].
    - intros l X. injection X as <-. exact HT.
    - rewrite <- (app_nil_r (map said_of after)), <- (app_nil_r (assignments after)). apply asks_settings; [|constructor].
      clear - HSa. revert HSa. generalize (lookup fs). induction before as [|b l IH]; intros g HSa; [exact HSa|]. cbn [map fold_left]. apply IH.
      eapply Forall_impl; [|exact HSa]. intros a. apply sensible_opens. }
  assert (HG : forall o v, In (o, v) asg -> a_group o = None).
  { intros o v Ho. unfold asg in Ho. apply in_app_iff in Ho.
    assert (Z : forall l, In (o, v) (assignments l) -> a_group o = None).
    { intros l Hl. apply in_map_iff in Hl as ([st s] & X & _). injection X as <- _. destruct s; reflexivity. }
    destruct Ho as [Ho|[Ho|Ho]]; [apply (Z _ Ho)|injection Ho as <- _; reflexivity|apply (Z _ Ho)]. }
  destruct (understood main_parser (y_env Y) fs bs task_opt asg f) as (ns & fs' & EP & EF & EN).
  - apply parsers_proper. left; reflexivity.
  - exact HW.
  - left. split; [apply main_positionals|]. split; [lia|apply main_no_many].
  - exact HA.
  - intros o p g v w Ho _ Go _. rewrite (HG _ _ Ho) in Go. discriminate.
  - intros o Ho Hr.
    assert (Hm : In (opt_of (SModel mp), VText mp) asg).
    { unfold asg. rewrite map_app in HM. apply in_app_iff in HM. apply in_app_iff.
      destruct HM as [HM|HM]; apply in_map_iff in HM as ([st s] & X & HX); cbn [snd] in X; subst s;
        [left|right; right]; apply in_map_iff; exists (st, SModel mp); split; [reflexivity|exact HX|reflexivity|exact HX]. }
    assert (Forall (fun o => a_required o = true -> o = task_opt \/ o = opt_of (SModel mp)) main_parser) as F.
    { repeat (constructor; [first [discriminate|intros _; left; reflexivity|intros _; right; reflexivity]|]). constructor. }
    rewrite Forall_forall in F. destruct (F o Ho Hr) as [->| ->]; [|eauto].
    exists (VText task). unfold asg. apply in_app_iff. right; left; reflexivity.
  - assert (FV : forall d, get ns (dest_of d) = Some (field_value q d)).
    { intros d. unfold get. rewrite (EN _ (field_value nothing_asked d)) by (destruct d; reflexivity). f_equal.
      unfold asg, q. rewrite fields_asked, map_app, fold_left_app.
      change (last_given (lit (dest_of d)) ((task_opt, VText task) :: assignments after) (field_value (fold_left ask (map snd before) nothing_asked) d))
        with (last_given (lit (dest_of d)) (assignments after)
                (if str_eqb (a_dest task_opt) (lit (dest_of d)) then VText task else field_value (fold_left ask (map snd before) nothing_asked) d)).
      replace (str_eqb (a_dest task_opt) (lit (dest_of d))) with false by (destruct d; reflexivity).
      rewrite <- (app_nil_r (assignments after)). rewrite fields_asked. reflexivity. }
    assert (FT : get ns "task" = Some (VText task)).
    { unfold get. rewrite (EN _ VNone) by reflexivity. f_equal. unfold asg. rewrite task_kept. cbn [last_given].
      replace (str_eqb (a_dest task_opt) (lit "task")) with true by reflexivity.
      rewrite <- (app_nil_r (assignments after)). rewrite task_kept. reflexivity. }
    exists model. unfold program. rewrite EP. unfold options_of.
    pose proof (FV FInp) as F1. pose proof (FV FTfs) as F2. pose proof (FV FOut) as F3. pose proof (FV FModel) as F4. pose proof (FV FIdx) as F5.
    pose proof (FV FVs) as F6. pose proof (FV FLevel) as F7. pose proof (FV FMf) as F8. pose proof (FV FCv) as F9. pose proof (FV FMce) as F10.
    clear FV EN. cbn [dest_of field_value] in *. rewrite QM in F4.
    rewrite FT, F1, F2, F3, F4, F5, F6, F7, F8, F9, F10.
    assert (EI : input_text Y fs' stdin (match q_inp q with Some p => VIn p | None => VStdin end) = asked_input Y f stdin q).
    { unfold asked_input, input_text. destruct (q_inp q) as [p|]; [|reflexivity]. specialize (EF p). unfold lookup in EF. rewrite EF. reflexivity. }
    rewrite EI.
    replace (match (if q_idx q then VBool true else VNone) with VBool b => b | _ => false end) with (q_idx q) by (destruct (q_idx q); reflexivity).
    replace (match match q_level q with Some l => VText l | None => VNone end with VText l => Some l | _ => None end) with (q_level q) by (destruct (q_level q); reflexivity).
    replace (match match q_mf q with Some z => VInt z | None => VNone end with VInt z => Some z | _ => None end) with (q_mf q) by (destruct (q_mf q); reflexivity).
    fold (asked_options Y f stdin task q).
    assert (EM : dget str_eqb model fs' = f model) by (exact (EF model)). rewrite EM.
    set (r := main A orders version now (f model) (asked_options Y f stdin task q)).
    change (o_task (asked_options Y f stdin task q)) with task.
    set (fs2 := if str_eqb task (lit "learn") then match r_model r with Some b => dset str_eqb model b fs' | None => fs' end else fs').
    assert (E2 : forall p, lookup fs2 p = if str_eqb task (lit "learn") && str_eqb p model then match r_model r with Some b => Some b | None => f p end else f p).
    { intros p. unfold fs2. destruct (str_eqb task (lit "learn")); cbn [andb]; [|apply EF].
      destruct (r_model r) as [b|].
      - unfold lookup. rewrite (dget_dset str_eqb str_eqb_eq). destruct (str_eqb p model); [reflexivity|apply EF].
      - rewrite EF. destruct (str_eqb p model); reflexivity. }
    destruct (q_out q) as [o|] eqn:QO.
    + eexists. split; [reflexivity|]. split; [reflexivity|]. cbn [x_status x_exc x_printed x_stdout x_files].
      do 4 (split; [reflexivity|]). intros p. unfold left_on_disk. rewrite QO. destruct (r_out r) as [|c t].
      * rewrite andb_false_r. apply E2.
      * unfold lookup. rewrite (dget_dset str_eqb str_eqb_eq), andb_true_r. destruct (str_eqb p o); [reflexivity|apply E2].
    + eexists. split; [reflexivity|]. split; [reflexivity|]. cbn [x_status x_exc x_printed x_stdout x_files].
      do 4 (split; [reflexivity|]). intros p. unfold left_on_disk. rewrite QO. apply E2.
Qed.
