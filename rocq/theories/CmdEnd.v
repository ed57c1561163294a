(** nlcodec on any command line at all. *)
From Coq Require Import Strings.String Lia.
From Verif Require Import Py PyStr PyLemmas NumProofs LearnModel EvalModel MainModel ArgModel ArgSpec CmdModel CmdSpec ArgProofs ArgSound CmdProofs.
Local Open Scope list_scope.

Lemma main_dest d o : In o main_parser -> a_dest o = lit (dest_of d) ->
  o = opt_of (match d with FInp => SInp [] | FTfs => STermFreqs | FOut => SOut [] | FModel => SModel [] | FIdx => SIndices | FVs => SVocabSize 0
              | FLevel => SLevel [] | FMf => SMinFreq 0 | FCv => SCoverage [] | FMce => SMinCoEv 0 end).
Proof.
  intros H. assert (F : Forall (fun o => a_dest o = lit (dest_of d) -> o = opt_of (match d with FInp => SInp [] | FTfs => STermFreqs | FOut => SOut [] | FModel => SModel []
     | FIdx => SIndices | FVs => SVocabSize 0 | FLevel => SLevel [] | FMf => SMinFreq 0 | FCv => SCoverage [] | FMce => SMinCoEv 0 end)) main_parser).
  { destruct d; repeat (constructor; [first [discriminate|intros _; reflexivity]|]); constructor. }
  rewrite Forall_forall in F. exact (F o H).
Qed.

Lemma main_task_dest o : In o main_parser -> a_dest o = lit "task" -> o = task_opt.
Proof.
  intros H. assert (F : Forall (fun o => a_dest o = lit "task" -> o = task_opt) main_parser).
  { repeat (constructor; [first [discriminate|intros _; reflexivity]|]); constructor. }
  rewrite Forall_forall in F. exact (F o H).
Qed.

(** A parsed command line asks for something the help text describes. *)
Theorem accepted_means E fs argv ns fs' : parse_args main_parser E fs argv = Some (Parsed ns fs') ->
  exists task model q, In task TASKS /\ q_model q = Some model /\ from argv model /\
    (forall l, q_level q = Some l -> In l LEVELS) /\ (forall p, q_out q = Some p -> from argv p) /\ (forall p, q_inp q = Some p -> from argv p) /\
    get ns "task" = Some (VText task) /\ (forall d, get ns (dest_of d) = Some (field_value q d)) /\ emptied argv fs fs'.
Proof.
  intros H. destruct (parsed_shape main_parser E fs argv ns fs') as (H1 & H2 & H3); [apply parsers_simple; left; reflexivity|exact H|].
  assert (T : exists task, get ns "task" = Some (VText task) /\ In task TASKS).
  { destruct (H2 task_opt) as (w & o & W1 & W2 & W3 & W4); [cbn; tauto|reflexivity|].
    apply main_task_dest in W2; [|exact W3]. subst o. cbn in W4. destruct W4 as (s & -> & _ & W4). exists s. split; [exact W1|]. apply W4. reflexivity. }
  assert (M : exists model, get ns "model" = Some (VText model) /\ from argv model).
  { destruct (H2 (opt_of (SModel []))) as (w & o & W1 & W2 & W3 & W4); [cbn; tauto|reflexivity|].
    apply (main_dest FModel) in W2; [|exact W3]. subst o. cbn in W4. destruct W4 as (s & -> & W4 & _). exists s. auto. }
  assert (D : forall d v, default_of (lit (dest_of d)) main_parser = Some v -> exists w, get ns (dest_of d) = Some w /\ (w = v \/ kind_fits argv (a_kind (opt_of
     (match d with FInp => SInp [] | FTfs => STermFreqs | FOut => SOut [] | FModel => SModel []
     | FIdx => SIndices | FVs => SVocabSize 0 | FLevel => SLevel [] | FMf => SMinFreq 0 | FCv => SCoverage [] | FMce => SMinCoEv 0 end))) w)).
  { intros d v Hd. destruct (H1 _ _ Hd) as (w & W1 & W2). exists w. split; [exact W1|]. destruct W2 as [->|(o & W2 & W3 & W4)]; [auto|].
    apply (main_dest d) in W2; [|exact W3]. subst o. auto. }
  destruct T as (task & T1 & T2). destruct M as (model & M1 & M2).
  destruct (D FInp VStdin eq_refl) as (v1 & G1 & K1). destruct (D FTfs (VBool false) eq_refl) as (v2 & G2 & K2).
  destruct (D FOut VStdout eq_refl) as (v3 & G3 & K3). destruct (D FIdx VNone eq_refl) as (v5 & G5 & K5).
  destruct (D FVs (VInt (-1)) eq_refl) as (v6 & G6 & K6). destruct (D FLevel VNone eq_refl) as (v7 & G7 & K7).
  destruct (D FMf VNone eq_refl) as (v8 & G8 & K8). destruct (D FCv (VNum DEF_CHAR_COVERAGE_TEXT) eq_refl) as (v9 & G9 & K9).
  destruct (D FMce (VInt 95) eq_refl) as (v10 & G10 & K10). clear D. cbn [opt_of one flag a_kind kind_fits] in *.
  assert (X1 : exists i, v1 = match i with None => VStdin | Some p => VIn p end /\ forall p, i = Some p -> from argv p).
  { destruct K1 as [->|[->|(s & -> & F)]]; [exists None; split; [reflexivity|discriminate]..|]. exists (Some s). split; [reflexivity|]. intros p Z; injection Z as <-; exact F. }
  assert (X2 : exists b, v2 = VBool b) by (destruct K2 as [->| ->]; eauto).
  assert (X3 : exists i, v3 = match i with None => VStdout | Some p => VOut p end /\ forall p, i = Some p -> from argv p).
  { destruct K3 as [->|[->|(s & -> & F)]]; [exists None; split; [reflexivity|discriminate]..|]. exists (Some s). split; [reflexivity|]. intros p Z; injection Z as <-; exact F. }
  assert (X5 : exists b : bool, v5 = if b then VBool true else VNone) by (destruct K5 as [->| ->]; [exists false|exists true]; reflexivity).
  assert (X6 : exists z, v6 = VInt z) by (destruct K6 as [->|(z & ->)]; eauto).
  assert (X7 : exists l, v7 = match l with None => VNone | Some l => VText l end /\ forall x, l = Some x -> In x LEVELS).
  { destruct K7 as [->|(s & -> & _ & F)]; [exists None; split; [reflexivity|discriminate]|]. exists (Some s). split; [reflexivity|]. intros p Z; injection Z as <-. apply F; reflexivity. }
  assert (X8 : exists z, v8 = match z with None => VNone | Some z => VInt z end) by (destruct K8 as [->|(z & ->)]; [exists None|exists (Some z)]; reflexivity).
  assert (X9 : exists s, v9 = VNum s) by (destruct K9 as [->|(z & ->)]; eauto).
  assert (X10 : exists z, v10 = VInt z) by (destruct K10 as [->|(z & ->)]; eauto).
  destruct X1 as (x1 & -> & Y1), X2 as (x2 & ->), X3 as (x3 & -> & Y3), X5 as (x5 & ->), X6 as (x6 & ->), X7 as (x7 & -> & Y7), X8 as (x8 & ->), X9 as (x9 & ->), X10 as (x10 & ->).
  exists task, model, (MkAsked x1 x2 x3 (Some model) x5 x6 x7 x8 x9 x10). cbn [q_model q_level q_out q_inp].
  split; [assumption|]. split; [reflexivity|]. split; [assumption|]. split; [assumption|]. split; [assumption|]. split; [assumption|]. split; [assumption|].
  split; [|exact H3]. intros d; destruct d; assumption.
Qed.

(** The program always ends; what it changes is named on the command line. *)
Theorem program_ends (A : arith) (Y : system A) orders version now fs stdin argv :
  exists e, program A orders version now Y fs stdin argv = Some e /\
    (x_status e = 0 \/ x_status e = 1 \/ x_status e = 2)%Z /\ (x_status e = 1%Z <-> x_exc e <> None) /\
    (forall p, lookup (x_files e) p <> lookup fs p -> from argv p).
Proof.
  unfold program. destruct (parse_total main_parser (y_env Y) fs argv) as (r & E & R); [apply parsers_simple; left; reflexivity|].
  assert (EM : forall fs', emptied argv fs fs' -> forall p, lookup fs' p <> lookup fs p -> from argv p).
  { intros fs' H p Hp. destruct (H p) as [X|[_ X]]; [contradiction|exact X]. }
  rewrite E. destruct r as [ns fs'|c fs'].
  2:{ destruct R as [R1 R2]. eexists. split; [reflexivity|]. cbn. split; [tauto|]. split; [|apply EM, R1].
      split; [intros ->; destruct R2; discriminate|congruence]. }
  destruct (accepted_means _ _ _ _ _ E) as (task & model & q & HT & QM & FM & QL & QO & QI & GT & GF & EF).
  pose proof (GF FInp) as F1. pose proof (GF FTfs) as F2. pose proof (GF FOut) as F3. pose proof (GF FModel) as F4. pose proof (GF FIdx) as F5.
  pose proof (GF FVs) as F6. pose proof (GF FLevel) as F7. pose proof (GF FMf) as F8. pose proof (GF FCv) as F9. pose proof (GF FMce) as F10.
  clear GF. cbn [dest_of field_value] in *. rewrite QM in F4. unfold options_of.
  rewrite GT, F1, F2, F3, F4, F5, F6, F7, F8, F9, F10.
  set (o := MkOptions _ _ _ _ _ _ _ _ _). set (r := main A orders version now (dget str_eqb model fs') o).
  set (fs2 := if str_eqb (o_task o) (lit "learn") then match r_model r with Some b => dset str_eqb model b fs' | None => fs' end else fs').
  assert (E2 : forall p, lookup fs2 p <> lookup fs p -> from argv p).
  { intros p. unfold fs2. destruct (str_eqb (o_task o) (lit "learn")); [|apply EM, EF]. destruct (r_model r) as [b|]; [|apply EM, EF].
    unfold lookup. rewrite (dget_dset str_eqb str_eqb_eq). destruct (str_eqb p model) eqn:X; [|apply EM, EF].
    apply str_eqb_eq in X. subst p. intros _. exact FM. }
  assert (ST : (match r_exc r with None => 0%Z | Some _ => 1%Z end = 0 \/ match r_exc r with None => 0%Z | Some _ => 1%Z end = 1 \/ match r_exc r with None => 0%Z | Some _ => 1%Z end = 2)%Z)
    by (destruct (r_exc r); auto).
  assert (SX : (match r_exc r with None => 0%Z | Some _ => 1%Z end = 1%Z <-> r_exc r <> None)) by (destruct (r_exc r); split; congruence).
  destruct (q_out q) as [op|] eqn:QO'; eexists; (split; [reflexivity|]); cbn [x_status x_exc x_files]; (split; [exact ST|]); (split; [exact SX|]); [|exact E2].
  intros p. destruct (r_out r) as [|c t]; [apply E2|]. unfold lookup. rewrite (dget_dset str_eqb str_eqb_eq).
  destruct (str_eqb p op) eqn:X; [|apply E2]. apply str_eqb_eq in X. subst p. intros _. apply QO. reflexivity.
Qed.

(** Words that are no option: they are never taken for an argument, so the line is refused. *)
Definition unknown (t : tok) : bool := match t with TOpt None _ _ _ _ => true | _ => false end.

Lemma unknown_args a r : existsb unknown (map TArg a ++ r) = existsb unknown r.
Proof. induction a as [|s a IH]; [reflexivity|exact IH]. Qed.

Lemma match_argument_unknown k ts args ts' : match_argument k ts = Some (args, ts') -> existsb unknown ts' = existsb unknown ts.
Proof.
  destruct k as [c ch|c|b|]; cbn [match_argument]; intros H.
  - destruct ts as [|[] ts]; try discriminate. injection H as <- <-. reflexivity.
  - assert (X : forall ts a r, span_args ts = (a, r) -> ts = map TArg a ++ r).
    { clear. induction ts as [|[s|s|] ts IH]; intros a r H; cbn [span_args] in H; try (injection H as <- <-; reflexivity).
      destruct (span_args ts) as [a' r']. injection H as <- <-. cbn. f_equal. apply IH. reflexivity. }
    destruct (span_args ts) as [a r] eqn:S. apply X in S. destruct a; [discriminate|]. injection H as <- <-. rewrite S. symmetry. exact (unknown_args (_ :: _) _).
  - injection H as <- <-. reflexivity.
  - injection H as <- <-. reflexivity.
Qed.

Lemma attached_unknown P o name eq e ts l acts extra ts' :
  attached_loop P o name eq e ts l = Some (acts, extra, ts') -> existsb unknown ts' = existsb unknown ts.
Proof.
  revert o name eq l. induction e as [e IH] using (well_founded_induction (Wf_nat.well_founded_ltof _ (@List.length N))).
  intros o name eq l H. destruct e as [|c e].
  - cbn [attached_loop] in H. destruct (takes_argument (a_kind o)); [|discriminate]. injection H as <- <- <-. reflexivity.
  - cbn [attached_loop] in H. destruct (takes_argument (a_kind o)); [injection H as <- <- <-; reflexivity|].
    destruct (match name with _ :: d :: _ => N.eqb d DASH | _ => true end); [discriminate|].
    destruct (eq || N.eqb c DASH)%bool; [discriminate|].
    destruct (find_opt P [DASH; c]) as [o'|]; [|injection H as <- <- <-; reflexivity].
    destruct e as [|d e].
    + destruct (match_argument (a_kind o') ts) as [[args r]|] eqn:M; [|discriminate]. injection H as <- <- <-. apply (match_argument_unknown _ _ _ _ M).
    + destruct (N.eqb d 61); [eapply (IH e)|eapply (IH (d :: e))]; try exact H; unfold Wf_nat.ltof; cbn; lia.
Qed.

Lemma take_all_extras E l st st' : take_all E l st = Go st' -> p_extras st' = p_extras st.
Proof.
  revert st. induction l as [|[o args] l IH]; intros st H; cbn [take_all] in H; [injection H as <-; reflexivity|].
  destruct (take_action E o args st) as [st1|] eqn:T; [|discriminate]. rewrite (IH _ H).
  unfold take_action in T. set (a := match a_names o with [] => _ | _ => _ end) in T. clearbody a.
  destruct (a_kind o) as [c ch|c|b|].
  - assert (X : forall v, match convert_all E c a (p_files st) with (None, fs) => Quit 2 fs
       | (Some vs, fs) => Go (MkPstate (dset str_eqb (a_dest o) (VMany vs) (p_ns st)) (o :: p_seen st) fs (p_extras st)) end = Go v -> p_extras v = p_extras st).
    { intros v. destruct (convert_all E c a (p_files st)) as [[vs|] fs]; [|discriminate]. intros Z. injection Z as <-. reflexivity. }
    destruct a as [|s [|]]; [apply X, T| |apply X, T]. destruct (convert E c s (p_files st)) as [[v fs]|]; [|discriminate].
    destruct (match ch with None => true | Some l => existsb (str_eqb s) l end); [|discriminate]. injection T as <-. reflexivity.
  - destruct (convert_all E c a (p_files st)) as [[vs|] fs]; [|discriminate]. injection T as <-. reflexivity.
  - destruct (conflicts o (p_seen st)); [discriminate|]. injection T as <-. reflexivity.
  - discriminate.
Qed.

Lemma span_dash_unknown ts a r : span_dash ts = (a, r) -> existsb unknown r = existsb unknown ts.
Proof.
  revert a r. induction ts as [|[s|s|] ts IH]; intros a r H; cbn [span_dash] in H; try (injection H as <- <-; reflexivity).
  destruct (span_dash ts) as [a' r']. injection H as <- <-. exact (IH _ _ eq_refl).
Qed.

Lemma consume_positionals_unknown E pos ts st st' pos' ts' : consume_positionals E pos ts st = Go (st', pos', ts') ->
  existsb unknown ts' = existsb unknown ts /\ p_extras st' = p_extras st.
Proof.
  revert ts st. induction pos as [|o pos IH]; intros ts st H; cbn [consume_positionals] in H; [injection H as <- <- <-; auto|].
  destruct (match_positional ts) as [[args r]|] eqn:M; [|injection H as <- <- <-; auto].
  destruct (take_action E o args st) as [st1|] eqn:T; [|discriminate]. destruct (IH _ _ H) as [I1 I2].
  pose proof (take_all_extras E [(o, args)] st st1) as X. cbn [take_all] in X. rewrite T in X. specialize (X eq_refl).
  split; [|congruence]. rewrite I1. unfold match_positional in M. destruct (span_dash ts) as [a t1] eqn:S1. apply span_dash_unknown in S1.
  destruct t1 as [|[s|s|] t1]; try discriminate. destruct (span_dash t1) as [b t2] eqn:S2. apply span_dash_unknown in S2. injection M as <- <-. rewrite S2. exact S1.
Qed.

Lemma read_words_unknown fuel P E pos ts st st' :
  read_words fuel P E pos ts st = Some (Go st') -> existsb unknown ts = true \/ p_extras st <> [] -> p_extras st' <> [].
Proof.
  revert pos ts st. induction fuel as [|fuel IH]; intros pos ts st H HU; [discriminate|]. cbn [read_words] in H.
  assert (NE : forall (A : Type) (x y : list A), x <> [] -> x ++ y <> []) by (intros A [|a x] y Z; [congruence|discriminate]).
  assert (NONOPT : match ts with TOpt _ _ _ _ _ :: _ => False | _ => True end ->
     match consume_positionals E pos ts st with
            | Quit c fs => Some (Quit c fs)
            | Go (st', pos', ts') =>
                if Nat.ltb (List.length ts') (List.length ts) then read_words fuel P E pos' ts' st'
                else let (words, ts'') := span_words ts in
                     read_words fuel P E pos' ts'' (MkPstate (p_ns st') (p_seen st') (p_files st') (p_extras st' ++ words))
            end = Some (Go st') -> p_extras st' <> []).
  { intros _ HH. destruct (consume_positionals E pos ts st) as [[[st1 pos1] ts1]|] eqn:C; [|discriminate].
    apply consume_positionals_unknown in C as [C1 C2].
    destruct (Nat.ltb (List.length ts1) (List.length ts)).
    - apply (IH _ _ _ HH). rewrite C1, C2. exact HU.
    - destruct (span_words ts) as [w r] eqn:S. apply (IH _ _ _ HH). cbn [p_extras]. rewrite C2.
      destruct HU as [HU|HU]; [left|right; apply NE, HU].
      rewrite <- HU. clear - S. revert w r S. induction ts as [|t ts IH]; intros w r S; cbn [span_words] in S; [injection S as <- <-; reflexivity|].
      destruct (is_option t) eqn:O; [injection S as <- <-; reflexivity|]. destruct (span_words ts) as [w' r']. injection S as <- <-.
      cbn [existsb]. rewrite (IH _ _ eq_refl). destruct t; [reflexivity|reflexivity|discriminate O]. }
  destruct (existsb is_option ts) eqn:EX.
  - destruct ts as [|[s|s|o n eq att raw] ts]; [discriminate|apply NONOPT; [exact I|exact H]|apply NONOPT; [exact I|exact H]|].
    destruct (consume_optional P E o n eq att raw ts st) as [[st1 ts1]|] eqn:C; [|discriminate]. apply (IH _ _ _ H).
    unfold consume_optional in C. destruct o as [o|].
    2:{ injection C as <- <-. right. cbn. destruct (p_extras st); discriminate. }
    cbn [existsb unknown orb] in HU. set (m := match att with None => _ | Some e => _ end) in C.
    assert (HM : forall acts extra ts', m = Some (acts, extra, ts') -> existsb unknown ts' = existsb unknown ts).
    { intros acts extra ts'. unfold m. destruct att as [e|]; [apply attached_unknown|].
      destruct (match_argument (a_kind o) ts) as [[args r]|] eqn:M; [|discriminate]. intros Z. injection Z as <- <- <-. apply (match_argument_unknown _ _ _ _ M). }
    destruct m as [[[acts extra] ts']|]; [|discriminate]. specialize (HM _ _ _ eq_refl).
    destruct (take_all E acts _) as [st2|] eqn:T; [|discriminate]. injection C as <- <-. apply take_all_extras in T. cbn [p_extras] in T.
    rewrite HM, T. destruct HU as [HU|HU]; [left; exact HU|right; apply NE, HU].
  - assert (existsb unknown ts = false).
    { clear - EX. induction ts as [|t ts IH]; [reflexivity|]. cbn [existsb] in *. apply orb_false_iff in EX as [E1 E2]. rewrite (IH E2). destruct t; [reflexivity|reflexivity|discriminate E1]. }
    rewrite H0 in HU. destruct HU as [HU|HU]; [discriminate|].
    destruct (consume_positionals E pos ts st) as [[[st1 pos1] ts1]|] eqn:C; [|discriminate]. apply consume_positionals_unknown in C as [C1 C2].
    injection H as <-. cbn [p_extras]. rewrite C2. apply NE, HU.
Qed.

(** A word that begins with two dashes, before any '--', without a blank, whose part before '=' begins no
    declared name. *)
Theorem unknown_refused P E fs before w after ns fs' :
  ~ In [45; 45]%N before -> w <> [45; 45]%N -> (exists r, w = (45 :: 45 :: r)%N) -> ~ In 32%N w ->
  (forall o n, In o P -> In n (a_names o) -> forall a b, w = a ++ b -> (b = [] \/ exists c, b = 61%N :: c) -> startswith a n = false) ->
  parse_args P E fs (before ++ w :: after) <> Some (Parsed ns fs').
Proof.
  intros HB HW (rest & Ew) HS HN H. unfold parse_args in H.
  destruct (classify P (before ++ w :: after)) as [ts|] eqn:C; [|discriminate].
  assert (SW : forall a, startswith a a = true) by (induction a as [|x a IHa]; [reflexivity|cbn; rewrite N.eqb_refl; exact IHa]).
  assert (FN : forall a b o, w = a ++ b -> (b = [] \/ exists c, b = 61%N :: c) -> find_opt P a <> Some o).
  { intros a b o Ea Hb F. apply find_opt_in in F as [F1 F2]. pose proof (HN o a F1 F2 a b Ea Hb) as X. rewrite SW in X. discriminate X. }
  assert (PW : parse_optional P w = Some (TOpt None w false None w)).
  { assert (UN : parse_optional P w = match find_opt P w with
           | Some o => Some (TOpt (Some o) w false None w)
           | None => match (match partition_eq w with
                          | Some (n, e) => match find_opt P n with Some o => Some (TOpt (Some o) n true (Some e) w) | None => None end
                          | None => None
                          end) with
                   | Some t => Some t
                   | None => match option_tuples P w with
                       | _ :: _ :: _ => None
                       | [(o, n, eq, e)] => Some (TOpt (Some o) n eq e w)
                       | [] => if negative_like w then Some (TArg w) else if existsb (N.eqb SPACE) w then Some (TArg w) else Some (TOpt None w false None w)
                       end
                   end
           end) by (rewrite Ew; reflexivity).
    assert (UT : option_tuples P w = let '(prefix, eq, attached) :=
          match partition_eq w with Some (a, b) => (a, true, Some b) | None => (w, false, None) end in
        flat_map (fun no : str * opt => if startswith prefix (fst no) then [(snd no, fst no, eq, attached)] else []) (option_strings P)) by (rewrite Ew; reflexivity).
    assert (FZ : forall (x : str) e t l, (forall no, In no l -> startswith x (fst no) = false) ->
        flat_map (fun no : str * opt => if startswith x (fst no) then [(snd no, fst no, e : bool, t : option str)] else []) l = []).
    { clear. intros x e t l. induction l as [|no l IH]; intros Z; [reflexivity|]. cbn [flat_map]. rewrite (Z no (or_introl eq_refl)). apply IH. intros y Hy; apply Z; right; exact Hy. }
    assert (OT : option_tuples P w = []).
    { rewrite UT. destruct (partition_eq w) as [[a b]|] eqn:PE.
      - apply partition_app in PE. rewrite <- app_assoc in PE. cbn [app] in PE. apply FZ.
        intros [n o] Hn. apply in_option_strings in Hn as [H1 H2]. apply (HN o n H1 H2 a (61%N :: b) PE). right; eauto.
      - apply FZ. intros [n o] Hn. apply in_option_strings in Hn as [H1 H2]. apply (HN o n H1 H2 w [] (eq_sym (app_nil_r w))). left; reflexivity. }
    assert (NG : negative_like w = false) by (rewrite Ew; cbn; destruct rest; reflexivity).
    assert (SP : existsb (N.eqb SPACE) w = false).
    { destruct (existsb (N.eqb SPACE) w) eqn:X; [|reflexivity]. apply existsb_exists in X as (c & Hc & X). apply N.eqb_eq in X. unfold SPACE in X. subst c. contradiction. }
    rewrite UN, OT, NG, SP. clear UN UT.
    destruct (find_opt P w) as [o|] eqn:F; [destruct (FN w [] o (eq_sym (app_nil_r w)) (or_introl eq_refl) F)|].
    destruct (partition_eq w) as [[a b]|] eqn:PE; [|reflexivity].
    apply partition_app in PE. rewrite <- app_assoc in PE. cbn [app] in PE.
    destruct (find_opt P a) as [o|] eqn:F'; [destruct (FN a (61%N :: b) o PE (or_intror (ex_intro _ b eq_refl)) F')|reflexivity]. }
  assert (U : existsb unknown ts = true).
  { clear - HB HW PW C. revert ts C. induction before as [|s before IH]; intros ts C; cbn [app classify] in C.
    - assert (X : str_eqb w [DASH; DASH] = false) by (apply str_eqb_neq, HW). rewrite X, PW in C.
      destruct (classify P after); [|discriminate]. injection C as <-. reflexivity.
    - assert (X : str_eqb s [DASH; DASH] = false) by (apply str_eqb_neq; intros Z; apply HB; left; exact Z). rewrite X in C.
      destruct (parse_optional P s); [|discriminate]. destruct (classify P (before ++ w :: after)) as [ts'|]; [|discriminate]. injection C as <-.
      cbn [existsb]. rewrite (IH (fun Z => HB (or_intror Z)) ts' eq_refl). apply orb_true_r. }
  destruct (read_words _ P E _ ts _) as [[st|]|] eqn:R; try discriminate.
  apply read_words_unknown in R; [|left; exact U].
  destruct (existsb _ P); [discriminate|]. destruct (p_extras st); [apply R; reflexivity|discriminate].
Qed.

(** Documented forms with nothing to be read wrong can still be incomplete. *)
Theorem incomplete_refused P E fs bs pos o : proper P -> Forall (well_said P) bs ->
  (positionals P = [pos] /\ words bs <= 1 /\ no_many P) \/ (positionals P = [] /\ words bs = 0) ->
  (exists c ch, a_kind pos = KOne c ch) ->
  In o P -> a_required o = true ->
  (if match a_names o with [] => true | _ => false end then words bs = 0 else forall n args j, ~ In (Given o n args j) bs) ->
  exists fs', parse_args P E fs (flat_map written bs) = Some (Exited 2 fs').
Proof.
  intros HP HW HC (pc & pch & PK) Ho Hr HM. rewrite (parse_said P E fs bs pos HP HW HC).
  assert (Q : forall l st c fs', Forall (fun a => a_kind (fst a) <> KQuit) l -> take_all E l st = Quit c fs' -> c = 2%Z).
  { clear. induction l as [|[o args] l IH]; intros st c fs' HF H; cbn [take_all] in H; [discriminate|]. inversion HF as [|x y H1 H2]; subst. cbn [fst] in H1.
    destruct (take_action E o args st) as [st1|c1 fs1] eqn:T; [eapply IH; eassumption|]. injection H as <- <-.
    unfold take_action in T. set (a := match a_names o with [] => _ | _ => _ end) in T. clearbody a.
    destruct (a_kind o) as [c ch|c|b|]; [| | |destruct H1; reflexivity].
    - assert (X : match convert_all E c a (p_files st) with (None, fs) => Quit 2 fs
       | (Some vs, fs) => Go (MkPstate (dset str_eqb (a_dest o) (VMany vs) (p_ns st)) (o :: p_seen st) fs (p_extras st)) end = Quit c1 fs1 -> c1 = 2%Z).
      { destruct (convert_all E c a (p_files st)) as [[vs|] fs]; [discriminate|]. intros Z. injection Z as <- _. reflexivity. }
      destruct a as [|s [|]]; [apply X, T| |apply X, T]. destruct (convert E c s (p_files st)) as [[v fs]|]; [|injection T as <- _; reflexivity].
      destruct (match ch with None => true | Some l => existsb (str_eqb s) l end); [discriminate|]. injection T as <- _. reflexivity.
    - destruct (convert_all E c a (p_files st)) as [[vs|] fs]; [discriminate|]. injection T as <- _. reflexivity.
    - destruct (conflicts o (p_seen st)); [|discriminate]. injection T as <- _. reflexivity. }
  assert (NQ : Forall (fun a => a_kind (fst a) <> KQuit) (acts pos bs)).
  { unfold acts. apply Forall_map. eapply Forall_impl; [|exact HW]. intros [s|q n args j] Hb; cbn [fst]; [rewrite PK; discriminate|].
    destruct Hb as (_ & _ & Hk & _). intros K. rewrite K in Hk. exact Hk. }
  destruct (take_all E (acts pos bs) _) as [st|c fs'] eqn:T.
  2:{ exists fs'. rewrite (Q _ _ _ _ NQ T). reflexivity. }
  assert (SEEN : forall l st st', take_all E l st = Go st' -> forall q, In q (p_seen st') -> In q (map fst l) \/ In q (p_seen st)).
  { clear. induction l as [|[o args] l IH]; intros st st' H q Hq; cbn [take_all] in H; [injection H as <-; auto|].
    destruct (take_action E o args st) as [st1|] eqn:T; [|discriminate]. cbn [map fst].
    assert (S : p_seen st1 = o :: p_seen st).
    { unfold take_action in T. set (a := match a_names o with [] => _ | _ => _ end) in T. clearbody a.
      destruct (a_kind o) as [c ch|c|b|]; [| | |discriminate].
      - assert (X : match convert_all E c a (p_files st) with (None, fs) => Quit 2 fs
          | (Some vs, fs) => Go (MkPstate (dset str_eqb (a_dest o) (VMany vs) (p_ns st)) (o :: p_seen st) fs (p_extras st)) end = Go st1 -> p_seen st1 = o :: p_seen st).
        { destruct (convert_all E c a (p_files st)) as [[vs|] fs]; [|discriminate]. intros Z. injection Z as <-. reflexivity. }
        destruct a as [|s [|]]; [apply X, T| |apply X, T]. destruct (convert E c s (p_files st)) as [[v fs]|]; [|discriminate].
        destruct (match ch with None => true | Some l => existsb (str_eqb s) l end); [|discriminate]. injection T as <-. reflexivity.
      - destruct (convert_all E c a (p_files st)) as [[vs|] fs]; [|discriminate]. injection T as <-. reflexivity.
      - destruct (conflicts o (p_seen st)); [discriminate|]. injection T as <-. reflexivity. }
    destruct (IH _ _ H q Hq) as [X|X]; [left; right; exact X|]. rewrite S in X. destruct X as [<-|X]; [left; left; reflexivity|right; exact X]. }
  assert (NS : existsb (same_opt o) (p_seen st) = false).
  { destruct (existsb (same_opt o) (p_seen st)) eqn:X; [|reflexivity]. apply existsb_exists in X as (q & Hq & S).
    destruct (SEEN _ _ _ T q Hq) as [Y|[]]. unfold acts in Y. rewrite map_map in Y. apply in_map_iff in Y as (b & Eb & Hb).
    unfold same_opt in S. apply andb_true_iff in S as [S1 S2]. apply strs_eqb_eq in S1. apply str_eqb_eq in S2.
    assert (WB : well_said P b) by (rewrite Forall_forall in HW; apply HW, Hb).
    destruct b as [s|q' n args j]; cbn [fst] in Eb; subst q.
    - assert (In pos (positionals P) \/ words bs = 0) as [Z|Z].
      { destruct HC as [(HC & _)|(_ & HC)]; [left; rewrite HC; left; reflexivity|right; exact HC]. }
      + apply filter_In in Z as [_ Z]. destruct (a_names pos); [|discriminate]. rewrite S1 in HM.
        assert (In (Word s) (filter is_word bs)) as Y by (apply filter_In; auto). unfold words in HM. destruct (filter is_word bs); [destruct Y|discriminate HM].
      + assert (In (Word s) (filter is_word bs)) as Y by (apply filter_In; auto). unfold words in Z. destruct (filter is_word bs); [destruct Y|discriminate Z].
    - destruct WB as (Q1 & Q2 & _). destruct HP as (_ & _ & HD & _). assert (o = q') by (apply HD; assumption). subst q'.
      destruct (a_names o); [destruct Q2|]. destruct (HM _ _ _ Hb). }
  exists (p_files st).
  assert (existsb (fun o => a_required o && negb (existsb (same_opt o) (p_seen st))) P = true) as Z.
  { apply existsb_exists. exists o. split; [assumption|]. rewrite Hr, NS. reflexivity. }
  rewrite Z. reflexivity.
Qed.

(** What a documented command line changes. *)
Lemma opens_only l f p : fold_left opens l f p <> f p -> In (SOut p) l.
Proof.
  revert f. induction l as [|s l IH]; intros f H; [destruct H; reflexivity|]. cbn [fold_left] in H.
  destruct (list_eq_dec N.eq_dec p (match s with SOut x => x | _ => p end)) as [Ep|Np].
  - destruct s as [x| |x|x| |x|x|x|x|x]; try (right; apply (IH f), H). left. subst x. reflexivity.
  - destruct s as [x| |x|x| |x|x|x|x|x]; try (right; apply (IH f), H). right. apply (IH (opens f (SOut x))). intros Z. apply H. rewrite Z.
    cbn [opens]. destruct (str_eqb x (lit "-")); [reflexivity|]. destruct (str_eqb p x) eqn:X; [|reflexivity]. apply str_eqb_eq in X. contradiction.
Qed.

Lemma asked_out l q p : q_out (fold_left ask l q) = Some p -> In (SOut p) l \/ q_out q = Some p.
Proof.
  revert q. induction l as [|s l IH]; intros q H; [auto|]. cbn [fold_left] in H. apply IH in H as [H|H]; [left; right; exact H|].
  destruct q, s; cbn in H |- *; auto. unfold path_of in H. destruct (str_eqb p0 (lit "-")); [discriminate|]. injection H as ->. left; left; reflexivity.
Qed.

Theorem documented_changes (A : arith) (Y : system A) orders version now fs stdin before task after e :
  In task TASKS -> Forall (sensible (y_env Y) (lookup fs)) (before ++ after) ->
  (exists p, In (SModel p) (map snd (before ++ after))) ->
  program A orders version now Y fs stdin (flat_map words_of before ++ [task] ++ flat_map words_of after) = Some e ->
  forall p, lookup (x_files e) p <> lookup fs p ->
    (task = lit "learn" /\ In (SModel p) (map snd (before ++ after))) \/ In (SOut p) (map snd (before ++ after)).
Proof.
  intros HT HS HM He p Hp.
  pose proof (nlcodec_understood A Y orders version now fs stdin before task after HT HS HM) as X. cbv zeta in X.
  destruct X as (model & e' & QM & E' & _ & _ & _ & _ & D). rewrite He in E'. injection E' as <-. rewrite D in Hp. clear D. unfold left_on_disk in Hp.
  set (r := main A orders version now _ _) in Hp. clearbody r.
  destruct (q_out (fold_left ask (map snd (before ++ after)) nothing_asked)) as [o|] eqn:QO.
  - destruct (str_eqb p o) eqn:Ep.
    + apply str_eqb_eq in Ep. subst o. right. apply asked_out in QO as [QO|QO]; [exact QO|discriminate].
    + cbn [andb] in Hp. destruct (str_eqb task (lit "learn") && str_eqb p model)%bool eqn:L.
      * apply andb_true_iff in L as [L1 L2]. apply str_eqb_eq in L1, L2. subst p. left. split; [exact L1|].
        clear - QM. assert (Z : forall l q, q_model (fold_left ask l q) = Some model -> In (SModel model) l \/ q_model q = Some model).
        { induction l as [|s l IH]; intros q H; [auto|]. cbn [fold_left] in H. apply IH in H as [H|H]; [left; right; exact H|].
          destruct q, s; cbn in H |- *; auto. injection H as ->. left; left; reflexivity. }
        apply Z in QM as [QM|QM]; [exact QM|discriminate].
      * right. apply (opens_only _ _ _ Hp).
  - destruct (str_eqb task (lit "learn") && str_eqb p model)%bool eqn:L.
    + apply andb_true_iff in L as [L1 L2]. apply str_eqb_eq in L1, L2. subst p. left. split; [exact L1|].
      clear - QM. assert (Z : forall l q, q_model (fold_left ask l q) = Some model -> In (SModel model) l \/ q_model q = Some model).
      { induction l as [|s l IH]; intros q H; [auto|]. cbn [fold_left] in H. apply IH in H as [H|H]; [left; right; exact H|].
        destruct q, s; cbn in H |- *; auto. injection H as ->. left; left; reflexivity. }
      apply Z in QM as [QM|QM]; [exact QM|discriminate].
    + right. apply (opens_only _ _ _ Hp).
Qed.

(** What a refused line leaves. *)
Theorem refused_only_empties (A : arith) (Y : system A) orders version now fs stdin argv e :
  program A orders version now Y fs stdin argv = Some e -> x_status e = 2%Z ->
  x_stdout e = [] /\ x_printed e = None /\ x_exc e = None /\
  forall p, lookup (x_files e) p = lookup fs p \/ (lookup (x_files e) p = Some [] /\ from argv p).
Proof.
  intros H Hs. unfold program in H.
  destruct (parse_total main_parser (y_env Y) fs argv) as (r & E & R); [apply parsers_simple; left; reflexivity|].
  rewrite E in H. destruct r as [ns fs'|c fs'].
  - destruct (options_of Y fs' stdin ns) as [[[o m] out]|]; [|discriminate].
    exfalso. destruct out; injection H as <-; cbn [x_status] in Hs; destruct (r_exc _); discriminate.
  - injection H as <-. cbn. destruct R as [R _]. repeat (split; [reflexivity|]). exact R.
Qed.
