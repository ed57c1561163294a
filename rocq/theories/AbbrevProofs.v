(** Abbreviated names of options. *)
From Coq Require Import Strings.String Lia.
From Verif Require Import Py PyStr PyLemmas ArgModel ArgSpec ArgProofs ArgSound.
Local Open Scope list_scope.

(** Tokens that differ at most in the spelling of a known option. *)
Inductive alike : tok -> tok -> Prop :=
| alike_same t : alike t t
| alike_opt o n e a r r' : alike (TOpt (Some o) n e a r) (TOpt (Some o) n e a r').

Lemma alike_option t t' : alike t t' -> is_option t = is_option t'.
Proof. intros []; reflexivity. Qed.
Lemma alike_options ts ts' : Forall2 alike ts ts' -> existsb is_option ts = existsb is_option ts'.
Proof. induction 1 as [|t t' ts ts' H _ IH]; [reflexivity|]. cbn [existsb]. rewrite IH, (alike_option _ _ H). reflexivity. Qed.

Lemma alike_span_args ts ts' : Forall2 alike ts ts' -> fst (span_args ts) = fst (span_args ts') /\ Forall2 alike (snd (span_args ts)) (snd (span_args ts')).
Proof.
  induction 1 as [|t t' ts ts' H F IH]; [split; [reflexivity|constructor]|].
  destruct H as [t|o n e a r r'].
  - destruct t as [s|s|o n e a r]; cbn [span_args].
    + destruct (span_args ts), (span_args ts'). cbn [fst snd] in *. destruct IH as [-> IH]. split; [reflexivity|exact IH].
    + split; [reflexivity|]. constructor; [constructor|exact F].
    + split; [reflexivity|]. constructor; [constructor|exact F].
  - split; [reflexivity|]. constructor; [constructor|exact F].
Qed.
Lemma alike_span_dash ts ts' : Forall2 alike ts ts' -> fst (span_dash ts) = fst (span_dash ts') /\ Forall2 alike (snd (span_dash ts)) (snd (span_dash ts')).
Proof.
  induction 1 as [|t t' ts ts' H F IH]; [split; [reflexivity|constructor]|].
  destruct H as [t|o n e a r r'].
  - destruct t as [s|s|o n e a r]; cbn [span_dash].
    + split; [reflexivity|]. constructor; [constructor|exact F].
    + destruct (span_dash ts), (span_dash ts'). cbn [fst snd] in *. destruct IH as [-> IH]. split; [reflexivity|exact IH].
    + split; [reflexivity|]. constructor; [constructor|exact F].
  - split; [reflexivity|]. constructor; [constructor|exact F].
Qed.
Lemma alike_span_words ts ts' : Forall2 alike ts ts' -> fst (span_words ts) = fst (span_words ts') /\ Forall2 alike (snd (span_words ts)) (snd (span_words ts')).
Proof.
  induction 1 as [|t t' ts ts' H F IH]; [split; [reflexivity|constructor]|].
  destruct H as [t|o n e a r r'].
  - cbn [span_words]. destruct (is_option t); [split; [reflexivity|]; constructor; [constructor|exact F]|].
    destruct (span_words ts), (span_words ts'). cbn [fst snd] in *. destruct IH as [-> IH]. split; [reflexivity|exact IH].
  - split; [reflexivity|]. constructor; [constructor|exact F].
Qed.

(** Pairs of results with alike rests. *)
Definition opt_alike {X} (a b : option (X * list tok)) : Prop :=
  match a, b with None, None => True | Some (x, ts), Some (y, ts') => x = y /\ Forall2 alike ts ts' | _, _ => False end.
Definition step_alike {X} (a b : step (X * list tok)) : Prop :=
  match a, b with Quit c f, Quit c' f' => c = c' /\ f = f' | Go (x, ts), Go (y, ts') => x = y /\ Forall2 alike ts ts' | _, _ => False end.

Lemma alike_match_argument k ts ts' : Forall2 alike ts ts' -> opt_alike (match_argument k ts) (match_argument k ts').
Proof.
  intros F. destruct k as [c ch|c|b|]; cbn [match_argument].
  - destruct F as [|t t' ts ts' H F]; [exact I|]. destruct H as [[s|s|o n e a r]|o n e a r r']; try exact I. split; [reflexivity|exact F].
  - destruct (alike_span_args _ _ F) as [E1 E2]. destruct (span_args ts) as [a r], (span_args ts') as [a' r']. cbn [fst snd] in *. subst a'.
    destruct a; [exact I|]. split; [reflexivity|exact E2].
  - split; [reflexivity|exact F].
  - split; [reflexivity|exact F].
Qed.

Lemma alike_attached P e : forall o name eq ts ts' l, Forall2 alike ts ts' -> opt_alike (attached_loop P o name eq e ts l) (attached_loop P o name eq e ts' l).
Proof.
  induction e as [e IH] using (well_founded_induction (Wf_nat.well_founded_ltof _ (@List.length N))).
  intros o name eq ts ts' l F. destruct e as [|c e].
  - cbn [attached_loop]. destruct (takes_argument (a_kind o)); [split; [reflexivity|exact F]|exact I].
  - cbn [attached_loop]. destruct (takes_argument (a_kind o)); [split; [reflexivity|exact F]|].
    destruct (match name with _ :: d :: _ => N.eqb d DASH | _ => true end); [exact I|].
    destruct (eq || N.eqb c DASH)%bool; [exact I|].
    destruct (find_opt P [DASH; c]) as [o'|]; [|split; [reflexivity|exact F]].
    destruct e as [|d e].
    + pose proof (alike_match_argument (a_kind o') _ _ F) as X. destruct (match_argument (a_kind o') ts) as [[a r]|], (match_argument (a_kind o') ts') as [[a' r']|]; try exact X.
      destruct X as [-> X]. split; [reflexivity|exact X].
    + destruct (N.eqb d 61); apply IH; try exact F; unfold Wf_nat.ltof; cbn; lia.
Qed.

Lemma alike_consume_optional P E o n e a r r' ts ts' st : (o = None -> r = r') -> Forall2 alike ts ts' ->
  step_alike (consume_optional P E o n e a r ts st) (consume_optional P E o n e a r' ts' st).
Proof.
  intros Hr F. unfold consume_optional. destruct o as [o|]; [|rewrite (Hr eq_refl); split; [reflexivity|exact F]].
  set (x := match a with None => _ | Some e => _ end). set (y := match a with None => match match_argument (a_kind o) ts' with None => _ | Some _ => _ end | Some e => _ end).
  assert (X : opt_alike x y).
  { unfold x, y. destruct a as [w|]; [apply alike_attached, F|].
    pose proof (alike_match_argument (a_kind o) _ _ F) as X. destruct (match_argument (a_kind o) ts) as [[a r0]|], (match_argument (a_kind o) ts') as [[a' r0']|]; try exact X.
    destruct X as [-> X]. split; [reflexivity|exact X]. }
  clearbody x y. destruct x as [[[acts extra] r1]|], y as [[[acts' extra'] r1']|]; try (destruct X; fail); [|split; reflexivity].
  destruct X as [Z X]. injection Z as <- <-. destruct (take_all E acts _); [|split; reflexivity]. split; [reflexivity|exact X].
Qed.

Lemma alike_consume_positionals E pos : forall ts ts' st, Forall2 alike ts ts' ->
  step_alike (consume_positionals E pos ts st) (consume_positionals E pos ts' st).
Proof.
  induction pos as [|o pos IH]; intros ts ts' st F; cbn [consume_positionals]; [split; [reflexivity|exact F]|].
  assert (X : opt_alike (match_positional ts) (match_positional ts')).
  { unfold match_positional. destruct (alike_span_dash _ _ F) as [E1 E2]. destruct (span_dash ts) as [a r], (span_dash ts') as [a' r']. cbn [fst snd] in *. subst a'.
    destruct E2 as [|t t' r r' H E2]; [exact I|]. destruct H as [[s|s|o1 n e b q]|o1 n e b q q']; try exact I.
    destruct (alike_span_dash _ _ E2) as [E3 E4]. destruct (span_dash r) as [c r1], (span_dash r') as [c' r1']. cbn [fst snd] in *. subst c'. split; [reflexivity|exact E4]. }
  destruct (match_positional ts) as [[a r]|], (match_positional ts') as [[a' r']|]; try (destruct X; fail); [|split; [reflexivity|exact F]].
  destruct X as [<- X]. destruct (take_action E o a st); [apply IH, X|split; reflexivity].
Qed.

Lemma alike_length ts ts' : Forall2 alike ts ts' -> List.length ts = List.length ts'.
Proof. induction 1; cbn; congruence. Qed.

Lemma alike_read_words fuel P E : forall pos ts ts' st, Forall2 alike ts ts' -> read_words fuel P E pos ts st = read_words fuel P E pos ts' st.
Proof.
  induction fuel as [|fuel IH]; intros pos ts ts' st F; [reflexivity|]. cbn [read_words]. rewrite (alike_options _ _ F).
  pose proof (alike_consume_positionals E pos _ _ st F) as CP.
  destruct (existsb is_option ts') eqn:EX.
  - assert (NO : match consume_positionals E pos ts st with
            | Quit c fs => Some (Quit c fs)
            | Go (st', pos', ts0) =>
                if Nat.ltb (List.length ts0) (List.length ts) then read_words fuel P E pos' ts0 st'
                else let (words, ts'') := span_words ts in
                     read_words fuel P E pos' ts'' (MkPstate (p_ns st') (p_seen st') (p_files st') (p_extras st' ++ words))
            end = match consume_positionals E pos ts' st with
            | Quit c fs => Some (Quit c fs)
            | Go (st', pos', ts0) =>
                if Nat.ltb (List.length ts0) (List.length ts') then read_words fuel P E pos' ts0 st'
                else let (words, ts'') := span_words ts' in
                     read_words fuel P E pos' ts'' (MkPstate (p_ns st') (p_seen st') (p_files st') (p_extras st' ++ words))
            end).
    { destruct (consume_positionals E pos ts st) as [[[s1 p1] r1]|c1 f1], (consume_positionals E pos ts' st) as [[[s2 p2] r2]|c2 f2]; try (destruct CP; fail).
      - destruct CP as [Z CP]. injection Z as <- <-. rewrite (alike_length _ _ F), (alike_length _ _ CP).
        destruct (Nat.ltb (List.length r2) (List.length ts')); [apply IH, CP|].
        destruct (alike_span_words _ _ F) as [E1 E2]. destruct (span_words ts) as [w r], (span_words ts') as [w' r']. cbn [fst snd] in *. subst w'. apply IH, E2.
      - destruct CP as [-> ->]. reflexivity. }
    destruct F as [|t t' ts ts' H F]; [exact NO|]. destruct H as [[s|s|o n e a r]|o n e a r r']; try exact NO.
    + pose proof (alike_consume_optional P E o n e a r r ts ts' st (fun _ => eq_refl) F) as X.
      destruct (consume_optional P E o n e a r ts st) as [[s1 r1]|c1 f1], (consume_optional P E o n e a r ts' st) as [[s2 r2]|c2 f2]; try (destruct X; fail).
      * destruct X as [-> X]. apply IH, X.
      * destruct X as [-> ->]. reflexivity.
    + pose proof (alike_consume_optional P E (Some o) n e a r r' ts ts' st ltac:(discriminate) F) as X.
      destruct (consume_optional P E (Some o) n e a r ts st) as [[s1 r1]|c1 f1], (consume_optional P E (Some o) n e a r' ts' st) as [[s2 r2]|c2 f2]; try (destruct X; fail).
      * destruct X as [-> X]. apply IH, X.
      * destruct X as [-> ->]. reflexivity.
  - destruct (consume_positionals E pos ts st) as [[[s1 p1] r1]|c1 f1] eqn:C1, (consume_positionals E pos ts' st) as [[[s2 p2] r2]|c2 f2] eqn:C2; try (destruct CP; fail).
    + destruct CP as [Z CP]. injection Z as <- <-. do 4 f_equal.
      assert (R : existsb is_option r2 = false).
      { clear - C2 EX. revert ts' st EX C2. induction pos as [|o pos IH]; intros ts st EX C; cbn [consume_positionals] in C; [injection C as _ _ <-; exact EX|].
        assert (SD : forall ts a r, existsb is_option ts = false -> span_dash ts = (a, r) -> existsb is_option r = false).
        { clear. induction ts as [|[s|s|] ts IH]; intros a r H S; cbn [span_dash] in S; try (injection S as <- <-; exact H).
          destruct (span_dash ts) as [a' r'] eqn:D. injection S as <- <-. apply (IH a' r'); [exact H|reflexivity]. }
        unfold match_positional in C. destruct (span_dash ts) as [a r] eqn:D. specialize (SD ts a r EX D) as R1.
        destruct r as [|[s|s|] r]; try (injection C as _ _ <-; exact EX). destruct (span_dash r) as [b r'] eqn:D2. specialize (SD r b r' R1 D2) as R2.
        destruct (take_action E o _ st) as [st'|]; [|discriminate]. apply (IH r' st' R2 C). }
      clear - CP R. induction CP as [|t t' r r' H CP IH]; [reflexivity|]. cbn [existsb] in R. apply orb_false_iff in R as [R1 R2]. cbn [map]. rewrite (IH R2).
      destruct H; [reflexivity|discriminate R1].
    + destruct CP as [-> ->]. reflexivity.
Qed.

Lemma alike_parse P E fs argv argv' :
  match classify P argv, classify P argv' with None, None => True | Some ts, Some ts' => Forall2 alike ts ts' | _, _ => False end ->
  parse_args P E fs argv = parse_args P E fs argv'.
Proof.
  unfold parse_args. destruct (classify P argv) as [ts|], (classify P argv') as [ts'|]; intros H; try (destruct H; fail); [|reflexivity].
  rewrite (alike_length _ _ H), (alike_read_words _ P E _ _ _ _ H). reflexivity.
Qed.

Lemma alike_refl ts : Forall2 alike ts ts.
Proof. induction ts; constructor; [constructor|assumption]. Qed.

Lemma classify_word P before w w' after : ~ In [45; 45]%N before -> w <> [45; 45]%N -> w' <> [45; 45]%N ->
  match parse_optional P w, parse_optional P w' with None, None => True | Some t, Some t' => alike t t' | _, _ => False end ->
  match classify P (before ++ w :: after), classify P (before ++ w' :: after) with None, None => True | Some ts, Some ts' => Forall2 alike ts ts' | _, _ => False end.
Proof.
  intros HB Hw Hw' H. induction before as [|s before IH]; cbn [app classify].
  - assert (X : str_eqb w [DASH; DASH] = false) by (apply str_eqb_neq, Hw). assert (X' : str_eqb w' [DASH; DASH] = false) by (apply str_eqb_neq, Hw').
    rewrite X, X'. destruct (parse_optional P w) as [t|], (parse_optional P w') as [t'|]; try (destruct H; fail); [|exact I].
    destruct (classify P after); [|exact I]. constructor; [exact H|apply alike_refl].
  - assert (X : str_eqb s [DASH; DASH] = false) by (apply str_eqb_neq; intros Z; apply HB; left; exact Z). rewrite X.
    destruct (parse_optional P s); [|exact I]. specialize (IH (fun Z => HB (or_intror Z))).
    destruct (classify P (before ++ w :: after)), (classify P (before ++ w' :: after)); try (destruct IH; fail); [|exact I]. constructor; [constructor|exact IH].
Qed.

(** What a word with two dashes is. *)
Lemma long_word P r : let w := (45 :: 45 :: r)%N in
  parse_optional P w = match find_opt P w with
           | Some o => Some (TOpt (Some o) w false None w)
           | None => match (match partition_eq w with
                          | Some (n, e) => match find_opt P n with Some o => Some (TOpt (Some o) n true (Some e) w) | None => None end
                          | None => None
                          end) with
                   | Some t => Some t
                   | None => match option_tuples P w with
                       | _ :: _ :: _ => None
                       | [(o, n, eq, e)] => Some (TOpt (Some o) n eq e w)
                       | [] => if negative_like w then Some (TArg w) else if existsb (N.eqb SPACE) w then Some (TArg w) else Some (TOpt None w false None w)
                       end
                   end
           end.
Proof. reflexivity. Qed.

Lemma startswith_app x n : startswith x n = true <-> exists r, n = x ++ r.
Proof.
  revert n. induction x as [|c x IH]; intros n; cbn [startswith].
  - split; [intros _; exists n; reflexivity|reflexivity].
  - destruct n as [|d n]; [split; [discriminate|intros (r & E); discriminate]|]. rewrite andb_true_iff, N.eqb_eq, IH. split.
    + intros [-> (r & ->)]. exists r. reflexivity.
    + intros (r & E). injection E as <- ->. eauto.
Qed.

Lemma partition_some a b : ~ In 61%N a -> partition_eq (a ++ 61%N :: b) = Some (a, b).
Proof.
  induction a as [|c a IH]; intros H; cbn [app partition_eq]; [reflexivity|]. rewrite (proj2 (N.eqb_neq c 61)); [|intros ->; apply H; left; reflexivity].
  rewrite IH; [reflexivity|]. intros Z; apply H; right; exact Z.
Qed.

Lemma find_none P x : (forall o, In o P -> ~ In x (a_names o)) -> find_opt P x = None.
Proof.
  intros H. destruct (find_opt P x) as [o|] eqn:F; [|reflexivity]. apply find_opt_in in F as [F1 F2]. destruct (H o F1 F2).
Qed.

(** The options a beginning of a long name can mean. *)
Lemma tuples_one (x n : str) (o : opt) eq att l : NoDup (map fst l) -> In (n, o) l -> startswith x n = true ->
  (forall no, In no l -> startswith x (fst no) = true -> fst no = n) ->
  flat_map (fun no : str * opt => if startswith x (fst no) then [(snd no, fst no, eq : bool, att : option str)] else []) l = [(o, n, eq, att)].
Proof.
  induction l as [|[n1 o1] l IH]; intros ND Hi Hs Hu; [destruct Hi|]. cbn [flat_map fst snd]. cbn [map fst] in ND. inversion ND as [|a b N1 N2]; subst.
  destruct Hi as [Hi|Hi].
  - injection Hi as -> ->. rewrite Hs. cbn [app]. f_equal.
    assert (Z : forall no, In no l -> startswith x (fst no) = false).
    { intros [n2 o2] H2. destruct (startswith x (fst (n2, o2))) eqn:S; [|reflexivity]. exfalso. apply N1. apply in_map_iff. exists (n2, o2). split; [|exact H2].
      apply (Hu (n2, o2)); [right; exact H2|exact S]. }
    clear - Z. induction l as [|no l IH]; [reflexivity|]. cbn [flat_map]. rewrite (Z no (or_introl eq_refl)). apply IH. intros y Hy; apply Z; right; exact Hy.
  - destruct (startswith x n1) eqn:S.
    + exfalso. apply N1. pose proof (Hu (n1, o1) (or_introl eq_refl) S) as X. cbn [fst] in X. subst n1. exact (in_map fst _ _ Hi).
    + cbn [app]. apply IH; try assumption. intros no H; apply Hu; right; exact H.
Qed.
Lemma tuples_two (x n m : str) (o p : opt) eq att l : In (n, o) l -> In (m, p) l -> n <> m -> startswith x n = true -> startswith x m = true ->
  exists a b r, flat_map (fun no : str * opt => if startswith x (fst no) then [(snd no, fst no, eq : bool, att : option str)] else []) l = a :: b :: r.
Proof.
  intros Hn Hm NM Sn Sm. set (g := fun no : str * opt => if startswith x (fst no) then [(snd no, fst no, eq, att)] else []).
  assert (G : forall k q, In (k, q) l -> startswith x k = true -> In (q, k, eq, att) (flat_map g l)).
  { intros k q Hk Sk. apply in_flat_map. exists (k, q). split; [exact Hk|]. unfold g. cbn [fst]. rewrite Sk. left; reflexivity. }
  pose proof (G n o Hn Sn) as G1. pose proof (G m p Hm Sm) as G2. destruct (flat_map g l) as [|a [|b r]]; [destruct G1| |eauto].
  destruct G1 as [G1|[]], G2 as [G2|[]]. congruence.
Qed.

Theorem abbreviation P E fs before x n o tail after : proper P -> ~ In [45; 45]%N before ->
  (exists c y, x = 45 :: 45 :: c :: y)%N -> ~ In 61%N x -> (tail = [] \/ exists v, tail = 61%N :: v) ->
  (forall p, In p P -> ~ In x (a_names p)) ->
  In o P -> In n (a_names o) -> (exists r, n = x ++ r) -> (forall p k, In p P -> In k (a_names p) -> (exists r, k = x ++ r) -> k = n) ->
  parse_args P E fs (before ++ (x ++ tail) :: after) = parse_args P E fs (before ++ (n ++ tail) :: after).
Proof.
  intros HP HB (c & y & Ex) Hq Ht Hx Ho Hn Hs Hu. apply alike_parse. destruct Hs as [r Er].
  assert (DD : forall z, (45 :: 45 :: c :: z)%N <> [45; 45]%N) by discriminate.
  apply classify_word; [exact HB|rewrite Ex; apply DD|rewrite Er, Ex; apply DD|].
  pose proof HP as (PN & PD & _).
  assert (Fn : find_opt P n = Some o) by (apply find_opt_name; assumption).
  assert (NQ : forall k v p, In p P -> ~ In (k ++ 61%N :: v) (a_names p)).
  { intros k v p Hp Hk. destruct (PN p _ Hp Hk) as (c' & r' & _ & _ & X & _). apply X. apply in_or_app. right; left; reflexivity. }
  assert (U : forall eq att, flat_map (fun no : str * opt => if startswith x (fst no) then [(snd no, fst no, eq : bool, att : option str)] else []) (option_strings P) = [(o, n, eq, att)]).
  { intros eq att. apply tuples_one; [exact PD|apply in_option_strings; auto|apply startswith_app; eauto|].
    intros [k p] Hk Sk. apply in_option_strings in Hk as [K1 K2]. apply startswith_app in Sk. exact (Hu p k K1 K2 Sk). }
  assert (UT : forall z, option_tuples P (45 :: 45 :: z)%N = let '(prefix, eq, attached) :=
          match partition_eq (45 :: 45 :: z)%N with Some (a, b) => (a, true, Some b) | None => ((45 :: 45 :: z)%N, false, None) end in
        flat_map (fun no : str * opt => if startswith prefix (fst no) then [(snd no, fst no, eq, attached)] else []) (option_strings P)) by reflexivity.
  assert (nq : ~ In 61%N n) by (destruct (PN o n Ho Hn) as (c' & r' & _ & _ & X & _); exact X).
  destruct Ht as [->|(v & ->)].
  - rewrite !app_nil_r.
    assert (X1 : parse_optional P x = Some (TOpt (Some o) n false None x)).
    { rewrite Ex, long_word, <- Ex, (find_none P x Hx), (partition_none x Hq). rewrite Ex, UT, <- Ex, (partition_none x Hq), U. reflexivity. }
    assert (X2 : parse_optional P n = Some (TOpt (Some o) n false None n)).
    { rewrite Er, Ex. cbn [app]. rewrite long_word. change (45 :: 45 :: c :: y ++ r)%N with ((45 :: 45 :: c :: y)%N ++ r). rewrite <- Ex, <- Er, Fn. reflexivity. }
    rewrite X1, X2. constructor.
  - assert (X1 : parse_optional P (x ++ 61%N :: v) = Some (TOpt (Some o) n true (Some v) (x ++ 61%N :: v))).
    { rewrite Ex. cbn [app]. rewrite long_word. change (45 :: 45 :: c :: y ++ 61 :: v)%N with ((45 :: 45 :: c :: y)%N ++ 61%N :: v).
      rewrite <- Ex, (find_none P (x ++ 61%N :: v) (fun p => NQ x v p)), (partition_some x v Hq), (find_none P x Hx).
      rewrite Ex. cbn [app]. rewrite UT. change (45 :: 45 :: c :: y ++ 61 :: v)%N with ((45 :: 45 :: c :: y)%N ++ 61%N :: v). rewrite <- Ex, (partition_some x v Hq), U. reflexivity. }
    assert (X2 : parse_optional P (n ++ 61%N :: v) = Some (TOpt (Some o) n true (Some v) (n ++ 61%N :: v))).
    { assert (Yn : n ++ 61%N :: v = (45 :: 45 :: c :: (y ++ r) ++ 61 :: v)%N) by (rewrite Er, Ex; reflexivity).
      rewrite Yn at 1. rewrite long_word, <- Yn, (find_none P (n ++ 61%N :: v) (fun p => NQ n v p)), (partition_some n v nq), Fn. reflexivity. }
    rewrite X1, X2. constructor.
Qed.

Theorem ambiguous P E fs before x tail after n m o p : proper P -> ~ In [45; 45]%N before ->
  (exists c y, x = 45 :: 45 :: c :: y)%N -> ~ In 61%N x -> (tail = [] \/ exists v, tail = 61%N :: v) ->
  (forall p, In p P -> ~ In x (a_names p)) ->
  In o P -> In n (a_names o) -> (exists r, n = x ++ r) -> In p P -> In m (a_names p) -> (exists r, m = x ++ r) -> n <> m ->
  parse_args P E fs (before ++ (x ++ tail) :: after) = Some (Exited 2 fs).
Proof.
  intros HP HB (c & y & Ex) Hq Ht Hx Ho Hn Sn Hp Hm Sm NM. pose proof HP as (PN & PD & _).
  assert (NQ : forall k v p, In p P -> ~ In (k ++ 61%N :: v) (a_names p)).
  { intros k v q Hp' Hk. destruct (PN q _ Hp' Hk) as (c' & r' & _ & _ & X & _). apply X. apply in_or_app. right; left; reflexivity. }
  assert (U : forall eq att, exists a b r, flat_map (fun no : str * opt => if startswith x (fst no) then [(snd no, fst no, eq : bool, att : option str)] else []) (option_strings P) = a :: b :: r).
  { intros eq att. apply (tuples_two x n m o p); try (apply in_option_strings; auto); try (apply startswith_app; assumption); exact NM. }
  assert (UT : forall z, option_tuples P (45 :: 45 :: z)%N = let '(prefix, eq, attached) :=
          match partition_eq (45 :: 45 :: z)%N with Some (a, b) => (a, true, Some b) | None => ((45 :: 45 :: z)%N, false, None) end in
        flat_map (fun no : str * opt => if startswith prefix (fst no) then [(snd no, fst no, eq, attached)] else []) (option_strings P)) by reflexivity.
  assert (X1 : parse_optional P (x ++ tail) = None).
  { destruct Ht as [->|(v & ->)].
    - rewrite app_nil_r. rewrite Ex, long_word, <- Ex, (find_none P x Hx), (partition_none x Hq). rewrite Ex, UT, <- Ex, (partition_none x Hq).
      destruct (U false None) as ([[[a1 a2] a3] a4] & b & r & ->). reflexivity.
    - rewrite Ex. cbn [app]. rewrite long_word. change (45 :: 45 :: c :: y ++ 61 :: v)%N with ((45 :: 45 :: c :: y)%N ++ 61%N :: v).
      rewrite <- Ex, (find_none P (x ++ 61%N :: v) (fun p => NQ x v p)), (partition_some x v Hq), (find_none P x Hx).
      destruct (U true (Some v)) as ([[[a1 a2] a3] a4] & b & r & EU).
      assert (OT : option_tuples P (x ++ 61%N :: v) = (a1, a2, a3, a4) :: b :: r).
      { etransitivity; [|exact EU]. rewrite Ex at 1. cbn [app]. rewrite UT. change (45 :: 45 :: c :: y ++ 61 :: v)%N with ((45 :: 45 :: c :: y)%N ++ 61%N :: v).
        rewrite <- Ex, (partition_some x v Hq). reflexivity. }
      rewrite OT. reflexivity. }
  assert (C : classify P (before ++ (x ++ tail) :: after) = None).
  { clear - HB X1 Ex. induction before as [|s before IH]; cbn [app classify].
    - assert (X : str_eqb (x ++ tail) [DASH; DASH] = false) by (apply str_eqb_neq; rewrite Ex; discriminate). rewrite X, X1. reflexivity.
    - assert (X : str_eqb s [DASH; DASH] = false) by (apply str_eqb_neq; intros Z; apply HB; left; exact Z). rewrite X.
      rewrite (IH (fun Z => HB (or_intror Z))). destruct (parse_optional P s); reflexivity. }
  unfold parse_args. rewrite C. reflexivity.
Qed.
