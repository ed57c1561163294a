(** The other commands from their command lines. *)
From Coq Require Import Strings.String Lia.
From Verif Require Import Py PyStr PyLemmas NumProofs CodecModel VocabFileModel LearnModel DriverModel FreqModel EvalModel MultipartModel BitextModel MainModel
     ArgModel ArgSpec CmdModel CmdSpec ArgProofs ArgSound CmdProofs ToolModel ToolSpec.
Local Open Scope list_scope.

(** Any parser without positional arguments. *)
Definition nobody : opt := MkOpt [] [] KQuit false VNone None.

Lemma tool_understood_when {S : Type} (P : list opt) (E : env) (spelt : S -> option string * string * list str) (opt_of : S -> opt) (value_of : S -> value)
    (opens : disk -> S -> disk) (ok : disk -> Prop) (fs : ArgModel.files) (l : list (style * S)) :
  In P parsers -> positionals P = [] -> ok (lookup fs) -> (forall f s, In s (map snd l) -> ok f -> ok (opens f s)) ->
  (forall s, In s (map snd l) -> In (opt_of s) P /\ a_names (opt_of s) = map lit (match fst (fst (spelt s)) with Some x => [x; snd (fst (spelt s))] | None => [snd (fst (spelt s))] end) /\
     match a_kind (opt_of s) with
     | KFlag b => snd (spelt s) = [] /\ value_of s = VBool b /\ (forall f, opens f s = f)
     | KOne c choices => exists a, snd (spelt s) = [a] /\ (forall ch, choices = Some ch -> In a ch) /\ (forall f, ok f -> reads E c a f (value_of s) (opens f s))
     | KMany c => snd (spelt s) <> [] /\ exists vs, value_of s = VMany vs /\ (forall f, ok f -> reads_all E c (snd (spelt s)) f vs (opens f s))
     | KQuit => False
     end) ->
  (forall ss, In ss l -> free (fst ss) (snd (spelt (snd ss)))) ->
  (forall s t g, In s (map snd l) -> In t (map snd l) -> a_group (opt_of s) = Some g -> a_group (opt_of t) = Some g -> opt_of s = opt_of t) ->
  (forall o, In o P -> a_required o = true -> exists s, In s (map snd l) /\ opt_of s = o) ->
  exists ns fs', parse_args P E fs (flat_map (fun ss => let '(short, long, args) := spelt (snd ss) in said_as (fst ss) short long args) l) = Some (Parsed ns fs') /\
    (forall p, lookup fs' p = fold_left opens (map snd l) (lookup fs) p) /\
    (forall d v, default_of d P = Some v ->
       dget str_eqb d ns = Some (fold_left (fun v s => if str_eqb (a_dest (opt_of s)) d then value_of s else v) (map snd l) v)).
Proof.
  intros HP HN OK0 OKS HO HF HG HR.
  set (said_of := fun ss : style * S =>
    let '(short, long, args) := spelt (snd ss) in
    Given (opt_of (snd ss)) (match fst ss, short with Short, Some x => lit x | _, _ => lit long end) args
      (match fst ss, args with Equals, [_] => true | _, _ => false end)).
  set (asg := map (fun ss : style * S => (opt_of (snd ss), value_of (snd ss))) l).
  assert (EW : flat_map (fun ss => let '(short, long, args) := spelt (snd ss) in said_as (fst ss) short long args) l = flat_map written (map said_of l)).
  { clear. induction l as [|[st s] l IH]; [reflexivity|]. cbn [map flat_map]. rewrite <- IH. f_equal. unfold said_of. cbn [fst snd].
    destruct (spelt s) as [[short long] args]. destruct st; [| |destruct args as [|a [|b args]]]; destruct short; cbn; rewrite ?app_nil_r; reflexivity. }
  assert (WS : Forall (well_said P) (map said_of l)).
  { apply Forall_map, Forall_forall. intros [st s] Hs. destruct (HO s) as (H1 & H2 & H3); [apply in_map_iff; exists (st, s); auto|].
    specialize (HF _ Hs). unfold said_of, free in *. cbn [fst snd] in *. destruct (spelt s) as [[short long] args]. cbn [fst snd] in *. cbn [well_said].
    split; [exact H1|]. split; [rewrite H2; destruct st, short; cbn; auto|]. split.
    - destruct (a_kind (opt_of s)) as [c ch|c|b|]; [destruct H3 as (a & -> & _); reflexivity|apply H3|apply H3|exact H3].
    - assert (Z : (st <> Equals \/ List.length args <> 1%nat -> forall x, In x args -> plain x)) by (intros Y; apply Forall_forall, HF, Y).
      destruct st; [apply Z; left; discriminate|apply Z; left; discriminate|].
      destruct args as [|a [|b args]]; [intros x []|reflexivity|apply Z; right; discriminate]. }
  assert (WD : words (map said_of l) = 0%nat).
  { unfold words. clear. induction l as [|[st s] l IH]; [reflexivity|]. cbn [map filter]. unfold said_of at 1. cbn [fst snd]. destruct (spelt s) as [[a b] c]. exact IH. }
  assert (AS : asks E nobody (map said_of l) (lookup fs) asg (fold_left opens (map snd l) (lookup fs))).
  { unfold asg. generalize (lookup fs) OK0. clear - HO OKS. induction l as [|[st s] l IH]; intros f OKf; [constructor|].
    cbn [map fold_left]. assert (A : asks E nobody (map said_of l) (opens f s) (map (fun ss : style * S => (opt_of (snd ss), value_of (snd ss))) l) (fold_left opens (map snd l) (opens f s))).
    { apply IH; [intros g t Ht; apply OKS; right; exact Ht|intros t Ht; apply HO; right; exact Ht|apply OKS; [left; reflexivity|exact OKf]]. }
    destruct (HO s (or_introl eq_refl)) as (_ & _ & H3). unfold said_of at 1. cbn [fst snd] in *. destruct (spelt s) as [[short long] args]. cbn [fst snd] in *.
    destruct (a_kind (opt_of s)) as [c ch|c|b|] eqn:K.
    - destruct H3 as (a & -> & H4 & H5). eapply asks_one; [exact K|exact H4|apply H5, OKf|exact A].
    - destruct H3 as (_ & vs & -> & H5). eapply asks_many; [exact K|apply H5, OKf|exact A].
    - destruct H3 as (-> & -> & H5). rewrite H5 in A |- *. eapply asks_flag; [exact K|exact A].
    - destruct H3. }
  destruct (understood P E fs (map said_of l) nobody asg _ (parsers_proper P HP) WS (or_intror (conj HN WD)) AS) as (ns & fs' & E1 & E2 & E3).
  - intros o p g v w Ho Hp Go Gp. unfold asg in Ho, Hp. apply in_map_iff in Ho as (a & Ea & Ha), Hp as (b & Eb & Hb).
    injection Ea as <- _. injection Eb as <- _. apply (HG (snd a) (snd b) g); try assumption; apply in_map; assumption.
  - intros o Ho Hr. destruct (HR o Ho Hr) as (s & Hs & <-). apply in_map_iff in Hs as (ss & <- & Hs). exists (value_of (snd ss)). unfold asg. apply in_map_iff. exists ss. auto.
  - exists ns, fs'. split; [rewrite EW; exact E1|]. split; [exact E2|]. intros d v Hd. rewrite (E3 d v Hd). f_equal. unfold asg. clear.
    revert v. induction l as [|a l IH]; intros v; [reflexivity|]. cbn [map last_given fold_left]. apply IH.
Qed.

Lemma tool_understood {S : Type} (P : list opt) (E : env) (spelt : S -> option string * string * list str) (opt_of : S -> opt) (value_of : S -> value)
    (opens : disk -> S -> disk) (fs : ArgModel.files) (l : list (style * S)) :
  In P parsers -> positionals P = [] ->
  (forall s, In s (map snd l) -> In (opt_of s) P /\ a_names (opt_of s) = map lit (match fst (fst (spelt s)) with Some x => [x; snd (fst (spelt s))] | None => [snd (fst (spelt s))] end) /\
     match a_kind (opt_of s) with
     | KFlag b => snd (spelt s) = [] /\ value_of s = VBool b /\ (forall f, opens f s = f)
     | KOne c choices => exists a, snd (spelt s) = [a] /\ (forall ch, choices = Some ch -> In a ch) /\ (forall f, reads E c a f (value_of s) (opens f s))
     | KMany c => snd (spelt s) <> [] /\ exists vs, value_of s = VMany vs /\ (forall f, reads_all E c (snd (spelt s)) f vs (opens f s))
     | KQuit => False
     end) ->
  (forall ss, In ss l -> free (fst ss) (snd (spelt (snd ss)))) ->
  (forall s t g, In s (map snd l) -> In t (map snd l) -> a_group (opt_of s) = Some g -> a_group (opt_of t) = Some g -> opt_of s = opt_of t) ->
  (forall o, In o P -> a_required o = true -> exists s, In s (map snd l) /\ opt_of s = o) ->
  exists ns fs', parse_args P E fs (flat_map (fun ss => let '(short, long, args) := spelt (snd ss) in said_as (fst ss) short long args) l) = Some (Parsed ns fs') /\
    (forall p, lookup fs' p = fold_left opens (map snd l) (lookup fs) p) /\
    (forall d v, default_of d P = Some v ->
       dget str_eqb d ns = Some (fold_left (fun v s => if str_eqb (a_dest (opt_of s)) d then value_of s else v) (map snd l) v)).
Proof.
  intros HP HN HO. apply (tool_understood_when P E spelt opt_of value_of opens (fun _ => True)); try assumption; [exact I|intros; exact I|].
  intros s Hs. destruct (HO s Hs) as (H1 & H2 & H3). split; [exact H1|]. split; [exact H2|].
  destruct (a_kind (opt_of s)) as [c ch|c|b|]; [destruct H3 as (a & H4 & H5 & H6); exists a; auto|destruct H3 as (H4 & vs & H5 & H6); split; [exact H4|exists vs; auto]|exact H3|exact H3].
Qed.

(** The name beside a path. *)
Lemma last_slash_app p : let (d, n) := last_slash p in p = d ++ n /\ ~ In 47%N n /\ (d = [] \/ exists e, d = e ++ [47%N]).
Proof.
  induction p as [|c p IH]; cbn [last_slash]; [split; [reflexivity|split; [intros []|left; reflexivity]]|].
  destruct (last_slash p) as [d n]. destruct IH as (-> & H1 & H2). destruct d as [|x d].
  - destruct (N.eqb_spec c 47) as [->|Hc]; (split; [reflexivity|]); (split; [|]).
    + exact H1.
    + right. exists []. reflexivity.
    + intros [->|H]; [apply Hc; reflexivity|exact (H1 H)].
    + left; reflexivity.
  - split; [reflexivity|]. split; [exact H1|]. right. destruct H2 as [H2|[e H2]]; [discriminate H2|]. exists (c :: e). cbn. rewrite H2. reflexivity.
Qed.
Lemma split_slash d n d' n' : (d = [] \/ exists e, d = e ++ [47%N]) -> (d' = [] \/ exists e, d' = e ++ [47%N]) -> ~ In 47%N n -> ~ In 47%N n' ->
  d ++ n = d' ++ n' -> d = d' /\ n = n'.
Proof.
  revert d'. induction d as [|c d IH]; intros d' H1 H2 H3 H4 E.
  - destruct d' as [|c' d']; [split; [reflexivity|exact E]|]. destruct H2 as [H2|[e H2]]; [discriminate|]. exfalso. apply H3. change (n = (c' :: d') ++ n') in E. rewrite E, H2.
    rewrite <- app_assoc. apply in_app_iff. right; left; reflexivity.
  - destruct d' as [|c' d'].
    + exfalso. apply H4. cbn [app] in E. rewrite <- E. destruct H1 as [H1|[e H1]]; [discriminate|]. change (c :: d ++ n) with ((c :: d) ++ n). rewrite H1, <- app_assoc. apply in_app_iff. right; left; reflexivity.
    + injection E as -> E. destruct (IH d') as [-> ->]; try assumption; [| |split; reflexivity].
      * destruct H1 as [H1|[[|y e] H1]]; [discriminate|injection H1 as _ ->; left; reflexivity|injection H1 as _ ->; right; exists e; reflexivity].
      * destruct H2 as [H2|[[|y e] H2]]; [discriminate|injection H2 as _ ->; left; reflexivity|injection H2 as _ ->; right; exists e; reflexivity].
Qed.
Lemma last_dot_some n a b : last_dot n = Some (a, b) <-> n = a ++ 46%N :: b /\ ~ In 46%N b.
Proof.
  revert a b. induction n as [|c n IH]; intros a b; cbn [last_dot].
  - split; [discriminate|]. intros [H _]. destruct a; discriminate H.
  - destruct (last_dot n) as [[x y]|] eqn:E.
    + destruct (proj1 (IH x y) eq_refl) as [-> Hy]. split.
      * intros H. injection H as <- <-. split; [reflexivity|exact Hy].
      * intros [H1 H2]. destruct a as [|c' a].
        { injection H1 as -> <-. destruct H2. apply in_app_iff. right; left; reflexivity. }
        injection H1 as -> H1. assert (E2 : Some (x, y) = Some (a, b)) by (apply (IH a b); split; assumption). injection E2 as -> ->. reflexivity.
    + assert (D : forall u v, n = u ++ 46%N :: v -> ~ In 46%N v -> False) by (intros u v Hu Hv; assert (@None (str * str) = Some (u, v)) by (apply IH; auto); discriminate).
      assert (D2 : ~ In 46%N n).
      { intros X. assert (exists u v, n = u ++ 46%N :: v /\ ~ In 46%N v) as (u & v & H1 & H2); [|exact (D u v H1 H2)].
        clear - X. induction n as [|c n IH]; [destruct X|]. destruct (in_dec N.eq_dec 46%N n) as [H|H].
        - destruct (IH H) as (u & v & -> & Hv). exists (c :: u), v. split; [reflexivity|exact Hv].
        - destruct X as [->|X]; [|contradiction]. exists [], n. split; [reflexivity|exact H]. }
      destruct (N.eqb_spec c 46) as [->|Hc].
      * split; [intros H; injection H as <- <-; split; [reflexivity|exact D2]|].
        intros [H1 H2]. destruct a as [|c' a]; [injection H1 as <-; reflexivity|]. injection H1 as _ H1. destruct (D _ _ H1 H2).
      * split; [discriminate|]. intros [H1 H2]. destruct a as [|c' a]; [injection H1 as X _; contradiction|]. injection H1 as _ H1. destruct (D _ _ H1 H2).
Qed.

Lemma with_suffix_beside p suffix w : with_suffix p suffix = Some w <-> beside p suffix w.
Proof.
  unfold with_suffix. pose proof (last_slash_app p) as H. destruct (last_slash p) as [d n]. destruct H as (-> & Hn & Hd).
  split.
  - destruct (str_eqb n []) eqn:N1; [discriminate|]. destruct (str_eqb n (lit ".")) eqn:N2; [discriminate|]. cbn [orb]. apply str_eqb_neq in N1, N2.
    intros H. injection H as <-.
    assert (PL : (forall stem ext, n = stem ++ lit "." ++ ext -> stem <> [] -> ext <> [] -> In 46%N ext) -> beside (d ++ n) suffix (d ++ n ++ suffix)) by (intros; apply beside_plain; assumption).
    destruct (last_dot n) as [[a b]|] eqn:L.
    + apply last_dot_some in L as [-> Hb]. destruct a as [|c a].
      * apply PL. intros [|s stem] ext E1 E2 E3; [congruence|]. injection E1 as _ E1. destruct Hb. rewrite E1. apply in_app_iff. right; left; reflexivity.
      * destruct b as [|x b].
        -- apply PL. intros stem ext E1 E2 E3. destruct (in_dec N.eq_dec 46%N ext) as [H|H]; [exact H|].
           assert (X : last_dot ((c :: a) ++ [46%N]) = Some (stem, ext)) by (apply last_dot_some; split; [exact E1|exact H]).
           assert (Y : last_dot ((c :: a) ++ [46%N]) = Some (c :: a, [])) by (apply last_dot_some; split; [reflexivity|intros []]). congruence.
        -- apply (beside_ext d (c :: a) (x :: b) suffix); try assumption; try discriminate; intros X; apply Hn; apply in_app_iff; [left; exact X|right; right; exact X].
    + apply PL. intros stem ext E1 E2 E3. destruct (in_dec N.eq_dec 46%N ext) as [H|H]; [exact H|].
      assert (X : last_dot n = Some (stem, ext)) by (apply last_dot_some; split; [exact E1|exact H]). congruence.
  - intros H. inversion H as [d' stem ext s' Hd' H1 H2 H3 H4 H5 E1 E2 E3|d' n' s' Hd' H1 H2 H3 H4 E1 E2 E3]; subst s'.
    + destruct (split_slash d' (stem ++ lit "." ++ ext) d n) as [-> <-]; try assumption.
      { intros X. apply in_app_iff in X as [X|[X|X]]; [exact (H1 X)|discriminate X|exact (H2 X)]. }
      replace (str_eqb (stem ++ lit "." ++ ext) []) with false by (symmetry; apply str_eqb_neq; destruct stem; discriminate).
      replace (str_eqb (stem ++ lit "." ++ ext) (lit ".")) with false.
      2:{ symmetry. apply str_eqb_neq. destruct stem as [|c [|c' stem]]; [congruence|discriminate|discriminate]. }
      cbn [orb]. f_equal. rewrite (proj2 (last_dot_some (stem ++ lit "." ++ ext) stem ext)) by (split; [reflexivity|exact H5]).
      destruct stem; [congruence|]. destruct ext; [congruence|]. reflexivity.
    + destruct (split_slash d' n' d n) as [-> <-]; try assumption.
      apply str_eqb_neq in H2. rewrite H2. apply str_eqb_neq in H3. rewrite H3. cbn [orb]. f_equal. f_equal.
      destruct (last_dot n') as [[[|c a] [|x b]]|] eqn:L; try reflexivity.
      apply last_dot_some in L as [E L]. destruct L. apply (H4 (c :: a) (x :: b)); [exact E|discriminate|discriminate].
Qed.
