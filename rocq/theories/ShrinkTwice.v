(** Shrinking a shrunk vocabulary again. *)
From Coq Require Import Strings.String.
From Verif Require Import Py PyLemmas PyStr StrSpec PyStrProofs CodecModel CodecSpec FlatProofs TrieProofs BpeProofs VocabFileModel VocabSpec
     ShrinkModel ShrinkSpec ShrinkProofs.
Local Open Scope Z_scope.
Local Open Scope list_scope.

Lemma first_ids_nth n m i : nth_error (first_ids n) m = Some i <-> (m < n)%nat /\ i = Z.of_nat m.
Proof.
  unfold first_ids. rewrite nth_error_map. split.
  - destruct (nth_error (seq 0 n) m) as [x|] eqn:E; [|discriminate]. intros [= <-].
    assert (Hm : (m < length (seq 0 n))%nat) by (apply nth_error_Some; congruence). rewrite seq_length in Hm. split; [exact Hm|].
    apply (nth_error_nth _ _ 0%nat) in E. rewrite seq_nth in E by exact Hm. subst x. reflexivity.
  - intros [Hm ->]. rewrite (nth_error_nth' _ 0%nat) by (rewrite seq_length; exact Hm). rewrite seq_nth by exact Hm. reflexivity.
Qed.

(** A table renumbered by the identity is itself. *)
Lemma renumbered_id t new : well_indexed t -> kids_earlier t -> renumbered t (first_ids (length t)) new -> new = t.
Proof.
  intros Hwi Hke [Hlen Hren]. unfold first_ids in Hlen. rewrite map_length, seq_length in Hlen.
  assert (G : forall n m, (m < n)%nat -> nth_error new m = nth_error t m).
  { induction n as [|n IH]; intros m Hm; [lia|]. destruct (Nat.lt_ge_cases m (length t)) as [Hl|Hl].
    - destruct (Hren m (Z.of_nat m)) as (u & u' & _ & Eu & Eu' & N & L & F & I & K & KK); [apply first_ids_nth; split; [exact Hl|reflexivity]|].
      rewrite Nat2Z.id in Eu. rewrite Eu, Eu'. f_equal. pose proof (Hwi _ _ Eu) as Iu. destruct (Hke _ _ Eu) as [Ku Kin].
      assert (Ek : kids_of u' = kids_of u).
      { assert (S : forall x, In x (kids_of u) -> nth_error t (Z.to_nat (t_idx x)) = Some x /\ (Z.to_nat (t_idx x) < m)%nat).
        { intros x Hx. destruct (Kin x Hx) as (j & Hj & Ej). rewrite (Hwi _ _ Ej), Nat2Z.id. split; assumption. }
        clear - KK S IH Hm. induction KK as [|x x' l l' (j & J1 & J2) _ IHk]; [reflexivity|]. f_equal; [|apply IHk; intros y Hy; apply S; right; exact Hy].
        apply first_ids_nth in J1. destruct J1 as [_ J1]. destruct (S x (or_introl eq_refl)) as [S1 S2]. rewrite J1, Nat2Z.id in S1, S2.
        rewrite IH in J2 by lia. congruence. }
      destruct u as [n0 l0 i0 f0 k0], u' as [n1 l1 i1 f1 k1]. cbn [t_name t_level t_freq t_idx t_kids kids_of] in *. unfold kids_of in Ek. cbn [t_kids] in Ek. subst.
      f_equal. destruct k0 as [[|x k0]|], k1 as [[|y k1]|]; congruence.
    - rewrite !(proj2 (nth_error_None _ _)) by lia. reflexivity. }
  apply nth_error_ext'. intros n. apply (G (S n)). lia.
Qed.
Lemma increasing_all n l : increasing l -> (forall i, In i l <-> 0 <= i < Z.of_nat n) -> l = first_ids n.
Proof.
  intros Hi Hin. apply nth_error_ext'. intros m. assert (P : forall j, (j < n)%nat -> nth_error l j = Some (Z.of_nat j)).
  { intros j Hj. rewrite (increasing_prefix n l 0 Hi); [reflexivity|intros x Hx; apply Hin, Hx|intros y Hy; apply Hin; lia|exact Hj]. }
  destruct (Nat.lt_ge_cases m n) as [Hm|Hm]; [rewrite P by exact Hm; symmetry; apply first_ids_nth; split; [exact Hm|reflexivity]|].
  rewrite (proj2 (nth_error_None (first_ids n) m)) by (unfold first_ids; rewrite map_length, seq_length; exact Hm).
  destruct (nth_error l m) as [x|] eqn:E; [exfalso|reflexivity]. pose proof (proj1 (Hin x) (nth_error_In _ _ E)) as Hx.
  pose proof (P (Z.to_nat x) ltac:(lia)) as Ex. rewrite Z2Nat.id in Ex by lia.
  assert (Z.to_nat x = m); [|lia]. pose proof (increasing_NoDup l Hi) as N. rewrite NoDup_nth_error in N. apply N; [apply nth_error_Some; congruence|congruence].
Qed.

(** Counts are those before, at the new places. *)
Lemma count_translated mapping ids' ids n i : NoDup mapping -> nth_error mapping n = Some i -> Forall2 (translates mapping) ids' ids ->
  count_occ Z.eq_dec ids' (Z.of_nat n) = count_occ Z.eq_dec ids i.
Proof.
  intros Hd Hn. induction 1 as [|x' x ids' ids [H0 Hx] _ IH]; [reflexivity|]. cbn [count_occ].
  destruct (Z.eq_dec x' (Z.of_nat n)) as [->|N'], (Z.eq_dec x i) as [->|N]; try (rewrite IH; reflexivity).
  - exfalso. rewrite Nat2Z.id in Hx. congruence.
  - exfalso. apply N'. rewrite NoDup_nth_error in Hd. rewrite <- (Hd (Z.to_nat x') n); [lia|apply nth_error_Some; congruence|congruence].
Qed.
Lemma all_stay table mapping new count count' min_freq : increasing mapping -> renumbered table mapping new ->
  (forall i, In i mapping <-> stays table count min_freq i) ->
  (forall n i, nth_error mapping n = Some i -> count' (Z.of_nat n) = count i) ->
  forall i, stays table count min_freq i -> forall n, nth_error mapping n = Some i -> stays new count' min_freq (Z.of_nat n).
Proof.
  intros Hinc [Hlen Hren] Hst Hc i H. pose proof (increasing_NoDup _ Hinc) as Hd.
  induction H as [a t Ht Hl|a t Ht Hf|a t k Ha IH Ht Hk]; intros n Hn.
  - destruct (Hren _ _ Hn) as (u & u' & _ & E1 & E2 & _ & E3 & _). rewrite Nat2Z.id, Ht in E1. injection E1 as <-. eapply st_reserved; [exact E2|congruence].
  - destruct (Hren _ _ Hn) as (u & u' & _ & E1 & E2 & _). eapply st_frequent; [exact E2|]. rewrite (Hc _ _ Hn). exact Hf.
  - apply Hst in Ha. apply In_nth_error in Ha. destruct Ha as (b & Hb). specialize (IH _ Hb).
    destruct (Hren _ _ Hb) as (u & u' & _ & E1 & E2 & _ & _ & _ & _ & _ & KK). rewrite Nat2Z.id, Ht in E1. injection E1 as <-.
    assert (G : exists k' m, In k' (kids_of u') /\ nth_error mapping m = Some (t_idx k) /\ nth_error new m = Some k').
    { clear - KK Hk. induction KK as [|x x' l l' (m & M1 & M2) _ IHk]; [destruct Hk|]. destruct Hk as [->|Hk].
      - exists x', m. split; [left; reflexivity|split; assumption].
      - destruct (IHk Hk) as (k' & m' & G1 & G2). exists k', m'. split; [right; exact G1|exact G2]. }
    destruct G as (k' & m & G1 & G2 & G3). assert (m = n) as -> by (rewrite NoDup_nth_error in Hd; apply Hd; [apply nth_error_Some; congruence|congruence]).
    destruct (Hren _ _ Hn) as (v & v' & _ & _ & F2 & _ & _ & _ & F3 & _). rewrite G3 in F2. injection F2 as <-. rewrite <- F3. eapply st_kid; eassumption.
Qed.
Lemma forall2_concat {A B} (P : A -> B -> Prop) l l' : Forall2 (Forall2 P) l l' -> Forall2 P (concat l) (concat l').
Proof. induction 1 as [|x y l l' H _ IH]; [constructor|]. cbn [concat]. apply Forall2_app; assumption. Qed.

Theorem shrink_twice k table s lines min_freq : text_kind k -> make_scheme k table = Ok s -> well_indexed table -> kids_earlier table ->
  reserved_levels table -> min_freq <= 1 -> (exists line ps, In line lines /\ encode_str s line = Ok ps /\ ps <> []) ->
  exists mapping new s', shrink_vocab s lines min_freq = Ok (mapping, new) /\ make_scheme k new = Ok s' /\
    shrink_vocab s' lines min_freq = Ok (first_ids (length new), new).
Proof.
  intros Hk Hs Hwi Hke Hrl Hmf Hl. destruct (shrink_encodes k table s lines min_freq Hk Hs Hwi Hke Hrl Hmf Hl) as (mapping & new & s' & E & Hs' & Hall).
  exists mapping, new, s'. split; [exact E|]. split; [exact Hs'|].
  pose proof (scheme_table k table s Hk Hs) as Et. pose proof (scheme_table k new s' Hk Hs') as Et'.
  destruct (text_encode_all k table s lines Hk Hs Hwi) as (enc & Eenc & Hval & Hlin).
  assert (Hne : concat enc <> []).
  { destruct Hl as (l0 & ps0 & Hl0 & Hps0 & Hne0). destruct (text_encode k table s l0 Hk Hs Hwi) as (ps & E1 & E2). rewrite Hps0 in E1. injection E1 as <-.
    pose proof (Hlin _ _ Hl0 E2) as Hi. destruct ps0 as [|p ps0]; [contradiction|].
    intros E0. assert (Hx : In (bid table p) (concat enc)) by (apply in_concat; eexists; split; [exact Hi|left; reflexivity]). rewrite E0 in Hx. exact Hx. }
  destruct (shrink_ok s lines enc min_freq) as (mapping0 & new0 & E0 & Hinc & Hst & Hren); try (rewrite Et; assumption); try assumption.
  { intros i Hi. rewrite Et. apply (Hval i Hi). }
  rewrite E in E0. injection E0 as <- <-. rewrite Et in Hst, Hren.
  pose proof (new_well_indexed _ _ _ Hren) as Hwi'. pose proof (new_kids_earlier _ _ _ Hinc Hren Hwi Hke) as Hke'.
  destruct (text_encode_all k new s' lines Hk Hs' Hwi') as (enc' & Eenc' & Hval' & _).
  assert (Htr : Forall2 (translates mapping) (concat enc') (concat enc)).
  { apply forall2_concat. apply mapM_forall2 in Eenc. apply mapM_forall2 in Eenc'. clear - Eenc Eenc' Hall. revert enc' Eenc'.
    induction Eenc as [|l ids lines enc H _ IH]; intros enc' E'; inversion E' as [|? ids' ? enc'' H' E'']; subst; [constructor|]. constructor.
    - destruct (Hall l (or_introl eq_refl)) as (ps & i & i' & _ & _ & A & B & C). rewrite H in A. rewrite H' in B. injection A as ->. injection B as ->. exact C.
    - apply IH; [intros l' Hl'; apply Hall; right; exact Hl'|exact E'']. }
  destruct (shrink_ok s' lines enc' min_freq) as (mapping' & new' & E' & Hinc' & Hst' & Hren'); try (rewrite Et'; assumption); try assumption.
  { intros i Hi. rewrite Et'. apply (Hval' i Hi). }
  { intros E0. rewrite E0 in Htr. inversion Htr. congruence. }
  rewrite Et' in Hst', Hren'. rewrite E'.
  assert (Em : mapping' = first_ids (length new)).
  { apply increasing_all; [exact Hinc'|]. intros i. rewrite Hst'. split.
    - intros H. assert (B : forall n t, nth_error new n = Some t -> 0 <= Z.of_nat n < Z.of_nat (length new)).
      { intros n t Hn. assert ((n < length new)%nat) by (apply nth_error_Some; congruence). lia. }
      destruct H as [n t Hn _|n t Hn _|n t x _ Hn Hx]; [exact (B _ _ Hn)|exact (B _ _ Hn)|].
      destruct (Hke' _ _ Hn) as [_ Kin]. destruct (Kin x Hx) as (m & _ & Em). rewrite (Hwi' _ _ Em). exact (B _ _ Em).
    - intros Hi. destruct Hren as [Hlen Hren0]. assert (Hn : exists o, nth_error mapping (Z.to_nat i) = Some o).
      { destruct (nth_error mapping (Z.to_nat i)) as [o|] eqn:E0; [eauto|]. apply nth_error_None in E0. lia. }
      destruct Hn as (o & Hn). rewrite <- (Z2Nat.id i) by lia.
      apply (all_stay table mapping new (id_count enc) (id_count enc') min_freq Hinc (conj Hlen Hren0) Hst) with (i := o); [|apply Hst; eapply nth_error_In, Hn|exact Hn].
      intros m j Hm. unfold id_count. f_equal. apply (count_translated mapping); [apply increasing_NoDup, Hinc|exact Hm|exact Htr]. }
  rewrite Em in Hren' |- *. rewrite (renumbered_id new new' Hwi' Hke' Hren'). reflexivity.
Qed.
