(** Decimal printing and parsing of integers. *)
From Verif Require Import Py PyLemmas PyStr StrSpec PyStrProofs.
From Coq Require Import ZifyBool ZifyN.
Local Open Scope N_scope.
Local Open Scope list_scope.
Ltac Zify.zify_post_hook ::= Z.div_mod_to_equations.

Definition dval (a : N) (s : str) : N := fold_left (fun a c => 10 * a + (c - 48)) s a.
Definition all_digits (s : str) : Prop := Forall (fun c => is_digit c = true) s.

Lemma digits_fuel_spec f : forall n acc, n < 2 ^ N.of_nat f ->
  exists D, digits_fuel f n acc = D ++ acc /\ (f <> O -> D <> []) /\ all_digits D /\ dval 0 D = n /\
    (forall r, D = 48 :: r -> r = [] /\ n = 0).
Proof.
  induction f as [|f IH]; intros n acc H.
  - exists []. simpl in *. split; [reflexivity|]. split; [congruence|]. split; [apply Forall_nil|].
    split; [unfold dval; simpl; lia|discriminate].
  - cbn [digits_fuel]. set (c := 48 + n mod 10).
    assert (Hc : is_digit c = true) by (clear; unfold is_digit, c; lia).
    destruct (n / 10 =? 0) eqn:E.
    + exists [c]. split; [reflexivity|]. split; [discriminate|]. split; [constructor; [exact Hc|constructor]|].
      split; [unfold dval, c; cbn [fold_left]; clear - E; lia|]. intros r Hr. injection Hr as Hc0 <-. split; [reflexivity|].
      unfold c in Hc0. lia.
    + assert (Hp : 2 ^ N.of_nat (S f) = 2 * 2 ^ N.of_nat f).
      { rewrite Nat2N.inj_succ, N.pow_succ_r'. reflexivity. }
      destruct (IH (n / 10) (c :: acc)) as (D & ED & Hne & Hd & Hv & Hz); [lia|].
      exists (D ++ [c]). rewrite ED, <- app_assoc. split; [reflexivity|].
      split; [intros _; destruct D; discriminate|].
      split; [apply Forall_app; split; [exact Hd|constructor; [exact Hc|constructor]]|].
      split; [unfold dval in *; rewrite fold_left_app, Hv; cbn [fold_left]; unfold c; clear; lia|].
      intros r Hr. destruct f as [|f].
      { simpl in *. lia. }
      destruct D as [|x D]; [exfalso; apply Hne; [discriminate|reflexivity]|].
      injection Hr as -> Hr. destruct (Hz D) as [-> Hn]; [reflexivity|]. lia.
Qed.

Lemma str_of_N_spec n :
  str_of_N n <> [] /\ all_digits (str_of_N n) /\ dval 0 (str_of_N n) = n /\
  (forall r, str_of_N n = 48 :: r -> r = [] /\ n = 0).
Proof.
  unfold str_of_N.
  destruct (digits_fuel_spec (S (N.to_nat (N.log2 n))) n []) as (D & ED & Hne & Hd & Hv & Hz).
  - rewrite Nat2N.inj_succ, N2Nat.id. destruct n as [|p]; [reflexivity|]. apply N.log2_spec. lia.
  - rewrite app_nil_r in ED. rewrite ED. split; [apply Hne; discriminate|]. auto.
Qed.

Lemma int_digits_dval s : all_digits s -> forall us a, s <> [] -> int_digits us a s = Some (dval a s).
Proof.
  induction s as [|c s IH]; intros H us a Hne; [congruence|].
  inversion H as [|? ? Hc Hs]; subst. cbn [int_digits]. rewrite Hc. unfold dval. cbn [fold_left].
  destruct s as [|c' s]; [reflexivity|]. rewrite IH; [reflexivity|assumption|discriminate].
Qed.

Lemma digit_not_space c : is_digit c = true -> is_space c = false.
Proof. unfold is_digit, is_space. lia. Qed.

Lemma all_digits_stripped s : all_digits s -> stripped s.
Proof.
  intros H. split; intros c r ->.
  - inversion H; subst. apply digit_not_space; assumption.
  - apply Forall_app in H. destruct H as [_ H]. inversion H; subst. apply digit_not_space; assumption.
Qed.

Lemma str_of_Z_chars z : Forall (fun c => is_digit c = true \/ c = 45) (str_of_Z z) /\ str_of_Z z <> [].
Proof.
  destruct z as [|p|p]; simpl.
  - split; [constructor; [left; reflexivity|constructor]|discriminate].
  - destruct (str_of_N_spec (Npos p)) as (H1 & H2 & _). split; [|exact H1].
    eapply Forall_impl; [|exact H2]. tauto.
  - destruct (str_of_N_spec (Npos p)) as (H1 & H2 & _). split; [|discriminate].
    constructor; [right; reflexivity|]. eapply Forall_impl; [|exact H2]. simpl. tauto.
Qed.
Lemma str_of_Z_is_word z : is_word (str_of_Z z).
Proof.
  destruct (str_of_Z_chars z) as [H1 H2]. split; [exact H2|].
  eapply Forall_impl; [|exact H1]. simpl. intros c [Hc| ->]; [apply digit_not_space, Hc|reflexivity].
Qed.
Lemma is_word_stripped w : is_word w -> stripped w.
Proof.
  intros [_ H]. split; intros c r ->.
  - inversion H; assumption.
  - apply Forall_app in H. destruct H as [_ H]. inversion H; assumption.
Qed.

Lemma int_nat_digits s : all_digits s -> s <> [] -> int_nat s = Some (dval 0 s).
Proof.
  intros H Hne. destruct s as [|c s]; [congruence|]. inversion H; subst.
  unfold int_nat. rewrite H2. apply int_digits_dval; assumption.
Qed.
Lemma int_of_digits s : all_digits s -> s <> [] -> int_of_str s = Ok (Z.of_N (dval 0 s)).
Proof.
  intros H Hne. unfold int_of_str. rewrite stripped_strip by (apply all_digits_stripped, H).
  pose proof (int_nat_digits s H Hne) as E.
  destruct s as [|c s]; [congruence|]. inversion H; subst.
  assert (c <> 45 /\ c <> 43) as [H45 H43] by (unfold is_digit in *; lia).
  destruct c as [|c]; [rewrite E; reflexivity|].
  repeat (first [rewrite E; reflexivity | congruence | destruct c as [c|c|]]).
Qed.

Lemma int_of_str_of_Z z : int_of_str (str_of_Z z) = Ok z.
Proof.
  destruct z as [|p|p]; [reflexivity| |].
  - destruct (str_of_N_spec (Npos p)) as (H1 & H2 & H3 & _).
    change (str_of_Z (Z.pos p)) with (str_of_N (N.pos p)).
    rewrite int_of_digits by assumption. rewrite H3. reflexivity.
  - destruct (str_of_N_spec (Npos p)) as (H1 & H2 & H3 & _).
    change (str_of_Z (Z.neg p)) with (45 :: str_of_N (N.pos p)).
    unfold int_of_str. rewrite stripped_strip.
    + rewrite int_nat_digits by assumption. rewrite H3. reflexivity.
    + split; intros c r E.
      * injection E as <- _. reflexivity.
      * destruct (all_digits_stripped _ H2) as [_ Hl]. destruct r as [|x r].
        { injection E as <- _. reflexivity. }
        injection E as _ E. eapply Hl; exact E.
Qed.
Lemma str_of_Z_inj a b : str_of_Z a = str_of_Z b -> a = b.
Proof.
  intros H. pose proof (int_of_str_of_Z a) as Ha. rewrite H, int_of_str_of_Z in Ha. congruence.
Qed.
Lemma str_of_Z_no_tab z c : In c (str_of_Z z) -> is_digit c = true \/ c = 45.
Proof. intros H. destruct (str_of_Z_chars z) as [Hf _]. rewrite Forall_forall in Hf. apply Hf, H. Qed.
