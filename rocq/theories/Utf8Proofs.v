(** utf-8 and hex conversions: round trips. *)
From Verif Require Import Py PyLemmas PyStr Utf8Model.
From Coq Require Import ZifyBool ZifyN.
Local Open Scope N_scope.
Local Open Scope list_scope.
Ltac Zify.zify_post_hook ::= Z.div_mod_to_equations.

Lemma Some_inj {A} (a b : A) : Some a = Some b -> a = b.
Proof. congruence. Qed.

Lemma utf8_char_some c : is_scalar c = true -> exists bs, utf8_char c = Some bs.
Proof.
  unfold is_scalar, utf8_char, is_surrogate. intros H.
  destruct (N.ltb_spec c 128); [eauto|]. destruct (N.ltb_spec c 2048); [eauto|].
  destruct ((55296 <=? c) && (c <=? 57343)); [rewrite andb_false_r in H; discriminate|].
  destruct (N.ltb_spec c 65536); [eauto|]. destruct (N.ltb_spec c 1114112); [eauto|discriminate].
Qed.
Lemma utf8_char_none c : utf8_char c = None <-> is_scalar c = false.
Proof.
  unfold is_scalar, utf8_char, is_surrogate.
  destruct (N.ltb_spec c 128) as [H1|H1].
  { split; [discriminate|]. intros H. exfalso. lia. }
  destruct (N.ltb_spec c 2048) as [H2|H2].
  { split; [discriminate|]. intros H. exfalso. lia. }
  destruct ((55296 <=? c) && (c <=? 57343)) eqn:E; [rewrite andb_false_r; tauto|].
  destruct (N.ltb_spec c 65536) as [H3|H3].
  { split; [discriminate|]. intros H. exfalso. lia. }
  destruct (N.ltb_spec c 1114112); simpl; split; congruence.
Qed.

Ltac fa := split; [discriminate|]; split; [|intros ?]; repeat (apply Forall_cons; [lia|]); apply Forall_nil.
Lemma utf8_char_bytes c bs :
  utf8_char c = Some bs ->
  bs <> [] /\ Forall (fun b => b < 256) bs /\ (16 <= c -> Forall (fun b => 16 <= b) bs).
Proof.
  unfold utf8_char, is_surrogate.
  destruct (N.ltb_spec c 128).
  { intros E; apply Some_inj in E; subst bs. fa. }
  destruct (N.ltb_spec c 2048).
  { intros E; apply Some_inj in E; subst bs. fa. }
  destruct ((55296 <=? c) && (c <=? 57343)); [discriminate|].
  destruct (N.ltb_spec c 65536).
  { intros E; apply Some_inj in E; subst bs. fa. }
  destruct (N.ltb_spec c 1114112); [|discriminate].
  intros E; apply Some_inj in E; subst bs. fa.
Qed.

Ltac yes := match goal with |- context [if ?b then _ else _] =>
  let E := fresh "Y" in assert (E : b = true) by (unfold is_cont, is_surrogate in *; lia); rewrite E; clear E end.
Ltac no := match goal with |- context [if ?b then _ else _] =>
  let E := fresh "Y" in assert (E : b = false) by (unfold is_cont, is_surrogate in *; lia); rewrite E; clear E end.

Lemma utf8_decode_char err c bs rest :
  utf8_char c = Some bs -> utf8_decode err (bs ++ rest) = c :: utf8_decode err rest.
Proof.
  unfold utf8_char.
  destruct (N.ltb_spec c 128) as [H1|H1].
  { intros E; apply Some_inj in E; subst bs. cbn [app utf8_decode]. yes. reflexivity. }
  destruct (N.ltb_spec c 2048) as [H2|H2].
  { intros E; apply Some_inj in E; subst bs. cbn [app utf8_decode].
    no. no. yes. yes. f_equal. lia. }
  destruct (is_surrogate c) eqn:Es; [discriminate|].
  destruct (N.ltb_spec c 65536) as [H3|H3].
  { intros E; apply Some_inj in E; subst bs. cbn [app utf8_decode].
    no. no. no. yes.
    assert (Hb1 : (128 <= 128 + (c / 64) mod 64 < 192)) by lia.
    assert (Hx : negb (is_cont (128 + (c / 64) mod 64))
            || (if 128 + (c / 64) mod 64 <? 160 then 224 + c / 4096 =? 224 else 224 + c / 4096 =? 237) = false).
    { apply orb_false_iff. split; [unfold is_cont; lia|].
      unfold is_surrogate in Es.
      destruct (N.ltb_spec (128 + (c / 64) mod 64) 160); lia. }
    rewrite Hx. yes. f_equal. lia. }
  destruct (N.ltb_spec c 1114112) as [H4|H4]; [|discriminate].
  intros E; apply Some_inj in E; subst bs. cbn [app utf8_decode].
  no. no. no. no. yes.
  assert (Hx : negb (is_cont (128 + (c / 4096) mod 64))
            || (if 128 + (c / 4096) mod 64 <? 144 then 240 + c / 262144 =? 240 else 240 + c / 262144 =? 244) = false).
  { apply orb_false_iff. split; [unfold is_cont; lia|].
    destruct (N.ltb_spec (128 + (c / 4096) mod 64) 144); lia. }
  rewrite Hx.
  assert (Hy : negb (is_cont (128 + (c / 64) mod 64)) = false) by (unfold is_cont; lia).
  rewrite Hy. yes. f_equal. lia.
Qed.

Lemma utf8_encode_spec s :
  (forall c, In c s -> is_scalar c = true) ->
  exists bs, utf8_encode s = Ok bs /\ Forall (fun b => b < 256) bs /\
    (forall err, utf8_decode err bs = s) /\
    ((forall c, In c s -> 16 <= c) -> Forall (fun b => 16 <= b) bs).
Proof.
  induction s as [|c s IH]; intros H.
  - exists []. repeat split; constructor.
  - destruct IH as (bs & E & Hlt & Hd & Hge); [intros x Hx; apply H; right; exact Hx|].
    destruct (utf8_char_some c) as (b0 & E0); [apply H; left; reflexivity|].
    simpl. rewrite E0, E. exists (b0 ++ bs). split; [reflexivity|].
    destruct (utf8_char_bytes c b0 E0) as (_ & B1 & B2). split; [|split].
    + apply Forall_app; auto.
    + intros err. rewrite (utf8_decode_char err c b0 bs E0), Hd. reflexivity.
    + intros H16. apply Forall_app. split; [apply B2, H16; left; reflexivity|].
      apply Hge. intros x Hx; apply H16; right; exact Hx.
Qed.
Lemma utf8_encode_raise s e : utf8_encode s = Raise e -> e = UnicodeError /\ exists c, In c s /\ is_scalar c = false.
Proof.
  induction s as [|c s IH]; simpl; [discriminate|].
  destruct (utf8_char c) as [bs|] eqn:E.
  - destruct (utf8_encode s); [discriminate|]. intros H; injection H as ->.
    destruct IH as (-> & x & Hx & Hs); [reflexivity|]. split; [reflexivity|]. exists x; auto.
  - intros H; injection H as <-. split; [reflexivity|]. exists c. split; [auto|]. apply utf8_char_none, E.
Qed.

(** ** hex *)
Lemma hexval_hexdig d : d < 16 -> hexval (hexdig d) = Some d /\ ascii_ws (hexdig d) = false.
Proof.
  intros H. unfold hexdig. destruct (N.ltb_spec d 10).
  - unfold hexval, ascii_ws. split; [|lia].
    assert (E : (48 <=? 48 + d) && (48 + d <=? 57) = true) by lia. rewrite E. f_equal. lia.
  - unfold hexval, ascii_ws. split; [|lia].
    assert (E : (48 <=? 87 + d) && (87 + d <=? 57) = false) by lia. rewrite E.
    assert (E2 : (97 <=? 87 + d) && (87 + d <=? 102) = true) by lia. rewrite E2. f_equal. lia.
Qed.
Lemma fromhex_hex bs :
  Forall (fun b => b < 256) bs -> Forall (fun b => 16 <= b) bs ->
  fromhex (concat (map hex_of_byte bs)) = Some bs.
Proof.
  induction bs as [|b bs IH]; intros H1 H2; [reflexivity|].
  inversion H1; inversion H2; subst. simpl. unfold hex_of_byte at 1.
  destruct (N.ltb_spec b 16); [lia|].
  assert (Hq : b / 16 < 16) by lia. assert (Hr : b mod 16 < 16) by lia.
  destruct (hexval_hexdig _ Hq) as [Eq Wq]. destruct (hexval_hexdig _ Hr) as [Er Wr].
  cbn [app]. cbn [fromhex]. rewrite Wq, Eq, Er, IH by assumption. f_equal. f_equal. lia.
Qed.
