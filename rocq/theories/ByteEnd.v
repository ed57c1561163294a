(** Exact outcome of decoding bytes written without zero padding. *)
From Coq Require Import Strings.String.
From Coq Require Import ZifyBool ZifyN Lia.
From Verif Require Import Py PyLemmas PyStr StrSpec PyStrProofs Utf8Model Utf8Proofs CodecModel
     CodecSpec FlatProofs ByteProofs ByteSpec.
Local Open Scope N_scope.
Local Open Scope list_scope.

Lemma digits_lt b : b < 256 -> Forall (fun d => d < 16) (digits b).
Proof. intros H. unfold digits. destruct (N.ltb_spec b 16); repeat constructor; lia. Qed.
Lemma hex_digits b : hex_of_byte b = map hexdig (digits b).
Proof. unfold hex_of_byte, digits. destruct (b <? 16); reflexivity. Qed.
Lemma hex_concat bs : concat (map hex_of_byte bs) = map hexdig (concat (map digits bs)).
Proof. induction bs as [|b bs IH]; [reflexivity|]. cbn [map concat]. rewrite map_app, hex_digits. f_equal. exact IH. Qed.
Lemma fromhex_two n : forall ds, (length ds <= n)%nat -> Forall (fun d => d < 16) ds -> fromhex (map hexdig ds) = two_by_two ds.
Proof.
  induction n as [|n IH]; intros ds Hl Hd; [destruct ds; [reflexivity|cbn in Hl; lia]|].
  destruct ds as [|x [|y ds]]; [reflexivity| |].
  - inversion Hd as [|? ? Hx _]; subst. cbn [map fromhex two_by_two]. rewrite (proj2 (hexval_hexdig x Hx)). reflexivity.
  - inversion Hd as [|? ? Hx Hd1]; subst. inversion Hd1 as [|? ? Hy Hd2]; subst. cbn [map fromhex two_by_two].
    destruct (hexval_hexdig x Hx) as [-> ->]. destruct (hexval_hexdig y Hy) as [-> _]. rewrite IH; [reflexivity| |exact Hd2]. cbn in Hl. lia.
Qed.
Lemma digits_all bs : Forall (fun b => b < 256) bs -> Forall (fun d => d < 16) (concat (map digits bs)).
Proof. induction 1 as [|b bs Hb _ IH]; cbn [map concat]; [constructor|]. apply Forall_app. split; [apply digits_lt, Hb|exact IH]. Qed.
Lemma fromhex_regrouped bs : Forall (fun b => b < 256) bs -> fromhex (concat (map hex_of_byte bs)) = regrouped bs.
Proof. intros H. rewrite hex_concat. apply (fromhex_two _ _ (le_n _)), digits_all, H. Qed.
Lemma two_app n : forall ds es, length ds = (2 * n)%nat -> two_by_two (ds ++ es) =
  match two_by_two ds, two_by_two es with Some a, Some b => Some (a ++ b) | _, _ => None end.
Proof.
  induction n as [|n IH]; intros ds es Hl; [destruct ds; [cbn; destruct (two_by_two es); reflexivity|discriminate]|].
  destruct ds as [|x [|y ds]]; cbn [length] in Hl; [lia|lia|]. cbn [app two_by_two]. rewrite IH by lia.
  destruct (two_by_two ds), (two_by_two es); reflexivity.
Qed.
Lemma two_none n : forall ds, (length ds <= n)%nat -> two_by_two ds = None <-> Nat.odd (length ds) = true.
Proof.
  induction n as [|n IH]; intros ds Hl; [destruct ds; [cbn; split; discriminate|cbn in Hl; lia]|].
  destruct ds as [|x [|y ds]]; [cbn; split; discriminate|cbn; split; reflexivity|]. cbn [two_by_two length] in *.
  rewrite Nat.odd_succ, Nat.even_succ. rewrite <- IH by lia. destruct (two_by_two ds); split; congruence.
Qed.
Lemma lows_app a b : lows (a ++ b) = (lows a + lows b)%nat.
Proof. unfold lows. rewrite filter_app, app_length. reflexivity. Qed.
Lemma digits_count bs : (length (concat (map digits bs)) + lows bs = 2 * length bs)%nat.
Proof.
  induction bs as [|b bs IH]; [reflexivity|]. cbn [map concat]. rewrite app_length. change (b :: bs) with ([b] ++ bs). rewrite lows_app, app_length.
  unfold digits at 1, lows at 1. cbn [filter]. destruct (b <? 16); cbn [length]; lia.
Qed.
Lemma odd_sum a b n : (a + b = 2 * n)%nat -> Nat.odd a = Nat.odd b.
Proof. intros H. assert (E : Nat.odd (a + b) = false) by (rewrite H, Nat.odd_mul; reflexivity). rewrite Nat.odd_add in E. destruct (Nat.odd a), (Nat.odd b); try reflexivity; discriminate. Qed.
Lemma regrouped_none bs : regrouped bs = None <-> Nat.odd (lows bs) = true.
Proof. unfold regrouped. rewrite (two_none _ _ (le_n _)). rewrite (odd_sum _ _ _ (digits_count bs)). reflexivity. Qed.
Lemma regrouped_high a b : Forall (fun x => x < 256) a -> Forall (fun x => 16 <= x) a ->
  regrouped (a ++ b) = match regrouped b with Some r => Some (a ++ r) | None => None end.
Proof.
  intros H1 H2. unfold regrouped. rewrite map_app, concat_app. rewrite (two_app (length a)).
  - assert (E : two_by_two (concat (map digits a)) = Some a).
    { pose proof (fromhex_hex a H1 H2) as E. rewrite (fromhex_regrouped a H1) in E. exact E. }
    rewrite E. destruct (two_by_two _); reflexivity.
  - pose proof (digits_count a) as Hc. assert (lows a = 0)%nat; [|lia]. clear Hc b H1. unfold lows. induction H2 as [|x a Hx _ IH]; [reflexivity|].
    cbn [filter]. destruct (N.ltb_spec x 16); [lia|exact IH].
Qed.

(** ** the first character of a decoded text *)
Notation FFFD := [65533] (only parsing).
Lemma decode_high x bs : 16 <= x -> exists c r, utf8_decode FFFD (x :: bs) = c :: r /\ 16 <= c.
Proof.
  intros Hx. cbn [utf8_decode]. destruct (N.ltb_spec x 128); [exists x; eexists; split; [reflexivity|exact Hx]|].
  destruct (N.ltb_spec x 194); [exists 65533; eexists; split; [reflexivity|lia]|].
  destruct (N.ltb_spec x 224).
  { destruct bs as [|b1 r1]; [exists 65533, []; split; [reflexivity|lia]|].
    destruct (is_cont b1) eqn:E1; [|exists 65533; eexists; split; [reflexivity|lia]].
    eexists; eexists; split; [reflexivity|]. unfold is_cont in E1. lia. }
  destruct (N.ltb_spec x 240).
  { destruct bs as [|b1 r1]; [exists 65533, []; split; [reflexivity|lia]|].
    destruct (negb (is_cont b1) || (if b1 <? 160 then x =? 224 else x =? 237)) eqn:E1; [exists 65533; eexists; split; [reflexivity|lia]|].
    destruct r1 as [|b2 r2]; [exists 65533, []; split; [reflexivity|lia]|].
    destruct (is_cont b2) eqn:E2; [|exists 65533; eexists; split; [reflexivity|lia]].
    eexists; eexists; split; [reflexivity|]. unfold is_cont in E1, E2. destruct (N.ltb_spec b1 160); lia. }
  destruct (N.ltb_spec x 245); [|exists 65533; eexists; split; [reflexivity|lia]].
  destruct bs as [|b1 r1]; [exists 65533, []; split; [reflexivity|lia]|].
  destruct (negb (is_cont b1) || (if b1 <? 144 then x =? 240 else x =? 244)) eqn:E1; [exists 65533; eexists; split; [reflexivity|lia]|].
  destruct r1 as [|b2 r2]; [exists 65533, []; split; [reflexivity|lia]|].
  destruct (is_cont b2) eqn:E2; cbn [negb]; [|exists 65533; eexists; split; [reflexivity|lia]].
  destruct r2 as [|b3 r3]; [exists 65533, []; split; [reflexivity|lia]|].
  destruct (is_cont b3) eqn:E3; [|exists 65533; eexists; split; [reflexivity|lia]].
  eexists; eexists; split; [reflexivity|]. unfold is_cont in E1, E2, E3. destruct (N.ltb_spec b1 144); lia.
Qed.
Lemma decode_low x bs : x < 16 -> utf8_decode FFFD (x :: bs) = x :: utf8_decode FFFD bs.
Proof. intros H. cbn [utf8_decode]. destruct (N.ltb_spec x 128); [reflexivity|lia]. Qed.
Lemma char_low c : c < 16 -> utf8_char c = Some [c].
Proof. intros H. unfold utf8_char. destruct (N.ltb_spec c 128); [reflexivity|lia]. Qed.
Lemma char_high c x bs : utf8_char c = Some (x :: bs) -> 16 <= c -> 16 <= x.
Proof. intros H Hc. destruct (utf8_char_bytes c _ H) as (_ & _ & H16). specialize (H16 Hc). inversion H16; assumption. Qed.
Lemma high_first x r out : 16 <= x -> two_by_two (digits x ++ r) = Some out -> exists o, out = x :: o.
Proof.
  intros Hx. unfold digits. destruct (N.ltb_spec x 16); [lia|]. cbn [app two_by_two]. destruct (two_by_two r) as [o|]; [|discriminate].
  intros G. exists o. assert (E : out = 16 * (x / 16) + x mod 16 :: o) by congruence. rewrite E. f_equal. pose proof (N.div_mod x 16). lia.
Qed.
Lemma encode_cons c b bs : utf8_encode (c :: b) = Ok bs -> exists x cb r, utf8_char c = Some (x :: cb) /\ utf8_encode b = Ok r /\ bs = x :: cb ++ r.
Proof.
  cbn [utf8_encode]. destruct (utf8_char c) as [cb|] eqn:E; [|discriminate]. destruct (utf8_encode b) as [r|]; [|discriminate]. intros H. injection H as <-.
  destruct (utf8_char_bytes c _ E) as (Hn & _ & _). destruct cb as [|x cb]; [congruence|]. exists x, cb, r. split; [reflexivity|]. split; reflexivity.
Qed.

(** ** no text with a low character comes back *)
Lemma zero_step b bs out l : utf8_encode (0 :: b) = Ok bs -> regrouped bs = Some out -> utf8_decode FFFD out = 0 :: l ->
  exists b2 bs2 out2, b = 0 :: b2 /\ utf8_encode b2 = Ok bs2 /\ regrouped bs2 = Some out2 /\ utf8_decode FFFD out2 = l.
Proof.
  intros He Hr Hd. destruct (encode_cons 0 b bs He) as (x & cb & r & Ec & Er & ->). rewrite (char_low 0 eq_refl) in Ec. injection Ec as <- <-. cbn [app] in *.
  unfold regrouped in Hr. cbn [map concat] in Hr. change (digits 0) with [0] in Hr. cbn [app] in Hr.
  destruct b as [|c b2]; [injection Er as <-; discriminate|].
  destruct (encode_cons c b2 r Er) as (y & cb & r2 & Ec & Er2 & ->). cbn [map concat] in Hr.
  destruct (N.ltb_spec c 16) as [Hc|Hc].
  - rewrite (char_low c Hc) in Ec. injection Ec as <- <-. cbn [app] in Hr. unfold digits at 1 in Hr. destruct (N.ltb_spec c 16); [|lia]. cbn [app two_by_two] in Hr.
    destruct (two_by_two (concat (map digits r2))) as [o|] eqn:Eo; [|discriminate]. assert (out = 16 * 0 + c :: o) by congruence. subst out.
    rewrite decode_low in Hd by lia. injection Hd as H0 Hl. assert (c = 0) by lia. subst c. exists b2, r2, o.
    split; [reflexivity|]. split; [exact Er2|]. split; [exact Eo|exact Hl].
  - pose proof (char_high c y cb Ec Hc) as Hy. unfold digits at 1 in Hr. destruct (N.ltb_spec y 16); [lia|]. cbn [app two_by_two] in Hr.
    match type of Hr with (match ?e with _ => _ end = _) => destruct e as [o|]; [|discriminate] end. assert (out = 16 * 0 + y / 16 :: o) by congruence. subst out.
    assert (y < 256) by (destruct (utf8_char_bytes c _ Ec) as (_ & H256 & _); inversion H256; assumption).
    assert (1 <= y / 16 < 16) by (split; [apply N.div_le_lower_bound; lia|apply N.div_lt_upper_bound; lia]).
    rewrite decode_low in Hd by lia. injection Hd as G0 _. lia.
Qed.
Lemma nonzero_first c b bs out : c <> 0 -> utf8_encode (c :: b) = Ok bs -> regrouped bs = Some out -> exists d r, utf8_decode FFFD out = d :: r /\ 16 <= d.
Proof.
  intros H0 He Hr. destruct (encode_cons c b bs He) as (x & cb & r & Ec & Er & ->). unfold regrouped in Hr. cbn [map concat] in Hr.
  destruct (N.ltb_spec c 16) as [Hc|Hc].
  - rewrite (char_low c Hc) in Ec. injection Ec as <- <-. unfold digits at 1 in Hr. destruct (N.ltb_spec c 16); [|lia]. cbn [app] in Hr.
    destruct (concat (map digits r)) as [|y ds]; [discriminate|]. cbn [two_by_two] in Hr. destruct (two_by_two ds) as [o|]; [|discriminate]. assert (E : out = 16 * c + y :: o) by congruence. rewrite E.
    apply decode_high. lia.
  - pose proof (char_high c x cb Ec Hc) as Hx. destruct (high_first x _ out Hx Hr) as (o & ->). apply decode_high, Hx.
Qed.
Lemma zeros_never n : forall b k bs out, (length b <= n)%nat -> utf8_encode b = Ok bs -> regrouped bs = Some out ->
  utf8_decode FFFD out = repeat 0 (S k) ++ b -> False.
Proof.
  induction n as [|n IH]; intros b k bs out Hl He Hr Hd.
  - destruct b; [|cbn in Hl; lia]. injection He as <-. injection Hr as <-. discriminate.
  - destruct b as [|c b]; [injection He as <-; injection Hr as <-; discriminate|].
    destruct (N.eq_dec c 0) as [->|Hc].
    + cbn [repeat app] in Hd. destruct (zero_step b bs out _ He Hr Hd) as (b2 & bs2 & out2 & -> & E2 & R2 & D2).
      apply (IH b2 (S k) bs2 out2); [cbn in Hl; lia|exact E2|exact R2|]. rewrite D2. clear. induction k as [|k IH]; [reflexivity|]. cbn [repeat app] in *. f_equal. exact IH.
    + destruct (nonzero_first c b bs out Hc He Hr) as (d & r & E & H16). rewrite E in Hd. cbn [repeat app] in Hd. injection Hd as -> _. lia.
Qed.
Lemma low_never c b bs out : c < 16 -> utf8_encode (c :: b) = Ok bs -> regrouped bs = Some out -> utf8_decode FFFD out <> c :: b.
Proof.
  intros Hc He Hr Hd. destruct (N.eq_dec c 0) as [->|H0].
  - destruct (zero_step b bs out _ He Hr Hd) as (b2 & bs2 & out2 & -> & E2 & R2 & D2). exact (zeros_never _ b2 0%nat bs2 out2 (le_n _) E2 R2 D2).
  - destruct (nonzero_first c b bs out H0 He Hr) as (d & r & E & H16). rewrite E in Hd. injection Hd as -> _. lia.
Qed.
Lemma encode_app a b bs : utf8_encode (a ++ b) = Ok bs -> exists x y, utf8_encode a = Ok x /\ utf8_encode b = Ok y /\ bs = x ++ y.
Proof.
  revert bs. induction a as [|c a IH]; intros bs H; [exists [], bs; split; [reflexivity|split; [exact H|reflexivity]]|].
  cbn [app utf8_encode] in *. destruct (utf8_char c) as [cb|]; [|discriminate]. destruct (utf8_encode (a ++ b)) as [r|] eqn:E; [|discriminate].
  injection H as <-. destruct (IH r eq_refl) as (x & y & -> & -> & ->). exists (cb ++ x), y. split; [reflexivity|]. split; [reflexivity|]. apply app_assoc.
Qed.
Lemma decode_encoded a x rest : utf8_encode a = Ok x -> utf8_decode FFFD (x ++ rest) = a ++ utf8_decode FFFD rest.
Proof.
  revert x. induction a as [|c a IH]; intros x H; [injection H as <-; reflexivity|].
  cbn [utf8_encode] in H. destruct (utf8_char c) as [cb|] eqn:E; [|discriminate]. destruct (utf8_encode a) as [r|]; [|discriminate]. injection H as <-.
  rewrite <- app_assoc, (utf8_decode_char _ c cb _ E), (IH r eq_refl). reflexivity.
Qed.
Lemma first_low (t : list N) : (forall c, In c t -> 16 <= c) \/ exists a c b, t = a ++ c :: b /\ (forall x, In x a -> 16 <= x) /\ c < 16.
Proof.
  induction t as [|c t IH]; [left; intros c []|]. destruct (N.ltb_spec c 16) as [H|H].
  - right. exists [], c, t. split; [reflexivity|]. split; [intros x []|exact H].
  - destruct IH as [IH|(a & d & b & -> & H1 & H2)].
    + left. intros x [<-|Hx]; [exact H|apply IH, Hx].
    + right. exists (c :: a), d, b. split; [reflexivity|]. split; [intros x [<-|Hx]; [exact H|apply H1, Hx]|exact H2].
Qed.
Lemma encode_lows t bs : utf8_encode t = Ok bs -> lows bs = lows t.
Proof.
  revert bs. induction t as [|c t IH]; intros bs H; [injection H as <-; reflexivity|].
  cbn [utf8_encode] in H. destruct (utf8_char c) as [cb|] eqn:E; [|discriminate]. destruct (utf8_encode t) as [r|]; [|discriminate]. injection H as <-.
  rewrite lows_app, (IH r eq_refl). change (c :: t) with ([c] ++ t). rewrite lows_app. f_equal.
  destruct (N.ltb_spec c 16) as [Hc|Hc]; [rewrite (char_low c Hc) in E; injection E as <-; reflexivity|].
  destruct (utf8_char_bytes c cb E) as (_ & _ & H16). specialize (H16 Hc). unfold lows. cbn [filter]. destruct (N.ltb_spec c 16); [lia|]. clear -H16.
  induction H16 as [|x l Hx _ IH]; [reflexivity|]. cbn [filter]. destruct (N.ltb_spec x 16); [lia|exact IH].
Qed.
Lemma regrouped_text t bs out : (forall c, In c t -> is_scalar c = true) -> utf8_encode t = Ok bs -> regrouped bs = Some out ->
  (utf8_decode FFFD out = t <-> forall c, In c t -> 16 <= c).
Proof.
  intros Hs He Hr. split.
  - intros Hd. destruct (first_low t) as [H|(a & c & b & -> & Ha & Hc)]; [exact H|exfalso].
    destruct (encode_app a (c :: b) bs He) as (x & y & Ex & Ey & ->).
    destruct (utf8_encode_spec a) as (x' & Ex' & Hlt & _ & Hge); [intros d Hd'; apply Hs, in_app_iff; left; exact Hd'|].
    assert (x' = x) by congruence. subst x'. rewrite regrouped_high in Hr by (try exact Hlt; apply Hge, Ha).
    destruct (regrouped y) as [o|] eqn:Eo; [|discriminate]. injection Hr as <-. rewrite (decode_encoded a x o Ex) in Hd. apply app_inv_head in Hd.
    exact (low_never c b y o Hc Ey Eo Hd).
  - intros H16. destruct (utf8_encode_spec t Hs) as (bs' & E & Hlt & Hd & Hge). assert (bs' = bs) by congruence. subst bs'. specialize (Hge H16).
    rewrite <- (app_nil_r bs) in Hr. rewrite regrouped_high in Hr by assumption. injection Hr as <-. rewrite app_nil_r. apply Hd.
Qed.

(** ** C12, C13 *)
Local Open Scope Z_scope.
Lemma run_any bs : Forall (fun b => b < 256)%N bs ->
  run (map hex_of_byte bs) [] [] = match regrouped bs with Some out => Ok (utf8_decode [65533%N] out) | None => Raise ValueError end.
Proof.
  intros H1. unfold run. rewrite byte_fold_bytes.
  2:{ apply Forall_map. eapply Forall_impl; [|exact H1]. intros b Hb. exists b; auto. }
  cbn [app fst snd]. unfold finish. destruct (map hex_of_byte bs) as [|x l] eqn:E.
  - destruct bs; [reflexivity|discriminate].
  - rewrite <- E. cbn [bind]. unfold compose_str. rewrite fromhex_regrouped by assumption. destruct (regrouped bs); reflexivity.
Qed.
Lemma decode_any ids : Forall (fun i => 0 <= i < 256) ids ->
  decode byte_scheme ids = match regrouped (map Z.to_N ids) with Some out => Ok (utf8_decode [65533%N] out) | None => Raise ValueError end.
Proof.
  intros H. rewrite byte_decode_run.
  2:{ eapply Forall_impl; [|exact H]. simpl. intros; lia. }
  assert (E : map byte_id_name ids = map hex_of_byte (map Z.to_N ids)).
  { rewrite map_map. apply map_ext_in. intros i Hi. rewrite Forall_forall in H. specialize (H i Hi).
    simpl in H. unfold byte_id_name. destruct (Z.eqb_spec i 256); [lia|]. destruct (Z.eqb_spec i 257); [lia|]. reflexivity. }
  rewrite E. apply run_any. apply Forall_map; (eapply Forall_impl; [|exact H]); simpl; intros; lia.
Qed.
Theorem byte_outcome t : (forall c, In c t -> is_scalar c = true) ->
  exists s ps ids r, make_scheme KByte [] = Ok s /\ encode_str s t = Ok ps /\ encode s t = Ok ids /\
    decode_str s ps = r /\ decode s ids = r /\
    (r = Ok t <-> forall c, In c t -> (16 <= c)%N) /\
    (r = Raise ValueError <-> Nat.odd (lows t) = true) /\ (forall e, r = Raise e -> e = ValueError).
Proof.
  intros Hs. destruct (utf8_encode_spec t Hs) as (bs & E & Hlt & _).
  exists byte_scheme, (map hex_of_byte bs), (map Z.of_N bs), (match regrouped bs with Some out => Ok (utf8_decode [65533%N] out) | None => Raise ValueError end).
  assert (Eps : encode_str byte_scheme t = Ok (map hex_of_byte bs)).
  { unfold encode_str. cbn [s_kind byte_scheme]. unfold byte_encode_str. rewrite E. reflexivity. }
  split; [exact (proj1 make_byte)|]. split; [exact Eps|]. split.
  { unfold encode. rewrite Eps. exact (byte_ids_of_pieces bs Hlt). }
  split.
  { unfold decode_str. cbn [s_kind byte_scheme]. rewrite byte_decode_str_run, run_any by assumption. reflexivity. }
  split.
  { rewrite decode_any.
    - rewrite map_map. rewrite (map_ext _ (fun x => x)) by (intros; lia). rewrite map_id. reflexivity.
    - apply Forall_map. eapply Forall_impl; [|exact Hlt]. simpl. intros; lia. }
  pose proof (encode_lows t bs E) as El. rewrite <- El. rewrite <- regrouped_none. destruct (regrouped bs) as [out|] eqn:Er.
  - split; [|split; [split; discriminate|intros e; discriminate]]. rewrite <- (regrouped_text t bs out Hs E Er). split; [intros H; injection H as H; exact H|intros ->; reflexivity].
  - split; [|split; [split; reflexivity|intros e H; injection H as <-; reflexivity]]. split; [discriminate|]. intros H16. exfalso.
    apply regrouped_none in Er. rewrite El in Er. assert (L0 : lows t = 0%nat); [|rewrite L0 in Er; discriminate].
    clear -H16. unfold lows. induction t as [|c t IH]; [reflexivity|]. cbn [filter]. destruct (N.ltb_spec c 16); [specialize (H16 c (or_introl eq_refl)); lia|].
    apply IH. intros d Hd. apply H16. right. exact Hd.
Qed.
Theorem byte_decode_iff ids : Forall (fun i => 0 <= i < 258) ids ->
  ((exists out, decode byte_scheme ids = Ok out) <->
   forall a r b, ids = a ++ r ++ b -> (a = [] \/ exists a' m, a = a' ++ [m] /\ 256 <= m) -> (b = [] \/ exists m b', b = m :: b' /\ 256 <= m) ->
     Forall (fun i => i < 256) r -> Nat.even (length (filter (fun i => i <? 16) r)) = true).
Proof.
  remember (length ids) as n eqn:En. revert ids En. induction n as [n IH] using lt_wf_ind. intros ids En H.
  assert (Hcase : Forall (fun i => i < 256) ids \/ exists a m b, ids = a ++ m :: b /\ 256 <= m < 258 /\ Forall (fun i => i < 256) a).
  { clear IH En. induction H as [|i ids Hi H IH]; [left; constructor|]. destruct (Z_lt_dec i 256) as [Hlt|Hge].
    - destruct IH as [IH|(a & m & b & -> & Hm & Ha)]; [left; constructor; [lia|exact IH]|]. right. exists (i :: a), m, b. split; [reflexivity|]. split; [exact Hm|constructor; assumption].
    - right. exists [], i, ids. split; [reflexivity|]. split; [lia|constructor]. }
  assert (Hlow : forall r, Forall (fun i => 0 <= i < 256) r -> Nat.even (length (filter (fun i => i <? 16) r)) = true <-> exists out, decode byte_scheme r = Ok out).
  { intros r Hr. rewrite (decode_any r Hr). pose proof (regrouped_none (map Z.to_N r)) as Hn.
    assert (El : lows (map Z.to_N r) = length (filter (fun i => i <? 16) r)).
    { clear -Hr. unfold lows. induction Hr as [|i r Hi _ IH]; [reflexivity|]. cbn [map filter]. destruct (N.ltb_spec (Z.to_N i) 16), (Z.ltb_spec i 16); try lia; cbn [length]; rewrite IH; reflexivity. }
    rewrite El in Hn. rewrite <- Nat.negb_odd. destruct (regrouped (map Z.to_N r)) as [o|].
    - destruct (Nat.odd _); [exfalso; discriminate (proj2 Hn eq_refl)|]. split; [intros _; eexists; reflexivity|reflexivity].
    - rewrite (proj1 Hn eq_refl). split; [discriminate|intros (o & Ho); discriminate]. }
  assert (Hfor : Forall (fun i => i < 256) ids -> Forall (fun i => 0 <= i < 256) ids).
  { intros G. rewrite Forall_forall in *. intros i Hi. specialize (G i Hi). specialize (H i Hi). simpl in *. lia. }
  destruct Hcase as [Hb|(a & m & b & -> & Hm & Ha)].
  - rewrite <- (Hlow ids (Hfor Hb)). split.
    + intros Hev x r y -> Hx Hy Hr. assert (x = []) as -> by (destruct Hx as [Hx|(x' & m & -> & Hm)]; [exact Hx|exfalso; rewrite Forall_forall in Hb; specialize (Hb m); rewrite !in_app_iff in Hb; cbn in Hb; assert (m < 256) by tauto; lia]).
      assert (y = []) as -> by (destruct Hy as [Hy|(m & y' & -> & Hm)]; [exact Hy|exfalso; rewrite Forall_forall in Hb; specialize (Hb m); rewrite !in_app_iff in Hb; cbn in Hb; assert (m < 256) by tauto; lia]).
      rewrite app_nil_r in Hev. exact Hev.
    + intros G. apply (G [] ids []); [rewrite app_nil_r; reflexivity|left; reflexivity|left; reflexivity|exact Hb].
  - apply Forall_app in H as [Ha0 H]. inversion H as [|? ? _ Hb]; subst.
    assert (Ha1 : Forall (fun i => 0 <= i < 256) a) by (rewrite Forall_forall in *; intros i Hi; specialize (Ha i Hi); specialize (Ha0 i Hi); simpl in *; lia).
    rewrite (byte_decode_markers a b m (byte_id_name m)); [| |exact Ha0|exact Hb].
    2:{ unfold byte_id_name. destruct (Z.eqb_spec m 256) as [->|]; [left; auto|]. destruct (Z.eqb_spec m 257) as [->|]; [right; auto|lia]. }
    specialize (IH (length b) ltac:(rewrite app_length; cbn [length]; lia) b eq_refl Hb). specialize (Hlow a Ha1).
    assert (Hand : (exists out, (let* x := decode byte_scheme a in let* y := decode byte_scheme b in Ok (x ++ byte_id_name m ++ y))%res = Ok out) <->
                   (exists out, decode byte_scheme a = Ok out) /\ (exists out, decode byte_scheme b = Ok out)).
    { destruct (decode byte_scheme a) as [x|]; cbn [bind]; [|split; [intros (o & Ho); discriminate|intros ((o & Ho) & _); discriminate]].
      destruct (decode byte_scheme b) as [y|]; cbn [bind]; [|split; [intros (o & Ho); discriminate|intros (_ & (o & Ho)); discriminate]].
      split; [intros _; split; eexists; reflexivity|intros _; eexists; reflexivity]. }
    rewrite Hand, <- Hlow, IH. clear Hand IH Hlow. split.
    + intros [Hea Heb] x r y E Hx Hy Hr. destruct Hx as [->|(x' & m' & -> & Hm')].
      * (* the first run *) assert (r = a) as ->; [|exact Hea]. cbn [app] in E. clear -E Hy Hr Ha Hm. revert r E Hr. induction Ha as [|i a Hi _ IH]; intros r E Hr.
        -- cbn [app] in E. destruct r as [|j r]; [reflexivity|]. injection E as <- _. inversion Hr; subst; lia.
        -- destruct r as [|j r]; cbn [app] in E.
           ++ destruct Hy as [->|(m' & y' & -> & Hm')]; [discriminate|]. injection E as <- _. lia.
           ++ injection E as <- E. f_equal. inversion Hr; subst. apply IH; assumption.
      * (* a later run *) rewrite <- !app_assoc in E. cbn [app] in E.
        assert (Hsplit : (x' = a /\ r ++ y = b) \/ exists x2, x' = a ++ m :: x2 /\ b = x2 ++ m' :: r ++ y).
        { clear -E Ha Hm'. revert x' E. induction Ha as [|i a Hi _ IH]; intros x' E; cbn [app] in E.
          - destruct x' as [|j x']; cbn [app] in E; injection E as E1 E2; [left; split; [reflexivity|congruence]|right; exists x'; split; [cbn; congruence|exact E2]].
          - destruct x' as [|j x']; cbn [app] in E; injection E as E1 E2; [lia|]. subst j. destruct (IH x' E2) as [[-> G]|(x2 & -> & G)]; [left; auto|right; exists x2; split; [reflexivity|exact G]]. }
        destruct Hsplit as [[-> <-]|(x2 & -> & ->)].
        -- apply (Heb [] r y eq_refl); [left; reflexivity|exact Hy|exact Hr].
        -- apply (Heb (x2 ++ [m']) r y); [rewrite <- app_assoc; reflexivity|right; exists x2, m'; auto|exact Hy|exact Hr].
    + intros G. split.
      * apply (G [] a (m :: b) eq_refl); [left; reflexivity|right; exists m, b; split; [reflexivity|lia]|exact Ha].
      * intros x r y -> Hx Hy Hr. apply (G (a ++ m :: x) r y); [rewrite <- app_assoc; reflexivity| |exact Hy|exact Hr].
        right. destruct Hx as [->|(x' & m' & -> & Hm')]; [exists a, m; split; [reflexivity|lia]|exists (a ++ m :: x'), m'; split; [rewrite <- app_assoc; reflexivity|exact Hm']].
Qed.
