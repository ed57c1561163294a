From Coq Require Import Lia ZifyBool ZifyN.
From Verif Require Import Py PyStr PyLemmas StrSpec PyStrProofs NumProofs TextSpec CodecModel CodecSpec CliModel CliProofs LearnModel LearnProofs.
Local Open Scope N_scope.
Local Open Scope list_scope.

Lemma white_iff c : is_space c = true <-> white c.
Proof.
  unfold white, white_space. split.
  - intros H. unfold is_space in H. cbn [In]. lia.
  - cbn [In]. intros H. unfold is_space. lia.
Qed.
Lemma white_gap a : Forall white a <-> gap a.
Proof. unfold gap. split; intros H; eapply Forall_impl; try exact H; intros c; apply white_iff. Qed.
Lemma plain_word w : plain w <-> is_word w.
Proof.
  unfold plain, is_word. rewrite Forall_forall. split; intros [H1 H2]; (split; [exact H1|]); intros c Hc.
  - destruct (is_space c) eqn:E; [|reflexivity]. apply white_iff in E. destruct (H2 c Hc E).
  - intros Hw. apply white_iff in Hw. rewrite (H2 c Hc) in Hw. discriminate.
Qed.

Lemma boundary w1 c w2 : plain w1 -> plain w2 ->
  (white c -> words_of (w1 ++ [c] ++ w2) [w1; w2]) /\ (~ white c -> words_of (w1 ++ [c] ++ w2) [w1 ++ [c] ++ w2]).
Proof.
  intros H1 H2. apply plain_word in H1, H2. split; intros Hc.
  - apply white_iff in Hc. change (w1 ++ [c] ++ w2) with ([] ++ w1 ++ c :: w2). apply W_more; [constructor|exact H1|exact Hc|].
    change w2 with ([] ++ w2) at 1. apply W_last; [constructor|exact H2].
  - change (w1 ++ [c] ++ w2) with ([] ++ (w1 ++ [c] ++ w2)) at 1. apply W_last; [constructor|].
    apply plain_word. apply plain_word in H1, H2. destruct H1 as [H1 H1'], H2 as [H2 H2'].
    split; [destruct w1; discriminate|]. intros x Hx. apply in_app_iff in Hx. destruct Hx as [Hx|[<-|Hx]]; auto.
Qed.
Lemma word_boundary s w1 c w2 : s_kind s = KWord -> plain w1 -> plain w2 ->
  encode_str s (w1 ++ [c] ++ w2) = Ok (if existsb (N.eqb c) white_space then [w1; w2] else [w1 ++ [c] ++ w2]).
Proof.
  intros Hk H1 H2. destruct (boundary w1 c w2 H1 H2) as [Hy Hn].
  assert (He : encode_str s (w1 ++ [c] ++ w2) = Ok (split (w1 ++ [c] ++ w2))) by (unfold encode_str; rewrite Hk; reflexivity).
  rewrite He. f_equal.
  destruct (existsb (N.eqb c) white_space) eqn:E.
  - apply split_words_of, Hy. apply existsb_exists in E. destruct E as (x & Hx & Ex). apply N.eqb_eq in Ex. subst x. exact Hx.
  - apply split_words_of, Hn. intros Hw. assert (existsb (N.eqb c) white_space = true); [|congruence].
    apply existsb_exists. exists c. split; [exact Hw|apply N.eqb_refl].
Qed.

(* numbers *)
Lemma digits_nonempty t n : digits t n -> exists c r, t = c :: r /\ is_digit c = true.
Proof.
  induction 1 as [d Hd|s n d H (c & r & -> & Hc) Hd|s n d H (c & r & -> & Hc) Hd].
  - exists (48 + d), []. split; [reflexivity|unfold is_digit; lia].
  - exists c, (r ++ [48 + d]). split; [reflexivity|exact Hc].
  - exists c, (r ++ [95; 48 + d]). split; [reflexivity|exact Hc].
Qed.
Lemma digits_chars t n : digits t n -> Forall (fun c => is_digit c = true \/ c = 95) t.
Proof.
  assert (Hdig : forall d, d < 10 -> is_digit (48 + d) = true) by (unfold is_digit; lia).
  induction 1 as [d Hd|s n d H IH Hd|s n d H IH Hd].
  - constructor; [left; auto|constructor].
  - apply Forall_app. split; [exact IH|]. constructor; [left; auto|constructor].
  - apply Forall_app. split; [exact IH|]. constructor; [right; reflexivity|]. constructor; [left; auto|constructor].
Qed.
(* what int_digits does with digits followed by anything *)
Lemma digits_step t n : digits t n -> forall rest, int_digits false 0 (t ++ rest) = int_digits false n rest.
Proof.
  assert (Hdig : forall d, d < 10 -> is_digit (48 + d) = true) by (unfold is_digit; lia).
  induction 1 as [d Hd|s n d H IH Hd|s n d H IH Hd]; intros rest.
  - cbn [app int_digits]. rewrite Hdig by exact Hd. f_equal. lia.
  - rewrite <- app_assoc, IH. cbn [app int_digits]. rewrite Hdig by exact Hd. f_equal. lia.
  - rewrite <- app_assoc, IH. cbn [app int_digits]. rewrite Hdig by exact Hd.
    change (is_digit 95) with false. cbn [negb]. change (95 =? 95) with true. cbn [andb]. f_equal. lia.
Qed.
Lemma digits_read t n : digits t n -> int_nat t = Some n.
Proof.
  intros H. destruct (digits_nonempty t n H) as (c & r & -> & Hc). unfold int_nat. rewrite Hc.
  rewrite <- (app_nil_r (c :: r)). rewrite (digits_step _ _ H). reflexivity.
Qed.
(* and back: an accumulated prefix and its digits *)
Lemma int_digits_inv s : forall p n us, digits p n -> forall v, int_digits us n s = Some v ->
  digits (p ++ (if us then 95 :: s else s)) v.
Proof.
  induction s as [|c s IH]; intros p n us Hp v H.
  - cbn in H. destruct us; [discriminate|]. injection H as <-. rewrite app_nil_r. exact Hp.
  - cbn [int_digits] in H. destruct (is_digit c) eqn:Ec.
    + assert (Hc : exists d, d < 10 /\ c = 48 + d).
      { exists (c - 48). unfold is_digit in Ec. lia. }
      destruct Hc as (d & Hd & ->). replace (10 * n + (48 + d - 48)) with (10 * n + d) in H by lia.
      destruct us.
      * pose proof (IH (p ++ [95; 48 + d]) _ false (Di_under p n d Hp Hd) v H) as HH.
        rewrite <- app_assoc in HH. exact HH.
      * pose proof (IH (p ++ [48 + d]) _ false (Di_more p n d Hp Hd) v H) as HH.
        rewrite <- app_assoc in HH. exact HH.
    + destruct (c =? 95) eqn:E95; cbn [andb] in H; [|discriminate]. apply N.eqb_eq in E95. subst c.
      destruct us; cbn [negb] in H; [discriminate|]. exact (IH p n true Hp v H).
Qed.
Lemma int_nat_iff t n : int_nat t = Some n <-> digits t n.
Proof.
  split; [|apply digits_read]. intros H. destruct t as [|c s]; [discriminate|]. unfold int_nat in H.
  destruct (is_digit c) eqn:Ec; [|discriminate]. cbn [int_digits] in H. rewrite Ec in H.
  assert (Hc : exists d, d < 10 /\ c = 48 + d).
  { exists (c - 48). unfold is_digit in Ec. lia. }
  destruct Hc as (d & Hd & ->). replace (10 * 0 + (48 + d - 48)) with d in H by lia.
  exact (int_digits_inv s [48 + d] d false (Di_one d Hd) n H).
Qed.
Lemma strip_split s : exists a b, gap a /\ gap b /\ s = a ++ strip s ++ b /\ stripped (strip s).
Proof.
  pose proof (proj2 (trimmed_strip s (strip s)) eq_refl) as (a & b & Ha & Hb & E & Hs). exists a, b. auto.
Qed.
Lemma strip_around a t b : gap a -> gap b -> stripped t -> strip (a ++ t ++ b) = t.
Proof.
  intros Ha Hb Ht. symmetry. apply trimmed_strip. exists a, b. auto.
Qed.
Lemma digits_not_sign t n : digits t n -> forall r, t <> 45 :: r /\ t <> 43 :: r.
Proof. intros H r. destruct (digits_nonempty t n H) as (c & r' & -> & Hc). unfold is_digit in Hc. split; intros E; injection E as -> _; lia. Qed.
Lemma digits_stripped t n : digits t n -> stripped t.
Proof.
  intros H. pose proof (digits_chars t n H) as Hc. apply is_word_stripped. split.
  - destruct (digits_nonempty t n H) as (c & r & -> & _). discriminate.
  - eapply Forall_impl; [|exact Hc]. intros c [Hd| ->]; [apply digit_not_space, Hd|reflexivity].
Qed.
Lemma signed_stripped t n c : digits t n -> is_space c = false -> stripped (c :: t).
Proof.
  intros H Hc. pose proof (digits_chars t n H) as Hch. apply is_word_stripped. split; [discriminate|].
  constructor; [exact Hc|]. eapply Forall_impl; [|exact Hch]. intros x [Hd| ->]; [apply digit_not_space, Hd|reflexivity].
Qed.
(* the three cases of int() *)
Lemma int_cases s : 
  (exists t, strip s = 45 :: t /\ int_of_str s = match int_nat t with Some n => Ok (- Z.of_N n)%Z | None => Raise ValueError end) \/
  (exists t, strip s = 43 :: t /\ int_of_str s = match int_nat t with Some n => Ok (Z.of_N n) | None => Raise ValueError end) \/
  ((forall t, strip s <> 45 :: t /\ strip s <> 43 :: t) /\
   int_of_str s = match int_nat (strip s) with Some n => Ok (Z.of_N n) | None => Raise ValueError end).
Proof.
  unfold int_of_str. destruct (strip s) as [|c t] eqn:E.
  - right. right. split; [intros t; split; discriminate|reflexivity].
  - destruct (N.eq_dec c 45) as [->|H45]; [left; exists t; split; reflexivity|].
    destruct (N.eq_dec c 43) as [->|H43]; [right; left; exists t; split; reflexivity|].
    right. right. split; [intros t'; split; congruence|].
    destruct c as [|c]; [reflexivity|].
    repeat (first [reflexivity | congruence | destruct c as [c|c|]]).
Qed.
Lemma number_read s z : int_of_str s = Ok z <-> number_text s z.
Proof.
  split.
  - intros H. destruct (strip_split s) as (a & b & Ha & Hb & Es & _). apply white_gap in Ha, Hb.
    destruct (int_cases s) as [(t & Et & E)|[(t & Et & E)|(_ & E)]]; rewrite E in H; clear E.
    + destruct (int_nat t) as [n|] eqn:En; [|discriminate]. injection H as <-. apply int_nat_iff in En.
      exists a, b, t, n. rewrite Et in Es. do 3 (split; [assumption|]). right. right. auto.
    + destruct (int_nat t) as [n|] eqn:En; [|discriminate]. injection H as <-. apply int_nat_iff in En.
      exists a, b, t, n. rewrite Et in Es. do 3 (split; [assumption|]). right. left. auto.
    + destruct (int_nat (strip s)) as [n|] eqn:En; [|discriminate]. injection H as <-. apply int_nat_iff in En.
      exists a, b, (strip s), n. do 3 (split; [assumption|]). left. auto.
  - intros (a & b & t & n & Ha & Hb & Ht & H). apply white_gap in Ha, Hb.
    pose proof (digits_read t n Ht) as En. pose proof (digits_not_sign t n Ht) as Hsg.
    destruct H as [[-> ->]|[[-> ->]|[-> ->]]].
    + pose proof (strip_around a t b Ha Hb (digits_stripped t n Ht)) as Es.
      destruct (int_cases (a ++ t ++ b)) as [(t' & Et & _)|[(t' & Et & _)|(_ & E)]].
      * rewrite Es in Et. destruct (Hsg t') as [H _]. contradiction.
      * rewrite Es in Et. destruct (Hsg t') as [_ H]. contradiction.
      * rewrite E, Es, En. reflexivity.
    + pose proof (strip_around a (43 :: t) b Ha Hb (signed_stripped t n 43 Ht eq_refl)) as Es.
      change (a ++ [43] ++ t ++ b) with (a ++ (43 :: t) ++ b).
      destruct (int_cases (a ++ (43 :: t) ++ b)) as [(t' & Et & _)|[(t' & Et & E)|(H & _)]].
      * rewrite Es in Et. discriminate.
      * rewrite Es in Et. injection Et as <-. rewrite E, En. reflexivity.
      * destruct (H t) as [_ H']. contradiction.
    + pose proof (strip_around a (45 :: t) b Ha Hb (signed_stripped t n 45 Ht eq_refl)) as Es.
      change (a ++ [45] ++ t ++ b) with (a ++ (45 :: t) ++ b).
      destruct (int_cases (a ++ (45 :: t) ++ b)) as [(t' & Et & E)|[(t' & Et & E)|(H & _)]].
      * rewrite Es in Et. injection Et as <-. rewrite E, En. reflexivity.
      * rewrite Es in Et. discriminate.
      * destruct (H t) as [H' _]. contradiction.
Qed.
Lemma number_refused s : (forall z, ~ number_text s z) -> int_of_str s = Raise ValueError.
Proof.
  intros H. assert (HN : forall z, int_of_str s <> Ok z) by (intros z E; apply number_read in E; exact (H z E)).
  destruct (int_cases s) as [(t & _ & E)|[(t & _ & E)|(_ & E)]]; rewrite E in *.
  - destruct (int_nat t); [|reflexivity]. destruct (HN _ eq_refl).
  - destruct (int_nat t); [|reflexivity]. destruct (HN _ eq_refl).
  - destruct (int_nat (strip s)); [|reflexivity]. destruct (HN _ eq_refl).
Qed.

(* printing *)
Lemma decimal_zero n s : decimal n s -> n = 0 -> s = [48].
Proof. destruct 1 as [d Hd|n s d Hn H Hd]; intros E; [rewrite E; reflexivity|lia]. Qed.
Lemma decimal_digits s : all_digits s -> s <> [] -> (forall r, s = 48 :: r -> r = []) -> decimal (dval 0 s) s.
Proof.
  induction s as [|c s IH] using rev_ind; intros Hd Hne Hz; [congruence|].
  apply Forall_app in Hd. destruct Hd as [Hd Hc]. inversion Hc as [|? ? Hc' _]; subst.
  assert (Hx : exists d, d < 10 /\ c = 48 + d) by (exists (c - 48); unfold is_digit in Hc'; lia).
  destruct Hx as (d & Hlt & ->).
  unfold dval. rewrite fold_left_app. fold (dval 0 s). cbn [fold_left].
  replace (10 * dval 0 s + (48 + d - 48)) with (10 * dval 0 s + d) by lia.
  destruct s as [|c0 s0].
  - cbn. apply De_one. exact Hlt.
  - assert (Hz' : forall r, c0 :: s0 = 48 :: r -> r = []).
    { intros r E. injection E as -> ->. specialize (Hz (r ++ [48 + d]) eq_refl). destruct r; discriminate. }
    assert (Hn0 : c0 <> 48).
    { intros ->. specialize (Hz (s0 ++ [48 + d]) eq_refl). destruct s0; discriminate. }
    apply De_more; [|apply IH; [exact Hd|discriminate|exact Hz']|exact Hlt].
    specialize (IH Hd ltac:(discriminate) Hz'). clear - IH Hn0 Hd.
    destruct (N.eq_dec (dval 0 (c0 :: s0)) 0) as [E|]; [|lia]. exfalso.
    pose proof (decimal_zero _ _ IH E) as E0. injection E0 as E0 _. exact (Hn0 E0).
Qed.
Lemma printed_str z : printed z (str_of_Z z).
Proof.
  destruct z as [|p|p].
  - change 0%Z with (Z.of_N 0). apply Pr_nonneg. change (str_of_Z (Z.of_N 0)) with [48 + 0]. apply De_one. lia.
  - destruct (str_of_N_spec (Npos p)) as (H1 & H2 & H3 & H4). change (Z.pos p) with (Z.of_N (N.pos p)) at 1.
    apply Pr_nonneg. change (str_of_Z (Z.pos p)) with (str_of_N (N.pos p)). rewrite <- H3 at 1. apply decimal_digits; auto. intros r E. apply (H4 r E).
  - destruct (str_of_N_spec (Npos p)) as (H1 & H2 & H3 & H4). change (Z.neg p) with (- Z.of_N (N.pos p))%Z at 1.
    change (str_of_Z (Z.neg p)) with (45 :: str_of_N (N.pos p)). apply Pr_neg; [lia|]. rewrite <- H3 at 1. apply decimal_digits; auto. intros r E. apply (H4 r E).
Qed.
Lemma decimal_read n s : decimal n s -> digits s n.
Proof. induction 1; constructor; assumption. Qed.
Lemma printed_number z s : printed z s -> number_text s z.
Proof.
  intros [n t H|n t Hn H]; exists [], [], t, n; apply decimal_read in H; do 2 (split; [constructor|]); (split; [exact H|]); cbn [app]; rewrite app_nil_r; auto.
Qed.
Lemma decimal_head n s : decimal n s -> exists c r, s = c :: r /\ is_digit c = true /\ (c = 48 -> s = [48] /\ n = 0).
Proof.
  induction 1 as [d Hd|n s d Hn H (c & r & -> & Hc & Hz) Hd].
  - exists (48 + d), []. split; [reflexivity|]. split; [unfold is_digit; lia|]. intros E. assert (d = 0) by lia. subst. auto.
  - exists c, (r ++ [48 + d]). split; [reflexivity|]. split; [exact Hc|]. intros ->. destruct (Hz eq_refl) as [_ ->]. lia.
Qed.
Lemma decimal_unique n s : decimal n s -> forall m t, decimal m t -> m = n -> s = t.
Proof.
  induction 1 as [d Hd|n s d Hn H IH Hd]; intros m t Ht E; destruct Ht as [d' Hd'|n' s' d' Hn' H' Hd'].
  - rewrite E. reflexivity.
  - lia.
  - lia.
  - assert (E1 : n' = n) by lia. assert (E2 : d' = d) by lia. rewrite E2. rewrite (IH n' s' H' E1). reflexivity.
Qed.
Lemma printed_unique z s z' t : printed z s -> printed z' t -> z = z' -> s = t.
Proof.
  intros [n a H|n a Hn H] Ht E; destruct Ht as [n' b H'|n' b Hn' H'].
  - apply (decimal_unique _ _ H _ _ H'). lia.
  - lia.
  - lia.
  - f_equal. apply (decimal_unique _ _ H _ _ H'). lia.
Qed.
Lemma printed_iff z s : printed z s <-> s = str_of_Z z.
Proof. split; [intros H; exact (printed_unique z s z _ H (printed_str z) eq_refl)|intros ->; apply printed_str]. Qed.

Lemma join_spaced ws : join [SPACE] ws = spaced 32 ws.
Proof.
  induction ws as [|w ws IH]; [reflexivity|]. destruct ws as [|w' ws]; [reflexivity|].
  change (join [SPACE] (w :: w' :: ws)) with (w ++ [SPACE] ++ join [SPACE] (w' :: ws)). rewrite IH. reflexivity.
Qed.
Lemma encode_ids_printed s line out : encode_line s true line = Ok out <->
  exists ids texts, encode s line = Ok ids /\ Forall2 printed ids texts /\ out = spaced 32 texts.
Proof.
  unfold encode_line. destruct (encode s line) as [ids|e] eqn:E; cbn [bind].
  - split.
    + intros H. injection H as <-. exists ids, (map str_of_Z ids). split; [reflexivity|]. split; [|apply join_spaced].
      clear E. induction ids as [|z ids IH]; constructor; [apply printed_str|exact IH].
    + intros (ids' & texts & E' & HF & ->). injection E' as <-. f_equal. rewrite join_spaced. f_equal.
      clear E. induction HF as [|z t ids texts Hz HF IH]; [reflexivity|]. cbn [map]. apply printed_iff in Hz. rewrite IH, Hz. reflexivity.
  - split; [discriminate|]. intros (ids & texts & E' & _). discriminate.
Qed.
Lemma mapM_numbers ws ids : mapM int_of_str ws = Ok ids <-> Forall2 number_text ws ids.
Proof.
  revert ids. induction ws as [|w ws IH]; intros ids; cbn [mapM].
  - split; [intros H; injection H as <-; constructor|intros H; inversion H; reflexivity].
  - destruct (int_of_str w) as [z|e] eqn:E; cbn [bind].
    + destruct (mapM int_of_str ws) as [zs|e] eqn:E2; cbn [bind].
      * split.
        -- intros H. injection H as <-. constructor; [apply number_read, E|apply IH; reflexivity].
        -- intros H. inversion H as [|? z' ? zs' Hz Hzs]; subst. apply number_read in Hz. apply IH in Hzs. congruence.
      * split; [discriminate|]. intros H. inversion H as [|? z' ? zs' Hz Hzs]; subst. apply IH in Hzs. congruence.
    + split; [discriminate|]. intros H. inversion H as [|? z' ? zs' Hz Hzs]; subst. apply number_read in Hz. congruence.
Qed.
Lemma mapM_refused ws w : In w ws -> (forall z, ~ number_text w z) -> mapM int_of_str ws = Raise ValueError.
Proof.
  intros Hin Hw. induction ws as [|x ws IH]; [destruct Hin|]. cbn [mapM].
  destruct (int_of_str x) as [z|e] eqn:E; cbn [bind].
  - destruct Hin as [->|Hin]; [apply number_read in E; destruct (Hw z E)|]. rewrite (IH Hin). reflexivity.
  - assert (Hx : forall z, ~ number_text x z) by (intros z Hz; apply number_read in Hz; congruence).
    apply number_refused in Hx. rewrite Hx in E. congruence.
Qed.
Lemma decode_ids_line s line ws : words_of line ws ->
  (forall ids, Forall2 number_text ws ids -> decode_line s true line = decode s ids) /\
  (forall w, In w ws -> (forall z, ~ number_text w z) -> decode_line s true line = Raise ValueError).
Proof.
  intros H. apply split_words_of in H. unfold decode_line. rewrite H. split.
  - intros ids Hi. apply mapM_numbers in Hi. rewrite Hi. reflexivity.
  - intros w Hin Hw. rewrite (mapM_refused ws w Hin Hw). reflexivity.
Qed.

(* the levels of learned tables *)
Local Open Scope Z_scope.
Lemma stats_NoDup k data (is_tf : bool) stats n :
  (if is_tf then read_term_freqs data else Ok (term_frequencies k data)) = Ok (stats, n) -> NoDup (map fst stats).
Proof.
  intros Hs. destruct is_tf.
  - unfold read_term_freqs in Hs.
    assert (G : forall l st st', foldM read_tf_line l st = Ok st' -> NoDup (map fst (fst st)) -> NoDup (map fst (fst st'))).
    { clear. induction l as [|x l IH]; intros st st' H Hst; simpl in H; [injection H as <-; exact Hst|].
      destruct (read_tf_line st x) as [st1|e] eqn:E; [|discriminate]. apply (IH st1 st' H).
      unfold read_tf_line in E. destruct st as [stats lc].
      destruct ((fst x =? 0) && _ && _).
      - destruct (header_line_count _ _); [|discriminate]. injection E as <-. exact Hst.
      - destruct (split_on _ _) as [|a [|b [|? ?]]]; try discriminate. destruct (int_of_str b); [|discriminate].
        injection E as <-. apply (dset_NoDup str_eqb str_eqb_eq). exact Hst. }
    apply (G _ _ _ Hs). constructor.
  - injection Hs as Hs. pose proof (term_frequencies_NoDup k data) as Hd. rewrite Hs in Hd. exact Hd.
Qed.
Lemma nth_enum_map {A B} (f : Z * A -> B) (l : list A) : forall k n t, nth_error (map f (enum_from k l)) n = Some t ->
  exists a, nth_error l n = Some a /\ t = f (k + Z.of_nat n, a).
Proof.
  induction l as [|a l IH]; intros k [|n] t H; cbn in H; try discriminate.
  - injection H as <-. exists a. split; [reflexivity|]. f_equal. f_equal. lia.
  - destruct (IH _ _ _ H) as (b & Hb & ->). exists b. split; [exact Hb|]. f_equal. f_equal. lia.
Qed.
Lemma learned_levels A k data vs mf cov is_tf table : k = KWord \/ k = KChar \/ k = KClass ->
  learn_flat A k data vs mf cov is_tf = Ok table ->
  forall n t, nth_error table n = Some t ->
    t_idx t = Z.of_nat n /\ t_kids t = None /\
    t_level t = match k with
                | KClass => 0
                | _ => if (n <? 6)%nat then -1 else match k with KWord => 2 | _ => 0 end
                end.
Proof.
  intros Hk H n t Hn.
  destruct Hk as [->|[->| ->]]; unfold learn_flat in H; destruct (if is_tf then _ else _) as [[stats lc]|e] eqn:E; try discriminate; cbn [bind] in H.
  - destruct (init_layout _ _ _ _ _ _ _ _ (stats_NoDup _ _ _ _ _ E) H) as (_ & Hi & _ & Hl).
    destruct (Hl n t Hn) as [H1 H2]. split; [exact (Hi n t Hn)|]. split; [exact H1|exact H2].
  - destruct (init_layout _ _ _ _ _ _ _ _ (stats_NoDup _ _ _ _ _ E) H) as (_ & Hi & _ & Hl).
    destruct (Hl n t Hn) as [H1 H2]. split; [exact (Hi n t Hn)|]. split; [exact H1|exact H2].
  - injection H as <-. unfold class_init_vocab, enumerate in Hn. apply nth_enum_map in Hn. destruct Hn as (a & _ & ->).
    split; [cbn; lia|]. split; reflexivity.
Qed.
