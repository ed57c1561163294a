(** Lemmas about the further entry points. *)
From Coq Require Import Strings.String.
From Coq Require Import Sorted.
From Verif Require Import Py PyStr PyLemmas StrSpec PyStrProofs NumProofs BatchModel CodecModel CodecSpec LearnModel LearnSpec LearnProofs
  BpeSpec LearnBpeModel LearnBpeEnd MapredModel MapredSpec MapredProofs MapredProofs2 RestModel RestSpec.
Local Open Scope Z_scope.
Local Open Scope list_scope.

(** *** learn_subwords_from_corpus *)
Lemma corpus_as_learn A orders data vs cov mco : 0 < vs -> effective_size vs mco = vs ->
  learn_subwords_from_corpus orders data vs mco
    (Some (fun chars => get_init_vocab A L_char chars cov (Some (Z.of_nat (length data))) 1 (-1))) =
  learn_bpe A orders data vs cov mco false.
Proof.
  intros Hv He. unfold learn_bpe. cbv zeta.
  change (if (mco >? 1) && (vs <=? 1) then maxsize else vs) with (effective_size vs mco). rewrite He.
  destruct (Z.gtb_spec vs 0) as [_|]; [|lia]. cbn [assert_ bind].
  rewrite term_frequencies_eq. reflexivity.
Qed.
Lemma corpus_no_factory orders data vs mco : learn_subwords_from_corpus orders data vs mco None = Raise TypeError.
Proof. reflexivity. Qed.

Lemma first_seen_flat {A B} (dec : forall x y : A, {x = y} + {x <> y}) (g : A -> list B) l ws ks :
  first_seen l ws -> first_seen (flat_map g ws) ks -> first_seen (flat_map g l) ks.
Proof.
  intros (W1 & W2 & W3) (K1 & K2 & K3). split; [exact K1|]. split.
  - intros x. rewrite K2, !in_flat_map. split; intros (w & Hw & Hx); exists w; (split; [apply W2, Hw|exact Hx]).
  - intros k1 x k2 y E Hy. destruct (K3 k1 x k2 y E Hy) as (l1 & l2 & El & Hn).
    assert (S : forall ws l1 l2, flat_map g ws = l1 ++ x :: l2 ->
              exists w1 w w2 a b, ws = w1 ++ w :: w2 /\ g w = a ++ x :: b /\ l1 = flat_map g w1 ++ a).
    { clear. induction ws as [|w ws IH]; intros l1 l2 H; cbn [flat_map] in H; [destruct l1; discriminate|].
      assert (Hc : (exists b, g w = l1 ++ x :: b) \/ (exists l1', l1 = g w ++ l1' /\ flat_map g ws = l1' ++ x :: l2)).
      { revert l1 H. generalize (flat_map g ws) as R. induction (g w) as [|z gw IHg]; intros R l1 H; cbn in H.
        - right. exists l1. split; [reflexivity|exact H].
        - destruct l1 as [|z' l1]; cbn in H.
          + injection H as -> H. left. exists gw. reflexivity.
          + injection H as -> H. destruct (IHg R l1 H) as [(b & ->)|(l1' & -> & H')]; [left; exists b; reflexivity|right; exists l1'; split; [reflexivity|exact H']]. }
      destruct Hc as [(b & Hb)|(l1' & -> & H')].
      - exists [], w, ws, l1, b. split; [reflexivity|]. split; [exact Hb|reflexivity].
      - destruct (IH _ _ H') as (w1 & w' & w2 & a & b & -> & Hg & ->).
        exists (w :: w1), w', w2, a, b. split; [reflexivity|]. split; [exact Hg|]. cbn [flat_map]. rewrite app_assoc. reflexivity. }
    destruct (S ws l1 l2 El) as (w1 & w & w2 & a & b & Ews & Eg & ->).
    assert (Hw : In w l) by (apply W2; rewrite Ews; apply in_app_iff; right; left; reflexivity).
    assert (F : exists t1 t2, l = t1 ++ w :: t2 /\ ~ In w t1).
    { clear - dec Hw. induction l as [|v l IH]; [destruct Hw|]. destruct (dec v w) as [->|Hne].
      - exists [], l. split; [reflexivity|intros []].
      - destruct Hw as [Hv|Hw]; [congruence|]. destruct (IH Hw) as (t1 & t2 & -> & Hn). exists (v :: t1), t2. split; [reflexivity|]. intros [Hv|Hi]; [congruence|exact (Hn Hi)]. }
    destruct F as (t1 & t2 & Et & Hnw). exists (flat_map g t1 ++ a), (b ++ flat_map g t2). split.
    + rewrite Et, flat_map_app. cbn [flat_map]. rewrite Eg, <- !app_assoc. reflexivity.
    + rewrite in_app_iff. intros [Hy1|Hya]; [|apply Hn, in_app_iff; right; exact Hya].
      apply in_flat_map in Hy1. destruct Hy1 as (v & Hv & Hyv).
      assert (Hvw : In v ws) by (apply W2; rewrite Et; apply in_app_iff; left; exact Hv).
      rewrite Ews in Hvw. apply in_app_iff in Hvw. destruct Hvw as [Hv1|[<-|Hv2]].
      * apply Hn, in_app_iff. left. apply in_flat_map. exists v. split; assumption.
      * exact (Hnw Hv).
      * destruct (W3 w1 w w2 v Ews Hv2) as (m1 & m2 & Em & Hnv).
        assert (P : exists r, m1 = t1 ++ r).
        { rewrite Et in Em. clear - Em Hnw. revert m1 Em Hnw. induction t1 as [|z t1 IH]; intros m1 Em Hnw; [exists m1; reflexivity|].
          destruct m1 as [|z' m1]; cbn in Em; injection Em as -> Em; [exfalso; apply Hnw; left; reflexivity|].
          destruct (IH m1 Em) as (r & ->); [intro Hi; apply Hnw; right; exact Hi|]. exists r. reflexivity. }
        destruct P as (r & ->). apply Hnv, in_app_iff. left. exact Hv.
Qed.

(** Keys and sums of a dict that numbers are added to. *)
Definition key_add (ks : list str) (k : str) : list str := if existsb (str_eqb k) ks then ks else ks ++ [k].
Lemma dkeys_dset_add k v (d : list (str * Z)) : dkeys (dset str_eqb k v d) = key_add (dkeys d) k.
Proof.
  unfold key_add, dkeys. induction d as [|[k' v'] d IH]; [reflexivity|]. cbn [dset map fst existsb].
  destruct (str_eqb k k') eqn:E; [reflexivity|]. cbn [map fst orb]. rewrite IH. destruct (existsb _ _); reflexivity.
Qed.
Lemma char_freqs_dkeys l : forall d,
  dkeys (fold_left (fun d tf => fold_left (fun d c => dadd str_eqb [c] (snd tf) d) (fst tf) d) l d) =
  fold_left key_add (map (fun c => [c]) (flat_map fst l)) (dkeys d).
Proof.
  assert (I : forall w f d, dkeys (fold_left (fun d c => dadd str_eqb [c] f d) w d) = fold_left key_add (map (fun c => [c]) w) (dkeys d)).
  { induction w as [|c w IH]; intros f d; [reflexivity|]. cbn [fold_left map]. rewrite IH. unfold dadd. rewrite dkeys_dset_add. reflexivity. }
  induction l as [|[w f] l IH]; intros d; [reflexivity|]. cbn [fold_left flat_map fst snd]. rewrite IH, I, map_app, fold_left_app. reflexivity.
Qed.
Lemma counter_dkeys l : forall d : list (str * Z), dkeys (counter_update str_eqb l d) = fold_left key_add l (dkeys d).
Proof.
  unfold counter_update. induction l as [|k l IH]; intros d; [reflexivity|]. cbn [fold_left]. rewrite IH. unfold dadd. rewrite dkeys_dset_add. reflexivity.
Qed.

Definition at0 (k : str) (d : list (str * Z)) : Z := dget_def str_eqb k 0 d.
Lemma at0_dadd k k' n d : at0 k (dadd str_eqb k' n d) = at0 k d + (if str_eqb k k' then n else 0).
Proof.
  unfold at0, dadd, dget_def. rewrite (dget_dset str_eqb str_eqb_eq).
  destruct (str_eqb k k') eqn:E; [|lia]. apply str_eqb_eq in E. subst k'. reflexivity.
Qed.
Definition weight (h : str -> Z) (d : list (str * Z)) : Z := zsum (map (fun wf => snd wf * h (fst wf)) d).
Lemma weight_dadd h k n d : weight h (dadd str_eqb k n d) = weight h d + n * h k.
Proof.
  unfold weight, dadd, dget_def. induction d as [|[k' v] d IH]; [cbn; lia|].
  cbn [dset dget]. destruct (str_eqb k k') eqn:E.
  - apply str_eqb_eq in E. subst k'. cbn [map fst snd zsum fold_right]. change (fold_right Z.add 0 ?l) with (zsum l). lia.
  - cbn [map fst snd zsum fold_right]. change (fold_right Z.add 0 ?l) with (zsum l). lia.
Qed.
Lemma weight_counter h toks : forall d, weight h (counter_update str_eqb toks d) = weight h d + zsum (map h toks).
Proof.
  unfold counter_update. induction toks as [|w toks IH]; intros d; cbn [fold_left map]; [cbn; lia|].
  rewrite IH, weight_dadd. cbn [zsum fold_right]. change (fold_right Z.add 0 ?l) with (zsum l). lia.
Qed.
Definition occ_in (k : str) (w : str) : Z := Z.of_nat (count_occ str_dec (map (fun c => [c]) w) k).
Lemma at0_chars k l : forall d,
  at0 k (fold_left (fun d tf => fold_left (fun d c => dadd str_eqb [c] (snd tf) d) (fst tf) d) l d) =
  at0 k d + zsum (map (fun wf => snd wf * occ_in k (fst wf)) l).
Proof.
  assert (I : forall w f d, at0 k (fold_left (fun d c => dadd str_eqb [c] f d) w d) = at0 k d + f * occ_in k w).
  { unfold occ_in. induction w as [|c w IH]; intros f d; cbn [fold_left map count_occ]; [lia|]. rewrite IH, at0_dadd.
    destruct (str_dec [c] k) as [->|Hn].
    - rewrite (proj2 (str_eqb_eq _ _) eq_refl). lia.
    - destruct (str_eqb k [c]) eqn:E; [apply str_eqb_eq in E; congruence|lia]. }
  induction l as [|[w f] l IH]; intros d; cbn [fold_left map fst snd]; [cbn; lia|].
  rewrite IH, I. cbn [zsum fold_right]. change (fold_right Z.add 0 ?x) with (zsum x). lia.
Qed.
Lemma occurrences_marked k toks : occurrences k (marked_characters toks) = zsum (map (fun w => occ_in k (w ++ [MARK])) toks).
Proof.
  unfold occurrences, marked_characters, occ_in. induction toks as [|w toks IH]; [reflexivity|].
  cbn [flat_map]. rewrite map_app, count_occ_app, Nat2Z.inj_add. cbn [map]. exact (f_equal2 Z.add eq_refl IH).
Qed.

Lemma marked_counts toks :
  exact_counts (marked_characters toks)
    (char_freqs (map (fun wf => (fst wf ++ [MARK], snd wf)) (counter_update str_eqb toks []))).
Proof.
  set (tfs := counter_update str_eqb toks []). set (mk := map (fun wf : str * Z => (fst wf ++ [MARK], snd wf)) tfs).
  pose proof (counter_exact toks) as [Hf _]. fold tfs in Hf.
  assert (Hk : dkeys (char_freqs mk) = map fst (counter_update str_eqb (map (fun c => [c]) (flat_map fst mk)) [])).
  { unfold char_freqs. rewrite char_freqs_dkeys. symmetry. apply (counter_dkeys _ []). }
  assert (Hm : map (fun c => [c]) (flat_map fst mk) = flat_map (fun w => map (fun c => [c]) (w ++ [MARK])) (map fst tfs)).
  { unfold mk. clear. induction tfs as [|[w f] l IH]; [reflexivity|]. cbn [map flat_map fst]. rewrite map_app, IH. reflexivity. }
  assert (Hmt : marked_characters toks = flat_map (fun w => map (fun c => [c]) (w ++ [MARK])) toks).
  { unfold marked_characters. clear. induction toks as [|w l IH]; [reflexivity|]. cbn [flat_map]. rewrite map_app, IH. reflexivity. }
  assert (Hfirst : first_seen (marked_characters toks) (map fst (char_freqs mk))).
  { change (map fst (char_freqs mk)) with (dkeys (char_freqs mk)). rewrite Hk, Hmt.
    eapply (first_seen_flat str_dec); [exact Hf|]. rewrite Hm. apply counter_exact. }
  split; [exact Hfirst|]. intros w f Hin.
  assert (Hat : at0 w (char_freqs mk) = f).
  { unfold at0, dget_def. rewrite (In_dget str_eqb str_eqb_eq _ _ _ (proj1 Hfirst) Hin). reflexivity. }
  rewrite <- Hat. unfold char_freqs. rewrite at0_chars. change (at0 w []) with 0.
  rewrite occurrences_marked. unfold mk. rewrite map_map. cbn [fst snd].
  pose proof (weight_counter (fun v => occ_in w (v ++ [MARK])) toks []) as HW. unfold weight in HW. cbn [map] in HW. fold tfs in HW.
  exact HW.
Qed.
Lemma corpus_initial orders data toks mco f : tokens_of KWord data toks ->
  exists d, exact_counts (marked_characters toks) d /\ learn_subwords_from_corpus orders data (-1) mco (Some f) = f d.
Proof.
  intros Ht. pose proof (tokens_of_fun KWord data toks Ht) as E.
  exists (char_freqs (map (fun wf => (fst wf ++ [MARK], snd wf)) (counter_update str_eqb toks []))). split; [apply marked_counts|].
  assert (Hm : marked_words (counter_update str_eqb toks []) = map (fun wf => (fst wf ++ [MARK], snd wf)) (counter_update str_eqb toks []))
    by (apply marked_words_eq; exact (proj1 (proj1 (counter_exact toks)))).
  rewrite <- Hm, E. unfold learn_subwords_from_corpus, learn_subwords. cbv zeta.
  change (-1 =? -1) with true. cbv iota.
  match goal with |- bind ?x _ = _ => transitivity (bind x (fun v => Ok v)); [reflexivity|] end.
  match goal with |- bind (f ?x) _ = f ?y => change y with x; destruct (f x); reflexivity end.
Qed.

(** *** encode_all *)
Lemma yields_ok {A B} (f : A -> res B) l ys fin : Forall2 (fun x y => f x = Ok y) l ys -> yields f l fin = (ys, fin).
Proof. induction 1 as [|x y l ys H _ IH]; [reflexivity|]. cbn [yields]. rewrite H, IH. reflexivity. Qed.
Lemma yields_fail {A B} (f : A -> res B) l x l' ys e fin : Forall2 (fun x y => f x = Ok y) l ys -> f x = Raise e ->
  yields f (l ++ x :: l') fin = (ys, Some e).
Proof. intros H He. induction H as [|z y l ys H _ IH]; cbn [app yields]; [rewrite He; reflexivity|]. rewrite H, IH. reflexivity. Qed.
Lemma encode_str_strip s l : s_kind s <> KByte -> encode_str s (strip l) = encode_str s l.
Proof.
  intros Hk. unfold encode_str. destruct (s_kind s); try congruence; rewrite ?split_strip; try reflexivity.
  - unfold bpe_encode_str. destruct (s_unk s) as [u|]; [|reflexivity]. unfold bpe_segment, bpe_text. rewrite !split_strip. reflexivity.
  - rewrite strip_idem. reflexivity.
Qed.
Lemma encode_strip s l : s_kind s <> KByte -> encode s (strip l) = encode s l.
Proof. intros Hk. unfold encode. rewrite (encode_str_strip s l Hk). reflexivity. Qed.

(** *** MapReduce *)
Lemma map_reduce_ok {A T} (m : A -> T) (g : T -> T -> T) (d : T) x l :
  (forall a, g a d = a) -> (forall a b c, g a (g b c) = g (g a b) c) ->
  map_reduce (fun a => Ok (m a)) (fun a b => Ok (g a b)) d (x :: l, None) MapPool MapPool = Ok (left_fold g (m x) (map m l)).
Proof.
  intros Hd Ha. unfold map_reduce. cbn [fst snd]. rewrite (yields_ok _ (x :: l) (m x :: map m l)); [apply ireduce_fold; assumption|].
  constructor; [reflexivity|]. clear. induction l; constructor; auto.
Qed.
Lemma map_reduce_fail {A T} (mapper : A -> res T) (g : T -> T -> T) (d : T) l fin :
  (forall a, g a d = a) ->
  (forall pre x post e, l = pre ++ x :: post -> Forall (fun a => exists t, mapper a = Ok t) pre -> mapper x = Raise e ->
     map_reduce mapper (fun a b => Ok (g a b)) d (l, fin) MapPool MapPool = Raise e) /\
  (Forall (fun a => exists t, mapper a = Ok t) l -> forall e, fin = Some e ->
     map_reduce mapper (fun a b => Ok (g a b)) d (l, fin) MapPool MapPool = Raise e) /\
  (l = [] -> fin = None -> map_reduce mapper (fun a b => Ok (g a b)) d (l, fin) MapPool MapPool = Raise AssertionError).
Proof.
  intros Hd.
  assert (F : forall pre, Forall (fun a => exists t, mapper a = Ok t) pre -> exists ys, Forall2 (fun a y => mapper a = Ok y) pre ys).
  { induction 1 as [|a pre (t & Ht) _ (ys & IH)]; [exists []; constructor|exists (t :: ys); constructor; assumption]. }
  unfold map_reduce. cbn [fst snd]. split; [|split].
  - intros pre x post e -> Hp Hx. destruct (F pre Hp) as (ys & Hy). rewrite (yields_fail _ pre x post ys e fin Hy Hx). apply ireduce_raises, Hd.
  - intros Hp e ->. destruct (F l Hp) as (ys & Hy). rewrite (yields_ok _ l ys _ Hy). apply ireduce_raises, Hd.
  - intros -> ->. cbn [yields]. apply ireduce_empty, Hd.
Qed.

(** *** Numbers with commas, and the printed counts *)
Lemma commas_rev n : forall l, (length l <= n)%nat -> l <> [] -> Forall (fun c => (48 <= c <= 57)%N) l ->
  grouped (rev (commas l)) /\ without_commas (rev (commas l)) = rev l.
Proof.
  assert (Plain : forall l, Forall (fun c => (48 <= c <= 57)%N) l -> without_commas l = l).
  { induction 1 as [|c l Hc _ IH]; [reflexivity|]. unfold without_commas in *. cbn [filter]. destruct (N.eqb_spec c 44); [lia|]. cbn [negb]. rewrite IH. reflexivity. }
  assert (Small : forall l, (1 <= length l <= 3)%nat -> Forall (fun c => (48 <= c <= 57)%N) l -> grouped (rev l) /\ without_commas (rev l) = rev l).
  { intros l Hl Hd. apply Forall_rev in Hd. split; [|apply Plain, Hd]. exists (rev l), []. rewrite rev_length. cbn [flat_map]. rewrite app_nil_r.
    split; [reflexivity|]. split; [exact Hl|]. split; [exact Hd|constructor]. }
  induction n as [|n IH]; intros l Hl Hne Hd; [destruct l; [congruence|cbn in Hl; lia]|].
  destruct l as [|a [|b [|c r]]]; [congruence| | |].
  - apply Small; [cbn; lia|exact Hd].
  - apply Small; [cbn; lia|exact Hd].
  - destruct r as [|x r]; [apply Small; [cbn; lia|exact Hd]|].
    inversion Hd as [|? ? Ha Hd1]; subst. inversion Hd1 as [|? ? Hb Hd2]; subst. inversion Hd2 as [|? ? Hc Hr]; subst.
    destruct (IH (x :: r)) as ((h & t & E & H1 & H2 & H3) & Hw); [cbn in *; lia|discriminate|exact Hr|].
    assert (Ec : rev (commas (a :: b :: c :: x :: r)) = rev (commas (x :: r)) ++ [44%N; c; b; a]).
    { generalize (rev_app_distr [a; b; c; 44%N] (commas (x :: r))). intros H. exact H. }
    rewrite Ec. split.
    + exists h, (t ++ [[c; b; a]]). split; [|split; [exact H1|split; [exact H2|]]].
      * rewrite E, flat_map_app, <- app_assoc. reflexivity.
      * apply Forall_app. split; [exact H3|]. constructor; [|constructor]. split; [reflexivity|]. repeat (constructor; [assumption|]). constructor.
    + unfold without_commas in *. rewrite filter_app, Hw. cbn [filter].
      destruct (N.eqb_spec c 44); [lia|]. destruct (N.eqb_spec b 44); [lia|]. destruct (N.eqb_spec a 44); [lia|]. cbn [negb N.eqb Pos.eqb].
      change (rev (a :: b :: c :: x :: r)) with (((rev (x :: r) ++ [c]) ++ [b]) ++ [a]). rewrite <- !app_assoc. reflexivity.
Qed.
Lemma thousands_grouped z : 0 <= z -> grouped (thousands z) /\ without_commas (thousands z) = str_of_Z z.
Proof.
  intros Hz. assert (E : thousands z = rev (commas (rev (str_of_Z z)))) by (destruct z; [reflexivity|reflexivity|lia]). rewrite E.
  destruct (commas_rev (length (rev (str_of_Z z))) (rev (str_of_Z z))) as [H1 H2]; [lia| | |].
  - intro H. apply (f_equal (@rev N)) in H. rewrite rev_involutive in H. exact (proj2 (str_of_Z_chars z) H).
  - apply Forall_rev. destruct z as [|p|p]; [repeat constructor; lia| |lia].
    destruct (str_of_N_spec (Npos p)) as (_ & Hd & _). unfold all_digits in Hd. change (str_of_Z (Zpos p)) with (str_of_N (Npos p)).
    eapply Forall_impl; [|exact Hd]. cbv beta. intros c Hc. unfold is_digit in Hc. apply andb_prop in Hc. destruct Hc as [Hc1 Hc2]. apply N.leb_le in Hc1, Hc2. lia.
  - split; [exact H1|]. rewrite H2. apply rev_involutive.
Qed.

Lemma printed_exact line lines wss : Forall2 words_of (line :: lines) wss ->
  exists d rows, main_prints (line :: lines) = Ok (concat rows) /\ Forall2 count_row d rows /\
    counts_of (concat wss) d /\ StronglySorted (fun a b => snd b <= snd a) d.
Proof.
  intros Hw. destruct (main_counts_exact line lines wss Hw) as (d & E & Hc & Hs).
  exists d, (map (fun tf => fst tf ++ 9%N :: thousands (snd tf) ++ [10%N]) d). split; [|split; [|split; [exact Hc|exact Hs]]].
  - unfold main_prints. rewrite E. cbn [bind]. rewrite flat_map_concat_map. reflexivity.
  - assert (Hp : forall w n, In (w, n) d -> 0 <= n).
    { intros w n Hi. destruct (proj1 (proj2 Hc w n) Hi) as [-> _]. unfold occurrences. lia. }
    clear - Hp. induction d as [|[w n] d IH]; cbn [map]; constructor; [|apply IH; intros w' n' Hi; apply (Hp w' n'); right; exact Hi].
    destruct (thousands_grouped n (Hp w n (or_introl eq_refl))) as [H1 H2]. exists (thousands n). cbn [fst snd]. auto.
Qed.
(** Words and numbers can be told apart again. *)
Lemma cut_unique {A} (x : A) u v r s : ~ In x u -> ~ In x v -> u ++ x :: r = v ++ x :: s -> u = v /\ r = s.
Proof.
  revert v. induction u as [|a u IH]; intros [|b v] Hu Hv H; cbn in H.
  - injection H as H. auto.
  - injection H as -> _. exfalso. apply Hv. left. reflexivity.
  - injection H as <- _. exfalso. apply Hu. left. reflexivity.
  - injection H as <- H. destruct (IH v) as [-> ->]; [intro; apply Hu; right; assumption|intro; apply Hv; right; assumption|exact H|]. auto.
Qed.
Lemma rows_unique d1 : forall d2 rows1 rows2,
  Forall2 count_row d1 rows1 -> Forall2 count_row d2 rows2 ->
  Forall (fun wf => is_word (fst wf)) d1 -> Forall (fun wf => is_word (fst wf)) d2 ->
  concat rows1 = concat rows2 -> d1 = d2.
Proof.
  assert (T : forall w, is_word w -> ~ In 9%N w).
  { intros w [_ Hw] Hi. rewrite Forall_forall in Hw. specialize (Hw _ Hi). discriminate. }
  assert (G : forall g, grouped g -> ~ In 10%N g).
  { intros g (h & t & -> & _ & Hh & Ht) Hi. apply in_app_iff in Hi. destruct Hi as [Hi|Hi].
    - unfold digit_group in Hh. rewrite Forall_forall in Hh. specialize (Hh _ Hi). lia.
    - apply in_flat_map in Hi. destruct Hi as (q & Hq & [Hi|Hi]); [discriminate|]. rewrite Forall_forall in Ht. destruct (Ht _ Hq) as [_ Hd].
      unfold digit_group in Hd. rewrite Forall_forall in Hd. specialize (Hd _ Hi). lia. }
  induction d1 as [|[w1 n1] d1 IH]; intros d2 rows1 rows2 H1 H2 F1 F2 E; inversion H1 as [|? r1 ? rs1 (g1 & E1 & G1 & W1) H1']; subst;
    inversion H2 as [|[w2 n2] r2 d2' rs2 (g2 & E2 & G2 & W2) H2']; subst; cbn [concat fst snd] in *.
  - reflexivity.
  - destruct w2; discriminate.
  - destruct w1; discriminate.
  - inversion F1 as [|? ? Hw1 F1']; subst. inversion F2 as [|? ? Hw2 F2']; subst. cbn [fst] in *.
    rewrite <- !app_assoc in E. cbn [app] in E. apply cut_unique in E; [|apply T; assumption|apply T; assumption]. destruct E as [-> E].
    apply cut_unique in E; [|apply G; assumption|apply G; assumption]. destruct E as [-> E].
    rewrite W1 in W2. apply str_of_Z_inj in W2. subst n2. f_equal. apply (IH d2' rs1 rs2); assumption.
Qed.
Lemma printed_readable l1 l2 wss1 wss2 text : Forall2 words_of l1 wss1 -> Forall2 words_of l2 wss2 ->
  main_prints l1 = Ok text -> main_prints l2 = Ok text ->
  forall w, occurrences w (concat wss1) = occurrences w (concat wss2).
Proof.
  intros H1 H2 E1 E2.
  destruct l1 as [|a l1]; [discriminate|]. destruct l2 as [|b l2]; [discriminate|].
  destruct (printed_exact a l1 wss1 H1) as (d1 & r1 & P1 & R1 & C1 & _). destruct (printed_exact b l2 wss2 H2) as (d2 & r2 & P2 & R2 & C2 & _).
  assert (W : forall ls wss d, Forall2 words_of ls wss -> counts_of (concat wss) d -> Forall (fun wf : str * Z => is_word (fst wf)) d).
  { intros ls wss d Hf Hc. apply Forall_forall. intros [w n] Hi. destruct (proj1 (proj2 Hc w n) Hi) as [_ Hin]. cbn [fst].
    apply in_concat in Hin. destruct Hin as (ws & Hws & Hin). clear - Hf Hws Hin. induction Hf as [|l ws' ls wss Hl _ IH]; [destruct Hws|].
    destruct Hws as [->|Hws]; [|exact (IH Hws)]. apply words_of_iff in Hl. subst ws. pose proof (split_is_word l) as Hl. rewrite Forall_forall in Hl. exact (Hl _ Hin). }
  assert (d1 = d2).
  { eapply rows_unique; [exact R1|exact R2|exact (W _ _ _ H1 C1)|exact (W _ _ _ H2 C2)|]. rewrite E1 in P1. rewrite E2 in P2. injection P1 as <-. injection P2 as <-. reflexivity. }
  subst d2. intros w.
  destruct (in_dec str_dec w (concat wss1)) as [Hi|Hn].
  - destruct (proj1 (proj2 C2 w (occurrences w (concat wss1)))) as [E _]; [|exact E]. apply (proj2 C1). auto.
  - assert (Hn2 : ~ In w (concat wss2)).
    { intros Hi. apply Hn. destruct (proj1 (proj2 C1 w (occurrences w (concat wss2)))) as [_ H]; [apply (proj2 C2); auto|exact H]. }
    unfold occurrences. apply (count_occ_not_In str_dec) in Hn, Hn2. lia.
Qed.

Lemma trimmed_strip l t : trimmed l t -> t = strip l.
Proof. intros (g1 & g2 & H1 & H2 & -> & Hs). symmetry. apply strip_unique; assumption. Qed.
Lemma encode_all_at {B} (f : str -> res B) lines fin trims outs :
  Forall2 trimmed lines trims -> Forall2 (fun t o => f t = Ok o) trims outs ->
  yields (fun l => f (strip l)) lines fin = (outs, fin) /\
  forall line t e rest, trimmed line t -> f t = Raise e ->
    yields (fun l => f (strip l)) (lines ++ line :: rest) fin = (outs, Some e).
Proof.
  intros Ht Ho.
  assert (H : Forall2 (fun l o => f (strip l) = Ok o) lines outs).
  { revert outs Ho. induction Ht as [|l t ls ts Hl _ IH]; intros outs Ho; inversion Ho; subst; constructor; [|apply IH; assumption].
    rewrite <- (trimmed_strip l t Hl). assumption. }
  split; [apply yields_ok, H|]. intros line t e rest Hl He. apply (yields_fail (fun l => f (strip l)) lines line rest outs e fin H). rewrite <- (trimmed_strip line t Hl). exact He.
Qed.
Lemma encode_all_ids_exact s lines fin trims outs :
  Forall2 trimmed lines trims -> Forall2 (fun t o => encode s t = Ok o) trims outs ->
  encode_all_ids s (lines, fin) = (outs, fin) /\
  forall line t e rest, trimmed line t -> encode s t = Raise e ->
    encode_all_ids s (lines ++ line :: rest, fin) = (outs, Some e).
Proof. exact (encode_all_at (encode s) lines fin trims outs). Qed.
Lemma encode_all_pieces_exact s lines fin trims outs :
  Forall2 trimmed lines trims -> Forall2 (fun t o => encode_str s t = Ok o) trims outs ->
  encode_all_pieces s (lines, fin) = (outs, fin) /\
  forall line t e rest, trimmed line t -> encode_str s t = Raise e ->
    encode_all_pieces s (lines ++ line :: rest, fin) = (outs, Some e).
Proof. exact (encode_all_at (encode_str s) lines fin trims outs). Qed.
Lemma trim_harmless s line t : s_kind s <> KByte -> trimmed line t ->
  encode s t = encode s line /\ encode_str s t = encode_str s line.
Proof. intros Hk Ht. rewrite (trimmed_strip line t Ht). split; [apply encode_strip, Hk|apply encode_str_strip, Hk]. Qed.
