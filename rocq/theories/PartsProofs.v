(** Proofs about encoding a text in parts, encoding decoded text, and where learned subwords come from. *)
From Coq Require Import Strings.String.
From Verif Require Import Py PyLemmas PyStr StrSpec PyStrProofs Utf8Model CodecModel CodecSpec FlatProofs TrieProofs BpeProofs ByteSpec ByteProofs LearnModel LearnSpec LearnProofs
     HeapModel BpeSpec LearnBpeModel LearnBpeProofs LearnBpeLoop LearnBpeIndex LearnBpeResults LearnBpeEnd GrowSpec.
Local Open Scope Z_scope.
Local Open Scope list_scope.

(** ** Words of two texts put one after the other *)
Lemma words_of_joined a c b wa wb : is_space c = true -> words_of a wa -> words_of b wb -> words_of (a ++ c :: b) (wa ++ wb).
Proof.
  intros Hc Ha Hb. induction Ha as [g Hg|g w Hg Hw|g w d rest ws Hg Hw Hd Hr IH].
  - cbn [app]. change (g ++ c :: b) with (g ++ [c] ++ b). rewrite app_assoc. apply words_of_gap; [|exact Hb].
    apply Forall_app. split; [exact Hg|]. constructor; [exact Hc|constructor].
  - rewrite <- app_assoc. cbn [app]. apply W_more; assumption.
  - rewrite <- !app_assoc. cbn [app]. apply W_more; assumption.
Qed.
Lemma split_joined_lines a c b : is_space c = true -> split (a ++ c :: b) = split a ++ split b.
Proof. intros Hc. apply split_words_of, words_of_joined; [exact Hc|apply words_of_split|apply words_of_split]. Qed.
Lemma spaced_app sep a b : a <> [] -> b <> [] -> spaced sep (a ++ b) = spaced sep a ++ sep :: spaced sep b.
Proof.
  intros Ha Hb. induction a as [|w a IH]; [contradiction|]. destruct a as [|w' a].
  - cbn [app]. destruct b; [contradiction|]. reflexivity.
  - change ((w :: w' :: a) ++ b) with (w :: ((w' :: a) ++ b)). cbn [spaced]. cbn [app] in *. rewrite IH by discriminate.
    rewrite <- app_assoc. reflexivity.
Qed.
Lemma wordy_split a : wordy a <-> split a <> [].
Proof.
  split.
  - intros (w & ws & H). apply split_words_of in H. rewrite H. discriminate.
  - intros H. destruct (split a) as [|w ws] eqn:E; [contradiction|]. exists w, ws. apply words_of_iff. exact E.
Qed.

(** ** Flat schemes *)
Lemma word_parts table s a c b : make_scheme KWord table = Ok s -> is_space c = true ->
  exists x y, encode s a = Ok x /\ encode s b = Ok y /\ encode s (a ++ c :: b) = Ok (x ++ y).
Proof.
  intros Hs Hc. pose proof (proj1 (make_flat_inv KWord table s (or_introl eq_refl)) Hs) as (_ & _ & Es).
  assert (G : forall l, encode s l = Ok (map (id_fun table 1) (split l))).
  { intros l. apply (flat_encode KWord table s (or_introl eq_refl) Hs). rewrite Es. reflexivity. }
  exists (map (id_fun table 1) (split a)), (map (id_fun table 1) (split b)). rewrite !G, split_joined_lines, map_app by exact Hc. auto.
Qed.
Lemma mark_id table : starts_reserved table -> distinct_names table -> id_fun table 1 [MARK] = 5.
Proof.
  intros Hr Hd. assert (H5 : name_at table 5 [MARK]).
  { apply name_at_nth. split; [lia|]. unfold starts_reserved in Hr. change (Z.to_nat 5) with 5%nat.
    rewrite <- (firstn_skipn 6 (map t_name table)), nth_error_app1; [|rewrite Hr; cbn; lia]. rewrite Hr. reflexivity. }
  apply id_fun_name_at; assumption.
Qed.
Lemma char_parts table s a c b : make_scheme KChar table = Ok s -> is_space c = true -> wordy a -> wordy b ->
  exists x y, encode s a = Ok x /\ encode s b = Ok y /\ encode s (a ++ c :: b) = Ok (x ++ 5 :: y).
Proof.
  intros Hs Hc Ha Hb. pose proof (proj1 (make_flat_inv KChar table s (or_intror eq_refl)) Hs) as (Hr & Hd & Es).
  assert (G : forall l, encode s l = Ok (map (id_fun table 1) (map (fun c => [c]) (spaced MARK (split l))))).
  { intros l. apply (flat_encode KChar table s (or_intror eq_refl) Hs). rewrite Es. unfold encode_str. cbn [s_kind]. rewrite join_spaced. reflexivity. }
  apply wordy_split in Ha. apply wordy_split in Hb.
  eexists. eexists. rewrite !G. split; [reflexivity|]. split; [reflexivity|]. rewrite split_joined_lines, spaced_app by assumption.
  rewrite !map_app. cbn [map]. rewrite mark_id by assumption. reflexivity.
Qed.
Lemma utf8_encode_app a b : utf8_encode (a ++ b) = match utf8_encode a with Raise e => Raise e | Ok x => match utf8_encode b with Raise e => Raise e | Ok y => Ok (x ++ y) end end.
Proof.
  induction a as [|c a IH]; cbn [app utf8_encode]; [destruct (utf8_encode b); reflexivity|].
  destruct (utf8_char c) as [bs|]; [|reflexivity]. rewrite IH. destruct (utf8_encode a) as [x|]; [|reflexivity].
  destruct (utf8_encode b) as [y|]; [|reflexivity]. rewrite app_assoc. reflexivity.
Qed.
Lemma byte_parts s a b x y : make_scheme KByte [] = Ok s -> encode s a = Ok x -> encode s b = Ok y -> encode s (a ++ b) = Ok (x ++ y).
Proof.
  intros Hs. assert (s = byte_scheme) as -> by (destruct make_byte as [H _]; congruence). unfold encode, encode_str. cbn [s_kind byte_scheme].
  unfold byte_encode_str. rewrite utf8_encode_app. destruct (utf8_encode a) as [u|]; [|discriminate]. destruct (utf8_encode b) as [v|]; [|discriminate].
  cbn [bind]. intros H1 H2. rewrite map_app, mapM_app, H1, H2. reflexivity.
Qed.

(** ** BPE *)
Lemma app_longer {A} (q r x b : list A) : q ++ r = x ++ b -> (length x < length q)%nat -> exists b1, q = x ++ b1 /\ b1 <> [].
Proof.
  revert q. induction x as [|u x IH]; intros q H L.
  - exists q. split; [reflexivity|]. intros ->. cbn in L. lia.
  - destruct q as [|v q]; [cbn in L; lia|]. cbn [app] in H. injection H as -> H. destruct (IH q H) as (b1 & -> & Hb); [cbn in L; lia|].
    exists b1. auto.
Qed.
Lemma app_shorter {A} (q r x b : list A) : q ++ r = x ++ b -> (length q <= length x)%nat -> exists r1, x = q ++ r1.
Proof.
  revert q. induction x as [|u x IH]; intros q H L.
  - destruct q; [|cbn in L; lia]. exists []. reflexivity.
  - destruct q as [|v q]; [exists (u :: x); reflexivity|]. cbn [app] in H. injection H as -> H. destruct (IH q H) as (r1 & ->); [cbn in L; lia|].
    exists r1. reflexivity.
Qed.
Lemma greedy_app table x s1 b s2 : marks_end table -> (exists a, x = a ++ [MARK]) \/ x = [] ->
  greedy table x s1 -> greedy table b s2 -> greedy table (x ++ b) (s1 ++ s2).
Proof.
  intros Hm Hx Hg Hb. induction Hg as [|p rest segs Hp Hn Hmax Hg IH|c rest segs Hno Hg IH].
  - exact Hb.
  - assert (Hrest : (exists a, rest = a ++ [MARK]) \/ rest = []).
    { destruct rest as [|u rest] using rev_ind; [right; reflexivity|]. left. exists rest. destruct Hx as [(a & E)|E].
      - rewrite app_assoc in E. apply app_inj_tail in E. destruct E as [_ ->]. reflexivity.
      - apply app_eq_nil in E. destruct E as [-> _]. contradiction. }
    specialize (IH Hrest). rewrite <- app_assoc. cbn [app]. apply Gr_known; [exact Hp|exact Hn| |exact IH].
    intros q r Hq E. rewrite app_assoc in E. destruct (Nat.le_gt_cases (length q) (length (p ++ rest))) as [L|L].
    + destruct (app_shorter _ _ _ _ E L) as (r1 & E1). apply (Hmax q r1 Hq). symmetry. exact E1.
    + exfalso. destruct (app_longer _ _ _ _ E L) as (b1 & -> & Hb1). destruct Hx as [(a & Ex)|Ex].
      * destruct Hq as (t & Hin & En). rewrite Ex in En. rewrite <- app_assoc in En. apply Hb1, (Hm t a b1 Hin). exact En.
      * apply app_eq_nil in Ex. destruct Ex as [-> _]. contradiction.
  - assert (Hrest : (exists a, rest = a ++ [MARK]) \/ rest = []).
    { destruct rest as [|u rest] using rev_ind; [right; reflexivity|]. left. exists rest. destruct Hx as [(a & E)|E]; [|discriminate].
      rewrite app_comm_cons in E. apply app_inj_tail in E. destruct E as [_ ->]. reflexivity. }
    specialize (IH Hrest). cbn [app]. apply Gr_unknown; [|exact IH].
    intros q r Hq E. rewrite app_comm_cons in E. destruct (Nat.le_gt_cases (length q) (length (c :: rest))) as [L|L].
    + destruct (app_shorter _ _ _ _ E L) as (r1 & E1). apply (Hno q r1 Hq). symmetry. exact E1.
    + exfalso. destruct (app_longer _ _ _ _ E L) as (b1 & -> & Hb1). destruct Hx as [(a & Ex)|Ex]; [|discriminate].
      destruct Hq as (t & Hin & En). rewrite Ex in En. rewrite <- app_assoc in En. apply Hb1, (Hm t a b1 Hin). exact En.
Qed.
Lemma bpe_text_joined a c b : is_space c = true -> wordy a -> wordy b -> bpe_text (a ++ c :: b) = bpe_text a ++ bpe_text b.
Proof.
  intros Hc Ha Hb. apply wordy_split in Ha. apply wordy_split in Hb. unfold bpe_text. rewrite !split_strip, !join_spaced, split_joined_lines, spaced_app by assumption.
  rewrite <- !app_assoc. reflexivity.
Qed.
Lemma bpe_parts table s a c b : make_scheme KBpe table = Ok s -> well_indexed table -> marks_end table ->
  is_space c = true -> wordy a -> wordy b ->
  exists px py x y, encode_str s a = Ok px /\ encode_str s b = Ok py /\ encode_str s (a ++ c :: b) = Ok (px ++ py) /\
    encode s a = Ok x /\ encode s b = Ok y /\ encode s (a ++ c :: b) = Ok (x ++ y).
Proof.
  intros Hs Hw Hm Hc Ha Hb.
  destruct (bpe_greedy table s a _ Hs Hw (bpe_text_marked a)) as (s1 & G1 & E1).
  destruct (bpe_greedy table s b _ Hs Hw (bpe_text_marked b)) as (s2 & G2 & E2).
  destruct (bpe_greedy table s (a ++ c :: b) _ Hs Hw (bpe_text_marked (a ++ c :: b))) as (s3 & G3 & E3).
  assert (s3 = s1 ++ s2) as ->.
  { apply (greedy_unique table (bpe_text (a ++ c :: b))); [exact G3|]. rewrite bpe_text_joined by assumption.
    apply greedy_app; [exact Hm|left; exists (join [MARK] (split (strip a))); reflexivity|exact G1|exact G2]. }
  rewrite map_app in E3. exists (map seg_piece s1), (map seg_piece s2), (map (bid table) (map seg_piece s1)), (map (bid table) (map seg_piece s2)).
  split; [exact E1|]. split; [exact E2|]. split; [exact E3|]. split; [apply (bpe_encode_ids table s _ _ Hs E1)|].
  split; [apply (bpe_encode_ids table s _ _ Hs E2)|]. rewrite (bpe_encode_ids table s _ _ Hs E3), map_app. reflexivity.
Qed.

(** ** Where learned subwords come from *)
Lemma begins_app p r : begins p (p ++ r) = true.
Proof. induction p as [|x p IH]; cbn [app begins]; [reflexivity|]. rewrite N.eqb_refl. exact IH. Qed.
Lemma places_app p a b : (places p b <= places p (a ++ b))%nat.
Proof. induction a as [|x a IH]; [apply le_n|]. cbn [app places]. destruct (begins p (x :: a ++ b)); lia. Qed.
Lemma places_at p a b : a <> [] -> begins p (a ++ b) = true -> (S (places p b) <= places p (a ++ b))%nat.
Proof.
  destruct a as [|x a]; [contradiction|]. intros _. cbn [app places]. intros ->. pose proof (places_app p a b). lia.
Qed.
Lemma listed_iff table w : listed table w = true <-> has_name table w.
Proof.
  unfold listed. rewrite existsb_exists. split.
  - intros (t & H & E). exists t. split; [exact H|]. apply str_eqb_eq, E.
  - intros (t & H & E). exists t. split; [exact H|]. apply str_eqb_eq, E.
Qed.

Definition spells (t : list Typ) (s : list Z) (text : str) : Prop := exists ps, Forall2 (name_at t) s ps /\ concat ps = text.
Lemma name_at_more t u i w : name_at t i w -> name_at (t ++ u) i w.
Proof.
  intros (H & ty & E & En). split; [exact H|]. exists ty. split; [|exact En]. rewrite nth_error_app1; [exact E|]. apply nth_error_Some. congruence.
Qed.
Lemma spells_replaced t u a b r s s' na nb text : replaced a b r s s' -> name_at t a na -> name_at t b nb -> name_at (t ++ u) r (na ++ nb) ->
  spells t s text -> spells (t ++ u) s' text.
Proof.
  intros Hrp Ha Hb Hr. revert text. induction Hrp as [|x s s' Hrp IH|s s' Hrp IH]; intros text (ps & Hps & E).
  - inversion Hps; subst. exists []. split; [constructor|reflexivity].
  - inversion Hps as [|x' p s0 ps0 Hx Hps0]; subst. destruct (IH (concat ps0)) as (qs & Hqs & Eq); [exists ps0; auto|].
    exists (p :: qs). split; [constructor; [apply name_at_more, Hx|exact Hqs]|]. cbn [concat]. rewrite Eq. reflexivity.
  - inversion Hps as [|x' p s0 ps0 Hx Hps0]; subst. inversion Hps0 as [|y' q s1 ps1 Hy Hps1]; subst.
    destruct (IH (concat ps1)) as (qs & Hqs & Eq); [exists ps1; auto|].
    assert (p = na) as -> by (destruct Ha as (_ & t1 & E1 & N1), Hx as (_ & t2 & E2 & N2); congruence).
    assert (q = nb) as -> by (destruct Hb as (_ & t1 & E1 & N1), Hy as (_ & t2 & E2 & N2); congruence).
    exists ((na ++ nb) :: qs). split; [constructor; assumption|]. cbn [concat]. rewrite Eq, <- app_assoc. reflexivity.
Qed.
Definition same_texts (t : list Typ) (texts : list (str * Z)) (c : corpus) : Prop :=
  Forall2 (fun wf sf => snd sf = snd wf /\ spells t (fst sf) (fst wf)) texts c.
Lemma same_texts_merged t u a b r c c' na nb texts : merged_corpus a b r c c' -> name_at t a na -> name_at t b nb -> name_at (t ++ u) r (na ++ nb) ->
  same_texts t texts c -> same_texts (t ++ u) texts c'.
Proof.
  intros Hm Ha Hb Hr. revert texts. induction Hm as [|sf sf' c c' [E [Hrp _]] _ IH]; intros texts Ht.
  - inversion Ht; subst. constructor.
  - inversion Ht as [|wf sf0 texts0 c0 [E2 Hsp] Ht0]; subst. constructor; [|apply IH, Ht0]. split; [congruence|].
    eapply spells_replaced; eassumption.
Qed.
Lemma pair_places t s text a b na nb : spells t s text -> name_at t a na -> name_at t b nb -> (forall i w, name_at t i w -> w <> []) ->
  (count_occ pair_dec (adjacent s) (a, b) <= places (na ++ nb) text)%nat.
Proof.
  intros (ps & Hps & <-) Ha Hb Hne. induction Hps as [|x p s ps Hx Hps IH]; [cbn; lia|].
  destruct Hps as [|y q s ps Hy Hps]; [cbn; lia|]. rewrite adjacent_cons2. cbn [count_occ]. destruct (pair_dec (x, y) (a, b)) as [E|E].
  - injection E as -> ->. assert (p = na) as -> by (destruct Ha as (_ & t1 & E1 & N1), Hx as (_ & t2 & E2 & N2); congruence).
    assert (q = nb) as -> by (destruct Hb as (_ & t1 & E1 & N1), Hy as (_ & t2 & E2 & N2); congruence).
    assert (H : (S (places (na ++ nb) (concat (nb :: ps))) <= places (na ++ nb) (concat (na :: nb :: ps)))%nat).
    { change (concat (na :: nb :: ps)) with (na ++ concat (nb :: ps)). apply places_at; [apply (Hne a), Ha|].
      cbn [concat]. rewrite app_assoc. apply begins_app. }
    lia.
  - change (concat (p :: q :: ps)) with (p ++ concat (q :: ps)). pose proof (places_app (na ++ nb) p (concat (q :: ps))). lia.
Qed.
Lemma pair_inside t s text a b na nb : spells t s text -> name_at t a na -> name_at t b nb -> In (a, b) (adjacent s) ->
  exists l r, text = l ++ (na ++ nb) ++ r.
Proof.
  intros (ps & Hps & <-) Ha Hb Hin. induction Hps as [|x p s ps Hx Hps IH]; [destruct Hin|].
  destruct Hps as [|y q s ps Hy Hps]; [destruct Hin|]. rewrite adjacent_cons2 in Hin. destruct Hin as [E|Hin].
  - injection E as -> ->. assert (p = na) as -> by (destruct Ha as (_ & t1 & E1 & N1), Hx as (_ & t2 & E2 & N2); congruence).
    assert (q = nb) as -> by (destruct Hb as (_ & t1 & E1 & N1), Hy as (_ & t2 & E2 & N2); congruence).
    exists [], (concat ps). cbn [concat app]. rewrite app_assoc. reflexivity.
  - destruct (IH Hin) as (l & r & E). exists (p ++ l), r. change (concat (p :: q :: ps)) with (p ++ concat (q :: ps)). rewrite E, <- !app_assoc. reflexivity.
Qed.
Lemma pair_count_places t texts c a b na nb : same_texts t texts c -> name_at t a na -> name_at t b nb -> (forall i w, name_at t i w -> w <> []) ->
  (forall w f, In (w, f) texts -> 0 <= f) ->
  pair_count c (a, b) <= zsum (map (fun wf => snd wf * Z.of_nat (places (na ++ nb) (fst wf))) texts).
Proof.
  intros Ht Ha Hb Hne Hpos. unfold pair_count. induction Ht as [|[w f] [s g] texts c [E Hsp] _ IH]; [cbn; lia|]. cbn [map fst snd] in *. subst g. rewrite !zsum_cons.
  pose proof (pair_places t s w a b na nb Hsp Ha Hb Hne) as H1. specialize (IH (fun v h Hv => Hpos v h (or_intror Hv))).
  pose proof (Hpos w f (or_introl eq_refl)) as H2.
  assert (f * Z.of_nat (count_occ pair_dec (adjacent s) (a, b)) <= f * Z.of_nat (places (na ++ nb) w)); [|lia].
  apply Z.mul_le_mono_nonneg_l; lia.
Qed.

Definition from_texts (texts : list (str * Z)) (ty : Typ) : Prop :=
  (exists w f l r, In (w, f) texts /\ w = l ++ t_name ty ++ r) /\
  0 < t_freq ty <= zsum (map (fun wf => snd wf * Z.of_nat (places (t_name ty) (fst wf))) texts) /\
  (2 <= length (t_name ty))%nat.
Lemma bpe_from_texts min_co level n c t r texts : bpe min_co level n c t r -> same_texts t texts c -> (forall ty, In ty t -> t_name ty <> []) ->
  (forall w f, In (w, f) texts -> 0 <= f) -> forall t', r = Ok t' -> exists new, t' = t ++ new /\ Forall (from_texts texts) new.
Proof.
  intros HB Hs Hne Hpos. induction HB as [c t|n c t p f Hbest Hrare|n c t H0|n c c' t a b f ta tb r Hbest Hfreq Ha Eta Hb Etb Hm HB IH]; intros t' Er.
  - injection Er as <-. exists []. rewrite app_nil_r. auto.
  - injection Er as <-. exists []. rewrite app_nil_r. auto.
  - discriminate.
  - set (nt := MkType _ _ _ _ _) in *.
    assert (Hna : name_at t a (t_name ta)) by (split; [exact Ha|exists ta; auto]).
    assert (Hnb : name_at t b (t_name tb)) by (split; [exact Hb|exists tb; auto]).
    assert (Hne' : forall i w, name_at t i w -> w <> []).
    { intros i w (_ & ty & E & <-). apply Hne. eapply nth_error_In; exact E. }
    assert (Hnt : from_texts texts nt).
    { split; [|split].
      - destruct (best_positive_occurs _ _ _ Hbest) as (s & g & Hin & Hadj).
        assert (HH : exists w, In (w, g) texts /\ spells t s w).
        { clear - Hs Hin. induction Hs as [|[w f] [s2 g2] texts c [E Hsp] _ IH]; [destruct Hin|]. cbn [fst snd] in *. subst g2.
          destruct Hin as [E|Hin]; [injection E as <- <-; exists w; split; [left; reflexivity|exact Hsp]|].
          destruct (IH Hin) as (w' & H1 & H2). exists w'. split; [right; exact H1|exact H2]. }
        destruct HH as (w & Hw & Hsp). destruct (pair_inside _ _ _ _ _ _ _ Hsp Hna Hnb Hadj) as (l & r' & E). exists w, g, l, r'. auto.
      - cbn [nt t_freq t_name]. destruct Hbest as (Ec & Hf & _). split; [exact Hf|]. rewrite <- Ec. apply (pair_count_places t); assumption.
      - cbn [nt t_name]. rewrite app_length. specialize (Hne' a _ Hna) as Q1. specialize (Hne' b _ Hnb) as Q2.
        destruct (t_name ta); [contradiction|]. destruct (t_name tb); [contradiction|]. cbn [length]. lia. }
    destruct IH with (t' := t') as (new & E & Hall).
    + apply (same_texts_merged t [nt] a b (Z.of_nat (length t)) c c' (t_name ta) (t_name tb)); [exact Hm|exact Hna|exact Hnb| |exact Hs].
      split; [lia|]. exists nt. split; [|reflexivity]. rewrite Nat2Z.id, nth_error_app2, Nat.sub_diag by lia. reflexivity.
    + intros ty Hin. apply in_app_iff in Hin. destruct Hin as [Hin|[<-|[]]]; [apply Hne, Hin|].
      destruct Hnt as (_ & _ & Hl). intros En. rewrite En in Hl. cbn in Hl. lia.
    + exact Er.
    + exists (nt :: new). rewrite E, <- app_assoc. split; [reflexivity|]. constructor; assumption.
Qed.
Lemma counted_sum (g : str -> Z) toks : forall ks, NoDup ks -> (forall w, In w toks -> In w ks) ->
  zsum (map (fun w => occurrences w toks * g w) ks) = zsum (map g toks).
Proof.
  induction toks as [|x toks IH]; intros ks Hnd Hin.
  - cbn [map]. induction ks as [|k ks IHk]; [reflexivity|]. cbn [map]. rewrite zsum_cons. inversion Hnd; subst. rewrite IHk by (auto; intros w []). reflexivity.
  - cbn [map]. rewrite zsum_cons, <- (IH ks Hnd (fun w Hw => Hin w (or_intror Hw))).
    assert (Hx : In x ks) by (apply Hin; left; reflexivity). clear IH Hin.
    assert (G : forall l, ~ In x l -> zsum (map (fun w => occurrences w (x :: toks) * g w) l) = zsum (map (fun w => occurrences w toks * g w) l)).
    { induction l as [|k l IHl]; intros Hn; [reflexivity|]. cbn [map]. rewrite !zsum_cons, IHl by (intros H; apply Hn; right; exact H).
      unfold occurrences at 1. rewrite count_occ_cons_neq by (intros ->; apply Hn; left; reflexivity). reflexivity. }
    apply in_split in Hx. destruct Hx as (l1 & l2 & ->). pose proof (NoDup_remove_2 _ _ _ Hnd) as Hn.
    rewrite !map_app, !zsum_app. cbn [map]. rewrite !zsum_cons, !G by (intros H; apply Hn, in_app_iff; auto).
    unfold occurrences at 2. rewrite count_occ_cons_eq by reflexivity. unfold occurrences. lia.
Qed.
Lemma exact_sum (g : str -> Z) toks tfs : exact_counts toks tfs -> zsum (map (fun wf => snd wf * g (fst wf)) tfs) = zsum (map g toks).
Proof.
  intros [(Hnd & Hin & _) Hf]. rewrite <- (counted_sum g toks (map fst tfs) Hnd (fun w Hw => proj2 (Hin w) Hw)). rewrite map_map. f_equal.
  apply map_ext_in. intros [w f] H. cbn [fst snd]. rewrite (Hf w f H). reflexivity.
Qed.

Lemma spelled_chars init s l : starts_reserved init -> Forall2 (fun i ch => id_of init [ch] i) s l ->
  spells init s (flat_map (fun c => if listed init [c] then [c] else lit "<unk>") l).
Proof.
  intros Hs Hsp. induction Hsp as [|i ch s l Hi _ IH]; [exists []; split; [apply Forall2_nil|reflexivity]|]. destruct IH as (ps & Hps & E). cbn [flat_map].
  exists ((if listed init [ch] then [ch] else lit "<unk>") :: ps). split; [|cbn [concat]; rewrite E; reflexivity]. constructor; [|exact Hps].
  destruct Hi as [Hi|[-> Hi]].
  - rewrite (proj2 (listed_iff init [ch]) (name_at_has _ _ _ Hi)). exact Hi.
  - destruct (listed init [ch]) eqn:E1; [apply listed_iff in E1; contradiction|]. apply starts_reserved_unk, Hs.
Qed.
Lemma spelled_same init tfs c : starts_reserved init -> distinct_names init -> spelled_corpus init tfs c ->
  same_texts init (map (fun wf => (spelled_word init (fst wf), snd wf)) tfs) c.
Proof.
  intros Hs Hd Hc. unfold same_texts. induction Hc as [|wf sf tfs c [E Hsp] _ IH]; [constructor|]. cbn [map]. constructor; [|exact IH].
  cbn [fst snd]. split; [exact E|]. exact (spelled_chars init (fst sf) _ Hs Hsp).
Qed.
Lemma spelled_word_ext t u w : (forall ch, has_name t [ch] <-> has_name u [ch]) -> spelled_word t w = spelled_word u w.
Proof.
  intros H. unfold spelled_word. apply flat_map_ext. intros ch.
  destruct (listed t [ch]) eqn:E1, (listed u [ch]) eqn:E2; try reflexivity; exfalso.
  - apply listed_iff, H, listed_iff in E1. congruence.
  - apply listed_iff, H, listed_iff in E2. congruence.
Qed.
(** Every type of a learned table is reserved, a character of the corpus, or a subword that occurs. *)
Theorem learned_types A orders data toks vs cov mco table : tokens_of KWord data toks -> iteration_orders orders ->
  learn_bpe A orders data vs cov mco false = Ok table ->
  forall n ty, nth_error table n = Some ty ->
    ((n < 6)%nat /\ In (t_name ty) reserved_names) \/
    ((6 <= n)%nat /\ t_level ty = L_char /\ exists w ch, In w toks /\ t_name ty = [ch] /\ In ch w) \/
    (t_level ty = L_subword /\ (2 <= length (t_name ty))%nat /\
     (exists w a b, In w toks /\ spelled_word table w = a ++ t_name ty ++ b) /\
     0 < t_freq ty <= places_in table (t_name ty) toks).
Proof.
  intros Ht Ho H. destruct (learn_bpe_text A orders data toks vs cov mco table Ht Ho H) as (init & tfs & c & HT & _).
  destruct HT as [T1 T2 T3 T4 T5 T6 T7 T8 T9 T10 T11 T12].
  assert (Hmark : name_at init 5 [MARK]).
  { unfold starts_reserved in T3. apply name_at_nth. split; [lia|]. change (Z.to_nat 5) with 5%nat.
    rewrite <- (firstn_skipn 6 (map t_name init)), nth_error_app1; [|rewrite T3; cbn; lia]. rewrite T3. reflexivity. }
  assert (Hres : forall n ty, nth_error init n = Some ty -> (n < 6)%nat -> In (t_name ty) reserved_names).
  { intros n ty E L. unfold starts_reserved in T3. rewrite <- T3. apply (nth_error_In _ n). rewrite VocabFileProofs.nth_error_firstn_lt by exact L. rewrite nth_error_map, E. reflexivity. }
  assert (Hne : forall ty, In ty init -> t_name ty <> []).
  { intros ty Hin. apply In_nth_error in Hin. destruct Hin as (n & E). destruct (Nat.lt_ge_cases n 6) as [L|L].
    - apply Hres in E; [|exact L]. intros E0. rewrite E0 in E. vm_compute in E. repeat (destruct E as [E|E]; [discriminate|]). destruct E.
    - destruct (T7 n ty E L) as (ch & ->). discriminate. }
  pose proof (spelled_same init tfs c T3 T4 T9) as Hsame.
  destruct (bpe_from_texts _ _ _ _ _ _ _ T10 Hsame Hne) with (t' := table) as (new & Etab & Hnew); [|reflexivity|].
  { intros w f Hin. apply in_map_iff in Hin. destruct Hin as ((w0 & f0) & E & Hin). cbn [fst snd] in E. injection E as <- <-.
    pose proof (words_positive toks tfs T1 w0 f0 Hin). lia. }
  assert (Hch : forall ch, has_name init [ch] <-> has_name table [ch]).
  { intros ch. rewrite Etab. split; intros (ty & Hin & E); [exists ty; split; [apply in_app_iff; left; exact Hin|exact E]|].
    apply in_app_iff in Hin. destruct Hin as [Hin|Hin]; [exists ty; auto|]. rewrite Forall_forall in Hnew. destruct (Hnew ty Hin) as (_ & _ & L). rewrite E in L. cbn in L. lia. }
  intros n ty E. destruct (Nat.lt_ge_cases n (length init)) as [L|L].
  - rewrite Etab, nth_error_app1 in E by exact L. destruct (Nat.lt_ge_cases n 6) as [L6|L6]; [left; split; [exact L6|apply (Hres n ty E L6)]|].
    right. left. split; [exact L6|]. destruct (T6 n ty E) as (_ & El). rewrite (proj2 (Nat.ltb_ge n 6) L6) in El. split; [exact El|].
    destruct (T8 n ty E L6) as (ch & En & w & f & Hin & Hch'). exists w, ch. split.
    { destruct T1 as [(_ & Hin' & _) _]. apply Hin'. apply in_map_iff. exists (w, f). auto. }
    split; [exact En|]. apply in_app_iff in Hch'. destruct Hch' as [Hc|[Hc|[]]]; [exact Hc|]. exfalso. subst ch.
    assert (name_at init (Z.of_nat n) [MARK]) by (split; [lia|]; exists ty; rewrite Nat2Z.id; auto).
    pose proof (name_at_inj init 5 (Z.of_nat n) [MARK] T4 Hmark H0). lia.
  - right. right. destruct T12 as [_ Hg]. destruct (Hg n ty E L) as (_ & El & _). split; [exact El|].
    rewrite Etab, nth_error_app2 in E by exact L. apply nth_error_In in E. rewrite Forall_forall in Hnew. destruct (Hnew ty E) as ((w & f & a & b & Hin & Ew) & [F1 F2] & Hl).
    split; [exact Hl|]. apply in_map_iff in Hin. destruct Hin as ((w0 & f0) & E0 & Hin). cbn [fst snd] in E0. injection E0 as <- <-. split.
    + exists w0, a, b. split; [destruct T1 as [(_ & Hin' & _) _]; apply Hin'; apply in_map_iff; exists (w0, f0); auto|].
      rewrite <- (spelled_word_ext init table w0 Hch). exact Ew.
    + split; [exact F1|]. rewrite map_map in F2. cbn [fst snd] in F2.
      rewrite (exact_sum (fun w => Z.of_nat (places (t_name ty) (spelled_word init w))) toks tfs T1) in F2. unfold places_in.
      erewrite map_ext; [exact F2|]. intros v. cbn beta. rewrite (spelled_word_ext init table v Hch). reflexivity.
Qed.
Lemma listed_spelled table w : (forall ch, In ch w -> has_name table [ch]) -> has_name table [MARK] -> spelled_word table w = w ++ [MARK].
Proof.
  intros H Hm. unfold spelled_word.
  assert (G : forall l, (forall ch, In ch l -> has_name table [ch]) -> flat_map (fun c => if listed table [c] then [c] else lit "<unk>") l = l).
  { induction l as [|c l IH]; intros Hl; [reflexivity|]. cbn [flat_map]. rewrite (proj2 (listed_iff table [c]) (Hl c (or_introl eq_refl))).
    cbn [app]. rewrite IH by (intros ch Hc; apply Hl; right; exact Hc). reflexivity. }
  apply G. intros ch Hin. apply in_app_iff in Hin. destruct Hin as [Hin|[<-|[]]]; [apply H, Hin|exact Hm].
Qed.
Lemma reserved_mark table : starts_reserved table -> has_name table [MARK].
Proof.
  intros Hs. apply has_name_map. unfold starts_reserved in Hs. rewrite <- (firstn_skipn 6 (map t_name table)), Hs. apply in_app_iff. left.
  vm_compute. tauto.
Qed.
(** With all characters kept, the words are spelled as they are. *)
Lemma learned_spelling A orders data toks vs mco table : tokens_of KWord data toks -> iteration_orders orders ->
  learn_bpe A orders data vs None mco false = Ok table -> forall w, In w toks -> spelled_word table w = w ++ [MARK].
Proof.
  intros Ht Ho H w Hw. destruct (learn_bpe_text A orders data toks vs None mco table Ht Ho H) as (init & tfs & c & HT & Hcov).
  destruct (learn_bpe_accepted A orders data toks vs None mco table Ht Ho H) as (_ & Hs & _).
  apply listed_spelled; [|apply reserved_mark, Hs]. intros ch Hch. destruct HT as [[(_ & Hin & _) _] _ _ _ _ _ _ _ _ _ _ [(new & Etab) _]].
  apply Hin in Hw. apply in_map_iff in Hw. destruct Hw as ((w0 & f) & Ew & Hw). cbn [fst] in Ew. subst w0.
  destruct (Hcov eq_refl w f ch Hw) as (ty & Hty & En); [apply in_app_iff; left; exact Hch|]. exists ty. split; [|exact En].
  rewrite Etab. apply in_app_iff. left. exact Hty.
Qed.
Lemma infix_end (l a p b : str) x : ~ In x l -> l ++ [x] = a ++ p ++ b -> forall u v, p = u ++ x :: v -> v = [].
Proof.
  intros Hn E u v ->. rewrite <- !app_assoc in E. rewrite app_assoc in E. cbn [app] in E.
  destruct (v ++ b) as [|y r] eqn:Ev using rev_ind; [apply app_eq_nil in Ev; tauto|].
  exfalso. rewrite app_comm_cons, app_assoc in E. apply app_inj_tail in E. destruct E as [E _]. apply Hn. rewrite E. apply in_app_iff. right. left. reflexivity.
Qed.
Lemma learned_marks_end A orders data toks vs cov mco table : tokens_of KWord data toks -> iteration_orders orders ->
  learn_bpe A orders data vs cov mco false = Ok table -> (forall w, In w toks -> ~ In MARK w) -> marks_end table.
Proof.
  intros Ht Ho H Hno ty a b Hin En. destruct (learn_bpe_accepted A orders data toks vs cov mco table Ht Ho H) as (_ & Hs & _).
  apply In_nth_error in Hin. destruct Hin as (n & Hn). destruct (learned_types A orders data toks vs cov mco table Ht Ho H n ty Hn) as [[L Hr]|[(L & _ & w & ch & Hw & E & Hch)|(_ & _ & (w & x & y & Hw & E) & _)]].
  - rewrite En in Hr. cbn in Hr. unfold PAD_TOK, UNK_TOK, BOS_TOK, EOS_TOK, CLS_TOK, SPACE_TOK in Hr.
    repeat (destruct Hr as [Hr|Hr]; [repeat (destruct a as [|? a]; [try discriminate Hr; try (injection Hr; intros; congruence)|cbn [app] in Hr; try discriminate Hr; injection Hr as _ Hr])|]); try contradiction.
  - rewrite E in En. destruct a as [|z a]; [injection En as _ <-; reflexivity|]. destruct a; discriminate.
  - rewrite En in E. unfold spelled_word in E. rewrite flat_map_app in E. cbn [flat_map] in E. rewrite (proj2 (listed_iff table [MARK]) (reserved_mark table Hs)) in E.
    rewrite app_nil_r in E. refine (infix_end _ _ _ _ MARK _ E a b eq_refl). intros Hm. apply in_flat_map in Hm. destruct Hm as (c & Hc & Hm).
    destruct (listed table [c]); [destruct Hm as [->|[]]; apply (Hno w Hw Hc)|]. vm_compute in Hm. repeat (destruct Hm as [Hm|Hm]; [discriminate|]). exact Hm.
Qed.
Theorem learned_parts A orders data toks vs cov mco table : tokens_of KWord data toks -> iteration_orders orders ->
  learn_bpe A orders data vs cov mco false = Ok table -> (forall w, In w toks -> ~ In MARK w) ->
  exists s, make_scheme KBpe table = Ok s /\ forall a c b, is_space c = true -> wordy a -> wordy b ->
    exists x y, encode s a = Ok x /\ encode s b = Ok y /\ encode s (a ++ c :: b) = Ok (x ++ y).
Proof.
  intros Ht Ho H Hno. destruct (learn_bpe_accepted A orders data toks vs cov mco table Ht Ho H) as ((s & Hs) & _ & Hw & _).
  pose proof (learned_marks_end A orders data toks vs cov mco table Ht Ho H Hno) as Hm. exists s. split; [exact Hs|].
  intros a c b Hc Ha Hb. destruct (bpe_parts table s a c b Hs Hw Hm Hc Ha Hb) as (_ & _ & x & y & _ & _ & _ & E1 & E2 & E3). eauto.
Qed.

(** ** Only the words matter *)
Lemma same_words_encode s l1 l2 ws : s_kind s = KWord \/ s_kind s = KChar \/ s_kind s = KBpe -> words_of l1 ws -> words_of l2 ws ->
  encode_str s l1 = encode_str s l2 /\ encode s l1 = encode s l2.
Proof.
  intros Hk H1 H2. apply split_words_of in H1. apply split_words_of in H2.
  assert (E : encode_str s l1 = encode_str s l2).
  { unfold encode_str. destruct Hk as [->|[->| ->]]; [congruence|congruence|]. unfold bpe_encode_str, bpe_segment, bpe_text. rewrite !split_strip, H1, H2. reflexivity. }
  split; [exact E|]. unfold encode. rewrite E. reflexivity.
Qed.
Lemma normal_words line norm ws : normal line norm -> words_of line ws -> words_of norm ws.
Proof.
  intros Hn Hw. apply normal_spaced in Hn. subst norm. apply split_words_of in Hw. subst ws. apply words_of_spaced, split_is_word.
Qed.

(** ** Encoding decoded text *)
Lemma word_again table s line ids out : make_scheme KWord table = Ok s -> encode s line = Ok ids -> decode s ids = Ok out -> encode s out = Ok ids.
Proof.
  intros Hs He Hd. pose proof (proj1 (make_flat_inv KWord table s (or_introl eq_refl)) Hs) as (Hr & Hdn & Es).
  assert (G : forall l, encode s l = Ok (map (id_fun table 1) (split l))).
  { intros l. apply (flat_encode KWord table s (or_introl eq_refl) Hs). rewrite Es. reflexivity. }
  rewrite G in He. injection He as <-. rewrite (flat_decode_encode KWord table s (or_introl eq_refl) Hs) in Hd. rewrite Es in Hd. cbn [decode_str s_kind] in Hd. injection Hd as <-.
  rewrite G, split_join_space, map_map.
  - f_equal. apply map_ext. intros w. unfold show_fun. destruct (has_name_dec table w) as [H|H]; [reflexivity|].
    rewrite (id_fun_unknown table 1 w H). apply id_fun_name_at; [exact Hdn|apply starts_reserved_unk, Hr].
  - apply Forall_forall. intros w Hw. apply in_map_iff in Hw. destruct Hw as (v & <- & Hv). unfold show_fun. destruct (has_name_dec table v) as [H|H].
    + pose proof (split_is_word line) as F. rewrite Forall_forall in F. exact (F v Hv).
    + split; [discriminate|]. repeat constructor.
Qed.
Lemma char_again table s line ids out : make_scheme KChar table = Ok s -> (forall c, In c line -> is_space c = false -> has_name table [c]) -> ~ In MARK line ->
  encode s line = Ok ids -> decode s ids = Ok out -> normal line out /\ encode s out = Ok ids.
Proof.
  intros Hs Hcov HM He Hd. destruct (char_ids table s line Hs) as (ws & ids' & outs & Hw & He' & _ & Hsh & Hd').
  assert (ids' = ids) as -> by congruence. assert (out = unmark (concat outs)) as -> by congruence.
  assert (Eo : outs = map (fun c => [c]) (spaced MARK ws)).
  { apply (Forall2_fun (fun c o => shown table [c] o) (fun c => show_fun table [c]) _ _ (fun c o => shown_fun table [c] o)) in Hsh. subst outs. apply map_ext_in.
    intros c Hc. unfold show_fun. destruct (has_name_dec table [c]) as [|Hn]; [reflexivity|]. exfalso. apply Hn.
    apply In_spaced in Hc. destruct Hc as [(w & Hin & Hc)| ->].
    - apply Hcov; [eapply words_of_chars; eassumption|]. apply split_words_of in Hw. pose proof (split_is_word line) as F. rewrite Hw, Forall_forall in F.
      destruct (F w Hin) as [_ F2]. rewrite Forall_forall in F2. exact (F2 c Hc).
    - pose proof (proj1 (make_flat_inv KChar table s (or_intror eq_refl)) Hs) as (Hr & _). apply reserved_mark, Hr. }
  assert (Eu : unmark (concat outs) = spaced SPACE ws).
  { rewrite Eo, concat_singletons, unmark_spaced. apply unmark_id. intros Hin. apply In_spaced in Hin. destruct Hin as [(w & Hin & Hc)|Hc]; [|discriminate].
    apply HM. eapply words_of_chars; eassumption. }
  assert (Hn : normal line (unmark (concat outs))) by (exists ws; split; [exact Hw|exact Eu]).
  split; [exact Hn|]. rewrite <- He. apply (same_words_encode s _ _ ws); [|apply (normal_words line); assumption|exact Hw].
  pose proof (proj1 (make_flat_inv KChar table s (or_intror eq_refl)) Hs) as (_ & _ & ->). cbn. auto.
Qed.
Lemma bpe_again table s line ids out : make_scheme KBpe table = Ok s -> well_indexed table -> (forall c, In c line -> is_space c = false -> has_name table [c]) -> ~ In MARK line ->
  encode s line = Ok ids -> decode s ids = Ok out -> normal line out /\ encode s out = Ok ids.
Proof.
  intros Hs Hwi Hcov HM He Hd. assert (Hr : starts_reserved table) by (apply make_bpe_inv in Hs; tauto).
  assert (Hw := words_of_split line). set (ws := split line) in *.
  assert (Hn : normal line (spaced SPACE ws)) by (exists ws; auto).
  assert (Hmk : marked line (spaced MARK ws ++ [MARK])) by (exists ws; auto).
  destruct (bpe_lossless table s line _ _ Hs Hwi Hmk Hn) as (ps & ids' & out' & _ & He' & _ & _ & Hd' & _ & Ho & _).
  { intros c Hc. apply in_app_iff in Hc. destruct Hc as [Hc|[<-|[]]]; [|apply reserved_mark, Hr].
    apply In_spaced in Hc. destruct Hc as [(w & Hin & Hc)| ->]; [|apply reserved_mark, Hr].
    apply Hcov; [eapply words_of_chars; eassumption|]. pose proof (split_is_word line) as F. rewrite Forall_forall in F. destruct (F w Hin) as [_ F2]. rewrite Forall_forall in F2. exact (F2 c Hc). }
  assert (ids' = ids) as -> by congruence. assert (out' = out) as -> by congruence. specialize (Ho HM). subst out. split; [exact Hn|].
  rewrite <- He. apply (same_words_encode s _ _ ws); [|apply (normal_words line); assumption|exact Hw].
  apply make_bpe_inv in Hs. destruct Hs as (_ & _ & ->). cbn. auto.
Qed.
Lemma byte_again s line ids out : make_scheme KByte [] = Ok s -> (forall c, In c line -> is_scalar c = true /\ (16 <= c)%N) ->
  encode s line = Ok ids -> decode s ids = Ok out -> out = line /\ encode s out = Ok ids.
Proof.
  intros Hs Hc He Hd. assert (s = byte_scheme) as -> by (destruct make_byte as [H _]; congruence).
  destruct (byte_roundtrip line (fun c H => proj1 (Hc c H)) (fun c H => proj2 (Hc c H))) as (ps & ids' & _ & E & _ & D & _).
  assert (ids' = ids) as -> by congruence. assert (out = line) as -> by congruence. auto.
Qed.
Lemma class_again table s line ids out : make_scheme KClass table = Ok s -> (exists lab, trimmed line lab /\ has_name table lab) ->
  encode s line = Ok ids -> decode s ids = Ok out -> trimmed line out /\ encode s out = Ok ids.
Proof.
  intros Hs (lab & Ht & Hn) He Hd. pose proof Ht as (g1 & g2 & H1 & H2 & E & Hst). destruct (class_labels table s Hs) as [C1 C2].
  destruct (has_name_at table lab Hn) as (i & Hi). destruct (C1 line lab g1 g2 E H1 H2 Hst) as [C3 _]. destruct (C3 i Hi) as [E1 E2].
  assert (ids = [i]) as -> by congruence. assert (out = lab) as -> by congruence. split; [exact Ht|].
  destruct (C1 lab lab [] [] (eq_sym (app_nil_r lab)) (Forall_nil _) (Forall_nil _) Hst) as [C4 _]. apply (C4 i Hi).
Qed.

(** ** Lengths *)
Lemma greedy_length table text segs : greedy table text segs -> (length segs <= length text)%nat /\ (text <> [] -> segs <> []).
Proof.
  induction 1 as [|p rest segs Hp Hn Hmax Hg [IH _]|c rest segs Hno Hg [IH _]].
  - split; [apply le_n|]. auto.
  - split; [|discriminate]. rewrite app_length. destruct p; [contradiction|]. cbn [length]. lia.
  - split; [|discriminate]. cbn [length]. lia.
Qed.
Lemma flat_lengths table s line ws : words_of line ws ->
  (make_scheme KWord table = Ok s -> exists ids, encode s line = Ok ids /\ length ids = length ws) /\
  (make_scheme KChar table = Ok s -> exists ids, encode s line = Ok ids /\ length ids = length (spaced MARK ws)).
Proof.
  intros Hw. apply split_words_of in Hw. subst ws. split; intros Hs.
  - exists (map (id_fun table 1) (split line)). split; [|apply map_length].
    apply (flat_encode KWord table s (or_introl eq_refl) Hs). pose proof (proj1 (make_flat_inv KWord table s (or_introl eq_refl)) Hs) as (_ & _ & ->). reflexivity.
  - exists (map (id_fun table 1) (map (fun c => [c]) (spaced MARK (split line)))). split; [|rewrite !map_length; reflexivity].
    apply (flat_encode KChar table s (or_intror eq_refl) Hs). pose proof (proj1 (make_flat_inv KChar table s (or_intror eq_refl)) Hs) as (_ & _ & ->).
    unfold encode_str. cbn [s_kind]. rewrite join_spaced. reflexivity.
Qed.
Lemma bpe_length table s line ws : make_scheme KBpe table = Ok s -> well_indexed table -> words_of line ws ->
  exists ids, encode s line = Ok ids /\ (1 <= length ids <= length (spaced MARK ws) + 1)%nat.
Proof.
  intros Hs Hwi Hw. assert (Hm : marked line (spaced MARK ws ++ [MARK])) by (exists ws; auto).
  destruct (bpe_greedy table s line _ Hs Hwi Hm) as (segs & Hg & He). exists (map (bid table) (map seg_piece segs)).
  split; [apply (bpe_encode_ids table s _ _ Hs He)|]. rewrite !map_length. destruct (greedy_length _ _ _ Hg) as [L Hn]. rewrite app_length in L. cbn [length] in L.
  assert (segs <> []) by (apply Hn; destruct (spaced MARK ws); discriminate). destruct segs; [contradiction|]. cbn [length] in *. lia.
Qed.
Lemma greedy_marks table segs : marks_end table -> forall text, greedy table text segs -> (count_occ N.eq_dec text MARK <= length segs)%nat.
Proof.
  intros Hm. induction segs as [|sg segs IH]; intros text Hg; inversion Hg as [|p rest segs' Hp Hn Hmax Hg' E|c rest segs' Hno Hg' E]; subst; [apply le_n| |].
  - rewrite count_occ_app. specialize (IH _ Hg'). cbn [length]. assert (count_occ N.eq_dec p MARK <= 1)%nat; [|lia].
    destruct Hn as (t & Hin & En). destruct (in_dec N.eq_dec MARK p) as [Hi|Hi]; [|rewrite (proj1 (count_occ_not_In N.eq_dec p MARK) Hi); lia].
    apply in_split in Hi. destruct Hi as (u & v & Ep). assert (v = []) as -> by (apply (Hm t u v Hin); congruence). rewrite Ep.
    destruct (in_dec N.eq_dec MARK u) as [Hi|Hi].
    + exfalso. apply in_split in Hi. destruct Hi as (u1 & u2 & ->). assert (u2 ++ [MARK] = []); [|destruct u2; discriminate].
      apply (Hm t u1 (u2 ++ [MARK]) Hin). rewrite En, Ep, <- app_assoc. reflexivity.
    + rewrite count_occ_app, (proj1 (count_occ_not_In N.eq_dec u MARK) Hi). cbn. destruct (N.eq_dec MARK MARK); lia.
  - specialize (IH _ Hg'). cbn [count_occ length]. destruct (N.eq_dec c MARK); lia.
Qed.
Lemma spaced_marks ws : ws <> [] -> (length ws <= S (count_occ N.eq_dec (spaced MARK ws) MARK))%nat.
Proof.
  induction ws as [|w ws IH]; [contradiction|]. intros _. destruct ws as [|w' ws]; [cbn [length spaced]; lia|].
  change (spaced MARK (w :: w' :: ws)) with (w ++ MARK :: spaced MARK (w' :: ws)). rewrite count_occ_app, count_occ_cons_eq by reflexivity.
  specialize (IH ltac:(discriminate)). cbn [length] in *. lia.
Qed.
Lemma bpe_length_words table s line ws : make_scheme KBpe table = Ok s -> well_indexed table -> marks_end table -> words_of line ws ->
  exists ids, encode s line = Ok ids /\ (length ws <= length ids)%nat.
Proof.
  intros Hs Hwi Hme Hw. assert (Hm : marked line (spaced MARK ws ++ [MARK])) by (exists ws; auto).
  destruct (bpe_greedy table s line _ Hs Hwi Hm) as (segs & Hg & He). exists (map (bid table) (map seg_piece segs)).
  split; [apply (bpe_encode_ids table s _ _ Hs He)|]. rewrite !map_length. pose proof (greedy_marks table segs Hme _ Hg) as L.
  rewrite count_occ_app in L. destruct ws as [|w ws]; [cbn; lia|]. pose proof (spaced_marks (w :: ws) ltac:(discriminate)) as L2.
  cbn [count_occ] in L. destruct (N.eq_dec MARK MARK); [lia|contradiction].
Qed.

(** ** Ids of a vocabulary and of its beginning *)
Lemma id_fun_cut t1 t2 n w : distinct_names t2 -> map t_name t1 = firstn n (map t_name t2) -> (6 <= n)%nat ->
  id_fun t1 1 w = if id_fun t2 1 w <? Z.of_nat n then id_fun t2 1 w else 1.
Proof.
  intros Hd E Hn. assert (Hd1 : distinct_names t1).
  { unfold distinct_names in *. rewrite E. rewrite <- (firstn_skipn n (map t_name t2)) in Hd. clear - Hd. induction (firstn n (map t_name t2)) as [|x l IH]; [constructor|].
    cbn [app] in Hd. inversion Hd; subst. constructor; [intros H; apply H1, in_app_iff; auto|auto]. }
  assert (Hat : forall i, name_at t1 i w <-> name_at t2 i w /\ i < Z.of_nat n).
  { intros i. rewrite !name_at_nth, E. split.
    - intros [H0 H1]. destruct (Nat.lt_ge_cases (Z.to_nat i) n) as [L|L].
      + rewrite VocabFileProofs.nth_error_firstn_lt in H1 by exact L. split; [auto|lia].
      + assert (nth_error (firstn n (map t_name t2)) (Z.to_nat i) = None) by (apply nth_error_None; rewrite firstn_length; lia). congruence.
    - intros [[H0 H1] H2]. split; [exact H0|]. rewrite VocabFileProofs.nth_error_firstn_lt by lia. exact H1. }
  destruct (has_name_dec t2 w) as [H|H].
  - pose proof (id_fun_known t2 1 w Hd H) as H2. destruct (Z.ltb_spec (id_fun t2 1 w) (Z.of_nat n)) as [L|L].
    + apply id_fun_name_at; [exact Hd1|]. apply Hat. auto.
    + apply id_fun_unknown. intros H1. destruct (has_name_at t1 w H1) as (i & Hi). apply Hat in Hi. destruct Hi as [Hi Li].
      pose proof (name_at_inj t2 _ _ w Hd Hi H2). lia.
  - rewrite (id_fun_unknown t2 1 w H). destruct (1 <? Z.of_nat n); apply id_fun_unknown; intros H1; destruct (has_name_at t1 w H1) as (i & Hi);
      apply Hat in Hi; apply H; eapply name_at_has; apply Hi.
Qed.
Lemma flat_cut k t1 t2 s1 s2 n line ids : k = KWord \/ k = KChar -> make_scheme k t1 = Ok s1 -> make_scheme k t2 = Ok s2 ->
  map t_name t1 = firstn n (map t_name t2) -> encode s2 line = Ok ids ->
  encode s1 line = Ok (map (fun i => if i <? Z.of_nat n then i else 1) ids).
Proof.
  intros Hk H1 H2 E He. pose proof (proj1 (make_flat_inv k t1 s1 Hk) H1) as (R1 & _ & E1). pose proof (proj1 (make_flat_inv k t2 s2 Hk) H2) as (_ & D2 & E2).
  assert (Hn : (6 <= n)%nat).
  { unfold starts_reserved in R1. rewrite E in R1. assert (L := f_equal (@length _) R1). rewrite !firstn_length in L. change (length reserved_names) with 6%nat in L. lia. }
  assert (P : exists ps, encode_str s1 line = Ok ps /\ encode_str s2 line = Ok ps).
  { rewrite E1, E2. unfold encode_str. cbn [s_kind]. destruct Hk as [-> | ->]; eauto. }
  destruct P as (ps & P1 & P2). rewrite (flat_encode k t1 s1 Hk H1 line ps P1). rewrite (flat_encode k t2 s2 Hk H2 line ps P2) in He. injection He as <-.
  rewrite map_map. f_equal. apply map_ext. intros w. apply id_fun_cut; assumption.
Qed.

(** ** BPE: encoding decoded text with unknown characters *)
Definition read_back (sg : CodecSpec.seg) : CodecSpec.seg := match sg with Known p => Known p | Unknown _ => Known (lit "<unk>") end.
Lemma begins_prefix p t : begins p t = true <-> exists r, t = p ++ r.
Proof.
  revert t. induction p as [|x p IH]; intros t; cbn [begins app].
  - split; [intros _; exists t; reflexivity|auto].
  - destruct t as [|y t]; [split; [discriminate|intros (r & E); discriminate]|]. rewrite andb_true_iff, N.eqb_eq, IH. split.
    + intros (-> & r & ->). exists r. reflexivity.
    + intros (r & E). injection E as -> ->. split; [reflexivity|exists r; reflexivity].
Qed.
(** Only reserved names begin with '<', and none is a beginning of another. *)
Lemma reserved_prefix q p r r' : In q reserved_names -> In p reserved_names -> q ++ r = p ++ r' -> q = p.
Proof.
  intros Hq Hp E.
  assert (G : forall u v, In u reserved_names -> In v reserved_names -> (length u <= length v)%nat -> forall a b, u ++ a = v ++ b -> u = v).
  { intros u v Hu Hv L a b Eab. assert (B : begins u v = true).
    { apply begins_prefix. destruct (app_shorter u a v b Eab L) as (r1 & ->). exists r1. reflexivity. }
    assert (T : forallb (fun u => forallb (fun v => implb (begins u v) (str_eqb u v)) reserved_names) reserved_names = true) by (vm_compute; reflexivity).
    rewrite forallb_forall in T. specialize (T u Hu). rewrite forallb_forall in T. specialize (T v Hv). rewrite B in T. apply str_eqb_eq in T. exact T. }
  destruct (Nat.le_gt_cases (length q) (length p)) as [L|L]; [apply (G q p Hq Hp L r r' E)|symmetry; apply (G p q Hp Hq ltac:(lia) r' r (eq_sym E))].
Qed.
Lemma reserved_lt q u v : In q reserved_names -> q = u ++ 60%N :: v -> u = [].
Proof.
  intros Hq E.
  assert (T : forallb (fun q => negb (existsb (N.eqb 60) (tl q))) reserved_names = true) by (vm_compute; reflexivity).
  rewrite forallb_forall in T. specialize (T q Hq). destruct u as [|x u]; [reflexivity|]. exfalso. rewrite E in T. cbn [app tl] in T.
  apply negb_true_iff in T. assert (existsb (N.eqb 60) (u ++ 60%N :: v) = true); [|congruence].
  apply existsb_exists. exists 60%N. split; [apply in_app_iff; right; left; reflexivity|reflexivity].
Qed.
Lemma read_back_text segs : concat (map seg_piece segs) = concat (map seg_text (map read_back segs)).
Proof. induction segs as [|[p|c] segs IH]; cbn [map concat read_back seg_piece seg_text]; congruence. Qed.
(** A beginning of the text read back is a beginning of the text, or reaches the '<' of a placeholder. *)
Lemma read_back_prefix table text segs q r : greedy table text segs -> concat (map seg_piece segs) = q ++ r ->
  (exists r', text = q ++ r') \/ (exists u v, q = u ++ 60%N :: v /\ exists s1 c s2, segs = s1 ++ Unknown c :: s2 /\ u = concat (map seg_text s1)).
Proof.
  intros Hg. revert q r. induction Hg as [|p rest segs Hp Hn Hmax Hg IH|c rest segs Hno Hg IH]; intros q r E.
  - cbn in E. symmetry in E. apply app_eq_nil in E. destruct E as [-> ->]. left. exists []. reflexivity.
  - cbn [map concat seg_piece] in E. destruct (Nat.le_gt_cases (length q) (length p)) as [L|L].
    + left. symmetry in E. destruct (app_shorter q r p _ E L) as (r1 & ->). exists (r1 ++ rest). rewrite app_assoc. reflexivity.
    + destruct (app_longer q r p _ (eq_sym E) ltac:(lia)) as (q' & -> & _). rewrite <- app_assoc in E. apply app_inv_head in E. destruct (IH q' r E) as [(r' & ->)|(u & v & -> & s1 & c & s2 & -> & Eu)].
      * left. exists r'. rewrite app_assoc. reflexivity.
      * right. exists (p ++ u), v. split; [rewrite app_assoc; reflexivity|]. exists (Known p :: s1), c, s2. split; [reflexivity|]. cbn [map concat seg_text]. rewrite Eu. reflexivity.
  - cbn [map concat seg_piece] in E. destruct q as [|x q]; [left; exists (c :: rest); reflexivity|]. right.
    assert (x = 60%N) as -> by (symmetry; exact (f_equal (fun l => hd 0%N l) E)). exists [], q. split; [reflexivity|]. exists [], c, segs. auto.
Qed.
Lemma greedy_read_back table text segs : starts_reserved table -> plain_names table -> greedy table text segs ->
  greedy table (concat (map seg_piece segs)) (map read_back segs).
Proof.
  intros Hr Hpl Hg. pose proof (name_at_has _ _ _ (starts_reserved_unk table Hr)) as Hunk.
  induction Hg as [|p rest segs Hp Hn Hmax Hg IH|c rest segs Hno Hg IH]; cbn [map concat read_back seg_piece].
  - constructor.
  - apply Gr_known; [exact Hp|exact Hn| |exact IH]. intros q r Hq E.
    destruct (Nat.le_gt_cases (length q) (length p)) as [L|L]; [exact L|]. exfalso.
    destruct (read_back_prefix table (p ++ rest) (Known p :: segs) q r) as [(r' & E')|(u & v & Eq & s1 & c & s2 & Es & Eu)].
    + apply Gr_known; assumption.
    + cbn [map concat seg_piece]. symmetry. exact E.
    + pose proof (Hmax q r' Hq (eq_sym E')). lia.
    + destruct Hq as (t & Ht & En). assert (Hres : In q reserved_names).
      { rewrite <- En. apply Hpl; [exact Ht|]. rewrite En, Eq. apply in_app_iff. right. left. reflexivity. }
      pose proof (reserved_lt q u v Hres Eq) as ->. destruct s1 as [|sg s1]; [discriminate|]. injection Es as <- _. cbn [map concat seg_text] in Eu. symmetry in Eu. apply app_eq_nil in Eu. destruct Eu as [-> _]. contradiction.
  - apply Gr_known; [discriminate|exact Hunk| |exact IH]. intros q r Hq E.
    destruct q as [|x q]; [cbn; lia|]. assert (x = 60%N) as -> by exact (f_equal (fun l => hd 0%N l) E).
    destruct Hq as (t & Ht & En). assert (Hres : In (60%N :: q) reserved_names).
    { rewrite <- En. apply Hpl; [exact Ht|]. rewrite En. left. reflexivity. }
    assert (Eq : (60%N :: q) = lit "<unk>"). { apply (reserved_prefix (60%N :: q) (lit "<unk>") r (concat (map seg_piece segs)) Hres); [vm_compute; tauto|exact E]. }
    rewrite Eq. apply le_n.
Qed.
(** Replacing some characters other than the mark by the placeholder. *)
Inductive blotted : str -> str -> Prop :=
| bl_nil : blotted [] []
| bl_keep c a b : blotted a b -> blotted (c :: a) (c :: b)
| bl_unk c a b : c <> MARK -> blotted a b -> blotted (c :: a) (lit "<unk>" ++ b).
Lemma blotted_refl a : blotted a a.
Proof. induction a; constructor; assumption. Qed.
Lemma blotted_app a b a' b' : blotted a a' -> blotted b b' -> blotted (a ++ b) (a' ++ b').
Proof. intros H Hb. induction H; cbn [app]; [exact Hb|constructor; assumption|]. apply (bl_unk c (a ++ b) (b0 ++ b')); assumption. Qed.
Lemma blotted_split a x b w : blotted (a ++ x :: b) w -> x = MARK -> exists a' b', w = a' ++ x :: b' /\ blotted a a' /\ blotted b b'.
Proof.
  intros H ->. revert w H. induction a as [|c a IH]; intros w H; cbn [app] in H; inversion H as [|? ? w' H'|? ? w' Hc H']; subst.
  - exists [], w'. split; [reflexivity|]. split; [constructor|exact H'].
  - contradiction.
  - destruct (IH w' H') as (a' & b' & -> & Ha & Hb). exists (c :: a'), b'. split; [reflexivity|]. split; [constructor; exact Ha|exact Hb].
  - destruct (IH w' H') as (a' & b' & -> & Ha & Hb). exists (lit "<unk>" ++ a'), b'. split; [reflexivity|]. split; [apply bl_unk; assumption|exact Hb].
Qed.
Lemma blotted_word a w : blotted a w -> is_word a -> ~ In MARK a -> is_word w /\ ~ In MARK w.
Proof.
  intros H [Hn Hw] Hm. split; [split|].
  - destruct H; [contradiction|discriminate|discriminate].
  - clear Hn Hm. induction H as [|c a b H IH|c a b Hc H IH]; [constructor| |]; inversion Hw; subst; [constructor; auto|]. apply Forall_app. split; [repeat constructor|auto].
  - clear Hn Hw. induction H as [|c a b H IH|c a b Hc H IH]; [intros []| |].
    + intros [->|Hin]; [apply Hm; left; reflexivity|]. apply IH; [intros H2; apply Hm; right; exact H2|exact Hin].
    + intros Hin. apply in_app_iff in Hin. destruct Hin as [Hin|Hin]; [vm_compute in Hin; repeat (destruct Hin as [Hin|Hin]; [discriminate|]); exact Hin|].
      apply IH; [intros H2; apply Hm; right; exact H2|exact Hin].
Qed.
Lemma blotted_spaced ws : Forall (fun w => is_word w /\ ~ In MARK w) ws -> forall w, blotted (spaced MARK ws ++ [MARK]) w ->
  exists ws', Forall (fun w => is_word w /\ ~ In MARK w) ws' /\ w = spaced MARK ws' ++ [MARK].
Proof.
  induction 1 as [|v ws [Hv Hm] Hws IH]; intros w Hb.
  - exists []. split; [constructor|]. cbn [spaced app] in *. inversion Hb as [|? ? w' H'|? ? w' Hc H']; subst; [inversion H'; subst; reflexivity|contradiction].
  - destruct ws as [|v' ws].
    + cbn [spaced] in Hb. destruct (blotted_split v MARK [] w Hb eq_refl) as (a' & b' & -> & Ha & Hb'). inversion Hb'; subst.
      exists [a']. split; [constructor; [apply (blotted_word v a' Ha Hv Hm)|constructor]|reflexivity].
    + change (spaced MARK (v :: v' :: ws)) with (v ++ MARK :: spaced MARK (v' :: ws)) in Hb. rewrite <- app_assoc in Hb. cbn [app] in Hb.
      destruct (blotted_split v MARK _ w Hb eq_refl) as (a' & b' & -> & Ha & Hb'). destruct (IH b' Hb') as (ws' & Hws' & ->).
      exists (a' :: ws'). split; [constructor; [apply (blotted_word v a' Ha Hv Hm)|exact Hws']|].
      destruct ws' as [|w0 ws'].
      * exfalso. cbn [spaced app] in Hb'. clear - Hb' Hws. inversion Hws as [|? ? [[Hn _] Hm] _]; subst. destruct v' as [|x v']; [contradiction|].
        assert (blotted ((x :: v') ++ (match ws with [] => [] | _ => MARK :: spaced MARK ws end) ++ [MARK]) [MARK]).
        { destruct ws as [|l ws]; [exact Hb'|]. change (spaced MARK ((x :: v') :: l :: ws)) with ((x :: v') ++ MARK :: spaced MARK (l :: ws)) in Hb'. rewrite <- app_assoc in Hb'. exact Hb'. }
        cbn [app] in H. inversion H as [|? ? w' H'|? ? w' Hc H']; subst; [apply Hm; left; reflexivity].
      * change (spaced MARK (a' :: w0 :: ws')) with (a' ++ MARK :: spaced MARK (w0 :: ws')). rewrite <- app_assoc. reflexivity.
Qed.
Lemma greedy_blotted table text segs : has_name table [MARK] -> greedy table text segs -> blotted text (concat (map seg_piece segs)).
Proof.
  intros Hm. induction 1 as [|p rest segs Hp Hn Hmax Hg IH|c rest segs Hno Hg IH]; cbn [map concat seg_piece].
  - constructor.
  - apply blotted_app; [apply blotted_refl|exact IH].
  - apply bl_unk; [|exact IH]. intros ->. specialize (Hno [MARK] rest Hm eq_refl). discriminate.
Qed.
Theorem bpe_again_unknown table s line ids out : make_scheme KBpe table = Ok s -> well_indexed table -> plain_names table -> ~ In MARK line ->
  encode s line = Ok ids -> decode s ids = Ok out -> encode s out = Ok ids.
Proof.
  intros Hs Hwi Hpl HM He Hd. assert (Hr : starts_reserved table) by (apply make_bpe_inv in Hs; tauto).
  assert (Hk : s_kind s = KBpe) by (apply make_bpe_inv in Hs; destruct Hs as (_ & _ & ->); reflexivity).
  assert (Hw := words_of_split line). set (ws := split line) in *.
  assert (Hmk : marked line (spaced MARK ws ++ [MARK])) by (exists ws; auto).
  destruct (bpe_greedy table s line _ Hs Hwi Hmk) as (segs & Hg & Hps).
  pose proof (bpe_encode_ids table s _ _ Hs Hps) as He'. assert (Eid : map (bid table) (map seg_piece segs) = ids) by congruence. subst ids. clear He He'.
  rewrite (bpe_decode_ids table) in Hd; [|exact Hs|apply (greedy_pieces_named table _ segs Hr Hg)].
  assert (Hws : Forall (fun w => is_word w /\ ~ In MARK w) ws).
  { pose proof (split_is_word line) as F. rewrite Forall_forall in F |- *. intros w Hin. split; [apply F, Hin|]. intros Hm. apply HM. eapply words_of_chars; eassumption. }
  destruct (blotted_spaced ws Hws _ (greedy_blotted table _ segs (reserved_mark table Hr) Hg)) as (ws' & Hws' & Et).
  rewrite (bpe_decode_text s ws' _ Hk Et) in Hd.
  assert (Hwords : Forall is_word ws') by (rewrite Forall_forall in *; intros w Hin; apply Hws', Hin).
  assert (Eo : out = spaced SPACE ws').
  { rewrite unmark_id in Hd; [rewrite stripped_strip in Hd by (apply spaced_stripped; exact Hwords); congruence|].
    intros Hin. apply In_spaced in Hin. destruct Hin as [(w & Hin & Hc)|Hc]; [|discriminate]. rewrite Forall_forall in Hws'. apply (proj2 (Hws' w Hin) Hc). }
  subst out. assert (Hmk' : marked (spaced SPACE ws') (spaced MARK ws' ++ [MARK])) by (exists ws'; split; [apply words_of_spaced, Hwords|reflexivity]).
  destruct (bpe_greedy table s _ _ Hs Hwi Hmk') as (segs' & Hg' & Hps'). rewrite <- Et in Hg'.
  pose proof (greedy_unique table _ _ _ Hg' (greedy_read_back table _ segs Hr Hpl Hg)) as ->.
  rewrite (bpe_encode_ids table s _ _ Hs Hps'). do 2 f_equal. rewrite map_map. apply map_ext. intros [p|c]; reflexivity.
Qed.

(** ** Characters: what encoding decoded text gives exactly *)
Definition again_char (table : list Typ) (c : N) : str := if has_name_dec table [c] then [c] else lit "<unk>".
Lemma again_word table v : is_word v -> ~ In MARK v -> is_word (flat_map (again_char table) v) /\ ~ In MARK (flat_map (again_char table) v).
Proof.
  intros [Hn Hw] Hm. split; [split|].
  - destruct v as [|c v]; [contradiction|]. cbn [flat_map]. unfold again_char at 1. destruct (has_name_dec table [c]); discriminate.
  - apply Forall_forall. intros d Hd. apply in_flat_map in Hd. destruct Hd as (c & Hc & Hd). unfold again_char in Hd. rewrite Forall_forall in Hw.
    destruct (has_name_dec table [c]); [destruct Hd as [<-|[]]; apply Hw, Hc|]. vm_compute in Hd. repeat (destruct Hd as [<-|Hd]; [reflexivity|]). destruct Hd.
  - intros Hd. apply in_flat_map in Hd. destruct Hd as (c & Hc & Hd). unfold again_char in Hd.
    destruct (has_name_dec table [c]); [destruct Hd as [->|[]]; apply Hm, Hc|]. vm_compute in Hd. repeat (destruct Hd as [Hd|Hd]; [discriminate|]). exact Hd.
Qed.
Lemma again_spaced table ws : has_name table [MARK] -> flat_map (again_char table) (spaced MARK ws) = spaced MARK (map (flat_map (again_char table)) ws).
Proof.
  intros Hm. induction ws as [|w ws IH]; [reflexivity|]. destruct ws as [|w' ws]; [reflexivity|].
  change (spaced MARK (w :: w' :: ws)) with (w ++ MARK :: spaced MARK (w' :: ws)). rewrite flat_map_app. cbn [flat_map]. rewrite IH.
  unfold again_char at 2. destruct (has_name_dec table [MARK]); [|contradiction]. reflexivity.
Qed.
Theorem char_again_exact table s line ws ids out : make_scheme KChar table = Ok s -> ~ In MARK line -> words_of line ws ->
  encode s line = Ok ids -> decode s ids = Ok out ->
  exists idss, encode s out = Ok (concat idss) /\
    Forall2 (fun c is => has_name table [c] /\ (exists i, name_at table i [c] /\ is = [i]) \/
                         ~ has_name table [c] /\ Forall2 (fun d i => id_of table [d] i) (lit "<unk>") is) (spaced MARK ws) idss.
Proof.
  intros Hs HM Hw He Hd. pose proof (proj1 (make_flat_inv KChar table s (or_intror eq_refl)) Hs) as (Hr & Hdn & Es).
  destruct (char_ids table s line Hs) as (ws0 & ids' & outs & Hw0 & He' & _ & Hsh & Hd').
  assert (ws0 = ws) as -> by (apply split_words_of in Hw; apply split_words_of in Hw0; congruence).
  assert (ids' = ids) as -> by congruence. assert (Eout : out = unmark (concat outs)) by congruence. clear Hd'.
  assert (Eo : concat outs = flat_map (again_char table) (spaced MARK ws)).
  { apply (Forall2_fun (fun c o => shown table [c] o) (again_char table) _ _ (fun c o => shown_fun table [c] o)) in Hsh. subst outs. symmetry. apply flat_map_concat_map. }
  set (ws' := map (flat_map (again_char table)) ws). rewrite again_spaced in Eo by (apply reserved_mark, Hr). fold ws' in Eo.
  assert (Hws : Forall (fun w => is_word w /\ ~ In MARK w) ws').
  { apply Forall_forall. intros w Hin. apply in_map_iff in Hin. destruct Hin as (v & <- & Hv). apply again_word.
    - apply split_words_of in Hw. pose proof (split_is_word line) as F. rewrite Hw, Forall_forall in F. exact (F v Hv).
    - intros Hm. apply HM. eapply words_of_chars; eassumption. }
  assert (Hwords : Forall is_word ws') by (rewrite Forall_forall in *; intros w Hin; apply Hws, Hin).
  assert (Eo2 : out = spaced SPACE ws').
  { rewrite Eout, Eo, unmark_spaced. apply unmark_id. intros Hin. apply In_spaced in Hin. destruct Hin as [(w & Hin & Hc)|Hc]; [|discriminate].
    rewrite Forall_forall in Hws. apply (proj2 (Hws w Hin) Hc). }
  exists (map (fun c => map (fun d => id_fun table 1 [d]) (again_char table c)) (spaced MARK ws)). split.
  - rewrite (flat_encode KChar table s (or_intror eq_refl) Hs out (map (fun c => [c]) (spaced MARK ws'))).
    + unfold ws'. rewrite <- again_spaced by (apply reserved_mark, Hr). rewrite map_map. f_equal. generalize (spaced MARK ws). intros l.
      induction l as [|c l IH]; [reflexivity|]. cbn [flat_map map concat]. rewrite map_app, IH. reflexivity.
    + rewrite Es. unfold encode_str. cbn [s_kind]. rewrite Eo2, join_spaced, (split_words_of _ _ (words_of_spaced ws' Hwords)). reflexivity.
  - apply Forall2_map_r. intros c _. unfold again_char. destruct (has_name_dec table [c]) as [H|H].
    + left. split; [exact H|]. exists (id_fun table 1 [c]). split; [apply id_fun_known; assumption|reflexivity].
    + right. split; [exact H|]. cbn [map]. repeat (constructor; [apply id_fun_id_of, Hdn|]). constructor.
Qed.
