(** End-to-end facts about learn_vocab and nlcodec-learn. *)
From Coq Require Import Strings.String.
From Verif Require Import Py PyStr PyLemmas StrSpec PyStrProofs Utf8Model JsonModel JsonProofs CodecModel CodecSpec BpeProofs
     VocabFileModel VocabSpec VocabFileProofs LearnModel ArithModel LearnSpec LearnProofs DriverModel DriverSpec DriverProofs
     FlatProofs ByteProofs BpeSpec LearnBpeModel LearnBpeProofs LearnBpeLoop LearnBpeIndex LearnBpeResults LearnBpeEnd.
Local Open Scope Z_scope.
Local Open Scope list_scope.

(** ** a text with given counts *)
Definition spread (m : list (str * Z)) : list str := flat_map (fun e => repeat (fst e) (Z.to_nat (snd e))) m.
Lemma counter_repeat w k : forall d, ~ In w (map fst d) -> counter_update str_eqb (repeat w (S k)) d = d ++ [(w, Z.of_nat (S k))].
Proof.
  assert (G : forall k n d, ~ In w (map fst d) -> counter_update str_eqb (repeat w k) (d ++ [(w, n)]) = d ++ [(w, n + Z.of_nat k)]).
  { clear k. induction k as [|k IH]; intros n d Hw; [cbn; rewrite Z.add_0_r; reflexivity|].
    cbn [repeat]. unfold counter_update in *. cbn [fold_left].
    assert (E : dadd str_eqb w 1 (d ++ [(w, n)]) = d ++ [(w, n + 1)]).
    { clear IH. unfold dadd, dget_def. induction d as [|[a b] d IH]; cbn [app dget dset].
      - rewrite str_eqb_refl. reflexivity.
      - simpl in Hw. assert (Ea : str_eqb w a = false) by (apply str_eqb_neq; intros ->; tauto). rewrite Ea. f_equal. apply IH. tauto. }
    rewrite E, IH by exact Hw. f_equal. f_equal. f_equal. lia. }
  intros d Hw. cbn [repeat]. unfold counter_update in *. cbn [fold_left].
  assert (E : dadd str_eqb w 1 d = d ++ [(w, 1)]).
  { unfold dadd. rewrite (dset_fresh str_eqb str_eqb_eq) by exact Hw. unfold dget_def.
    assert (En : dget str_eqb w d = None) by (apply (dget_None str_eqb str_eqb_eq); exact Hw). rewrite En. reflexivity. }
  rewrite E, G by exact Hw. f_equal. f_equal. f_equal. lia.
Qed.
Lemma counter_spread m : forall d, NoDup (map fst (d ++ m)) -> (forall w f, In (w, f) m -> 0 < f) -> counter_update str_eqb (spread m) d = d ++ m.
Proof.
  induction m as [|[w f] m IH]; intros d Hnd Hp; [rewrite app_nil_r; reflexivity|]. cbn [spread flat_map fst snd].
  rewrite counter_app. assert (Hf : 0 < f) by (apply (Hp w); left; reflexivity).
  destruct (Z.to_nat f) as [|k] eqn:E; [lia|]. rewrite counter_repeat.
  2:{ intros Hi. rewrite map_app in Hnd. apply (NoDup_app_disjoint _ _ w Hnd Hi). left. reflexivity. }
  rewrite <- E, Z2Nat.id by lia. fold (spread m). rewrite IH.
  - rewrite <- app_assoc. reflexivity.
  - rewrite <- app_assoc. exact Hnd.
  - intros w' f' H. apply (Hp w'). right. exact H.
Qed.
Lemma In_spread w m : In w (spread m) -> In w (map fst m).
Proof.
  intros H. apply in_flat_map in H. destruct H as (e & He & Hr). apply repeat_spec in Hr. subst w. apply in_map, He.
Qed.
Definition as_text (m : list (str * Z)) (n : nat) : list str := join [SPACE] (spread m) :: repeat [] (n - 1).
Lemma as_text_words m n : (forall w f, In (w, f) m -> is_word w) -> Forall2 words_of (as_text m n) (spread m :: repeat [] (n - 1)).
Proof.
  intros H. constructor.
  - rewrite join_spaced. apply words_of_spaced. apply Forall_forall. intros w Hw. apply In_spread in Hw. apply in_map_iff in Hw.
    destruct Hw as ([w' f] & <- & Hw). eapply H. exact Hw.
  - induction (n - 1)%nat as [|k IH]; constructor; [apply W_end; constructor|exact IH].
Qed.
Lemma concat_repeat_nil {A} k : concat (repeat (@nil A) k) = [].
Proof. induction k; [reflexivity|exact IHk]. Qed.
Lemma as_text_counts m n : NoDup (map fst m) -> (forall w f, In (w, f) m -> is_word w /\ 0 < f) -> (0 < n)%nat ->
  term_frequencies KWord (as_text m n) = (m, Z.of_nat n).
Proof.
  intros Hnd Hm Hn. rewrite term_frequencies_eq.
  assert (Ht : tokens_of KWord (as_text m n) (spread m)).
  { exists (spread m :: repeat [] (n - 1)). split; [apply as_text_words; intros w f H; apply (Hm w f H)|].
    cbn [concat]. rewrite concat_repeat_nil, app_nil_r. reflexivity. }
  apply tokens_of_fun in Ht. rewrite <- Ht. rewrite (counter_spread m []) by (try exact Hnd; intros w f H; apply (Hm w f H)).
  f_equal. unfold as_text. cbn [length]. rewrite repeat_length. lia.
Qed.
Lemma occur_repeat w a k : occurrences w (repeat a k) = if str_eqb w a then Z.of_nat k else 0.
Proof.
  induction k as [|k IH]; [destruct (str_eqb w a); reflexivity|]. cbn [repeat]. rewrite occur_cons, IH. destruct (str_eqb w a); lia.
Qed.
Lemma occur_spread w m : NoDup (map fst m) -> (forall w f, In (w, f) m -> 0 < f) -> occurrences w (spread m) = dget_def str_eqb w 0 m.
Proof.
  unfold dget_def. induction m as [|[a f] m IH]; intros Hnd Hp; [reflexivity|]. cbn [spread flat_map fst snd dget]. rewrite occur_app, occur_repeat.
  inversion Hnd as [|? ? Hn Hd]; subst. assert (Hf : 0 < f) by (apply (Hp a); left; reflexivity).
  assert (E : occurrences w (spread m) = match dget str_eqb w m with Some v => v | None => 0 end) by (apply IH; [exact Hd|intros w' f' H; apply (Hp w'); right; exact H]).
  fold (spread m). rewrite E. destruct (str_eqb w a) eqn:Ea; [|lia]. apply str_eqb_eq in Ea. subst a.
  assert (En : dget str_eqb w m = None) by (apply (dget_None str_eqb str_eqb_eq); exact Hn). rewrite En. lia.
Qed.
Lemma counts_dget toks m w : counts toks m -> dget_def str_eqb w 0 m = occurrences w toks.
Proof.
  intros (N & I & C). unfold dget_def. destruct (dget str_eqb w m) as [f|] eqn:E.
  - apply (dget_In str_eqb str_eqb_eq) in E. apply C, E.
  - apply (dget_None str_eqb str_eqb_eq) in E. unfold dkeys in E. rewrite I in E. unfold occurrences.
    apply (count_occ_not_In str_dec) in E. rewrite E. reflexivity.
Qed.
Lemma counts_positive toks m w f : counts toks m -> In (w, f) m -> 0 < f.
Proof.
  intros (N & I & C) H. rewrite (C w f H). unfold occurrences. assert (Hw : In w toks) by (apply I; apply (in_map fst) in H; exact H).
  apply (count_occ_In str_dec) in Hw. lia.
Qed.
Lemma counts_spread_perm toks m : counts toks m -> Permutation (spread m) toks.
Proof.
  intros Hc. apply (Permutation_count_occ str_dec). intros w.
  assert (E : occurrences w (spread m) = occurrences w toks).
  { rewrite occur_spread, (counts_dget toks m w Hc); [reflexivity|apply Hc|intros w' f' H; eapply counts_positive; eassumption]. }
  unfold occurrences in E. lia.
Qed.

(** ** reading the statistics back *)
Lemma stats_read stats n : NoDup (map fst stats) -> (forall w f, In (w, f) stats -> is_word w) ->
  read_term_freqs (file_lines (write_stats stats [(lit "line_count", JInt n)])) = Ok (sorted_desc snd stats, n).
Proof.
  intros H1 H2. apply tf_roundtrip; try assumption; [|reflexivity]. split.
  - constructor; [|constructor]. split; [apply lit_scalars|exact I].
  - constructor; [intros []|constructor].
Qed.
Lemma words_are_words rows wss w : Forall2 words_of rows wss -> In w (concat wss) -> is_word w.
Proof.
  intros H Hw. apply in_concat in Hw. destruct Hw as (ws & Hws & Hw). apply rows_words in H. subst wss. apply in_map_iff in Hws.
  destruct Hws as (r & <- & _). pose proof (split_is_word r) as F. rewrite Forall_forall in F. apply F, Hw.
Qed.
Lemma words_scalar rows wss w : Forall2 words_of rows wss -> (forall r, In r rows -> scalars r) -> In w (concat wss) -> scalars w.
Proof.
  intros H Hs Hw. apply in_concat in Hw. destruct Hw as (ws & Hws & Hw).
  assert (G : exists r, In r rows /\ words_of r ws).
  { clear - H Hws. induction H as [|r ws0 rows wss H _ IH]; [destruct Hws|]. destruct Hws as [->|Hws]; [exists r; split; [left; reflexivity|exact H]|].
    destruct (IH Hws) as (r' & H1 & H2). exists r'. split; [right; exact H1|exact H2]. }
  destruct G as (r & Hr & Hrw). specialize (Hs r Hr). unfold scalars in *. rewrite Forall_forall in *. intros c Hc. apply Hs. eapply words_of_chars; eassumption.
Qed.
Lemma no_tag_filter toks : ~ In SENT_TAG toks -> filter (fun w => negb (str_eqb w SENT_TAG)) toks = toks.
Proof.
  intros H. apply filter_true. intros x Hx. apply negb_true_iff, str_eqb_neq. intros ->. contradiction.
Qed.
Lemma no_tag_occ toks : ~ In SENT_TAG toks -> occurrences SENT_TAG toks = 0.
Proof. intros H. unfold occurrences. apply (count_occ_not_In str_dec) in H. rewrite H. reflexivity. Qed.

(** What word_counts gives for rows without the tag. *)
Lemma word_counts_plain sp texts dedup : spark_counting sp -> texts <> [] ->
  exists rows, counted_rows dedup texts rows /\ forall wss, Forall2 words_of rows wss -> rows <> [] -> ~ In SENT_TAG (concat wss) ->
  exists words chars, word_counts sp texts dedup = Ok (words, chars, Z.of_nat (length rows)) /\
    counts (concat wss) words /\ counts (letters (concat wss)) chars.
Proof.
  intros Hs Ht. destruct (word_counts_spec sp texts dedup Hs Ht) as (rows & Hr & H). exists rows. split; [exact Hr|].
  intros wss Hw Hne Hno. specialize (H wss Hw). destruct (word_counts sp texts dedup) as [[[words chars] n]|e]; [|destruct H; contradiction].
  cbv zeta in H. rewrite (no_tag_filter _ Hno), (no_tag_occ _ Hno), Z.add_0_r in H. destruct H as (_ & H1 & H2 & ->). exists words, chars. auto.
Qed.

(** ** learning from statistics is learning from a text with the same words *)
Lemma sorted_counts toks m : counts toks m -> counts toks (sorted_desc snd m).
Proof. apply counts_of_perm. symmetry. apply sorted_desc_perm. Qed.
Lemma learn_vocab_stats A orders version now words n level model vs mf cov mco :
  level = lit "word" \/ level = lit "bpe" \/ level = lit "subword" ->
  NoDup (map fst words) -> (forall w f, In (w, f) words -> is_word w /\ 0 < f) -> (0 < n)%nat ->
  learn_vocab A orders version now (file_lines (write_stats words [(lit "line_count", JInt (Z.of_nat n))])) level model vs mf true cov mco =
  learn_vocab A orders version now (as_text (sorted_desc snd words) n) level model vs mf false cov mco.
Proof.
  intros Hl Hnd Hw Hn. assert (E1 := stats_read words (Z.of_nat n) Hnd (fun w f H => proj1 (Hw w f H))).
  assert (E2 : term_frequencies KWord (as_text (sorted_desc snd words) n) = (sorted_desc snd words, Z.of_nat n)).
  { apply as_text_counts; [| |exact Hn].
    - eapply Permutation_NoDup; [apply Permutation_map; symmetry; apply sorted_desc_perm|exact Hnd].
    - intros w f H. apply Hw. eapply Permutation_in; [apply sorted_desc_perm|exact H]. }
  unfold learn_vocab. destruct (dget str_eqb level REGISTRY) as [k|] eqn:Ek; [|reflexivity].
  assert (E : learn_level A orders (file_lines (write_stats words [(lit "line_count", JInt (Z.of_nat n))])) level k vs (effective_min_freq level mf) true cov mco =
    learn_level A orders (as_text (sorted_desc snd words) n) level k vs (effective_min_freq level mf) false cov mco); [|rewrite E; reflexivity].
  unfold learn_level. destruct Hl as [->|[->| ->]]; injection Ek as <-.
  - unfold learn_flat. rewrite E1, E2. reflexivity.
  - unfold learn_bpe. rewrite E1, E2. reflexivity.
  - unfold learn_bpe. rewrite E1, E2. reflexivity.
Qed.
Theorem learn_main_text A orders version now sp fs texts level vs mf cov mco dedup :
  level = lit "word" \/ level = lit "bpe" \/ level = lit "subword" ->
  spark_counting sp -> texts <> [] -> f_words fs = None ->
  exists rows, counted_rows dedup texts rows /\ forall wss, Forall2 words_of rows wss -> rows <> [] -> ~ In SENT_TAG (concat wss) ->
  exists data wss', length data = length rows /\ Forall2 words_of data wss' /\ Permutation (concat wss) (concat wss') /\
    let r := learn_vocab A orders version now data level true vs mf false cov mco in
    let m := learn_main A orders version now sp fs texts level vs mf cov mco dedup in
    f_model (fst m) = match fst r with Some b => Some b | None => f_model fs end /\
    snd m = match snd r with Ok _ => None | Raise e => Some e end.
Proof.
  intros Hl Hs Ht Hf. destruct (word_counts_plain sp texts dedup Hs Ht) as (rows & Hr & H). exists rows. split; [exact Hr|].
  intros wss Hw Hne Hno. destruct (H wss Hw Hne Hno) as (words & chars & E & Hc & _).
  assert (Hn : (0 < length rows)%nat) by (destruct rows; [congruence|simpl; lia]).
  assert (Hp : forall w f, In (w, f) words -> is_word w /\ 0 < f).
  { intros w f Hi. split; [|eapply counts_positive; eassumption]. eapply words_are_words; [exact Hw|]. apply Hc. apply (in_map fst) in Hi. exact Hi. }
  exists (as_text (sorted_desc snd words) (length rows)), (spread (sorted_desc snd words) :: repeat [] (length rows - 1)).
  split; [unfold as_text; cbn [length]; rewrite repeat_length; lia|]. split.
  { apply as_text_words. intros w f Hi. apply (Hp w f). eapply Permutation_in; [apply sorted_desc_perm|exact Hi]. }
  split.
  { cbn [concat]. rewrite concat_repeat_nil, app_nil_r. symmetry. apply counts_spread_perm, sorted_counts, Hc. }
  cbv zeta. unfold learn_main.
  assert (El : str_eqb level (lit "char") = false) by (destruct Hl as [->|[->| ->]]; reflexivity). rewrite El, Hf, E.
  rewrite (learn_vocab_stats A orders version now words (length rows) level true vs mf cov mco Hl (proj1 Hc) Hp Hn).
  destruct (learn_vocab A orders version now (as_text (sorted_desc snd words) (length rows)) level true vs mf false cov mco) as [b r]. split; reflexivity.
Qed.

(** ** saving and reloading *)
Lemma plain_word w : is_word w -> scalars w -> plain_text w.
Proof.
  intros [_ H] Hs c Hc. unfold scalars in Hs. rewrite Forall_forall in *. specialize (H c Hc). specialize (Hs c Hc). split; [exact Hs|].
  repeat split; intros ->; discriminate H.
Qed.
Lemma reserved_plain w : In w reserved_names -> plain_text w.
Proof.
  intros Hr c Hc. repeat (destruct Hr as [Hr|Hr]; [rewrite <- Hr in Hc; cbn in Hc; repeat (destruct Hc as [<-|Hc]; [vm_compute; repeat split; discriminate|]); destruct Hc|]). destruct Hr.
Qed.
Lemma init_names_from A level tf cov lc mf vs table t : NoDup (map fst tf) -> get_init_vocab A level tf cov lc mf vs = Ok table -> In t table ->
  In (t_name t) reserved_names \/ In (t_name t) (map fst tf).
Proof.
  intros Hnd H Hin. destruct (init_form A level tf cov lc mf vs Hnd) as (rst & _ & E). rewrite E in H. cbv zeta in H.
  destruct (cut_len A cov mf vs _) as [k|e]; [|discriminate]. apply Ok_inj in H. subst table. apply in_app_iff in Hin. destruct Hin as [Hin|Hin].
  - left. rewrite <- (head_names rst (freq_sum (skipn k (sorted_desc snd (nonres tf)))) lc). apply in_map, Hin.
  - right. apply (in_map t_name) in Hin. rewrite rows_names in Hin. apply in_map_iff in Hin. destruct Hin as (e & <- & He).
    apply in_map. apply In_firstn_ in He. eapply Permutation_in in He; [|apply sorted_desc_perm]. apply filter_In in He. tauto.
Qed.
Lemma flat_saved A version now k tf cov lc mf vs table : scalars version -> scalars now -> k = KWord \/ k = KChar ->
  NoDup (map fst tf) -> (forall w, In w (map fst tf) -> plain_text w) -> get_init_vocab A (level_of k) tf cov lc mf vs = Ok table ->
  exists s bytes, make_scheme k table = Ok s /\ s_table s = table /\ save version now s = (bytes, Ok tt) /\ load_scheme bytes = Ok s.
Proof.
  intros Hv Hn Hk Hnd Hpl H. destruct (init_layout _ _ _ _ _ _ _ _ Hnd H) as (L1 & L2 & L3 & L4).
  eexists. assert (Hm := proj2 (make_flat_inv k table _ Hk) (conj L1 (conj L3 eq_refl))).
  destruct (save_load version now k table _ Hv Hn Hm) as (bytes & E1 & E2).
  - cbn [s_table]. split; [intros ->; discriminate L1|]. split; [exact L2|]. split.
    + intros n t Ht. destruct (L4 n t Ht) as [Ek _]. rewrite Ek. split; [discriminate|]. unfold kids_of. rewrite Ek. intros x [].
    + intros t Ht. destruct (init_names_from _ _ _ _ _ _ _ _ _ Hnd H Ht) as [Hr|Hr]; [apply reserved_plain, Hr|apply Hpl, Hr].
  - exists bytes. split; [exact Hm|]. split; [reflexivity|]. split; [exact E1|exact E2].
Qed.
Lemma byte_storable : storable byte_vocab.
Proof.
  assert (G : forallb (fun n => match nth_error byte_vocab n with
                | Some t => (t_idx t =? Z.of_nat n) && match t_kids t with None => true | Some _ => false end &&
                            forallb (fun c => is_scalar c && negb (N.eqb c 9) && negb (N.eqb c 10) && negb (N.eqb c 13)) (t_name t)
                | None => false end) (seq 0 258) = true) by (vm_compute; reflexivity).
  assert (L : length byte_vocab = 258%nat) by reflexivity. rewrite forallb_forall in G.
  assert (K : forall n t, nth_error byte_vocab n = Some t -> t_idx t = Z.of_nat n /\ t_kids t = None /\ plain_text (t_name t)).
  { intros n t H. assert (Hn : (n < 258)%nat) by (rewrite <- L; apply nth_error_Some; congruence).
    specialize (G n (proj2 (in_seq 258 0 n) (conj (Nat.le_0_l n) Hn))). rewrite H in G.
    apply andb_true_iff in G. destruct G as [G G3]. apply andb_true_iff in G. destruct G as [G1 G2].
    split; [apply Z.eqb_eq, G1|]. split; [destruct (t_kids t); [discriminate|reflexivity]|].
    intros c Hc. rewrite forallb_forall in G3. specialize (G3 c Hc). do 3 (apply andb_true_iff in G3; destruct G3 as [G3 ?]).
    split; [exact G3|]. repeat split; intros ->; discriminate. }
  split; [discriminate|]. split; [intros n t H; apply (K n t H)|]. split.
  - intros n t H. destruct (K n t H) as (_ & E & _). rewrite E. split; [discriminate|]. unfold kids_of. rewrite E. intros x [].
  - intros t H. apply In_nth_error in H. destruct H as (n & H). apply (K n t H).
Qed.
Lemma data_words data : tokens_of KWord data (flat_map (fun l => flat_pieces KWord (strip l)) data).
Proof. apply tokens_of_exist. auto. Qed.
Lemma tokens_plain k data toks : k = KWord \/ k = KChar -> (forall l, In l data -> scalars l) -> tokens_of k data toks -> forall w, In w toks -> plain_text w.
Proof.
  intros Hk Hs Ht w Hw. destruct Hk as [-> | ->]; destruct Ht as (wss & H & ->).
  - apply plain_word; [eapply words_are_words; eassumption|eapply words_scalar; eassumption].
  - apply in_map_iff in Hw. destruct Hw as (c & <- & Hc). apply in_flat_map in Hc. destruct Hc as (ws & Hws & Hc).
    assert (G : c = MARK \/ exists u, In u ws /\ In c u).
    { clear - Hc. induction ws as [|u [|u' ws] IH]; [destruct Hc|right; exists u; split; [left; reflexivity|exact Hc]|].
      change (In c (u ++ MARK :: spaced MARK (u' :: ws))) in Hc. apply in_app_iff in Hc. destruct Hc as [Hc|[<-|Hc]].
      - right. exists u. split; [left; reflexivity|exact Hc].
      - left. reflexivity.
      - destruct (IH Hc) as [->|(v & Hv & Hc')]; [left; reflexivity|]. right. exists v. split; [right; exact Hv|exact Hc']. }
    destruct G as [->|(u & Hu & Hc')]; [intros c [<-|[]]; vm_compute; repeat split; discriminate|].
    assert (Hp : plain_text u).
    { apply plain_word; [eapply words_are_words|eapply words_scalar]; try eassumption; apply in_concat; exists ws; split; assumption. }
    intros c' [<-|[]]. apply Hp, Hc'.
Qed.
Lemma counted_tokens k data stats lc : term_frequencies k data = (stats, lc) -> k = KWord \/ k = KChar \/ k = KClass ->
  exists toks, tokens_of k data toks /\ forall w, In w (map fst stats) -> In w toks.
Proof.
  intros E Hk. pose proof (tokens_of_exist k data Hk) as Ht. eexists. split; [exact Ht|].
  destruct (term_frequencies_exact k data _ stats lc Ht E) as [[(_ & HI & _) _] _]. intros w. apply HI.
Qed.
Theorem learn_vocab_reload A orders version now inp level k vs mf cov mco table :
  scalars version -> scalars now -> iteration_orders orders -> dget str_eqb level REGISTRY = Some k ->
  (forall l, In l inp -> scalars l) ->
  (k = KClass -> inp <> [] /\ forall l lab, In l inp -> trimmed l lab -> plain_text lab) ->
  snd (learn_vocab A orders version now inp level false vs mf false cov mco) = Ok table ->
  exists bytes s, learn_vocab A orders version now inp level true vs mf false cov mco = (Some bytes, Ok table) /\
    load_scheme bytes = Ok s /\ s_kind s = k /\ s_table s = table.
Proof.
  intros Hv Hn Ho Hk Hs Hcl H. unfold learn_vocab in *. rewrite Hk in *.
  destruct (learn_level A orders inp level k vs (effective_min_freq level mf) false cov mco) as [t|e] eqn:E; [|discriminate]. cbn [snd] in H. injection H as ->.
  assert (G : exists s bytes, make_scheme k table = Ok s /\ s_table s = table /\ save version now s = (bytes, Ok tt) /\ load_scheme bytes = Ok s).
  { unfold learn_level in E. set (cov' := if str_eqb level (lit "word") then None else cov) in E. destruct k.
    - unfold learn_flat in E. destruct (term_frequencies KWord inp) as [stats lc] eqn:Et. cbn [bind] in E.
      pose proof (term_frequencies_NoDup KWord inp) as Hnd. rewrite Et in Hnd. cbn [fst] in Hnd.
      destruct (counted_tokens KWord inp stats lc Et) as (toks & Ht & Hx); [auto|].
      apply (flat_saved A version now KWord stats cov' (Some lc) (effective_min_freq level mf) vs table Hv Hn (or_introl eq_refl) Hnd); [|exact E].
      intros w Hw. apply (tokens_plain KWord inp toks (or_introl eq_refl) Hs Ht). apply Hx, Hw.
    - unfold learn_flat in E. destruct (term_frequencies KChar inp) as [stats lc] eqn:Et. cbn [bind] in E.
      pose proof (term_frequencies_NoDup KChar inp) as Hnd. rewrite Et in Hnd. cbn [fst] in Hnd.
      destruct (counted_tokens KChar inp stats lc Et) as (toks & Ht & Hx); [auto|].
      apply (flat_saved A version now KChar stats cov' (Some lc) (effective_min_freq level mf) vs table Hv Hn (or_intror eq_refl) Hnd); [|exact E].
      intros w Hw. apply (tokens_plain KChar inp toks (or_intror eq_refl) Hs Ht). apply Hx, Hw.
    - pose proof (data_words inp) as Ht. destruct (proj1 (learn_bpe_accepted A orders inp _ vs _ _ table Ht Ho E)) as (s & Es).
      assert (Hst : storable table).
      { eapply learn_bpe_storable; [exact Ht|exact Ho| |exact E]. apply (tokens_plain KWord inp _ (or_introl eq_refl) Hs Ht). }
      exists s. assert (Et : s_table s = table) by (apply (make_bpe_inv table s) in Es; destruct Es as (_ & _ & ->); reflexivity).
      rewrite <- Et in Hst. destruct (save_load version now KBpe table s Hv Hn Es Hst) as (bytes & E1 & E2). exists bytes. auto.
    - destruct (Hcl eq_refl) as [Hne Hpl]. pose proof (tokens_of_exist KClass inp (or_intror (or_intror eq_refl))) as Ht.
      destruct (class_reload A version now inp _ vs (effective_min_freq level mf) cov' Hv Hn Ht Hne) as (t & s & bytes & E1 & E2 & E3 & E4).
      { intros lab Hlab. cbn [tokens_of] in Ht.
        assert (G : exists l, In l inp /\ trimmed l lab).
        { revert Hlab. clear - Ht. induction Ht as [|l t inp toks H _ IH]; [intros []|]. intros [->|Hi]; [exists l; split; [left; reflexivity|exact H]|].
          destruct (IH Hi) as (l' & H1 & H2). exists l'. split; [right; exact H1|exact H2]. }
        destruct G as (l & H1 & H2). eapply Hpl; eassumption. }
      rewrite E1 in E. injection E as <-. exists s, bytes. split; [exact E2|]. split; [|auto].
      apply make_class_inv in E2. destruct E2 as [_ ->]. reflexivity.
    - unfold learn_flat in E. apply Ok_inj in E. subst table. destruct make_byte as [_ Hm]. exists byte_scheme.
      assert (Et : s_table byte_scheme = byte_vocab) by reflexivity.
      destruct (save_load version now KByte byte_vocab byte_scheme Hv Hn Hm) as (bytes & E1 & E2); [rewrite Et; apply byte_storable|].
      exists bytes. auto. }
  destruct G as (s & bytes & E1 & E2 & E3 & E4). exists bytes, s. rewrite E1, E3. split; [reflexivity|]. split; [exact E4|]. split; [|exact E2].
  apply (make_scheme_table k table s E1).
Qed.

(** ** the same vocabulary but for ties *)
Definition singles (s : str) : list str := map (fun c => [c]) s.
Lemma singles_app a b : singles (a ++ b) = singles a ++ singles b.
Proof. apply map_app. Qed.
Lemma marks_filter ws : filter (fun w => negb (str_eqb w [MARK])) (singles (spaced MARK ws)) =
  filter (fun w => negb (str_eqb w [MARK])) (singles (concat ws)).
Proof.
  induction ws as [|u [|u' ws] IH]; [reflexivity|cbn [spaced concat]; rewrite app_nil_r; reflexivity|].
  change (spaced MARK (u :: u' :: ws)) with (u ++ [MARK] ++ spaced MARK (u' :: ws)).
  change (concat (u :: u' :: ws)) with (u ++ concat (u' :: ws)). rewrite !singles_app, !filter_app, IH. reflexivity.
Qed.
Lemma marks_filter_all wss : filter (fun w => negb (str_eqb w [MARK])) (singles (flat_map (spaced MARK) wss)) =
  filter (fun w => negb (str_eqb w [MARK])) (singles (concat (concat wss))).
Proof.
  induction wss as [|ws wss IH]; [reflexivity|]. cbn [flat_map concat]. rewrite concat_app, !singles_app, !filter_app, IH, marks_filter. reflexivity.
Qed.
Lemma marks_count ws : occurrences [MARK] (singles (spaced MARK ws)) = occurrences [MARK] (singles (concat ws)) + Z.max 0 (Z.of_nat (length ws) - 1).
Proof.
  induction ws as [|u [|u' ws] IH]; [reflexivity|cbn [spaced concat]; rewrite app_nil_r; cbn [length]; lia|].
  change (spaced MARK (u :: u' :: ws)) with (u ++ [MARK] ++ spaced MARK (u' :: ws)).
  change (concat (u :: u' :: ws)) with (u ++ concat (u' :: ws)). rewrite !singles_app, !occur_app, IH.
  change (occurrences [MARK] (singles [MARK])) with 1. cbn [length]. lia.
Qed.
Lemma marks_count_all wss : occurrences [MARK] (singles (flat_map (spaced MARK) wss)) = occurrences [MARK] (singles (concat (concat wss))) + gaps wss.
Proof.
  unfold gaps. induction wss as [|ws wss IH]; [reflexivity|]. cbn [flat_map concat map]. rewrite concat_app, !singles_app, !occur_app, zsum_cons, IH, marks_count. lia.
Qed.
Lemma counts_filter p toks m : counts toks m -> counts (filter p toks) (filter (fun e => p (fst e)) m).
Proof.
  intros (N & I & C). split; [apply NoDup_map_filter, N|]. split.
  - intros w. rewrite filter_In, in_map_iff. split.
    + intros ([w' f] & <- & H). apply filter_In in H. destruct H as [H Hn]. split; [|exact Hn]. apply I. apply (in_map fst) in H. exact H.
    + intros [H Hn]. apply I in H. apply in_map_iff in H. destruct H as (e & <- & H). exists e. split; [reflexivity|]. apply filter_In. auto.
  - intros w f H. apply filter_In in H. destruct H as [H Hn]. cbn [fst] in Hn. rewrite occur_filter by exact Hn. apply C, H.
Qed.
Lemma nonres_marks l : filter (fun w => negb (reserved_name w)) l = filter (fun w => negb (reserved_name w)) (filter (fun w => negb (str_eqb w [MARK])) l).
Proof.
  rewrite filter_filter. induction l as [|w l IH]; [reflexivity|]. cbn [filter]. destruct (str_eqb w [MARK]) eqn:E.
  - apply str_eqb_eq in E. subst w. exact IH.
  - cbn [negb andb]. destruct (negb (reserved_name w)); [f_equal|]; exact IH.
Qed.
(** The two ways of counting: on the text itself, and through the statistics. *)
Lemma counted_twice k data wss words chars tf : k = KWord \/ k = KChar -> Forall2 words_of data wss ->
  counts (concat wss) words -> counts (letters (concat wss)) chars -> tf = fst (term_frequencies k data) ->
  let tf' := sorted_desc snd (match k with KChar => chars | _ => words end) in
  NoDup (map fst tf) /\ NoDup (map fst tf') /\ Permutation (nonres tf) (nonres tf') /\
  (forall i, (i < 6)%nat -> (k = KChar -> i <> 5%nat) -> agree_at i tf tf') /\
  (k = KChar -> freq_in tf [MARK] = freq_in tf' [MARK] + gaps wss) /\
  (forall w f, In (w, f) tf -> 0 <= f) /\ (forall w f, In (w, f) tf' -> 0 <= f).
Proof.
  intros Hk Hw Hcw Hcc ->. cbv zeta. set (tf := fst (term_frequencies k data)).
  set (toks := match k with KChar => map (fun c => [c]) (flat_map (spaced MARK) wss) | _ => concat wss end).
  assert (Ht : tokens_of k data toks) by (destruct Hk as [-> | ->]; exists wss; split; try exact Hw; reflexivity).
  assert (Hc : counts toks tf).
  { destruct (term_frequencies k data) as [st n] eqn:E. apply exact_counts_counts. exact (proj1 (term_frequencies_exact k data toks st n Ht E)). }
  set (m := match k with KChar => chars | _ => words end). set (toks' := match k with KChar => letters (concat wss) | _ => concat wss end).
  assert (Hc' : counts toks' (sorted_desc snd m)) by (apply sorted_counts; destruct Hk as [-> | ->]; assumption).
  split; [apply Hc|]. split; [apply Hc'|]. split.
  { unfold nonres. pose proof (counts_filter (fun w => negb (reserved_name w)) _ _ Hc) as F. pose proof (counts_filter (fun w => negb (reserved_name w)) _ _ Hc') as F'.
    assert (E : filter (fun w => negb (reserved_name w)) toks = filter (fun w => negb (reserved_name w)) toks').
    { destruct Hk as [-> | ->]; [reflexivity|]. unfold toks, toks'. rewrite nonres_marks, (nonres_marks (letters (concat wss))).
      f_equal. exact (marks_filter_all wss). }
    rewrite E in F. eapply counts_perm; eassumption. }
  split.
  { intros i Hi Hi5 w Hn. rewrite (counts_dget _ _ _ Hc), (counts_dget _ _ _ Hc'). destruct Hk as [-> | ->]; [reflexivity|].
    assert (Hm : w <> [MARK]).
    { intros ->. specialize (Hi5 eq_refl). do 5 (destruct i as [|i]; [revert Hn; vm_compute; discriminate|]). lia. }
    assert (Hp : negb (str_eqb w [MARK]) = true) by (apply negb_true_iff, str_eqb_neq, Hm).
    rewrite <- (occur_filter w (fun u => negb (str_eqb u [MARK])) toks Hp), <- (occur_filter w (fun u => negb (str_eqb u [MARK])) toks' Hp).
    unfold toks, toks'. f_equal. exact (marks_filter_all wss). }
  split; [|split; intros w f H; apply Z.lt_le_incl; [exact (counts_positive _ _ w f Hc H)|exact (counts_positive _ _ w f Hc' H)]].
  intros ->. rewrite !freq_in_dget by (apply Hc || apply Hc'). rewrite (counts_dget _ _ _ Hc), (counts_dget _ _ _ Hc'). exact (marks_count_all wss).
Qed.
Lemma letters_words rows wss w : Forall2 words_of rows wss -> In w (letters (concat wss)) -> is_word w.
Proof.
  intros H Hw. apply in_map_iff in Hw. destruct Hw as (c & <- & Hc). apply in_concat in Hc. destruct Hc as (u & Hu & Hc).
  apply (words_are_words _ _ _ H) in Hu. destruct Hu as [_ Hu]. rewrite Forall_forall in Hu. split; [discriminate|]. constructor; [apply Hu, Hc|constructor].
Qed.
Lemma letters_scalar rows wss w : Forall2 words_of rows wss -> (forall r, In r rows -> scalars r) -> In w (letters (concat wss)) -> scalars w.
Proof.
  intros H Hs Hw. apply in_map_iff in Hw. destruct Hw as (c & <- & Hc). apply in_concat in Hc. destruct Hc as (u & Hu & Hc).
  apply (words_scalar _ _ _ H Hs) in Hu. unfold scalars in *. rewrite Forall_forall in Hu. constructor; [apply Hu, Hc|constructor].
Qed.
Theorem learn_main_alike A orders version now sp fs texts wss level vs mf cov mco :
  scalars version -> scalars now -> spark_counting sp -> level = lit "word" \/ level = lit "char" ->
  (if str_eqb level (lit "char") then f_chars fs else f_words fs) = None ->
  concat texts <> [] -> Forall2 words_of (concat texts) wss -> ~ In SENT_TAG (concat wss) -> (forall l, In l (concat texts) -> scalars l) ->
  let m := learn_main A orders version now sp fs texts level vs mf cov mco false in
  match snd (learn_vocab A orders version now (concat texts) level false vs mf false cov mco) with
  | Raise e => snd m = Some e
  | Ok direct => exists bytes s, snd m = None /\ f_model (fst m) = Some bytes /\ load_scheme bytes = Ok s /\
      same_but_ties direct (s_table s) /\
      (forall i, (i < 6)%nat -> (level = lit "char" -> i <> 5%nat) -> nth_error direct i = nth_error (s_table s) i) /\
      (level = lit "char" -> exists a b, nth_error direct 5 = Some a /\ nth_error (s_table s) 5 = Some b /\ mass a = mass b + gaps wss) /\
      (NoDup (map snd (nonres (fst (term_frequencies (if str_eqb level (lit "char") then KChar else KWord) (concat texts))))) -> skipn 6 direct = skipn 6 (s_table s))
  end.
Proof.
  intros Hv Hn Hs Hl Hf Hne Hw Hno Hsc. cbv zeta.
  assert (Ht : texts <> []) by (intros ->; apply Hne; reflexivity).
  destruct (word_counts_plain sp texts false Hs Ht) as (rows & Hr & H). cbn in Hr. subst rows.
  destruct (H wss Hw Hne Hno) as (words & chars & E & Hcw & Hcc). set (n := Z.of_nat (length (concat texts))) in *.
  set (k := if str_eqb level (lit "char") then KChar else KWord).
  assert (Hk : k = KWord \/ k = KChar) by (destruct Hl as [-> | ->]; [left|right]; reflexivity).
  assert (Hreg : dget str_eqb level REGISTRY = Some k) by (destruct Hl as [-> | ->]; reflexivity).
  set (cov' := if str_eqb level (lit "word") then None else cov).
  destruct (counted_twice k (concat texts) wss words chars _ Hk Hw Hcw Hcc eq_refl) as (N1 & N2 & HP & Hag & Hmk & P1 & P2).
  set (tf := fst (term_frequencies k (concat texts))) in *. set (tf' := sorted_desc snd (match k with KChar => chars | _ => words end)) in *.
  assert (Ed : forall b, learn_level A orders (concat texts) level k vs b false cov mco = get_init_vocab A (level_of k) tf cov' (Some n) b vs).
  { intros b. unfold tf, n. destruct Hl as [-> | ->]; unfold learn_level; cbn -[get_init_vocab term_frequencies]; rewrite term_frequencies_eq; reflexivity. }
  assert (Es : forall b, learn_level A orders (file_lines (if str_eqb level (lit "char") then write_stats chars [(lit "line_count", JInt n)] else write_stats words [(lit "line_count", JInt n)])) level k vs b true cov mco =
    get_init_vocab A (level_of k) tf' cov' (Some n) b vs).
  { intros b. unfold tf'. destruct Hl as [-> | ->]; unfold learn_level, k, cov';
      [change (str_eqb (lit "word") (lit "char")) with false; change (str_eqb (lit "word") (lit "word")) with true
      |change (str_eqb (lit "char") (lit "char")) with true; change (str_eqb (lit "char") (lit "word")) with false]; cbv iota; unfold learn_flat.
    - rewrite (stats_read words n (proj1 Hcw)); [reflexivity|]. intros w f Hi. eapply words_are_words; [exact Hw|]. apply Hcw. apply (in_map fst) in Hi. exact Hi.
    - rewrite (stats_read chars n (proj1 Hcc)); [reflexivity|]. intros w f Hi. eapply letters_words; [exact Hw|]. apply Hcc. apply (in_map fst) in Hi. exact Hi. }
  unfold learn_main. rewrite Hf, E. unfold learn_vocab. rewrite Hreg, Ed, Es.
  pose proof (init_alike A (level_of k) tf tf' cov' (Some n) (effective_min_freq level mf) vs N1 N2 HP) as HA.
  destruct (get_init_vocab A (level_of k) tf cov' (Some n) (effective_min_freq level mf) vs) as [t|e] eqn:E1;
    destruct (get_init_vocab A (level_of k) tf' cov' (Some n) (effective_min_freq level mf) vs) as [t'|e'] eqn:E2; try contradiction; [|subst e'; reflexivity].
  cbn [snd]. destruct HA as (HA1 & HA2 & HA3).
  assert (Hpl : forall w, In w (map fst tf') -> plain_text w).
  { intros w Hi. assert (Hi' : In w (map fst (match k with KChar => chars | _ => words end))).
    { eapply Permutation_in; [|exact Hi]. apply Permutation_map, sorted_desc_perm. }
    unfold k in Hi'. destruct Hl as [-> | ->]; cbn in Hi'.
    - apply Hcw in Hi'. apply plain_word; [eapply words_are_words|eapply words_scalar]; eassumption.
    - apply Hcc in Hi'. apply plain_word; [eapply letters_words|eapply letters_scalar]; eassumption. }
  destruct (flat_saved A version now k tf' cov' (Some n) (effective_min_freq level mf) vs t' Hv Hn Hk N2 Hpl E2) as (s & bytes & S1 & S2 & S3 & S4).
  exists bytes, s. rewrite S1, S3. cbn [fst snd f_model]. rewrite S2. split; [reflexivity|]. split; [reflexivity|]. split; [exact S4|]. split; [exact HA1|].
  split; [intros i Hi Hi5; apply HA2; [exact Hi|]; apply Hag; [exact Hi|]; intros Ek; apply Hi5; clear - Ek Hl; destruct Hl as [-> | ->]; [discriminate Ek|reflexivity]|].
  split; [|exact HA3].
  intros ->. destruct (init_mass A _ tf cov' (Some n) _ vs t N1 P1 ltac:(unfold n; cbn; lia) E1) as (_ & M1 & _).
  destruct (init_mass A _ tf' cov' (Some n) _ vs t' N2 P2 ltac:(unfold n; cbn; lia) E2) as (_ & M2 & _).
  assert (G : forall l a0 a1 a2 a3 a4 a5, map mass (firstn 6 l) = [a0; a1; a2; a3; a4; a5] -> exists a, nth_error l 5 = Some a /\ mass a = a5).
  { clear. intros l a0 a1 a2 a3 a4 a5 H. do 6 (destruct l as [|? l]; [discriminate H|]). cbn in H. injection H as _ _ _ _ _ H. eexists. split; [reflexivity|exact H]. }
  destruct (G _ _ _ _ _ _ _ M1) as (a & Ha & Ma). destruct (G _ _ _ _ _ _ _ M2) as (b & Hb & Mb). exists a, b. split; [exact Ha|]. split; [exact Hb|].
  rewrite Ma, Mb. apply Hmk. reflexivity.
Qed.

(** ** the least frequency *)
Lemma cut_len_min A cov mf vs fs k : (forall f, In f fs -> 1 <= f) -> desc (fun z => z) fs -> cut_len A cov mf vs fs = Ok k ->
  forall f, In f (firstn k fs) -> mf <= f.
Proof.
  intros Hp Hd H f Hf. unfold cut_len in H.
  destruct (match cov with Some c => _ | None => _ end) as [k1|e]; [|discriminate H]. injection H as <-.
  set (k2 := if mf >? 1 then length (filter (fun f => f >=? mf) (firstn k1 fs)) else k1) in *.
  assert (Hf2 : In f (firstn k2 fs)).
  { match type of Hf with In _ (firstn (if ?b then _ else _) _) => destruct b end; [|exact Hf].
    rewrite <- (firstn_le_min fs (py_bound k2 (vs - 6)) k2 (py_bound_le _ _)) in Hf. apply In_firstn_ in Hf. exact Hf. }
  unfold k2 in Hf2. clear Hf. destruct (Z.gtb_spec mf 1) as [Hm|Hm]; [|specialize (Hp f (In_firstn_ _ _ _ Hf2)); lia].
  destruct (desc_filter_prefix (fun z => z) mf (firstn k1 fs) (desc_firstn _ _ Hd k1)) as [E _].
  rewrite map_id in E.
  assert (Hle : (length (filter (fun f => f >=? mf) (firstn k1 fs)) <= k1)%nat).
  { pose proof (firstn_le_length k1 fs). assert (forall (l : list Z) p, (length (filter p l) <= length l)%nat) as G.
    { clear. intros l p. induction l as [|x l IH]; cbn; [lia|]. destruct (p x); cbn; lia. }
    specialize (G (firstn k1 fs) (fun f => f >=? mf)). lia. }
  rewrite <- (firstn_le_min fs _ k1 Hle), <- E in Hf2. apply filter_In in Hf2. destruct Hf2 as [_ Hg]. apply Z.geb_le in Hg. exact Hg.
Qed.
Lemma learn_level_flat A orders data level k vs mf cov mco : level = lit "word" \/ level = lit "char" -> dget str_eqb level REGISTRY = Some k ->
  learn_level A orders data level k vs mf false cov mco =
  get_init_vocab A (level_of k) (fst (term_frequencies k data)) (if str_eqb level (lit "word") then None else cov) (Some (Z.of_nat (length data))) mf vs /\
  (k = KWord \/ k = KChar).
Proof.
  intros [-> | ->] Hk; injection Hk as <-; unfold learn_level; (split; [cbn -[get_init_vocab term_frequencies]; rewrite term_frequencies_eq; reflexivity|auto]).
Qed.
Theorem learn_vocab_min A orders version now data level model vs mf cov mco table :
  level = lit "word" \/ level = lit "char" ->
  snd (learn_vocab A orders version now data level model vs mf false cov mco) = Ok table ->
  forall t, In t (skipn 6 table) -> effective_min_freq level mf <= t_freq t.
Proof.
  intros Hl H t Ht. unfold learn_vocab in H. destruct (dget str_eqb level REGISTRY) as [k|] eqn:Ek; [|discriminate H].
  destruct (learn_level_flat A orders data level k vs (effective_min_freq level mf) cov mco Hl Ek) as [E Hk]. rewrite E in H. clear E.
  set (m := effective_min_freq level mf) in *. set (cov' := if str_eqb level (lit "word") then None else cov) in *.
  destruct (get_init_vocab A _ _ cov' _ m vs) as [tab|e] eqn:E; [|discriminate H].
  assert (tab = table) as ->.
  { destruct model; [|injection H as ->; reflexivity]. destruct (make_scheme k tab) as [s|e]; [|discriminate H].
    destruct (save version now s) as [b r]. cbn [snd] in H. destruct r; [|discriminate H]. injection H as ->. reflexivity. }
  pose proof (tokens_of_exist k data ltac:(tauto)) as Htok. destruct (term_frequencies k data) as [tf n] eqn:Etf.
  destruct (term_frequencies_exact k data _ tf n Htok Etf) as [Hc _]. cbn [fst] in E.
  pose proof (exact_counts_counts _ _ Hc) as Hc'.
  destruct (init_form A (level_of k) tf cov' (Some (Z.of_nat (length data))) m vs (proj1 Hc')) as (rst & _ & F).
  rewrite E in F. cbv zeta in F. destruct (cut_len A cov' m vs _) as [j|e] eqn:Ec; [|discriminate F].
  assert (G : forall a b : list Typ, @Ok (list Typ) a = Ok b -> a = b) by (intros a b X; injection X as X; exact X).
  apply G in F. subst table. clear G. rewrite skipn_head in Ht.
  apply (cut_len_min A cov' m vs _ j) with (f := t_freq t) in Ec; [exact Ec| | |].
  - intros f Hf. apply in_map_iff in Hf. destruct Hf as ([w f'] & <- & Hf). cbn [snd].
    assert (In (w, f') tf). { eapply Permutation_in in Hf; [|apply sorted_desc_perm]. unfold nonres in Hf. apply filter_In in Hf. apply Hf. }
    pose proof (counts_positive _ _ _ _ Hc' H0). lia.
  - apply desc_map, sorted_desc_desc.
  - rewrite firstn_map. rewrite <- (rows_freqs (level_of k) 6). apply in_map. exact Ht.
Qed.

(** The levels at which the least frequency is not used. *)
Theorem learn_vocab_ignores A orders version now data level model vs mf mf' cov mco tfs :
  level <> lit "word" -> level <> lit "char" ->
  learn_vocab A orders version now data level model vs mf tfs cov mco = learn_vocab A orders version now data level model vs mf' tfs cov mco.
Proof.
  intros Hw Hc. unfold learn_vocab. destruct (dget str_eqb level REGISTRY) as [k|] eqn:Ek; [|reflexivity].
  assert (E : k <> KWord /\ k <> KChar).
  { revert Ek. unfold REGISTRY. cbn [dget].
    repeat match goal with |- context [str_eqb level ?x] => let E := fresh in destruct (str_eqb level x) eqn:E;
      [apply str_eqb_eq in E; try contradiction; intros X; injection X as <-; split; discriminate|] end. discriminate. }
  destruct k; try (destruct E; congruence); reflexivity.
Qed.

(** ** class labels *)
Lemma one_word_trimmed l w : words_of l [w] -> trimmed l w.
Proof.
  intros H. assert (S : is_word w -> stripped w) by (intros Hw; apply (spaced_stripped SPACE [w]); constructor; [exact Hw|constructor]).
  inversion H as [|g w' Hg Hw E1 E2|g w' c rest ws Hg Hw Hc Hr E1 E2]; subst.
  - exists g, []. split; [exact Hg|]. split; [constructor|]. rewrite app_nil_r. split; [reflexivity|apply S; exact Hw].
  - exists g, (c :: rest). split; [exact Hg|]. split; [|split; [reflexivity|apply S; exact Hw]].
    constructor; [exact Hc|]. inversion Hr. subst. assumption.
Qed.
Lemma single_labels data labels : Forall2 (fun l w => words_of l [w]) data labels ->
  Forall2 words_of data (map (fun w => [w]) labels) /\ concat (map (fun w => [w]) labels) = labels /\ Forall2 trimmed data labels.
Proof.
  induction 1 as [|l w data labels Hl H [IH1 [IH2 IH3]]]; [split; [constructor|split; [reflexivity|constructor]]|].
  cbn [map concat app]. rewrite IH2. split; [constructor; assumption|]. split; [reflexivity|]. constructor; [apply one_word_trimmed; exact Hl|exact IH3].
Qed.
Theorem learn_main_class A orders version now sp fs texts labels vs mf cov mco :
  spark_counting sp -> f_words fs = None -> concat texts <> [] ->
  Forall2 (fun l w => words_of l [w]) (concat texts) labels -> ~ In SENT_TAG labels ->
  let r := learn_vocab A orders version now (concat texts) (lit "class") true vs mf false cov mco in
  let m := learn_main A orders version now sp fs texts (lit "class") vs mf cov mco false in
  f_model (fst m) = match fst r with Some b => Some b | None => f_model fs end /\
  snd m = match snd r with Ok _ => None | Raise e => Some e end.
Proof.
  intros Hs Hf Hne Hw Hno. cbv zeta. destruct (single_labels _ _ Hw) as (W1 & W2 & W3).
  assert (Ht : texts <> []) by (intros ->; apply Hne; reflexivity).
  destruct (word_counts_plain sp texts false Hs Ht) as (rows & Hr & H). cbn in Hr. subst rows.
  rewrite <- W2 in Hno. destruct (H _ W1 Hne Hno) as (words & chars & E & Hcw & _). rewrite W2 in Hcw, Hno.
  set (n := Z.of_nat (length (concat texts))) in *.
  unfold learn_main. change (str_eqb (lit "class") (lit "char")) with false. cbv iota. rewrite Hf, E.
  unfold learn_vocab. change (dget str_eqb (lit "class") REGISTRY) with (Some KClass). cbv iota.
  unfold learn_level. change (str_eqb (lit "class") (lit "word")) with false. cbv iota. unfold learn_flat.
  rewrite (stats_read words n (proj1 Hcw)).
  2:{ intros w f Hi. apply (in_map fst) in Hi. apply Hcw in Hi. rewrite <- W2 in Hi. eapply words_are_words; [exact W1|exact Hi]. }
  destruct (term_frequencies KClass (concat texts)) as [s n'] eqn:Et.
  assert (Htok : tokens_of KClass (concat texts) labels) by exact W3.
  destruct (term_frequencies_exact KClass _ labels s n' Htok Et) as [Hc _]. cbn [bind].
  assert (Es : class_init_vocab (sorted_desc snd words) = class_init_vocab s).
  { rewrite !class_vocab_rows. f_equal. pose proof (sorted_counts _ _ Hcw) as Hc1. pose proof (exact_counts_counts _ _ Hc) as Hc2.
    apply sorted_unique; [apply sorted_asc_sorted, Hc1|apply sorted_asc_sorted, Hc2|]. rewrite !sorted_asc_perm. eapply counts_perm; eassumption. }
  rewrite Es. destruct (make_scheme KClass (class_init_vocab s)) as [sc|e]; [|split; reflexivity].
  destruct (save version now sc) as [b r]. split; reflexivity.
Qed.

(** Nothing to count: the run stops before any file is opened. *)
Theorem learn_main_no_lines A orders version now sp fs texts level vs mf cov mco dedup : spark_counting sp ->
  (if str_eqb level (lit "char") then f_chars fs else f_words fs) = None -> concat texts = [] ->
  learn_main A orders version now sp fs texts level vs mf cov mco dedup = (fs, Some match texts with [] => IndexError | _ => KeyError end).
Proof.
  intros Hs Hf Hc. unfold learn_main. rewrite Hf. destruct texts as [|t texts]; [reflexivity|].
  destruct (word_counts_spec sp (t :: texts) dedup Hs ltac:(discriminate)) as (rows & Hr & H).
  assert (E : rows = []).
  { unfold counted_rows in Hr. destruct dedup; [|congruence]. destruct rows as [|r rows]; [reflexivity|]. exfalso.
    destruct (proj1 (proj2 Hr r) (or_introl eq_refl)) as (x & H1 & H2). assert (Hin : In r (concat (t :: texts))) by (apply in_concat; exists x; auto).
    rewrite Hc in Hin. exact Hin. }
  subst rows. specialize (H [] (Forall2_nil _)). destruct (word_counts sp (t :: texts) dedup) as [[[words chars] n]|e]; cbv zeta in H; [tauto|].
  destruct H as [_ ->]. reflexivity.
Qed.
