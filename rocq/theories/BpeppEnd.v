(** experimental/bpepp.py: the shape of learned tables, vocabulary files, the codec, level 1, the commands. *)
From Coq Require Import Strings.String.
From Verif Require Import Py PyLemmas PyStr StrSpec PyStrProofs NumProofs Utf8Model Utf8Proofs JsonModel JsonProofs CodecModel CodecSpec FlatProofs TrieProofs BpeProofs
     VocabFileModel VocabSpec VocabFileProofs LearnModel LearnSpec LearnProofs HeapModel BpeSpec LearnBpeModel LearnBpeProofs LearnBpeLoop
     LearnBpeIndex LearnBpeResults LearnBpeEnd BpeppModel BpeppSpec BpeppLearn BpeppProofs.
Local Open Scope Z_scope.
Local Open Scope list_scope.

(** ** The shape of learned tables *)
Lemma pp_node_vocab a b r st n st' : pp_merge_node a b r st n = Ok st' -> pp_vocab st' = pp_vocab st.
Proof.
  unfold pp_merge_node. destruct (node_at (pp_nodes st) n) as [nd|]; [|discriminate]. cbn [bind].
  assert (Hd : forall X : res unit, (let* _ := X in Raise AssertionError)%res <> Ok st') by (intros [u|e]; discriminate).
  destruct (negb (n_val nd =? a)); [intros H; destruct (Hd _ H)|]. destruct (n_right nd) as [bn|]; [|discriminate].
  destruct (node_at (pp_nodes st) bn) as [bd|]; [|discriminate]. cbn [bind]. destruct (negb (n_val bd =? b)); [intros H; destruct (Hd _ H)|].
  destruct (assert_ _); [|discriminate]. cbn [bind]. destruct (pp_delete _ _) as [nodes|]; [|discriminate]. cbn [bind].
  destruct (match n_left nd with Some _ => _ | None => _ end) as [bx|]; [|discriminate]. cbn [bind].
  destruct (match n_right bd with Some _ => _ | None => _ end) as [[bi ixs]|]; [|discriminate]. cbn [bind]. intros H. injection H as <-. reflexivity.
Qed.
Lemma pp_nodes_vocab a b r l : forall st st', foldM (pp_merge_node a b r) l st = Ok st' -> pp_vocab st' = pp_vocab st.
Proof.
  induction l as [|n l IH]; intros st st'; cbn [foldM]; [congruence|]. destruct (pp_merge_node a b r st n) as [st1|] eqn:E; [|discriminate].
  intros H. rewrite (IH _ _ H). eapply pp_node_vocab, E.
Qed.
Lemma pp_merge_vocab order level a b pf st st' : pp_merge_pair order level a b pf st = Ok st' ->
  exists ta tb, In ta (pp_vocab st) /\ In tb (pp_vocab st) /\
    pp_vocab st' = pp_vocab st ++ [MkType (t_name ta ++ t_name tb) level (Z.of_nat (length (pp_vocab st))) pf (Some [ta; tb])].
Proof.
  unfold pp_merge_pair. destruct (py_nth (pp_vocab st) a) as [ta|] eqn:Ea; [|discriminate]. cbn [bind].
  destruct (py_nth (pp_vocab st) b) as [tb|] eqn:Eb; [|discriminate]. cbn [bind].
  destruct (assert_ _); [|discriminate]. cbn [bind]. destruct (assert_ _); [|discriminate]. cbn [bind].
  destruct (dget pair_eqb (a, b) (pp_ixs st)); [|discriminate]. intros H. apply pp_nodes_vocab in H. cbn [pp_vocab] in H.
  exists ta, tb. split; [eapply py_nth_In, Ea|]. split; [eapply py_nth_In, Eb|exact H].
Qed.
Lemma pp_loop_grown n orders min_co level : forall i st st', pp_learn_loop n orders i min_co level st = Ok st' ->
  grown_by level (pp_vocab st) (pp_vocab st') /\ (length (pp_vocab st') <= length (pp_vocab st) + n)%nat.
Proof.
  induction n as [|n IH]; intros i st st'; cbn [pp_learn_loop]; [intros H; injection H as <-; split; [constructor|lia]|].
  destruct (py_max_key (pp_bi st)) as [[[a b] f]|]; [|discriminate]. cbn [bind fst snd].
  destruct (f <? min_co); [intros H; injection H as <-; split; [constructor|lia]|].
  destruct (pp_merge_pair _ _ _ _ _ _) as [st1|] eqn:E; [|discriminate]. cbn [bind]. intros H.
  apply pp_merge_vocab in E. destruct E as (ta & tb & Ha & Hb & Ev). destruct (IH _ _ _ H) as [H1 H2]. rewrite Ev in H1, H2. split.
  - exact (gr_more level _ ta tb f _ Ha Hb H1).
  - rewrite app_length in H2. cbn [length] in H2. lia.
Qed.
Theorem pp_learn_grown tr orders seqs vocab n min_co level table : pp_learn_codes tr orders seqs vocab n min_co level = Ok table ->
  well_indexed vocab /\ distinct_names vocab /\ grown_by level vocab table /\ Z.of_nat (length table) <= Z.of_nat (length vocab) + Z.max 0 n.
Proof.
  unfold pp_learn_codes. destruct (pp_init tr seqs vocab) as [ix|] eqn:Ei; [|discriminate]. cbn [bind].
  destruct (pp_learn_loop _ _ _ _ _ _) as [st|] eqn:E; [|discriminate]. cbn [bind]. intros H. injection H as <-.
  apply pp_loop_grown in E. cbn [pp_vocab] in E. destruct E as [E1 E2].
  unfold pp_init in Ei. rewrite table_checks in Ei. pose proof (table_checks_iff vocab) as Ht. destruct (_ && _); [|discriminate].
  destruct (proj1 Ht eq_refl) as [Hw Hd]. split; [exact Hw|]. split; [exact Hd|]. split; [exact E1|]. lia.
Qed.

Lemma grown_by_ind level (P : list Typ -> Prop) :
  (forall t ta tb f, In ta t -> In tb t -> P t -> P (t ++ [MkType (t_name ta ++ t_name tb) level (Z.of_nat (length t)) f (Some [ta; tb])])) ->
  forall t t', grown_by level t t' -> P t -> P t'.
Proof. intros H t t' G. induction G as [t|t ta tb f t' Ha Hb _ IH]; intros Ht; [exact Ht|]. apply IH. apply H; assumption. Qed.
Lemma grown_by_prefix level t t' : grown_by level t t' -> exists new, t' = t ++ new /\
  Forall (fun e => t_level e = level /\ exists a b, t_kids e = Some [a; b] /\ t_name e = t_name a ++ t_name b) new.
Proof.
  induction 1 as [t|t ta tb f t' Ha Hb _ IH]; [exists []; rewrite app_nil_r; auto|]. destruct IH as (new & -> & Hn).
  eexists (_ :: new). split; [rewrite <- app_assoc; reflexivity|]. constructor; [|exact Hn]. cbn [t_level t_kids t_name]. split; [reflexivity|]. eauto.
Qed.
Lemma nth_error_snoc {A} (l : list A) x n y : nth_error (l ++ [x]) n = Some y -> nth_error l n = Some y \/ (n = length l /\ y = x).
Proof.
  intros H. destruct (Nat.lt_ge_cases n (length l)) as [Hl|Hl]; [left; rewrite nth_error_app1 in H by exact Hl; exact H|].
  right. rewrite nth_error_app2 in H by exact Hl. destruct (n - length l)%nat as [|k] eqn:E; [|destruct k; discriminate]. injection H as <-. split; [lia|reflexivity].
Qed.
Lemma grown_by_indexed level t t' : grown_by level t t' -> well_indexed t -> well_indexed t'.
Proof.
  apply grown_by_ind. clear. intros t ta tb f _ _ H n u Hn. apply nth_error_snoc in Hn. destruct Hn as [Hn|[-> ->]]; [apply H, Hn|reflexivity].
Qed.
Lemma grown_by_kids level t t' : grown_by level t t' -> kids_earlier t -> kids_earlier t'.
Proof.
  apply grown_by_ind. clear. intros t ta tb f Ha Hb H n u Hn. apply nth_error_snoc in Hn. destruct Hn as [Hn|[-> ->]].
  - destruct (H n u Hn) as [H1 H2]. split; [exact H1|]. intros k Hk. destruct (H2 k Hk) as (m & Hm & Em). exists m. split; [exact Hm|].
    rewrite nth_error_app1; [exact Em|]. apply nth_error_Some. congruence.
  - cbn [t_kids]. split; [discriminate|]. unfold kids_of. cbn [t_kids].
    assert (G : forall x, In x t -> exists m, (m < length t)%nat /\ nth_error (t ++ [MkType (t_name ta ++ t_name tb) level (Z.of_nat (length t)) f (Some [ta; tb])]) m = Some x).
    { intros x Hx. apply In_nth_error in Hx. destruct Hx as (m & Hm). assert (m < length t)%nat by (apply nth_error_Some; congruence).
      exists m. split; [assumption|]. rewrite nth_error_app1 by assumption. exact Hm. }
    intros k [<-|[<-|[]]]; apply G; assumption.
Qed.
Lemma grown_by_names level (P : str -> Prop) t t' : (forall a b, P a -> P b -> P (a ++ b)) -> grown_by level t t' ->
  (forall u, In u t -> P (t_name u)) -> forall u, In u t' -> P (t_name u).
Proof.
  intros HP G. apply (grown_by_ind level (fun t => forall u, In u t -> P (t_name u))) with (t := t) (t' := t'); [|exact G].
  clear - HP. intros t ta tb f Ha Hb H u Hu. apply in_app_iff in Hu. destruct Hu as [Hu|[<-|[]]]; [apply H, Hu|]. cbn [t_name]. apply HP; apply H; assumption.
Qed.
Lemma grown_by_spelled level t t' : grown_by level t t' -> (forall u, In u t -> spelled u) -> forall u, In u t' -> spelled u.
Proof.
  apply (grown_by_ind level (fun t => forall u, In u t -> spelled u)). clear. intros t ta tb f Ha Hb H u Hu. apply in_app_iff in Hu. destruct Hu as [Hu|[<-|[]]]; [apply H, Hu|].
  apply (Sp_pair _ ta tb); [reflexivity|reflexivity|apply H, Ha|apply H, Hb].
Qed.
Lemma plain_app a b : plain_text a -> plain_text b -> plain_text (a ++ b).
Proof. intros Ha Hb c Hc. apply in_app_iff in Hc. destruct Hc; auto. Qed.
Lemma grown_by_storable level t t' : grown_by level t t' -> storable t -> storable t'.
Proof.
  intros G (H1 & H2 & H3 & H4). split; [|split; [|split]].
  - destruct (grown_by_prefix _ _ _ G) as (new & -> & _). destruct t; [congruence|discriminate].
  - eapply grown_by_indexed; eassumption.
  - eapply grown_by_kids; eassumption.
  - eapply (grown_by_names level plain_text); [apply plain_app|exact G|exact H4].
Qed.

(** ** Vocabulary files *)
Lemma strip_braces x y body : is_space x = false -> is_space y = false -> strip (with_nl (x :: body ++ [y])) = x :: body ++ [y].
Proof.
  intros Hx Hy. unfold with_nl. replace ((x :: body ++ [y]) ++ [LF]) with ([] ++ ([x] ++ body ++ [y]) ++ [LF]) by reflexivity.
  rewrite strip_unique; [reflexivity|constructor|repeat constructor|].
  apply stripped_mid; (split; [discriminate|]); constructor; auto.
Qed.
Lemma printable_b l : forallb (fun c => (32 <=? c)%N && (c <=? 126)%N) l = true -> Forall printable l.
Proof.
  intros H. apply Forall_forall. intros c Hc. rewrite forallb_forall in H. specialize (H c Hc). apply andb_true_iff in H.
  destruct H as [H1 H2]. apply N.leb_le in H1, H2. split; assumption.
Qed.
Lemma pp_header_shape now vocab : scalars now -> exists body, [35%N] ++ pp_header now vocab = 35%N :: body ++ [125%N] /\ Forall printable body.
Proof.
  intros Hn. unfold pp_header. eexists. split.
  - cbn [app]. rewrite !app_assoc. reflexivity.
  - rewrite !Forall_app. repeat split.
    + apply printable_b. reflexivity.
    + apply str_of_Z_printable.
    + apply printable_b. reflexivity.
    + apply dumps_printable, json_ok_obj. split.
      * rewrite map_map. cbn [fst]. rewrite <- map_map. apply NoDup_map_injective; [apply str_of_Z_inj|].
        apply (counter_NoDup Z.eqb Z.eqb_eq). constructor.
      * apply Forall_forall. intros [k v] Hin. apply in_map_iff in Hin. destruct Hin as ([l c] & E & _).
        injection E as <- <-. split; [|exact I]. simpl. eapply Forall_impl; [|apply str_of_Z_printable].
        intros ? ?; apply printable_scalar; assumption.
    + apply printable_b. reflexivity.
    + apply dumps_printable. exact Hn.
Qed.
Lemma pp_read_lines_of body rows : Forall printable body -> well_indexed rows -> kids_earlier rows -> (forall t, In t rows -> plain_text (t_name t)) ->
  pp_read_vocab (utf8_encode_ignore (flat_map with_nl ((35%N :: body ++ [125%N]) :: map type_format rows))) = Ok rows.
Proof.
  intros Hb Hw Hk Ht. unfold pp_read_vocab, vocab_lines. set (H0 := 35%N :: body ++ [125%N]).
  assert (Hp : Forall printable H0).
  { unfold H0. constructor; [unfold printable; lia|]. apply Forall_app. split; [exact Hb|]. constructor; [unfold printable; lia|constructor]. }
  assert (Hlines : Forall (fun l => scalars l /\ ~ In LF l /\ ~ In CR l) (H0 :: map type_format rows)).
  { constructor.
    - split; [eapply Forall_impl; [apply printable_scalar|exact Hp]|].
      split; apply no_in_printable; auto; reflexivity.
    - apply Forall_forall. intros l Hl. apply in_map_iff in Hl. destruct Hl as (t & <- & Hin).
      apply format_safe, Ht, Hin. }
  rewrite utf8_ignore_roundtrip.
  2:{ unfold scalars. apply Forall_flat_map. eapply Forall_impl; [|exact Hlines].
      intros l [Hl _]. unfold with_nl. apply Forall_app. split; [exact Hl|repeat constructor]. }
  rewrite file_lines_of.
  2:{ eapply Forall_impl; [|exact Hlines]. intros l [_ Hl]; exact Hl. }
  cbn [map]. unfold H0. rewrite strip_braces by reflexivity. change (startswith (lit "#") (35%N :: body ++ [125%N])) with true. cbv iota zeta.
  rewrite !map_map. rewrite (map_ext _ (fun t => join [TAB] (nonempty_fields t))) by (intros t; apply strip_row).
  rewrite map_length. change (repeat None (length rows)) with (slots [] (length rows)). change 0%nat with (length (@nil Typ)) at 1.
  rewrite (read_rows_ok rows []); [|exact Hw|exact Hk|exact Ht]. cbn [bind app]. rewrite filled_slots. reflexivity.
Qed.
Lemma pp_write_ok now vocab : well_indexed vocab ->
  pp_write_vocab now vocab = (utf8_encode_ignore (([35%N] ++ pp_header now vocab) ++ [LF] ++ flat_map with_nl (map type_format vocab)), Ok tt).
Proof.
  intros Hw. unfold pp_write_vocab. rewrite write_rows_ok by (intros n t E; rewrite (Hw n t E); lia). rewrite <- !app_assoc. reflexivity.
Qed.
Theorem pp_write_read now vocab : scalars now -> well_indexed vocab -> kids_earlier vocab -> (forall t, In t vocab -> plain_text (t_name t)) ->
  exists bytes, pp_write_vocab now vocab = (bytes, Ok tt) /\ pp_read_vocab bytes = Ok vocab.
Proof.
  intros Hn Hw Hk Ht. rewrite (pp_write_ok now vocab Hw). eexists. split; [reflexivity|].
  destruct (pp_header_shape now vocab Hn) as (body & E & Hb). rewrite E.
  replace ((35%N :: body ++ [125%N]) ++ [LF] ++ flat_map with_nl (map type_format vocab)) with (flat_map with_nl ((35%N :: body ++ [125%N]) :: map type_format vocab)).
  - apply pp_read_lines_of; assumption.
  - cbn [flat_map]. unfold with_nl at 1. rewrite <- app_assoc. reflexivity.
Qed.
Theorem pp_reads_nlcodec version now table meta : scalars version -> scalars now -> meta_ok meta -> storable table ->
  exists bytes, write_out version now table meta = (bytes, Ok tt) /\ pp_read_vocab bytes = Ok table.
Proof.
  intros Hv Hn Hm (Hne & Hw & Hk & Ht). destruct (levels_of_nonempty table Hne) as (z & Ez). unfold write_out. rewrite Ez.
  rewrite write_rows_ok by (intros n t E; rewrite (Hw n t E); lia). eexists. split; [reflexivity|].
  pose proof (header_ok version now table z meta Hv Hn Hm) as Hok. pose proof (dumps_printable _ Hok) as Hp.
  rewrite dumps_obj in *. set (body := join COMMA_SP _) in *. apply Forall_app in Hp. destruct Hp as [Hp1 Hp]. apply Forall_app in Hp. destruct Hp as [Hp2 _].
  replace (([35%N] ++ ([123%N] ++ body ++ [125%N]) ++ [LF]) ++ flat_map with_nl (map type_format table))
    with (flat_map with_nl ((35%N :: ([123%N] ++ body) ++ [125%N]) :: map type_format table)).
  - apply pp_read_lines_of; [|assumption..]. apply Forall_app. auto.
  - cbn [flat_map]. unfold with_nl at 1. cbn [app]. rewrite <- !app_assoc. reflexivity.
Qed.
Lemma pp_write_refuses now vocab n t : nth_error vocab n = Some t -> t_idx t <> Z.of_nat n -> exists bytes, pp_write_vocab now vocab = (bytes, Raise AssertionError).
Proof.
  intros Hn Hi. unfold pp_write_vocab. destruct (write_rows_bad vocab 0 n t Hn ltac:(lia)) as (txt & ->). eexists. reflexivity.
Qed.

(** ** The codec *)
Lemma pp_codec_inv vocab root : pp_codec vocab = Ok root <-> vocab <> [] /\ ~ has_name vocab [] /\ root = build tr_empty vocab.
Proof.
  unfold pp_codec. destruct vocab as [|t vocab]; cbn [assert_ bind].
  - split; [discriminate|]. intros [H _]. congruence.
  - rewrite make_trie_inv. split; [intros [H1 H2]; split; [discriminate|auto]|]. intros (_ & H1 & H2). auto.
Qed.
Lemma pp_codec_refuses vocab : vocab = [] \/ has_name vocab [] -> pp_codec vocab = Raise AssertionError.
Proof.
  intros H. destruct (pp_codec vocab) as [root|e] eqn:E.
  - apply pp_codec_inv in E. destruct E as (E1 & E2 & _). tauto.
  - unfold pp_codec in E. destruct (assert_ _) as [u|e'] eqn:Ea.
    + cbn [bind] in E. unfold make_vocab_prefix_trie in E. destruct (tr_data _); cbn [assert_ bind] in E; congruence.
    + destruct vocab; cbn [assert_] in Ea; [|discriminate]. cbn [bind] in E. congruence.
Qed.
Lemma last_named_id table p t : well_indexed table -> last_named table p t -> last_id table p (t_idx t).
Proof.
  intros Hw (a & b & E & En & Hb). assert (Hn : nth_error table (length a) = Some t) by (rewrite E, nth_error_app2, Nat.sub_diag by lia; reflexivity).
  rewrite (Hw _ _ Hn). split; [split; [lia|]; exists t; rewrite Nat2Z.id; auto|]. intros j (Hj & u & Hu & Eu).
  destruct (Z.leb_spec j (Z.of_nat (length a))) as [H|H]; [exact H|]. exfalso. apply Hb. exists u. split; [|exact Eu].
  rewrite E in Hu. rewrite nth_error_app2 in Hu by lia. destruct (Z.to_nat j - length a)%nat as [|k] eqn:Ek; [lia|]. cbn [nth_error] in Hu. eapply nth_error_In, Hu.
Qed.
Lemma pp_encode_spec table root line text : pp_codec table = Ok root -> well_indexed table -> marked line text ->
  exists segs ids, greedy table text segs /\ pp_encode root line = Ok ids /\ Forall2 (seg_number table) segs ids.
Proof.
  intros Hc Hw Hm. apply marked_text in Hm. subst text. apply pp_codec_inv in Hc. destruct Hc as (_ & Hne & ->).
  unfold pp_encode, pp_segment. set (sq := bpe_text line). set (n := length sq).
  destruct (loop_greedy table 1 Hne n sq []) as (k & segs & ids & Hk & Hg & Hids & Hl); [unfold n; lia|].
  exists segs, ids. split; [exact Hg|]. split.
  - cbv zeta. change (length sq) with n. replace (S n * S (S n))%nat with (k + (S n * S (S n) - k))%nat by nia. unfold UNK_IDX. rewrite Hl. reflexivity.
  - clear - Hids Hw. induction Hids as [|[p|c] i segs ids H _ IH]; constructor; try exact IH; cbn [seg_id seg_number] in *; [|exact H].
    destruct H as (t & Ht & ->). apply last_named_id; assumption.
Qed.
Lemma pp_decode_names table ids ws : Forall2 (fun i w => name_at table i w) ids ws -> pp_decode table ids = Ok ws.
Proof. apply names_of_ids. Qed.
Lemma pp_pieces_spec table root line text : pp_codec table = Ok root -> well_indexed table -> starts_reserved table -> marked line text ->
  exists segs ids, greedy table text segs /\ pp_encode root line = Ok ids /\ Forall2 (seg_number table) segs ids /\
    pp_decode table ids = Ok (map seg_piece segs) /\ pp_encode_pieces table root line = Ok (map seg_piece segs).
Proof.
  intros Hc Hw Hs Hm. destruct (pp_encode_spec table root line text Hc Hw Hm) as (segs & ids & Hg & E & Hi).
  exists segs, ids. split; [exact Hg|]. split; [exact E|]. split; [exact Hi|].
  assert (Ed : pp_decode table ids = Ok (map seg_piece segs)).
  { apply pp_decode_names. clear - Hi Hs. induction Hi as [|sg i segs ids H _ IH]; cbn [map]; constructor; [|exact IH].
    destruct sg as [p|c]; cbn [seg_number seg_piece] in *; [apply H|]. subst i. apply starts_reserved_unk, Hs. }
  split; [exact Ed|]. unfold pp_encode_pieces. unfold pp_encode in E. rewrite E. exact Ed.
Qed.
Lemma pp_lossless table root line text norm : pp_codec table = Ok root -> well_indexed table -> marked line text -> normal line norm ->
  (forall c, In c text -> has_name table [c]) ->
  exists ids out, pp_encode root line = Ok ids /\ pp_decode_as_str table ids = Ok out /\ trimmed (unmark norm) out /\ (~ In MARK line -> out = norm).
Proof.
  intros Hc Hw Hm Hn Hcov. destruct (pp_encode_spec table root line text Hc Hw Hm) as (segs & ids & Hg & E & Hi).
  apply marked_text in Hm. subst text. exists ids, (strip (unmark (spaced SPACE (split line)))). split; [exact E|].
  pose proof (greedy_covered table _ segs Hcov Hg) as Epc. pose proof (greedy_text table _ segs Hg) as Etx. apply normal_spaced in Hn. subst norm.
  assert (Ed : pp_decode table ids = Ok (map seg_text segs)).
  { apply pp_decode_names. clear - Hi Hg Hcov.
    assert (Hno : forall c, ~ In (Unknown c) segs).
    { clear Hi. induction Hg as [|p rest segs _ _ _ _ IH|c rest segs Hn _ IH]; intros c' Hin; [destruct Hin| |].
      - destruct Hin as [Hin|Hin]; [discriminate|]. apply (IH (fun c Hc => Hcov c (proj2 (in_app_iff _ _ _) (or_intror Hc))) c' Hin).
      - assert (E : [c] = []) by (apply (Hn [c] rest); [apply Hcov; left; reflexivity|reflexivity]). discriminate. }
    clear Hg. induction Hi as [|sg i segs ids H _ IH]; cbn [map]; constructor.
    - destruct sg as [p|c]; [apply H|]. exfalso. apply (Hno c). left. reflexivity.
    - apply IH. intros c Hin. apply (Hno c). right. exact Hin. }
  split; [|split].
  - unfold pp_decode_as_str. rewrite Ed. cbn [bind]. rewrite Etx. unfold bpe_text. rewrite split_strip, join_spaced, replace_char_unmark, unmark_app, unmark_spaced.
    change (unmark [MARK]) with [SPACE]. f_equal. symmetry. set (u := unmark (spaced SPACE (split line))).
    destruct (strip_decomp u) as (g1 & g2 & H1 & H2 & Eu). rewrite Eu at 2. rewrite <- !app_assoc. rewrite strip_unique; auto.
    + apply Forall_app. split; [exact H2|]. repeat constructor.
    + apply strip_stripped.
  - apply trimmed_strip. reflexivity.
  - intros HM. rewrite unmark_id.
    + apply stripped_strip, spaced_stripped, split_is_word.
    + intros Hin. apply In_spaced in Hin as [(w & Hin & Hc')|Hc']; [|discriminate Hc'].
      apply HM. eapply words_of_chars; [apply words_of_split|exact Hin|exact Hc'].
Qed.
(** the codec of nlcodec on the same table *)
Lemma pp_agrees table s line : make_scheme KBpe table = Ok s -> well_indexed table ->
  exists root, pp_codec table = Ok root /\ pp_encode_pieces table root line = encode_str s line /\
    (distinct_names table -> pp_encode root line = encode s line) /\ forall ids, pp_decode_as_str table ids = decode s ids.
Proof.
  intros Hs Hw. pose proof (proj1 (make_bpe_inv table s) Hs) as (Hr & Hne & Es).
  assert (Hc : pp_codec table = Ok (build tr_empty table)).
  { apply pp_codec_inv. split; [intros ->; discriminate|]. auto. }
  exists (build tr_empty table). split; [exact Hc|].
  destruct (pp_pieces_spec table _ line _ Hc Hw Hr (bpe_text_marked line)) as (segs & ids & Hg & E1 & Hi & E2 & E3).
  destruct (bpe_encode_str_spec table s line Hs Hw) as (segs' & ids' & Hg' & _ & _ & E4).
  assert (segs' = segs) by (eapply greedy_unique; eassumption). subst segs'.
  split; [rewrite E3, E4; reflexivity|]. split.
  - intros Hd. rewrite E1, (bpe_encode_ids table s line _ Hs E4). f_equal.
    pose proof (greedy_pieces_named table _ segs Hr Hg) as Hn. clear - Hi Hd Hr Hn. induction Hi as [|sg i segs ids H _ IH]; cbn [map]; [reflexivity|].
    cbn [map] in Hn. inversion Hn as [|? ? Hn1 Hn2]; subst. f_equal; [|apply IH, Hn2].
    destruct (bid_known table _ Hn1) as [Hb _]. destruct sg as [p|c]; cbn [seg_number seg_piece] in *.
    + eapply name_at_inj; [exact Hd|apply H|exact Hb].
    + subst i. eapply name_at_inj; [exact Hd|apply starts_reserved_unk, Hr|exact Hb].
  - intros l. unfold pp_decode_as_str, decode, pp_decode. rewrite Es. cbn [s_idx_to_str]. rewrite <- Es.
    rewrite (mapM_ext (py_nth (map t_name table)) (fun i => let* t := py_nth table i in Ok (t_name t))%res).
    + destruct (mapM _ l) as [ws|e]; [|reflexivity]. cbn [bind]. unfold decode_str. rewrite Es. reflexivity.
    + intros i _. rewrite py_nth_map. destruct (py_nth table i); reflexivity.
Qed.

(** ** The table level 1 starts from *)
Lemma char_weight_word (v : str) f c : forall d, dget_def str_eqb [c] 0 (fold_left (fun d ch => dadd str_eqb [ch] f d) v d) =
  dget_def str_eqb [c] 0 d + f * Z.of_nat (count_occ N.eq_dec v c).
Proof.
  induction v as [|x v IH]; intros d; cbn [fold_left count_occ]; [lia|]. rewrite IH. unfold dadd.
  destruct (N.eq_dec x c) as [->|Hn].
  - unfold dget_def at 1. rewrite (dget_dset_same str_eqb str_eqb_eq). lia.
  - unfold dget_def at 1. rewrite (dget_dset_other str_eqb str_eqb_eq) by congruence. reflexivity.
Qed.
Lemma char_freqs_weight tfs c : dget_def str_eqb [c] 0 (char_freqs tfs) = char_weight tfs c.
Proof.
  unfold char_freqs, char_weight.
  assert (G : forall l d, dget_def str_eqb [c] 0 (fold_left (fun d tf => fold_left (fun d ch => dadd str_eqb [ch] (snd tf) d) (fst tf) d) l d) =
     dget_def str_eqb [c] 0 d + fold_right Z.add 0 (map (fun wf => snd wf * Z.of_nat (count_occ N.eq_dec (fst wf) c)) l)).
  { induction l as [|[v f] l IH]; intros d; cbn [fold_left map fold_right fst snd]; [lia|]. rewrite IH, char_weight_word. lia. }
  rewrite G. unfold dget_def. cbn [dget]. lia.
Qed.
Lemma char_freqs_in tfs w f : In (w, f) (char_freqs tfs) <-> exists c, w = [c] /\ (exists v g, In (v, g) tfs /\ In c v) /\ f = char_weight tfs c.
Proof.
  destruct (char_freqs_keys tfs) as [Hnd Hk]. split.
  - intros Hin. assert (Hw : In w (dkeys (char_freqs tfs))) by (apply (in_map fst) in Hin; exact Hin).
    apply Hk in Hw. destruct Hw as (v & g & c & H1 & H2 & ->). exists c. split; [reflexivity|]. split; [eauto|].
    rewrite <- char_freqs_weight. unfold dget_def. rewrite (In_dget str_eqb str_eqb_eq _ f); [reflexivity|exact Hnd|exact Hin].
  - intros (c & -> & (v & g & H1 & H2) & ->). assert (Hw : In [c] (dkeys (char_freqs tfs))) by (apply Hk; exists v, g, c; auto).
    apply in_map_iff in Hw. destruct Hw as ([w' f'] & E & Hin). cbn [fst] in E. subst w'. rewrite <- char_freqs_weight. unfold dget_def.
    rewrite (In_dget str_eqb str_eqb_eq _ f'); [exact Hin|exact Hnd|exact Hin].
Qed.
Lemma ddel_all (ts : list Typ) : forall d : list (str * Z), NoDup (map fst d) ->
  NoDup (map fst (fold_left (fun d t => ddel str_eqb (t_name t) d) ts d)) /\
  forall e, In e (fold_left (fun d t => ddel str_eqb (t_name t) d) ts d) <-> In e d /\ ~ In (fst e) (map t_name ts).
Proof.
  induction ts as [|t ts IH]; intros d Hd; cbn [fold_left map]; [split; [exact Hd|]; intros e; cbn [In]; tauto|].
  rewrite (ddel_filter (t_name t) d Hd). destruct (IH (filter (fun e => negb (str_eqb (t_name t) (fst e))) d)) as [I1 I2]; [apply NoDup_map_filter, Hd|].
  split; [exact I1|]. intros e. rewrite I2, filter_In. cbn [In]. destruct (str_eqb (t_name t) (fst e)) eqn:E; cbn [negb].
  - apply str_eqb_eq in E. rewrite E. intuition congruence.
  - assert (t_name t <> fst e) by (intros X; apply str_eqb_eq in X; congruence). intuition congruence.
Qed.
Lemma reserved_single c : In [c] reserved_names <-> c = MARK.
Proof.
  split.
  - intros H. cbn in H. repeat (destruct H as [H|H]; [try discriminate H; injection H as <-; reflexivity|]). destruct H.
  - intros ->. cbn. tauto.
Qed.
Lemma char_table_init tfs cmf : char_table cmf tfs (pp_init_vocab tfs cmf).
Proof.
  unfold pp_init_vocab. set (al := char_freqs tfs). set (al1 := if cmf >? 1 then _ else al).
  destruct (char_freqs_keys tfs) as [Hnd _]. change (NoDup (map fst al)) in Hnd.
  assert (H1 : NoDup (map fst al1) /\ forall e, In e al1 <-> In e al /\ (1 < cmf -> cmf <= snd e)).
  { unfold al1. destruct (Z.gtb_spec cmf 1) as [H|H].
    - split; [apply NoDup_map_filter, Hnd|]. intros e. rewrite filter_In, Z.leb_le. intuition.
    - split; [exact Hnd|]. intros e. intuition. }
  destruct H1 as [Hn1 Hi1]. destruct (ddel_all with_reserved_types al1 Hn1) as [Hn2 Hi2]. set (al2 := fold_left _ _ al1) in *.
  change (map t_name with_reserved_types) with reserved_names in Hi2.
  set (so := sorted_desc snd al2). change (length with_reserved_types) with 6%nat.
  change (map _ (enum_from (Z.of_nat 6) so)) with (rows L_char 6 so).
  assert (Hp : Permutation so al2) by apply sorted_desc_perm.
  assert (Hso : forall e, In e so <-> In e al2) by (intros e; split; apply Permutation_in; [exact Hp|symmetry; exact Hp]).
  assert (Hsh : forall w f, In (w, f) so <-> exists c, w = [c] /\ c <> MARK /\ (exists v g, In (v, g) tfs /\ In c v) /\ f = char_weight tfs c /\ (1 < cmf -> cmf <= f)).
  { intros w f. rewrite Hso, Hi2, Hi1. unfold al. rewrite char_freqs_in. cbn [fst snd]. split.
    - intros [[(c & -> & H2 & H3) H4] H5]. exists c. split; [reflexivity|]. split; [rewrite <- reserved_single; exact H5|]. auto.
    - intros (c & -> & H2 & H3 & H4 & H5). rewrite reserved_single. repeat split; auto. exists c. auto. }
  set (chars := map (fun e : str * Z => (hd 0%N (fst e), snd e)) so).
  assert (Hback : so = map (fun cf => ([fst cf], snd cf)) chars).
  { unfold chars. rewrite map_map. rewrite <- (map_id so) at 1. apply map_ext_in. intros [w f] Hin. apply Hsh in Hin. destruct Hin as (c & -> & _). reflexivity. }
  exists chars. split; [|split; [|split; [|split; [|split]]]].
  - intros n t Hn. destruct (Nat.lt_ge_cases n 6) as [Hl|Hl].
    + rewrite nth_error_app1 in Hn by exact Hl. do 6 (destruct n as [|n]; [injection Hn as <-; split; reflexivity|]). lia.
    + rewrite nth_error_app2 in Hn by exact Hl. change (length with_reserved_types) with 6%nat in Hn. split.
      * apply rows_nth in Hn. lia.
      * apply nth_error_In, rows_shape in Hn. tauto.
  - rewrite map_app. f_equal. rewrite Hback. generalize chars. generalize 6. clear. intros k chars. revert k. induction chars as [|[c f] chars IH]; intros k; [reflexivity|].
    cbn [map fst snd rows enum_from t_name t_level]. f_equal. apply (IH (k + 1)).
  - assert (Er : forall l : list Z, skipn 6 (map t_freq with_reserved_types ++ l) = l) by reflexivity. rewrite map_app, Er, Hback. generalize chars. generalize 6. clear. intros k chars. revert k.
    induction chars as [|[c f] chars IH]; intros k; [reflexivity|]. cbn [map fst snd rows enum_from t_freq]. f_equal. apply (IH (k + 1)).
  - assert (Hno : NoDup (map fst so)) by (eapply Permutation_NoDup; [apply Permutation_map; symmetry; exact Hp|exact Hn2]).
    assert (E : map fst so = map (fun c : N => [c]) (map fst chars)) by (rewrite Hback at 1; rewrite !map_map; reflexivity).
    rewrite E in Hno. apply NoDup_map_inv in Hno. exact Hno.
  - assert (Hd : desc snd chars).
    { assert (Hd : desc snd so) by apply sorted_desc_desc. unfold chars. clear - Hd. induction Hd as [|x l Hx _ IH]; cbn [map]; constructor; [|exact IH].
      intros y Hy. apply in_map_iff in Hy. destruct Hy as (e & <- & He). cbn [snd]. apply Hx, He. }
    clear - Hd. induction Hd as [|x l Hx _ IH]; intros i j c f c' f' Hij Hi Hj; [destruct i; discriminate|]. destruct j as [|j]; [lia|]. cbn [nth_error] in Hj.
    destruct i as [|i]; cbn [nth_error] in Hi.
    + injection Hi as ->. apply nth_error_In in Hj. apply (Hx _ Hj).
    + apply (IH i j c f c' f'); [lia|exact Hi|exact Hj].
  - intros c f. assert (E : In (c, f) chars <-> In ([c], f) so).
    { rewrite Hback, in_map_iff. split; [intros H; exists (c, f); auto|]. intros ([c' f'] & E & H). cbn [fst snd] in E. injection E as <- <-. exact H. }
    rewrite E, Hsh. split; [intros (c' & Ec & H); injection Ec as <-; exact H|]. intros H. exists c. auto.
Qed.
(** what a table of characters is good for *)
Lemma char_table_names cmf words table : char_table cmf words table ->
  starts_reserved table /\ well_indexed table /\ distinct_names table /\ kids_earlier table /\
  (forall w, has_name table w -> In w reserved_names \/ exists c, w = [c]).
Proof.
  intros (chars & H1 & H2 & H3 & H4 & H5 & H6).
  assert (En : map t_name table = reserved_names ++ map (fun cf => [fst cf]) chars).
  { apply (f_equal (map fst)) in H2. rewrite map_map, map_app, !map_map in H2. cbn [fst] in H2. rewrite map_id in H2. exact H2. }
  split; [unfold starts_reserved; rewrite En; reflexivity|]. split; [intros n t Hn; apply (H1 n t Hn)|]. split.
  - unfold distinct_names. rewrite En. apply NoDup_app_intro.
    + apply (distinct_count_full str_eqb str_eqb_eq). reflexivity.
    + rewrite <- map_map with (f := fst) (g := fun c : N => [c]). apply FinFun.Injective_map_NoDup; [|exact H4]. intros a b E. congruence.
    + intros w Hw Hc. apply in_map_iff in Hc. destruct Hc as ([c f] & <- & Hc). cbn [fst] in Hw. apply reserved_single in Hw. apply H6 in Hc. tauto.
  - split.
    + intros n t Hn. destruct (H1 n t Hn) as [_ Ek]. split; [congruence|]. unfold kids_of. rewrite Ek. intros k [].
    + intros w (t & Hin & <-). apply (in_map t_name) in Hin. rewrite En in Hin. apply in_app_iff in Hin. destruct Hin as [Hin|Hin]; [left; exact Hin|right].
      apply in_map_iff in Hin. destruct Hin as (cf & <- & _). eauto.
Qed.

(** ** Level 1 *)
Lemma kept_words tfs wmf : NoDup (map fst tfs) ->
  fold_left (fun d wf => if wmf <=? snd wf then dset str_eqb (prepare_word (fst wf)) (snd wf) d else d) tfs [] =
  map (fun wf => (fst wf ++ [MARK], snd wf)) (filter (fun wf => wmf <=? snd wf) tfs).
Proof.
  intros Hnd. rewrite <- marked_words_eq by (apply NoDup_map_filter, Hnd). unfold marked_words. generalize (@nil (str * Z)).
  clear Hnd. induction tfs as [|[w f] tfs IH]; intros d; [reflexivity|]. cbn [fold_left filter snd]. destruct (wmf <=? f); cbn [fold_left fst snd]; apply IH.
Qed.
Lemma pp_learn_words_eq orders tfs init vs mco : distinct_names init -> pp_learn_words orders tfs init vs mco =
  (let* _ := assert_ (vs >? Z.of_nat (length init)) in
   let* seqs := make_idxs (map (fun t => (t_name t, t_idx t)) init) tfs in
   pp_learn_codes Replace orders (map (fun sf => Ok sf) seqs) init (vs - Z.of_nat (length init)) mco L_subword)%res.
Proof.
  intros Hd. unfold pp_learn_words. pose proof (rev_idx_eq init Hd) as E.
  cbv zeta. unfold str in *. rewrite E, map_length, Nat.eqb_refl. reflexivity.
Qed.
Lemma pp_subwords_eq orders tf vs mco cmf wmf : NoDup (map fst tf) -> 1 <= cmf -> 1 <= wmf ->
  pp_learn_subwords orders tf vs mco cmf wmf =
  (let words : list (str * Z) := map (fun wf => (fst wf ++ [MARK], snd wf)) (often wmf tf) in
   if vs =? -1 then Ok (pp_init_vocab words cmf) else pp_learn_words orders words (pp_init_vocab words cmf) vs mco).
Proof.
  intros Hnd Hc Hw. unfold pp_learn_subwords. destruct (Z.geb_spec cmf 1); [|lia]. destruct (Z.geb_spec wmf 1); [|lia]. cbn [assert_ bind].
  pose proof (kept_words tf wmf Hnd) as E. unfold str in *. rewrite E. reflexivity.
Qed.
Theorem pp_level1 orders lines toks vs mco cmf wmf : tokens_of KWord lines toks ->
  let r := pp_learn_from_corpus orders lines vs mco cmf wmf in
  exists tf, exact_counts toks tf /\
  (cmf < 1 \/ wmf < 1 -> r = Raise AssertionError) /\
  (1 <= cmf -> 1 <= wmf -> exists init, char_table cmf (map (fun wf => (fst wf ++ [MARK], snd wf)) (often wmf tf)) init /\
    (vs = -1 -> r = Ok init) /\
    (vs <> -1 -> vs <= Z.of_nat (length init) -> r = Raise AssertionError) /\
    (Z.of_nat (length init) < vs -> often wmf tf = [] -> r = Raise ValueError) /\
    (Z.of_nat (length init) < vs -> often wmf tf <> [] -> exists c c', spelled_corpus init (often wmf tf) c /\ cleaned true c c' /\
       (iteration_orders orders -> 1 <= mco -> pp_bpe mco L_subword (Z.to_nat (vs - Z.of_nat (length init))) c' init r) /\
       (forall table, r = Ok table -> grown_by L_subword init table /\ Z.of_nat (length table) <= vs))).
Proof.
  intros Ht r. subst r. unfold pp_learn_from_corpus.
  apply tokens_of_fun in Ht. cbn [flat_pieces] in Ht. rewrite <- Ht. exists (counter_update str_eqb toks []). split; [apply counter_exact|].
  set (tf := counter_update str_eqb toks []). assert (Hnd : NoDup (map fst tf)) by (apply (counter_NoDup str_eqb str_eqb_eq); constructor).
  split.
  - unfold pp_learn_subwords. intros [H|H].
    + destruct (Z.geb_spec cmf 1); [lia|]. reflexivity.
    + destruct (Z.geb_spec wmf 1); [lia|]. destruct (cmf >=? 1); reflexivity.
  - intros Hc Hw. rewrite (pp_subwords_eq orders tf vs mco cmf wmf Hnd Hc Hw). cbv zeta.
    match goal with |- context [pp_init_vocab ?w cmf] => set (words := w) end. set (init := pp_init_vocab words cmf). exists init.
    pose proof (char_table_init words cmf) as Hct. fold init in Hct. split; [exact Hct|].
    destruct (char_table_names _ _ _ Hct) as (Hs & Hwi & Hdn & _ & Hnm).
    split; [intros ->; reflexivity|]. rewrite (pp_learn_words_eq orders words init vs mco Hdn). split; [|split].
    + intros Hv Hl. destruct (Z.eqb_spec vs (-1)); [lia|]. destruct (Z.gtb_spec vs (Z.of_nat (length init))); [lia|]. reflexivity.
    + intros Hl Hk. destruct (Z.eqb_spec vs (-1)); [lia|]. destruct (Z.gtb_spec vs (Z.of_nat (length init))); [|lia]. cbn [assert_ bind].
      destruct (make_idxs_spec init (often wmf tf) Hs Hdn Hwi Hnm) as (c & Ec & Hsp). fold words in Ec. rewrite Ec. cbn [bind]. rewrite Hk in Hsp. inversion Hsp; subst c.
      unfold pp_learn_codes. destruct (pp_init_outcome Replace [] [] init) as [[X _]|(_ & [[(f & rest & X) _]|(_ & [[_ E]|(X & _)])])]; try tauto; try discriminate; [intros s f []|constructor|].
      cbv zeta in E. rewrite E. reflexivity.
    + intros Hl Hk. destruct (Z.eqb_spec vs (-1)); [lia|]. destruct (Z.gtb_spec vs (Z.of_nat (length init))); [|lia]. cbn [assert_ bind].
      destruct (make_idxs_spec init (often wmf tf) Hs Hdn Hwi Hnm) as (c & Ec & Hsp). fold words in Ec. rewrite Ec. cbn [bind].
      destruct (cleaned_total true c) as (c' & Hcl). exists c, c'. split; [exact Hsp|]. split; [exact Hcl|].
      assert (Hpw : positive_words (often wmf tf)) by (intros w f Hin; apply filter_In in Hin; destruct Hin as [_ Hin]; apply Z.leb_le in Hin; cbn [snd] in Hin; lia).
      destruct (spelled_learnable init _ c Hs Hdn Hwi Hsp Hk Hpw) as [_ _ Hst Hpos Hra]. split.
      * intros Hord Hmc. apply pp_learn_refines with (c' := c'); try assumption.
        -- intros (f & rest & ->). apply Hst. reflexivity.
        -- intros ->. change true with (cuts Replace) in Hcl. apply cleaned_flat in Hcl. destruct c as [|[s f] c]; [destruct Hst|]. cbn [starts_nonempty] in Hst. cbn [flat_map] in Hcl.
           unfold clean1 in Hcl. cbn [fst snd] in Hcl. destruct s; [congruence|]. destruct (is_troublesome_seq _); discriminate.
        -- change true with (cuts Replace) in Hcl. apply cleaned_flat in Hcl. subst c'. intros s f Hin x Hx. apply clean_in in Hin. destruct Hin as (_ & _ & s0 & Hin & Hsub). apply (Hra s0 f Hin x), Hsub, Hx.
        -- intros s f Hin x Hx. apply (Hra s f Hin x Hx).
      * intros table E. apply pp_learn_grown in E. destruct E as (_ & _ & E1 & E2). split; [exact E1|lia].
Qed.
