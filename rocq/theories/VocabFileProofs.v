(** Vocabulary files: round trip, refusal of corrupt files, saving and loading schemes. *)
From Coq Require Import Strings.String.
From Verif Require Import Py PyLemmas PyStr StrSpec PyStrProofs Utf8Model Utf8Proofs JsonModel
  JsonProofs NumProofs CodecModel CodecSpec FlatProofs VocabFileModel VocabSpec.
From Coq Require Import ZifyBool ZifyN.
Local Open Scope Z_scope.
Local Open Scope list_scope.

(** ** splitting on a separator *)
Lemma split_on_aux_field d f cur s : ~ In d f ->
  split_on_aux d cur (f ++ d :: s) = (rev cur ++ f) :: split_on_aux d [] s.
Proof.
  revert cur. induction f as [|c f IH]; intros cur H; simpl.
  - rewrite N.eqb_refl, app_nil_r. reflexivity.
  - destruct (N.eqb_spec c d) as [->|Hc]; [exfalso; apply H; left; reflexivity|].
    rewrite IH by (intros Hi; apply H; right; exact Hi). simpl. rewrite <- app_assoc. reflexivity.
Qed.
Lemma split_on_aux_last d f cur : ~ In d f -> split_on_aux d cur f = [rev cur ++ f].
Proof.
  revert cur. induction f as [|c f IH]; intros cur H; simpl.
  - rewrite app_nil_r. reflexivity.
  - destruct (N.eqb_spec c d) as [->|Hc]; [exfalso; apply H; left; reflexivity|].
    rewrite IH by (intros Hi; apply H; right; exact Hi). simpl. rewrite <- app_assoc. reflexivity.
Qed.
Lemma split_on_join d fs : fs <> [] -> Forall (fun f => ~ In d f) fs -> split_on d (join [d] fs) = fs.
Proof.
  unfold split_on. induction fs as [|f fs IH]; intros Hne H; [congruence|].
  inversion H; subst. destruct fs as [|g fs].
  - simpl. apply split_on_aux_last. assumption.
  - rewrite join_cons2. cbn [app]. rewrite split_on_aux_field by assumption. simpl rev. cbn [app].
    f_equal. apply IH; [discriminate|assumption].
Qed.

(** ** lines of a text file *)
Lemma universal_nl_id s : ~ In CR s -> universal_nl s = s.
Proof.
  induction s as [|c s IH]; intros H; [reflexivity|].
  assert (Hc : c <> 13%N) by (intros ->; apply H; left; reflexivity).
  assert (E : universal_nl s = s) by (apply IH; intros Hi; apply H; right; exact Hi).
  destruct c as [|p]; [simpl; rewrite E; reflexivity|].
  do 4 (destruct p as [p|p|]; try (simpl; rewrite E; reflexivity); try congruence).
Qed.
Lemma lines_aux_line l cur s : ~ In LF l ->
  lines_aux cur (l ++ LF :: s) = (rev cur ++ l ++ [LF]) :: lines_aux [] s.
Proof.
  revert cur. induction l as [|c l IH]; intros cur H.
  - simpl. reflexivity.
  - simpl. destruct (N.eqb_spec c LF) as [->|Hc]; [exfalso; apply H; left; reflexivity|].
    rewrite IH by (intros Hi; apply H; right; exact Hi). simpl. rewrite <- !app_assoc. reflexivity.
Qed.
Definition with_nl (l : str) : str := l ++ [LF].
Lemma file_lines_of ls :
  Forall (fun l => ~ In LF l /\ ~ In CR l) ls ->
  file_lines (flat_map with_nl ls) = map with_nl ls.
Proof.
  intros H. unfold file_lines. rewrite universal_nl_id.
  - induction ls as [|l ls IH]; [reflexivity|]. inversion H as [|? ? [Hl _] Hls]; subst.
    cbn [flat_map map]. unfold with_nl at 1. rewrite <- app_assoc. cbn [app].
    rewrite lines_aux_line by exact Hl. rewrite IH by assumption. reflexivity.
  - intros Hi. apply in_flat_map in Hi. destruct Hi as (l & Hl & Hi).
    rewrite Forall_forall in H. unfold with_nl in Hi. apply in_app_or in Hi. destruct Hi as [Hi|[Hi|[]]].
    + destruct (H l Hl) as [_ Hc]. contradiction.
    + discriminate.
Qed.

(** ** utf-8 with errors='ignore' *)
Lemma utf8_ignore_roundtrip s : scalars s -> utf8_decode [] (utf8_encode_ignore s) = s.
Proof.
  induction s as [|c s IH]; intros H; [reflexivity|]. inversion H; subst. simpl.
  destruct (utf8_char_some c) as (bs & E); [assumption|]. rewrite E, (utf8_decode_char [] c bs _ E), IH by assumption.
  reflexivity.
Qed.
Lemma utf8_ignore_drops s : utf8_decode [] (utf8_encode_ignore s) = filter is_scalar s.
Proof.
  induction s as [|c s IH]; [reflexivity|]. simpl. destruct (is_scalar c) eqn:Ec.
  - destruct (utf8_char_some c Ec) as (bs & E). rewrite E, (utf8_decode_char [] c bs _ E), IH. reflexivity.
  - apply utf8_char_none in Ec. rewrite Ec. exact IH.
Qed.

(** ** one row *)
Lemma printable_scalar c : printable c -> is_scalar c = true.
Proof. unfold printable, is_scalar, is_surrogate. lia. Qed.
Lemma str_of_Z_printable z : Forall printable (str_of_Z z).
Proof.
  destruct (str_of_Z_chars z) as [H _]. eapply Forall_impl; [|exact H].
  intros c Hc. unfold printable, is_digit in *. lia.
Qed.

Definition row_fields (t : Typ) : list str :=
  [str_of_Z (t_idx t); t_name t; str_of_Z (t_level t); str_of_Z (t_freq t);
   join [SPACE] (map (fun k => str_of_Z (t_idx k)) (kids_of t))].

Lemma kids_field_words l : Forall is_word (map (fun k => str_of_Z (t_idx k)) l).
Proof. induction l; constructor; [apply str_of_Z_is_word|assumption]. Qed.
Lemma kids_field_printable l : Forall printable (join [SPACE] (map (fun k => str_of_Z (t_idx k)) l)).
Proof.
  apply join_Forall; [constructor; [unfold printable, SPACE; lia|constructor]|].
  induction l; constructor; [apply str_of_Z_printable|assumption].
Qed.
Lemma no_in_printable c s : Forall printable s -> (c < 32)%N -> ~ In c s.
Proof. intros H Hc Hi. rewrite Forall_forall in H. specialize (H c Hi). unfold printable in H. lia. Qed.

Lemma format_chars t c : In c (type_format t) -> In c (t_name t) \/ printable c \/ c = TAB.
Proof.
  unfold type_format. cbn [join]. intros H.
  repeat (apply in_app_or in H; destruct H as [H|H]); try (simpl in H; tauto);
    try (left; exact H); try (right; left; revert H; apply Forall_forall; apply str_of_Z_printable).
  - simpl in H. destruct H as [<-|[]]. auto.
  - simpl in H. destruct H as [<-|[]]. auto.
  - simpl in H. destruct H as [<-|[]]. auto.
  - simpl in H. destruct H as [<-|[]]. auto.
  - right; left; revert H; apply Forall_forall; apply kids_field_printable.
Qed.
Lemma format_safe t : plain_text (t_name t) ->
  scalars (type_format t) /\ ~ In LF (type_format t) /\ ~ In CR (type_format t).
Proof.
  intros Hn. split; [|split].
  - apply Forall_forall. intros c Hc. destruct (format_chars t c Hc) as [H|[H| ->]].
    + apply (Hn c H).
    + apply printable_scalar, H.
    + reflexivity.
  - intros Hc. destruct (format_chars t LF Hc) as [H|[H|H]].
    + destruct (Hn LF H) as (_ & _ & Hx & _). apply Hx; reflexivity.
    + unfold printable, LF in H. lia.
    + discriminate.
  - intros Hc. destruct (format_chars t CR Hc) as [H|[H|H]].
    + destruct (Hn CR H) as (_ & _ & _ & Hx). apply Hx; reflexivity.
    + unfold printable, CR in H. lia.
    + discriminate.
Qed.

Definition nonempty_fields (t : Typ) : list str :=
  [str_of_Z (t_idx t); t_name t; str_of_Z (t_level t); str_of_Z (t_freq t)] ++
  match kids_of t with [] => [] | l => [join [SPACE] (map (fun k => str_of_Z (t_idx k)) l)] end.

Lemma stripped_mid a m b : is_word a -> is_word b -> stripped (a ++ m ++ b).
Proof.
  intros Ha Hb. split; intros c r E.
  - destruct Ha as [Hne Ha]. destruct a as [|x a]; [congruence|]. injection E as <- _. inversion Ha; assumption.
  - destruct Hb as [Hne Hb]. destruct (exists_last Hne) as (b' & x & Eb). rewrite Eb in E.
    rewrite !app_assoc in E. apply app_inj_tail in E. destruct E as [_ <-].
    rewrite Eb in Hb. apply Forall_app in Hb. destruct Hb as [_ Hb]. inversion Hb; assumption.
Qed.
Lemma join_words_last ws : ws <> [] -> Forall is_word ws -> exists m b, join [SPACE] ws = m ++ b /\ is_word b.
Proof.
  induction ws as [|w ws IH]; intros Hne H; [congruence|]. inversion H; subst. destruct ws as [|v ws].
  - exists [], w. split; [reflexivity|assumption].
  - destruct IH as (m & b & E & Hb); [discriminate|assumption|].
    exists (w ++ [SPACE] ++ m), b. rewrite join_cons2, E, <- !app_assoc. split; [reflexivity|exact Hb].
Qed.
Ltac flat := repeat (first [progress (rewrite <- !app_assoc) | progress (cbn [app])]).
Lemma strip_row t : strip (with_nl (type_format t)) = join [TAB] (nonempty_fields t).
Proof.
  unfold with_nl, type_format, nonempty_fields. destruct (kids_of t) as [|k ks] eqn:Ek.
  - cbn [map join app].
    match goal with |- strip ?x = _ => replace x with ([] ++ (str_of_Z (t_idx t) ++ ([TAB] ++ t_name t ++ [TAB] ++ str_of_Z (t_level t) ++ [TAB]) ++ str_of_Z (t_freq t)) ++ [TAB; LF]) by (flat; reflexivity) end.
    rewrite strip_unique.
    + flat. reflexivity.
    + constructor.
    + repeat constructor.
    + apply stripped_mid; apply str_of_Z_is_word.
  - destruct (join_words_last (map (fun k => str_of_Z (t_idx k)) (k :: ks))) as (m & b & E & Hb);
      [discriminate|apply kids_field_words|].
    remember (map (fun k => str_of_Z (t_idx k)) (k :: ks)) as W.
    cbn [join app]. rewrite E.
    match goal with |- strip ?x = _ => replace x with ([] ++ (str_of_Z (t_idx t) ++ ([TAB] ++ t_name t ++ [TAB] ++ str_of_Z (t_level t) ++ [TAB] ++ str_of_Z (t_freq t) ++ [TAB] ++ m) ++ b) ++ [LF]) by (flat; reflexivity) end.
    rewrite strip_unique.
    + flat. reflexivity.
    + constructor.
    + repeat constructor.
    + apply stripped_mid; [apply str_of_Z_is_word|exact Hb].
Qed.

Lemma fields_no_tab t : plain_text (t_name t) -> Forall (fun f => ~ In TAB f) (nonempty_fields t).
Proof.
  intros Hn. unfold nonempty_fields.
  assert (Hz : forall z, ~ In TAB (str_of_Z z)).
  { intros z. apply no_in_printable; [apply str_of_Z_printable|reflexivity]. }
  repeat (apply Forall_cons; [apply Hz || (intros Hi; destruct (Hn TAB Hi) as (_ & Hx & _); apply Hx; reflexivity)|]).
  destruct (kids_of t) as [|k ks]; [constructor|]. constructor; [|constructor].
  apply no_in_printable; [apply (kids_field_printable (k :: ks))|reflexivity].
Qed.

(** a filled prefix of the slots *)
Definition slots (pre : list Typ) (n : nat) : list (option Typ) := map Some pre ++ repeat None n.
Lemma slots_length pre n : length (slots pre n) = (length pre + n)%nat.
Proof. unfold slots. rewrite app_length, map_length, repeat_length. reflexivity. Qed.
Lemma kid_slot_ok pre n m k : nth_error pre m = Some k -> kid_slot (slots pre n) (Z.of_nat m) = Ok k.
Proof.
  intros H. unfold kid_slot. assert (E : py_nth (slots pre n) (Z.of_nat m) = Ok (Some k)); [|rewrite E; reflexivity].
  apply py_nth_of_nat. unfold slots. rewrite nth_error_app1; [apply map_nth_error, H|].
  rewrite map_length. apply nth_error_Some. congruence.
Qed.
Lemma set_slot_slots pre n t : set_slot (slots pre (S n)) (length pre) t = slots (pre ++ [t]) n.
Proof.
  unfold set_slot, slots.
  rewrite firstn_app, firstn_all2 by (rewrite map_length; lia).
  rewrite map_length, Nat.sub_diag. cbn [firstn]. rewrite app_nil_r.
  rewrite skipn_app, skipn_all2 by (rewrite map_length; lia). rewrite map_length.
  replace (S (length pre) - length pre)%nat with 1%nat by lia. cbn [repeat skipn app].
  rewrite map_app, <- app_assoc. reflexivity.
Qed.
Lemma filled_slots pre : filled (slots pre 0) = pre.
Proof.
  unfold filled, slots. simpl. rewrite app_nil_r. induction pre as [|t pre IH]; [reflexivity|].
  simpl. f_equal. exact IH.
Qed.

Lemma rstrip_set_nl s : (forall c r, s = r ++ [c] -> is_space c = false) -> rstrip_set [LF] s = s.
Proof.
  intros H. unfold rstrip_set. destruct (rev s) as [|c r] eqn:E.
  - apply (f_equal (@rev N)) in E. rewrite rev_involutive in E. subst. reflexivity.
  - apply (f_equal (@rev N)) in E. rewrite rev_involutive in E. simpl in E.
    specialize (H c (rev r) E). simpl.
    destruct (N.eqb_spec c LF) as [->|Hc]; [discriminate|]. simpl. rewrite E. reflexivity.
Qed.

Lemma parse_row pre n t :
  plain_text (t_name t) -> t_idx t = Z.of_nat (length pre) ->
  t_kids t <> Some [] ->
  (forall k, In k (kids_of t) -> exists m, nth_error pre m = Some k /\ t_idx k = Z.of_nat m) ->
  type_parse (join [TAB] (nonempty_fields t)) (slots pre n) = Ok t.
Proof.
  intros Hn Hi Hke Hk. unfold type_parse.
  rewrite stripped_strip.
  2:{ rewrite <- strip_row. apply strip_stripped. }
  rewrite split_on_join; [|discriminate|apply fields_no_tab, Hn].
  unfold nonempty_fields. cbn [app]. rewrite !int_of_str_of_Z. cbn [bind].
  destruct t as [name lvl idx frq kids]. unfold kids_of in *. simpl t_kids in *. simpl t_idx in *.
  simpl t_name in *. simpl t_level. simpl t_freq.
  destruct kids as [[|k ks]|]; [congruence| |reflexivity].
  remember (k :: ks) as l eqn:El.
  assert (Hcol : exists c r, join [SPACE] (map (fun k => str_of_Z (t_idx k)) l) = c :: r).
  { rewrite El. cbn [map]. destruct (str_of_Z_head (t_idx k)) as (c & r & E & _).
    destruct (join_head [SPACE] _ (map (fun k => str_of_Z (t_idx k)) ks) c r E) as (r' & E'). eauto. }
  destruct l as [|k0 ks0]; [discriminate|]. injection El as <- <-.
  destruct Hcol as (c & r & Ecol). rewrite Ecol, <- Ecol.
  rewrite split_join_space by apply kids_field_words.
  assert (Em : mapM int_of_str (map (fun k => str_of_Z (t_idx k)) (k0 :: ks0)) = Ok (map t_idx (k0 :: ks0))).
  { rewrite mapM_map. apply mapM_ok. intros x _. apply int_of_str_of_Z. }
  rewrite Em. cbn [bind].
  assert (Ha : forallb (fun k => (k <? idx) && (k <? Z.of_nat (length (slots pre n)))) (map t_idx (k0 :: ks0)) = true).
  { apply forallb_forall. intros z Hz. apply in_map_iff in Hz. destruct Hz as (k & <- & Hin).
    destruct (Hk k Hin) as (m & Hm & Em'). assert (m < length pre)%nat by (apply nth_error_Some; congruence).
    rewrite slots_length. lia. }
  rewrite Ha. cbn [assert_ bind].
  assert (Es : mapM (kid_slot (slots pre n)) (map t_idx (k0 :: ks0)) = Ok (k0 :: ks0)).
  { rewrite mapM_map. rewrite (mapM_ok _ (fun k => k)); [rewrite map_id; reflexivity|].
    intros k Hin. destruct (Hk k Hin) as (m & Hm & Em'). rewrite Em'. apply kid_slot_ok, Hm. }
  rewrite Es. reflexivity.
Qed.

Lemma read_rows_ok rows : forall pre,
  well_indexed (pre ++ rows) -> kids_earlier (pre ++ rows) ->
  (forall t, In t rows -> plain_text (t_name t)) ->
  read_rows (length pre) (map (fun t => join [TAB] (nonempty_fields t)) rows) (slots pre (length rows)) =
  Ok (slots (pre ++ rows) 0).
Proof.
  induction rows as [|t rows IH]; intros pre Hw Hk Hn.
  - rewrite app_nil_r. reflexivity.
  - cbn [map read_rows length].
    assert (Hnth : nth_error (pre ++ t :: rows) (length pre) = Some t).
    { rewrite nth_error_app2, Nat.sub_diag by lia. reflexivity. }
    rewrite rstrip_set_nl.
    2:{ destruct (strip_stripped (with_nl (type_format t))) as [_ H]. rewrite strip_row in H. exact H. }
    rewrite parse_row.
    + cbn [bind]. assert (Ei : (t_idx t =? Z.of_nat (length pre)) = true) by (rewrite (Hw _ _ Hnth); apply Z.eqb_refl).
      rewrite Ei. cbn [assert_ bind]. rewrite set_slot_slots.
      replace (S (length pre)) with (length (pre ++ [t])) by (rewrite app_length; simpl; lia).
      replace (pre ++ t :: rows) with ((pre ++ [t]) ++ rows) in * by (rewrite <- app_assoc; reflexivity).
      apply IH; [exact Hw|exact Hk|]. intros x Hx; apply Hn; right; exact Hx.
    + apply Hn. left. reflexivity.
    + apply Hw, Hnth.
    + apply (Hk _ _ Hnth).
    + intros k Hin. destruct (Hk _ _ Hnth) as [_ Hkk]. destruct (Hkk k Hin) as (m & Hm & Em).
      exists m. split; [rewrite nth_error_app1 in Em by exact Hm; exact Em|apply Hw, Em].
Qed.

(** ** the header *)
Lemma levels_of_nonempty table : table <> [] -> exists z, py_max (dkeys (levels_of table)) = Ok z.
Proof.
  intros H. destruct table as [|t table]; [congruence|]. unfold levels_of, counter_update. cbn [map fold_left].
  assert (G : forall l d, dkeys (K:=Z) (V:=Z) d <> [] -> dkeys (fold_left (fun d x => dadd Z.eqb x 1 d) l d) <> []).
  { induction l as [|x l IH]; intros d Hd; [exact Hd|]. cbn [fold_left]. apply IH.
    unfold dadd. destruct d as [|[k v] d]; [simpl in Hd; congruence|]. simpl. destruct (Z.eqb x k); discriminate. }
  unfold py_max. destruct (dkeys _) as [|z l] eqn:E; [|eauto]. exfalso. revert E. apply G. discriminate.
Qed.

Definition meta_ok (meta : list (str * json)) : Prop :=
  Forall (fun kv => scalars (fst kv) /\ json_ok (snd kv)) meta.
Lemma dset_keys_NoDup k (v : json) d : NoDup (map fst d) -> NoDup (map fst (dset str_eqb k v d)).
Proof. intros H. apply (dset_NoDup str_eqb str_eqb_eq). exact H. Qed.
Lemma dset_Forall (P : str * json -> Prop) k v d : (forall k0, k0 = k -> P (k0, v)) -> Forall P d -> Forall P (dset str_eqb k v d).
Proof.
  intros Hp. induction d as [|[k' v'] d IH]; intros H; simpl.
  - constructor; [apply Hp; reflexivity|constructor].
  - inversion H; subst. destruct (str_eqb k k') eqn:E.
    + constructor; [apply Hp; symmetry; apply str_eqb_eq, E|assumption].
    + constructor; [assumption|apply IH; assumption].
Qed.
Lemma update_ok meta : forall d, meta_ok meta -> json_ok (JObj d) ->
  json_ok (JObj (fold_left (fun d kv => dset str_eqb (fst kv) (snd kv) d) meta d)).
Proof.
  induction meta as [|[k v] meta IH]; intros d Hm Hd; [exact Hd|].
  inversion Hm as [|? ? [Hk Hv] Hm']; subst. cbn [fold_left fst snd]. simpl fst in *. simpl snd in *. apply IH; [exact Hm'|].
  apply json_ok_obj in Hd. destruct Hd as [Hnd Hf]. apply json_ok_obj. split; [apply dset_keys_NoDup, Hnd|].
  apply dset_Forall; [intros k0 ->; split; assumption|exact Hf].
Qed.
Lemma counter_NoDup {K} (eqb : K -> K -> bool) (Heq : forall a b, eqb a b = true <-> a = b) l : forall d,
  NoDup (map fst d) -> NoDup (map fst (counter_update eqb l d)).
Proof.
  unfold counter_update. induction l as [|x l IH]; intros d H; [exact H|]. cbn [fold_left]. apply IH.
  unfold dadd. apply (dset_NoDup eqb Heq). exact H.
Qed.
Lemma NoDup_map_injective {A B} (f : A -> B) l : (forall a b, f a = f b -> a = b) -> NoDup l -> NoDup (map f l).
Proof.
  intros Hf. induction l as [|x l IH]; intros H; [constructor|]. inversion H; subst. simpl. constructor; [|apply IH; assumption].
  intros Hi. apply in_map_iff in Hi. destruct Hi as (y & E & Hy). apply Hf in E. subst. contradiction.
Qed.
Lemma lit_scalars s : scalars (lit s).
Proof.
  unfold lit. apply Forall_map. induction s as [|a s IH]; simpl; constructor; [|exact IH].
  pose proof (Ascii.N_ascii_bounded a). unfold is_scalar, is_surrogate. lia.
Qed.
Lemma header_ok version now table z meta :
  scalars version -> scalars now -> meta_ok meta -> json_ok (JObj (vocab_header version now table z meta)).
Proof.
  intros Hv Hn Hm. apply update_ok; [exact Hm|]. apply json_ok_obj. split.
  - cbn [map fst]. repeat (constructor; [simpl; repeat (intros [H|H]; [discriminate H|revert H]); tauto|]). constructor.
  - repeat (constructor; [split; [apply lit_scalars|]|]); try exact I; try exact Hv; try exact Hn; [|constructor].
    apply json_ok_obj. split.
    + rewrite map_map. cbn [fst]. rewrite <- map_map. apply NoDup_map_injective; [apply str_of_Z_inj|].
      apply (counter_NoDup Z.eqb Z.eqb_eq). constructor.
    + apply Forall_forall. intros [k v] Hin. apply in_map_iff in Hin. destruct Hin as ([l c] & E & _).
      injection E as <- <-. split; [|exact I]. simpl. eapply Forall_impl; [|apply str_of_Z_printable].
      intros ? ?; apply printable_scalar; assumption.
Qed.

Lemma write_rows_ok rows : forall i, (forall n t, nth_error rows n = Some t -> t_idx t = i + Z.of_nat n) ->
  write_rows i rows = (flat_map with_nl (map type_format rows), Ok tt).
Proof.
  induction rows as [|t rows IH]; intros i H; [reflexivity|]. cbn [write_rows map flat_map].
  assert (E : (i =? t_idx t) = true) by (rewrite (H 0%nat t eq_refl); lia). rewrite E.
  rewrite IH.
  - unfold with_nl at 2. rewrite <- app_assoc. reflexivity.
  - intros n u Hu. rewrite (H (S n) u Hu). lia.
Qed.

Definition header_line version now table z meta : str :=
  35%N :: dumps (JObj (vocab_header version now table z meta)).
Lemma header_line_shape version now table z meta :
  scalars version -> scalars now -> meta_ok meta ->
  exists r, header_line version now table z meta = 35%N :: 123%N :: r /\
  Forall printable (header_line version now table z meta) /\
  strip (with_nl (header_line version now table z meta)) = header_line version now table z meta.
Proof.
  intros Hv Hn Hm. pose proof (header_ok version now table z meta Hv Hn Hm) as Hok.
  pose proof (dumps_printable _ Hok) as Hp.
  assert (Hpl : Forall printable (header_line version now table z meta)).
  { constructor; [unfold printable; lia|exact Hp]. }
  unfold header_line in *. rewrite dumps_obj in *. eexists. split; [reflexivity|]. split; [exact Hpl|].
  set (body := join COMMA_SP _) in *. unfold with_nl.
  replace ((35%N :: [123%N] ++ body ++ [125%N]) ++ [LF]) with ([] ++ ([35%N] ++ ([123%N] ++ body) ++ [125%N]) ++ [LF]).
  - rewrite strip_unique; [cbn [app]; rewrite <- ?app_assoc; reflexivity|constructor|repeat constructor|].
    apply stripped_mid; (split; [discriminate|repeat constructor]).
  - cbn [app]. rewrite <- ?app_assoc. reflexivity.
Qed.

Definition vocab_text (header : list (str * json)) (rows : list Typ) : str :=
  ([35%N] ++ dumps (JObj header) ++ [LF]) ++ flat_map with_nl (map type_format rows).

Theorem read_text version now table z meta rows :
  scalars version -> scalars now -> meta_ok meta ->
  well_indexed rows -> kids_earlier rows -> (forall t, In t rows -> plain_text (t_name t)) ->
  read_vocab (utf8_encode_ignore (vocab_text (vocab_header version now table z meta) rows)) =
  Ok (rows, Some (JObj (vocab_header version now table z meta))).
Proof.
  intros Hv Hn Hm Hw Hk Ht.
  destruct (header_line_shape version now table z meta Hv Hn Hm) as (r & Eh & Hp & Hs).
  set (H0 := header_line version now table z meta) in *. unfold vocab_text.
  assert (Etxt : ([35%N] ++ dumps (JObj (vocab_header version now table z meta)) ++ [LF]) ++
                 flat_map with_nl (map type_format rows) =
                 flat_map with_nl (H0 :: map type_format rows)).
  { cbn [flat_map]. unfold with_nl at 2. unfold H0, header_line. cbn [app]. reflexivity. }
  rewrite Etxt. unfold read_vocab, vocab_lines.
  assert (Hlines : Forall (fun l => scalars l /\ ~ In LF l /\ ~ In CR l) (H0 :: map type_format rows)).
  { constructor.
    - split; [eapply Forall_impl; [apply printable_scalar|exact Hp]|].
      split; apply no_in_printable; auto; reflexivity.
    - apply Forall_forall. intros l Hl. apply in_map_iff in Hl. destruct Hl as (t & <- & Hin).
      apply format_safe, Ht, Hin. }
  rewrite utf8_ignore_roundtrip.
  2:{ unfold scalars. apply Forall_flat_map. eapply Forall_impl; [|exact Hlines].
      intros l [Hl _]. unfold with_nl. apply Forall_app. split; [exact Hl|repeat constructor]. }
  rewrite file_lines_of.
  2:{ eapply Forall_impl; [|exact Hlines]. intros l [_ Hl]; exact Hl. }
  cbn [map]. rewrite Hs, Eh. change (startswith (lit "#{") (35%N :: 123%N :: r)) with true. cbv iota.
  rewrite <- Eh. unfold H0 at 1, header_line. cbn [skipn].
  rewrite loads_dumps by (apply header_ok; assumption). cbn [bind].
  rewrite !map_map. rewrite (map_ext _ (fun t => join [TAB] (nonempty_fields t))) by (intros t; apply strip_row).
  rewrite map_length.
  change (repeat None (length rows)) with (slots [] (length rows)).
  change 0%nat with (length (@nil Typ)) at 1.
  rewrite (read_rows_ok rows []); [|exact Hw|exact Hk|exact Ht].
  cbn [bind app]. rewrite filled_slots. reflexivity.
Qed.

Theorem write_read version now table meta :
  scalars version -> scalars now -> meta_ok meta -> storable table ->
  exists bytes z, write_out version now table meta = (bytes, Ok tt) /\
    py_max (dkeys (levels_of table)) = Ok z /\
    read_vocab bytes = Ok (table, Some (JObj (vocab_header version now table z meta))).
Proof.
  intros Hv Hn Hm (Hne & Hw & Hk & Ht).
  destruct (levels_of_nonempty table Hne) as (z & Ez).
  unfold write_out. rewrite Ez.
  rewrite write_rows_ok by (intros n t E; rewrite (Hw n t E); lia).
  eexists. exists z. split; [reflexivity|]. split; [reflexivity|].
  apply (read_text version now table z meta table); assumption.
Qed.

Lemma nth_error_firstn {A} (l : list A) : forall n i x, nth_error (firstn n l) i = Some x ->
  nth_error l i = Some x /\ (i < n)%nat.
Proof.
  induction l as [|y l IH]; intros [|n] [|i] x H; try discriminate.
  - simpl in *. split; [exact H|lia].
  - simpl in *. apply IH in H. destruct H. split; [assumption|lia].
Qed.
Lemma nth_error_firstn_lt {A} (l : list A) n i : (i < n)%nat -> nth_error (firstn n l) i = nth_error l i.
Proof.
  revert n i. induction l as [|y l IH]; intros [|n] [|i] H; try reflexivity; try lia. simpl. apply IH. lia.
Qed.
Lemma storable_firstn table n : (0 < n)%nat -> storable table -> storable (firstn n table).
Proof.
  intros H0 (Hne & Hw & Hk & Ht). split; [destruct table; [congruence|destruct n; [lia|discriminate]]|].
  split; [|split].
  - intros i t H. apply nth_error_firstn in H. apply Hw, H.
  - intros i t H. apply nth_error_firstn in H. destruct H as [H Hi]. destruct (Hk i t H) as [H1 H2].
    split; [exact H1|]. intros k Hin. destruct (H2 k Hin) as (m & Hm & E). exists m. split; [exact Hm|].
    rewrite nth_error_firstn_lt by lia. exact E.
  - intros t H. apply Ht. rewrite <- (firstn_skipn n table). apply in_or_app. left. exact H.
Qed.

(** The first n rows of a saved table, under the full table's header, read as a complete table. *)
Theorem truncated_reads version now table z meta n :
  scalars version -> scalars now -> meta_ok meta -> storable table -> (0 < n)%nat ->
  read_vocab (utf8_encode_ignore (vocab_text (vocab_header version now table z meta) (firstn n table))) =
  Ok (firstn n table, Some (JObj (vocab_header version now table z meta))).
Proof.
  intros Hv Hn Hm Hst H0. destruct (storable_firstn table n H0 Hst) as (_ & Hw & Hk & Ht).
  apply read_text; assumption.
Qed.

(** ** schemes *)
Lemma make_scheme_table k table s : make_scheme k table = Ok s ->
  s_kind s = k /\ make_scheme k (s_table s) = Ok s.
Proof.
  intros H. assert (Ht : s_kind s = k /\ (s_table s = table \/ (k = KByte /\ table = [] /\ s_table s = byte_vocab))).
  { destruct k; cbn [make_scheme] in H.
    - unfold encoder_init in H. destruct (validate_reserved table); [|discriminate]. cbn [bind] in H.
      destruct (assert_ _); [|discriminate]. injection H as <-. auto.
    - unfold encoder_init in H. destruct (validate_reserved table); [|discriminate]. cbn [bind] in H.
      destruct (assert_ _); [|discriminate]. injection H as <-. auto.
    - unfold encoder_init in H. destruct (validate_reserved table); [|discriminate]. cbn [bind] in H.
      destruct (make_vocab_prefix_trie table); [|discriminate]. cbn [bind] in H.
      destruct (assert_ _); [|discriminate]. injection H as <-. auto.
    - unfold encoder_init in H. cbn [bind] in H. destruct (assert_ _); [|discriminate]. injection H as <-. auto.
    - unfold encoder_init in H. cbn [bind] in H. destruct (assert_ _); [|discriminate]. injection H as <-.
      split; [reflexivity|]. destruct table; [right; auto|left; reflexivity]. }
  destruct Ht as [Hk [Ht|(-> & -> & Ht)]].
  - split; [exact Hk|]. rewrite Ht. exact H.
  - split; [exact Hk|]. rewrite Ht. rewrite <- H. reflexivity.
Qed.

Lemma jget_header_scheme version now table z nm :
  jget (lit "scheme") (vocab_header version now table z [(lit "scheme", JStr nm)]) = Some (JStr nm).
Proof. reflexivity. Qed.
Lemma header_nonempty version now table z nm :
  exists kv m, vocab_header version now table z [(lit "scheme", nm)] = kv :: m.
Proof. eexists. eexists. reflexivity. Qed.
Lemma registry_names k : dget str_eqb (scheme_name k) REGISTRY = Some k.
Proof. destruct k; reflexivity. Qed.

Theorem save_load version now k table s :
  scalars version -> scalars now -> make_scheme k table = Ok s -> storable (s_table s) ->
  exists bytes, save version now s = (bytes, Ok tt) /\ load_scheme bytes = Ok s.
Proof.
  intros Hv Hn Hs Hst. destruct (make_scheme_table k table s Hs) as [Hk Hs'].
  destruct (write_read version now (s_table s) [(lit "scheme", JStr (scheme_name (s_kind s)))] Hv Hn)
    as (bytes & z & Hw & Hz & Hr); [|exact Hst|].
  { constructor; [|constructor]. split; [apply lit_scalars|]. simpl. destruct (s_kind s); apply lit_scalars. }
  exists bytes. split; [exact Hw|]. unfold load_scheme. rewrite Hr. cbn [bind].
  destruct (header_nonempty version now (s_table s) z (JStr (scheme_name (s_kind s)))) as (kv & m & E).
  pose proof (jget_header_scheme version now (s_table s) z (scheme_name (s_kind s))) as Hg.
  rewrite E in *. cbv iota. rewrite Hg, registry_names. cbn [bind]. rewrite Hk. exact Hs'.
Qed.

(** ** refusing corrupt tables and files *)
Lemma write_rows_bad rows : forall i n t, nth_error rows n = Some t -> t_idx t <> i + Z.of_nat n ->
  exists txt, write_rows i rows = (txt, Raise AssertionError).
Proof.
  induction rows as [|u rows IH]; intros i n t Hn Ht; [destruct n; discriminate|].
  cbn [write_rows]. destruct (Z.eqb_spec i (t_idx u)) as [E|E]; [|eauto].
  destruct n as [|n]; [injection Hn as ->; lia|].
  destruct (IH (i + 1) n t Hn) as (txt & Et); [lia|]. rewrite Et. eauto.
Qed.
Theorem write_out_refuses version now table meta n t :
  nth_error table n = Some t -> t_idx t <> Z.of_nat n ->
  exists bytes, write_out version now table meta = (bytes, Raise AssertionError).
Proof.
  intros Hn Ht. destruct (levels_of_nonempty table) as (z & Ez); [destruct table; [destruct n; discriminate|discriminate]|].
  unfold write_out. rewrite Ez. destruct (write_rows_bad table 0 n t Hn) as (txt & Et); [lia|].
  rewrite Et. eauto.
Qed.

(** What an accepted row looks like. *)
Lemma type_parse_ok line vocab t : type_parse line vocab = Ok t ->
  exists c0 c1 c2 c3 rest, split_on TAB (strip line) = c0 :: c1 :: c2 :: c3 :: rest /\
    int_of_str c0 = Ok (t_idx t) /\ t_name t = c1 /\ int_of_str c2 = Ok (t_level t) /\
    int_of_str c3 = Ok (t_freq t) /\
    match rest with
    | (_ :: _) as c4 :: _ =>
        exists ks, mapM int_of_str (split c4) = Ok ks /\
          Forall (fun k => k < t_idx t /\ k < Z.of_nat (length vocab)) ks /\
          exists kids, t_kids t = Some kids /\ mapM (kid_slot vocab) ks = Ok kids
    | _ => t_kids t = None
    end.
Proof.
  unfold type_parse. destruct (split_on TAB (strip line)) as [|c0 [|c1 [|c2 [|c3 rest]]]] eqn:Es; try discriminate.
  destruct (int_of_str c0) as [idx|e] eqn:E0; [|discriminate]. cbn [bind].
  destruct (int_of_str c2) as [lvl|e] eqn:E2; [|discriminate]. cbn [bind].
  destruct (int_of_str c3) as [frq|e] eqn:E3; [|discriminate]. cbn [bind].
  destruct rest as [|[|x c4] rest].
  - cbn [bind]. intros H; injection H as <-. exists c0, c1, c2, c3, []. repeat split; assumption.
  - cbn [bind]. intros H; injection H as <-. exists c0, c1, c2, c3, ([] :: rest). repeat split; assumption.
  - destruct (mapM int_of_str (split (x :: c4))) as [ks|e] eqn:Ek; [|discriminate]. cbn [bind].
    destruct (forallb _ ks) eqn:Ef; [|discriminate]. cbn [assert_ bind].
    destruct (mapM (kid_slot vocab) ks) as [kids|e] eqn:Em; [|discriminate]. cbn [bind].
    intros H; injection H as <-. exists c0, c1, c2, c3, ((x :: c4) :: rest). simpl t_idx; simpl t_kids.
    repeat (split; [assumption || reflexivity|]). exists ks. split; [exact Ek|].
    split; [|exists kids; auto]. rewrite forallb_forall in Ef. apply Forall_forall.
    intros k Hk. specialize (Ef k Hk). lia.
Qed.

Lemma set_slot_length vocab i v : (i < length vocab)%nat -> length (set_slot vocab i v) = length vocab.
Proof.
  intros H. unfold set_slot. rewrite app_length, firstn_length. cbn [length]. rewrite skipn_length. lia.
Qed.
Lemma set_slot_nth_same vocab i v : (i < length vocab)%nat -> nth_error (set_slot vocab i v) i = Some (Some v).
Proof.
  intros H. unfold set_slot. rewrite nth_error_app2; rewrite firstn_length, Nat.min_l by lia; [|lia].
  rewrite Nat.sub_diag. reflexivity.
Qed.
Lemma set_slot_nth_other vocab i j v : (i < length vocab)%nat -> j <> i ->
  nth_error (set_slot vocab i v) j = nth_error vocab j.
Proof.
  intros H Hj. unfold set_slot. destruct (Nat.lt_ge_cases j i) as [Hlt|Hge].
  - rewrite nth_error_app1 by (rewrite firstn_length; lia).
    rewrite <- (firstn_skipn i vocab) at 2. rewrite nth_error_app1; [reflexivity|rewrite firstn_length; lia].
  - rewrite nth_error_app2; rewrite firstn_length, Nat.min_l by lia; [|lia].
    destruct (j - i)%nat as [|d] eqn:Ed; [lia|]. cbn [nth_error].
    rewrite <- (firstn_skipn (S i) vocab) at 2.
    rewrite nth_error_app2; rewrite firstn_length, Nat.min_l by lia; [|lia]. f_equal. lia.
Qed.

(** Invariant of the reading loop: slots before i hold types parsed from rows, at their index. *)
Lemma read_rows_inv lines : forall i vocab out,
  (i + length lines = length vocab)%nat ->
  read_rows i lines vocab = Ok out ->
  length out = length vocab /\
  (forall j, (j < i)%nat -> nth_error out j = nth_error vocab j) /\
  forall j line, nth_error lines j = Some line ->
    exists t v', nth_error out (i + j) = Some (Some t) /\ t_idx t = Z.of_nat (i + j) /\
      type_parse (rstrip_set [LF] line) v' = Ok t /\ length v' = length vocab /\
      (forall m, (m < i + j)%nat -> nth_error v' m = nth_error out m).
Proof.
  induction lines as [|line lines IH]; intros i vocab out Hl H.
  - injection H as <-. split; [reflexivity|]. split; [reflexivity|]. intros j l Hj. destruct j; discriminate.
  - cbn [read_rows] in H. destruct (type_parse _ vocab) as [v|e] eqn:Ep; [|discriminate]. cbn [bind] in H.
    destruct (Z.eqb_spec (t_idx v) (Z.of_nat i)) as [Ei|]; [|discriminate]. cbn [assert_ bind] in H.
    simpl in Hl. assert (Hi : (i < length vocab)%nat) by lia.
    destruct (IH (S i) (set_slot vocab i v) out) as (L & K & R); [rewrite set_slot_length by exact Hi; lia|exact H|].
    rewrite set_slot_length in L by exact Hi.
    assert (K0 : forall j, (j < i)%nat -> nth_error out j = nth_error vocab j).
    { intros j Hj. rewrite K by lia. apply set_slot_nth_other; [exact Hi|lia]. }
    split; [exact L|]. split; [exact K0|]. intros [|j] l Hj.
    + injection Hj as ->. exists v, vocab. rewrite Nat.add_0_r. rewrite K, set_slot_nth_same by lia.
      repeat (split; [assumption || reflexivity|]). intros m Hm. symmetry. apply K0, Hm.
    + destruct (R j l Hj) as (t & v' & R1 & R2 & R3 & R4 & R5).
      rewrite set_slot_length in R4 by exact Hi.
      exists t, v'. replace (i + S j)%nat with (S i + j)%nat by lia. auto.
Qed.

Lemma filled_all vocab : (forall j, (j < length vocab)%nat -> exists t, nth_error vocab j = Some (Some t)) ->
  map Some (filled vocab) = vocab.
Proof.
  induction vocab as [|o vocab IH]; intros H; [reflexivity|].
  destruct (H 0%nat) as (t & Et); [simpl; lia|]. injection Et as ->. cbn [filled flat_map app map].
  f_equal. apply IH. intros j Hj. apply (H (S j)). simpl. lia.
Qed.

Lemma kid_slot_kid vocab k t : kid_slot vocab k = Ok t -> 0 <= k -> nth_error vocab (Z.to_nat k) = Some (Some t).
Proof.
  unfold kid_slot. intros H Hk. destruct (py_nth vocab k) as [o|] eqn:E; [|discriminate]. cbn [bind] in H.
  destruct o as [u|]; [|discriminate]. injection H as ->. apply py_nth_nonneg in E; [|exact Hk]. exact E.
Qed.

Theorem read_vocab_sound bytes table meta :
  read_vocab bytes = Ok (table, meta) ->
  length table = length (rows_of bytes) /\ well_indexed table /\
  forall n row, nth_error (rows_of bytes) n = Some row ->
    exists t c0 c1 c2 c3 rest, nth_error table n = Some t /\
      split_on TAB row = c0 :: c1 :: c2 :: c3 :: rest /\
      int_of_str c0 = Ok (Z.of_nat n) /\ t_name t = c1 /\ int_of_str c2 = Ok (t_level t) /\
      int_of_str c3 = Ok (t_freq t) /\
      match rest with
      | (_ :: _) as c4 :: _ =>
          exists ks kids, mapM int_of_str (split c4) = Ok ks /\ t_kids t = Some kids /\
            Forall (fun k => k < Z.of_nat n) ks /\
            forall j k kid, nth_error ks j = Some k -> nth_error kids j = Some kid -> 0 <= k ->
                        nth_error table (Z.to_nat k) = Some kid
      | _ => t_kids t = None
      end.
Proof.
  intros H. unfold read_vocab, rows_of in *. 
  assert (Hrows : exists lines, lines = match vocab_lines bytes with
     | [] => [] | l :: rest => if is_header l then rest else l :: rest end /\
     (forall l, In l lines -> stripped l) /\
     exists vocab, read_rows 0 lines (repeat None (length lines)) = Ok vocab /\ table = filled vocab).
  { assert (Hst : forall l, In l (vocab_lines bytes) -> stripped l).
    { unfold vocab_lines. intros l Hl. apply in_map_iff in Hl. destruct Hl as (x & <- & _). apply strip_stripped. }
    destruct (vocab_lines bytes) as [|l0 rest]; [discriminate|].
    unfold is_header. destruct (startswith (lit "#{") l0).
    - destruct (loads (skipn 1 l0)) as [m|e]; [|discriminate]. cbn [bind] in H.
      destruct (read_rows 0 rest _) as [vocab|e] eqn:Er; [|discriminate]. cbn [bind] in H. injection H as <- _.
      exists rest. split; [reflexivity|]. split; [intros l Hl; apply Hst; right; exact Hl|]. exists vocab. auto.
    - cbn [bind] in H. destruct (read_rows 0 (l0 :: rest) _) as [vocab|e] eqn:Er; [|discriminate].
      cbn [bind] in H. injection H as <- _. exists (l0 :: rest). split; [reflexivity|]. split; [exact Hst|]. exists vocab. auto. }
  destruct Hrows as (lines & <- & Hst & vocab & Hr & ->).
  destruct (read_rows_inv lines 0 (repeat None (length lines)) vocab) as (L & _ & R); [rewrite repeat_length; lia|exact Hr|].
  rewrite repeat_length in *. cbn [Nat.add] in R.
  assert (Hf : map Some (filled vocab) = vocab).
  { apply filled_all. intros j Hj. rewrite L in Hj.
    destruct (nth_error lines j) as [line|] eqn:El; [|apply nth_error_None in El; lia].
    destruct (R j line El) as (t & v' & R1 & _). eauto. }
  assert (Hnth : forall j t, nth_error (filled vocab) j = Some t <-> nth_error vocab j = Some (Some t)).
  { intros j t. rewrite <- Hf at 2. rewrite nth_error_map. destruct (nth_error (filled vocab) j); simpl; split; congruence. }
  split; [rewrite <- L; rewrite <- Hf at 2; rewrite map_length; reflexivity|].
  split.
  - intros n t Hn. apply Hnth in Hn.
    destruct (nth_error lines n) as [line|] eqn:El.
    + destruct (R n line El) as (t' & v' & R1 & R2 & _). rewrite R1 in Hn. injection Hn as <-. exact R2.
    + apply nth_error_None in El. assert (n < length vocab)%nat by (apply nth_error_Some; congruence). lia.
  - intros n row Hrow. destruct (R n row Hrow) as (t & v' & R1 & R2 & R3 & R4 & R5).
    rewrite rstrip_set_nl in R3 by (apply (Hst row); eapply nth_error_In; exact Hrow).
    destruct (type_parse_ok _ _ _ R3) as (c0 & c1 & c2 & c3 & rest & E1 & E2 & E3 & E4 & E5 & E6).
    rewrite stripped_strip in E1 by (apply Hst; eapply nth_error_In; exact Hrow).
    exists t, c0, c1, c2, c3, rest. rewrite <- R2. split; [apply Hnth, R1|].
    repeat (split; [assumption|]). destruct rest as [|[|x c4] rest]; [exact E6|exact E6|].
    destruct E6 as (ks & K1 & K2 & kids & K3 & K4). exists ks, kids. split; [exact K1|]. split; [exact K3|].
    split; [eapply Forall_impl; [|exact K2]; simpl; tauto|].
    intros j k kid Hk Hkid Hk0. apply Hnth.
    assert (Hlt : k < t_idx t) by (rewrite Forall_forall in K2; apply (K2 k); eapply nth_error_In; exact Hk).
    rewrite <- (R5 (Z.to_nat k)) by lia.
    apply mapM_forall2 in K4. clear - K4 Hk Hkid Hk0. revert j Hk Hkid. induction K4 as [|a b l l' Hab _ IH]; intros [|j] Hk Hkid; try discriminate.
    + injection Hk as ->. injection Hkid as ->. apply kid_slot_kid; assumption.
    + eapply IH; eassumption.
Qed.

(** ** a word or char scheme is built iff the table is sane *)
Lemma flat_built_iff k table : k = KWord \/ k = KChar ->
  (exists s, make_scheme k table = Ok s) <-> starts_reserved table /\ distinct_names table.
Proof.
  intros Hk. split.
  - intros (s & H). apply (make_flat_inv k table s Hk) in H. tauto.
  - intros [H1 H2]. eexists. apply (make_flat_inv k table _ Hk). split; [exact H1|]. split; [exact H2|reflexivity].
Qed.

(** ** what the header says *)
Lemma jget_update meta : forall d k, NoDup (map fst meta) ->
  jget k (fold_left (fun d kv => dset str_eqb (fst kv) (snd kv) d) meta d) =
  match dget str_eqb k meta with Some v => Some v | None => jget k d end.
Proof.
  unfold jget. induction meta as [|[k' v'] meta IH]; intros d k Hnd; [reflexivity|].
  inversion Hnd as [|? ? Hni Hnd']; subst. cbn [fold_left fst snd]. rewrite IH by exact Hnd'. cbn [dget].
  destruct (str_eqb k k') eqn:E.
  - apply str_eqb_eq in E. subst k'. rewrite (proj2 (dget_None str_eqb str_eqb_eq k meta)) by exact Hni.
    apply (dget_dset_same str_eqb str_eqb_eq).
  - destruct (dget str_eqb k meta); [reflexivity|]. apply (dget_dset_other str_eqb str_eqb_eq).
    intros ->. rewrite str_eqb_refl in E. discriminate.
Qed.
Lemma counter_keys {K} (eqb : K -> K -> bool) (Heq : forall a b, eqb a b = true <-> a = b) l : forall d x,
  In x (map fst (counter_update eqb l d)) <-> In x (map fst d) \/ In x l.
Proof.
  unfold counter_update. induction l as [|y l IH]; intros d x; cbn [fold_left]; [simpl; tauto|].
  rewrite IH. unfold dadd. fold (dkeys (dset eqb y (dget_def eqb y 0 d + 1) d)). rewrite (dkeys_dset eqb).
  unfold dkeys. destruct (dmem eqb y d) eqn:Em.
  - simpl. split; [tauto|]. intros [H|[->|H]]; auto. left.
    apply (dmem_spec eqb Heq) in Em. exact Em.
  - rewrite in_app_iff. simpl. tauto.
Qed.
Lemma py_max_spec l z : py_max l = Ok z -> In z l /\ forall x, In x l -> x <= z.
Proof.
  unfold py_max. destruct l as [|a l]; [discriminate|]. intros H. injection H as <-.
  revert a. induction l as [|b l IH]; intros a; simpl.
  - split; [auto|]. intros x [->|[]]; lia.
  - destruct (IH (Z.max a b)) as [[H1|H1] H2].
    + split.
      * destruct (Z.max_spec a b) as [[_ E]|[_ E]]; rewrite E in *; rewrite <- H1; auto.
      * intros x Hx. assert (Z.max a b <= fold_left Z.max l (Z.max a b)) by (apply H2; left; reflexivity).
        destruct Hx as [->|[->|Hx]]; [lia|lia|apply H2; right; exact Hx].
    + split; [auto|]. intros x Hx.
      assert (Z.max a b <= fold_left Z.max l (Z.max a b)) by (apply H2; left; reflexivity).
      destruct Hx as [->|[->|Hx]]; [lia|lia|apply H2; right; exact Hx].
Qed.

Lemma level_get l levels : forall d : list (Z * Z),
  dget Z.eqb l (counter_update Z.eqb levels d) =
  match dget Z.eqb l d with
  | Some n => Some (n + Z.of_nat (length (filter (fun x => x =? l) levels)))
  | None => let n := length (filter (fun x => x =? l) levels) in
            if Nat.eqb n 0 then None else Some (Z.of_nat n)
  end.
Proof.
  unfold counter_update. induction levels as [|x levels IH]; intros d; cbn [fold_left filter].
  - destruct (dget Z.eqb l d); cbn; [f_equal; lia|reflexivity].
  - rewrite IH. unfold dadd, dget_def. rewrite (dget_dset Z.eqb Z.eqb_eq).
    rewrite (Z.eqb_sym l x). destruct (Z.eqb_spec x l) as [->|Hn]; [|reflexivity].
    destruct (dget Z.eqb l d); cbn [length Nat.eqb]; cbv zeta; f_equal; lia.
Qed.
Lemma jget_levels l (d : list (Z * Z)) :
  jget (str_of_Z l) (map (fun lc => (str_of_Z (fst lc), JInt (snd lc))) d) = option_map JInt (dget Z.eqb l d).
Proof.
  unfold jget. induction d as [|[k v] d IH]; cbn [map dget fst snd]; [reflexivity|].
  destruct (Z.eqb_spec l k) as [->|Hn].
  - rewrite (proj2 (str_eqb_eq _ _) eq_refl). reflexivity.
  - destruct (str_eqb (str_of_Z l) (str_of_Z k)) eqn:E; [|exact IH].
    apply str_eqb_eq, str_of_Z_inj in E. contradiction.
Qed.
Lemma levels_get l table :
  jget (str_of_Z l) (map (fun lc => (str_of_Z (fst lc), JInt (snd lc))) (levels_of table)) =
  let n := length (filter (fun t => t_level t =? l) table) in
  if Nat.eqb n 0 then None else Some (JInt (Z.of_nat n)).
Proof.
  rewrite jget_levels. unfold levels_of. rewrite level_get. cbn [dget].
  assert (E : length (filter (fun x => x =? l) (map t_level table)) =
              length (filter (fun t => t_level t =? l) table)).
  { induction table as [|t table IH]; cbn [map filter]; [reflexivity|].
    destruct (t_level t =? l); cbn [length]; congruence. }
  rewrite E. cbv zeta. destruct (Nat.eqb _ 0); reflexivity.
Qed.

Theorem write_read_meta version now table meta :
  scalars version -> scalars now -> meta_ok meta -> NoDup (map fst meta) -> storable table ->
  exists bytes m, write_out version now table meta = (bytes, Ok tt) /\
    read_vocab bytes = Ok (table, Some (JObj m)) /\
    (forall k v, In (k, v) meta -> jget k m = Some v) /\
    (~ In (lit "total") (map fst meta) -> jget (lit "total") m = Some (JInt (Z.of_nat (length table)))) /\
    (~ In (lit "version") (map fst meta) -> jget (lit "version") m = Some (JStr version)) /\
    (~ In (lit "max_level") (map fst meta) -> exists z, jget (lit "max_level") m = Some (JInt z) /\
       (exists t, In t table /\ t_level t = z) /\ forall t, In t table -> t_level t <= z) /\
    (~ In (lit "levels") (map fst meta) -> exists ls, jget (lit "levels") m = Some (JObj ls) /\
       forall l, jget (str_of_Z l) ls =
         let n := length (filter (fun t => t_level t =? l) table) in
         if Nat.eqb n 0 then None else Some (JInt (Z.of_nat n))).
Proof.
  intros Hv Hn Hm Hnd Hst. destruct (write_read version now table meta Hv Hn Hm Hst) as (bytes & z & Hw & Hz & Hr).
  exists bytes, (vocab_header version now table z meta). split; [exact Hw|]. split; [exact Hr|].
  assert (G : forall k, ~ In k (map fst meta) -> dget str_eqb k meta = None).
  { intros k. apply (dget_None str_eqb str_eqb_eq). }
  unfold vocab_header. split; [|split; [|split; [|split]]].
  - intros k v Hin. rewrite jget_update by exact Hnd.
    rewrite (In_dget str_eqb str_eqb_eq k v meta) by assumption. reflexivity.
  - intros H. rewrite jget_update, G by assumption. reflexivity.
  - intros H. rewrite jget_update, G by assumption. reflexivity.
  - intros H. exists z. rewrite jget_update, G by assumption. split; [reflexivity|].
    apply py_max_spec in Hz. destruct Hz as [Hz1 Hz2]. unfold dkeys, levels_of in *. split.
    + apply (counter_keys Z.eqb Z.eqb_eq) in Hz1. destruct Hz1 as [[]|Hz1]. apply in_map_iff in Hz1.
      destruct Hz1 as (t & E & Ht). eauto.
    + intros t Ht. apply Hz2. apply (counter_keys Z.eqb Z.eqb_eq). right. apply in_map, Ht.
  - intros H. eexists. rewrite jget_update, G by assumption. split; [reflexivity|]. intros l. apply levels_get.
Qed.

(** refusals, stated on the rows *)
Theorem read_refuses_number bytes n row c0 rest :
  nth_error (rows_of bytes) n = Some row -> split_on TAB row = c0 :: rest ->
  int_of_str c0 <> Ok (Z.of_nat n) -> exists e, read_vocab bytes = Raise e.
Proof.
  intros Hrow Hs Hi. destruct (read_vocab bytes) as [[table meta]|e] eqn:E; [|eauto]. exfalso.
  apply read_vocab_sound in E. destruct E as (_ & _ & H).
  destruct (H n row Hrow) as (t & d0 & d1 & d2 & d3 & r & _ & E & E0 & _). congruence.
Qed.
Theorem read_refuses_kid bytes n row c0 c1 c2 c3 c4 rest w k :
  nth_error (rows_of bytes) n = Some row -> split_on TAB row = c0 :: c1 :: c2 :: c3 :: c4 :: rest ->
  In w (split c4) -> int_of_str w = Ok k -> Z.of_nat n <= k -> exists e, read_vocab bytes = Raise e.
Proof.
  intros Hrow Hs Hin Hw Hk. destruct (read_vocab bytes) as [[table meta]|e] eqn:E; [|eauto]. exfalso.
  apply read_vocab_sound in E. destruct E as (_ & _ & H).
  destruct (H n row Hrow) as (t & d0 & d1 & d2 & d3 & r & _ & E & _ & _ & _ & _ & Hr).
  rewrite Hs in E. injection E as <- <- <- <- <-.
  destruct c4 as [|x c4]; [destruct Hin|].
  destruct Hr as (ks & kids & K1 & _ & K3 & _). apply mapM_forall2 in K1.
  assert (In k ks).
  { clear - K1 Hin Hw. induction K1 as [|a b l l' Hab _ IH]; [destruct Hin|]. destruct Hin as [->|Hin].
    - left. congruence.
    - right. apply IH, Hin. }
  rewrite Forall_forall in K3. specialize (K3 k H0). lia.
Qed.

Lemma write_out_text version now table meta :
  storable table -> exists z,
  write_out version now table meta =
  (utf8_encode_ignore (vocab_text (vocab_header version now table z meta) table), Ok tt).
Proof.
  intros (Hne & Hw & _). destruct (levels_of_nonempty table Hne) as (z & Ez). exists z.
  unfold write_out. rewrite Ez, write_rows_ok by (intros n t E; rewrite (Hw n t E); lia). reflexivity.
Qed.

(** ** choosing the scheme *)
Lemma load_named bytes types m name k :
  read_vocab bytes = Ok (types, Some (JObj m)) -> jget (lit "scheme") m = Some (JStr name) ->
  In (name, k) published_schemes -> load_scheme bytes = make_scheme k types.
Proof.
  intros Hr Hg Hin. unfold load_scheme. rewrite Hr. cbn [bind]. destruct m as [|kv m]; [discriminate Hg|].
  rewrite Hg.
  assert (E : dget str_eqb name REGISTRY = Some k).
  { repeat (destruct Hin as [Hin|Hin]; [injection Hin as <- <-; reflexivity|]). destruct Hin. }
  rewrite E. reflexivity.
Qed.
Lemma load_unnamed bytes types m name :
  read_vocab bytes = Ok (types, Some (JObj m)) -> jget (lit "scheme") m = Some (JStr name) ->
  ~ In name (map fst published_schemes) -> load_scheme bytes = Raise KeyError.
Proof.
  intros Hr Hg Hin. unfold load_scheme. rewrite Hr. cbn [bind]. destruct m as [|kv m]; [discriminate Hg|].
  rewrite Hg.
  assert (E : dget str_eqb name REGISTRY = None).
  { apply (dget_None str_eqb str_eqb_eq). intros H. apply Hin. cbn in H |- *. tauto. }
  rewrite E. reflexivity.
Qed.
Lemma load_by_level bytes types m z :
  read_vocab bytes = Ok (types, Some (JObj m)) -> jget (lit "scheme") m = None ->
  jget (lit "max_level") m = Some (JInt z) ->
  (forall k, 0 <= z -> nth_error schemes_by_level (Z.to_nat z) = Some k -> load_scheme bytes = make_scheme k types) /\
  (Z.of_nat (length schemes_by_level) <= z -> load_scheme bytes = Raise AssertionError).
Proof.
  intros Hr Hs Hg. unfold load_scheme. rewrite Hr. cbn [bind]. destruct m as [|kv m]; [discriminate Hg|].
  rewrite Hs, Hg. split.
  - intros k Hz Hk.
    assert (Hlt : (Z.to_nat z < 4)%nat). { change 4%nat with (length schemes_by_level). apply nth_error_Some. rewrite Hk. discriminate. }
    assert (Hc : z = 0 \/ z = 1 \/ z = 2 \/ z = 3) by lia.
    destruct Hc as [->|[->|[->| ->]]]; injection Hk as <-; reflexivity.
  - cbn. intros Hz. unfold kind_of_level. cbn [length].
    destruct (Z.ltb_spec z (Z.of_nat 4)) as [H|H]; [lia|]. reflexivity.
Qed.
Lemma load_no_header bytes types : read_vocab bytes = Ok (types, None) -> load_scheme bytes = Raise AssertionError.
Proof. intros Hr. unfold load_scheme. rewrite Hr. reflexivity. Qed.
Theorem old_files version now table meta z k t0 :
  scalars version -> scalars now -> meta_ok meta -> NoDup (map fst meta) -> storable table ->
  ~ In (lit "scheme") (map fst meta) -> ~ In (lit "max_level") (map fst meta) ->
  In t0 table -> t_level t0 = z -> (forall t, In t table -> t_level t <= z) -> 0 <= z ->
  nth_error schemes_by_level (Z.to_nat z) = Some k ->
  exists bytes, write_out version now table meta = (bytes, Ok tt) /\ load_scheme bytes = make_scheme k table.
Proof.
  intros Hv Hn Hm Hnd Hst Hns Hnm Hin Hz Hmax H0 Hk.
  destruct (write_read version now table meta Hv Hn Hm Hst) as (bytes & z' & Hw & Hz' & Hr).
  exists bytes. split; [exact Hw|].
  assert (G : forall key, ~ In key (map fst meta) -> dget str_eqb key meta = None).
  { intros key. apply (dget_None str_eqb str_eqb_eq). }
  assert (E : z' = z).
  { apply py_max_spec in Hz'. destruct Hz' as [A B]. unfold dkeys, levels_of in *.
    apply (counter_keys Z.eqb Z.eqb_eq) in A. destruct A as [[]|A]. apply in_map_iff in A.
    destruct A as (t & Et & Ht). specialize (Hmax t Ht). rewrite Et in Hmax.
    assert (z <= z'); [|lia]. apply B. apply (counter_keys Z.eqb Z.eqb_eq). right.
    rewrite <- Hz. apply in_map, Hin. }
  subst z'. refine (proj1 (load_by_level bytes table _ z Hr _ _) k H0 Hk);
    unfold vocab_header; rewrite jget_update, G by assumption; reflexivity.
Qed.
