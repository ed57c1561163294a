(** Command line encode and decode: per-line facts and the whole pipeline. *)
From Coq Require Import Strings.String.
From Verif Require Import Py PyLemmas PyStr StrSpec PyStrProofs NumProofs JsonProofs CodecModel CodecSpec
  FlatProofs BpeProofs Utf8Model Utf8Proofs ByteProofs VocabFileModel VocabSpec VocabFileProofs CliModel CliSpec.
Local Open Scope Z_scope.
Local Open Scope list_scope.

Lemma Forall2_len {A B} (P : A -> B -> Prop) l l' : Forall2 P l l' -> length l = length l'.
Proof. induction 1; cbn; congruence. Qed.

(** ** lines *)
Lemma universal_nl_app l r : no_break l -> universal_nl (l ++ r) = l ++ universal_nl r.
Proof.
  intros [Hl Hc]. induction l as [|c l IH]; [reflexivity|].
  assert (E : universal_nl (l ++ r) = l ++ universal_nl r) by (apply IH; intro Hi; [apply Hl|apply Hc]; right; exact Hi).
  assert (Hc' : c <> 13%N) by (intros ->; apply Hc; left; reflexivity).
  cbn [app].
  destruct c as [|p]; [simpl; rewrite E; reflexivity|].
  do 4 (destruct p as [p|p|]; try (simpl; rewrite E; reflexivity); try congruence).
Qed.
Lemma lines_aux_last l cur : ~ In LF l -> l <> [] -> lines_aux cur l = [rev cur ++ l].
Proof.
  revert cur. induction l as [|c l IH]; intros cur Hl Hne; [congruence|].
  cbn [lines_aux]. destruct (N.eqb_spec c LF) as [->|Hc]; [exfalso; apply Hl; left; reflexivity|].
  destruct l as [|d l]; [reflexivity|].
  rewrite IH; [|intro Hi; apply Hl; right; exact Hi|discriminate]. simpl. rewrite <- app_assoc. reflexivity.
Qed.
Definition line_read (x l : str) : Prop := x = l \/ x = l ++ [LF].
Lemma file_lines_spec text ls : lines_of text ls -> Forall2 line_read (file_lines text) ls.
Proof.
  unfold file_lines. induction 1 as [|l Hne Hb|l r ls Hb H IH|l r ls Hb H IH|l r ls Hb H IH Hr].
  - constructor.
  - rewrite <- (app_nil_r l) at 1. rewrite universal_nl_app by exact Hb. rewrite app_nil_r.
    rewrite lines_aux_last; [|exact (proj1 Hb)|exact Hne]. constructor; [left; reflexivity|constructor].
  - rewrite universal_nl_app by exact Hb. change (universal_nl ([10%N] ++ r)) with (LF :: universal_nl r).
    rewrite lines_aux_line by exact (proj1 Hb). constructor; [right; reflexivity|exact IH].
  - rewrite universal_nl_app by exact Hb. change (universal_nl ([13; 10]%N ++ r)) with (LF :: universal_nl r).
    rewrite lines_aux_line by exact (proj1 Hb). constructor; [right; reflexivity|exact IH].
  - rewrite universal_nl_app by exact Hb.
    assert (E : universal_nl ([13%N] ++ r) = LF :: universal_nl r).
    { cbn [app]. destruct r as [|c r]; [reflexivity|]. assert (c <> 10%N) by (intros ->; apply (Hr r); reflexivity).
      destruct c as [|p]; [reflexivity|]. do 4 (destruct p as [p|p|]; try reflexivity; try congruence). }
    rewrite E, lines_aux_line by exact (proj1 Hb). constructor; [right; reflexivity|exact IH].
Qed.
(** every text has lines *)
Lemma lines_of_total text : exists ls, lines_of text ls.
Proof.
  assert (Hgen : forall n text, (length text <= n)%nat -> exists ls, lines_of text ls).
  { induction n as [|n IH]; intros [|c t] Hlen; try (exists []; constructor); [cbn in Hlen; lia|].
    (* the first line *)
    assert (Hsp : forall t, (exists l r, t = l ++ 10%N :: r /\ no_break l) \/ (exists l r, t = l ++ 13%N :: r /\ no_break l) \/ no_break t).
    { clear. intro t. induction t as [|c t IH]; [right; right; split; intros []|].
      destruct (N.eqb_spec c 10) as [->|H10]; [left; exists [], t; split; [reflexivity|split; intros []]|].
      destruct (N.eqb_spec c 13) as [->|H13]; [right; left; exists [], t; split; [reflexivity|split; intros []]|].
      destruct IH as [(l & r & -> & Hl)|[(l & r & -> & Hl)|Hl]].
      - left. exists (c :: l), r. split; [reflexivity|]. split; intros [E|E]; try congruence; revert E; apply Hl.
      - right; left. exists (c :: l), r. split; [reflexivity|]. split; intros [E|E]; try congruence; revert E; apply Hl.
      - right; right. split; intros [E|E]; try congruence; revert E; apply Hl. }
    destruct (Hsp (c :: t)) as [(l & r & E & Hl)|[(l & r & E & Hl)|Hl]].
    - rewrite E in Hlen. rewrite app_length in Hlen. cbn in Hlen.
      destruct (IH r ltac:(lia)) as [ls Hls]. exists (l :: ls). rewrite E.
      change (l ++ 10%N :: r) with (l ++ [10%N] ++ r). apply Lo_lf; assumption.
    - rewrite E in Hlen. rewrite app_length in Hlen. cbn in Hlen.
      destruct r as [|d r].
      + exists [l]. rewrite E. change (l ++ [13%N]) with (l ++ [13%N] ++ []). apply Lo_cr; [exact Hl|constructor|discriminate].
      + destruct (N.eqb_spec d 10) as [->|Hd].
        * destruct (IH r ltac:(cbn in Hlen; lia)) as [ls Hls]. exists (l :: ls). rewrite E.
          change (l ++ 13%N :: 10%N :: r) with (l ++ [13; 10]%N ++ r). apply Lo_crlf; assumption.
        * destruct (IH (d :: r) ltac:(lia)) as [ls Hls]. exists (l :: ls). rewrite E.
          change (l ++ 13%N :: d :: r) with (l ++ [13%N] ++ d :: r). apply Lo_cr; [exact Hl|exact Hls|congruence].
    - exists [c :: t]. apply Lo_last; [discriminate|exact Hl]. }
  exact (Hgen (length text) text (le_n _)).
Qed.

(** ** the pipeline, given the per-line facts *)
Lemma write_lines_ok f lines outs : Forall2 (fun l o => f l = Ok o) lines outs ->
  write_lines f lines = (unlines outs, None).
Proof.
  induction 1 as [|l o lines outs H _ IH]; [reflexivity|]. cbn [write_lines]. rewrite H, IH.
  unfold unlines. cbn [flat_map]. rewrite <- app_assoc. reflexivity.
Qed.
Lemma write_lines_raise f lines l rest outs e : Forall2 (fun l o => f l = Ok o) lines outs -> f l = Raise e ->
  write_lines f (lines ++ l :: rest) = (unlines outs, Some e).
Proof.
  intros H Hl. induction H as [|x o lines outs Hx _ IH]; cbn [app write_lines]; [rewrite Hl; reflexivity|].
  rewrite Hx, IH. unfold unlines. cbn [flat_map]. rewrite <- app_assoc. reflexivity.
Qed.
Lemma pipeline model s idx inp ls (Q : str -> str -> Prop) :
  load_scheme model = Ok s -> lines_of inp ls ->
  (forall l x, In l ls -> line_read x l ->
     exists enc out, encode_line s idx x = Ok enc /\ no_break enc /\ decode_line s idx (enc ++ [LF]) = Ok out /\ Q l out) ->
  exists encs outs, cli_encode model idx inp = (unlines encs, None) /\
    cli_decode model idx (unlines encs) = (unlines outs, None) /\ Forall2 Q ls outs /\ length encs = length ls.
Proof.
  intros Hm Hl Hp. unfold cli_encode, cli_decode, cli. rewrite Hm. apply file_lines_spec in Hl.
  assert (H : exists encs outs, Forall2 (fun l o => encode_line s idx l = Ok o) (file_lines inp) encs /\
    Forall (fun l => ~ In LF l /\ ~ In CR l) encs /\
    Forall2 (fun l o => decode_line s idx l = Ok o) (map with_nl encs) outs /\ Forall2 Q ls outs).
  { clear Hm. revert Hp. generalize (file_lines inp) Hl. clear. intros xs Hl. induction Hl as [|x l xs ls Hx Hl IH]; intro Hp.
    - exists [], []. repeat split; constructor.
    - destruct IH as (encs & outs & H1 & H2 & H3 & H4); [intros l' x' Hin; apply Hp; right; exact Hin|].
      destruct (Hp l x (or_introl eq_refl) Hx) as (enc & out & E1 & E2 & E3 & E4).
      exists (enc :: encs), (out :: outs). split; [constructor; assumption|]. split; [constructor; [exact E2|exact H2]|].
      split; [cbn [map]; constructor; assumption|constructor; assumption]. }
  destruct H as (encs & outs & H1 & H2 & H3 & H4). exists encs, outs.
  split; [apply write_lines_ok, H1|]. split.
  - change (unlines encs) with (flat_map with_nl encs). rewrite file_lines_of by exact H2. apply write_lines_ok, H3.
  - split; [exact H4|]. apply Forall2_len in H1. apply Forall2_len in Hl. congruence.
Qed.

(** ** per line *)
Lemma split_line_read x l : line_read x l -> split x = split l.
Proof.
  intros [->| ->]; [reflexivity|]. apply (split_words_of (l ++ [LF])).
  apply words_of_app_gap; [apply words_of_split|]. constructor; [reflexivity|constructor].
Qed.
Lemma split_joined ws : Forall is_word ws -> split (join [SPACE] ws ++ [LF]) = ws.
Proof.
  intro H. apply split_words_of. apply words_of_app_gap; [|constructor; [reflexivity|constructor]].
  rewrite join_spaced. apply words_of_spaced, H.
Qed.
Lemma word_no_break w : is_word w -> no_break w.
Proof. intros [_ H]. rewrite Forall_forall in H. split; intro Hi; apply H in Hi; discriminate Hi. Qed.
Lemma joined_no_break ws : Forall is_word ws -> no_break (join [SPACE] ws).
Proof.
  intro H. rewrite Forall_forall in H. rewrite join_spaced. split; intro Hi; apply In_spaced in Hi as [(w & Hw & Hc)|E]; try discriminate E;
    revert Hc; apply (word_no_break w (H w Hw)).
Qed.
Lemma str_of_Z_word z : is_word (str_of_Z z).
Proof.
  destruct (str_of_Z_chars z) as [H1 H2]. split; [exact H2|]. eapply Forall_impl; [|exact H1].
  intros c [Hc| ->]; [|reflexivity]. unfold is_digit in Hc. apply andb_true_iff in Hc as [Ha Hb].
  apply N.leb_le in Ha. apply N.leb_le in Hb. unfold is_space.
  repeat match goal with |- context[(?a <=? ?b)%N] => destruct (N.leb_spec a b); try lia | |- context[(?a =? ?b)%N] => destruct (N.eqb_spec a b); try lia end; reflexivity.
Qed.
Lemma ints_back ids : mapM int_of_str (map str_of_Z ids) = Ok ids.
Proof. induction ids as [|z ids IH]; [reflexivity|]. cbn [map mapM]. rewrite int_of_str_of_Z. cbn [bind]. rewrite IH. reflexivity. Qed.
(** through pieces, through ids *)
Lemma line_pieces s x l ps out : line_read x l -> encode_str s x = Ok ps -> Forall is_word ps -> decode_str s ps = Ok out ->
  exists enc, encode_line s false x = Ok enc /\ no_break enc /\ decode_line s false (enc ++ [LF]) = Ok out.
Proof.
  intros Hx He Hw Hd. exists (join [SPACE] ps). unfold encode_line, decode_line. rewrite He. split; [reflexivity|].
  split; [apply joined_no_break, Hw|]. rewrite split_joined by exact Hw. exact Hd.
Qed.
Lemma line_ids s x l ids out : line_read x l -> encode s x = Ok ids -> decode s ids = Ok out ->
  exists enc, encode_line s true x = Ok enc /\ no_break enc /\ decode_line s true (enc ++ [LF]) = Ok out.
Proof.
  intros Hx He Hd. exists (join [SPACE] (map str_of_Z ids)). unfold encode_line, decode_line. rewrite He. split; [reflexivity|].
  assert (Hw : Forall is_word (map str_of_Z ids)) by (apply Forall_forall; intros w Hi; apply in_map_iff in Hi as (z & <- & _); apply str_of_Z_word).
  split; [apply joined_no_break, Hw|]. rewrite split_joined by exact Hw. rewrite ints_back. exact Hd.
Qed.

(** ** loaded schemes *)
Lemma load_make model s : load_scheme model = Ok s -> exists k table meta, read_vocab model = Ok (table, meta) /\ make_scheme k table = Ok s.
Proof.
  unfold load_scheme. destruct (read_vocab model) as [[types meta]|e] eqn:E; [|discriminate]. cbn [bind].
  destruct meta as [[| | | | |[|kv m]]|]; try discriminate.
  match goal with |- bind ?x _ = _ -> _ => destruct x as [k|]; [|discriminate] end. cbn [bind].
  intro H. exists k, types. eexists. split; [exact eq_refl|exact H].
Qed.
Lemma make_kind k table s : make_scheme k table = Ok s -> s_kind s = k.
Proof.
  destruct k; intro H.
  - apply (make_flat_inv KWord table s (or_introl eq_refl)) in H as (_ & _ & ->). reflexivity.
  - apply (make_flat_inv KChar table s (or_intror eq_refl)) in H as (_ & _ & ->). reflexivity.
  - apply make_bpe_inv in H as (_ & _ & ->). reflexivity.
  - apply make_class_inv in H as (_ & ->). reflexivity.
  - unfold make_scheme in H. apply encoder_init_inv in H as (_ & _ & ->). reflexivity.
Qed.
Lemma load_kind model s k : load_scheme model = Ok s -> s_kind s = k -> k <> KByte ->
  make_scheme k (s_table s) = Ok s /\ well_indexed (s_table s).
Proof.
  intros Hl Hk Hb. apply load_make in Hl as (k' & table & meta & Hr & Hm).
  pose proof (make_kind _ _ _ Hm) as Ek. rewrite Hk in Ek. subst k'.
  assert (Et : s_table s = table).
  { destruct k.
    - apply (make_flat_inv KWord table s (or_introl eq_refl)) in Hm as (_ & _ & ->). reflexivity.
    - apply (make_flat_inv KChar table s (or_intror eq_refl)) in Hm as (_ & _ & ->). reflexivity.
    - apply make_bpe_inv in Hm as (_ & _ & ->). reflexivity.
    - apply make_class_inv in Hm as (_ & ->). reflexivity.
    - congruence. }
  rewrite Et. split; [exact Hm|]. apply read_vocab_sound in Hr. apply Hr.
Qed.

(** ** word models *)
Lemma word_pieces_cli model s inp ls : load_scheme model = Ok s -> s_kind s = KWord -> lines_of inp ls ->
  exists encs outs, cli_encode model false inp = (unlines encs, None) /\
    cli_decode model false (unlines encs) = (unlines outs, None) /\ Forall2 normal ls outs /\ length encs = length ls.
Proof.
  intros Hm Hk Hl. eapply pipeline; [exact Hm|exact Hl|]. intros l x _ Hx.
  assert (He : encode_str s x = Ok (split l)) by (unfold encode_str; rewrite Hk, (split_line_read x l Hx); reflexivity).
  assert (Hd : decode_str s (split l) = Ok (join [SPACE] (split l))) by (unfold decode_str; rewrite Hk; reflexivity).
  destruct (line_pieces s x l _ _ Hx He (split_is_word l) Hd) as (enc & H1 & H2 & H3).
  exists enc, (join [SPACE] (split l)). repeat (split; [assumption|]). apply normal_spaced, join_spaced.
Qed.
Lemma shown_all table ws outs : Forall (has_name table) ws -> Forall2 (shown table) ws outs -> outs = ws.
Proof.
  intros H H2. induction H2 as [|w o ws outs Ho _ IH]; [reflexivity|]. inversion H; subst.
  destruct Ho as [[_ ->]|[Hn _]]; [|contradiction]. f_equal. apply IH. assumption.
Qed.
Lemma word_ids_cli model s inp ls : load_scheme model = Ok s -> s_kind s = KWord -> lines_of inp ls ->
  (forall l ws w, In l ls -> words_of l ws -> In w ws -> has_name (s_table s) w) ->
  exists encs outs, cli_encode model true inp = (unlines encs, None) /\
    cli_decode model true (unlines encs) = (unlines outs, None) /\ Forall2 normal ls outs /\ length encs = length ls.
Proof.
  intros Hm Hk Hl Hc. destruct (load_kind _ _ _ Hm Hk ltac:(discriminate)) as [Hmk _].
  eapply pipeline; [exact Hm|exact Hl|]. intros l x Hin Hx.
  destruct (word_ids _ _ x Hmk) as (ws & ids & outs & Hw & He & _ & Ho & Hd).
  assert (Ew : words_of l ws) by (apply words_of_iff; rewrite <- (split_line_read x l Hx); apply words_of_iff; exact Hw).
  assert (Eo : outs = ws) by (eapply shown_all; [|exact Ho]; apply Forall_forall; intros w Hiw; eapply Hc; eassumption).
  subst outs. destruct (line_ids s x l _ _ Hx He Hd) as (enc & H1 & H2 & H3).
  exists enc, (spaced SPACE ws). repeat (split; [assumption|]). exists ws. split; [exact Ew|reflexivity].
Qed.

(** ** char models *)
Definition unmarked_normal (l out : str) : Prop := exists norm, normal l norm /\ out = unmark norm.
Lemma char_words (text : str) : Forall (fun c => is_space c = false) text -> Forall is_word (map (fun c => [c]) text).
Proof.
  intro H. apply Forall_map. eapply Forall_impl; [|exact H]. intros c Hc. split; [discriminate|constructor; [exact Hc|constructor]].
Qed.
Lemma marked_chars ws : Forall is_word ws -> Forall (fun c => is_space c = false) (spaced MARK ws).
Proof.
  intro H. rewrite Forall_forall in *. intros c Hc. apply In_spaced in Hc as [(w & Hw & Hc)|E]; [|subst c; reflexivity].
  destruct (H w Hw) as [_ Hf]. rewrite Forall_forall in Hf. apply Hf, Hc.
Qed.
Lemma char_pieces_cli model s inp ls : load_scheme model = Ok s -> s_kind s = KChar -> lines_of inp ls ->
  exists encs outs, cli_encode model false inp = (unlines encs, None) /\
    cli_decode model false (unlines encs) = (unlines outs, None) /\ Forall2 unmarked_normal ls outs /\ length encs = length ls.
Proof.
  intros Hm Hk Hl. eapply pipeline; [exact Hm|exact Hl|]. intros l x _ Hx.
  assert (He : encode_str s x = Ok (map (fun c => [c]) (spaced MARK (split l))))
    by (unfold encode_str; rewrite Hk, (split_line_read x l Hx), join_spaced; reflexivity).
  assert (Hd : decode_str s (map (fun c => [c]) (spaced MARK (split l))) = Ok (unmark (spaced SPACE (split l))))
    by (unfold decode_str; rewrite Hk, concat_singletons, replace_char_unmark, unmark_spaced; reflexivity).
  destruct (line_pieces s x l _ _ Hx He (char_words _ (marked_chars _ (split_is_word l))) Hd) as (enc & H1 & H2 & H3).
  exists enc, (unmark (spaced SPACE (split l))). repeat (split; [assumption|]). exists (spaced SPACE (split l)).
  split; [apply normal_spaced; reflexivity|reflexivity].
Qed.
Lemma shown_chars table text outs : Forall (fun c => has_name table [c]) text -> Forall2 (fun c o => shown table [c] o) text outs ->
  concat outs = text.
Proof.
  intros H H2. induction H2 as [|w o ws outs Ho _ IH]; [reflexivity|]. inversion H; subst. cbn [concat].
  destruct Ho as [[_ ->]|[Hn _]]; [|contradiction]. cbn [app]. f_equal. apply IH. assumption.
Qed.
Lemma char_ids_cli model s inp ls : load_scheme model = Ok s -> s_kind s = KChar -> lines_of inp ls ->
  (forall l c, In l ls -> In c l -> is_space c = false -> has_name (s_table s) [c]) ->
  exists encs outs, cli_encode model true inp = (unlines encs, None) /\
    cli_decode model true (unlines encs) = (unlines outs, None) /\ Forall2 unmarked_normal ls outs /\ length encs = length ls.
Proof.
  intros Hm Hk Hl Hc. destruct (load_kind _ _ _ Hm Hk ltac:(discriminate)) as [Hmk _].
  eapply pipeline; [exact Hm|exact Hl|]. intros l x Hin Hx.
  destruct (char_ids _ _ x Hmk) as (ws & ids & outs & Hw & He & _ & Ho & Hd).
  assert (Ew : words_of l ws) by (apply words_of_iff; rewrite <- (split_line_read x l Hx); apply words_of_iff; exact Hw).
  assert (Hmark : has_name (s_table s) [MARK]).
  { apply (make_flat_inv KChar _ s (or_intror eq_refl)) in Hmk as (Hr & _ & _). apply has_name_map.
    rewrite <- (firstn_skipn 6 (map t_name (s_table s))). rewrite Hr. apply in_or_app. left. do 5 right. left. reflexivity. }
  assert (Eo : concat outs = spaced MARK ws).
  { eapply shown_chars; [|exact Ho]. apply Forall_forall. intros c Hic. apply In_spaced in Hic as [(w & Hiw & Hic)| ->]; [|exact Hmark].
    apply words_of_iff in Ew. pose proof (split_is_word l) as Hws. rewrite Ew in Hws. rewrite Forall_forall in Hws.
    destruct (Hws w Hiw) as [_ Hf]. rewrite Forall_forall in Hf.
    apply (Hc l c Hin); [|apply Hf, Hic]. eapply words_of_chars; [apply words_of_iff; exact Ew|exact Hiw|exact Hic]. }
  rewrite Eo, unmark_spaced in Hd. destruct (line_ids s x l _ _ Hx He Hd) as (enc & H1 & H2 & H3).
  exists enc, (unmark (spaced SPACE ws)). repeat (split; [assumption|]). exists (spaced SPACE ws). split; [|reflexivity].
  exists ws. split; [exact Ew|reflexivity].
Qed.

(** ** bpe models *)
Definition bpe_restored (l out : str) : Prop :=
  exists norm, normal l norm /\ trimmed (unmark norm) out /\ (~ In MARK l -> out = norm).
Lemma bpe_pieces_words table text segs : Forall (fun c => is_space c = false) text -> greedy table text segs ->
  Forall is_word (map seg_piece segs).
Proof.
  intros H Hg. induction Hg as [|p rest segs Hne Hp Hmax Hg IH|c rest segs Hno Hg IH]; cbn [map]; [constructor| |].
  - apply Forall_app in H as [Ha Hb]. constructor; [|apply IH, Hb]. split; [exact Hne|exact Ha].
  - inversion H; subst. constructor; [|apply IH; assumption]. split; [discriminate|].
    apply Forall_forall. intros d Hd. vm_compute in Hd. decompose [or] Hd; subst; try reflexivity. contradiction.
Qed.
Lemma bpe_cli model s idx inp ls : load_scheme model = Ok s -> s_kind s = KBpe -> lines_of inp ls ->
  (forall l c, In l ls -> In c l -> is_space c = false -> has_name (s_table s) [c]) ->
  exists encs outs, cli_encode model idx inp = (unlines encs, None) /\
    cli_decode model idx (unlines encs) = (unlines outs, None) /\ Forall2 bpe_restored ls outs /\ length encs = length ls.
Proof.
  intros Hm Hk Hl Hc. destruct (load_kind _ _ _ Hm Hk ltac:(discriminate)) as [Hmk Hw].
  eapply pipeline; [exact Hm|exact Hl|]. intros l x Hin Hx.
  set (ws := split l). assert (Hws : words_of l ws) by apply words_of_split.
  assert (Hxw : words_of x ws) by (apply words_of_iff; apply (split_line_read x l Hx)).
  assert (Hmk' : marked x (spaced MARK ws ++ [MARK])) by (exists ws; split; [exact Hxw|reflexivity]).
  assert (Hn : normal x (spaced SPACE ws)) by (exists ws; split; [exact Hxw|reflexivity]).
  assert (Hmark : has_name (s_table s) [MARK]).
  { apply make_bpe_inv in Hmk as (Hr & _ & _). apply has_name_map.
    rewrite <- (firstn_skipn 6 (map t_name (s_table s))). rewrite Hr. apply in_or_app. left. do 5 right. left. reflexivity. }
  assert (Hcov : forall c, In c (spaced MARK ws ++ [MARK]) -> has_name (s_table s) [c]).
  { intros c Hic. apply in_app_or in Hic as [Hic|[<-|[]]]; [|exact Hmark].
    apply In_spaced in Hic as [(w & Hiw & Hic)| ->]; [|exact Hmark].
    pose proof (split_is_word l) as Hf. rewrite Forall_forall in Hf. destruct (Hf w Hiw) as [_ Hf']. rewrite Forall_forall in Hf'.
    apply (Hc l c Hin); [|apply Hf', Hic]. eapply words_of_chars; eassumption. }
  destruct (bpe_lossless _ _ x _ _ Hmk Hw Hmk' Hn Hcov) as (ps & ids & out & He & Hi & _ & Hdp & Hdi & Ht & Heq & _).
  assert (Hps : Forall is_word ps).
  { destruct (bpe_greedy _ _ x _ Hmk Hw Hmk') as (segs & Hg & He'). rewrite He in He'. injection He' as ->.
    eapply bpe_pieces_words; [|exact Hg]. apply Forall_app. split; [apply marked_chars, split_is_word|constructor; [reflexivity|constructor]]. }
  assert (HQ : bpe_restored l out).
  { exists (spaced SPACE ws). split; [exists ws; split; [exact Hws|reflexivity]|]. split; [exact Ht|]. intro HM. apply Heq.
    destruct Hx as [->| ->]; [exact HM|]. intro Hi'. apply in_app_or in Hi' as [Hi'|[E|[]]]; [contradiction|discriminate E]. }
  destruct idx.
  - destruct (line_ids s x l _ _ Hx Hi Hdi) as (enc & H1 & H2 & H3). exists enc, out. repeat (split; [assumption|]). exact HQ.
  - destruct (line_pieces s x l _ _ Hx He Hps Hdp) as (enc & H1 & H2 & H3). exists enc, out. repeat (split; [assumption|]). exact HQ.
Qed.

(** ** class models *)
Lemma strip_line_read x l : line_read x l -> strip x = strip l.
Proof.
  intros [->| ->]; [reflexivity|]. destruct (strip_decomp l) as (g1 & g2 & H1 & H2 & E). rewrite E at 1. rewrite <- !app_assoc.
  apply strip_unique; [exact H1| |apply strip_stripped]. apply Forall_app. split; [exact H2|constructor; [reflexivity|constructor]].
Qed.
Lemma class_ids_cli model s inp ls : load_scheme model = Ok s -> s_kind s = KClass -> lines_of inp ls ->
  (forall l out, In l ls -> trimmed l out -> has_name (s_table s) out) ->
  exists encs outs, cli_encode model true inp = (unlines encs, None) /\
    cli_decode model true (unlines encs) = (unlines outs, None) /\ Forall2 trimmed ls outs /\ length encs = length ls.
Proof.
  intros Hm Hk Hl Hc. destruct (load_kind _ _ _ Hm Hk ltac:(discriminate)) as [Hmk _].
  eapply pipeline; [exact Hm|exact Hl|]. intros l x Hin Hx.
  assert (Ht : trimmed l (strip l)) by (apply trimmed_strip; reflexivity).
  destruct (has_name_at _ _ (Hc l _ Hin Ht)) as [i Hi].
  destruct (strip_decomp x) as (g1 & g2 & Hg1 & Hg2 & Ex). rewrite (strip_line_read x l Hx) in Ex.
  destruct (class_labels _ _ Hmk) as [Hcl _].
  destruct (Hcl x (strip l) g1 g2 Ex Hg1 Hg2 (strip_stripped l)) as [He _]. destruct (He i Hi) as [He1 He2].
  destruct (line_ids s x l _ _ Hx He1 He2) as (enc & H1 & H2 & H3). exists enc, (strip l). repeat (split; [assumption|]). exact Ht.
Qed.
(** through pieces: lines of at most one word *)
Lemma class_pieces_cli model s inp ls : load_scheme model = Ok s -> s_kind s = KClass -> lines_of inp ls ->
  (forall l ws, In l ls -> words_of l ws -> (length ws <= 1)%nat) ->
  exists encs outs, cli_encode model false inp = (unlines encs, None) /\
    cli_decode model false (unlines encs) = (unlines outs, None) /\ Forall2 trimmed ls outs /\ length encs = length ls.
Proof.
  intros Hm Hk Hl Hc. eapply pipeline; [exact Hm|exact Hl|]. intros l x Hin Hx.
  assert (Ht : trimmed l (strip l)) by (apply trimmed_strip; reflexivity).
  assert (Es : encode_line s false x = Ok (strip l)).
  { unfold encode_line, encode_str. rewrite Hk, (strip_line_read x l Hx). reflexivity. }
  specialize (Hc l (split l) Hin (words_of_split l)).
  assert (Hn : split (strip l ++ [LF]) = split l).
  { rewrite (split_line_read _ (strip l) (or_intror eq_refl)). apply split_strip. }
  assert (Ed : decode_line s false (strip l ++ [LF]) = Ok (strip l) /\ no_break (strip l)).
  { unfold decode_line, decode_str. rewrite Hn, Hk.
    destruct (split l) as [|w [|w' ws]] eqn:E; [| |cbn in Hc; lia].
    - apply words_of_iff in E. inversion E; subst. 
      assert (strip l = []) as ->.
      { change l with ([] ++ [] ++ l). rewrite <- (app_nil_r ([] ++ l)). cbn [app]. rewrite app_nil_r.
        pose proof (strip_unique l [] [] ltac:(assumption) (Forall_nil _)) as Hu. cbn [app] in Hu. rewrite app_nil_r in Hu.
        apply Hu. split; [discriminate|]. intros c r Hr. destruct r; discriminate Hr. }
      split; [reflexivity|]. split; intros [].
    - assert (Ew : strip l = w).
      { pose proof (split_is_word l) as Hf. rewrite E in Hf. inversion Hf as [|? ? Hw _]; subst.
        apply words_of_iff in E. inversion E as [|g w0 Hg Hw0|g w0 c rest ws0 Hg Hw0 Hsp Hr]; subst.
        - rewrite <- (app_nil_r (g ++ w)), <- app_assoc. apply strip_unique; [exact Hg|constructor|].
          pose proof (spaced_stripped SPACE [w] Hf) as Hst. exact Hst.
        - apply strip_unique; [exact Hg| |exact (spaced_stripped SPACE [w] Hf)].
          inversion Hr; subst. constructor; assumption. }
      rewrite Ew. split; [reflexivity|]. apply word_no_break. pose proof (split_is_word l) as Hf. rewrite E in Hf. inversion Hf; assumption. }
  exists (strip l), (strip l). split; [exact Es|]. split; [apply Ed|]. split; [apply Ed|exact Ht].
Qed.

(** ** byte models *)
Lemma utf8_encode_app a b x y : utf8_encode a = Ok x -> utf8_encode b = Ok y -> utf8_encode (a ++ b) = Ok (x ++ y).
Proof.
  revert x. induction a as [|c a IH]; intros x Ha Hb; cbn [app utf8_encode] in *; [injection Ha as <-; exact Hb|].
  destruct (utf8_char c) as [bs|]; [|discriminate]. destruct (utf8_encode a) as [r|]; [|discriminate]. injection Ha as <-.
  rewrite (IH r eq_refl Hb), app_assoc. reflexivity.
Qed.
Lemma hexdig_range d : (d < 16)%N -> is_space (hexdig d) = false.
Proof.
  intro H. assert (Hd : In d (map N.of_nat (seq 0 16))).
  { replace d with (N.of_nat (N.to_nat d)) by lia. apply in_map, in_seq. lia. }
  assert (Hall : forallb (fun d => negb (is_space (hexdig d))) (map N.of_nat (seq 0 16)) = true) by (vm_compute; reflexivity).
  rewrite forallb_forall in Hall. apply Hall in Hd. destruct (is_space (hexdig d)); [discriminate Hd|reflexivity].
Qed.
Lemma hex_word b : (b < 256)%N -> is_word (hex_of_byte b).
Proof.
  intro H. unfold hex_of_byte. destruct (N.ltb_spec b 16).
  - split; [discriminate|]. constructor; [apply hexdig_range; assumption|constructor].
  - split; [discriminate|]. constructor; [apply hexdig_range; apply N.div_lt_upper_bound; lia|].
    constructor; [apply hexdig_range, N.mod_lt; discriminate|constructor].
Qed.
Lemma fromhex_odd bs d : Forall (fun b => b < 256)%N bs -> Forall (fun b => 16 <= b)%N bs -> (d < 16)%N ->
  fromhex (concat (map hex_of_byte bs) ++ [hexdig d]) = None.
Proof.
  intros H1 H2 Hd. revert H2. induction H1 as [|b bs Hb H1 IH]; intro H2.
  - cbn [map concat app fromhex]. destruct (hexval_hexdig d Hd) as [_ ->]. reflexivity.
  - inversion H2; subst. cbn [map concat]. unfold hex_of_byte at 1. destruct (N.ltb_spec b 16); [lia|].
    assert (Hq : (b / 16 < 16)%N) by (apply N.div_lt_upper_bound; lia).
    assert (Hr : (b mod 16 < 16)%N) by (apply N.mod_lt; discriminate).
    destruct (hexval_hexdig _ Hq) as [Eq Wq]. destruct (hexval_hexdig _ Hr) as [Er Wr].
    cbn [app]. cbn [fromhex]. rewrite Wq, Eq, Er, IH by assumption. reflexivity.
Qed.
Definition byte_text (l : str) : Prop := forall c, In c l -> is_scalar c = true /\ (16 <= c)%N.
Lemma byte_bs_words bs : Forall (fun b => b < 256)%N bs -> Forall is_word (map hex_of_byte bs).
Proof. intro H. apply Forall_map. eapply Forall_impl; [|exact H]. intros b Hb. apply hex_word, Hb. Qed.
(** one unfinished line *)
Lemma byte_cli model idx l : load_scheme model = Ok byte_scheme -> byte_text l -> l <> [] ->
  exists enc, cli_encode model idx l = (unlines [enc], None) /\ cli_decode model idx (unlines [enc]) = (unlines [l], None).
Proof.
  intros Hm Hl Hne.
  assert (Hb : no_break l) by (split; intro Hi; apply Hl in Hi as [_ Hi]; lia).
  assert (Ef : file_lines l = [l]).
  { unfold file_lines. pose proof (universal_nl_app l [] Hb) as Eu.
    rewrite app_nil_r in Eu. rewrite Eu. cbn [universal_nl]. rewrite app_nil_r.
    apply (lines_aux_last l []); [|exact Hne]. intro Hi. apply Hl in Hi as [_ Hi]. unfold LF in Hi. lia. }
  destruct (utf8_encode_spec l (fun c Hc => proj1 (Hl c Hc))) as (bs & E & Hlt & Hd & Hge).
  assert (Hps : encode_str byte_scheme l = Ok (map hex_of_byte bs)).
  { unfold encode_str. cbn [s_kind byte_scheme]. unfold byte_encode_str. rewrite E. reflexivity. }
  destruct (byte_roundtrip l (fun c Hc => proj1 (Hl c Hc)) (fun c Hc => proj2 (Hl c Hc))) as (ps & ids & H1 & H2 & H3 & H4 & _).
  rewrite Hps in H1. injection H1 as <-.
  assert (Hline : exists enc, encode_line byte_scheme idx l = Ok enc /\ no_break enc /\ decode_line byte_scheme idx (enc ++ [LF]) = Ok l).
  { destruct idx; [eapply line_ids|eapply line_pieces]; try eassumption; try (left; reflexivity). apply byte_bs_words, Hlt. }
  destruct Hline as (enc & E1 & E2 & E3). exists enc. unfold cli_encode, cli_decode, cli. rewrite Hm, Ef. split.
  - apply write_lines_ok. constructor; [exact E1|constructor].
  - change (unlines [enc]) with (flat_map with_nl [enc]). rewrite file_lines_of by (constructor; [exact E2|constructor]).
    apply write_lines_ok. constructor; [exact E3|constructor].
Qed.
(** a line that ends in a newline *)
Lemma byte_cli_fails model idx l rest ls : load_scheme model = Ok byte_scheme -> byte_text l ->
  lines_of rest ls -> (forall r c, In r ls -> In c r -> is_scalar c = true) ->
  exists encs, cli_encode model idx (l ++ [LF] ++ rest) = (unlines encs, None) /\ length encs = S (length ls) /\
    cli_decode model idx (unlines encs) = ([], Some ValueError).
Proof.
  intros Hm Hl Hr Hs. unfold cli_encode, cli_decode, cli. rewrite Hm.
  assert (Hb : no_break l) by (split; intro Hi; apply Hl in Hi as [_ Hi]; lia).
  assert (Ef : file_lines (l ++ [LF] ++ rest) = (l ++ [LF]) :: file_lines rest).
  { unfold file_lines. rewrite universal_nl_app by exact Hb. change (universal_nl ([LF] ++ rest)) with (LF :: universal_nl rest).
    rewrite lines_aux_line by exact (proj1 Hb). reflexivity. }
  rewrite Ef. apply file_lines_spec in Hr.
  assert (Hx : forall x, (forall c, In c x -> is_scalar c = true) -> exists enc, encode_line byte_scheme idx x = Ok enc /\ no_break enc).
  { intros x Hx. destruct (utf8_encode_spec x Hx) as (bs & E & Hlt & _).
    assert (Hps : encode_str byte_scheme x = Ok (map hex_of_byte bs)).
    { unfold encode_str. cbn [s_kind byte_scheme]. unfold byte_encode_str. rewrite E. reflexivity. }
    unfold encode_line. destruct idx.
    - unfold encode. rewrite Hps. cbn [bind s_kind byte_scheme]. rewrite (byte_ids_of_pieces bs Hlt). cbn [bind].
      eexists. split; [reflexivity|]. apply joined_no_break. apply Forall_forall. intros w Hi. apply in_map_iff in Hi as (z & <- & _). apply str_of_Z_word.
    - rewrite Hps. eexists. split; [reflexivity|]. apply joined_no_break, byte_bs_words, Hlt. }
  destruct (utf8_encode_spec l (fun c Hc => proj1 (Hl c Hc))) as (bs & E & Hlt & _ & Hge). specialize (Hge (fun c Hc => proj2 (Hl c Hc))).
  assert (El : utf8_encode (l ++ [LF]) = Ok (bs ++ [10%N])) by (apply utf8_encode_app; [exact E|reflexivity]).
  assert (Hlt' : Forall (fun b => b < 256)%N (bs ++ [10%N])) by (apply Forall_app; split; [exact Hlt|constructor; [lia|constructor]]).
  assert (Hps : encode_str byte_scheme (l ++ [LF]) = Ok (map hex_of_byte (bs ++ [10%N]))).
  { unfold encode_str. cbn [s_kind byte_scheme]. unfold byte_encode_str. rewrite El. reflexivity. }
  assert (Hdec : decode_str byte_scheme (map hex_of_byte (bs ++ [10%N])) = Raise ValueError).
  { unfold decode_str. cbn [s_kind byte_scheme]. rewrite byte_decode_str_run. unfold run. rewrite byte_fold_bytes.
    2:{ apply Forall_map. eapply Forall_impl; [|exact Hlt']. intros b Hbb. exists b; auto. }
    cbn [app fst snd]. unfold finish. destruct (map hex_of_byte (bs ++ [10%N])) as [|p ps] eqn:Ep; [destruct bs; discriminate Ep|].
    rewrite <- Ep. unfold compose_str. rewrite map_app, concat_app. cbn [map concat]. rewrite app_nil_r.
    change (hex_of_byte 10) with [hexdig 10]. rewrite fromhex_odd by (assumption || lia). reflexivity. }
  destruct (Hx (l ++ [LF])) as (enc & He & Hne).
  { intros c Hc. apply in_app_or in Hc as [Hc|[<-|[]]]; [apply Hl, Hc|reflexivity]. }
  assert (Hdl : decode_line byte_scheme idx (enc ++ [LF]) = Raise ValueError).
  { unfold encode_line in He. unfold decode_line. destruct idx.
    - unfold encode in He. rewrite Hps in He. cbn [bind s_kind byte_scheme] in He. rewrite (byte_ids_of_pieces _ Hlt') in He. cbn [bind] in He.
      injection He as <-. rewrite split_joined by (apply Forall_forall; intros w Hi; apply in_map_iff in Hi as (z & <- & _); apply str_of_Z_word).
      rewrite ints_back. cbn [bind]. unfold decode.
      assert (En : mapM (py_nth (s_idx_to_str byte_scheme)) (map Z.of_N (bs ++ [10%N])) = Ok (map hex_of_byte (bs ++ [10%N]))).
      { rewrite byte_ids_names by (apply Forall_map; eapply Forall_impl; [|exact Hlt']; intros b Hbb; cbn beta in *; lia).
        f_equal. rewrite map_map. apply map_ext_in. intros b Hbin. rewrite Forall_forall in Hlt'. specialize (Hlt' b Hbin). cbn beta in Hlt'.
        unfold byte_id_name. destruct (Z.eqb_spec (Z.of_N b) 256); [lia|]. destruct (Z.eqb_spec (Z.of_N b) 257); [lia|]. rewrite N2Z.id. reflexivity. }
      rewrite En. exact Hdec.
    - rewrite Hps in He. cbn [bind] in He. injection He as <-. rewrite split_joined by (apply byte_bs_words, Hlt'). exact Hdec. }
  assert (Hrest : exists encs, Forall2 (fun x e => encode_line byte_scheme idx x = Ok e) (file_lines rest) encs /\ Forall (fun e => ~ In LF e /\ ~ In CR e) encs /\ length encs = length ls).
  { clear Ef. revert Hr Hs. generalize (file_lines rest). intros fl Hr.
    induction Hr as [|x y xs ys Hxy Hr IH]; intro Hs; [exists []; split; [constructor|split; [constructor|reflexivity]]|].
    destruct IH as (encs & H1 & H2 & H3); [intros r c Hin; apply Hs; right; exact Hin|].
    destruct (Hx x) as (e & H4 & H5).
    { intros c Hc. destruct Hxy as [->| ->]; [apply (Hs y c (or_introl eq_refl) Hc)|].
      apply in_app_or in Hc as [Hc|[<-|[]]]; [apply (Hs y c (or_introl eq_refl) Hc)|reflexivity]. }
    exists (e :: encs). split; [constructor; assumption|]. split; [constructor; assumption|cbn; congruence]. }
  destruct Hrest as (encs & H1 & H2 & H3). exists (enc :: encs). split; [|split].
  - apply write_lines_ok. constructor; assumption.
  - cbn. congruence.
  - change (unlines (enc :: encs)) with (flat_map with_nl (enc :: encs)). rewrite file_lines_of by (constructor; assumption).
    cbn [map write_lines]. unfold with_nl at 1. rewrite Hdl. reflexivity.
Qed.
