(** Class pieces piped through encode and decode: exactly what comes out. *)
From Coq Require Import Strings.String.
From Verif Require Import Py PyLemmas PyStr StrSpec PyStrProofs CodecModel CodecSpec VocabFileModel CliModel CliSpec CliProofs VocabFileProofs NumProofs JsonProofs Utf8Model Utf8Proofs ByteProofs ByteSpec ByteEnd.
Local Open Scope list_scope.

Lemma lines_no_break inp ls : lines_of inp ls -> forall l, In l ls -> no_break l.
Proof. induction 1; intros x Hx; cbn [In] in Hx; intuition (subst; auto). Qed.
Theorem class_pieces_exact model s inp ls : load_scheme model = Ok s -> s_kind s = KClass -> lines_of inp ls ->
  exists encs outs, cli_encode model false inp = (unlines encs, None) /\ Forall2 trimmed ls encs /\
    cli_decode model false (unlines encs) = (unlines outs, None) /\
    Forall2 (fun l out => exists ws, words_of l ws /\ out = spaced 44%N ws) ls outs.
Proof.
  intros Hm Hk Hl.
  assert (H : exists encs outs, cli_encode model false inp = (unlines encs, None) /\
    cli_decode model false (unlines encs) = (unlines outs, None) /\
    Forall2 (fun l out => exists ws, words_of l ws /\ out = spaced 44%N ws) ls outs /\ length encs = length ls).
  { eapply pipeline; [exact Hm|exact Hl|]. intros l x Hin Hx.
    exists (strip l), (spaced 44%N (split l)).
    split; [unfold encode_line, encode_str; rewrite Hk, (strip_line_read x l Hx); reflexivity|]. split.
    { assert (Ht : trimmed l (strip l)) by (apply trimmed_strip; reflexivity). destruct Ht as (a & b & _ & _ & E & _). pose proof (lines_no_break inp ls Hl l Hin) as [H1 H2].
      split; intros Hc; [apply H1|apply H2]; rewrite E; rewrite !in_app_iff; auto. }
    split.
    { unfold decode_line, decode_str. rewrite (split_line_read _ (strip l) (or_intror eq_refl)), split_strip, Hk. rewrite join_spaced. reflexivity. }
    exists (split l). split; [apply words_of_split|reflexivity]. }
  destruct H as (encs & outs & H1 & H2 & H3 & _).
  assert (E : cli_encode model false inp = (unlines (map strip ls), None)).
  { unfold cli_encode, cli. rewrite Hm. apply write_lines_ok. apply file_lines_spec in Hl. clear -Hl Hk.
    induction Hl as [|x l xs ls Hx _ IH]; cbn [map]; constructor; [|exact IH].
    unfold encode_line, encode_str. rewrite Hk, (strip_line_read x l Hx). reflexivity. }
  rewrite E in H1. assert (Eu : unlines encs = unlines (map strip ls)) by congruence.
  exists (map strip ls), outs. split; [exact E|]. split; [|split; [rewrite <- Eu; exact H2|exact H3]].
  clear. induction ls as [|l ls IH]; cbn [map]; constructor; [apply trimmed_strip; reflexivity|exact IH].
Qed.

(** ** byte models *)
Lemma file_lines_raw inp raws : raw_lines inp raws -> file_lines inp = raws.
Proof.
  unfold file_lines. induction 1 as [|l Hne Hb|l br r raws Hb H IH Hbr].
  - reflexivity.
  - pose proof (universal_nl_app l [] Hb) as E. cbn [universal_nl] in E. rewrite app_nil_r in E. rewrite E.
    rewrite lines_aux_last; [reflexivity|exact (proj1 Hb)|exact Hne].
  - rewrite universal_nl_app by exact Hb.
    assert (E : universal_nl (br ++ r) = LF :: universal_nl r).
    { destruct Hbr as [->|[->|[-> Hr]]]; [reflexivity|reflexivity|]. cbn [app]. destruct r as [|c r]; [reflexivity|].
      assert (c <> 10%N) by (intros ->; apply (Hr r); reflexivity).
      destruct c as [|p]; [reflexivity|]. do 4 (destruct p as [p|p|]; try reflexivity; try congruence). }
    rewrite E, lines_aux_line by exact (proj1 Hb). f_equal. exact IH.
Qed.
Lemma raw_total text : exists raws, raw_lines text raws.
Proof.
  destruct (lines_of_total text) as [ls H]. induction H as [|l Hne Hb|l r ls Hb H IH|l r ls Hb H IH|l r ls Hb H IH Hr];
    [exists []; constructor|exists [l]; constructor; assumption|..]; destruct IH as [raws IH]; exists ((l ++ [10%N]) :: raws);
    constructor; auto.
Qed.
Definition byte_result (bs : list N) : res str :=
  match regrouped bs with Some out => Ok (utf8_decode [65533%N] out) | None => Raise ValueError end.
Lemma byte_line idx x bs : (forall c, In c x -> is_scalar c = true) -> utf8_encode x = Ok bs ->
  exists enc, encode_line byte_scheme idx x = Ok enc /\ no_break enc /\ decode_line byte_scheme idx (enc ++ [LF]) = byte_result bs.
Proof.
  intros Hs E. destruct (utf8_encode_spec x Hs) as (bs' & E' & Hlt & _). assert (bs' = bs) by congruence. subst bs'.
  assert (Eps : encode_str byte_scheme x = Ok (map hex_of_byte bs)).
  { unfold encode_str. cbn [s_kind byte_scheme]. unfold byte_encode_str. rewrite E. reflexivity. }
  unfold encode_line, decode_line. destruct idx.
  - exists (join [SPACE] (map str_of_Z (map Z.of_N bs))). unfold encode. rewrite Eps. cbn [bind s_kind byte_scheme]. rewrite (byte_ids_of_pieces bs Hlt).
    assert (Hw : Forall is_word (map str_of_Z (map Z.of_N bs))) by (apply Forall_forall; intros w Hi; apply in_map_iff in Hi as (z & <- & _); apply str_of_Z_word).
    split; [reflexivity|]. split; [apply joined_no_break, Hw|]. rewrite split_joined by exact Hw. rewrite ints_back. cbn [bind].
    rewrite decode_any; [|apply Forall_map; eapply Forall_impl; [|exact Hlt]; cbn beta; intros; lia].
    rewrite map_map. rewrite (map_ext _ (fun x => x)) by (intros; lia). rewrite map_id. reflexivity.
  - exists (join [SPACE] (map hex_of_byte bs)). rewrite Eps. split; [reflexivity|]. pose proof (byte_bs_words bs Hlt) as Hw. split; [apply joined_no_break, Hw|].
    rewrite split_joined by exact Hw. unfold decode_str. cbn [s_kind byte_scheme]. rewrite byte_decode_str_run, run_any by assumption. reflexivity.
Qed.
Theorem byte_cli_exact model idx inp raws : load_scheme model = Ok byte_scheme -> raw_lines inp raws ->
  (forall c, In c inp -> is_scalar c = true) ->
  exists encs, cli_encode model idx inp = (unlines encs, None) /\ length encs = length raws /\
    forall good rest, raws = good ++ rest -> (forall raw, In raw good -> Nat.even (lows raw) = true) ->
    exists outs,
      Forall2 (fun raw out => exists bs bs', utf8_encode raw = Ok bs /\ regrouped bs = Some bs' /\ out = utf8_decode [65533%N] bs') good outs /\
      (rest = [] -> cli_decode model idx (unlines encs) = (unlines outs, None)) /\
      (forall bad more, rest = bad :: more -> Nat.odd (lows bad) = true ->
         cli_decode model idx (unlines encs) = (unlines outs, Some ValueError)).
Proof.
  intros Hm Hr Hs. unfold cli_encode, cli_decode, cli. rewrite Hm, (file_lines_raw inp raws Hr).
  assert (Hall : forall raw c, In raw raws -> In c raw -> is_scalar c = true).
  { clear Hm. induction Hr as [|l Hne Hb|l br r raws Hb H IH Hbr]; intros raw c Hi Hc; [destruct Hi|destruct Hi as [<-|[]]; apply Hs, Hc|].
    destruct Hi as [<-|Hi].
    - apply in_app_or in Hc as [Hc|[<-|[]]]; [apply Hs, in_app_iff; left; exact Hc|reflexivity].
    - eapply IH; [|exact Hi|exact Hc]. intros d Hd. apply Hs. rewrite !in_app_iff. auto. }
  assert (H : exists encs, Forall2 (fun x e => encode_line byte_scheme idx x = Ok e /\ no_break e /\
             exists bs, utf8_encode x = Ok bs /\ decode_line byte_scheme idx (e ++ [LF]) = byte_result bs) raws encs).
  { clear Hr Hs. induction raws as [|x raws IH]; [exists []; constructor|].
    destruct IH as [encs IH]; [intros raw c Hi; apply Hall; right; exact Hi|].
    destruct (utf8_encode_spec x (fun c => Hall x c (or_introl eq_refl))) as (bs & E & _).
    destruct (byte_line idx x bs (fun c => Hall x c (or_introl eq_refl)) E) as (e & H1 & H2 & H3).
    exists (e :: encs). constructor; [|exact IH]. split; [exact H1|]. split; [exact H2|]. exists bs. auto. }
  destruct H as [encs H]. exists encs. split; [|split].
  - apply write_lines_ok. clear -H. induction H as [|x e xs es (H1 & _) _ IH]; constructor; assumption.
  - symmetry. exact (Forall2_len _ _ _ H).
  - assert (Hnb : Forall (fun e => ~ In LF e /\ ~ In CR e) encs) by (clear -H; induction H as [|x e xs es (_ & H1 & _) _ IH]; constructor; assumption).
    change (unlines encs) with (flat_map with_nl encs). rewrite file_lines_of by exact Hnb.
    intros good rest -> Hev.
    assert (Hg : exists outs, Forall2 (fun raw out => exists bs bs', utf8_encode raw = Ok bs /\ regrouped bs = Some bs' /\ out = utf8_decode [65533%N] bs') good outs).
    { clear -Hev Hall. induction good as [|g good IH]; [exists []; constructor|].
      destruct IH as [outs IH]; [intros raw c Hi; apply Hall; right; exact Hi|intros raw Hi; apply Hev; right; exact Hi|].
      destruct (utf8_encode_spec g (fun c => Hall g c (or_introl eq_refl))) as (bs & E & _).
      destruct (regrouped bs) as [b'|] eqn:Er; [exists (utf8_decode [65533%N] b' :: outs); constructor; [exists bs, b'; auto|exact IH]|].
      exfalso. apply regrouped_none in Er. rewrite (encode_lows _ _ E) in Er. specialize (Hev g (or_introl eq_refl)). rewrite <- Nat.negb_odd, Er in Hev. discriminate. }
    destruct Hg as [outs Hg]. exists outs. split; [exact Hg|]. apply Forall2_app_inv_l in H as (e1 & e2 & H1 & H2 & ->).
    assert (Hok : Forall2 (fun l o => decode_line byte_scheme idx l = Ok o) (map with_nl e1) outs).
    { clear -H1 Hg. revert outs Hg. induction H1 as [|x e xs es (_ & _ & bs & E & Hd) _ IH]; intros outs Hg; inversion Hg as [|? o ? os (b & b' & E1 & E2 & E3) Hg']; subst; cbn [map]; constructor; [|apply IH, Hg'].
      assert (b = bs) by congruence. subst b. unfold with_nl. rewrite Hd. unfold byte_result. rewrite E2. reflexivity. }
    split.
    + intros ->. inversion H2; subst. rewrite app_nil_r. apply write_lines_ok, Hok.
    + intros bad more -> Hodd. inversion H2 as [|? e ? es (_ & _ & bs & E & Hd) _]; subst. rewrite map_app. cbn [map].
      apply write_lines_raise; [exact Hok|]. unfold with_nl. rewrite Hd. unfold byte_result.
      rewrite (proj2 (regrouped_none bs)); [reflexivity|]. rewrite (encode_lows _ _ E). exact Hodd.
Qed.
