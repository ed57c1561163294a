(** Proofs about utils.IO. *)
From Coq Require Import Strings.String.
From Verif Require Import Py PyStr PyLemmas Utf8Model Utf8Proofs VocabFileProofs CliProofs IoModel IoSpec.
Local Open Scope list_scope.

Lemma enter_text_reader name : io_enter name (reader_mode true) = Ok (Utf8 (is_gz name)).
Proof. unfold io_enter. cbn. destruct (is_gz name); reflexivity. Qed.
Lemma enter_text_writer name a : io_enter name (writer_mode true a) = Ok (Utf8 (is_gz name)).
Proof. unfold io_enter. destruct a; cbn; destruct (is_gz name); reflexivity. Qed.
Lemma enter_bin_reader name : io_enter name (reader_mode false) = if is_gz name then Raise ValueError else Ok Binary.
Proof. unfold io_enter. cbn. destruct (is_gz name); reflexivity. Qed.
Lemma enter_bin_writer name a : io_enter name (writer_mode false a) = if is_gz name then Raise ValueError else Ok Binary.
Proof. unfold io_enter. destruct a; cbn; destruct (is_gz name); reflexivity. Qed.

Lemma kept_text fs name a : kept fs name (writer_mode true a) = if a then dget_def str_eqb name [] fs else [].
Proof. destruct a; reflexivity. Qed.
Lemma kept_bin fs name a : kept fs name (writer_mode false a) = if a then dget_def str_eqb name [] fs else [].
Proof. destruct a; reflexivity. Qed.
Lemma is_gz_iff name : is_gz name = true <-> gz_name name.
Proof.
  unfold is_gz, gz_name. split.
  - intros H. destruct (rev name) as [|z [|g [|d r]]] eqn:E.
    1,2,3: exfalso; repeat match type of H with context [match ?x with _ => _ end] => is_var x; destruct x; try discriminate H end; discriminate H.
    assert (G : (z = 122 /\ g = 103 /\ d = 46)%N).
    { revert H. clear. intros H. repeat match type of H with context [match ?x with _ => _ end] => is_var x; destruct x; try discriminate H end. auto. }
    destruct G as (-> & -> & ->).
    exists (rev r). apply (f_equal (@rev N)) in E. rewrite rev_involutive in E. rewrite E. cbn [rev]. rewrite <- !app_assoc. reflexivity.
  - intros (p & ->). rewrite rev_app_distr. reflexivity.
Qed.
Lemma not_gz name : is_gz name = false <-> ~ gz_name name.
Proof. rewrite <- is_gz_iff. destruct (is_gz name); split; intros H; try congruence. Qed.

Lemma decode_replaced err s rest : utf8_decode err (utf8_encode_replace s ++ rest) = map storable_char s ++ utf8_decode err rest.
Proof.
  induction s as [|c s IH]; [reflexivity|]. cbn [utf8_encode_replace flat_map map app]. fold (utf8_encode_replace s).
  rewrite <- app_assoc. unfold storable_char at 1. destruct (utf8_char c) as [bs|] eqn:E.
  - rewrite (utf8_decode_char err c bs _ E), IH. destruct (is_scalar c) eqn:Es; [reflexivity|]. apply utf8_char_none in Es. congruence.
  - apply utf8_char_none in E. rewrite E. rewrite <- IH. reflexivity.
Qed.
Lemma decode_replaced_all err s : utf8_decode err (utf8_encode_replace s) = map storable_char s.
Proof. rewrite <- (app_nil_r (utf8_encode_replace s)), decode_replaced. cbn. apply app_nil_r. Qed.

Lemma lf_lines_aux s ls : lf_lines s ls -> lines_aux [] s = ls.
Proof.
  induction 1 as [|l Hne Hn|l rest ls Hn H IH]; [reflexivity| |].
  - rewrite lines_aux_last by assumption. reflexivity.
  - etransitivity; [apply (lines_aux_line l [] rest Hn)|]. rewrite IH. reflexivity.
Qed.
Lemma lf_split s : (~ In 10%N s) \/ exists l rest, s = l ++ 10%N :: rest /\ ~ In 10%N l.
Proof.
  induction s as [|c s IH]; [left; intros []|]. destruct (N.eq_dec c 10) as [->|Hc]; [right; exists [], s; split; [reflexivity|intros []]|].
  destruct IH as [IH|(l & r & -> & Hl)]; [left; intros [H|H]; [congruence|contradiction]|].
  right. exists (c :: l), r. split; [reflexivity|]. intros [H|H]; [congruence|contradiction].
Qed.
Lemma lf_lines_exist s : exists ls, lf_lines s ls.
Proof.
  remember (length s) as n eqn:En. assert (Hn : (length s <= n)%nat) by lia. clear En. revert s Hn.
  induction n as [|n IH]; intros s Hn.
  - destruct s; [exists []; constructor|simpl in Hn; lia].
  - destruct (lf_split s) as [H|(l & r & -> & Hl)].
    + destruct s as [|c s]; [exists []; constructor|]. exists [c :: s]. constructor; [discriminate|exact H].
    + destruct (IH r) as (ls & Hls); [rewrite app_length in Hn; simpl in Hn; lia|]. exists ((l ++ [10%N]) :: ls). constructor; assumption.
Qed.
Lemma lf_lines_iff s ls : lf_lines s ls <-> lines_aux [] s = ls.
Proof.
  split; [apply lf_lines_aux|]. intros <-. destruct (lf_lines_exist s) as (ls & H). rewrite (lf_lines_aux _ _ H). exact H.
Qed.
Lemma lf_lines_concat s ls : lf_lines s ls -> concat ls = s.
Proof.
  induction 1 as [|l Hne Hn|l rest ls Hn H IH]; cbn; [reflexivity|apply app_nil_r|]. rewrite IH, <- app_assoc. reflexivity.
Qed.
Lemma universal_cons c s : c <> 13%N -> universal_nl (c :: s) = c :: universal_nl s.
Proof.
  intros H. destruct c as [|p]; [reflexivity|]. do 4 (destruct p as [p|p|]; try reflexivity). congruence.
Qed.
Lemma universal_cr s : (forall r, s <> 10%N :: r) -> universal_nl (13%N :: s) = 10%N :: universal_nl s.
Proof.
  intros H. destruct s as [|c s]; [reflexivity|]. destruct (N.eq_dec c 10) as [->|Hc]; [exfalso; apply (H s); reflexivity|].
  destruct c as [|p]; [reflexivity|]. do 4 (destruct p as [p|p|]; try reflexivity). congruence.
Qed.
Lemma crs_iff s t : crs_as_lfs s t <-> universal_nl s = t.
Proof.
  assert (F : forall s t, crs_as_lfs s t -> universal_nl s = t).
  { induction 1 as [|c s0 t0 Hc H IH|s0 t0 H IH|s0 t0 Hs H IH]; [reflexivity| | |].
    - rewrite universal_cons, IH by exact Hc. reflexivity.
    - cbn [universal_nl]. rewrite IH. reflexivity.
    - rewrite universal_cr, IH by exact Hs. reflexivity. }
  assert (E : forall n s, (length s <= n)%nat -> exists t, crs_as_lfs s t).
  { clear. induction n as [|n IH]; intros s Hn; [destruct s; [exists []; constructor|simpl in Hn; lia]|].
    destruct s as [|c s]; [exists []; constructor|]. simpl in Hn. destruct (N.eq_dec c 13) as [->|Hc].
    - destruct s as [|d s]; [exists [10%N]; apply Cr_alone; [discriminate|constructor]|]. simpl in Hn.
      destruct (N.eq_dec d 10) as [->|Hd].
      + destruct (IH s) as (t & Ht); [lia|]. exists (10%N :: t). constructor. exact Ht.
      + destruct (IH (d :: s)) as (t & Ht); [simpl; lia|]. exists (10%N :: t). apply Cr_alone; [intros r Hr; congruence|exact Ht].
    - destruct (IH s) as (t & Ht); [lia|]. exists (c :: t). constructor; assumption. }
  split; [apply F|]. intros <-. destruct (E (length s) s (le_n _)) as (t & Ht). rewrite (F _ _ Ht). exact Ht.
Qed.
Lemma crs_none s : ~ In 13%N s -> crs_as_lfs s s.
Proof.
  induction s as [|c s IH]; intros H; constructor; [intros ->; apply H; left; reflexivity|apply IH; intros Hi; apply H; right; exact Hi].
Qed.

(** ** reading what was written *)
Lemma read_written fs fs' name s : io_write_text fs name false s = Ok fs' ->
  io_read_text fs' name = Ok (if is_gz name then file_lines (map storable_char s) else lines_aux [] (map storable_char s)).
Proof.
  unfold io_write_text. rewrite enter_text_writer, kept_text. cbn [bind app]. intros H. injection H as <-. unfold io_read_text. rewrite enter_text_reader. cbn [bind].
  rewrite (dget_dset_same str_eqb str_eqb_eq), decode_replaced_all. destruct (is_gz name); reflexivity.
Qed.
Theorem text_round_trip fs name s ls : is_gz name = false -> lf_lines (map storable_char s) ls ->
  exists fs', io_write_text fs name false s = Ok fs' /\ io_read_text fs' name = Ok ls /\ (forall n, n <> name -> dget str_eqb n fs' = dget str_eqb n fs).
Proof.
  intros Hg Hl. eexists. unfold io_write_text at 1. rewrite enter_text_writer. cbn [bind]. split; [reflexivity|]. split.
  - erewrite read_written; [|unfold io_write_text; rewrite enter_text_writer; reflexivity]. rewrite Hg. f_equal. apply lf_lines_iff. exact Hl.
  - intros n Hn. apply (dget_dset_other str_eqb str_eqb_eq). exact Hn.
Qed.
Theorem gz_round_trip fs name s t ls : is_gz name = true -> crs_as_lfs (map storable_char s) t -> lf_lines t ls ->
  exists fs', io_write_text fs name false s = Ok fs' /\ io_read_text fs' name = Ok ls /\ (forall n, n <> name -> dget str_eqb n fs' = dget str_eqb n fs).
Proof.
  intros Hg Ht Hl. eexists. unfold io_write_text at 1. rewrite enter_text_writer. cbn [bind]. split; [reflexivity|]. split.
  - erewrite read_written; [|unfold io_write_text; rewrite enter_text_writer; reflexivity]. rewrite Hg. f_equal. unfold file_lines.
    apply crs_iff in Ht. rewrite Ht. apply lf_lines_iff. exact Hl.
  - intros n Hn. apply (dget_dset_other str_eqb str_eqb_eq). exact Hn.
Qed.
Lemma storable_scalars s : (forall c, In c s -> is_scalar c = true) -> map storable_char s = s.
Proof.
  induction s as [|c s IH]; intros H; [reflexivity|]. cbn [map]. rewrite IH by (intros x Hx; apply H; right; exact Hx).
  unfold storable_char. rewrite (H c) by (left; reflexivity). reflexivity.
Qed.
Lemma dset_dset k (v v' : list N) (d : store) : dset str_eqb k v (dset str_eqb k v' d) = dset str_eqb k v d.
Proof.
  induction d as [|[a b] d IH]; cbn [dset].
  - cbn. rewrite str_eqb_refl. reflexivity.
  - destruct (str_eqb k a) eqn:E; cbn [dset]; rewrite E; [reflexivity|]. rewrite IH. reflexivity.
Qed.
(** Appending continues the file. *)
Theorem append_continues fs name a s1 s2 fs1 fs2 :
  io_write_text fs name a s1 = Ok fs1 -> io_write_text fs1 name true s2 = Ok fs2 -> io_write_text fs name a (s1 ++ s2) = Ok fs2.
Proof.
  unfold io_write_text. rewrite !enter_text_writer, !kept_text. cbn [bind]. intros H1 H2. injection H1 as <-. injection H2 as <-.
  unfold dget_def at 2. rewrite (dget_dset_same str_eqb str_eqb_eq), dset_dset. unfold utf8_encode_replace. rewrite flat_map_app, app_assoc. reflexivity.
Qed.
Theorem bytes_round_trip fs name bs : is_gz name = false ->
  exists fs', io_write_bytes fs name false bs = Ok fs' /\ io_read_bytes fs' name = Ok bs.
Proof.
  intros Hg. unfold io_write_bytes. rewrite enter_bin_writer, kept_bin, Hg. cbn [bind app]. eexists. split; [reflexivity|].
  unfold io_read_bytes. rewrite enter_bin_reader, Hg. cbn [bind]. rewrite (dget_dset_same str_eqb str_eqb_eq). reflexivity.
Qed.
Theorem gz_bytes_refused fs name a bs : is_gz name = true ->
  io_write_bytes fs name a bs = Raise ValueError /\ io_read_bytes fs name = Raise ValueError.
Proof. intros Hg. unfold io_write_bytes, io_read_bytes. rewrite enter_bin_writer, enter_bin_reader, Hg. split; reflexivity. Qed.
Theorem bytes_append fs name a b1 b2 fs1 fs2 :
  io_write_bytes fs name a b1 = Ok fs1 -> io_write_bytes fs1 name true b2 = Ok fs2 -> io_write_bytes fs name a (b1 ++ b2) = Ok fs2.
Proof.
  unfold io_write_bytes. rewrite !enter_bin_writer, !kept_bin. destruct (is_gz name); cbn [bind]; [discriminate|]. intros H1 H2. injection H1 as <-. injection H2 as <-.
  unfold dget_def at 2. rewrite (dget_dset_same str_eqb str_eqb_eq), dset_dset, app_assoc. reflexivity.
Qed.
(** A stream over several files. *)
Theorem stream_concat fs names lss : Forall2 (fun n ls => io_read_text fs n = Ok ls) names lss ->
  read_as_stream fs names = (concat lss, None).
Proof. induction 1 as [|n ls names lss H HF IH]; [reflexivity|]. cbn [read_as_stream concat]. rewrite H, IH. reflexivity. Qed.
Theorem stream_missing fs names lss n rest : Forall2 (fun n ls => io_read_text fs n = Ok ls) names lss -> dget str_eqb n fs = None ->
  read_as_stream fs (names ++ n :: rest) = (concat lss, Some FileNotFound).
Proof.
  intros H Hn. induction H as [|m ls names lss H HF IH]; cbn [app read_as_stream concat].
  - unfold io_read_text. rewrite enter_text_reader. cbn [bind]. rewrite Hn. reflexivity.
  - rewrite H, IH. reflexivity.
Qed.
(** A file holds a text. *)
Lemma stored_decode bs t : stored bs t -> utf8_decode [65533%N] bs = t.
Proof.
  induction 1 as [|c b bs s Hc H IH|b bs s Hb H IH]; [reflexivity| |].
  - rewrite (utf8_decode_char _ c b bs Hc), IH. reflexivity.
  - cbn [utf8_decode]. rewrite IH. destruct (N.ltb_spec b 128); [lia|]. destruct (N.ltb_spec b 194); [reflexivity|].
    destruct (N.ltb_spec b 224); [lia|]. destruct (N.ltb_spec b 240); [lia|]. destruct (N.ltb_spec b 245); [lia|]. reflexivity.
Qed.
Lemma stored_text t : forall bs, utf8_encode t = Ok bs -> stored bs t.
Proof.
  induction t as [|c t IH]; intros bs H; cbn in H; [injection H as <-; constructor|]. destruct (utf8_char c) as [b|] eqn:Ec; [|discriminate H].
  destruct (utf8_encode t) as [r|] eqn:Er; [|discriminate H]. injection H as <-. constructor; [exact Ec|apply IH; reflexivity].
Qed.
Lemma reads_text fs name t bs ls : dget str_eqb name fs = Some bs -> stored bs t -> ~ In 13%N t -> lf_lines t ls ->
  io_read_text fs name = Ok ls.
Proof.
  intros Hd He Hc Hl. unfold io_read_text. rewrite enter_text_reader. cbn [bind]. rewrite Hd, (stored_decode bs t He).
  apply lf_lines_iff in Hl. destruct (is_gz name); [|rewrite Hl; reflexivity].
  unfold file_lines. rewrite (proj1 (crs_iff t t) (crs_none t Hc)), Hl. reflexivity.
Qed.
Theorem stream_texts fs names texts lss : 
  Forall2 (fun n t => ~ In 13%N t /\ exists bs, dget str_eqb n fs = Some bs /\ stored bs t) names texts ->
  Forall2 lf_lines texts lss -> read_as_stream fs names = (concat lss, None).
Proof.
  intros H1 H2. apply stream_concat. revert lss H2. induction H1 as [|n t names texts (Hc & bs & Hd & He) H IH]; intros lss H2; inversion H2; subst; constructor.
  - eapply reads_text; eassumption.
  - apply IH. assumption.
Qed.
