(** ByteScheme. *)
From Coq Require Import Strings.String.
From Verif Require Import Py PyLemmas PyStr StrSpec PyStrProofs Utf8Model Utf8Proofs CodecModel
     CodecSpec FlatProofs.
Local Open Scope Z_scope.
Local Open Scope list_scope.
Local Open Scope res_scope.

Definition byte_scheme : scheme :=
  MkScheme KByte byte_vocab (map t_name byte_vocab) (str_to_idx_last (map t_name byte_vocab)) None tr_empty.

Lemma byte_names_nodup : NoDup (map t_name byte_vocab).
Proof.
  apply str_to_idx_last_length. vm_compute. reflexivity.
Qed.
Lemma make_byte : make_scheme KByte [] = Ok byte_scheme /\ make_scheme KByte byte_vocab = Ok byte_scheme.
Proof.
  assert (H : encoder_init KByte byte_vocab false true None tr_empty = Ok byte_scheme).
  { apply encoder_init_inv. split; [discriminate|]. split; [apply byte_names_nodup|reflexivity]. }
  split; exact H.
Qed.

Lemma byte_name_nth n : (n < 256)%nat -> nth_error (map t_name byte_vocab) n = Some (hex_of_byte (N.of_nat n)).
Proof.
  intros H. unfold byte_vocab. rewrite map_app, map_map. cbn [t_name].
  rewrite nth_error_app1 by (rewrite map_length, seq_length; exact H).
  rewrite nth_error_map, nth_error_nth' with (d := 0%nat) by (rewrite seq_length; exact H).
  rewrite seq_nth by exact H. reflexivity.
Qed.
Lemma byte_get b : (b < 256)%N ->
  dget str_eqb (hex_of_byte b) (s_str_to_idx byte_scheme) = Some (Z.of_N b).
Proof.
  intros H. unfold byte_scheme. cbn [s_str_to_idx].
  apply (str_to_idx_last_get (map t_name byte_vocab)); [apply byte_names_nodup|].
  split; [lia|]. rewrite byte_name_nth by lia. do 2 f_equal. lia.
Qed.
Lemma byte_not_reserved b : (b < 256)%N -> byte_piece_reserved byte_scheme (hex_of_byte b) = Ok false.
Proof.
  intros H. unfold byte_piece_reserved. rewrite byte_get by exact H.
  assert (E : py_nth (s_table byte_scheme) (Z.of_N b) =
              Ok (MkType (hex_of_byte b) L_byte (Z.of_N b) (-1) None)).
  { apply py_nth_nonneg; [lia|]. unfold byte_scheme, byte_vocab. cbn [s_table].
    rewrite nth_error_app1 by (rewrite map_length, seq_length; lia).
    rewrite nth_error_map, nth_error_nth' with (d := 0%nat) by (rewrite seq_length; lia).
    rewrite seq_nth by lia. cbn [option_map]. do 2 f_equal; [f_equal; lia|lia]. }
  rewrite E. reflexivity.
Qed.
Lemma byte_marker_reserved : byte_piece_reserved byte_scheme BOS_TOK = Ok true /\
                             byte_piece_reserved byte_scheme EOS_TOK = Ok true.
Proof. split; vm_compute; reflexivity. Qed.

(** a piece of a byte vocabulary *)
Definition byte_piece (p : str) : Prop := (exists b, (b < 256)%N /\ p = hex_of_byte b).
Definition marker (p : str) : Prop := p = BOS_TOK \/ p = EOS_TOK.
Lemma marker_reserved p : marker p -> byte_piece_reserved byte_scheme p = Ok true.
Proof. intros [-> | ->]; apply byte_marker_reserved. Qed.
Lemma byte_piece_not_reserved p : byte_piece p -> byte_piece_reserved byte_scheme p = Ok false.
Proof. intros (b & H & ->). apply byte_not_reserved, H. Qed.

Lemma byte_fold_bytes ps out buf :
  Forall byte_piece ps -> foldM (byte_decode_step byte_scheme) ps (out, buf) = Ok (out, buf ++ ps).
Proof.
  intros H. revert buf. induction H as [|p ps Hp _ IH]; intros buf; simpl.
  - rewrite app_nil_r. reflexivity.
  - rewrite (byte_piece_not_reserved p Hp). simpl. rewrite IH, <- app_assoc. reflexivity.
Qed.
(** finishing a state: what the method returns from it *)
Definition finish (out : str) (buf : list str) : res str :=
  match buf with [] => Ok out | _ => let* c := compose_str buf in Ok (out ++ c) end.
Definition run (ps : list str) (out : str) (buf : list str) : res str :=
  match foldM (byte_decode_step byte_scheme) ps (out, buf) with
  | Ok st => finish (fst st) (snd st) | Raise e => Raise e end.
Lemma byte_decode_str_run ps : byte_decode_str byte_scheme ps = run ps [] [].
Proof.
  unfold byte_decode_str, run, finish, str.
  match goal with |- bind ?x _ = _ => destruct x as [[out buf]|e]; reflexivity end.
Qed.
Lemma finish_out out buf : finish out buf = let* c := finish [] buf in Ok (out ++ c).
Proof.
  unfold finish. destruct buf; simpl; [rewrite app_nil_r; reflexivity|].
  destruct (compose_str _); reflexivity.
Qed.
Definition ok_piece (p : str) : Prop := byte_piece p \/ marker p.
Lemma run_cons_marker m ps out buf :
  marker m -> run (m :: ps) out buf = let* c := finish out buf in run ps (c ++ m) [].
Proof.
  intros Hm. unfold run. cbn [foldM]. unfold byte_decode_step at 1. rewrite (marker_reserved m Hm). simpl.
  unfold finish at 2. destruct buf; [reflexivity|].
  destruct (compose_str _); simpl; [rewrite app_assoc|]; reflexivity.
Qed.
Lemma run_cons_byte p ps out buf :
  byte_piece p -> run (p :: ps) out buf = run ps out (buf ++ [p]).
Proof.
  intros Hp. unfold run. cbn [foldM]. unfold byte_decode_step at 1.
  rewrite (byte_piece_not_reserved p Hp). reflexivity.
Qed.
Lemma run_out ps : Forall ok_piece ps -> forall out buf,
  run ps out buf = let* c := run ps [] buf in Ok (out ++ c).
Proof.
  induction 1 as [|p ps Hp _ IH]; intros out buf.
  - unfold run. simpl. apply finish_out.
  - destruct Hp as [Hp|Hp].
    + rewrite !run_cons_byte by exact Hp. apply IH.
    + rewrite !run_cons_marker by exact Hp. rewrite (finish_out out buf).
      destruct (finish [] buf) as [c|e]; [|reflexivity]. cbn [bind].
      rewrite (IH ((out ++ c) ++ p) []), (IH (c ++ p) []).
      destruct (run ps [] []); cbn [bind]; [|reflexivity]. rewrite !app_assoc. reflexivity.
Qed.
Lemma run_marker m b : marker m -> Forall ok_piece b -> forall a, Forall ok_piece a -> forall out buf,
  run (a ++ m :: b) out buf =
  let* x := run a out buf in let* y := run b [] [] in Ok (x ++ m ++ y).
Proof.
  intros Hm Hb. induction 1 as [|p a Hp _ IH]; intros out buf.
  - cbn [app]. rewrite run_cons_marker by exact Hm. unfold run at 2. cbn [foldM fst snd].
    destruct (finish out buf) as [c|e]; [|reflexivity]. cbn [bind].
    rewrite run_out by exact Hb. destruct (run b [] []); cbn [bind]; [|reflexivity].
    rewrite <- app_assoc. reflexivity.
  - cbn [app]. destruct Hp as [Hp|Hp].
    + rewrite !run_cons_byte by exact Hp. apply IH.
    + rewrite !run_cons_marker by exact Hp.
      destruct (finish out buf) as [c|e]; [|reflexivity]. cbn [bind]. apply IH.
Qed.

(** ** ids *)
Definition byte_id_name (i : Z) : str :=
  if i =? 256 then BOS_TOK else if i =? 257 then EOS_TOK else hex_of_byte (Z.to_N i).
Lemma byte_ids_names ids :
  Forall (fun i => 0 <= i < 258) ids ->
  mapM (py_nth (s_idx_to_str byte_scheme)) ids = Ok (map byte_id_name ids).
Proof.
  intros H. apply mapM_ok. rewrite Forall_forall in H. intros i Hi. specialize (H i Hi).
  apply py_nth_nonneg; [lia|]. unfold byte_id_name, byte_scheme. cbn [s_idx_to_str].
  destruct (Z.eqb_spec i 256) as [->|]; [vm_compute; reflexivity|].
  destruct (Z.eqb_spec i 257) as [->|]; [vm_compute; reflexivity|].
  rewrite byte_name_nth by lia. do 2 f_equal. lia.
Qed.
Lemma byte_id_ok i : 0 <= i < 258 -> ok_piece (byte_id_name i).
Proof.
  intros H. unfold byte_id_name, ok_piece, marker.
  destruct (Z.eqb_spec i 256); [auto|]. destruct (Z.eqb_spec i 257); [auto|].
  left. exists (Z.to_N i). split; [lia|reflexivity].
Qed.
Lemma byte_decode_run ids :
  Forall (fun i => 0 <= i < 258) ids -> decode byte_scheme ids = run (map byte_id_name ids) [] [].
Proof.
  intros H. unfold decode. rewrite byte_ids_names by exact H. cbn [bind].
  unfold decode_str. cbn [s_kind byte_scheme]. apply byte_decode_str_run.
Qed.

(** *** C13 *)
Lemma byte_decode_markers a b m name :
  (m = 256 /\ name = lit "<s>") \/ (m = 257 /\ name = lit "</s>") ->
  Forall (fun i => 0 <= i < 258) a -> Forall (fun i => 0 <= i < 258) b ->
  decode byte_scheme (a ++ m :: b) =
  let* x := decode byte_scheme a in let* y := decode byte_scheme b in Ok (x ++ name ++ y).
Proof.
  intros Hm Ha Hb.
  assert (Hmid : 0 <= m < 258) by (destruct Hm as [[-> _]|[-> _]]; lia).
  rewrite !byte_decode_run; [|assumption|assumption|].
  2:{ apply Forall_app; split; [exact Ha|]. constructor; assumption. }
  rewrite map_app. simpl.
  assert (En : byte_id_name m = name) by (destruct Hm as [[-> ->]|[-> ->]]; reflexivity).
  rewrite En. apply run_marker.
  - destruct Hm as [[_ ->]|[_ ->]]; [left|right]; reflexivity.
  - apply Forall_map. eapply Forall_impl; [|exact Hb]. apply byte_id_ok.
  - apply Forall_map. eapply Forall_impl; [|exact Ha]. apply byte_id_ok.
Qed.
Lemma run_bytes bs :
  Forall (fun b => b < 256)%N bs -> Forall (fun b => 16 <= b)%N bs ->
  run (map hex_of_byte bs) [] [] = Ok (utf8_decode [65533%N] bs).
Proof.
  intros H1 H2. unfold run. rewrite byte_fold_bytes.
  2:{ apply Forall_map. eapply Forall_impl; [|exact H1]. intros b Hb. exists b; auto. }
  cbn [app fst snd]. unfold finish.
  destruct (map hex_of_byte bs) as [|x l] eqn:E.
  - destruct bs; [reflexivity|discriminate].
  - rewrite <- E. unfold compose_str. rewrite fromhex_hex by assumption. reflexivity.
Qed.
Lemma byte_decode_bytes ids :
  Forall (fun i => 16 <= i < 256) ids ->
  decode byte_scheme ids = Ok (utf8_decode [65533%N] (map Z.to_N ids)).
Proof.
  intros H. rewrite byte_decode_run.
  2:{ eapply Forall_impl; [|exact H]. simpl. intros; lia. }
  assert (E : map byte_id_name ids = map hex_of_byte (map Z.to_N ids)).
  { rewrite map_map. apply map_ext_in. intros i Hi. rewrite Forall_forall in H. specialize (H i Hi).
    simpl in H. unfold byte_id_name. destruct (Z.eqb_spec i 256); [lia|]. destruct (Z.eqb_spec i 257); [lia|]. reflexivity. }
  rewrite E. apply run_bytes; apply Forall_map; (eapply Forall_impl; [|exact H]); simpl; intros; lia.
Qed.
Lemma byte_decode_total ids :
  Forall (fun i => 16 <= i < 258) ids -> exists out, decode byte_scheme ids = Ok out.
Proof.
  (* cut at the markers, from the right *)
  remember (length ids) as n eqn:En. revert ids En.
  induction n as [n IH] using lt_wf_ind. intros ids En H.
  assert (Hcase : Forall (fun i => 16 <= i < 256) ids \/
                  exists a m b, ids = a ++ m :: b /\ 256 <= m < 258).
  { clear IH En. induction H as [|i ids Hi H IH]; [left; constructor|].
    destruct (Z_lt_dec i 256) as [Hlt|Hge].
    - destruct IH as [IH|(a & m & b & -> & Hm)]; [left; constructor; [lia|exact IH]|].
      right. exists (i :: a), m, b. auto.
    - right. exists [], i, ids. split; [reflexivity|lia]. }
  destruct Hcase as [Hb|(a & m & b & -> & Hm)].
  - eexists. apply byte_decode_bytes, Hb.
  - apply Forall_app in H as [Ha H]. inversion H as [|? ? _ Hb]; subst.
    rewrite (byte_decode_markers a b m (byte_id_name m)).
    + destruct (IH (length a)) with (ids := a) as (x & ->); [rewrite app_length; simpl; lia|reflexivity|exact Ha|].
      destruct (IH (length b)) with (ids := b) as (y & ->); [rewrite app_length; simpl; lia|reflexivity|exact Hb|].
      simpl. eauto.
    + unfold byte_id_name. destruct (Z.eqb_spec m 256) as [->|]; [left; auto|].
      destruct (Z.eqb_spec m 257) as [->|]; [right; auto|lia].
    + eapply Forall_impl; [|exact Ha]. simpl; intros; lia.
    + eapply Forall_impl; [|exact Hb]. simpl; intros; lia.
Qed.

(** *** C12 *)
Lemma byte_ids_of_pieces bs :
  Forall (fun b => b < 256)%N bs ->
  mapM (fun p => match dget str_eqb p (s_str_to_idx byte_scheme) with
                 | Some i => Ok i | None => Raise KeyError end) (map hex_of_byte bs) = Ok (map Z.of_N bs).
Proof.
  intros H. rewrite mapM_map. apply mapM_ok. intros b Hb. rewrite Forall_forall in H.
  rewrite (byte_get b (H b Hb)). reflexivity.
Qed.
Lemma byte_roundtrip s :
  (forall c, In c s -> is_scalar c = true) -> (forall c, In c s -> (16 <= c)%N) ->
  exists ps ids, encode_str byte_scheme s = Ok ps /\ encode byte_scheme s = Ok ids /\
    decode_str byte_scheme ps = Ok s /\ decode byte_scheme ids = Ok s /\
    Forall (fun i => 0 <= i < 256) ids.
Proof.
  intros Hs H16. destruct (utf8_encode_spec s Hs) as (bs & E & Hlt & Hd & Hge). specialize (Hge H16).
  exists (map hex_of_byte bs), (map Z.of_N bs).
  assert (Eps : encode_str byte_scheme s = Ok (map hex_of_byte bs)).
  { unfold encode_str. cbn [s_kind byte_scheme]. unfold byte_encode_str. rewrite E. reflexivity. }
  split; [exact Eps|]. split.
  { unfold encode. rewrite Eps. exact (byte_ids_of_pieces bs Hlt). }
  split.
  { unfold decode_str. cbn [s_kind byte_scheme]. rewrite byte_decode_str_run, run_bytes by assumption.
    rewrite Hd. reflexivity. }
  assert (Hids : Forall (fun i => 16 <= i < 256) (map Z.of_N bs)).
  { apply Forall_map. rewrite Forall_forall in *. intros b Hb. specialize (Hlt b Hb). specialize (Hge b Hb). simpl in *. lia. }
  split.
  - rewrite byte_decode_bytes by exact Hids. rewrite map_map. rewrite (map_ext _ (fun x => x)) by (intros; lia).
    rewrite map_id, Hd. reflexivity.
  - eapply Forall_impl; [|exact Hids]. simpl; intros; lia.
Qed.
Lemma byte_encode_scalar_total s :
  (exists ids, encode byte_scheme s = Ok ids) <-> (forall c, In c s -> is_scalar c = true).
Proof.
  split.
  - intros (ids & H) c Hc. destruct (is_scalar c) eqn:E; [reflexivity|exfalso].
    unfold encode in H. destruct (encode_str byte_scheme s) as [ps|] eqn:Es; [|discriminate].
    unfold encode_str in Es. cbn [s_kind byte_scheme] in Es. unfold byte_encode_str in Es.
    destruct (utf8_encode s) as [bs|] eqn:Eb; [|discriminate]. clear -Eb Hc E.
    revert bs Eb. induction s as [|x s IH]; [destruct Hc|]. intros bs. simpl.
    destruct Hc as [->|Hc].
    + apply utf8_char_none in E. rewrite E. discriminate.
    + destruct (utf8_char x); [|discriminate]. destruct (utf8_encode s) as [r|]; [|discriminate].
      intros _. eapply IH; eauto.
  - intros Hs. destruct (utf8_encode_spec s Hs) as (bs & E & Hlt & _).
    exists (map Z.of_N bs). unfold encode, encode_str. cbn [s_kind byte_scheme]. unfold byte_encode_str.
    rewrite E. exact (byte_ids_of_pieces bs Hlt).
Qed.
Lemma byte_roundtrip' t :
  (forall c, In c t -> is_scalar c = true) -> (forall c, In c t -> (16 <= c)%N) ->
  exists s ps ids, make_scheme KByte [] = Ok s /\
    encode_str s t = Ok ps /\ encode s t = Ok ids /\
    decode_str s ps = Ok t /\ decode s ids = Ok t /\ Forall (fun i => 0 <= i < 256) ids.
Proof.
  intros H1 H2. destruct (byte_roundtrip t H1 H2) as (ps & ids & H).
  exists byte_scheme, ps, ids. split; [apply make_byte|exact H].
Qed.
Lemma byte_encode_total t :
  (exists s ids, make_scheme KByte [] = Ok s /\ encode s t = Ok ids) <->
  (forall c, In c t -> is_scalar c = true).
Proof.
  rewrite <- byte_encode_scalar_total. destruct make_byte as [Hm _]. split.
  - intros (s & ids & Hs & H). rewrite Hm in Hs. injection Hs as <-. eauto.
  - intros (ids & H). exists byte_scheme, ids. auto.
Qed.
