(** Proofs about part files, slices and multipart databases. *)
From Coq Require Import Strings.String.
From Verif Require Import Py PyLemmas PyStr StrSpec PyStrProofs NumProofs Utf8Model JsonModel JsonProofs JsonIndent NumpyModel DbModel DbSpec DbProofs PackLemmas DbBatchProofs BatchModel MultipartModel MultipartSpec.
From Verif Require LearnBpeProofs.
From Coq Require Import Permutation Lia.
Local Open Scope Z_scope.
Local Open Scope list_scope.

(** ** slices *)
Lemma slices_loop_ok {A} size (l : list A) fin fuel : (1 <= size)%nat -> (length l < fuel)%nat ->
  exists full last, l = concat full ++ last /\ (forall c, In c full -> length c = size) /\ (length last < size)%nat /\
    slices_loop fuel size l fin = (map (fun c => (c, None)) full ++ (match last with [] => [] | _ => [(last, fin)] end), match last with [] => fin | _ => None end).
Proof.
  intros Hs. revert l. induction fuel as [|f IH]; intros l Hf; [lia|]. cbn [slices_loop]. destruct l as [|x l].
  - exists [], []. split; [reflexivity|]. split; [intros c []|]. split; [cbn; lia|]. reflexivity.
  - destruct (Nat.ltb_spec (length (x :: l)) size) as [H|H].
    + exists [], (x :: l). split; [reflexivity|]. split; [intros c []|]. split; [exact H|]. reflexivity.
    + destruct (IH (skipn size (x :: l))) as (full & last & El & Hfull & Hlast & E).
      { rewrite skipn_length. cbn [length] in *. lia. }
      exists (firstn size (x :: l) :: full), last. rewrite E. split.
      { cbn [concat]. rewrite <- app_assoc, <- El. symmetry. apply firstn_skipn. }
      split; [intros c [<-|Hc]; [apply firstn_length_le; exact H|apply Hfull, Hc]|]. split; [exact Hlast|]. reflexivity.
Qed.
Lemma last_chunk {A} (full : list (list A)) last : (last = [] -> full ++ match last with [] => [] | _ => [last] end = full).
Proof. intros ->. apply app_nil_r. Qed.
Theorem slices_ok {A} (l : list A) size : 1 <= size ->
  exists chunks, slices (l, None) size = (map (fun c => (c, None)) chunks, None) /\ chunked (Z.to_nat size) l chunks.
Proof.
  intros Hs. unfold slices. rewrite (proj2 (Z.ltb_ge size 0)), (proj2 (Z.eqb_neq size 0)) by lia. cbn [fst snd].
  destruct (slices_loop_ok (Z.to_nat size) l None (S (length l))) as (full & last & El & Hfull & Hlast & E); [lia|lia|].
  exists (full ++ match last with [] => [] | _ => [last] end). rewrite E. split; [rewrite map_app; destruct last; reflexivity|].
  split; [rewrite concat_app, El; destruct last; cbn; rewrite ?app_nil_r; reflexivity|]. split.
  - intros c Hc. apply in_app_or in Hc. destruct Hc as [Hc|Hc].
    + specialize (Hfull c Hc). split; [intros ->; cbn in Hfull; lia|lia].
    + destruct last; [destruct Hc|]. destruct Hc as [<-|[]]. split; [discriminate|lia].
  - intros before c after Hb Ha. apply Hfull. destruct last as [|x last].
    + rewrite app_nil_r in Hb. rewrite Hb. apply in_or_app. right. left. reflexivity.
    + destruct (exists_last Ha) as (a' & z & ->). rewrite app_comm_cons, app_assoc in Hb. apply app_inj_tail in Hb. destruct Hb as [-> _].
      apply in_or_app. right. left. reflexivity.
Qed.
(** a stream that raises: only complete chunks are yielded cleanly *)
Theorem slices_raise {A} (l : list A) e size : 1 <= size ->
  exists full last, l = concat full ++ last /\ (forall c, In c full -> length c = Z.to_nat size) /\ (length last < Z.to_nat size)%nat /\
    slices (l, Some e) size = (map (fun c => (c, None)) full ++ (match last with [] => [] | _ => [(last, Some e)] end), match last with [] => Some e | _ => None end).
Proof.
  intros Hs. unfold slices. rewrite (proj2 (Z.ltb_ge size 0)), (proj2 (Z.eqb_neq size 0)) by lia. cbn [fst snd]. apply slices_loop_ok; lia.
Qed.
Lemma chunked_unique {A} size (l : list A) c1 c2 : chunked size l c1 -> chunked size l c2 -> c1 = c2.
Proof.
  revert l c2. induction c1 as [|a c1 IH]; intros l c2 (E1 & H1 & F1) (E2 & H2 & F2).
  - cbn in E1. subst l. destruct c2 as [|b c2]; [reflexivity|]. exfalso. destruct (H2 b (or_introl eq_refl)) as [Hb _]. cbn in E2. apply app_eq_nil in E2. tauto.
  - destruct c2 as [|b c2].
    { exfalso. destruct (H1 a (or_introl eq_refl)) as [Ha _]. cbn in E1, E2. subst l. symmetry in E2. apply app_eq_nil in E2. tauto. }
    cbn [concat] in E1, E2.
    assert (Hab : a = b).
    { assert (Hlen : length a = length b).
      { assert (Ea : c1 = [] \/ length a = size) by (destruct c1 as [|x c1]; [left; reflexivity|right; apply (F1 [] a (x :: c1)); [reflexivity|discriminate]]).
        assert (Eb : c2 = [] \/ length b = size) by (destruct c2 as [|x c2]; [left; reflexivity|right; apply (F2 [] b (x :: c2)); [reflexivity|discriminate]]).
        destruct (H1 a (or_introl eq_refl)) as [_ La]. destruct (H2 b (or_introl eq_refl)) as [_ Lb].
        assert (Hl : length (a ++ concat c1) = length (b ++ concat c2)) by congruence. rewrite !app_length in Hl.
        assert (Nz : forall (A0 : Type) (c : list (list A0)), c = [] -> length (concat c) = 0%nat) by (intros ? ? ->; reflexivity).
        destruct Ea as [->|Ea], Eb as [->|Eb]; cbn [concat length] in *; lia. }
      rewrite <- E1 in E2. clear - E2 Hlen. revert b Hlen E2. induction a as [|x a IHa]; intros [|y b] Hl E; try discriminate Hl; [reflexivity|].
      cbn in E. injection E as -> E. f_equal. apply IHa; [cbn in Hl; lia|exact E]. }
    subst b. f_equal. rewrite <- E1 in E2. apply app_inv_head in E2. apply IH with (l := concat c1).
    + split; [reflexivity|]. split; [intros c Hc; apply H1; right; exact Hc|]. intros before c after Hb Ha. apply (F1 (a :: before) c after); [rewrite Hb; reflexivity|exact Ha].
    + split; [exact E2|]. split; [intros c Hc; apply H2; right; exact Hc|]. intros before c after Hb Ha. apply (F2 (a :: before) c after); [rewrite Hb; reflexivity|exact Ha].
Qed.

(** ** names of part files *)
Lemma dval_zeros k s : dval 0 (repeat 48%N k ++ s) = dval 0 s.
Proof. induction k as [|k IH]; [reflexivity|]. exact IH. Qed.
Lemma zfill_digits w n : all_digits (zfill w (str_of_N n)) /\ zfill w (str_of_N n) <> [] /\ dval 0 (zfill w (str_of_N n)) = n.
Proof.
  destruct (str_of_N_spec n) as (Hne & Hd & Hv & _). unfold zfill. split; [|split].
  - apply Forall_app. split; [|exact Hd]. apply Forall_forall. intros c Hc. apply repeat_spec in Hc. subst c. reflexivity.
  - intros H. apply app_eq_nil in H. tauto.
  - rewrite dval_zeros. exact Hv.
Qed.
Lemma pad_int_shape w n : exists c r, pad_int w n = r ++ [c] /\ is_digit c = true /\ Forall (fun c => is_digit c = true \/ c = 45%N) (pad_int w n).
Proof.
  unfold pad_int. set (w' := if n <? 0 then (w - 1)%nat else w).
  destruct (zfill_digits w' (Z.to_N (if n <? 0 then - n else n))) as (Hd & Hne & _).
  destruct (exists_last Hne) as (r & c & E). unfold w' in *. destruct (n <? 0); rewrite E in *.
  - exists c, (45%N :: r). split; [reflexivity|]. apply Forall_app in Hd. destruct Hd as [Hr Hc]. inversion Hc; subst. split; [assumption|].
    constructor; [right; reflexivity|]. apply Forall_app. split; [eapply Forall_impl; [|exact Hr]; cbn; tauto|]. constructor; [left; assumption|constructor].
  - exists c, r. split; [reflexivity|]. pose proof Hd as Hd'. apply Forall_app in Hd. destruct Hd as [Hr Hc]. inversion Hc; subst. split; [assumption|].
    eapply Forall_impl; [|exact Hd']. cbn. tauto.
Qed.
Lemma pad_int_inj w a b : pad_int w a = pad_int w b -> a = b.
Proof.
  unfold pad_int. intros H.
  assert (Hx : forall u n, exists c r, zfill u (str_of_N n) = c :: r /\ c <> 45%N).
  { intros u n. destruct (zfill_digits u n) as (Hd & Hne & _). destruct (zfill u (str_of_N n)) as [|c r]; [congruence|]. exists c, r. split; [reflexivity|].
    inversion Hd; subst. intros ->. discriminate. }
  destruct (Z.ltb_spec a 0) as [Ha|Ha], (Z.ltb_spec b 0) as [Hb|Hb].
  - injection H as H. apply (f_equal (dval 0)) in H. destruct (zfill_digits (w - 1) (Z.to_N (- a))) as (_ & _ & Ea). destruct (zfill_digits (w - 1) (Z.to_N (- b))) as (_ & _ & Eb).
    rewrite Ea, Eb in H. lia.
  - exfalso. destruct (Hx w (Z.to_N b)) as (c & r & E & Hc). rewrite E in H. congruence.
  - exfalso. destruct (Hx w (Z.to_N a)) as (c & r & E & Hc). rewrite E in H. congruence.
  - apply (f_equal (dval 0)) in H. destruct (zfill_digits w (Z.to_N a)) as (_ & _ & Ea). destruct (zfill_digits w (Z.to_N b)) as (_ & _ & Eb). rewrite Ea, Eb in H. lia.
Qed.
Theorem part_name_inj pad a b : part_name pad a = part_name pad b -> a = b.
Proof. unfold part_name. intros H. apply app_inv_head in H. exact (pad_int_inj _ _ _ H). Qed.
Lemma part_name_last pad n : exists c r, part_name pad n = r ++ [c] /\ is_digit c = true.
Proof. destruct (pad_int_shape pad n) as (c & r & E & H & _). exists c, (lit "part-" ++ r). unfold part_name. rewrite E, app_assoc. auto. Qed.
Lemma meta_name_inj a b : meta_name a = meta_name b -> a = b.
Proof. unfold meta_name. apply app_inv_tail. Qed.
Theorem part_not_meta pad n p : part_name pad n <> meta_name p.
Proof.
  intros H. destruct (part_name_last pad n) as (c & r & E & Hc). rewrite E in H. unfold meta_name in H.
  change (lit ".meta") with ([46; 109; 101; 116]%N ++ [97%N]) in H. rewrite app_assoc in H. apply app_inj_tail in H. destruct H as [_ ->]. discriminate.
Qed.
Theorem recovered_name pad n : rstrip_set (lit ".meta") (meta_name (part_name pad n)) = part_name pad n.
Proof.
  destruct (part_name_last pad n) as (c & r & E & Hc). unfold rstrip_set, meta_name. rewrite E, !rev_app_distr.
  change (rev (lit ".meta")) with [97; 116; 101; 109; 46]%N. change (lit ".meta") with [46; 109; 101; 116; 97]%N. cbn [rev app lstrip_set existsb].
  change (N.eqb 97 46 || (N.eqb 97 109 || (N.eqb 97 101 || (N.eqb 97 116 || (N.eqb 97 97 || false))))) with true.
  assert (E5 : (N.eqb c 46 || (N.eqb c 109 || (N.eqb c 101 || (N.eqb c 116 || (N.eqb c 97 || false))))) = false) by (unfold is_digit in Hc; lia).
  cbv iota. cbn [lstrip_set existsb].
  change (N.eqb 116 46 || (N.eqb 116 109 || (N.eqb 116 101 || (N.eqb 116 116 || (N.eqb 116 97 || false))))) with true. cbv iota. cbn [lstrip_set existsb].
  change (N.eqb 101 46 || (N.eqb 101 109 || (N.eqb 101 101 || (N.eqb 101 116 || (N.eqb 101 97 || false))))) with true. cbv iota. cbn [lstrip_set existsb].
  change (N.eqb 109 46 || (N.eqb 109 109 || (N.eqb 109 101 || (N.eqb 109 116 || (N.eqb 109 97 || false))))) with true. cbv iota. cbn [lstrip_set existsb].
  change (N.eqb 46 46 || (N.eqb 46 109 || (N.eqb 46 101 || (N.eqb 46 116 || (N.eqb 46 97 || false))))) with true. cbv iota. cbn [lstrip_set existsb].
  rewrite E5. cbn [rev]. rewrite rev_involutive. reflexivity.
Qed.
Lemma startswith_self p s : startswith p (p ++ s) = true.
Proof. induction p as [|c p IH]; [reflexivity|]. cbn. rewrite N.eqb_refl. exact IH. Qed.
Lemma part_is_not_meta pad n : is_part_meta (part_name pad n) = false.
Proof.
  unfold is_part_meta, endswith. destruct (part_name_last pad n) as (c & r & E & Hc). rewrite E, rev_app_distr. change (rev (lit ".meta")) with [97; 116; 101; 109; 46]%N.
  cbn [rev app startswith]. assert (E1 : N.eqb 97 c = false) by (unfold is_digit in Hc; lia). rewrite E1, andb_false_r. reflexivity.
Qed.
Lemma meta_is_meta pad n : is_part_meta (meta_name (part_name pad n)) = true.
Proof.
  unfold is_part_meta, endswith, meta_name. rewrite rev_app_distr, startswith_self. unfold part_name at 1. rewrite <- !app_assoc, startswith_self. cbn [andb].
  apply Nat.leb_le. destruct (part_name_last pad n) as (c & r & E & _). unfold part_name. rewrite !app_length. destruct (pad_int_shape pad n) as (c' & r' & E' & _). rewrite E', app_length. cbn. lia.
Qed.
Lemma flag_not_part pad n : FLAG <> part_name pad n.
Proof. unfold FLAG, part_name. discriminate. Qed.
Lemma flag_not_meta pad n : FLAG <> meta_name (part_name pad n).
Proof. unfold FLAG, meta_name, part_name. discriminate. Qed.
Lemma part_name_scalars pad n : scalars (part_name pad n).
Proof.
  unfold scalars, part_name. apply Forall_app. split; [repeat constructor|]. destruct (pad_int_shape pad n) as (c & r & _ & _ & H). eapply Forall_impl; [|exact H].
  cbn. intros a [Ha| ->]; [|reflexivity]. unfold is_digit in Ha. unfold is_scalar, is_surrogate. lia.
Qed.

(** ** runs *)
Lemma seq_ok {A B} (m : io A) (f : A -> io B) d a : val (m d) = Ok a ->
  seq_io m f d = MkRun (seen (m d) ++ seen (f a (now (m d)))) (now (f a (now (m d)))) (val (f a (now (m d)))).
Proof. intros E. unfold seq_io. rewrite E. reflexivity. Qed.
Lemma seq_raise {A B} (m : io A) (f : A -> io B) d e : val (m d) = Raise e -> seq_io m f d = MkRun (seen (m d)) (now (m d)) (Raise e).
Proof. intros E. unfold seq_io. rewrite E. reflexivity. Qed.

Definition part_files (w : world) (pad : nat) (n : Z) (p : db) : list (str * content) :=
  [(part_name pad n, Pickle p); (meta_name (part_name pad n), Text (dumps_ind 0 (part_meta w p)))].
Definition add_part (w : world) (pad : nat) (n : Z) (p : db) (fs : list (str * content)) : list (str * content) :=
  dset str_eqb (meta_name (part_name pad n)) (Text (dumps_ind 0 (part_meta w p))) (dset str_eqb (part_name pad n) (Pickle p) fs).
Lemma writer_call_raise w names pad n recs e fs : db_of_slice names recs = Raise e -> writer_call w names pad n recs (Some fs) = MkRun [] (Some fs) (Raise e).
Proof. intros E. unfold writer_call. erewrite seq_raise; [reflexivity|]. cbn. exact E. Qed.
Definition keeps_flag (fs : list (str * content)) (d : dir) : Prop := exists fs', d = Some fs' /\ dget str_eqb FLAG fs' = dget str_eqb FLAG fs.
Lemma writer_call_ok w names pad n recs p fs : db_of_slice names recs = Ok p ->
  val (writer_call w names pad n recs (Some fs)) = Ok (part_name pad n, db_len p) /\
  now (writer_call w names pad n recs (Some fs)) = Some (add_part w pad n p fs) /\
  Forall (keeps_flag fs) (seen (writer_call w names pad n recs (Some fs))).
Proof.
  intros E. unfold writer_call. erewrite (seq_ok _ _ _ p) by (cbn; exact E). cbn [lift seen now]. erewrite (seq_ok _ _ _ tt) by reflexivity. cbn [db_save seen now].
  erewrite (seq_ok _ _ _ tt) by reflexivity. cbn [write_text seen now done val]. split; [reflexivity|]. split; [reflexivity|].
  assert (Hp : forall c (fs' : list (str * content)), dget str_eqb FLAG (dset str_eqb (part_name pad n) c fs') = dget str_eqb FLAG fs') by (intros; apply (dget_dset_other str_eqb str_eqb_eq), flag_not_part).
  assert (Hm : forall c (fs' : list (str * content)), dget str_eqb FLAG (dset str_eqb (meta_name (part_name pad n)) c fs') = dget str_eqb FLAG fs') by (intros; apply (dget_dset_other str_eqb str_eqb_eq), flag_not_meta).
  cbn [app]. rewrite app_nil_r. constructor; [eexists; split; [reflexivity|apply Hp]|]. constructor; [eexists; split; [reflexivity|apply Hp]|].
  apply Forall_map, Forall_forall. intros k _. eexists. split; [reflexivity|]. rewrite Hm, Hp. reflexivity.
Qed.
Lemma add_part_flag w pad n p fs : dget str_eqb FLAG (add_part w pad n p fs) = dget str_eqb FLAG fs.
Proof. unfold add_part. rewrite !(dget_dset_other str_eqb str_eqb_eq); [reflexivity|apply flag_not_part|apply flag_not_meta]. Qed.

(** files of a directory being written *)
Definition parts_only (w : world) (pad : nat) (fs : list (str * content)) : Prop :=
  NoDup (dkeys fs) /\ Forall (fun kv => exists n p, In kv (part_files w pad n p)) fs.
Lemma in_dset {V} k (v : V) d kv : In kv (dset str_eqb k v d) -> kv = (k, v) \/ In kv d.
Proof.
  induction d as [|[k' v'] d IH]; cbn [dset]; [intros [<-|[]]; left; reflexivity|]. destruct (str_eqb k k') eqn:E.
  - apply str_eqb_eq in E. subst k'. intros [<-|H]; [left; reflexivity|right; right; exact H].
  - intros [<-|H]; [right; left; reflexivity|]. destruct (IH H) as [H'|H']; [left|right; right]; exact H'.
Qed.
Lemma add_parts_only w pad n p fs : parts_only w pad fs -> parts_only w pad (add_part w pad n p fs).
Proof.
  intros [Hnd Hf]. split; [apply (dset_NoDup str_eqb str_eqb_eq), (dset_NoDup str_eqb str_eqb_eq), Hnd|]. rewrite Forall_forall in *. intros kv H.
  apply in_dset in H. destruct H as [->|H]; [exists n, p; right; left; reflexivity|]. apply in_dset in H. destruct H as [->|H]; [exists n, p; left; reflexivity|]. apply Hf, H.
Qed.
Lemma write_parts_inv w names pad calls : forall fs, parts_only w pad fs ->
  exists fs', now (write_parts w names pad calls (Some fs)) = Some fs' /\ parts_only w pad fs' /\ dget str_eqb FLAG fs' = dget str_eqb FLAG fs /\
    Forall (keeps_flag fs) (seen (write_parts w names pad calls (Some fs))).
Proof.
  induction calls as [|[n recs] calls IH]; intros fs Hp.
  - exists fs. cbn. auto.
  - cbn [write_parts]. destruct (db_of_slice names recs) as [p|e] eqn:E.
    + destruct (writer_call_ok w names pad n recs p fs E) as (Ev & En & Hs). rewrite (seq_ok _ _ _ _ Ev), En. cbn [seen now].
      destruct (IH (add_part w pad n p fs)) as (fs' & E' & Hp' & Hf & Hs'); [apply add_parts_only, Hp|]. exists fs'. rewrite add_part_flag in Hf.
      split; [exact E'|]. split; [exact Hp'|]. split; [exact Hf|]. apply Forall_app. split; [exact Hs|]. eapply Forall_impl; [|exact Hs'].
      intros d (f & -> & Ef). exists f. rewrite add_part_flag in Ef. auto.
    + pose proof (writer_call_raise w names pad n recs e fs E) as Er. erewrite (seq_raise _ _ _ e) by (rewrite Er; reflexivity). rewrite Er. cbn [seen now].
      exists fs. auto.
Qed.
Lemma writer_init_ok w ow d : val (writer_init w ow d) = Ok tt -> now (writer_init w ow d) = Some [].
Proof.
  unfold writer_init. destruct d as [[|f fs]|]; [reflexivity| |reflexivity]. destruct ow; [|discriminate]. intros _. reflexivity.
Qed.
Lemma writer_init_cases w ow d : (exists f fs, d = Some (f :: fs) /\ ow = false /\ writer_init w ow d = MkRun [] d (Raise OtherError)) \/
  (val (writer_init w ow d) = Ok tt).
Proof. unfold writer_init. destruct d as [[|f fs]|]; [right; reflexivity| |right; reflexivity]. destruct ow; [right; reflexivity|left; exists f, fs; auto]. Qed.

(** ** closing *)
Lemma fold_dset_inv {V} (P : str * V -> Prop) (l : list (str * V)) : Forall P l -> forall m, NoDup (dkeys m) -> Forall P m ->
  let r := fold_left (fun m kv => dset str_eqb (fst kv) (snd kv) m) l m in NoDup (dkeys r) /\ Forall P r.
Proof.
  induction 1 as [|[k v] l Hk _ IH]; intros m Hnd Hm; [split; assumption|]. cbn [fold_left fst snd]. apply IH; [apply (dset_NoDup str_eqb str_eqb_eq), Hnd|].
  rewrite Forall_forall in *. intros kv H. apply in_dset in H. destruct H as [->|H]; auto.
Qed.
Lemma fold_dset_fresh {V} (l : list (str * V)) : forall m, NoDup (map fst (m ++ l)) -> fold_left (fun m kv => dset str_eqb (fst kv) (snd kv) m) l m = m ++ l.
Proof.
  induction l as [|[k v] l IH]; intros m H; [rewrite app_nil_r; reflexivity|]. cbn [fold_left fst snd]. rewrite map_app in H. cbn [map fst] in H.
  rewrite (dset_fresh str_eqb str_eqb_eq) by (apply NoDup_remove_2 in H; intros Hin; apply H, in_or_app; left; exact Hin).
  rewrite IH, <- app_assoc; [reflexivity|]. rewrite <- app_assoc, map_app. exact H.
Qed.
Lemma part_meta_ok w p : json_ok (part_meta w p).
Proof.
  unfold part_meta. apply json_ok_obj. split.
  - cbn. constructor; [intros [H|[]]; discriminate H|]. constructor; [intros []|constructor].
  - constructor; [split; [repeat constructor|exact I]|]. constructor; [split; [repeat constructor|exact I]|constructor].
Qed.
Definition good_meta (w : world) (pad : nat) (kv : str * json) : Prop := exists n p, kv = (part_name pad n, part_meta w p).
Lemma success_meta_ok w pad names parts : Forall scalars names -> NoDup (map fst parts) -> Forall (good_meta w pad) parts -> json_ok (success_meta names parts).
Proof.
  intros Hn Hnd Hp. unfold success_meta. apply json_ok_obj. split.
  - cbn. constructor; [intros [H|[]]; discriminate H|]. constructor; [intros []|constructor].
  - constructor; [|constructor; [|constructor]]; cbn [fst snd]; (split; [repeat constructor|]).
    + apply json_ok_obj. split; [exact Hnd|]. eapply Forall_impl; [|exact Hp]. intros kv (n & p & ->). cbn [fst snd]. split; [apply part_name_scalars|apply part_meta_ok].
    + apply json_ok_arr, Forall_map. eapply Forall_impl; [|exact Hn]. intros s Hs. exact Hs.
Qed.
Lemma read_meta_ok w pad fs name : parts_only w pad fs -> In name (dkeys fs) -> is_part_meta name = true ->
  exists n p, In (name, Text (dumps_ind 0 (part_meta w p))) fs /\ name = meta_name (part_name pad n) /\ read_meta fs name = Ok (part_name pad n, part_meta w p).
Proof.
  intros [Hnd Hf] Hin Hm. apply in_map_iff in Hin. destruct Hin as ([k c] & <- & Hin). cbn [fst] in *. rewrite Forall_forall in Hf. destruct (Hf _ Hin) as (n & p & [H|[H|[]]]).
  - injection H as <- <-. rewrite part_is_not_meta in Hm. discriminate.
  - assert (Hk : k = meta_name (part_name pad n)) by congruence. assert (Hc : c = Text (dumps_ind 0 (part_meta w p))) by congruence. clear H. subst k c.
    exists n, p. split; [exact Hin|]. split; [reflexivity|]. unfold read_meta. rewrite (In_dget str_eqb str_eqb_eq _ _ _ Hnd Hin).
    rewrite loads_ind by apply part_meta_ok. cbn [bind]. rewrite recovered_name. reflexivity.
Qed.
Lemma close_ok w names pad fs : lists w -> Forall scalars names -> parts_only w pad fs ->
  exists metas parts, mapM (read_meta fs) (filter is_part_meta (glob_order w (dkeys fs))) = Ok metas /\ parts = fold_left (fun m kv => dset str_eqb (fst kv) (snd kv) m) metas [] /\
    json_ok (success_meta names parts) /\ Forall (good_meta w pad) metas /\
    close w names (Some fs) = write_text FLAG (dumps_ind 0 (success_meta names parts)) (Some fs).
Proof.
  intros [_ Hg] Hn Hp.
  assert (Hin : forall name, In name (filter is_part_meta (glob_order w (dkeys fs))) -> In name (dkeys fs) /\ is_part_meta name = true).
  { intros name H. apply filter_In in H. destruct H as [H1 H2]. split; [eapply Permutation_in; [apply Permutation_sym, Hg|exact H1]|exact H2]. }
  destruct (mapM_total (read_meta fs) (filter is_part_meta (glob_order w (dkeys fs)))) as (metas & E).
  { intros name H. apply Hin in H. destruct H as [H1 H2]. destruct (read_meta_ok w pad fs name Hp H1 H2) as (n & p & _ & _ & Er). eauto. }
  exists metas, (fold_left (fun m kv => dset str_eqb (fst kv) (snd kv) m) metas []). split; [exact E|]. split; [reflexivity|].
  assert (Hgood : Forall (good_meta w pad) metas).
  { pose proof (proj1 (mapM_forall2 _ _ _) E) as H2. clear E. induction H2 as [|name kv l l' Hr _ IH]; constructor.
    - destruct (Hin name (or_introl eq_refl)) as [H1 H2]. destruct (read_meta_ok w pad fs name Hp H1 H2) as (n & p & _ & _ & Er). rewrite Hr in Er. injection Er as ->. exists n, p. reflexivity.
    - apply IH. intros x Hx. apply Hin. right. exact Hx. }
  destruct (fold_dset_inv (good_meta w pad) metas Hgood []) as [Hnd Hf]; [constructor|constructor|].
  split; [eapply success_meta_ok; eassumption|]. split; [exact Hgood|]. unfold close. rewrite E. reflexivity.
Qed.

(** ** interrupted writing *)
Lemma no_flag_refuses d : (forall fs, d = Some fs -> dget str_eqb FLAG fs = None) -> refuses d.
Proof. intros H arity keep shuffle. exists AssertionError. unfold mdb_load. destruct d as [fs|]; [|reflexivity]. rewrite (H fs eq_refl). reflexivity. Qed.
Lemma bad_flag_refuses fs s e : dget str_eqb FLAG fs = Some (Text s) -> loads s = Raise e -> refuses (Some fs).
Proof. intros Hg Hl arity keep shuffle. exists e. unfold mdb_load. rewrite Hg, Hl. reflexivity. Qed.
Lemma keeps_refuses fs d : dget str_eqb FLAG fs = None -> keeps_flag fs d -> refuses d.
Proof. intros H (fs' & -> & E). apply no_flag_refuses. intros f [= <-]. congruence. Qed.
Lemma close_states w names pad fs : lists w -> Forall scalars names -> parts_only w pad fs ->
  val (close w names (Some fs)) = Ok tt /\ forall d, In d (seen (close w names (Some fs))) -> refuses d \/ d = now (close w names (Some fs)).
Proof.
  intros Hl Hn Hp. destruct (close_ok w names pad fs Hl Hn Hp) as (metas & parts & _ & _ & Hj & _ & ->). cbn [write_text val seen now]. split; [reflexivity|].
  intros d Hd. apply in_map_iff in Hd. destruct Hd as (k & <- & Hk). apply in_seq in Hk.
  set (s := dumps_ind 0 (success_meta names parts)) in *. destruct (Nat.eq_dec k (length s)) as [->|Hne].
  - right. rewrite firstn_all. reflexivity.
  - left. destruct (loads_ind_prefix 0 _ k Hj) as (e & Ee); [fold (success_meta names parts); fold s; lia|].
    eapply bad_flag_refuses; [apply (dget_dset_same str_eqb str_eqb_eq)|exact Ee].
Qed.
(** what a Writer with-block passes through once the directory is empty *)
Lemma block_states w names pad calls fin : lists w -> Forall scalars names ->
  let body := seq_io (write_parts w names pad calls) (fun _ => seq_io (lift (match fin with Some e => Raise e | None => Ok tt end)) (fun _ => close w names)) in
  let r := body (Some []) in
  (forall d, In d (seen r) -> refuses d \/ (d = now r /\ val r = Ok tt)) /\
  (val r <> Ok tt -> exists fs, now r = Some fs /\ dget str_eqb FLAG fs = None) /\ (fin <> None -> val r <> Ok tt) /\
  (val r = Ok tt -> val (write_parts w names pad calls (Some [])) = Ok tt).
Proof.
  intros Hl Hn body r. unfold r, body. clear r body.
  destruct (write_parts_inv w names pad calls []) as (fs & En & Hp & Hf & Hs); [split; constructor|]. cbn [dget] in Hf.
  assert (Hs' : forall d, In d (seen (write_parts w names pad calls (Some []))) -> refuses d).
  { intros d Hd. rewrite Forall_forall in Hs. eapply keeps_refuses; [|apply Hs, Hd]. reflexivity. }
  destruct (val (write_parts w names pad calls (Some []))) as [[]|e] eqn:Ev.
  - rewrite (seq_ok _ _ _ _ Ev), En. cbn [seen now val]. destruct fin as [e|].
    + cbn. rewrite app_nil_r. split; [intros d Hd; left; apply Hs', Hd|]. split; [intros _; exists fs; auto|]. split; [discriminate|discriminate].
    + cbn [lift seq_io seen now val app]. destruct (close_states w names pad fs Hl Hn Hp) as [Ec Hc]. split.
      * intros d Hd. apply in_app_or in Hd. destruct Hd as [Hd|Hd]; [left; apply Hs', Hd|]. destruct (Hc d Hd) as [H|H]; [left; exact H|right; split; [exact H|exact Ec]].
      * split; [intros H; exfalso; apply H; exact Ec|]. split; [intros H; exfalso; apply H; reflexivity|reflexivity].
  - rewrite (seq_raise _ _ _ _ Ev). cbn [seen now val]. split; [intros d Hd; left; apply Hs', Hd|]. split; [intros _; exists fs; auto|]. split; [intros _; discriminate|discriminate].
Qed.

(** ** complete writing and reading back *)
(** a written part: its number, the records given and the database made of them *)
Definition piece : Set := (Z * (list rec * db))%type.
Definition p_num (t : piece) : Z := fst t.
Definition p_recs (t : piece) : list rec := fst (snd t).
Definition p_db (t : piece) : db := snd (snd t).
Definition p_files (w : world) (pad : nat) (t : piece) := part_files w pad (p_num t) (p_db t).
Definition p_name (pad : nat) (t : piece) : str := part_name pad (p_num t).
Definition call_of (t : piece) : Z * stream rec := (p_num t, (p_recs t, None)).

Lemma keys_flat w pad ts k : In k (dkeys (flat_map (p_files w pad) ts)) <-> exists t, In t ts /\ (k = p_name pad t \/ k = meta_name (p_name pad t)).
Proof.
  induction ts as [|t ts IH]; [split; [intros []|intros (t & [] & _)]|]. cbn [flat_map]. unfold dkeys in *. rewrite map_app, in_app_iff, IH. cbn [p_files part_files map fst].
  split.
  - intros [[<-|[<-|[]]]|(t' & H1 & H2)]; [exists t; split; [left; reflexivity|left; reflexivity]|exists t; split; [left; reflexivity|right; reflexivity]|exists t'; split; [right; exact H1|exact H2]].
  - intros (t' & [<-|H1] & H2); [left; destruct H2 as [->| ->]; [left; reflexivity|right; left; reflexivity]|right; exists t'; auto].
Qed.
Lemma keys_flat_NoDup w pad ts : NoDup (map p_num ts) -> NoDup (dkeys (flat_map (p_files w pad) ts)).
Proof.
  induction ts as [|t ts IH]; intros H; [constructor|]. inversion H as [|? ? Hn Hnd]; subst. cbn [flat_map app p_files part_files]. unfold dkeys in *. cbn [map fst].
  assert (Hfr : forall t', In t' ts -> p_num t' <> p_num t) by (intros t' Ht' E; apply Hn; rewrite <- E; apply in_map, Ht').
  constructor; [|constructor; [|apply IH, Hnd]].
  - intros [E|Hin]; [symmetry in E; apply part_not_meta in E; exact E|]. apply (keys_flat w pad ts) in Hin. destruct Hin as (t' & Ht' & [E|E]).
    + apply part_name_inj in E. apply (Hfr t' Ht'). auto.
    + apply part_not_meta in E. exact E.
  - intros Hin. apply (keys_flat w pad ts) in Hin. destruct Hin as (t' & Ht' & [E|E]).
    + symmetry in E. apply part_not_meta in E. exact E.
    + apply meta_name_inj, part_name_inj in E. apply (Hfr t' Ht'). auto.
Qed.
Lemma write_parts_ok w names pad ts : (forall t, In t ts -> db_create names (p_recs t) = Ok (p_db t)) -> forall before, NoDup (map p_num (before ++ ts)) ->
  val (write_parts w names pad (map call_of ts) (Some (flat_map (p_files w pad) before))) = Ok tt /\
  now (write_parts w names pad (map call_of ts) (Some (flat_map (p_files w pad) before))) = Some (flat_map (p_files w pad) (before ++ ts)).
Proof.
  induction ts as [|t ts IH]; intros Hok before Hnd; [rewrite app_nil_r; split; reflexivity|]. cbn [map write_parts call_of].
  assert (E : db_of_slice names (p_recs t, None) = Ok (p_db t)) by (apply Hok; left; reflexivity).
  destruct (writer_call_ok w names pad (p_num t) _ _ (flat_map (p_files w pad) before) E) as (Ev & En & _). rewrite (seq_ok _ _ _ _ Ev), En. cbn [val now].
  assert (Hadd : add_part w pad (p_num t) (p_db t) (flat_map (p_files w pad) before) = flat_map (p_files w pad) (before ++ [t])).
  { pose proof (keys_flat_NoDup w pad (before ++ t :: ts) Hnd) as Hk. rewrite flat_map_app in Hk. cbn [flat_map] in Hk. unfold dkeys in Hk. rewrite map_app, map_app in Hk.
    cbn [p_files part_files map fst app] in Hk. rewrite flat_map_app. cbn [flat_map]. rewrite app_nil_r. unfold add_part.
    rewrite (dset_fresh str_eqb str_eqb_eq (part_name pad (p_num t))) by (intros Hi; apply NoDup_remove_2 in Hk; apply Hk, in_or_app; left; exact Hi).
    rewrite (dset_fresh str_eqb str_eqb_eq).
    - unfold p_files, part_files. rewrite <- app_assoc. reflexivity.
    - unfold dkeys. rewrite map_app. intros Hi. apply in_app_or in Hi. cbn [map fst] in Hi.
      apply NoDup_remove_1 in Hk as Hk1. apply NoDup_remove_2 in Hk1. destruct Hi as [Hi|[Hi|[]]]; [apply Hk1, in_or_app; left; exact Hi|].
      apply part_not_meta in Hi. exact Hi. }
  rewrite Hadd. replace (before ++ t :: ts) with ((before ++ [t]) ++ ts) in * by (rewrite <- app_assoc; reflexivity).
  apply IH; [intros t' Ht'; apply Hok; right; exact Ht'|exact Hnd].
Qed.
Lemma pieces_only w pad ts : NoDup (map p_num ts) -> parts_only w pad (flat_map (p_files w pad) ts).
Proof.
  intros H. split; [apply keys_flat_NoDup, H|]. apply Forall_forall. intros kv Hin. apply in_flat_map in Hin. destruct Hin as (t & _ & Hin). exists (p_num t), (p_db t). exact Hin.
Qed.
Lemma filter_metas w pad ts : filter is_part_meta (dkeys (flat_map (p_files w pad) ts)) = map (fun t => meta_name (p_name pad t)) ts.
Proof.
  induction ts as [|t ts IH]; [reflexivity|]. cbn [flat_map p_files part_files app]. unfold dkeys in *. cbn [map fst filter]. rewrite part_is_not_meta, meta_is_meta, IH. reflexivity.
Qed.
Lemma Permutation_filter {A} (f : A -> bool) l l' : Permutation l l' -> Permutation (filter f l) (filter f l').
Proof.
  induction 1; cbn [filter]; [constructor| | |eapply perm_trans; eassumption].
  - destruct (f x); [constructor|]; assumption.
  - destruct (f x), (f y); try apply Permutation_refl. apply perm_swap.
Qed.
Definition flag_of (w : world) (names : list str) (pad : nat) (ts : list piece) : str :=
  dumps_ind 0 (success_meta names (map (fun t => (p_name pad t, part_meta w (p_db t))) ts)).
Lemma close_pieces w names pad ts : lists w -> Forall scalars names -> NoDup (map p_num ts) ->
  exists ts', Permutation ts ts' /\ close w names (Some (flat_map (p_files w pad) ts)) = write_text FLAG (flag_of w names pad ts') (Some (flat_map (p_files w pad) ts)).
Proof.
  intros Hl Hn Hnd. pose proof (pieces_only w pad ts Hnd) as Hp. destruct (close_ok w names pad _ Hl Hn Hp) as (metas & parts & E & -> & _ & _ & ->).
  pose proof (Permutation_filter is_part_meta _ _ (proj2 Hl (dkeys (flat_map (p_files w pad) ts)))) as Hperm. rewrite filter_metas in Hperm.
  destruct (Permutation_map_inv (fun t => meta_name (p_name pad t)) ts (Permutation_sym Hperm)) as (ts' & Ets & Hts). rewrite Ets in E.
  exists ts'. split; [exact Hts|]. unfold flag_of. f_equal. f_equal. f_equal.
  assert (Em : metas = map (fun t => (p_name pad t, part_meta w (p_db t))) ts').
  { assert (Hsub : incl ts' ts) by (intros x Hx; eapply Permutation_in; [apply Permutation_sym, Hts|exact Hx]). clear Ets Hts Hperm.
    revert metas E. induction ts' as [|t ts' IH]; intros metas E; [cbn in E; injection E as <-; reflexivity|]. cbn [map mapM] in E.
    assert (Et : read_meta (flat_map (p_files w pad) ts) (meta_name (p_name pad t)) = Ok (p_name pad t, part_meta w (p_db t))).
    { unfold read_meta. rewrite (In_dget str_eqb str_eqb_eq _ (Text (dumps_ind 0 (part_meta w (p_db t))))).
      - rewrite loads_ind by apply part_meta_ok. cbn [bind]. unfold p_name. rewrite recovered_name. reflexivity.
      - apply Hp.
      - apply in_flat_map. exists t. split; [apply Hsub; left; reflexivity|right; left; reflexivity]. }
    rewrite Et in E. cbn [bind] in E. destruct (mapM (read_meta (flat_map (p_files w pad) ts)) (map (fun t0 => meta_name (p_name pad t0)) ts')) as [ms|] eqn:Ems; [|discriminate].
    cbn [bind] in E. injection E as <-. cbn [map]. f_equal. apply IH; [intros x Hx; apply Hsub; right; exact Hx|reflexivity]. }
  rewrite Em. apply (fold_dset_fresh _ []). cbn [app]. rewrite map_map. cbn [fst].
  assert (Hnd' : NoDup (map p_num ts')) by (eapply Permutation_NoDup; [apply Permutation_map, Hts|exact Hnd]). clear - Hnd'.
  induction ts' as [|t ts' IH]; [constructor|]. inversion Hnd' as [|? ? Hni Hnd2]; subst. cbn [map]. constructor; [|apply IH, Hnd2].
  intros Hin. apply Hni. apply in_map_iff in Hin. destruct Hin as (t' & Et & Ht'). apply part_name_inj in Et. rewrite <- Et. apply in_map, Ht'.
Qed.
(** the finished directory *)
Definition finished (w : world) (names : list str) (pad : nat) (ts ts' : list piece) : dir :=
  Some (dset str_eqb FLAG (Text (flag_of w names pad ts')) (flat_map (p_files w pad) ts)).
Lemma with_writer_ok w names ow pad ts d : lists w -> Forall scalars names -> NoDup (map p_num ts) -> (forall t, In t ts -> db_create names (p_recs t) = Ok (p_db t)) ->
  val (writer_init w ow d) = Ok tt ->
  val (with_writer w names ow pad (map call_of ts) None d) = Ok tt /\
  exists ts', Permutation ts ts' /\ now (with_writer w names ow pad (map call_of ts) None d) = finished w names pad ts ts'.
Proof.
  intros Hl Hn Hnd Hok Hi. unfold with_writer. rewrite (seq_ok _ _ _ _ Hi), (writer_init_ok w ow d Hi). cbn [val now].
  destruct (write_parts_ok w names pad ts Hok [] Hnd) as [Ev En]. cbn [flat_map app] in Ev, En. rewrite (seq_ok _ _ _ _ Ev), En. cbn [val now lift seq_io].
  destruct (close_pieces w names pad ts Hl Hn Hnd) as (ts' & Hp & Ec). rewrite Ec. cbn [write_text val now]. split; [reflexivity|]. exists ts'. split; [exact Hp|reflexivity].
Qed.

(** loading *)
Lemma load_part w names pad ts ts' t : NoDup (map p_num ts) -> In t ts -> db_load (finished w names pad ts ts') (p_name pad t) = Ok (p_db t).
Proof.
  intros Hnd Ht. unfold db_load, finished. rewrite (dget_dset_other str_eqb str_eqb_eq) by (intros H; symmetry in H; apply flag_not_part in H; exact H).
  rewrite (In_dget str_eqb str_eqb_eq _ (Pickle (p_db t))); [reflexivity|apply keys_flat_NoDup, Hnd|]. apply in_flat_map. exists t. split; [exact Ht|left; reflexivity].
Qed.
Lemma mapM_map_ok {A B C} (f : B -> res C) (g : A -> B) (h : A -> C) l : (forall x, In x l -> f (g x) = Ok (h x)) -> mapM f (map g l) = Ok (map h l).
Proof.
  induction l as [|x l IH]; intros H; [reflexivity|]. cbn [map mapM]. rewrite (H x) by (left; reflexivity). rewrite IH by (intros y Hy; apply H; right; exact Hy). reflexivity.
Qed.
Definition loaded (pad : nat) (ts' : list piece) (n : nat) (keep shuffle : bool) : mdb :=
  let keep' := keep || Nat.eqb (length ts') 1 in
  MkMdb (map (p_name pad) ts') (map (fun t => db_len (p_db t)) ts') (zsum (map (fun t => db_len (p_db t)) ts')) n keep' shuffle
        (map (fun t => if keep' then Some (p_db t) else None) ts').
Lemma load_finished w names pad ts ts' arity keep shuffle : NoDup (map p_num ts) -> Permutation ts ts' -> ts <> [] -> Forall scalars names -> NoDup ([105%N; 100%N] :: names) ->
  mdb_load (finished w names pad ts ts') arity keep shuffle = Ok (loaded pad ts' (match arity with Some n => n | None => length names end) keep shuffle).
Proof.
  intros Hnd Hp Hne Hn Hnn. assert (Hsub : incl ts' ts) by (intros x Hx; eapply Permutation_in; [apply Permutation_sym, Hp|exact Hx]).
  set (d := finished w names pad ts ts'). unfold mdb_load. unfold d at 1. unfold finished at 1. cbn iota. rewrite (dget_dset_same str_eqb str_eqb_eq). unfold flag_of.
  rewrite loads_ind.
  2:{ apply (success_meta_ok w pad); [exact Hn| |apply Forall_map, Forall_forall; intros t _; exists (p_num t), (p_db t); reflexivity].
      rewrite map_map. cbn [fst]. assert (Hnd' : NoDup (map p_num ts')) by (eapply Permutation_NoDup; [apply Permutation_map, Hp|exact Hnd]).
      rewrite <- (map_map p_num (part_name pad)). apply FinFun.Injective_map_NoDup; [intros a b; apply part_name_inj|exact Hnd']. }
  cbn [bind success_meta]. set (parts := map (fun t => (p_name pad t, part_meta w (p_db t))) ts').
  change (jget (lit "parts") [(lit "parts", JObj parts); (lit "field_names", JArr (map JStr names))]) with (Some (JObj parts)).
  change (jget (lit "field_names") [(lit "parts", JObj parts); (lit "field_names", JArr (map JStr names))]) with (Some (JArr (map JStr names))). cbn iota.
  assert (E1 : mapM part_stat parts = Ok (map (fun t => (p_name pad t, JInt (db_len (p_db t)))) ts')) by (apply mapM_map_ok; reflexivity).
  rewrite E1. cbn [bind].
  assert (E2 : (match arity with Some n => Ok n | None => bind (mapM to_name (map JStr names)) (fun names => bind (rec_type names) (fun _ => Ok (length names))) end) = Ok (match arity with Some n => n | None => length names end)).
  { destruct arity as [n|]; [reflexivity|]. rewrite (mapM_map_ok to_name JStr (fun x => x)) by reflexivity. rewrite map_id. cbn [bind]. unfold rec_type.
    rewrite (proj2 (no_dup_names_spec _) Hnn). reflexivity. }
  rewrite E2. cbn [bind]. rewrite map_length.
  assert (Hne' : ts' <> []) by (intros ->; apply Hne; apply Permutation_sym, Permutation_nil in Hp; exact Hp).
  assert (E3 : assert_ (negb (Nat.eqb (length ts') 0)) = Ok tt) by (destruct ts'; [contradiction|reflexivity]). rewrite E3. cbn [bind].
  rewrite (mapM_map_ok _ _ (fun t => db_len (p_db t))) by reflexivity. cbn [bind].
  assert (E4 : (if keep || Nat.eqb (length ts') 1 then mapM (fun kv : str * json => bind (db_load d (fst kv)) (fun p => Ok (Some p))) (map (fun t => (p_name pad t, JInt (db_len (p_db t)))) ts')
                else Ok (map (fun _ => None) (map (fun t => (p_name pad t, JInt (db_len (p_db t)))) ts'))) =
               Ok (map (fun t => if keep || Nat.eqb (length ts') 1 then Some (p_db t) else None) ts')).
  { destruct (keep || Nat.eqb (length ts') 1); [|rewrite map_map; reflexivity]. apply mapM_map_ok. intros t Ht. cbn [fst]. unfold d. rewrite load_part by auto. reflexivity. }
  rewrite E4. cbn [bind]. rewrite !map_map. cbn [fst]. reflexivity.
Qed.

(** reading *)
Lemma yield_map_ok {A B} (f : A -> res B) l ys : mapM f l = Ok ys -> yield_map f l = (ys, None).
Proof.
  revert ys. induction l as [|x l IH]; intros ys; cbn [mapM yield_map]; [intros [= <-]; reflexivity|]. destruct (f x) as [y|e]; [|discriminate]. cbn [bind].
  destruct (mapM f l) as [zs|]; [|discriminate]. cbn [bind]. intros [= <-]. rewrite (IH zs eq_refl). reflexivity.
Qed.
Lemma read_as_ok names recs p r : db_for names recs p -> NoDup names -> NoDup (map fst recs) -> well_shaped (length names) recs -> columns_ok faithful (length names) recs ->
  In r recs -> exists got, read_as (length names) p (fst r) = Ok got /\ same_record r got.
Proof.
  intros Hd Hnn Hnd Hw Hc Hin. destruct r as [id cols]. destruct (cols_read names recs p Hd Hnn Hnd Hw id cols Hc Hin) as (arrs & E & Hv). unfold read_as. cbn [fst]. rewrite E. cbn [bind].
  assert (El : length arrs = length names) by (rewrite <- (Hw _ Hin); cbn [snd]; rewrite <- Hv, map_length; reflexivity).
  rewrite El, Nat.eqb_refl. eexists. split; [reflexivity|]. split; [reflexivity|exact Hv].
Qed.
Lemma read_part names recs p order : db_for names recs p -> NoDup names -> NoDup (map fst recs) -> well_shaped (length names) recs -> columns_ok faithful (length names) recs ->
  Permutation order (db_ids p) -> exists out recs', mapM (read_as (length names) p) order = Ok out /\ Permutation recs recs' /\ Forall2 same_record recs' out.
Proof.
  intros Hd Hnn Hnd Hw Hc Hp. pose proof Hd as (_ & Hi & _). rewrite Hi in Hp. apply Permutation_map_inv in Hp. destruct Hp as (recs' & -> & Hp).
  assert (Hall : forall l, incl l recs -> exists out, mapM (read_as (length names) p) (map fst l) = Ok out /\ Forall2 same_record l out).
  { induction l as [|r l IH]; intros Hs; [exists []; split; [reflexivity|constructor]|]. destruct IH as (out & E & Ho); [intros x Hx; apply Hs; right; exact Hx|].
    destruct (read_as_ok names recs p r Hd Hnn Hnd Hw Hc) as (got & Eg & Hg); [apply Hs; left; reflexivity|]. exists (got :: out). cbn [map mapM]. rewrite Eg, E. split; [reflexivity|]. constructor; assumption. }
  destruct (Hall recs') as (out & E & Ho); [intros x Hx; eapply Permutation_in; [apply Permutation_sym, Hp|exact Hx]|]. exists out, recs'. auto.
Qed.
Definition piece_ok (names : list str) (t : piece) : Prop :=
  db_create names (p_recs t) = Ok (p_db t) /\ db_for names (p_recs t) (p_db t) /\ NoDup (map fst (p_recs t)) /\ well_shaped (length names) (p_recs t) /\ columns_ok faithful (length names) (p_recs t).
Lemma combine_map {A B C} (f : A -> B) (g : A -> C) l : combine (map f l) (map g l) = map (fun x => (f x, g x)) l.
Proof. induction l as [|x l IH]; [reflexivity|]. cbn. f_equal. exact IH. Qed.
Definition p_all (ts : list piece) : list rec := concat (map p_recs ts).
Lemma p_all_perm ts ts' : Permutation ts ts' -> Permutation (p_all ts) (p_all ts').
Proof.
  unfold p_all. induction 1; cbn [map concat]; [constructor| | |eapply perm_trans; eassumption].
  - apply Permutation_app_head. assumption.
  - rewrite !app_assoc. apply Permutation_app_tail, Permutation_app_comm.
Qed.
Lemma piece_len names t : piece_ok names t -> db_len (p_db t) = Z.of_nat (length (p_recs t)).
Proof. intros (_ & (_ & _ & H & _) & _). exact H. Qed.
Lemma pieces_len names ts : Forall (piece_ok names) ts -> zsum (map (fun t => db_len (p_db t)) ts) = Z.of_nat (length (p_all ts)).
Proof.
  unfold p_all. induction 1 as [|t ts Ht _ IH]; [reflexivity|]. cbn [map concat]. rewrite zsum_cons, app_length, (piece_len names t Ht), IH. lia.
Qed.
Lemma yield_all_pieces {R} names (f : str * option db -> stream R) (g : piece -> str * option db) (same : rec -> R -> Prop) ts :
  (forall t, In t ts -> piece_ok names t -> exists out recs', f (g t) = (out, None) /\ Permutation (p_recs t) recs' /\ Forall2 same recs' out) -> Forall (piece_ok names) ts ->
  exists out recs', yield_all f (map g ts) = (out, None) /\ Permutation (p_all ts) recs' /\ Forall2 same recs' out.
Proof.
  intros Hf. induction 1 as [|t ts Ht _ IH]; [exists [], []; split; [reflexivity|split; constructor]|]. destruct IH as (out & recs' & E & Hp & Ho); [intros t' Ht'; apply Hf; right; exact Ht'|].
  destruct (Hf t (or_introl eq_refl) Ht) as (out1 & recs1 & E1 & Hp1 & Ho1). exists (out1 ++ out), (recs1 ++ recs'). cbn [map yield_all]. rewrite E1, E. split; [reflexivity|].
  split; [unfold p_all in *; cbn [map concat]; apply Permutation_app; assumption|apply Forall2_app; assumption].
Qed.
Theorem finished_complete w names pad ts ts' : NoDup (map p_num ts) -> Permutation ts ts' -> ts <> [] -> Forall scalars names -> NoDup ([105%N; 100%N] :: names) ->
  Forall (piece_ok names) ts -> complete (length names) (p_all ts) (finished w names pad ts ts').
Proof.
  intros Hnd Hp Hne Hn Hnn Hok arity keep shuffle Ha Hks. rewrite load_finished by assumption.
  assert (En : (match arity with Some n => n | None => length names end) = length names) by (destruct Ha as [->| ->]; reflexivity). rewrite En.
  eexists. split; [reflexivity|].
  assert (Hok' : Forall (piece_ok names) ts') by (eapply Permutation_Forall; eassumption).
  split.
  { unfold mdb_size, loaded. cbn [m_len]. rewrite (pieces_len names ts' Hok'). f_equal. apply Permutation_length, Permutation_sym, p_all_perm, Hp. }
  intros parts_order ids_order Hpo Hio. unfold mdb_iter, loaded. cbn [m_parts m_mem m_keep m_shuffle m_arity]. set (keep' := keep || Nat.eqb (length ts') 1). rewrite combine_map.
  assert (Hsub : incl ts' ts) by (intros x Hx; eapply Permutation_in; [apply Permutation_sym, Hp|exact Hx]).
  assert (Hord : exists ts2, (if shuffle then parts_order (map (fun t => (p_name pad t, if keep' then Some (p_db t) else None)) ts') else map (fun t => (p_name pad t, if keep' then Some (p_db t) else None)) ts') =
     map (fun t => (p_name pad t, if keep' then Some (p_db t) else None)) ts2 /\ Permutation ts' ts2).
  { destruct shuffle; [|exists ts'; split; [reflexivity|apply Permutation_refl]]. 
    destruct (Permutation_map_inv (fun t => (p_name pad t, if keep' then Some (p_db t) else None)) ts' (Permutation_sym (Hpo _))) as (ts2 & E & Hts). exists ts2. auto. }
  destruct Hord as (ts2 & -> & Hp2).
  destruct (yield_all_pieces names
     (fun pm : str * option db =>
               match (if keep' then match snd pm with Some p => Ok p | None => Raise TypeError end else db_load (finished w names pad ts ts') (fst pm)) with
               | Raise e => ([], Some e)
               | Ok p => if negb keep' && shuffle && Nat.leb 2 (length (ids_order p)) then ([], Some TypeError)
                         else yield_map (read_as (length names) p) (ids_order p)
               end)
     (fun t => (p_name pad t, if keep' then Some (p_db t) else None)) same_record ts2) as (out & recs' & E & Hpr & Ho).
  - intros t Ht (_ & Hdb & Hni & Hw & Hc). cbn [fst snd].
    assert (Et : (if keep' then match (if keep' then Some (p_db t) else None) with Some p => Ok p | None => Raise TypeError end else db_load (finished w names pad ts ts') (p_name pad t)) = Ok (p_db t)).
    { destruct keep'; [reflexivity|]. apply load_part; [exact Hnd|]. apply Hsub. eapply Permutation_in; [apply Permutation_sym, Hp2|exact Ht]. }
    rewrite Et. assert (Eg : negb keep' && shuffle = false).
    { destruct shuffle; [|apply andb_false_r]. unfold keep'. rewrite (Hks eq_refl). reflexivity. }
    rewrite Eg. cbn [andb]. destruct (read_part names _ _ (ids_order (p_db t)) Hdb (no_id_names _ Hnn) Hni Hw Hc (Hio _)) as (out & recs' & E & Hpr & Ho).
    exists out, recs'. rewrite (yield_map_ok _ _ _ E). auto.
  - eapply Permutation_Forall; eassumption.
  - exists out, recs'. split; [exact E|]. split; [|exact Ho]. eapply perm_trans; [|exact Hpr]. apply p_all_perm. eapply perm_trans; eassumption.
Qed.

(** ** create *)
Lemma column_app j a b : all_values (column j (a ++ b)) = all_values (column j a) ++ all_values (column j b).
Proof. unfold all_values, column. rewrite !map_app, concat_app. reflexivity. Qed.
Lemma faithful_segment a b c : faithful (a ++ b ++ c) -> faithful b.
Proof. unfold faithful, exact53. rewrite !Forall_app. tauto. Qed.
Lemma memory_segment a b c : fits_memory (a ++ b ++ c) -> fits_memory b.
Proof. unfold fits_memory. rewrite !app_length. lia. Qed.
Lemma NoDup_segment {A} (a b c : list A) : NoDup (a ++ b ++ c) -> NoDup b.
Proof.
  intros H. assert (Hbc : NoDup (b ++ c)) by (clear - H; induction a as [|x a IH]; [exact H|inversion H; auto]).
  clear H. induction b as [|x b IH]; [constructor|]. inversion Hbc as [|? ? Hn Hr]; subst. constructor; [intros Hx; apply Hn, in_or_app; left; exact Hx|apply IH, Hr].
Qed.
Lemma segment_piece names a c b : storable names (a ++ c ++ b) -> NoDup (map fst (a ++ c ++ b)) -> c <> [] -> forall n, exists p, piece_ok names (n, (c, p)).
Proof.
  intros (Hnn & Hne & Hw & Hc & Hm) Hnd Hc0 n.
  assert (Hw' : well_shaped (length names) c) by (intros r Hr; apply Hw, in_or_app; right; apply in_or_app; left; exact Hr).
  assert (Hc' : columns_ok faithful (length names) c) by (intros j Hj; specialize (Hc j Hj); rewrite !column_app in Hc; eapply faithful_segment, Hc).
  assert (Hm' : columns_ok fits_memory (length names) c) by (intros j Hj; specialize (Hm j Hj); rewrite !column_app in Hm; eapply memory_segment, Hm).
  assert (Hnd' : NoDup (map fst c)) by (rewrite !map_app in Hnd; eapply NoDup_segment, Hnd).
  destruct (proj1 (db_create_ok names c (no_id_names _ Hnn) Hne Hw' (faithful_columns_range _ _ Hc') Hm') (conj Hc0 Hnd')) as (p & E & Hp).
  exists p. unfold piece_ok, p_recs, p_db. cbn [fst snd]. auto.
Qed.
Lemma chunk_pieces names (recs : list rec) chunks : storable names recs -> NoDup (map fst recs) -> (forall c, In c chunks -> c <> []) -> forall before k, concat (before ++ chunks) = recs ->
  exists ts, map call_of ts = enum_from k (map (fun c => (c, None)) chunks) /\ map p_recs ts = chunks /\ Forall (piece_ok names) ts.
Proof.
  intros Hst Hnd. induction chunks as [|c chunks IH]; intros Hc0 before k Hcat; [exists []; split; [reflexivity|split; [reflexivity|constructor]]|].
  destruct (IH (fun x Hx => Hc0 x (or_intror Hx)) (before ++ [c]) (k + 1)) as (ts & E1 & E2 & Hok); [rewrite <- app_assoc; exact Hcat|].
  rewrite concat_app in Hcat. cbn [concat] in Hcat. rewrite <- Hcat in Hst, Hnd. destruct (segment_piece names _ c _ Hst Hnd (Hc0 c (or_introl eq_refl)) k) as (p & Hp).
  exists ((k, (c, p)) :: ts). cbn [map enum_from]. rewrite E1, E2. split; [reflexivity|]. split; [reflexivity|]. constructor; assumption.
Qed.
Lemma call_nums ts l k : map call_of ts = enum_from k l -> NoDup (map p_num ts).
Proof. intros E. replace (map p_num ts) with (map fst (map call_of ts)) by (rewrite map_map; reflexivity). rewrite E. apply enumerate_NoDup. Qed.
Lemma init_ok w ow d : d = None \/ d = Some [] \/ ow = true -> val (writer_init w ow d) = Ok tt.
Proof. unfold writer_init. intros [->|[->| ->]]; [reflexivity|reflexivity|]. destruct d as [[|f fs]|]; reflexivity. Qed.
Lemma create_pieces w names ow pad size (recs : list rec) d : lists w -> Forall scalars names -> storable names recs -> recs <> [] -> NoDup (map fst recs) -> 1 <= size -> val (writer_init w ow d) = Ok tt ->
  exists ts ts' chunks, chunked (Z.to_nat size) recs chunks /\ map p_recs ts = chunks /\ NoDup (map p_num ts) /\ Permutation ts ts' /\ ts <> [] /\ Forall (piece_ok names) ts /\
    p_all ts = recs /\ now (mdb_create w names ow pad size (recs, None) d) = finished w names pad ts ts' /\
    val (mdb_create w names ow pad size (recs, None) d) = mdb_load (finished w names pad ts ts') None false false.
Proof.
  intros Hl Hn Hst Hr Hnd Hsz Hi. destruct (slices_ok recs size Hsz) as (chunks & Es & Hch).
  destruct (chunk_pieces names recs chunks Hst Hnd (fun c Hc => proj1 (proj1 (proj2 Hch) c Hc)) [] 0 (proj1 Hch)) as (ts & E1 & E2 & Hok).
  assert (Hnums : NoDup (map p_num ts)) by (eapply call_nums, E1).
  assert (Hcr : forall t, In t ts -> db_create names (p_recs t) = Ok (p_db t)) by (intros t Ht; rewrite Forall_forall in Hok; apply (Hok t Ht)).
  destruct (with_writer_ok w names ow pad ts d Hl Hn Hnums Hcr Hi) as (Ev & ts' & Hp & En).
  exists ts, ts', chunks. split; [exact Hch|]. split; [exact E2|]. split; [exact Hnums|]. split; [exact Hp|].
  assert (Hall : p_all ts = recs) by (unfold p_all; rewrite E2; apply Hch).
  split; [intros ->; apply Hr; rewrite <- Hall; reflexivity|]. split; [exact Hok|]. split; [exact Hall|].
  unfold mdb_create. rewrite Es. cbv zeta beta iota. assert (Ee : @enumerate (stream rec) (map (fun c => (c, None)) chunks) = map call_of ts) by (symmetry; exact E1). setoid_rewrite Ee. rewrite (seq_ok _ _ _ _ Ev). cbn [now val]. rewrite En. split; reflexivity.
Qed.
Theorem create_complete w names ow pad size (recs : list rec) d : lists w -> Forall scalars names -> storable names recs -> recs <> [] -> NoDup (map fst recs) -> 1 <= size ->
  d = None \/ d = Some [] \/ ow = true ->
  complete (length names) recs (now (mdb_create w names ow pad size (recs, None) d)) /\
  val (mdb_create w names ow pad size (recs, None) d) = mdb_load (now (mdb_create w names ow pad size (recs, None) d)) None false false.
Proof.
  intros Hl Hn Hst Hr Hnd Hsz Hd. destruct (create_pieces w names ow pad size recs d Hl Hn Hst Hr Hnd Hsz (init_ok w ow d Hd)) as (ts & ts' & chunks & _ & _ & Hnums & Hp & Hne & Hok & Hall & En & Ev).
  rewrite En, Ev. split; [|reflexivity]. rewrite <- Hall. apply finished_complete; auto. apply Hst.
Qed.
(** ** an interrupted create *)
Lemma fresh_seen w ow d : d = None \/ d = Some [] -> forall x, In x (d :: seen (writer_init w ow d)) -> refuses x.
Proof.
  intros [->| ->] x Hx; cbn in Hx; apply no_flag_refuses; intros fs E.
  - destruct Hx as [<-|[<-|[]]]; [discriminate|injection E as <-; reflexivity].
  - destruct Hx as [<-|[]]. injection E as <-. reflexivity.
Qed.
Theorem writer_crash w names ow pad calls fin d0 : lists w -> Forall scalars names -> d0 = None \/ d0 = Some [] ->
  let r := with_writer w names ow pad calls fin d0 in
  (forall d, In d (d0 :: seen r) -> refuses d \/ (d = now r /\ val r = Ok tt)) /\ (val r <> Ok tt -> refuses (now r)) /\ (fin <> None -> val r <> Ok tt).
Proof.
  intros Hl Hn Hd r. unfold r, with_writer. clear r. pose proof (init_ok w ow d0) as Hi. rewrite (seq_ok _ _ _ _ (Hi ltac:(tauto))), (writer_init_ok w ow d0) by (apply Hi; tauto). cbn [seen now val].
  destruct (block_states w names pad calls fin Hl Hn) as (H1 & H2 & H3 & _). split; [|split; [|exact H3]].
  - intros d Hin. destruct Hin as [<-|Hin]; [left; apply (fresh_seen w ow d0 Hd); left; reflexivity|]. apply in_app_or in Hin. destruct Hin as [Hin|Hin]; [left; apply (fresh_seen w ow d0 Hd); right; exact Hin|].
    destruct (H1 d Hin) as [H|H]; [left; exact H|right; exact H].
  - intros Hv. destruct (H2 Hv) as (fs & -> & Hf). apply no_flag_refuses. intros f [= <-]. exact Hf.
Qed.
Theorem writer_exception w names ow pad calls fin d0 : lists w -> Forall scalars names ->
  let r := with_writer w names ow pad calls fin d0 in
  val r <> Ok tt -> (exists f fs, d0 = Some (f :: fs) /\ ow = false /\ r = MkRun [] d0 (Raise OtherError)) \/ (exists fs, now r = Some fs /\ dget str_eqb FLAG fs = None).
Proof.
  intros Hl Hn r. unfold r, with_writer. clear r. destruct (writer_init_cases w ow d0) as [(f & fs & -> & -> & E)|Hi].
  - intros _. left. exists f, fs. split; [reflexivity|]. split; [reflexivity|]. erewrite seq_raise by (rewrite E; reflexivity). rewrite E. reflexivity.
  - rewrite (seq_ok _ _ _ _ Hi), (writer_init_ok w ow d0 Hi). cbn [seen now val]. intros Hv. right. apply (block_states w names pad calls fin Hl Hn). exact Hv.
Qed.
Lemma create_seen w names ow pad size recs d0 :
  seen (mdb_create w names ow pad size recs d0) = seen (with_writer w names ow pad (enumerate (fst (slices recs size))) (snd (slices recs size)) d0) /\
  now (mdb_create w names ow pad size recs d0) = now (with_writer w names ow pad (enumerate (fst (slices recs size))) (snd (slices recs size)) d0) /\
  (val (with_writer w names ow pad (enumerate (fst (slices recs size))) (snd (slices recs size)) d0) <> Ok tt -> forall m, val (mdb_create w names ow pad size recs d0) <> Ok m).
Proof.
  unfold mdb_create. destruct (slices recs size) as [cs fin]. cbn [fst snd]. unfold seq_io at 1 2 3. destruct (val (with_writer w names ow pad (enumerate cs) fin d0)) as [[]|e]; cbn [seen now val].
  - rewrite app_nil_r. split; [reflexivity|]. split; [reflexivity|]. intros H. exfalso. apply H. reflexivity.
  - split; [reflexivity|]. split; [reflexivity|]. intros _ m. discriminate.
Qed.
Theorem create_crash w names ow pad size (recs : list rec) d0 : lists w -> Forall scalars names -> storable names recs -> recs <> [] -> NoDup (map fst recs) -> 1 <= size -> d0 = None \/ d0 = Some [] ->
  forall d, In d (d0 :: seen (mdb_create w names ow pad size (recs, None) d0)) -> refuses d \/ complete (length names) recs d.
Proof.
  intros Hl Hn Hst Hr Hnd Hsz Hd d Hin. destruct (create_seen w names ow pad size (recs, None) d0) as (Es & En & _).
  destruct (writer_crash w names ow pad (enumerate (fst (slices (recs, None) size))) (snd (slices (recs, None) size)) d0 Hl Hn Hd) as (H & _).
  rewrite Es in Hin. destruct (H d Hin) as [H1|[H1 _]]; [left; exact H1|right]. rewrite H1, <- En. apply create_complete; auto. tauto.
Qed.
Lemma write_parts_bad w names pad cs n c rest e : db_of_slice names c = Raise e -> forall d, val (write_parts w names pad (cs ++ (n, c) :: rest) d) <> Ok tt.
Proof.
  intros Hr. induction cs as [|[n' c'] cs IH]; intros d Hv; cbn [app write_parts] in Hv.
  - rewrite (seq_raise _ _ _ e) in Hv; [discriminate Hv|]. unfold writer_call. rewrite (seq_raise _ _ _ e); [reflexivity|exact Hr].
  - unfold seq_io at 1 in Hv. destruct (val (writer_call w names pad n' c' d)); [|discriminate Hv]. cbn [val] in Hv. exact (IH _ Hv).
Qed.
(** a stream of records that raises: nothing that loads is left behind *)
Theorem create_raise w names ow pad size l e d0 : lists w -> Forall scalars names -> 1 <= size -> d0 = None \/ d0 = Some [] ->
  (exists e', val (mdb_create w names ow pad size (l, Some e) d0) = Raise e') /\
  forall d, In d (d0 :: seen (mdb_create w names ow pad size (l, Some e) d0) ++ [now (mdb_create w names ow pad size (l, Some e) d0)]) -> refuses d.
Proof.
  intros Hl Hn Hsz Hd. destruct (create_seen w names ow pad size (l, Some e) d0) as (Es & En & Ev).
  destruct (writer_crash w names ow pad (enumerate (fst (slices (l, Some e) size))) (snd (slices (l, Some e) size)) d0 Hl Hn Hd) as (H1 & H2 & H3).
  assert (Hv : val (with_writer w names ow pad (enumerate (fst (slices (l, Some e) size))) (snd (slices (l, Some e) size)) d0) <> Ok tt).
  { destruct (slices_raise l e size Hsz) as (full & last & El & Hfull & Hlast & E). destruct last as [|x last].
    - apply H3. rewrite E. discriminate.
    - rewrite E. cbn [fst snd]. intros Hv. unfold with_writer in Hv. rewrite (seq_ok _ _ _ _ (init_ok w ow d0 ltac:(tauto))), (writer_init_ok w ow d0) in Hv by (apply init_ok; tauto). cbn [val] in Hv.
      apply (block_states w names pad _ None Hl Hn) in Hv. revert Hv. unfold enumerate. rewrite enum_from_app.
      assert (Hr : exists e', db_of_slice names (x :: last, Some e) = Raise e').
      { unfold db_of_slice. cbn [snd fst]. destruct (foldM append_all (x :: last) (map (fun n => new_builder n None) names)); eexists; reflexivity. }
      destruct Hr as (e' & Hr). exact (write_parts_bad w names pad _ _ _ [] e' Hr _). }
  split.
  - destruct (val (mdb_create w names ow pad size (l, Some e) d0)) as [m|e'] eqn:E; [exfalso; exact (Ev Hv m eq_refl)|eauto].
  - rewrite Es, En. intros d Hin. rewrite app_comm_cons in Hin. apply in_app_or in Hin. destruct Hin as [Hin|[<-|[]]]; [|apply H2, Hv].
    destruct (H1 d Hin) as [H|[_ H]]; [exact H|contradiction].
Qed.

(** ** refusing to overwrite *)
Theorem no_overwrite w names pad size recs f fs : mdb_create w names false pad size recs (Some (f :: fs)) = MkRun [] (Some (f :: fs)) (Raise OtherError).
Proof. unfold mdb_create. destruct (slices recs size) as [cs fin]. reflexivity. Qed.

(** ** an interrupted overwrite *)

Lemma removed_trans a b c : files_removed a b -> files_removed b c -> files_removed a c.
Proof. intros H1 H2 n. destruct (H2 n) as [E|E]; [|right; exact E]. rewrite E. apply H1. Qed.
Lemma removed_refl a : files_removed a a.
Proof. intros n. left. reflexivity. Qed.
Lemma remove_states names : forall fs, NoDup (dkeys fs) -> forall d, In d (remove_files names fs) -> exists fs', d = Some fs' /\ files_removed fs fs'.
Proof.
  induction names as [|n names IH]; intros fs Hnd d Hd; [destruct Hd|].
  assert (Hr : files_removed fs (ddel str_eqb n fs)).
  { intros k. rewrite (LearnBpeProofs.dget_ddel str_eqb str_eqb_eq) by exact Hnd. destruct (str_eqb k n); auto. }
  destruct Hd as [<-|Hd]; [exists (ddel str_eqb n fs); auto|].
  destruct (IH _ (LearnBpeProofs.NoDup_ddel _ _ _ Hnd) d Hd) as (fs' & -> & H). exists fs'. split; [reflexivity|]. eapply removed_trans; eassumption.
Qed.
Lemma removed_load fs fs' name p : files_removed fs fs' -> db_load (Some fs') name = Ok p -> db_load (Some fs) name = Ok p.
Proof.
  intros H. cbn [db_load]. destruct (H name) as [E|E]; rewrite E; [|discriminate]. trivial.
Qed.
Lemma removed_load_cases fs fs' name : files_removed fs fs' -> db_load (Some fs') name = db_load (Some fs) name \/ db_load (Some fs') name = Raise FileNotFound.
Proof. intros H. cbn [db_load]. destruct (H name) as [E|E]; rewrite E; auto. Qed.
Lemma mapM_mono {A B} (f g : A -> res B) l : (forall x y, f x = Ok y -> g x = Ok y) -> forall ys, mapM f l = Ok ys -> mapM g l = Ok ys.
Proof.
  intros H. induction l as [|x l IH]; intros ys; cbn [mapM]; [trivial|]. destruct (f x) as [y|] eqn:E; [|discriminate]. rewrite (H _ _ E). cbn [bind].
  destruct (mapM f l) as [zs|] eqn:E2; [|discriminate]. rewrite (IH zs eq_refl). trivial.
Qed.
Lemma bind_ok {A B} (r : res A) (f : A -> res B) b : bind r f = Ok b -> exists a, r = Ok a /\ f a = Ok b.
Proof. destruct r as [a|]; [exists a; auto|discriminate]. Qed.
Lemma removed_mdb_load fs fs' arity keep shuffle m : files_removed fs fs' -> mdb_load (Some fs') arity keep shuffle = Ok m -> mdb_load (Some fs) arity keep shuffle = Ok m.
Proof.
  intros Hr. unfold mdb_load. destruct (Hr FLAG) as [E|E]; rewrite E; [|discriminate]. destruct (dget str_eqb FLAG fs) as [[s|p|]|]; try discriminate.
  intros H. apply bind_ok in H. destruct H as (meta & Em & H). rewrite Em. cbn [bind]. destruct meta as [| | | | |top]; try discriminate.
  apply bind_ok in H. destruct H as (parts & Ep & H). rewrite Ep. cbn [bind]. apply bind_ok in H. destruct H as (n & En & H). rewrite En. cbn [bind].
  apply bind_ok in H. destruct H as ([] & Ea & H). rewrite Ea. cbn [bind]. apply bind_ok in H. destruct H as (counts & Ec & H). rewrite Ec. cbn [bind].
  apply bind_ok in H. destruct H as (mem & Eme & H).
  assert (Eme' : (if keep || Nat.eqb (length parts) 1 then mapM (fun kv : str * json => bind (db_load (Some fs) (fst kv)) (fun p => Ok (Some p))) parts else Ok (map (fun _ => None) parts)) = Ok mem).
  { destruct (keep || Nat.eqb (length parts) 1); [|exact Eme]. eapply mapM_mono; [|exact Eme]. cbn beta. intros kv y Hy. apply bind_ok in Hy. destruct Hy as (p & Hp & Hy).
    rewrite (removed_load _ _ _ _ Hr Hp). exact Hy. }
  rewrite Eme'. cbn [bind]. exact H.
Qed.
Lemma yield_all_removed {A B} (f g : A -> stream B) l : (forall x, f x = g x \/ f x = ([], Some FileNotFound)) ->
  yield_all f l = yield_all g l \/ exists out more, yield_all f l = (out, Some FileNotFound) /\ fst (yield_all g l) = out ++ more.
Proof.
  intros H. induction l as [|x l IH]; [left; reflexivity|]. cbn [yield_all]. destruct (H x) as [E|E]; rewrite E.
  - destruct (g x) as [ys [e|]]; [left; reflexivity|]. destruct IH as [IH|(out & more & E1 & E2)]; [left; rewrite IH; reflexivity|].
    right. exists (ys ++ out), more. rewrite E1. split; [reflexivity|]. destruct (yield_all g l) as [zs fin]. cbn [fst] in *. rewrite E2, app_assoc. reflexivity.
  - right. exists [], (fst (match g x with (ys, Some e) => (ys, Some e) | (ys, None) => let (zs, fin) := yield_all g l in (ys ++ zs, fin) end)). split; reflexivity.
Qed.
Theorem leftover_reads fs0 fs : files_removed fs0 fs -> forall arity keep shuffle m, mdb_load (Some fs) arity keep shuffle = Ok m ->
  mdb_load (Some fs0) arity keep shuffle = Ok m /\
  forall parts_order ids_order,
    mdb_iter (Some fs) m parts_order ids_order = mdb_iter (Some fs0) m parts_order ids_order \/
    exists out more, mdb_iter (Some fs) m parts_order ids_order = (out, Some FileNotFound) /\ fst (mdb_iter (Some fs0) m parts_order ids_order) = out ++ more.
Proof.
  intros Hr arity keep shuffle m E. split; [eapply removed_mdb_load; eassumption|]. intros po io. unfold mdb_iter. apply yield_all_removed. intros pm.
  destruct (m_keep m); [left; reflexivity|]. destruct (removed_load_cases fs0 fs (fst pm) Hr) as [E1|E1]; rewrite E1; auto.
Qed.
Lemma init_overwrite w f fs : seen (writer_init w true (Some (f :: fs))) = remove_files (rm_order w (dkeys (f :: fs))) (f :: fs) ++ [None; Some []].
Proof. cbn [writer_init]. unfold seq_io. cbn [rmtree mkdir val seen now]. rewrite <- app_assoc. reflexivity. Qed.
Lemma overwrite_states w names pad calls fin f fs : lists w -> Forall scalars names ->
  let r := with_writer w names true pad calls fin (Some (f :: fs)) in
  forall d, In d (seen r) -> In d (remove_files (rm_order w (dkeys (f :: fs))) (f :: fs)) \/ refuses d \/ d = now r.
Proof.
  intros Hl Hn r. unfold r, with_writer. rewrite (seq_ok _ _ _ _ (init_ok w true (Some (f :: fs)) ltac:(tauto))), (writer_init_ok w true (Some (f :: fs))) by reflexivity. cbn [seen now val].
  rewrite init_overwrite. intros d Hd. apply in_app_or in Hd. destruct Hd as [Hd|Hd].
  - apply in_app_or in Hd. destruct Hd as [Hd|[<-|[<-|[]]]]; [left; exact Hd| |]; right; left; apply no_flag_refuses; intros x E; [discriminate|injection E as <-; reflexivity].
  - right. destruct (block_states w names pad calls fin Hl Hn) as (H & _). destruct (H d Hd) as [H1|[H1 _]]; [left; exact H1|right; exact H1].
Qed.
Theorem overwrite_crash w names pad size (recs : list rec) fs0 : lists w -> Forall scalars names -> storable names recs -> recs <> [] -> NoDup (map fst recs) -> 1 <= size -> NoDup (dkeys fs0) ->
  forall d, In d (Some fs0 :: seen (mdb_create w names true pad size (recs, None) (Some fs0))) ->
  refuses d \/ complete (length names) recs d \/ exists fs, d = Some fs /\ files_removed fs0 fs.
Proof.
  intros Hl Hn Hst Hr Hnd Hsz Hk d Hin. destruct fs0 as [|f fs].
  - destruct (create_crash w names true pad size recs (Some []) Hl Hn Hst Hr Hnd Hsz (or_intror eq_refl) d Hin) as [H|H]; auto.
  - destruct Hin as [<-|Hin]; [right; right; exists (f :: fs); split; [reflexivity|apply removed_refl]|].
    destruct (create_seen w names true pad size (recs, None) (Some (f :: fs))) as (Es & En & _). rewrite Es in Hin.
    destruct (overwrite_states w names pad _ _ f fs Hl Hn d Hin) as [H|[H|H]].
    + right. right. destruct (remove_states _ _ Hk d H) as (fs' & -> & Hf). exists fs'. auto.
    + left. exact H.
    + right. left. rewrite H, <- En. apply create_complete; auto.
Qed.
Theorem overwrite_flag_first w names pad size (recs : list rec) fs0 rest : lists w -> Forall scalars names -> storable names recs -> recs <> [] -> NoDup (map fst recs) -> 1 <= size -> NoDup (dkeys fs0) ->
  rm_order w (dkeys fs0) = FLAG :: rest ->
  forall d, In d (seen (mdb_create w names true pad size (recs, None) (Some fs0))) -> refuses d \/ complete (length names) recs d.
Proof.
  intros Hl Hn Hst Hr Hnd Hsz Hk Hrm d Hin. destruct fs0 as [|f fs].
  - apply (create_crash w names true pad size recs (Some []) Hl Hn Hst Hr Hnd Hsz (or_intror eq_refl) d). right. exact Hin.
  - destruct (create_seen w names true pad size (recs, None) (Some (f :: fs))) as (Es & En & _). rewrite Es in Hin.
    destruct (overwrite_states w names pad _ _ f fs Hl Hn d Hin) as [H|[H|H]].
    + left. rewrite Hrm in H. cbn [remove_files] in H.
      assert (E0 : dget str_eqb FLAG (ddel str_eqb FLAG (f :: fs)) = None) by (rewrite (LearnBpeProofs.dget_ddel str_eqb str_eqb_eq) by exact Hk; rewrite str_eqb_refl; reflexivity).
      destruct H as [<-|H]; [apply no_flag_refuses; intros x [= <-]; exact E0|].
      destruct (remove_states _ _ (LearnBpeProofs.NoDup_ddel _ _ _ Hk) d H) as (fs' & -> & Hf). apply no_flag_refuses. intros x [= <-]. destruct (Hf FLAG) as [E|E]; [rewrite E|]; assumption.
    + left. exact H.
    + right. rewrite H, <- En. apply create_complete; auto.
Qed.

(** ** equal-length batches over the parts *)
Definition eq_len_of (max_toks : Z) (max_sents : option Z) (t : piece) (out : list (list record)) : Prop :=
  exists groups, Forall2 (Forall2 same_record) groups out /\ (forall g, In g groups -> in_budget max_toks g /\ match max_sents with Some m => Z.of_nat (length g) <= m + 1 | None => True end) /\
    NoDup (concat groups) /\ (forall r, In r (concat groups) <-> In r (p_recs t) /\ usable r).
Lemma part_eq_len_ok names t max_toks max_sents order arranged shuffled : NoDup names -> names <> [] -> piece_ok names t -> Permutation order (db_ids (p_db t)) -> arranges arranged ->
  (forall l, Permutation l (shuffled l)) -> match max_sents with Some m => 0 <= m | None => True end ->
  (exists r, In r (p_recs t) /\ usable r) -> (forall r, In r (p_recs t) -> usable r -> longest r <= max_toks) ->
  exists out, part_eq_len (length names) (p_db t) max_toks max_sents order arranged shuffled = (out, None) /\ eq_len_of max_toks max_sents t out.
Proof.
  intros Hnn Hne (_ & Hd & Hnd & Hw & Hc) Hp Ha Hsh Hms Hex Hle.
  destruct (eq_len_ids names (p_recs t) (p_db t) max_toks max_sents order arranged Hd Hnn Hne Hw Hnd Hp Ha Hms) as (_ & _ & H3). destruct (H3 Hex Hle) as (gs & Eb & Hgne & Hg & Hs & Hu & Hin).
  destruct (read_shuffled (read_as (length names) (p_db t)) same_record (p_recs t) gs shuffled) as (groups & out & Eo & Hpg & Ho).
  { intros r Hr. apply (read_as_ok names (p_recs t) (p_db t) r Hd Hnn Hnd Hw Hc Hr). }
  { intros g r Hgi Hri. apply Hin, in_concat. eauto. }
  { exact Hsh. }
  exists out. unfold part_eq_len. rewrite Eb. split.
  { destruct gs as [|g gs]; [contradiction|]. cbn [map]. apply yield_map_ok. exact Eo. }
  assert (Hcp : Permutation (concat gs) (concat groups)).
  { clear - Hpg. induction Hpg; cbn [concat]; [constructor|apply Permutation_app_head; assumption|rewrite !app_assoc; apply Permutation_app_tail, Permutation_app_comm|eapply perm_trans; eassumption]. }
  exists groups. split; [exact Ho|]. split; [|split].
  - intros g Hgi. apply (Permutation_in _ (Permutation_sym Hpg)) in Hgi.
    destruct (eq_len_bounds max_toks max_sents gs Hg ltac:(intros r Hr; apply Hin in Hr; apply Hle; apply Hr) Hms g Hgi) as (B1 & B2 & B3). split; [split; assumption|exact B3].
  - eapply Permutation_NoDup; [exact Hcp|exact Hu].
  - intros r. rewrite <- Hin. split; apply Permutation_in; [apply Permutation_sym|]; exact Hcp.
Qed.
Lemma part_eq_len_fails names t max_toks max_sents order arranged shuffled : NoDup names -> names <> [] -> piece_ok names t -> Permutation order (db_ids (p_db t)) -> arranges arranged ->
  match max_sents with Some m => 0 <= m | None => True end ->
  ((forall r, In r (p_recs t) -> ~ usable r) -> part_eq_len (length names) (p_db t) max_toks max_sents order arranged shuffled = ([], Some IndexError)) /\
  ((exists r, In r (p_recs t) /\ usable r /\ max_toks < longest r) -> part_eq_len (length names) (p_db t) max_toks max_sents order arranged shuffled = ([], Some OtherError)).
Proof.
  intros Hnn Hne (_ & Hd & Hnd & Hw & Hc) Hp Ha Hms. destruct (eq_len_ids names (p_recs t) (p_db t) max_toks max_sents order arranged Hd Hnn Hne Hw Hnd Hp Ha Hms) as (H1 & H2 & _).
  unfold part_eq_len. split; intros H; [rewrite (H1 H)|rewrite (H2 H)]; reflexivity.
Qed.
Lemma yield_all_gen {X A B} (f : X -> stream B) (g : A -> X) (Rel : A -> list B -> Prop) ts :
  (forall t, In t ts -> exists out, f (g t) = (out, None) /\ Rel t out) -> exists outs, yield_all f (map g ts) = (concat outs, None) /\ Forall2 Rel ts outs.
Proof.
  induction ts as [|t ts IH]; intros H; [exists []; split; [reflexivity|constructor]|]. destruct (H t (or_introl eq_refl)) as (out & E & Hr).
  destruct IH as (outs & E2 & H2); [intros t' Ht'; apply H; right; exact Ht'|]. exists (out :: outs). cbn [map yield_all concat]. rewrite E, E2. split; [reflexivity|]. constructor; assumption.
Qed.
Lemma yield_all_raises {X A B} (f : X -> stream B) (g : A -> X) ts t e : In t ts -> f (g t) = ([], Some e) -> exists out e', yield_all f (map g ts) = (out, Some e').
Proof.
  induction ts as [|t' ts IH]; intros Hin E; [destruct Hin|]. cbn [map yield_all]. destruct Hin as [->|Hin]; [rewrite E; eauto|].
  destruct (f (g t')) as [ys [e'|]]; [eauto|]. destruct (IH Hin E) as (out & e' & E2). rewrite E2. eauto.
Qed.
Theorem finished_eq_len w names pad ts ts' keep shuffle arity m max_toks max_sents parts_order ids_order arranged shuffled :
  NoDup (map p_num ts) -> Permutation ts ts' -> ts <> [] -> Forall scalars names -> NoDup ([105%N; 100%N] :: names) -> names <> [] -> Forall (piece_ok names) ts -> NoDup (p_all ts) ->
  arity = None \/ arity = Some (length names) -> mdb_load (finished w names pad ts ts') arity keep shuffle = Ok m ->
  shuffles parts_order -> set_order ids_order -> arranges arranged -> shuffles shuffled -> match max_sents with Some m => 0 <= m | None => True end ->
  let s := mdb_eq_len (finished w names pad ts ts') m parts_order max_toks max_sents ids_order arranged shuffled in
  ((forall t, In t ts -> exists r, In r (p_recs t) /\ usable r) -> (forall r, In r (p_all ts) -> usable r -> longest r <= max_toks) ->
   exists groups out, s = (out, None) /\ Forall2 (Forall2 same_record) groups out /\
     (forall g, In g groups -> in_budget max_toks g /\ match max_sents with Some m => Z.of_nat (length g) <= m + 1 | None => True end) /\
     (forall g, In g groups -> exists t, In t ts /\ incl g (p_recs t)) /\
     NoDup (concat groups) /\ (forall r, In r (concat groups) <-> In r (p_all ts) /\ usable r)) /\
  ((exists t, In t ts /\ forall r, In r (p_recs t) -> ~ usable r) \/ (exists r, In r (p_all ts) /\ usable r /\ max_toks < longest r) -> exists out e, s = (out, Some e)).
Proof.
  intros Hnd Hp Hne Hn Hnn Hne' Hok Hall Har E Hpo Hio Harr Hsh Hms s. unfold s. clear s. rewrite load_finished in E by assumption.
  assert (En : (match arity with Some n => n | None => length names end) = length names) by (destruct Har as [->| ->]; reflexivity). rewrite En in E. injection E as <-.
  unfold mdb_eq_len, loaded. cbn [m_parts m_mem m_arity]. set (keep' := keep || Nat.eqb (length ts') 1). rewrite combine_map.
  destruct (Permutation_map_inv (fun t => (p_name pad t, if keep' then Some (p_db t) else None)) ts' (Permutation_sym (Hpo _))) as (ts2 & E2 & Hp2). rewrite E2.
  assert (Hpp : Permutation ts ts2) by (eapply perm_trans; eassumption).
  assert (Hsub : forall t, In t ts2 <-> In t ts) by (intros t; split; apply Permutation_in; [apply Permutation_sym|]; exact Hpp).
  set (f := fun pm : str * option db => match (match snd pm with Some p => Ok p | None => db_load (finished w names pad ts ts') (fst pm) end) with
               | Raise e => ([], Some e)
               | Ok p => part_eq_len (length names) p max_toks max_sents (ids_order p) arranged shuffled end).
  assert (Ef : forall t, In t ts -> f (p_name pad t, if keep' then Some (p_db t) else None) = part_eq_len (length names) (p_db t) max_toks max_sents (ids_order (p_db t)) arranged shuffled).
  { intros t Ht. unfold f. cbn [fst snd]. destruct keep'; [reflexivity|]. rewrite load_part by assumption. reflexivity. }
  pose proof (no_id_names _ Hnn) as Hnn'. rewrite Forall_forall in Hok.
  assert (Hin_all : forall t r, In t ts -> In r (p_recs t) -> In r (p_all ts)) by (intros t r Ht Hr; apply in_concat; exists (p_recs t); split; [apply in_map, Ht|exact Hr]).
  split.
  - intros Hex Hle. destruct (yield_all_gen f (fun t => (p_name pad t, if keep' then Some (p_db t) else None)) (eq_len_of max_toks max_sents) ts2) as (outs & Ey & Hf2).
    { intros t Ht. apply Hsub in Ht. rewrite (Ef t Ht). apply part_eq_len_ok; auto. intros r Hr. apply Hle. apply (Hin_all t r Ht Hr). }
    rewrite Ey. assert (Hnd2 : NoDup (p_all ts2)) by (eapply Permutation_NoDup; [apply p_all_perm, Hpp|exact Hall]).
    assert (Hgoal : exists groups, Forall2 (Forall2 same_record) groups (concat outs) /\
       (forall g, In g groups -> in_budget max_toks g /\ match max_sents with Some m => Z.of_nat (length g) <= m + 1 | None => True end) /\
       (forall g, In g groups -> exists t, In t ts2 /\ incl g (p_recs t)) /\ NoDup (concat groups) /\ (forall r, In r (concat groups) <-> In r (p_all ts2) /\ usable r)).
    { clear - Hf2 Hnd2. induction Hf2 as [|t out ts2 outs (gs & G1 & G2 & G3 & G4) Hf2 IH].
      - exists []. split; [constructor|]. split; [intros g []|]. split; [intros g []|]. split; [constructor|]. intros r. split; [intros []|intros [[] _]].
      - unfold p_all in *. cbn [map concat] in *. destruct (IH ltac:(clear - Hnd2; induction (p_recs t) as [|x l IHl]; [exact Hnd2|inversion Hnd2; auto])) as (gs' & I1 & I2 & I3 & I4 & I5).
        exists (gs ++ gs'). split; [apply Forall2_app; assumption|]. split; [intros g Hg; apply in_app_or in Hg; destruct Hg; auto|]. split; [|split].
        + intros g Hg. apply in_app_or in Hg. destruct Hg as [Hg|Hg].
          * exists t. split; [left; reflexivity|]. intros r Hr. apply G4. apply in_concat. exists g. auto.
          * destruct (I3 g Hg) as (t' & Ht' & Hi). exists t'. split; [right; exact Ht'|exact Hi].
        + rewrite concat_app. clear - G3 G4 I4 I5 Hnd2.
          assert (Hdis : forall r, In r (concat gs) -> ~ In r (concat gs')).
          { intros r H1 H2. apply G4 in H1. apply I5 in H2. destruct H1 as [H1 _], H2 as [H2 _]. clear - Hnd2 H1 H2. induction (p_recs t) as [|x l IHl]; [destruct H1|].
            cbn [app] in Hnd2. inversion Hnd2 as [|? ? Hx Hl]; subst. destruct H1 as [->|H1]; [apply Hx, in_or_app; right; exact H2|exact (IHl Hl H1)]. }
          clear - G3 I4 Hdis. induction (concat gs) as [|x l IHl]; [exact I4|]. inversion G3 as [|? ? Hx Hl]; subst. cbn [app]. constructor.
          * intros Hin. apply in_app_or in Hin. destruct Hin as [Hin|Hin]; [contradiction|]. apply (Hdis x (or_introl eq_refl) Hin).
          * apply IHl; [exact Hl|]. intros r Hr. apply Hdis. right. exact Hr.
        + intros r. rewrite concat_app, !in_app_iff, G4, I5. tauto. }
    destruct Hgoal as (groups & H1 & H2 & H3 & H4 & H5). exists groups, (concat outs). split; [reflexivity|]. split; [exact H1|]. split; [exact H2|]. split.
    + intros g Hg. destruct (H3 g Hg) as (t & Ht & Hi). exists t. split; [apply Hsub, Ht|exact Hi].
    + split; [exact H4|]. intros r. rewrite H5. split; intros [A1 A2]; (split; [|exact A2]); (eapply Permutation_in; [|exact A1]); [apply Permutation_sym|]; apply p_all_perm, Hpp.
  - intros [(t & Ht & Hno)|(r & Hr & Hu & Hlt)].
    + eapply yield_all_raises; [apply Hsub, Ht|]. rewrite (Ef t Ht). apply (proj1 (part_eq_len_fails names t max_toks max_sents _ arranged shuffled Hnn' Hne' (Hok t Ht) (Hio _) Harr Hms)). exact Hno.
    + apply in_concat in Hr. destruct Hr as (c & Hc & Hr). apply in_map_iff in Hc. destruct Hc as (t & <- & Ht).
      eapply yield_all_raises; [apply Hsub, Ht|]. rewrite (Ef t Ht). apply (proj2 (part_eq_len_fails names t max_toks max_sents _ arranged shuffled Hnn' Hne' (Hok t Ht) (Hio _) Harr Hms)). eauto.
Qed.
Theorem create_eq_len w names ow pad size (recs : list rec) d0 arity keep shuffle m max_toks max_sents parts_order ids_order arranged shuffled :
  lists w -> Forall scalars names -> storable names recs -> recs <> [] -> NoDup (map fst recs) -> 1 <= size -> d0 = None \/ d0 = Some [] \/ ow = true ->
  let d := now (mdb_create w names ow pad size (recs, None) d0) in
  arity = None \/ arity = Some (length names) -> mdb_load d arity keep shuffle = Ok m ->
  shuffles parts_order -> set_order ids_order -> arranges arranged -> shuffles shuffled -> match max_sents with Some m => 0 <= m | None => True end ->
  exists chunks, chunked (Z.to_nat size) recs chunks /\
  let s := mdb_eq_len d m parts_order max_toks max_sents ids_order arranged shuffled in
  ((forall c, In c chunks -> exists r, In r c /\ usable r) -> (forall r, In r recs -> usable r -> longest r <= max_toks) ->
   exists groups out, s = (out, None) /\ Forall2 (Forall2 same_record) groups out /\
     (forall g, In g groups -> in_budget max_toks g /\ match max_sents with Some m => Z.of_nat (length g) <= m + 1 | None => True end) /\
     (forall g, In g groups -> exists c, In c chunks /\ incl g c) /\
     NoDup (concat groups) /\ (forall r, In r (concat groups) <-> In r recs /\ usable r)) /\
  ((exists c, In c chunks /\ forall r, In r c -> ~ usable r) \/ (exists r, In r recs /\ usable r /\ max_toks < longest r) -> exists out e, s = (out, Some e)).
Proof.
  intros Hl Hn Hst Hr Hnd Hsz Hd0 d Har Eload Hpo Hio Harr Hsh Hms. unfold d in *. clear d.
  destruct (create_pieces w names ow pad size recs d0 Hl Hn Hst Hr Hnd Hsz (init_ok w ow d0 Hd0)) as (ts & ts' & chunks & Hch & Ech & Hnums & Hp & Hne & Hok & Hall & En & Ev).
  rewrite En in *. exists chunks. split; [exact Hch|]. pose proof Hst as (Hnn & Hne' & _).
  assert (Hnda : NoDup (p_all ts)) by (rewrite Hall; apply NoDup_ids_recs, Hnd).
  destruct (finished_eq_len w names pad ts ts' keep shuffle arity m max_toks max_sents parts_order ids_order arranged shuffled Hnums Hp Hne Hn Hnn Hne' Hok Hnda Har Eload Hpo Hio Harr Hsh Hms) as [H1 H2].
  rewrite Hall in H1, H2. assert (Hc1 : forall c, In c chunks -> exists t, In t ts /\ p_recs t = c) by (intros c Hc; rewrite <- Ech in Hc; apply in_map_iff in Hc; destruct Hc as (t & E & Ht); eauto).
  assert (Hc2 : forall t, In t ts -> In (p_recs t) chunks) by (intros t Ht; rewrite <- Ech; apply in_map, Ht). split.
  - intros A1 A2. destruct (H1 (fun t Ht => A1 _ (Hc2 t Ht)) A2) as (groups & out & B1 & B2 & B3 & B4 & B5). exists groups, out. split; [exact B1|]. split; [exact B2|]. split; [exact B3|]. split; [|exact B5].
    intros g Hg. destruct (B4 g Hg) as (t & Ht & Hi). exists (p_recs t). auto.
  - intros [(c & Hc & Hno)|H]; apply H2; [left|right; exact H]. destruct (Hc1 c Hc) as (t & Ht & <-). eauto.
Qed.
