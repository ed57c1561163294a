(** Proofs about parallel text. *)
From Coq Require Import Strings.String.
From Verif Require Import Py PyLemmas PyStr CodecModel CodecSpec VocabFileModel NumpyModel DbModel DbSpec DbProofs JsonProofs BatchModel DbBatchProofs MultipartModel MultipartSpec MultipartProofs BitextModel BitextSpec.
From Coq Require Import Permutation.
Local Open Scope Z_scope.
Local Open Scope list_scope.

(** ** the join *)
Lemma in_enum {A} (l : list A) i x : In (i, x) (enumerate l) <-> exists n, i = Z.of_nat n /\ nth_error l n = Some x.
Proof.
  unfold enumerate. split.
  - intros H. apply In_nth_error in H. destruct H as (n & H). rewrite enum_from_nth in H. destruct (nth_error l n) as [y|] eqn:E; [|discriminate]. cbn in H. injection H as <- <-. exists n. split; [lia|exact E].
  - intros (n & -> & E). apply (nth_error_In _ n). rewrite enum_from_nth, E. cbn. f_equal. 
Qed.
Lemma in_join xs ys i x y : In (i, (x, y)) (inner_join xs ys) <-> In (i, x) xs /\ In (i, y) ys.
Proof.
  unfold inner_join. rewrite in_flat_map. split.
  - intros ([i' x'] & Hx & H). apply in_map_iff in H. destruct H as ([i2 y'] & E & H). apply filter_In in H. cbn [fst snd] in *. injection E as <- <- <-.
    destruct H as [Hy Hi]. apply Z.eqb_eq in Hi. subst i2. auto.
  - intros [Hx Hy]. exists (i, x). split; [exact Hx|]. apply in_map_iff. exists (i, y). split; [reflexivity|]. apply filter_In. split; [exact Hy|]. cbn. apply Z.eqb_refl.
Qed.
Lemma filter_key_le (ys : list (Z * str)) i : NoDup (map fst ys) -> (length (filter (fun iy => Z.eqb i (fst iy)) ys) <= 1)%nat.
Proof.
  induction ys as [|[j y] ys IH]; intros H; [cbn; lia|]. cbn [map] in H. inversion H as [|? ? Hn Hr]; subst. cbn [filter fst]. destruct (Z.eqb_spec i j) as [->|]; [|apply IH, Hr].
  cbn [length]. assert (E : filter (fun iy => Z.eqb j (fst iy)) ys = []); [|rewrite E; cbn; lia].
  clear - Hn. induction ys as [|[k y] ys IH]; [reflexivity|]. cbn [filter fst]. destruct (Z.eqb_spec j k) as [->|]; [exfalso; apply Hn; left; reflexivity|]. apply IH. intros Hi. apply Hn. right. exact Hi.
Qed.
Lemma join_NoDup xs ys : NoDup (map fst xs) -> NoDup (map fst ys) -> NoDup (map fst (inner_join xs ys)).
Proof.
  intros Hx Hy. induction xs as [|[i x] xs IH]; [constructor|]. cbn [map fst] in Hx. inversion Hx as [|? ? Hn Hr]; subst. unfold inner_join. cbn [flat_map fst snd].
  pose proof (filter_key_le ys i Hy) as Hl. destruct (filter (fun iy => Z.eqb i (fst iy)) ys) as [|[j y] [|? ?]]; [apply IH, Hr| |cbn in Hl; lia].
  cbn [map app fst]. constructor; [|apply IH, Hr]. intros Hin. apply in_map_iff in Hin. destruct Hin as ([i' [x' y']] & E & Hin). cbn [fst] in E. subst i'.
  apply in_join in Hin. apply Hn. apply in_map_iff. exists (i, x'). split; [reflexivity|apply Hin].
Qed.

(** ** tokenizing *)
Lemma both_iff {A B} (r : Z * (list A * list B)) : both r = true <-> fst (snd r) <> [] /\ snd (snd r) <> [].
Proof. destruct r as [i [[|x u] [|y v]]]; cbn; split; try discriminate; try tauto; try (intros [H1 H2]; contradiction); intros _; split; discriminate. Qed.
Lemma concat_map_filter {A} (f : A -> bool) l : concat (map (filter f) l) = filter f (concat l).
Proof. induction l as [|x l IH]; [reflexivity|]. cbn [map concat]. rewrite IH. symmetry. clear IH. induction x as [|a x IHx]; [reflexivity|]. cbn [app filter]. destruct (f a); [cbn [app]; f_equal|]; exact IHx. Qed.
Lemma concat_mapM {A B} (f : A -> res B) l : forall outs, mapM (mapM f) l = Ok outs -> mapM f (concat l) = Ok (concat outs).
Proof.
  induction l as [|x l IH]; intros outs; [intros [= <-]; reflexivity|]. cbn [mapM]. destruct (mapM f x) as [o|] eqn:E; [|discriminate]. cbn [bind].
  destruct (mapM (mapM f) l) as [os|]; [|discriminate]. cbn [bind]. intros [= <-]. cbn [concat]. specialize (IH os eq_refl). clear - E IH.
  revert o E. induction x as [|a x IHx]; intros o; [intros [= <-]; exact IH|]. cbn [mapM app]. destruct (f a) as [b|]; [|discriminate]. cbn [bind].
  destruct (mapM f x) as [bs|]; [|discriminate]. cbn [bind]. intros [= <-]. rewrite (IHx bs eq_refl). reflexivity.
Qed.
Lemma mapM_in {A B} (f : A -> res B) l : forall out, mapM f l = Ok out -> forall y, In y out <-> exists x, In x l /\ f x = Ok y.
Proof.
  induction l as [|x l IH]; intros out; [intros [= <-] y; split; [intros []|intros (x & [] & _)]|]. cbn [mapM]. destruct (f x) as [b|] eqn:E; [|discriminate]. cbn [bind].
  destruct (mapM f l) as [bs|]; [|discriminate]. cbn [bind]. intros [= <-] y. specialize (IH bs eq_refl y). cbn [In]. rewrite IH. split.
  - intros [<-|(x' & H1 & H2)]; [exists x; auto|exists x'; auto].
  - intros (x' & [<-|H1] & H2); [left; congruence|right; exists x'; auto].
Qed.
Lemma mapM_keys {A B} (f : Z * A -> res (Z * B)) l : (forall r r', f r = Ok r' -> fst r' = fst r) -> forall out, mapM f l = Ok out -> map fst out = map fst l.
Proof.
  intros Hf. induction l as [|x l IH]; intros out; [intros [= <-]; reflexivity|]. cbn [mapM]. destruct (f x) as [b|] eqn:E; [|discriminate]. cbn [bind].
  destruct (mapM f l) as [bs|]; [|discriminate]. cbn [bind]. intros [= <-]. cbn [map]. rewrite (IH bs eq_refl), (Hf _ _ E). reflexivity.
Qed.
Lemma filter_keys_NoDup {A} (f : Z * A -> bool) l : NoDup (map fst l) -> NoDup (map fst (filter f l)).
Proof.
  induction l as [|x l IH]; intros H; [constructor|]. cbn [map] in H. inversion H as [|? ? Hn Hr]; subst. cbn [filter]. destruct (f x); [|apply IH, Hr].
  cbn [map]. constructor; [|apply IH, Hr]. intros Hin. apply Hn. apply in_map_iff in Hin. destruct Hin as (y & E & Hy). apply filter_In in Hy. rewrite <- E. apply in_map, Hy.
Qed.
Lemma tokenize_key stok ttok r r' : tokenize_row stok ttok r = Ok r' -> fst r' = fst r.
Proof. unfold tokenize_row. destruct (stok _); [|discriminate]. cbn [bind]. destruct (ttok _); [|discriminate]. cbn [bind]. intros [= <-]. reflexivity. Qed.

(** the rows that are left before the limits are applied *)
Lemma tok_rows cl xs ys stok ttok toks : spark cl ->
  mapM (mapM (tokenize_row stok ttok)) (map (filter both) (join_parts cl (inner_join (enumerate xs) (enumerate ys)))) = Ok toks ->
  exactly (concat (map (filter both) toks)) (line_pair xs ys stok ttok).
Proof.
  intros (Hj & _) E. apply concat_mapM in E. rewrite concat_map_filter in E. set (rows := concat (join_parts cl (inner_join (enumerate xs) (enumerate ys)))) in *.
  assert (Hp : Permutation (inner_join (enumerate xs) (enumerate ys)) rows) by apply Hj.
  rewrite concat_map_filter. split.
  - apply filter_keys_NoDup. pose proof (mapM_keys _ _ (tokenize_key stok ttok) _ E) as Hk. unfold tok_row, raw_row in *. rewrite Hk. apply filter_keys_NoDup. eapply Permutation_NoDup; [apply Permutation_map, Hp|].
    apply join_NoDup; apply enumerate_NoDup.
  - intros i u v. rewrite filter_In, both_iff, (mapM_in _ _ _ E). cbn [fst snd]. split.
    + intros [([i' [x y]] & Hin & Et) [Hu Hv]]. apply filter_In in Hin. destruct Hin as [Hin Hb]. apply both_iff in Hb. cbn [fst snd] in Hb.
      unfold tokenize_row in Et. cbn [fst snd] in Et. destruct (stok x) as [u'|] eqn:Eu; [|discriminate]. cbn [bind] in Et. destruct (ttok y) as [v'|] eqn:Ev; [|discriminate]. cbn [bind] in Et. injection Et as <- <- <-.
      apply (Permutation_in _ (Permutation_sym Hp)), in_join in Hin. destruct Hin as [Hx Hy]. apply in_enum in Hx, Hy. destruct Hx as (n & -> & Hx), Hy as (m & Em & Hy). apply Nat2Z.inj in Em. subst m.
      exists n, x, y. tauto.
    + intros (n & x & y & -> & Hx & Hy & Hx0 & Hy0 & Eu & Ev & Hu & Hv). split; [|auto]. exists (Z.of_nat n, (x, y)). split.
      * apply filter_In. split; [|apply both_iff; cbn; auto]. apply (Permutation_in _ Hp), in_join. split; apply in_enum; exists n; auto.
      * unfold tokenize_row. cbn [fst snd]. rewrite Eu, Ev. reflexivity.
Qed.
Lemma mapM_mapM_ok {A B} (f : A -> res B) l : (forall x, In x (concat l) -> exists y, f x = Ok y) -> exists out, mapM (mapM f) l = Ok out.
Proof.
  assert (H1 : forall x, (forall a, In a x -> exists y, f a = Ok y) -> exists out, mapM f x = Ok out).
  { induction x as [|a x IH]; intros H; [exists []; reflexivity|]. destruct (H a (or_introl eq_refl)) as (y & E). destruct IH as (o & Eo); [intros b Hb; apply H; right; exact Hb|]. exists (y :: o). cbn [mapM]. rewrite E, Eo. reflexivity. }
  induction l as [|x l IH]; intros H; [exists []; reflexivity|]. destruct (H1 x) as (o & Eo); [intros a Ha; apply H; cbn; apply in_or_app; auto|].
  destruct IH as (os & Eos); [intros a Ha; apply H; cbn; apply in_or_app; auto|]. exists (o :: os). cbn [mapM]. rewrite Eo, Eos. reflexivity.
Qed.
Lemma tok_total cl xs ys stok ttok : spark cl -> tokenizes xs ys stok ttok ->
  exists toks, mapM (mapM (tokenize_row stok ttok)) (map (filter both) (join_parts cl (inner_join (enumerate xs) (enumerate ys)))) = Ok toks.
Proof.
  intros (Hj & _) Ht. apply mapM_mapM_ok. intros [i [x y]] Hin. rewrite concat_map_filter in Hin. apply filter_In in Hin. destruct Hin as [Hin Hb]. apply both_iff in Hb. cbn [fst snd] in Hb.
  apply (Permutation_in _ (Permutation_sym (Hj _))), in_join in Hin. destruct Hin as [Hx Hy]. apply in_enum in Hx, Hy. destruct Hx as (n & -> & Hx), Hy as (m & Em & Hy). apply Nat2Z.inj in Em. subst m.
  destruct (Ht n x y Hx Hy) as [(u & Eu) (v & Ev)]; try tauto. exists (Z.of_nat n, (u, v)). unfold tokenize_row. cbn [fst snd]. rewrite Eu, Ev. reflexivity.
Qed.

(** the rows after the limits *)
Definition limited (truncate : bool) (src_len tgt_len : Z) (P : Z -> list Z -> list Z -> Prop) (i : Z) (u v : list Z) : Prop :=
  exists u0 v0, P i u0 v0 /\
    if truncate then u = py_take u0 src_len /\ v = py_take v0 tgt_len
    else u = u0 /\ v = v0 /\ Z.of_nat (length u0) < src_len /\ Z.of_nat (length v0) < tgt_len.
Lemma concat_map_map {A B} (f : A -> B) l : concat (map (map f) l) = map f (concat l).
Proof. induction l as [|x l IH]; [reflexivity|]. cbn [map concat]. rewrite IH, map_app. reflexivity. Qed.
Lemma limit_rows (truncate : bool) sl tl parts P : exactly (concat parts) P ->
  exactly (concat (if truncate then map (map (fun r : tok_row => (fst r, (py_take (fst (snd r)) sl, py_take (snd (snd r)) tl)))) parts
     else map (filter (fun r : tok_row => (Z.of_nat (length (fst (snd r))) <? sl) && (Z.of_nat (length (snd (snd r))) <? tl))) parts)) (limited truncate sl tl P).
Proof.
  intros [Hnd Hin]. unfold limited. destruct truncate.
  - rewrite concat_map_map. split; [unfold tok_row in *; rewrite map_map; exact Hnd|]. intros i u v. rewrite in_map_iff. split.
    + intros ([i' [u0 v0]] & E & H). cbn [fst snd] in E. injection E as <- <- <-. exists u0, v0. split; [apply Hin, H|auto].
    + intros (u0 & v0 & H & -> & ->). exists (i, (u0, v0)). split; [reflexivity|apply Hin, H].
  - rewrite concat_map_filter. split; [apply filter_keys_NoDup, Hnd|]. intros i u v. rewrite filter_In, Hin. cbn [fst snd]. rewrite andb_true_iff, !Z.ltb_lt. split.
    + intros [H1 H2]. exists u, v. tauto.
    + intros (u0 & v0 & H & -> & -> & H2). tauto.
Qed.
Theorem bitext_sound cl xs ys truncate sl tl stok ttok parts : spark cl -> read_raw_bitext_tok cl xs ys truncate sl tl stok ttok = Ok parts ->
  length xs = length ys /\ concat parts <> [] /\ exactly (concat parts) (limited truncate sl tl (line_pair xs ys stok ttok)).
Proof.
  intros Hs. unfold read_raw_bitext_tok, read_raw_bitext. destruct (Nat.eqb_spec (length xs) (length ys)) as [El|]; [|discriminate]. cbn [assert_ bind].
  destruct (mapM (mapM (tokenize_row stok ttok)) (map (filter both) (join_parts cl (inner_join (enumerate xs) (enumerate ys))))) as [toks|] eqn:E; [|discriminate]. cbn [bind].
  pose proof (limit_rows truncate sl tl _ _ (tok_rows cl xs ys stok ttok toks Hs E)) as H.
  cbv zeta. unfold tok_row in *. match goal with |- match concat ?o with _ => _ end = _ -> _ => set (out := o) end. change (exactly (concat out) (limited truncate sl tl (line_pair xs ys stok ttok))) in H. clearbody out.
  destruct (concat out) as [|r rs] eqn:Eo; [discriminate|]. intros [= <-]. rewrite Eo. split; [exact El|]. split; [discriminate|exact H].
Qed.
Theorem bitext_result cl xs ys truncate sl tl stok ttok : spark cl -> length xs = length ys -> tokenizes xs ys stok ttok ->
  ((exists i u v, limited truncate sl tl (line_pair xs ys stok ttok) i u v) -> exists parts, read_raw_bitext_tok cl xs ys truncate sl tl stok ttok = Ok parts) /\
  ((forall i u v, ~ limited truncate sl tl (line_pair xs ys stok ttok) i u v) -> read_raw_bitext_tok cl xs ys truncate sl tl stok ttok = Raise IndexError).
Proof.
  intros Hs El Ht. unfold read_raw_bitext_tok, read_raw_bitext. rewrite El, Nat.eqb_refl. cbn [assert_ bind].
  destruct (tok_total cl xs ys stok ttok Hs Ht) as (toks & E). rewrite E. cbn [bind].
  pose proof (limit_rows truncate sl tl _ _ (tok_rows cl xs ys stok ttok toks Hs E)) as [_ H]. cbv zeta. unfold tok_row in *. match goal with |- context [match concat ?o with _ => _ end] => set (out := o) end.
  change (forall i u v, In (i, (u, v)) (concat out) <-> limited truncate sl tl (line_pair xs ys stok ttok) i u v) in H. clearbody out. split.
  - intros (i & u & v & Hl). apply H in Hl. destruct (concat out); [destruct Hl|]. eauto.
  - intros Hno. destruct (concat out) as [|[i [u v]] rs]; [reflexivity|]. exfalso. apply (Hno i u v), H. left. reflexivity.
Qed.
Lemma bitext_lines cl xs ys truncate sl tl stok ttok : length xs <> length ys -> read_raw_bitext_tok cl xs ys truncate sl tl stok ttok = Raise AssertionError.
Proof. intros H. unfold read_raw_bitext_tok, read_raw_bitext. rewrite (proj2 (Nat.eqb_neq _ _) H). reflexivity. Qed.
Lemma py_take_firstn {A} (l : list A) n : 0 <= n -> py_take l n = firstn (Z.to_nat n) l.
Proof.
  intros H. unfold py_take, py_bound. rewrite (proj2 (Z.leb_le 0 n) H), <- firstn_firstn, firstn_all. reflexivity.
Qed.

(** ** storing *)
Lemma storable_perm names recs recs' : Permutation recs recs' -> storable names recs -> storable names recs'.
Proof.
  intros Hp (H1 & H2 & H3 & H4 & H5). split; [exact H1|]. split; [exact H2|].
  assert (Hv : forall j, Permutation (all_values (column j recs)) (all_values (column j recs'))).
  { intros j. unfold all_values, column. rewrite !map_map. cbn [snd]. clear - Hp. induction Hp; cbn [map concat]; [constructor|apply Permutation_app_head; assumption| |eapply perm_trans; eassumption].
    rewrite !app_assoc. apply Permutation_app_tail, Permutation_app_comm. }
  split; [|split].
  - intros r Hr. apply H3. eapply Permutation_in; [apply Permutation_sym, Hp|exact Hr].
  - intros j Hj. destruct (H4 j Hj) as [H|H]; [left|right]; unfold exact53 in *; (eapply Permutation_Forall; [apply Hv|exact H]).
  - intros j Hj. unfold fits_memory. rewrite <- (Permutation_length (Hv j)). apply (H5 j Hj).
Qed.
Lemma finished_columns w names pad ts ts' : Forall (piece_ok names) ts -> Forall (eq names) (part_columns (finished w names pad ts ts')) /\ length (part_columns (finished w names pad ts ts')) = length ts.
Proof.
  intros Hok. unfold finished, part_columns.
  assert (Hf : ~ In FLAG (dkeys (flat_map (p_files w pad) ts))).
  { intros H. apply keys_flat in H. destruct H as (t & _ & [H|H]); [apply flag_not_part in H|apply flag_not_meta in H]; exact H. }
  rewrite (dset_fresh str_eqb str_eqb_eq _ _ _ Hf), flat_map_app. cbn [flat_map snd app]. rewrite app_nil_r. clear Hf.
  induction Hok as [|t ts (_ & Hd & _) _ [IH1 IH2]]; [split; [constructor|reflexivity]|]. cbn [flat_map p_files part_files app snd]. split; [constructor; [symmetry; apply Hd|exact IH1]|cbn [length]; f_equal; exact IH2].
Qed.
Lemma parts_written w cl names ow pad (parts : list (list rec)) d : spark cl -> lists w -> Forall scalars names -> storable names (concat parts) -> concat parts <> [] -> NoDup (map fst (concat parts)) ->
  (forall p, In p parts -> p <> []) -> d = None \/ d = Some [] \/ ow = true ->
  let r := seq_io (with_writer w names ow pad (task_order cl (enumerate (map (fun p => (p, None)) parts))) None) (fun _ d => MkRun [] d (mdb_load d None false false)) d in
  complete (length names) (concat parts) (now r) /\ val r = mdb_load (now r) None false false /\ Forall (eq names) (part_columns (now r)) /\ length (part_columns (now r)) = length parts.
Proof.
  intros (_ & _ & Ht) Hl Hn Hst Hr Hnd Hne Hd. cbv zeta.
  destruct (chunk_pieces names (concat parts) parts Hst Hnd Hne [] 0 eq_refl) as (ts & E1 & E2 & Hok).
  assert (Ee : @enumerate (stream rec) (map (fun c => (c, None)) parts) = map call_of ts) by (symmetry; exact E1). setoid_rewrite Ee.
  destruct (Permutation_map_inv call_of ts (Permutation_sym (Ht (map call_of ts)))) as (ts2 & -> & Hp).
  assert (Hnums : NoDup (map p_num ts)) by (eapply call_nums, E1).
  assert (Hnums2 : NoDup (map p_num ts2)) by (eapply Permutation_NoDup; [apply Permutation_map, Hp|exact Hnums]).
  assert (Hok2 : Forall (piece_ok names) ts2) by (eapply Permutation_Forall; eassumption).
  assert (Hcr : forall t, In t ts2 -> db_create names (p_recs t) = Ok (p_db t)) by (intros t Hin; rewrite Forall_forall in Hok2; apply (Hok2 t Hin)).
  destruct (with_writer_ok w names ow pad ts2 d Hl Hn Hnums2 Hcr (init_ok w ow d Hd)) as (Ev & ts' & Hp' & En).
  rewrite (seq_ok _ _ _ _ Ev). cbn [now val]. rewrite En.
  destruct (finished_columns w names pad ts2 ts' Hok2) as [Hcol Hlen].
  split; [|split; [reflexivity|split; [exact Hcol|rewrite Hlen, <- (Permutation_length Hp), <- (map_length p_recs ts), E2; reflexivity]]].
  assert (Hall : Permutation (concat parts) (p_all ts2)) by (rewrite <- E2; change (concat (map p_recs ts)) with (p_all ts); apply p_all_perm, Hp).
  assert (Hc : complete (length names) (p_all ts2) (finished w names pad ts2 ts')).
  { apply finished_complete; auto; [|apply Hst]. intros ->. apply Hr. cbn in Hall. apply Permutation_sym, Permutation_nil in Hall. exact Hall. }
  intros arity keep shuffle Ha Hks. destruct (Hc arity keep shuffle Ha Hks) as (m & E & Hsz & Hit). exists m. split; [exact E|]. split; [rewrite Hsz; f_equal; apply Permutation_length, Permutation_sym, Hall|].
  intros po io Hpo Hio. destruct (Hit po io Hpo Hio) as (out & recs' & Eo & Hpr & Ho). exists out, recs'. split; [exact Eo|]. split; [eapply perm_trans; eassumption|exact Ho].
Qed.
Lemma complete_perm n recs recs' d : Permutation recs recs' -> complete n recs d -> complete n recs' d.
Proof.
  intros Hp H arity keep shuffle Ha Hks. destruct (H arity keep shuffle Ha Hks) as (m & E & Hsz & Hit). exists m. split; [exact E|]. split; [rewrite Hsz; f_equal; apply Permutation_length, Hp|].
  intros po io Hpo Hio. destruct (Hit po io Hpo Hio) as (out & recs2 & Eo & Hpr & Ho). exists out, recs2. split; [exact Eo|]. split; [eapply perm_trans; [apply Permutation_sym, Hp|exact Hpr]|exact Ho].
Qed.
(** the partitions that are written *)
Definition final_parts (cl : cluster) (n : Z) (parts : list (list rec)) : list (list rec) := if 0 <? n then repartition cl (Z.to_nat n) parts else parts.
Lemma final_perm cl n parts : spark cl -> Permutation (concat parts) (concat (final_parts cl n parts)).
Proof. intros (_ & H & _). unfold final_parts. destruct (Z.ltb_spec 0 n); [apply H; lia|apply Permutation_refl]. Qed.
Theorem rdd_stored w cl names ow pad n parts d : spark cl -> lists w -> Forall scalars names -> storable names (concat parts) -> concat parts <> [] -> NoDup (map fst (concat parts)) ->
  (forall p, In p (final_parts cl n parts) -> p <> []) -> d = None \/ d = Some [] \/ ow = true ->
  let r := rdd_as_db w cl names ow pad n parts d in complete (length names) (concat parts) (now r) /\ val r = mdb_load (now r) None false false /\
    Forall (eq names) (part_columns (now r)) /\ length (part_columns (now r)) = length (final_parts cl n parts).
Proof.
  intros Hs Hl Hn Hst Hr Hnd Hne Hd. pose proof (final_perm cl n parts Hs) as Hp. cbv zeta.
  destruct (parts_written w cl names ow pad (final_parts cl n parts) d) as (Hc & Hv & Hcol & Hlen); auto.
  - eapply storable_perm; eassumption.
  - intros E. rewrite E in Hp. apply Permutation_sym, Permutation_nil in Hp. contradiction.
  - eapply Permutation_NoDup; [apply Permutation_map, Hp|exact Hnd].
  - split; [eapply complete_perm; [apply Permutation_sym, Hp|exact Hc]|]. split; [exact Hv|]. split; [exact Hcol|exact Hlen].
Qed.
Lemma in_enum_part (parts : list (list rec)) p : In p parts -> exists i, In (i, (p, None)) (@enumerate (stream rec) (map (fun p => (p, None)) parts)).
Proof. intros H. apply In_nth_error in H. destruct H as (n & H). exists (Z.of_nat n). apply in_enum. exists n. split; [reflexivity|]. rewrite nth_error_map, H. reflexivity. Qed.
Lemma empty_part_raises names : NoDup names -> names <> [] -> db_of_slice names ([], None) = Raise AssertionError.
Proof.
  intros Hn Hne. unfold db_of_slice. cbn [snd fst]. apply (proj2 (db_create_ok names [] Hn Hne (fun r H => match H with end)
    (fun j _ => or_introl (Forall_nil _)) (fun j _ => eq_refl))). intros [H _]. apply H. reflexivity.
Qed.
(** an empty partition: the writing fails, whatever is on the disk before *)
Lemma write_fails w cl names ow pad n parts d : spark cl -> NoDup names -> names <> [] -> In [] (final_parts cl n parts) ->
  exists e, val (with_writer w names ow pad (task_order cl (@enumerate (stream rec) (map (fun p => (p, None)) (final_parts cl n parts)))) None d) = Raise e.
Proof.
  intros (_ & _ & Ht) Hnn Hne Hin. destruct (in_enum_part _ _ Hin) as (i & Hi). apply (Permutation_in _ (Ht _)) in Hi. apply in_split in Hi. destruct Hi as (cs & rest & E).
  rewrite E. unfold with_writer. unfold seq_io at 1. destruct (val (writer_init w ow d)) as [[]|e]; [|exists e; reflexivity]. cbn [val]. unfold seq_io at 1.
  pose proof (write_parts_bad w names pad cs i ([], None) rest AssertionError (empty_part_raises names Hnn Hne) (now (writer_init w ow d))) as H.
  destruct (val (write_parts w names pad (cs ++ (i, ([], None)) :: rest) (now (writer_init w ow d)))) as [[]|e] eqn:Ew; [exfalso; apply H; exact Ew|]. exists e.
  match goal with |- val (match val ?x with _ => _ end) = _ => change (val x) with (val (write_parts w names pad (cs ++ (i, ([], None)) :: rest) (now (writer_init w ow d)))) end. rewrite Ew. reflexivity.
Qed.
Theorem empty_partition w cl names ow pad n parts d : spark cl -> NoDup names -> names <> [] -> In [] (final_parts cl n parts) ->
  exists e, val (rdd_as_db w cl names ow pad n parts d) = Raise e.
Proof.
  intros Hs Hnn Hne Hin. destruct (write_fails w cl names ow pad n parts d Hs Hnn Hne Hin) as (e & E). exists e.
  change (val (seq_io (with_writer w names ow pad (task_order cl (@enumerate (stream rec) (map (fun p => (p, None)) (final_parts cl n parts)))) None) (fun _ d0 => MkRun [] d0 (mdb_load d0 None false false)) d) = Raise e).
  rewrite (seq_raise _ _ _ _ E). reflexivity.
Qed.
Lemma pigeonhole {A} (parts : list (list A)) : (length (concat parts) < length parts)%nat -> In [] parts.
Proof.
  induction parts as [|[|x p] parts IH]; intros H; [cbn in H; lia|left; reflexivity|]. right. apply IH. cbn in H. rewrite app_length in H. lia.
Qed.
Theorem too_many_parts w cl names ow pad n parts d : spark cl -> lists w -> Forall scalars names -> NoDup names -> names <> [] -> Z.of_nat (length (concat parts)) < n -> d = None \/ d = Some [] ->
  let r := rdd_as_db w cl names ow pad n parts d in (exists e, val r = Raise e) /\ forall d', In d' (d :: seen r ++ [now r]) -> refuses d'.
Proof.
  intros Hs Hl Hn Hnn Hne Hlt Hd. cbv zeta.
  assert (Hin : In [] (final_parts cl n parts)).
  { apply pigeonhole. rewrite <- (Permutation_length (final_perm cl n parts Hs)). unfold final_parts. destruct (Z.ltb_spec 0 n); [|lia].
    destruct Hs as (_ & H2 & _). rewrite (proj1 (H2 (Z.to_nat n) parts ltac:(lia))). lia. }
  destruct (empty_partition w cl names ow pad n parts d Hs Hnn Hne Hin) as (e & E). split; [exists e; exact E|].
  set (calls := task_order cl (@enumerate (stream rec) (map (fun p => (p, None)) (final_parts cl n parts)))).
  destruct (writer_crash w names ow pad calls None d Hl Hn Hd) as (H1 & H2 & _).
  change (rdd_as_db w cl names ow pad n parts) with (seq_io (with_writer w names ow pad calls None) (fun _ d0 => MkRun [] d0 (mdb_load d0 None false false))) in *.
  destruct (write_fails w cl names ow pad n parts d Hs Hnn Hne Hin) as (e2 & Ev). fold calls in Ev. rewrite (seq_raise _ _ _ _ Ev). cbn [seen now val].
  intros d' [<-|Hin']; [destruct (H1 d (or_introl eq_refl)) as [H|[_ H]]; [exact H|congruence]|]. apply in_app_or in Hin'. destruct Hin' as [Hin'|[<-|[]]].
  - destruct (H1 d' (or_intror Hin')) as [H|[_ H]]; [exact H|congruence].
  - apply H2. congruence.
Qed.

(** ** bitextdb *)
Lemma xy_names : NoDup [lit "x"; lit "y"] /\ [lit "x"; lit "y"] <> [] /\ Forall scalars [lit "x"; lit "y"].
Proof.
  split; [|split; [discriminate|repeat constructor]]. constructor; [intros [H|[]]; discriminate H|]. constructor; [intros []|constructor].
Qed.
Theorem bitextdb_sound w cl pad sm tm xs ys np sc tc sl tl truncate d m : spark cl -> lists w -> 
  let r := bitextdb w cl pad sm tm xs ys np sc tc sl tl truncate d in
  val r = Ok m ->
  exists s t rows, load_scheme sm = Ok s /\ match tm with Some b => load_scheme b = Ok t | None => t = s end /\ length xs = length ys /\ rows <> [] /\
    exactly rows (limited truncate sl tl (line_pair xs ys (encode s) (encode t))) /\
    (storable [lit "x"; lit "y"] (map as_rec rows) -> complete 2 (map as_rec rows) (now r) /\ mdb_load (now r) None false false = Ok m /\ Forall (eq [lit "x"; lit "y"]) (part_columns (now r)) /\ (0 < np -> Z.of_nat (length (part_columns (now r))) = np)).
Proof.
  intros Hs Hl r Hv. unfold r, bitextdb in *. clear r. destruct (load_scheme sm) as [s|e] eqn:Es; [|discriminate Hv]. cbn [lift seq_io val] in Hv.
  destruct (match tm with Some b => load_scheme b | None => Ok s end) as [t|e] eqn:Et; [|discriminate Hv]. cbn [lift seq_io val] in Hv.
  destruct (read_raw_bitext_tok cl xs ys truncate sl tl (encode s) (encode t)) as [parts|e] eqn:Ep; [|discriminate Hv]. cbn [lift seq_io val now] in Hv |- *. rewrite Et. cbn [lift seq_io val now]. rewrite Ep. cbn [lift seq_io val now].
  destruct (bitext_sound _ _ _ _ _ _ _ _ _ Hs Ep) as (El & Hne & Hex). exists s, t, (concat parts). split; [reflexivity|].
  split; [destruct tm; [exact Et|congruence]|]. split; [exact El|]. split; [exact Hne|]. split; [exact Hex|]. intros Hst.
  destruct xy_names as (Hn1 & Hn2 & Hn3). set (rdd := map (map as_rec) parts).
  assert (Er : concat rdd = map as_rec (concat parts)) by apply concat_map_map.
  match type of Hv with val (?x d) = _ => change x with (rdd_as_db w cl [lit "x"; lit "y"] false pad np rdd) in * end.
  match goal with |- context [mdb_load (now (?x d))] => change x with (rdd_as_db w cl [lit "x"; lit "y"] false pad np rdd) in * end.
  assert (Hparts : forall p, In p (final_parts cl np rdd) -> p <> []).
  { intros p Hp ->. destruct (empty_partition w cl _ false pad np rdd d Hs Hn1 Hn2 Hp) as (e & E). rewrite E in Hv. discriminate Hv. }
  assert (Hd : d = None \/ d = Some [] \/ false = true).
  { destruct d as [[|f fs]|]; auto. discriminate Hv. }
  rewrite <- Er in Hst |- *. destruct (rdd_stored w cl _ false pad np rdd d Hs Hl Hn3 Hst) as (Hc & Hload & Hcol & Hlen); auto.
  - intros E. apply Hne. exact (map_eq_nil _ _ (eq_trans (eq_sym Er) E)).
  - assert (Ek : map fst (concat rdd) = map fst (concat parts)) by (etransitivity; [exact (f_equal (map fst) Er)|apply map_map]).
    eapply eq_ind_r; [exact (proj1 Hex)|exact Ek].
  - split; [exact Hc|]. split; [rewrite <- Hload; exact Hv|]. split; [exact Hcol|]. intros Hnp. rewrite Hlen. unfold final_parts. rewrite (proj2 (Z.ltb_lt 0 np) Hnp).
    destruct Hs as (_ & Hre & _). rewrite (proj1 (Hre (Z.to_nat np) rdd ltac:(lia))). lia.
Qed.
Lemma exactly_ext rows P Q : (forall i u v, P i u v <-> Q i u v) -> exactly rows P -> exactly rows Q.
Proof. intros H [H1 H2]. split; [exact H1|]. intros i u v. rewrite H2. apply H. Qed.
Lemma limited_cut sl tl P i u v : limited true (Z.of_nat sl) (Z.of_nat tl) P i u v <-> cut_to sl tl P i u v.
Proof.
  unfold limited, cut_to. split; intros (u0 & v0 & H & -> & ->); exists u0, v0; rewrite !py_take_firstn, !Nat2Z.id by lia; auto.
Qed.
Lemma limited_below sl tl P i u v : limited false (Z.of_nat sl) (Z.of_nat tl) P i u v <-> below sl tl P i u v.
Proof.
  unfold limited, below. split.
  - intros (u0 & v0 & H & -> & -> & H1 & H2). split; [exact H|]. lia.
  - intros (H & H1 & H2). exists u, v. split; [exact H|]. repeat split; lia.
Qed.
