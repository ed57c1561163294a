(** Learning from a corpus said k times. *)
From Verif Require Import Py PyStr PyLemmas StrSpec PyStrProofs CodecModel CodecSpec LearnModel LearnSpec LearnProofs
     LearnBpeModel BpeSpec FlatProofs LearnBpeResults LearnBpeEnd ScaleSpec.
Local Open Scope Z_scope.
Local Open Scope list_scope.

Lemma weigh_fst {A} k (l : list (A * Z)) : map fst (weigh k l) = map fst l.
Proof. unfold weigh. rewrite map_map. reflexivity. Qed.
Lemma weigh_sum {A} k (l : list (A * Z)) : zsum (map snd (weigh k l)) = k * zsum (map snd l).
Proof.
  induction l as [|[a v] l IH]; [cbn; lia|]. change (weigh k ((a, v) :: l)) with ((a, k * v) :: weigh k l). cbn [map snd].
  unfold zsum in *. cbn [fold_right]. rewrite IH. lia.
Qed.
Lemma weigh_get k w l : dget str_eqb w (weigh k l) = match dget str_eqb w l with Some v => Some (k * v) | None => None end.
Proof. induction l as [|[a v] l IH]; [reflexivity|]. cbn [weigh map dget fst snd]. destruct (str_eqb w a); [reflexivity|exact IH]. Qed.
Lemma weigh_del k w l : ddel str_eqb w (weigh k l) = weigh k (ddel str_eqb w l).
Proof. induction l as [|[a v] l IH]; [reflexivity|]. cbn [weigh map ddel fst snd]. destruct (str_eqb w a); [reflexivity|]. cbn [map]. f_equal. exact IH. Qed.
Lemma weigh_set k w v l : dset str_eqb w (k * v) (weigh k l) = weigh k (dset str_eqb w v l).
Proof. induction l as [|[a x] l IH]; [reflexivity|]. cbn [weigh map dset fst snd]. destruct (str_eqb w a); cbn [map]; [reflexivity|]. f_equal. exact IH. Qed.
Lemma weigh_add k w v l : dadd str_eqb w (k * v) (weigh k l) = weigh k (dadd str_eqb w v l).
Proof.
  unfold dadd, dget_def. rewrite weigh_get. destruct (dget str_eqb w l) as [x|]; rewrite <- weigh_set; f_equal; lia.
Qed.
Lemma weigh_insert {A} k (x : A * Z) l : 0 < k -> insert_desc snd (fst x, k * snd x) (weigh k l) = weigh k (insert_desc snd x l).
Proof.
  intros Hk. induction l as [|[a v] l IH]; [reflexivity|]. cbn [weigh map insert_desc fst snd].
  assert (E : (k * v <=? k * snd x) = (v <=? snd x)) by (apply Bool.eq_iff_eq_true; rewrite !Z.leb_le; nia). rewrite E.
  destruct (v <=? snd x); [reflexivity|]. cbn [map]. f_equal. exact IH.
Qed.
Lemma weigh_sorted {A} k (l : list (A * Z)) : 0 < k -> sorted_desc snd (weigh k l) = weigh k (sorted_desc snd l).
Proof.
  intros Hk. unfold sorted_desc. induction l as [|x l IH]; [reflexivity|]. cbn [weigh map fold_right]. fold (weigh k l). rewrite IH. apply weigh_insert, Hk.
Qed.
Lemma weigh_filter {A} k (p q : A * Z -> bool) l : (forall x, In x l -> p (fst x, k * snd x) = q x) -> filter p (weigh k l) = weigh k (filter q l).
Proof.
  intros H. induction l as [|x l IH]; [reflexivity|]. cbn [weigh map filter]. rewrite H by (left; reflexivity). fold (weigh k l).
  rewrite IH by (intros y Hy; apply H; right; exact Hy). destruct (q x); reflexivity.
Qed.
Lemma weigh_take {A} k (l : list (A * Z)) i : py_take (weigh k l) i = weigh k (py_take l i).
Proof. unfold py_take, weigh. rewrite map_length. apply firstn_map. Qed.
Lemma weigh_drop {A} k (l : list (A * Z)) i : py_drop (weigh k l) i = weigh k (py_drop l i).
Proof. unfold py_drop, weigh. rewrite map_length. apply skipn_map. Qed.

Lemma pop_weigh k tf : pop_reserved (weigh k tf) = (weigh k (fst (pop_reserved tf)), weigh k (snd (pop_reserved tf))).
Proof.
  unfold pop_reserved. change (@nil (str * Z)) with (weigh k (@nil (str * Z))) at 1. generalize (@nil (str * Z)) as rs. revert tf.
  induction with_reserved_types as [|r l IH]; intros tf rs; [reflexivity|]. cbn [fold_left]. rewrite weigh_get.
  destruct (dget str_eqb (t_name r) tf) as [v|]; [|apply IH]. rewrite weigh_set, weigh_del. apply IH.
Qed.
Lemma pop_in tf x : In x (snd (pop_reserved tf)) -> In x tf.
Proof.
  unfold pop_reserved. generalize (@nil (str * Z)) as rs. revert tf.
  induction with_reserved_types as [|r l IH]; intros tf rs; [exact (fun H => H)|]. cbn [fold_left].
  destruct (dget str_eqb (t_name r) tf) as [v|]; [|apply IH]. intros H. apply IH in H. clear - H.
  induction tf as [|[a y] tf IH]; [exact H|]. cbn [ddel] in H. destruct (str_eqb (t_name r) a); [right; exact H|].
  destruct H as [H|H]; [left; exact H|right; apply IH, H].
Qed.
Lemma dget_pop_nonneg tf w v : (forall x, In x tf -> 0 <= snd x) -> dget str_eqb w (fst (pop_reserved tf)) = Some v -> 0 <= v.
Proof.
  unfold pop_reserved. assert (G : forall l rs tf, (forall x, In x tf -> 0 <= snd x) -> (forall w v, dget str_eqb w rs = Some v -> 0 <= v) ->
    forall w v, dget str_eqb w (fst (fold_left (fun st r => let '(res_stats, tf) := st in
       match dget str_eqb (t_name r) tf with Some f => (dset str_eqb (t_name r) f res_stats, ddel str_eqb (t_name r) tf) | None => st end) l (rs, tf))) = Some v -> 0 <= v).
  { clear. induction l as [|r l IH]; intros rs tf Ht Hr w v; [exact (Hr w v)|]. cbn [fold_left].
    destruct (dget str_eqb (t_name r) tf) as [y|] eqn:E; [|apply IH; assumption]. apply IH.
    - intros x H. apply Ht. clear - H. induction tf as [|[a y] tf IH]; [exact H|]. cbn [ddel] in H. destruct (str_eqb (t_name r) a); [right; exact H|].
      destruct H as [H|H]; [left; exact H|right; apply IH, H].
    - intros w' v'. rewrite (dget_dset str_eqb str_eqb_eq). destruct (str_eqb w' (t_name r)); [|apply Hr].
      intros [= <-]. apply (dget_In str_eqb str_eqb_eq) in E. exact (Ht _ E). }
  intros Ht. apply G; [exact Ht|discriminate].
Qed.

Lemma enum_weigh {A} k (l : list (A * Z)) : forall i, enum_from i (weigh k l) = map (fun it => (fst it, (fst (snd it), k * snd (snd it)))) (enum_from i l).
Proof. induction l as [|x l IH]; intros i; [reflexivity|]. cbn [weigh map enum_from fst snd]. f_equal. apply IH. Qed.

Lemma row_times k rs unk lc it : 0 < k -> t_freq (snd it) = -1 -> t_kids (snd it) = None ->
  (forall w v, dget str_eqb w rs = Some v -> 0 <= v) -> 0 <= unk -> 0 <= lc ->
  reserved_row (weigh k rs) (k * unk) (Some (k * lc)) it = times k (reserved_row rs unk (Some lc) it).
Proof.
  intros Hk Hf Hkids Hrs Hu Hl. destruct it as [idx [n l i f kids]]. cbn [snd t_freq t_kids] in Hf, Hkids. subst f kids.
  unfold reserved_row, dget_def. cbn [t_name]. rewrite weigh_get.
  assert (G : forall x, 0 <= x -> (if k * x =? 0 then MkType n l i (-1) None else with_freq (MkType n l i (-1) None) (k * x)) =
    times k (if x =? 0 then MkType n l i (-1) None else with_freq (MkType n l i (-1) None) x)).
  { intros x Hx. destruct (x =? 0) eqn:E.
    - apply Z.eqb_eq in E as ->. rewrite Z.mul_0_r. reflexivity.
    - apply Z.eqb_neq in E. assert (E1 : k * x =? 0 = false) by (apply Z.eqb_neq; nia). assert (E2 : x =? -1 = false) by (apply Z.eqb_neq; lia).
      rewrite E1. cbn [with_freq times]. rewrite E2. reflexivity. }
  set (v := match dget str_eqb n rs with Some v => v | None => 0 end).
  assert (Hv : 0 <= v) by (unfold v; destruct (dget str_eqb n rs) eqn:E; [exact (Hrs _ _ E)|lia]).
  replace (match match dget str_eqb n rs with Some v => Some (k * v) | None => None end with Some v => v | None => 0 end) with (k * v)
    by (unfold v; destruct (dget str_eqb n rs); [reflexivity|lia]).
  destruct (idx =? UNK_IDX), (existsb (Z.eqb idx) [BOS_IDX; EOS_IDX; CLS_IDX]); cbv zeta; rewrite <- ?Z.mul_add_distr_l; apply G; lia.
Qed.
Lemma filter_keeps {A} (p : A -> bool) l : (forall x, In x l -> p x = true) -> filter p l = l.
Proof.
  intros H. induction l as [|x l IH]; [reflexivity|]. cbn [filter]. rewrite H by (left; reflexivity). f_equal. apply IH. intros y Hy. apply H. right. exact Hy.
Qed.
Lemma zsum_nonneg (l : list (str * Z)) : (forall x, In x l -> 0 <= snd x) -> 0 <= zsum (map snd l).
Proof.
  induction l as [|x l IH]; intros H; [reflexivity|]. cbn [map]. unfold zsum in *. cbn [fold_right]. pose proof (H x (or_introl eq_refl)).
  specialize (IH (fun y Hy => H y (or_intror Hy))). lia.
Qed.
Theorem init_times A k level tf lc min_freq vs : 0 < k -> 0 <= lc -> (forall x, In x tf -> 1 <= snd x) ->
  get_init_vocab A level (weigh k tf) None (Some (k * lc)) (k * min_freq) vs = table_times k (get_init_vocab A level tf None (Some lc) min_freq vs).
Proof.
  intros Hk Hl Hpos. unfold get_init_vocab. rewrite pop_weigh. pose proof (pop_in tf) as Hin.
  assert (Hrs : forall w v, dget str_eqb w (fst (pop_reserved tf)) = Some v -> 0 <= v)
    by (intros w v; apply dget_pop_nonneg; intros x Hx; specialize (Hpos x Hx); lia).
  destruct (pop_reserved tf) as [rs tf1]. cbn [fst snd] in *. cbn [bind]. rewrite (weigh_sorted k tf1 Hk).
  set (s := sorted_desc snd tf1).
  assert (Hs : forall x, In x s -> 1 <= snd x).
  { intros x Hx. apply Hpos, Hin. eapply Permutation_in; [apply sorted_desc_perm|exact Hx]. }
  clearbody s. clear tf1 Hin.
  set (one := if min_freq >? 1 then (filter (fun tf0 => snd tf0 >=? min_freq) s, 0 + zsum (map snd (filter (fun tf0 => snd tf0 <? min_freq) s))) else (s, 0)).
  assert (E1 : (if k * min_freq >? 1 then (filter (fun tf0 => snd tf0 >=? k * min_freq) (weigh k s), 0 + zsum (map snd (filter (fun tf0 => snd tf0 <? k * min_freq) (weigh k s))))
    else (weigh k s, 0)) = (weigh k (fst one), k * snd one)).
  { rewrite (weigh_filter k _ (fun x => snd x >=? min_freq)).
    2:{ intros x _. cbn [snd]. rewrite !Z.geb_leb. apply Bool.eq_iff_eq_true. rewrite !Z.leb_le. nia. }
    rewrite (weigh_filter k _ (fun x => snd x <? min_freq)).
    2:{ intros x _. cbn [snd]. apply Bool.eq_iff_eq_true. rewrite !Z.ltb_lt. nia. }
    rewrite weigh_sum. unfold one. destruct (min_freq >? 1) eqn:E.
    - apply Z.gtb_lt in E. assert (E2 : k * min_freq >? 1 = true) by (apply Z.gtb_lt; nia). rewrite E2. cbn [fst snd]. f_equal; try lia.
    - rewrite Z.gtb_ltb in E. apply Z.ltb_ge in E. cbn [fst snd]. rewrite Z.mul_0_r. destruct (k * min_freq >? 1); [|reflexivity].
      assert (F1 : filter (fun x : str * Z => snd x >=? min_freq) s = s).
      { apply filter_keeps. intros x Hx. specialize (Hs x Hx). rewrite Z.geb_leb. apply Z.leb_le. lia. }
      assert (F2 : filter (fun x : str * Z => snd x <? min_freq) s = []).
      { clear F1. induction s as [|x s IH]; [reflexivity|]. cbn [filter]. pose proof (Hs x (or_introl eq_refl)).
        assert (E3 : snd x <? min_freq = false) by (apply Z.ltb_ge; lia). rewrite E3. apply IH. intros y Hy. apply Hs. right. exact Hy. }
      rewrite F1, F2. cbn. rewrite Z.mul_0_r. reflexivity. }
  rewrite E1. assert (H1 : (forall x, In x (fst one) -> 0 <= snd x) /\ 0 <= snd one).
  { unfold one. destruct (min_freq >? 1); cbn [fst snd].
    - split; [intros x Hx; apply filter_In in Hx; specialize (Hs x (proj1 Hx)); lia|]. rewrite Z.add_0_l. apply zsum_nonneg.
      intros x Hx. apply filter_In in Hx. specialize (Hs x (proj1 Hx)). lia.
    - split; [intros x Hx; specialize (Hs x Hx); lia|lia]. }
  clear E1. destruct one as [s1 u1]. cbn [fst snd] in *. destruct H1 as [H1 Hu1].
  set (two := if (vs >? 0) && (Z.of_nat (length with_reserved_types) + Z.of_nat (length s1) >? vs)
    then (py_take s1 (vs - Z.of_nat (length with_reserved_types)), u1 + zsum (map snd (py_drop s1 (vs - Z.of_nat (length with_reserved_types))))) else (s1, u1)).
  assert (E2 : (if (vs >? 0) && (Z.of_nat (length with_reserved_types) + Z.of_nat (length (weigh k s1)) >? vs)
    then (py_take (weigh k s1) (vs - Z.of_nat (length with_reserved_types)), k * u1 + zsum (map snd (py_drop (weigh k s1) (vs - Z.of_nat (length with_reserved_types)))))
    else (weigh k s1, k * u1)) = (weigh k (fst two), k * snd two)).
  { unfold two. replace (length (weigh k s1)) with (length s1) by (unfold weigh; rewrite map_length; reflexivity).
    destruct ((vs >? 0) && _); [|reflexivity]. rewrite weigh_take, weigh_drop, weigh_sum. cbn [fst snd]. f_equal. lia. }
  rewrite E2. assert (H2 : (forall x, In x (fst two) -> 0 <= snd x) /\ 0 <= snd two).
  { unfold two. destruct ((vs >? 0) && _); cbn [fst snd]; [|split; assumption]. split.
    - intros x Hx. apply H1. unfold py_take in Hx. rewrite <- (firstn_skipn (py_bound (length s1) (vs - Z.of_nat (length with_reserved_types))) s1). apply in_or_app. left. exact Hx.
    - assert (0 <= zsum (map snd (py_drop s1 (vs - Z.of_nat (length with_reserved_types))))); [|lia]. apply zsum_nonneg. intros x Hx. apply H1.
      unfold py_drop in Hx. rewrite <- (firstn_skipn (py_bound (length s1) (vs - Z.of_nat (length with_reserved_types))) s1). apply in_or_app. right. exact Hx. }
  clear E2. destruct two as [s2 u2]. cbn [fst snd] in *. destruct H2 as [H2 Hu2].
  cbn [table_times]. f_equal. rewrite map_app. f_equal.
  - rewrite map_map. apply map_ext_in. intros it Hit. apply row_times; try assumption; revert Hit; clear; vm_compute; intuition subst; reflexivity.
  - rewrite enum_weigh, !map_map. apply map_ext_in. intros [i [w f]] Hi. cbn [fst snd times].
    assert (Hf : 0 <= f).
    { clear - Hi H2. revert Hi. generalize (Z.of_nat (length with_reserved_types)). induction s2 as [|y s2 IH]; intros z Hi; [destruct Hi|].
      destruct Hi as [E|Hi]; [injection E as _ ->; exact (H2 _ (or_introl eq_refl))|]. apply (IH (fun x Hx => H2 x (or_intror Hx)) _ Hi). }
    assert (E : f =? -1 = false) by (apply Z.eqb_neq; lia). rewrite E. reflexivity.
Qed.

(** The counts of a text said k times. *)
Lemma counter_known toks : forall d : list (str * Z), NoDup (map fst d) -> (forall w, In w toks -> In w (map fst d)) ->
  counter_update str_eqb toks d = map (fun e => (fst e, snd e + occurrences (fst e) toks)) d.
Proof.
  unfold counter_update. induction toks as [|w toks IH]; intros d N H; cbn [fold_left].
  - symmetry. erewrite map_ext; [apply map_id|]. intros [a v]. cbn. rewrite Z.add_0_r. reflexivity.
  - assert (E : dadd str_eqb w 1 d = map (fun e => (fst e, snd e + if str_eqb (fst e) w then 1 else 0)) d).
    { specialize (H w (or_introl eq_refl)). clear IH. unfold dadd, dget_def. induction d as [|[a v] d IH]; [destruct H|].
      cbn [map fst] in N. apply NoDup_cons_iff in N. destruct N as [Na N]. cbn [dget dset map fst snd].
      rewrite (str_eqb_sym a w). destruct (str_eqb w a) eqn:E.
      - f_equal. apply str_eqb_eq in E as ->. rewrite <- (map_id d) at 1. apply map_ext_in. intros [b x] Hb. cbn [fst snd].
        assert (E : str_eqb b a = false) by (apply str_eqb_neq; intros ->; apply Na; apply (in_map fst) in Hb; exact Hb). rewrite E, Z.add_0_r. reflexivity.
      - rewrite Z.add_0_r. f_equal. apply IH; [exact N|]. destruct H as [H|H]; [|exact H]. cbn in H. subst a. rewrite str_eqb_refl in E. discriminate. }
    rewrite E. assert (Ef : map fst (map (fun e : str * Z => (fst e, snd e + if str_eqb (fst e) w then 1 else 0)) d) = map fst d) by (rewrite map_map; reflexivity).
    rewrite IH; [|rewrite Ef; exact N|rewrite Ef; intros x Hx; apply H; right; exact Hx]. rewrite map_map. apply map_ext. intros [a v]. cbn [fst snd].
    f_equal. unfold occurrences. cbn [count_occ]. destruct (str_dec w a) as [->|Hn]; [rewrite str_eqb_refl; lia|].
    assert (E3 : str_eqb a w = false) by (apply str_eqb_neq; congruence). rewrite E3. lia.
Qed.
Lemma counter_copies k toks : counter_update str_eqb (copies (S k) toks) [] = weigh (Z.of_nat (S k)) (counter_update str_eqb toks []).
Proof.
  induction k as [|k IH].
  - unfold copies. cbn [repeat concat]. rewrite app_nil_r. unfold weigh. symmetry. erewrite map_ext; [apply map_id|]. intros [a v]. cbn [fst snd]. f_equal. lia.
  - assert (E : copies (S (S k)) toks = copies (S k) toks ++ toks).
    { unfold copies. generalize (S k) as n. induction n as [|n IHn]; [cbn; rewrite app_nil_r; reflexivity|].
      change (toks ++ concat (repeat toks (S n)) = (toks ++ concat (repeat toks n)) ++ toks). rewrite IHn, app_assoc. reflexivity. }
    rewrite E. unfold counter_update at 1. rewrite fold_left_app.
    change (fold_left (fun d x => dadd str_eqb x 1 d) (copies (S k) toks) []) with (counter_update str_eqb (copies (S k) toks) []).
    rewrite IH. destruct (counter_exact toks) as [(N & K & _) V].
    change (fold_left (fun d x => dadd str_eqb x 1 d) toks ?d) with (counter_update str_eqb toks d).
    rewrite counter_known; [|rewrite weigh_fst; exact N|rewrite weigh_fst; intros w Hw; apply K, Hw].
    unfold weigh. rewrite map_map. apply map_ext_in. intros [w f] Hw. cbn [fst snd]. f_equal. rewrite <- (V _ _ Hw). lia.
Qed.
Lemma flat_map_copies {A B} (f : A -> list B) k l : flat_map f (copies k l) = copies k (flat_map f l).
Proof. unfold copies. induction k as [|k IH]; [reflexivity|]. cbn [repeat concat]. rewrite flat_map_app. f_equal. exact IH. Qed.
Theorem frequencies_times kd k data : term_frequencies kd (copies (S k) data) =
  (weigh (Z.of_nat (S k)) (fst (term_frequencies kd data)), Z.of_nat (S k) * snd (term_frequencies kd data)).
Proof.
  rewrite !term_frequencies_eq. cbn [fst snd]. rewrite flat_map_copies, counter_copies. f_equal. rewrite <- Nat2Z.inj_mul. f_equal.
  unfold copies. generalize (S k) as n. induction n as [|n IHn]; [reflexivity|]. cbn [repeat concat]. rewrite app_length, IHn. reflexivity.
Qed.
Lemma frequencies_positive kd data x : In x (fst (term_frequencies kd data)) -> 1 <= snd x.
Proof.
  rewrite term_frequencies_eq. cbn [fst]. destruct x as [w f]. intros H. pose proof (words_positive _ _ (counter_exact _) w f H). cbn [snd]. lia.
Qed.
Lemma frequencies_lines kd data : 0 <= snd (term_frequencies kd data).
Proof. rewrite term_frequencies_eq. cbn [snd]. lia. Qed.

Lemma times_plain k w l i f : 0 <= f -> times k (MkType w l i f None) = MkType w l i (k * f) None.
Proof. intros H. cbn [times]. assert (E : f =? -1 = false) by (apply Z.eqb_neq; lia). rewrite E. reflexivity. Qed.
Lemma sorted_asc_weigh k (l : list (str * Z)) : sorted_asc (weigh k l) = weigh k (sorted_asc l).
Proof.
  unfold sorted_asc. induction l as [|x l IH]; [reflexivity|]. cbn [weigh map fold_right]. fold (weigh k l). rewrite IH. generalize (fold_right insert_asc [] l) as m.
  induction m as [|y m IHm]; [reflexivity|]. cbn [weigh map insert_asc fst snd]. destruct (str_ltb (fst y) (fst x)); [|reflexivity]. cbn [map]. f_equal. exact IHm.
Qed.
Lemma sorted_asc_in (l : list (str * Z)) x : In x (sorted_asc l) -> In x l.
Proof.
  unfold sorted_asc. induction l as [|y l IH]; [exact (fun H => H)|]. cbn [fold_right]. intros H.
  assert (G : forall m, In x (insert_asc y m) -> x = y \/ In x m).
  { clear. induction m as [|z m IH]; [intros [->|[]]; left; reflexivity|]. cbn [insert_asc]. destruct (str_ltb (fst z) (fst y)).
    - intros [->|H]; [right; left; reflexivity|]. destruct (IH H) as [->|H']; [left; reflexivity|right; right; exact H'].
    - intros [->|H]; [left; reflexivity|right; exact H]. }
  destruct (G _ H) as [->|H']; [left; reflexivity|right; apply IH, H'].
Qed.
Lemma enum_in {A} (l : list A) : forall i it, In it (enum_from i l) -> In (snd it) l.
Proof. induction l as [|x l IH]; intros i it H; [destruct H|]. destruct H as [<-|H]; [left; reflexivity|right; apply (IH _ _ H)]. Qed.
Theorem flat_times A kd k data vs min_freq : kd = KWord \/ kd = KChar \/ kd = KClass ->
  learn_flat A kd (copies (S k) data) vs (Z.of_nat (S k) * min_freq) None false =
  table_times (Z.of_nat (S k)) (learn_flat A kd data vs min_freq None false).
Proof.
  intros H. assert (G : kd <> KByte) by (intros ->; destruct H as [H|[H|H]]; discriminate H).
  assert (P : forall x, In x (fst (term_frequencies kd data)) -> 1 <= snd x) by (intros x; apply frequencies_positive).
  pose proof (frequencies_lines kd data) as L. unfold learn_flat. rewrite frequencies_times. destruct (term_frequencies kd data) as [stats lc].
  cbn [fst snd] in *. set (K := Z.of_nat (S k)) in *. assert (HK : 0 < K) by (unfold K; lia). clearbody K.
  destruct H as [-> | [-> | -> ]]; cbn [bind]; [apply init_times; assumption|apply init_times; assumption|].
  cbn [table_times]. f_equal. unfold class_init_vocab, enumerate. rewrite sorted_asc_weigh, enum_weigh, !map_map. apply map_ext_in.
  intros it Hit. cbn [fst snd]. symmetry. apply times_plain. apply enum_in, sorted_asc_in, P in Hit. lia.
Qed.

(** Merging. *)
Lemma pair_count_times k c p : pair_count (weigh k c) p = k * pair_count c p.
Proof.
  unfold pair_count. induction c as [|[s f] c IH]; [cbn; lia|]. change (weigh k ((s, f) :: c)) with ((s, k * f) :: weigh k c).
  cbn [map fst snd]. rewrite !zsum_cons, IH. lia.
Qed.
Lemma best_times k c p f : 0 < k -> best c p f -> best (weigh k c) p (k * f).
Proof.
  intros Hk (H1 & H2 & H3). split; [rewrite pair_count_times, H1; reflexivity|]. split; [nia|]. intros q Hq. rewrite pair_count_times.
  destruct (H3 q Hq) as [H|[H Hl]]; [left; nia|right; split; [nia|exact Hl]].
Qed.
Lemma merged_times k a b r c c' : merged_corpus a b r c c' -> merged_corpus a b r (weigh k c) (weigh k c').
Proof. unfold merged_corpus. induction 1 as [|[s f] [s' f'] c c' [H1 H2] _ IH]; [constructor|]. constructor; [cbn in *; split; [congruence|exact H2]|exact IH]. Qed.
Theorem bpe_times k mco level n c t r : 0 < k -> bpe mco level n c t r -> bpe (k * mco) level n (weigh k c) (map (times k) t) (table_times k r).
Proof.
  intros Hk. induction 1 as [c t|n c t p f Hb Hf|n c t H|n c c' t a b f ta tb r Hb Hf Ha Ea Hb' Eb Hm _ IH].
  - apply bpe_done.
  - eapply bpe_rare; [apply best_times; eassumption|nia].
  - apply bpe_exhausted. intros p. rewrite pair_count_times, H. lia.
  - eapply bpe_merge with (ta := times k ta) (tb := times k tb) (c' := weigh k c'); [apply best_times; eassumption|nia|exact Ha|rewrite nth_error_map, Ea; reflexivity
      |exact Hb'|rewrite nth_error_map, Eb; reflexivity|rewrite map_length; apply merged_times, Hm|].
    rewrite map_app in IH. cbn [map times] in IH. destruct Hb as (_ & Hpos & _). assert (E : f =? -1 = false) by (apply Z.eqb_neq; lia). rewrite E in IH.
    rewrite map_length. replace (t_name (times k ta)) with (t_name ta) by (destruct ta; reflexivity).
    replace (t_name (times k tb)) with (t_name tb) by (destruct tb; reflexivity). exact IH.
Qed.
Lemma names_times k t : map t_name (map (times k) t) = map t_name t.
Proof. rewrite map_map. apply map_ext. intros []. reflexivity. Qed.
Lemma idxs_times k t : map t_idx (map (times k) t) = map t_idx t.
Proof. rewrite map_map. apply map_ext. intros []. reflexivity. Qed.
Lemma has_name_times k t w : has_name (map (times k) t) w <-> has_name t w.
Proof.
  unfold has_name. split.
  - intros (u & Hu & E). apply in_map_iff in Hu. destruct Hu as (v & Ev & Hv). exists v. split; [exact Hv|]. subst u. destruct v. exact E.
  - intros (u & Hu & E). exists (times k u). split; [apply in_map, Hu|]. destruct u. exact E.
Qed.
Lemma name_at_times k t i w : name_at (map (times k) t) i w <-> name_at t i w.
Proof.
  unfold name_at. rewrite nth_error_map. destruct (nth_error t (Z.to_nat i)) as [u|]; cbn [option_map].
  - split; intros (H & v & E & Ev); (split; [exact H|]); eexists; (split; [reflexivity|]); injection E as <-; destruct u; exact Ev.
  - split; intros (_ & v & E & _); discriminate E.
Qed.
Lemma id_of_times k t w i : id_of (map (times k) t) w i <-> id_of t w i.
Proof. unfold id_of. rewrite name_at_times, has_name_times. reflexivity. Qed.
Lemma indexed_times k t : well_indexed t -> well_indexed (map (times k) t).
Proof.
  intros H n u. rewrite nth_error_map. destruct (nth_error t n) as [v|] eqn:E; cbn [option_map]; [|discriminate]. intros [= <-]. rewrite <- (H _ _ E). destruct v. reflexivity.
Qed.
Lemma learnable_times k c t : 0 < k -> learnable c t -> learnable (weigh k c) (map (times k) t).
Proof.
  intros Hk [H1 H2 H3 H4 H5]. constructor.
  - apply indexed_times, H1.
  - unfold distinct_names. rewrite names_times. exact H2.
  - destruct c as [|[s f] c]; exact H3.
  - intros s f H. apply in_map_iff in H. destruct H as ([s' f'] & E & H). injection E as <- <-. specialize (H4 _ _ H). nia.
  - intros s f H. apply in_map_iff in H. destruct H as ([s' f'] & E & H). injection E as <- <-. rewrite map_length. exact (H5 _ _ H).
Qed.
Theorem codes_times orders1 orders2 k c vocab n mco level : 0 < k -> learnable c vocab -> iteration_orders orders1 -> iteration_orders orders2 ->
  same_until_double (map (times k) vocab) (learn_codes orders2 (weigh k c) (map (times k) vocab) n (k * mco) level)
    (table_times k (learn_codes orders1 c vocab n mco level)).
Proof.
  intros Hk Hl H1 H2. apply (bpe_deterministic (k * mco) level (Z.to_nat n) (weigh k c)).
  - apply learn_codes_refines; [apply learnable_times; assumption|exact H2].
  - apply bpe_times; [exact Hk|]. apply learn_codes_refines; assumption.
Qed.
Lemma spelled_times k init tfs c c' : distinct_names init -> spelled_corpus init tfs c -> spelled_corpus (map (times k) init) (weigh k tfs) c' -> c' = weigh k c.
Proof.
  intros Hd H. unfold spelled_corpus in *. revert c'. induction H as [|[w f] [s g] tfs c [H1 H2] _ IH]; intros c' H'; cbn [weigh map] in H'; inversion H' as [|? [s' g'] ? c'' [H3 H4] H5]; subst; [reflexivity|].
  cbn [weigh map fst snd] in *. subst g g'. f_equal; [f_equal|apply IH, H5]. clear - Hd H2 H4. revert s' H4.
  induction H2 as [|i ch s u Hi _ IH]; intros s' H4; inversion H4; subst; [reflexivity|]. f_equal; [|apply IH; assumption].
  eapply id_of_unique; [exact Hd|apply (id_of_times k); eassumption|exact Hi].
Qed.
Lemma char_freqs_weigh k tfs : char_freqs (weigh k tfs) = weigh k (char_freqs tfs).
Proof.
  unfold char_freqs. change (@nil (str * Z)) with (weigh k (@nil (str * Z))) at 1. generalize (@nil (str * Z)) as d.
  induction tfs as [|[w f] tfs IH]; intros d; [reflexivity|]. cbn [weigh map fold_left fst snd]. fold (weigh k tfs).
  assert (E : forall d, fold_left (fun d c => dadd str_eqb [c] (k * f) d) w (weigh k d) = weigh k (fold_left (fun d c => dadd str_eqb [c] f d) w d)).
  { clear. induction w as [|c w IH]; intros d; [reflexivity|]. cbn [fold_left]. rewrite weigh_add. apply IH. }
  rewrite E. apply IH.
Qed.
Lemma char_freqs_positive tfs x : (forall e, In e tfs -> 1 <= snd e) -> In x (char_freqs tfs) -> 1 <= snd x.
Proof.
  unfold char_freqs. intros H. assert (G : forall l d, (forall e, In e l -> 1 <= snd e) -> (forall y : str * Z, In y d -> 1 <= snd y) ->
    forall y, In y (fold_left (fun d tf => fold_left (fun d c => dadd str_eqb [c] (snd tf) d) (fst tf) d) l d) -> 1 <= snd y).
  { clear. assert (S : forall w v (d : list (str * Z)), 1 <= v -> (forall y, In y d -> 1 <= snd y) -> forall y, In y (dset str_eqb w v d) -> 1 <= snd y).
    { induction d as [|[a z] d IH]; intros Hv Hd y; cbn [dset]; [intros [<-|[]]; exact Hv|]. destruct (str_eqb w a).
      - intros [<-|Hy]; [exact Hv|apply Hd; right; exact Hy].
      - intros [<-|Hy]; [apply (Hd _ (or_introl eq_refl))|]. apply IH; auto. intros z' Hz. apply Hd. right. exact Hz. }
    induction l as [|[w f] l IH]; intros d Hl Hd; [exact Hd|]. cbn [fold_left fst snd]. apply IH; [intros e He; apply Hl; right; exact He|].
    specialize (Hl _ (or_introl eq_refl)). cbn [snd] in Hl. clear IH. revert d Hd. induction w as [|c w IHw]; intros d Hd; [exact Hd|]. cbn [fold_left]. apply IHw.
    apply S; [|exact Hd]. unfold dget_def. destruct (dget str_eqb [c] d) as [z|] eqn:E; [|lia]. apply (dget_In str_eqb str_eqb_eq) in E. apply Hd in E. cbn [snd] in E. lia. }
  apply G; [exact H|intros y []].
Qed.
Theorem text_times A orders1 orders2 k data toks vs mco : tokens_of KWord data toks -> toks <> [] -> 1 < vs \/ 1 < mco ->
  iteration_orders orders1 -> iteration_orders orders2 ->
  same_until_double [] (learn_bpe A orders2 (copies (S k) data) vs None (Z.of_nat (S k) * mco) false)
    (table_times (Z.of_nat (S k)) (learn_bpe A orders1 data vs None mco false)).
Proof.
  intros Ht Hne Hsz H1 H2. unfold learn_bpe. cbv zeta. rewrite frequencies_times.
  pose proof (frequencies_positive KWord data) as P. pose proof (frequencies_lines KWord data) as L. destruct (term_frequencies KWord data) as [tfs lc] eqn:Etf.
  destruct (term_frequencies_exact KWord data toks tfs lc Ht Etf) as [Hex _]. cbn [fst snd] in *. set (K := Z.of_nat (S k)) in *. assert (HK : 0 < K) by (unfold K; lia). clearbody K. clear Etf.
  assert (Es : (if (K * mco >? 1) && (vs <=? 1) then maxsize else vs) = (if (mco >? 1) && (vs <=? 1) then maxsize else vs)).
  { destruct (vs <=? 1) eqn:E; [|rewrite !andb_false_r; reflexivity]. apply Z.leb_le in E. assert (Hm : 1 < mco) by lia.
    assert (E1 : K * mco >? 1 = true) by (apply Z.gtb_lt; nia). assert (E2 : mco >? 1 = true) by (apply Z.gtb_lt; exact Hm). rewrite E1, E2. reflexivity. }
  rewrite Es. set (size := if (mco >? 1) && (vs <=? 1) then maxsize else vs) in *. clearbody size. clear Es Hsz.
  destruct (Z.gtb_spec size 0) as [Hpos|Hneg]; [|left; reflexivity]. cbn [assert_ bind].
  assert (Hnd : NoDup (map fst tfs)) by apply Hex. assert (Hnd' : NoDup (map fst (weigh K tfs))) by (rewrite weigh_fst; exact Hnd).
  assert (Hvs : size <> -1) by lia. assert (Hn : tfs <> []).
  { intros ->. destruct Hex as [[_ [Hin _]] _]. destruct toks as [|w toks]; [congruence|]. exact (proj2 (Hin w) (or_introl eq_refl)). }
  set (cf := char_freqs (map (fun wf => (fst wf ++ [MARK], snd wf)) tfs)).
  assert (Hcf : char_freqs (map (fun wf => (fst wf ++ [MARK], snd wf)) (weigh K tfs)) = weigh K cf).
  { unfold cf. rewrite <- char_freqs_weigh. f_equal. unfold weigh. rewrite !map_map. reflexivity. }
  assert (Hi : get_init_vocab A L_char (weigh K cf) None (Some (K * lc)) 1 (-1) = table_times K (get_init_vocab A L_char cf None (Some lc) 1 (-1))).
  { assert (Pc : forall x, In x cf -> 1 <= snd x).
    { intros x. apply char_freqs_positive. intros e He. apply in_map_iff in He. destruct He as (y & <- & Hy). exact (P y Hy). }
    pose proof (init_times A K L_char cf lc 0 (-1) HK L Pc) as G. rewrite Z.mul_0_r in G. exact G. }
  destruct (get_init_vocab A L_char cf None (Some lc) 1 (-1)) as [init|e] eqn:Ei.
  2:{ left. unfold learn_subwords. cbv zeta. fold (marked_words tfs). fold (marked_words (weigh K tfs)). rewrite (marked_words_eq _ Hnd), (marked_words_eq _ Hnd').
      rewrite Hcf, Hi. fold cf. rewrite Ei. reflexivity. }
  cbn [table_times] in Hi. rewrite <- Hcf in Hi.
  destruct (init_names A tfs None lc init Hnd Ei) as (L1 & L2 & L3 & _).
  destruct (learn_subwords_spec A orders1 tfs size mco None lc init Hnd Hvs Ei) as [[B1 E1]|(B1 & c & Hc & E1)];
    destruct (learn_subwords_spec A orders2 (weigh K tfs) size (K * mco) None (K * lc) _ Hnd' Hvs Hi) as [[B2 E2]|(B2 & c' & Hc' & E2)];
    rewrite map_length in *; try lia; rewrite E1, E2; [left; reflexivity|].
  rewrite (spelled_times K init tfs c c' L3 Hc Hc').
  destruct (codes_times orders1 orders2 K c init (size - Z.of_nat (length init)) mco L_subword HK (spelled_learnable init tfs c L1 L3 L2 Hc Hn (words_positive _ _ Hex)) H1 H2)
    as [E|(u & ty & s & T1 & T2 & T3)]; [left; exact E|]. right. exists (map (times K) init ++ u), ty, s. rewrite <- app_assoc. split; [exact T1|split; [exact T2|exact T3]].
Qed.
