(** Proofs about vocabularies of different sizes. *)
From Coq Require Import Strings.String.
From Verif Require Import Py PyLemmas PyStr StrSpec PyStrProofs CodecModel CodecSpec TrieProofs BpeProofs VocabFileModel VocabSpec VocabFileProofs LearnModel LearnSpec LearnProofs
     HeapModel HeapProofs BpeSpec LearnBpeModel LearnBpeProofs LearnBpeLoop LearnBpeIndex LearnBpeResults LearnBpeEnd GrowSpec.
Local Open Scope Z_scope.
Local Open Scope list_scope.

Lemma merge_pair_vocab order level a b v heap dirty st st1 : merge_pair order level a b v heap dirty st = Ok st1 ->
  exists nt, ls_vocab st1 = ls_vocab st ++ [nt] /\ t_freq nt = v /\ exists ka kb, t_kids nt = Some [ka; kb].
Proof.
  intros E. unfold merge_pair in E. cbv zeta in E. destruct (py_nth (ls_vocab st) a) as [ta|]; [|discriminate]. cbn [bind] in E.
  destruct (py_nth (ls_vocab st) b) as [tb|]; [|discriminate]. cbn [bind] in E.
  destruct (dget pair_eqb (a, b) (ls_ixs st)); [|discriminate].
  destruct (foldM _ _ _) as [ms|]; [|discriminate]. cbn [bind] in E.
  destruct (assert_ (ucount a (ms_uni ms) >=? 0)); [|discriminate]. cbn [bind] in E.
  destruct (assert_ (ucount b (ms_uni ms) >=? 0)); [|discriminate]. cbn [bind] in E.
  destruct (foldM _ _ _) as [[h d]|]; [|discriminate]. cbn [bind] in E. injection E as <-. cbn [ls_vocab].
  eexists. split; [reflexivity|]. cbn [t_freq t_kids]. split; [reflexivity|eauto].
Qed.

(** Fewer merges: the beginning of the same table. *)
Lemma loop_nest orders mco level fuel : forall i n1 n2 st st2, n1 <= n2 ->
  learn_loop fuel orders i n2 mco level st = Ok st2 ->
  exists st1, learn_loop fuel orders i n1 mco level st = Ok st1 /\
    ls_vocab st1 = firstn (length (ls_vocab st) + Z.to_nat (n1 - Z.of_nat i)) (ls_vocab st2).
Proof.
  induction fuel as [|fuel IH]; intros i n1 n2 st st2 Hle H.
  - pose proof H as H0. apply learn_loop_size in H0. destruct H0 as (new & E & _ & _).
    cbn [learn_loop] in *. destruct (Z.leb_spec n2 (Z.of_nat i)); [|discriminate].
    rewrite (proj2 (Z.leb_le n1 (Z.of_nat i))) by lia. exists st. split; [reflexivity|].
    replace (Z.to_nat (n1 - Z.of_nat i)) with 0%nat by lia. rewrite E, Nat.add_0_r, firstn_app, firstn_all, Nat.sub_diag. cbn. rewrite app_nil_r. reflexivity.
  - pose proof H as H0. apply learn_loop_size in H0. destruct H0 as (new & E & Hnew & _).
    cbn [learn_loop] in *. destruct (Z.leb_spec n1 (Z.of_nat i)) as [H1|H1].
    { exists st. split; [reflexivity|]. replace (Z.to_nat (n1 - Z.of_nat i)) with 0%nat by lia.
      rewrite E, Nat.add_0_r, firstn_app, firstn_all, Nat.sub_diag. cbn. rewrite app_nil_r. reflexivity. }
    rewrite (proj2 (Z.leb_gt n2 (Z.of_nat i))) in H by lia.
    destruct (pop_clean _ _ _) as [[[[p v] heap] dirty]|]; [|discriminate]. cbn [bind] in *.
    destruct (v <? mco).
    + injection H as <-. eexists. split; [reflexivity|]. cbn [ls_vocab]. rewrite firstn_all2; [reflexivity|lia].
    + destruct (merge_pair (orders i) level (fst p) (snd p) v heap dirty st) as [st'|] eqn:Em; [|discriminate]. cbn [bind] in *.
      destruct (merge_pair_vocab _ _ _ _ _ _ _ _ _ Em) as (nt & Ev & _).
      destruct (IH (S i) n1 n2 st' st2 Hle H) as (st1 & E1 & E2). exists st1. split; [exact E1|]. rewrite E2, Ev, app_length. cbn [length].
      f_equal. lia.
Qed.
Lemma codes_nest orders seqs vocab n1 n2 mco level t2 : n1 <= n2 ->
  learn_codes orders seqs vocab n2 mco level = Ok t2 ->
  learn_codes orders seqs vocab n1 mco level = Ok (firstn (length vocab + Z.to_nat n1) t2).
Proof.
  intros Hle. unfold learn_codes, learn_codes_state. destruct (bpe_init seqs vocab) as [ix|]; [|discriminate]. cbn [bind].
  destruct (mh_init pair_ltb (ix_bi ix)) as [heap|]; [|discriminate]. cbn [bind].
  destruct (learn_loop _ _ _ n2 _ _ _) as [st|] eqn:E; [|discriminate]. cbn [bind]. intros H. injection H as <-.
  destruct (loop_nest _ _ _ _ _ n1 n2 _ _ Hle E) as (st1 & E1 & E2). rewrite E1. cbn [bind]. rewrite E2. cbn [ls_vocab Z.of_nat]. rewrite Z.sub_0_r. reflexivity.
Qed.

(** A higher threshold: the merges before the first pair below it. *)
Fixpoint take_freq (m : Z) (l : list Typ) : list Typ :=
  match l with [] => [] | t :: l' => if m <=? t_freq t then t :: take_freq m l' else [] end.
Lemma loop_cut orders m1 m2 level fuel n : forall i st st1 new, m1 <= m2 ->
  learn_loop fuel orders i n m1 level st = Ok st1 -> ls_vocab st1 = ls_vocab st ++ new ->
  exists st2, learn_loop fuel orders i n m2 level st = Ok st2 /\ ls_vocab st2 = ls_vocab st ++ take_freq m2 new.
Proof.
  induction fuel as [|fuel IH]; intros i st st1 new Hle H E; cbn [learn_loop] in *.
  - destruct (Z.leb_spec n (Z.of_nat i)); [|discriminate]. injection H as <-.
    assert (new = []) as -> by (rewrite <- (app_nil_r (ls_vocab st)) in E at 1; apply app_inv_head in E; auto).
    exists st. rewrite app_nil_r. auto.
  - destruct (Z.leb_spec n (Z.of_nat i)) as [H1|H1].
    { injection H as <-. assert (new = []) as -> by (rewrite <- (app_nil_r (ls_vocab st)) in E at 1; apply app_inv_head in E; auto).
      exists st. rewrite app_nil_r. auto. }
    destruct (pop_clean _ _ _) as [[[[p v] heap] dirty]|]; [|discriminate]. cbn [bind] in *.
    destruct (Z.ltb_spec v m1) as [Hv|Hv].
    + rewrite (proj2 (Z.ltb_lt v m2)) by lia. injection H as <-. cbn [ls_vocab] in E.
      assert (new = []) as -> by (rewrite <- (app_nil_r (ls_vocab st)) in E at 1; apply app_inv_head in E; auto).
      eexists. split; [reflexivity|]. cbn [ls_vocab take_freq]. rewrite app_nil_r. reflexivity.
    + destruct (merge_pair (orders i) level (fst p) (snd p) v heap dirty st) as [st'|] eqn:Em; [|discriminate]. cbn [bind] in *.
      destruct (merge_pair_vocab _ _ _ _ _ _ _ _ _ Em) as (nt & Ev & Ef & _).
      pose proof H as H0. apply learn_loop_size in H0. destruct H0 as (new' & E' & _ & _).
      rewrite Ev, <- app_assoc in E'. rewrite E' in E. apply app_inv_head in E. cbn [app] in E. subst new. cbn [take_freq]. rewrite Ef.
      destruct (Z.ltb_spec v m2) as [Hv2|Hv2].
      * rewrite (proj2 (Z.leb_gt m2 v)) by lia. eexists. split; [reflexivity|]. cbn [ls_vocab]. rewrite app_nil_r. reflexivity.
      * rewrite (proj2 (Z.leb_le m2 v)) by lia.
        destruct (IH (S i) st' st1 new' Hle H) as (st2 & F1 & F2); [rewrite E', Ev, <- app_assoc; reflexivity|].
        exists st2. split; [exact F1|]. rewrite F2, Ev, <- app_assoc. reflexivity.
Qed.
Lemma codes_cut orders seqs vocab n m1 m2 level new : m1 <= m2 ->
  learn_codes orders seqs vocab n m1 level = Ok (vocab ++ new) ->
  learn_codes orders seqs vocab n m2 level = Ok (vocab ++ take_freq m2 new).
Proof.
  intros Hle. unfold learn_codes, learn_codes_state. destruct (bpe_init seqs vocab) as [ix|]; [|discriminate]. cbn [bind].
  destruct (mh_init pair_ltb (ix_bi ix)) as [heap|]; [|discriminate]. cbn [bind].
  destruct (learn_loop _ _ _ n m1 _ _) as [st|] eqn:E; [|discriminate]. cbn [bind]. intros H. injection H as H.
  destruct (loop_cut _ m1 m2 _ _ _ _ _ _ new Hle E) as (st2 & E1 & E2); [exact H|]. rewrite E1. cbn [bind]. rewrite E2. reflexivity.
Qed.
Lemma take_freq_filter m l : (forall i j x y, (i <= j)%nat -> nth_error l i = Some x -> nth_error l j = Some y -> t_freq y <= t_freq x) ->
  take_freq m l = filter (fun t => m <=? t_freq t) l.
Proof.
  induction l as [|t l IH]; intros H; [reflexivity|]. cbn [take_freq filter].
  assert (Hl : forall i j x y, (i <= j)%nat -> nth_error l i = Some x -> nth_error l j = Some y -> t_freq y <= t_freq x).
  { intros i j x y Hij H1 H2. apply (H (S i) (S j) x y); [lia|exact H1|exact H2]. }
  destruct (Z.leb_spec m (t_freq t)) as [Hm|Hm]; [rewrite IH by exact Hl; reflexivity|].
  symmetry. apply filter_nil. intros x Hx. apply In_nth_error in Hx. destruct Hx as (j & Hj).
  pose proof (H 0%nat (S j) t x ltac:(lia) eq_refl Hj). apply Z.leb_gt. lia.
Qed.

(** Learning is counting and spelling, whatever the size, the threshold and the orders, then merging. *)
Lemma learn_bpe_parts A data cov (is_tf : bool) :
  (exists e, forall orders vs mco, 0 < effective_size vs mco -> learn_bpe A orders data vs cov mco is_tf = Raise e) \/
  exists init c, (6 <= length init)%nat /\ (forall t, In t init -> t_kids t = None) /\
    (is_tf = false -> c = [] \/ learnable c init) /\
    forall orders vs mco, 0 < effective_size vs mco ->
      learn_bpe A orders data vs cov mco is_tf =
      if Z.of_nat (length init) <? effective_size vs mco
      then learn_codes orders c init (effective_size vs mco - Z.of_nat (length init)) mco L_subword
      else Raise AssertionError.
Proof.
  destruct (if is_tf then read_term_freqs data else Ok (term_frequencies KWord data)) as [[tfs lc]|e] eqn:Etf.
  2:{ left. exists e. intros orders vs mco Hp. unfold learn_bpe. cbv zeta.
      change (if (mco >? 1) && (vs <=? 1) then maxsize else vs) with (effective_size vs mco).
      rewrite (proj2 (Z.gtb_lt _ 0)) by lia. cbn [assert_ bind]. rewrite Etf. reflexivity. }
  pose proof (stats_NoDup _ _ _ _ _ Etf) as Hnd.
  destruct (get_init_vocab A L_char (char_freqs (map (fun wf => (fst wf ++ [MARK], snd wf)) tfs)) cov (Some lc) 1 (-1)) as [init|e] eqn:Hi.
  2:{ left. exists e. intros orders vs mco Hp. unfold learn_bpe. cbv zeta.
      change (if (mco >? 1) && (vs <=? 1) then maxsize else vs) with (effective_size vs mco).
      rewrite (proj2 (Z.gtb_lt _ 0)) by lia. cbn [assert_ bind]. rewrite Etf. cbn [bind].
      unfold learn_subwords. cbv zeta. fold (marked_words tfs). rewrite (marked_words_eq tfs Hnd), Hi. reflexivity. }
  destruct (init_names A tfs cov lc init Hnd Hi) as (L1 & L2 & L3 & L4 & L5 & L6).
  destruct (make_idxs_spec init tfs L1 L3 L2 (init_name_shape init L1 L5)) as (c & E & Hc).
  right. exists init, c. split.
  { unfold starts_reserved in L1. assert (H6 := f_equal (@length _) L1). rewrite firstn_length, map_length in H6.
    change (length reserved_names) with 6%nat in H6. lia. }
  split; [intros t Ht; apply In_nth_error in Ht; destruct Ht as (n & Hn); apply (L4 n t Hn)|]. split.
  { intros ->. injection Etf as Etf. destruct tfs as [|wf tfs].
    - left. inversion Hc. reflexivity.
    - right. apply (spelled_learnable init (wf :: tfs) c L1 L3 L2 Hc); [discriminate|].
      destruct (term_frequencies_exact KWord data _ (wf :: tfs) lc (tokens_of_exist KWord data (or_introl eq_refl)) Etf) as [Hex _]. apply (words_positive _ _ Hex). }
  intros orders vs mco Hp. unfold learn_bpe. cbv zeta.
  change (if (mco >? 1) && (vs <=? 1) then maxsize else vs) with (effective_size vs mco).
  rewrite (proj2 (Z.gtb_lt _ 0)) by lia. cbn [assert_ bind]. rewrite Etf. cbn [bind].
  unfold learn_subwords. cbv zeta. fold (marked_words tfs). rewrite (marked_words_eq tfs Hnd), Hi. cbn [bind].
  assert (Hvs : effective_size vs mco <> -1) by lia.
  rewrite (proj2 (Z.eqb_neq _ (-1)) Hvs). unfold learn_codes_words. cbv zeta. rewrite (rev_idx_eq init L3).
  rewrite map_length, Nat.eqb_refl. cbn [assert_ bind]. rewrite Z.gtb_ltb. destruct (Z.of_nat (length init) <? effective_size vs mco); [|reflexivity].
  cbn [assert_ bind]. rewrite E. reflexivity.
Qed.

Lemma filter_pairs (new : list Typ) : Forall (fun t => t_level t = L_subword /\ exists a b, t_kids t = Some [a; b]) new -> filter basic new = [].
Proof.
  intros H. apply filter_nil. intros t Ht. rewrite Forall_forall in H. destruct (H t Ht) as (_ & a & b & E). unfold basic. rewrite E. reflexivity.
Qed.
Lemma basics_grown init new : (forall t, In t init -> t_kids t = None) ->
  Forall (fun t => t_level t = L_subword /\ exists a b, t_kids t = Some [a; b]) new -> basics (init ++ new) = length init.
Proof.
  intros H1 H2. unfold basics. rewrite filter_app, (filter_pairs new H2), app_nil_r, filter_true; [reflexivity|].
  intros t Ht. unfold basic. rewrite (H1 t Ht). reflexivity.
Qed.

Theorem bpe_sizes A orders data cov mco is_tf vs1 vs2 t2 :
  0 < effective_size vs1 mco <= effective_size vs2 mco ->
  learn_bpe A orders data vs2 cov mco is_tf = Ok t2 ->
  learn_bpe A orders data vs1 cov mco is_tf =
    if effective_size vs1 mco <=? Z.of_nat (basics t2) then Raise AssertionError
    else Ok (firstn (Z.to_nat (effective_size vs1 mco)) t2).
Proof.
  intros [H1 H2] H. destruct (learn_bpe_parts A data cov is_tf) as [(e & Hraise)|(init & c & Hlen & Hk & _ & Hparts)].
  - rewrite Hraise in H by lia. discriminate.
  - rewrite Hparts in H by lia. rewrite Hparts by lia.
    destruct (Z.ltb_spec (Z.of_nat (length init)) (effective_size vs2 mco)) as [Hlt2|]; [|discriminate].
    pose proof H as H0. apply learn_codes_size in H0. destruct H0 as (new & E & _ & Hall).
    assert (Eb : basics t2 = length init) by (rewrite E; apply basics_grown; assumption). rewrite Eb.
    destruct (Z.ltb_spec (Z.of_nat (length init)) (effective_size vs1 mco)) as [Hlt|Hge].
    + rewrite (proj2 (Z.leb_gt _ _)) by lia. rewrite (codes_nest orders c init _ _ mco L_subword t2 ltac:(apply Z.sub_le_mono_r; exact H2) H).
      do 2 f_equal. lia.
    + rewrite (proj2 (Z.leb_le _ _)) by lia. reflexivity.
Qed.

(** Two runs: the same beginning unless a symbol is merged with itself. *)
Theorem bpe_sizes_runs A orders1 orders2 data cov mco vs1 vs2 t1 t2 :
  iteration_orders orders1 -> iteration_orders orders2 ->
  effective_size vs1 mco <= effective_size vs2 mco ->
  learn_bpe A orders1 data vs1 cov mco false = Ok t1 -> learn_bpe A orders2 data vs2 cov mco false = Ok t2 ->
  t1 = firstn (length t1) t2 \/ exists u ty v1 v2, doubled ty /\ t1 = u ++ ty :: v1 /\ t2 = u ++ ty :: v2.
Proof.
  intros O1 O2 Hle H1 H2.
  assert (Hp : 0 < effective_size vs1 mco).
  { unfold learn_bpe in H1. cbv zeta in H1. change (if (mco >? 1) && (vs1 <=? 1) then maxsize else vs1) with (effective_size vs1 mco) in H1.
    destruct (Z.gtb_spec (effective_size vs1 mco) 0); [lia|discriminate]. }
  pose proof (bpe_sizes A orders2 data cov mco false vs1 vs2 t2 (conj Hp Hle) H2) as Hs.
  destruct (learn_bpe_parts A data cov false) as [(e & Hraise)|(init & c & Hlen & Hk & Hl & Hparts)].
  { rewrite Hraise in H1 by lia. discriminate. }
  rewrite Hparts in H1 by lia. rewrite Hparts in Hs by lia. rewrite Hparts in H2 by lia.
  destruct (Z.ltb_spec (Z.of_nat (length init)) (effective_size vs1 mco)) as [Hlt|]; [|discriminate].
  rewrite (proj2 (Z.ltb_lt _ _)) in H2 by lia.
  assert (Eb : basics t2 = length init).
  { pose proof H2 as H0. apply learn_codes_size in H0. destruct H0 as (new & E & _ & Hall). rewrite E. apply basics_grown; assumption. }
  rewrite Eb, (proj2 (Z.leb_gt _ _)) in Hs by lia.
  destruct (Hl eq_refl) as [->|Hlearn]; [apply learn_codes_empty in H1; destruct H1|].
  pose proof (learn_codes_refines orders1 c init (effective_size vs1 mco - Z.of_nat (length init)) mco L_subword Hlearn O1) as B1.
  pose proof (learn_codes_refines orders2 c init (effective_size vs1 mco - Z.of_nat (length init)) mco L_subword Hlearn O2) as B2.
  rewrite H1 in B1. rewrite Hs in B2.
  destruct (bpe_deterministic _ _ _ _ _ _ B1 _ B2) as [E|(u & ty & k & Ek & X1 & X2)].
  - left. injection E as E. rewrite E, firstn_length. destruct (Nat.le_ge_cases (Z.to_nat (effective_size vs1 mco)) (length t2)) as [Hc|Hc].
    + rewrite Nat.min_l by exact Hc. reflexivity.
    + rewrite Nat.min_r, firstn_all by exact Hc. apply firstn_all2. exact Hc.
  - right. destruct (X1 t1 eq_refl) as (v1 & E1). destruct (X2 _ eq_refl) as (v2 & E2).
    exists (init ++ u), ty, v1, (v2 ++ skipn (Z.to_nat (effective_size vs1 mco)) t2). split; [exists k; exact Ek|]. split.
    + rewrite E1, <- !app_assoc. reflexivity.
    + rewrite <- (firstn_skipn (Z.to_nat (effective_size vs1 mco)) t2) at 1. rewrite E2, <- !app_assoc. reflexivity.
Qed.

(** A higher threshold leaves out the rarer merges. *)
Theorem bpe_thresholds A orders data cov m1 m2 vs t1 :
  iteration_orders orders -> m1 <= m2 -> effective_size vs m1 = effective_size vs m2 ->
  learn_bpe A orders data vs cov m1 false = Ok t1 ->
  learn_bpe A orders data vs cov m2 false = Ok (at_least m2 t1).
Proof.
  intros Ho Hm Hsz H.
  assert (Hp : 0 < effective_size vs m1).
  { unfold learn_bpe in H. cbv zeta in H. change (if (m1 >? 1) && (vs <=? 1) then maxsize else vs) with (effective_size vs m1) in H.
    destruct (Z.gtb_spec (effective_size vs m1) 0); [lia|discriminate]. }
  destruct (learn_bpe_parts A data cov false) as [(e & Hraise)|(init & c & Hlen & Hk & Hl & Hparts)].
  { rewrite Hraise in H by lia. discriminate. }
  rewrite Hparts in H by lia. rewrite Hparts by lia. rewrite <- Hsz.
  destruct (Z.ltb_spec (Z.of_nat (length init)) (effective_size vs m1)) as [Hlt|]; [|discriminate].
  destruct (Hl eq_refl) as [->|Hlearn]; [apply learn_codes_empty in H; destruct H|].
  pose proof H as H0. apply learn_codes_size in H0. destruct H0 as (new & E & _ & Hall). subst t1.
  rewrite (codes_cut orders c init _ m1 m2 L_subword new Hm H). f_equal.
  pose proof (learn_codes_refines orders c init (effective_size vs m1 - Z.of_nat (length init)) m1 L_subword Hlearn Ho) as B. rewrite H in B.
  destruct (pair_count_bounded c (positive_nonnegative _ (l_pos _ _ Hlearn))) as (F & HF).
  destruct (bpe_structure _ _ _ _ _ _ B (l_pos _ _ Hlearn) (l_range _ _ Hlearn) F HF _ eq_refl) as (new' & En & _ & _ & Hmono).
  unfold at_least. rewrite filter_app, (filter_true _ init).
  - f_equal. rewrite take_freq_filter.
    + apply filter_ext_in. intros t Ht. rewrite Forall_forall in Hall. destruct (Hall t Ht) as (_ & a & b & Ek). unfold basic. rewrite Ek. reflexivity.
    + intros i j x y Hij Hx Hy. apply (Hmono (length init + i)%nat (length init + j)%nat x y); [lia|lia| |].
      * rewrite nth_error_app2 by lia. replace (length init + i - length init)%nat with i by lia. exact Hx.
      * rewrite nth_error_app2 by lia. replace (length init + j - length init)%nat with j by lia. exact Hy.
  - intros t Ht. unfold basic. rewrite (Hk t Ht). reflexivity.
Qed.

(** ** Flat vocabularies *)
Lemma init_base A level tf cov lc :
  (exists e, forall mf vs, get_init_vocab A level tf cov lc mf vs = Raise e) \/
  exists rst s, desc snd s /\ forall mf vs, vs <= 0 \/ 6 <= vs -> exists unk,
    get_init_vocab A level tf cov lc mf vs = Ok (head_rows rst unk lc ++ rows level 6 (lim vs (filter (fun e => frequent mf (snd e)) s))).
Proof.
  unfold get_init_vocab. destruct (pop_reserved tf) as [rst tf'].
  destruct (match cov with Some c => filter_types_coverage A tf' c | None => Ok (tf', 0) end) as [[c u]|e].
  2:{ left. exists e. reflexivity. }
  right. exists rst, (sorted_desc snd c). split; [apply sorted_desc_desc|]. intros mf vs Hvs. cbn [bind]. cbv zeta.
  change (Z.of_nat (length with_reserved_types)) with 6.
  set (s := sorted_desc snd c).
  assert (G : forall l v, exists unk, (let '(tfs, unk_count) := if (vs >? 0) && (6 + Z.of_nat (length l) >? vs)
      then (py_take l (vs - 6), v + zsum (map snd (py_drop l (vs - 6)))) else (l, v) in
      Ok (map (reserved_row rst unk_count lc) (enumerate with_reserved_types) ++
          map (fun it => MkType (fst (snd it)) level (fst it) (snd (snd it)) None) (enum_from 6 tfs))) =
      Ok (head_rows rst unk lc ++ rows level 6 (lim vs l))).
  { intros l v. unfold lim. destruct (Z.leb_spec vs 0) as [Hl|Hl].
    - replace (vs >? 0) with false by lia. exists v. reflexivity.
    - replace (vs >? 0) with true by lia. rewrite andb_true_l. destruct (6 + Z.of_nat (length l) >? vs) eqn:E.
      + eexists. unfold py_take, py_bound at 1. replace (0 <=? vs - 6) with true by lia.
        rewrite Nat.min_l by lia. reflexivity.
      + exists v. rewrite firstn_all2 by lia. reflexivity. }
  destruct (mf >? 1) eqn:Em.
  - replace (filter (fun e : str * Z => frequent mf (snd e)) s) with (filter (fun tf0 : str * Z => snd tf0 >=? mf) s).
    + apply G.
    + apply filter_ext. intros [a b]. unfold frequent. cbn [snd]. lia.
  - replace (filter (fun e : str * Z => frequent mf (snd e)) s) with s.
    + apply G.
    + symmetry. apply filter_true. intros [a b] _. unfold frequent. cbn [snd]. lia.
Qed.

Lemma rows_firstn level n l : forall k, rows level k (firstn n l) = firstn n (rows level k l).
Proof. revert n. induction l as [|x l IH]; intros [|n] k; try reflexivity. unfold rows in *. cbn [firstn enum_from map]. rewrite IH. reflexivity. Qed.
Lemma rows_lim level vs l k : rows level k (lim vs l) = lim vs (rows level k l).
Proof. unfold lim. destruct (vs <=? 0); [reflexivity|apply rows_firstn]. Qed.
Lemma rows_filter level mf l : desc snd l -> forall k, rows level k (filter (fun e => frequent mf (snd e)) l) = filter (fun t => frequent mf (t_freq t)) (rows level k l).
Proof.
  induction 1 as [|x l Hx Hl IH]; intros k; [reflexivity|]. unfold rows in *. cbn [filter enum_from map fst snd t_freq].
  destruct (frequent mf (snd x)) eqn:E; [cbn [enum_from map fst snd]; rewrite IH; reflexivity|].
  rewrite (filter_nil (fun e : str * Z => frequent mf (snd e)) l).
  - symmetry. apply filter_nil. intros t Ht. apply in_map_iff in Ht. destruct Ht as ([i e] & <- & Hin). cbn [t_freq fst snd].
    assert (He : In e l). { clear - Hin. revert Hin. generalize (k + 1). induction l as [|y l IH]; intros j H; [destruct H|]. destruct H as [H|H]; [left; congruence|right; exact (IH _ H)]. }
    apply Hx in He. unfold frequent in *. lia.
  - intros e He. apply Hx in He. unfold frequent in *. lia.
Qed.
Lemma desc_filter {A} (key : A -> Z) p l : desc key l -> desc key (filter p l).
Proof. induction 1 as [|x l Hx Hl IH]; [constructor|]. cbn [filter]. destruct (p x); [|exact IH]. constructor; [|exact IH]. intros y Hy. apply filter_In in Hy. apply Hx, Hy. Qed.
Lemma filter_firstn_desc mf n (l : list (str * Z)) : desc snd l ->
  filter (fun e => frequent mf (snd e)) (firstn n l) = firstn n (filter (fun e => frequent mf (snd e)) l).
Proof.
  intros H. revert n. induction H as [|x l Hx Hl IH]; intros [|n]; try reflexivity. cbn [firstn filter].
  destruct (frequent mf (snd x)) eqn:E; [cbn [firstn]; rewrite IH; reflexivity|].
  rewrite (filter_nil _ l), (filter_nil _ (firstn n l)); [reflexivity| |].
  - intros e He. assert (In e l) by (rewrite <- (firstn_skipn n l); apply in_app_iff; left; exact He). apply Hx in H. unfold frequent in *. lia.
  - intros e He. apply Hx in He. unfold frequent in *. lia.
Qed.
Lemma desc_firstn {A} (key : A -> Z) n l : desc key l -> desc key (firstn n l).
Proof.
  intros H. revert n. induction H as [|x l Hx Hl IH]; intros [|n]; try constructor; [|apply IH].
  intros y Hy. apply Hx. rewrite <- (firstn_skipn n l). apply in_app_iff. left. exact Hy.
Qed.

Lemma head_firstn rst u lc l : firstn 6 (head_rows rst u lc ++ l) = head_rows rst u lc.
Proof. rewrite firstn_app, firstn_all2, head_length by (rewrite head_length; apply le_n). apply app_nil_r. Qed.
Lemma head_skipn rst u lc l : skipn 6 (head_rows rst u lc ++ l) = l.
Proof. rewrite skipn_app, skipn_all2, head_length by (rewrite head_length; apply le_n). reflexivity. Qed.
Theorem init_nest A level tf cov lc mf1 mf2 vs1 vs2 t2 :
  vs2 <= 0 /\ (vs1 <= 0 \/ 6 <= vs1) \/ 6 <= vs1 <= vs2 -> mf2 <= mf1 ->
  get_init_vocab A level tf cov lc mf2 vs2 = Ok t2 ->
  exists t1, get_init_vocab A level tf cov lc mf1 vs1 = Ok t1 /\
    map t_name (firstn 6 t1) = map t_name (firstn 6 t2) /\
    skipn 6 t1 = lim vs1 (filter (fun t => frequent mf1 (t_freq t)) (skipn 6 t2)).
Proof.
  intros Hvs Hmf H. destruct (init_base A level tf cov lc) as [(e & Hr)|(rst & s & Hd & Hs)]; [rewrite Hr in H; discriminate|].
  destruct (Hs mf2 vs2 ltac:(lia)) as (u2 & E2). destruct (Hs mf1 vs1 ltac:(lia)) as (u1 & E1).
  rewrite E2 in H. apply Ok_inj in H. subst t2. eexists. split; [exact E1|].
  rewrite !head_firstn, !head_skipn, !head_names. split; [reflexivity|].
  set (p1 := fun e : str * Z => frequent mf1 (snd e)). set (p2 := fun e : str * Z => frequent mf2 (snd e)).
  assert (Ef : filter p1 (filter p2 s) = filter p1 s).
  { rewrite filter_filter. apply filter_ext. intros [a b]. unfold p1, p2, frequent. cbn [snd]. lia. }
  assert (Hd2 : desc snd (lim vs2 (filter p2 s))).
  { unfold lim. destruct (vs2 <=? 0); [|apply desc_firstn]; apply desc_filter, Hd. }
  rewrite <- (rows_filter level mf1 _ Hd2), <- rows_lim. f_equal. fold p1.
  unfold lim at 1 2. destruct (Z.leb_spec vs2 0) as [H2|H2].
  - unfold lim. destruct (vs2 <=? 0) eqn:E; [rewrite Ef; reflexivity|lia].
  - rewrite (proj2 (Z.leb_gt vs1 0)) by lia. unfold lim. rewrite (proj2 (Z.leb_gt vs2 0)) by lia. unfold p1 at 2. rewrite filter_firstn_desc by (apply desc_filter, Hd).
    fold p1. rewrite Ef, firstn_firstn. f_equal. lia.
Qed.
Theorem flat_nest A k data cov is_tf mf1 mf2 vs1 vs2 t2 : k = KWord \/ k = KChar ->
  vs2 <= 0 /\ (vs1 <= 0 \/ 6 <= vs1) \/ 6 <= vs1 <= vs2 -> mf2 <= mf1 ->
  learn_flat A k data vs2 mf2 cov is_tf = Ok t2 ->
  exists t1, learn_flat A k data vs1 mf1 cov is_tf = Ok t1 /\
    map t_name (firstn 6 t1) = map t_name (firstn 6 t2) /\
    skipn 6 t1 = lim vs1 (filter (fun t => frequent mf1 (t_freq t)) (skipn 6 t2)).
Proof.
  intros Hk Hvs Hmf. unfold learn_flat.
  destruct (if is_tf then read_term_freqs data else Ok (term_frequencies k data)) as [[stats n]|]; [|destruct Hk as [-> | ->]; discriminate].
  destruct Hk as [-> | ->]; cbn [bind]; apply init_nest; assumption.
Qed.
