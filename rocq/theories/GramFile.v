(** The file of termfreq, read back by pr_measure as its --freqs. *)
From Coq Require Import Strings.String QArith Lia Sorting.Sorted.
From Verif Require Import Py PyLemmas PyStr NumProofs StrSpec PyStrProofs BatchModel Utf8Model JsonModel JsonProofs CodecModel CodecSpec FlatProofs BpeProofs
     VocabFileModel VocabFileProofs MapredModel MapredProofs EvalModel EvalSpec EvalProofs PropsMapred GramModel JsonRawProofs GramSpec.
From Coq Require Import ZifyBool ZifyN.
Local Open Scope list_scope.

(** *** A line *)
Lemma quoted_esc s : quoted s (flat_map esc_raw s).
Proof.
  induction s as [|c s IH]; [constructor|]. cbn [flat_map]. unfold esc_raw at 1.
  assert (K : forall e, In (c, e) [(34, 34); (92, 92); (10, 110); (13, 114); (9, 116); (12, 102); (8, 98)]%N -> quoted (c :: s) ([92; e]%N ++ flat_map esc_raw s)) by (intros e He; apply quoted_short; assumption).
  destruct (N.eqb_spec c 34) as [->|N34]; [apply K; cbn; tauto|].
  destruct (N.eqb_spec c 92) as [->|N92]; [apply K; cbn; tauto|].
  destruct (N.eqb_spec c 10) as [->|N10]; [apply K; cbn; tauto|].
  destruct (N.eqb_spec c 13) as [->|N13]; [apply K; cbn; tauto|].
  destruct (N.eqb_spec c 9) as [->|N9]; [apply K; cbn; tauto|].
  destruct (N.eqb_spec c 12) as [->|N12]; [apply K; cbn; tauto|].
  destruct (N.eqb_spec c 8) as [->|N8]; [apply K; cbn; tauto|].
  destruct (N.ltb_spec c 32) as [H|H]; [|apply quoted_plain; assumption].
  assert (A : (c / 4096 = 0 /\ c / 256 mod 16 = 0 /\ c / 16 mod 16 = c / 16)%N).
  { rewrite (N.div_small c 4096), (N.div_small c 256) by lia. split; [reflexivity|]. split; [reflexivity|]. apply N.mod_small. apply N.div_lt_upper_bound; lia. }
  destruct A as (A1 & A2 & A3). unfold hex4. rewrite ?A1, ?A2, ?A3.
  apply (quoted_hex c (hexdig (c / 16)) (hexdig (c mod 16)) s (flat_map esc_raw s) H); [cbn; lia|reflexivity|reflexivity|exact IH].
Qed.
Definition gram_json (row : gram * Z * list str) : json := let '(g, f, names) := row in JArr [JArr (map JInt g); JInt f; JArr (map JStr names)].
Lemma gram_line_eq row : gram_line row = with_nl (dumps_raw (gram_json row)).
Proof. destruct row as [[g f] names]. reflexivity. Qed.
Lemma gram_text_dumps row : gram_text row (dumps_raw (gram_json row)).
Proof.
  destruct row as [[g f] names]. exists (map (flat_map esc_raw) names). split.
  - induction names as [|w l IH]; cbn [map]; constructor; [apply quoted_esc|exact IH].
  - unfold gram_json. cbn [dumps_raw map join]. rewrite !map_map. cbn [dumps_raw]. unfold dump_raw_str.
    change COMMA_SP with (lit ", "). cbn [app]. rewrite <- !app_assoc. cbn. rewrite <- ?app_assoc. reflexivity.
Qed.

Lemma quoted_chars s t c : quoted s t -> In c t -> (32 <= c)%N.
Proof.
  intros H Hc. induction H as [|d s t H1 H2 H3 _ IH|d e s t He _ IH|d a b s t H1 H2 Ha Hb _ IH].
  - destruct Hc.
  - destruct Hc as [<-|Hc]; [exact H1|apply IH, Hc].
  - destruct Hc as [<-|[<-|Hc]]; [lia| |apply IH, Hc]. cbn in He. repeat (destruct He as [He|He]; [injection He as <- <-; lia|]). destruct He.
  - apply in_app_iff in Hc as [Hc|Hc]; [cbn in Hc; lia|]. cbn [app] in Hc.
    assert (HD : forall x, (x < 16)%N -> (32 <= hexdig x)%N) by (intros x Hx; unfold hexdig; destruct (x <? 10)%N; lia).
    destruct Hc as [<-|[<-|Hc]]; [subst a; apply HD; apply N.div_lt_upper_bound; lia|subst b; apply HD; apply N.mod_lt; lia|apply IH, Hc].
Qed.
Lemma join_in sep (l : list str) c : In c (join sep l) -> In c sep \/ exists x, In x l /\ In c x.
Proof.
  induction l as [|x l IH]; [intros []|]. cbn [join]. destruct l as [|y l]; [intros H; right; exists x; split; [left; reflexivity|exact H]|].
  intros H. apply in_app_iff in H as [H|H]; [right; exists x; split; [left; reflexivity|exact H]|]. apply in_app_iff in H as [H|H]; [left; exact H|].
  destruct (IH H) as [H'|(z & Hz & H')]; [left; exact H'|right; exists z; split; [right; exact Hz|exact H']].
Qed.
Lemma number_char z c : In c (str_of_Z z) -> (32 <= c)%N.
Proof. intros H. apply str_of_Z_no_tab in H as [H|H]; [unfold is_digit in H; lia|lia]. Qed.
Lemma gram_text_chars row line c : gram_text row line -> In c line -> (32 <= c)%N.
Proof.
  destruct row as [[g f] names]. intros (qs & Hq & ->) Hc.
  assert (KL : forall t, Forall (fun x => (32 <= x)%N) (lit t) -> In c (lit t) -> (32 <= c)%N) by (intros t Ht H; rewrite Forall_forall in Ht; apply Ht, H).
  repeat (apply in_app_iff in Hc as [Hc|Hc]); try (eapply KL; [|exact Hc]; repeat constructor; vm_compute; discriminate).
  - apply join_in in Hc as [Hc|(x & Hx & Hc)]; [eapply KL; [|exact Hc]; repeat constructor; vm_compute; discriminate|].
    apply in_map_iff in Hx as (z & <- & _). apply (number_char z), Hc.
  - apply (number_char f), Hc.
  - apply join_in in Hc as [Hc|(x & Hx & Hc)]; [eapply KL; [|exact Hc]; repeat constructor; vm_compute; discriminate|].
    apply in_map_iff in Hx as (q & <- & Hx). cbn [app] in Hc. destruct Hc as [<-|Hc]; [lia|]. apply in_app_iff in Hc as [Hc|[<-|[]]]; [|lia].
    assert (exists n, quoted n q) as (n & Hn). { clear - Hq Hx. induction Hq as [|n q' ns qs H _ IH]; [destruct Hx|]. destruct Hx as [<-|Hx]; [exists n; exact H|apply IH, Hx]. }
    apply (quoted_chars _ _ _ Hn Hc).
Qed.

Lemma strip_with_nl (row : gram * Z * list str) : strip (with_nl (dumps_raw (gram_json row))) = dumps_raw (gram_json row).
Proof.
  unfold with_nl. apply (strip_unique [] (dumps_raw (gram_json row)) [LF]); [constructor|constructor; [reflexivity|constructor]|].
  destruct row as [[g f] names]. cbn [gram_json dumps_raw]. split; intros c r E.
  - injection E as <- _. reflexivity.
  - rewrite app_assoc in E. apply app_inj_tail in E as [_ <-]. reflexivity.
Qed.
Lemma json_ok_gram row : Forall scalars (snd row) -> json_ok (gram_json row).
Proof.
  destruct row as [[g f] names]. cbn [snd]. intros H. unfold gram_json. apply json_ok_arr. constructor; [|constructor; [exact I|constructor; [|constructor]]].
  - apply json_ok_arr. apply Forall_map. apply Forall_forall. intros z _. exact I.
  - apply json_ok_arr. apply Forall_map. exact H.
Qed.
Lemma numbers_of_ints g : numbers_of (map JInt g) = Some g.
Proof. induction g as [|z g IH]; [reflexivity|]. cbn [map numbers_of number_of]. rewrite IH. reflexivity. Qed.
Lemma freq_item_gram row : freq_item (gram_json row) = Ok (Some (fst (fst row)), snd (fst row)).
Proof.
  unfold freq_item. destruct row as [[g f] names]. cbn [gram_json items fst snd number_of].
  rewrite numbers_of_ints. assert (E : existsb unhashable (map JInt g) = false) by (clear; induction g as [|z g IH]; [reflexivity|exact IH]). rewrite E. reflexivity.
Qed.

(** *** The file *)
Definition text_of (rows : list (gram * Z * list str)) : str := flat_map gram_line rows.
Lemma text_of_eq rows : text_of rows = flat_map with_nl (map (fun r => dumps_raw (gram_json r)) rows).
Proof. induction rows as [|r rows IH]; [reflexivity|]. unfold text_of in *. cbn [flat_map map]. rewrite IH, gram_line_eq. reflexivity. Qed.
Lemma file_lines_grams rows : file_lines (text_of rows) = map (fun r => with_nl (dumps_raw (gram_json r))) rows.
Proof.
  rewrite text_of_eq, file_lines_of, map_map; [reflexivity|]. apply Forall_map, Forall_forall. intros r _.
  split; intros H; apply (gram_text_chars _ _ _ (gram_text_dumps r)) in H; unfold LF, CR in H; lia.
Qed.
Theorem read_back rows : Forall (fun r => Forall scalars (snd r)) rows -> read_freqs (file_lines (text_of rows)) = Ok (map fst rows).
Proof.
  intros H. rewrite file_lines_grams. unfold read_freqs.
  assert (L : mapM (fun l => loads (strip l)) (map (fun r => with_nl (dumps_raw (gram_json r))) rows) = Ok (map gram_json rows)).
  { induction H as [|r rows Hr _ IH]; [reflexivity|]. cbn [map mapM]. rewrite strip_with_nl, loads_raw by (apply json_ok_gram, Hr). rewrite IH. reflexivity. }
  assert (E : mapM freq_item (map gram_json rows) = Ok (map (fun r : gram * Z * list str => (Some (fst (fst r)), snd (fst r))) rows)).
  { clear. induction rows as [|r rows IH]; [reflexivity|]. cbn [map mapM]. rewrite freq_item_gram, IH. reflexivity. }
  rewrite L, E. f_equal. clear. induction rows as [|[[g f] names] rows IH]; [reflexivity|]. cbn [map flat_map fst snd app]. rewrite IH. reflexivity.
Qed.

(** *** Files of another origin *)
Lemma bad_item j e : bad_row j e -> freq_item j = Raise e.
Proof.
  intros H. destruct H as [j H|l H|t H|g f x H|g f x H]; unfold freq_item; cbn [items].
  - destruct j; try contradiction; reflexivity.
  - destruct l as [|a [|b [|c [|d l]]]]; try reflexivity. exfalso. apply H. reflexivity.
  - destruct t as [|a [|b [|c [|d t]]]]; try reflexivity. exfalso. apply H. reflexivity.
  - destruct g; try contradiction; reflexivity.
  - assert (E : existsb unhashable g = true); [|rewrite E; reflexivity].
    apply existsb_exists. apply Exists_exists in H as (j & Hj & Hn). exists j. split; [exact Hj|]. destruct j; try contradiction; reflexivity.
Qed.
Lemma bad_items pre j post e : Forall good_row pre -> bad_row j e -> mapM freq_item (pre ++ j :: post) = Raise e.
Proof.
  intros HP HB. induction HP as [|i pre (g & f & x & ->) _ IH]; cbn [app mapM].
  - rewrite (bad_item j e HB). reflexivity.
  - unfold freq_item at 1. cbn [items number_of]. rewrite numbers_of_ints.
    assert (E : existsb unhashable (map JInt g) = false) by (clear; induction g as [|z g IH]; [reflexivity|exact IH]). rewrite E. rewrite IH. reflexivity.
Qed.
Lemma parsed_lines lines js : Forall2 (fun l j => loads (strip l) = Ok j) lines js -> mapM (fun l => loads (strip l)) lines = Ok js.
Proof. intros H. induction H as [|l j lines js E _ IH]; [reflexivity|]. cbn [mapM]. rewrite E, IH. reflexivity. Qed.
Lemma unparsed_line l1 js l l2 e : Forall2 (fun l j => loads (strip l) = Ok j) l1 js -> loads (strip l) = Raise e -> mapM (fun l => loads (strip l)) (l1 ++ l :: l2) = Raise e.
Proof. intros H E. induction H as [|l' j l1 js E' _ IH]; cbn [app mapM]; [rewrite E; reflexivity|]. rewrite E', IH. reflexivity. Qed.
Theorem bad_lines rnd fmt s pool cands refs n cs rs lines : List.length cands = List.length refs -> pool cands = (cs, None) -> pool refs = (rs, None) ->
  (forall pre j post e, Forall2 (fun l j => loads (strip l) = Ok j) lines (pre ++ j :: post) -> Forall good_row pre -> bad_row j e ->
     recall_text rnd fmt s pool cands refs n (Some lines) = Raise e) /\
  (forall l1 js l l2 e, lines = l1 ++ l :: l2 -> Forall2 (fun l j => loads (strip l) = Ok j) l1 js -> loads (strip l) = Raise e ->
     recall_text rnd fmt s pool cands refs n (Some lines) = Raise e).
Proof.
  intros HL HC HR. unfold recall_text. rewrite HL, Nat.eqb_refl, HC, HR. cbn [negb all_of snd fst]. unfold read_freqs. split.
  - intros pre j post e H1 H2 H3. rewrite (parsed_lines _ _ H1), (bad_items _ _ _ _ H2 H3). reflexivity.
  - intros l1 js l l2 e -> H1 H2. rewrite (unparsed_line _ _ _ _ _ H1 H2). reflexivity.
Qed.

(** *** The programs *)
Lemma encode_all k table s lines : plain_kind k table -> make_scheme k table = Ok s ->
  exists seqs, Forall2 (fun line seq => encode s line = Ok seq) lines seqs /\ Forall (Forall (valid_id table)) seqs.
Proof.
  intros Hk H. induction lines as [|line lines (seqs & H1 & H2)]; [exists []; split; constructor|].
  destruct (encode_valid k table s line Hk H) as (ids & E & Hv). exists (ids :: seqs). split; constructor; assumption.
Qed.
Lemma plain_table k table s : plain_kind k table -> make_scheme k table = Ok s -> s_table s = table.
Proof. intros Hk. apply made_table. destruct Hk as [-> |[-> |[-> _]]]; discriminate. Qed.
Lemma plain_names k table s : plain_kind k table -> make_scheme k table = Ok s -> s_idx_to_str s = map t_name table.
Proof.
  intros Hk H. destruct Hk as [-> |[-> |[-> _]]].
  - apply make_flat_inv in H as (_ & _ & ->); [reflexivity|auto].
  - apply make_flat_inv in H as (_ & _ & ->); [reflexivity|auto].
  - apply make_bpe_inv in H as (_ & _ & ->). reflexivity.
Qed.
Theorem termfreq_file k table s lines n cpus out : plain_kind k table -> make_scheme k table = Ok s -> (0 < n)%Z -> (1 < cpus)%Z ->
  encode_parallel (encode s) (lines, None) cpus out ->
  exists seqs rows ls, Forall2 (fun line seq => encode s line = Ok seq) lines seqs /\
    NoDup (map (fun r => fst (fst r)) rows) /\ StronglySorted (fun a b : gram * Z * list str => (snd (fst b) <= snd (fst a))%Z) rows /\
    (forall g f, In (g, f) (map fst rows) <-> List.length g = Z.to_nat n /\ (0 < f)%Z /\ f = total_times g seqs) /\
    Forall (fun r => Forall2 (name_at table) (fst (fst r)) (snd r)) rows /\
    Forall2 gram_text rows ls /\ termfreq_text s out n = Ok (flat_map (fun l => l ++ [10%N]) ls) /\
    (Forall (fun t => scalars (t_name t)) table -> read_freqs (file_lines (flat_map (fun l => l ++ [10%N]) ls)) = Ok (map fst rows)).
Proof.
  intros Hk H Hn Hc HP. destruct (encode_all k table s lines Hk H) as (seqs & H1 & H2).
  destruct (termfreq_correct s table seqs n (plain_table _ _ _ Hk H) Hn H2) as (rows & E & R1 & R2 & R3 & R4).
  rewrite (C58_parallel_is_sequential _ (encode s) lines seqs cpus out Hc H1 HP).
  exists seqs, rows, (map (fun r => dumps_raw (gram_json r)) rows). split; [exact H1|]. split; [exact R1|]. split; [exact R2|]. split; [exact R3|]. split; [exact R4|].
  assert (ET : text_of rows = flat_map (fun l => l ++ [10%N]) (map (fun r => dumps_raw (gram_json r)) rows)) by apply text_of_eq.
  split; [|split].
  - clear. induction rows as [|r rows IH]; cbn [map]; constructor; [apply gram_text_dumps|exact IH].
  - rewrite <- ET. unfold termfreq_text, all_of. cbn [fst snd].
    unfold make_n_grams_all. rewrite make_n_grams_all_eq by exact Hn. rewrite E. reflexivity.
  - intros HT. rewrite <- ET. apply read_back. eapply Forall_impl; [|exact R4]. intros [[g0 f0] ns0] Hr. cbn [fst snd] in *.
    induction Hr as [|i w is ws Hi _ IH]; constructor; [|exact IH]. destruct Hi as (_ & t & Ht & <-). rewrite Forall_forall in HT. apply HT. apply nth_error_In in Ht. exact Ht.
Qed.

Lemma Forall2_len {A B} (P : A -> B -> Prop) l l' : Forall2 P l l' -> List.length l = List.length l'.
Proof. induction 1; cbn; congruence. Qed.
Lemma report_line_text fmt s i r names : mapM (py_nth (s_idx_to_str s)) (row_gram r) = Ok names ->
  exists line, report_line fmt s i r = Ok (line ++ [10%N]) /\ report_text fmt i names r line.
Proof.
  destruct r as [[[[[[g rank] rf] cf] rec] prec] f1]. cbn [row_gram]. intros E. unfold report_line. rewrite E. eexists. split; [reflexivity|].
  unfold report_text. cbn [join]. change (lit ",") with [44%N]. reflexivity.
Qed.
Lemma report_lines_text fmt s table rows : s_idx_to_str s = map t_name table -> Forall (fun r => Forall (valid_id table) (row_gram r)) rows -> forall i,
  exists ls, report_lines fmt s i rows = Ok (map (fun l => l ++ [10%N]) ls) /\ List.length ls = List.length rows /\
    forall j r l, nth_error rows j = Some r -> nth_error ls j = Some l -> exists names, Forall2 (name_at table) (row_gram r) names /\ report_text fmt (i + j) names r l.
Proof.
  intros HS. induction 1 as [|r rows Hr _ IH]; intros i.
  - exists []. split; [reflexivity|]. split; [reflexivity|]. intros [|j] r l; discriminate.
  - assert (exists names, mapM (py_nth (s_idx_to_str s)) (row_gram r) = Ok names /\ Forall2 (name_at table) (row_gram r) names) as (names & E & HN).
    { rewrite HS. apply mapM_rel. intros x Hx. rewrite Forall_forall in Hr. specialize (Hr x Hx). destruct (nth_error table (Z.to_nat x)) as [t|] eqn:En.
      - assert (NA : name_at table x (t_name t)) by (split; [apply Hr|exists t; auto]). exists (t_name t). split; [apply name_at_py_nth, NA|exact NA].
      - apply nth_error_None in En. unfold valid_id in Hr. lia. }
    destruct (report_line_text fmt s i r names E) as (line & L1 & L2). destruct (IH (S i)) as (ls & I1 & I2 & I3). exists (line :: ls).
    cbn [report_lines map List.length]. rewrite L1, I1. split; [reflexivity|]. split; [congruence|]. intros [|j] r' l' X1 X2.
    + injection X1 as <-. injection X2 as <-. exists names. split; [exact HN|]. rewrite Nat.add_0_r. exact L2.
    + rewrite <- plus_n_Sm. apply (I3 j); assumption.
Qed.
Lemma times_in x sents : (0 < total_times [x] sents)%Z -> exists sent, In sent sents /\ In x sent.
Proof.
  unfold total_times. induction sents as [|sent sents IH]; [cbn; lia|]. cbn [map]. rewrite zsum_cons. intros H.
  destruct (Z.ltb_spec 0 (times [x] sent)) as [Hp|Hp].
  - exists sent. split; [left; reflexivity|]. clear - Hp. induction sent as [|y sent IH]; [cbn in Hp; lia|]. cbn [times starts_with] in Hp.
    destruct (Z.eq_dec x y) as [->|Hxy]; [left; reflexivity|right; apply IH]. revert Hp. destruct (starts_with [x] (y :: sent)) eqn:Es; [|lia].
    unfold starts_with in Es. cbn [List.length firstn] in Es. destruct (list_eq_dec Z.eq_dec [y] [x]) as [X|]; [injection X as ->; contradiction|discriminate].
  - destruct IH as (u & Hu & Hx); [lia|]. exists u. split; [right; exact Hu|exact Hx].
Qed.

(** The report of pr_measure, for the lines of the two sides. *)
Theorem report_of rnd fmt k table s pool cpus cands refs n freqs fr : plain_kind k table -> make_scheme k table = Ok s -> rounding rnd ->
  (1 < cpus)%Z -> (forall ls, encode_parallel (encode s) (ls, None) cpus (pool ls)) -> List.length cands = List.length refs -> (Z.of_nat (List.length refs) <= 9007199254740992)%Z ->
  match freqs with None => fr = None | Some ls => exists l, read_freqs ls = Ok l /\ fr = Some l end ->
  exists cs rs rows ls, Forall2 (fun line seq => encode s line = Ok seq) cands cs /\ Forall2 (fun line seq => encode s line = Ok seq) refs rs /\
    recall_text rnd fmt s pool cands refs n freqs = Ok (HEAD ++ flat_map (fun l => l ++ [10%N]) ls) /\
    pr_rows rnd cs rs 1 fr = Ok rows /\ List.length ls = List.length rows /\
    (forall i r l, nth_error rows i = Some r -> nth_error ls i = Some l -> exists names, Forall2 (name_at table) (row_gram r) names /\ report_text fmt (S i) names r l) /\
    (forall g f, In (g, f) (map (fun r => (row_gram r, row_rank r)) rows) <-> List.length g = 1%nat /\ rank_of rs cs fr g f).
Proof.
  intros Hk H Hr Hc HP HL HB HF.
  destruct (encode_all k table s cands Hk H) as (cs & C1 & C2). destruct (encode_all k table s refs Hk H) as (rs & R1 & R2).
  assert (L1 : List.length cs = List.length rs) by (rewrite <- (Forall2_len _ _ _ C1), <- (Forall2_len _ _ _ R1); exact HL).
  destruct (pr_rows_correct rnd cs rs n fr Hr L1 ltac:(rewrite <- (Forall2_len _ _ _ R1); exact HB)) as (rows & E & Q1 & Q2 & Q3 & Q4).
  assert (HV : Forall (fun r => Forall (valid_id table) (row_gram r)) rows).
  { apply Forall_forall. intros r HIn. assert (K : In (row_gram r, row_rank r) (map (fun r => (row_gram r, row_rank r)) rows)) by (apply in_map_iff; exists r; auto).
    apply Q1 in K as (K1 & K2). destruct (row_gram r) as [|x [|y g]]; try discriminate K1. constructor; [|constructor].
    assert (K3 : (0 < total_times [x] rs)%Z \/ (0 < total_times [x] cs)%Z).
    { destruct fr as [fr|]; cbn [rank_of] in K2; [destruct K2 as [[_ K2]|(_ & _ & K2)]; tauto|]. destruct K2 as [K2 K3]. rewrite K3 in K2. left; exact K2. }
    destruct K3 as [K3|K3]; apply times_in in K3 as (u & Hu & Hx).
    - rewrite Forall_forall in R2. specialize (R2 u Hu). rewrite Forall_forall in R2. apply R2, Hx.
    - rewrite Forall_forall in C2. specialize (C2 u Hu). rewrite Forall_forall in C2. apply C2, Hx. }
  destruct (report_lines_text fmt s table rows (plain_names _ _ _ Hk H) HV 1) as (ls & T1 & T2 & T3).
  exists cs, rs, rows, ls. split; [exact C1|]. split; [exact R1|]. split; [|split; [exact E|split; [exact T2|split; [intros i r l X1 X2; apply (T3 i); assumption|exact Q1]]]].
  unfold recall_text. rewrite (proj2 (Nat.eqb_eq _ _) HL). cbn [negb].
  rewrite (C58_parallel_is_sequential _ (encode s) cands cs cpus (pool cands) Hc C1 (HP cands)), (C58_parallel_is_sequential _ (encode s) refs rs cpus (pool refs) Hc R1 (HP refs)).
  unfold all_of. cbn [fst snd].
  destruct freqs as [fl|]; [destruct HF as (fr' & HF1 & ->); rewrite HF1|subst fr]; rewrite E, T1, flat_map_concat_map; reflexivity.
Qed.

(** With the file of termfreq as --freqs the rank is the frequency in the text termfreq was given. *)
Lemma last_entry_nodup (fs : list (list Z * Z)) g f : NoDup (map fst fs) -> (last_entry fs g f <-> In (g, f) fs).
Proof.
  intros H. split.
  - intros (a & b & -> & _). apply in_app_iff. right; left; reflexivity.
  - intros HI. apply in_split in HI as (a & b & ->). exists a, b. split; [reflexivity|]. intros X. rewrite map_app in H. cbn [map fst] in H. apply NoDup_remove_2 in H. apply H, in_app_iff. right; exact X.
Qed.
Theorem ranks_from_training rnd fmt k table s pool cpus train m text cands refs n :
  plain_kind k table -> make_scheme k table = Ok s -> Forall (fun t => scalars (t_name t)) table -> rounding rnd ->
  (1 < cpus)%Z -> (forall ls, encode_parallel (encode s) (ls, None) cpus (pool ls)) -> List.length cands = List.length refs -> (Z.of_nat (List.length refs) <= 9007199254740992)%Z ->
  (0 < m)%Z -> termfreq_text s (pool train) m = Ok text ->
  exists ts cs rs rows ls,
    Forall2 (fun line seq => encode s line = Ok seq) train ts /\ Forall2 (fun line seq => encode s line = Ok seq) cands cs /\ Forall2 (fun line seq => encode s line = Ok seq) refs rs /\
    recall_text rnd fmt s pool cands refs n (Some (file_lines text)) = Ok (HEAD ++ flat_map (fun l => l ++ [10%N]) ls) /\ List.length ls = List.length rows /\
    (forall i r l, nth_error rows i = Some r -> nth_error ls i = Some l -> exists names, Forall2 (name_at table) (row_gram r) names /\ report_text fmt (S i) names r l) /\
    forall g f, In (g, f) (map (fun r => (row_gram r, row_rank r)) rows) <->
      List.length g = 1%nat /\
      ((m = 1%Z /\ (0 < f)%Z /\ f = total_times g ts /\ ((0 < total_times g rs)%Z \/ (0 < total_times g cs)%Z)) \/
       (f = (-1)%Z /\ (m <> 1%Z \/ total_times g ts = 0%Z) /\ (0 < total_times g rs)%Z)).
Proof.
  intros Hk H HS Hr Hc HP HL HB Hm HT.
  destruct (termfreq_file k table s train m cpus (pool train) Hk H Hm Hc (HP train)) as (ts & trows & tls & A1 & A2 & A3 & A4 & A5 & A6 & A7 & A8).
  assert (text = flat_map (fun l => l ++ [10%N]) tls) by congruence. subst text.
  destruct (report_of rnd fmt k table s pool cpus cands refs n (Some (file_lines (flat_map (fun l => l ++ [10%N]) tls))) (Some (map fst trows)) Hk H Hr Hc HP HL HB
    (ex_intro _ _ (conj (A8 HS) eq_refl))) as (cs & rs & rows & ls & B1 & B2 & B3 & B4 & B5 & B6 & B7).
  exists ts, cs, rs, rows, ls. repeat (split; [assumption|]). intros g f. rewrite B7. cbn [rank_of].
  assert (ND : NoDup (map fst (map fst trows))) by (rewrite map_map; exact A2).
  rewrite (last_entry_nodup _ g f ND), A4.
  assert (NI : List.length g = 1%nat -> (~ In g (map fst (map fst trows)) <-> m <> 1%Z \/ total_times g ts = 0%Z)).
  { intros Hg. split.
    - intros HN. destruct (Z.eq_dec m 1) as [->|Hm1]; [right|left; exact Hm1].
      destruct (Z.ltb_spec 0 (total_times g ts)) as [Hp|Hp].
      + destruct HN. apply in_map_iff. exists (g, total_times g ts). split; [reflexivity|]. apply A4. split; [rewrite Hg; reflexivity|]. split; [exact Hp|reflexivity].
      + assert (K : (0 <= total_times g ts)%Z). { unfold total_times. clear. induction ts as [|u ts IH]; [cbn; lia|]. cbn [map]. rewrite zsum_cons. assert (0 <= times g u)%Z by (induction u as [|y u IHu]; cbn [times]; destruct (starts_with _ _); lia). lia. } lia.
    - intros HD HI. apply in_map_iff in HI as ([g' f'] & E & HI). cbn [fst] in E. subst g'. apply A4 in HI as (K1 & K2 & K3). destruct HD as [HD|HD]; lia. }
  split.
  - intros (Hg & [((K1 & K2 & K3) & K4)|(-> & K2 & K3)]); (split; [exact Hg|]); [left|right].
    + split; [lia|]. split; [exact K2|]. split; [exact K3|exact K4].
    + split; [reflexivity|]. split; [apply NI; assumption|exact K3].
  - intros (Hg & [(-> & K2 & K3 & K4)|(-> & K2 & K3)]); (split; [exact Hg|]); [left|right].
    + split; [|exact K4]. split; [rewrite Hg; reflexivity|]. split; assumption.
    + split; [reflexivity|]. split; [apply NI; assumption|exact K3].
Qed.

Theorem termfreq_zero s seqs n : (n <= 0)%Z -> termfreq_text s (seqs, None) n = match seqs with [] => Ok [] | _ => Raise AssertionError end.
Proof.
  intros Hn. unfold termfreq_text, all_of, termfreq_rows, make_n_grams_all. cbn [fst snd]. destruct seqs as [|x seqs]; [reflexivity|]. cbn [foldM].
  rewrite make_n_grams_raise by exact Hn. reflexivity.
Qed.
