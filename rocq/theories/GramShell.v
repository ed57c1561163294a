(** termfreq and pr_measure one after the other, from their command lines. *)
From Coq Require Import Strings.String QArith Lia.
From Verif Require Import Py PyLemmas PyStr NumProofs StrSpec PyStrProofs BatchModel Utf8Model JsonModel JsonProofs CodecModel CodecSpec VocabFileModel VocabFileProofs
     MapredModel EvalModel EvalSpec EvalProofs MainModel ArgModel ArgSpec ArgProofs CmdModel CmdSpec ToolSpec GramModel JsonRawProofs GramSpec GramEnd GramFile.
From Coq Require Import ZifyBool ZifyN.
Local Open Scope list_scope.

Lemma ascii_scalar c : (c < 128)%N -> is_scalar c = true.
Proof. intros H. unfold is_scalar, is_surrogate. lia. Qed.
Lemma quoted_scalars s t : quoted s t -> scalars s -> scalars t.
Proof.
  unfold scalars. induction 1 as [|c s t _ _ _ _ IH|c e s t He _ IH|c a b s t Hc _ Ha Hb _ IH]; intros H; [constructor| | |]; inversion H; subst.
  - constructor; [assumption|apply IH; assumption].
  - constructor; [reflexivity|]. constructor; [|apply IH; assumption]. cbn in He. repeat (destruct He as [He|He]; [injection He as <- <-; reflexivity|]). destruct He.
  - assert (HD : forall x, (x < 16)%N -> is_scalar (hexdig x) = true) by (intros x Hx; apply ascii_scalar; unfold hexdig; destruct (x <? 10)%N; lia).
    apply Forall_app. split; [repeat constructor|]. constructor; [apply HD, N.div_lt_upper_bound; lia|]. constructor; [apply HD, N.mod_lt; lia|apply IH; assumption].
Qed.
Lemma join_scalars sep l : scalars sep -> Forall scalars l -> scalars (join sep l).
Proof.
  intros Hs H. apply Forall_forall. intros c Hc. apply join_in in Hc as [Hc|(x & Hx & Hc)].
  - unfold scalars in Hs. rewrite Forall_forall in Hs. apply Hs, Hc.
  - rewrite Forall_forall in H. specialize (H x Hx). unfold scalars in H. rewrite Forall_forall in H. apply H, Hc.
Qed.
Lemma number_scalars z : scalars (str_of_Z z).
Proof. apply Forall_forall. intros c H. apply str_of_Z_no_tab in H as [H|H]; apply ascii_scalar; [unfold is_digit in H; lia|lia]. Qed.
Lemma gram_text_scalars row line : gram_text row line -> Forall scalars (snd row) -> scalars line.
Proof.
  destruct row as [[g f] names]. intros (qs & Hq & ->) HN. cbn [snd] in HN. unfold scalars. rewrite !Forall_app. repeat split; try apply lit_scalars; try apply number_scalars.
  - apply join_scalars; [apply lit_scalars|]. apply Forall_map, Forall_forall. intros z _. apply number_scalars.
  - apply join_scalars; [apply lit_scalars|]. apply Forall_map. revert HN. induction Hq as [|n q ns qs H _ IH]; intros HN; [constructor|]. inversion HN; subst. constructor; [|apply IH; assumption].
    unfold scalars. rewrite !Forall_app. repeat split; [repeat constructor|apply (quoted_scalars _ _ H); assumption|repeat constructor].
Qed.

Lemma names_scalars table g ns : Forall2 (name_at table) g ns -> Forall (fun t => scalars (t_name t)) table -> Forall scalars ns.
Proof.
  intros H HT. induction H as [|i w is ws Hi _ IH]; constructor; [|exact IH]. destruct Hi as (_ & t & Ht & <-). rewrite Forall_forall in HT. apply HT. apply nth_error_In in Ht. exact Ht.
Qed.
Lemma place_path p : p <> lit "-" -> place_of p = Path p.
Proof. intros H. unfold place_of. rewrite (proj2 (str_eqb_neq p (lit "-")) H). reflexivity. Qed.

Theorem trained_ranks {A} (Y : system A) rnd fmt cpus pool fs stdin stdin' k table s mb tb cb rb (st : nat -> style) M T F C R O :
  (forall t, scalars t -> utf8_decode [] (y_bytes Y t) = t) -> rounding rnd ->
  (1 < cpus)%Z -> (forall s ls, encode_parallel (encode s) (ls, None) cpus (pool s ls)) ->
  lookup fs M = Some mb -> load_scheme mb = Ok s -> plain_kind k table -> make_scheme k table = Ok s -> Forall (fun t => scalars (t_name t)) table ->
  lookup fs T = Some tb -> lookup fs C = Some cb -> lookup fs R = Some rb ->
  List.length (file_lines (utf8_decode [] cb)) = List.length (file_lines (utf8_decode [] rb)) -> (Z.of_nat (List.length (file_lines (utf8_decode [] rb))) <= 9007199254740992)%Z ->
  e_writable (y_env Y) F = true -> e_writable (y_env Y) O = true ->
  Forall plain [M; T; F; C; R; O] -> Forall (fun p => p <> lit "-") [M; T; F; C; R; O] -> ~ In F [M; T; C; R; O] -> ~ In O [M; C; R] ->
  exists e1 e2 ts cs rs rows ls,
    gram_program Y pool fs stdin (flat_map (ewords TermFreq) [(st 0, EInp T); (st 1, EModel M); (st 2, EOut F)]%nat) = Some e1 /\ x_status e1 = 0%Z /\
    recall_program rnd fmt Y pool (x_files e1) stdin' (flat_map (ewords Recall) [(st 3, EModel M); (st 4, ECands C); (st 5, ERefs R); (st 6, EFreqs F); (st 7, EOut O)]%nat) = Some e2 /\
    x_status e2 = 0%Z /\ x_stdout e2 = [] /\
    (forall p, p <> F -> p <> O -> lookup (x_files e2) p = lookup fs p) /\
    lookup (x_files e2) O = Some (y_bytes Y (HEAD ++ flat_map (fun l => l ++ [10%N]) ls)) /\
    Forall2 (fun line seq => encode s line = Ok seq) (file_lines (y_text Y tb)) ts /\
    Forall2 (fun line seq => encode s line = Ok seq) (file_lines (utf8_decode [] cb)) cs /\
    Forall2 (fun line seq => encode s line = Ok seq) (file_lines (utf8_decode [] rb)) rs /\
    List.length ls = List.length rows /\
    (forall i r l, nth_error rows i = Some r -> nth_error ls i = Some l -> exists names, Forall2 (name_at table) (row_gram r) names /\ report_text fmt (S i) names r l) /\
    forall g f, In (g, f) (map (fun r => (row_gram r, row_rank r)) rows) <->
      List.length g = 1%nat /\
      (((0 < f)%Z /\ f = total_times g ts /\ ((0 < total_times g rs)%Z \/ (0 < total_times g cs)%Z)) \/
       (f = (-1)%Z /\ total_times g ts = 0%Z /\ (0 < total_times g rs)%Z)).
Proof.
  intros HY Hrnd Hcpu Hpool HM HL Hk Hmk Hsc HT HC HR Hlen Hbound WF WO HPl HD HF HO.
  assert (D : forall p, In p [M; T; F; C; R; O] -> p <> lit "-" /\ plain p) by (intros p Hp; rewrite Forall_forall in HPl, HD; split; [apply HD|apply HPl]; exact Hp).
  assert (NF : forall p, In p [M; T; C; R; O] -> str_eqb p F = false) by (intros p Hp; apply str_eqb_neq; intros ->; exact (HF Hp)).
  assert (NO : forall p, In p [M; C; R] -> str_eqb p O = false) by (intros p Hp; apply str_eqb_neq; intros ->; exact (HO Hp)).
  assert (FO : str_eqb F O = false) by (apply str_eqb_neq; intros ->; apply HF; cbn; tauto).
  assert (PL : forall st p, In p [M; T; F; C; R; O] -> free st [p]) by (intros st0 p Hp _; constructor; [apply D, Hp|constructor]).
  assert (dash : forall p, In p [M; T; F; C; R; O] -> str_eqb p (lit "-") = false) by (intros p Hp; apply str_eqb_neq, D, Hp).
  set (f1 := fun x => if str_eqb x F then Some [] else lookup fs x).
  (* termfreq *)
  set (l1 := [(st 0, EInp T); (st 1, EModel M); (st 2, EOut F)]%nat).
  destruct (termfreq_does Y pool fs stdin l1) as (model & m & e1 & Q1 & Q2 & Q3 & Q4).
  { unfold l1. constructor; [|constructor; [|constructor; [|constructor]]]; (split; [exact I|]); (split; [apply PL; cbn; tauto|]); cbn [snd]; [right; congruence|exact I|right; exact WF]. }
  { exists M. cbn. tauto. }
  unfold l1 in Q1, Q2, Q4. cbn [map snd fold_left eask enothing eopens k_model k_inp k_out k_n] in Q1, Q2, Q4. injection Q1 as <-.
  rewrite (place_path T), (place_path F) in Q4 by (apply D; cbn; tauto). rewrite (dash F) in Q2, Q4 by (cbn; tauto). cbn [plain_lines] in Q4. rewrite (NF T), HT in Q4 by (cbn; tauto).
  unfold model_at in Q2. rewrite (NF M), HM in Q2 by (cbn; tauto). subst m. rewrite HL in Q4.
  destruct (termfreq_file k table s (file_lines (y_text Y tb)) 1 cpus (pool s (file_lines (y_text Y tb))) Hk Hmk ltac:(lia) Hcpu (Hpool _ _))
    as (ts & trows & tls & A1 & A2 & A3 & A4 & A5 & A6 & A7 & A8).
  rewrite A7 in Q4. destruct Q4 as (_ & S1 & X1 & O1 & F1).
  set (text := flat_map (fun l => l ++ [10%N]) tls) in *.
  assert (ST : scalars text).
  { unfold text, scalars. apply Forall_flat_map. clear - A5 A6 Hsc. revert A5. induction A6 as [|r l rows ls H _ IH]; intros A5; [constructor|]. inversion A5; subst. constructor; [|apply IH; assumption].
    apply Forall_app. split; [|repeat constructor]. apply (gram_text_scalars _ _ H). eapply names_scalars; eassumption. }
  assert (L1 : forall p, lookup (x_files e1) p = if str_eqb p F then Some (y_bytes Y text) else lookup fs p).
  { intros p. rewrite F1. destruct (str_eqb p F); reflexivity. }
  (* pr_measure *)
  set (l2 := [(st 3, EModel M); (st 4, ECands C); (st 5, ERefs R); (st 6, EFreqs F); (st 7, EOut O)]%nat).
  destruct (recall_does rnd fmt Y pool (x_files e1) stdin' l2) as (model & m & e2 & P1 & P2 & P3 & _ & P5).
  { unfold l2. constructor; [|constructor; [|constructor; [|constructor; [|constructor; [|constructor]]]]]; (split; [exact I|]); (split; [apply PL; cbn; tauto|]); cbn [snd]; [exact I| | | |right; exact WO];
      right; rewrite L1; [rewrite NF by (cbn; tauto); congruence|rewrite NF by (cbn; tauto); congruence|rewrite str_eqb_refl; discriminate]. }
  { exists M. cbn. tauto. }
  unfold l2 in P1, P2, P5. cbn [map snd fold_left eask enothing eopens k_model k_inp k_out k_n k_cands k_refs k_freqs] in P1, P2, P5. injection P1 as <-.
  rewrite (place_path C), (place_path R), (place_path F), (place_path O) in P5 by (apply D; cbn; tauto). rewrite (dash O) in P2, P5 by (cbn; tauto).
  specialize (P5 ltac:(intros [X _]; discriminate X)).
  unfold model_at in P2. cbn [utf8_lines on_stdin] in P5. rewrite (NO M), L1, (NF M), HM in P2 by (cbn; tauto). subst m. rewrite HL in P5.
  rewrite (NO C), (NO R), FO, !L1, (NF C), (NF R), str_eqb_refl, HC, HR, HY in P5 by (first [exact ST|cbn; tauto]).
  destruct (ranks_from_training rnd fmt k table s (pool s) cpus (file_lines (y_text Y tb)) 1 text (file_lines (utf8_decode [] cb)) (file_lines (utf8_decode [] rb)) 1
    Hk Hmk Hsc Hrnd Hcpu (Hpool s) Hlen Hbound ltac:(lia) A7) as (ts' & cs & rs & rows & ls & B1 & B2 & B3 & B4 & B5 & B6 & B7).
  rewrite B4 in P5. destruct P5 as (_ & S2 & X2 & O2 & F2).
  exists e1, e2, ts', cs, rs, rows, ls. split; [exact Q3|]. split; [exact S1|]. split; [exact P3|]. split; [exact S2|]. split; [exact O2|]. split; [|split].
  - intros p H1 H2. rewrite F2, (proj2 (str_eqb_neq p O) H2), L1, (proj2 (str_eqb_neq p F) H1). reflexivity.
  - rewrite F2, str_eqb_refl. reflexivity.
  - repeat (split; [assumption|]). intros g f. rewrite B7. assert (1 = 1)%Z by reflexivity. assert (~ (1 <> 1)%Z) by lia. tauto.
Qed.
