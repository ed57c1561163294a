(** Equal-length batches of a stored database when some part has none to give: what is served before the failure. *)
From Coq Require Import Strings.String.
From Verif Require Import Py PyLemmas PyStr NumpyModel DbModel DbSpec DbProofs DbBatchProofs JsonProofs BatchModel BatchSpec BatchProofs MultipartModel MultipartSpec MultipartProofs BatchIterModel BatchIterSpec BatchIterProofs EqLenSpec.
From Coq Require Import Lia Permutation.
Local Open Scope Z_scope.
Local Open Scope list_scope.

Lemma usable_dec (r : rec) : usable r \/ ~ usable r.
Proof.
  unfold usable. induction (snd r) as [|c cs IH]; [left; intros c []|]. destruct c as [|x c].
  - right. intros H. apply (H [] (or_introl eq_refl)). reflexivity.
  - destruct IH as [H|H]; [left|right].
    + intros c' [<-|Hc]; [discriminate|exact (H c' Hc)].
    + intros H2. apply H. intros c' Hc. apply H2. right. exact Hc.
Qed.
Lemma part_cases max_toks (c : list rec) : (exists e, spoilt max_toks c e) \/
  ((exists r, In r c /\ usable r) /\ forall r, In r c -> usable r -> longest r <= max_toks).
Proof.
  assert (H1 : (forall r, In r c -> ~ usable r) \/ exists r, In r c /\ usable r).
  { induction c as [|r c IH]; [left; intros r []|]. destruct (usable_dec r) as [H|H]; [right; exists r; split; [left; reflexivity|exact H]|].
    destruct IH as [IH|(r' & Hr & Hu)]; [left|right; exists r'; split; [right; exact Hr|exact Hu]]. intros r' [<-|Hr]; [exact H|exact (IH r' Hr)]. }
  assert (H2 : (exists r, In r c /\ usable r /\ max_toks < longest r) \/ forall r, In r c -> usable r -> longest r <= max_toks).
  { clear H1. induction c as [|r c IH]; [right; intros r []|]. destruct IH as [(r' & Hr & H)|IH]; [left; exists r'; split; [right; exact Hr|exact H]|].
    destruct (usable_dec r) as [H|H]; [destruct (Z.lt_ge_cases max_toks (longest r)) as [L|L]|].
    - left. exists r. split; [left; reflexivity|]. auto.
    - right. intros r' [<-|Hr] Hu; [exact L|exact (IH r' Hr Hu)].
    - right. intros r' [<-|Hr] Hu; [contradiction|exact (IH r' Hr Hu)]. }
  destruct H1 as [H1|H1]; [left; exists IndexError; left; auto|]. destruct H2 as [H2|H2]; [left; exists OtherError; right; auto|right; auto].
Qed.
Lemma yield_all_split {X A B} (f : X -> stream B) (g : A -> X) (Rel : A -> list B -> Prop) (Bad : A -> exn -> Prop) ts :
  (forall t, In t ts -> (exists out, f (g t) = (out, None) /\ Rel t out) \/ exists e, f (g t) = ([], Some e) /\ Bad t e) ->
  exists visited rest outs fin, ts = visited ++ rest /\ yield_all f (map g ts) = (concat outs, fin) /\ Forall2 Rel visited outs /\
    match rest with [] => fin = None | t :: _ => exists e, fin = Some e /\ Bad t e end.
Proof.
  induction ts as [|t ts IH]; intros H; [exists [], [], [], None; repeat split; constructor|]. destruct (H t (or_introl eq_refl)) as [(out & E & Hr)|(e & E & Hb)].
  - destruct IH as (visited & rest & outs & fin & Et & Ey & Hf & Hm); [intros t' Ht'; apply H; right; exact Ht'|].
    exists (t :: visited), rest, (out :: outs), fin. cbn [map yield_all concat app]. rewrite E, Ey, Et. repeat split; [constructor; assumption|exact Hm].
  - exists [], (t :: ts), [], (Some e). cbn [map yield_all concat app]. rewrite E. repeat split; [constructor|eauto].
Qed.
Lemma collect max_toks max_sents visited outs : Forall2 (eq_len_of max_toks max_sents) visited outs -> NoDup (p_all visited) ->
  exists groups, Forall2 (Forall2 same_record) groups (concat outs) /\ served max_toks max_sents (map p_recs visited) groups.
Proof.
  unfold served. intros Hf2 Hnd2. induction Hf2 as [|t out ts2 outs (gs & G1 & G2 & G3 & G4) Hf2 IH].
  - exists []. split; [constructor|]. split; [intros g []|]. split; [intros g []|]. split; [constructor|]. intros r. split; [intros []|intros [[] _]].
  - unfold p_all in *. cbn [map concat] in *. apply LearnBpeProofs.NoDup_app_iff in Hnd2. destruct Hnd2 as (_ & Hnd2 & Hdj).
    destruct (IH Hnd2) as (gs' & I1 & I2 & I3 & I4 & I5).
    exists (gs ++ gs'). split; [apply Forall2_app; assumption|]. split; [intros g Hg; apply in_app_or in Hg; destruct Hg; auto|]. split; [|split].
    + intros g Hg. apply in_app_or in Hg. destruct Hg as [Hg|Hg].
      * exists (p_recs t). split; [left; reflexivity|]. intros r Hr. apply G4. apply in_concat. exists g. auto.
      * destruct (I3 g Hg) as (c & Hc & Hi). exists c. split; [right; exact Hc|exact Hi].
    + rewrite concat_app. apply LearnBpeProofs.NoDup_app_iff. split; [exact G3|]. split; [exact I4|]. intros r H1 H2. apply G4 in H1. apply I5 in H2. apply (Hdj r); [apply H1|apply H2].
    + intros r. rewrite concat_app, !in_app_iff, G4, I5. tauto.
Qed.
Theorem finished_eq_len_outcome w names pad ts ts' keep shuffle arity m max_toks max_sents parts_order ids_order arranged shuffled :
  NoDup (map p_num ts) -> Permutation ts ts' -> ts <> [] -> Forall scalars names -> NoDup ([105%N; 100%N] :: names) -> names <> [] -> Forall (piece_ok names) ts -> NoDup (p_all ts) ->
  arity = None \/ arity = Some (length names) -> mdb_load (finished w names pad ts ts') arity keep shuffle = Ok m ->
  shuffles parts_order -> set_order ids_order -> arranges arranged -> shuffles shuffled -> match max_sents with Some m => 0 <= m | None => True end ->
  exists visited rest groups out fin, Permutation (map p_recs ts) (visited ++ rest) /\
    mdb_eq_len (finished w names pad ts ts') m parts_order max_toks max_sents ids_order arranged shuffled = (out, fin) /\
    Forall2 (Forall2 same_record) groups out /\ served max_toks max_sents visited groups /\
    match rest with [] => fin = None | c :: _ => exists e, fin = Some e /\ spoilt max_toks c e end.
Proof.
  intros Hnd Hp Hne Hn Hnn Hne' Hok Hall Har E Hpo Hio Harr Hsh Hms. rewrite load_finished in E by assumption.
  assert (En : (match arity with Some n => n | None => length names end) = length names) by (destruct Har as [->| ->]; reflexivity). rewrite En in E. injection E as <-.
  unfold mdb_eq_len, loaded. cbn [m_parts m_mem m_arity]. set (keep' := keep || Nat.eqb (length ts') 1). rewrite combine_map.
  destruct (Permutation_map_inv (fun t => (p_name pad t, if keep' then Some (p_db t) else None)) ts' (Permutation_sym (Hpo _))) as (ts2 & E2 & Hp2). rewrite E2.
  assert (Hpp : Permutation ts ts2) by (eapply perm_trans; eassumption).
  assert (Hsub : forall t, In t ts2 <-> In t ts) by (intros t; split; apply Permutation_in; [apply Permutation_sym|]; exact Hpp).
  set (f := fun pm : str * option db => match (match snd pm with Some p => Ok p | None => db_load (finished w names pad ts ts') (fst pm) end) with
               | Raise e => ([], Some e)
               | Ok p => part_eq_len (length names) p max_toks max_sents (ids_order p) arranged shuffled end).
  assert (Ef : forall t, In t ts -> f (p_name pad t, if keep' then Some (p_db t) else None) = part_eq_len (length names) (p_db t) max_toks max_sents (ids_order (p_db t)) arranged shuffled).
  { intros t Ht. unfold f. cbn [fst snd]. destruct keep'; [reflexivity|]. rewrite load_part by assumption. reflexivity. }
  pose proof (no_id_names _ Hnn) as Hnn'. rewrite Forall_forall in Hok.
  destruct (yield_all_split f (fun t => (p_name pad t, if keep' then Some (p_db t) else None)) (eq_len_of max_toks max_sents) (fun t e => spoilt max_toks (p_recs t) e) ts2) as (visited & rest & outs & fin & Et & Ey & Hf & Hm).
  { intros t Ht. apply Hsub in Ht. rewrite (Ef t Ht). destruct (part_cases max_toks (p_recs t)) as [(e & [(H & ->)|(H & ->)])|[H1 H2]].
    - right. exists IndexError. split; [|left; auto]. apply (proj1 (part_eq_len_fails names t max_toks max_sents _ arranged shuffled Hnn' Hne' (Hok t Ht) (Hio _) Harr Hms)). exact H.
    - right. exists OtherError. split; [|right; auto]. apply (proj2 (part_eq_len_fails names t max_toks max_sents _ arranged shuffled Hnn' Hne' (Hok t Ht) (Hio _) Harr Hms)). exact H.
    - left. apply part_eq_len_ok; auto. }
  assert (Hnd2 : NoDup (p_all ts2)) by (eapply Permutation_NoDup; [apply p_all_perm, Hpp|exact Hall]).
  assert (Hndv : NoDup (p_all visited)) by (rewrite Et in Hnd2; unfold p_all in *; rewrite map_app, concat_app in Hnd2; apply LearnBpeProofs.NoDup_app_iff in Hnd2; apply Hnd2).
  destruct (collect _ _ _ _ Hf Hndv) as (groups & G1 & G2).
  exists (map p_recs visited), (map p_recs rest), groups, (concat outs), fin. split; [rewrite <- map_app, <- Et; apply Permutation_map, Hpp|]. split; [exact Ey|]. split; [exact G1|]. split; [exact G2|].
  destruct rest as [|t rest]; cbn [map]; exact Hm.
Qed.
Theorem create_eq_len_outcome w names ow pad size (recs : list rec) d0 arity keep shuffle m max_toks max_sents parts_order ids_order arranged shuffled :
  lists w -> Forall scalars names -> storable names recs -> recs <> [] -> NoDup (map fst recs) -> 1 <= size -> d0 = None \/ d0 = Some [] \/ ow = true ->
  let d := now (mdb_create w names ow pad size (recs, None) d0) in
  arity = None \/ arity = Some (length names) -> mdb_load d arity keep shuffle = Ok m ->
  shuffles parts_order -> set_order ids_order -> arranges arranged -> shuffles shuffled -> match max_sents with Some m => 0 <= m | None => True end ->
  exists chunks visited rest groups out fin, chunked (Z.to_nat size) recs chunks /\ Permutation chunks (visited ++ rest) /\
    mdb_eq_len d m parts_order max_toks max_sents ids_order arranged shuffled = (out, fin) /\
    Forall2 (Forall2 same_record) groups out /\ served max_toks max_sents visited groups /\
    match rest with [] => fin = None | c :: _ => exists e, fin = Some e /\ spoilt max_toks c e end.
Proof.
  intros Hl Hn Hst Hr Hnd Hsz Hd0 d Har Eload Hpo Hio Harr Hsh Hms. unfold d in *. clear d.
  destruct (create_pieces w names ow pad size recs d0 Hl Hn Hst Hr Hnd Hsz (init_ok w ow d0 Hd0)) as (ts & ts' & chunks & Hch & Ech & Hnums & Hp & Hne & Hok & Hall & En & Ev).
  rewrite En in *. pose proof Hst as (Hnn & Hne' & _).
  assert (Hnda : NoDup (p_all ts)) by (rewrite Hall; apply NoDup_ids_recs, Hnd).
  destruct (finished_eq_len_outcome w names pad ts ts' keep shuffle arity m max_toks max_sents parts_order ids_order arranged shuffled Hnums Hp Hne Hn Hnn Hne' Hok Hnda Har Eload Hpo Hio Harr Hsh Hms) as (visited & rest & groups & out & fin & H1 & H).
  exists chunks, visited, rest, groups, out, fin. split; [exact Hch|]. split; [rewrite <- Ech; exact H1|exact H].
Qed.

Lemma source_outcome nx ny recs size keep src c toks sents : pairs_ok nx ny recs -> source_of nx ny recs size keep src -> fair c -> match sents with Some m => 0 <= m | None => True end ->
  exists parts visited rest groups exss fin, parts_of size recs parts /\ Permutation parts (visited ++ rest) /\
    eq_len_of_source src toks sents c = (exss, fin) /\ Forall2 (Forall2 example_of) groups exss /\ served toks sents visited groups /\
    match rest with [] => fin = None | part :: _ => exists e, fin = Some e /\ spoilt toks part e end.
Proof.
  intros Hpk Hs Hfair Hms. destruct Hs as [p keep Ep|w ow pad sz d0 files m keep Hl Hsz Hd0 En Em].
  - destruct (part_cases toks recs) as [(e & He)|[Hex Hle]].
    + exists [recs], [], [recs], [], [], (Some e). split; [reflexivity|]. split; [apply Permutation_refl|]. split; [|split; [constructor|split; [|eauto]]].
      * pose proof (pairs_storable _ _ _ Hpk) as (Hst & Hsc & Hxy). pose proof Hpk as (Hne & Hnd & Hnn & _ & _ & Hw & Hc & Hm). destruct Hfair as (Hpo & Hio & Harr & Hsh).
        assert (Hnd2 : NoDup [nx; ny]) by (constructor; [intros [H|[]]; congruence|constructor; [intros []|constructor]]).
        destruct (eq_len_ids [nx; ny] recs p toks sents (ids_order c p) (arranged c) (file_db _ _ _ _ Hpk Ep) Hnd2 ltac:(discriminate) Hw Hnd (Hio p) Harr Hms) as (H1 & H2 & _).
        unfold eq_len_of_source, eq_len_examples. destruct He as [(H & ->)|(H & ->)]; [rewrite (H1 H)|rewrite (H2 H)]; reflexivity.
      * split; [intros g []|]. split; [intros g []|]. split; [constructor|]. intros r. split; [intros []|intros [[] _]].
    + destruct (file_eq_len nx ny recs p c toks sents Hpk Ep Hfair Hms) as [H1 _]. destruct (H1 Hex Hle) as (groups & exss & E & Ho & Hlim & Hn & Hin).
      exists [recs], [recs], [], groups, exss, None. split; [reflexivity|]. split; [apply Permutation_refl|]. split; [exact E|]. split; [exact Ho|]. split; [|reflexivity].
      split; [exact Hlim|]. split; [intros g Hg; exists recs; split; [left; reflexivity|intros r Hr; apply Hin, in_concat; eauto]|]. split; [exact Hn|]. cbn [concat]. rewrite app_nil_r. exact Hin.
  - pose proof (pairs_storable _ _ _ Hpk) as (Hst & Hsc & Hxy). pose proof Hpk as (Hne & Hnd & Hnn & _ & _ & Hw & Hc & Hm). pose proof Hfair as (Hpo & Hio & Harr & Hsh).
    pose proof (create_eq_len_outcome w [nx; ny] ow pad sz recs d0 (Some 2%nat) keep false m toks sents (parts_order c) (ids_order c) (arranged c) (shuffled c) Hl Hsc Hst Hne Hnd Hsz Hd0) as Hce. rewrite En in Hce.
    destruct (Hce (or_intror eq_refl) Em Hpo Hio Harr Hsh Hms) as (chunks & visited & rest & groups & out & fin & Hch & Hpv & E & Ho & Hserved & Hfin).
    assert (Hsane : Forall (Forall sane_rec) out).
    { destruct (create_pieces w [nx; ny] ow pad sz recs d0 Hl Hsc Hst Hne Hnd Hsz (init_ok w ow d0 Hd0)) as (ts & ts' & chunks' & _ & _ & Hnums & Hp & Htne & Hok & Hall & Ef & _). rewrite En in Ef.
      assert (Eload : mdb_load (Some files) (Some 2%nat) keep false = Ok (loaded pad ts' 2 keep false)) by (rewrite Ef; apply (load_finished w [nx; ny] pad ts ts' (Some 2%nat) keep false); assumption).
      rewrite Em in Eload. assert (m = loaded pad ts' 2 keep false) by congruence. subst m. rewrite Ef in E.
      pose proof (eq_len_sane w nx ny pad ts ts' keep Hnums Hp Hok Hxy ltac:(rewrite Hall; exact Hc) (parts_order c) toks sents (ids_order c) (arranged c) (shuffled c) Hpo) as H. rewrite E in H. exact H. }
    destruct (groups_exist groups out Ho Hsane) as (exss & Ex & Hf). exists chunks, visited, rest, groups, exss, fin. cbn [eq_len_of_source]. rewrite E, (over_stream_ok _ _ _ _ Ex).
    split; [exact Hch|]. split; [exact Hpv|]. split; [reflexivity|]. split; [exact Hf|]. split; [exact Hserved|exact Hfin].
Qed.
Theorem iterate_eq_len_outcome nx ny recs size n is_path bs bm sd bf sort_by keep it c : pairs_ok nx ny recs -> stored nx ny recs size n -> fair c -> sane_meta bm ->
  match snd (limits bs) with Some m => 0 <= m | None => True end ->
  (forall r, In r recs -> usable r -> wanted bm r) -> strategy_of sort_by = Ok EqLen -> open_iterable n is_path bs bm sd bf sort_by keep = Ok it ->
  exists parts visited rest groups out fin, parts_of size recs parts /\ Permutation parts (visited ++ rest) /\
    iterate it c = (out, fin) /\ Forall2 (shows bm sd bf) groups out /\ served (fst (limits bs)) (snd (limits bs)) visited groups /\
    match rest with [] => fin = None | part :: _ => exists e, fin = Some e /\ spoilt (fst (limits bs)) part e end.
Proof.
  intros Hpk Hst Hfair Hm Hms Hw Eh Eo. destruct (open_source _ _ _ _ _ _ _ _ _ _ _ _ _ Hst Eo) as (Hsrc & Em & Et & Es & Ed & Ef & Eh'). rewrite Eh in Eh'. assert (Ehow : it_how it = EqLen) by congruence.
  set (toks := fst (limits bs)) in *. set (sents := snd (limits bs)) in *.
  destruct (source_outcome nx ny recs size keep (it_data it) c toks sents Hpk Hsrc Hfair Hms) as (parts & visited & rest & groups & exss & fin & Hparts & Hpv & E & Ho & Hserved & Hfin).
  assert (Eit : iterate it c = (let (groups, fin) := eq_len_of_source (it_data it) toks sents c in wrap bm sd bf groups fin)).
  { unfold iterate. rewrite Ehow, Em, Et, Es, Ed, Ef. reflexivity. }
  assert (Hsub : forall r, In r (concat visited) -> In r recs).
  { intros r Hr. assert (Hr' : In r (concat parts)) by (eapply Permutation_in; [apply concat_perm, Permutation_sym, Hpv|]; rewrite concat_app; apply in_or_app; left; exact Hr).
    destruct size as [sz|]; cbn [parts_of] in Hparts; [destruct Hparts as (Ec & _); rewrite Ec in Hr'; exact Hr'|subst parts; cbn [concat] in Hr'; rewrite app_nil_r in Hr'; exact Hr']. }
  destruct (groups_ok bm sd bf groups exss fin Hm Ho) as (out & Ew & Hsh).
  { destruct Hserved as (S1 & _ & _ & S4). intros g Hg. split; [apply (S1 g Hg)|]. apply Forall_forall. intros r Hr. assert (Hr' : In r (concat groups)) by (apply in_concat; eauto).
    apply S4 in Hr'. apply Hw; [apply Hsub|]; apply Hr'. }
  exists parts, visited, rest, groups, out, fin. rewrite Eit, E, Ew. split; [exact Hparts|]. split; [exact Hpv|]. split; [reflexivity|]. split; [exact Hsh|]. split; [exact Hserved|exact Hfin].
Qed.
