(** Property theorems about the command lines of nlcodec-learn, nlcodec-freq and nlcodec-bitextdb (C150-C152). *)
From Coq Require Import Strings.String QArith.
From Verif Require Import Py PyStr PyLemmas StrSpec Utf8Model JsonProofs CodecModel VocabFileModel LearnModel ArithModel DriverModel DriverSpec PropsDriver FreqModel EvalModel
     MultipartModel BitextModel MainModel PropsMain ArgModel ArgSpec CmdModel CmdSpec ArgProofs PropsArg ToolModel ToolSpec ToolProofs ToolEnd ToolChain.
Local Open Scope list_scope.

(** Spark's lines of an ASCII file, for the examples. *)
Fixpoint ex_lines (b : list N) : list str :=
  match b with
  | [] => []
  | c :: b' => if N.eqb c 10 then [] :: ex_lines b'
               else match ex_lines b' with [] => [[c]] | l :: r => (c :: l) :: r end
  end.
Definition nl : string := String (Ascii.ascii_of_nat 10) EmptyString.
Definition ex_disk : ArgModel.files := [(lit "a.txt", lit ("a b" ++ nl ++ "a" ++ nl ++ "a" ++ nl)); (lit "b.txt", lit ("c" ++ nl))]%string.
Definition ex_learn := learn_program arithQ as_is (lit "1") (lit "0") sp_plain ex_sys ex_lines.
Definition ex_freq := freq_program (A := arithQ) sp_plain ex_sys ex_lines.
Definition ex_nlcodec := program arithQ as_is (lit "1") (lit "0") ex_sys.

(** *** C150: nlcodec-learn, nlcodec-freq and nlcodec-bitextdb do what their command lines say. *)
Theorem C150_learn : forall (A : arith) orders version now sp (Y : system A) lines fs l,
  Forall (lsensible (y_env Y)) l -> (exists p, In (LModel p) (map snd l)) ->
  (forall b b', In (LDedup b) (map snd l) -> In (LDedup b') (map snd l) -> b = b') ->
  let q := fold_left lask (map snd l) lnothing in
  exists model e f', l_model q = Some model /\ learn_program A orders version now sp Y lines fs (flat_map lwords l) = Some e /\
    learns A orders version now sp Y lines (lookup fs) q model f' (x_exc e) /\ (forall p, lookup (x_files e) p = f' p) /\
    x_status e = (match x_exc e with None => 0%Z | Some _ => 1%Z end) /\ x_stdout e = [] /\ x_printed e = None.
Proof. exact learn_does. Qed.
Theorem C150_freq : forall (A : arith) sp (Y : system A) lines fs l,
  Forall (fsensible (y_env Y)) l ->
  let q := fold_left fask (map snd l) fnothing in
  let f := fold_left fopens (map snd l) (lookup fs) in
  exists e f', freq_program sp Y lines fs (flat_map fwords l) = Some e /\
    counts_to sp Y lines f q f' (x_stdout e) (x_exc e) /\ (forall p, lookup (x_files e) p = f' p) /\
    x_status e = (match x_exc e with None => 0%Z | Some _ => 1%Z end) /\ x_printed e = None.
Proof. exact @freq_does. Qed.
Theorem C150_bitext : forall (A : arith) w cl pad (Y : system A) lines fs l,
  Forall bsensible l ->
  (exists p, In (BSrcModel p) (map snd l)) -> (exists p, In (BSrcText p) (map snd l)) -> (exists p, In (BTgtText p) (map snd l)) -> (exists p, In (BDb p) (map snd l)) ->
  (forall b b', In (BTruncate b) (map snd l) -> In (BTruncate b') (map snd l) -> b = b') ->
  let q := fold_left bask (map snd l) bnothing in
  exists sm xt yt db r, b_sm q = Some sm /\ b_st q = Some xt /\ b_tt q = Some yt /\ b_db q = Some db /\
    bitext_program w cl pad Y lines fs (flat_map bwords l) = Some r /\ starts w cl pad lines (lookup fs) q sm xt yt db r.
Proof. exact @bitext_does. Qed.
(* the names beside the model *)
Theorem C150_names : forall p suffix w, with_suffix p suffix = Some w <-> beside p suffix w.
Proof. exact with_suffix_beside. Qed.
(* a learning run changes the model and the two names beside it, and nothing else *)
Theorem C150_changes : forall (A : arith) orders version now sp (Y : system A) lines fs l e p,
  Forall (lsensible (y_env Y)) l -> (exists p, In (LModel p) (map snd l)) ->
  (forall b b', In (LDedup b) (map snd l) -> In (LDedup b') (map snd l) -> b = b') ->
  learn_program A orders version now sp Y lines fs (flat_map lwords l) = Some e -> lookup (x_files e) p <> lookup fs p ->
  exists model, l_model (fold_left lask (map snd l) lnothing) = Some model /\ (p = model \/ beside model (lit ".wordfreq.gz") p \/ beside model (lit ".charfreq.gz") p).
Proof. exact learn_changes. Qed.

Lemma ex_plain (s : string) : match lit s with [] => True | c :: _ => c <> 45%N end -> plain (lit s).
Proof. intros H. left. intros r E. rewrite E in H. apply H. reflexivity. Qed.
Ltac ok_settings := repeat (constructor; [split; [intros _; repeat (constructor; [first [apply ex_plain; discriminate|left; intros r; discriminate]|]); constructor|cbn; first [exact I|discriminate|tauto|auto 10]]|]); constructor.
Definition ex_lset : list (style * lset) :=
  [(Short, LInp [lit "a.txt"; lit "b.txt"]); (Equals, LModel (lit "out/m.model")); (Long, LLevel (lit "word")); (Short, LVocabSize 7); (Long, LDedup true); (Short, LMem (lit "1g"))].
Example C150_ex_learn : Forall (lsensible ex_env) ex_lset /\
  flat_map lwords ex_lset = ws ["-i"; "a.txt"; "b.txt"; "--model=out/m.model"; "--level"; "word"; "-vs"; "7"; "--dedup"; "-dm"; "1g"]%string /\
  exists e, ex_learn ex_disk (ws ["-i"; "a.txt"; "b.txt"; "--model=out/m.model"; "--level"; "word"; "-vs"; "7"; "--dedup"; "-dm"; "1g"]%string) = Some e /\
    x_exc e = None /\ map fst (x_files e) = ws ["a.txt"; "b.txt"; "out/m.wordfreq.gz"; "out/m.charfreq.gz"; "out/m.model"]%string /\
    option_map (skipn 44) (lookup (x_files e) (lit "out/m.wordfreq.gz")) = Some (lit ("a	2" ++ nl ++ "b	1" ++ nl ++ "c	1" ++ nl)%string).
Proof. split; [unfold ex_lset; ok_settings|]. split; [reflexivity|]. eexists. split; [vm_compute; reflexivity|]. repeat split; vm_compute; reflexivity. Qed.
Example C150_ex_names : beside (lit "out.d/m.v1.model") (lit ".wordfreq.gz") (lit "out.d/m.v1.wordfreq.gz") /\ beside (lit "out.d/.m") (lit ".wordfreq.gz") (lit "out.d/.m.wordfreq.gz").
Proof. split; apply with_suffix_beside; reflexivity. Qed.
Definition ex_fset : list (style * fset) := [(Long, FInp [lit "a.txt"; lit "b.txt"]); (Equals, FWords (lit "w")); (Short, FChars (lit "-")); (Short, FDedup false)].
Example C150_ex_freq : Forall (fsensible ex_env) ex_fset /\
  flat_map fwords ex_fset = ws ["--inp"; "a.txt"; "b.txt"; "--word_freqs=w"; "-cf"; "-"; "-ndd"]%string /\
  exists e, ex_freq ex_disk (ws ["--inp"; "a.txt"; "b.txt"; "--word_freqs=w"; "-cf"; "-"; "-ndd"]%string) = Some e /\ x_exc e = None /\
    x_files e = ex_disk ++ [(lit "w", lit ("#{""types"": 3, ""tokens"": 5, ""line_count"": 4}" ++ nl ++ "a	3" ++ nl ++ "b	1" ++ nl ++ "c	1" ++ nl)%string)] /\
    x_stdout e = lit ("#{""types"": 3, ""tokens"": 5, ""line_count"": 4}" ++ nl ++ "a	3" ++ nl ++ "b	1" ++ nl ++ "c	1" ++ nl)%string.
Proof.
  split.
  { unfold ex_fset. constructor; [split; [intros _; repeat (constructor; [apply ex_plain; discriminate|]); constructor|discriminate]|].
    constructor; [split; [intros [H|H]; [destruct H; reflexivity|destruct H; reflexivity]|right; reflexivity]|].
    constructor; [split; [intros _; constructor; [right; left; reflexivity|constructor]|left; reflexivity]|].
    constructor; [split; [intros _; constructor|exact I]|]. constructor. }
  split; [reflexivity|]. eexists. split; [vm_compute; reflexivity|]. repeat split; vm_compute; reflexivity.
Qed.
Definition ex_bset : list (style * bset) :=
  [(Short, BSrcModel (lit "a.txt")); (Short, BSrcText (lit "a.txt")); (Long, BTgtText (lit "b.txt")); (Equals, BDb (lit "db")); (Short, BParts 2); (Long, BTruncate false)].
Example C150_ex_bitext : Forall bsensible ex_bset /\
  flat_map bwords ex_bset = ws ["-sm"; "a.txt"; "-st"; "a.txt"; "--tgt-text"; "b.txt"; "--db=db"; "-np"; "2"; "--no-truncate"]%string /\
  fold_left bask (map snd ex_bset) bnothing = MkBasked (Some (lit "a.txt")) None (Some (lit "a.txt")) (Some (lit "b.txt")) (Some (lit "db")) 2 (lit "x") (lit "y") 256 256 false.
Proof.
  split; [|split; reflexivity]. unfold ex_bset.
  repeat (constructor; [intros _; cbn; repeat (constructor; [first [apply ex_plain; discriminate|left; intros r; discriminate]|]); constructor|]). constructor.
Qed.

(** *** C151: models with different names are learned independently.
    Full statement: after learning one model, learning another under a different name does what it would have done without
    the first. It fails (below) for names that differ in their extension only. What holds: it does when none of the files the
    first run leaves is the second's model, beside it, or among its inputs. *)
Theorem C151_independent_partial : forall (A : arith) orders version now sp (Y : system A) lines fs l1 e1 l2,
  Forall (lsensible (y_env Y)) l1 -> (exists p, In (LModel p) (map snd l1)) ->
  (forall b b', In (LDedup b) (map snd l1) -> In (LDedup b') (map snd l1) -> b = b') ->
  Forall (lsensible (y_env Y)) l2 -> (exists p, In (LModel p) (map snd l2)) ->
  (forall b b', In (LDedup b) (map snd l2) -> In (LDedup b') (map snd l2) -> b = b') ->
  learn_program A orders version now sp Y lines fs (flat_map lwords l1) = Some e1 ->
  let q1 := fold_left lask (map snd l1) lnothing in
  let q2 := fold_left lask (map snd l2) lnothing in
  (forall m1 m2 p, l_model q1 = Some m1 -> l_model q2 = Some m2 ->
     p = m1 \/ beside m1 (lit ".wordfreq.gz") p \/ beside m1 (lit ".charfreq.gz") p ->
     p <> m2 /\ ~ beside m2 (lit ".wordfreq.gz") p /\ ~ beside m2 (lit ".charfreq.gz") p /\ (forall ps, l_inp q2 = Some ps -> ~ In p ps)) ->
  exists e e2, learn_program A orders version now sp Y lines fs (flat_map lwords l2) = Some e /\
    learn_program A orders version now sp Y lines (x_files e1) (flat_map lwords l2) = Some e2 /\
    x_exc e2 = x_exc e /\ x_status e2 = x_status e /\
    forall m2 p, l_model q2 = Some m2 -> p = m2 \/ beside m2 (lit ".wordfreq.gz") p \/ beside m2 (lit ".charfreq.gz") p ->
      lookup (x_files e2) p = lookup (x_files e) p.
Proof. exact learn_twice. Qed.
(* whatever else is on the disk does not matter *)
Theorem C151_depends : forall (A : arith) orders version now sp (Y : system A) lines fs fs' l,
  Forall (lsensible (y_env Y)) l -> (exists p, In (LModel p) (map snd l)) ->
  (forall b b', In (LDedup b) (map snd l) -> In (LDedup b') (map snd l) -> b = b') ->
  let q := fold_left lask (map snd l) lnothing in
  (forall model s, l_model q = Some model -> stats_name q model s -> (lookup fs s = None <-> lookup fs' s = None)) ->
  (forall ps p, l_inp q = Some ps -> In p ps -> lookup fs p = lookup fs' p) ->
  (forall model, l_model q = Some model -> lookup fs model = lookup fs' model) ->
  exists e e', learn_program A orders version now sp Y lines fs (flat_map lwords l) = Some e /\
    learn_program A orders version now sp Y lines fs' (flat_map lwords l) = Some e' /\
    x_exc e = x_exc e' /\ x_status e = x_status e' /\ forall p, lookup fs p = lookup fs' p -> lookup (x_files e) p = lookup (x_files e') p.
Proof. exact learn_depends. Qed.
Theorem C151_independent_refuted : exists e1 e2 e,
  ex_learn ex_disk (ws ["-i"; "a.txt"; "-m"; "m.a"; "-l"; "word"]%string) = Some e1 /\ x_exc e1 = None /\
  ex_learn ex_disk (ws ["-i"; "b.txt"; "-m"; "m.b"; "-l"; "word"]%string) = Some e /\ x_exc e = None /\ lookup (x_files e) (lit "m.b") <> None /\
  ex_learn (x_files e1) (ws ["-i"; "b.txt"; "-m"; "m.b"; "-l"; "word"]%string) = Some e2 /\ x_exc e2 = Some TypeError /\ lookup (x_files e2) (lit "m.b") = None.
Proof.
  eexists. eexists. eexists. split; [vm_compute; reflexivity|]. split; [reflexivity|]. split; [vm_compute; reflexivity|]. split; [reflexivity|].
  split; [vm_compute; discriminate|]. split; [vm_compute; reflexivity|]. split; reflexivity.
Qed.
Example C151_ex : forall p, p = lit "m.model" \/ beside (lit "m.model") (lit ".wordfreq.gz") p \/ beside (lit "m.model") (lit ".charfreq.gz") p ->
  p <> lit "n.model" /\ ~ beside (lit "n.model") (lit ".wordfreq.gz") p /\ ~ beside (lit "n.model") (lit ".charfreq.gz") p.
Proof.
  intros p H. rewrite <- !with_suffix_beside in *. cbn -[lit] in H |- *.
  destruct H as [->|[H|H]]; [|injection H as <-|injection H as <-]; repeat split; vm_compute; discriminate.
Qed.

(** *** C152: nlcodec-freq and nlcodec learn on its output give the model nlcodec-learn gives.
    Full statement: with the same options. It fails (below): nlcodec-freq counts distinct lines unless told otherwise,
    nlcodec-learn all lines. What holds: it does when the two agree on that. *)
Theorem C152_two_steps_partial : forall (A : arith) orders version now sp (Y : system A) lines fs stdin lf before after l,
  spark_counting sp -> (forall t b, utf8_encode t = Ok b -> y_text Y (y_bytes Y t) = t) ->
  Forall (fsensible (y_env Y)) lf ->
  Forall (lsensible (y_env Y)) l -> (forall b b', In (LDedup b) (map snd l) -> In (LDedup b') (map snd l) -> b = b') ->
  let qf := fold_left fask (map snd lf) fnothing in
  let qm := fold_left ask (map snd (before ++ after)) nothing_asked in
  let q := fold_left lask (map snd l) lnothing in
  forall ps W C M,
  (exists p, In (LModel p) (map snd l)) -> (exists p, In (SModel p) (map snd (before ++ after))) ->
  f_inp qf = Some ps -> f_wf qf = Some (File W) -> f_cf qf = Some (File C) -> W <> C ->
  (forall p, In (FWords p) (map snd lf) -> p = W) -> (forall p, In (FChars p) (map snd lf) -> p = C) ->
  l_inp q = Some ps -> l_model q = Some M -> l_dedup q = f_dd qf ->
  q_model qm = Some M -> q_tfs qm = true -> q_inp qm = Some (if str_eqb (l_level q) (lit "char") then C else W) -> (forall p, ~ In (SOut p) (map snd (before ++ after))) ->
  q_level qm = Some (l_level q) -> q_vs qm = l_vs q -> q_mf qm = l_mf q -> q_cv qm = l_cv q -> q_mce qm = l_mce q ->
  ps <> [] -> (forall p, In p ps -> p <> W /\ p <> C /\ exists b, lookup fs p = Some b /\ forall r, In r (lines b) -> scalars r) ->
  M <> W -> M <> C -> (forall s, stats_name q M s -> lookup fs s = None) -> (exists s, stats_name q M s) ->
  exists e1 e3, freq_program sp Y lines fs (flat_map fwords lf) = Some e1 /\ learn_program A orders version now sp Y lines fs (flat_map lwords l) = Some e3 /\
    match x_exc e1 with
    | Some e => x_exc e3 = Some e /\ lookup (x_files e3) M = lookup fs M
    | None => Forall (sensible (y_env Y) (lookup (x_files e1))) (before ++ after) -> exists e2,
        program A orders version now Y (x_files e1) stdin (flat_map CmdSpec.words_of before ++ [lit "learn"] ++ flat_map CmdSpec.words_of after) = Some e2 /\
        x_exc e2 = x_exc e3 /\ x_status e2 = x_status e3 /\ lookup (x_files e2) M = lookup (x_files e3) M
    end.
Proof. exact two_steps. Qed.
Example C152_ex_hyps : (forall t b, utf8_encode t = Ok b -> y_text ex_sys (y_bytes ex_sys t) = t) /\ spark_counting sp_plain /\
  (forall p, In p [lit "a.txt"; lit "b.txt"] -> p <> lit "w" /\ p <> lit "c" /\ exists b, lookup ex_disk p = Some b /\ forall r, In r (ex_lines b) -> scalars r) /\
  (forall s, stats_name (fold_left lask [LInp [lit "a.txt"; lit "b.txt"]; LModel (lit "m"); LLevel (lit "word"); LDedup true] lnothing) (lit "m") s -> lookup ex_disk s = None).
Proof.
  split; [reflexivity|]. split; [exact sp_plain_ok|]. split.
  - intros p [<-|[<-|[]]]; (split; [discriminate|]); (split; [discriminate|]); eexists; (split; [vm_compute; reflexivity|]); intros r Hr; vm_compute in Hr;
      repeat (destruct Hr as [<-|Hr]; [repeat constructor|]); destruct Hr.
  - intros s Hs. apply with_suffix_beside in Hs. vm_compute in Hs. injection Hs as <-. reflexivity.
Qed.
Example C152_ex_run : exists e1 e2 e3,
  ex_freq ex_disk (ws ["-i"; "a.txt"; "b.txt"; "-wf"; "w"; "-cf"; "c"]%string) = Some e1 /\ x_exc e1 = None /\
  ex_nlcodec (x_files e1) [] (ws ["learn"; "-tfs"; "-i"; "w"; "-m"; "m"; "-l"; "word"]%string) = Some e2 /\ x_exc e2 = None /\
  ex_learn ex_disk (ws ["-i"; "a.txt"; "b.txt"; "-m"; "m"; "-l"; "word"; "--dedup"]%string) = Some e3 /\ x_exc e3 = None /\
  lookup (x_files e2) (lit "m") = lookup (x_files e3) (lit "m") /\ lookup (x_files e3) (lit "m") <> None.
Proof.
  eexists. eexists. eexists. split; [vm_compute; reflexivity|]. split; [reflexivity|]. split; [vm_compute; reflexivity|]. split; [reflexivity|].
  split; [vm_compute; reflexivity|]. split; [reflexivity|]. split; vm_compute; [reflexivity|discriminate].
Qed.
(* the same options, none about distinct lines *)
Theorem C152_two_steps_refuted : exists e1 e2 e3,
  ex_freq ex_disk (ws ["-i"; "a.txt"; "-wf"; "w"]%string) = Some e1 /\ x_exc e1 = None /\
  ex_nlcodec (x_files e1) [] (ws ["learn"; "-tfs"; "-i"; "w"; "-m"; "m"; "-l"; "word"]%string) = Some e2 /\ x_exc e2 = None /\
  ex_learn ex_disk (ws ["-i"; "a.txt"; "-m"; "m"; "-l"; "word"]%string) = Some e3 /\ x_exc e3 = None /\
  lookup (x_files e2) (lit "m") <> lookup (x_files e3) (lit "m").
Proof.
  eexists. eexists. eexists. split; [vm_compute; reflexivity|]. split; [reflexivity|]. split; [vm_compute; reflexivity|]. split; [reflexivity|].
  split; [vm_compute; reflexivity|]. split; [reflexivity|]. vm_compute. discriminate.
Qed.

Print Assumptions C150_learn.
Print Assumptions C150_freq.
Print Assumptions C150_bitext.
Print Assumptions C150_names.
Print Assumptions C150_changes.
Print Assumptions C151_independent_partial.
Print Assumptions C151_depends.
Print Assumptions C151_independent_refuted.
Print Assumptions C152_two_steps_partial.
Print Assumptions C152_two_steps_refuted.
