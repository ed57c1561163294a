(** Property theorems about command lines (C145-C147, C149). *)
From Coq Require Import Strings.String QArith.
From Verif Require Import Py PyStr PyLemmas CodecModel LearnModel ArithModel EvalModel MainModel PropsMain ArgModel ArgSpec CmdModel CmdSpec
     ArgProofs ArgSound CmdProofs CmdEnd AbbrevProofs.
Local Open Scope list_scope.

(** A system for the examples: text files are ASCII, float() takes digits and dots, everything is writable. *)
Definition ex_env : env := MkEnv (fun s => match s with [] => false | _ => forallb (fun c => N.eqb c 46 || (N.leb 48 c && N.leb c 57)) s end) (fun _ => true).
Definition ex_sys : system arithQ := MkSystem (A := arithQ) ex_env (fun b => b) (fun s => s) (fun _ => None).
Definition ex_prog := program arithQ as_is (lit "0.5.1") (lit "now") ex_sys.
Definition ex_files : files := [(lit "text", ex_text); (lit "m", ex_bytes "word"); (lit "old", lit "old text")].
Definition ws := map lit.

(** *** C145: a command line in the documented form does what it says. *)
Theorem C145_nlcodec : forall (A : arith) (Y : system A) orders version now fs stdin before task after,
  In task (map lit ["learn"; "encode"; "decode"; "estimate"]%string) -> Forall (sensible (y_env Y) (lookup fs)) (before ++ after) ->
  (exists p, In (SModel p) (map snd (before ++ after))) ->
  let q := fold_left ask (map snd (before ++ after)) nothing_asked in
  let f := fold_left opens (map snd (before ++ after)) (lookup fs) in
  exists model e, q_model q = Some model /\
    let r := main A orders version now (f model) (asked_options Y f stdin task q) in
    program A orders version now Y fs stdin (flat_map words_of before ++ [task] ++ flat_map words_of after) = Some e /\
    x_status e = match r_exc r with None => 0%Z | Some _ => 1%Z end /\
    x_exc e = r_exc r /\ x_printed e = r_printed r /\
    x_stdout e = match q_out q with None => r_out r | Some _ => [] end /\
    (forall p, lookup (x_files e) p = left_on_disk Y f task model q r p).
Proof. exact nlcodec_understood. Qed.
(* the same for the namespace of every parser of the package *)
Theorem C145_any_parser : forall P E fs bs pos asg f',
  In P [main_parser; learn_parser; freq_parser; bitext_parser; codec_parser; oov_parser; gram_parser; recall_parser; ux_parser; fix_parser] ->
  Forall (well_said P) bs ->
  (positionals P = [pos] /\ words bs <= 1 /\ no_many P)%nat \/ (positionals P = [] /\ words bs = 0%nat) ->
  asks E pos bs (lookup fs) asg f' -> no_clash asg -> complete P asg ->
  exists ns fs', parse_args P E fs (flat_map written bs) = Some (Parsed ns fs') /\ (forall p, lookup fs' p = f' p) /\
    (forall d v, default_of d P = Some v -> dget str_eqb d ns = Some (last_given d asg v)).
Proof. intros P E fs bs pos asg f' HP. apply understood. apply parsers_proper. exact HP. Qed.
Definition ex_before : list (style * setting) := [(Short, SInp (lit "text")); (Equals, SModel (lit "m"))].
Definition ex_after : list (style * setting) := [(Long, SOut (lit "old")); (Short, SIndices); (Long, SVocabSize (-1))].
Example C145_ex_words : flat_map words_of ex_before ++ [lit "encode"] ++ flat_map words_of ex_after =
  ws ["-i"; "text"; "--model=m"; "encode"; "--out"; "old"; "-idx"; "--vocab-size"; "-1"]%string.
Proof. reflexivity. Qed.
Example C145_ex_hyps : Forall (sensible ex_env (lookup ex_files)) (ex_before ++ ex_after) /\
  (exists p, In (SModel p) (map snd (ex_before ++ ex_after))).
Proof.
  split; [|exists (lit "m"); right; left; reflexivity].
  assert (PL : forall s : string, (match lit s with [] => True | c :: _ => c <> 45%N end) -> plain (lit s)).
  { intros s H. left. intros r E. rewrite E in H. apply H. reflexivity. }
  constructor; [split; [right; vm_compute; discriminate|intros _; apply PL; discriminate]|].
  constructor; [split; [exact I|intros H; destruct H; reflexivity]|].
  constructor; [split; [right; reflexivity|intros _; apply PL; discriminate]|].
  constructor; [split; [exact I|intros _; exact I]|]. constructor; [split; [exact I|intros _; exact I]|]. constructor.
Qed.
Example C145_ex_run :
  ex_prog ex_files (lit "") (ws ["-i"; "text"; "--model=m"; "encode"; "--out"; "old"; "-idx"; "--vocab-size"; "-1"]%string) =
  Some (MkEnding 0 [(lit "text", ex_text); (lit "m", ex_bytes "word"); (lit "old", lit "7 6" ++ [10%N] ++ lit "6 6 8" ++ [10%N])] [] None None) /\
  option_map (fun e => (x_status e, x_stdout e)) (ex_prog ex_files (lit "lo lo") (ws ["encode"; "-m"; "m"]%string)) = Some (0%Z, lit "lo lo" ++ [10%N]).
Proof. split; vm_compute; reflexivity. Qed.
Example C145_ex_parser : exists ns,
  parse_args freq_parser ex_env ex_files (ws ["--inp"; "a"; "b"; "-wf"; "w"; "-nd"]%string) = Some (Parsed ns (ex_files ++ [(lit "w", [])])) /\
  get ns "inp" = Some (VMany [VText (lit "a"); VText (lit "b")]) /\ get ns "word_freqs" = Some (VOut (lit "w")) /\ get ns "dedup" = Some (VBool false).
Proof. eexists. split; [vm_compute; reflexivity|]. repeat split; vm_compute; reflexivity. Qed.

(** *** C146: only documented command lines are accepted; any other ends with status 2.
    Full statement: every accepted line is in the documented form. It fails (below): names may be cut short
    and run into their argument. What is proved of every line: *)
Theorem C146_accepted_partial : forall E fs argv ns fs', parse_args main_parser E fs argv = Some (Parsed ns fs') ->
  exists task model q, In task (map lit ["learn"; "encode"; "decode"; "estimate"]%string) /\ q_model q = Some model /\ from argv model /\
    (forall l, q_level q = Some l -> In l (map lit ["char"; "word"; "bpe"; "class"; "byte"]%string)) /\
    (forall p, q_out q = Some p -> from argv p) /\ (forall p, q_inp q = Some p -> from argv p) /\
    get ns "task" = Some (VText task) /\ (forall d, get ns (dest_of d) = Some (field_value q d)) /\ emptied argv fs fs'.
Proof. exact accepted_means. Qed.
Theorem C146_ends_partial : forall P E fs argv,
  In P [main_parser; learn_parser; freq_parser; bitext_parser; codec_parser; oov_parser; gram_parser; recall_parser; ux_parser; fix_parser] ->
  exists r, parse_args P E fs argv = Some r /\
    match r with Parsed _ fs' => emptied argv fs fs' | Exited c fs' => emptied argv fs fs' /\ (c = 0 \/ c = 2)%Z end.
Proof. intros P E fs argv HP. apply parse_total. apply parsers_simple. exact HP. Qed.
(* a word with two dashes, before any '--' and without a blank, whose part before '=' no name begins with *)
Theorem C146_unknown_option : forall P E fs before w after ns fs',
  ~ In (lit "--") before -> w <> lit "--" -> (exists r, w = lit "--" ++ r) -> ~ In 32%N w ->
  (forall o n, In o P -> In n (a_names o) -> forall a b, w = a ++ b -> (b = [] \/ exists c, b = 61%N :: c) -> startswith a n = false) ->
  parse_args P E fs (before ++ w :: after) <> Some (Parsed ns fs').
Proof. exact unknown_refused. Qed.
(* a line that is otherwise in the documented form but leaves out a required argument *)
Theorem C146_missing : forall P E fs bs pos o,
  In P [main_parser; learn_parser; freq_parser; bitext_parser; codec_parser; oov_parser; gram_parser; recall_parser; ux_parser; fix_parser] ->
  Forall (well_said P) bs ->
  (positionals P = [pos] /\ words bs <= 1 /\ no_many P)%nat \/ (positionals P = [] /\ words bs = 0%nat) ->
  (exists c ch, a_kind pos = KOne c ch) -> In o P -> a_required o = true ->
  (if match a_names o with [] => true | _ => false end then words bs = 0%nat else forall n args j, ~ In (Given o n args j) bs) ->
  exists fs', parse_args P E fs (flat_map written bs) = Some (Exited 2 fs').
Proof. intros P E fs bs pos o HP. apply incomplete_refused. apply parsers_proper. exact HP. Qed.
Theorem C146_documented_refuted :
  (* "-out" is "-o ut": it writes to the file ut *)
  (exists e, ex_prog ex_files [] (ws ["encode"; "-m"; "m"; "-i"; "text"; "-out"]%string) = Some e /\ x_status e = 0%Z /\
     x_stdout e = [] /\ lookup (x_files e) (lit "ut") = Some (lit "lol lo" ++ [10%N] ++ lit "lo lo ol" ++ [10%N])) /\
  (* a cut-short name *)
  (exists e, ex_prog ex_files [] (ws ["encode"; "--mod"; "m"; "--voc=7"]%string) = Some e /\ x_status e = 0%Z) /\
  (* a refused line has emptied --out *)
  (exists e, ex_prog ex_files [] (ws ["encode"; "-o"; "old"; "-i"; "text"]%string) = Some e /\ x_status e = 2%Z /\
     lookup ex_files (lit "old") = Some (lit "old text") /\ lookup (x_files e) (lit "old") = Some []).
Proof.
  split; [|split]; eexists; (split; [vm_compute; reflexivity|]); repeat (match goal with |- _ /\ _ => split end); vm_compute; reflexivity.
Qed.
Example C146_ex : parse_args main_parser ex_env ex_files (ws ["encode"; "-m"; "m"; "--wrong=1"]%string) = Some (Exited 2 ex_files) /\
  parse_args main_parser ex_env ex_files (ws ["encode"; "-i"; "text"]%string) = Some (Exited 2 ex_files) /\
  parse_args main_parser ex_env ex_files (ws ["-m"; "m"]%string) = Some (Exited 2 ex_files) /\
  parse_args main_parser ex_env ex_files (ws ["learn"; "-m"; "m"; "-l"; "words"]%string) = Some (Exited 2 ex_files) /\
  parse_args main_parser ex_env ex_files (ws ["encode"; "-m"; "m"; "-i"; "nosuch"]%string) = Some (Exited 2 ex_files) /\
  parse_args main_parser ex_env ex_files (ws ["-h"]%string) = Some (Exited 0 ex_files).
Proof. repeat (match goal with |- _ /\ _ => split end); vm_compute; reflexivity. Qed.
Example C146_ex_unknown : forall ns fs', parse_args main_parser ex_env ex_files (ws ["encode"; "-m"; "m"]%string ++ lit "--wrong" :: []) <> Some (Parsed ns fs').
Proof.
  intros ns fs'. apply C146_unknown_option.
  - cbn. intuition discriminate.
  - discriminate.
  - exists (lit "wrong"). reflexivity.
  - cbn. intuition discriminate.
  - assert (F : Forall (fun o => Forall (fun n => startswith (lit "--wrong") n = false) (a_names o)) main_parser) by (repeat constructor).
    intros o n Ho Hn a b E Hb. rewrite Forall_forall in F. specialize (F o Ho). rewrite Forall_forall in F. specialize (F n Hn).
    destruct Hb as [->|(c & ->)]; [rewrite app_nil_r in E; rewrite <- E; exact F|].
    assert (In 61%N (lit "--wrong")) as X by (rewrite E; apply in_or_app; right; left; reflexivity).
    cbn in X. intuition discriminate.
Qed.

(** *** C147: nlcodec changes the model file when learning, the --out file when encoding or decoding, and
    nothing else. Full statement as here for every command line. What is proved: *)
Theorem C147_ends_partial : forall (A : arith) (Y : system A) orders version now fs stdin argv,
  exists e, program A orders version now Y fs stdin argv = Some e /\
    (x_status e = 0 \/ x_status e = 1 \/ x_status e = 2)%Z /\ (x_status e = 1%Z <-> x_exc e <> None) /\
    (forall p, lookup (x_files e) p <> lookup fs p -> from argv p).
Proof. exact program_ends. Qed.
Theorem C147_changes_partial : forall (A : arith) (Y : system A) orders version now fs stdin before task after e,
  In task (map lit ["learn"; "encode"; "decode"; "estimate"]%string) -> Forall (sensible (y_env Y) (lookup fs)) (before ++ after) ->
  (exists p, In (SModel p) (map snd (before ++ after))) ->
  program A orders version now Y fs stdin (flat_map words_of before ++ [task] ++ flat_map words_of after) = Some e ->
  forall p, lookup (x_files e) p <> lookup fs p ->
    (task = lit "learn" /\ In (SModel p) (map snd (before ++ after))) \/ In (SOut p) (map snd (before ++ after)).
Proof. exact documented_changes. Qed.
Theorem C147_refused_only_empties : forall (A : arith) (Y : system A) orders version now fs stdin argv e,
  program A orders version now Y fs stdin argv = Some e -> x_status e = 2%Z ->
  x_stdout e = [] /\ x_printed e = None /\ x_exc e = None /\
  forall p, lookup (x_files e) p = lookup fs p \/ (lookup (x_files e) p = Some [] /\ from argv p).
Proof. exact refused_only_empties. Qed.
Theorem C147_only_refuted :
  (* estimate and learn empty --out *)
  (exists e, ex_prog ex_files [] (ws ["estimate"; "-m"; "m"; "-i"; "text"; "-o"; "old"]%string) = Some e /\ x_status e = 0%Z /\
     lookup ex_files (lit "old") = Some (lit "old text") /\ lookup (x_files e) (lit "old") = Some []) /\
  (* the input as the output: it is empty before it is read *)
  (exists e, ex_prog ex_files [] (ws ["encode"; "-m"; "m"; "-i"; "text"; "-o"; "text"]%string) = Some e /\ x_status e = 0%Z /\
     lookup (x_files e) (lit "text") = Some []) /\
  (* the model as the output: the run fails and the model is gone *)
  (exists e, ex_prog ex_files [] (ws ["encode"; "-m"; "m"; "-i"; "text"; "-o"; "m"]%string) = Some e /\ x_status e = 1%Z /\
     lookup (x_files e) (lit "m") = Some []).
Proof.
  split; [|split]; eexists; (split; [vm_compute; reflexivity|]); repeat (match goal with |- _ /\ _ => split end); vm_compute; reflexivity.
Qed.
Example C147_ex : option_map (fun e => (x_status e, x_files e)) (ex_prog ex_files [] (ws ["learn"; "-m"; "new"; "-i"; "text"; "-l"; "word"; "-mf"; "1"]%string)) =
  Some (0%Z, ex_files ++ [(lit "new", ex_bytes "word")]).
Proof. vm_compute. reflexivity. Qed.

(** *** C149: the beginning of a long name means that name when no other begins so; otherwise the line is
    refused before any file is touched. *)
Theorem C149_abbreviation : forall P E fs before x n o tail after,
  In P [main_parser; learn_parser; freq_parser; bitext_parser; codec_parser; oov_parser; gram_parser; recall_parser; ux_parser; fix_parser] ->
  ~ In (lit "--") before -> (exists c y, x = lit "--" ++ c :: y) -> ~ In 61%N x -> (tail = [] \/ exists v, tail = lit "=" ++ v) ->
  (forall p, In p P -> ~ In x (a_names p)) ->
  In o P -> In n (a_names o) -> (exists r, n = x ++ r) -> (forall p k, In p P -> In k (a_names p) -> (exists r, k = x ++ r) -> k = n) ->
  parse_args P E fs (before ++ (x ++ tail) :: after) = parse_args P E fs (before ++ (n ++ tail) :: after).
Proof. intros P E fs before x n o tail after HP. apply abbreviation. apply parsers_proper. exact HP. Qed.
Theorem C149_ambiguous : forall P E fs before x tail after n m o p,
  In P [main_parser; learn_parser; freq_parser; bitext_parser; codec_parser; oov_parser; gram_parser; recall_parser; ux_parser; fix_parser] ->
  ~ In (lit "--") before -> (exists c y, x = lit "--" ++ c :: y) -> ~ In 61%N x -> (tail = [] \/ exists v, tail = lit "=" ++ v) ->
  (forall p, In p P -> ~ In x (a_names p)) ->
  In o P -> In n (a_names o) -> (exists r, n = x ++ r) -> In p P -> In m (a_names p) -> (exists r, m = x ++ r) -> n <> m ->
  parse_args P E fs (before ++ (x ++ tail) :: after) = Some (Exited 2 fs).
Proof. intros P E fs before x tail after n m o p HP. apply ambiguous. apply parsers_proper. exact HP. Qed.
Example C149_ex : exists ns, parse_args main_parser ex_env ex_files (ws ["encode"; "--mod"; "m"; "--ind"]%string) = Some (Parsed ns ex_files) /\
  get ns "model" = Some (VText (lit "m")) /\ get ns "indices" = Some (VBool true) /\
  parse_args main_parser ex_env ex_files (ws ["encode"; "--model"; "m"; "--indices"]%string) = Some (Parsed ns ex_files) /\
  parse_args main_parser ex_env ex_files (ws ["encode"; "--out"; "old"; "--mod"; "m"; "--in=text"]%string) = Some (Exited 2 ex_files).
Proof. eexists. split; [vm_compute; reflexivity|]. repeat split; vm_compute; reflexivity. Qed.
Example C149_ex_hyps : let x := lit "--mod" in
  (forall p, In p main_parser -> ~ In x (a_names p)) /\ In (lit "--model") (a_names (one "-m" "--model" "model" CText true VNone)) /\
  In (one "-m" "--model" "model" CText true VNone) main_parser /\
  (forall p k, In p main_parser -> In k (a_names p) -> (exists r, k = x ++ r) -> k = lit "--model").
Proof.
  cbv zeta. split; [|split; [right; left; reflexivity|split; [cbn; tauto|]]].
  - assert (F : Forall (fun o => Forall (fun n => str_eqb n (lit "--mod") = false) (a_names o)) main_parser) by (repeat constructor).
    intros p Hp Hx. rewrite Forall_forall in F. specialize (F p Hp). rewrite Forall_forall in F. specialize (F _ Hx). discriminate F.
  - assert (F : Forall (fun o => Forall (fun n => startswith (lit "--mod") n = true -> n = lit "--model") (a_names o)) main_parser).
    { repeat first [constructor | discriminate | intros _; reflexivity]. }
    intros p k Hp Hk Hr. rewrite Forall_forall in F. specialize (F p Hp). rewrite Forall_forall in F. apply (F _ Hk). apply startswith_app. exact Hr.
Qed.

Print Assumptions C145_nlcodec.
Print Assumptions C145_any_parser.
Print Assumptions C146_accepted_partial.
Print Assumptions C146_ends_partial.
Print Assumptions C146_unknown_option.
Print Assumptions C146_missing.
Print Assumptions C146_documented_refuted.
Print Assumptions C147_ends_partial.
Print Assumptions C147_changes_partial.
Print Assumptions C147_refused_only_empties.
Print Assumptions C147_only_refuted.
Print Assumptions C149_abbreviation.
Print Assumptions C149_ambiguous.
