(** Property theorems about the command lines of the Devanagari tools (C157). *)
From Coq Require Import Strings.String.
From Verif Require Import Py PyStr PyLemmas Utf8Model CliSpec VocabFileModel ScriptModel ScriptSpec ScriptProofs ScriptEnd ArgModel ArgSpec ArgProofs ArgSound CmdModel CmdSpec PropsArg PropsTool ToolSpec GramSpec
     ScriptCmdModel ScriptCmdSpec ScriptCmdEnd.
Local Open Scope list_scope.

(** *** C157: uxdx.py and unicode_fix.py do what their command lines say, and one run undoes the other. *)
Theorem C157_uxdx : forall E fs stdin l, Forall (ssensible Uxdx E (lookup fs)) l ->
  let q := fold_left sask (map snd l) snothing in
  let f := fold_left sopens (map snd l) (lookup fs) in
  exists e ls, ux_program E fs stdin (flat_map swords l) = Some e /\ lines_of (stext f stdin (j_inp q)) ls /\
    sputs f (j_out q) (unlines (map (respelled Uxdx (j_decode q)) ls)) e.
Proof. intros E fs stdin l H. apply (script_does Uxdx); [exact H|discriminate]. Qed.
Theorem C157_unicode_fix : forall E fs stdin l, Forall (ssensible Fix E (lookup fs)) l -> (exists n, In (SLang n) (map snd l)) ->
  let q := fold_left sask (map snd l) snothing in
  let f := fold_left sopens (map snd l) (lookup fs) in
  exists e ls, fix_program E fs stdin (flat_map swords l) = Some e /\ lines_of (stext f stdin (j_inp q)) ls /\
    sputs f (j_out q) (unlines (map (respelled Fix (j_decode q)) ls)) e.
Proof. intros E fs stdin l H1 H2. apply (script_does Fix); [exact H1|intros _; exact H2]. Qed.
Theorem C157_there_and_back : forall t E fs stdin stdin' (st : nat -> style) n n' T X U tb ls,
  lookup fs T = Some tb -> lines_of (utf8_decode [] tb) ls -> Forall (comes_back t) ls ->
  e_writable E X = true -> e_writable E U = true -> Forall plain [T; X; U] -> Forall (fun p => p <> lit "-") [T; X; U] -> X <> T -> U <> X ->
  In n [lit "hin"; lit "devanagari"] -> In n' [lit "hin"; lit "devanagari"] ->
  let program := match t with Uxdx => ux_program | Fix => fix_program end in
  exists e1 e2,
    program E fs stdin (flat_map swords ([(st 0, SInp T); (st 1, SOut X)] ++ naming t (st 2) n)%nat) = Some e1 /\ x_status e1 = 0%Z /\
    program E (x_files e1) stdin' (flat_map swords ([(st 3, SDecode); (st 4, SInp X); (st 5, SOut U)] ++ naming t (st 6) n')%nat) = Some e2 /\ x_status e2 = 0%Z /\
    lookup (x_files e2) U = Some (utf8_encode_ignore (unlines ls)) /\ (forall p, p <> X -> p <> U -> lookup (x_files e2) p = lookup fs p).
Proof. exact script_round. Qed.
Theorem C157_any_words : forall E fs stdin argv,
  (exists e, ux_program E fs stdin argv = Some e /\ ends_well ux_parser E fs argv (fun _ => False) e) /\
  (exists e, fix_program E fs stdin argv = Some e /\ ends_well fix_parser E fs argv (fun _ => False) e).
Proof. intros E fs stdin argv. split; [exact (script_ends Uxdx E fs stdin argv)|exact (script_ends Fix E fs stdin argv)]. Qed.
(* भगत with its neighbouring consonants in one file, हिन्दी in another *)
Definition ex_hindi : ArgModel.files := [(lit "a", utf8_encode_ignore ([0x92D; 0x917; 0x924; 10]%N)); (lit "b", utf8_encode_ignore ([0x939; 0x93F; 0x928; 0x94D; 0x926; 0x940; 10]%N))].
Example C157_ex_run : option_map (fun e => (x_status e, option_map (utf8_decode []) (lookup (x_files e) (lit "x")))) (ux_program ex_env ex_hindi [] (ws ["-i"; "a"; "--out=x"]%string)) =
    Some (0%Z, Some [0x92D; 0x22EE; 0x917; 0x22EE; 0x924; 10]%N) /\
  option_map (fun e => (x_status e, x_stdout e)) (fix_program ex_env ex_hindi [] (ws ["--inp"; "b"; "-l"; "hin"]%string)) = Some (0%Z, [0x939; 0x907; 0x928; 0x926; 0x908; 10]%N) /\
  option_map (fun e => (x_status e, x_stdout e)) (fix_program ex_env ex_hindi [0x939; 0x907; 0x928; 0x926; 0x908; 10]%N (ws ["-d"; "--lang=devanagari"]%string)) = Some (0%Z, [0x939; 0x93F; 0x928; 0x94D; 0x926; 0x940; 10]%N) /\
  option_map x_status (fix_program ex_env ex_hindi [] (ws ["--inp"; "b"]%string)) = Some 2%Z /\
  option_map x_status (fix_program ex_env ex_hindi [] (ws ["-l"; "hindi"]%string)) = Some 2%Z.
Proof. repeat split; vm_compute; reflexivity. Qed.
Example C157_ex_hyps : Forall (ssensible Fix ex_env (lookup ex_hindi)) [(Short, SInp (lit "b")); (Equals, SLang (lit "hin")); (Long, SOut (lit "x"))] /\
  exists tb ls, lookup ex_hindi (lit "b") = Some tb /\ lines_of (utf8_decode [] tb) ls /\ Forall (comes_back Fix) ls.
Proof.
  split.
  - constructor; [split; [intros _; constructor; [apply ex_plain; discriminate|constructor]|right; vm_compute; discriminate]|].
    constructor; [split; [intros [H|H]; exfalso; apply H; reflexivity|cbn; auto]|].
    constructor; [split; [intros _; constructor; [apply ex_plain; discriminate|constructor]|right; reflexivity]|constructor].
  - eexists. exists [[0x939; 0x93F; 0x928; 0x94D; 0x926; 0x940]%N]. split; [reflexivity|]. split.
    + replace (utf8_decode [] _) with ([0x939; 0x93F; 0x928; 0x94D; 0x926; 0x940]%N ++ [10%N] ++ []) by (vm_compute; reflexivity).
      apply Lo_lf; [split; cbn; intuition discriminate|constructor].
    + constructor; [|constructor]. apply (spelled_back hindi _ hindi_script). vm_compute. reflexivity.
Qed.
Print Assumptions C157_uxdx.
Print Assumptions C157_unicode_fix.
Print Assumptions C157_there_and_back.
Print Assumptions C157_any_words.
