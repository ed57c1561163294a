(** C159: the command lines of experimental/bpepp.py. *)
From Coq Require Import Strings.String Lia.
From Verif Require Import Py PyStr PyLemmas StrSpec JsonProofs CodecModel CodecSpec VocabSpec LearnModel LearnSpec LearnBpeModel CliModel CliSpec CliProofs BpeppModel BpeppSpec BpeppCmd
     ArgModel ArgSpec ArgProofs ArgSound CmdModel PpArgModel PpCmdSpec PpCmdProofs PpCmdEnd PpCmdAny PpCmdChain PpCmdRefuse.
Local Open Scope list_scope.

(** encode: the options in any order and spelling, before and after the input. *)
Theorem C159_encode : forall W fs stdin before d inps after vocab text,
  let l := before ++ after in let f1 := opened l (lookup fs) in
  Forall (good (w_env W) SEncode) before -> Forall (good (w_env W) SEncode) after -> named d inps after ->
  vocab_said l = Some vocab -> input_of W (lookup fs) f1 stdin inps text ->
  exists e, pp_program W fs stdin (line SEncode before d inps after) = Some e /\
    coded W f1 (out_said l) (match f1 vocab with None => ([], Some FileNotFound) | Some model => pp_cli_encode model (pieces_said l) text end) e.
Proof. intros W fs stdin before d inps after vocab text. exact (coding_line W fs stdin true before d inps after vocab text). Qed.
Theorem C159_decode : forall W fs stdin before d inps after vocab text,
  let l := before ++ after in let f1 := opened l (lookup fs) in
  Forall (good (w_env W) SDecode) before -> Forall (good (w_env W) SDecode) after -> named d inps after ->
  vocab_said l = Some vocab -> input_of W (lookup fs) f1 stdin inps text ->
  exists e, pp_program W fs stdin (line SDecode before d inps after) = Some e /\
    coded W f1 (out_said l) (match f1 vocab with None => ([], Some FileNotFound) | Some model => pp_cli_decode model text end) e.
Proof. intros W fs stdin before d inps after vocab text. exact (coding_line W fs stdin false before d inps after vocab text). Qed.
(** learn1, learn2 and learn. *)
Theorem C159_learn : forall W fs stdin c before d inps after vocab texts,
  let l := before ++ after in
  c = SLearn1 \/ c = SLearn2 \/ c = SLearn -> Forall (good (w_env W) c) before -> Forall (good (w_env W) c) after -> named d inps after -> inps <> [] ->
  vocab_said l = Some vocab -> enough c l -> texts_of W (lookup fs) inps texts -> (c = SLearn -> ~ In vocab inps) ->
  let r := pp_learn (w_orders1 W) (w_orders2 W) (w_now1 W) (w_now2 W) (match c with SLearn1 => Learn1 | SLearn2 => Learn2 | _ => Learn end)
             texts vocab (vocab_l1_said l) (args_said l) fs in
  pp_program W fs stdin (line c before d inps after) = Some (MkEnding (match snd r with None => 0 | Some _ => 1 end)%Z (fst r) [] None (snd r)).
Proof. intros W fs stdin c before d inps after vocab texts l Hc. apply learn_line; destruct Hc as [->|[->| ->]]; discriminate. Qed.
Theorem C159_missing : forall W fs stdin c before d inps after vocab p,
  let l := before ++ after in
  c = SLearn1 \/ c = SLearn2 \/ c = SLearn -> Forall (good (w_env W) c) before -> Forall (good (w_env W) c) after -> named d inps after ->
  vocab_said l = Some vocab -> enough c l -> In p inps -> lookup fs p = None ->
  exists x, pp_program W fs stdin (line c before d inps after) = Some (MkEnding 1 fs [] None (Some x)) /\
    (c <> SLearn2 -> x = if ((vocab_size_l1 (args_said l) >? 0) || (vocab_size_l1 (args_said l) =? -1))%Z then FileNotFound else AssertionError).
Proof. intros W fs stdin c before d inps after vocab p l Hc. apply learn_missing; destruct Hc as [->|[->| ->]]; discriminate. Qed.
(** learn2 with a file missing among the inputs, the ones before it read: the vocabulary of the first level is opened first. *)
Theorem C159_missing_level2 : forall W fs stdin before d i1 p i2 after vocab texts,
  let l := before ++ after in let f := lookup fs (match vocab_l1_said l with Some q => q | None => vocab end) in
  Forall (good (w_env W) SLearn2) before -> Forall (good (w_env W) SLearn2) after -> named d (i1 ++ p :: i2) after ->
  vocab_said l = Some vocab -> enough SLearn2 l -> texts_of W (lookup fs) i1 texts -> lookup fs p = None ->
  exists x, pp_program W fs stdin (line SLearn2 before d (i1 ++ p :: i2) after) = Some (MkEnding 1 fs [] None (Some x)) /\
    match f with
    | None => x = AssertionError
    | Some b =>
        (forall e, pp_read_vocab b = Raise e -> x = e) /\
        (forall bytes, pp_learn2 (w_orders2 W) (w_now2 W) (args_said l) (Some b) texts = Ok bytes -> x = FileNotFound) /\
        (forall table root, i1 = [] -> pp_read_vocab b = Ok table -> distinct_names table -> well_indexed table -> pp_codec table = Ok root -> x = FileNotFound)
    end.
Proof. exact learn2_missing. Qed.
(** learn1 and then encode: the numbers of every line, under the vocabulary that was learned. *)
Theorem C159_learn_then_encode : forall W fs stdin1 stdin2 b1 d1 inps a1 b2 d2 inp a2 vocab texts lss toks e1 ls text,
  Forall (good (w_env W) SLearn1) b1 -> Forall (good (w_env W) SLearn1) a1 -> named d1 inps a1 -> inps <> [] ->
  vocab_said (b1 ++ a1) = Some vocab -> vs1_said (b1 ++ a1) <> None -> texts_of W (lookup fs) inps texts ->
  Forall2 lines_of texts lss -> tokens_of KWord (concat lss) toks -> (forall w, In w toks -> plain_text w) -> scalars (w_now1 W) ->
  pp_program W fs stdin1 (line SLearn1 b1 d1 inps a1) = Some e1 -> x_status e1 = 0%Z ->
  let l := b2 ++ a2 in let f1 := opened l (lookup (x_files e1)) in
  Forall (good (w_env W) SEncode) b2 -> Forall (good (w_env W) SEncode) a2 -> named d2 inp a2 -> vocab_said l = Some vocab -> f1 vocab = lookup (x_files e1) vocab ->
  pieces_said l = false -> input_of W (lookup (x_files e1)) f1 stdin2 inp text -> lines_of text ls ->
  exists table nums e2, usable table /\
    (let args := args_said (b1 ++ a1) in
     pp_learn_from_corpus (w_orders1 W) (concat lss) (vocab_size_l1 args) (min_co_l1 args) (char_min_freq args) (word_min_freq args) = Ok table) /\
    Forall2 (encoded_line table) ls (map (fun s => (s, 1%Z)) nums) /\
    pp_program W (x_files e1) stdin2 (line SEncode b2 d2 inp a2) = Some e2 /\
    coded W f1 (out_said l) (unlines (map (fun s => join [SPACE] (map str_of_Z s)) nums), None) e2.
Proof. exact learn_then_encode. Qed.
(** Lines that lack a setting the command cannot do without or the files to learn from, or that name two inputs to code. *)
Theorem C159_refused : forall W fs stdin c before inps after,
  Forall (good (w_env W) c) before -> Forall (good (w_env W) c) after -> Forall plain inps -> unfit c (before ++ after) inps ->
  exists e, pp_program W fs stdin (line c before false inps after) = Some e /\ x_status e = 2%Z /\ refused fs (line c before false inps after) e.
Proof. exact unfit_line. Qed.
(** Any words at all. *)
Theorem C159_any_words : forall W fs stdin argv,
  exists e, pp_program W fs stdin argv = Some e /\
    match pp_parse (w_env W) fs argv with inl (Some (_, Parsed _ _)) => run_well fs argv e | _ => refused fs argv e end.
Proof. exact pp_ends. Qed.

(** Cases. *)
Definition c159_world : pp_world := MkWorld (MkEnv (fun _ => false) (fun _ => true)) (fun b => b) (fun s => s) (fun _ x => x) (fun _ x => x) (lit "t1") (lit "t2").
Definition c159_text : list N := unlines [lit "ab abc"; lit "ab bb"].
Definition c159_b1 : list spoken := [(SVs1 12, "-vs1", false)]%string.
Definition c159_a1 : list spoken := [(SVocab (lit "v.txt"), "--vocab", true); (SMce1 7, "-mce1", true); (SCmf 1, "--char-min-freq", false); (SMce1 1, "--min-co-evidence-l1", false)]%string.
Definition c159_a2 : list spoken := [(SVocab (lit "v.txt"), "-vf", false); (SOut (lit "o"), "-o", false)]%string.
Definition c159_e1 : ending := match pp_program c159_world [(lit "t", c159_text)] [] (line SLearn1 c159_b1 false [lit "t"] c159_a1) with Some e => e | None => MkEnding 9 [] [] None None end.
Example C159_ex_words : line SLearn1 c159_b1 false [lit "t"] c159_a1 =
    map lit ["learn1"; "-vs1"; "12"; "t"; "--vocab=v.txt"; "-mce1=7"; "--char-min-freq"; "1"; "--min-co-evidence-l1"; "1"]%string /\
  args_said (c159_b1 ++ c159_a1) = MkArgs 1 1 12 1 0 5 false /\ vocab_said (c159_b1 ++ c159_a1) = Some (lit "v.txt") /\
  out_said c159_a2 = lit "o" /\ opened c159_a2 (lookup [(lit "t", c159_text)]) (lit "t") = Some c159_text.
Proof. repeat split. Qed.
Example C159_ex_hyps :
  Forall (good (w_env c159_world) SLearn1) c159_b1 /\ Forall (good (w_env c159_world) SLearn1) c159_a1 /\ Forall plain [lit "t"] /\
  vs1_said (c159_b1 ++ c159_a1) <> None /\ texts_of c159_world (lookup [(lit "t", c159_text)]) [lit "t"] [c159_text] /\
  Forall (good (w_env c159_world) SEncode) c159_a2 /\ enough SLearn1 (c159_b1 ++ c159_a1).
Proof.
  assert (PL : forall v c r, v = c :: r -> c <> 45%N -> plain v) by (intros v c r -> H; left; intros r' X; injection X as -> _; apply H; reflexivity).
  split; [|split; [|split; [|split; [|split; [|split]]]]].
  - constructor; [|constructor]. split; [left; reflexivity|]. split; [left; reflexivity|]. split; [|discriminate].
    intros v H. injection H as <-. eapply PL; [vm_compute; reflexivity|discriminate].
  - constructor; [|constructor; [|constructor; [|constructor; [|constructor]]]].
    + split; [exact I|]. split; [right; right; left; reflexivity|]. split; discriminate.
    + split; [left; reflexivity|]. split; [left; reflexivity|]. split; discriminate.
    + split; [left; reflexivity|]. split; [right; left; reflexivity|]. split; [|discriminate]. intros v H. injection H as <-. eapply PL; [vm_compute; reflexivity|discriminate].
    + split; [left; reflexivity|]. split; [right; left; reflexivity|]. split; [|discriminate]. intros v H. injection H as <-. eapply PL; [vm_compute; reflexivity|discriminate].
  - constructor; [|constructor]. eapply PL; [reflexivity|discriminate].
  - discriminate.
  - constructor; [|constructor]. exists c159_text. split; reflexivity.
  - constructor; [|constructor; [|constructor]].
    + split; [exact I|]. split; [left; reflexivity|]. split; [|discriminate]. intros v H. injection H as <-. eapply PL; [reflexivity|discriminate].
    + split; [left; reflexivity|]. split; [left; reflexivity|]. split; [|intros p H; right; reflexivity]. intros v H. injection H as <-. eapply PL; [reflexivity|discriminate].
  - split; [discriminate|]. split; [intros [H|H]; discriminate|discriminate].
Qed.
Example C159_ex_run : x_status c159_e1 = 0%Z /\ map fst (x_files c159_e1) = [lit "t"; lit "v.txt"] /\
  pp_program c159_world (x_files c159_e1) [] (line SEncode [] false [lit "t"] c159_a2)
    = Some (MkEnding 0 (x_files c159_e1 ++ [(lit "o", unlines [lit "10 9 8 5"; lit "10 6 11"])]) [] None None).
Proof. vm_compute. repeat split. Qed.
(** learn2 after learn1, with an input that is not there: the file of the first level read, or missing too, or named by
    --vocab-l1. *)
Definition c159_a3 (v1 : string) : list spoken := [(SVocab (lit "w.txt"), "-vf", false); (SVocabL1 (lit v1), "--vocab-l1", false); (SVs2 14, "-vs2", false); (SMce2 1, "-mce2", false)]%string.
Example C159_ex_missing2 :
  map (fun x => match pp_program c159_world (x_files c159_e1) [] (line SLearn2 [] false (map lit (fst x)) (c159_a3 (snd x))) with
                | Some e => (x_status e, map fst (x_files e), x_exc e) | None => (9%Z, [], None) end)
    [(["t"], "v.txt"); (["t"; "u"], "v.txt"); (["u"], "v.txt"); (["t"; "u"], "z"); (["u"], "t")]%string
  = [(0%Z, [lit "t"; lit "v.txt"; lit "w.txt"], None); (1%Z, [lit "t"; lit "v.txt"], Some FileNotFound); (1%Z, [lit "t"; lit "v.txt"], Some FileNotFound);
     (1%Z, [lit "t"; lit "v.txt"], Some AssertionError); (1%Z, [lit "t"; lit "v.txt"], Some ValueError)].
Proof. vm_compute. reflexivity. Qed.
Example C159_ex_hyps2 : Forall (good (w_env c159_world) SLearn2) (c159_a3 "v.txt") /\ enough SLearn2 (c159_a3 "v.txt") /\ Forall plain [lit "t"; lit "u"] /\
  vocab_l1_said (c159_a3 "v.txt") = Some (lit "v.txt") /\
  match pp_learn2 (w_orders2 c159_world) (w_now2 c159_world) (args_said (c159_a3 "v.txt")) (lookup (x_files c159_e1) (lit "v.txt")) [c159_text] with Ok _ => true | _ => false end = true.
Proof.
  assert (PL : forall v c r, v = c :: r -> c <> 45%N -> plain v) by (intros v c r -> H; left; intros r' X; injection X as -> _; apply H; reflexivity).
  split; [|split; [|split; [|split; [reflexivity|vm_compute; reflexivity]]]].
  - constructor; [|constructor; [|constructor; [|constructor; [|constructor]]]].
    + split; [exact I|]. split; [left; reflexivity|]. split; [|discriminate]. intros v H. injection H as <-. eapply PL; [reflexivity|discriminate].
    + split; [reflexivity|]. split; [right; right; left; reflexivity|]. split; [|discriminate]. intros v H. injection H as <-. eapply PL; [reflexivity|discriminate].
    + split; [left; reflexivity|]. split; [left; reflexivity|]. split; [|discriminate]. intros v H. injection H as <-. eapply PL; [vm_compute; reflexivity|discriminate].
    + split; [left; reflexivity|]. split; [left; reflexivity|]. split; [|discriminate]. intros v H. injection H as <-. eapply PL; [vm_compute; reflexivity|discriminate].
  - split; [intros [H|H]; discriminate|]. split; intros _; discriminate.
  - constructor; [|constructor; [|constructor]]; (eapply PL; [reflexivity|discriminate]).
Qed.
(** After '--' an input may begin with '-'. *)
Example C159_ex_dashes : line SEncode c159_a2 true [lit "-x"] [] = map lit ["encode"; "-vf"; "v.txt"; "-o"; "o"; "--"; "-x"]%string /\ named true [lit "-x"] [] /\
  match pp_program c159_world (x_files c159_e1 ++ [(lit "-x", c159_text)]) [] (line SEncode c159_a2 true [lit "-x"] []) with
  | Some e => x_status e = 0%Z /\ dget str_eqb (lit "o") (x_files e) = Some (unlines [lit "10 9 8 5"; lit "10 6 11"])
  | None => False
  end.
Proof. split; [reflexivity|]. split; [reflexivity|]. vm_compute. split; reflexivity. Qed.
(** Refused: no command, a command in other words, an option of the main parser nobody knows, a required option missing, the
    command after '--'; -v before the command asks for the version. *)
Example C159_ex_refused :
  map (fun ws => match pp_program c159_world [(lit "t", c159_text)] [] (map lit ws) with Some e => x_status e | None => 9%Z end)
    [[]; ["teach"]; ["-x"; "decode"; "-vf"; "v"]; ["encode"; "t"]; ["--"; "encode"; "-vf"; "v"]; ["-vx"]; ["encode"; "-h"]; ["encode"; "-vf"; "v"]]%string
  = [2; 2; 2; 2; 2; 0; 0; 1]%Z.
Proof. vm_compute. reflexivity. Qed.
Print Assumptions C159_encode.
Print Assumptions C159_decode.
Print Assumptions C159_learn.
Print Assumptions C159_missing.
Print Assumptions C159_missing_level2.
Print Assumptions C159_learn_then_encode.
Example C159_ex_unfit : unfit SEncode (c159_b1 ++ c159_a2) [lit "t"; lit "u"] /\ unfit SLearn1 c159_a2 [lit "t"] /\ unfit SLearn (c159_b1 ++ c159_a1) [] /\
  map (fun ws => match pp_program c159_world [(lit "t", c159_text); (lit "o", [1%N])] [] (map lit ws) with Some e => (x_status e, x_files e) | None => (9%Z, []) end)
    [["encode"; "t"; "u"; "-vf"; "t"; "-o"; "o"]; ["learn1"; "t"; "-vf"; "v"]; ["learn1"; "-vf"; "v"; "-vs1"; "9"]]%string
  = [(2%Z, [(lit "t", c159_text); (lit "o", [])]); (2%Z, [(lit "t", c159_text); (lit "o", [1%N])]); (2%Z, [(lit "t", c159_text); (lit "o", [1%N])])].
Proof.
  split; [do 5 right; split; [left; reflexivity|apply le_n]|]. split; [right; left; split; [left; reflexivity|reflexivity]|].
  split; [do 4 right; left; repeat split; discriminate|]. vm_compute. reflexivity.
Qed.
Print Assumptions C159_refused.
Print Assumptions C159_any_words.
