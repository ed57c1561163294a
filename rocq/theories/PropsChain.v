(** Property theorems about three commands in a row (C148). *)
From Coq Require Import Strings.String QArith.
From Verif Require Import Py PyStr PyLemmas StrSpec JsonProofs CodecModel CodecSpec LearnModel ArithModel LearnSpec LearnBpeModel BpeSpec EvalModel CliSpec MainModel MainSpec
     PropsMain ArgModel ArgSpec CmdModel CmdSpec ArgProofs ArgSound CmdProofs CmdEnd PropsArg ChainSpec ChainProofs.
Local Open Scope list_scope.

(** *** C148: learn from a text, encode a text made of its words (or characters), decode the result. *)
Theorem C148_word : forall (A : arith) (Y : system A) orders version now stdin1 stdin2 stdin3 b1 a1 b2 a2 b3 a3 fs bt bf t m f o d ls ls',
  three_lines Y fs b1 a1 b2 a2 b3 a3 t m f o d -> lookup fs t = Some bt -> lookup fs f = Some bf -> y_bytes Y [] = [] ->
  scalars version -> scalars now -> iteration_orders orders ->
  lines_of (y_text Y bt) ls -> scalars (y_text Y bt) -> lines_of (y_text Y bf) ls' -> q_tfs (asked_by b1 a1) = false ->
  q_level (asked_by b1 a1) = Some (lit "word") -> (q_vs (asked_by b1 a1) <= 0)%Z ->
  (forall k, q_mf (asked_by b1 a1) = Some k -> (k <= 1)%Z) ->
  (forall l ws w, In l ls' -> StrSpec.words_of l ws -> In w ws -> exists l0 ws0, In l0 ls /\ StrSpec.words_of l0 ws0 /\ In w ws0) ->
  comes_back A Y orders version now fs stdin1 stdin2 stdin3 b1 a1 b2 a2 b3 a3 o d normal ls'.
Proof. intros A Y orders version now stdin1 stdin2 stdin3 b1 a1 b2 a2 b3 a3 fs bt bf t m f o d ls ls' TL T F YN Hv Hn Ho L1 SC L2 Tf. exact (word_back A Y orders version now stdin1 stdin2 stdin3 b1 a1 b2 a2 b3 a3 fs bt bf t m f o d ls ls' TL T F YN Hv Hn Ho L1 SC L2 Tf). Qed.
Theorem C148_char : forall (A : arith) (Y : system A) orders version now stdin1 stdin2 stdin3 b1 a1 b2 a2 b3 a3 fs bt bf t m f o d ls ls',
  three_lines Y fs b1 a1 b2 a2 b3 a3 t m f o d -> lookup fs t = Some bt -> lookup fs f = Some bf -> y_bytes Y [] = [] ->
  scalars version -> scalars now -> iteration_orders orders ->
  lines_of (y_text Y bt) ls -> scalars (y_text Y bt) -> lines_of (y_text Y bf) ls' -> q_tfs (asked_by b1 a1) = false ->
  q_level (asked_by b1 a1) = Some (lit "char") -> (q_vs (asked_by b1 a1) <= 0)%Z ->
  q_mf (asked_by b1 a1) = Some 1%Z -> y_num Y (q_cv (asked_by b1 a1)) = None ->
  (forall l c, In l ls' -> In c l -> is_space c = false -> exists l0, In l0 ls /\ In c l0) ->
  comes_back A Y orders version now fs stdin1 stdin2 stdin3 b1 a1 b2 a2 b3 a3 o d (fun l out => exists norm, normal l norm /\ out = unmark norm) ls'.
Proof. intros A Y orders version now stdin1 stdin2 stdin3 b1 a1 b2 a2 b3 a3 fs bt bf t m f o d ls ls' TL T F YN Hv Hn Ho L1 SC L2 Tf. exact (char_back A Y orders version now stdin1 stdin2 stdin3 b1 a1 b2 a2 b3 a3 fs bt bf t m f o d ls ls' TL T F YN Hv Hn Ho L1 SC L2 Tf). Qed.
Theorem C148_bpe : forall (A : arith) (Y : system A) orders version now stdin1 stdin2 stdin3 b1 a1 b2 a2 b3 a3 fs bt bf t m f o d ls ls',
  three_lines Y fs b1 a1 b2 a2 b3 a3 t m f o d -> lookup fs t = Some bt -> lookup fs f = Some bf -> y_bytes Y [] = [] ->
  scalars version -> scalars now -> iteration_orders orders ->
  lines_of (y_text Y bt) ls -> scalars (y_text Y bt) -> lines_of (y_text Y bf) ls' -> q_tfs (asked_by b1 a1) = false ->
  forall e0, q_level (asked_by b1 a1) = Some (lit "bpe") -> y_num Y (q_cv (asked_by b1 a1)) = None ->
  program A orders version now Y fs stdin1 (line "learn" b1 a1) = Some e0 -> x_status e0 = 0%Z ->
  (forall l c, In l ls' -> In c l -> is_space c = false -> exists l0, In l0 ls /\ In c l0) ->
  comes_back A Y orders version now fs stdin1 stdin2 stdin3 b1 a1 b2 a2 b3 a3 o d (fun l out => exists norm, normal l norm /\ trimmed (unmark norm) out /\ (~ In MARK l -> out = norm)) ls'.
Proof. intros A Y orders version now stdin1 stdin2 stdin3 b1 a1 b2 a2 b3 a3 fs bt bf t m f o d ls ls' TL T F YN Hv Hn Ho L1 SC L2 Tf. exact (bpe_back A Y orders version now stdin1 stdin2 stdin3 b1 a1 b2 a2 b3 a3 fs bt bf t m f o d ls ls' TL T F YN Hv Hn Ho L1 SC L2 Tf). Qed.

Definition ch_files : files := [(lit "text", ex_text); (lit "new", lit " ol  lol" ++ [10%N] ++ lit "lo"); (lit "x", lit "x")].
Definition ch1 : list (style * setting) := [(Short, SInp (lit "text")); (Long, SModel (lit "mod")); (Equals, SLevel (lit "bpe"))].
Definition ch1' : list (style * setting) := [(Short, SMinFreq 1); (Short, SMinCoEv 2); (Equals, SCoverage (lit "0"))].
Definition ch2 : list (style * setting) := [(Short, SModel (lit "mod")); (Short, SIndices)].
Definition ch2' : list (style * setting) := [(Long, SInp (lit "new")); (Equals, SOut (lit "ids"))].
Definition ch3' : list (style * setting) := [(Short, SInp (lit "ids")); (Short, SIndices); (Short, SOut (lit "back")); (Short, SModel (lit "mod"))].
Example C148_ex_hyps : three_lines ex_sys ch_files ch1 ch1' ch2 ch2' [] ch3' (lit "text") (lit "mod") (lit "new") (lit "ids") (lit "back") /\
  lookup ch_files (lit "text") = Some ex_text /\ y_bytes ex_sys [] = [] /\ q_tfs (asked_by ch1 ch1') = false /\
  q_level (asked_by ch1 ch1') = Some (lit "bpe") /\ y_num ex_sys (q_cv (asked_by ch1 ch1')) = None.
Proof.
  split; [|repeat split; reflexivity].
  assert (PL : forall s : string, (match lit s with [] => True | c :: _ => c <> 45%N end) -> plain (lit s)).
  { intros s H. left. intros r E. rewrite E in H. apply H. reflexivity. }
  assert (INP : forall f st p, st <> Equals -> f (lit p) <> None -> (match lit p with [] => True | c :: _ => c <> 45%N end) -> sensible ex_env f (st, SInp (lit p))).
  { intros f st p _ H1 H2. split; [right; exact H1|intros _; apply PL, H2]. }
  assert (OUT : forall f st p, (match lit p with [] => True | c :: _ => c <> 45%N end) -> sensible ex_env f (st, SOut (lit p))).
  { intros f st p H2. split; [right; reflexivity|intros _; apply PL, H2]. }
  assert (MOD : forall f st p, (match lit p with [] => True | c :: _ => c <> 45%N end) -> sensible ex_env f (st, SModel (lit p))).
  { intros f st p H2. split; [exact I|intros _; apply PL, H2]. }
  assert (LEV : forall f, sensible ex_env f (Equals, SLevel (lit "bpe"))).
  { intros f. split; [cbn; tauto|intros H; destruct H; reflexivity]. }
  assert (COV : forall f, sensible ex_env f (Equals, SCoverage (lit "0"))).
  { intros f. split; [reflexivity|intros H; destruct H; reflexivity]. }
  assert (ANY : forall f s, match s with SIndices | SMinFreq _ | SMinCoEv _ => True | _ => False end -> sensible ex_env f (Short, s)).
  { intros f s H. destruct s; try destruct H; split; try exact I; intros _; exact I. }
  constructor; try reflexivity.
  - repeat (constructor; [first [apply INP; [discriminate|vm_compute; discriminate|discriminate] | apply OUT; discriminate | apply MOD; discriminate | apply LEV | apply COV | apply ANY; exact I]|]). constructor.
  - repeat (constructor; [first [apply INP; [discriminate|vm_compute; discriminate|discriminate] | apply OUT; discriminate | apply MOD; discriminate | apply LEV | apply COV | apply ANY; exact I]|]). constructor.
  - repeat (constructor; [first [apply INP; [discriminate|vm_compute; discriminate|discriminate] | apply OUT; discriminate | apply MOD; discriminate | apply LEV | apply COV | apply ANY; exact I]|]). constructor.
  - intros p H. cbn in H. intuition discriminate.
  - intros p H. cbn in H. destruct H as [H|[H|[H|[H|[]]]]]; try discriminate H. injection H as <-. split; discriminate.
  - intros p H. cbn in H. destruct H as [H|[H|[H|[H|[]]]]]; try discriminate H. injection H as <-. split; discriminate.
  - discriminate.
Qed.
Example C148_ex_run : exists e1 e2 e3,
  ex_prog ch_files [] (ws ["-i"; "text"; "--model"; "mod"; "--level=bpe"; "learn"; "-mf"; "1"; "-mce"; "2"; "--char-coverage=0"]%string) = Some e1 /\
  ex_prog (x_files e1) [] (ws ["-m"; "mod"; "-idx"; "encode"; "--inp"; "new"; "--out=ids"]%string) = Some e2 /\
  ex_prog (x_files e2) [] (ws ["decode"; "-i"; "ids"; "-idx"; "-o"; "back"; "-m"; "mod"]%string) = Some e3 /\
  x_status e1 = 0%Z /\ x_status e2 = 0%Z /\ x_status e3 = 0%Z /\
  lookup (x_files e3) (lit "ids") = Some (lit "7 10 8 10" ++ [10%N] ++ lit "9" ++ [10%N]) /\
  lookup (x_files e3) (lit "back") = Some (lit "ol lol" ++ [10%N] ++ lit "lo" ++ [10%N]) /\
  lookup (x_files e3) (lit "x") = Some (lit "x").
Proof.
  do 3 eexists. split; [vm_compute; reflexivity|]. split; [vm_compute; reflexivity|]. split; [vm_compute; reflexivity|].
  repeat (match goal with |- _ /\ _ => split end); vm_compute; reflexivity.
Qed.

Print Assumptions C148_word.
Print Assumptions C148_char.
Print Assumptions C148_bpe.
