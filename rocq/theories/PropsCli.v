(** Property theorems about the command line encode and decode (C60, C61). *)
From Coq Require Import Strings.String.
From Verif Require Import Py PyStr StrSpec Utf8Model CodecModel CodecSpec VocabFileModel ByteProofs
  CliModel CliSpec CliProofs CliEnd ByteSpec PropsCodec.
Local Open Scope Z_scope.
Local Open Scope list_scope.

(** *** C60: inp is the text on the input of 'encode', ls its lines, outs the lines that 'decode' prints *)
Theorem C60_word_pieces : forall model s inp ls,
  load_scheme model = Ok s -> s_kind s = KWord -> lines_of inp ls ->
  exists encs outs, cli_encode model false inp = (unlines encs, None) /\
    cli_decode model false (unlines encs) = (unlines outs, None) /\ Forall2 normal ls outs /\ length encs = length ls.
Proof. exact word_pieces_cli. Qed.
Theorem C60_word_ids : forall model s inp ls,
  load_scheme model = Ok s -> s_kind s = KWord -> lines_of inp ls ->
  (forall l ws w, In l ls -> words_of l ws -> In w ws -> has_name (s_table s) w) ->
  exists encs outs, cli_encode model true inp = (unlines encs, None) /\
    cli_decode model true (unlines encs) = (unlines outs, None) /\ Forall2 normal ls outs /\ length encs = length ls.
Proof. exact word_ids_cli. Qed.
(* a marker character in the text comes back as a space *)
Theorem C60_char_pieces : forall model s inp ls,
  load_scheme model = Ok s -> s_kind s = KChar -> lines_of inp ls ->
  exists encs outs, cli_encode model false inp = (unlines encs, None) /\
    cli_decode model false (unlines encs) = (unlines outs, None) /\
    Forall2 (fun l out => exists norm, normal l norm /\ out = unmark norm) ls outs /\ length encs = length ls.
Proof. exact char_pieces_cli. Qed.
Theorem C60_char_ids : forall model s inp ls,
  load_scheme model = Ok s -> s_kind s = KChar -> lines_of inp ls ->
  (forall l c, In l ls -> In c l -> is_space c = false -> has_name (s_table s) [c]) ->
  exists encs outs, cli_encode model true inp = (unlines encs, None) /\
    cli_decode model true (unlines encs) = (unlines outs, None) /\
    Forall2 (fun l out => exists norm, normal l norm /\ out = unmark norm) ls outs /\ length encs = length ls.
Proof. exact char_ids_cli. Qed.
Theorem C60_bpe : forall model s indices inp ls,
  load_scheme model = Ok s -> s_kind s = KBpe -> lines_of inp ls ->
  (forall l c, In l ls -> In c l -> is_space c = false -> has_name (s_table s) [c]) ->
  exists encs outs, cli_encode model indices inp = (unlines encs, None) /\
    cli_decode model indices (unlines encs) = (unlines outs, None) /\
    Forall2 (fun l out => exists norm, normal l norm /\ trimmed (unmark norm) out /\ (~ In MARK l -> out = norm)) ls outs /\
    length encs = length ls.
Proof. exact bpe_cli. Qed.
Theorem C60_every_text_has_lines : forall text, exists ls, lines_of text ls.
Proof. exact lines_of_total. Qed.
(* the model files written for the example tables *)
Definition ex_file (k : kind) (table : list Typ) : list N := fst (save (lit "0.1") (lit "2020") (built k table)).
Example C60_ex :
  load_scheme (ex_file KWord ex_word) = Ok (built KWord ex_word) /\
  load_scheme (ex_file KChar ex_char) = Ok (built KChar ex_char) /\
  load_scheme (ex_file KBpe ex_bpe) = Ok (built KBpe ex_bpe) /\
  cli_encode (ex_file KWord ex_word) true (lit " ab  c" ++ [13; 10; 10; 99]%N) = (lit "6 7" ++ [10; 10]%N ++ lit "7" ++ [10]%N, None) /\
  cli_decode (ex_file KWord ex_word) true (lit "6 7" ++ [10; 10]%N ++ lit "7" ++ [10]%N) = (lit "ab c" ++ [10; 10; 99; 10]%N, None) /\
  cli_encode (ex_file KBpe ex_bpe) false (lit "abb a") = (lit "abb " ++ [MARK] ++ lit " a " ++ [MARK; 10]%N, None) /\
  cli_decode (ex_file KBpe ex_bpe) false (lit "abb " ++ [MARK] ++ lit " a " ++ [MARK; 10]%N) = (lit "abb a" ++ [10]%N, None) /\
  lines_of (lit " ab  c" ++ [13; 10; 10; 99]%N) [lit " ab  c"; []; lit "c"].
Proof.
  repeat match goal with |- _ /\ _ => split; [vm_compute; reflexivity|] end.
  assert (Hb : forall l, forallb (fun c => negb (c =? 10)%N && negb (c =? 13)%N) l = true -> no_break l).
  { intros l H. rewrite forallb_forall in H. split; intro Hi; apply H in Hi; discriminate Hi. }
  apply (Lo_crlf (lit " ab  c")); [apply Hb; reflexivity|]. apply (Lo_lf []); [apply Hb; reflexivity|].
  apply Lo_last; [discriminate|apply Hb; reflexivity].
Qed.

(** *** C61: class and byte models *)
Theorem C61_class_ids_partial : forall model s inp ls,
  load_scheme model = Ok s -> s_kind s = KClass -> lines_of inp ls ->
  (forall l out, In l ls -> trimmed l out -> has_name (s_table s) out) ->
  exists encs outs, cli_encode model true inp = (unlines encs, None) /\
    cli_decode model true (unlines encs) = (unlines outs, None) /\ Forall2 trimmed ls outs /\ length encs = length ls.
Proof. exact class_ids_cli. Qed.
Theorem C61_class_pieces_partial : forall model s inp ls,
  load_scheme model = Ok s -> s_kind s = KClass -> lines_of inp ls ->
  (forall l ws, In l ls -> words_of l ws -> (length ws <= 1)%nat) ->
  exists encs outs, cli_encode model false inp = (unlines encs, None) /\
    cli_decode model false (unlines encs) = (unlines outs, None) /\ Forall2 trimmed ls outs /\ length encs = length ls.
Proof. exact class_pieces_cli. Qed.
(* for every text: the words of each label come back with commas between them *)
Theorem C61_class_pieces_exact : forall model s inp ls,
  load_scheme model = Ok s -> s_kind s = KClass -> lines_of inp ls ->
  exists encs outs, cli_encode model false inp = (unlines encs, None) /\ Forall2 trimmed ls encs /\
    cli_decode model false (unlines encs) = (unlines outs, None) /\
    Forall2 (fun l out => exists ws, words_of l ws /\ out = spaced 44%N ws) ls outs.
Proof. exact class_pieces_exact. Qed.
(* a byte model restores only a text without any newline (and without other low control characters) *)
Theorem C61_byte_one_line_partial : forall model indices l,
  load_scheme model = Ok byte_scheme -> (forall c, In c l -> is_scalar c = true /\ (16 <= c)%N) -> l <> [] ->
  exists enc, cli_encode model indices l = (unlines [enc], None) /\
    cli_decode model indices (unlines [enc]) = (unlines [l], None).
Proof. exact byte_cli. Qed.
(* as soon as the first line ends in a newline, decode fails on it *)
Theorem C61_byte_newline_fails : forall model indices l rest ls,
  load_scheme model = Ok byte_scheme -> (forall c, In c l -> is_scalar c = true /\ (16 <= c)%N) ->
  lines_of rest ls -> (forall r c, In r ls -> In c r -> is_scalar c = true) ->
  exists encs, cli_encode model indices (l ++ [LF] ++ rest) = (unlines encs, None) /\ length encs = S (length ls) /\
    cli_decode model indices (unlines encs) = ([], Some ValueError).
Proof. exact byte_cli_fails. Qed.
(* for every text: what decode prints, line by line, up to the first line with an odd number of characters
   below 16 (the newline of the line is one of them) *)
Theorem C61_byte_exact : forall model indices inp raws,
  load_scheme model = Ok byte_scheme -> raw_lines inp raws -> (forall c, In c inp -> is_scalar c = true) ->
  exists encs, cli_encode model indices inp = (unlines encs, None) /\ length encs = length raws /\
    forall good rest, raws = good ++ rest -> (forall raw, In raw good -> Nat.even (lows raw) = true) ->
    exists outs,
      Forall2 (fun raw out => exists bs bs', utf8_encode raw = Ok bs /\ regrouped bs = Some bs' /\ out = utf8_decode [65533%N] bs') good outs /\
      (rest = [] -> cli_decode model indices (unlines encs) = (unlines outs, None)) /\
      (forall bad more, rest = bad :: more -> Nat.odd (lows bad) = true ->
         cli_decode model indices (unlines encs) = (unlines outs, Some ValueError)).
Proof. exact byte_cli_exact. Qed.
Theorem C61_every_text_has_raw_lines : forall text, exists raws, raw_lines text raws.
Proof. exact raw_total. Qed.
(* a tab makes the digits of the line even in number: it is printed, as other text *)
Example C61_byte_exact_ex :
  raw_lines [97; 9; 98; 13; 10; 104; 105; 10]%N [[97; 9; 98; 10]; [104; 105; 10]]%N /\
  Nat.even (lows [97; 9; 98; 10]%N) = true /\ Nat.odd (lows [104; 105; 10]%N) = true /\
  cli_encode (fst (save (lit "0.1") (lit "2020") (built KByte []))) false [97; 9; 98; 13; 10; 104; 105; 10]%N =
    (unlines [lit "61 9 62 a"; lit "68 69 a"], None) /\
  cli_decode (fst (save (lit "0.1") (lit "2020") (built KByte []))) false (unlines [lit "61 9 62 a"; lit "68 69 a"]) =
    ([97; 65533; 42; 10]%N, Some ValueError).
Proof.
  assert (Hb : forall l, forallb (fun c => negb (c =? 10)%N && negb (c =? 13)%N) l = true -> no_break l).
  { intros l H. rewrite forallb_forall in H. split; intro Hi; apply H in Hi; discriminate Hi. }
  split; [|vm_compute; auto]. apply (Rl_line [97; 9; 98]%N [13; 10]%N); [apply Hb; reflexivity| |auto].
  apply (Rl_line [104; 105]%N [10]%N []); [apply Hb; reflexivity|constructor|auto].
Qed.
Definition ex_labels : list Typ := [ty (lit "bad") 0 0 1; ty (lit "very bad") 0 1 1].
Theorem C61_class_and_byte_refuted :
  (exists model s line, load_scheme model = Ok s /\ s_kind s = KClass /\ has_name (s_table s) line /\
     cli_encode model false (unlines [line]) = (unlines [line], None) /\
     cli_decode model false (unlines [line]) = (unlines [lit "very,bad"], None) /\ line = lit "very bad") /\
  (exists model s line enc, load_scheme model = Ok s /\ s_kind s = KByte /\
     cli_encode model true (unlines [line]) = (unlines [enc], None) /\
     cli_decode model true (unlines [enc]) = ([], Some ValueError)).
Proof.
  split.
  - exists (ex_file KClass ex_labels), (built KClass ex_labels), (lit "very bad").
    split; [vm_compute; reflexivity|]. split; [reflexivity|].
    split; [exists (ty (lit "very bad") 0 1 1); split; [right; left; reflexivity|reflexivity]|]. vm_compute. repeat split.
  - exists (ex_file KByte []), byte_scheme, (lit "hi"), (lit "104 105 10"). vm_compute. repeat split.
Qed.
Example C61_ex :
  load_scheme (ex_file KClass ex_labels) = Ok (built KClass ex_labels) /\
  load_scheme (ex_file KByte []) = Ok byte_scheme /\
  cli_encode (ex_file KClass ex_labels) true (lit " very bad" ++ [10]%N ++ lit "bad") = (lit "1" ++ [10]%N ++ lit "0" ++ [10]%N, None) /\
  cli_decode (ex_file KClass ex_labels) true (lit "1" ++ [10]%N ++ lit "0" ++ [10]%N) = (lit "very bad" ++ [10]%N ++ lit "bad" ++ [10]%N, None) /\
  cli_encode (ex_file KByte []) false (lit "hi") = (lit "68 69" ++ [10]%N, None) /\
  cli_decode (ex_file KByte []) false (lit "68 69" ++ [10]%N) = (lit "hi" ++ [10]%N, None).
Proof. vm_compute. repeat split. Qed.

Print Assumptions C60_word_pieces.
Print Assumptions C60_word_ids.
Print Assumptions C60_char_pieces.
Print Assumptions C60_char_ids.
Print Assumptions C60_bpe.
Print Assumptions C60_every_text_has_lines.
Print Assumptions C61_class_ids_partial.
Print Assumptions C61_class_pieces_partial.
Print Assumptions C61_class_pieces_exact.
Print Assumptions C61_byte_one_line_partial.
Print Assumptions C61_byte_newline_fails.
Print Assumptions C61_byte_exact.
Print Assumptions C61_every_text_has_raw_lines.
Print Assumptions C61_class_and_byte_refuted.
