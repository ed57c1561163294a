(** Property theorems about the evaluation tools from their command lines (C154-C156). *)
From Coq Require Import Strings.String QArith Sorted.
From Verif Require Import Py PyStr PyLemmas BatchModel Utf8Model JsonModel JsonProofs CodecModel CodecSpec VocabFileModel VocabFileProofs LearnModel ArithModel DriverModel FreqModel MultipartModel BitextModel MapredModel EvalModel EvalSpec EvalProofs
     TrackModel MapredSpec OutcomeProofs MainModel PropsMain ArgModel ArgSpec ArgProofs ArgSound CmdModel CmdSpec PropsArg ToolModel ToolSpec PropsTool GramModel GramSpec GramEnd GramFile GramShell ToolTotal.
Local Open Scope list_scope.

(** The pool of processes of a machine with two processors. *)
Definition ex_pool (s : scheme) (ls : list str) : stream (list Z) := cut (N.to_nat 1000) (sequential (encode s) (seen_input (N.to_nat 1000) (ls, None)) None).
Example C154_ex_pool : forall s ls, encode_parallel (encode s) (ls, None) 2 (ex_pool s ls).
Proof. intros s ls. apply parallel_map_exact; [reflexivity|apply (Nat.lt_lt_succ_r 0 999); apply Nat.lt_0_succ|reflexivity]. Qed.

(** A machine that writes and reads UTF-8, with a word model, a BPE model and a text. *)
Definition ex_utf8 : system arithQ := MkSystem (A := arithQ) ex_env (utf8_decode []) utf8_encode_ignore (fun _ => None).
Definition ex_fmt (q : Q) : str := str_of_Z (Qnum (Qred q)) ++ lit "/" ++ str_of_Z (Zpos (Qden (Qred q))).
Definition ex_both : ArgModel.files := ex_files ++ [(lit "b", ex_bytes "bpe"); (lit "hyp", lit "lo lo" ++ [10%N] ++ lit "lol ol" ++ [10%N])].
Definition rows_text (ls : list str) : str := flat_map (fun l => l ++ [10%N]) ls.
Definition tabbed (l : list string) : str := join [9%N] (map lit l).

(** *** C154: termfreq, pr_measure, oov_count, qestim and bpe_len do what their command lines say. *)
Theorem C154_termfreq : forall (A : arith) (Y : system A) pool fs stdin l,
  Forall (esensible TermFreq (y_env Y) (lookup fs)) l -> (exists p, In (EModel p) (map snd l)) ->
  let q := fold_left eask (map snd l) enothing in
  let f := fold_left eopens (map snd l) (lookup fs) in
  exists model m e, k_model q = Some model /\ model_at f model m /\ gram_program Y pool fs stdin (flat_map (ewords TermFreq) l) = Some e /\
    gives Y f (k_out q) (match m with Ok s => termfreq_text s (pool s (plain_lines Y f stdin (k_inp q))) (k_n q) | Raise x => Raise x end) e.
Proof. intros A. exact (@termfreq_does A). Qed.
Theorem C154_pr_measure : forall (A : arith) rnd fmt (Y : system A) pool fs stdin l,
  Forall (esensible Recall (y_env Y) (lookup fs)) l -> (exists p, In (EModel p) (map snd l)) ->
  let q := fold_left eask (map snd l) enothing in
  let f := fold_left eopens (map snd l) (lookup fs) in
  exists model m e, k_model q = Some model /\ model_at f model m /\ recall_program rnd fmt Y pool fs stdin (flat_map (ewords Recall) l) = Some e /\
    (k_cands q = Unset /\ k_refs q = Unset -> gives Y f (k_out q) (Raise AssertionError) e) /\
    (~ (k_cands q = Unset /\ k_refs q = Unset) ->
     gives Y f (k_out q)
       (match m with
        | Ok s => recall_text rnd fmt s (pool s) (utf8_lines Y f stdin false (k_cands q)) (utf8_lines Y f stdin (on_stdin (k_cands q)) (k_refs q)) (k_n q)
                    (match k_freqs q with Unset => None | pl => Some (utf8_lines Y f stdin (on_stdin (k_cands q) || on_stdin (k_refs q)) pl) end)
        | Raise x => Raise x
        end) e).
Proof. intros A. exact (@recall_does A). Qed.
Theorem C154_oov_count : forall (A : arith) fmt (Y : system A) fs stdin l,
  Forall (esensible Oov (y_env Y) (lookup fs)) l -> (exists p, In (EModel p) (map snd l)) ->
  let q := fold_left eask (map snd l) enothing in
  exists model m e, k_model q = Some model /\ model_at (lookup fs) model m /\ oov_program fmt Y fs stdin (flat_map (ewords Oov) l) = Some e /\
    (forall p, lookup (x_files e) p = lookup fs p) /\ x_printed e = None /\
    match m with
    | Raise x => x_status e = 1%Z /\ x_exc e = Some x /\ x_stdout e = []
    | Ok s =>
        match oov_counts s (plain_lines Y (lookup fs) stdin (k_inp q)) with
        | Ok (ti, ni, (to, no), share) => x_status e = 0%Z /\ x_exc e = None /\ x_stdout e = oov_table fmt ti ni to no (Some share)
        | Raise x => x_status e = 1%Z /\ x_exc e = Some x /\ x_stdout e = match x with ZeroDivisionError => oov_table fmt 0 0 0 0 None | _ => [] end
        end
    end.
Proof. intros A. exact (@oov_does A). Qed.
Theorem C154_qestim : forall (A : arith) (Y : system A) fs stdin l,
  Forall (esensible Quality (y_env Y) (lookup fs)) l -> (exists p, In (EModel p) (map snd l)) ->
  let q := fold_left eask (map snd l) enothing in
  exists model m e, k_model q = Some model /\ model_at (lookup fs) model m /\ quality_program Y fs stdin (flat_map (ewords Quality) l) = Some e /\
    (forall p, lookup (x_files e) p = lookup fs p) /\ x_stdout e = [] /\
    match (match m with Ok s => estimate s (plain_lines Y (lookup fs) stdin (k_inp q)) | Raise x => Raise x end) with
    | Ok v => x_status e = 0%Z /\ x_exc e = None /\ x_printed e = Some v
    | Raise x => x_status e = 1%Z /\ x_exc e = Some x /\ x_printed e = None
    end.
Proof. intros A. exact (@quality_does A). Qed.
Theorem C154_bpe_len : forall (A : arith) orders cpus (Y : system A) pool fs stdin l,
  (forall s ls, encode_parallel (encode s) (ls, None) cpus (pool s ls)) ->
  Forall (esensible Quality (y_env Y) (lookup fs)) l -> (exists p, In (EModel p) (map snd l)) ->
  let q := fold_left eask (map snd l) enothing in
  exists model r e rows, k_model q = Some model /\ lens_program Y orders pool fs stdin (flat_map (ewords Quality) l) = Some (e, rows) /\
    match lookup fs model with
    | None => r = Raise FileNotFound
    | Some codec => estimate_lens orders cpus codec (plain_lines Y (lookup fs) stdin (k_inp q), None) r
    end /\
    (forall p, lookup (x_files e) p = lookup fs p) /\ x_stdout e = [] /\ x_printed e = None /\
    match r with
    | Ok v => x_status e = 0%Z /\ x_exc e = None /\ rows = Some v
    | Raise x => x_status e = 1%Z /\ x_exc e = Some x /\ rows = None
    end.
Proof. intros A. exact (@lens_does A). Qed.
Definition ex_eset : list (style * eset) := [(Short, EInp (lit "text")); (Equals, EModel (lit "m")); (Long, EOut (lit "grams")); (Short, EN 2)].
Definition ex_rset : list (style * eset) := [(Short, EModel (lit "m")); (Short, ECands (lit "hyp")); (Long, ERefs (lit "text")); (Short, EN 2)].
Ltac ok_esets := repeat (constructor; [split; [exact I|split; [intros _; repeat (constructor; [first [apply ex_plain; discriminate|left; intros r; discriminate]|]); constructor|cbn; first [exact I|right; vm_compute; discriminate|right; reflexivity]]]|]); constructor.
Example C154_ex_termfreq : Forall (esensible TermFreq ex_env (lookup ex_both)) ex_eset /\
  flat_map (ewords TermFreq) ex_eset = ws ["-i"; "text"; "--model=m"; "--out"; "grams"; "-n"; "2"]%string /\
  option_map (fun e => (x_status e, lookup (x_files e) (lit "grams"))) (gram_program ex_utf8 ex_pool ex_both [] (ws ["-i"; "text"; "--model=m"; "--out"; "grams"; "-n"; "2"]%string)) =
    Some (0%Z, Some (rows_text [lit "[[7, 6], 1, [""lol"", ""lo""]]"; lit "[[6, 6], 1, [""lo"", ""lo""]]"; lit "[[6, 8], 1, [""lo"", ""ol""]]"])).
Proof. split; [unfold ex_eset; ok_esets|]. split; vm_compute; reflexivity. Qed.
Example C154_ex_pr_measure : Forall (esensible Recall ex_env (lookup ex_both)) ex_rset /\
  flat_map (ewords Recall) ex_rset = ws ["-m"; "m"; "-c"; "hyp"; "--refs"; "text"; "-n"; "2"]%string /\
  option_map (fun e => (x_status e, x_stdout e)) (recall_program (fun q => q) ex_fmt ex_utf8 ex_pool ex_both [] (ws ["-m"; "m"; "-c"; "hyp"; "--refs"; "text"; "-n"; "2"]%string)) =
    Some (0%Z, rows_text (map tabbed [["Rank"; "Gram"; "Name"; "RankF"; "RefF"; "CandF"; "Recall"; "Precision"; "F1"]; ["1"; "6"; "lo"; "3"; "3"; "2"; "1/2"; "1/2"; "1/2"];
      ["2"; "7"; "lol"; "1"; "1"; "1"; "0/1"; "0/1"; "0/1"]; ["3"; "8"; "ol"; "1"; "1"; "1"; "1/1"; "1/1"; "1/1"]]%string)) /\
  option_map (fun e => (x_status e, x_exc e)) (recall_program (fun q => q) ex_fmt ex_utf8 ex_pool ex_both [] (ws ["-m"; "m"]%string)) = Some (1%Z, Some AssertionError).
Proof. split; [unfold ex_rset; ok_esets|]. split; [reflexivity|]. split; vm_compute; reflexivity. Qed.
Example C154_ex_oov_count :
  option_map (fun e => (x_status e, x_stdout e)) (oov_program ex_fmt ex_utf8 ex_both (lit "lol lo zap") (ws ["-m"; "m"]%string)) =
    Some (0%Z, rows_text (map tabbed [["*"; "InVocab"; "OOV"]; ["Types"; "2"; "1"]; ["Token Count"; "2"; "1"]; ["Token %"; "200/3"; "100/3"]]%string)) /\
  option_map (fun e => (x_status e, x_exc e)) (oov_program ex_fmt ex_utf8 ex_both [] (ws ["-m"; "m"]%string)) = Some (1%Z, Some ZeroDivisionError).
Proof. split; vm_compute; reflexivity. Qed.
Example C154_ex_qestim :
  option_map (fun e => (x_status e, option_map q_n_tokens (x_printed e), option_map q_mean_seq_len (x_printed e))) (quality_program ex_utf8 ex_both [] (ws ["--codec"; "m"; "-d"; "text"]%string)) =
    Some (0%Z, Some 5%Z, Some (5 # 2)).
Proof. vm_compute; reflexivity. Qed.
Example C154_ex_bpe_len :
  option_map (fun e => (x_status (fst e), option_map (map r_types) (snd e), option_map (map r_lens) (snd e))) (lens_program ex_utf8 as_is ex_pool ex_both (lit "lol lo lo") (ws ["-c"; "b"]%string)) =
    Some (0%Z, Some [8; 9; 10; 11]%Z, Some [[10]; [7]; [5]; [4]]%Z) /\
  option_map (fun e => (x_status (fst e), x_exc (fst e))) (lens_program ex_utf8 as_is ex_pool ex_both (lit "lol lo lo") (ws ["-c"; "m"]%string)) = Some (1%Z, Some AssertionError).
Proof. split; vm_compute; reflexivity. Qed.

(** *** C155: the file termfreq writes, the report of pr_measure, and one read by the other. *)
Theorem C155_file : forall k table s lines n cpus out,
  plain_kind k table -> make_scheme k table = Ok s -> (0 < n)%Z -> (1 < cpus)%Z ->
  encode_parallel (encode s) (lines, None) cpus out ->
  exists seqs rows ls, Forall2 (fun line seq => encode s line = Ok seq) lines seqs /\
    NoDup (map (fun r => fst (fst r)) rows) /\ StronglySorted (fun a b : gram * Z * list str => (snd (fst b) <= snd (fst a))%Z) rows /\
    (forall g f, In (g, f) (map fst rows) <-> List.length g = Z.to_nat n /\ (0 < f)%Z /\ f = total_times g seqs) /\
    Forall (fun r => Forall2 (name_at table) (fst (fst r)) (snd r)) rows /\
    Forall2 gram_text rows ls /\ termfreq_text s out n = Ok (flat_map (fun l => l ++ [10%N]) ls) /\
    (Forall (fun t => scalars (t_name t)) table -> read_freqs (file_lines (flat_map (fun l => l ++ [10%N]) ls)) = Ok (map fst rows)).
Proof. exact termfreq_file. Qed.
Theorem C155_report : forall rnd fmt k table s pool cpus cands refs n freqs fr,
  plain_kind k table -> make_scheme k table = Ok s -> rounding rnd ->
  (1 < cpus)%Z -> (forall ls, encode_parallel (encode s) (ls, None) cpus (pool ls)) -> List.length cands = List.length refs -> (Z.of_nat (List.length refs) <= 9007199254740992)%Z ->
  match freqs with None => fr = None | Some ls => exists l, read_freqs ls = Ok l /\ fr = Some l end ->
  exists cs rs rows ls, Forall2 (fun line seq => encode s line = Ok seq) cands cs /\ Forall2 (fun line seq => encode s line = Ok seq) refs rs /\
    recall_text rnd fmt s pool cands refs n freqs = Ok (HEAD ++ flat_map (fun l => l ++ [10%N]) ls) /\
    pr_rows rnd cs rs 1 fr = Ok rows /\ List.length ls = List.length rows /\
    (forall i r l, nth_error rows i = Some r -> nth_error ls i = Some l -> exists names, Forall2 (name_at table) (row_gram r) names /\ report_text fmt (S i) names r l) /\
    (forall g f, In (g, f) (map (fun r => (row_gram r, row_rank r)) rows) <-> List.length g = 1%nat /\ rank_of rs cs fr g f).
Proof. exact report_of. Qed.
Theorem C155_ranks : forall rnd fmt k table s pool cpus train m text cands refs n,
  plain_kind k table -> make_scheme k table = Ok s -> Forall (fun t => scalars (t_name t)) table -> rounding rnd ->
  (1 < cpus)%Z -> (forall ls, encode_parallel (encode s) (ls, None) cpus (pool ls)) -> List.length cands = List.length refs -> (Z.of_nat (List.length refs) <= 9007199254740992)%Z ->
  (0 < m)%Z -> termfreq_text s (pool train) m = Ok text ->
  exists ts cs rs rows ls,
    Forall2 (fun line seq => encode s line = Ok seq) train ts /\ Forall2 (fun line seq => encode s line = Ok seq) cands cs /\ Forall2 (fun line seq => encode s line = Ok seq) refs rs /\
    recall_text rnd fmt s pool cands refs n (Some (file_lines text)) = Ok (HEAD ++ flat_map (fun l => l ++ [10%N]) ls) /\ List.length ls = List.length rows /\
    (forall i r l, nth_error rows i = Some r -> nth_error ls i = Some l -> exists names, Forall2 (name_at table) (row_gram r) names /\ report_text fmt (S i) names r l) /\
    forall g f, In (g, f) (map (fun r => (row_gram r, row_rank r)) rows) <->
      List.length g = 1%nat /\
      ((m = 1%Z /\ (0 < f)%Z /\ f = total_times g ts /\ ((0 < total_times g rs)%Z \/ (0 < total_times g cs)%Z)) \/
       (f = (-1)%Z /\ (m <> 1%Z \/ total_times g ts = 0%Z) /\ (0 < total_times g rs)%Z)).
Proof. exact ranks_from_training. Qed.
Theorem C155_no_grams : forall s seqs n,
  (n <= 0)%Z -> termfreq_text s (seqs, None) n = match seqs with [] => Ok [] | _ => Raise AssertionError end.
Proof. exact termfreq_zero. Qed.
(** A frequency file of another origin: every line is parsed before any is unpacked, and the first that cannot be ends the run. *)
Theorem C155_bad_lines : forall rnd fmt s pool cands refs n cs rs lines,
  List.length cands = List.length refs -> pool cands = (cs, None) -> pool refs = (rs, None) ->
  (forall pre j post e, Forall2 (fun l j => loads (strip l) = Ok j) lines (pre ++ j :: post) -> Forall good_row pre -> bad_row j e ->
     recall_text rnd fmt s pool cands refs n (Some lines) = Raise e) /\
  (forall l1 js l l2 e, lines = l1 ++ l :: l2 -> Forall2 (fun l j => loads (strip l) = Ok j) l1 js -> loads (strip l) = Raise e ->
     recall_text rnd fmt s pool cands refs n (Some lines) = Raise e).
Proof. exact bad_lines. Qed.
Theorem C155_shell : forall (A : arith) (Y : system A) rnd fmt cpus pool fs stdin stdin' k table s mb tb cb rb (st : nat -> style) M T F C R O,
  (forall t, scalars t -> utf8_decode [] (y_bytes Y t) = t) -> rounding rnd ->
  (1 < cpus)%Z -> (forall s ls, encode_parallel (encode s) (ls, None) cpus (pool s ls)) ->
  lookup fs M = Some mb -> load_scheme mb = Ok s -> plain_kind k table -> make_scheme k table = Ok s -> Forall (fun t => scalars (t_name t)) table ->
  lookup fs T = Some tb -> lookup fs C = Some cb -> lookup fs R = Some rb ->
  List.length (file_lines (utf8_decode [] cb)) = List.length (file_lines (utf8_decode [] rb)) -> (Z.of_nat (List.length (file_lines (utf8_decode [] rb))) <= 9007199254740992)%Z ->
  e_writable (y_env Y) F = true -> e_writable (y_env Y) O = true ->
  Forall plain [M; T; F; C; R; O] -> Forall (fun p => p <> lit "-") [M; T; F; C; R; O] -> ~ In F [M; T; C; R; O] -> ~ In O [M; C; R] ->
  exists e1 e2 ts cs rs rows ls,
    gram_program Y pool fs stdin (flat_map (ewords TermFreq) [(st 0, EInp T); (st 1, EModel M); (st 2, EOut F)]%nat) = Some e1 /\ x_status e1 = 0%Z /\
    recall_program rnd fmt Y pool (x_files e1) stdin' (flat_map (ewords Recall) [(st 3, EModel M); (st 4, ECands C); (st 5, ERefs R); (st 6, EFreqs F); (st 7, EOut O)]%nat) = Some e2 /\
    x_status e2 = 0%Z /\ x_stdout e2 = [] /\
    (forall p, p <> F -> p <> O -> lookup (x_files e2) p = lookup fs p) /\
    lookup (x_files e2) O = Some (y_bytes Y (HEAD ++ flat_map (fun l => l ++ [10%N]) ls)) /\
    Forall2 (fun line seq => encode s line = Ok seq) (file_lines (y_text Y tb)) ts /\
    Forall2 (fun line seq => encode s line = Ok seq) (file_lines (utf8_decode [] cb)) cs /\
    Forall2 (fun line seq => encode s line = Ok seq) (file_lines (utf8_decode [] rb)) rs /\
    List.length ls = List.length rows /\
    (forall i r l, nth_error rows i = Some r -> nth_error ls i = Some l -> exists names, Forall2 (name_at table) (row_gram r) names /\ report_text fmt (S i) names r l) /\
    forall g f, In (g, f) (map (fun r => (row_gram r, row_rank r)) rows) <->
      List.length g = 1%nat /\
      (((0 < f)%Z /\ f = total_times g ts /\ ((0 < total_times g rs)%Z \/ (0 < total_times g cs)%Z)) \/
       (f = (-1)%Z /\ total_times g ts = 0%Z /\ (0 < total_times g rs)%Z)).
Proof. intros A Y rnd fmt cpus pool fs stdin stdin' k table s mb tb cb rb st M T F C R O. apply trained_ranks. Qed.
(* two runs: the training text is "text", the candidate "hyp" and the reference "text" *)
Example C155_ex_hyps : (forall t, scalars t -> utf8_decode [] (y_bytes ex_utf8 t) = t) /\ rounding (fun q => q) /\ (forall s ls, encode_parallel (encode s) (ls, None) 2 (ex_pool s ls)) /\
  (exists s mb table, lookup ex_both (lit "m") = Some mb /\ load_scheme mb = Ok s /\ plain_kind KWord table /\ make_scheme KWord table = Ok s /\ Forall (fun t => scalars (t_name t)) table) /\
  List.length (file_lines (utf8_decode [] (lit "lo lo" ++ [10%N] ++ lit "lol ol" ++ [10%N]))) = List.length (file_lines (utf8_decode [] ex_text)) /\
  Forall plain [lit "m"; lit "text"; lit "f"; lit "hyp"; lit "text"; lit "o"] /\ ~ In (lit "f") [lit "m"; lit "text"; lit "hyp"; lit "text"; lit "o"] /\ ~ In (lit "o") [lit "m"; lit "hyp"; lit "text"].
Proof.
  split; [exact utf8_ignore_roundtrip|]. split; [exact id_rounding|]. split; [exact C154_ex_pool|]. split.
  - assert (H : match load_scheme (ex_bytes "word") with Ok s => make_scheme KWord (s_table s) = Ok s /\ forallb (fun t => forallb is_scalar (t_name t)) (s_table s) = true | Raise _ => False end).
    { vm_compute. split; reflexivity. }
    destruct (load_scheme (ex_bytes "word")) as [s|] eqn:E; [|contradiction]. destruct H as (H1 & H2). exists s, (ex_bytes "word"), (s_table s). repeat split; auto; [left; reflexivity|].
    apply Forall_forall. intros t Ht. apply Forall_forall. intros c Hc. rewrite forallb_forall in H2. specialize (H2 t Ht). rewrite forallb_forall in H2. exact (H2 c Hc).
  - split; [vm_compute; reflexivity|]. split; [repeat (constructor; [apply ex_plain; discriminate|]); constructor|].
    split; intros H; repeat (destruct H as [H|H]; [discriminate H|]); exact H.
Qed.
Example C155_ex_run : exists e1 e2,
  gram_program ex_utf8 ex_pool ex_both [] (ws ["-i"; "text"; "-m"; "m"; "-o"; "f"]%string) = Some e1 /\
  lookup (x_files e1) (lit "f") = Some (rows_text [lit "[[6], 3, [""lo""]]"; lit "[[7], 1, [""lol""]]"; lit "[[8], 1, [""ol""]]"]) /\
  recall_program (fun q => q) ex_fmt ex_utf8 ex_pool (x_files e1) [] (ws ["-m"; "m"; "-c"; "hyp"; "-r"; "hyp"; "-f"; "f"; "-o"; "o"]%string) = Some e2 /\
  lookup (x_files e2) (lit "o") = Some (rows_text (map tabbed [["Rank"; "Gram"; "Name"; "RankF"; "RefF"; "CandF"; "Recall"; "Precision"; "F1"]; ["1"; "6"; "lo"; "3"; "2"; "2"; "1/1"; "1/1"; "1/1"];
      ["2"; "7"; "lol"; "1"; "1"; "1"; "1/1"; "1/1"; "1/1"]; ["3"; "8"; "ol"; "1"; "1"; "1"; "1/1"; "1/1"; "1/1"]]%string)).
Proof. eexists _, _. split; [vm_compute; reflexivity|]. split; [vm_compute; reflexivity|]. split; vm_compute; reflexivity. Qed.
Example C155_ex_bad : forall s,
  map (fun ls => match recall_text (fun q => q) ex_fmt s (fun _ => ([], None)) [] [] 1 (Some (map lit ls)) with Raise e => Some e | Ok _ => None end)
    [["[[6], 3, 0]"; "[[[6]], 3, 0]"]; ["[[6], 3, 0]"; "[[6], 3]"; "7"]; ["[[6], 3, 0]"; "7"; "[[6], 3]"]; ["7"; "[[6], 3"]; ["[[6], 3, 0] "]]%string
  = [Some TypeError; Some ValueError; Some TypeError; Some ValueError; None].
Proof. intros s. vm_compute. reflexivity. Qed.
Example C155_ex_rows : good_row (JArr [JArr [JInt 6]; JInt 3; JInt 0]) /\ bad_row (JArr [JArr [JArr [JInt 6]]; JInt 3; JInt 0]) TypeError /\ bad_row (JInt 7) TypeError /\
  loads (strip (lit "[[[6]], 3, 0] ")) = Ok (JArr [JArr [JArr [JInt 6]]; JInt 3; JInt 0]).
Proof.
  split; [exists [6%Z], 3%Z, (JInt 0); reflexivity|]. split; [apply BadNested; constructor; exact I|]. split; [apply BadLone; exact I|]. vm_compute. reflexivity.
Qed.

(** *** C156: every command line of the other tools ends, with status 0, 1 or 2, and only what it named has changed. *)
Theorem C156_learn : forall (A : arith) orders version now sp (Y : system A) lines fs argv,
  exists e, learn_program A orders version now sp Y lines fs argv = Some e /\
    ends_well learn_parser (y_env Y) fs argv (fun p => exists m, from argv m /\ (beside m (lit ".wordfreq.gz") p \/ beside m (lit ".charfreq.gz") p)) e.
Proof. exact learn_ends. Qed.
Theorem C156_freq : forall (A : arith) sp (Y : system A) lines fs argv,
  exists e, freq_program sp Y lines fs argv = Some e /\ ends_well freq_parser (y_env Y) fs argv (fun _ => False) e.
Proof. intros A sp Y lines fs argv. apply freq_ends. Qed.
Theorem C156_bitextdb : forall (A : arith) wd cl pad (Y : system A) lines fs argv,
  exists r, bitext_program wd cl pad Y lines fs argv = Some r /\
    match r with
    | Refused c => (c = 0 \/ c = 2)%Z /\ exists fs1, parse_args bitext_parser (y_env Y) fs argv = Some (Exited c fs1)
    | _ => exists ns fs1, parse_args bitext_parser (y_env Y) fs argv = Some (Parsed ns fs1)
    end.
Proof. intros A wd cl pad Y lines fs argv. apply bitext_ends. Qed.
Theorem C156_termfreq : forall (A : arith) (Y : system A) pool fs stdin argv,
  exists e, gram_program Y pool fs stdin argv = Some e /\ ends_well gram_parser (y_env Y) fs argv (fun _ => False) e.
Proof. intros A Y pool fs stdin argv. apply gram_ends. Qed.
Theorem C156_pr_measure : forall (A : arith) rnd fmt (Y : system A) pool fs stdin argv,
  exists e, recall_program rnd fmt Y pool fs stdin argv = Some e /\ ends_well recall_parser (y_env Y) fs argv (fun _ => False) e.
Proof. intros A rnd fmt Y pool fs stdin argv. apply recall_ends. Qed.
Theorem C156_oov_count : forall (A : arith) fmt (Y : system A) fs stdin argv,
  exists e, oov_program fmt Y fs stdin argv = Some e /\ ends_well oov_parser (y_env Y) fs argv (fun _ => False) e.
Proof. intros A fmt Y fs stdin argv. apply oov_ends. Qed.
Theorem C156_qestim : forall (A : arith) (Y : system A) fs stdin argv,
  exists e, quality_program Y fs stdin argv = Some e /\ ends_well codec_parser (y_env Y) fs argv (fun _ => False) e.
Proof. intros A Y fs stdin argv. apply quality_ends. Qed.
Theorem C156_bpe_len : forall (A : arith) (Y : system A) orders pool fs stdin argv,
  exists e rows, lens_program Y orders pool fs stdin argv = Some (e, rows) /\ ends_well codec_parser (y_env Y) fs argv (fun _ => False) e.
Proof. intros A Y orders pool fs stdin argv. apply lens_ends. Qed.
Example C156_ex : option_map x_status (gram_program ex_utf8 ex_pool ex_both [] (ws ["-m"; "m"; "-o"; "f"; "-n"; "two"]%string)) = Some 2%Z /\
  option_map x_status (recall_program (fun q => q) ex_fmt ex_utf8 ex_pool ex_both [] (ws ["--h"]%string)) = Some 0%Z /\
  option_map x_status (oov_program ex_fmt ex_utf8 ex_both [] (ws ["-m"; "none"]%string)) = Some 1%Z /\
  option_map x_status (ex_learn ex_disk (ws ["-i"; "a.txt"]%string)) = Some 2%Z /\
  option_map x_status (ex_freq ex_disk (ws ["-i"; "zz"; "-wf"; "w"]%string)) = Some 1%Z.
Proof. repeat split; vm_compute; reflexivity. Qed.

Print Assumptions C154_termfreq.
Print Assumptions C154_pr_measure.
Print Assumptions C154_oov_count.
Print Assumptions C154_qestim.
Print Assumptions C154_bpe_len.
Print Assumptions C155_file.
Print Assumptions C155_report.
Print Assumptions C155_ranks.
Print Assumptions C155_no_grams.
Print Assumptions C155_bad_lines.
Print Assumptions C155_shell.
Print Assumptions C156_learn.
Print Assumptions C156_freq.
Print Assumptions C156_bitextdb.
Print Assumptions C156_termfreq.
Print Assumptions C156_pr_measure.
Print Assumptions C156_oov_count.
Print Assumptions C156_qestim.
Print Assumptions C156_bpe_len.
