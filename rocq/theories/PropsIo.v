(** Property theorems about utils.IO (C95-C97). *)
From Coq Require Import Strings.String.
From Verif Require Import Py PyStr PyLemmas Utf8Model IoModel IoSpec IoProofs.
Local Open Scope list_scope.

(** *** C95: text written with IO.writer is read back by IO.reader. Full statement: the lines read are those of the
    text, for every path and text. It holds for plain files and text that utf-8 can encode; in general the
    exact lines are given. Missing: gzip files with carriage returns, and lone surrogates, where it is false. *)
Theorem C95_text_partial : forall fs name s ls, (forall c, In c s -> is_scalar c = true) ->
  (gz_name name -> ~ In 13%N s) -> lf_lines s ls ->
  exists fs', io_write_text fs name false s = Ok fs' /\ io_read_text fs' name = Ok ls /\ concat ls = s /\
    (forall n, n <> name -> dget str_eqb n fs' = dget str_eqb n fs).
Proof.
  intros fs name s ls Hs Hc Hl. pose proof (storable_scalars s Hs) as E. destruct (is_gz name) eqn:Hg.
  - destruct (gz_round_trip fs name s s ls Hg) as (fs' & H1 & H2 & H3); [rewrite E; apply crs_none, Hc, is_gz_iff, Hg|exact Hl|].
    exists fs'. split; [exact H1|]. split; [exact H2|]. split; [apply lf_lines_concat, Hl|exact H3].
  - destruct (text_round_trip fs name s ls Hg) as (fs' & H1 & H2 & H3); [rewrite E; exact Hl|].
    exists fs'. split; [exact H1|]. split; [exact H2|]. split; [apply lf_lines_concat, Hl|exact H3].
Qed.
Theorem C95_lines_exist : forall s, exists ls, lf_lines s ls.
Proof. exact lf_lines_exist. Qed.
Theorem C95_plain : forall fs name s ls, ~ gz_name name -> lf_lines (map storable_char s) ls ->
  exists fs', io_write_text fs name false s = Ok fs' /\ io_read_text fs' name = Ok ls /\
    (forall n, n <> name -> dget str_eqb n fs' = dget str_eqb n fs).
Proof. intros fs name s ls H. apply text_round_trip, not_gz, H. Qed.
Theorem C95_gz : forall fs name s t ls, gz_name name -> crs_as_lfs (map storable_char s) t -> lf_lines t ls ->
  exists fs', io_write_text fs name false s = Ok fs' /\ io_read_text fs' name = Ok ls /\
    (forall n, n <> name -> dget str_eqb n fs' = dget str_eqb n fs).
Proof. intros fs name s t ls H. apply gz_round_trip, is_gz_iff, H. Qed.
Theorem C95_append : forall fs name a s1 s2 fs1 fs2,
  io_write_text fs name a s1 = Ok fs1 -> io_write_text fs1 name true s2 = Ok fs2 -> io_write_text fs name a (s1 ++ s2) = Ok fs2.
Proof. exact append_continues. Qed.
Definition ex_crlf : str := lit "a" ++ [13; 10]%N ++ lit "b".
Example C95_ex : lf_lines ex_crlf [lit "a" ++ [13; 10]%N; lit "b"] /\ ~ gz_name (lit "x.txt") /\
  forallb is_scalar ex_crlf = true.
Proof. split; [apply lf_lines_iff; vm_compute; reflexivity|]. split; [apply not_gz; reflexivity|vm_compute; reflexivity]. Qed.
Example C95_gz_ex : gz_name (lit "x.gz") /\ crs_as_lfs (map storable_char ex_crlf) (lit "a" ++ [10%N] ++ lit "b") /\
  lf_lines (lit "a" ++ [10%N] ++ lit "b") [lit "a" ++ [10%N]; lit "b"].
Proof. split; [exists (lit "x"); reflexivity|]. split; [apply crs_iff; vm_compute; reflexivity|]. apply lf_lines_iff. vm_compute. reflexivity. Qed.
Example C95_append_ex : exists fs1 fs2, io_write_text [] (lit "x.gz") false (lit "ab") = Ok fs1 /\
  io_write_text fs1 (lit "x.gz") true (lit "cd") = Ok fs2 /\ io_read_text fs2 (lit "x.gz") = Ok [lit "abcd"].
Proof. eexists. eexists. split; [vm_compute; reflexivity|]. split; vm_compute; reflexivity. Qed.
(* the same text comes back with other line ends from a gzip file *)
Theorem C95_text_refuted : exists s fs', forallb is_scalar s = true /\ io_write_text [] (lit "x.gz") false s = Ok fs' /\
  io_read_text fs' (lit "x.gz") = Ok [lit "a" ++ [10%N]; lit "b"] /\ concat [lit "a" ++ [10%N]; lit "b"] <> s.
Proof.
  exists ex_crlf. eexists. split; [vm_compute; reflexivity|]. split; [vm_compute; reflexivity|]. split; [vm_compute; reflexivity|vm_compute; discriminate].
Qed.

(** *** C96: bytes written with IO.writer(text=False) are read back by IO.reader(text=False). Full statement: for every
    path. It holds for plain files. Missing: gzip files, which can be opened neither way. *)
Theorem C96_bytes_partial : forall fs name bs, ~ gz_name name ->
  exists fs', io_write_bytes fs name false bs = Ok fs' /\ io_read_bytes fs' name = Ok bs.
Proof. intros fs name bs H. apply bytes_round_trip, not_gz, H. Qed.
Theorem C96_append : forall fs name a b1 b2 fs1 fs2,
  io_write_bytes fs name a b1 = Ok fs1 -> io_write_bytes fs1 name true b2 = Ok fs2 -> io_write_bytes fs name a (b1 ++ b2) = Ok fs2.
Proof. exact bytes_append. Qed.
Example C96_ex : ~ gz_name (lit "xgz") /\ exists fs1 fs2, io_write_bytes [] (lit "xgz") false [0; 255]%N = Ok fs1 /\
  io_write_bytes fs1 (lit "xgz") true [13]%N = Ok fs2 /\ io_read_bytes fs2 (lit "xgz") = Ok [0; 255; 13]%N.
Proof. split; [apply not_gz; reflexivity|]. eexists. eexists. split; [vm_compute; reflexivity|]. split; vm_compute; reflexivity. Qed.
Theorem C96_bytes_refuted : forall fs name a bs, gz_name name ->
  io_write_bytes fs name a bs = Raise ValueError /\ io_read_bytes fs name = Raise ValueError.
Proof. intros fs name a bs H. apply gz_bytes_refused, is_gz_iff, H. Qed.

(** *** C97: read_as_stream yields the lines of all files in order: what IO.reader gives for each. *)
Theorem C97_as_readers : forall fs names lss, Forall2 (fun n ls => io_read_text fs n = Ok ls) names lss ->
  read_as_stream fs names = (concat lss, None).
Proof. exact stream_concat. Qed.
Theorem C97_stream : forall fs names texts lss,
  Forall2 (fun n t => ~ In 13%N t /\ exists bs, dget str_eqb n fs = Some bs /\ stored bs t) names texts ->
  Forall2 lf_lines texts lss -> read_as_stream fs names = (concat lss, None).
Proof. exact stream_texts. Qed.
Theorem C97_missing_file : forall fs names lss n rest,
  Forall2 (fun n ls => io_read_text fs n = Ok ls) names lss -> dget str_eqb n fs = None ->
  read_as_stream fs (names ++ n :: rest) = (concat lss, Some FileNotFound).
Proof. exact stream_missing. Qed.
(* a stray byte; a file without a final line feed does not run into the next one *)
Example C97_ex : exists texts lss, Forall2 (fun n t => ~ In 13%N t /\ exists bs, dget str_eqb n [(lit "a", lit "x"); (lit "b.gz", 255%N :: lit "y")] = Some bs /\ stored bs t)
    [lit "a"; lit "b.gz"] texts /\ Forall2 lf_lines texts lss /\ concat lss = [lit "x"; 65533%N :: lit "y"].
Proof.
  exists [lit "x"; 65533%N :: lit "y"], [[lit "x"]; [65533%N :: lit "y"]]. split; [|split; [|reflexivity]].
  - constructor; [|constructor; [|constructor]].
    + split; [intros [H|[]]; discriminate H|]. eexists. split; [vm_compute; reflexivity|]. apply stored_text. reflexivity.
    + split; [intros [H|[H|[]]]; discriminate H|]. eexists. split; [vm_compute; reflexivity|]. apply St_bad; [right; lia|]. apply stored_text. reflexivity.
  - constructor; [|constructor; [|constructor]]; apply lf_lines_iff; vm_compute; reflexivity.
Qed.

Print Assumptions C95_text_partial.
Print Assumptions C95_lines_exist.
Print Assumptions C95_plain.
Print Assumptions C95_gz.
Print Assumptions C95_append.
Print Assumptions C95_text_refuted.
Print Assumptions C96_bytes_partial.
Print Assumptions C96_bytes_refuted.
Print Assumptions C96_append.
Print Assumptions C97_as_readers.
Print Assumptions C97_stream.
Print Assumptions C97_missing_file.
