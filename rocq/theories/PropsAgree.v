(** Property theorems about two tools that report on the same text (C164, C165). *)
From Coq Require Import Strings.String QArith Lia.
From Verif Require Import Py PyStr PyLemmas StrSpec CodecModel CodecSpec LearnSpec EvalModel EvalSpec EvalProofs PropsCodec AgreeProofs AgreeGrams.
Local Open Scope Z_scope.
Local Open Scope list_scope.

(** *** C164: the tokens and the unknown tokens that estimate counts with a word model are those of oov_count.  Full statement: for every
    text.  It fails for the word "<unk>", which is unknown to estimate but in the vocabulary for oov_count, and without any word. *)
Theorem C164_counts_partial : forall table s lines wss,
  make_scheme KWord table = Ok s -> Forall2 words_of lines wss -> concat wss <> [] ->
  exists q ti ni to no p, estimate s lines = Ok q /\ oov_counts s lines = Ok (ti, ni, (to, no), p) /\
    q_n_tokens q = ni + no /\ q_unk_count q = no + occurrences (lit "<unk>") (concat wss).
Proof. exact same_story. Qed.
Theorem C164_agree_partial : forall table s lines wss,
  make_scheme KWord table = Ok s -> Forall2 words_of lines wss -> concat wss <> [] -> ~ In (lit "<unk>") (concat wss) ->
  exists q ti ni to no p, estimate s lines = Ok q /\ oov_counts s lines = Ok (ti, ni, (to, no), p) /\ q_n_tokens q = ni + no /\ q_unk_count q = no.
Proof.
  intros table s lines wss H1 H2 H3 H4. destruct (same_story table s lines wss H1 H2 H3) as (q & ti & ni & to & no & p & E1 & E2 & E3 & E4).
  exists q, ti, ni, to, no, p. repeat (split; [assumption|]). rewrite E4. unfold occurrences. rewrite (proj1 (count_occ_not_In str_dec _ _) H4). lia.
Qed.
Theorem C164_agree_refuted :
  (exists s lines q ti ni to no p, make_scheme KWord ex_word = Ok s /\ estimate s lines = Ok q /\ oov_counts s lines = Ok (ti, ni, (to, no), p) /\ q_unk_count q <> no) /\
  (exists s lines q, make_scheme KWord ex_word = Ok s /\ estimate s lines = Ok q /\ q_n_tokens q = 0 /\ oov_counts s lines = Raise ZeroDivisionError).
Proof.
  split.
  - exists (built KWord ex_word), [lit "ab <unk> zz"]. eexists _, _, _, _, _, _. split; [vm_compute; reflexivity|]. split; [vm_compute; reflexivity|]. split; [vm_compute; reflexivity|]. discriminate.
  - exists (built KWord ex_word), [lit " "]. eexists. split; [vm_compute; reflexivity|]. split; [vm_compute; reflexivity|]. split; vm_compute; reflexivity.
Qed.
Example C164_ex : exists s q p, make_scheme KWord ex_word = Ok s /\ estimate s [lit "ab zz c"; lit "c zz zy"] = Ok q /\
  oov_counts s [lit "ab zz c"; lit "c zz zy"] = Ok (2, 3, (2, 3), p) /\ q_n_tokens q = 6 /\ q_unk_count q = 3.
Proof.
  exists (built KWord ex_word). eexists _, _. split; [vm_compute; reflexivity|]. split; [vm_compute; reflexivity|]. split; [vm_compute; reflexivity|]. split; vm_compute; reflexivity.
Qed.
Example C164_ex_words : Forall2 words_of [lit "ab zz c"; lit "c zz zy"] [[lit "ab"; lit "zz"; lit "c"]; [lit "c"; lit "zz"; lit "zy"]] /\
  ~ In (lit "<unk>") (concat [[lit "ab"; lit "zz"; lit "c"]; [lit "c"; lit "zz"; lit "zy"]]).
Proof.
  split; [repeat (constructor; [apply PyStrProofs.words_of_iff; vm_compute; reflexivity|]); constructor|].
  intros H. cbn [concat app] in H. repeat (destruct H as [H|H]; [discriminate H|]). exact H.
Qed.

(** *** C165: the grams of size 1 that termfreq lists are the tokens that estimate counts, the one of number 1 the unknown ones, and there are
    no more of them than types. *)
Theorem C165_agree : forall k table s lines,
  (k = KWord \/ k = KChar \/ (k = KBpe /\ well_indexed table)) -> make_scheme k table = Ok s -> lines <> [] ->
  exists q seqs rows, estimate s lines = Ok q /\ Forall2 (fun line seq => encode s line = Ok seq) lines seqs /\ termfreq_rows s seqs 1 = Ok rows /\
    zsum (map (fun r => snd (fst r)) rows) = q_n_tokens q /\
    (forall f, In ([1], f) (map fst rows) <-> f = q_unk_count q /\ 0 < f) /\
    Z.of_nat (length rows) <= q_n_types q.
Proof. exact grams_story. Qed.
Example C165_ex : exists s q, make_scheme KWord ex_word = Ok s /\ estimate s [lit "ab zz c"; lit "c zz zy"] = Ok q /\
  q_n_tokens q = 6 /\ q_unk_count q = 3 /\ q_n_types q = 8 /\
  termfreq_rows s [[6; 1; 7]; [7; 1; 1]] 1 = Ok [([1], 3, [lit "<unk>"]); ([7], 2, [lit "c"]); ([6], 1, [lit "ab"])].
Proof.
  exists (built KWord ex_word). eexists. split; [vm_compute; reflexivity|]. split; [vm_compute; reflexivity|]. repeat (split; [vm_compute; reflexivity|]). vm_compute; reflexivity.
Qed.
Print Assumptions C165_agree.
Print Assumptions C164_counts_partial.
Print Assumptions C164_agree_partial.
Print Assumptions C164_agree_refuted.
