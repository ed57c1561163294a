(** What separates words, what is a number, and the levels of what is learned (C133). *)
From Coq Require Import Strings.String Lia.
From Verif Require Import Py PyStr PyLemmas StrSpec CodecModel CodecSpec LearnModel LearnProofs CliModel CliSpec TextSpec TextProofs PropsCodec.
Local Open Scope Z_scope.
Local Open Scope list_scope.

(** *** C133: one character between two words keeps them apart exactly when it is one of 29; a line of ids is
    read number by number, a number being digits with single underscores between them after an optional sign;
    ids are printed without leading zeros and with one space between. *)
Theorem C133_word_boundary : forall s w1 c w2, s_kind s = KWord -> plain w1 -> plain w2 ->
  encode_str s (w1 ++ [c] ++ w2) = Ok (if existsb (N.eqb c) white_space then [w1; w2] else [w1 ++ [c] ++ w2]).
Proof. exact word_boundary. Qed.
(* the white space of every other statement *)
Theorem C133_white_space : forall c, is_space c = true <-> white c.
Proof. exact white_iff. Qed.
Theorem C133_numbers : forall text z, int_of_str text = Ok z <-> number_text text z.
Proof. exact number_read. Qed.
Theorem C133_not_a_number : forall text, (forall z, ~ number_text text z) -> int_of_str text = Raise ValueError.
Proof. exact number_refused. Qed.
Theorem C133_decode_ids : forall s line ws, words_of line ws ->
  (forall ids, Forall2 number_text ws ids -> decode_line s true line = decode s ids) /\
  (forall w, In w ws -> (forall z, ~ number_text w z) -> decode_line s true line = Raise ValueError).
Proof. exact decode_ids_line. Qed.
Theorem C133_encode_ids : forall s line out, encode_line s true line = Ok out <->
  exists ids texts, encode s line = Ok ids /\ Forall2 printed ids texts /\ out = spaced 32 texts.
Proof. exact encode_ids_printed. Qed.
Theorem C133_printed_once : forall z a b, printed z a -> printed z b -> a = b.
Proof. intros z a b Ha Hb. exact (printed_unique z a z b Ha Hb eq_refl). Qed.
Theorem C133_printed_is_read : forall z text, printed z text -> number_text text z.
Proof. exact printed_number. Qed.
Example C133_ex :
  encode_str (built KWord ex_word) ([97; 160; 98]%N) = Ok [[97]; [98]]%N /\
  encode_str (built KWord ex_word) ([97; 8203; 98]%N) = Ok [[97; 8203; 98]]%N /\
  plain [97]%N /\ white 160 /\ ~ white 8203 /\
  decode_line (built KWord ex_word) true (lit " 0_6 +7 ") = decode (built KWord ex_word) [6; 7] /\
  decode_line (built KWord ex_word) true (lit "6 7a") = Raise ValueError /\
  number_text (lit "0_6") 6 /\ ~ number_text (lit "7a") 7 /\
  encode_line (built KWord ex_word) true (lit "ab c") = Ok (lit "6 7").
Proof.
  split; [vm_compute; reflexivity|]. split; [vm_compute; reflexivity|].
  split. { split; [discriminate|]. intros c [<-|[]]. intros H. apply white_iff in H. discriminate. }
  split; [apply white_iff; reflexivity|]. split; [intros H; apply white_iff in H; discriminate|].
  split; [vm_compute; reflexivity|]. split; [vm_compute; reflexivity|].
  split; [apply number_read; vm_compute; reflexivity|]. split; [intros H; apply number_read in H; discriminate|].
  vm_compute. reflexivity.
Qed.

(** The levels and the places of what is learned: words are at level 2, characters and classes at level 0,
    the reserved types at level -1; only classes have no reserved types before them. *)
Theorem C133_levels : forall A k data vs mf cov is_tf table, k = KWord \/ k = KChar \/ k = KClass ->
  learn_flat A k data vs mf cov is_tf = Ok table ->
  forall n t, nth_error table n = Some t ->
    t_idx t = Z.of_nat n /\ t_kids t = None /\
    t_level t = match k with
                | KClass => 0
                | _ => if (n <? 6)%nat then -1 else match k with KWord => 2 | _ => 0 end
                end.
Proof. exact learned_levels. Qed.

Print Assumptions C133_word_boundary.
Print Assumptions C133_white_space.
Print Assumptions C133_numbers.
Print Assumptions C133_not_a_number.
Print Assumptions C133_decode_ids.
Print Assumptions C133_encode_ids.
Print Assumptions C133_printed_once.
Print Assumptions C133_printed_is_read.
Print Assumptions C133_levels.
