(** C166: what the estimate of a text says before and after shrinking to that text. *)
From Coq Require Import Strings.String QArith.
From Verif Require Import Py PyStr StrSpec CodecModel CodecSpec VocabFileModel VocabSpec ShrinkModel ShrinkSpec EvalModel ShrinkEstimate PropsCodec PropsTwice.
Local Open Scope Z_scope.
Local Open Scope list_scope.

(** *** C166: the shrunk vocabulary gives that text as many tokens and unknown ones, from no more
    types, no less evenly used. *)
Theorem C166_shrink_estimate : forall k table s lines min_freq,
  text_kind k -> make_scheme k table = Ok s -> well_indexed table -> kids_earlier table ->
  reserved_levels table -> min_freq <= 1 ->
  (exists line ps, In line lines /\ encode_str s line = Ok ps /\ ps <> []) ->
  exists mapping new s' q q', shrink_vocab s lines min_freq = Ok (mapping, new) /\ make_scheme k new = Ok s' /\
    estimate s lines = Ok q /\ estimate s' lines = Ok q' /\
    q_n_tokens q' = q_n_tokens q /\ q_unk_count q' = q_unk_count q /\ (q_mean_seq_len q' == q_mean_seq_len q)%Q /\
    q_n_types q' <= q_n_types q /\
    (exists v v', q_imbalance q = Some v /\ q_imbalance q' = Some v' /\ (v' <= v)%Q).
Proof. exact shrink_estimate. Qed.

(** The hypotheses hold and types are really dropped; the imbalance is then strictly lower. *)
Example C166_ex :
  text_kind KBpe /\ make_scheme KBpe ex_bpe = Ok (built KBpe ex_bpe) /\ well_indexed ex_bpe /\ kids_earlier ex_bpe /\ reserved_levels ex_bpe /\
  encode_str (built KBpe ex_bpe) (lit "b b") <> Ok [] /\
  match shrink_vocab (built KBpe ex_bpe) [lit "b b"; lit "x"] 1 with
  | Ok (_, new) =>
      match estimate (built KBpe ex_bpe) [lit "b b"; lit "x"], estimate (built KBpe new) [lit "b b"; lit "x"] with
      | Ok q, Ok q' =>
          (q_n_tokens q =? 6) && (q_n_tokens q' =? 6) && (q_unk_count q =? 1) && (q_unk_count q' =? 1) &&
          (q_n_types q =? 10) && (q_n_types q' =? 7) &&
          match q_imbalance q, q_imbalance q' with Some v, Some v' => Qle_bool v' v && negb (Qle_bool v v') | _, _ => false end
      | _, _ => false end
  | _ => false end%bool = true.
Proof. destruct C162_ex as (H1 & H2 & H3 & H4 & H5 & H6 & _). repeat (split; [assumption|]). vm_compute. reflexivity. Qed.
Print Assumptions C166_shrink_estimate.
