(** Evaluation tools: n-grams (utils.py), gram recall and precision (eval/pr_measure.py), gram
    frequencies (eval/termfreq.py), out-of-vocabulary counts (eval/oov_count.py), quality estimation
    (qestim.py).

    Floats: a float operation is the exact rational result followed by the rounding function [rnd],
    which is a parameter; with [rnd] the identity the arithmetic is exact.  Neither overflow nor
    subnormal underflow is modelled (the values stay in [0, 2^53]). *)
From Coq Require Import QArith Qabs.
From Verif Require Import Py PyStr CodecModel.
Local Open Scope Z_scope.
Local Open Scope list_scope.
Local Open Scope res_scope.

(** utils.py:16-18, make_n_grams. *)
Definition make_n_grams {A} (sent : list A) (n : Z) : res (list (list A)) :=
  let* _ := assert_ (0 <? n) in
  Ok (map (fun i => firstn (Z.to_nat n) (skipn i sent))
          (seq 0 (Z.to_nat (Z.of_nat (length sent) - n + 1)))).

Definition gram := list Z.
Definition gram_eqb (a b : gram) : bool := if list_eq_dec Z.eq_dec a b then true else false.

(** utils.py:21-30, make_n_grams_all, over the encoded sentences. *)
Definition make_n_grams_all (sents : list (list Z)) (n : Z) : res (list (gram * Z)) :=
  foldM (fun grams sent => let* gs := make_n_grams sent n in Ok (counter_update gram_eqb gs grams)) sents [].

(** eval/termfreq.py:35-44, main: the rows (gram, freq, names) it prints, most frequent first. *)
Definition termfreq_rows (s : scheme) (sents : list (list Z)) (n : Z) : res (list (gram * Z * list str)) :=
  let* freqs := make_n_grams_all sents n in
  mapM (fun gf => let* names := mapM (fun g => let* t := py_nth (s_table s) g in Ok (t_name t)) (fst gf) in
                  Ok (gf, names)) (sorted_desc snd freqs).

Section Floats.
  Variable rnd : Q -> Q.
  Definition fdiv (a b : Q) : Q := rnd (Qdiv a b).
  Definition fadd (a b : Q) : Q := rnd (Qplus a b).
  Definition fmul (a b : Q) : Q := rnd (Qmult a b).
  (** sum(l) of floats, from the left (CPython before 3.12). *)
  Definition fsum (l : list Q) : Q := fold_left fadd l 0%Q.

  (** eval/pr_measure.py:20-44: the four dicts while the pairs are read. *)
  Record grams_st := MkGrams {
    g_recalls : list (gram * list Q); g_ref_freqs : list (gram * Z);
    g_precs : list (gram * list Q); g_cand_freqs : list (gram * Z) }.
  (** d[k].append(v) on a defaultdict(list) *)
  Definition dappend (k : gram) (v : Q) (d : list (gram * list Q)) : list (gram * list Q) :=
    dset gram_eqb k (dget_def gram_eqb k [] d ++ [v]) d.
  (** lines 29-33, and 35-39 with the roles exchanged: per gram of [own] the fraction found in [other] *)
  Definition score_grams (own other : list (gram * Z)) (scores : list (gram * list Q)) (freqs : list (gram * Z))
    : res (list (gram * list Q) * list (gram * Z)) :=
    foldM (fun st gf =>
             let '(scores, freqs) := st in let '(g, f) := gf : gram * Z in
             let* _ := assert_ (0 <? f) in
             let f' := dget_def gram_eqb g 0 other in
             Ok (dappend g (fdiv (inject_Z (Z.min f' f)) (inject_Z f)) scores, dadd gram_eqb g f freqs))
          own (scores, freqs).
  Definition gram_pair (n : Z) (st : grams_st) (pair : list Z * list Z) : res grams_st :=
    let '(cand, ref) := pair in
    let* cg := make_n_grams cand n in
    let* rg := make_n_grams ref n in
    let cand_grams := counter_update gram_eqb cg [] in
    let ref_grams := counter_update gram_eqb rg [] in
    let* (recalls, ref_freqs) := score_grams ref_grams cand_grams (g_recalls st) (g_ref_freqs st) in
    let* (precs, cand_freqs) := score_grams cand_grams ref_grams (g_precs st) (g_cand_freqs st) in
    Ok (MkGrams recalls ref_freqs precs cand_freqs).
  (** lines 42-43 *)
  Definition average (l : list Q) : Q := fdiv (fsum l) (inject_Z (Z.of_nat (length l))).
  Definition averages (d : list (gram * list Q)) : list (gram * Q) := map (fun e => (fst e, average (snd e))) d.
  Definition count_gram_recall (cands refs : list (list Z)) (n : Z)
    : res (list (gram * Q) * list (gram * Z) * list (gram * Q) * list (gram * Z)) :=
    let* st := foldM (gram_pair n) (combine cands refs) (MkGrams [] [] [] []) in
    Ok (averages (g_recalls st), g_ref_freqs st, averages (g_precs st), g_cand_freqs st).

  (** eval/pr_measure.py:46-52; 2 * p * r is (2 * p) * r. *)
  Definition f1_measure (p r : Q) : res Q :=
    let* _ := assert_ (Qle_bool 0 p && Qle_bool p 1) in
    let* _ := assert_ (Qle_bool 0 r && Qle_bool r 1) in
    let denr := fadd p r in
    if Qeq_bool denr 0 then Ok 0%Q
    else Ok (fdiv (fmul (fmul 2 p) r) denr).

  (** eval/pr_measure.py:54-102, main after encoding both sides: the rows it writes, as
      (gram, rank frequency, reference frequency, candidate frequency, recall, precision, F1).
      [freqs] is the parsed --freqs file.  Line 61 does not pass n on.  Log messages, names and the
      number format are left out. *)
  Definition row : Type := gram * Z * Z * Z * Q * Q * Q.
  Definition pr_rows (cands refs : list (list Z)) (n : Z) (freqs : option (list (gram * Z))) : res (list row) :=
    let* _ := assert_ (Nat.eqb (length cands) (length refs)) in
    let* (q, cand_freqs) := count_gram_recall cands refs 1 in
    let '(recalls, ref_freqs, precs) := q : list (gram * Q) * list (gram * Z) * list (gram * Q) in
    let gram_freqs :=
      match freqs with
      | None => ref_freqs
      | Some fs =>
          (* lines 64-73; an empty --freqs file is still a file object, which is true *)
          let d := fold_left (fun d gf => dset gram_eqb (fst gf) (snd gf) d) fs [] in
          let d := filter (fun gf => dmem gram_eqb (fst gf) ref_freqs || dmem gram_eqb (fst gf) cand_freqs) d in
          fold_left (fun d g => dset gram_eqb g (-1) d)
                    (filter (fun g => negb (dmem gram_eqb g d)) (dkeys ref_freqs)) d
      end in
    mapM (fun gf =>
            let '(g, rank) := gf : gram * Z in
            let recall := dget_def gram_eqb g 0%Q recalls in
            let prec := dget_def gram_eqb g 1%Q precs in
            let* f1 := f1_measure prec recall in
            Ok (g, rank, dget_def gram_eqb g (-1) ref_freqs, dget_def gram_eqb g (-1) cand_freqs, recall, prec, f1))
         (sorted_desc snd gram_freqs).
End Floats.

(** eval/oov_count.py:21-33, term_freqs and partition_vocab_toks. *)
Definition oov_term_freqs (inp : list str) : list (str * Z) :=
  fold_left (fun tfs line => counter_update str_eqb (split (strip line)) tfs) inp [].
Definition partition_vocab_toks (inp : list str) (vocab : list str) : list (str * Z) * list (str * Z) :=
  let tfs := oov_term_freqs inp in
  let in_vocab t := existsb (str_eqb t) vocab in
  (filter (fun tf => in_vocab (fst tf)) tfs, filter (fun tf => negb (in_vocab (fst tf))) tfs).
(** eval/oov_count.py:35-50, main with a word model: (types, tokens) in and out of the vocabulary;
    the percentages divide by the number of tokens. *)
Definition oov_counts (s : scheme) (inp : list str) : res (Z * Z * (Z * Z) * (Q * Q)) :=
  let* _ := assert_ (match s_kind s with KByte => false | _ => true end) in
  let vocab := dkeys (s_str_to_idx s) in
  let '(iv, oov) := partition_vocab_toks inp vocab in
  let n_iv := zsum (dvalues iv) in
  let n_oov := zsum (dvalues oov) in
  let total := n_iv + n_oov in
  if total =? 0 then Raise ZeroDivisionError
  else Ok (Z.of_nat (length iv), n_iv, (Z.of_nat (length oov), n_oov),
           ((inject_Z (100 * n_iv) / inject_Z total)%Q, (inject_Z (100 * n_oov) / inject_Z total)%Q)).

(** qestim.py:54-59, EMD_simple, in exact arithmetic; None is NaN (0/0 in numpy). *)
Definition EMD_simple (stats : list Z) (moving_cost : Q) : res (option Q) :=
  let tot := zsum stats in
  let* _ := assert_ (negb (Qle_bool moving_cost 0)) in
  match stats with
  | [] => Raise ZeroDivisionError
  | _ =>
      let k := inject_Z (Z.of_nat (length stats)) in
      if tot =? 0 then Ok None
      else
        let distr := map (fun s => inject_Z s / inject_Z tot)%Q stats in
        Ok (Some ((1 # 2) * moving_cost * fold_right Qplus 0 (map (fun d => Qabs (d - 1 / k)) distr))%Q)
  end.

(** stats[tok] += 1 *)
Definition py_incr (stats : list Z) (i : Z) : res (list Z) :=
  match py_index (length stats) i with
  | None => Raise IndexError
  | Some n => Ok (firstn n stats ++ (nth n stats 0 + 1) :: skipn (S n) stats)
  end.
Record quality := MkQuality {
  q_n_types : Z; q_imbalance : option Q; q_n_tokens : Z; q_mean_seq_len : Q; q_unk_count : Z }.
(** qestim.py:35-37 and 89-113, estimate and _estimate: the lines are encoded one by one while the
    counts are updated.  The mean is exact. *)
Definition estimate (s : scheme) (lines : list str) : res quality :=
  let stats0 := repeat 0 (length (s_table s)) in
  let* (stats, n_seqs) :=
    foldM (fun st line =>
             let '(stats, n) := st : list Z * Z in
             let* seq := encode s line in
             let* stats := foldM py_incr seq stats in
             Ok (stats, n + 1)) lines (stats0, 0) in
  let n_toks := zsum stats in
  if n_seqs =? 0 then Raise ZeroDivisionError
  else
    match s_unk s with
    | None => Raise AttributeError
    | Some u =>
        let* unk_count := py_nth stats u in
        let* imb := EMD_simple stats 1 in
        Ok (MkQuality (Z.of_nat (length (s_table s))) imb n_toks (inject_Z n_toks / inject_Z n_seqs)%Q unk_count)
    end.
