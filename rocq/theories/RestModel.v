(** Further entry points: nlcodec/bpe.py learn_subwords_from_corpus, nlcodec/eval/termfreq.py
    encode_all, nlcodec/para/mapred.py MapReduce.__call__ and main. *)
From Coq Require Import Strings.String.
From Verif Require Import Py PyStr BatchModel CodecModel LearnBpeModel MapredModel.
Local Open Scope Z_scope.
Local Open Scope list_scope.
Local Open Scope res_scope.

(** bpe.py:321-327 and 286-320: learn_subwords_from_corpus with the keyword arguments of
    learn_subwords. [factory] is init_vocab_factory; its default is None, and line 312 calls it. *)
Definition learn_subwords_from_corpus (orders : nat -> list nat -> list nat) (corpus : list str)
           (vocab_size min_co_evidence : Z) (factory : option (list (str * Z) -> res (list Typ))) : res (list Typ) :=
  let term_freq := counter_update str_eqb (flat_map (fun seq => split (strip seq)) corpus) [] in
  learn_subwords orders term_freq vocab_size min_co_evidence
    (match factory with Some f => f | None => fun _ => Raise TypeError end).

(** A lazy map over a stream: what it yields until something raises, and how it ends. *)
Fixpoint yields {A B} (f : A -> res B) (l : list A) (fin : option exn) : stream B :=
  match l with
  | [] => ([], fin)
  | x :: l' => match f x with
               | Ok y => let (ys, e) := yields f l' fin in (y :: ys, e)
               | Raise e => ([], Some e)
               end
  end.

(** eval/termfreq.py:20-32, the two forms of encode_all *)
Definition encode_all_ids (s : scheme) (inp : stream str) : stream (list Z) :=
  yields (fun line => encode s (strip line)) (fst inp) (snd inp).
Definition encode_all_pieces (s : scheme) (inp : stream str) : stream (list str) :=
  yields (fun line => encode_str s (strip line)) (fst inp) (snd inp).

(** para/mapred.py:76-87, MapReduce called with pools that are the built-in map, or left out (None,
    which is called at lines 84 and 61: a TypeError). The callbacks have no side effects here; the
    word counter, whose callbacks have, is in MapredModel.v. *)
Inductive pool := NoPool | MapPool.
Definition map_reduce {A T} (mapper : A -> res T) (reducer : T -> T -> res T) (default : T)
           (input : stream A) (map_pool reduce_pool : pool) : res T :=
  match map_pool, reduce_pool with
  | MapPool, MapPool => ireduce_pure reducer default (yields mapper (fst input) (snd input))
  | _, _ => Raise TypeError
  end.

(** format(f, ','): a comma between groups of three digits, from the right *)
Fixpoint commas (l : str) : str :=
  match l with
  | a :: b :: c :: r => match r with [] => [a; b; c] | _ => a :: b :: c :: 44%N :: commas r end
  | _ => l
  end.
Definition thousands (z : Z) : str :=
  match z with
  | Zneg p => 45%N :: rev (commas (rev (str_of_Z (Zpos p))))
  | _ => rev (commas (rev (str_of_Z z)))
  end.
(** para/mapred.py:134-138: what main prints. Simplification: every string can be written to
    standard output. *)
Definition main_prints (lines : list str) : res str :=
  let* d := main_counts lines in
  Ok (flat_map (fun tf => fst tf ++ 9%N :: thousands (snd tf) ++ [10%N]) d).
