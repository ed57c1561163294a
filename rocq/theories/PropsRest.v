(** Property theorems about further entry points (C122-C125). *)
From Coq Require Import Strings.String.
From Coq Require Import Sorted.
From Verif Require Import Py PyStr StrSpec PyStrProofs BatchModel CodecModel CodecSpec LearnModel LearnSpec ArithModel BpeSpec LearnBpeModel
  MapredModel MapredSpec RestModel RestSpec RestProofs.
Local Open Scope Z_scope.
Local Open Scope list_scope.

(** *** C122: learning subwords directly from lines *)
Theorem C122_as_learn : forall A orders data vs cov mco, 0 < vs -> effective_size vs mco = vs ->
  learn_subwords_from_corpus orders data vs mco
    (Some (fun chars => get_init_vocab A L_char chars cov (Some (Z.of_nat (length data))) 1 (-1))) =
  learn_bpe A orders data vs cov mco false.
Proof. exact corpus_as_learn. Qed.
(** vocab_size = -1: the initial vocabulary, made from exact character counts in order of first
    appearance. *)
Theorem C122_initial : forall orders data toks mco factory, tokens_of KWord data toks ->
  exists d, exact_counts (marked_characters toks) d /\
    learn_subwords_from_corpus orders data (-1) mco (Some factory) = factory d.
Proof. exact corpus_initial. Qed.
Theorem C122_no_factory : forall orders data vs mco, learn_subwords_from_corpus orders data vs mco None = Raise TypeError.
Proof. exact corpus_no_factory. Qed.
Example C122_ex :
  (let keep d := Ok (map (fun e => MkType (fst e) 0 0 (snd e) None) d) in
   learn_subwords_from_corpus (fun _ l => l) [lit " lol lo"; lit "ol"] (-1) 2 (Some keep) =
     Ok [MkType (lit "l") 0 0 4 None; MkType (lit "o") 0 0 3 None; MkType [MARK] 0 0 3 None]) /\
  effective_size 10 2 = 10 /\
  match learn_subwords_from_corpus (fun _ l => l) [lit "lol lo"; lit "lo lo ol"] 10 2
    (Some (fun chars => get_init_vocab arithQ L_char chars None (Some 2) 1 (-1))) with
  | Ok table => map t_name (skipn 8 table) = [lit "lo"; (lit "lo" ++ [MARK])%list]
  | Raise _ => False
  end.
Proof. vm_compute. auto. Qed.

(** *** C123: encode_all encodes the trimmed lines in order, up to the first failure; the trimming
    makes a difference for the byte scheme only. *)
Theorem C123_ids : forall s lines fin trims outs,
  Forall2 trimmed lines trims -> Forall2 (fun t o => encode s t = Ok o) trims outs ->
  encode_all_ids s (lines, fin) = (outs, fin) /\
  forall line t e rest, trimmed line t -> encode s t = Raise e ->
    encode_all_ids s (lines ++ line :: rest, fin) = (outs, Some e).
Proof. exact encode_all_ids_exact. Qed.
Theorem C123_pieces : forall s lines fin trims outs,
  Forall2 trimmed lines trims -> Forall2 (fun t o => encode_str s t = Ok o) trims outs ->
  encode_all_pieces s (lines, fin) = (outs, fin) /\
  forall line t e rest, trimmed line t -> encode_str s t = Raise e ->
    encode_all_pieces s (lines ++ line :: rest, fin) = (outs, Some e).
Proof. exact encode_all_pieces_exact. Qed.
Theorem C123_same_as_encode : forall s line t, s_kind s <> KByte -> trimmed line t ->
  encode s t = encode s line /\ encode_str s t = encode_str s line.
Proof. exact trim_harmless. Qed.
Example C123_ex :
  match make_scheme KByte byte_vocab with
  | Ok s => encode_all_ids s ([lit " a" ++ [10%N]; lit "b"], Some UnicodeError) = ([[97]; [98]], Some UnicodeError) /\
            encode s (lit " a" ++ [10%N]) = Ok [32; 97; 10]
  | Raise _ => False
  end.
Proof. vm_compute. auto. Qed.

(** *** C124: a MapReduce with map as both pools is the fold of the mapped items *)
Theorem C124_map_reduce : forall (A T : Type) (m : A -> T) (g : T -> T -> T) (default : T) x l,
  (forall a, g a default = a) -> (forall a b c, g a (g b c) = g (g a b) c) ->
  map_reduce (fun a => Ok (m a)) (fun a b => Ok (g a b)) default (x :: l, None) MapPool MapPool = Ok (left_fold g (m x) (map m l)).
Proof. exact @map_reduce_ok. Qed.
Theorem C124_failures : forall (A T : Type) (mapper : A -> res T) (g : T -> T -> T) (default : T) l fin,
  (forall a, g a default = a) ->
  (forall pre x post e, l = pre ++ x :: post -> Forall (fun a => exists t, mapper a = Ok t) pre -> mapper x = Raise e ->
     map_reduce mapper (fun a b => Ok (g a b)) default (l, fin) MapPool MapPool = Raise e) /\
  (Forall (fun a => exists t, mapper a = Ok t) l -> forall e, fin = Some e ->
     map_reduce mapper (fun a b => Ok (g a b)) default (l, fin) MapPool MapPool = Raise e) /\
  (l = [] -> fin = None -> map_reduce mapper (fun a b => Ok (g a b)) default (l, fin) MapPool MapPool = Raise AssertionError).
Proof. exact @map_reduce_fail. Qed.
Theorem C124_pools_required : forall (A T : Type) (mapper : A -> res T) reducer (default : T) input mp rp,
  mp = NoPool \/ rp = NoPool -> map_reduce mapper reducer default input mp rp = Raise TypeError.
Proof. intros A T mapper reducer d input mp rp [-> | ->]; [|destruct mp]; reflexivity. Qed.
Example C124_ex :
  map_reduce (fun n => Ok (n * n)) (fun a b => Ok (a + b)) 0 ([1; 2; 3; 4; 5], None) MapPool MapPool = Ok 55 /\
  map_reduce (fun n => if n =? 3 then Raise KeyError else Ok n) (fun a b => Ok (a + b)) 0 ([1; 2; 3; 4], Some ValueError) MapPool MapPool = Raise KeyError.
Proof. vm_compute. auto. Qed.

(** *** C125: what the word count program prints *)
Theorem C125_printed : forall line lines wss, Forall2 words_of (line :: lines) wss ->
  exists d rows, main_prints (line :: lines) = Ok (concat rows) /\ Forall2 count_row d rows /\
    counts_of (concat wss) d /\ StronglySorted (fun a b => snd b <= snd a) d.
Proof. exact printed_exact. Qed.
Theorem C125_readable : forall l1 l2 wss1 wss2 text, Forall2 words_of l1 wss1 -> Forall2 words_of l2 wss2 ->
  main_prints l1 = Ok text -> main_prints l2 = Ok text ->
  forall w, occurrences w (concat wss1) = occurrences w (concat wss2).
Proof. exact printed_readable. Qed.
Example C125_ex :
  main_prints [lit "a b"; lit ""; lit " b "] = Ok (lit "b" ++ [9%N] ++ lit "2" ++ [10%N] ++ lit "a" ++ [9%N] ++ lit "1" ++ [10%N]) /\
  thousands 1234567 = lit "1,234,567" /\ thousands 123456 = lit "123,456" /\ thousands 999 = lit "999" /\ thousands (-1000) = lit "-1,000".
Proof. vm_compute. repeat split. Qed.

Print Assumptions C122_as_learn.
Print Assumptions C122_initial.
Print Assumptions C122_no_factory.
Print Assumptions C123_ids.
Print Assumptions C123_pieces.
Print Assumptions C123_same_as_encode.
Print Assumptions C124_map_reduce.
Print Assumptions C124_failures.
Print Assumptions C124_pools_required.
Print Assumptions C125_printed.
Print Assumptions C125_readable.
