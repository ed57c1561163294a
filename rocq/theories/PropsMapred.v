(** Property theorems about map-reduce and parallel encoding (C56-C58). *)
From Coq Require Import Strings.String.
From Coq Require Import Sorted.
From Verif Require Import Py PyStr StrSpec BatchModel MapredModel MapredSpec MapredProofs MapredProofs2 ImapProofs.
Local Open Scope list_scope.

(** *** C56: the data are a stream: its items, and the exception the iterator ends in, if any *)
Theorem C56_tree_reduce_is_fold : forall (T : Type) (f : T -> T -> T) (default x : T) (items : list T),
  (forall a, f a default = a) -> (forall a b c, f a (f b c) = f (f a b) c) ->
  ireduce_pure (fun a b => Ok (f a b)) default (x :: items, None) = Ok (left_fold f x items).
Proof. intros T f d x l Hid Hassoc. exact (ireduce_fold f d Hid Hassoc x l). Qed.
Theorem C56_empty : forall (T : Type) (f : T -> T -> T) (default : T), (forall a, f a default = a) ->
  ireduce_pure (fun a b => Ok (f a b)) default ([], None) = Raise AssertionError.
Proof. exact (@ireduce_empty). Qed.
(* an input that raises after some items: the exception comes out, no partial result *)
Theorem C56_failing_input : forall (T : Type) (f : T -> T -> T) (default : T) (items : list T) e, (forall a, f a default = a) ->
  ireduce_pure (fun a b => Ok (f a b)) default (items, Some e) = Raise e.
Proof. intros T f d l e Hid. exact (ireduce_raises f d Hid l e). Qed.
(* pair_subsequent on its own *)
Theorem C56_pairs : forall (T : Type) (default : T) (items : list T),
  exists ps, pair_subsequent default (items, None) = (ps, None) /\ paired default items ps.
Proof. exact (@pair_subsequent_paired). Qed.
Example C56_ex :
  (forall a : list nat, a ++ [] = a) /\ (forall a b c : list nat, a ++ (b ++ c) = (a ++ b) ++ c) /\
  ireduce_pure (fun a b => Ok (a ++ b)) [] ([[1]; [2]; [3]; [4]; [5]; [6]; [7]], None) = Ok [1; 2; 3; 4; 5; 6; 7] /\
  ireduce_pure (fun a b => Ok (a ++ b)) [] ([[1]; [2]; [3]], Some KeyError) = Raise KeyError /\
  ireduce_pure (fun a b => Ok (a ++ b)) [] ([[1; 2]], None) = Ok [1; 2] /\
  pair_subsequent 0 ([1; 2; 3; 4; 5], None) = ([(1, 2); (3, 4); (5, 0)], None).
Proof. split; [apply app_nil_r|]. split; [apply app_assoc|]. vm_compute. repeat split. Qed.

(** *** C57: h is the heap of dict objects when the MapReduce is called; object 0 is its default *)
Theorem C57_word_counts : forall h line lines wss,
  heap_wf h -> Forall2 words_of (line :: lines) wss ->
  exists r h', word_counter h (line :: lines) = Ok (r, h') /\
    length h <= r < length h' /\                                     (* a new object *)
    counts_of (concat wss) (nth r h' []) /\
    (forall r', r' < length h -> nth r' h' [] = nth r' h []).          (* default and all other old objects as before *)
Proof. exact word_counter_exact. Qed.
Theorem C57_merge_adds : forall a b h, a <> b -> a < length h -> b < length h ->
  NoDup (map fst (nth a h [])) -> NoDup (map fst (nth b h [])) ->
  exists c h', merge_freqs a b h = Ok (c, h') /\ (c = a \/ c = b) /\
    (forall k, dget_def str_eqb k 0%Z (nth c h' []) = (dget_def str_eqb k 0 (nth a h []) + dget_def str_eqb k 0 (nth b h []))%Z) /\
    (forall r, r <> c -> nth r h' [] = nth r h []).
Proof. exact merge_freqs_adds. Qed.
(* with worker processes *)
Theorem C57_processes : forall map_procs red_procs line lines wss,
  (1 <= map_procs)%Z -> (1 <= red_procs)%Z -> Forall2 words_of (line :: lines) wss ->
  exists d, word_counter_procs map_procs red_procs (line :: lines) = Ok d /\ counts_of (concat wss) d.
Proof. exact word_counter_procs_exact. Qed.
(* what the word count program prints: the same counts, the most frequent words first *)
Theorem C57_printed : forall line lines wss, Forall2 words_of (line :: lines) wss ->
  exists d, main_counts (line :: lines) = Ok d /\ counts_of (concat wss) d /\
            StronglySorted (fun a b => (snd b <= snd a)%Z) d.
Proof. exact main_counts_exact. Qed.
Theorem C57_no_lines : forall h, word_counter h [] = Raise AssertionError.
Proof. exact word_counter_empty. Qed.
Example C57_ex :
  let h := [[]; [(lit "old", 3%Z)]] in
  heap_wf h /\
  word_counter h [lit "a b a"; lit ""; lit "c a"] =
    Ok (2, [[]; [(lit "old", 3%Z)]; [(lit "a", 3%Z); (lit "b", 1%Z); (lit "c", 1%Z)]; []; [(lit "c", 1%Z); (lit "a", 1%Z)]]).
Proof.
  cbv zeta. split; [|vm_compute; reflexivity]. split; [cbn; lia|]. split; [reflexivity|].
  constructor; [constructor|]. constructor; [|constructor]. constructor; [intros []|constructor].
Qed.

(** *** C58: parallel_map relates its arguments to what one finished run yielded and how it ended;
    every interleaving of the workers, the pool's threads and the consumer gives a run *)
Theorem C58_parallel_is_sequential : forall (B : Type) (encode : str -> res B) lines outs n_cpus out, (1 < n_cpus)%Z ->
  Forall2 (fun line o => encode line = Ok o) lines outs ->
  encode_parallel encode (lines, None) n_cpus out -> out = (outs, None).
Proof.
  intros B enc lines outs n out Hn Hf Hp.
  assert (Hs : 0 < N.to_nat 1000) by lia.
  unfold encode_parallel in Hp. rewrite (parallel_map_run enc (lines, None) n _ out Hn Hs Hp).
  unfold seen_input. cbn [fst snd]. rewrite (sequential_all enc lines outs None).
  - reflexivity.
  - exact (proj2 (PyLemmas.mapM_forall2 enc lines outs) Hf).
Qed.
(* any mapper, input and chunk size, also when something raises *)
Theorem C58_general : forall (A B : Type) (f : A -> res B) data n_cpus size out, (1 < n_cpus)%Z -> 0 < size ->
  parallel_map f data n_cpus size out -> out = cut size (sequential f (seen_input size data) (snd data)).
Proof. exact (@parallel_map_run). Qed.
Theorem C58_fewer_cpus : forall (A B : Type) (f : A -> res B) data n_cpus size out, (n_cpus <= 1)%Z ->
  parallel_map f data n_cpus size out -> out = ([], Some AssertionError).
Proof. intros A B f data n size out Hn Hp. destruct Hp; [reflexivity|lia|lia]. Qed.
(* in the middle of a run: the values handed out are the first values of the sequential run *)
Theorem C58_prefix : forall (A B : Type) (f : A -> res B) data size es done s, 0 < size ->
  isteps (task_results f size data) ([], imap0) es (done, s) ->
  exists more, fst (sequential f (seen_input size data) (snd data)) = pm_yields s ++ more.
Proof. exact (@running_prefix). Qed.
(* no deadlock and no endless run: until the consumer is at its end some step is possible, and a run
   over k tasks has at most 3k+3 steps *)
Theorem C58_progress : forall (V : Type) (results : list (res V)) es done s, isteps results ([], imap0) es (done, s) ->
  (im_mode s = Stopped \/ exists e, im_mode s = Failed e) \/ exists ev y, istep results (done, s) ev y.
Proof. exact (@reach_progress). Qed.
Theorem C58_bounded : forall (V : Type) (results : list (res V)) es x, isteps results ([], imap0) es x ->
  length es <= 3 * length results + 3.
Proof. exact (@reach_bound). Qed.
(* two workers, the second chunk is done first, the consumer waits twice *)
Example C58_ex :
  let f := fun n => if n =? 7 then Raise KeyError else Ok (n * 10) in
  parallel_map f ([1; 2; 3; 4; 5], None) 2 2 ([10; 20; 30; 40; 50], None) /\
  parallel_map f ([1; 2; 3; 7; 5], None) 2 2 ([10; 20], Some KeyError) /\
  parallel_map f ([1; 2; 3], Some ValueError) 2 2 ([10; 20], Some ValueError).
Proof.
  cbv zeta. split; [|split].
  - eapply (parallel_map_exec _ _ _ _ [ENext; ESet 1; ESet 0; EWake; ENext; ELen; ENext; ESet 2; EWake; ENext]);
      [lia|lia|vm_compute; reflexivity|reflexivity].
  - eapply (parallel_map_exec _ _ _ _ [ENext; ESet 1; ESet 0; EWake; ENext]); [lia|lia|vm_compute; reflexivity|reflexivity].
  - eapply (parallel_map_exec _ _ _ _ [ESet 1; ESet 0; ELen; ENext; ENext]); [lia|lia|vm_compute; reflexivity|reflexivity].
Qed.

Print Assumptions C56_tree_reduce_is_fold.
Print Assumptions C56_empty.
Print Assumptions C56_failing_input.
Print Assumptions C56_pairs.
Print Assumptions C57_word_counts.
Print Assumptions C57_merge_adds.
Print Assumptions C57_processes.
Print Assumptions C57_printed.
Print Assumptions C57_no_lines.
Print Assumptions C58_parallel_is_sequential.
Print Assumptions C58_general.
Print Assumptions C58_fewer_cpus.
Print Assumptions C58_prefix.
Print Assumptions C58_progress.
Print Assumptions C58_bounded.
