(** nlcodec/para/mapred.py (tree reduction, word counts) and the parallel map of nlcodec/codec.py. *)
From Verif Require Import Py PyStr BatchModel.

(** Iterators are modelled at the level of single next() calls, because the reducer is lazy: all its
    levels are half-consumed at the same time and the reduce function runs in between.  W is the
    state the callbacks act on (the heap of mutable dicts, or unit), T an item of the stream. *)
Section Reduce.
  Context {T W : Type}.

  (** What next(it) does: yields, raises StopIteration, raises some exception, or raises
      mapred.py:17-19 SingletonException(item). *)
  Inductive step := Yield (x : T) | Stop | Fail (e : exn) | Single (x : T).

  (** The frame of one pair_subsequent generator (mapred.py:22-41), which is either in its loop with
      the local variables idx and last (Run 0 None: not started), or suspended at the last yield
      (line 41), or finished. *)
  Inductive gstate := Run (idx : nat) (last : option T) | Tail | Closed.

  (** One turn of the loop at mapred.py:58-65: itertools.chain([x], map(dispatcher, pairs)); s_head is
      the list item if it was not read yet. *)
  Record stage := MkStage { s_head : option T; s_gen : gstate }.

  (** The levels built so far, the newest first, over the data: the items of the data iterator, each
      as what the iterator runs to produce it. *)
  Definition pstate := (list stage * list (W -> res (T * W)))%type.

  Variable func : T -> T -> W -> res (T * W).
  Variable default : T.

  (** next() on the data iterator. *)
  Definition pull_src (stages : list stage) (src : list (W -> res (T * W))) (w : W) : step * pstate * W :=
    match src with
    | [] => (Stop, (stages, []), w)
    | t :: src' => match t w with
                   | Ok (x, w') => (Yield x, (stages, src'), w')
                   | Raise e => (Fail e, (stages, src'), w)
                   end
    end.

  (** What resuming pair_subsequent gives: a pair, its end, or an exception. *)
  Inductive pstep := Pair (a b : T) | PStop | PFail (e : exn) | PSingle (x : T).

  Section Level.
    Variable pull_in : pstate -> W -> step * pstate * W.

    (** mapred.py:31-41 with throw_singleton: the for loop, resumed with locals idx and last.  A pair
        is yielded every second turn, so the loop runs at most twice between two yields; fuel counts
        the turns.  `last` is None only before the first item and is never part of a pair: that
        branch is a TypeError here. *)
    Fixpoint pair_next (throw : bool) (fuel idx : nat) (last : option T) (inner : pstate) (w : W)
      : pstep * gstate * pstate * W :=
      match fuel with
      | O => (PFail OutOfFuel, Closed, inner, w)
      | S fuel' =>
          match pull_in inner w with
          | (Yield item, inner', w') =>
              if Nat.even (S idx)
              then match last with
                   | Some l => (Pair l item, Run (S idx) (Some item), inner', w')
                   | None => (PFail TypeError, Closed, inner', w')
                   end
              else pair_next throw fuel' (S idx) (Some item) inner' w'
          | (Fail e, inner', w') => (PFail e, Closed, inner', w')
          | (Single x, inner', w') => (PSingle x, Closed, inner', w')
          | (Stop, inner', w') =>
              if throw && (idx =? 0) then (PFail AssertionError, Closed, inner', w')
              else match last with
                   | Some l =>
                       if throw && (idx =? 1) then (PSingle l, Closed, inner', w')
                       else if Nat.odd idx then (Pair l default, Tail, inner', w')
                       else (PStop, Closed, inner', w')
                   | None => (PStop, Closed, inner', w')
                   end
          end
      end.

    Definition gen_next (throw : bool) (g : gstate) (inner : pstate) (w : W) : pstep * gstate * pstate * W :=
      match g with
      | Run idx last => pair_next throw 2 idx last inner w
      | Tail | Closed => (PStop, Closed, inner, w)
      end.

    (** mapred.py:52-54, 61: next(map(self.dispatcher, pairs)). *)
    Definition map_next (g : gstate) (inner : pstate) (w : W) : step * gstate * pstate * W :=
      match gen_next true g inner w with
      | (Pair a b, g', inner', w') =>
          match func a b w' with
          | Ok (c, w'') => (Yield c, g', inner', w'')
          | Raise e => (Fail e, g', inner', w')
          end
      | (PStop, g', inner', w') => (Stop, g', inner', w')
      | (PFail e, g', inner', w') => (Fail e, g', inner', w')
      | (PSingle x, g', inner', w') => (Single x, g', inner', w')
      end.

    (** mapred.py:65: next(itertools.chain([x], it)). *)
    Definition chain_next (s : stage) (inner : pstate) (w : W) : step * stage * pstate * W :=
      match s_head s with
      | Some x => (Yield x, MkStage None (s_gen s), inner, w)
      | None => let '(r, g', inner', w') := map_next (s_gen s) inner w in (r, MkStage None g', inner', w')
      end.
  End Level.

  (** next() on the newest of n levels. *)
  Fixpoint pull (n : nat) (st : pstate) (w : W) : step * pstate * W :=
    match n, st with
    | S n', (s :: stages, src) =>
        let '(r, s', (stages', src'), w') := chain_next (pull n') s (stages, src) w in
        (r, (s' :: stages', src'), w')
    | _, (stages, src) => pull_src stages src w
    end.

  (** mapred.py:56-68: the while loop; every turn adds a level and reads its first item.  A
      StopIteration from next(iterator) would leave the function; it is an OtherError here. *)
  Fixpoint reduce_loop (fuel : nat) (st : pstate) (w : W) : res (T * W) :=
    match fuel with
    | O => Raise OutOfFuel
    | S fuel' =>
        match map_next (pull (length (fst st))) (Run 0 None) st w with
        | (Yield x, g, (stages, src), w') => reduce_loop fuel' (MkStage (Some x) g :: stages, src) w'
        | (Single x, _, _, w') => Ok (x, w')
        | (Fail e, _, _, _) => Raise e
        | (Stop, _, _, _) => Raise OtherError
        end
    end.

  (** mapred.py:71-73 with pool=map. *)
  Definition ireduce (src : list (W -> res (T * W))) (w : W) : res (T * W) :=
    reduce_loop (S (S (length src))) ([], src) w.
End Reduce.
Arguments step : clear implicits.
Arguments gstate : clear implicits.
Arguments stage : clear implicits.
Arguments pstate : clear implicits.
Arguments pstep : clear implicits.

(** ireduce of plain values with a function without side effects; an input iterator that raises is a
    stream with an exception at its end. *)
Definition pure_src {T} (data : stream T) : list (unit -> res (T * unit)) :=
  map (fun x (_ : unit) => Ok (x, tt)) (fst data)
    ++ match snd data with Some e => [fun _ => Raise e] | None => [] end.
Definition ireduce_pure {T} (f : T -> T -> res T) (default : T) (data : stream T) : res T :=
  match ireduce (fun a b (_ : unit) => match f a b with Ok c => Ok (c, tt) | Raise e => Raise e end)
                default (pure_src data) tt with
  | Ok (x, _) => Ok x
  | Raise e => Raise e
  end.

(** mapred.py:22-41 used on its own (throw_singleton=False): all the pairs. *)
Fixpoint pairs_all {T} (fuel : nat) (default : T) (g : gstate T) (src : list (unit -> res (T * unit))) : stream (T * T) :=
  match fuel with
  | O => ([], Some OutOfFuel)
  | S fuel' =>
      match gen_next default (pull (fun a _ w => Ok (a, w)) default 0) false g ([], src) tt with
      | (Pair a b, g', (_, src'), _) => let (l, fin) := pairs_all fuel' default g' src' in ((a, b) :: l, fin)
      | (PStop, _, _, _) => ([], None)
      | (PFail e, _, _, _) => ([], Some e)
      | (PSingle _, _, _, _) => ([], Some OtherError)
      end
  end.
Definition pair_subsequent {T} (default : T) (data : stream T) : stream (T * T) :=
  pairs_all (S (S (length (fst data)))) default (Run 0 None) (pure_src data).

(** Word counts.  Dicts are mutable objects, so the state is the heap: object number i is the i-th
    dict; dicts are compared by number ("is"), not by content. *)
Definition tfs := list (str * Z).
Definition dheap := list tfs.
Definition obj (h : dheap) (r : nat) : tfs := nth r h [].
Fixpoint put (h : dheap) (r : nat) (d : tfs) : dheap :=
  match h, r with
  | [], _ => []
  | _ :: h', O => d :: h'
  | x :: h', S r' => x :: put h' r' d
  end.

(** mapred.py:111-113: a new Counter object. *)
Definition word_count_line (text : str) (h : dheap) : res (nat * dheap) :=
  Ok (length h, h ++ [counter_update str_eqb (split text) []]).

(** mapred.py:126-127: the loop over dump.items(), on the contents. *)
Definition merge_into (keep dump : tfs) : tfs :=
  fold_left (fun d kv => dset str_eqb (fst kv) (dget_def str_eqb (fst kv) 0%Z d + snd kv)%Z d) dump keep.
(** mapred.py:116-128: updates the larger dict in place and returns that object. *)
Definition merge_freqs (t1 t2 : nat) (h : dheap) : res (nat * dheap) :=
  let '(keep, dump) := if length (obj h t1) <? length (obj h t2) then (t2, t1) else (t1, t2) in
  Ok (keep, put h keep (merge_into (obj h keep) (obj h dump))).

(** mapred.py:131-132 and 83-87 with map_pool=map and reduce_pool=map: one call of a MapReduce made by
    WordCounter().  Object 0 is its default, shared by all reductions; h is the heap at the time of
    the call.  The result is the object number and the heap. *)
Definition word_counter (h : dheap) (lines : list str) : res (nat * dheap) :=
  ireduce merge_freqs 0 (map word_count_line lines) h.

(** mapred.py:89-108: with processes every dict is pickled on its way to and from a worker, so the
    callbacks work on values.  Pool.imap keeps the order (below), and values do not change, so the
    time at which a worker runs does not matter. *)
Definition merge_freqs_val (t1 t2 : tfs) : res tfs :=
  Ok (if length t1 <? length t2 then merge_into t2 t1 else merge_into t1 t2).
Definition word_counter_procs (map_procs red_procs : Z) (lines : list str) : res tfs :=
  if ((1 <=? map_procs) && (1 <=? red_procs))%Z
  then ireduce_pure merge_freqs_val [] (map (fun text => counter_update str_eqb (split text) []) lines, None)
  else Raise AssertionError.

(** mapred.py:134-138: the lines printed, as pairs (word, count). *)
Definition main_counts (lines : list str) : res (list (str * Z)) :=
  match word_counter_procs 2 2 lines with
  | Ok tfs => Ok (sorted_desc snd tfs)
  | Raise e => Raise e
  end.

(** Pool.imap (CPython Lib/multiprocessing/pool.py), used at codec.py:238 and mapred.py:106-107.

    Pool._get_tasks: islice(it, size) until it is empty.  If the input iterator raises, the items
    read for the unfinished chunk are dropped and _guarded_task_generation adds one task that raises
    the exception.  For chunksize 1 imap sends the items themselves instead of chunks of one item and
    the consumer gets the values instead of one-item lists; the model uses chunks there too. *)
Fixpoint chunks {A} (fuel size : nat) (l : list A) : list (list A) :=
  match fuel, l with
  | _, [] => []
  | O, _ => []
  | S fuel', _ => firstn size l :: chunks fuel' size (skipn size l)
  end.
Definition full_chunks {A} (size : nat) (l : list A) : list (list A) :=
  filter (fun c => length c =? size) (chunks (length l) size l).
(** mapstar: a task maps func over its chunk; if one call raises, the result of the task is that
    exception. *)
Definition task_results {A B} (func : A -> res B) (size : nat) (data : stream A) : list (res (list B)) :=
  match snd data with
  | None => map (mapM func) (chunks (length (fst data)) size (fst data))
  | Some e => map (mapM func) (full_chunks size (fst data)) ++ [Raise e]
  end.

(** IMapIterator: the consumer calls next(), which pops from _items, stops when _index = _length, or
    waits; the pool's result thread calls _set(i, obj) for task i in the order in which the workers
    finish; the task thread calls _set_length once.  A waiting consumer goes on after notify(). *)
Inductive mode := Running | Waiting | Woken | Stopped | Failed (e : exn).
Record imap {V : Type} := MkImap {
  im_items : list (res V); im_index : nat; im_length : option nat; im_unsorted : list (nat * res V);
  im_mode : mode; im_out : list V }.
Arguments imap : clear implicits.

Definition imap0 {V} : imap V := MkImap V [] 0 None [] Running [].

Definition notify (m : mode) : mode := match m with Waiting => Woken | _ => m end.
Definition at_length (i : nat) (l : option nat) : bool :=
  match l with Some n => i =? n | None => false end.

(** _set: the while loop over _unsorted; it ends when the index is missing, at the latest after as
    many turns as there are entries. *)
Fixpoint drain {V} (fuel : nat) (items : list (res V)) (index : nat) (unsorted : list (nat * res V))
  : list (res V) * nat * list (nat * res V) :=
  match fuel with
  | O => (items, index, unsorted)
  | S fuel' =>
      match dget Nat.eqb index unsorted with
      | Some v => drain fuel' (items ++ [v]) (S index) (ddel Nat.eqb index unsorted)
      | None => (items, index, unsorted)
      end
  end.
Definition im_set {V} (i : nat) (v : res V) (s : imap V) : imap V :=
  if im_index s =? i
  then let '(items, index, unsorted) := drain (length (im_unsorted s)) (im_items s ++ [v]) (S (im_index s)) (im_unsorted s) in
       MkImap V items index (im_length s) unsorted (notify (im_mode s)) (im_out s)
  else MkImap V (im_items s) (im_index s) (im_length s) (dset Nat.eqb i v (im_unsorted s)) (im_mode s) (im_out s).
Definition im_set_length {V} (n : nat) (s : imap V) : imap V :=
  MkImap V (im_items s) (im_index s) (Some n) (im_unsorted s)
    (if im_index s =? n then notify (im_mode s) else im_mode s) (im_out s).

(** next(): before the wait (woken = false) and after it (woken = true: TimeoutError, an OtherError
    here, if there is still nothing). *)
Definition im_next {V} (woken : bool) (s : imap V) : imap V :=
  match im_items s with
  | Ok v :: items => MkImap V items (im_index s) (im_length s) (im_unsorted s) Running (im_out s ++ [v])
  | Raise e :: items => MkImap V items (im_index s) (im_length s) (im_unsorted s) (Failed e) (im_out s)
  | [] => MkImap V [] (im_index s) (im_length s) (im_unsorted s)
            (if at_length (im_index s) (im_length s) then Stopped else if woken then Failed OtherError else Waiting)
            (im_out s)
  end.

(** All interleavings: done lists the tasks finished so far; results.(i) is what task i returns. *)
Inductive event := ESet (i : nat) | ELen | ENext | EWake.
Inductive istep {V} (results : list (res V)) : (list nat * imap V) -> event -> (list nat * imap V) -> Prop :=
| st_set done s i v : nth_error results i = Some v -> ~ In i done ->
    istep results (done, s) (ESet i) (i :: done, im_set i v s)
| st_len done s : im_length s = None ->
    istep results (done, s) ELen (done, im_set_length (length results) s)
| st_next done s : im_mode s = Running -> istep results (done, s) ENext (done, im_next false s)
| st_wake done s : im_mode s = Woken -> istep results (done, s) EWake (done, im_next true s).
Inductive isteps {V} (results : list (res V)) : (list nat * imap V) -> list event -> (list nat * imap V) -> Prop :=
| sts_nil x : isteps results x [] x
| sts_snoc x y z es e : isteps results x es y -> istep results y e z -> isteps results x (es ++ [e]) z.

(** codec.py:233-238 as a generator: what has been yielded in a state of the iterator, and how it
    ended if it did (`item for chunk in result for item in chunk`). *)
Definition pm_yields {B} (s : imap (list B)) : list B := concat (im_out s).
Definition pm_end {B} (s : imap (list B)) : option (option exn) :=
  match im_mode s with Stopped => Some None | Failed e => Some (Some e) | _ => None end.

(** A run of parallel_map(mapper, collection, n_cpus, chunksize) that has come to its end. *)
Inductive parallel_map {A B} (mapper : A -> res B) (collection : stream A) (n_cpus : Z) (chunksize : nat) : stream B -> Prop :=
| pm_few : (n_cpus <= 1)%Z -> parallel_map mapper collection n_cpus chunksize ([], Some AssertionError)
| pm_chunk : (1 < n_cpus)%Z -> chunksize = 0 -> parallel_map mapper collection n_cpus chunksize ([], Some ValueError)
| pm_run es done s fin : (1 < n_cpus)%Z -> 0 < chunksize ->
    isteps (task_results mapper chunksize collection) ([], imap0) es (done, s) -> pm_end s = Some fin ->
    parallel_map mapper collection n_cpus chunksize (pm_yields s, fin).

(** codec.py:230-231. *)
Definition encode_parallel {B} (encode : str -> res B) (seqs : stream str) (n_cpus : Z) : stream B -> Prop :=
  parallel_map encode seqs n_cpus (N.to_nat 1000).
