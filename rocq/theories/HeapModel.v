(** nlcodec/dstruct.py MaxHeap, with the array algorithms of Python's heapq it calls. *)
From Verif Require Import Py.
Local Open Scope nat_scope.
Local Open Scope res_scope.

(** heap[i] = x *)
Fixpoint set_nth {A} (i : nat) (x : A) (l : list A) : list A :=
  match l, i with
  | [], _ => []
  | _ :: l', O => x :: l'
  | y :: l', S i' => y :: set_nth i' x l'
  end.

Section Heapq.
  Context {A : Type} (lt : A -> A -> bool).

  (** heapq._siftdown: the loop [while pos > startpos], then [heap[pos] = newitem]. The item read
      with [nth _ _ newitem] is always inside the array. *)
  Fixpoint siftdown_loop (fuel : nat) (startpos pos : nat) (newitem : A) (heap : list A) : res (list A) :=
    match fuel with
    | O => Raise OutOfFuel
    | S fuel' =>
        if startpos <? pos then
          let parentpos := (pos - 1) / 2 in
          let parent := nth parentpos heap newitem in
          if lt newitem parent
          then siftdown_loop fuel' startpos parentpos newitem (set_nth pos parent heap)
          else Ok (set_nth pos newitem heap)
        else Ok (set_nth pos newitem heap)
    end.
  Definition siftdown (startpos pos : nat) (newitem : A) (heap : list A) : res (list A) :=
    siftdown_loop (S pos) startpos pos newitem heap.

  (** heapq._siftup: move the smaller child up until a leaf is reached, then sift down. *)
  Fixpoint siftup_loop (fuel : nat) (startpos pos : nat) (newitem : A) (heap : list A) : res (list A) :=
    match fuel with
    | O => Raise OutOfFuel
    | S fuel' =>
        let endpos := length heap in
        let childpos := 2 * pos + 1 in
        if childpos <? endpos then
          let rightpos := childpos + 1 in
          let childpos :=
            if (rightpos <? endpos) && negb (lt (nth childpos heap newitem) (nth rightpos heap newitem))
            then rightpos else childpos in
          siftup_loop fuel' startpos childpos newitem (set_nth pos (nth childpos heap newitem) heap)
        else siftdown startpos pos newitem (set_nth pos newitem heap)
    end.
  Definition siftup (pos : nat) (heap : list A) : res (list A) :=
    match nth_error heap pos with
    | None => Raise IndexError
    | Some newitem => siftup_loop (S (length heap)) pos pos newitem heap
    end.

  (** heapq.heapify: for i in reversed(range(n//2)): _siftup(x, i) *)
  Definition heapify (heap : list A) : res (list A) :=
    foldM (fun h i => siftup i h) (rev (seq 0 (length heap / 2))) heap.

  (** heapq.heappush *)
  Definition heappush (heap : list A) (item : A) : res (list A) :=
    siftdown 0 (length heap) item (heap ++ [item]).

  (** heapq.heappop; [list.pop] on an empty list raises IndexError *)
  Definition heappop (heap : list A) : res (A * list A) :=
    match rev heap with
    | [] => Raise IndexError
    | lastelt :: rest =>
        match rev rest with
        | [] => Ok (lastelt, [])
        | returnitem :: _ =>
            let* h := siftup 0 (set_nth 0 lastelt (rev rest)) in
            Ok (returnitem, h)
        end
    end.
End Heapq.

Section MaxHeap.
  Context {T : Type} (tlt : T -> T -> bool).
  (** Python's order on the tuples (-val, node) *)
  Definition item_lt (x y : Z * T) : bool :=
    (fst x <? fst y)%Z || ((fst x =? fst y)%Z && tlt (snd x) (snd y)).
  (** dstruct.py:121-123 *)
  Definition mh_init (items : list (T * Z)) : res (list (Z * T)) :=
    heapify item_lt (map (fun nv => ((- snd nv)%Z, fst nv)) items).
  (** dstruct.py:125-132 *)
  Definition mh_push (h : list (Z * T)) (node : T) (val : Z) : res (list (Z * T)) :=
    heappush item_lt h ((- val)%Z, node).
  (** dstruct.py:134-137 *)
  Definition mh_pop (h : list (Z * T)) : res (T * Z * list (Z * T)) :=
    let* (x, h') := heappop item_lt h in Ok (snd x, (- fst x)%Z, h').
  (** dstruct.py:139-141 *)
  Definition mh_peek (h : list (Z * T)) : res (T * Z) :=
    match h with [] => Raise IndexError | x :: _ => Ok (snd x, (- fst x)%Z) end.
End MaxHeap.
