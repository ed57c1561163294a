(** What map-reduce and parallel mapping must do, stated without the code's helpers. *)
From Verif Require Import Py PyStr StrSpec LearnSpec BatchModel.

(** f applied from the left: ((x1 f x2) f x3) ...; of one item, the item. *)
Definition left_fold {T} (f : T -> T -> T) (x : T) (l : list T) : T := fold_left f l x.

(** The i-th pair holds the items 2i and 2i+1, or the last item and the default. *)
Definition paired {T} (default : T) (l : list T) (ps : list (T * T)) : Prop :=
  length l <= 2 * length ps <= S (length l) /\
  forall i a b, nth_error ps i = Some (a, b) ->
    nth_error l (2 * i) = Some a /\
    match nth_error l (S (2 * i)) with Some b' => b = b' | None => b = default end.

(** d holds exactly the words of the list, each once with its number of occurrences. *)
Definition counts_of (toks : list str) (d : list (str * Z)) : Prop :=
  NoDup (map fst d) /\ forall w n, In (w, n) d <-> n = occurrences w toks /\ In w toks.

(** One item after the other in this process: the results, up to the first exception. *)
Fixpoint sequential {A B} (f : A -> res B) (l : list A) (fin : option exn) : stream B :=
  match l with
  | [] => ([], fin)
  | x :: l' => match f x with
               | Ok y => let (ys, e) := sequential f l' fin in (y :: ys, e)
               | Raise e => ([], Some e)
               end
  end.

(** Work is handed out in chunks, so after a failure only whole chunks have been delivered: a
    sequential run that fails, cut back to a multiple of the chunk size. *)
Definition cut {B} (size : nat) (s : stream B) : stream B :=
  match snd s with
  | None => s
  | Some e => (firstn (size * (length (fst s) / size)) (fst s), Some e)
  end.
(** The part of the input a parallel map gets to see: if reading it fails, the items of the
    unfinished chunk are lost. *)
Definition seen_input {A} (size : nat) (data : stream A) : list A :=
  match snd data with
  | None => fst data
  | Some _ => firstn (size * (length (fst data) / size)) (fst data)
  end.
