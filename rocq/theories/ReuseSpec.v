(** Specification vocabulary for examples that batches share. *)
From Coq Require Import Strings.String.
From Verif Require Import Py NumpyModel DbSpec BatchModel BatchSpec ReuseModel.
Local Open Scope Z_scope.
Local Open Scope list_scope.

(** The examples [refs] exist. *)
Definition valid (h : eheap) (refs : list nat) : Prop := Forall (fun r => (r < length h)%nat) refs.
(** Conversions change none of the elements of the example (see sane). *)
Definition sane_example (ex : example) : Prop := sane (e_x ex) /\ forall y, e_y ex = Some y -> sane y.
(** A history of batches: whether sorted, whether the batch comes first, and the examples; a batch may fail. *)
Definition use : Set := (bool * bool * list nat)%type.
Definition after (m : meta) (h : eheap) (us : list use) : eheap :=
  fold_left (fun h (u : use) => fst (batch_at m (fst (fst u)) (snd (fst u)) h (snd u))) us h.

(** A sequence got some of the markers that are asked for, where they were missing; an empty one is left as it is. *)
Definition grown (bos : bool) (b : Z) (eos : bool) (e : Z) (s s' : list Z) : Prop :=
  (s = [] -> s' = []) /\ exists bos' eos', (bos' = true -> bos = true) /\ (eos' = true -> eos = true) /\ s' = marked bos' b eos' e s.
Definition grown_example (m : meta) (ex ex' : example) : Prop :=
  e_id ex' = e_id ex /\ e_x_raw ex' = e_x_raw ex /\ e_y_raw ex' = e_y_raw ex /\
  grown (add_bos_x m) (bos_idx m) (add_eos_x m) (eos_idx m) (a_vals (e_x ex)) (a_vals (e_x ex')) /\
  match e_y ex, e_y ex' with
  | Some y, Some y' => grown (add_bos_y m) (bos_idx m) (add_eos_y m) (eos_idx m) (a_vals y) (a_vals y')
  | None, None => True
  | _, _ => False
  end.

(** The side and the end that val_exists_at is asked for *)
Definition side_name (on_x : bool) : str := if on_x then lit "x" else lit "y".
Definition side_seq (on_x : bool) (ex : example) : option array := if on_x then Some (e_x ex) else e_y ex.
Definition place (front : bool) : Z := if front then 0 else -1.
