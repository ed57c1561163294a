(** nlcodec/db/batch.py: examples as objects that several batches share and change in place, and the rest of
    IdExample and Batch. *)
From Coq Require Import Strings.String.
From Verif Require Import Py NumpyModel DbModel BatchModel.
Local Open Scope Z_scope.
Local Open Scope list_scope.
Local Open Scope res_scope.

(** The examples in memory; an example is referred to by its number. *)
Definition eheap : Set := list example.
Definition no_example : example := MkEx 0 (MkArr I64 []) None None None.
Definition eget (h : eheap) (r : nat) : example := nth r h no_example.
Fixpoint eput (h : eheap) (r : nat) (ex : example) : eheap :=
  match h, r with
  | [], _ => []
  | _ :: h', O => ex :: h'
  | x :: h', S r' => x :: eput h' r' ex
  end.

(** batch.py:142-153: what the two checks leave in the attribute, and the exception that ended them *)
Definition touch_seq (m : meta) (bos eos : bool) (seq : array) : array * option exn :=
  match val_exists First bos (bos_idx m) seq with
  | Raise e => (seq, Some e)
  | Ok s1 =>
      match val_exists Last eos (eos_idx m) s1 with
      | Raise e => (s1, Some e)
      | Ok s2 => (s2, None)
      end
  end.
Definition touch_x (m : meta) (ex : example) : example * option exn :=
  let (x, e) := touch_seq m (add_bos_x m) (add_eos_x m) (e_x ex) in
  (MkEx (e_id ex) x (e_y ex) (e_x_raw ex) (e_y_raw ex), e).
Definition touch_y (m : meta) (ex : example) : example * option exn :=
  match e_y ex with
  | None => (ex, Some TypeError)
  | Some y =>
      let (y, e) := touch_seq m (add_bos_y m) (add_eos_y m) y in
      (MkEx (e_id ex) (e_x ex) (Some y) (e_x_raw ex) (e_y_raw ex), e)
  end.
(** batch.py:151-153: the loop over the examples *)
Fixpoint pass (f : example -> example * option exn) (h : eheap) (refs : list nat) : eheap * option exn :=
  match refs with
  | [] => (h, None)
  | r :: refs' =>
      let (ex, e) := f (eget h r) in
      let h := eput h r ex in
      match e with
      | Some e => (h, Some e)
      | None => pass f h refs'
      end
  end.
(** batch.py:80-125, Batch.__init__ for the examples [refs] (an example may be given twice): the memory it
    leaves and the batch. *)
Definition batch_at (m : meta) (sort_dec batch_first : bool) (h : eheap) (refs : list nat) : eheap * res batch :=
  match pass (touch_x m) h refs with
  | (h, Some e) => (h, Raise e)
  | (h, None) =>
      let refs := if sort_dec then sorted_desc (fun r => a_len (e_x (eget h r))) refs else refs in
      let exs := map (eget h) refs in
      match make_side (pad_idx m) batch_first (map e_x exs) (map e_x_raw exs) with
      | Raise e => (h, Raise e)
      | Ok x =>
          match exs with
          | [] => (h, Raise IndexError)
          | ex :: _ =>
              match e_y ex with
              | None => (h, Ok (MkBatch (Z.of_nat (length exs)) (map e_id exs) x None))
              | Some _ =>
                  match pass (touch_y m) h refs with
                  | (h, Some e) => (h, Raise e)
                  | (h, None) =>
                      let exs := map (eget h) refs in
                      (h, let* ys := y_arrays exs in
                          let* y := make_side (pad_idx m) batch_first ys (map e_y_raw exs) in
                          Ok (MkBatch (Z.of_nat (length exs)) (map e_id exs) x (Some y)))
                  end
              end
          end
      end
  end.

(** batch.py:31-48, IdExample.val_exists_at. The other positions and sides are refused by the assertions; the
    warning is left out. *)
Definition val_exists_at (ex : example) (sd : str) (p : Z) (exist : bool) (val : Z) : res example :=
  let is_x := str_eqb sd (lit "x") in
  let* _ := assert_ (is_x || str_eqb sd (lit "y")) in
  let* _ := assert_ ((p =? 0) || (p =? -1)) in
  let* seq := if is_x then Ok (e_x ex) else match e_y ex with Some y => Ok y | None => Raise TypeError end in
  let* v := py_nth (a_vals seq) p in
  if exist && negb (v =? val) then
    let seq := np_append (if p =? 0 then First else Last) val seq in
    Ok (if is_x then MkEx (e_id ex) seq (e_y ex) (e_x_raw ex) (e_y_raw ex)
        else MkEx (e_id ex) (e_x ex) (Some seq) (e_x_raw ex) (e_y_raw ex))
  else Ok ex.

(** What the rest of Batch works with: numpy arrays, and torch tensors, which have the methods unsqueeze and to. *)
Inductive ndobj : Set := NdArray | Tensor.
Definition has_method (o : ndobj) : bool := match o with NdArray => false | Tensor => true end.
Definition call_method (o : ndobj) : res ndobj := if has_method o then Ok o else Raise AttributeError.
(** batch.py:176-188, subsequent_mask: numpy refuses negative sizes; mask is a numpy array *)
Definition subsequent_mask (size : Z) : res ndobj := if size <? 0 then Raise ValueError else call_method NdArray.
(** batch.py:164-173, make_autoreg_mask and make_autogres_mask_ for a numpy array or tensor whose last
    dimension is [size] *)
Definition make_autoreg_mask (seqs : ndobj) (size : Z) : res ndobj :=
  let* tgt_mask := call_method seqs in
  let* future := subsequent_mask size in
  Ok tgt_mask.
(** batch.py:158-162, Batch.to: _x_attrs and _y_attrs are tuples; adding a list to a tuple is a TypeError *)
Definition batch_to (b : batch) : res batch :=
  let* _ := match ba_y b with Some _ => Ok tt | None => Raise TypeError end in
  let* _ := call_method NdArray in
  Ok b.
