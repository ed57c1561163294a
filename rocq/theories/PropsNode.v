(** Property theorems about the linked nodes of the learner (C120, C121). *)
From Coq Require Import Strings.String.
From Verif Require Import Py PyStr StrSpec LearnBpeModel NodeModel NodeSpec NodeProofs.
Local Open Scope Z_scope.
Local Open Scope list_scope.

(** *** C120: comparing nodes. What == gives for the nodes at places p and q of two lists (or of one
    list), for every recursion limit n that is large enough to reach the ends. *)
Theorem C120_compare_exact_partial : forall st xs ys p q a b,
  linked st xs -> linked st ys -> nth_error xs p = Some a -> nth_error ys q = Some b ->
  ((exists t, (t <= Nat.min p q)%nat /\ content st xs (p - t) <> content st ys (q - t)) ->
     forall n, (Nat.min p q < n)%nat -> node_eq n st a b = Ok false) /\
  ((forall t, (t <= Nat.min p q)%nat -> content st xs (p - t) = content st ys (q - t)) ->
     (p <> q -> forall n, (Nat.min p q < n)%nat -> node_eq n st a b = Raise AttributeError) /\
     (p = q -> length xs = 1%nat -> length ys = 1%nat -> forall n, (0 < n)%nat -> node_eq n st a b = Ok true) /\
     (p = q -> length xs = 1%nat \/ length ys = 1%nat -> length xs <> length ys -> forall n, (0 < n)%nat -> node_eq n st a b = Raise AttributeError) /\
     (p = q -> (1 < length xs)%nat -> (1 < length ys)%nat ->
        (p = 0%nat /\ content st xs 1 <> content st ys 1 -> forall n, (1 < n)%nat -> node_eq n st a b = Ok false) /\
        (p <> 0%nat \/ content st xs 1 = content st ys 1 -> forall n, node_eq n st a b = Raise OtherError))).
Proof. exact compare_exact. Qed.
(** No node of a list of two or more can be compared even with itself. *)
Theorem C120_compare_refuted : forall st xs p a,
  linked st xs -> (1 < length xs)%nat -> nth_error xs p = Some a -> forall n, node_eq n st a a = Raise OtherError.
Proof.
  intros st xs p a L Hl Ha. destruct (compare_exact st xs xs p p a a L L Ha Ha) as [_ H].
  destruct (H (fun t _ => eq_refl)) as (_ & _ & _ & H4). exact (proj2 (H4 eq_refl Hl Hl) (or_intror eq_refl)).
Qed.
Definition ex_nodes : list lnode := from_seq 0 [7; 8; 9] 5 ++ from_seq 3 [7; 8; 6] 5 ++ from_seq 6 [7] 5 ++ from_seq 7 [7] 5.
Example C120_ex : linked ex_nodes [0; 1; 2]%nat /\
  node_eq 900 ex_nodes 0 3 = Raise OtherError /\ node_eq 900 ex_nodes 2 5 = Ok false /\
  node_eq 900 ex_nodes 6 7 = Ok true /\ node_eq 900 ex_nodes 0 6 = Raise AttributeError.
Proof.
  split.
  - split; [repeat constructor; cbn; intuition discriminate|]. intros [|[|[|k]]] i H; cbn in H; try (injection H as <-; eexists; split; [reflexivity|split; reflexivity]). destruct k; discriminate.
  - do 20 try (split; [vm_compute; reflexivity|]). vm_compute; reflexivity.
Qed.

(** *** C121: from_seq makes one list of the sequence, delete takes one node out of its list and leaves
    all other lists alone, printing shows the list with the node marked. *)
Theorem C121_from_seq : forall st s f,
  linked (st ++ from_seq (length st) s f) (seq (length st) (length s)) /\
  has_vals (st ++ from_seq (length st) s f) (seq (length st) (length s)) s /\
  (forall k, (k < length s)%nat -> exists v, content (st ++ from_seq (length st) s f) (seq (length st) (length s)) k = Some (v, f)) /\
  (forall ids, linked st ids -> linked (st ++ from_seq (length st) s f) ids).
Proof. exact from_seq_linked. Qed.
Theorem C121_delete : forall st l i r, linked st (l ++ i :: r) ->
  exists st', delete i st = Ok st' /\ linked st' (l ++ r) /\ linked st' [i] /\
    (forall j, option_map (fun n => (n_val n, n_freq n)) (nth_error st' j) = option_map (fun n => (n_val n, n_freq n)) (nth_error st j)) /\
    (forall ids, linked st ids -> (forall j, In j ids -> ~ In j (l ++ i :: r)) -> linked st' ids).
Proof. exact delete_linked. Qed.
Theorem C121_repr : forall st ids l v r i,
  linked st ids -> has_vals st ids (l ++ v :: r) -> nth_error ids (length l) = Some i ->
  node_repr st i = Ok (spaced SPACE (map str_of_Z l) ++ lit " *" ++ str_of_Z v ++ lit "* " ++ spaced SPACE (map str_of_Z r)).
Proof. exact repr_exact. Qed.
Example C121_ex : node_repr ex_nodes 1 = Ok (lit "7 *8* 9") /\
  (let* st := delete 1 ex_nodes in node_repr st 0)%res = Ok (lit " *7* 9") /\
  (let* st := delete 1 ex_nodes in node_repr st 1)%res = Ok (lit " *8* ") /\
  (let* st := delete 1 ex_nodes in node_repr st 4)%res = Ok (lit "7 *8* 6").
Proof. do 20 try (split; [vm_compute; reflexivity|]). vm_compute; reflexivity. Qed.

Print Assumptions C120_compare_exact_partial.
Print Assumptions C120_compare_refuted.
Print Assumptions C121_from_seq.
Print Assumptions C121_delete.
Print Assumptions C121_repr.
