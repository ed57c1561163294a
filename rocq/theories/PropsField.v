(** Property theorems about listing a stored field (C142). *)
From Coq Require Import Strings.String.
From Verif Require Import Py NumpyModel NumpyProofs DbModel DbSpec DbProofs FieldProofs PropsDb.
From Coq Require Import Lia.
Local Open Scope Z_scope.
Local Open Scope list_scope.

(** *** C142: keys, values, items and lengths are those of the records, in the order they were given. *)
Theorem C142_listing : forall name buf recs,
  faithful (all_values recs) -> fits_memory (all_values recs) -> recs <> [] -> NoDup (map fst recs) ->
  exists f items, field_create name buf recs = Ok f /\ field_keys f = map fst recs /\
    map a_vals (field_values f) = map snd recs /\
    field_items f = Ok items /\ map a_vals items = map snd recs /\
    field_lengths f = Ok (map (fun r => (fst r, Z.of_nat (length (snd r)))) recs).
Proof.
  intros name buf recs Hv Hm Hne Hnd. destruct (field_reads_back name buf recs Hv Hm Hne Hnd) as (f & E & _ & Hr & _).
  destruct (field_lists name buf recs f E (faithful_in_range _ Hv) Hm) as (H1 & H2 & H3 & H4).
  assert (Hvals : map a_vals (field_values f) = map snd recs).
  { assert (Hr' : forall id arr, In (id, arr) recs -> exists a, get_item f id = Ok a /\ a_vals a = arr) by (intros id arr Hin; destruct (Hr id arr Hin) as (_ & a & Ea & Hav & _); eauto).
    clear - Hr' H3. revert Hr'. induction H3 as [|[id arr] a rs vs Ha H3 IH]; intros Hr; [reflexivity|]. cbn [map fst snd] in *.
    destruct (Hr id arr (or_introl eq_refl)) as (a' & Ea & Hv). rewrite IH by (intros i r Hin; apply Hr; right; exact Hin). congruence. }
  exists f, (field_values f). auto 10.
Qed.
(** Whatever the values (they may come back rounded, C39): the listing is what reading id by id gives. *)
Theorem C142_as_read : forall name buf recs f,
  field_create name buf recs = Ok f -> in_range (all_values recs) -> fits_memory (all_values recs) ->
  field_keys f = map fst recs /\ field_items f = Ok (field_values f) /\
  Forall2 (fun r a => get_item f (fst r) = Ok a) recs (field_values f) /\
  field_lengths f = Ok (map (fun r => (fst r, Z.of_nat (length (snd r)))) recs).
Proof. exact field_lists. Qed.
(** Items are values: no ids come with them. *)
Example C142_ex : exists f, field_create (lit "x") (Some 2) ex_recs = Ok f /\
  field_keys f = [7; 3; 5; 1] /\ map a_vals (field_values f) = [[1; 300; 2]; []; [70000; 1]; [4]] /\
  field_lengths f = Ok [(7, 3); (3, 0); (5, 2); (1, 1)].
Proof.
  exists (match field_create (lit "x") (Some 2) ex_recs with Ok f => f | Raise _ => MkField [] [] U8 [] (MkArr U8 []) end).
  vm_compute. repeat split.
Qed.

Print Assumptions C142_listing.
Print Assumptions C142_as_read.
