(** Outcomes in full of loading by level and of storing parallel text. *)
From Coq Require Import Strings.String.
From Verif Require Import Py PyLemmas PyStr CodecModel CodecSpec JsonModel JsonProofs VocabFileModel VocabSpec VocabFileProofs NumpyModel DbModel DbSpec BatchModel MultipartModel MultipartSpec BitextModel BitextSpec BitextProofs.
From Coq Require Import Lia.
Local Open Scope Z_scope.
Local Open Scope list_scope.

(** Level names of old files. *)
Lemma level_kinds z : kind_of_level z =
  if z <? -4 then Raise IndexError else if z <? 0 then Ok (nth (Z.to_nat (z + 4)) schemes_by_level KByte)
  else if z <? 4 then Ok (nth (Z.to_nat z) schemes_by_level KByte) else Raise AssertionError.
Proof.
  unfold kind_of_level. change (Z.of_nat (length [KChar; KBpe; KWord; KClass])) with 4.
  destruct (Z.ltb_spec z 4) as [H4|H4]; cbn [assert_ bind].
  - destruct (Z.ltb_spec z (-4)) as [H|H].
    + unfold py_nth, py_index. change (Z.of_nat (length [KChar; KBpe; KWord; KClass])) with 4. destruct (Z.leb_spec 0 z); [lia|]. destruct (Z.leb_spec (- (4)) z); [lia|]. reflexivity.
    + assert (E : z = -4 \/ z = -3 \/ z = -2 \/ z = -1 \/ z = 0 \/ z = 1 \/ z = 2 \/ z = 3) by lia.
      repeat (destruct E as [->|E]; [reflexivity|]). subst z. reflexivity.
  - destruct (Z.ltb_spec z (-4)); [lia|]. destruct (Z.ltb_spec z 0); [lia|]. reflexivity.
Qed.
Theorem load_outcome bytes types kv m : read_vocab bytes = Ok (types, Some (JObj (kv :: m))) ->
  load_scheme bytes = match jget (lit "scheme") (kv :: m) with
    | Some (JStr name) => match dget str_eqb name REGISTRY with Some k => make_scheme k types | None => Raise KeyError end
    | Some (JArr _) | Some (JObj _) => Raise TypeError
    | Some _ => Raise KeyError
    | None => match jget (lit "max_level") (kv :: m) with
              | Some (JInt z) => bind (kind_of_level z) (fun k => make_scheme k types)
              | Some (JBool b) => make_scheme (if b then KBpe else KChar) types
              | Some _ => Raise TypeError
              | None => Raise KeyError
              end
    end.
Proof.
  intros H. unfold load_scheme. rewrite H. cbn [bind]. destruct (jget (lit "scheme") (kv :: m)) as [[]|]; try reflexivity.
  - destruct (dget str_eqb s REGISTRY); reflexivity.
  - destruct (jget (lit "max_level") (kv :: m)) as [[]|]; try reflexivity. destruct b; reflexivity.
Qed.
Theorem load_outcome' bytes types kv m : read_vocab bytes = Ok (types, Some (JObj (kv :: m))) ->
  load_scheme bytes = match jget (lit "scheme") (kv :: m) with
    | Some (JStr name) => match dget str_eqb name published_schemes with Some k => make_scheme k types | None => Raise KeyError end
    | Some (JArr _) | Some (JObj _) => Raise TypeError
    | Some _ => Raise KeyError
    | None => match jget (lit "max_level") (kv :: m) with
              | Some (JInt z) => if z <? -4 then Raise IndexError else if 3 <? z then Raise AssertionError
                                 else make_scheme (nth (Z.to_nat (z mod 4)) schemes_by_level KByte) types
              | Some (JBool b) => make_scheme (if b then KBpe else KChar) types
              | Some _ => Raise TypeError
              | None => Raise KeyError
              end
    end.
Proof.
  intros H. rewrite (load_outcome _ _ _ _ H). destruct (jget (lit "scheme") (kv :: m)) as [[]|]; try reflexivity.
  destruct (jget (lit "max_level") (kv :: m)) as [[| |z| | |]|]; try reflexivity. rewrite level_kinds.
  destruct (Z.ltb_spec z (-4)) as [L|L]; [reflexivity|]. destruct (Z.ltb_spec 3 z) as [L3|L3].
  - destruct (Z.ltb_spec z 0); [lia|]. destruct (Z.ltb_spec z 4); [lia|]. reflexivity.
  - assert (E : z = -4 \/ z = -3 \/ z = -2 \/ z = -1 \/ z = 0 \/ z = 1 \/ z = 2 \/ z = 3) by lia.
    repeat (destruct E as [->|E]; [reflexivity|]). subst z. reflexivity.
Qed.

Theorem rdd_iff w cl names ow pad n parts d : spark cl -> lists w -> Forall scalars names -> storable names (concat parts) -> concat parts <> [] -> NoDup (map fst (concat parts)) ->
  d = None \/ d = Some [] \/ ow = true ->
  let r := rdd_as_db w cl names ow pad n parts d in
  ((exists m, val r = Ok m) <-> forall p, In p (if 0 <? n then repartition cl (Z.to_nat n) parts else parts) -> p <> []) /\
  forall m, val r = Ok m -> complete (length names) (concat parts) (now r) /\ mdb_size m = Z.of_nat (length (concat parts)).
Proof.
  intros Hs Hl Hn Hst Hr Hnd Hd r. assert (Hne : names <> []) by apply Hst. assert (Hnn : NoDup names) by (destruct Hst as (Hq & _); inversion Hq; assumption).
  assert (Hok : (forall p, In p (final_parts cl n parts) -> p <> []) -> complete (length names) (concat parts) (now r) /\ exists m, val r = Ok m /\ mdb_size m = Z.of_nat (length (concat parts))).
  { intros Hp. destruct (rdd_stored w cl names ow pad n parts d Hs Hl Hn Hst Hr Hnd Hp Hd) as (Hc & Hv & _ & _). fold r in Hc, Hv. split; [exact Hc|].
    destruct (Hc None false false (or_introl eq_refl) ltac:(discriminate)) as (m & Em & Esz & _). exists m. rewrite Hv. auto. }
  assert (Hno : forall m, val r = Ok m -> forall p, In p (final_parts cl n parts) -> p <> []).
  { intros m Em p Hp ->. destruct (empty_partition w cl names ow pad n parts d Hs) as (e & E); [exact Hnn|exact Hne|exact Hp|]. fold r in E. congruence. }
  split; [split|].
  - intros (m & Em). exact (Hno m Em).
  - intros Hp. destruct (Hok Hp) as (_ & m & Em & _). eauto.
  - intros m Em. destruct (Hok (Hno m Em)) as (Hc & m' & Em' & E). split; [exact Hc|]. congruence.
Qed.
