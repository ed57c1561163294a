(** Lemmas about the Python base layer (Py.v). *)
From Verif Require Import Py.
Local Open Scope Z_scope.

Lemma str_eqb_eq a b : str_eqb a b = true <-> a = b.
Proof.
  unfold str_eqb. revert b; induction a as [|x a IH]; intros [|y b]; split; intros H; try easy.
  - apply andb_true_iff in H as [H1 H2]. apply N.eqb_eq in H1. apply IH in H2. congruence.
  - injection H as -> ->. rewrite N.eqb_refl. simpl. apply IH; reflexivity.
Qed.
Lemma str_eqb_refl a : str_eqb a a = true.
Proof. apply str_eqb_eq; reflexivity. Qed.
Lemma str_eqb_neq a b : str_eqb a b = false <-> a <> b.
Proof.
  split.
  - intros H E. apply str_eqb_eq in E. congruence.
  - intros H. destruct (str_eqb a b) eqn:E; [|reflexivity]. apply str_eqb_eq in E. contradiction.
Qed.
Lemma str_eqb_sym a b : str_eqb a b = str_eqb b a.
Proof.
  destruct (str_eqb a b) eqn:E.
  - apply str_eqb_eq in E as ->. symmetry; apply str_eqb_refl.
  - apply str_eqb_neq in E. symmetry. apply str_eqb_neq. congruence.
Qed.
Definition str_dec (a b : str) : {a = b} + {a <> b} := list_eq_dec N.eq_dec a b.
Arguments str_dec : simpl never.

(** ** mapM / foldM *)
Lemma mapM_ok {A B} (f : A -> res B) (g : A -> B) l :
  (forall x, In x l -> f x = Ok (g x)) -> mapM f l = Ok (map g l).
Proof.
  induction l as [|x l IH]; intros H; simpl; [reflexivity|].
  rewrite (H x) by (left; reflexivity). rewrite IH; [reflexivity|].
  intros y Hy. apply H; right; exact Hy.
Qed.
Lemma mapM_forall2 {A B} (f : A -> res B) l ys :
  mapM f l = Ok ys <-> Forall2 (fun x y => f x = Ok y) l ys.
Proof.
  revert ys; induction l as [|x l IH]; intros ys; simpl.
  - split; intros H; [injection H as <-; constructor | inversion H; reflexivity].
  - destruct (f x) as [y|e] eqn:E.
    + destruct (mapM f l) as [ys'|e'].
      * split; intros H.
        -- injection H as <-. constructor; [exact E|]. apply IH; reflexivity.
        -- inversion H as [|? y' ? ys'' Hy Hys]; subst. apply IH in Hys. congruence.
      * split; intros H; [discriminate|].
        inversion H as [|? y' ? ys'' Hy Hys]; subst. apply IH in Hys. discriminate.
    + split; intros H; [discriminate|]. inversion H; congruence.
Qed.
Lemma mapM_raise {A B} (f : A -> res B) l e :
  mapM f l = Raise e -> exists x, In x l /\ f x = Raise e.
Proof.
  induction l as [|x l IH]; simpl; [discriminate|].
  destruct (f x) as [y|e0] eqn:E.
  - destruct (mapM f l) as [ys|e1]; [discriminate|]. intros H.
    destruct (IH H) as (z & Hz & Hf). exists z. auto.
  - intros H; injection H as ->. exists x; auto.
Qed.
Lemma mapM_ext {A B} (f g : A -> res B) l :
  (forall x, In x l -> f x = g x) -> mapM f l = mapM g l.
Proof.
  induction l as [|x l IH]; intros H; simpl; [reflexivity|].
  rewrite (H x) by (left; reflexivity). rewrite IH; [reflexivity|].
  intros y Hy; apply H; right; exact Hy.
Qed.
Lemma mapM_map {A B C} (f : B -> res C) (g : A -> B) l :
  mapM f (map g l) = mapM (fun x => f (g x)) l.
Proof. induction l as [|x l IH]; simpl; [reflexivity|]. rewrite IH; reflexivity. Qed.
Lemma mapM_length {A B} (f : A -> res B) l ys : mapM f l = Ok ys -> length ys = length l.
Proof. intros H. apply mapM_forall2 in H. induction H; simpl; congruence. Qed.
Lemma mapM_app {A B} (f : A -> res B) l1 l2 :
  mapM f (l1 ++ l2) =
  match mapM f l1 with
  | Raise e => Raise e
  | Ok a => match mapM f l2 with Raise e => Raise e | Ok b => Ok (a ++ b) end
  end.
Proof.
  induction l1 as [|x l IH]; simpl.
  - destruct (mapM f l2); reflexivity.
  - destruct (f x); [|reflexivity]. rewrite IH.
    destruct (mapM f l); [|reflexivity]. destruct (mapM f l2); reflexivity.
Qed.

Lemma foldM_app {A S} (f : S -> A -> res S) l1 l2 s :
  foldM f (l1 ++ l2) s = match foldM f l1 s with Ok s' => foldM f l2 s' | Raise e => Raise e end.
Proof.
  revert s; induction l1 as [|x l IH]; intros s; simpl; [reflexivity|].
  destruct (f s x); [apply IH|reflexivity].
Qed.

(** ** Indexing *)
Lemma py_nth_nonneg {A} (l : list A) (i : Z) a :
  0 <= i -> (py_nth l i = Ok a <-> nth_error l (Z.to_nat i) = Some a).
Proof.
  intros Hi. unfold py_nth, py_index.
  destruct (Z.leb_spec 0 i); [|lia].
  destruct (Z.ltb_spec i (Z.of_nat (length l))).
  - destruct (nth_error l (Z.to_nat i)) eqn:E.
    + split; congruence.
    + apply nth_error_None in E. lia.
  - split; [discriminate|]. intros H1.
    assert (Z.to_nat i < length l)%nat by (apply nth_error_Some; congruence). lia.
Qed.
Lemma py_nth_of_nat {A} (l : list A) (n : nat) a :
  py_nth l (Z.of_nat n) = Ok a <-> nth_error l n = Some a.
Proof. rewrite py_nth_nonneg by lia. rewrite Nat2Z.id. reflexivity. Qed.
Lemma py_nth_in_range {A} (l : list A) (i : Z) :
  0 <= i < Z.of_nat (length l) -> exists a, py_nth l i = Ok a.
Proof.
  intros Hi. destruct (nth_error l (Z.to_nat i)) as [a|] eqn:E.
  - exists a. apply py_nth_nonneg; [lia|exact E].
  - apply nth_error_None in E. lia.
Qed.
Lemma py_nth_map {A B} (f : A -> B) l i :
  py_nth (map f l) i = match py_nth l i with Ok a => Ok (f a) | Raise e => Raise e end.
Proof.
  unfold py_nth. rewrite map_length. destruct (py_index (length l) i); [|reflexivity].
  rewrite nth_error_map. destruct (nth_error l n); reflexivity.
Qed.
Lemma py_nth_raise {A} (l : list A) i e : py_nth l i = Raise e -> e = IndexError.
Proof.
  unfold py_nth. destruct (py_index _ _); [destruct (nth_error _ _)|]; congruence.
Qed.
Lemma py_nth_ok_range {A} (l : list A) i a :
  py_nth l i = Ok a -> - Z.of_nat (length l) <= i < Z.of_nat (length l) /\ In a l.
Proof.
  unfold py_nth, py_index.
  destruct (Z.leb_spec 0 i).
  - destruct (Z.ltb_spec i (Z.of_nat (length l))); [|discriminate].
    destruct (nth_error l (Z.to_nat i)) eqn:E; [|discriminate].
    intros H1; injection H1 as <-. split; [lia|]. eapply nth_error_In; eauto.
  - destruct (Z.leb_spec (- Z.of_nat (length l)) i); [|discriminate].
    destruct (nth_error l _) eqn:E; [|discriminate].
    intros H1; injection H1 as <-. split; [lia|]. eapply nth_error_In; eauto.
Qed.

Lemma enum_from_nth {A} (l : list A) k n :
  nth_error (enum_from k l) n =
  match nth_error l n with Some a => Some (k + Z.of_nat n, a) | None => None end.
Proof.
  revert k n; induction l as [|x l IH]; intros k [|n]; simpl; try reflexivity.
  - rewrite Z.add_0_r; reflexivity.
  - rewrite IH. destruct (nth_error l n); [|reflexivity]. do 2 f_equal. lia.
Qed.
Lemma enum_from_length {A} (l : list A) k : length (enum_from k l) = length l.
Proof. revert k; induction l as [|x l IH]; intros k; simpl; [reflexivity|]. rewrite IH; reflexivity. Qed.
Lemma enum_from_snd {A} (l : list A) k : map snd (enum_from k l) = l.
Proof. revert k; induction l as [|x l IH]; intros k; simpl; [reflexivity|]. rewrite IH; reflexivity. Qed.
Lemma enum_from_map {A B} (f : A -> B) (l : list A) k :
  enum_from k (map f l) = map (fun p => (fst p, f (snd p))) (enum_from k l).
Proof. revert k; induction l as [|x l IH]; intros k; simpl; [reflexivity|]. rewrite IH; reflexivity. Qed.
Lemma enum_from_app {A} (l1 l2 : list A) k :
  enum_from k (l1 ++ l2) = enum_from k l1 ++ enum_from (k + Z.of_nat (length l1)) l2.
Proof.
  revert k; induction l1 as [|x l IH]; intros k.
  - simpl. f_equal. lia.
  - cbn [app enum_from length]. rewrite IH. do 3 f_equal. lia.
Qed.

(** ** zsum *)
Lemma zsum_app a b : zsum (a ++ b) = zsum a + zsum b.
Proof. unfold zsum. induction a as [|x a IH]; simpl; lia. Qed.
Lemma zsum_perm a b : Permutation a b -> zsum a = zsum b.
Proof. unfold zsum. induction 1; simpl; lia. Qed.
Lemma zsum_cons x a : zsum (x :: a) = x + zsum a.
Proof. reflexivity. Qed.

(** ** dicts *)
Section DictLemmas.
  Context {K V : Type} (eqb : K -> K -> bool).
  Hypothesis eqb_eq : forall a b, eqb a b = true <-> a = b.

  Lemma eqb_refl_ a : eqb a a = true.
  Proof. apply eqb_eq; reflexivity. Qed.
  Lemma eqb_neq_ a b : a <> b -> eqb a b = false.
  Proof. intros H. destruct (eqb a b) eqn:E; [|reflexivity]. apply eqb_eq in E; contradiction. Qed.

  Lemma dget_dset_same k (v : V) d : dget eqb k (dset eqb k v d) = Some v.
  Proof.
    induction d as [|[k' v'] d IH]; simpl.
    - rewrite eqb_refl_; reflexivity.
    - destruct (eqb k k') eqn:E; simpl; rewrite E; [reflexivity|exact IH].
  Qed.
  Lemma dget_dset_other k k0 (v : V) d : k <> k0 -> dget eqb k (dset eqb k0 v d) = dget eqb k d.
  Proof.
    intros Hn. induction d as [|[k' v'] d IH]; simpl.
    - rewrite (eqb_neq_ _ _ Hn); reflexivity.
    - destruct (eqb k0 k') eqn:E; simpl.
      + apply eqb_eq in E as <-. rewrite (eqb_neq_ _ _ Hn). reflexivity.
      + rewrite IH. reflexivity.
  Qed.
  Lemma dget_dset k k0 (v : V) d :
    dget eqb k (dset eqb k0 v d) = if eqb k k0 then Some v else dget eqb k d.
  Proof.
    destruct (eqb k k0) eqn:E.
    - apply eqb_eq in E as ->. apply dget_dset_same.
    - apply dget_dset_other. intros ->. rewrite eqb_refl_ in E. discriminate.
  Qed.
  Lemma dkeys_dset k (v : V) d :
    dkeys (dset eqb k v d) = if dmem eqb k d then dkeys d else dkeys d ++ [k].
  Proof.
    unfold dmem. induction d as [|[k' v'] d IH]; simpl; [reflexivity|].
    destruct (eqb k k') eqn:E; simpl; [reflexivity|].
    rewrite IH. destruct (dget eqb k d); reflexivity.
  Qed.
  Lemma dget_In k (v : V) d : dget eqb k d = Some v -> In (k, v) d.
  Proof.
    induction d as [|[k' v'] d IH]; simpl; [discriminate|].
    destruct (eqb k k') eqn:E.
    - intros H; injection H as ->. apply eqb_eq in E as ->. left; reflexivity.
    - intros H; right; apply IH; exact H.
  Qed.
  Lemma In_dget k (v : V) d : NoDup (dkeys d) -> In (k, v) d -> dget eqb k d = Some v.
  Proof.
    unfold dkeys. induction d as [|[k' v'] d IH]; simpl; [tauto|].
    intros Hnd [H|H].
    - injection H as -> ->. rewrite eqb_refl_. reflexivity.
    - inversion Hnd as [|? ? Hni Hnd']; subst.
      destruct (eqb k k') eqn:E; [|apply IH; assumption].
      apply eqb_eq in E as ->. exfalso. apply Hni. apply in_map_iff. exists (k', v). auto.
  Qed.
  Lemma dget_None k (d : list (K * V)) : dget eqb k d = None <-> ~ In k (dkeys d).
  Proof.
    unfold dkeys. induction d as [|[k' v'] d IH]; simpl; [tauto|].
    destruct (eqb k k') eqn:E.
    - apply eqb_eq in E as ->. split; [discriminate|]. intros H; exfalso; apply H; left; reflexivity.
    - rewrite IH. split; intros H; [|tauto].
      intros [H1|H1]; [subst k'; rewrite eqb_refl_ in E; discriminate|tauto].
  Qed.
  Lemma dget_Some_key k v (d : list (K * V)) : dget eqb k d = Some v -> In k (dkeys d).
  Proof. intros H. apply dget_In in H. apply in_map_iff. exists (k, v); auto. Qed.
  Lemma dmem_spec k (d : list (K * V)) : dmem eqb k d = true <-> In k (dkeys d).
  Proof.
    unfold dmem. destruct (dget eqb k d) eqn:E.
    - split; [|reflexivity]. intros _. eapply dget_Some_key; eauto.
    - apply dget_None in E. split; [discriminate|contradiction].
  Qed.
  Lemma dset_fresh k (v : V) d : ~ In k (dkeys d) -> dset eqb k v d = d ++ [(k, v)].
  Proof.
    unfold dkeys. induction d as [|[k' v'] d IH]; simpl; intros H; [reflexivity|].
    destruct (eqb k k') eqn:E.
    - apply eqb_eq in E as ->. exfalso; apply H; left; reflexivity.
    - rewrite IH; [reflexivity|tauto].
  Qed.
End DictLemmas.

Lemma NoDup_snoc {A} (l : list A) x : NoDup l -> ~ In x l -> NoDup (l ++ [x]).
Proof.
  induction l as [|y l IH]; simpl; intros Hnd Hni.
  - constructor; [intros []|constructor].
  - inversion Hnd as [|? ? Hy Hl]; subst. constructor.
    + rewrite in_app_iff. simpl. intros [H|[H|[]]]; [contradiction|]. subst y. tauto.
    + apply IH; [exact Hl|tauto].
Qed.
Lemma dset_NoDup {K V} (eqb : K -> K -> bool) (Heq : forall a b, eqb a b = true <-> a = b)
      k (v : V) d : NoDup (dkeys d) -> NoDup (dkeys (dset eqb k v d)).
Proof.
  intros H. rewrite dkeys_dset. destruct (dmem eqb k d) eqn:E; [exact H|].
  apply NoDup_snoc; [exact H|]. intros Hin. apply (dmem_spec eqb Heq) in Hin. congruence.
Qed.

(** ** Stable descending sort *)
Section SortLemmas.
  Context {A : Type} (key : A -> Z).
  Lemma insert_desc_perm x l : Permutation (insert_desc key x l) (x :: l).
  Proof.
    induction l as [|y l IH]; simpl; [reflexivity|].
    destruct (key y <=? key x); [reflexivity|].
    rewrite IH. apply perm_swap.
  Qed.
  Lemma sorted_desc_perm l : Permutation (sorted_desc key l) l.
  Proof.
    unfold sorted_desc. induction l as [|x l IH]; simpl; [reflexivity|].
    rewrite insert_desc_perm. constructor; exact IH.
  Qed.
  (** [desc l]: keys never increase along the list. *)
  Inductive desc : list A -> Prop :=
  | desc_nil : desc []
  | desc_cons x l : (forall y, In y l -> key y <= key x) -> desc l -> desc (x :: l).
  Lemma insert_desc_desc x l : desc l -> desc (insert_desc key x l).
  Proof.
    induction 1 as [|y l Hy Hl IH]; simpl.
    - constructor; [intros y []|constructor].
    - destruct (Z.leb_spec (key y) (key x)).
      + constructor; [|constructor; assumption].
        intros z [<-|Hz]; [assumption|]. specialize (Hy z Hz). lia.
      + constructor; [|assumption].
        intros z Hz. eapply Permutation_in in Hz; [|apply insert_desc_perm].
        destruct Hz as [<-|Hz]; [lia|]. apply Hy; exact Hz.
  Qed.
  Lemma sorted_desc_desc l : desc (sorted_desc key l).
  Proof.
    unfold sorted_desc. induction l; simpl; [constructor|]. apply insert_desc_desc; assumption.
  Qed.
  (** Stability: the sub-list of items with one given key is unchanged. *)
  Lemma insert_desc_filter x l v :
    desc l ->
    filter (fun y => key y =? v) (insert_desc key x l) = filter (fun y => key y =? v) (x :: l).
  Proof.
    induction 1 as [|y l Hy Hl IH]; simpl; [reflexivity|].
    destruct (Z.leb_spec (key y) (key x)) as [H|H]; simpl; [reflexivity|].
    rewrite IH. simpl.
    destruct (Z.eqb_spec (key x) v); destruct (Z.eqb_spec (key y) v); try reflexivity. lia.
  Qed.
  Lemma sorted_desc_stable l v :
    filter (fun y => key y =? v) (sorted_desc key l) = filter (fun y => key y =? v) l.
  Proof.
    unfold sorted_desc. induction l as [|x l IH]; simpl; [reflexivity|].
    rewrite insert_desc_filter by apply sorted_desc_desc. simpl. rewrite IH. reflexivity.
  Qed.
End SortLemmas.
