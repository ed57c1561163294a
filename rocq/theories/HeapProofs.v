(** heapq keeps its array a heap and a permutation of the expected contents. *)
From Verif Require Import Py PyLemmas HeapModel.
Local Open Scope nat_scope.

Section SetNth.
  Context {A : Type}.
  Lemma set_nth_length i (x : A) l : length (set_nth i x l) = length l.
  Proof. revert i. induction l as [|y l IH]; intros [|i]; simpl; auto. Qed.
  Lemma nth_set_same i (x d : A) l : i < length l -> nth i (set_nth i x l) d = x.
  Proof. revert i. induction l as [|y l IH]; intros [|i] H; simpl in *; try lia; [reflexivity|]. apply IH. lia. Qed.
  Lemma nth_set_other i j (x d : A) l : i <> j -> nth j (set_nth i x l) d = nth j l d.
  Proof.
    revert i j. induction l as [|y l IH]; intros i j H; [destruct i; reflexivity|].
    destruct i as [|i], j as [|j]; simpl; try reflexivity; [congruence|]. apply IH. congruence.
  Qed.
  Lemma nth_set i j (x d : A) l : i < length l -> nth j (set_nth i x l) d = if j =? i then x else nth j l d.
  Proof.
    intros H. destruct (Nat.eqb_spec j i) as [->|Hn]; [apply nth_set_same, H|apply nth_set_other; congruence].
  Qed.
  Lemma set_nth_set i (x y : A) l : set_nth i x (set_nth i y l) = set_nth i x l.
  Proof. revert i. induction l as [|z l IH]; intros [|i]; simpl; try reflexivity. rewrite IH. reflexivity. Qed.
  Lemma set_nth_comm i j (x y : A) l : i <> j -> set_nth i x (set_nth j y l) = set_nth j y (set_nth i x l).
  Proof.
    revert i j. induction l as [|z l IH]; intros [|i] [|j] H; simpl; try reflexivity; [congruence|].
    rewrite IH by congruence. reflexivity.
  Qed.
  Lemma set_nth_self i (d : A) l : set_nth i (nth i l d) l = l.
  Proof. revert i. induction l as [|z l IH]; intros [|i]; simpl; try reflexivity. rewrite IH. reflexivity. Qed.
  Lemma set_nth_perm i (x d : A) l : i < length l -> Permutation (nth i l d :: set_nth i x l) (x :: l).
  Proof.
    revert i. induction l as [|y l IH]; intros [|i] H; simpl in *; try lia.
    - apply perm_swap.
    - rewrite perm_swap, IH by lia. apply perm_swap.
  Qed.
  Lemma swap_perm p c (x d : A) l : p < length l -> c < length l -> p <> c -> nth p l d = x ->
    Permutation (set_nth c x (set_nth p (nth c l d) l)) l.
  Proof.
    intros Hp Hc Hn Hx. apply (Permutation_cons_inv (a := nth c l d)).
    assert (H1 := set_nth_perm c x d (set_nth p (nth c l d) l)). rewrite set_nth_length, nth_set_other in H1 by congruence.
    rewrite (H1 Hc), <- Hx. apply set_nth_perm, Hp.
  Qed.
End SetNth.

Section Heap.
  Context {A : Type} (lt : A -> A -> bool) (d : A).
  Hypothesis lt_irrefl : forall a, lt a a = false.
  Hypothesis lt_trans : forall a b c, lt a b = true -> lt b c = true -> lt a c = true.
  Hypothesis lt_total : forall a b, lt a b = false -> lt b a = false -> a = b.
  Definition le a b : Prop := lt b a = false.
  Lemma lt_le a b : lt a b = true -> le a b.
  Proof. intros H. unfold le. destruct (lt b a) eqn:E; [|reflexivity]. rewrite <- (lt_irrefl a). symmetry. eapply lt_trans; eassumption. Qed.
  Lemma le_trans a b c : le a b -> le b c -> le a c.
  Proof.
    unfold le. intros H1 H2. destruct (lt c a) eqn:E; [|reflexivity]. exfalso.
    destruct (lt a b) eqn:Eab.
    - pose proof (lt_trans _ _ _ E Eab). congruence.
    - rewrite (lt_total _ _ Eab H1) in E. congruence.
  Qed.
  Lemma le_refl a : le a a. Proof. apply lt_irrefl. Qed.

  Definition par (i : nat) : nat := (i - 1) / 2.
  Notation "h @ i" := (nth i h d) (at level 20).
  Lemma par_lt i : 0 < i -> par i < i.
  Proof. unfold par. intros H. apply Nat.div_lt_upper_bound; lia. Qed.
  Lemma par_child p c : 0 < c -> (par c = p <-> c = 2 * p + 1 \/ c = 2 * p + 2).
  Proof.
    unfold par. intros H. pose proof (Nat.div_mod (c - 1) 2). pose proof (Nat.mod_upper_bound (c - 1) 2). lia.
  Qed.

  (** link i is in order *)
  Definition linked (h : list A) i : Prop := le (h @ par i) (h @ i).
  (** all links with a parent at or after s *)
  Definition heap_from (s : nat) (h : list A) : Prop :=
    forall i, 0 < i -> i < length h -> s <= par i -> linked h i.
  Definition is_heap := heap_from 0.

  (** [desc_of s p]: p is s or below it *)
  Inductive below (s : nat) : nat -> Prop :=
  | below_self : below s s
  | below_kid c : 0 < c -> below s (par c) -> below s c.
  Lemma below_ge s p : below s p -> s <= p.
  Proof. induction 1; [lia|]. pose proof (par_lt c H). lia. Qed.
  Lemma below_par s p : below s p -> s < p -> below s (par p) /\ s <= par p.
  Proof. intros H Hl. destruct H as [|c Hc Hb]; [lia|]. split; [exact Hb|]. apply below_ge, Hb. Qed.

  (** the only link that may be out of order is the one above pos *)
  Definition P (s pos : nat) (h : list A) : Prop :=
    (forall i, 0 < i -> i < length h -> s <= par i -> i <> pos -> linked h i) /\
    (s < pos -> forall c, 0 < c -> c < length h -> par c = pos -> le (h @ par pos) (h @ c)).

  Lemma siftdown_loop_spec fuel : forall s pos x h,
    pos < fuel -> pos < length h -> below s pos -> P s pos (set_nth pos x h) ->
    exists h', siftdown_loop lt fuel s pos x h = Ok h' /\ Permutation h' (set_nth pos x h) /\ heap_from s h'.
  Proof.
    induction fuel as [|fuel IH]; intros s pos x h Hf Hl Hb [HP1 HP2]; [lia|]. cbn [siftdown_loop].
    assert (Hlen : length (set_nth pos x h) = length h) by apply set_nth_length.
    destruct (Nat.ltb_spec s pos) as [Hs|Hs].
    - assert (H0 : 0 < pos) by lia. pose proof (par_lt pos H0) as Hpl. fold (par pos).
      destruct (below_par s pos Hb Hs) as [Hb' Hge].
      assert (Epar : nth (par pos) h x = (set_nth pos x h) @ (par pos)).
      { rewrite nth_set_other by lia. apply nth_indep. lia. }
      destruct (lt x (nth (par pos) h x)) eqn:Elt.
      + assert (Epar' : nth (par pos) h x = h @ par pos) by (apply nth_indep; lia).
        rewrite Epar' in *.
        set (h1 := set_nth pos (h @ par pos) h).
        assert (Eset : set_nth (par pos) x h1 = set_nth (par pos) x (set_nth pos ((set_nth pos x h) @ par pos) (set_nth pos x h))).
        { unfold h1. rewrite set_nth_set. rewrite <- Epar. reflexivity. }
        destruct (IH s (par pos) x h1) as (h' & E & Hp & Hh).
        * lia.
        * unfold h1. rewrite set_nth_length. lia.
        * exact Hb'.
        * assert (Hv : forall j, j < length h -> (set_nth (par pos) x h1) @ j =
             if j =? par pos then x else if j =? pos then h @ par pos else h @ j).
          { intros j Hj. rewrite nth_set by (unfold h1; rewrite set_nth_length; lia).
            unfold h1. rewrite nth_set by exact Hl. reflexivity. }
          assert (Hv0 : forall j, j < length h -> (set_nth pos x h) @ j = if j =? pos then x else h @ j).
          { intros j Hj. rewrite nth_set by exact Hl. reflexivity. }
          assert (Hlen1 : length (set_nth (par pos) x h1) = length h).
          { unfold h1. rewrite !set_nth_length. reflexivity. }
          split.
          { intros i Hi Hil Hsi Hne. unfold linked. rewrite Hlen1 in Hil. pose proof (par_lt i Hi).
            rewrite !Hv by lia.
            destruct (Nat.eqb_spec i (par pos)); [contradiction|].
            destruct (Nat.eqb_spec i pos) as [->|Hip].
            - rewrite Nat.eqb_refl. apply lt_le, Elt.
            - destruct (Nat.eqb_spec (par i) (par pos)) as [Ep|Ep].
              + assert (Hk : linked (set_nth pos x h) i) by (apply HP1; rewrite ?Hlen; auto).
                unfold linked in Hk. rewrite !Hv0 in Hk by lia.
                destruct (Nat.eqb_spec i pos); [contradiction|]. rewrite Ep in Hk.
                destruct (Nat.eqb_spec (par pos) pos); [lia|].
                eapply le_trans; [apply lt_le, Elt|exact Hk].
              + destruct (Nat.eqb_spec (par i) pos) as [Ep2|Ep2].
                * specialize (HP2 Hs i Hi). rewrite Hlen in HP2. specialize (HP2 Hil Ep2).
                  rewrite !Hv0 in HP2 by lia. destruct (Nat.eqb_spec (par pos) pos); [lia|].
                  destruct (Nat.eqb_spec i pos); [contradiction|]. exact HP2.
                * assert (Hk : linked (set_nth pos x h) i) by (apply HP1; rewrite ?Hlen; auto).
                  unfold linked in Hk. rewrite !Hv0 in Hk by lia.
                  destruct (Nat.eqb_spec i pos); [contradiction|]. destruct (Nat.eqb_spec (par i) pos); [contradiction|]. exact Hk. }
          { intros Hs2 c Hc Hcl Hcp. rewrite Hlen1 in Hcl.
            assert (Hpp : par (par pos) < par pos) by (apply par_lt; lia).
            assert (Hparlt := par_lt c Hc).
            destruct (below_par s (par pos) Hb' Hs2) as [_ Hge2].
            rewrite !Hv by lia.
            destruct (Nat.eqb_spec (par (par pos)) (par pos)); [lia|].
            destruct (Nat.eqb_spec (par (par pos)) pos); [lia|].
            destruct (Nat.eqb_spec c (par pos)); [lia|].
            assert (Hk1 : linked (set_nth pos x h) (par pos)) by (apply HP1; rewrite ?Hlen; auto; lia).
            unfold linked in Hk1. rewrite !Hv0 in Hk1 by lia.
            destruct (Nat.eqb_spec (par (par pos)) pos); [lia|]. destruct (Nat.eqb_spec (par pos) pos); [lia|].
            destruct (Nat.eqb_spec c pos) as [->|Hcne]; [exact Hk1|].
            assert (Hk : linked (set_nth pos x h) c) by (apply HP1; rewrite ?Hlen; auto; lia).
            unfold linked in Hk. rewrite !Hv0 in Hk by lia. rewrite Hcp in Hk.
            destruct (Nat.eqb_spec (par pos) pos); [lia|]. destruct (Nat.eqb_spec c pos); [contradiction|].
            eapply le_trans; eassumption. }
        * exists h'. split; [exact E|]. split; [|exact Hh]. rewrite Hp, Eset.
          apply (swap_perm pos (par pos) x d); rewrite ?Hlen; try lia. apply nth_set_same, Hl.
      + eexists. split; [reflexivity|]. split; [reflexivity|].
        intros i Hi Hil Hsi. destruct (Nat.eq_dec i pos) as [->|Hne]; [|apply HP1; auto].
        unfold linked, le. rewrite <- Epar, nth_set_same by exact Hl. exact Elt.
    - pose proof (below_ge _ _ Hb). assert (s = pos) by lia. subst s.
      eexists. split; [reflexivity|]. split; [reflexivity|].
      intros i Hi Hil Hsi. apply HP1; auto. intros ->. pose proof (par_lt pos Hi). lia.
  Qed.
  Lemma siftdown_spec s pos x h :
    pos < length h -> below s pos -> P s pos (set_nth pos x h) ->
    exists h', siftdown lt s pos x h = Ok h' /\ Permutation h' (set_nth pos x h) /\ heap_from s h'.
  Proof. intros H1 H2 H3. apply siftdown_loop_spec; auto. Qed.

  (** moving the hole down *)
  Definition Q (s p : nat) (h : list A) : Prop :=
    (forall i, 0 < i -> i < length h -> s <= par i -> i <> p -> par i <> p -> linked h i) /\
    (s < p -> forall c, 0 < c -> c < length h -> par c = p -> le (h @ par p) (h @ c)).
  Lemma siftup_loop_spec fuel : forall s p x h,
    length h < fuel + p -> p < length h -> below s p -> Q s p h ->
    exists h', siftup_loop lt fuel s p x h = Ok h' /\ Permutation h' (set_nth p x h) /\ heap_from s h'.
  Proof.
    induction fuel as [|fuel IH]; intros s p x h Hf Hl Hb [HQ1 HQ2]; [lia|]. cbn [siftup_loop]. cbv zeta.
    destruct (Nat.ltb_spec (2 * p + 1) (length h)) as [Hc|Hc].
    - match goal with |- context [siftup_loop lt fuel s ?cc x _] => set (c := cc) end.
      assert (Hcc : (c = 2 * p + 1 \/ c = 2 * p + 2) /\ c < length h /\
                    forall k, 0 < k -> k < length h -> par k = p -> le (h @ c) (h @ k)).
      { unfold c. replace (2 * p + 1 + 1) with (2 * p + 2) by lia.
        rewrite (nth_indep h x d Hc).
        destruct (Nat.ltb_spec (2 * p + 2) (length h)) as [Hr|Hr]; rewrite ?andb_true_l, ?andb_false_l.
        - rewrite (nth_indep h x d Hr).
          destruct (lt (h @ (2 * p + 1)) (h @ (2 * p + 2))) eqn:E; cbn [negb]; cbv iota.
          + split; [auto|]. split; [exact Hc|]. intros k Hk Hkl Hkp. apply (par_child p k Hk) in Hkp.
            destruct Hkp as [-> | ->]; [apply le_refl|apply lt_le, E].
          + split; [auto|]. split; [exact Hr|]. intros k Hk Hkl Hkp. apply (par_child p k Hk) in Hkp.
            destruct Hkp as [-> | ->]; [exact E|apply le_refl].
        - split; [auto|]. split; [exact Hc|]. intros k Hk Hkl Hkp. apply (par_child p k Hk) in Hkp.
          destruct Hkp as [-> | ->]; [apply le_refl|lia]. }
      clearbody c. destruct Hcc as (Hcp & Hcl & Hmin).
      assert (Hc0 : 0 < c) by lia. assert (Hpc : par c = p) by (apply par_child; lia).
      rewrite (nth_indep h x d Hcl). set (h1 := set_nth p (h @ c) h).
      assert (Hlen : length h1 = length h) by apply set_nth_length.
      assert (Hv : forall j, h1 @ j = if j =? p then h @ c else h @ j) by (intros j; apply nth_set, Hl).
      destruct (IH s c x h1) as (h' & E & Hp & Hh).
      + lia.
      + rewrite Hlen. exact Hcl.
      + constructor; [exact Hc0|]. rewrite Hpc. exact Hb.
      + split.
        * intros i Hi Hil Hsi Hne Hpne. rewrite Hlen in Hil. unfold linked. rewrite !Hv.
          destruct (Nat.eqb_spec i p) as [->|Hip].
          { destruct (Nat.eqb_spec (par p) p) as [Ee|_]; [pose proof (par_lt p Hi); lia|].
            apply HQ2; auto. pose proof (par_lt p Hi). lia. }
          { destruct (Nat.eqb_spec (par i) p) as [Ep|Ep]; [apply Hmin; auto|]. apply HQ1; auto. }
        * intros Hs2 k Hk Hkl Hkc. rewrite Hlen in Hkl. rewrite !Hv, Hpc, Nat.eqb_refl.
          destruct (Nat.eqb_spec k p) as [->|Hkp]; [pose proof (par_lt p Hk); lia|].
          rewrite <- Hkc at 1. apply HQ1; auto.
          { rewrite Hkc. pose proof (below_ge _ _ Hb). lia. }
          { lia. }
      + exists h'. split; [exact E|]. split; [|exact Hh]. rewrite Hp. unfold h1.
        assert (Heq : set_nth c x (set_nth p (h @ c) h) = set_nth c x (set_nth p ((set_nth p x h) @ c) (set_nth p x h))).
        { rewrite set_nth_set, nth_set_other by lia. reflexivity. }
        rewrite Heq. apply (swap_perm p c x d); rewrite ?set_nth_length; try lia. apply nth_set_same, Hl.
    - destruct (siftdown_spec s p x (set_nth p x h)) as (h' & E & Hp & Hh).
      + rewrite set_nth_length. exact Hl.
      + exact Hb.
      + rewrite set_nth_set. split.
        * intros i Hi Hil Hsi Hne. rewrite set_nth_length in Hil. unfold linked.
          assert (Hpi : par i <> p). { intros Ep. apply (par_child p i Hi) in Ep. lia. }
          rewrite !nth_set_other by auto. apply HQ1; auto.
        * intros Hs c Hc0 Hcl Hcp. rewrite set_nth_length in Hcl. apply (par_child p c Hc0) in Hcp. lia.
      + exists h'. split; [exact E|]. split; [|exact Hh]. rewrite Hp, set_nth_set. reflexivity.
  Qed.
  Lemma siftup_spec p h : p < length h -> heap_from (S p) h ->
    exists h', siftup lt p h = Ok h' /\ Permutation h' h /\ heap_from p h'.
  Proof.
    intros Hl Hh. unfold siftup. rewrite (nth_error_nth' h d Hl).
    destruct (siftup_loop_spec (S (length h)) p p (h @ p) h) as (h' & E & Hp & Hh').
    - lia.
    - exact Hl.
    - constructor.
    - split; [|lia]. intros i Hi Hil Hsi Hne Hpn. apply Hh; auto. lia.
    - exists h'. split; [exact E|]. split; [|exact Hh']. rewrite Hp, set_nth_self. reflexivity.
  Qed.

  Lemma heapify_spec h : exists h', heapify lt h = Ok h' /\ Permutation h' h /\ is_heap h'.
  Proof.
    unfold heapify.
    assert (G : forall n h, n <= length h -> heap_from n h ->
      exists h', foldM (fun h i => siftup lt i h) (rev (seq 0 n)) h = Ok h' /\ Permutation h' h /\ heap_from 0 h').
    { clear h. induction n as [|n IH]; intros h Hn Hh.
      - exists h. simpl. auto.
      - rewrite seq_S, rev_app_distr. simpl.
        destruct (siftup_spec n h) as (h1 & E & Hp & Hh1); [lia|exact Hh|]. rewrite E.
        destruct (IH h1) as (h2 & E2 & Hp2 & Hh2); [rewrite (Permutation_length Hp); lia|exact Hh1|].
        exists h2. split; [exact E2|]. split; [rewrite Hp2; exact Hp|exact Hh2]. }
    apply G.
    - apply Nat.div_le_upper_bound; lia.
    - intros i Hi Hil Hsi. exfalso. unfold par in Hsi.
      pose proof (Nat.div_mod (length h) 2). pose proof (Nat.mod_upper_bound (length h) 2).
      pose proof (Nat.div_mod (i - 1) 2). pose proof (Nat.mod_upper_bound (i - 1) 2). lia.
  Qed.
  Lemma heappush_spec h x : is_heap h -> exists h', heappush lt h x = Ok h' /\ Permutation h' (x :: h) /\ is_heap h'.
  Proof.
    intros Hh. unfold heappush.
    assert (Eset : set_nth (length h) x (h ++ [x]) = h ++ [x]).
    { clear. induction h as [|y h IH]; simpl; [reflexivity|]. rewrite IH. reflexivity. }
    destruct (siftdown_spec 0 (length h) x (h ++ [x])) as (h' & E & Hp & Hh').
    - rewrite app_length. simpl. lia.
    - clear. induction (length h) as [n IH] using lt_wf_ind. destruct n as [|n]; [constructor|].
      constructor; [lia|]. apply IH. apply par_lt. lia.
    - rewrite Eset. split.
      + intros i Hi Hil _ Hne. rewrite app_length in Hil. simpl in Hil. unfold linked. pose proof (par_lt i Hi).
        rewrite !app_nth1 by lia. apply Hh; lia.
      + intros _ c Hc Hcl Hcp. rewrite app_length in Hcl. simpl in Hcl. pose proof (par_lt c Hc). lia.
    - exists h'. split; [exact E|]. split; [|exact Hh']. rewrite Hp, Eset. symmetry. apply Permutation_cons_append.
  Qed.
  Lemma heap_min h i : is_heap h -> i < length h -> le (h @ 0) (h @ i).
  Proof.
    intros Hh. induction i as [i IH] using lt_wf_ind. intros Hi. destruct i as [|i]; [apply le_refl|].
    pose proof (par_lt (S i)) as Hp. eapply le_trans; [apply (IH (par (S i))); lia|]. apply Hh; lia.
  Qed.
  Lemma heappop_spec h : is_heap h ->
    match h with
    | [] => heappop lt h = Raise IndexError
    | _ :: _ => exists x h', heappop lt h = Ok (x, h') /\ Permutation (x :: h') h /\ is_heap h' /\ forall y, In y h -> le x y
    end.
  Proof.
    intros Hh. destruct h as [|z h0] eqn:Ez; [reflexivity|]. rewrite <- Ez in *. assert (Hne : h <> []) by (rewrite Ez; discriminate). clear Ez z h0.
    assert (Hmin : forall y, In y h -> le (h @ 0) y).
    { intros y Hy. apply (In_nth h y d) in Hy. destruct Hy as (i & Hi & <-). apply heap_min; assumption. }
    destruct (exists_last Hne) as (h0 & last & Eh). unfold heappop. rewrite Eh, rev_app_distr. simpl.
    rewrite rev_involutive. destruct h0 as [|r h0].
    - exists last, []. rewrite <- Eh. split; [reflexivity|]. split; [rewrite Eh; reflexivity|]. split.
      + intros i Hi Hil. simpl in Hil. lia.
      + intros y Hy. specialize (Hmin y Hy). rewrite Eh in Hmin. exact Hmin.
    - set (h1 := set_nth 0 last (r :: h0)). assert (El1 : h1 = last :: h0) by reflexivity.
      destruct (siftup_spec 0 h1) as (h' & E & Hp & Hh').
      + rewrite El1. simpl. lia.
      + intros i Hi Hil Hsi. rewrite El1 in Hil. simpl in Hil. unfold linked. rewrite El1.
        pose proof (par_lt i Hi). assert (Hk : linked h i). { apply Hh; [exact Hi| |lia]. rewrite Eh, app_length. simpl. lia. }
        unfold linked in Hk. rewrite Eh in Hk. rewrite !app_nth1 in Hk by (simpl; lia).
        destruct i as [|i]; [lia|]. destruct (par (S i)) as [|j] eqn:Ej; [lia|]. exact Hk.
      + exists r, h'. unfold bind. rewrite El1 in E. simpl in E. rewrite E. split; [reflexivity|]. split; [|split].
        * rewrite Hp, El1. simpl. constructor. apply Permutation_cons_append.
        * exact Hh'.
        * intros y Hy. rewrite <- Eh in Hy. specialize (Hmin y Hy). rewrite Eh in Hmin. exact Hmin.
  Qed.
End Heap.

From Verif Require Import BpeSpec.

(** MaxHeap as a bag of (node, value). *)
Section MaxHeapProofs.
  Context {T : Type} (tlt : T -> T -> bool).
  Hypothesis tlt_irrefl : forall a, tlt a a = false.
  Hypothesis tlt_trans : forall a b c, tlt a b = true -> tlt b c = true -> tlt a c = true.
  Hypothesis tlt_total : forall a b, tlt a b = false -> tlt b a = false -> a = b.
  Local Open Scope Z_scope.
  Let ilt := item_lt tlt.
  Lemma ilt_irrefl x : ilt x x = false.
  Proof. unfold ilt, item_lt. rewrite Z.ltb_irrefl, Z.eqb_refl, tlt_irrefl. reflexivity. Qed.
  Lemma ilt_true x y : ilt x y = true <-> fst x < fst y \/ (fst x = fst y /\ tlt (snd x) (snd y) = true).
  Proof. unfold ilt, item_lt. rewrite orb_true_iff, andb_true_iff, Z.ltb_lt, Z.eqb_eq. reflexivity. Qed.
  Lemma ilt_trans x y z : ilt x y = true -> ilt y z = true -> ilt x z = true.
  Proof.
    rewrite !ilt_true. intros [H1|[H1 H2]] [H3|[H3 H4]]; [left; lia..|right].
    split; [lia|]. eapply tlt_trans; eassumption.
  Qed.
  Lemma ilt_total x y : ilt x y = false -> ilt y x = false -> x = y.
  Proof.
    destruct x as [v x], y as [w y]. unfold ilt, item_lt. cbn [fst snd].
    rewrite !orb_false_iff, !andb_false_iff, !Z.ltb_ge, !Z.eqb_neq. intros [H1 H2] [H3 H4].
    assert (v = w) by lia. subst w. destruct H2 as [H2|H2]; [lia|]. destruct H4 as [H4|H4]; [lia|].
    rewrite (tlt_total _ _ H2 H4). reflexivity.
  Qed.

  (** the array h stores exactly this bag, in heap order *)
  Definition stores (h : list (Z * T)) (bag : list (T * Z)) : Prop :=
    (forall d, is_heap ilt d h) /\ Permutation (map (fun x => (snd x, - fst x)) h) bag.
  Lemma any_d h d : is_heap ilt d h -> forall d', is_heap ilt d' h.
  Proof.
    intros H d' i Hi Hl Hp. specialize (H i Hi Hl Hp). unfold linked in *.
    assert (par i < length h)%nat by (pose proof (par_lt i Hi); lia).
    rewrite (nth_indep h d' d), (nth_indep h d' d) by assumption. exact H.
  Qed.
  Lemma map_neg (items : list (T * Z)) :
    map (fun x : Z * T => (snd x, - fst x)) (map (fun nv => (- snd nv, fst nv)) items) = items.
  Proof.
    rewrite map_map. rewrite <- (map_id items) at 2. apply map_ext. intros [n v]. cbn [fst snd].
    rewrite Z.opp_involutive. reflexivity.
  Qed.
  Lemma mh_init_spec items : exists h, mh_init tlt items = Ok h /\ stores h items.
  Proof.
    unfold mh_init. set (l := map _ items).
    destruct l as [|d l'] eqn:E.
    - exists []. split; [reflexivity|]. split; [intros d i Hi Hl; simpl in Hl; lia|].
      destruct items; [reflexivity|discriminate].
    - rewrite <- E. destruct (heapify_spec ilt d ilt_irrefl ilt_trans ilt_total l) as (h & Eh & Hp & Hh).
      exists h. split; [exact Eh|]. split; [eapply any_d, Hh|]. rewrite (Permutation_map _ Hp). unfold l.
      rewrite map_neg. reflexivity.
  Qed.
  Lemma stores_perm h bag bag' : stores h bag -> Permutation bag bag' -> stores h bag'.
  Proof. intros [H1 H2] H. split; [exact H1|]. rewrite H2. exact H. Qed.
  Lemma mh_push_spec h bag x v : stores h bag -> exists h', mh_push tlt h x v = Ok h' /\ stores h' ((x, v) :: bag).
  Proof.
    intros [Hh Hp]. unfold mh_push.
    destruct (heappush_spec ilt (- v, x) ilt_irrefl ilt_trans ilt_total h (- v, x) (Hh _)) as (h' & E & Hp' & Hh').
    exists h'. split; [exact E|]. split; [eapply any_d, Hh'|].
    rewrite (Permutation_map _ Hp'). cbn [map fst snd]. rewrite Z.opp_involutive, Hp. reflexivity.
  Qed.
  Lemma mh_pop_spec h bag : stores h bag ->
    (bag = [] /\ mh_pop tlt h = Raise IndexError) \/
    exists x v h' rest, mh_pop tlt h = Ok (x, v, h') /\ stores h' rest /\ Permutation bag ((x, v) :: rest) /\
      first_in_line (fun a b => tlt a b = true) bag x v.
  Proof.
    intros [Hh Hp]. unfold mh_pop. change (item_lt tlt) with ilt. destruct h as [|d h0] eqn:Eh.
    - left. simpl in Hp. apply Permutation_nil in Hp. subst. split; reflexivity.
    - right. pose proof (heappop_spec ilt d ilt_irrefl ilt_trans ilt_total h) as H. rewrite Eh in H.
      specialize (H (Hh _)). destruct H as (x & h' & E & Hp' & Hh' & Hmin). rewrite E. cbn [bind].
      exists (snd x), (- fst x), h', (map (fun x => (snd x, - fst x)) h').
      split; [reflexivity|]. split; [split; [eapply any_d, Hh'|reflexivity]|]. split.
      + rewrite <- Hp, <- (Permutation_map _ Hp'). reflexivity.
      + intros y w Hy. rewrite <- Hp in Hy. apply in_map_iff in Hy. destruct Hy as ([w' y'] & Ey & Hin).
        cbn [fst snd] in Ey. injection Ey as <- <-. specialize (Hmin _ Hin). unfold le in Hmin.
        destruct x as [vx x]. cbn [fst snd]. unfold ilt, item_lt in Hmin. cbn [fst snd] in Hmin.
        rewrite orb_false_iff, andb_false_iff, Z.ltb_ge, Z.eqb_neq in Hmin. destruct Hmin as [H1 H2].
        destruct (Z.eq_dec w' vx) as [->|Hne]; [|left; lia]. right. split; [reflexivity|].
        destruct H2 as [H2|H2]; [lia|]. destruct (tlt x y') eqn:Et; [right; reflexivity|left].
        apply tlt_total; assumption.
  Qed.

  (** a history of operations on the model *)
  Fixpoint mh_run (h : list (Z * T)) (ops : list (pq_op T)) : res (list (res (T * Z))) :=
    match ops with
    | [] => Ok []
    | Push x v :: ops' => bind (mh_push tlt h x v) (fun h' => mh_run h' ops')
    | Pop :: ops' =>
        match mh_pop tlt h with
        | Ok (x, v, h') => bind (mh_run h' ops') (fun outs => Ok (Ok (x, v) :: outs))
        | Raise e => bind (mh_run h ops') (fun outs => Ok (Raise e :: outs))
        end
    | Peek :: ops' => bind (mh_run h ops') (fun outs => Ok (mh_peek h :: outs))
    end.
  Lemma pop_peek h : mh_peek h = match mh_pop tlt h with Ok (x, v, _) => Ok (x, v) | Raise _ => Raise IndexError end \/
    exists e, h <> [] /\ mh_pop tlt h = Raise e.
  Proof.
    unfold mh_pop, heappop. destruct h as [|d h]; [left; reflexivity|].
    destruct (rev (d :: h)) as [|l rest] eqn:E; [apply (f_equal (@length _)) in E; rewrite rev_length in E; discriminate E|].
    apply (f_equal (@rev _)) in E. rewrite rev_involutive in E. cbn [rev] in E.
    destruct (rev rest) as [|r rest'].
    - left. injection E as -> _. reflexivity.
    - injection E as <- _. destruct (siftup _ _ _) as [h'|e]; [left; reflexivity|right; exists e; split; [discriminate|reflexivity]].
  Qed.
  Lemma mh_run_served ops : forall h bag, stores h bag ->
    exists outs, mh_run h ops = Ok outs /\ served (fun a b => tlt a b = true) bag ops outs.
  Proof.
    induction ops as [|o ops IH]; intros h bag Hs; [eexists; split; [reflexivity|constructor]|].
    destruct o as [x v| |]; cbn [mh_run].
    - destruct (mh_push_spec h bag x v Hs) as (h' & -> & Hs'). cbn [bind].
      destruct (IH h' _ Hs') as (outs & -> & Hv). eexists. split; [reflexivity|]. constructor. exact Hv.
    - destruct (mh_pop_spec h bag Hs) as [[-> Ep]|(x & v & h' & rest & Ep & Hs' & Hp & Hf)]; rewrite Ep.
      + destruct (IH h [] Hs) as (outs & -> & Hv). eexists. split; [reflexivity|]. constructor. exact Hv.
      + destruct (IH h' rest Hs') as (outs & -> & Hv). eexists. split; [reflexivity|].
        eapply sv_pop; eassumption.
    - destruct (IH h bag Hs) as (outs & -> & Hv). cbn [bind]. eexists. split; [reflexivity|].
      destruct (pop_peek h) as [->|(e & Hne & Ee)].
      + destruct (mh_pop_spec h bag Hs) as [[-> Ep]|(x & v & h' & rest & Ep & Hs' & Hp & Hf)]; rewrite Ep.
        * apply sv_peek_empty. exact Hv.
        * apply sv_peek; [rewrite Hp; left; reflexivity|exact Hf|exact Hv].
      + destruct (mh_pop_spec h bag Hs) as [[-> Ep]|(x & v & h' & rest & Ep & Hs' & Hp & Hf)]; [|congruence].
        destruct Hs as [_ Hs]. destruct h; [contradiction|]. apply Permutation_length in Hs. discriminate Hs.
  Qed.
  Lemma maxheap_history items ops :
    exists h outs, mh_init tlt items = Ok h /\ mh_run h ops = Ok outs /\
      served (fun a b => tlt a b = true) items ops outs.
  Proof.
    destruct (mh_init_spec items) as (h & E & Hs). destruct (mh_run_served ops h items Hs) as (outs & Eo & Hv).
    exists h, outs. auto.
  Qed.
  Lemma served_unique ops : forall bag bag' o1 o2, Permutation bag bag' ->
    served (fun a b => tlt a b = true) bag ops o1 -> served (fun a b => tlt a b = true) bag' ops o2 -> o1 = o2.
  Proof.
    induction ops as [|o ops IH]; intros bag bag' o1 o2 Hp H1 H2.
    - inversion H1; inversion H2; reflexivity.
    - inversion H1 as [|? x v ? outs Hs1|? outs Hs1|? x v rest ? outs Hp1 Hf1 Hs1|? outs Hs1|? x v ? outs Hp1 Hf1 Hs1]; subst;
      inversion H2 as [|? x' v' ? outs' Hs2|? outs' Hs2|? x' v' rest' ? outs' Hp2 Hf2 Hs2|? outs' Hs2|? x' v' ? outs' Hp2 Hf2 Hs2]; subst.
      + eapply IH; [|exact Hs1|exact Hs2]. constructor. exact Hp.
      + f_equal. eapply IH; [|exact Hs1|exact Hs2]. constructor.
      + apply Permutation_nil in Hp. subst. apply Permutation_nil in Hp2. discriminate.
      + symmetry in Hp. apply Permutation_nil in Hp. subst. apply Permutation_nil in Hp1. discriminate.
      + assert (In1 : In (x, v) bag') by (rewrite <- Hp, Hp1; left; reflexivity).
        assert (In2 : In (x', v') bag) by (rewrite Hp, Hp2; left; reflexivity).
        assert (E : (x, v) = (x', v')).
        { destruct (Hf1 _ _ In2) as [L1|[E1 L1]], (Hf2 _ _ In1) as [L2|[E2 L2]]; try lia. subst v'.
          destruct L1 as [->|L1]; [reflexivity|]. destruct L2 as [->|L2]; [reflexivity|].
          pose proof (tlt_trans _ _ _ L1 L2) as Hc. rewrite tlt_irrefl in Hc. discriminate. }
        injection E as <- <-. f_equal. eapply IH; [|exact Hs1|exact Hs2].
        apply (Permutation_cons_inv (a := (x, v))). rewrite <- Hp1, <- Hp2. exact Hp.
      + f_equal. eapply IH; [|exact Hs1|exact Hs2]. constructor.
      + apply Permutation_nil in Hp. subst. destruct Hp2.
      + symmetry in Hp. apply Permutation_nil in Hp. subst. destruct Hp1.
      + assert (In1 : In (x, v) bag') by (rewrite <- Hp; exact Hp1).
        assert (In2 : In (x', v') bag) by (rewrite Hp; exact Hp2).
        assert (E : (x, v) = (x', v')).
        { destruct (Hf1 _ _ In2) as [L1|[E1 L1]], (Hf2 _ _ In1) as [L2|[E2 L2]]; try lia. subst v'.
          destruct L1 as [->|L1]; [reflexivity|]. destruct L2 as [->|L2]; [reflexivity|].
          pose proof (tlt_trans _ _ _ L1 L2) as Hc. rewrite tlt_irrefl in Hc. discriminate. }
        injection E as <- <-. f_equal. eapply IH; [|exact Hs1|exact Hs2]. exact Hp.
  Qed.
End MaxHeapProofs.
