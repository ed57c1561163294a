(** The BPE learner of LearnBpeModel.v refines textbook BPE. *)
From Coq Require Import Strings.String.
From Verif Require Import Py PyLemmas PyStr CodecModel CodecSpec LearnModel HeapModel HeapProofs BpeSpec LearnBpeModel.
Local Open Scope Z_scope.
Local Open Scope list_scope.

Lemma pair_eqb_eq p q : pair_eqb p q = true <-> p = q.
Proof.
  unfold pair_eqb. destruct p as [a b], q as [c d]. cbn [fst snd]. rewrite andb_true_iff, !Z.eqb_eq.
  split; [intros [-> ->]; reflexivity|intros H; injection H as -> ->; auto].
Qed.
Lemma pair_eqb_refl p : pair_eqb p p = true. Proof. apply pair_eqb_eq. reflexivity. Qed.
Lemma pair_eqb_neq p q : pair_eqb p q = false <-> p <> q.
Proof. rewrite <- pair_eqb_eq. destruct (pair_eqb p q); split; congruence. Qed.
Lemma pair_ltb_irrefl p : pair_ltb p p = false.
Proof. unfold pair_ltb. rewrite !Z.ltb_irrefl, andb_false_r. reflexivity. Qed.
Lemma pair_ltb_lt p q : pair_ltb p q = true <-> pair_lt p q.
Proof. unfold pair_ltb, pair_lt. rewrite orb_true_iff, andb_true_iff, !Z.ltb_lt, Z.eqb_eq. reflexivity. Qed.
Lemma pair_ltb_trans p q r : pair_ltb p q = true -> pair_ltb q r = true -> pair_ltb p r = true.
Proof. rewrite !pair_ltb_lt. unfold pair_lt. lia. Qed.
Lemma pair_ltb_total p q : pair_ltb p q = false -> pair_ltb q p = false -> p = q.
Proof.
  destruct p as [a b], q as [c d]. unfold pair_ltb. cbn [fst snd].
  rewrite !orb_false_iff, !andb_false_iff, !Z.ltb_ge, !Z.eqb_neq. intros [H1 H2] [H3 H4].
  assert (a = c) by lia. subst. assert (b = d) by lia. subst. reflexivity.
Qed.

(** ** Segments: the live nodes of a sequence, in order, with their values *)
Definition seg := (list (nat * Z) * Z)%type.
Definition junc (f : Z) (x y : option (nat * Z)) (p : Z * Z) : list (nat * Z) :=
  match x, y with
  | Some x, Some y => if pair_eqb (snd x, snd y) p then [(fst x, f)] else []
  | _, _ => []
  end.
(** occurrences of p in a segment: node and frequency *)
Fixpoint occ1 (f : Z) (s : list (nat * Z)) (p : Z * Z) : list (nat * Z) :=
  match s with
  | [] => []
  | x :: s' => junc f (Some x) (hd_error s') p ++ occ1 f s' p
  end.
Definition occ (segs : list seg) (p : Z * Z) : list (nat * Z) :=
  flat_map (fun sg => occ1 (snd sg) (fst sg) p) segs.
Definition ids (segs : list seg) : list nat := flat_map (fun sg => map fst (fst sg)) segs.
Definition corpus_of (segs : list seg) : corpus := map (fun sg => (map snd (fst sg), snd sg)) segs.
Definition last_opt {A} (l : list A) : option A := hd_error (rev l).

Lemma last_opt_snoc {A} (l : list A) x : last_opt (l ++ [x]) = Some x.
Proof. unfold last_opt. rewrite rev_app_distr. reflexivity. Qed.
Lemma last_opt_cons {A} (l : list A) x : last_opt (x :: l) = match last_opt l with Some y => Some y | None => Some x end.
Proof.
  unfold last_opt. simpl. destruct (rev l) as [|y r]; reflexivity.
Qed.
Lemma last_opt_some {A} (l : list A) x : last_opt l = Some x -> exists l', l = l' ++ [x].
Proof.
  unfold last_opt. intros H. destruct (rev l) as [|y r] eqn:E; [discriminate|]. simpl in H. injection H as ->.
  exists (rev r). rewrite <- (rev_involutive l), E. reflexivity.
Qed.
Lemma last_opt_none {A} (l : list A) : last_opt l = None -> l = [].
Proof.
  unfold last_opt. intros H. destruct (rev l) as [|y r] eqn:E; [|discriminate].
  rewrite <- (rev_involutive l), E. reflexivity.
Qed.

Lemma occ1_app f u w p : occ1 f (u ++ w) p = occ1 f u p ++ junc f (last_opt u) (hd_error w) p ++ occ1 f w p.
Proof.
  induction u as [|x u IH]; [reflexivity|]. cbn [app occ1]. rewrite IH, last_opt_cons.
  destruct u as [|y u].
  - reflexivity.
  - cbn [app hd_error]. rewrite last_opt_cons. destruct (last_opt u); rewrite <- !app_assoc; reflexivity.
Qed.

Lemma occ_app s1 s2 p : occ (s1 ++ s2) p = occ s1 p ++ occ s2 p.
Proof. unfold occ. apply flat_map_app. Qed.
Lemma ids_app s1 s2 : ids (s1 ++ s2) = ids s1 ++ ids s2.
Proof. unfold ids. apply flat_map_app. Qed.
Lemma corpus_of_app s1 s2 : corpus_of (s1 ++ s2) = corpus_of s1 ++ corpus_of s2.
Proof. unfold corpus_of. apply map_app. Qed.

Lemma occ1_count f s p : zsum (map snd (occ1 f s p)) = f * Z.of_nat (count_occ pair_dec (adjacent (map snd s)) p).
Proof.
  induction s as [|x s IH]; [cbn; lia|]. destruct s as [|y s].
  - cbn. lia.
  - change (adjacent (map snd (x :: y :: s))) with ((snd x, snd y) :: adjacent (map snd (y :: s))).
    change (occ1 f (x :: y :: s) p) with (junc f (Some x) (Some y) p ++ occ1 f (y :: s) p).
    rewrite map_app, zsum_app, IH. cbn [junc].
    destruct (pair_eqb (snd x, snd y) p) eqn:E.
    + apply pair_eqb_eq in E. rewrite count_occ_cons_eq by exact E. cbn [map snd]. rewrite zsum_cons. cbn [zsum fold_right]. lia.
    + apply pair_eqb_neq in E. rewrite count_occ_cons_neq by exact E. cbn [map]. change (zsum []) with 0. lia.
Qed.
Lemma occ_count segs p : pair_count (corpus_of segs) p = zsum (map snd (occ segs p)).
Proof.
  unfold pair_count, corpus_of, occ. rewrite map_map. cbn [fst snd].
  induction segs as [|[s f] segs IH]; [reflexivity|]. cbn [map flat_map fst snd].
  rewrite zsum_cons, map_app, zsum_app, IH, occ1_count. reflexivity.
Qed.
Lemma In_occ1 n g f s p : In (n, g) (occ1 f s p) <->
  g = f /\ exists l1 m l2, s = l1 ++ (n, fst p) :: (m, snd p) :: l2.
Proof.
  induction s as [|x s IH].
  - simpl. split; [tauto|]. intros (_ & l1 & m & l2 & E). destruct l1; discriminate.
  - cbn [occ1]. rewrite in_app_iff, IH. split.
    + intros [H|(-> & l1 & m & l2 & ->)].
      * destruct s as [|y s]; cbn [hd_error junc] in H; [destruct H|].
        destruct (pair_eqb (snd x, snd y) p) eqn:E; [|destruct H]. apply pair_eqb_eq in E.
        destruct H as [H|[]]. injection H as <- <-. split; [reflexivity|]. exists [], (fst y), s.
        rewrite <- E. destruct x, y. reflexivity.
      * split; [reflexivity|]. exists (x :: l1), m, l2. reflexivity.
    + intros (-> & l1 & m & l2 & E). destruct l1 as [|z l1].
      * left. cbn [app] in E. injection E as -> ->. cbn [hd_error junc fst snd].
        destruct p as [v w]. cbn [fst snd]. rewrite pair_eqb_refl. left. reflexivity.
      * right. injection E as -> ->. split; [reflexivity|]. exists l1, m, l2. reflexivity.
Qed.
Lemma In_occ n g segs p : In (n, g) (occ segs p) <->
  exists l1 m l2, In (l1 ++ (n, fst p) :: (m, snd p) :: l2, g) segs.
Proof.
  unfold occ. rewrite in_flat_map. split.
  - intros ([s f] & Hin & H). cbn [fst snd] in H. apply In_occ1 in H. destruct H as (-> & l1 & m & l2 & ->).
    exists l1, m, l2. exact Hin.
  - intros (l1 & m & l2 & H). eexists. split; [exact H|]. cbn [fst snd]. apply In_occ1. split; [reflexivity|].
    exists l1, m, l2. reflexivity.
Qed.

(** occurrences start at distinct live nodes *)
Lemma occ1_incl f s p : incl (map fst (occ1 f s p)) (map fst s).
Proof.
  induction s as [|x s IH]; [apply incl_refl|]. cbn [occ1]. rewrite map_app. apply incl_app.
  - destruct s as [|y s]; cbn [hd_error junc]; [apply incl_nil_l|].
    destruct (pair_eqb _ _); [|apply incl_nil_l]. intros i [<-|[]]. left. reflexivity.
  - apply incl_tl, IH.
Qed.
Lemma occ1_NoDup f s p : NoDup (map fst s) -> NoDup (map fst (occ1 f s p)).
Proof.
  induction s as [|x s IH]; intros H; [constructor|]. cbn [map] in H. apply NoDup_cons_iff in H. destruct H as [Hn Hd].
  cbn [occ1]. rewrite map_app. destruct s as [|y s]; cbn [hd_error junc]; [constructor|].
  destruct (pair_eqb _ _); [|apply IH, Hd]. cbn [map app]. constructor; [|apply IH, Hd].
  cbn [fst]. intros Hin. apply Hn. eapply occ1_incl, Hin.
Qed.
Lemma NoDup_app_iff {A} (l1 l2 : list A) :
  NoDup (l1 ++ l2) <-> NoDup l1 /\ NoDup l2 /\ forall x, In x l1 -> In x l2 -> False.
Proof.
  induction l1 as [|x l1 IH]; cbn [app].
  - split; [intros H; repeat split; [constructor|exact H|intros x []]|tauto].
  - rewrite !NoDup_cons_iff, IH, in_app_iff. split.
    + intros (Hn & H1 & H2 & H3). repeat split; auto. intros y [<-|Hy] Hy2; [tauto|eauto].
    + intros ((Hn & H1) & H2 & H3). repeat split; auto.
      * intros [H|H]; [tauto|]. apply (H3 x); [left; reflexivity|exact H].
      * intros y Hy Hy2. apply (H3 y); [right; exact Hy|exact Hy2].
Qed.
Lemma occ_incl segs p : incl (map fst (occ segs p)) (ids segs).
Proof.
  unfold occ, ids. induction segs as [|[s f] segs IH]; [apply incl_refl|]. cbn [flat_map fst snd].
  rewrite map_app. apply incl_app; [apply incl_appl, occ1_incl|apply incl_appr, IH].
Qed.
Lemma occ_NoDup segs p : NoDup (ids segs) -> NoDup (map fst (occ segs p)).
Proof.
  induction segs as [|[s f] segs IH]; intros H; [constructor|].
  change (ids ((s, f) :: segs)) with (map fst s ++ ids segs) in H. apply NoDup_app_iff in H. destruct H as (H1 & H2 & H3).
  change (occ ((s, f) :: segs) p) with (occ1 f s p ++ occ segs p). rewrite map_app. apply NoDup_app_iff.
  split; [apply occ1_NoDup, H1|]. split; [apply IH, H2|].
  intros x Hx Hx2. apply (H3 x); [eapply occ1_incl, Hx|eapply occ_incl, Hx2].
Qed.

(** ** Nodes *)
(** The node of every element of the segment points to its neighbours. *)
Definition chain (st : list lnode) (f : Z) (s : list (nat * Z)) : Prop :=
  forall l1 x l2, s = l1 ++ x :: l2 ->
    nth_error st (fst x) = Some (MkNode (snd x) (option_map fst (last_opt l1)) (option_map fst (hd_error l2)) f).
(** The store represents the segments: distinct live nodes, correct links, dead nodes unlinked. *)
Definition wf (st : list lnode) (segs : list seg) : Prop :=
  NoDup (ids segs) /\ (forall s f, In (s, f) segs -> chain st f s) /\
  forall i nd, nth_error st i = Some nd -> ~ In i (ids segs) -> n_left nd = None /\ n_right nd = None.

Lemma app_mid_inv {A} (l1 l2 k1 k2 : list A) y x : l1 ++ y :: l2 = k1 ++ x :: k2 ->
  (exists k', l1 = k1 ++ x :: k' /\ k2 = k' ++ y :: l2) \/
  (k1 = l1 /\ x = y /\ k2 = l2) \/
  (exists k', k1 = l1 ++ y :: k' /\ l2 = k' ++ x :: k2).
Proof.
  revert k1. induction l1 as [|z l1 IH]; intros [|w k1] H; cbn [app] in H.
  - injection H as -> ->. right; left. auto.
  - injection H as -> ->. right; right. exists k1. auto.
  - injection H as -> <-. left. exists l1. auto.
  - injection H as -> H. destruct (IH _ H) as [(k' & -> & ->)|[(-> & -> & ->)|(k' & -> & ->)]].
    + left. exists k'. auto.
    + right; left. auto.
    + right; right. exists k'. auto.
Qed.
Lemma ids_in segs s f n v l1 l2 : In (s, f) segs -> s = l1 ++ (n, v) :: l2 -> In n (ids segs).
Proof.
  intros H ->. unfold ids. apply in_flat_map. eexists. split; [exact H|]. cbn [fst]. rewrite map_app, in_app_iff.
  right. left. reflexivity.
Qed.

Lemma upd_nth i f st j : nth_error (upd i f st) j =
  if Nat.eqb j i then match nth_error st i with Some n => Some (f n) | None => None end else nth_error st j.
Proof.
  unfold upd. destruct (nth_error st i) as [n|] eqn:E.
  - revert i j E. induction st as [|y st IH]; intros [|i] [|j] E; try discriminate E; cbn [nth_error set_nth Nat.eqb] in *;
      try reflexivity. apply IH, E.
  - destruct (Nat.eqb_spec j i) as [->|]; [exact E|reflexivity].
Qed.

(** the store after merging node n with its right neighbour m, followed by y *)
Lemma delete_set st n m (y : option nat) r va vb lf f :
  n <> m -> y <> Some n -> y <> Some m ->
  nth_error st n = Some (MkNode va lf (Some m) f) ->
  nth_error st m = Some (MkNode vb (Some n) y f) ->
  exists st1, delete m st = Ok st1 /\
    forall i, nth_error (upd n (set_val r) st1) i =
      if Nat.eqb i n then Some (MkNode r lf y f)
      else if Nat.eqb i m then Some (MkNode vb None None f)
      else if match y with Some y => Nat.eqb i y | None => false end
           then match nth_error st i with Some nd => Some (set_left (Some n) nd) | None => None end
      else nth_error st i.
Proof.
  intros Hnm Hyn Hym En Em. unfold delete, node_at. rewrite Em. cbn [bind n_left n_right].
  eexists. split; [reflexivity|]. intros i. rewrite upd_nth.
  assert (Hnm' : Nat.eqb n m = false) by (apply Nat.eqb_neq; exact Hnm).
  assert (Hmn' : Nat.eqb m n = false) by (apply Nat.eqb_neq; congruence).
  destruct y as [y|]; cbn [upd_opt]; rewrite !upd_nth.
  - assert (Hny : Nat.eqb n y = false) by (apply Nat.eqb_neq; congruence).
    assert (Hmy : Nat.eqb m y = false) by (apply Nat.eqb_neq; congruence).
    assert (Hyn' : Nat.eqb y n = false) by (apply Nat.eqb_neq; congruence).
    rewrite Hnm', Hny, Hmy, Hmn', Hyn', Nat.eqb_refl, En, Em.
    destruct (Nat.eqb_spec i n) as [->|Hin]; [reflexivity|].
    destruct (Nat.eqb_spec i m) as [->|Him]; [reflexivity|].
    destruct (Nat.eqb_spec i y) as [->|Hiy]; [reflexivity|]. reflexivity.
  - rewrite Hnm', Hmn', Nat.eqb_refl, En, Em.
    destruct (Nat.eqb_spec i n) as [->|Hin]; [reflexivity|].
    destruct (Nat.eqb_spec i m) as [->|Him]; reflexivity.
Qed.

(** ** One merge in the middle of a segment *)
Section Surgery.
  Context (S1 S2 : list seg) (l1 l2 : list (nat * Z)) (n m : nat) (a b r f : Z).
  Let segs : list seg := S1 ++ (l1 ++ (n, a) :: (m, b) :: l2, f) :: S2.
  Let segs' : list seg := S1 ++ (l1 ++ (n, r) :: l2, f) :: S2.
  Definition base (p : Z * Z) : list (nat * Z) := occ S1 p ++ occ1 f l1 p ++ occ1 f l2 p ++ occ S2 p.

  Lemma occ_before p : Permutation (occ segs p)
    (junc f (last_opt l1) (Some (n, a)) p ++ junc f (Some (m, b)) (hd_error l2) p ++
     junc f (Some (n, a)) (Some (m, b)) p ++ base p).
  Proof.
    unfold segs, base. rewrite occ_app. cbn [occ flat_map fst snd]. fold (occ S2 p).
    rewrite occ1_app. cbn [hd_error occ1].
    set (A := occ S1 p). set (B := occ1 f l1 p). set (C := junc f (last_opt l1) _ p). set (D := junc f (Some (n, a)) _ p).
    set (E := junc f (Some (m, b)) _ p). set (F := occ1 f l2 p). set (G := occ S2 p).
    rewrite <- !app_assoc.
    rewrite (Permutation_app_swap_app A B), (Permutation_app_swap_app A C), (Permutation_app_swap_app B C).
    apply Permutation_app_head. 
    rewrite (Permutation_app_swap_app A D), (Permutation_app_swap_app A E), (Permutation_app_swap_app B D), (Permutation_app_swap_app B E), (Permutation_app_swap_app D E).
    do 2 apply Permutation_app_head. apply Permutation_app_swap_app.
  Qed.
  Lemma occ_after p : Permutation (occ segs' p)
    (junc f (Some (n, r)) (hd_error l2) p ++ junc f (last_opt l1) (Some (n, r)) p ++ base p).
  Proof.
    unfold segs', base. rewrite occ_app. cbn [occ flat_map fst snd]. fold (occ S2 p).
    rewrite occ1_app. cbn [hd_error occ1].
    set (A := occ S1 p). set (B := occ1 f l1 p). set (C := junc f (last_opt l1) _ p). set (D := junc f (Some (n, r)) _ p).
    set (F := occ1 f l2 p). set (G := occ S2 p).
    rewrite <- !app_assoc.
    rewrite (Permutation_app_swap_app A B), (Permutation_app_swap_app A C), (Permutation_app_swap_app B C).
    rewrite (Permutation_app_swap_app D C).
    apply Permutation_app_head.
    rewrite (Permutation_app_swap_app A D), (Permutation_app_swap_app B D).
    apply Permutation_app_head. apply Permutation_app_swap_app.
  Qed.
  Lemma ids_before : Permutation (ids segs) (n :: m :: map fst l1 ++ map fst l2 ++ ids S1 ++ ids S2).
  Proof.
    unfold segs. rewrite ids_app. cbn [ids flat_map fst]. fold (ids S2). rewrite map_app. cbn [map fst].
    rewrite Permutation_app_swap_app, <- app_assoc. cbn [app].
    rewrite <- Permutation_middle. apply perm_skip. rewrite <- Permutation_middle. apply perm_skip.
    reflexivity.
  Qed.
  Lemma ids_after : Permutation (ids segs') (n :: map fst l1 ++ map fst l2 ++ ids S1 ++ ids S2).
  Proof.
    unfold segs'. rewrite ids_app. cbn [ids flat_map fst]. fold (ids S2). rewrite map_app. cbn [map fst].
    rewrite Permutation_app_swap_app, <- app_assoc. cbn [app].
    rewrite <- Permutation_middle. reflexivity.
  Qed.
  Lemma symbols_surgery c : symbol_count (corpus_of segs') c =
    symbol_count (corpus_of segs) c
    + f * ((if c =? r then 1 else 0) - (if c =? a then 1 else 0) - (if c =? b then 1 else 0)).
  Proof.
    unfold segs, segs', symbol_count. rewrite !corpus_of_app, !map_app, !zsum_app. cbn [corpus_of map fst snd].
    rewrite !zsum_cons, !map_app, !count_occ_app. cbn [map snd count_occ].
    destruct (Z.eq_dec r c), (Z.eq_dec a c), (Z.eq_dec b c), (Z.eqb_spec c r), (Z.eqb_spec c a), (Z.eqb_spec c b); subst; try congruence; lia.
  Qed.

  Context (st : list lnode).
  Hypothesis Hwf : wf st segs.
  Lemma surgery_distinct : n <> m /\ ~ In n (map fst l1 ++ map fst l2 ++ ids S1 ++ ids S2) /\
    ~ In m (map fst l1 ++ map fst l2 ++ ids S1 ++ ids S2) /\ NoDup (map fst l1 ++ map fst l2 ++ ids S1 ++ ids S2).
  Proof.
    destruct Hwf as [Hn _]. rewrite ids_before in Hn. inversion Hn as [|? ? H1 H2]; subst.
    inversion H2 as [|? ? H3 H4]; subst. split; [|split; [|split]]; auto.
    - intros ->. apply H1. left. reflexivity.
    - intros H. apply H1. right. exact H.
  Qed.
  Lemma node_n : nth_error st n = Some (MkNode a (option_map fst (last_opt l1)) (Some m) f).
  Proof.
    destruct Hwf as (_ & Hc & _). apply (Hc (l1 ++ (n, a) :: (m, b) :: l2) f) with (x := (n, a)) (l2 := (m, b) :: l2) (l1 := l1).
    - unfold segs. apply in_elt.
    - reflexivity.
  Qed.
  Lemma node_m : nth_error st m = Some (MkNode b (Some n) (option_map fst (hd_error l2)) f).
  Proof.
    destruct Hwf as (_ & Hc & _).
    assert (H : chain st f (l1 ++ (n, a) :: (m, b) :: l2)) by (apply Hc; unfold segs; apply in_elt).
    specialize (H (l1 ++ [(n, a)]) (m, b) l2). rewrite <- app_assoc in H. specialize (H eq_refl).
    rewrite last_opt_snoc in H. exact H.
  Qed.
  Lemma node_x x : last_opt l1 = Some x -> exists lf, nth_error st (fst x) = Some (MkNode (snd x) lf (Some n) f).
  Proof.
    intros H. apply last_opt_some in H. destruct H as (l & ->). destruct Hwf as (_ & Hc & _). eexists.
    rewrite (Hc ((l ++ [x]) ++ (n, a) :: (m, b) :: l2) f) with (x := x) (l2 := (n, a) :: (m, b) :: l2) (l1 := l).
    - reflexivity.
    - unfold segs. apply in_elt.
    - rewrite <- app_assoc. reflexivity.
  Qed.
  Lemma node_y y l2' : l2 = y :: l2' -> exists rt, nth_error st (fst y) = Some (MkNode (snd y) (Some m) rt f).
  Proof.
    intros ->. destruct Hwf as (_ & Hc & _). eexists.
    rewrite (Hc (l1 ++ (n, a) :: (m, b) :: y :: l2') f) with (x := y) (l2 := l2') (l1 := l1 ++ [(n, a); (m, b)]).
    - replace (l1 ++ [(n, a); (m, b)]) with ((l1 ++ [(n, a)]) ++ [(m, b)]) by (rewrite <- app_assoc; reflexivity).
      rewrite last_opt_snoc. reflexivity.
    - unfold segs. apply in_elt.
    - rewrite <- app_assoc. reflexivity.
  Qed.

  Lemma surgery_store : exists st1, delete m st = Ok st1 /\ wf (upd n (set_val r) st1) segs' /\
    length (upd n (set_val r) st1) = length st /\
    (forall i nd, nth_error st i = Some nd -> exists nd', nth_error (upd n (set_val r) st1) i = Some nd' /\ n_freq nd' = n_freq nd /\
                                                      (i <> n -> n_val nd' = n_val nd)).
  Proof.
    destruct surgery_distinct as (Hnm & Hn & Hm & Hnd).
    assert (Hy : forall y, option_map fst (hd_error l2) = Some y -> y <> n /\ y <> m /\ In y (map fst l2)).
    { intros y Hy. destruct l2 as [|[y' yv] l2'] eqn:E2; [discriminate|]. cbn in Hy. injection Hy as <-.
      assert (Hin : In y' (map fst l1 ++ map fst ((y', yv) :: l2') ++ ids S1 ++ ids S2)).
      { rewrite in_app_iff. right. left. reflexivity. }
      split; [|split].
      - intros ->. apply Hn, Hin.
      - intros ->. apply Hm, Hin.
      - left. reflexivity. }
    destruct (delete_set st n m (option_map fst (hd_error l2)) r a b (option_map fst (last_opt l1)) f) as (st1 & E1 & Hst).
    - exact Hnm.
    - intros E. destruct (Hy n E) as [H _]. congruence.
    - intros E. destruct (Hy m E) as [_ [H _]]. congruence.
    - exact node_n.
    - exact node_m.
    - exists st1. split; [exact E1|].
      assert (Hother : forall i, i <> n -> i <> m -> option_map fst (hd_error l2) <> Some i ->
                nth_error (upd n (set_val r) st1) i = nth_error st i).
      { intros i H1 H2 H3. rewrite Hst. destruct (Nat.eqb_spec i n); [contradiction|]. destruct (Nat.eqb_spec i m); [contradiction|].
        destruct (option_map fst (hd_error l2)) as [y|]; [|reflexivity]. destruct (Nat.eqb_spec i y); [congruence|reflexivity]. }
      split; [split; [|split]|split].
      + rewrite ids_after. constructor; [exact Hn|exact Hnd].
      + intros s g Hin. destruct Hwf as (_ & Hc & _).
        assert (Hcase : In (s, g) (S1 ++ S2) \/ (s, g) = (l1 ++ (n, r) :: l2, f)).
        { unfold segs' in Hin. apply in_app_iff in Hin. rewrite in_app_iff. destruct Hin as [H|[H|H]]; auto. }
        destruct Hcase as [Hin'|E].
        * intros k1 x k2 Es.
          assert (Hid : In (fst x) (ids S1 ++ ids S2)).
          { apply in_app_iff. rewrite in_app_iff in Hin'. destruct x as [x xv].
            destruct Hin' as [H|H]; [left|right]; eapply ids_in; eauto. }
          rewrite Hother.
          -- apply (Hc s g); [|exact Es]. unfold segs. rewrite in_app_iff in *. destruct Hin'; [left|right; right]; assumption.
          -- intros E. apply Hn. rewrite <- E. rewrite !in_app_iff in *. tauto.
          -- intros E. apply Hm. rewrite <- E. rewrite !in_app_iff in *. tauto.
          -- intros E. destruct (Hy _ E) as (_ & _ & Hl2).
             apply NoDup_app_iff in Hnd. destruct Hnd as (_ & Hnd & _). apply NoDup_app_iff in Hnd.
             destruct Hnd as (_ & _ & Hd). apply (Hd (fst x)); assumption.
        * injection E as -> ->. specialize (Hc (l1 ++ (n, a) :: (m, b) :: l2) f).
          assert (Hc0 : chain st f (l1 ++ (n, a) :: (m, b) :: l2)) by (apply Hc; unfold segs; apply in_elt). clear Hc.
          assert (Hnd1 : forall i, In i (map fst l1) -> In i (map fst l2) -> False).
          { apply NoDup_app_iff in Hnd. destruct Hnd as (_ & _ & Hd). intros i H1 H2. apply (Hd i H1). apply in_app_iff. auto. }
          intros k1 x k2 Es.
          destruct (app_mid_inv _ _ _ _ _ _ Es) as [(k' & -> & ->)|[(-> & -> & ->)|(k' & -> & El2)]].
          -- assert (Hx : In (fst x) (map fst (k1 ++ x :: k'))) by (rewrite map_app, in_app_iff; right; left; reflexivity).
             rewrite Hother.
             ++ rewrite (Hc0 k1 x (k' ++ (n, a) :: (m, b) :: l2)); [|rewrite <- app_assoc; reflexivity].
                destruct k'; reflexivity.
             ++ intros E. apply Hn. rewrite <- E, in_app_iff. left. exact Hx.
             ++ intros E. apply Hm. rewrite <- E, in_app_iff. left. exact Hx.
             ++ intros E. destruct (Hy _ E) as (_ & _ & H2). apply (Hnd1 _ Hx H2).
          -- rewrite Hst. cbn [fst]. rewrite Nat.eqb_refl. reflexivity.
          -- assert (Hx : In (fst x) (map fst l2)) by (rewrite El2, map_app, in_app_iff; right; left; reflexivity).
             assert (Hxn : fst x <> n) by (intros E; apply Hn; rewrite <- E, !in_app_iff; auto).
             assert (Hxm : fst x <> m) by (intros E; apply Hm; rewrite <- E, !in_app_iff; auto).
             destruct k' as [|z k'].
             ++ rewrite Hst. destruct (Nat.eqb_spec (fst x) n); [contradiction|]. destruct (Nat.eqb_spec (fst x) m); [contradiction|].
                rewrite El2. cbn [app hd_error option_map]. rewrite Nat.eqb_refl.
                rewrite (Hc0 (l1 ++ [(n, a); (m, b)]) x k2); [|rewrite <- app_assoc, El2; reflexivity].
                rewrite last_opt_snoc. reflexivity.
             ++ rewrite Hother.
                ** rewrite (Hc0 (l1 ++ (n, a) :: (m, b) :: z :: k') x k2); [|rewrite <- app_assoc, El2; reflexivity].
                   f_equal. f_equal. f_equal.
                   destruct (last_opt k') as [w|] eqn:Ew.
                   --- apply last_opt_some in Ew. destruct Ew as (k'' & ->).
                       replace (l1 ++ (n, a) :: (m, b) :: z :: k'' ++ [w]) with ((l1 ++ (n, a) :: (m, b) :: z :: k'') ++ [w]) by (rewrite <- app_assoc; reflexivity).
                       replace (l1 ++ (n, r) :: z :: k'' ++ [w]) with ((l1 ++ (n, r) :: z :: k'') ++ [w]) by (rewrite <- app_assoc; reflexivity).
                       rewrite !last_opt_snoc. reflexivity.
                   --- apply last_opt_none in Ew. subst k'.
                       replace (l1 ++ [(n, a); (m, b); z]) with ((l1 ++ [(n, a); (m, b)]) ++ [z]) by (rewrite <- app_assoc; reflexivity).
                       replace (l1 ++ [(n, r); z]) with ((l1 ++ [(n, r)]) ++ [z]) by (rewrite <- app_assoc; reflexivity).
                       rewrite !last_opt_snoc. reflexivity.
                ** exact Hxn.
                ** exact Hxm.
                ** rewrite El2. cbn [app hd_error option_map]. intros E. injection E as E.
                   apply NoDup_app_iff in Hnd. destruct Hnd as (_ & Hnd & _). apply NoDup_app_iff in Hnd. destruct Hnd as (Hnd & _).
                   rewrite El2 in Hnd. cbn [map app] in Hnd. inversion Hnd as [|? ? Hni _]; subst. apply Hni.
                   rewrite map_app, in_app_iff. right. left. symmetry. exact E.
      + intros i nd Ei Hni. rewrite ids_after in Hni.
        destruct (Nat.eq_dec i m) as [->|Him].
        * rewrite Hst in Ei. destruct (Nat.eqb_spec m n); [congruence|]. rewrite Nat.eqb_refl in Ei. injection Ei as <-. split; reflexivity.
        * assert (Hin : i <> n) by (intros ->; apply Hni; left; reflexivity).
          rewrite Hother in Ei; [|exact Hin|exact Him|].
          -- destruct Hwf as (_ & _ & Hd). apply (Hd i nd Ei). rewrite ids_before. intros [H|[H|H]]; [congruence|congruence|].
             apply Hni. right. exact H.
          -- intros E. destruct (Hy _ E) as (_ & _ & H2). apply Hni. right. rewrite !in_app_iff. auto.
      + assert (Hlen : forall st' : list lnode, (forall i, nth_error st' i = None <-> nth_error st i = None) -> length st' = length st).
        { intros st' H. destruct (Nat.lt_trichotomy (length st') (length st)) as [L|[L|L]]; [|exact L|].
          - pose proof (proj1 (H (length st')) (proj2 (nth_error_None _ _) (Nat.le_refl _))) as H1. apply nth_error_None in H1. lia.
          - pose proof (proj2 (H (length st)) (proj2 (nth_error_None _ _) (Nat.le_refl _))) as H1. apply nth_error_None in H1. lia. }
        apply Hlen. intros i. rewrite Hst. pose proof node_n as En. pose proof node_m as Em.
        destruct (Nat.eqb_spec i n) as [->|]; [rewrite En; split; discriminate|].
        destruct (Nat.eqb_spec i m) as [->|]; [rewrite Em; split; discriminate|].
        destruct (option_map fst (hd_error l2)) as [y|]; [|reflexivity].
        destruct (Nat.eqb i y); [|reflexivity]. destruct (nth_error st i); split; congruence.
      + intros i nd Ei. rewrite Hst. pose proof node_n as En. pose proof node_m as Em.
        destruct (Nat.eqb_spec i n) as [->|]; [rewrite En in Ei; injection Ei as <-; eexists; split; [reflexivity|]; split; [reflexivity|congruence]|].
        destruct (Nat.eqb_spec i m) as [->|]; [rewrite Em in Ei; injection Ei as <-; eexists; split; [reflexivity|]; split; reflexivity|].
        rewrite Ei. destruct (option_map fst (hd_error l2)) as [y|]; [|eexists; eauto].
        destruct (Nat.eqb i y); eexists; split; try reflexivity; split; reflexivity.
  Qed.
End Surgery.

(** ** Dictionaries of counts and of node sets *)
Lemma dget_def_dadd {K} (eqb : K -> K -> bool) (Heq : forall a b, eqb a b = true <-> a = b) p q v d :
  dget_def eqb p 0 (dadd eqb q v d) = dget_def eqb p 0 d + if eqb p q then v else 0.
Proof.
  unfold dadd, dget_def at 1. rewrite (dget_dset eqb Heq). destruct (eqb p q) eqn:E.
  - apply Heq in E. subst. reflexivity.
  - unfold dget_def. lia.
Qed.
Lemma NoDup_dset {K V} (eqb : K -> K -> bool) (Heq : forall a b, eqb a b = true <-> a = b) k (v : V) d :
  NoDup (dkeys d) -> NoDup (dkeys (dset eqb k v d)).
Proof.
  intros H. rewrite (dkeys_dset eqb). destruct (dmem eqb k d) eqn:E; [exact H|].
  apply NoDup_app_iff. split; [exact H|]. split; [constructor; [intros []|constructor]|].
  intros x Hx [<-|[]]. apply (dmem_spec eqb Heq) in Hx. congruence.
Qed.
Notation pget p ixs := (dget_def pair_eqb p [] ixs).
Notation dcount p d := (dget_def pair_eqb p 0 d).
Notation ucount c d := (dget_def Z.eqb c 0 d).
Lemma dcount_dadd p q v d : dcount p (dadd pair_eqb q v d) = dcount p d + if pair_eqb p q then v else 0.
Proof. apply dget_def_dadd, pair_eqb_eq. Qed.
Lemma ucount_dadd c x v d : ucount c (dadd Z.eqb x v d) = ucount c d + if c =? x then v else 0.
Proof. apply dget_def_dadd, Z.eqb_eq. Qed.

Lemma set_mem_In i s : set_mem i s = true <-> In i s.
Proof.
  unfold set_mem. rewrite existsb_exists. split.
  - intros (x & H & E). apply Nat.eqb_eq in E. subst. exact H.
  - intros H. exists i. split; [exact H|]. apply Nat.eqb_refl.
Qed.
Lemma set_add_perm i s : ~ In i s -> Permutation (set_add i s) (i :: s).
Proof.
  intros H. unfold set_add. destruct (set_mem i s) eqn:E; [apply set_mem_In in E; contradiction|].
  symmetry. apply Permutation_cons_append.
Qed.
Lemma set_remove_perm i s rest : NoDup s -> Permutation s (i :: rest) ->
  exists s', set_remove i s = Ok s' /\ Permutation s' rest.
Proof.
  intros Hnd Hp. unfold set_remove. assert (Hin : In i s) by (rewrite Hp; left; reflexivity).
  apply set_mem_In in Hin. rewrite Hin. eexists. split; [reflexivity|].
  assert (Hnd' : NoDup (i :: rest)) by (rewrite <- Hp; exact Hnd). inversion Hnd' as [|? ? Hni Hndr]; subst.
  apply NoDup_Permutation; [apply NoDup_filter, Hnd|exact Hndr|].
  intros j. rewrite filter_In, negb_true_iff, Nat.eqb_neq, Hp. cbn [In]. split.
  - intros [[H|H] Hne]; [congruence|exact H].
  - intros H. split; [right; exact H|]. intros ->. contradiction.
Qed.

Lemma ixs_remove_spec ab q x ixs (B : Z * Z -> list nat) :
  dget pair_eqb ab ixs = None ->
  (forall p, p <> ab -> NoDup (pget p ixs)) ->
  (forall p, p <> ab -> Permutation (pget p ixs) ((if pair_eqb q p then [x] else []) ++ B p)) ->
  exists ixs', ixs_remove q x ixs = Ok ixs' /\ dget pair_eqb ab ixs' = None /\
    (forall p, p <> ab -> Permutation (pget p ixs') (B p)).
Proof.
  intros Hab Hnd H. unfold ixs_remove. destruct (pair_dec q ab) as [->|Hq].
  - rewrite Hab. exists ixs. split; [reflexivity|]. split; [exact Hab|]. intros p Hp. rewrite (H p Hp).
    destruct (pair_eqb ab p) eqn:E; [apply pair_eqb_eq in E; congruence|reflexivity].
  - pose proof (H q Hq) as Hqq. rewrite pair_eqb_refl in Hqq. cbn [app] in Hqq.
    pose proof (Hnd q Hq) as Hndq. unfold dget_def in Hqq, Hndq. destruct (dget pair_eqb q ixs) as [s|] eqn:Es.
    + destruct (set_remove_perm x s (B q) Hndq Hqq) as (s' & E & Hs').
      destruct s as [|y s]; [apply Permutation_nil in Hqq; discriminate|]. rewrite E. cbn [bind].
      eexists. split; [reflexivity|]. split.
      * rewrite (dget_dset_other pair_eqb pair_eqb_eq) by congruence. exact Hab.
      * intros p Hp. unfold dget_def. rewrite (dget_dset pair_eqb pair_eqb_eq). destruct (pair_eqb p q) eqn:Epq.
        -- apply pair_eqb_eq in Epq. subst. exact Hs'.
        -- specialize (H p Hp). destruct (pair_eqb q p) eqn:E2; [apply pair_eqb_eq in E2; subst; rewrite pair_eqb_refl in Epq; discriminate|].
           exact H.
    + apply Permutation_nil in Hqq. discriminate.
Qed.
Lemma ixs_add_spec ab q x ixs (B : Z * Z -> list nat) :
  q <> ab -> dget pair_eqb ab ixs = None ->
  (forall p, p <> ab -> Permutation (pget p ixs) (B p)) -> ~ In x (B q) ->
  dget pair_eqb ab (ixs_add q x ixs) = None /\
  (forall p, p <> ab -> Permutation (pget p (ixs_add q x ixs)) ((if pair_eqb q p then [x] else []) ++ B p)).
Proof.
  intros Hq Hab H Hx. unfold ixs_add. split.
  - rewrite (dget_dset_other pair_eqb pair_eqb_eq) by congruence. exact Hab.
  - intros p Hp. unfold dget_def at 1. rewrite (dget_dset pair_eqb pair_eqb_eq). destruct (pair_eqb p q) eqn:E.
    + apply pair_eqb_eq in E. subst p. rewrite pair_eqb_refl. cbn [app]. rewrite set_add_perm, H by (rewrite ?H; auto). reflexivity.
    + destruct (pair_eqb q p) eqn:E2; [apply pair_eqb_eq in E2; subst; rewrite pair_eqb_refl in E; discriminate|]. apply (H p Hp).
Qed.

(** ** Replacement *)
Lemma replaced_app a b r s1 t1 s2 t2 : replaced a b r s1 t1 -> replaced a b r s2 t2 -> replaced a b r (s1 ++ s2) (t1 ++ t2).
Proof. intros H1 H2. induction H1; cbn [app]; [exact H2|constructor; assumption..]. Qed.
Lemma replaced_refl a b r s : replaced a b r s s.
Proof. induction s; constructor; assumption. Qed.
Lemma replaced_app_inv a b r u : forall s v, replaced a b r s (u ++ v) ->
  exists s1 s2, s = s1 ++ s2 /\ replaced a b r s1 u /\ replaced a b r s2 v.
Proof.
  induction u as [|x u IH]; intros s v H.
  - exists [], s. split; [reflexivity|]. split; [constructor|exact H].
  - cbn [app] in H. inversion H as [|? s0 ? Hr|s0 ? Hr]; subst; destruct (IH _ _ Hr) as (s1 & s2 & -> & H1 & H2).
    + exists (x :: s1), s2. split; [reflexivity|]. split; [constructor; exact H1|exact H2].
    + exists (a :: b :: s1), s2. split; [reflexivity|]. split; [constructor; exact H1|exact H2].
Qed.
Lemma replaced_keep_inv a b r s x t : x <> r -> replaced a b r s (x :: t) -> exists s', s = x :: s' /\ replaced a b r s' t.
Proof. intros Hx H. inversion H; subst; [eauto|congruence]. Qed.
Lemma replaced_step a b r s u v : a <> r -> b <> r -> replaced a b r s (u ++ a :: b :: v) -> replaced a b r s (u ++ r :: v).
Proof.
  intros Ha Hb H. apply replaced_app_inv in H. destruct H as (s1 & s2 & -> & H1 & H2).
  apply replaced_keep_inv in H2; [|exact Ha]. destruct H2 as (s3 & -> & H2).
  apply replaced_keep_inv in H2; [|exact Hb]. destruct H2 as (s4 & -> & H2).
  apply replaced_app; [exact H1|]. apply rep_merge, H2.
Qed.

Lemma base_incl S1 S2 l1 l2 f p :
  incl (map fst (base S1 S2 l1 l2 f p)) (map fst l1 ++ map fst l2 ++ ids S1 ++ ids S2).
Proof.
  unfold base. rewrite !map_app. intros i. rewrite !in_app_iff. intros [H|[H|[H|H]]].
  - apply occ_incl in H. auto.
  - apply occ1_incl in H. auto.
  - apply occ1_incl in H. auto.
  - apply occ_incl in H. auto.
Qed.
Lemma occ1_removelast f l x p : map fst (occ1 f (l ++ [x]) p) = map fst (occ1 f (l ++ [x]) p) ->
  incl (map fst (occ1 f (l ++ [x]) p)) (map fst l).
Proof.
  intros _. induction l as [|y l IH]; cbn [app occ1].
  - cbn [hd_error junc map app]. apply incl_nil_l.
  - rewrite map_app. apply incl_app.
    + destruct (l ++ [x]) as [|z w]; cbn [hd_error junc]; [apply incl_nil_l|]. destruct (pair_eqb _ _); [|apply incl_nil_l].
      intros i [<-|[]]. left. reflexivity.
    + apply incl_tl, IH.
Qed.

Definition freq_at (st : list lnode) (i : nat) : Z := match nth_error st i with Some nd => n_freq nd | None => 0 end.
Definition psum (st : list lnode) (l : list nat) : Z := zsum (map (freq_at st) l).
Definition ind (c x : Z) : Z := if c =? x then 1 else 0.

(** ** The invariant of the loop over update_nodes *)
Record inner (a b r : Z) (segs0 : list seg) (pend : list nat) (ms : mstate) (segs : list seg) : Prop := MkInner {
  i_wf : wf (ms_nodes ms) segs;
  i_ixs : forall p, p <> (a, b) -> Permutation (pget p (ms_ixs ms)) (map fst (occ segs p));
  i_ab : dget pair_eqb (a, b) (ms_ixs ms) = None;
  i_nd : NoDup pend;
  i_all : forall n f, In (n, f) (occ segs (a, b)) -> In n pend;
  i_pend : forall n, In n pend -> ((n < length (ms_nodes ms))%nat /\ ~ In n (ids segs)) \/
     exists l1 m w l2 f, In (l1 ++ (n, a) :: (m, w) :: l2, f) segs /\ (w = b \/ (a = b /\ w = r));
  i_keys : NoDup (dkeys (ms_deltas ms));
  i_delta : forall p, p <> (a, b) -> dcount p (ms_deltas ms) = pair_count (corpus_of segs) p - pair_count (corpus_of segs0) p;
  i_dneg : forall p, fst p <> r -> snd p <> r -> dcount p (ms_deltas ms) <= 0;
  i_uni : forall c, ucount c (ms_uni ms) = symbol_count (corpus_of segs) c + psum (ms_nodes ms) pend * (ind c r - ind c a - ind c b);
  i_rep : Forall2 (fun x y => snd x = snd y /\ replaced a b r (map snd (fst x)) (map snd (fst y))) segs0 segs }.

Section MergeNode.
  Context (a b r : Z) (segs0 : list seg) (n : nat) (pend : list nat) (ms : mstate).
  Hypothesis Har : a <> r.
  Hypothesis Hbr : b <> r.
  Hypothesis Hpos : forall s f, In (s, f) segs0 -> 0 < f.

  Lemma chain_right st f l1 x y l2 : chain st f (l1 ++ x :: y :: l2) ->
    exists lf rt, nth_error st (fst x) = Some (MkNode (snd x) lf (Some (fst y)) f) /\
                  nth_error st (fst y) = Some (MkNode (snd y) (Some (fst x)) rt f).
  Proof.
    intros H. do 2 eexists. split; [apply (H l1 x (y :: l2) eq_refl)|].
    assert (E : l1 ++ x :: y :: l2 = (l1 ++ [x]) ++ y :: l2) by (rewrite <- app_assoc; reflexivity).
    rewrite (H _ _ _ E), last_opt_snoc. reflexivity.
  Qed.

  Lemma skip_step segs nd uni' : inner a b r segs0 (n :: pend) ms segs ->
    nth_error (ms_nodes ms) n = Some nd -> (forall f, ~ In (n, f) (occ segs (a, b))) ->
    uni' = dadd Z.eqb r (- n_freq nd) (dadd Z.eqb b (n_freq nd) (dadd Z.eqb a (n_freq nd) (ms_uni ms))) ->
    inner a b r segs0 pend (MkMS (ms_nodes ms) uni' (ms_ixs ms) (ms_deltas ms)) segs.
  Proof.
    intros [] En Hno ->. inversion i_nd0 as [|? ? Hni Hnd]; subst. constructor; cbn [ms_nodes ms_uni ms_ixs ms_deltas]; auto.
    - intros k f Hk. destruct (i_all0 k f Hk) as [<-|H]; [exfalso; eapply Hno, Hk|exact H].
    - intros k Hk. apply i_pend0. right. exact Hk.
    - intros c. rewrite !ucount_dadd, i_uni0. unfold psum. cbn [map]. rewrite zsum_cons. unfold freq_at at 1. rewrite En.
      unfold ind. destruct (c =? r), (c =? a), (c =? b); lia.
  Qed.

  Lemma merge_step S1 S2 l1 l2 m f :
    inner a b r segs0 (n :: pend) ms (S1 ++ (l1 ++ (n, a) :: (m, b) :: l2, f) :: S2) ->
    exists ms', merge_node a b r ms n = Ok ms' /\
      inner a b r segs0 pend ms' (S1 ++ (l1 ++ (n, r) :: l2, f) :: S2).
  Proof.
    set (segs := S1 ++ (l1 ++ (n, a) :: (m, b) :: l2, f) :: S2).
    set (segs' := S1 ++ (l1 ++ (n, r) :: l2, f) :: S2).
    intros HI. assert (HI' := HI). destruct HI' as [Hwf Hixs Hab Hnd Hall Hpend Hkeys Hdelta Hdneg Huni Hrep].
    destruct (surgery_distinct _ _ _ _ _ _ _ _ r _ _ Hwf) as (Hnm & Hn & Hm & Hndr).
    pose proof (node_n _ _ _ _ _ _ _ _ _ _ Hwf) as En. pose proof (node_m _ _ _ _ _ _ _ _ _ _ Hwf) as Em.
    destruct (surgery_store S1 S2 l1 l2 n m a b r f (ms_nodes ms) Hwf) as (st1 & Edel & Hwf' & Hlen & Hst).
    unfold merge_node, node_at. rewrite En. cbn [bind n_left n_right n_val n_freq is_unlinked is_none andb].
    rewrite Em. cbn [bind n_left n_right n_val n_freq].
    destruct (Z.eqb_spec r a) as [|_]; [congruence|]. destruct (Z.eqb_spec r b) as [|_]; [congruence|].
    rewrite orb_false_r, andb_false_r, !Z.eqb_refl. cbn [negb orb assert_ bind]. rewrite Edel. cbn [bind].
    set (nodes := upd n (set_val r) st1) in *.
    assert (Hf : 0 < f).
    { assert (Hin : In (l1 ++ (n, a) :: (m, b) :: l2, f) segs) by (unfold segs; apply in_elt).
      clear - Hrep Hin Hpos. revert Hin. revert Hrep. generalize (l1 ++ (n, a) :: (m, b) :: l2). generalize segs. intros sg s H.
      revert Hpos. induction H as [|[s0 f0] [s1 f1] l l' [E _] _ IH]; intros Hpos Hin; [destruct Hin|]. destruct Hin as [Hin|Hin].
      - injection Hin as -> ->. cbn [snd] in E. subst f0. apply (Hpos s0). left. reflexivity.
      - apply IH; [|exact Hin]. intros s2 f2 H2. apply (Hpos s2). right. exact H2. }
    (* the left neighbour *)
    set (B0 := fun p => map fst (base S1 S2 l1 l2 f p)).
    set (Bm := fun p => map fst (junc f (Some (m, b)) (hd_error l2) p) ++ B0 p).
    assert (H0 : forall p, p <> (a, b) -> Permutation (pget p (ms_ixs ms))
              (map fst (junc f (last_opt l1) (Some (n, a)) p) ++ Bm p)).
    { intros p Hp. rewrite (Hixs p Hp). unfold segs. rewrite (Permutation_map fst (occ_before S1 S2 l1 l2 n m a b f p)).
      rewrite !map_app. unfold Bm, B0. apply Permutation_app_head, Permutation_app_head.
      cbn [junc snd]. destruct (pair_eqb (a, b) p) eqn:E; [apply pair_eqb_eq in E; congruence|reflexivity]. }
    assert (HB0 : forall p i, In i (B0 p) -> In i (map fst l1 ++ map fst l2 ++ ids S1 ++ ids S2)).
    { intros p i Hi. unfold B0 in Hi. apply base_incl in Hi. exact Hi. }
    assert (Hnd0 : forall p, p <> (a, b) -> NoDup (pget p (ms_ixs ms))).
    { intros p Hp. rewrite (Hixs p Hp). apply occ_NoDup. exact (proj1 Hwf). }
    assert (HX : exists ixs1 deltas1,
      match option_map fst (last_opt l1) with
      | Some x => bind (match nth_error nodes x with Some n0 => Ok n0 | None => Raise OtherError end)
         (fun xd => let deltas := dadd pair_eqb (n_val xd, a) (- n_freq xd) (ms_deltas ms) in
            bind (ixs_remove (n_val xd, a) x (ms_ixs ms))
             (fun ixs => Ok (ixs_add (n_val xd, r) x ixs, dadd pair_eqb (n_val xd, r) (n_freq xd) deltas)))
      | None => Ok (ms_ixs ms, ms_deltas ms)
      end = Ok (ixs1, deltas1) /\
      dget pair_eqb (a, b) ixs1 = None /\
      (forall p, p <> (a, b) -> Permutation (pget p ixs1)
          (map fst (junc f (last_opt l1) (Some (n, r)) p) ++ Bm p)) /\
      NoDup (dkeys deltas1) /\
      (forall p, dcount p deltas1 = dcount p (ms_deltas ms)
          + zsum (map snd (junc f (last_opt l1) (Some (n, r)) p)) - zsum (map snd (junc f (last_opt l1) (Some (n, a)) p)))).
    { destruct (last_opt l1) as [[x xv]|] eqn:El; cbn [option_map fst].
      - destruct (node_x _ _ _ _ _ _ _ _ r _ _ Hwf _ El) as (lf & Ex). cbn [fst snd] in Ex.
        apply last_opt_some in El. destruct El as (l1' & ->).
        assert (Hxin : In x (map fst (l1' ++ [(x, xv)]))) by (rewrite map_app, in_app_iff; right; left; reflexivity).
        assert (Hxn : x <> n) by (intros ->; apply Hn; rewrite in_app_iff; auto).
        assert (Hxm : x <> m) by (intros ->; apply Hm; rewrite in_app_iff; auto).
        destruct (Hst _ _ Ex) as (xd & Exd & Efr & Ev). specialize (Ev Hxn). cbn [n_freq n_val] in Efr, Ev.
        rewrite Exd. cbn [bind]. rewrite Efr, Ev. cbn [junc snd fst] in H0 |- *.
        destruct (ixs_remove_spec (a, b) (xv, a) x (ms_ixs ms) Bm Hab Hnd0) as (ixs1 & E1 & Hab1 & Hp1).
        { intros p Hp. rewrite (H0 p Hp). destruct (pair_eqb (xv, a) p); reflexivity. }
        rewrite E1. cbn [bind]. do 2 eexists. split; [reflexivity|].
        destruct (ixs_add_spec (a, b) (xv, r) x ixs1 Bm) as (Hab2 & Hp2); auto.
        { intros E. injection E as -> ->. congruence. }
        { unfold Bm. rewrite in_app_iff. intros [H|H].
          - destruct l2 as [|y l2']; cbn [hd_error junc] in H; [destruct H|]. destruct (pair_eqb _ _); [|destruct H].
            destruct H as [H|[]]. cbn [fst] in H. congruence.
          - unfold B0, base in H. rewrite !map_app, !in_app_iff in H.
            assert (Hd : forall i, In i (map fst (l1' ++ [(x, xv)])) -> In i (map fst l2 ++ ids S1 ++ ids S2) -> False).
            { apply NoDup_app_iff in Hndr. tauto. }
            destruct H as [H|[H|[H|H]]].
            + apply occ_incl in H. apply (Hd x Hxin). rewrite !in_app_iff. auto.
            + apply occ1_removelast in H; [|reflexivity]. apply NoDup_app_iff in Hndr. destruct Hndr as (Hn1 & _).
              rewrite map_app in Hn1. apply NoDup_app_iff in Hn1. destruct Hn1 as (_ & _ & Hn1). apply (Hn1 x H). left. reflexivity.
            + apply occ1_incl in H. apply (Hd x Hxin). rewrite !in_app_iff. auto.
            + apply occ_incl in H. apply (Hd x Hxin). rewrite !in_app_iff. auto. }
        split; [exact Hab2|]. split; [|split].
        + intros p Hp. rewrite (Hp2 p Hp). destruct (pair_eqb (xv, r) p); reflexivity.
        + apply NoDup_dset; [apply pair_eqb_eq|]. apply NoDup_dset; [apply pair_eqb_eq|]. exact Hkeys.
        + intros p. rewrite !dcount_dadd.
          assert (Hsym : forall q, pair_eqb q p = pair_eqb p q).
          { intros q. destruct (pair_eqb q p) eqn:E1', (pair_eqb p q) eqn:E2; try reflexivity;
            [apply pair_eqb_eq in E1'; subst; rewrite pair_eqb_refl in E2|apply pair_eqb_eq in E2; subst; rewrite pair_eqb_refl in E1']; discriminate. }
          rewrite !Hsym. destruct (pair_eqb p (xv, a)), (pair_eqb p (xv, r)); cbn [map snd zsum fold_right]; lia.
      - do 2 eexists. split; [reflexivity|]. split; [exact Hab|]. cbn [junc map app] in H0 |- *. split; [exact H0|].
        split; [exact Hkeys|]. intros p. change (zsum []) with 0. lia. }
    destruct HX as (ixs1 & deltas1 & EX & Hab1 & Hp1 & Hk1 & Hd1). cbv zeta in EX. rewrite EX. cbn [bind]. clear EX.
    (* the right neighbour *)
    set (Bx := fun p => map fst (junc f (last_opt l1) (Some (n, r)) p) ++ B0 p).
    assert (H1 : forall p, p <> (a, b) -> Permutation (pget p ixs1) (map fst (junc f (Some (m, b)) (hd_error l2) p) ++ Bx p)).
    { intros p Hp. rewrite (Hp1 p Hp). unfold Bm, Bx. apply Permutation_app_swap_app. }
    assert (Hnd1 : forall p, p <> (a, b) -> NoDup (pget p ixs1)).
    { intros p Hp. rewrite (H1 p Hp). unfold Bx, B0.
      assert (Hbnd : NoDup (map fst (base S1 S2 l1 l2 f p))).
      { pose proof (occ_NoDup segs' p (proj1 Hwf')) as H. unfold segs' in H. rewrite (Permutation_map fst (occ_after S1 S2 l1 l2 n r f p)), !map_app in H.
        apply NoDup_app_iff in H. destruct H as (_ & H & _). apply NoDup_app_iff in H. tauto. }
      assert (Hb2 : NoDup (map fst (junc f (last_opt l1) (Some (n, r)) p) ++ map fst (base S1 S2 l1 l2 f p))).
      { pose proof (occ_NoDup segs' p (proj1 Hwf')) as H. unfold segs' in H. rewrite (Permutation_map fst (occ_after S1 S2 l1 l2 n r f p)), !map_app in H.
        apply NoDup_app_iff in H. tauto. }
      apply NoDup_app_iff. split; [|split; [exact Hb2|]].
      - destruct l2 as [|y l2']; cbn [hd_error junc]; [constructor|]. destruct (pair_eqb _ _); cbn [map]; [|constructor].
        constructor; [intros []|constructor].
      - intros i Hi Hi2.
        assert (i = m). { destruct l2 as [|y l2']; cbn [hd_error junc] in Hi; [destruct Hi|]. destruct (pair_eqb _ _); [|destruct Hi]. destruct Hi as [<-|[]]. reflexivity. }
        subst i. rewrite in_app_iff in Hi2. destruct Hi2 as [Hi2|Hi2].
        + destruct (last_opt l1) as [x|] eqn:El; [|destruct Hi2]. cbn [junc] in Hi2. destruct (pair_eqb _ _); [|destruct Hi2].
          destruct Hi2 as [Hi2|[]]. cbn [fst] in Hi2. apply last_opt_some in El. destruct El as (l1' & ->).
          apply Hm. rewrite in_app_iff. left. rewrite map_app, in_app_iff. right. left. exact Hi2.
        + apply Hm. eapply base_incl, Hi2. }
    assert (HY : exists ixs2 deltas2,
      match option_map fst (hd_error l2) with
      | Some y => bind (match nth_error nodes y with Some n0 => Ok n0 | None => Raise OtherError end)
         (fun yd => let deltas := dadd pair_eqb (b, n_val yd) (- f) deltas1 in
            bind (ixs_remove (b, n_val yd) m ixs1)
             (fun ixs => Ok (ixs_add (r, n_val yd) n ixs, dadd pair_eqb (r, n_val yd) f deltas)))
      | None => Ok (ixs1, deltas1)
      end = Ok (ixs2, deltas2) /\
      dget pair_eqb (a, b) ixs2 = None /\
      (forall p, p <> (a, b) -> Permutation (pget p ixs2)
          (map fst (junc f (Some (n, r)) (hd_error l2) p) ++ Bx p)) /\
      NoDup (dkeys deltas2) /\
      (forall p, dcount p deltas2 = dcount p deltas1
          + zsum (map snd (junc f (Some (n, r)) (hd_error l2) p)) - zsum (map snd (junc f (Some (m, b)) (hd_error l2) p)))).
    { destruct l2 as [|[y yv] l2'] eqn:El; cbn [hd_error option_map fst].
      - do 2 eexists. split; [reflexivity|]. split; [exact Hab1|]. cbn [hd_error junc map app] in H1 |- *. split; [exact H1|].
        split; [exact Hk1|]. intros p. change (zsum []) with 0. lia.
      - destruct (node_y _ _ _ _ _ _ _ _ r _ _ Hwf _ _ eq_refl) as (rt & Ey). cbn [fst snd] in Ey.
        assert (Hyn : y <> n) by (intros ->; apply Hn; rewrite !in_app_iff; right; left; left; reflexivity).
        destruct (Hst _ _ Ey) as (yd & Eyd & Efr & Ev). specialize (Ev Hyn). cbn [n_freq n_val] in Efr, Ev.
        rewrite Eyd. cbn [bind]. rewrite Ev. cbn [hd_error junc snd fst] in H1 |- *.
        destruct (ixs_remove_spec (a, b) (b, yv) m ixs1 Bx Hab1 Hnd1) as (ixs2 & E2 & Hab2 & Hp2).
        { intros p Hp. rewrite (H1 p Hp). destruct (pair_eqb (b, yv) p); reflexivity. }
        rewrite E2. cbn [bind]. do 2 eexists. split; [reflexivity|].
        destruct (ixs_add_spec (a, b) (r, yv) n ixs2 Bx) as (Hab3 & Hp3); auto.
        { intros E. injection E as E _. congruence. }
        { unfold Bx. rewrite in_app_iff. intros [H|H].
          - destruct (last_opt l1) as [x|] eqn:El1; [|destruct H]. cbn [junc] in H. destruct (pair_eqb _ _); [|destruct H].
            destruct H as [H|[]]. cbn [fst] in H. apply last_opt_some in El1. destruct El1 as (l1' & ->).
            apply Hn. rewrite in_app_iff. left. rewrite map_app, in_app_iff. right. left. exact H.
          - apply Hn. eapply HB0, H. }
        split; [exact Hab3|]. split; [|split].
        + intros p Hp. rewrite (Hp3 p Hp). destruct (pair_eqb (r, yv) p); reflexivity.
        + apply NoDup_dset; [apply pair_eqb_eq|]. apply NoDup_dset; [apply pair_eqb_eq|]. exact Hk1.
        + intros p. rewrite !dcount_dadd.
          assert (Hsym : forall q, pair_eqb q p = pair_eqb p q).
          { intros q. destruct (pair_eqb q p) eqn:E1', (pair_eqb p q) eqn:E2'; try reflexivity;
            [apply pair_eqb_eq in E1'; subst; rewrite pair_eqb_refl in E2'|apply pair_eqb_eq in E2'; subst; rewrite pair_eqb_refl in E1']; discriminate. }
          rewrite !Hsym. destruct (pair_eqb p (b, yv)), (pair_eqb p (r, yv)); cbn [map snd zsum fold_right]; lia. }
    destruct HY as (ixs2 & deltas2 & EY & Hab2 & Hp2 & Hk2 & Hd2). cbv zeta in EY. rewrite EY. cbn [bind]. clear EY.
    eexists. split; [reflexivity|].
    inversion Hnd as [|? ? Hni Hnd']; subst.
    constructor; cbn [ms_nodes ms_uni ms_ixs ms_deltas].
    - exact Hwf'.
    - intros p Hp. rewrite (Hp2 p Hp). unfold Bx, B0. unfold segs'.
      rewrite (Permutation_map fst (occ_after S1 S2 l1 l2 n r f p)), !map_app. reflexivity.
    - exact Hab2.
    - exact Hnd'.
    - intros k g Hk. unfold segs' in Hk. rewrite (occ_after S1 S2 l1 l2 n r f (a, b)) in Hk. rewrite !in_app_iff in Hk.
      destruct Hk as [Hk|[Hk|Hk]].
      + destruct l2 as [|y l2']; cbn [hd_error junc snd] in Hk; [destruct Hk|].
        destruct (pair_eqb (r, snd y) (a, b)) eqn:E; [|destruct Hk]. apply pair_eqb_eq in E. congruence.
      + destruct (last_opt l1) as [x|]; [|destruct Hk]. cbn [junc snd] in Hk.
        destruct (pair_eqb (snd x, r) (a, b)) eqn:E; [|destruct Hk]. apply pair_eqb_eq in E. congruence.
      + destruct (Hall k g) as [<-|H]; [|exfalso|exact H].
        * unfold segs. rewrite (occ_before S1 S2 l1 l2 n m a b f (a, b)), !in_app_iff. auto.
        * apply Hn. eapply base_incl. apply in_map_iff. exists (n, g). split; [reflexivity|exact Hk].
    - intros k Hk. assert (Hkn : k <> n) by (intros ->; contradiction).
      assert (Hids : forall i, In i (ids segs') -> In i (ids segs)).
      { intros i Hi. unfold segs' in Hi. unfold segs. rewrite ids_after in Hi. rewrite ids_before. destruct Hi as [H|H]; [left; exact H|right; right; exact H]. }
      destruct (Hpend k (or_intror Hk)) as [[Hkl Hkd]|(k1 & m' & w & k2 & g & Hin & Hw)].
      { left. rewrite Hlen. split; [exact Hkl|]. intros H. apply Hkd, Hids, H. }
      destruct (Nat.eq_dec k m) as [->|Hkm].
      { left. rewrite Hlen. split; [apply nth_error_Some; congruence|]. unfold segs'. rewrite ids_after. intros [H|H]; [congruence|]. contradiction. }
      right. assert (Hcase : In (k1 ++ (k, a) :: (m', w) :: k2, g) (S1 ++ S2) \/ (k1 ++ (k, a) :: (m', w) :: k2, g) = (l1 ++ (n, a) :: (m, b) :: l2, f)).
      { unfold segs in Hin. apply in_app_iff in Hin. rewrite in_app_iff. destruct Hin as [H|[H|H]]; auto. }
      destruct Hcase as [Hc|Hc].
      + exists k1, m', w, k2, g. split; [|exact Hw]. unfold segs'. rewrite in_app_iff in *. destruct Hc; [left|right; right]; assumption.
      + injection Hc as Hs ->. symmetry in Hs. destruct (app_mid_inv _ _ _ _ _ _ Hs) as [(k' & -> & E)|[(-> & E & _)|(k' & -> & E)]].
        * destruct k' as [|z k']; cbn [app] in E; injection E as E1 E2.
          -- subst m' w. assert (a = b) by (destruct Hw as [Hw|[Hw _]]; congruence). subst b.
             exists k1, n, r, l2, f. split; [unfold segs'; rewrite <- app_assoc; cbn [app]; apply in_elt|auto].
          -- subst z. exists k1, m', w, (k' ++ (n, r) :: l2), f. split; [|exact Hw].
             unfold segs'. rewrite <- app_assoc. cbn [app]. apply in_elt.
        * congruence.
        * destruct k' as [|z k']; cbn [app] in E; injection E as E1 E2.
          -- congruence.
          -- exists (l1 ++ (n, r) :: k'), m', w, k2, f. split; [|exact Hw]. unfold segs'. rewrite E2, <- app_assoc. cbn [app]. apply in_elt.
    - exact Hk2.
    - intros p Hp. rewrite Hd2, Hd1, (Hdelta p Hp), !occ_count.
      pose proof (zsum_perm _ _ (Permutation_map snd (occ_before S1 S2 l1 l2 n m a b f p))) as EB.
      pose proof (zsum_perm _ _ (Permutation_map snd (occ_after S1 S2 l1 l2 n r f p))) as EA.
      change (zsum (map snd (occ segs p)) = zsum (map snd (junc f (last_opt l1) (Some (n, a)) p ++ junc f (Some (m, b)) (hd_error l2) p ++ junc f (Some (n, a)) (Some (m, b)) p ++ base S1 S2 l1 l2 f p))) in EB.
      change (zsum (map snd (occ segs' p)) = zsum (map snd (junc f (Some (n, r)) (hd_error l2) p ++ junc f (last_opt l1) (Some (n, r)) p ++ base S1 S2 l1 l2 f p))) in EA.
      rewrite EA, EB, !map_app, !zsum_app.
      assert (E : junc f (Some (n, a)) (Some (m, b)) p = []).
      { cbn [junc snd]. destruct (pair_eqb (a, b) p) eqn:E; [apply pair_eqb_eq in E; congruence|reflexivity]. }
      rewrite E. cbn [map]. change (zsum []) with 0. lia.
    - intros p Hp1' Hp2'. rewrite Hd2, Hd1. specialize (Hdneg p Hp1' Hp2').
      assert (E1 : junc f (Some (n, r)) (hd_error l2) p = []).
      { destruct l2 as [|y l2']; cbn [hd_error junc snd]; [reflexivity|]. destruct (pair_eqb _ p) eqn:E; [|reflexivity].
        apply pair_eqb_eq in E. subst p. cbn [fst] in Hp1'. congruence. }
      assert (E2 : junc f (last_opt l1) (Some (n, r)) p = []).
      { destruct (last_opt l1) as [x|]; cbn [junc snd]; [|reflexivity]. destruct (pair_eqb _ p) eqn:E; [|reflexivity].
        apply pair_eqb_eq in E. subst p. cbn [snd] in Hp2'. congruence. }
      rewrite E1, E2. cbn [map]. change (zsum []) with 0.
      assert (Hz : forall x y, 0 <= zsum (map snd (junc f x y p))).
      { intros [x|] [y|]; cbn [junc]; try (cbn; lia). destruct (pair_eqb _ p); cbn; lia. }
      pose proof (Hz (last_opt l1) (Some (n, a))). pose proof (Hz (Some (m, b)) (hd_error l2)). lia.
    - intros c. rewrite (Huni c). pose proof (symbols_surgery S1 S2 l1 l2 n m a b r f c) as ES.
      change (symbol_count (corpus_of segs') c = symbol_count (corpus_of segs) c + f * ((if c =? r then 1 else 0) - (if c =? a then 1 else 0) - (if c =? b then 1 else 0))) in ES. rewrite ES.
      assert (Hfa : forall i, freq_at nodes i = freq_at (ms_nodes ms) i).
      { intros i. unfold freq_at. destruct (nth_error (ms_nodes ms) i) as [nd|] eqn:E.
        - destruct (Hst _ _ E) as (nd' & -> & E' & _). exact E'.
        - apply nth_error_None in E. rewrite (proj2 (nth_error_None nodes i)) by lia. reflexivity. }
      unfold psum. rewrite (map_ext _ _ Hfa). cbn [map]. rewrite zsum_cons. unfold freq_at at 1. rewrite En. cbn [n_freq].
      unfold ind. lia.
    - unfold segs'. unfold segs in Hrep. apply Forall2_app_inv_r in Hrep. destruct Hrep as (T1 & T2 & HT1 & HT2 & ->).
      inversion HT2 as [|x ? T2' ? [Ef Hr] HT3]; subst. apply Forall2_app; [exact HT1|]. constructor; [|exact HT3].
      split; [exact Ef|]. cbn [fst snd] in *. rewrite !map_app in *. cbn [map snd] in *. apply replaced_step; assumption.
  Qed.

  Lemma merge_node_ok segs : inner a b r segs0 (n :: pend) ms segs ->
    exists ms' segs', merge_node a b r ms n = Ok ms' /\ inner a b r segs0 pend ms' segs'.
  Proof.
    intros HI. assert (HI' := HI). destruct HI' as [Hwf Hixs Hab Hnd Hall Hpend Hkeys Hdelta Hdneg Huni Hrep].
    destruct (Hpend n (or_introl eq_refl)) as [[Hl Hd]|(l1 & m & w & l2 & f & Hin & Hw)].
    - destruct (nth_error (ms_nodes ms) n) as [nd|] eqn:En; [|apply nth_error_None in En; lia].
      destruct Hwf as (Hw1 & Hw2 & Hw3). destruct (Hw3 n nd En Hd) as [E1 E2].
      unfold merge_node, node_at. rewrite En. cbn [bind]. unfold is_unlinked. rewrite E1, E2. cbn [is_none andb].
      do 2 eexists. split; [reflexivity|]. eapply skip_step; [exact HI|exact En| |reflexivity].
      intros f Hf. apply Hd. eapply occ_incl. apply in_map_iff. exists (n, f). split; [reflexivity|exact Hf].
    - destruct (Z.eq_dec w b) as [->|Hwb].
      + apply in_split in Hin. destruct Hin as (S1 & S2 & ->).
        destruct (merge_step _ _ _ _ _ _ HI) as (ms' & E & H). exists ms'. eexists. split; [exact E|exact H].
      + destruct Hw as [Hw|[Hw1 Hw2]]; [contradiction|]. subst w.
        pose proof Hwf as (Hw1' & Hw2 & Hw3). destruct (chain_right _ _ _ _ _ _ (Hw2 _ _ Hin)) as (lf & rt & E1 & E2).
        cbn [fst snd] in E1, E2.
        unfold merge_node, node_at. rewrite E1. cbn [bind is_unlinked n_right is_none andb]. rewrite E2. cbn [bind n_val].
        rewrite Z.eqb_refl, orb_true_r, andb_true_r, (proj2 (Z.eqb_eq a b) Hw1).
        do 2 eexists. split; [reflexivity|]. eapply skip_step; [exact HI|exact E1| |reflexivity].
        intros g Hg. apply In_occ in Hg. destruct Hg as (k1 & m' & k2 & Hin'). cbn [fst snd] in Hin'.
        destruct (chain_right _ _ _ _ _ _ (Hw2 _ _ Hin')) as (lf' & rt' & E3 & E4). cbn [fst snd] in E3, E4.
        rewrite E1 in E3. injection E3 as _ <- _. rewrite E2 in E4. congruence.
  Qed.
End MergeNode.

(** ** The heap with pending corrections *)
Lemma dget_ddel {K V} (eqb : K -> K -> bool) (Heq : forall a b, eqb a b = true <-> a = b) k q (d : list (K * V)) :
  NoDup (dkeys d) -> dget eqb q (ddel eqb k d) = if eqb q k then None else dget eqb q d.
Proof.
  unfold dkeys. induction d as [|[k' v] d IH]; intros Hnd; cbn [ddel dget map fst] in *.
  - destruct (eqb q k); reflexivity.
  - inversion Hnd as [|? ? Hni Hnd']; subst. destruct (eqb k k') eqn:E.
    + apply Heq in E. subst k'. destruct (eqb q k) eqn:E2; [|reflexivity].
      apply Heq in E2. subst q. apply (dget_None eqb Heq). exact Hni.
    + cbn [dget]. rewrite IH by exact Hnd'. destruct (eqb q k') eqn:E2, (eqb q k) eqn:E3; try reflexivity.
      apply Heq in E2, E3. subst. rewrite (proj2 (Heq _ _) eq_refl) in E. discriminate.
Qed.
Lemma ddel_incl {K V} (eqb : K -> K -> bool) k (d : list (K * V)) : incl (dkeys (ddel eqb k d)) (dkeys d).
Proof.
  induction d as [|[k' v] d IH]; cbn [ddel dkeys map fst]; [apply incl_refl|]. destruct (eqb k k'); [apply incl_tl, incl_refl|].
  cbn [dkeys map fst]. apply incl_cons; [left; reflexivity|]. apply incl_tl, IH.
Qed.
Lemma NoDup_ddel {K V} (eqb : K -> K -> bool) k (d : list (K * V)) : NoDup (dkeys d) -> NoDup (dkeys (ddel eqb k d)).
Proof.
  induction d as [|[k' v] d IH]; cbn [ddel dkeys map fst]; intros H; [constructor|]. inversion H as [|? ? Hni Hnd]; subst.
  destruct (eqb k k'); [exact Hnd|]. cbn [dkeys map fst]. constructor; [|apply IH, Hnd]. intros Hin. apply Hni. eapply ddel_incl, Hin.
Qed.
Lemma ddel_length {K V} (eqb : K -> K -> bool) k v (d : list (K * V)) : dget eqb k d = Some v -> length d = S (length (ddel eqb k d)).
Proof.
  induction d as [|[k' v'] d IH]; cbn [dget ddel length]; intros H; [discriminate|]. destruct (eqb k k'); [reflexivity|].
  cbn [length]. rewrite (IH H). reflexivity.
Qed.

Definition in_range (k : Z) (p : Z * Z) : Prop := 0 <= fst p < k /\ 0 <= snd p < k.
Record hinv (cnt : Z * Z -> Z) (k : Z) (heap : list (Z * (Z * Z))) (dirty : list ((Z * Z) * Z)) (bag : list ((Z * Z) * Z)) : Prop := MkHinv {
  h_st : stores pair_ltb heap bag;
  h_nd : NoDup (map fst bag);
  h_dnd : NoDup (dkeys dirty);
  h_dneg : forall p d, dget pair_eqb p dirty = Some d -> d < 0;
  h_drange : forall p d, dget pair_eqb p dirty = Some d -> in_range k p;
  h_val : forall p v, In (p, v) bag -> v + dcount p dirty = cnt p;
  h_clean : forall p v, In (p, v) bag -> dget pair_eqb p dirty = None -> 0 < v;
  h_range : forall p v, In (p, v) bag -> in_range k p }.

Section PopClean.
  Context (cnt : Z * Z -> Z) (k : Z).
  Hypothesis cnt_nonneg : forall p, 0 <= cnt p.

  Lemma hinv_perm heap dirty bag bag' : hinv cnt k heap dirty bag -> Permutation bag bag' -> stores pair_ltb heap bag' -> hinv cnt k heap dirty bag'.
  Proof.
    intros [] Hp Hs. constructor; auto.
    - rewrite <- Hp. assumption.
    - intros p v H. apply h_val0. rewrite Hp. exact H.
    - intros p v H. apply (h_clean0 p v). rewrite Hp. exact H.
    - intros p v H. apply (h_range0 p v). rewrite Hp. exact H.
  Qed.

  Lemma pop_clean_spec fuel : forall heap dirty bag, (length dirty < fuel)%nat -> hinv cnt k heap dirty bag ->
    (forall p, ~ In p (map fst bag) -> cnt p = 0) ->
    (pop_clean fuel heap dirty = Raise IndexError /\ forall p, cnt p = 0) \/
    exists p v heap' dirty' bag', pop_clean fuel heap dirty = Ok (p, v, heap', dirty') /\ hinv cnt k heap' dirty' bag' /\
      cnt p = v /\ 0 < v /\ in_range k p /\ ~ In p (map fst bag') /\
      (forall q, q <> p -> ~ In q (map fst bag') -> cnt q = 0) /\
      (forall q, q <> p -> cnt q < v \/ (cnt q = v /\ pair_lt p q)).
  Proof.
    induction fuel as [|fuel IH]; intros heap dirty bag Hf HI Hall; [lia|]. cbn [pop_clean].
    assert (HI' := HI). destruct HI' as [Hst Hnd Hdnd Hdneg Hdr Hval Hcl Hr].
    destruct (mh_pop_spec pair_ltb pair_ltb_irrefl pair_ltb_trans pair_ltb_total heap bag Hst) as [[-> E]|(p & v & heap1 & rest & E & Hst1 & Hp & Hfirst)]; rewrite E; cbn [bind].
    - left. split; [reflexivity|]. intros p. apply Hall. intros [].
    - assert (Hinp : In (p, v) bag) by (rewrite Hp; left; reflexivity).
      assert (Hndr : NoDup (p :: map fst rest)) by (change (NoDup (map fst ((p, v) :: rest))); rewrite <- Hp; exact Hnd).
      inversion Hndr as [|? ? Hpr Hndr']; subst.
      assert (Hrest : forall q w, In (q, w) rest -> In (q, w) bag) by (intros q w H; rewrite Hp; right; exact H).
      assert (Hle : forall q w, In (q, w) bag -> cnt q <= w).
      { intros q w H. specialize (Hval q w H). unfold dget_def in Hval. destruct (dget pair_eqb q dirty) eqn:Ed; [|lia]. apply Hdneg in Ed. lia. }
      destruct (dget pair_eqb p dirty) as [u|] eqn:Ed.
      + (* a pending correction *)
        assert (Hu := Hdneg _ _ Ed). pose proof (Hval _ _ Hinp) as Hv. unfold dget_def in Hv. rewrite Ed in Hv.
        rewrite (proj2 (Z.ltb_lt u 0) Hu). cbn [assert_ bind]. pose proof (cnt_nonneg p) as Hc.
        rewrite Z.geb_leb, (proj2 (Z.leb_le 0 (v + u))) by lia. cbn [assert_ bind].
        assert (Hlen := ddel_length _ _ _ _ Ed).
        assert (HI1 : hinv cnt k heap1 (ddel pair_eqb p dirty) rest).
        { constructor; auto.
          - apply NoDup_ddel, Hdnd.
          - intros q d. rewrite (dget_ddel pair_eqb pair_eqb_eq) by exact Hdnd. destruct (pair_eqb q p); [discriminate|apply Hdneg].
          - intros q d. rewrite (dget_ddel pair_eqb pair_eqb_eq) by exact Hdnd. destruct (pair_eqb q p); [discriminate|apply Hdr].
          - intros q w H. unfold dget_def. rewrite (dget_ddel pair_eqb pair_eqb_eq) by exact Hdnd.
            destruct (pair_eqb q p) eqn:Eq.
            + apply pair_eqb_eq in Eq. subst q. exfalso. apply Hpr. apply in_map_iff. exists (p, w). auto.
            + apply (Hval q w). apply Hrest, H.
          - intros q w H. rewrite (dget_ddel pair_eqb pair_eqb_eq) by exact Hdnd.
            destruct (pair_eqb q p) eqn:Eq.
            + apply pair_eqb_eq in Eq. subst q. exfalso. apply Hpr. apply in_map_iff. exists (p, w). auto.
            + apply (Hcl q w). apply Hrest, H.
          - intros q w H. apply (Hr q w), Hrest, H. }
        assert (Hallr : forall q, q <> p -> ~ In q (map fst rest) -> cnt q = 0).
        { intros q Hq Hn. apply Hall. rewrite (Permutation_map fst Hp). cbn [map fst]. intros [H|H]; [congruence|contradiction]. }
        rewrite Z.gtb_ltb. destruct (Z.ltb_spec 0 (v + u)) as [Hc0|Hc0].
        * destruct (mh_push_spec pair_ltb pair_ltb_irrefl pair_ltb_trans pair_ltb_total heap1 rest p (v + u) Hst1) as (heap2 & E2 & Hst2).
          rewrite E2. cbn [bind]. apply (IH heap2 (ddel pair_eqb p dirty) ((p, v + u) :: rest)); [lia| |].
          -- destruct HI1 as [_ _ Hdnd1 Hdneg1 Hdr1 Hval1 Hcl1 Hr1].
             constructor; auto.
             ++ intros q w [H|H]; [|apply (Hval1 q w H)]. injection H as <- <-. unfold dget_def. rewrite (dget_ddel pair_eqb pair_eqb_eq) by exact Hdnd.
                rewrite pair_eqb_refl. lia.
             ++ intros q w [H|H]; [|apply (Hcl1 q w H)]. injection H as <- <-. intros _. exact Hc0.
             ++ intros q w [H|H]; [|apply (Hr1 q w H)]. injection H as <- <-. apply (Hr p v Hinp).
          -- intros q Hq. cbn [map fst In] in Hq. apply Hallr; [intros ->; apply Hq; left; reflexivity|]. intros H. apply Hq. right. exact H.
        * cbn [bind]. apply (IH heap1 (ddel pair_eqb p dirty) rest); [lia|exact HI1|].
          intros q Hq. destruct (pair_dec q p) as [->|Hqp]; [lia|]. apply Hallr; assumption.
      + (* clean *)
        right. exists p, v, heap1, dirty, rest. split; [reflexivity|].
        pose proof (Hval _ _ Hinp) as Hv. unfold dget_def in Hv. rewrite Ed in Hv.
        split; [|split; [lia|split; [apply (Hcl p v Hinp Ed)|split; [apply (Hr p v Hinp)|split; [exact Hpr|split]]]]].
        * constructor; try assumption.
          -- intros q w H. apply (Hval q w), Hrest, H.
          -- intros q w H. apply (Hcl q w), Hrest, H.
          -- intros q w H. apply (Hr q w), Hrest, H.
        * intros q Hq Hn. apply Hall. rewrite (Permutation_map fst Hp). cbn [map fst]. intros [H|H]; [congruence|contradiction].
        * intros q Hq. destruct (in_dec pair_dec q (map fst bag)) as [Hin|Hin].
          -- apply in_map_iff in Hin. destruct Hin as ([q' w] & E' & Hin). cbn [fst] in E'. subst q'.
             pose proof (Hle q w Hin) as Hw. destruct (Hfirst q w Hin) as [L|[-> [->|L]]]; [left; lia|congruence|].
             apply pair_ltb_lt in L. destruct (Z.eq_dec (cnt q) v); [right; auto|left; lia].
          -- rewrite (Hall q Hin). left. apply (Hcl p v Hinp Ed).
  Qed.

  (** pushing the deltas of a merge *)
  Lemma deltas_spec r ds : forall heap dirty bag,
    stores pair_ltb heap bag -> NoDup (map fst ds) -> NoDup (dkeys dirty) ->
    (forall p d, In (p, d) ds -> (0 < d -> fst p = r \/ snd p = r) /\ (d < 0 -> fst p <> r /\ snd p <> r)) ->
    exists heap' dirty', foldM (apply_delta r) ds (heap, dirty) = Ok (heap', dirty') /\
      stores pair_ltb heap' (filter (fun e => 0 <? snd e) ds ++ bag) /\ NoDup (dkeys dirty') /\
      (forall p, dget pair_eqb p dirty' =
         if dcount p ds <? 0 then Some (dcount p dirty + dcount p ds) else dget pair_eqb p dirty).
  Proof.
    induction ds as [|[p d] ds IH]; intros heap dirty bag Hst Hnd Hdnd Hds; cbn [foldM].
    - exists heap, dirty. split; [reflexivity|]. split; [exact Hst|]. split; [exact Hdnd|]. intros p. reflexivity.
    - cbn [map fst] in Hnd. inversion Hnd as [|? ? Hni Hnd']; subst.
      destruct (Hds p d (or_introl eq_refl)) as [Hd1 Hd2].
      assert (Hds' : forall q e, In (q, e) ds -> (0 < e -> fst q = r \/ snd q = r) /\ (e < 0 -> fst q <> r /\ snd q <> r))
        by (intros q e H; apply Hds; right; exact H).
      assert (Hc0 : dcount p ds = 0).
      { unfold dget_def. rewrite (proj2 (dget_None pair_eqb pair_eqb_eq p ds) Hni). reflexivity. }
      assert (Hcc : forall q, dcount q ((p, d) :: ds) = if pair_eqb q p then d else dcount q ds).
      { intros q. unfold dget_def. cbn [dget]. destruct (pair_eqb q p); reflexivity. }
      cbn [apply_delta]. rewrite Z.gtb_ltb. cbn [filter snd]. destruct (Z.ltb_spec 0 d) as [Hp|Hp].
      + assert (Er : (r =? fst p) || (r =? snd p) = true).
        { apply orb_true_iff. rewrite !Z.eqb_eq. destruct (Hd1 Hp); auto. }
        rewrite Er. cbn [assert_ bind].
        destruct (mh_push_spec pair_ltb pair_ltb_irrefl pair_ltb_trans pair_ltb_total heap bag p d Hst) as (heap1 & E1 & Hst1).
        rewrite E1. cbn [bind].
        destruct (IH heap1 dirty _ Hst1 Hnd' Hdnd Hds') as (heap' & dirty' & E & Hst' & Hdn & Hg).
        exists heap', dirty'. split; [exact E|]. split; [|split; [exact Hdn|]].
        * eapply stores_perm; [exact Hst'|]. cbn [app]. symmetry. apply Permutation_middle.
        * intros q. rewrite Hg, Hcc. destruct (pair_eqb q p) eqn:Eq; [|reflexivity].
          apply pair_eqb_eq in Eq. subst q. rewrite Hc0. destruct (Z.ltb_spec d 0); [lia|]. reflexivity.
      + destruct (Z.ltb_spec d 0) as [Hn|Hn].
        * assert (Er : (r =? fst p) || (r =? snd p) = false).
          { apply orb_false_iff. rewrite !Z.eqb_neq. destruct (Hd2 Hn); auto. }
          rewrite Er. cbn [negb assert_ bind].
          destruct (IH heap (dadd pair_eqb p d dirty) bag Hst Hnd') as (heap' & dirty' & E & Hst' & Hdn & Hg).
          { apply NoDup_dset; [apply pair_eqb_eq|exact Hdnd]. }
          { exact Hds'. }
          exists heap', dirty'. split; [exact E|]. split; [exact Hst'|split; [exact Hdn|]].
          intros q. rewrite Hg, Hcc, dcount_dadd. unfold dadd. rewrite (dget_dset pair_eqb pair_eqb_eq).
          destruct (pair_eqb q p) eqn:Eq.
          -- apply pair_eqb_eq in Eq. subst q. rewrite Hc0. cbn [Z.ltb Z.compare]. rewrite (proj2 (Z.ltb_lt d 0) Hn). reflexivity.
          -- destruct (dcount q ds <? 0); [|reflexivity]. f_equal. lia.
        * destruct (IH heap dirty bag Hst Hnd' Hdnd Hds') as (heap' & dirty' & E & Hst' & Hdn & Hg).
          exists heap', dirty'. split; [exact E|]. split; [exact Hst'|split; [exact Hdn|]].
          intros q. rewrite Hg, Hcc. destruct (pair_eqb q p) eqn:Eq; [|reflexivity].
          apply pair_eqb_eq in Eq. subst q. rewrite Hc0. destruct (Z.ltb_spec d 0); [lia|]. reflexivity.
  Qed.
End PopClean.
