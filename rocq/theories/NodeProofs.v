(** Comparing, printing and deleting nodes of doubly linked lists. *)
From Coq Require Import Strings.String.
From Verif Require Import Py PyLemmas PyStr StrSpec PyStrProofs HeapModel LearnBpeModel NodeModel NodeSpec.
Local Open Scope Z_scope.
Local Open Scope list_scope.

(** ** comparing *)
Lemma linked_at st ids k i : linked st ids -> nth_error ids k = Some i ->
  exists n, nth_error st i = Some n /\ content st ids k = Some (n_val n, n_freq n) /\
    n_left n = match k with O => None | S k' => nth_error ids k' end /\ n_right n = nth_error ids (S k).
Proof.
  intros [_ H] E. destruct (H k i E) as (n & H1 & H2 & H3). exists n. split; [exact H1|]. split; [|split; assumption].
  unfold content. rewrite E, H1. reflexivity.
Qed.
Lemma pair_differs (a b : Z * Z) : (snd a = snd b /\ fst a = fst b) \/ ((fst b =? fst a) = false \/ (snd b =? snd a) = false).
Proof. destruct (Z.eqb_spec (fst b) (fst a)), (Z.eqb_spec (snd b) (snd a)); auto. Qed.
Section Compare.
  Variables (st : list lnode) (xs ys : list nat).
  Hypotheses (Lx : linked st xs) (Ly : linked st ys).
  (** one call of __eq__, the nodes known *)
  Lemma eq_step n p q a b : nth_error xs p = Some a -> nth_error ys q = Some b ->
    (content st xs p <> content st ys q -> node_eq (S n) st a b = Ok false /\ node_eq (S n) st b a = Ok false) /\
    (content st xs p = content st ys q ->
       forall s o, nth_error st a = Some s -> nth_error st b = Some o ->
       let opt_eq x y := match x, y with None, None => Ok true | Some i, Some j => node_eq n st i j | _, _ => Raise AttributeError end in
       node_eq (S n) st a b = (let* l := opt_eq (n_left o) (n_left s) in if negb l then Ok false else opt_eq (n_right o) (n_right s))%res /\
       node_eq (S n) st b a = (let* l := opt_eq (n_left s) (n_left o) in if negb l then Ok false else opt_eq (n_right s) (n_right o))%res).
  Proof.
    intros Ha Hb. destruct (linked_at st xs p a Lx Ha) as (s & Hs & Cs & _). destruct (linked_at st ys q b Ly Hb) as (o & Ho & Co & _).
    rewrite Cs, Co. split.
    - intros Hne. cbn [node_eq]. unfold node_at. rewrite Hs, Ho. cbn [bind]. rewrite (Z.eqb_sym (n_val s)), (Z.eqb_sym (n_freq s)).
      destruct (Z.eqb_spec (n_val o) (n_val s)) as [E1|E1]; cbn [negb]; [|split; reflexivity].
      destruct (Z.eqb_spec (n_freq o) (n_freq s)) as [E2|E2]; cbn [negb]; [|split; reflexivity]. exfalso. apply Hne. congruence.
    - intros E s' o' Hs' Ho'. assert (s' = s) by congruence. assert (o' = o) by congruence. subst s' o'. injection E as E1 E2.
      cbn [node_eq]. unfold node_at. rewrite Hs, Ho. cbn [bind]. rewrite E1, E2, !Z.eqb_refl. cbn [negb]. split; reflexivity.
  Qed.
End Compare.

(** both orders at once, since the roles swap in each call *)
Lemma eq_false st m : forall p q xs ys a b t n, linked st xs -> linked st ys -> nth_error xs p = Some a -> nth_error ys q = Some b ->
  m = Nat.min p q -> (t <= m)%nat -> content st xs (p - t) <> content st ys (q - t) -> (m < n)%nat -> node_eq n st a b = Ok false.
Proof.
  induction m as [|m IH]; intros p q xs ys a b t n Lx Ly Ha Hb Em Ht Hd Hn; (destruct n as [|n]; [lia|]).
  - assert (t = 0%nat) by lia. subst t. rewrite !Nat.sub_0_r in Hd. exact (proj1 (proj1 (eq_step st xs ys Lx Ly n p q a b Ha Hb) Hd)).
  - destruct (linked_at st xs p a Lx Ha) as (s & Hs & Cs & Ls & Rs). destruct (linked_at st ys q b Ly Hb) as (o & Ho & Co & Lo & Ro).
    destruct (eq_step st xs ys Lx Ly n p q a b Ha Hb) as [S1 S2].
    assert (Hdec : content st xs p = content st ys q \/ content st xs p <> content st ys q).
    { rewrite Cs, Co. destruct (pair_differs (n_val s, n_freq s) (n_val o, n_freq o)) as [[E1 E2]|[E|E]]; cbn in *; [left; congruence|right|right]; intros G; injection G as G1 G2; rewrite ?G1, ?G2, Z.eqb_refl in E; discriminate. }
    destruct Hdec as [E|E]; [|exact (proj1 (S1 E))].
    destruct t as [|t]; [exfalso; apply Hd; rewrite !Nat.sub_0_r; exact E|].
    destruct p as [|p]; [lia|]. destruct q as [|q]; [lia|].
    rewrite (proj1 (S2 E s o Hs Ho)), Ls, Lo.
    assert (Hx : exists a', nth_error xs p = Some a') by (destruct (nth_error xs p) eqn:En; [eauto|apply nth_error_None in En; assert (nth_error xs (S p) <> None) by congruence; apply nth_error_Some in H; lia]).
    assert (Hy : exists b', nth_error ys q = Some b') by (destruct (nth_error ys q) eqn:En; [eauto|apply nth_error_None in En; assert (nth_error ys (S q) <> None) by congruence; apply nth_error_Some in H; lia]).
    destruct Hx as (a' & Ha'). destruct Hy as (b' & Hb'). rewrite Ha', Hb'.
    rewrite (IH q p ys xs b' a' t n Ly Lx Hb' Ha' ltac:(lia) ltac:(lia)); [reflexivity| |lia].
    intros G. apply Hd. replace (S p - S t)%nat with (p - t)%nat by lia. replace (S q - S t)%nat with (q - t)%nat by lia. congruence.
Qed.
Lemma eq_attr st m : forall p q xs ys a b n, linked st xs -> linked st ys -> nth_error xs p = Some a -> nth_error ys q = Some b ->
  m = Nat.min p q -> p <> q -> (forall t, (t <= m)%nat -> content st xs (p - t) = content st ys (q - t)) -> (m < n)%nat -> node_eq n st a b = Raise AttributeError.
Proof.
  induction m as [|m IH]; intros p q xs ys a b n Lx Ly Ha Hb Em Hpq Hs Hn; (destruct n as [|n]; [lia|]);
    destruct (linked_at st xs p a Lx Ha) as (s & Hs1 & Cs & Ls & Rs); destruct (linked_at st ys q b Ly Hb) as (o & Ho & Co & Lo & Ro);
    pose proof (Hs 0%nat ltac:(lia)) as E; rewrite !Nat.sub_0_r in E; destruct (eq_step st xs ys Lx Ly n p q a b Ha Hb) as [_ S2];
    rewrite (proj1 (S2 E s o Hs1 Ho)), Ls, Lo.
  - destruct p as [|p], q as [|q]; try lia.
    + destruct (nth_error ys q) eqn:En; [reflexivity|]. apply nth_error_None in En. assert (nth_error ys (S q) <> None) by congruence. apply nth_error_Some in H. lia.
    + destruct (nth_error xs p) eqn:En; [reflexivity|]. apply nth_error_None in En. assert (nth_error xs (S p) <> None) by congruence. apply nth_error_Some in H. lia.
  - destruct p as [|p]; [lia|]. destruct q as [|q]; [lia|].
    assert (Hx : exists a', nth_error xs p = Some a') by (destruct (nth_error xs p) eqn:En; [eauto|apply nth_error_None in En; assert (nth_error xs (S p) <> None) by congruence; apply nth_error_Some in H; lia]).
    assert (Hy : exists b', nth_error ys q = Some b') by (destruct (nth_error ys q) eqn:En; [eauto|apply nth_error_None in En; assert (nth_error ys (S q) <> None) by congruence; apply nth_error_Some in H; lia]).
    destruct Hx as (a' & Ha'). destruct Hy as (b' & Hb'). rewrite Ha', Hb'.
    rewrite (IH q p ys xs b' a' n Ly Lx Hb' Ha' ltac:(lia) ltac:(lia)); [reflexivity| |lia].
    intros t Ht. specialize (Hs (S t) ltac:(lia)). symmetry. exact Hs.
Qed.
Lemma eq_deep st n : forall k m xs ys a b, linked st xs -> linked st ys -> nth_error xs k = Some a -> nth_error ys k = Some b ->
  (k <= m)%nat -> (1 <= m)%nat -> (m < length xs)%nat -> (m < length ys)%nat ->
  (forall t, (t <= m)%nat -> content st xs t = content st ys t) -> node_eq n st a b = Raise OtherError.
Proof.
  induction n as [|n IH]; intros k m xs ys a b Lx Ly Ha Hb Hk Hm Hxl Hyl Hs; [reflexivity|].
  destruct (linked_at st xs k a Lx Ha) as (s & Hs1 & Cs & Ls & Rs); destruct (linked_at st ys k b Ly Hb) as (o & Ho & Co & Lo & Ro).
  destruct (eq_step st xs ys Lx Ly n k k a b Ha Hb) as [_ S2]. rewrite (proj1 (S2 (Hs k Hk) s o Hs1 Ho)), Ls, Lo, Rs, Ro.
  assert (Hex : forall j, (j <= m)%nat -> exists a' b', nth_error xs j = Some a' /\ nth_error ys j = Some b').
  { intros j Hj. destruct (nth_error xs j) as [a'|] eqn:E1; [|apply nth_error_None in E1; lia]. destruct (nth_error ys j) as [b'|] eqn:E2; [|apply nth_error_None in E2; lia]. exists a', b'. auto. }
  destruct k as [|k].
  - cbn [bind negb]. destruct (Hex 1%nat Hm) as (a' & b' & Ha' & Hb'). rewrite Ha', Hb'.
    apply (IH 1%nat m ys xs b' a' Ly Lx Hb' Ha' Hm Hm Hyl Hxl). intros t Ht. symmetry. apply Hs, Ht.
  - destruct (Hex k ltac:(lia)) as (a' & b' & Ha' & Hb'). rewrite Ha', Hb'.
    rewrite (IH k m ys xs b' a' Ly Lx Hb' Ha' ltac:(lia) Hm Hyl Hxl); [reflexivity|]. intros t Ht. symmetry. apply Hs, Ht.
Qed.
Theorem compare_exact st xs ys p q a b : linked st xs -> linked st ys -> nth_error xs p = Some a -> nth_error ys q = Some b ->
  ((exists t, (t <= Nat.min p q)%nat /\ content st xs (p - t) <> content st ys (q - t)) ->
     forall n, (Nat.min p q < n)%nat -> node_eq n st a b = Ok false) /\
  ((forall t, (t <= Nat.min p q)%nat -> content st xs (p - t) = content st ys (q - t)) ->
     (p <> q -> forall n, (Nat.min p q < n)%nat -> node_eq n st a b = Raise AttributeError) /\
     (p = q -> length xs = 1%nat -> length ys = 1%nat -> forall n, (0 < n)%nat -> node_eq n st a b = Ok true) /\
     (p = q -> length xs = 1%nat \/ length ys = 1%nat -> length xs <> length ys -> forall n, (0 < n)%nat -> node_eq n st a b = Raise AttributeError) /\
     (p = q -> (1 < length xs)%nat -> (1 < length ys)%nat ->
        (p = 0%nat /\ content st xs 1 <> content st ys 1 -> forall n, (1 < n)%nat -> node_eq n st a b = Ok false) /\
        (p <> 0%nat \/ content st xs 1 = content st ys 1 -> forall n, node_eq n st a b = Raise OtherError))).
Proof.
  intros Lx Ly Ha Hb.
  assert (Hp : (p < length xs)%nat) by (apply nth_error_Some; congruence). assert (Hq : (q < length ys)%nat) by (apply nth_error_Some; congruence).
  split; [intros (t & Ht & Hd) n Hn; exact (eq_false st _ p q xs ys a b t n Lx Ly Ha Hb eq_refl Ht Hd Hn)|].
  intros Hs. split; [intros Hpq n Hn; exact (eq_attr st _ p q xs ys a b n Lx Ly Ha Hb eq_refl Hpq Hs Hn)|].
  assert (Hstep : forall n, p = q -> p = 0%nat -> node_eq (S n) st a b = match nth_error ys 1, nth_error xs 1 with None, None => Ok true | Some i, Some j => node_eq n st i j | _, _ => Raise AttributeError end).
  { intros n -> ->. destruct (linked_at st xs 0 a Lx Ha) as (s & Hs1 & Cs & Ls & Rs); destruct (linked_at st ys 0 b Ly Hb) as (o & Ho & Co & Lo & Ro).
    destruct (eq_step st xs ys Lx Ly n 0 0 a b Ha Hb) as [_ S2]. rewrite (proj1 (S2 (Hs 0%nat (Nat.le_0_l _)) s o Hs1 Ho)), Ls, Lo, Rs, Ro. reflexivity. }
  split; [|split].
  - intros Epq Lx1 Ly1 n Hn. destruct n as [|n]; [lia|]. rewrite (Hstep n Epq ltac:(lia)).
    rewrite (proj2 (nth_error_None xs 1) ltac:(lia)), (proj2 (nth_error_None ys 1) ltac:(lia)). reflexivity.
  - intros Epq L1 Lne n Hn. destruct n as [|n]; [lia|]. rewrite (Hstep n Epq ltac:(lia)).
    destruct (nth_error xs 1) eqn:E1, (nth_error ys 1) eqn:E2; try reflexivity; exfalso.
    + assert (nth_error xs 1 <> None) by congruence. assert (nth_error ys 1 <> None) by congruence. apply nth_error_Some in H, H0. lia.
    + apply nth_error_None in E1, E2. lia.
  - intros Epq Lx1 Ly1. subst q. split.
    + intros [Ep Hd] n Hn. destruct n as [|[|n]]; try lia. rewrite (Hstep (S n) eq_refl Ep).
      destruct (nth_error xs 1) as [a'|] eqn:E1; [|apply nth_error_None in E1; lia]. destruct (nth_error ys 1) as [b'|] eqn:E2; [|apply nth_error_None in E2; lia].
      destruct (eq_step st xs ys Lx Ly n 1 1 a' b' E1 E2) as [S1 _]. exact (proj2 (S1 Hd)).
    + intros Hor n. assert (Hall : forall t, (t <= Nat.max p 1)%nat -> content st xs t = content st ys t).
      { intros t Ht. destruct (Nat.le_gt_cases t p) as [Hle|Hgt].
        - specialize (Hs (p - t)%nat ltac:(lia)). replace (p - (p - t))%nat with t in Hs by lia. exact Hs.
        - assert (p = 0%nat /\ t = 1%nat) as [-> ->] by lia. destruct Hor; [lia|assumption]. }
      apply (eq_deep st n p (Nat.max p 1) xs ys a b Lx Ly Ha Hb); try lia; exact Hall.
Qed.

(** ** printing *)
Lemma vals_nth st ids vs k i : has_vals st ids vs -> nth_error ids k = Some i -> exists v, nth_error vs k = Some v /\ option_map n_val (nth_error st i) = Some v.
Proof.
  intros H. revert k. induction H as [|j v ids vs Hv _ IH]; intros [|k] E; try discriminate; cbn in *.
  - injection E as <-. exists v. auto.
  - apply IH, E.
Qed.
Lemma vals_len st ids vs : has_vals st ids vs -> length ids = length vs.
Proof. induction 1; cbn; congruence. Qed.
Lemma skipn_nth {A} (l : list A) k x : nth_error l k = Some x -> skipn k l = x :: skipn (S k) l.
Proof. revert k. induction l as [|y l IH]; intros [|k] E; try discriminate; cbn in *; [injection E as <-; reflexivity|apply IH, E]. Qed.
Lemma firstn_nth {A} (l : list A) k x : nth_error l k = Some x -> firstn (S k) l = firstn k l ++ [x].
Proof. revert k. induction l as [|y l IH]; intros [|k] E; try discriminate; cbn in *; [injection E as <-; reflexivity|f_equal; apply IH, E]. Qed.
Lemma follow_right st ids vs : linked st ids -> has_vals st ids vs -> forall fuel k, (length ids - k < fuel)%nat ->
  follow fuel n_right st (nth_error ids k) = Ok (map str_of_Z (skipn k vs)).
Proof.
  intros L V. induction fuel as [|fuel IH]; intros k Hf; [lia|]. cbn [follow]. destruct (nth_error ids k) as [i|] eqn:E.
  - destruct (linked_at st ids k i L E) as (n & Hn & _ & _ & Hr). unfold node_at. rewrite Hn. cbn [bind]. rewrite Hr, IH.
    + cbn [bind]. destruct (vals_nth st ids vs k i V E) as (v & Hv & Hv'). rewrite (skipn_nth vs k v Hv). rewrite Hn in Hv'. injection Hv' as ->. reflexivity.
    + assert (nth_error ids k <> None) by congruence. apply nth_error_Some in H. lia.
  - apply nth_error_None in E. rewrite skipn_all2; [reflexivity|]. rewrite <- (vals_len st ids vs V). exact E.
Qed.
Lemma follow_left st ids vs : linked st ids -> has_vals st ids vs -> forall k fuel, (k < fuel)%nat -> (k <= length ids)%nat ->
  follow fuel n_left st (match k with O => None | S k' => nth_error ids k' end) = Ok (rev (map str_of_Z (firstn k vs))).
Proof.
  intros L V. induction k as [|k IH]; intros fuel Hf Hk; (destruct fuel as [|fuel]; [lia|]); [reflexivity|].
  cbn [follow]. destruct (nth_error ids k) as [i|] eqn:E; [|apply nth_error_None in E; lia].
  destruct (linked_at st ids k i L E) as (n & Hn & _ & Hl & _). unfold node_at. rewrite Hn. cbn [bind]. rewrite Hl, IH by lia. cbn [bind].
  destruct (vals_nth st ids vs k i V E) as (v & Hv & Hv'). rewrite Hn in Hv'. injection Hv' as ->. rewrite (firstn_nth vs k v Hv), map_app, rev_app_distr. reflexivity.
Qed.
Lemma linked_short st ids : linked st ids -> (length ids <= length st)%nat.
Proof.
  intros [Hn H]. rewrite <- (seq_length (length st) 0). apply NoDup_incl_length; [exact Hn|]. intros i Hi. apply In_nth_error in Hi. destruct Hi as (k & Hk).
  destruct (H k i Hk) as (n & Hs & _). apply in_seq. split; [lia|]. apply nth_error_Some. congruence.
Qed.
Theorem repr_exact st ids l v r i : linked st ids -> has_vals st ids (l ++ v :: r) -> nth_error ids (length l) = Some i ->
  node_repr st i = Ok (spaced SPACE (map str_of_Z l) ++ lit " *" ++ str_of_Z v ++ lit "* " ++ spaced SPACE (map str_of_Z r)).
Proof.
  intros L V E. pose proof (linked_short st ids L) as Hsh. destruct (linked_at st ids (length l) i L E) as (n & Hn & _ & Hl & Hr).
  unfold node_repr, node_at. rewrite Hn. cbn [bind]. rewrite Hl, Hr. assert (Hk : (length l < length ids)%nat) by (apply nth_error_Some; congruence).
  rewrite (follow_left st ids _ L V (length l)) by lia. cbn [bind]. rewrite (follow_right st ids _ L V) by lia. cbn [bind].
  rewrite firstn_app, firstn_all, Nat.sub_diag, firstn_O, app_nil_r, rev_involutive.
  rewrite skipn_app, skipn_all2 by lia. replace (S (length l) - length l)%nat with 1%nat by lia. cbn [skipn app].
  destruct (vals_nth st ids _ _ i V E) as (w & Hw & Hw'). rewrite nth_error_app2, Nat.sub_diag in Hw by lia. cbn in Hw. injection Hw as <-.
  rewrite Hn in Hw'. injection Hw' as ->. rewrite !join_spaced. rewrite <- !app_assoc. reflexivity.
Qed.

(** ** building and deleting *)
Lemma from_seq_nth base s f k v : nth_error s k = Some v ->
  nth_error (from_seq base s f) k = Some (MkNode v (if (0 <? k)%nat then Some (base + k - 1)%nat else None)
     (if (k + 1 <? length s)%nat then Some (base + k + 1)%nat else None) f).
Proof.
  intros H. unfold from_seq, enumerate. rewrite nth_error_map.
  assert (G : forall z (l : list Z) k v, nth_error l k = Some v -> nth_error (enum_from z l) k = Some (z + Z.of_nat k, v)).
  { clear. intros z l. revert z. induction l as [|x l IH]; intros z [|k] v E; try discriminate; cbn [enum_from nth_error] in *.
    - injection E as <-. f_equal. f_equal. lia.
    - rewrite (IH (z + 1) k v E). f_equal. f_equal. lia. }
  rewrite (G 0 s k v H). cbn [option_map fst snd]. replace (Z.to_nat (0 + Z.of_nat k)) with k by lia. reflexivity.
Qed.
Lemma seq_nth_error b n k : (k < n)%nat -> nth_error (seq b n) k = Some (b + k)%nat.
Proof. intros H. rewrite (nth_error_nth' _ 0%nat) by (rewrite seq_length; exact H). rewrite seq_nth by exact H. reflexivity. Qed.
Theorem from_seq_linked st s f : linked (st ++ from_seq (length st) s f) (seq (length st) (length s)) /\
  has_vals (st ++ from_seq (length st) s f) (seq (length st) (length s)) s /\
  (forall k, (k < length s)%nat -> exists v, content (st ++ from_seq (length st) s f) (seq (length st) (length s)) k = Some (v, f)) /\
  (forall ids, linked st ids -> linked (st ++ from_seq (length st) s f) ids).
Proof.
  assert (At : forall k v, nth_error s k = Some v -> nth_error (st ++ from_seq (length st) s f) (length st + k) =
     Some (MkNode v (if (0 <? k)%nat then Some (length st + k - 1)%nat else None) (if (k + 1 <? length s)%nat then Some (length st + k + 1)%nat else None) f)).
  { intros k v E. rewrite nth_error_app2 by lia. replace (length st + k - length st)%nat with k by lia. apply from_seq_nth, E. }
  split; [|split; [|split]].
  - split; [apply seq_NoDup|]. intros k i E. assert (Hk : (k < length s)%nat) by (rewrite <- (seq_length (length s) (length st)); apply nth_error_Some; congruence).
    rewrite seq_nth_error in E by exact Hk. injection E as <-. destruct (nth_error s k) as [v|] eqn:Ev; [|apply nth_error_None in Ev; lia].
    eexists. split; [apply At, Ev|]. cbn [n_left n_right]. split.
    + destruct k as [|k]; [reflexivity|]. cbn [Nat.ltb Nat.leb]. rewrite seq_nth_error by lia. f_equal. lia.
    + destruct (Nat.ltb_spec (k + 1) (length s)); [rewrite seq_nth_error by lia; f_equal; lia|]. symmetry. apply nth_error_None. rewrite seq_length. lia.
  - unfold has_vals. assert (G : forall n, (n <= length s)%nat -> Forall2 (fun i v => option_map n_val (nth_error (st ++ from_seq (length st) s f) i) = Some v) (seq (length st + n) (length s - n)) (skipn n s)).
    { intros n. remember (length s - n)%nat as d eqn:Ed. revert n Ed. induction d as [|d IH]; intros n Ed Hn.
      - rewrite skipn_all2 by lia. constructor.
      - destruct (nth_error s n) as [v|] eqn:Ev; [|apply nth_error_None in Ev; lia]. rewrite (skipn_nth s n v Ev). cbn [seq]. constructor.
        + rewrite (At n v Ev). reflexivity.
        + replace (S (length st + n)) with (length st + S n)%nat by lia. apply IH; lia. }
    specialize (G 0%nat (Nat.le_0_l _)). rewrite Nat.add_0_r, Nat.sub_0_r in G. exact G.
  - intros k Hk. destruct (nth_error s k) as [v|] eqn:Ev; [|apply nth_error_None in Ev; lia]. exists v. unfold content. rewrite seq_nth_error by exact Hk. rewrite (At k v Ev). reflexivity.
  - intros ids [H1 H2]. split; [exact H1|]. intros k i Hk. destruct (H2 k i Hk) as (n & Hn & H3). exists n. split; [|exact H3]. rewrite nth_error_app1; [exact Hn|]. apply nth_error_Some. congruence.
Qed.

Definition keeps (st st' : list lnode) : Prop := forall j, option_map (fun n => (n_val n, n_freq n)) (nth_error st' j) = option_map (fun n => (n_val n, n_freq n)) (nth_error st j).
Lemma set_nth_at {A} (i j : nat) (x : A) l : (i < length l)%nat -> nth_error (set_nth i x l) j = if Nat.eqb i j then Some x else nth_error l j.
Proof.
  revert i j. induction l as [|y l IH]; intros i j Hi; [cbn in Hi; lia|]. destruct i as [|i], j as [|j]; cbn; try reflexivity. rewrite IH by (cbn in Hi; lia). reflexivity.
Qed.
Lemma upd_at i f st j : nth_error (upd i f st) j = if Nat.eqb i j then option_map f (nth_error st j) else nth_error st j.
Proof.
  unfold upd. destruct (nth_error st i) as [n|] eqn:E.
  - rewrite set_nth_at by (apply nth_error_Some; congruence). destruct (Nat.eqb_spec i j) as [->|]; [rewrite E; reflexivity|reflexivity].
  - destruct (Nat.eqb_spec i j) as [->|]; [rewrite E; reflexivity|reflexivity].
Qed.
Definition is_name (o : option nat) (j : nat) : bool := match o with Some i => Nat.eqb i j | None => false end.
Lemma upd_opt_at o f st j : nth_error (upd_opt o f st) j = if is_name o j then option_map f (nth_error st j) else nth_error st j.
Proof. destruct o as [i|]; [apply upd_at|reflexivity]. Qed.
(** the node j after deleting i *)
Definition after (i : nat) (x y : option nat) (j : nat) (n : lnode) : lnode :=
  if Nat.eqb i j then MkNode (n_val n) None None (n_freq n)
  else MkNode (n_val n) (if is_name y j then x else n_left n) (if is_name x j then y else n_right n) (n_freq n).
Lemma delete_at st i self st' : nth_error st i = Some self -> delete i st = Ok st' ->
  forall j, nth_error st' j = option_map (after i (n_left self) (n_right self) j) (nth_error st j).
Proof.
  intros Hs H j. unfold delete, node_at in H. rewrite Hs in H. cbn [bind] in H. injection H as <-. rewrite upd_at, !upd_opt_at.
  unfold after. destruct (nth_error st j) as [n|]; [|destruct (Nat.eqb i j), (is_name _ j), (is_name _ j); reflexivity].
  destruct (Nat.eqb i j), (is_name (n_right self) j), (is_name (n_left self) j); cbn; destruct n; reflexivity.
Qed.
Lemma nodup_nth {A} (l : list A) a b x : NoDup l -> nth_error l a = Some x -> nth_error l b = Some x -> a = b.
Proof. intros H Ha Hb. apply (proj1 (NoDup_nth_error l) H); [apply nth_error_Some; congruence|congruence]. Qed.
Theorem delete_linked st l i r : linked st (l ++ i :: r) ->
  exists st', delete i st = Ok st' /\ linked st' (l ++ r) /\ linked st' [i] /\ keeps st st' /\
    (forall ids, linked st ids -> (forall j, In j ids -> ~ In j (l ++ i :: r)) -> linked st' ids).
Proof.
  intros L. assert (Hi : nth_error (l ++ i :: r) (length l) = Some i) by (rewrite nth_error_app2, Nat.sub_diag by lia; reflexivity).
  destruct (linked_at st _ _ i L Hi) as (self & Hs & _ & Hleft & Hright). destruct L as [Hnd L].
  assert (Hd : exists st', delete i st = Ok st') by (unfold delete, node_at; rewrite Hs; cbn [bind]; eauto). destruct Hd as (st' & Hd). exists st'. split; [exact Hd|].
  pose proof (delete_at st i self st' Hs Hd) as At. clear Hd.
  (* the neighbours *)
  assert (Nl : forall j, is_name (n_left self) j = true <-> exists k, length l = S k /\ nth_error l k = Some j).
  { intros j. rewrite Hleft. destruct (length l) as [|k] eqn:El; cbn [is_name].
    - split; [discriminate|intros (k & E & _); discriminate].
    - rewrite nth_error_app1 by lia. destruct (nth_error l k) as [x|] eqn:E; cbn [is_name]; [|apply nth_error_None in E; lia].
      rewrite Nat.eqb_eq. split; [intros ->; eauto|]. intros (k' & E1 & E2). assert (k' = k) by lia. subst k'. congruence. }
  assert (Nr : forall j, is_name (n_right self) j = true <-> nth_error r 0 = Some j).
  { intros j. rewrite Hright. rewrite nth_error_app2 by lia. replace (S (length l) - length l)%nat with 1%nat by lia. cbn [nth_error].
    destruct r as [|x r']; cbn [is_name]; [split; discriminate|rewrite Nat.eqb_eq; split; congruence]. }
  split; [|split; [|split]].
  - split; [eapply NoDup_remove_1, Hnd|]. intros k j Hk.
    assert (Hne : i <> j) by (intros ->; apply nth_error_In in Hk; exact (NoDup_remove_2 _ _ _ Hnd Hk)).
    assert (Hk' : nth_error (l ++ i :: r) (if (k <? length l)%nat then k else S k) = Some j).
    { destruct (Nat.ltb_spec k (length l)); [rewrite nth_error_app1 in * by lia; exact Hk|].
      rewrite nth_error_app2 in Hk by lia. rewrite nth_error_app2 by lia. replace (S k - length l)%nat with (S (k - length l)) by lia. exact Hk. }
    destruct (L _ j Hk') as (n & Hn & Hnl & Hnr). eexists. split; [rewrite At, Hn; reflexivity|].
    unfold after. destruct (Nat.eqb_spec i j); [contradiction|]. cbn [n_left n_right].
    assert (Bl : is_name (n_left self) j = true <-> S k = length l).
    { rewrite Nl. split.
      - intros (k' & E1 & E2). assert (k = k'); [|lia]. apply (nodup_nth (l ++ r) k k' j); [eapply NoDup_remove_1, Hnd|exact Hk|rewrite nth_error_app1 by lia; exact E2].
      - intros E. exists k. split; [lia|]. rewrite nth_error_app1 in Hk by lia. exact Hk. }
    assert (Br : is_name (n_right self) j = true <-> k = length l).
    { rewrite Nr. split.
      - intros E. apply (nodup_nth (l ++ r) k (length l) j); [eapply NoDup_remove_1, Hnd|exact Hk|rewrite nth_error_app2, Nat.sub_diag by lia; exact E].
      - intros ->. rewrite nth_error_app2, Nat.sub_diag in Hk by lia. exact Hk. }
    split.
    + destruct (is_name (n_right self) j) eqn:E.
      * assert (k = length l) by (apply Br; reflexivity). rewrite Hleft. subst k. destruct (length l) as [|k'] eqn:El; [reflexivity|]. rewrite !nth_error_app1 by lia. reflexivity.
      * assert (k <> length l) by (intros G; apply Br in G; congruence). rewrite Hnl. destruct (Nat.ltb_spec k (length l)).
        -- destruct k as [|k]; [reflexivity|]. rewrite !nth_error_app1 by lia. reflexivity.
        -- destruct k as [|k]; [lia|]. rewrite !nth_error_app2 by lia. replace (S k - length l)%nat with (S (k - length l)) by lia. reflexivity.
    + destruct (is_name (n_left self) j) eqn:E.
      * assert (S k = length l) by (apply Bl; reflexivity). rewrite Hright. rewrite !nth_error_app2 by lia. replace (S (length l) - length l)%nat with 1%nat by lia. replace (S k - length l)%nat with 0%nat by lia. reflexivity.
      * assert (S k <> length l) by (intros G; apply Bl in G; congruence). rewrite Hnr. destruct (Nat.ltb_spec k (length l)).
        -- rewrite !nth_error_app1 by lia. reflexivity.
        -- rewrite !nth_error_app2 by lia. replace (S (S k) - length l)%nat with (S (S k - length l)) by lia. reflexivity.
  - split; [constructor; [intros []|constructor]|]. intros [|k] j Hk; cbn in Hk; [|destruct k; discriminate]. injection Hk as <-.
    eexists. split; [rewrite At, Hs; reflexivity|]. unfold after. rewrite Nat.eqb_refl. split; reflexivity.
  - intros j. rewrite At. destruct (nth_error st j) as [n|]; [|reflexivity]. cbn [option_map]. unfold after. destruct (Nat.eqb i j); reflexivity.
  - intros ids [Hn2 L2] Hdis. split; [exact Hn2|]. intros k j Hk. destruct (L2 k j Hk) as (n & Hn & H1 & H2). pose proof (Hdis j (nth_error_In _ _ Hk)) as Hj.
    exists n. split; [|split; assumption]. rewrite At, Hn. cbn [option_map]. unfold after. destruct (Nat.eqb_spec i j) as [->|]; [exfalso; apply Hj, in_app_iff; right; left; reflexivity|].
    destruct (is_name (n_right self) j) eqn:E1; [exfalso; apply Nr in E1; apply Hj, in_app_iff; right; right; eapply nth_error_In, E1|].
    destruct (is_name (n_left self) j) eqn:E2; [exfalso; apply Nl in E2; destruct E2 as (k' & _ & E2); apply Hj, in_app_iff; left; eapply nth_error_In, E2|].
    destruct n; reflexivity.
Qed.
