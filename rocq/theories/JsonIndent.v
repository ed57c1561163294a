(** json.dumps with indentation: loads reads it back, and refuses every proper prefix of it. *)
From Coq Require Import Strings.String.
From Verif Require Import Py PyStr PyLemmas PyStrProofs Utf8Model NumProofs JsonModel JsonProofs.
Local Open Scope N_scope.
Local Open Scope list_scope.

Definition ind_member (lvl : nat) (kv : str * json) : str := dump_str (fst kv) ++ COLON_SP ++ dumps_ind lvl (snd kv).
Lemma dumps_ind_obj lvl kv m : dumps_ind lvl (JObj (kv :: m)) =
  [123] ++ nl (S lvl) ++ join (44 :: nl (S lvl)) (map (ind_member (S lvl)) (kv :: m)) ++ nl lvl ++ [125].
Proof.
  destruct kv as [k v]. unfold ind_member. cbn [dumps_ind]. do 5 f_equal. 
  cbn [map fst snd]. f_equal. induction m as [|[k' v'] m IH]; [reflexivity|]. cbn [map fst snd]. rewrite <- IH. reflexivity.
Qed.
Lemma skip_nl lvl c r : json_ws c = false -> skip_ws (nl lvl ++ c :: r) = c :: r.
Proof.
  intros H. unfold nl. cbn [app skip_ws]. change (json_ws 10) with true. cbv iota.
  induction (2 * lvl)%nat as [|n IH]; cbn [repeat app skip_ws]; [rewrite H; reflexivity|]. change (json_ws 32) with true. cbv iota. exact IH.
Qed.
Lemma ind_head lvl j : exists c r, dumps_ind lvl j = c :: r /\ json_ws c = false /\ c <> 93 /\ c <> 125.
Proof.
  destruct j as [|b|z|s|l|m]; try (apply (dumps_head (JBool b))); try apply (dumps_head JNull); try apply (dumps_head (JInt z)); try apply (dumps_head (JStr s)).
  - destruct l; exists 91; eexists; (split; [reflexivity|split; [reflexivity|split; discriminate]]).
  - destruct m; exists 123; eexists; (split; [reflexivity|split; [reflexivity|split; discriminate]]).
Qed.
Definition rti (lvl : nat) (j : json) : Prop :=
  forall f r, (jsize j <= f)%nat -> follows r -> parse_val f (dumps_ind lvl j ++ r) = Ok (j, r).
Lemma follows_nl lvl r : follows (nl lvl ++ r).
Proof. right. exists 10, (repeat 32 (2 * lvl) ++ r). split; [reflexivity|]. do 3 right. reflexivity. Qed.

Lemma elems_ind lvl lv2 l : l <> [] -> Forall (rti lvl) l -> forall f acc r, (asize l <= f)%nat ->
  parse_elems f acc (join (44 :: nl lvl) (map (dumps_ind lvl) l) ++ nl lv2 ++ 93 :: r) = Ok (JArr (acc ++ l), r).
Proof.
  induction l as [|x l IH]; intros Hne Hl f acc r Hf; [congruence|].
  inversion Hl as [|? ? Hx Hl']; subst. cbn [asize fold_right] in Hf. fold (asize l) in Hf.
  destruct f as [|f]; [lia|]. destruct l as [|y l].
  - cbn [map join parse_elems]. rewrite Hx; [|simpl in Hf; lia|apply follows_nl].
    rewrite skip_nl by reflexivity. change (93 =? 93) with true. reflexivity.
  - cbn [map]. rewrite join_cons2. cbn [parse_elems].
    rewrite <- !app_assoc. rewrite Hx; [|lia|apply follows_comma].
    cbn [app skip_ws]. change (json_ws 44) with false. cbv iota.
    change (44 =? 93) with false. change (44 =? 44) with true. cbv iota.
    change (dumps_ind lvl y :: map (dumps_ind lvl) l) with (map (dumps_ind lvl) (y :: l)).
    destruct (ind_head lvl y) as (c & t & Ed & Hw & _ & _).
    destruct (join_head (44 :: nl lvl) _ (map (dumps_ind lvl) l) c t Ed) as (t' & Ej).
    change (dumps_ind lvl y :: map (dumps_ind lvl) l) with (map (dumps_ind lvl) (y :: l)) in Ej.
    rewrite Ej at 1. cbn [app]. rewrite skip_nl by exact Hw. rewrite app_comm_cons, <- Ej.
    rewrite IH; [rewrite <- app_assoc; reflexivity|discriminate|assumption|lia].
Qed.
Lemma member_head lvl kv : exists r, ind_member lvl kv = 34 :: r.
Proof. unfold ind_member, dump_str. eexists. reflexivity. Qed.
Lemma members_ind lvl lv2 m : m <> [] -> Forall (fun kv => scalars (fst kv) /\ rti lvl (snd kv)) m ->
  forall f acc r, NoDup (map fst acc ++ map fst m) -> (osize m <= f)%nat ->
  parse_members f acc (join (44 :: nl lvl) (map (ind_member lvl) m) ++ nl lv2 ++ 125 :: r) = Ok (JObj (acc ++ m), r).
Proof.
  induction m as [|[k v] m IH]; intros Hne Hm f acc r Hnd Hf; [congruence|].
  inversion Hm as [|? ? [Hk Hv] Hm']; subst. simpl fst in *; simpl snd in *.
  cbn [osize fold_right snd] in Hf. fold (osize m) in Hf.
  destruct f as [|f]; [lia|].
  assert (Hfresh : dset str_eqb k v acc = acc ++ [(k, v)]).
  { apply dset_fresh; [exact str_eqb_eq|]. intros Hin. cbn [map] in Hnd.
    apply NoDup_remove_2 in Hnd. apply Hnd, in_or_app. left. exact Hin. }
  assert (Hnd' : NoDup (map fst (acc ++ [(k, v)]) ++ map fst m)).
  { rewrite map_app, <- app_assoc. exact Hnd. }
  assert (Hone : forall z, follows z ->
     parse_members (S f) acc (ind_member lvl (k, v) ++ z) =
     match skip_ws z with
     | [] => Raise ValueError
     | c2 :: r4 => if c2 =? 125 then Ok (JObj (acc ++ [(k, v)]), r4)
                   else if c2 =? 44 then parse_members f (acc ++ [(k, v)]) (skip_ws r4)
                   else Raise ValueError
     end).
  { intros z Hfz. unfold ind_member, dump_str. simpl fst; simpl snd.
    repeat rewrite <- app_assoc. cbn [app parse_members]. change (negb (34 =? 34)) with false. cbv iota.
    rewrite scan_dump_str by exact Hk. unfold COLON_SP. cbn [app skip_ws].
    change (json_ws 58) with false. cbv iota. change (negb (58 =? 58)) with false. cbv iota.
    cbn [skip_ws]. change (json_ws 32) with true. cbv iota.
    destruct (ind_head lvl v) as (c & t & Ed & Hw & _ & _).
    assert (Es : skip_ws (dumps_ind lvl v ++ z) = dumps_ind lvl v ++ z) by (rewrite Ed; cbn [app]; apply skip_ws_id, Hw).
    rewrite Es, Hv; [|lia|exact Hfz]. rewrite Hfresh. reflexivity. }
  destruct m as [|kv2 m].
  - cbn [map join]. rewrite Hone by apply follows_nl. rewrite skip_nl by reflexivity. reflexivity.
  - cbn [map]. rewrite join_cons2, <- !app_assoc. 
    rewrite Hone by apply follows_comma. cbn [app skip_ws]. change (json_ws 44) with false. cbv iota. change (44 =? 125) with false.
    change (44 =? 44) with true. cbv iota.
    change (ind_member lvl kv2 :: map (ind_member lvl) m) with (map (ind_member lvl) (kv2 :: m)).
    destruct (member_head lvl kv2) as (t & Ed).
    destruct (join_head (44 :: nl lvl) _ (map (ind_member lvl) m) 34 t Ed) as (t' & Ej).
    change (ind_member lvl kv2 :: map (ind_member lvl) m) with (map (ind_member lvl) (kv2 :: m)) in Ej.
    rewrite Ej at 1. cbn [app]. rewrite skip_nl by reflexivity. rewrite app_comm_cons, <- Ej.
    rewrite IH; [rewrite <- app_assoc; reflexivity|discriminate|assumption|exact Hnd'|lia].
Qed.
Lemma ind_scalar lvl j : match j with JArr _ | JObj _ => False | _ => True end -> dumps_ind lvl j = dumps j.
Proof. destruct j; simpl; intros; try reflexivity; contradiction. Qed.
Lemma parse_ind j : json_ok j -> forall lvl, rti lvl j.
Proof.
  induction j as [|b|z|s|l Hl|m Hm] using json_ind2; intros Hok lvl f r Hf Hr;
    try (rewrite ind_scalar by exact I; apply parse_val_rt; assumption).
  - rewrite jsize_arr in Hf. apply json_ok_arr in Hok. destruct f as [|f]; [lia|].
    destruct l as [|x l]; [reflexivity|]. cbn [dumps_ind].
    repeat rewrite <- app_assoc. cbn [app parse_val].
    change (91 =? 34) with false. change (91 =? 123) with false. change (91 =? 91) with true. cbv iota.
    destruct (ind_head (S lvl) x) as (c & t & Ed & Hw & H93 & _).
    destruct (join_head (44 :: nl (S lvl)) _ (map (dumps_ind (S lvl)) l) c t Ed) as (t' & Ej).
    change (dumps_ind (S lvl) x :: map (dumps_ind (S lvl)) l) with (map (dumps_ind (S lvl)) (x :: l)) in *. rewrite Ej at 1. cbn [app].
    rewrite skip_nl by exact Hw. destruct (N.eqb_spec c 93); [contradiction|].
    change (c :: t' ++ nl lvl ++ 93 :: r) with ((c :: t') ++ nl lvl ++ 93 :: r). rewrite <- Ej.
    rewrite elems_ind; [reflexivity|discriminate| |lia].
    rewrite Forall_forall in *. intros y Hy. apply Hl; [exact Hy|apply Hok, Hy].
  - rewrite jsize_obj in Hf. apply json_ok_obj in Hok. destruct Hok as [Hnd Hok]. destruct f as [|f]; [lia|].
    destruct m as [|kv m]; [reflexivity|]. rewrite dumps_ind_obj.
    repeat rewrite <- app_assoc. cbn [app parse_val].
    change (123 =? 34) with false. change (123 =? 123) with true. cbv iota.
    destruct (member_head (S lvl) kv) as (t & Ed).
    destruct (join_head (44 :: nl (S lvl)) _ (map (ind_member (S lvl)) m) 34 t Ed) as (t' & Ej).
    change (ind_member (S lvl) kv :: map (ind_member (S lvl)) m) with (map (ind_member (S lvl)) (kv :: m)) in Ej. rewrite Ej at 1. cbn [app].
    rewrite skip_nl by reflexivity. change (34 =? 125) with false. cbv iota.
    change (34 :: t' ++ nl lvl ++ 125 :: r) with ((34 :: t') ++ nl lvl ++ 125 :: r). rewrite <- Ej.
    rewrite members_ind; [reflexivity|discriminate| |exact Hnd|lia].
    rewrite Forall_forall in *. intros y Hy. split; [apply (Hok y Hy)|]. apply Hm; [exact Hy|apply (Hok y Hy)].
Qed.

(** ** the parser looks only at what it consumes *)
Definition stops (r : str) : Prop := exists c r', r = c :: r' /\ (c = 44 \/ c = 125 \/ c = 93 \/ json_ws c = true).
Definition not_int (j : json) : Prop := match j with JInt _ => False | _ => True end.
Lemma skip_ws_app s t : skip_ws s <> [] -> skip_ws (s ++ t) = skip_ws s ++ t.
Proof. induction s as [|c s IH]; [intros H; cbn in H; congruence|]. cbn [app skip_ws]. destruct (json_ws c); [exact IH|reflexivity]. Qed.
Lemma cons1_app c r s rest t r2 : cons1 c r = Some (s, rest) -> (forall s', r = Some (s', rest) -> r2 = Some (s', rest ++ t)) -> cons1 c r2 = Some (s, rest ++ t).
Proof. destruct r as [[s' r']|]; [|discriminate]. cbn. intros H H2. injection H as <- <-. rewrite (H2 s' eq_refl). reflexivity. Qed.
Lemma scan_str_app n : forall s x r t, (length s <= n)%nat -> scan_str s = Some (x, r) -> scan_str (s ++ t) = Some (x, r ++ t).
Proof.
  induction n as [|n IH]; intros s x r t Hn; (destruct s as [|c s]; [discriminate|]); [cbn [length] in Hn; lia|].
  cbn [app scan_str]. destruct (c =? 34); [intros H; injection H as <- <-; reflexivity|].
  destruct (c =? 92).
  - destruct s as [|e s]; [discriminate|]. cbn [app]. destruct (e =? 117).
    + do 4 (destruct s as [|? s]; [discriminate|]). cbn [app].
      destruct (hex4_val _ _ _ _) as [u|]; [|discriminate].
      assert (Hc : forall w, cons1 w (scan_str s) = Some (x, r) -> cons1 w (scan_str (s ++ t)) = Some (x, r ++ t)).
      { intros w H. eapply cons1_app; [exact H|]. intros s' Hs. apply IH; [cbn [length] in Hn; lia|exact Hs]. }
      destruct (le_lt_dec 6 (length s)) as [H6|H6].
      * do 6 (destruct s as [|? s]; [cbn [length] in H6; lia|]). cbn [app].
        match goal with |- context [if ?b then _ else _] => destruct b end; [|exact (Hc u)].
        destruct (hex4_val _ _ _ _); [|discriminate].
        destruct (low_surr _); [|exact (Hc u)].
        intros H. eapply cons1_app; [exact H|]. intros s' Hs. apply IH; [cbn [length] in Hn; lia|exact Hs].
      * intros H.
        assert (H' : cons1 u (scan_str s) = Some (x, r)).
        { revert H. do 6 (destruct s as [|? s]; [exact (fun H => H)|]). cbn [length] in H6. lia. }
        clear H. pose proof (Hc u H') as Hc'.
        destruct (s ++ t) as [|b1 [|u1 [|a2 [|b2 [|c2 [|d2 r3]]]]]] eqn:Est; try exact Hc'.
        destruct (high_surr u && (b1 =? 92) && (u1 =? 117)) eqn:E; [|exact Hc']. exfalso.
        apply andb_prop in E. destruct E as [E E3]. apply andb_prop in E. destruct E as [_ E2].
        apply N.eqb_eq in E2, E3. subst b1 u1. apply cons1_some in H'. destruct H' as (s' & H').
        destruct s as [|q1 s]; [discriminate|]. cbn [app] in Est. injection Est as -> Est.
        destruct s as [|q2 s]; [discriminate|]. cbn [app] in Est. injection Est as -> Est.
        do 3 (destruct s as [|? s]; [discriminate|]). destruct s as [|? s]; [discriminate|]. cbn [length] in H6. lia.
    + destruct (short_escape e); [|discriminate]. intros H. eapply cons1_app; [exact H|]. intros s' Hs. apply IH; [cbn [length] in Hn; lia|exact Hs].
  - destruct (c <? 32); [discriminate|]. intros H. eapply cons1_app; [exact H|]. intros s' Hs. apply IH; [cbn [length] in Hn; lia|exact Hs].
Qed.
Lemma startswith_app p s t : startswith p s = true -> startswith p (s ++ t) = true /\ forall n, n = length p -> skipn n (s ++ t) = skipn n s ++ t.
Proof.
  revert s. induction p as [|c p IH]; intros s H; [split; [reflexivity|]; intros n ->; reflexivity|].
  destruct s as [|d s]; [discriminate|]. cbn [startswith app] in *. apply andb_prop in H. destruct H as [H1 H2]. rewrite H1.
  destruct (IH s H2) as [Ha Hb]. split; [exact Ha|]. intros n ->. cbn [length skipn]. apply Hb. reflexivity.
Qed.
Lemma stops_nodigit r : stops r -> exists c r', r = c :: r' /\ is_digit c = false.
Proof. intros (c & r' & -> & H). exists c, r'. split; [reflexivity|]. unfold is_digit, json_ws in *. lia. Qed.
Lemma span_digits_more s d r t : stops r -> span_digits s = (d, r) -> span_digits (s ++ t) = (d, r ++ t).
Proof.
  intros Hr. destruct (stops_nodigit r Hr) as (c0 & r0 & Er & Hd0). revert d. induction s as [|c s IH]; intros d H.
  - cbn in H. injection H as _ H. subst. discriminate.
  - cbn [span_digits app] in *. destruct (is_digit c).
    + destruct (span_digits s) as [d1 r1]. injection H as <- <-. rewrite (IH d1 eq_refl). reflexivity.
    + injection H as <- <-. reflexivity.
Qed.
Lemma stops_app r t : stops r -> stops (r ++ t).
Proof. intros (c & r' & -> & H). exists c, (r' ++ t). split; [reflexivity|exact H]. Qed.
Lemma scan_nat_more s n r t : stops r -> scan_nat s = Some (n, r) -> scan_nat (s ++ t) = Some (n, r ++ t).
Proof.
  intros Hr. unfold scan_nat. destruct s as [|c s]; [discriminate|]. cbn [app].
  destruct (c =? 48); [intros H; injection H as <- <-; reflexivity|].
  destruct (is_digit c); [|discriminate]. destruct (span_digits (c :: s)) as [d r0] eqn:E.
  destruct (int_digits false 0 d) as [m|] eqn:Ed; [|discriminate]. intros H. injection H as <- <-.
  rewrite app_comm_cons, (span_digits_more _ _ _ t Hr E), Ed. reflexivity.
Qed.
Lemma scan_int_more s z r t : stops r -> scan_int s = Some (z, r) -> scan_int (s ++ t) = Some (z, r ++ t).
Proof.
  intros Hr. unfold scan_int. destruct s as [|c s]; [discriminate|]. cbn [app].
  destruct (c =? 45).
  - destruct (scan_nat s) as [[n r1]|] eqn:E; [|discriminate]. destruct (is_float_tail r1); [discriminate|]. intros H. injection H as <- <-.
    rewrite (scan_nat_more _ _ _ t Hr E), (follows_nofloat (r1 ++ t)); [reflexivity|]. right. exact (stops_app _ _ Hr).
  - destruct (scan_nat (c :: s)) as [[n r1]|] eqn:E; [|discriminate]. destruct (is_float_tail r1); [discriminate|]. intros H. injection H as <- <-.
    rewrite app_comm_cons, (scan_nat_more _ _ _ t Hr E), (follows_nofloat (r1 ++ t)); [reflexivity|]. right. exact (stops_app _ _ Hr).
Qed.
Lemma scan_int_head c s z r : scan_int (c :: s) = Some (z, r) -> is_digit c = true \/ c = 45.
Proof.
  unfold scan_int. destruct (N.eqb_spec c 45) as [->|H]; [right; reflexivity|]. unfold scan_nat at 1.
  destruct (N.eqb_spec c 48) as [->|H']; [left; reflexivity|]. destruct (is_digit c); [left; reflexivity|discriminate].
Qed.

Lemma skip_stops r c r' : skip_ws r = c :: r' -> c = 44 \/ c = 125 \/ c = 93 -> stops r.
Proof.
  destruct r as [|d r]; [discriminate|]. cbn [skip_ws]. destruct (json_ws d) eqn:E; intros H Hc; exists d, r; (split; [reflexivity|]).
  - auto.
  - injection H as -> _. tauto.
Qed.

Lemma startswith_head a p c s : startswith (a :: p) (c :: s) = true -> c = a.
Proof. cbn [startswith]. intros H. apply andb_prop in H. destruct H as [H _]. apply N.eqb_eq in H. congruence. Qed.
Lemma lit_clash a p b q c s t : a <> b -> startswith (a :: p) (c :: s) = true -> startswith (b :: q) ((c :: s) ++ t) = false.
Proof.
  intros Hab H. apply startswith_head in H. subst c. destruct (startswith (b :: q) ((a :: s) ++ t)) eqn:E; [|reflexivity].
  cbn [app] in E. apply startswith_head in E. congruence.
Qed.
(** more fuel and more text do not change what was parsed *)
Lemma parse_more f :
  (forall s v r, parse_val f s = Ok (v, r) -> (not_int v \/ stops r) -> forall f' t, (f <= f')%nat -> parse_val f' (s ++ t) = Ok (v, r ++ t)) /\
  (forall acc s v r, parse_members f acc s = Ok (v, r) -> forall f' t, (f <= f')%nat -> parse_members f' acc (s ++ t) = Ok (v, r ++ t)) /\
  (forall acc s v r, parse_elems f acc s = Ok (v, r) -> forall f' t, (f <= f')%nat -> parse_elems f' acc (s ++ t) = Ok (v, r ++ t)).
Proof.
  induction f as [|f (IHv & IHm & IHe)]; [repeat split; intros; discriminate|]. split; [|split].
  - intros s v r H Hv f' t Hf. destruct f' as [|f']; [lia|]. destruct s as [|c s]; [discriminate|]. cbn [app]. cbn [parse_val] in *.
    destruct (c =? 34).
    { destruct (scan_str s) as [[x rest]|] eqn:E; [|discriminate]. injection H as <- <-. rewrite (scan_str_app (length s) s x rest t (le_n _) E). reflexivity. }
    destruct (c =? 123).
    { destruct (skip_ws s) as [|d s'] eqn:E; [discriminate|]. rewrite skip_ws_app by (rewrite E; discriminate). rewrite E. cbn [app].
      destruct (d =? 125); [injection H as <- <-; reflexivity|]. rewrite app_comm_cons. apply IHm; [exact H|lia]. }
    destruct (c =? 91).
    { destruct (skip_ws s) as [|d s'] eqn:E; [discriminate|]. rewrite skip_ws_app by (rewrite E; discriminate). rewrite E. cbn [app].
      destruct (d =? 93); [injection H as <- <-; reflexivity|]. rewrite app_comm_cons. apply IHe; [exact H|lia]. }
    rewrite !app_comm_cons.
    destruct (startswith (lit "null") (c :: s)) eqn:En.
    { destruct (startswith_app _ _ t En) as [-> Hs]. rewrite Hs by reflexivity. injection H as <- <-. reflexivity. }
    destruct (startswith (lit "true") (c :: s)) eqn:Et.
    { destruct (startswith_app _ _ t Et) as [-> Hs]. rewrite (Hs 4%nat eq_refl). injection H as <- <-.
      change (lit "null") with [110; 117; 108; 108]. change (lit "true") with [116; 114; 117; 101] in Et.
      rewrite (lit_clash 116 [114; 117; 101] 110 [117; 108; 108] c s t ltac:(discriminate) Et). reflexivity. }
    destruct (startswith (lit "false") (c :: s)) eqn:Ef.
    { destruct (startswith_app _ _ t Ef) as [-> Hs]. rewrite (Hs 5%nat eq_refl). injection H as <- <-.
      change (lit "null") with [110; 117; 108; 108]. change (lit "true") with [116; 114; 117; 101]. change (lit "false") with [102; 97; 108; 115; 101] in Ef.
      rewrite (lit_clash 102 [97; 108; 115; 101] 110 [117; 108; 108] c s t ltac:(discriminate) Ef), (lit_clash 102 [97; 108; 115; 101] 116 [114; 117; 101] c s t ltac:(discriminate) Ef).
      reflexivity. }
    destruct (scan_int (c :: s)) as [[z rest]|] eqn:Ez; [|discriminate]. injection H as <- <-.
    destruct Hv as [[]|Hr]. rewrite (scan_int_more _ _ _ t Hr Ez).
    pose proof (scan_int_head _ _ _ _ Ez) as Hc.
    assert (E4 : (110 =? c) = false) by (unfold is_digit in Hc; lia).
    assert (E5 : (116 =? c) = false) by (unfold is_digit in Hc; lia).
    assert (E6 : (102 =? c) = false) by (unfold is_digit in Hc; lia).
    change (lit "null") with [110; 117; 108; 108]. change (lit "true") with [116; 114; 117; 101].
    change (lit "false") with [102; 97; 108; 115; 101]. cbn [startswith app]. rewrite E4, E5, E6. reflexivity.
  - intros acc s v r H f' t Hf. destruct f' as [|f']; [lia|]. destruct s as [|c s]; [discriminate|]. cbn [app]. cbn [parse_members] in *.
    destruct (negb (c =? 34)); [discriminate|]. destruct (scan_str s) as [[k r1]|] eqn:E; [|discriminate].
    rewrite (scan_str_app (length s) s k r1 t (le_n _) E).
    destruct (skip_ws r1) as [|c1 r2] eqn:E1; [discriminate|]. rewrite skip_ws_app by (rewrite E1; discriminate). rewrite E1. cbn [app].
    destruct (negb (c1 =? 58)); [discriminate|]. destruct (parse_val f (skip_ws r2)) as [[x r3]|] eqn:Ev; [|discriminate].
    destruct (skip_ws r3) as [|c2 r4] eqn:E3; [discriminate|].
    assert (Hst : stops r3).
    { destruct (N.eqb_spec c2 125) as [->|]; [apply (skip_stops _ _ _ E3); auto|]. destruct (N.eqb_spec c2 44) as [->|]; [apply (skip_stops _ _ _ E3); auto|discriminate]. }
    assert (Hne : skip_ws r2 <> []) by (intros E0; rewrite E0 in Ev; destruct f; cbn in Ev; congruence).
    rewrite (skip_ws_app r2 t Hne), (IHv _ _ _ Ev (or_intror Hst) f' t) by lia.
    rewrite skip_ws_app by (rewrite E3; discriminate). rewrite E3. cbn [app].
    destruct (c2 =? 125); [injection H as <- <-; reflexivity|]. destruct (c2 =? 44); [|discriminate].
    assert (Hne4 : skip_ws r4 <> []) by (intros E0; rewrite E0 in H; destruct f; cbn in H; congruence).
    rewrite (skip_ws_app r4 t Hne4). apply IHm; [exact H|lia].
  - intros acc s v r H f' t Hf. destruct f' as [|f']; [lia|]. cbn [parse_elems] in *.
    destruct (parse_val f s) as [[x r1]|] eqn:Ev; [|discriminate]. destruct (skip_ws r1) as [|c r2] eqn:E1; [discriminate|].
    assert (Hst : stops r1).
    { destruct (N.eqb_spec c 93) as [->|]; [apply (skip_stops _ _ _ E1); auto|]. destruct (N.eqb_spec c 44) as [->|]; [apply (skip_stops _ _ _ E1); auto|discriminate]. }
    rewrite (IHv _ _ _ Ev (or_intror Hst) f' t) by lia.
    rewrite skip_ws_app by (rewrite E1; discriminate). rewrite E1. cbn [app].
    destruct (c =? 93); [injection H as <- <-; reflexivity|]. destruct (c =? 44); [|discriminate].
    assert (Hne2 : skip_ws r2 <> []) by (intros E0; rewrite E0 in H; destruct f as [|[|f]]; cbn in H; congruence).
    rewrite (skip_ws_app r2 t Hne2). apply IHe; [exact H|lia].
Qed.

Lemma ind_length j : forall lvl, (length (dumps j) <= length (dumps_ind lvl j))%nat.
Proof.
  induction j as [|b|z|s|l Hl|m Hm] using json_ind2; intros lvl; try (rewrite ind_scalar by exact I; lia).
  - destruct l as [|x l]; [simpl; lia|]. cbn [dumps_ind]. cbn [dumps]. rewrite !app_length. cbn [length].
    enough (length (join COMMA_SP (map dumps (x :: l))) <= length (join (44%N :: nl (S lvl)) (map (dumps_ind (S lvl)) (x :: l))))%nat by (unfold nl at 1; cbn [length]; lia).
    revert x Hl. induction l as [|y l IHl]; intros x Hl; inversion Hl as [|? ? Hx Hl']; subst; cbn [map].
    + cbn [join]. apply Hx.
    + rewrite !join_cons2, !app_length. cbn [length]. specialize (IHl y Hl'). cbn [map] in IHl. pose proof (Hx (S lvl)).
      change (length COMMA_SP) with 2%nat. unfold nl at 1. cbn [length]. lia.
  - destruct m as [|kv m]; [simpl; lia|]. rewrite dumps_ind_obj, dumps_obj, !app_length. cbn [length].
    enough (length (join COMMA_SP (map dump_member (kv :: m))) <= length (join (44%N :: nl (S lvl)) (map (ind_member (S lvl)) (kv :: m))))%nat by (unfold nl at 1; cbn [length]; lia).
    revert kv Hm. induction m as [|y m IHm]; intros kv Hm; inversion Hm as [|? ? Hx Hm']; subst; cbn [map].
    + cbn [join]. unfold dump_member, ind_member. rewrite !app_length. pose proof (Hx (S lvl)). lia.
    + rewrite !join_cons2, !app_length. specialize (IHm y Hm'). cbn [map] in IHm. pose proof (Hx (S lvl)).
      change (length COMMA_SP) with 2%nat. unfold nl at 1. unfold dump_member at 1, ind_member at 1. rewrite !app_length. cbn [length]. lia.
Qed.
Theorem loads_ind lvl j : json_ok j -> loads (dumps_ind lvl j) = Ok j.
Proof.
  intros H. unfold loads. destruct (ind_head lvl j) as (c & t & E & Hw & _ & _).
  rewrite E at 2. rewrite skip_ws_id, <- E by exact Hw.
  rewrite <- (app_nil_r (dumps_ind lvl j)) at 2. destruct (dumps_length j) as [Hl _]. pose proof (ind_length j lvl).
  rewrite (parse_ind j H lvl); [reflexivity|lia|left; reflexivity].
Qed.
Theorem loads_ind_prefix lvl m k : json_ok (JObj m) -> (k < length (dumps_ind lvl (JObj m)))%nat ->
  exists e, loads (firstn k (dumps_ind lvl (JObj m))) = Raise e.
Proof.
  intros H Hk. set (text := dumps_ind lvl (JObj m)) in *. set (p := firstn k text).
  destruct (loads p) as [j|e] eqn:El; [exfalso|exists e; reflexivity].
  assert (Hhd : exists t, text = 123 :: t) by (unfold text; destruct m; eexists; reflexivity). destruct Hhd as (tl & Ht).
  destruct k as [|k]; [discriminate El|]. assert (Hp : p = 123 :: firstn k tl) by (unfold p; rewrite Ht; reflexivity).
  assert (Hsp : text = p ++ skipn (S k) text) by (symmetry; apply firstn_skipn).
  unfold loads in El. assert (Es : skip_ws p = p) by (rewrite Hp; reflexivity). rewrite Es in El.
  destruct (parse_val _ p) as [[v rest]|] eqn:Ev; [|discriminate].
  assert (Hv : not_int v).
  { rewrite Hp in Ev. cbn [parse_val] in Ev. change (123 =? 34) with false in Ev. change (123 =? 123) with true in Ev. cbv iota in Ev.
    destruct (skip_ws (firstn k tl)) as [|d r']; [discriminate|]. destruct (d =? 125); [injection Ev as <- _; exact I|].
    clear -Ev. revert Ev. generalize (@nil (str * json)). generalize (d :: r'). clear. induction (2 * length (123%N :: firstn k tl))%nat as [|f IH]; intros s acc E; [discriminate|].
    cbn [parse_members] in E. destruct s as [|c s]; [discriminate|]. destruct (negb (c =? 34)); [discriminate|]. destruct (scan_str s) as [[? r1]|]; [|discriminate].
    destruct (skip_ws r1) as [|c1 r2]; [discriminate|]. destruct (negb (c1 =? 58)); [discriminate|]. destruct (parse_val f (skip_ws r2)) as [[? r3]|]; [|discriminate].
    destruct (skip_ws r3) as [|c2 r4]; [discriminate|]. destruct (c2 =? 125); [injection E as <- _; exact I|]. destruct (c2 =? 44); [|discriminate]. exact (IH _ _ E). }
  destruct (parse_more (S (2 * length p))) as [Hm _].
  set (big := (S (2 * length p) + jsize (JObj m))%nat).
  pose proof (Hm _ _ _ Ev (or_introl Hv) big (skipn (S k) text) ltac:(unfold big; lia)) as Hb. rewrite <- Hsp in Hb.
  assert (Hb' : parse_val big (text ++ []) = Ok (JObj m, [])) by (apply (parse_ind _ H lvl); [unfold big; lia|left; reflexivity]).
  rewrite app_nil_r in Hb'. rewrite Hb' in Hb. injection Hb as _ Hr.
  symmetry in Hr. apply app_eq_nil in Hr. destruct Hr as [_ Hr]. pose proof (skipn_length (S k) text) as Hl. change (skipn (S k) text) with (match text with [] => [] | _ :: l => skipn k l end) in Hl. rewrite Hr in Hl. cbn [length] in Hl. lia.
Qed.
