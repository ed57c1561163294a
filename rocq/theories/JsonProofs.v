(** json.loads (json.dumps j) = j, and the shape of dumped text. *)
From Coq Require Import Strings.String.
From Verif Require Import Py PyLemmas PyStr Utf8Model Utf8Proofs StrSpec PyStrProofs JsonModel NumProofs.
From Coq Require Import ZifyBool ZifyN.
Local Open Scope N_scope.
Local Open Scope list_scope.
Ltac Zify.zify_post_hook ::= Z.div_mod_to_equations.

(** Nested induction over JSON values. *)
Lemma json_ind2 (P : json -> Prop) :
  P JNull -> (forall b, P (JBool b)) -> (forall z, P (JInt z)) -> (forall s, P (JStr s)) ->
  (forall l, Forall P l -> P (JArr l)) ->
  (forall m, Forall (fun kv => P (snd kv)) m -> P (JObj m)) -> forall j, P j.
Proof.
  intros H1 H2 H3 H4 H5 H6. fix IH 1. intros [|b|z|s|l|m]; [exact H1|apply H2|apply H3|apply H4| |].
  - apply H5. induction l as [|x l IHl]; constructor; auto.
  - apply H6. induction m as [|[k v] m IHm]; constructor; auto.
Qed.

(** Values made of proper text, with distinct keys in every object. *)
Fixpoint json_ok (j : json) : Prop :=
  match j with
  | JNull | JBool _ | JInt _ => True
  | JStr s => Forall (fun c => is_scalar c = true) s
  | JArr l => (fix go l := match l with [] => True | x :: l' => json_ok x /\ go l' end) l
  | JObj m => NoDup (map fst m) /\
              (fix go (m : list (str * json)) :=
                 match m with
                 | [] => True
                 | (k, v) :: m' => Forall (fun c => is_scalar c = true) k /\ json_ok v /\ go m'
                 end) m
  end.
Lemma json_ok_arr l : json_ok (JArr l) <-> Forall json_ok l.
Proof.
  induction l as [|x l IH]; simpl in *.
  - split; [constructor|trivial].
  - split; intros H.
    + constructor; [apply H|apply IH, H].
    + inversion H; subst. split; [assumption|apply IH; assumption].
Qed.
Definition scalars (s : str) : Prop := Forall (fun c => is_scalar c = true) s.
Lemma json_ok_obj m :
  json_ok (JObj m) <-> NoDup (map fst m) /\ Forall (fun kv => scalars (fst kv) /\ json_ok (snd kv)) m.
Proof.
  simpl. apply and_iff_compat_l. induction m as [|[k v] m IH].
  - split; [constructor|trivial].
  - split; intros H.
    + constructor; [split; apply H|apply IH, H].
    + inversion H as [|? ? [Hk Hv] Hm]; subst. simpl in *. split; [exact Hk|]. split; [exact Hv|]. apply IH; assumption.
Qed.

Definition dump_member (kv : str * json) : str := dump_str (fst kv) ++ COLON_SP ++ dumps (snd kv).
Lemma dumps_obj m : dumps (JObj m) = [123] ++ join COMMA_SP (map dump_member m) ++ [125].
Proof.
  cbn [dumps]. f_equal. f_equal. f_equal.
  induction m as [|[k v] m IH]; [reflexivity|]. cbn [map]. f_equal. exact IH.
Qed.

(** ** Strings *)
Lemma hex4_val_hex4 u r a b c d : u < 65536 -> hex4 u = [a; b; c; d] ++ r -> r = [] /\ hex4_val a b c d = Some u.
Proof.
  intros H E. unfold hex4 in E. injection E as <- <- <- <- <-. split; [reflexivity|].
  unfold hex4_val.
  destruct (hexval_hexdig (u / 4096)) as [-> _]; [lia|].
  destruct (hexval_hexdig ((u / 256) mod 16)) as [-> _]; [lia|].
  destruct (hexval_hexdig ((u / 16) mod 16)) as [-> _]; [lia|].
  destruct (hexval_hexdig (u mod 16)) as [-> _]; [lia|].
  f_equal. lia.
Qed.
Lemma hex4_val_of u : u < 65536 ->
  hex4_val (hexdig (u / 4096)) (hexdig ((u / 256) mod 16)) (hexdig ((u / 16) mod 16)) (hexdig (u mod 16)) = Some u.
Proof. intros H. eapply hex4_val_hex4; [exact H|]. symmetry; apply app_nil_r. Qed.

(** one unfolding of scan_str at a \uXXXX escape *)
Lemma scan_str_u a b c d r u :
  hex4_val a b c d = Some u -> high_surr u = false ->
  scan_str (92 :: 117 :: a :: b :: c :: d :: r) = cons1 u (scan_str r).
Proof.
  intros E Hh. cbn [scan_str]. change (92 =? 34) with false. change (92 =? 92) with true.
  change (117 =? 117) with true. cbn [negb]. cbv iota. rewrite E, Hh. cbn [andb].
  do 6 (destruct r as [|? r]; [reflexivity|]). reflexivity.
Qed.
Lemma scan_str_pair a b c d a2 b2 c2 d2 r u v :
  hex4_val a b c d = Some u -> high_surr u = true ->
  hex4_val a2 b2 c2 d2 = Some v -> low_surr v = true ->
  scan_str (92 :: 117 :: a :: b :: c :: d :: 92 :: 117 :: a2 :: b2 :: c2 :: d2 :: r) =
  cons1 (65536 + (u - 55296) * 1024 + (v - 56320)) (scan_str r).
Proof.
  intros E Hh E2 Hl. cbn [scan_str]. change (92 =? 34) with false. change (92 =? 92) with true.
  change (117 =? 117) with true. cbv iota. rewrite E, Hh. cbn [andb]. rewrite E2, Hl. reflexivity.
Qed.

Lemma scan_esc_char c r : is_scalar c = true -> scan_str (esc_char c ++ r) = cons1 c (scan_str r).
Proof.
  intros Hs. unfold esc_char.
  destruct (N.eqb_spec c 34) as [->|N34]; [reflexivity|].
  destruct (N.eqb_spec c 92) as [->|N92]; [reflexivity|].
  destruct (N.eqb_spec c 10) as [->|N10]; [reflexivity|].
  destruct (N.eqb_spec c 13) as [->|N13]; [reflexivity|].
  destruct (N.eqb_spec c 9) as [->|N9]; [reflexivity|].
  destruct (N.eqb_spec c 12) as [->|N12]; [reflexivity|].
  destruct (N.eqb_spec c 8) as [->|N8]; [reflexivity|].
  destruct ((32 <=? c) && (c <=? 126)) eqn:Ep.
  { cbn [app scan_str].
    assert (E1 : (c =? 34) = false) by lia. assert (E2 : (c =? 92) = false) by lia.
    assert (E3 : (c <? 32) = false) by lia. rewrite E1, E2, E3. reflexivity. }
  unfold is_scalar, is_surrogate in Hs.
  destruct (N.ltb_spec c 65536) as [Hlt|Hge].
  { unfold hex4. cbn [app]. apply scan_str_u; [apply hex4_val_of, Hlt|]. unfold high_surr. lia. }
  unfold hex4. cbn [app]. erewrite scan_str_pair;
    [|apply hex4_val_of; lia|unfold high_surr; lia|apply hex4_val_of; lia|unfold low_surr; lia].
  f_equal. lia.
Qed.

Lemma scan_dump_str s r : scalars s -> scan_str (flat_map esc_char s ++ 34 :: r) = Some (s, r).
Proof.
  induction s as [|c s IH]; intros H; [reflexivity|]. inversion H; subst.
  cbn [flat_map]. rewrite <- app_assoc, scan_esc_char, IH by assumption. reflexivity.
Qed.

(** ** Integers *)
Lemma span_digits_app d r : all_digits d -> (forall c r', r = c :: r' -> is_digit c = false) ->
  span_digits (d ++ r) = (d, r).
Proof.
  induction d as [|c d IH]; intros H Hr.
  - destruct r as [|c r]; [reflexivity|]. simpl. rewrite (Hr c r eq_refl). reflexivity.
  - inversion H; subst. simpl. rewrite H2, IH by assumption. reflexivity.
Qed.
(** what can follow a dumped value *)
Definition follows (r : str) : Prop :=
  r = [] \/ exists c r', r = c :: r' /\ (c = 44 \/ c = 125 \/ c = 93 \/ json_ws c = true).
Lemma follows_nodigit r : follows r -> forall c r', r = c :: r' -> is_digit c = false.
Proof. intros [->|(c0 & r0 & -> & Hc)] c r' E; [discriminate|]. injection E as -> ->. unfold is_digit, json_ws in *. lia. Qed.
Lemma follows_nofloat r : follows r -> is_float_tail r = false.
Proof.
  intros [->|(c0 & r0 & -> & [-> | [-> | [-> | H]]])]; [reflexivity| | | |]; try (destruct r0; reflexivity).
  assert (Hc : c0 = 32 \/ c0 = 9 \/ c0 = 10 \/ c0 = 13) by (unfold json_ws in H; lia).
  destruct Hc as [->|[->|[->| ->]]]; destruct r0; reflexivity.
Qed.
Lemma scan_nat_str n r : follows r -> scan_nat (str_of_N n ++ r) = Some (n, r).
Proof.
  intros Hr. destruct (str_of_N_spec n) as (Hne & Hd & Hv & Hz).
  destruct (str_of_N n) as [|c s] eqn:E; [congruence|]. cbn [app]. unfold scan_nat.
  destruct (N.eqb_spec c 48) as [->|Hc].
  - destruct (Hz s eq_refl) as [-> ->]. reflexivity.
  - inversion Hd as [|? ? Hc' Hs']; subst. rewrite Hc'. change (c :: s ++ r) with ((c :: s) ++ r).
    rewrite span_digits_app by (assumption || apply follows_nodigit, Hr).
    rewrite int_digits_dval by (assumption || discriminate). reflexivity.
Qed.
Lemma scan_int_str z r : follows r -> scan_int (str_of_Z z ++ r) = Some (z, r).
Proof.
  intros Hr. unfold scan_int. destruct z as [|p|p].
  - cbn. rewrite (follows_nofloat r Hr). reflexivity.
  - change (str_of_Z (Z.pos p)) with (str_of_N (N.pos p)).
    destruct (str_of_N_spec (N.pos p)) as (Hne & Hd & _).
    destruct (str_of_N (N.pos p)) as [|c s] eqn:E; [congruence|]. cbn [app].
    inversion Hd as [|? ? Hc Hs]; subst.
    assert (E45 : (c =? 45) = false) by (unfold is_digit in Hc; lia). rewrite E45.
    cbv iota beta. change (c :: s ++ r) with ((c :: s) ++ r). rewrite <- E, scan_nat_str by exact Hr.
    rewrite (follows_nofloat r Hr). reflexivity.
  - change (str_of_Z (Z.neg p) ++ r) with (45 :: (str_of_N (N.pos p) ++ r)).
    cbv iota beta. change (45 =? 45) with true. cbv iota beta. rewrite scan_nat_str by exact Hr.
    rewrite (follows_nofloat r Hr). reflexivity.
Qed.

(** first character of a dumped value *)
Lemma str_of_Z_head z : exists c r, str_of_Z z = c :: r /\ (is_digit c = true \/ c = 45).
Proof.
  destruct (str_of_Z_chars z) as [H1 H2]. destruct (str_of_Z z) as [|c r]; [congruence|].
  exists c, r. split; [reflexivity|]. inversion H1; assumption.
Qed.
Lemma dumps_head j : exists c r, dumps j = c :: r /\ json_ws c = false /\ c <> 93 /\ c <> 125.
Proof.
  destruct j as [|[|]|z|s|l|m];
    [exists 110; eexists; split; [reflexivity|split; [reflexivity|split; lia]]
    |exists 116; eexists; split; [reflexivity|split; [reflexivity|split; lia]]
    |exists 102; eexists; split; [reflexivity|split; [reflexivity|split; lia]]
    | |exists 34; eexists; split; [reflexivity|split; [reflexivity|split; lia]]
    |exists 91; eexists; split; [reflexivity|split; [reflexivity|split; lia]]
    |exists 123; eexists; split; [reflexivity|split; [reflexivity|split; lia]]].
  destruct (str_of_Z_head z) as (c & r & E & Hc). exists c, r. cbn [dumps]. split; [exact E|].
  unfold json_ws, is_digit in *. split; [lia|]. split; lia.
Qed.
Lemma skip_ws_id c r : json_ws c = false -> skip_ws (c :: r) = c :: r.
Proof. intros H. simpl. rewrite H. reflexivity. Qed.

Fixpoint jsize (j : json) : nat :=
  match j with
  | JArr l => S ((fix go l := match l with [] => O | x :: l' => S (jsize x + go l') end) l)
  | JObj m => S ((fix go (m : list (str * json)) :=
                    match m with [] => O | (_, v) :: m' => S (jsize v + go m') end) m)
  | _ => 1%nat
  end.
Definition asize (l : list json) : nat := fold_right (fun x n => S (jsize x + n)) O l.
Definition osize (m : list (str * json)) : nat := fold_right (fun x n => S (jsize (snd x) + n)) O m.
Lemma jsize_arr l : jsize (JArr l) = S (asize l).
Proof. reflexivity. Qed.
Lemma jsize_obj m : jsize (JObj m) = S (osize m).
Proof. cbn [jsize]. f_equal. unfold osize. induction m as [|[k v] m IH]; [reflexivity|]. cbn [fold_right snd]. rewrite <- IH. reflexivity. Qed.

Definition rt (j : json) : Prop :=
  forall f r, (jsize j <= f)%nat -> follows r -> parse_val f (dumps j ++ r) = Ok (j, r).

Lemma follows_comma r : follows (44 :: r).
Proof. right. exists 44, r. auto. Qed.

Lemma parse_elems_rt l : l <> [] -> Forall rt l -> forall f acc r,
  (asize l <= f)%nat ->
  parse_elems f acc (join COMMA_SP (map dumps l) ++ 93 :: r) = Ok (JArr (acc ++ l), r).
Proof.
  induction l as [|x l IH]; intros Hne Hl f acc r Hf; [congruence|].
  inversion Hl as [|? ? Hx Hl']; subst. cbn [asize fold_right] in Hf. fold (asize l) in Hf.
  destruct f as [|f]; [lia|]. destruct l as [|y l].
  - cbn [map join parse_elems]. rewrite Hx; [|simpl in Hf; lia|right; exists 93, r; auto].
    cbn [skip_ws]. change (json_ws 93) with false. cbv iota. change (93 =? 93) with true. reflexivity.
  - cbn [map]. rewrite join_cons2. cbn [parse_elems].
    rewrite <- !app_assoc. rewrite Hx; [|lia|unfold COMMA_SP; apply follows_comma].
    unfold COMMA_SP at 1. cbn [app skip_ws]. change (json_ws 44) with false. cbv iota.
    change (44 =? 93) with false. change (44 =? 44) with true. cbv iota.
    cbn [skip_ws]. change (json_ws 32) with true. cbv iota.
    change (dumps y :: map dumps l) with (map dumps (y :: l)).
    assert (Es : forall z, skip_ws (join COMMA_SP (map dumps (y :: l)) ++ z) = join COMMA_SP (map dumps (y :: l)) ++ z).
    { intros z. destruct (dumps_head y) as (c & t & Ed & Hw & _ & _). cbn [map].
      destruct l as [|y2 l]; [cbn [join]|rewrite ?join_cons2; cbn [map]; rewrite join_cons2]; rewrite Ed; cbn [app]; apply skip_ws_id, Hw. }
    rewrite Es, IH; [rewrite <- app_assoc; reflexivity|discriminate|assumption|lia].
Qed.

Lemma dump_member_head kv : exists r, dump_member kv = 34 :: r.
Proof. unfold dump_member, dump_str. eexists. reflexivity. Qed.

Lemma parse_members_rt m : m <> [] -> Forall (fun kv => scalars (fst kv) /\ rt (snd kv)) m ->
  forall f acc r, NoDup (map fst acc ++ map fst m) -> (osize m <= f)%nat ->
  parse_members f acc (join COMMA_SP (map dump_member m) ++ 125 :: r) = Ok (JObj (acc ++ m), r).
Proof.
  induction m as [|[k v] m IH]; intros Hne Hm f acc r Hnd Hf; [congruence|].
  inversion Hm as [|? ? [Hk Hv] Hm']; subst. simpl fst in *; simpl snd in *.
  cbn [osize fold_right snd] in Hf. fold (osize m) in Hf.
  destruct f as [|f]; [lia|].
  assert (Hfresh : dset str_eqb k v acc = acc ++ [(k, v)]).
  { apply dset_fresh; [exact str_eqb_eq|]. intros Hin. cbn [map] in Hnd.
    apply NoDup_remove_2 in Hnd. apply Hnd, in_or_app. left. exact Hin. }
  assert (Hnd' : NoDup (map fst (acc ++ [(k, v)]) ++ map fst m)).
  { rewrite map_app, <- app_assoc. exact Hnd. }
  assert (Hone : forall z, skip_ws z = z -> follows z ->
     parse_members (S f) acc (dump_member (k, v) ++ z) =
     match z with
     | [] => Raise ValueError
     | c2 :: r4 => if c2 =? 125 then Ok (JObj (acc ++ [(k, v)]), r4)
                   else if c2 =? 44 then parse_members f (acc ++ [(k, v)]) (skip_ws r4)
                   else Raise ValueError
     end).
  { intros z Hz Hfz. unfold dump_member, dump_str. simpl fst; simpl snd.
    repeat rewrite <- app_assoc. cbn [app parse_members]. change (negb (34 =? 34)) with false. cbv iota.
    rewrite scan_dump_str by exact Hk. unfold COLON_SP. cbn [app skip_ws].
    change (json_ws 58) with false. cbv iota. change (negb (58 =? 58)) with false. cbv iota.
    cbn [skip_ws]. change (json_ws 32) with true. cbv iota.
    destruct (dumps_head v) as (c & t & Ed & Hw & _ & _).
    assert (Es : skip_ws (dumps v ++ z) = dumps v ++ z) by (rewrite Ed; cbn [app]; apply skip_ws_id, Hw).
    rewrite Es, Hv; [|lia|exact Hfz]. rewrite Hz, Hfresh. reflexivity. }
  destruct m as [|kv2 m].
  - cbn [map join]. rewrite Hone; [reflexivity|reflexivity|right; exists 125, r; auto].
  - cbn [map]. rewrite join_cons2, <- !app_assoc. unfold COMMA_SP at 1. cbn [app].
    rewrite Hone; [|reflexivity|apply follows_comma]. change (44 =? 125) with false.
    change (44 =? 44) with true. cbv iota. cbn [skip_ws]. change (json_ws 32) with true. cbv iota.
    change (dump_member kv2 :: map dump_member m) with (map dump_member (kv2 :: m)).
    assert (Es : forall z, skip_ws (join COMMA_SP (map dump_member (kv2 :: m)) ++ z) = join COMMA_SP (map dump_member (kv2 :: m)) ++ z).
    { intros z. destruct (dump_member_head kv2) as (t & Ed). cbn [map].
      destruct m as [|kv3 m]; [cbn [join]|cbn [map]; rewrite join_cons2]; rewrite Ed; cbn [app]; apply skip_ws_id; reflexivity. }
    rewrite Es, IH; [rewrite <- app_assoc; reflexivity|discriminate|assumption|exact Hnd'|lia].
Qed.

Lemma join_head sep w ws c r : w = c :: r -> exists t, join sep (w :: ws) = c :: t.
Proof. intros ->. destruct ws; [eexists; reflexivity|rewrite join_cons2; eexists; reflexivity]. Qed.

Lemma parse_val_rt j : json_ok j -> rt j.
Proof.
  induction j as [|b|z|s|l Hl|m Hm] using json_ind2; intros Hok f r Hf Hr;
    (destruct f as [|f]; [simpl in Hf; lia|]).
  - reflexivity.
  - destruct b; reflexivity.
  - cbn [dumps parse_val]. destruct (str_of_Z_head z) as (c & t & E & Hc).
    pose proof (scan_int_str z r Hr) as Es. rewrite E in *. cbn [app] in *.
    assert (E1 : (c =? 34) = false) by (unfold is_digit in Hc; lia).
    assert (E2 : (c =? 123) = false) by (unfold is_digit in Hc; lia).
    assert (E3 : (c =? 91) = false) by (unfold is_digit in Hc; lia).
    assert (E4 : (110 =? c) = false) by (unfold is_digit in Hc; lia).
    assert (E5 : (116 =? c) = false) by (unfold is_digit in Hc; lia).
    assert (E6 : (102 =? c) = false) by (unfold is_digit in Hc; lia).
    rewrite E1, E2, E3.
    change (lit "null") with [110; 117; 108; 108]. change (lit "true") with [116; 114; 117; 101].
    change (lit "false") with [102; 97; 108; 115; 101]. cbn [startswith]. rewrite E4, E5, E6. cbn [andb].
    rewrite Es. reflexivity.
  - cbn [dumps]. unfold dump_str. repeat rewrite <- app_assoc. cbn [app parse_val].
    change (34 =? 34) with true. cbv iota. rewrite scan_dump_str by exact Hok. reflexivity.
  - rewrite jsize_arr in Hf. apply json_ok_arr in Hok. cbn [dumps].
    repeat rewrite <- app_assoc. cbn [app parse_val].
    change (91 =? 34) with false. change (91 =? 123) with false. change (91 =? 91) with true. cbv iota.
    destruct l as [|x l]; [reflexivity|].
    destruct (dumps_head x) as (c & t & Ed & Hw & H93 & _).
    destruct (join_head COMMA_SP (dumps x) (map dumps l) c t Ed) as (t' & Ej).
    change (dumps x :: map dumps l) with (map dumps (x :: l)) in Ej. rewrite Ej. cbn [app].
    rewrite skip_ws_id by exact Hw. destruct (N.eqb_spec c 93); [contradiction|].
    change (c :: t' ++ 93 :: r) with ((c :: t') ++ 93 :: r). rewrite <- Ej.
    rewrite parse_elems_rt; [reflexivity|discriminate| |lia].
    rewrite Forall_forall in *. intros y Hy. apply Hl; [exact Hy|apply Hok, Hy].
  - rewrite jsize_obj in Hf. apply json_ok_obj in Hok. destruct Hok as [Hnd Hok]. rewrite dumps_obj.
    repeat rewrite <- app_assoc. cbn [app parse_val].
    change (123 =? 34) with false. change (123 =? 123) with true. cbv iota.
    destruct m as [|kv m]; [reflexivity|].
    destruct (dump_member_head kv) as (t & Ed).
    destruct (join_head COMMA_SP (dump_member kv) (map dump_member m) 34 t Ed) as (t' & Ej).
    change (dump_member kv :: map dump_member m) with (map dump_member (kv :: m)) in Ej. rewrite Ej. cbn [app].
    rewrite skip_ws_id by reflexivity. change (34 =? 125) with false. cbv iota.
    change (34 :: t' ++ 125 :: r) with ((34 :: t') ++ 125 :: r). rewrite <- Ej.
    rewrite parse_members_rt; [reflexivity|discriminate| |exact Hnd|lia].
    rewrite Forall_forall in *. intros y Hy. split; [apply (Hok y Hy)|]. apply Hm; [exact Hy|apply (Hok y Hy)].
Qed.

(** ** size of the text bounds the size of the value *)
Lemma dumps_length j : (jsize j <= 2 * length (dumps j))%nat /\ (1 <= length (dumps j))%nat.
Proof.
  induction j as [|b|z|s|l Hl|m Hm] using json_ind2.
  - simpl; lia.
  - destruct b; simpl; lia.
  - destruct (str_of_Z_head z) as (c & t & E & _). cbn [dumps jsize]. rewrite E. simpl. lia.
  - cbn [dumps jsize]. unfold dump_str. rewrite !app_length. simpl. lia.
  - rewrite jsize_arr. cbn [dumps]. rewrite !app_length. cbn [length].
    enough (asize l <= S (2 * length (join COMMA_SP (map dumps l))))%nat by lia.
    induction l as [|x l IHl]; [simpl; lia|]. inversion Hl as [|? ? [Hx Hx1] Hl']; subst.
    cbn [asize fold_right]. fold (asize l). specialize (IHl Hl'). destruct l as [|y l].
    + cbn [map join]. simpl asize. lia.
    + cbn [map] in *. rewrite join_cons2, !app_length. unfold COMMA_SP at 1. cbn [length]. lia.
  - rewrite jsize_obj, dumps_obj. rewrite !app_length. cbn [length].
    enough (osize m <= S (2 * length (join COMMA_SP (map dump_member m))))%nat by lia.
    induction m as [|[k v] m IHm]; [simpl; lia|]. inversion Hm as [|? ? [Hx Hx1] Hm']; subst. simpl snd in *.
    cbn [osize fold_right snd]. fold (osize m). specialize (IHm Hm').
    assert (Hd : (length (dumps v) + 4 <= length (dump_member (k, v)))%nat).
    { unfold dump_member, dump_str, COLON_SP. rewrite !app_length. simpl. lia. }
    destruct m as [|y m].
    + cbn [map join]. simpl osize. lia.
    + cbn [map] in *. rewrite join_cons2, !app_length. unfold COMMA_SP at 1. cbn [length]. lia.
Qed.

Theorem loads_dumps j : json_ok j -> loads (dumps j) = Ok j.
Proof.
  intros H. unfold loads. destruct (dumps_head j) as (c & t & E & Hw & _ & _).
  rewrite E at 2. rewrite skip_ws_id, <- E by exact Hw.
  rewrite <- (app_nil_r (dumps j)) at 2. destruct (dumps_length j) as [Hl _].
  rewrite (parse_val_rt j H); [reflexivity|lia|left; reflexivity].
Qed.

(** ** the parser never runs out of fuel *)
Lemma skip_ws_length s : (length (skip_ws s) <= length s)%nat.
Proof. induction s as [|c s IH]; simpl; [lia|]. destruct (json_ws c); simpl; lia. Qed.
Lemma cons1_some c r s rest : cons1 c r = Some (s, rest) -> exists s', r = Some (s', rest).
Proof. destruct r as [[s' r']|]; simpl; [|discriminate]. intros H; injection H as <- <-. eauto. Qed.
Lemma scan_str_length n : forall s x r, (length s <= n)%nat -> scan_str s = Some (x, r) -> (length r < length s)%nat.
Proof.
  induction n as [|n IH]; intros s x r Hn; (destruct s as [|c s]; [discriminate|]); [cbn [length] in Hn; lia|].
  cbn [scan_str]. destruct (c =? 34); [intros H; injection H as _ <-; simpl; lia|].
  destruct (c =? 92).
  - destruct s as [|e s]; [discriminate|]. destruct (e =? 117).
    + do 4 (destruct s as [|? s]; [discriminate|]).
      destruct (hex4_val _ _ _ _); [|discriminate].
      assert (Hc : forall u, cons1 u (scan_str s) = Some (x, r) -> (length r < length s)%nat).
      { intros u H. apply cons1_some in H. destruct H as (s' & H). eapply IH; [|exact H]. simpl in Hn. lia. }
      do 6 (destruct s as [|? s]; [intros H; apply Hc in H; clear Hc; cbn [length] in *; lia|]).
      match goal with |- context [if ?b then _ else _] => destruct b end;
        [|intros H; apply Hc in H; clear Hc; cbn [length] in *; lia].
      destruct (hex4_val _ _ _ _); [|discriminate].
      destruct (low_surr _); [|intros H; apply Hc in H; clear Hc; cbn [length] in *; lia].
      intros H. apply cons1_some in H. destruct H as (s' & H). apply IH in H; [|cbn [length] in Hn; lia]. cbn [length]. lia.
    + destruct (short_escape e); [|discriminate]. intros H. apply cons1_some in H. destruct H as (s' & H).
      apply IH in H; [|cbn [length] in Hn; lia]. cbn [length]. lia.
  - destruct (c <? 32); [discriminate|]. intros H. apply cons1_some in H. destruct H as (s' & H).
    apply IH in H; [|cbn [length] in Hn; lia]. cbn [length]. lia.
Qed.
Lemma span_digits_length s d r : span_digits s = (d, r) -> (length r <= length s)%nat.
Proof.
  revert d r. induction s as [|c s IH]; simpl; intros d r H; [injection H as <- <-; simpl; lia|].
  destruct (is_digit c); [|injection H as <- <-; simpl; lia].
  destruct (span_digits s) as [d0 r0]. injection H as <- <-. specialize (IH _ _ eq_refl). lia.
Qed.
Lemma scan_nat_length s n r : scan_nat s = Some (n, r) -> (length r < length s)%nat.
Proof.
  unfold scan_nat. destruct s as [|c s]; [discriminate|].
  destruct (c =? 48); [intros H; injection H as _ <-; simpl; lia|].
  destruct (is_digit c) eqn:E; [|discriminate]. cbn [span_digits]. rewrite E.
  destruct (span_digits s) as [d0 r0] eqn:Es. destruct (int_digits _ _ _); [|discriminate].
  intros H; injection H as _ <-. apply span_digits_length in Es. simpl. lia.
Qed.
Lemma scan_int_length s z r : scan_int s = Some (z, r) -> (length r < length s)%nat.
Proof.
  unfold scan_int. destruct s as [|c s]; [discriminate|].
  destruct (c =? 45); destruct (scan_nat _) as [[n rest]|] eqn:E; try discriminate;
    destruct (is_float_tail rest); try discriminate; intros H; injection H as _ <-;
    apply scan_nat_length in E; simpl in *; lia.
Qed.

Definition fine (s : str) (x : res (json * str)) : Prop :=
  x <> Raise OutOfFuel /\ forall j r, x = Ok (j, r) -> (length r < length s)%nat.
Lemma fine_raise s : fine s (Raise ValueError).
Proof. split; [discriminate|]. intros ? ? H; discriminate. Qed.
Lemma fine_ok s j r : (length r < length s)%nat -> fine s (Ok (j, r)).
Proof. intros H. split; [discriminate|]. intros ? ? E. injection E as _ <-. exact H. Qed.
Lemma fine_weaken s s' x : (length s <= length s')%nat -> fine s x -> fine s' x.
Proof. intros H [H1 H2]. split; [exact H1|]. intros j r E. specialize (H2 j r E). lia. Qed.

Lemma startswith_length p s : startswith p s = true -> (length p <= length s)%nat.
Proof.
  revert s. induction p as [|x p IH]; intros [|y s]; simpl; try lia; try discriminate.
  intros H. apply andb_true_iff in H. destruct H as [_ H]. apply IH in H. lia.
Qed.
Lemma parse_fine f :
  (forall s, (2 * length s <= f)%nat -> fine s (parse_val (S f) s)) /\
  (forall acc s, (2 * length s <= f)%nat -> fine s (parse_members (S f) acc s)) /\
  (forall acc s, (2 * length s + 1 <= f)%nat -> fine s (parse_elems (S f) acc s)).
Proof.
  induction f as [f IH] using lt_wf_ind.
  assert (HV : forall s, (2 * length s <= f)%nat -> fine s (parse_val (S f) s)).
  { intros s Hs. cbn [parse_val]. destruct s as [|c r]; [apply fine_raise|].
    simpl in Hs. destruct f as [|f]; [lia|]. destruct (IH f) as (IHv & IHm & IHe); [lia|].
    destruct (c =? 34).
    { destruct (scan_str r) as [[x rest]|] eqn:E; [|apply fine_raise].
      apply fine_ok. apply (scan_str_length (length r)) in E; [|lia]. simpl; lia. }
    pose proof (skip_ws_length r) as Hsk.
    destruct (c =? 123).
    { destruct (skip_ws r) as [|d r'] eqn:Er; [apply fine_raise|]. simpl in Hsk.
      destruct (d =? 125); [apply fine_ok; simpl; lia|].
      eapply fine_weaken; [|apply IHm; simpl; lia]. simpl; lia. }
    destruct (c =? 91).
    { destruct (skip_ws r) as [|d r'] eqn:Er; [apply fine_raise|]. simpl in Hsk.
      destruct (d =? 93); [apply fine_ok; simpl; lia|].
      eapply fine_weaken; [|apply IHe; simpl; lia]. simpl; lia. }
    destruct (startswith (lit "null") (c :: r)) eqn:E1.
    { apply fine_ok. apply startswith_length in E1. rewrite skipn_length. simpl in *. lia. }
    destruct (startswith (lit "true") (c :: r)) eqn:E2.
    { apply fine_ok. apply startswith_length in E2. rewrite skipn_length. simpl in *. lia. }
    destruct (startswith (lit "false") (c :: r)) eqn:E3.
    { apply fine_ok. apply startswith_length in E3. rewrite skipn_length. simpl in *. lia. }
    destruct (scan_int (c :: r)) as [[z rest]|] eqn:E; [|apply fine_raise].
    apply fine_ok. apply scan_int_length in E. exact E. }
  split; [exact HV|]. split.
  - intros acc s Hs. cbn [parse_members]. destruct s as [|c r]; [apply fine_raise|].
    simpl in Hs. destruct f as [|f]; [lia|]. destruct (IH f) as (IHv & IHm & IHe); [lia|].
    destruct (negb (c =? 34)); [apply fine_raise|].
    destruct (scan_str r) as [[k r1]|] eqn:E; [|apply fine_raise].
    apply (scan_str_length (length r)) in E; [|lia].
    pose proof (skip_ws_length r1) as H1. destruct (skip_ws r1) as [|c1 r2]; [apply fine_raise|]. simpl in H1.
    destruct (negb (c1 =? 58)); [apply fine_raise|].
    pose proof (skip_ws_length r2) as H2.
    destruct (IHv (skip_ws r2)) as [Hn Hl]; [lia|].
    destruct (parse_val (S f) (skip_ws r2)) as [[v r3]|e].
    + specialize (Hl _ _ eq_refl). pose proof (skip_ws_length r3) as H3.
      destruct (skip_ws r3) as [|c2 r4]; [apply fine_raise|]. simpl in H3.
      destruct (c2 =? 125); [apply fine_ok; simpl; lia|].
      destruct (c2 =? 44); [|apply fine_raise]. pose proof (skip_ws_length r4) as H4.
      eapply fine_weaken; [|apply IHm; lia]. simpl; lia.
    + split; [congruence|intros ? ? H; discriminate].
  - intros acc s Hs. cbn [parse_elems]. destruct f as [|f]; [lia|].
    destruct (IH f) as (IHv & IHm & IHe); [lia|].
    destruct (IHv s) as [Hn Hl]; [lia|].
    destruct (parse_val (S f) s) as [[v r1]|e].
    + specialize (Hl _ _ eq_refl). pose proof (skip_ws_length r1) as H1.
      destruct (skip_ws r1) as [|c r2]; [apply fine_raise|]. simpl in H1.
      destruct (c =? 93); [apply fine_ok; simpl; lia|].
      destruct (c =? 44); [|apply fine_raise]. pose proof (skip_ws_length r2) as H2.
      eapply fine_weaken; [|apply IHe; lia]. lia.
    + split; [congruence|intros ? ? H; discriminate].
Qed.
Theorem json_loads_fuel s : loads s <> Raise OutOfFuel.
Proof.
  unfold loads. pose proof (skip_ws_length s) as Hs.
  destruct (parse_fine (2 * length s)) as (Hv & _). destruct (Hv (skip_ws s)) as [Hn _]; [lia|].
  destruct (parse_val _ _) as [[j r]|e]; [|congruence]. destruct (skip_ws r); discriminate.
Qed.

(** ** dumped text is printable ASCII *)
Definition printable (c : N) : Prop := 32 <= c <= 126.
Lemma hexdig_printable d : d < 16 -> printable (hexdig d).
Proof. intros H. unfold hexdig, printable. destruct (N.ltb_spec d 10); lia. Qed.
Lemma hex4_printable u : u < 65536 -> Forall printable (hex4 u).
Proof. intros H. unfold hex4. repeat (apply Forall_cons; [apply hexdig_printable; lia|]). constructor. Qed.
Ltac pp := repeat (apply Forall_cons; [unfold printable; lia|]); apply Forall_nil.
Lemma esc_char_printable c : is_scalar c = true -> Forall printable (esc_char c).
Proof.
  intros Hs. unfold esc_char, is_scalar in *.
  destruct (c =? 34); [pp|]. destruct (c =? 92); [pp|]. destruct (c =? 10); [pp|].
  destruct (c =? 13); [pp|]. destruct (c =? 9); [pp|]. destruct (c =? 12); [pp|].
  destruct (c =? 8); [pp|].
  destruct ((32 <=? c) && (c <=? 126)) eqn:E; [apply Forall_cons; [unfold printable; lia|apply Forall_nil]|].
  destruct (N.ltb_spec c 65536).
  - apply Forall_app. split; [pp|apply hex4_printable; lia].
  - apply Forall_app. split; [pp|]. apply Forall_app. split; [apply hex4_printable; lia|].
    apply Forall_app. split; [pp|apply hex4_printable; lia].
Qed.
Lemma dump_str_printable s : scalars s -> Forall printable (dump_str s).
Proof.
  intros H. unfold dump_str. apply Forall_app. split; [pp|]. apply Forall_app. split; [|pp].
  apply Forall_flat_map. eapply Forall_impl; [|exact H]. intros c Hc. apply esc_char_printable, Hc.
Qed.
Lemma join_Forall (P : N -> Prop) sep l : Forall P sep -> Forall (Forall P) l -> Forall P (join sep l).
Proof.
  intros Hs. induction l as [|x l IH]; intros H; [constructor|]. inversion H; subst. destruct l as [|y l].
  - simpl. assumption.
  - rewrite join_cons2. apply Forall_app. split; [assumption|]. apply Forall_app. split; [exact Hs|]. apply IH. assumption.
Qed.
Lemma dumps_printable j : json_ok j -> Forall printable (dumps j).
Proof.
  induction j as [|b|z|s|l Hl|m Hm] using json_ind2; intros Hok.
  - cbn. pp.
  - destruct b; cbn; pp.
  - cbn [dumps]. destruct (str_of_Z_chars z) as [H _]. eapply Forall_impl; [|exact H].
    intros c Hc. unfold printable, is_digit in *. lia.
  - apply dump_str_printable, Hok.
  - apply json_ok_arr in Hok. cbn [dumps]. apply Forall_app. split; [pp|]. apply Forall_app. split; [|pp].
    apply join_Forall; [pp|]. rewrite Forall_forall in *. intros x Hx. apply in_map_iff in Hx.
    destruct Hx as (y & <- & Hy). apply Hl; auto.
  - apply json_ok_obj in Hok. destruct Hok as [_ Hok]. rewrite dumps_obj.
    apply Forall_app. split; [pp|]. apply Forall_app. split; [|pp].
    apply join_Forall; [pp|]. rewrite Forall_forall in *. intros x Hx. apply in_map_iff in Hx.
    destruct Hx as (y & <- & Hy). destruct (Hok y Hy) as [Hk Hv]. unfold dump_member.
    apply Forall_app. split; [apply dump_str_printable, Hk|]. apply Forall_app. split; [pp|]. apply Hm; auto.
Qed.
