(** json.loads (json.dumps(j, ensure_ascii=False)) = j. *)
From Coq Require Import Strings.String.
From Verif Require Import Py PyLemmas PyStr Utf8Model Utf8Proofs StrSpec PyStrProofs JsonModel NumProofs JsonProofs GramModel.
From Coq Require Import ZifyBool ZifyN.
Local Open Scope N_scope.
Local Open Scope list_scope.
Ltac Zify.zify_post_hook ::= Z.div_mod_to_equations.

Definition raw_member (kv : str * json) : str := dump_raw_str (fst kv) ++ COLON_SP ++ dumps_raw (snd kv).
Lemma raw_obj m : dumps_raw (JObj m) = [123] ++ join COMMA_SP (map raw_member m) ++ [125].
Proof.
  cbn [dumps_raw]. f_equal. f_equal. f_equal.
  induction m as [|[k v] m IH]; [reflexivity|]. cbn [map]. f_equal. exact IH.
Qed.

Lemma scan_esc_raw c r : scan_str (esc_raw c ++ r) = cons1 c (scan_str r).
Proof.
  unfold esc_raw.
  destruct (N.eqb_spec c 34) as [->|N34]; [reflexivity|].
  destruct (N.eqb_spec c 92) as [->|N92]; [reflexivity|].
  destruct (N.eqb_spec c 10) as [->|N10]; [reflexivity|].
  destruct (N.eqb_spec c 13) as [->|N13]; [reflexivity|].
  destruct (N.eqb_spec c 9) as [->|N9]; [reflexivity|].
  destruct (N.eqb_spec c 12) as [->|N12]; [reflexivity|].
  destruct (N.eqb_spec c 8) as [->|N8]; [reflexivity|].
  destruct (N.ltb_spec c 32) as [Hlt|Hge].
  - unfold hex4. cbn [app]. apply scan_str_u; [apply hex4_val_of; lia|]. unfold high_surr. lia.
  - cbn [app scan_str].
    assert (E1 : (c =? 34) = false) by lia. assert (E2 : (c =? 92) = false) by lia.
    assert (E3 : (c <? 32) = false) by lia. rewrite E1, E2, E3. reflexivity.
Qed.
Lemma scan_raw_str s r : scalars s -> scan_str (flat_map esc_raw s ++ 34 :: r) = Some (s, r).
Proof. intros _. induction s as [|c s IH]; [reflexivity|]. cbn [flat_map]. rewrite <- app_assoc, scan_esc_raw, IH. reflexivity. Qed.
Lemma raw_head j : exists c r, dumps_raw j = c :: r /\ json_ws c = false /\ c <> 93 /\ c <> 125.
Proof.
  destruct j as [|[|]|z|s|l|m];
    [exists 110; eexists; split; [reflexivity|split; [reflexivity|split; lia]]
    |exists 116; eexists; split; [reflexivity|split; [reflexivity|split; lia]]
    |exists 102; eexists; split; [reflexivity|split; [reflexivity|split; lia]]
    | |exists 34; eexists; split; [reflexivity|split; [reflexivity|split; lia]]
    |exists 91; eexists; split; [reflexivity|split; [reflexivity|split; lia]]
    |exists 123; eexists; split; [reflexivity|split; [reflexivity|split; lia]]].
  destruct (str_of_Z_head z) as (c & r & E & Hc). exists c, r. cbn [dumps_raw]. split; [exact E|].
  unfold json_ws, is_digit in *. split; [lia|]. split; lia.
Qed.
Definition rrt (j : json) : Prop :=
  forall f r, (jsize j <= f)%nat -> follows r -> parse_val f (dumps_raw j ++ r) = Ok (j, r).
Lemma raw_elems_rt l : l <> [] -> Forall rrt l -> forall f acc r,
  (asize l <= f)%nat ->
  parse_elems f acc (join COMMA_SP (map dumps_raw l) ++ 93 :: r) = Ok (JArr (acc ++ l), r).
Proof.
  induction l as [|x l IH]; intros Hne Hl f acc r Hf; [congruence|].
  inversion Hl as [|? ? Hx Hl']; subst. cbn [asize fold_right] in Hf. fold (asize l) in Hf.
  destruct f as [|f]; [lia|]. destruct l as [|y l].
  - cbn [map join parse_elems]. rewrite Hx; [|simpl in Hf; lia|right; exists 93, r; auto].
    cbn [skip_ws]. change (json_ws 93) with false. cbv iota. change (93 =? 93) with true. reflexivity.
  - cbn [map]. rewrite join_cons2. cbn [parse_elems].
    rewrite <- !app_assoc. rewrite Hx; [|lia|unfold COMMA_SP; apply follows_comma].
    unfold COMMA_SP at 1. cbn [app skip_ws]. change (json_ws 44) with false. cbv iota.
    change (44 =? 93) with false. change (44 =? 44) with true. cbv iota.
    cbn [skip_ws]. change (json_ws 32) with true. cbv iota.
    change (dumps_raw y :: map dumps_raw l) with (map dumps_raw (y :: l)).
    assert (Es : forall z, skip_ws (join COMMA_SP (map dumps_raw (y :: l)) ++ z) = join COMMA_SP (map dumps_raw (y :: l)) ++ z).
    { intros z. destruct (raw_head y) as (c & t & Ed & Hw & _ & _). cbn [map].
      destruct l as [|y2 l]; [cbn [join]|rewrite ?join_cons2; cbn [map]; rewrite join_cons2]; rewrite Ed; cbn [app]; apply skip_ws_id, Hw. }
    rewrite Es, IH; [rewrite <- app_assoc; reflexivity|discriminate|assumption|lia].
Qed.
Lemma raw_member_head kv : exists r, raw_member kv = 34 :: r.
Proof. unfold raw_member, dump_raw_str. eexists. reflexivity. Qed.
Lemma raw_members_rt m : m <> [] -> Forall (fun kv => scalars (fst kv) /\ rrt (snd kv)) m ->
  forall f acc r, NoDup (map fst acc ++ map fst m) -> (osize m <= f)%nat ->
  parse_members f acc (join COMMA_SP (map raw_member m) ++ 125 :: r) = Ok (JObj (acc ++ m), r).
Proof.
  induction m as [|[k v] m IH]; intros Hne Hm f acc r Hnd Hf; [congruence|].
  inversion Hm as [|? ? [Hk Hv] Hm']; subst. simpl fst in *; simpl snd in *.
  cbn [osize fold_right snd] in Hf. fold (osize m) in Hf.
  destruct f as [|f]; [lia|].
  assert (Hfresh : dset str_eqb k v acc = acc ++ [(k, v)]).
  { apply dset_fresh; [exact str_eqb_eq|]. intros Hin. cbn [map] in Hnd.
    apply NoDup_remove_2 in Hnd. apply Hnd, in_or_app. left. exact Hin. }
  assert (Hnd' : NoDup (map fst (acc ++ [(k, v)]) ++ map fst m)).
  { rewrite map_app, <- app_assoc. exact Hnd. }
  assert (Hone : forall z, skip_ws z = z -> follows z ->
     parse_members (S f) acc (raw_member (k, v) ++ z) =
     match z with
     | [] => Raise ValueError
     | c2 :: r4 => if c2 =? 125 then Ok (JObj (acc ++ [(k, v)]), r4)
                   else if c2 =? 44 then parse_members f (acc ++ [(k, v)]) (skip_ws r4)
                   else Raise ValueError
     end).
  { intros z Hz Hfz. unfold raw_member, dump_raw_str. simpl fst; simpl snd.
    repeat rewrite <- app_assoc. cbn [app parse_members]. change (negb (34 =? 34)) with false. cbv iota.
    rewrite scan_raw_str by exact Hk. unfold COLON_SP. cbn [app skip_ws].
    change (json_ws 58) with false. cbv iota. change (negb (58 =? 58)) with false. cbv iota.
    cbn [skip_ws]. change (json_ws 32) with true. cbv iota.
    destruct (raw_head v) as (c & t & Ed & Hw & _ & _).
    assert (Es : skip_ws (dumps_raw v ++ z) = dumps_raw v ++ z) by (rewrite Ed; cbn [app]; apply skip_ws_id, Hw).
    rewrite Es, Hv; [|lia|exact Hfz]. rewrite Hz, Hfresh. reflexivity. }
  destruct m as [|kv2 m].
  - cbn [map join]. rewrite Hone; [reflexivity|reflexivity|right; exists 125, r; auto].
  - cbn [map]. rewrite join_cons2, <- !app_assoc. unfold COMMA_SP at 1. cbn [app].
    rewrite Hone; [|reflexivity|apply follows_comma]. change (44 =? 125) with false.
    change (44 =? 44) with true. cbv iota. cbn [skip_ws]. change (json_ws 32) with true. cbv iota.
    change (raw_member kv2 :: map raw_member m) with (map raw_member (kv2 :: m)).
    assert (Es : forall z, skip_ws (join COMMA_SP (map raw_member (kv2 :: m)) ++ z) = join COMMA_SP (map raw_member (kv2 :: m)) ++ z).
    { intros z. destruct (raw_member_head kv2) as (t & Ed). cbn [map].
      destruct m as [|kv3 m]; [cbn [join]|cbn [map]; rewrite join_cons2]; rewrite Ed; cbn [app]; apply skip_ws_id; reflexivity. }
    rewrite Es, IH; [rewrite <- app_assoc; reflexivity|discriminate|assumption|exact Hnd'|lia].
Qed.
Lemma raw_val_rt j : json_ok j -> rrt j.
Proof.
  induction j as [|b|z|s|l Hl|m Hm] using json_ind2; intros Hok f r Hf Hr;
    (destruct f as [|f]; [simpl in Hf; lia|]).
  - reflexivity.
  - destruct b; reflexivity.
  - cbn [dumps_raw parse_val]. destruct (str_of_Z_head z) as (c & t & E & Hc).
    pose proof (scan_int_str z r Hr) as Es. rewrite E in *. cbn [app] in *.
    assert (E1 : (c =? 34) = false) by (unfold is_digit in Hc; lia).
    assert (E2 : (c =? 123) = false) by (unfold is_digit in Hc; lia).
    assert (E3 : (c =? 91) = false) by (unfold is_digit in Hc; lia).
    assert (E4 : (110 =? c) = false) by (unfold is_digit in Hc; lia).
    assert (E5 : (116 =? c) = false) by (unfold is_digit in Hc; lia).
    assert (E6 : (102 =? c) = false) by (unfold is_digit in Hc; lia).
    rewrite E1, E2, E3.
    change (lit "null") with [110; 117; 108; 108]. change (lit "true") with [116; 114; 117; 101].
    change (lit "false") with [102; 97; 108; 115; 101]. cbn [startswith]. rewrite E4, E5, E6. cbn [andb].
    rewrite Es. reflexivity.
  - cbn [dumps_raw]. unfold dump_raw_str. repeat rewrite <- app_assoc. cbn [app parse_val].
    change (34 =? 34) with true. cbv iota. rewrite scan_raw_str by exact Hok. reflexivity.
  - rewrite jsize_arr in Hf. apply json_ok_arr in Hok. cbn [dumps_raw].
    repeat rewrite <- app_assoc. cbn [app parse_val].
    change (91 =? 34) with false. change (91 =? 123) with false. change (91 =? 91) with true. cbv iota.
    destruct l as [|x l]; [reflexivity|].
    destruct (raw_head x) as (c & t & Ed & Hw & H93 & _).
    destruct (join_head COMMA_SP (dumps_raw x) (map dumps_raw l) c t Ed) as (t' & Ej).
    change (dumps_raw x :: map dumps_raw l) with (map dumps_raw (x :: l)) in Ej. rewrite Ej. cbn [app].
    rewrite skip_ws_id by exact Hw. destruct (N.eqb_spec c 93); [contradiction|].
    change (c :: t' ++ 93 :: r) with ((c :: t') ++ 93 :: r). rewrite <- Ej.
    rewrite raw_elems_rt; [reflexivity|discriminate| |lia].
    rewrite Forall_forall in *. intros y Hy. apply Hl; [exact Hy|apply Hok, Hy].
  - rewrite jsize_obj in Hf. apply json_ok_obj in Hok. destruct Hok as [Hnd Hok]. rewrite raw_obj.
    repeat rewrite <- app_assoc. cbn [app parse_val].
    change (123 =? 34) with false. change (123 =? 123) with true. cbv iota.
    destruct m as [|kv m]; [reflexivity|].
    destruct (raw_member_head kv) as (t & Ed).
    destruct (join_head COMMA_SP (raw_member kv) (map raw_member m) 34 t Ed) as (t' & Ej).
    change (raw_member kv :: map raw_member m) with (map raw_member (kv :: m)) in Ej. rewrite Ej. cbn [app].
    rewrite skip_ws_id by reflexivity. change (34 =? 125) with false. cbv iota.
    change (34 :: t' ++ 125 :: r) with ((34 :: t') ++ 125 :: r). rewrite <- Ej.
    rewrite raw_members_rt; [reflexivity|discriminate| |exact Hnd|lia].
    rewrite Forall_forall in *. intros y Hy. split; [apply (Hok y Hy)|]. apply Hm; [exact Hy|apply (Hok y Hy)].
Qed.
Lemma raw_length j : (jsize j <= 2 * length (dumps_raw j))%nat /\ (1 <= length (dumps_raw j))%nat.
Proof.
  induction j as [|b|z|s|l Hl|m Hm] using json_ind2.
  - simpl; lia.
  - destruct b; simpl; lia.
  - destruct (str_of_Z_head z) as (c & t & E & _). cbn [dumps_raw jsize]. rewrite E. simpl. lia.
  - cbn [dumps_raw jsize]. unfold dump_raw_str. rewrite !app_length. simpl. lia.
  - rewrite jsize_arr. cbn [dumps_raw]. rewrite !app_length. cbn [length].
    enough (asize l <= S (2 * length (join COMMA_SP (map dumps_raw l))))%nat by lia.
    induction l as [|x l IHl]; [simpl; lia|]. inversion Hl as [|? ? [Hx Hx1] Hl']; subst.
    cbn [asize fold_right]. fold (asize l). specialize (IHl Hl'). destruct l as [|y l].
    + cbn [map join]. simpl asize. lia.
    + cbn [map] in *. rewrite join_cons2, !app_length. unfold COMMA_SP at 1. cbn [length]. lia.
  - rewrite jsize_obj, raw_obj. rewrite !app_length. cbn [length].
    enough (osize m <= S (2 * length (join COMMA_SP (map raw_member m))))%nat by lia.
    induction m as [|[k v] m IHm]; [simpl; lia|]. inversion Hm as [|? ? [Hx Hx1] Hm']; subst. simpl snd in *.
    cbn [osize fold_right snd]. fold (osize m). specialize (IHm Hm').
    assert (Hd : (length (dumps_raw v) + 4 <= length (raw_member (k, v)))%nat).
    { unfold raw_member, dump_raw_str, COLON_SP. rewrite !app_length. simpl. lia. }
    destruct m as [|y m].
    + cbn [map join]. simpl osize. lia.
    + cbn [map] in *. rewrite join_cons2, !app_length. unfold COMMA_SP at 1. cbn [length]. lia.
Qed.
Theorem loads_raw j : json_ok j -> loads (dumps_raw j) = Ok j.
Proof.
  intros H. unfold loads. destruct (raw_head j) as (c & t & E & Hw & _ & _).
  rewrite E at 2. rewrite skip_ws_id, <- E by exact Hw.
  rewrite <- (app_nil_r (dumps_raw j)) at 2. destruct (raw_length j) as [Hl _].
  rewrite (raw_val_rt j H); [reflexivity|lia|left; reflexivity].
Qed.
