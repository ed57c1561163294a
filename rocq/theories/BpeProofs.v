(** BPE segmentation: the trie walk is greedy longest match; stochastic splitting. *)
From Coq Require Import Strings.String.
From Verif Require Import Py PyLemmas PyStr StrSpec PyStrProofs Utf8Model CodecModel CodecSpec
     FlatProofs TrieProofs.
Local Open Scope Z_scope.
Local Open Scope list_scope.
Local Open Scope res_scope.

(** ** the segmentation loop *)
Section Loop.
  Variables (table : list Typ) (unk : Z).
  Let root := build tr_empty table.
  Hypothesis Hne : ~ has_name table [].

  (** the last match seen among the prefixes shorter than i *)
  Definition best (seq : str) (i : nat) (data : option (Typ * nat)) : Prop :=
    match data with
    | None => forall j, (j < i)%nat -> look (firstn j seq) root = None
    | Some (t, j) => (j < i)%nat /\ look (firstn j seq) root = Some t /\
                     forall j', (j < j' < i)%nat -> look (firstn j' seq) root = None
    end.

  (** outcome of one pass over seq *)
  Definition passed (seq : str) (x : Z) (rest : str) : Prop :=
    (exists t j, (0 < j <= length seq)%nat /\ x = t_idx t /\ rest = skipn j seq /\
       look (firstn j seq) root = Some t /\
       forall j', (j < j' <= length seq)%nat -> look (firstn j' seq) root = None) \/
    (x = unk /\ rest = skipn 1 seq /\
     forall j', (j' <= length seq)%nat -> look (firstn j' seq) root = None).

  Lemma firstn_snoc (seq : str) i c :
    nth_error seq i = Some c -> firstn (S i) seq = firstn i seq ++ [c].
  Proof.
    revert i; induction seq as [|x seq IH]; intros [|i] H; simpl in *; try discriminate.
    - injection H as ->. reflexivity.
    - f_equal. apply IH, H.
  Qed.

  Lemma look_beyond (seq : str) i j m :
    (i <= j <= length seq)%nat -> tr_get (firstn i seq) root = Ok m ->
    (forall c, nth_error seq i = Some c -> dget N.eqb c (tr_kids m) = None) ->
    (i < j)%nat -> look (firstn j seq) root = None.
  Proof.
    intros Hij Hm Hc Hlt. unfold look.
    destruct (nth_error seq i) as [c|] eqn:E.
    - assert (Ej : firstn j seq = (firstn i seq ++ [c]) ++ firstn (j - S i) (skipn (S i) seq)).
      { rewrite <- (firstn_snoc _ _ _ E).
        rewrite <- (firstn_skipn (S i) seq) at 1.
        rewrite firstn_app, firstn_firstn, firstn_length.
        rewrite Nat.min_r by lia. rewrite Nat.min_l by lia. reflexivity. }
      rewrite Ej, tr_get_app, tr_get_app, Hm. simpl. rewrite (Hc c eq_refl). reflexivity.
    - apply nth_error_None in E. lia.
  Qed.

  Lemma loop_pass n : forall seq i prev data res,
    (length seq - i = n)%nat -> (i <= length seq)%nat -> seq <> [] ->
    tr_get (firstn i seq) root = Ok prev -> best seq i data ->
    exists k x rest, (k <= n + 1)%nat /\ passed seq x rest /\
      forall f, l_loop (k + f) root unk (MkL seq i prev data res)
              = l_loop f root unk (MkL rest 0 root None (res ++ [x])).
  Proof.
    induction n as [|n IH]; intros seq i prev data res Hn Hi Hseq Hprev Hbest;
      set (data' := match tr_data prev with Some t => Some (t, i) | None => data end).
    all: assert (Hbest' : best seq (S i) data').
    1,3: unfold data', best; pose proof Hprev as Hl;
         assert (Hlook : look (firstn i seq) root = tr_data prev) by (unfold look; rewrite Hprev; reflexivity);
         destruct (tr_data prev) as [t|];
         [ split; [lia|]; split; [exact Hlook|]; intros j' Hj'; lia
         | destruct data as [[t0 j0]|]; simpl in Hbest;
           [ destruct Hbest as (B1 & B2 & B3); split; [lia|]; split; [exact B2|];
             intros j' Hj'; destruct (Nat.eq_dec j' i) as [->|]; [exact Hlook|apply B3; lia]
           | intros j' Hj'; destruct (Nat.eq_dec j' i) as [->|]; [exact Hlook|apply Hbest; lia] ] ].
    all: assert (Hcond : l_cond (MkL seq i prev data res) = true) by
        (unfold l_cond; cbn [l_seq l_idx]; destruct seq; [contradiction|];
         apply Nat.ltb_lt; lia).
    (* the end of a pass at position i, given no longer prefix is in the trie *)
    all: assert (Hend : (forall j, (i < j <= length seq)%nat -> look (firstn j seq) root = None) ->
        exists x rest, passed seq x rest /\
          match data' with
          | Some (t, j) => MkL (skipn j seq) 0 root None (res ++ [t_idx t])
          | None => MkL (skipn 1 seq) 0 root None (res ++ [unk])
          end = MkL rest 0 root None (res ++ [x])).
    1,3: intros Hbeyond; destruct data' as [[t j]|]; simpl in Hbest';
      [ destruct Hbest' as (B1 & B2 & B3); exists (t_idx t), (skipn j seq); split; [|reflexivity];
        left; exists t, j; split;
        [ split; [|lia]; destruct j as [|j]; [|lia]; exfalso;
          simpl in B2; assert (Hx : look [] root = None) by (apply look_build_none; exact Hne); congruence
        | split; [reflexivity|]; split; [reflexivity|]; split; [exact B2|];
          intros j' Hj'; destruct (le_lt_dec j' i); [apply B3; lia|apply Hbeyond; lia] ]
      | exists unk, (skipn 1 seq); split; [|reflexivity]; right; split; [reflexivity|]; split; [reflexivity|];
        intros j' Hj'; destruct (le_lt_dec j' i); [apply Hbest'; lia|apply Hbeyond; lia] ].
    - (* i = length seq *)
      assert (Ei : i = length seq) by lia.
      destruct Hend as (x & rest & Hp & E); [intros j Hj; lia|].
      exists 1%nat, x, rest. split; [lia|]. split; [exact Hp|].
      intros f. simpl l_loop. rewrite Hcond. unfold l_body. cbn [l_seq l_idx l_prev l_data l_res].
      fold data'. rewrite Ei, Nat.ltb_irrefl. rewrite <- E. subst i.
      destruct data' as [[t j]|]; reflexivity.
    - assert (Hlt : (i < length seq)%nat) by lia.
      destruct (nth_error seq i) as [c|] eqn:Ec; [|apply nth_error_None in Ec; lia].
      destruct (dget N.eqb c (tr_kids prev)) as [k|] eqn:Ek.
      + destruct (IH seq (i + 1)%nat k data' res) as (m & x & rest & Hm & Hp & Hl).
        * lia.
        * lia.
        * exact Hseq.
        * replace (i + 1)%nat with (S i) by lia. rewrite (firstn_snoc _ _ _ Ec), tr_get_app, Hprev.
          simpl. rewrite Ek. reflexivity.
        * replace (i + 1)%nat with (S i) by lia. exact Hbest'.
        * exists (S m), x, rest. split; [lia|]. split; [exact Hp|].
          intros f. simpl l_loop. rewrite Hcond. unfold l_body. cbn [l_seq l_idx l_prev l_data l_res].
          fold data'. apply Nat.ltb_lt in Hlt. rewrite Hlt, Ec, Ek. apply Hl.
      + destruct Hend as (x & rest & Hp & E).
        { intros j Hj. eapply (look_beyond seq i j prev); [lia|exact Hprev| |lia].
          intros c' Hc'. congruence. }
        exists 1%nat, x, rest. split; [lia|]. split; [exact Hp|].
        intros f. simpl l_loop. rewrite Hcond. unfold l_body. cbn [l_seq l_idx l_prev l_data l_res].
        fold data'. apply Nat.ltb_lt in Hlt. rewrite Hlt, Ec, Ek. rewrite <- E.
        destruct data' as [[t j]|]; reflexivity.
  Qed.

  Definition seg_id (sg : seg) (id : Z) : Prop :=
    match sg with
    | Known p => exists t, last_named table p t /\ id = t_idx t
    | Unknown _ => id = unk
    end.

  Lemma look_name q : look q root <> None <-> has_name table q.
  Proof.
    unfold root. rewrite look_build_none. destruct (has_name_dec table q); tauto.
  Qed.

  Lemma loop_greedy n : forall seq res,
    (length seq <= n)%nat ->
    exists k segs ids, (k <= n * (n + 1))%nat /\ greedy table seq segs /\ Forall2 seg_id segs ids /\
      forall f, l_loop (k + f) root unk (MkL seq 0 root None res) = Ok (res ++ ids).
  Proof.
    induction n as [|n IH]; intros seq res Hn.
    - destruct seq as [|c seq]; [|simpl in Hn; lia].
      exists 0%nat, [], []. split; [lia|]. split; [constructor|]. split; [constructor|].
      intros f. rewrite app_nil_r. destruct f; reflexivity.
    - destruct seq as [|c seq].
      { exists 0%nat, [], []. split; [lia|]. split; [constructor|]. split; [constructor|].
        intros f. rewrite app_nil_r. destruct f; reflexivity. }
      set (sq := c :: seq) in *.
      destruct (loop_pass (length sq - 0) sq 0 root None res) as (k & x & rest & Hk & Hp & Hl);
        [reflexivity|lia|discriminate|reflexivity|intros j Hj; lia|].
      destruct Hp as [(t & j & Hj & -> & -> & Hlook & Hmax)|(-> & -> & Hno)].
      + destruct (IH (skipn j sq) (res ++ [t_idx t])) as (k2 & segs & ids & Hk2 & Hg & Hids & Hl2).
        { rewrite skipn_length. lia. }
        apply look_build in Hlook.
        exists (k + k2)%nat, (Known (firstn j sq) :: segs), (t_idx t :: ids).
        split; [simpl in *; nia|]. split; [|split].
        * rewrite <- (firstn_skipn j sq) at 1. constructor.
          -- intros E. apply (f_equal (@length N)) in E. rewrite firstn_length in E. simpl in E, Hj. lia.
          -- destruct Hlook as (a & b & E & Ht & _). exists t. rewrite E. split; [|exact Ht].
             apply in_app_iff. right; left; reflexivity.
          -- intros q r Hq E. rewrite firstn_skipn in E.
             destruct (le_lt_dec (length q) j) as [Hle|Hgt]; [rewrite firstn_length; lia|exfalso].
             assert (Hlq : (length q <= length sq)%nat).
             { rewrite <- E, app_length. lia. }
             assert (Eq : firstn (length q) sq = q).
             { rewrite <- E, firstn_app, firstn_all, Nat.sub_diag. simpl. apply app_nil_r. }
             apply look_name in Hq. apply Hq. rewrite <- Eq. apply Hmax. lia.
          -- exact Hg.
        * constructor; [exists t; auto|exact Hids].
        * intros f. rewrite <- Nat.add_assoc, Hl, Hl2, <- app_assoc. reflexivity.
      + destruct (IH (skipn 1 sq) (res ++ [unk])) as (k2 & segs & ids & Hk2 & Hg & Hids & Hl2).
        { rewrite skipn_length. lia. }
        exists (k + k2)%nat, (Unknown c :: segs), (unk :: ids).
        split; [simpl in *; nia|]. split; [|split].
        * unfold sq. constructor; [|exact Hg].
          intros q r Hq E. exfalso. apply look_name in Hq. apply Hq.
          assert (Eq : firstn (length q) sq = q).
          { unfold sq. rewrite <- E, firstn_app, firstn_all, Nat.sub_diag. simpl. apply app_nil_r. }
          rewrite <- Eq. apply Hno. unfold sq. rewrite <- E, app_length. lia.
        * constructor; [reflexivity|exact Hids].
        * intros f. rewrite <- Nat.add_assoc, Hl, Hl2, <- app_assoc. reflexivity.
  Qed.
End Loop.

(** the greedy segmentation is unique *)
Lemma app_prefix_eq {A} (p q r s : list A) : p ++ r = q ++ s -> length p = length q -> p = q /\ r = s.
Proof.
  revert q; induction p as [|x p IH]; intros [|y q] H L; simpl in *; try discriminate; [auto|].
  injection H as -> H. injection L as L. destruct (IH q H L) as [-> ->]. auto.
Qed.
Lemma greedy_unique table text s1 s2 : greedy table text s1 -> greedy table text s2 -> s1 = s2.
Proof.
  intros H. revert s2. induction H as [|p rest segs Hp Hn Hmax Hg IH|c rest segs Hno Hg IH]; intros s2 H2.
  - inversion H2 as [|p rest segs Hp' Hn' Hmax' Hg' E|]; [reflexivity|].
    exfalso. apply app_eq_nil in E as [-> ->]. apply Hp'; reflexivity.
  - inversion H2 as [E|p' rest' segs' Hp' Hn' Hmax' Hg' E|c rest' segs' Hno' Hg' E].
    + exfalso. destruct p; [contradiction|discriminate].
    + assert (L : length p' = length p).
      { pose proof (Hmax p' rest' Hn' E). pose proof (Hmax' p rest Hn (eq_sym E)). lia. }
      destruct (app_prefix_eq _ _ _ _ E L) as [-> ->]. f_equal. apply IH. assumption.
    + exfalso. apply Hp. apply (Hno' p rest Hn). symmetry; exact E.
  - inversion H2 as [E|p' rest' segs' Hp' Hn' Hmax' Hg' E|c' rest' segs' Hno' Hg' E].
    + exfalso. apply Hp'. apply (Hno p' rest' Hn' E).
    + subst. f_equal. apply IH. assumption.
Qed.
Lemma greedy_text table text segs : greedy table text segs -> concat (map seg_text segs) = text.
Proof. induction 1 as [| p rest segs ? ? ? ? IH | c rest segs ? ? IH]; simpl; [reflexivity| |]; rewrite IH; reflexivity. Qed.

(** ** the scheme *)
Lemma make_bpe_inv table s :
  make_scheme KBpe table = Ok s <->
  starts_reserved table /\ ~ has_name table [] /\
  s = MkScheme KBpe table (map t_name table) (str_to_idx_first table) (Some 1) (build tr_empty table).
Proof.
  simpl. unfold encoder_init, idx_to_str_of.
  pose proof (validate_reserved_spec table) as Hv.
  destruct (validate_reserved table) as [[]|e]; simpl.
  - destruct (make_vocab_prefix_trie table) as [root|e] eqn:E; simpl.
    + apply make_trie_inv in E as [-> Hne]. split.
      * intros H. injection H as <-. split; [apply Hv; reflexivity|]. auto.
      * intros (_ & _ & ->). reflexivity.
    + split; [discriminate|]. intros (_ & H & _).
      apply trie_accepts in H as [root H]. congruence.
  - split; [discriminate|]. intros (H & _). apply Hv in H. discriminate.
Qed.

Lemma bpe_text_marked line : marked line (bpe_text line).
Proof.
  exists (split line). split; [apply words_of_split|].
  unfold bpe_text. rewrite split_strip, join_spaced. reflexivity.
Qed.
Lemma marked_text line text : marked line text -> text = bpe_text line.
Proof.
  intros (ws & H & ->). apply split_words_of in H as <-.
  unfold bpe_text. rewrite split_strip, join_spaced. reflexivity.
Qed.

Lemma well_indexed_nth table t : well_indexed table -> In t table -> py_nth table (t_idx t) = Ok t.
Proof.
  intros Hw Hin. apply In_nth_error in Hin as (n & Hn). rewrite (Hw _ _ Hn).
  apply py_nth_of_nat. exact Hn.
Qed.
Lemma last_named_in table p t : last_named table p t -> In t table /\ t_name t = p.
Proof. intros (a & b & -> & H & _). split; [|exact H]. apply in_app_iff; right; left; reflexivity. Qed.

Lemma seg_ids_valid table segs ids :
  starts_reserved table -> well_indexed table -> Forall2 (seg_id table 1) segs ids ->
  Forall2 (fun sg i => name_at table i (seg_piece sg)) segs ids.
Proof.
  intros Hr Hw. induction 1 as [|sg i segs ids Hi _ IH]; constructor; [|exact IH].
  destruct sg as [p|c]; simpl in *.
  - destruct Hi as (t & Ht & ->). apply last_named_in in Ht as [Hin <-].
    apply In_nth_error in Hin as (n & Hn). rewrite (Hw _ _ Hn).
    split; [lia|]. exists t. rewrite Nat2Z.id. auto.
  - subst i. apply starts_reserved_unk, Hr.
Qed.

Lemma bpe_segment_spec table s line :
  make_scheme KBpe table = Ok s ->
  exists segs ids, greedy table (bpe_text line) segs /\ Forall2 (seg_id table 1) segs ids /\
                   bpe_segment s 1 line = Ok ids.
Proof.
  intros Hs. apply make_bpe_inv in Hs as (Hr & Hne & ->).
  unfold bpe_segment. cbn [s_root]. set (sq := bpe_text line). set (n := length sq).
  destruct (loop_greedy table 1 Hne n sq []) as (k & segs & ids & Hk & Hg & Hids & Hl); [unfold n; lia|].
  exists segs, ids. split; [exact Hg|]. split; [exact Hids|].
  replace (S n * S (S n))%nat with (k + (S n * S (S n) - k))%nat by nia.
  rewrite Hl. reflexivity.
Qed.

Lemma names_of_ids table ids ws :
  Forall2 (fun i w => name_at table i w) ids ws ->
  mapM (fun i => let* t := py_nth table i in Ok (t_name t)) ids = Ok ws.
Proof.
  intros H. apply mapM_forall2. induction H as [|i w ids ws (H0 & t & Ht & Hn) _ IH]; constructor; [|exact IH].
  assert (E : py_nth table i = Ok t) by (apply py_nth_nonneg; assumption).
  rewrite E. simpl. congruence.
Qed.
Lemma Forall2_flip_map {A B C} (P : C -> B -> Prop) (f : A -> B) (l : list A) (l' : list C) :
  Forall2 (fun a c => P c (f a)) l l' -> Forall2 P l' (map f l).
Proof. induction 1; simpl; constructor; auto. Qed.

Lemma bpe_encode_str_spec table s line :
  make_scheme KBpe table = Ok s -> well_indexed table ->
  exists segs ids, greedy table (bpe_text line) segs /\
     Forall2 (fun i w => name_at table i w) ids (map seg_piece segs) /\
     bpe_segment s 1 line = Ok ids /\
     encode_str s line = Ok (map seg_piece segs).
Proof.
  intros Hs Hw. destruct (bpe_segment_spec table s line Hs) as (segs & ids & Hg & Hids & Hseg).
  apply make_bpe_inv in Hs as (Hr & Hne & Es).
  pose proof (seg_ids_valid table segs ids Hr Hw Hids) as Hv.
  apply Forall2_flip_map in Hv.
  exists segs, ids. split; [exact Hg|]. split; [exact Hv|]. split; [exact Hseg|].
  unfold encode_str. rewrite Es. cbn [s_kind]. rewrite <- Es.
  unfold bpe_encode_str. assert (Eu : s_unk s = Some 1) by (rewrite Es; reflexivity).
  rewrite Eu, Hseg. cbn [bind]. assert (Et : s_table s = table) by (rewrite Es; reflexivity).
  rewrite Et. apply names_of_ids. exact Hv.
Qed.

(** *** C05 *)
Lemma bpe_greedy table s line text :
  make_scheme KBpe table = Ok s -> well_indexed table -> marked line text ->
  exists segs, greedy table text segs /\ encode_str s line = Ok (map seg_piece segs).
Proof.
  intros Hs Hw Hm. apply marked_text in Hm as ->.
  destruct (bpe_encode_str_spec table s line Hs Hw) as (segs & ids & Hg & _ & _ & He). eauto.
Qed.

(** ** ids *)
Definition bid (table : list Typ) (w : str) : Z := dget_def str_eqb w 1 (str_to_idx_first table).
Lemma bid_known table w :
  has_name table w ->
  name_at table (bid table w) w /\ forall j, name_at table j w -> bid table w <= j.
Proof.
  intros Hn. unfold bid, dget_def.
  destruct (dget str_eqb w (str_to_idx_first table)) as [i|] eqn:E.
  - apply str_to_idx_first_get in E. exact E.
  - apply str_to_idx_first_none in E. contradiction.
Qed.
Lemma bid_unk table : starts_reserved table -> bid table (lit "<unk>") = 1.
Proof.
  intros Hr. assert (Hn : has_name table (lit "<unk>")) by (eapply name_at_has, starts_reserved_unk, Hr).
  destruct (bid_known table _ Hn) as [H1 H2]. specialize (H2 1 (starts_reserved_unk _ Hr)).
  destruct (Z.eq_dec (bid table (lit "<unk>")) 1) as [E|E]; [exact E|exfalso].
  assert (E0 : bid table (lit "<unk>") = 0) by (destruct H1; lia).
  rewrite E0 in H1. apply name_at_nth in H1 as [_ H1]. change (Z.to_nat 0) with 0%nat in H1.
  unfold starts_reserved in Hr. destruct (map t_name table) as [|a l]; [discriminate|].
  simpl in Hr, H1. injection Hr as -> _. discriminate H1.
Qed.
Lemma bid_name_unk table w : has_name table w -> starts_reserved table -> bid table w = 1 -> w = lit "<unk>".
Proof.
  intros Hn Hr E. destruct (bid_known table w Hn) as [H _]. rewrite E in H.
  apply name_at_nth in H as [_ H]. pose proof (starts_reserved_unk _ Hr) as H'.
  apply name_at_nth in H' as [_ H']. congruence.
Qed.
Lemma bpe_piece_id table s w :
  make_scheme KBpe table = Ok s -> piece_id s w = Ok (bid table w).
Proof. intros Hs. apply make_bpe_inv in Hs as (_ & _ & ->). reflexivity. Qed.
Lemma bpe_encode_ids table s line ps :
  make_scheme KBpe table = Ok s -> encode_str s line = Ok ps -> encode s line = Ok (map (bid table) ps).
Proof.
  intros Hs H. unfold encode. rewrite H. simpl.
  assert (Hk : s_kind s = KBpe) by (apply make_bpe_inv in Hs as (_ & _ & ->); reflexivity).
  rewrite Hk. apply mapM_ok. intros w _. apply (bpe_piece_id table), Hs.
Qed.
Lemma bpe_decode_ids table s ps :
  make_scheme KBpe table = Ok s -> Forall (has_name table) ps ->
  decode s (map (bid table) ps) = decode_str s ps.
Proof.
  intros Hs Hps. unfold decode.
  assert (E : mapM (py_nth (s_idx_to_str s)) (map (bid table) ps) = Ok ps).
  { rewrite mapM_map. rewrite <- (map_id ps) at 2. apply mapM_ok. intros w Hw.
    rewrite Forall_forall in Hps.
    apply make_bpe_inv in Hs as (_ & _ & ->). cbn [s_idx_to_str].
    apply name_at_py_nth, bid_known, Hps, Hw. }
  rewrite E. reflexivity.
Qed.

Lemma greedy_pieces_named table text segs :
  starts_reserved table -> greedy table text segs -> Forall (has_name table) (map seg_piece segs).
Proof.
  intros Hr. induction 1 as [| p rest segs ? ? ? ? IH | c rest segs ? ? IH]; simpl; constructor; auto.
  eapply name_at_has, starts_reserved_unk, Hr.
Qed.

(** *** C07 *)
Lemma bpe_total table s line :
  make_scheme KBpe table = Ok s -> well_indexed table ->
  exists text segs ids, marked line text /\ concat (map seg_text segs) = text /\
    (forall a c b, segs = a ++ Unknown c :: b ->
       forall q r, has_name table q -> q ++ r = concat (map seg_text (Unknown c :: b)) -> q = []) /\
    encode_str s line = Ok (map seg_piece segs) /\
    encode s line = Ok ids /\
    Forall2 (fun i w => name_at table i w) ids (map seg_piece segs) /\
    Forall (valid_id table) ids.
Proof.
  intros Hs Hw. destruct (bpe_encode_str_spec table s line Hs Hw) as (segs & ids0 & Hg & _ & _ & He).
  assert (Hr : starts_reserved table) by (apply make_bpe_inv in Hs; tauto).
  pose proof (greedy_pieces_named table _ segs Hr Hg) as Hnamed.
  exists (bpe_text line), segs, (map (bid table) (map seg_piece segs)).
  split; [apply bpe_text_marked|]. split; [apply (greedy_text table), Hg|].
  split.
  { clear -Hg. intros a. remember (bpe_text line) as text eqn:E. clear E.
    revert text segs Hg. induction a as [|x a IH]; intros text segs Hg c b ->.
    - inversion Hg as [| |? rest segs' Hno Hg' E1]; subst. simpl. apply greedy_text in Hg'.
      rewrite Hg'. exact Hno.
    - simpl in Hg. inversion Hg as [|? rest segs' ? ? ? Hg' |? rest segs' ? Hg']; subst;
        eapply (IH _ _ Hg'); reflexivity. }
  split; [exact He|]. split; [apply (bpe_encode_ids table); assumption|].
  assert (Hn2 : Forall2 (fun i w => name_at table i w) (map (bid table) (map seg_piece segs)) (map seg_piece segs)).
  { clear -Hnamed. induction Hnamed as [|w l Hw _ IH]; simpl; constructor; [|exact IH].
    apply bid_known, Hw. }
  split; [exact Hn2|].
  clear -Hn2. revert Hn2. generalize (map (bid table) (map seg_piece segs)).
  generalize (map seg_piece segs). intros ws l H. induction H as [|i w l ws Hi _ IH]; constructor; [|exact IH].
  eapply name_at_valid; exact Hi.
Qed.

(** *** C06 *)
Lemma greedy_covered table text segs :
  (forall c, In c text -> has_name table [c]) -> greedy table text segs ->
  map seg_piece segs = map seg_text segs.
Proof.
  intros Hc. induction 1 as [| p rest segs ? ? ? ? IH | c rest segs Hno ? IH]; simpl; [reflexivity| |].
  - f_equal. apply IH. intros c Hin. apply Hc, in_app_iff. auto.
  - exfalso. assert (E : [c] = []) by (apply (Hno [c] rest); [apply Hc; left; reflexivity|reflexivity]).
    discriminate.
Qed.
Lemma bpe_decode_text s ws ps :
  s_kind s = KBpe -> concat ps = spaced MARK ws ++ [MARK] ->
  decode_str s ps = Ok (strip (unmark (spaced SPACE ws))).
Proof.
  intros Hk E. unfold decode_str. rewrite Hk, E, replace_char_unmark, unmark_app, unmark_spaced.
  change (unmark [MARK]) with [SPACE].
  f_equal. symmetry.
  set (u := unmark (spaced SPACE ws)).
  destruct (strip_decomp u) as (g1 & g2 & H1 & H2 & Eu).
  rewrite Eu at 2. rewrite <- !app_assoc. rewrite strip_unique; auto.
  - apply Forall_app. split; [exact H2|]. repeat constructor.
  - apply strip_stripped.
Qed.
Lemma bpe_lossless table s line text norm :
  make_scheme KBpe table = Ok s -> well_indexed table -> marked line text -> normal line norm ->
  (forall c, In c text -> has_name table [c]) ->
  exists ps ids out,
    encode_str s line = Ok ps /\ encode s line = Ok ids /\ concat ps = text /\
    decode_str s ps = Ok out /\ decode s ids = Ok out /\
    trimmed (unmark norm) out /\ (~ In MARK line -> out = norm) /\
    (In 1 ids -> exists a b, text = a ++ lit "<unk>" ++ b).
Proof.
  intros Hs Hw Hm Hnorm Hcov. apply marked_text in Hm as ->.
  destruct (bpe_encode_str_spec table s line Hs Hw) as (segs & ids0 & Hg & _ & _ & He).
  assert (Hr : starts_reserved table) by (apply make_bpe_inv in Hs; tauto).
  assert (Hk : s_kind s = KBpe) by (apply make_bpe_inv in Hs as (_ & _ & ->); reflexivity).
  pose proof (greedy_pieces_named table _ segs Hr Hg) as Hnamed.
  pose proof (greedy_covered table _ segs Hcov Hg) as Epc.
  pose proof (greedy_text table _ segs Hg) as Etx.
  apply normal_spaced in Hnorm as ->.
  assert (Ecat : concat (map seg_piece segs) = bpe_text line) by (rewrite Epc; exact Etx).
  assert (Edec : decode_str s (map seg_piece segs) = Ok (strip (unmark (spaced SPACE (split line))))).
  { apply bpe_decode_text; [exact Hk|]. rewrite Ecat. unfold bpe_text.
    rewrite split_strip, join_spaced. reflexivity. }
  exists (map seg_piece segs), (map (bid table) (map seg_piece segs)), (strip (unmark (spaced SPACE (split line)))).
  split; [exact He|]. split; [apply (bpe_encode_ids table); assumption|]. split; [exact Ecat|].
  split; [exact Edec|]. split; [rewrite (bpe_decode_ids table) by assumption; exact Edec|].
  split; [apply trimmed_strip; reflexivity|]. split.
  - intros HM. rewrite unmark_id.
    + apply stripped_strip, spaced_stripped, split_is_word.
    + intros Hin. apply In_spaced in Hin as [(w & Hin & Hc)|Hc]; [|discriminate Hc].
      apply HM. eapply words_of_chars; [apply words_of_split|exact Hin|exact Hc].
  - intros Hin. apply in_map_iff in Hin as (w & Ew & Hin).
    rewrite Forall_forall in Hnamed.
    apply bid_name_unk in Ew; [|apply Hnamed, Hin|exact Hr]. subst w.
    rewrite <- Ecat. clear -Hin. apply in_split in Hin as (l1 & l2 & ->).
    exists (concat l1), (concat l2). rewrite concat_app. reflexivity.
Qed.

(** ** splitting types *)
Section TypInd.
  Variable P : Typ -> Prop.
  Hypothesis H : forall t, (forall k, In k (kids_of t) -> P k) -> P t.
  Fixpoint Typ_ind2 (t : Typ) : P t :=
    match t with
    | MkType n l i f None => H (MkType n l i f None) (fun k Hin => match Hin with end)
    | MkType n l i f (Some ks) =>
        H (MkType n l i f (Some ks))
          ((fix go (l : list Typ) : forall k, In k l -> P k :=
              match l with
              | [] => fun k Hin => match Hin with end
              | k0 :: l' => fun k Hin =>
                  match Hin with
                  | or_introl E => eq_ind k0 P (Typ_ind2 k0) k E
                  | or_intror Hin' => go l' k Hin'
                  end
              end) ks)
    end.
End TypInd.

Lemma split_eqn {A} (f : Typ -> A) draws t k :
  get_stochastic_split f draws t k =
  match kids_of t with
  | [] => Ok ([f t], k)
  | [kl; kr] =>
      if draws k then
        let* (a, k1) := get_stochastic_split f draws kl (S k) in
        let* (b, k2) := get_stochastic_split f draws kr k1 in
        Ok (a ++ b, k2)
      else Ok ([f t], S k)
  | _ => if draws k then Raise ValueError else Ok ([f t], S k)
  end.
Proof. destruct t as [n l i fr [[|a [|b [|c ks]]]|]]; reflexivity. Qed.
Lemma perms_eqn {A} (f : Typ -> A) t :
  get_permutations f t =
  match kids_of t with
  | [] => Ok [[f t]]
  | [kl; kr] =>
      let* pl := get_permutations f kl in
      let* pr := get_permutations f kr in
      Ok ([f t] :: flat_map (fun lk => map (fun rk => lk ++ rk) pr) pl)
  | _ => Raise ValueError
  end.
Proof. destruct t as [n l i fr [[|a [|b [|c ks]]]|]]; reflexivity. Qed.

Lemma split_sound {A} (f : Typ -> A) draws t : forall k xs k',
  get_stochastic_split f draws t k = Ok (xs, k') -> exists ts, expansion t ts /\ xs = map f ts.
Proof.
  induction t as [t IH] using Typ_ind2. intros k xs k'. rewrite split_eqn.
  destruct (kids_of t) as [|kl [|kr [|x ks]]] eqn:E.
  - intros H; injection H as <- <-. exists [t]. split; [constructor|reflexivity].
  - destruct (draws k); [discriminate|]. intros H; injection H as <- <-. exists [t]. split; [constructor|reflexivity].
  - destruct (draws k).
    + destruct (get_stochastic_split f draws kl (S k)) as [[a k1]|] eqn:E1; [|discriminate]. simpl.
      destruct (get_stochastic_split f draws kr k1) as [[b k2]|] eqn:E2; [|discriminate]. simpl.
      intros H; injection H as <- <-.
      apply IH in E1 as (ta & Ha & ->); [|simpl; auto].
      apply IH in E2 as (tb & Hb & ->); [|simpl; auto].
      exists (ta ++ tb). split; [econstructor; eauto|]. rewrite map_app. reflexivity.
    + intros H; injection H as <- <-. exists [t]. split; [constructor|reflexivity].
  - destruct (draws k); [discriminate|]. intros H; injection H as <- <-. exists [t]. split; [constructor|reflexivity].
Qed.
Lemma split_total {A} (f : Typ -> A) draws t :
  pairs_only t -> forall k, exists xs k', get_stochastic_split f draws t k = Ok (xs, k').
Proof.
  induction 1 as [t E|t l r E Hl IHl Hr IHr]; intros k; rewrite split_eqn, E.
  - eauto.
  - destruct (draws k); [|eauto].
    destruct (IHl (S k)) as (a & k1 & ->). simpl. destruct (IHr k1) as (b & k2 & ->). simpl. eauto.
Qed.
Lemma split_complete {A} (f : Typ -> A) t ts :
  expansion t ts ->
  exists bl, forall draws k, (forall i b, nth_error bl i = Some b -> draws (k + i)%nat = b) ->
    get_stochastic_split f draws t k = Ok (map f ts, (k + length bl)%nat).
Proof.
  induction 1 as [t|t l r a b E Hl (bl & IHl) Hr (br & IHr)].
  - destruct (kids_of t) as [|x ks] eqn:E.
    + exists []. intros draws k _. rewrite split_eqn, E. simpl. rewrite Nat.add_0_r. reflexivity.
    + exists [false]. intros draws k Hd. specialize (Hd 0%nat false eq_refl).
      rewrite Nat.add_0_r in Hd. rewrite split_eqn, E, Hd.
      replace (k + length [false])%nat with (S k) by (simpl; lia).
      destruct ks as [|y [|z ks]]; reflexivity.
  - exists (true :: bl ++ br). intros draws k Hd.
    pose proof (Hd 0%nat true eq_refl) as Hd0. rewrite Nat.add_0_r in Hd0.
    rewrite split_eqn, E, Hd0.
    rewrite IHl.
    2:{ intros i c Hi. specialize (Hd (S i) c). rewrite <- Hd; [f_equal; lia|]. simpl.
        rewrite nth_error_app1; [exact Hi|]. apply nth_error_Some; congruence. }
    simpl. rewrite IHr.
    2:{ intros i c Hi. specialize (Hd (S (length bl + i)) c). rewrite <- Hd; [f_equal; lia|]. simpl.
        rewrite nth_error_app2 by lia. rewrite <- Hi. f_equal. lia. }
    simpl. rewrite map_app. do 2 f_equal. rewrite app_length. lia.
Qed.
Lemma expansion_self_inv t ts : expansion t ts -> ts = [t] \/ exists l r a b, kids_of t = [l; r] /\ expansion l a /\ expansion r b /\ ts = a ++ b.
Proof. destruct 1; [auto|right; eauto 8]. Qed.
Lemma perms_spec {A} (f : Typ -> A) t :
  pairs_only t ->
  exists perms, get_permutations f t = Ok perms /\
    (exists rest, perms = [f t] :: rest) /\
    forall x, In x perms <-> exists ts, expansion t ts /\ x = map f ts.
Proof.
  induction 1 as [t E|t l r E Hl IHl Hr IHr]; rewrite perms_eqn, E.
  - exists [[f t]]. split; [reflexivity|]. split; [eauto|]. intros x. split.
    + intros [<-|[]]. exists [t]. split; [constructor|reflexivity].
    + intros (ts & Hts & ->). destruct (expansion_self_inv _ _ Hts) as [->|(l & r & a & b & E' & _)];
        [left; reflexivity|congruence].
  - destruct IHl as (pl & -> & _ & Hpl). destruct IHr as (pr & -> & _ & Hpr). simpl.
    eexists; split; [reflexivity|]. split; [eauto|]. intros x. simpl. rewrite in_flat_map. split.
    + intros [<-|(lk & H1 & H2)].
      * exists [t]. split; [constructor|reflexivity].
      * apply in_map_iff in H2 as (rk & <- & H2). apply Hpl in H1 as (a & Ha & ->).
        apply Hpr in H2 as (b & Hb & ->). exists (a ++ b). rewrite map_app. split; [econstructor; eauto|reflexivity].
    + intros (ts & Hts & ->). destruct (expansion_self_inv _ _ Hts) as [->|(l' & r' & a & b & E' & Ha & Hb & ->)].
      * left; reflexivity.
      * right. rewrite E in E'. injection E' as <- <-. exists (map f a).
        split; [apply Hpl; eauto|]. apply in_map_iff. exists (map f b). rewrite map_app.
        split; [reflexivity|apply Hpr; eauto].
Qed.
Lemma pairs_only_dec t : {pairs_only t} + {~ pairs_only t}.
Proof.
  revert t. fix IH 1. intros [n l i f [ks|]].
  - destruct ks as [|a [|b [|c ks]]].
    + left; apply Po_leaf; reflexivity.
    + right; intros H; inversion H; discriminate.
    + destruct (IH a) as [Ha|Ha]; [destruct (IH b) as [Hb|Hb]|].
      * left. eapply Po_pair; [reflexivity|assumption|assumption].
      * right. intros H. inversion H as [? E|? ? ? E Hl Hr]; subst; simpl in E; [discriminate|].
        injection E as -> ->. contradiction.
      * right. intros H. inversion H as [? E|? ? ? E Hl Hr]; subst; simpl in E; [discriminate|].
        injection E as -> ->. contradiction.
    + right; intros H; inversion H; discriminate.
  - left; apply Po_leaf; reflexivity.
Defined.
Lemma perms_raise {A} (f : Typ -> A) t :
  ~ pairs_only t -> get_permutations f t = Raise ValueError.
Proof.
  induction t as [t IH] using Typ_ind2. intros Hn. rewrite perms_eqn.
  destruct (kids_of t) as [|kl [|kr [|x ks]]] eqn:E; try reflexivity.
  - exfalso. apply Hn, Po_leaf, E.
  - destruct (pairs_only_dec kl) as [Hl|Hl].
    + destruct (perms_spec f kl Hl) as (pl & -> & _). simpl.
      rewrite (IH kr); [reflexivity|simpl; auto|]. intros Hr. apply Hn. eapply Po_pair; eauto.
    + rewrite (IH kl); [reflexivity|simpl; auto|exact Hl].
Qed.
Lemma split_raise {A} (f : Typ -> A) t :
  ~ pairs_only t -> exists bl : list bool, forall draws k,
   (forall i b, nth_error bl i = Some b -> draws (k + i)%nat = b) ->
    get_stochastic_split f draws t k = Raise ValueError.
Proof.
  induction t as [t IH] using Typ_ind2. intros Hn.
  destruct (kids_of t) as [|kl [|kr [|x ks]]] eqn:E.
  - exfalso. apply Hn, Po_leaf, E.
  - exists [true]. intros draws k Hd. specialize (Hd 0%nat true eq_refl). rewrite Nat.add_0_r in Hd.
    rewrite split_eqn, E, Hd. reflexivity.
  - destruct (pairs_only_dec kl) as [Hl|Hl].
    + destruct (IH kr) as (bl & Hbl); [simpl; auto| |].
      { intros Hr. apply Hn. eapply Po_pair; eauto. }
      destruct (split_complete f kl [kl] (Ex_self kl)) as (b0 & Hb0).
      exists (true :: b0 ++ bl). intros draws k Hd.
      pose proof (Hd 0%nat true eq_refl) as Hd0. rewrite Nat.add_0_r in Hd0.
      rewrite split_eqn, E, Hd0. rewrite Hb0.
      2:{ intros i c Hi. specialize (Hd (S i) c). rewrite <- Hd; [f_equal; lia|]. simpl.
          rewrite nth_error_app1; [exact Hi|]. apply nth_error_Some; congruence. }
      simpl. rewrite Hbl; [reflexivity|].
      intros i c Hi. specialize (Hd (S (length b0 + i)) c). rewrite <- Hd; [f_equal; lia|]. simpl.
      rewrite nth_error_app2 by lia. rewrite <- Hi. f_equal. lia.
    + destruct (IH kl) as (bl & Hbl); [simpl; auto|exact Hl|].
      exists (true :: bl). intros draws k Hd.
      pose proof (Hd 0%nat true eq_refl) as Hd0. rewrite Nat.add_0_r in Hd0.
      rewrite split_eqn, E, Hd0. rewrite Hbl; [reflexivity|].
      intros i c Hi. specialize (Hd (S i) c). rewrite <- Hd; [f_equal; lia|]. exact Hi.
  - exists [true]. intros draws k Hd. specialize (Hd 0%nat true eq_refl). rewrite Nat.add_0_r in Hd.
    rewrite split_eqn, E, Hd. reflexivity.
Qed.
Lemma draws_of_list (bl : list bool) :
  exists draws, forall i b, nth_error bl i = Some b -> draws (0 + i)%nat = b.
Proof.
  exists (fun i => match nth_error bl i with Some b => b | None => false end).
  intros i b H. simpl. rewrite H. reflexivity.
Qed.

Lemma expansion_spelled t ts : spelled t -> expansion t ts -> concat (map t_name ts) = t_name t.
Proof.
  intros Hsp H. revert Hsp. induction H as [t|t l r a b E Ha IHa Hb IHb]; intros Hsp.
  - simpl. apply app_nil_r.
  - rewrite map_app, concat_app. inversion Hsp as [? E'|? l' r' E' En Hl Hr]; subst; [congruence|].
    rewrite E in E'. injection E' as <- <-. rewrite IHa, IHb by assumption. symmetry; exact En.
Qed.
Lemma spelled_pairs t : spelled t -> pairs_only t.
Proof. induction 1; [apply Po_leaf; assumption|eapply Po_pair; eauto]. Qed.
Lemma expansion_within t ts : expansion t ts -> Forall (within t) ts.
Proof.
  induction 1 as [t|t l r a b E Ha IHa Hb IHb].
  - repeat constructor.
  - apply Forall_app. split; eapply Forall_impl; try eassumption.
    + intros u Hu. eapply Wi_kid; [rewrite E; left; reflexivity|exact Hu].
    + intros u Hu. eapply Wi_kid; [rewrite E; right; left; reflexivity|exact Hu].
Qed.

(** *** C09 *)
Lemma permutations_are_splits {A} (f : Typ -> A) t perms :
  get_permutations f t = Ok perms ->
  (exists rest, perms = [f t] :: rest) /\
  (forall x, In x perms <-> exists draws k', get_stochastic_split f draws t 0 = Ok (x, k')) /\
  pairs_only t.
Proof.
  intros H. destruct (pairs_only_dec t) as [Hp|Hp]; [|rewrite perms_raise in H by exact Hp; discriminate].
  destruct (perms_spec f t Hp) as (perms' & E & Hhd & Hin). rewrite H in E. injection E as <-.
  split; [exact Hhd|]. split; [|exact Hp]. intros x. rewrite Hin. split.
  - intros (ts & Hts & ->). destruct (split_complete f t ts Hts) as (bl & Hbl).
    destruct (draws_of_list bl) as (draws & Hd). exists draws. eexists. apply Hbl, Hd.
  - intros (draws & k' & Hx). apply split_sound in Hx. exact Hx.
Qed.
Lemma permutations_raise {A} (f : Typ -> A) t :
  (get_permutations f t = Raise ValueError <-> ~ pairs_only t) /\
  ((exists draws, get_stochastic_split f draws t 0 = Raise ValueError) <-> ~ pairs_only t).
Proof.
  split; split.
  - intros H Hp. destruct (perms_spec f t Hp) as (perms' & E & _). congruence.
  - apply perms_raise.
  - intros (draws & H) Hp. destruct (split_total f draws t Hp 0%nat) as (xs & k' & E). congruence.
  - intros Hn. destruct (split_raise f t Hn) as (bl & Hbl).
    destruct (draws_of_list bl) as (draws & Hd). exists draws. apply Hbl, Hd.
Qed.

(** *** C08 *)
Lemma split_ids_spec table draws ids ws : forall k,
  (forall t, In t table -> spelled t) -> kids_in_table table ->
  Forall2 (fun i w => name_at table i w) ids ws ->
  exists ids' ws', stochastic_split_ids table draws ids k = Ok ids' /\
    Forall2 (fun i w => name_at table i w) ids' ws' /\ concat ws' = concat ws.
Proof.
  intros k Hsp Hk H. revert k. induction H as [|i w ids ws (H0 & t & Ht & Hn) _ IH]; intros k.
  - exists [], []. split; [reflexivity|]. split; [constructor|reflexivity].
  - simpl. assert (E : py_nth table i = Ok t) by (apply py_nth_nonneg; assumption). rewrite E. simpl.
    assert (Hin : In t table) by (eapply nth_error_In; eauto).
    destruct (split_total t_idx draws t (spelled_pairs _ (Hsp t Hin)) k) as (xs & k1 & Ex).
    rewrite Ex. simpl. destruct (IH k1) as (ids' & ws' & -> & Hf & Hc). simpl.
    apply split_sound in Ex as (ts & Hts & ->).
    exists (map t_idx ts ++ ids'), (map t_name ts ++ ws'). split; [reflexivity|]. split.
    + apply Forall2_app; [|exact Hf]. apply expansion_within in Hts.
      clear -Hts Hk Hin. induction Hts as [|u ts Hu _ IHts]; simpl; constructor; [|exact IHts].
      destruct (Hk t u Hin Hu) as [H0 H1]. split; [exact H0|]. exists u. auto.
    + rewrite concat_app. rewrite (expansion_spelled t ts (Hsp t Hin) Hts), Hc. simpl. congruence.
Qed.
Lemma bpe_split_same_text table s line draws :
  make_scheme KBpe table = Ok s -> well_indexed table ->
  (forall t, In t table -> spelled t) -> kids_in_table table ->
  exists ps ids ps' ids' out,
    encode_str s line = Ok ps /\ encode s line = Ok ids /\
    bpe_encode_str s (Some draws) line = Ok ps' /\ bpe_encode_split s draws line = Ok ids' /\
    concat ps' = concat ps /\ Forall (valid_id table) ids' /\
    decode_str s ps = Ok out /\ decode_str s ps' = Ok out /\
    decode s ids = Ok out /\ decode s ids' = Ok out.
Proof.
  intros Hs Hw Hsp Hk.
  destruct (bpe_encode_str_spec table s line Hs Hw) as (segs & ids0 & Hg & Hv & Hseg & He).
  assert (Hr : starts_reserved table) by (apply make_bpe_inv in Hs; tauto).
  pose proof (greedy_pieces_named table _ segs Hr Hg) as Hnamed.
  destruct (split_ids_spec table draws ids0 _ 0%nat Hsp Hk Hv) as (ids1 & ws1 & Esp & Hf & Hc).
  assert (Hnamed1 : Forall (has_name table) ws1).
  { clear -Hf. induction Hf; constructor; [eapply name_at_has; eauto|assumption]. }
  pose proof Hs as Hs'. apply make_bpe_inv in Hs' as (_ & _ & Es).
  assert (Eps : bpe_encode_str s (Some draws) line = Ok ws1).
  { unfold bpe_encode_str. assert (Eu : s_unk s = Some 1) by (rewrite Es; reflexivity).
    assert (Et : s_table s = table) by (rewrite Es; reflexivity).
    rewrite Eu, Hseg. cbn [bind]. rewrite Et, Esp. cbn [bind]. apply names_of_ids, Hf. }
  assert (Hk' : s_kind s = KBpe) by (rewrite Es; reflexivity).
  exists (map seg_piece segs), (map (bid table) (map seg_piece segs)), ws1, (map (bid table) ws1),
         (strip (replace_char MARK SPACE (concat (map seg_piece segs)))).
  split; [exact He|]. split; [apply (bpe_encode_ids table); assumption|]. split; [exact Eps|].
  split. { unfold bpe_encode_split. rewrite Eps. simpl. apply mapM_ok. intros w _. apply (bpe_piece_id table), Hs. }
  split; [exact Hc|]. split.
  { apply Forall_map. eapply Forall_impl; [|exact Hnamed1]. intros w Hn. eapply name_at_valid, bid_known, Hn. }
  assert (D : forall l, decode_str s l = Ok (strip (replace_char MARK SPACE (concat l)))).
  { intros l. unfold decode_str. rewrite Hk'. reflexivity. }
  split; [apply D|]. split; [rewrite D, Hc; reflexivity|].
  rewrite !(bpe_decode_ids table) by assumption.
  split; [apply D|]. rewrite D, Hc; reflexivity.
Qed.
Lemma split_spells draws t k xs k' :
  spelled t -> get_stochastic_split t_name draws t k = Ok (xs, k') -> concat xs = t_name t.
Proof.
  intros Hs H. apply split_sound in H as (ts & Hts & ->). apply expansion_spelled; assumption.
Qed.
