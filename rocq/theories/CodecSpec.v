(** Specification vocabulary for codecs: what a table says about names and indices. None of it
    refers to the algorithms in CodecModel.v; only the data type of vocabulary entries is shared. *)
From Coq Require Import Strings.String.
From Verif Require Import Py PyStr StrSpec CodecModel.
Local Open Scope Z_scope.
Local Open Scope list_scope.

(** Some entry of the table has this name. *)
Definition has_name (table : list Typ) (w : str) : Prop := exists t, In t table /\ t_name t = w.

(** Index i (counted from the front, never wrapping) holds an entry of this name. *)
Definition name_at (table : list Typ) (i : Z) (w : str) : Prop :=
  0 <= i /\ exists t, nth_error table (Z.to_nat i) = Some t /\ t_name t = w.

Definition valid_id (table : list Typ) (i : Z) : Prop := 0 <= i < Z.of_nat (length table).

Definition reserved_names : list str :=
  [lit "<pad>"; lit "<unk>"; lit "<s>"; lit "</s>"; lit "<cls>"; [9601%N]].

(** The six reserved names are at indices 0-5. *)
Definition starts_reserved (table : list Typ) : Prop :=
  firstn 6 (map t_name table) = reserved_names.

Definition distinct_names (table : list Typ) : Prop := NoDup (map t_name table).

(** Every entry carries its own position as its index. *)
Definition well_indexed (table : list Typ) : Prop :=
  forall n t, nth_error table n = Some t -> t_idx t = Z.of_nat n.

(** The id of a word: its position in the table, or 1 when it is not there. *)
Definition id_of (table : list Typ) (w : str) (i : Z) : Prop :=
  name_at table i w \/ (i = 1 /\ ~ has_name table w).

(** What a word looks like after a round trip through ids. *)
Definition shown (table : list Typ) (w out : str) : Prop :=
  (has_name table w /\ out = w) \/ (~ has_name table w /\ out = lit "<unk>").

(** A segmentation of a text into known pieces and unknown characters. *)
Inductive seg : Set := Known (p : str) | Unknown (c : N).
Definition seg_text (s : seg) : str := match s with Known p => p | Unknown c => [c] end.
Definition seg_piece (s : seg) : str := match s with Known p => p | Unknown _ => lit "<unk>" end.

(** Greedy longest match: every step takes the longest table name that is a prefix of the rest,
    or one unknown character if none is. *)
Inductive greedy (table : list Typ) : str -> list seg -> Prop :=
| Gr_nil : greedy table [] []
| Gr_known p rest segs :
    p <> [] -> has_name table p ->
    (forall q r, has_name table q -> q ++ r = p ++ rest -> (length q <= length p)%nat) ->
    greedy table rest segs -> greedy table (p ++ rest) (Known p :: segs)
| Gr_unknown c rest segs :
    (forall q r, has_name table q -> q ++ r = c :: rest -> q = []) ->
    greedy table rest segs -> greedy table (c :: rest) (Unknown c :: segs).

(** The text that BPE segments: the words of the line, each followed by the space marker;
    a blank line gives a lone marker. *)
Definition marked (line text : str) : Prop :=
  exists ws, words_of line ws /\ text = spaced MARK ws ++ [MARK].

(** The two kids of every compound type spell its name, at every depth. *)
Inductive spelled : Typ -> Prop :=
| Sp_leaf t : kids_of t = [] -> spelled t
| Sp_pair t l r : kids_of t = [l; r] -> t_name t = t_name l ++ t_name r ->
                  spelled l -> spelled r -> spelled t.

(** The types reachable from t through kids, t included. *)
Inductive within : Typ -> Typ -> Prop :=
| Wi_self t : within t t
| Wi_kid t k u : In k (kids_of t) -> within k u -> within t u.

(** All (transitive) kids of the entries are themselves entries of the table, at the index
    they carry. *)
Definition kids_in_table (table : list Typ) : Prop :=
  forall t u, In t table -> within t u ->
              0 <= t_idx u /\ nth_error table (Z.to_nat (t_idx u)) = Some u.

(** [expansion t ts]: ts is obtained from t by replacing types by their two kids, any number of
    times (possibly zero). *)
Inductive expansion : Typ -> list Typ -> Prop :=
| Ex_self t : expansion t [t]
| Ex_split t l r a b :
    kids_of t = [l; r] -> expansion l a -> expansion r b -> expansion t (a ++ b).

(** Types all of whose compound nodes have exactly two kids. *)
Inductive pairs_only : Typ -> Prop :=
| Po_leaf t : kids_of t = [] -> pairs_only t
| Po_pair t l r : kids_of t = [l; r] -> pairs_only l -> pairs_only r -> pairs_only t.
