(** Specification vocabulary for vocabulary files. *)
From Coq Require Import Strings.String.
From Verif Require Import Py PyStr Utf8Model CodecModel CodecSpec VocabFileModel.
Local Open Scope Z_scope.

(** Text that survives a tab-separated utf-8 text file with universal newlines. *)
Definition plain_text (s : str) : Prop :=
  forall c, In c s -> is_scalar c = true /\ c <> 9%N /\ c <> 10%N /\ c <> 13%N.

(** All the kids of an entry are entries further up; an entry without kids has none at all
    (rather than an empty list of them). *)
Definition kids_earlier (table : list Typ) : Prop :=
  forall n t, nth_error table n = Some t ->
    t_kids t <> Some nil /\
    forall k, In k (kids_of t) -> exists m, (m < n)%nat /\ nth_error table m = Some k.

(** A table that a vocabulary file can represent. *)
Definition storable (table : list Typ) : Prop :=
  table <> nil /\ well_indexed table /\ kids_earlier table /\
  forall t, In t table -> plain_text (t_name t).

(** The rows of a file: its stripped lines without the header line. *)
Definition is_header (l : str) : bool := startswith (lit "#{") l.
Definition rows_of (bytes : list N) : list str :=
  match vocab_lines bytes with
  | l :: rest => if is_header l then rest else l :: rest
  | nil => nil
  end.

(** The names under which schemes are published (README, nlcodec-learn's choices), and the scheme
    of a file from before the name was written, by the largest level of its entries. *)
Definition published_schemes : list (str * kind) :=
  [(lit "char", KChar); (lit "word", KWord); (lit "bpe", KBpe); (lit "subword", KBpe);
   (lit "class", KClass); (lit "byte", KByte)].
Definition schemes_by_level : list kind := [KChar; KBpe; KWord; KClass].
