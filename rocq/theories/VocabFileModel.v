(** nlcodec/codec.py: vocabulary files (Type.format, Type.parse, Type.write_out,
    Type.read_vocab, EncoderScheme.save, load_scheme). *)
From Coq Require Import Strings.String.
From Verif Require Import Py PyStr Utf8Model JsonModel CodecModel.
Local Open Scope Z_scope.
Local Open Scope list_scope.
Local Open Scope res_scope.

(** codec.py:77-80, Type.format with the default delimiter *)
Definition type_format (t : Typ) : str :=
  join [TAB] [str_of_Z (t_idx t); t_name t; str_of_Z (t_level t); str_of_Z (t_freq t);
              join [SPACE] (map (fun k => str_of_Z (t_idx k)) (kids_of t))].

(** codec.py:99 [vocab[k]]: the slots of the rows read so far are filled, the others are None.
    Simplification: taking a None as a kid (only possible with a negative k) is reported as
    NoneKid; the code would go on with a None kid. *)
Definition kid_slot (vocab : list (option Typ)) (k : Z) : res Typ :=
  let* o := py_nth vocab k in
  match o with Some t => Ok t | None => Raise NoneKid end.

(** codec.py:89-100, Type.parse with the default delimiter *)
Definition type_parse (line : str) (vocab : list (option Typ)) : res Typ :=
  let cols := split_on TAB (strip line) in
  match cols with
  | c0 :: c1 :: c2 :: c3 :: rest =>
      let* idx := int_of_str c0 in
      let* level := int_of_str c2 in
      let* freq := int_of_str c3 in
      let* kids :=
        match rest with
        | (_ :: _) as c4 :: _ =>
            let* ks := mapM int_of_str (split c4) in
            let* _ := assert_ (forallb (fun k => (k <? idx) && (k <? Z.of_nat (length vocab))) ks) in
            let* kids := mapM (kid_slot vocab) ks in
            Ok (Some kids)
        | _ => Ok None
        end in
      Ok (MkType c1 level idx freq kids)
  | _ => Raise ValueError
  end.

(** codec.py:117-121: the header dict; [now] is str(datetime.now()), [version] nlcodec's
    version string. Integer keys of [levels] become strings in JSON. *)
Definition levels_of (table : list Typ) : list (Z * Z) :=
  counter_update Z.eqb (map t_level table) [].
Definition vocab_header (version now : str) (table : list Typ) (max_level : Z)
           (meta : list (str * json)) : list (str * json) :=
  fold_left (fun d kv => dset str_eqb (fst kv) (snd kv) d) meta
    [ (lit "total", JInt (Z.of_nat (length table)));
      (lit "version", JStr version);
      (lit "levels", JObj (map (fun lc => (str_of_Z (fst lc), JInt (snd lc))) (levels_of table)));
      (lit "max_level", JInt max_level);
      (lit "created", JStr now) ].

(** codec.py:124-126: rows are written one by one, each after its index was asserted. The
    result is the text written so far and the outcome. *)
Fixpoint write_rows (i : Z) (items : list Typ) : str * res unit :=
  match items with
  | [] => ([], Ok tt)
  | t :: items' =>
      if i =? t_idx t then
        let '(txt, r) := write_rows (i + 1) items' in
        (type_format t ++ [LF] ++ txt, r)
      else ([], Raise AssertionError)
  end.

(** codec.py:109-129, Type.write_out to a path: the bytes in the file afterwards and the
    outcome. Simplification: what was written before an exception is in the file (the writer is
    flushed when it is garbage collected). *)
Definition write_out (version now : str) (table : list Typ) (meta : list (str * json))
  : list N * res unit :=
  match py_max (dkeys (levels_of table)) with
  | Raise e => ([], Raise e)
  | Ok max_level =>
      let header := [35%N] ++ dumps (JObj (vocab_header version now table max_level meta)) ++ [LF] in
      let '(txt, r) := write_rows 0 table in
      (utf8_encode_ignore (header ++ txt), r)
  end.

(** codec.py:145-150: vocab[i] = v *)
Definition set_slot (vocab : list (option Typ)) (i : nat) (v : Typ) : list (option Typ) :=
  firstn i vocab ++ Some v :: skipn (S i) vocab.
Fixpoint read_rows (i : nat) (lines : list str) (vocab : list (option Typ))
  : res (list (option Typ)) :=
  match lines with
  | [] => Ok vocab
  | line :: lines' =>
      let* v := type_parse (rstrip_set [LF] line) vocab in
      let* _ := assert_ (t_idx v =? Z.of_nat i) in
      read_rows (S i) lines' (set_slot vocab i v)
  end.
Definition filled (vocab : list (option Typ)) : list Typ :=
  flat_map (fun o => match o with Some t => [t] | None => [] end) vocab.

(** codec.py:139: the stripped lines of a file opened with encoding='utf8', errors='ignore' *)
Definition vocab_lines (bytes : list N) : list str := map strip (file_lines (utf8_decode [] bytes)).

(** codec.py:131-154, Type.read_vocab of a path *)
Definition read_vocab (bytes : list N) : res (list Typ * option json) :=
  match vocab_lines bytes with
  | [] => Raise IndexError
  | l0 :: rest =>
      let* (meta, lines) :=
        if startswith (lit "#{") l0 then
          let* m := loads (skipn 1 l0) in Ok (Some m, rest)
        else Ok (None, l0 :: rest) in
      let* vocab := read_rows 0 lines (repeat None (length lines)) in
      Ok (filled vocab, meta)
  end.

(** The name attributes: codec.py:354, 419, 438, 538, 567 *)
Definition scheme_name (k : kind) : str :=
  match k with
  | KWord => lit "word" | KChar => lit "char" | KBpe => lit "bpe"
  | KClass => lit "class" | KByte => lit "byte"
  end.
(** codec.py:632-639, REGISTRY *)
Definition REGISTRY : list (str * kind) :=
  [(lit "char", KChar); (lit "word", KWord); (lit "bpe", KBpe); (lit "subword", KBpe);
   (lit "class", KClass); (lit "byte", KByte)].

(** codec.py:348-349, EncoderScheme.save *)
Definition save (version now : str) (s : scheme) : list N * res unit :=
  write_out version now (s_table s) [(lit "scheme", JStr (scheme_name (s_kind s)))].

(** codec.py:673-677, the backward-compatible choice *)
Definition kind_of_level (max_level : Z) : res kind :=
  let levels := [KChar; KBpe; KWord; KClass] in
  let* _ := assert_ (max_level <? Z.of_nat (length levels)) in
  py_nth levels max_level.

(** codec.py:667-678, load_scheme. A header is always an object, since it starts with '{'. *)
Definition load_scheme (bytes : list N) : res scheme :=
  let* (types, meta) := read_vocab bytes in
  match meta with
  | Some (JObj ((_ :: _) as m)) =>
      let* k :=
        match jget (lit "scheme") m with
        | Some (JStr nm) =>
            match dget str_eqb nm REGISTRY with Some k => Ok k | None => Raise KeyError end
        | Some (JArr _) | Some (JObj _) => Raise TypeError
        | Some _ => Raise KeyError
        | None =>
            match jget (lit "max_level") m with
            | Some (JInt z) => kind_of_level z
            | Some (JBool b) => kind_of_level (if b then 1 else 0)
            | Some _ => Raise TypeError
            | None => Raise KeyError
            end
        end in
      make_scheme k types
  | _ => Raise AssertionError
  end.
