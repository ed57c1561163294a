(** Learning flat vocabularies: nlcodec/codec.py term_frequencies, read_term_freqs,
    get_init_vocab, learn; nlcodec/utils.py filter_types_coverage; nlcodec/term_freq.py
    write_stats. *)
From Coq Require Import Strings.String.
From Verif Require Import Py PyStr Utf8Model JsonModel CodecModel.
Local Open Scope Z_scope.
Local Open Scope list_scope.
Local Open Scope res_scope.

(** The arithmetic behind the coverage filter. The code uses Python floats; the model takes the
    operations as an argument, so that its theorems hold for binary64 as well as for exact
    rationals (both instances are in ArithModel.v). *)
Record arith : Type := MkArith {
  num : Type;
  a_zero : num;                       (* cum = 0 *)
  a_add : num -> num -> num;          (* cum += x *)
  a_div : Z -> Z -> num;              (* f / tot for tot <> 0 *)
  a_leb : num -> num -> bool;         (* coverage <= cum *)
  a_unit : num -> bool }.             (* 0 < coverage <= 1 *)

(** codec.py:364-373, term_frequencies for the scheme kinds that learn from text (word, char,
    class); [pieces] is the class's encode_str. *)
Definition flat_pieces (k : kind) (line : str) : list str :=
  match k with
  | KChar => map (fun c => [c]) (join [MARK] (split line))
  | KClass => [strip line]
  | _ => split line
  end.
Definition term_frequencies (k : kind) (data : list str) : list (str * Z) * Z :=
  fold_left (fun st line =>
               let '(stats, n) := st in
               (counter_update str_eqb (flat_pieces k (strip line)) stats, n + 1))
            data ([], 0).

(** codec.py:375-391, read_term_freqs. Simplifications: a header whose line_count is neither an
    integer nor a boolean, or that contains a float, is outside the model (the former is
    reported as OtherError). *)
Definition header_line_count (line : str) (dflt : Z) : res Z :=
  match loads (skipn 1 line) with
  | Ok (JObj m) =>
      match jget (lit "line_count") m with
      | Some (JInt z) => Ok z
      | Some (JBool b) => Ok (if b then 1 else 0)
      | Some _ => Raise OtherError
      | None => Ok dflt
      end
  | _ => Ok dflt      (* bare except: pass *)
  end.
Definition read_tf_line (st : list (str * Z) * Z) (il : Z * str) : res (list (str * Z) * Z) :=
  let '(stats, line_count) := st in
  let line := rstrip_set [LF] (snd il) in
  if (fst il =? 0) && startswith (lit "#") line && negb (Nat.eqb (length (split_on TAB line)) 2)
  then let* n := header_line_count line line_count in Ok (stats, n)
  else
    match split_on TAB line with
    | [term; freq] =>
        let* f := int_of_str freq in
        Ok (dset str_eqb (strip term) f stats, line_count)
    | _ => Raise ValueError
    end.
Definition read_term_freqs (data : list str) : res (list (str * Z) * Z) :=
  foldM read_tf_line (enumerate data) ([], -1).

(** term_freq.py:67-80, write_stats: the text written to [out]; [meta] are the keyword
    arguments. *)
Definition write_stats (stats : list (str * Z)) (meta : list (str * json)) : str :=
  let stats := sorted_desc snd stats in
  let tot := zsum (map snd stats) in
  let header := fold_left (fun d kv => dset str_eqb (fst kv) (snd kv) d) meta
                  [(lit "types", JInt (Z.of_nat (length stats))); (lit "tokens", JInt tot)] in
  [35%N] ++ dumps (JObj header) ++ [LF] ++
  flat_map (fun tf => fst tf ++ [TAB] ++ str_of_Z (snd tf) ++ [LF]) stats.

(** utils.py:33-49, filter_types_coverage *)
Fixpoint cover_loop (A : arith) (coverage : num A) (tot : Z) (cum : num A)
         (types : list (str * Z)) (includes : list (str * Z)) : res (list (str * Z)) :=
  match types with
  | [] => Ok includes
  | (t, f) :: types' =>
      if tot =? 0 then Raise ZeroDivisionError
      else
        let cum := a_add A cum (a_div A f tot) in
        let includes := dset str_eqb t f includes in
        if a_leb A coverage cum then Ok includes
        else cover_loop A coverage tot cum types' includes
  end.
Definition filter_types_coverage (A : arith) (types : list (str * Z)) (coverage : num A)
  : res (list (str * Z) * Z) :=
  let* _ := assert_ (a_unit A coverage) in
  let tot := zsum (dvalues types) in
  let types := sorted_desc snd types in
  let* includes := cover_loop A coverage tot (a_zero A) types [] in
  let excludes := fold_left (fun d tf => if dmem str_eqb (fst tf) includes then d
                                         else dset str_eqb (fst tf) (snd tf) d) types [] in
  Ok (includes, zsum (dvalues excludes)).

(** codec.py:250-251: [term_freqs.pop(name)] for each reserved name found in the corpus *)
Definition pop_reserved (term_freqs : list (str * Z)) : list (str * Z) * list (str * Z) :=
  fold_left (fun st r =>
               let '(res_stats, tf) := st in
               match dget str_eqb (t_name r) tf with
               | Some f => (dset str_eqb (t_name r) f res_stats, ddel str_eqb (t_name r) tf)
               | None => st
               end) with_reserved_types ([], term_freqs).

(** codec.py:103-108, Type.copy(freq=...) *)
Definition with_freq (t : Typ) (f : Z) : Typ :=
  let 'MkType n l i _ k := t in MkType n l i f k.

(** codec.py:272-283: frequencies of the reserved types. [line_count] is None when not given;
    None and 0 are both false in [and line_count]. *)
Definition reserved_row (res_stats : list (str * Z)) (unk_count : Z) (line_count : option Z)
           (it : Z * Typ) : Typ :=
  let '(idx, t) := it in
  let freq := dget_def str_eqb (t_name t) 0 res_stats in
  let freq := if idx =? UNK_IDX then freq + unk_count else freq in
  let freq := if existsb (Z.eqb idx) [BOS_IDX; EOS_IDX; CLS_IDX]
              then freq + match line_count with Some n => n | None => 0 end else freq in
  if freq =? 0 then t else with_freq t freq.

(** codec.py:245-287, EncoderScheme.get_init_vocab (word, char and, for the initial characters,
    bpe). [coverage] is None when it is false (0). [level] is cls.level. *)
Definition get_init_vocab (A : arith) (level : Z) (term_freqs : list (str * Z))
           (coverage : option (num A)) (line_count : option Z) (min_freq vocab_size : Z)
  : res (list Typ) :=
  let vocab := with_reserved_types in
  let nv := Z.of_nat (length vocab) in
  let '(res_stats, term_freqs) := pop_reserved term_freqs in
  let* (term_freqs, unk_count) :=
    match coverage with
    | Some c => filter_types_coverage A term_freqs c
    | None => Ok (term_freqs, 0)
    end in
  let tfs := sorted_desc snd term_freqs in
  let '(tfs, unk_count) :=
    if min_freq >? 1 then
      (filter (fun tf => snd tf >=? min_freq) tfs,
       unk_count + zsum (map snd (filter (fun tf => snd tf <? min_freq) tfs)))
    else (tfs, unk_count) in
  let '(tfs, unk_count) :=
    if (vocab_size >? 0) && (nv + Z.of_nat (length tfs) >? vocab_size) then
      (py_take tfs (vocab_size - nv),
       unk_count + zsum (map snd (py_drop tfs (vocab_size - nv))))
    else (tfs, unk_count) in
  let reserved := map (reserved_row res_stats unk_count line_count) (enumerate vocab) in
  Ok (reserved ++
      map (fun it => MkType (fst (snd it)) level (fst it) (snd (snd it)) None) (enum_from nv tfs)).

(** sorted(l, key=..., reverse=False) with str keys: stable insertion, ascending *)
Fixpoint insert_asc {B} (x : str * B) (l : list (str * B)) : list (str * B) :=
  match l with
  | [] => [x]
  | y :: l' => if str_ltb (fst y) (fst x) then y :: insert_asc x l' else x :: l
  end.
Definition sorted_asc {B} (l : list (str * B)) : list (str * B) := fold_right insert_asc [] l.

(** codec.py:554-563, ClassScheme.get_init_vocab *)
Definition class_init_vocab (term_freqs : list (str * Z)) : list Typ :=
  map (fun it => MkType (fst (snd it)) L_clasz (fst it) (snd (snd it)) None)
      (enumerate (sorted_asc term_freqs)).

Definition level_of (k : kind) : Z :=
  match k with
  | KWord => L_word | KChar => L_char | KBpe => L_subword | KClass => L_clasz | KByte => L_byte
  end.

(** codec.py:393-413 (word), 429-433 (char), inherited by class; 624-628 (byte). The bpe scheme
    is in LearnBpeModel.v. [is_tf] is the argument term_freqs. *)
Definition learn_flat (A : arith) (k : kind) (data : list str) (vocab_size min_freq : Z)
           (coverage : option (num A)) (is_tf : bool) : res (list Typ) :=
  match k with
  | KByte => Ok byte_vocab
  | _ =>
      let* (stats, line_count) :=
        if is_tf then read_term_freqs data else Ok (term_frequencies k data) in
      match k with
      | KClass => Ok (class_init_vocab stats)
      | _ => get_init_vocab A (level_of k) stats coverage (Some line_count) min_freq vocab_size
      end
  end.
