(** What the options of uxdx.py and unicode_fix.py ask for (their help texts), without parsing. *)
From Coq Require Import Strings.String.
From Verif Require Import Py PyStr Utf8Model CliSpec ArgModel ArgSpec ArgProofs CmdModel CmdSpec ScriptModel ScriptSpec ScriptProofs ScriptEnd ToolSpec GramSpec VocabFileModel.
Local Open Scope list_scope.

Inductive stool : Type := Uxdx | Fix.
Inductive sset : Type := SInp (p : str) | SOut (p : str) | SDecode | SLang (n : str).
Definition sspelt (s : sset) : option string * string * list str :=
  match s with
  | SInp p => (Some "-i", "--inp", [p])
  | SOut p => (Some "-o", "--out", [p])
  | SDecode => (Some "-d", "--decode", [])
  | SLang n => (Some "-l", "--lang", [n])
  end%string.
Definition swords (ss : style * sset) : list str := let '(short, long, args) := sspelt (snd ss) in said_as (fst ss) short long args.
Definition ssensible (t : stool) (E : env) (f : disk) (ss : style * sset) : Prop :=
  free (fst ss) (snd (sspelt (snd ss))) /\
  match snd ss with
  | SInp p => p = lit "-" \/ f p <> None
  | SOut p => p = lit "-" \/ e_writable E p = true
  | SDecode => True
  | SLang n => t = Fix /\ (n = lit "hin" \/ n = lit "devanagari")
  end.
Record sasked : Type := MkSasked { j_inp : place; j_out : place; j_decode : bool; j_lang : option str }.
Definition snothing : sasked := MkSasked Unset Unset false None.
Definition sask (q : sasked) (s : sset) : sasked :=
  let 'MkSasked i o d n := q in
  match s with
  | SInp p => MkSasked (place_of p) o d n
  | SOut p => MkSasked i (place_of p) d n
  | SDecode => MkSasked i o true n
  | SLang m => MkSasked i o d (Some m)
  end.
(** Naming an output empties it. *)
Definition sopens (f : disk) (s : sset) : disk :=
  match s with
  | SOut p => if str_eqb p (lit "-") then f else fun x => if str_eqb x p then Some [] else f x
  | _ => f
  end.

(** The text read, and where the text made goes. *)
Definition stext (f : disk) (stdin : str) (pl : place) : str :=
  match pl with Path p => match f p with Some b => utf8_decode [] b | None => [] end | _ => stdin end.
Definition sputs (f : disk) (out : place) (t : str) (e : ending) : Prop :=
  x_status e = 0%Z /\ x_exc e = None /\ x_printed e = None /\
  match out with
  | Path o => x_stdout e = [] /\ forall p, lookup (x_files e) p = if str_eqb p o then Some (utf8_encode_ignore t) else f p
  | _ => x_stdout e = t /\ forall p, lookup (x_files e) p = f p
  end.
(** What is done to each line. *)
Definition respelled (t : stool) (decoding : bool) : str -> str :=
  match t, decoding with
  | Uxdx, false => ux_encode | Uxdx, true => ux_decode
  | Fix, false => encode hindi | Fix, true => decode hindi
  end.
(** The lines that come back. *)
Definition comes_back (t : stool) (l : str) : Prop :=
  match t with
  | Uxdx => ~ In 0x22EE%N l
  | Fix => ~ In 0xE000%N l /\ viramas_between_consonants hindi l /\ signs_inside_words hindi l
  end.
Definition naming (t : stool) (st : style) (n : str) : list (style * sset) := match t with Uxdx => [] | Fix => [(st, SLang n)] end.
