(** What the documented options of nlcodec-learn, nlcodec-freq and nlcodec-bitextdb ask for (the help texts of
    learn.py:28-58, term_freq.py:95-107, bitextdb.py:44-63), without parsing. *)
From Coq Require Import Strings.String.
From Verif Require Import Py PyStr CodecModel VocabFileModel LearnModel DriverModel FreqModel EvalModel MultipartModel BitextModel MainModel ArgModel ArgSpec CmdModel CmdSpec ToolModel.
Local Open Scope list_scope.

(** An option with its arguments: -x ARG .., --long ARG .. or --long=ARG (one argument). *)
Definition said_as (st : style) (short : option string) (long : string) (args : list str) : list str :=
  match st, args, short with
  | Equals, [a], _ => [lit long ++ lit "=" ++ a]
  | Short, _, Some s => lit s :: args
  | _, _, _ => lit long :: args
  end.
(** Arguments that follow as words must not look like options. *)
Definition free (st : style) (args : list str) : Prop := st <> Equals \/ List.length args <> 1%nat -> Forall plain args.

(** The name beside a path: the last component, nonempty and not '.', without its extension, and a new
    one.  An extension begins at the last dot, if something is before and after it. *)
Inductive beside : str -> str -> str -> Prop :=
| beside_ext d stem ext suffix : (d = [] \/ exists e, d = e ++ lit "/") -> ~ In 47%N stem -> ~ In 47%N ext -> stem <> [] -> ext <> [] -> ~ In 46%N ext ->
    beside (d ++ stem ++ lit "." ++ ext) suffix (d ++ stem ++ suffix)
| beside_plain d n suffix : (d = [] \/ exists e, d = e ++ lit "/") -> ~ In 47%N n -> n <> [] -> n <> lit "." ->
    (forall stem ext, n = stem ++ lit "." ++ ext -> stem <> [] -> ext <> [] -> In 46%N ext) ->
    beside (d ++ n) suffix (d ++ n ++ suffix).

(** *** nlcodec-learn *)
Inductive lset : Type :=
| LInp (ps : list str) | LModel (p : str) | LVocabSize (z : Z) | LLevel (l : str) | LMinFreq (z : Z)
| LCoverage (t : str) | LMinCoEv (z : Z) | LSpark (s : str) | LMem (s : str) | LDedup (b : bool).
Definition lspelt (s : lset) : option string * string * list str :=
  match s with
  | LInp ps => (Some "-i", "--inp", ps)
  | LModel p => (Some "-m", "--model", [p])
  | LVocabSize z => (Some "-vs", "--vocab-size", [str_of_Z z])
  | LLevel l => (Some "-l", "--level", [l])
  | LMinFreq z => (Some "-mf", "--min-freq", [str_of_Z z])
  | LCoverage t => (Some "-cv", "--char-coverage", [t])
  | LMinCoEv z => (Some "-mce", "--min-co-ev", [str_of_Z z])
  | LSpark s => (Some "-spark", "--spark-master", [s])
  | LMem s => (Some "-dm", "--driver-mem", [s])
  | LDedup true => (None, "--dedup", [])
  | LDedup false => (None, "--no-dedup", [])
  end%string.
Definition lwords (ss : style * lset) : list str := let '(short, long, args) := lspelt (snd ss) in said_as (fst ss) short long args.
Definition lsensible (E : env) (ss : style * lset) : Prop :=
  free (fst ss) (snd (lspelt (snd ss))) /\
  match snd ss with
  | LInp ps => ps <> []
  | LLevel l => In l (map lit ["char"; "word"; "bpe"; "class"; "byte"]%string)
  | LCoverage t => e_float E t = true
  | _ => True
  end.
Record lasked : Type := MkLasked {
  l_inp : option (list str); l_model : option str; l_vs : Z; l_level : str; l_mf : option Z; l_cv : str; l_mce : Z; l_dedup : bool }.
Definition lnothing : lasked := MkLasked None None (-1) (lit "bpe") None (lit "0.9995") 95 false.
Definition lask (q : lasked) (s : lset) : lasked :=
  let 'MkLasked inp model vs level mf cv mce dd := q in
  match s with
  | LInp ps => MkLasked (Some ps) model vs level mf cv mce dd
  | LModel p => MkLasked inp (Some p) vs level mf cv mce dd
  | LVocabSize z => MkLasked inp model z level mf cv mce dd
  | LLevel l => MkLasked inp model vs l mf cv mce dd
  | LMinFreq z => MkLasked inp model vs level (Some z) cv mce dd
  | LCoverage t => MkLasked inp model vs level mf t mce dd
  | LMinCoEv z => MkLasked inp model vs level mf cv z dd
  | LSpark _ | LMem _ => q
  | LDedup b => MkLasked inp model vs level mf cv mce b
  end.

(** The texts at some paths. *)
Definition texts_at (lines : list N -> list str) (f : disk) (ps : list str) (texts : list (list str)) : Prop :=
  Forall2 (fun p t => exists b, f p = Some b /\ t = lines b) ps texts.
Definition written_or (A : Type) (t : option A) (old : option A) : option A := match t with Some b => Some b | None => old end.
Arguments written_or {A}.

(** What nlcodec-learn should leave: the disk and the exception, if any. *)
Inductive learns (A : arith) orders version now sp (Y : system A) (lines : list N -> list str) (f : disk) (q : lasked) (model : str) : disk -> option exn -> Prop :=
| learns_no_name : (forall suffix w, ~ beside model suffix w) -> learns A orders version now sp Y lines f q model f (Some ValueError)
| learns_before w c : beside model (lit ".wordfreq.gz") w -> beside model (lit ".charfreq.gz") c ->
    f (if str_eqb (l_level q) (lit "char") then c else w) <> None -> learns A orders version now sp Y lines f q model f (Some TypeError)
| learns_nothing w c : beside model (lit ".wordfreq.gz") w -> beside model (lit ".charfreq.gz") c ->
    f (if str_eqb (l_level q) (lit "char") then c else w) = None -> l_inp q = None -> learns A orders version now sp Y lines f q model f (Some TypeError)
| learns_missing w c ps p : beside model (lit ".wordfreq.gz") w -> beside model (lit ".charfreq.gz") c ->
    f (if str_eqb (l_level q) (lit "char") then c else w) = None -> l_inp q = Some ps -> In p ps -> f p = None ->
    learns A orders version now sp Y lines f q model f (Some OtherError)
| learns_run w c ps texts g e : beside model (lit ".wordfreq.gz") w -> beside model (lit ".charfreq.gz") c ->
    f (if str_eqb (l_level q) (lit "char") then c else w) = None -> l_inp q = Some ps -> texts_at lines f ps texts ->
    learn_main A orders version now sp (MkFiles None None (f model)) texts (l_level q) (l_vs q) (l_mf q) (y_num Y (l_cv q)) (l_mce q) (l_dedup q) = (g, e) ->
    learns A orders version now sp Y lines f q model
      (fun p => if str_eqb p model then f_model g
                else if str_eqb p c then written_or (option_map (y_bytes Y) (f_chars g)) (f p)
                else if str_eqb p w then written_or (option_map (y_bytes Y) (f_words g)) (f p)
                else f p) e.

(** *** nlcodec-freq *)
Inductive fset : Type := FInp (ps : list str) | FWords (p : str) | FChars (p : str) | FDedup (b : bool).
Definition fspelt (s : fset) : option string * string * list str :=
  match s with
  | FInp ps => (Some "-i", "--inp", ps)
  | FWords p => (Some "-wf", "--word_freqs", [p])
  | FChars p => (Some "-cf", "--char_freqs", [p])
  | FDedup true => (Some "-dd", "--dedup", [])
  | FDedup false => (Some "-ndd", "--no-dedup", [])
  end%string.
Definition fwords (ss : style * fset) : list str := let '(short, long, args) := fspelt (snd ss) in said_as (fst ss) short long args.
Definition fsensible (E : env) (ss : style * fset) : Prop :=
  free (fst ss) (snd (fspelt (snd ss))) /\
  match snd ss with
  | FInp ps => ps <> []
  | FWords p | FChars p => p = lit "-" \/ e_writable E p = true
  | FDedup _ => True
  end.
(** An output: standard output or a file. *)
Inductive target : Type := Screen | File (p : str).
Definition target_of (p : str) : target := if str_eqb p (lit "-") then Screen else File p.
Record fasked : Type := MkFasked { f_inp : option (list str); f_wf : option target; f_cf : option target; f_dd : bool }.
Definition fnothing : fasked := MkFasked None None None true.
Definition fask (q : fasked) (s : fset) : fasked :=
  match s with
  | FInp ps => MkFasked (Some ps) (f_wf q) (f_cf q) (f_dd q)
  | FWords p => MkFasked (f_inp q) (Some (target_of p)) (f_cf q) (f_dd q)
  | FChars p => MkFasked (f_inp q) (f_wf q) (Some (target_of p)) (f_dd q)
  | FDedup b => MkFasked (f_inp q) (f_wf q) (f_cf q) b
  end.
Definition fopens (f : disk) (s : fset) : disk :=
  match s with
  | FWords p | FChars p => if str_eqb p (lit "-") then f else fun x => if str_eqb x p then Some [] else f x
  | _ => f
  end.
Definition is_given {A} (o : option A) : bool := match o with Some _ => true | None => false end.
Definition on_screen (t : option target) (s : option str) : str := match t, s with Some Screen, Some s => s | _, _ => [] end.
Definition in_file (t : option target) (p : str) : bool := match t with Some (File x) => str_eqb p x | _ => false end.

(** What nlcodec-freq should leave, on the disk [f] once the outputs are open: the disk, the text on
    standard output, the exception. *)
Inductive counts_to {A : arith} sp (Y : system A) (lines : list N -> list str) (f : disk) (q : fasked) : disk -> str -> option exn -> Prop :=
| counts_nowhere : f_wf q = None -> f_cf q = None -> counts_to sp Y lines f q f [] (Some AssertionError)
| counts_missing ps p : f_wf q <> None \/ f_cf q <> None -> f_inp q = Some ps -> In p ps -> f p = None -> counts_to sp Y lines f q f [] (Some OtherError)
| counts_nothing : f_wf q <> None \/ f_cf q <> None -> f_inp q = None -> counts_to sp Y lines f q f [] (Some TypeError)
| counts_fails ps texts e g : f_wf q <> None \/ f_cf q <> None -> f_inp q = Some ps -> texts_at lines f ps texts ->
    freq_main sp (MkFreqFiles None None) (Some texts) (is_given (f_wf q)) (is_given (f_cf q)) (negb (f_dd q)) = (g, Some e) ->
    counts_to sp Y lines f q f [] (Some e)
| counts_run ps texts g : f_wf q <> None \/ f_cf q <> None -> f_inp q = Some ps -> texts_at lines f ps texts ->
    freq_main sp (MkFreqFiles None None) (Some texts) (is_given (f_wf q)) (is_given (f_cf q)) (negb (f_dd q)) = (g, None) ->
    counts_to sp Y lines f q
      (fun p => if in_file (f_cf q) p then option_map (y_bytes Y) (q_chars g)
                else if in_file (f_wf q) p then option_map (y_bytes Y) (q_words g) else f p)
      (on_screen (f_wf q) (q_words g) ++ on_screen (f_cf q) (q_chars g)) None.

(** *** nlcodec-bitextdb *)
Inductive bset : Type :=
| BSrcModel (p : str) | BTgtModel (p : str) | BSrcText (p : str) | BTgtText (p : str) | BDb (p : str) | BParts (z : Z)
| BSrcCol (s : str) | BTgtCol (s : str) | BSrcLen (z : Z) | BTgtLen (z : Z) | BTruncate (b : bool) | BSpark (s : str) | BMem (s : str).
Definition bspelt (s : bset) : option string * string * list str :=
  match s with
  | BSrcModel p => (Some "-sm", "--src-model", [p])
  | BTgtModel p => (Some "-tm", "--tgt-model", [p])
  | BSrcText p => (Some "-st", "--src-text", [p])
  | BTgtText p => (Some "-tt", "--tgt-text", [p])
  | BDb p => (Some "-db", "--db", [p])
  | BParts z => (Some "-np", "--num-parts", [str_of_Z z])
  | BSrcCol s => (Some "-sn", "--src-col", [s])
  | BTgtCol s => (Some "-tn", "--tgt-col", [s])
  | BSrcLen z => (Some "-sl", "--src-len", [str_of_Z z])
  | BTgtLen z => (Some "-tl", "--tgt-len", [str_of_Z z])
  | BTruncate true => (None, "--truncate", [])
  | BTruncate false => (None, "--no-truncate", [])
  | BSpark s => (Some "-spark", "--spark_master", [s])
  | BMem s => (Some "-dm", "--driver_mem", [s])
  end%string.
Definition bwords (ss : style * bset) : list str := let '(short, long, args) := bspelt (snd ss) in said_as (fst ss) short long args.
Definition bsensible (ss : style * bset) : Prop := free (fst ss) (snd (bspelt (snd ss))).
Record basked : Type := MkBasked {
  b_sm : option str; b_tm : option str; b_st : option str; b_tt : option str; b_db : option str; b_np : Z;
  b_sn : str; b_tn : str; b_sl : Z; b_tl : Z; b_tr : bool }.
Definition bnothing : basked := MkBasked None None None None None 0 (lit "x") (lit "y") 256 256 true.
Definition bask (q : basked) (s : bset) : basked :=
  let 'MkBasked sm tm xt yt db np sn tn sl tl tr := q in
  match s with
  | BSrcModel p => MkBasked (Some p) tm xt yt db np sn tn sl tl tr
  | BTgtModel p => MkBasked sm (Some p) xt yt db np sn tn sl tl tr
  | BSrcText p => MkBasked sm tm (Some p) yt db np sn tn sl tl tr
  | BTgtText p => MkBasked sm tm xt (Some p) db np sn tn sl tl tr
  | BDb p => MkBasked sm tm xt yt (Some p) np sn tn sl tl tr
  | BParts z => MkBasked sm tm xt yt db z sn tn sl tl tr
  | BSrcCol s => MkBasked sm tm xt yt db np s tn sl tl tr
  | BTgtCol s => MkBasked sm tm xt yt db np sn s sl tl tr
  | BSrcLen z => MkBasked sm tm xt yt db np sn tn z tl tr
  | BTgtLen z => MkBasked sm tm xt yt db np sn tn sl z tr
  | BTruncate b => MkBasked sm tm xt yt db np sn tn sl tl b
  | BSpark _ | BMem _ => q
  end.

(** What nlcodec-bitextdb should start. *)
Inductive starts (w : world) (cl : cluster) (pad : nat) (lines : list N -> list str) (f : disk) (q : basked) (sm xt yt db : str) : started -> Prop :=
| starts_no_text : f xt = None \/ f yt = None -> starts w cl pad lines f q sm xt yt db (Failed AssertionError)
| starts_no_source xs ys : f xt = Some xs -> f yt = Some ys -> f sm = None -> starts w cl pad lines f q sm xt yt db (Failed FileNotFound)
| starts_no_target xs ys m s p : f xt = Some xs -> f yt = Some ys -> f sm = Some m -> load_scheme m = Ok s -> b_tm q = Some p -> f p = None ->
    starts w cl pad lines f q sm xt yt db (Failed FileNotFound)
| starts_bad_source xs ys m e p : f xt = Some xs -> f yt = Some ys -> f sm = Some m -> load_scheme m = Raise e -> b_tm q = Some p -> f p = None ->
    starts w cl pad lines f q sm xt yt db (Failed e)
| starts_run xs ys m tm : f xt = Some xs -> f yt = Some ys -> f sm = Some m ->
    match b_tm q with None => tm = None | Some p => exists b, f p = Some b /\ tm = Some b end ->
    starts w cl pad lines f q sm xt yt db
      (Started db (bitextdb w cl pad m tm (lines xs) (lines ys) (b_np q) (b_sn q) (b_tn q) (b_sl q) (b_tl q) (b_tr q))).
