(** What a command line in the documented form says, without any parsing. *)
From Coq Require Import Strings.String.
From Verif Require Import Py PyStr ArgModel.
Local Open Scope list_scope.

(** One thing said: a bare word, or an option by one of its names with its arguments, which either follow as
    words or (one of them) are joined to the name by '='. *)
Inductive said : Type :=
| Word (s : str)
| Given (o : opt) (name : str) (args : list str) (joined : bool).

Definition written (b : said) : list str :=
  match b with
  | Word s => [s]
  | Given _ n args true => [n ++ 61%N :: List.concat args]
  | Given _ n args false => n :: args
  end.

(** A word nobody can take for an option: it begins with another character than '-', or is '-' alone, or a
    negative whole number. *)
Definition plain (s : str) : Prop :=
  (forall r, s <> 45%N :: r) \/ s = [45%N] \/
  (exists d r, s = 45%N :: d :: r /\ forall c, In c (d :: r) -> (48 <= c <= 57)%N).

(** Said in the documented way, with the parser [P]. *)
Definition well_said (P : list opt) (b : said) : Prop :=
  match b with
  | Word s => plain s
  | Given o n args joined =>
      In o P /\ In n (a_names o) /\
      (match a_kind o with
       | KFlag _ => args = []
       | KOne _ _ => List.length args = 1%nat
       | KMany _ => args <> []
       | KQuit => False
       end) /\
      (if joined then List.length args = 1%nat else forall s, In s args -> plain s)
  end.

Definition is_word (b : said) : bool := match b with Word _ => true | _ => false end.

(** The disk: what is at a path. *)
Definition disk : Type := str -> option (list N).

(** What a word means as a value, and the disk afterwards: a whole number in decimal notation, a number
    float() takes, a text, a file to read that is there, a file to write, which is emptied. *)
Inductive reads (E : env) : ctype -> str -> disk -> value -> disk -> Prop :=
| reads_int z f : reads E CInt (str_of_Z z) f (VInt z) f
| reads_float s f : e_float E s = true -> reads E CFloat s f (VNum s) f
| reads_text s f : reads E CText s f (VText s) f
| reads_stdin f : reads E CRead [45%N] f VStdin f
| reads_file s f : s <> [45%N] -> f s <> None -> reads E CRead s f (VIn s) f
| reads_stdout f : reads E CWrite [45%N] f VStdout f
| reads_output s f : s <> [45%N] -> e_writable E s = true ->
    reads E CWrite s f (VOut s) (fun p => if str_eqb p s then Some [] else f p).

Inductive reads_all (E : env) (c : ctype) : list str -> disk -> list value -> disk -> Prop :=
| reads_none fs : reads_all E c [] fs [] fs
| reads_more s l fs v fs1 vs fs2 : reads E c s fs v fs1 -> reads_all E c l fs1 vs fs2 -> reads_all E c (s :: l) fs (v :: vs) fs2.

(** The assignments a command line asks for, in order.  A bare word is for the positional argument [pos]. *)
Inductive asks (E : env) (pos : opt) : list said -> disk -> list (opt * value) -> disk -> Prop :=
| asks_nothing fs : asks E pos [] fs [] fs
| asks_word s bs c choices v fs fs1 r fs2 :
    a_kind pos = KOne c choices -> (forall l, choices = Some l -> In s l) -> reads E c s fs v fs1 ->
    asks E pos bs fs1 r fs2 -> asks E pos (Word s :: bs) fs ((pos, v) :: r) fs2
| asks_flag o n b j bs fs r fs2 :
    a_kind o = KFlag b -> asks E pos bs fs r fs2 -> asks E pos (Given o n [] j :: bs) fs ((o, VBool b) :: r) fs2
| asks_one o n s j c choices v bs fs fs1 r fs2 :
    a_kind o = KOne c choices -> (forall l, choices = Some l -> In s l) -> reads E c s fs v fs1 ->
    asks E pos bs fs1 r fs2 -> asks E pos (Given o n [s] j :: bs) fs ((o, v) :: r) fs2
| asks_many o n args j c vs bs fs fs1 r fs2 :
    a_kind o = KMany c -> reads_all E c args fs vs fs1 ->
    asks E pos bs fs1 r fs2 -> asks E pos (Given o n args j :: bs) fs ((o, VMany vs) :: r) fs2.

(** The value of [d] after the assignments: the last one, or what it was. *)
Fixpoint last_given (d : str) (asg : list (opt * value)) (v : value) : value :=
  match asg with
  | [] => v
  | (o, w) :: asg' => last_given d asg' (if str_eqb (a_dest o) d then w else v)
  end.

(** The default of [d]: that of the first declaration of it. *)
Fixpoint default_of (d : str) (P : list opt) : option value :=
  match P with
  | [] => None
  | o :: P' => if match a_kind o with KQuit => false | _ => str_eqb (a_dest o) d end then Some (a_default o) else default_of d P'
  end.

(** No two different flags of one group. *)
Definition no_clash (asg : list (opt * value)) : Prop :=
  forall o p g v w, In (o, v) asg -> In (p, w) asg -> a_group o = Some g -> a_group p = Some g -> o = p.

(** Everything required was said. *)
Definition complete (P : list opt) (asg : list (opt * value)) : Prop :=
  forall o, In o P -> a_required o = true -> exists v, In (o, v) asg.

(** The parsers this is about: names begin with '-' and another sign that is no digit, are not '--', contain
    no '=', and no two are alike; no declaration is a copy of another. *)
Definition proper_name (n : str) : Prop :=
  exists c r, n = 45%N :: c :: r /\ n <> [45; 45]%N /\ ~ In 61%N n /\ ~ (48 <= c <= 57)%N.
Definition proper (P : list opt) : Prop :=
  (forall o n, In o P -> In n (a_names o) -> proper_name n) /\
  NoDup (map fst (option_strings P)) /\
  (forall o p, In o P -> In p P -> a_names o = a_names p -> a_dest o = a_dest p -> o = p) /\
  (forall o p g, In o P -> In p P -> a_group o = Some g -> a_group p = Some g -> exists b b', a_kind o = KFlag b /\ a_kind p = KFlag b').
