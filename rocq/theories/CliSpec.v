(** The lines of a text, stated without the string model's algorithms. *)
From Verif Require Import Py PyStr StrSpec.

Definition no_break (l : str) : Prop := ~ In 10%N l /\ ~ In 13%N l.
(** lines end in "\n", "\r\n" or "\r"; the last one may be unfinished *)
Inductive lines_of : str -> list str -> Prop :=
| Lo_end : lines_of [] []
| Lo_last l : l <> [] -> no_break l -> lines_of l [l]
| Lo_lf l rest ls : no_break l -> lines_of rest ls -> lines_of (l ++ [10%N] ++ rest) (l :: ls)
| Lo_crlf l rest ls : no_break l -> lines_of rest ls -> lines_of (l ++ [13; 10]%N ++ rest) (l :: ls)
| Lo_cr l rest ls : no_break l -> lines_of rest ls -> (forall r, rest <> 10%N :: r) ->
    lines_of (l ++ [13%N] ++ rest) (l :: ls).
(** every line followed by "\n" *)
Definition unlines (ls : list str) : str := flat_map (fun l => l ++ [10%N]) ls.
(** the lines as a text file yields them: every line end read as "\n" and kept with its line *)
Inductive raw_lines : str -> list str -> Prop :=
| Rl_end : raw_lines [] []
| Rl_last l : l <> [] -> no_break l -> raw_lines l [l]
| Rl_line l br rest raws : no_break l -> raw_lines rest raws ->
    br = [10%N] \/ br = [13; 10]%N \/ br = [13%N] /\ (forall r, rest <> 10%N :: r) ->
    raw_lines (l ++ br ++ rest) ((l ++ [10%N]) :: raws).
