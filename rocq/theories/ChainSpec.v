(** Three commands in a row: learn from t into m, encode f into o, decode o into d. *)
From Coq Require Import Strings.String.
From Verif Require Import Py PyStr LearnModel CliSpec EvalModel MainModel ArgModel ArgSpec CmdModel CmdSpec ArgProofs.
Local Open Scope list_scope.

(** One command line, from its settings before and after the task. *)
Definition line (task : string) (before after : list (style * setting)) : list str :=
  flat_map words_of before ++ [lit task] ++ flat_map words_of after.
Definition settings (before after : list (style * setting)) : list setting := map snd (before ++ after).
Definition asked_by (before after : list (style * setting)) : asked := fold_left ask (settings before after) nothing_asked.

(** The settings name these files, in whatever order and spelling; no --out is the model or the file read. *)
Record three_lines {A} (Y : system A) (fs : files) (b1 a1 b2 a2 b3 a3 : list (style * setting)) (t m f o d : str) : Prop := {
  tl_s1 : Forall (sensible (y_env Y) (lookup fs)) (b1 ++ a1);
  tl_s2 : Forall (sensible (y_env Y) (lookup fs)) (b2 ++ a2);
  tl_s3 : Forall (sensible (y_env Y) (fun p => if str_eqb p o then Some [] else lookup fs p)) (b3 ++ a3);
  tl_i1 : q_inp (asked_by b1 a1) = Some t;
  tl_m1 : q_model (asked_by b1 a1) = Some m;
  tl_o1 : forall p, ~ In (SOut p) (settings b1 a1);
  tl_i2 : q_inp (asked_by b2 a2) = Some f;
  tl_m2 : q_model (asked_by b2 a2) = Some m;
  tl_o2 : q_out (asked_by b2 a2) = Some o;
  tl_p2 : forall p, In (SOut p) (settings b2 a2) -> p <> m /\ p <> f;
  tl_i3 : q_inp (asked_by b3 a3) = Some o;
  tl_m3 : q_model (asked_by b3 a3) = Some m;
  tl_o3 : q_out (asked_by b3 a3) = Some d;
  tl_p3 : forall p, In (SOut p) (settings b3 a3) -> p <> m /\ p <> o;
  tl_fm : f <> m;
  tl_idx : q_idx (asked_by b3 a3) = q_idx (asked_by b2 a2) }.

(** All three succeed, o gets a line per line of f and, if its text survives being stored, d gets the lines
    related by [Q] to those of f. *)
Definition comes_back (A : arith) (Y : system A) orders version now fs stdin1 stdin2 stdin3 b1 a1 b2 a2 b3 a3 (o d : str)
    (Q : str -> str -> Prop) (ls : list str) : Prop :=
  exists e1 e2 encs,
    program A orders version now Y fs stdin1 (line "learn" b1 a1) = Some e1 /\ x_status e1 = 0%Z /\
    program A orders version now Y (x_files e1) stdin2 (line "encode" b2 a2) = Some e2 /\ x_status e2 = 0%Z /\
    lookup (x_files e2) o = Some (y_bytes Y (unlines encs)) /\ List.length encs = List.length ls /\
    (y_text Y (y_bytes Y (unlines encs)) = unlines encs ->
     exists e3 outs, program A orders version now Y (x_files e2) stdin3 (line "decode" b3 a3) = Some e3 /\ x_status e3 = 0%Z /\
       lookup (x_files e3) d = Some (y_bytes Y (unlines outs)) /\ Forall2 Q ls outs).
