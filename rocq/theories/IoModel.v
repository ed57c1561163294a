(** utils.IO (utils.py:80-123): opening plain and gzip files.

    The file system maps paths to contents. Simplification: the content of a gzip file stands for its
    decompressed bytes (appending to a gzip file adds a member, which is read after the others). Line
    ends are those of a POSIX system: "\n" is written as it is. *)
From Coq Require Import Strings.String.
From Verif Require Import Py PyStr Utf8Model.
Local Open Scope list_scope.
Local Open Scope res_scope.

Definition store : Set := list (str * list N).

(** path.name.endswith(".gz") (utils.py:92) *)
Definition is_gz (name : str) : bool :=
  match rev name with
  | 122%N :: 103%N :: 46%N :: _ => true
  | _ => false
  end.
Definition in_mode (c : N) (mode : str) : bool := existsb (N.eqb c) mode.

(** What is returned by __enter__: bytes, or text in utf-8 with errors='replace' - with universal newlines
    for gzip.open and with newline='\n' for Path.open - or text in the encoding of the locale. *)
Inductive layer : Set := Binary | Utf8 (universal : bool) | Locale.

(** utils.py:83-100, IO(path, mode).__enter__, as far as the mode is concerned. gzip.open takes encoding and
    errors in text mode only, and errors is never None (utils.py:88). *)
Definition io_enter (name mode : str) : res layer :=
  let t := in_mode 116%N mode in
  let b := in_mode 98%N mode in
  if is_gz name then
    (if t then (if b then Raise ValueError else Ok (Utf8 true)) else Raise ValueError)
  else if b then (if t then Raise ValueError else Ok Binary)
  else if t then Ok (Utf8 false) else Ok Locale.

(** utils.py:105-111 *)
Definition reader_mode (text : bool) : str := if text then lit "rt" else lit "rb".
Definition writer_mode (text append : bool) : str := (if append then lit "a" else lit "w") ++ (if text then lit "t" else lit "b").

(** Encoding with errors='replace': a lone surrogate becomes a question mark. *)
Definition utf8_encode_replace (s : str) : list N :=
  flat_map (fun c => match utf8_char c with Some bs => bs | None => [63%N] end) s.

(** Opening for writing: mode a keeps what the file has, mode w empties it. *)
Definition kept (fs : store) (name mode : str) : list N := if in_mode 97%N mode then dget_def str_eqb name [] fs else [].
(** with IO.writer(name, append=append) as f: f.write(s) *)
Definition io_write_text (fs : store) (name : str) (append : bool) (s : str) : res store :=
  let* l := io_enter name (writer_mode true append) in
  match l with
  | Utf8 _ => Ok (dset str_eqb name (kept fs name (writer_mode true append) ++ utf8_encode_replace s) fs)
  | _ => Raise TypeError
  end.
(** with IO.writer(name, text=False, append=append) as f: f.write(bytes) *)
Definition io_write_bytes (fs : store) (name : str) (append : bool) (bytes : list N) : res store :=
  let* l := io_enter name (writer_mode false append) in
  match l with
  | Binary => Ok (dset str_eqb name (kept fs name (writer_mode false append) ++ bytes) fs)
  | _ => Raise TypeError
  end.
(** with IO.reader(name) as f: list(f) *)
Definition io_read_text (fs : store) (name : str) : res (list str) :=
  let* l := io_enter name (reader_mode true) in
  match dget str_eqb name fs with
  | None => Raise FileNotFound
  | Some bytes =>
      let s := utf8_decode [65533%N] bytes in
      match l with
      | Utf8 true => Ok (file_lines s)
      | _ => Ok (lines_aux [] s)
      end
  end.
(** with IO.reader(name, text=False) as f: f.read() *)
Definition io_read_bytes (fs : store) (name : str) : res (list N) :=
  let* _ := io_enter name (reader_mode false) in
  match dget str_eqb name fs with
  | None => Raise FileNotFound
  | Some bytes => Ok bytes
  end.
(** utils.py:113-123, read_as_stream with text=True: what is yielded, and the exception that ends it. *)
Fixpoint read_as_stream (fs : store) (names : list str) : list str * option exn :=
  match names with
  | [] => ([], None)
  | n :: names' =>
      match io_read_text fs n with
      | Raise e => ([], Some e)
      | Ok ls => let (rest, e) := read_as_stream fs names' in (ls ++ rest, e)
      end
  end.
