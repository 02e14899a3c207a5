(** Where the full format stores its files: FileTableIOVersion1 and FileTableIOVersion2,
    /repo/sources/file_table_v2.cpp 218-332, over the host directory of the repository. *)
From Coq Require Import Strings.String.
From Verif Require Import Base TextModel NameModel FullFsModel.
Local Open Scope nat_scope.
Local Open Scope list_scope.

(** ** Paths *)
(** sources/file_table_v2.cpp 218-332: the suffix of metadata files. *)
Definition meta_suffix : bytes := str ".meta".

(** FileTableIOVersion1::calculate_paths, 227-242 ([legacy]), and
    FileTableIOVersion2::calculate_paths, 288-296: the directories, outermost first, and
    the two file names. *)
Definition FIRST_LEVEL : nat := 1.
Definition SECOND_LEVEL : nat := 5.
Definition dir_paths (legacy : bool) (id : bytes) : list bytes :=
  if legacy then
    let first_level_dir := hexify (firstn FIRST_LEVEL id) in
    [first_level_dir; first_level_dir ++ slash :: hexify (firstn SECOND_LEVEL (skipn FIRST_LEVEL id))]
  else [hexify (firstn 1 id)].
Definition data_path (legacy : bool) (id : bytes) : bytes :=
  if legacy then
    (hexify (firstn FIRST_LEVEL id) ++ slash :: hexify (firstn SECOND_LEVEL (skipn FIRST_LEVEL id)))
      ++ slash :: hexify (skipn (FIRST_LEVEL + SECOND_LEVEL) id)
  else hexify (firstn 1 id) ++ slash :: hexify (skipn 1 id).
Definition meta_path (legacy : bool) (id : bytes) : bytes := data_path legacy id ++ meta_suffix.

(** ** The host directory *)
(** Environment: a directory or a file of the host. *)
Inductive hnode := HDir | HFile (content : bytes).
(** Entries by components; the directory of the repository itself is [[]]. *)
(** Environment: the host's directory tree. *)
Definition host := list (list bytes * hnode).
(** Helper (no code): equality of paths. *)
Definition path_dec : forall p q : list bytes, {p = q} + {p <> q} := list_eq_dec (list_eq_dec byte_eq_dec).
(** Environment: the host. *)
Fixpoint hget (h : host) (p : list bytes) : option hnode :=
  match h with [] => None | (q, n) :: h' => if path_dec q p then Some n else hget h' p end.
(** Environment: the host. *)
Definition hdel (h : host) (p : list bytes) : host := filter (fun e => if path_dec (fst e) p then false else true) h.
(** Environment: the host. *)
Definition hput (h : host) (p : list bytes) (n : hnode) : host := (p, n) :: hdel h p.
(** Environment: the host. *)
Definition is_dir (h : host) (p : list bytes) : bool :=
  match p with [] => true | _ => match hget h p with Some HDir => true | _ => false end end.
(** Has directory [p] an entry? *)
(** Environment: the host. *)
Definition occupied (h : host) (p : list bytes) : bool :=
  existsb (fun e => if path_dec (removelast (fst e)) p then match fst e with [] => false | _ => true end else false) h.

(** The calls on the host made here: mkdirat, openat, unlinkat (OSService, unix.cpp
    370-386, 300-330). *)
Inductive hcall :=
| HEnsure (p : bytes)      (* ensure_directory: an existing entry is no error *)
| HExcl (p : bytes)        (* open_file_stream(O_RDWR | O_CREAT | O_EXCL) *)
| HOpen (p : bytes)        (* open_file_stream(O_RDWR) *)
| HUnlink (p : bytes)      (* remove_file_nothrow *)
| HRmdir (p : bytes).      (* remove_directory_nothrow *)

(** sources/unix.cpp 326-386: the calls of OSService used by the table's
    storage. *)
Definition hcall1 (c : hcall) (h : host) : host * option err :=
  match c with
  | HEnsure s =>
    let p := split_slash s in
    match hget h p with
    | Some _ => (h, None)
    | None => if is_dir h (removelast p) then (hput h p HDir, None) else (h, Some E_NOENT)
    end
  | HExcl s =>
    let p := split_slash s in
    match hget h p with
    | Some _ => (h, Some E_EXIST)
    | None => if is_dir h (removelast p) then (hput h p (HFile []), None) else (h, Some E_NOENT)
    end
  | HOpen s => match hget h (split_slash s) with Some (HFile _) => (h, None) | Some HDir => (h, Some E_ISDIR) | None => (h, Some E_NOENT) end
  | HUnlink s => match hget h (split_slash s) with Some (HFile _) => (hdel h (split_slash s), None) | _ => (h, None) end
  | HRmdir s =>
    let p := split_slash s in
    match hget h p with Some HDir => if occupied h p then (h, None) else (hdel h p, None) | _ => (h, None) end
  end.
(** One call after the other; an exception ends the sequence. *)
(** Helper (no code): sequencing. *)
Fixpoint hcalls (l : list hcall) (h : host) : host * option err :=
  match l with
  | [] => (h, None)
  | c :: l' => match hcall1 c h with (h', None) => hcalls l' h' | (h', Some e) => (h', Some e) end
  end.

(** ** The operations *)
(** create, 262-270 and 312-320. *)
Definition io_create (legacy : bool) (id : bytes) : list hcall :=
  map HEnsure (dir_paths legacy id) ++ [HExcl (data_path legacy id); HExcl (meta_path legacy id)].
(** open, 250-258 and 303-310. *)
Definition io_open (legacy : bool) (id : bytes) : list hcall := [HOpen (data_path legacy id); HOpen (meta_path legacy id)].
(** unlink, 272-280 (the second-level directory twice) and 322-329. *)
Definition io_unlink (legacy : bool) (id : bytes) : list hcall :=
  [HUnlink (data_path legacy id); HUnlink (meta_path legacy id)] ++
  (if legacy then [HRmdir (last (dir_paths legacy id) []); HRmdir (last (dir_paths legacy id) [])] else [HRmdir (last (dir_paths legacy id) [])]).

(** What the table does with the storage.  [IoPut] and [IoGet]: open the two streams and
    replace, or read, what they hold. *)
(** FileTableIO, sources/file_table_v2.h 24-30. *)
Inductive ioop := IoCreate (id : bytes) | IoPut (id data meta : bytes) | IoGet (id : bytes) | IoUnlink (id : bytes).
(** Helper (no code): what a call gives. *)
Inductive ioans := IoDone | IoBytes (data meta : bytes) | IoErr (e : err).

(** Environment: the content of a file. *)
Definition hread (h : host) (s : bytes) : bytes := match hget h (split_slash s) with Some (HFile c) => c | _ => [] end.
(** FileTableIO, sources/file_table_v2.h 24-30, with the use made of the
    streams. *)
Definition io_step (legacy : bool) (op : ioop) (h : host) : host * ioans :=
  match op with
  | IoCreate id => match hcalls (io_create legacy id) h with (h', None) => (h', IoDone) | (h', Some e) => (h', IoErr e) end
  | IoPut id d m =>
    match hcalls (io_open legacy id) h with
    | (h', None) => (hput (hput h' (split_slash (data_path legacy id)) (HFile d)) (split_slash (meta_path legacy id)) (HFile m), IoDone)
    | (h', Some e) => (h', IoErr e)
    end
  | IoGet id =>
    match hcalls (io_open legacy id) h with
    | (h', None) => (h', IoBytes (hread h' (data_path legacy id)) (hread h' (meta_path legacy id)))
    | (h', Some e) => (h', IoErr e)
    end
  | IoUnlink id => (fst (hcalls (io_unlink legacy id) h), IoDone)
  end.
(** Helper (no code): a history of calls. *)
Fixpoint io_run (legacy : bool) (ops : list ioop) (h : host) : host * list ioans :=
  match ops with
  | [] => (h, [])
  | op :: ops' => let (h1, r) := io_step legacy op h in let (h2, l) := io_run legacy ops' h1 in (h2, r :: l)
  end.

(** The host calls of an operation, for crashes in the middle of one. *)
(** Helper: the host calls of sources/file_table_v2.cpp 218-332. *)
Definition io_calls (legacy : bool) (op : ioop) : list hcall :=
  match op with IoCreate id => io_create legacy id | IoUnlink id => io_unlink legacy id | IoPut id _ _ | IoGet id => io_open legacy id end.
