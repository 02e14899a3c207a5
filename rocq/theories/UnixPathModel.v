(** Model of how OSService finds files on Unix: relative to the descriptor of the
    directory it was made for, or by a path that begins with the directory's name
    (sources/unix.cpp 285-300, 310-324, and sources/platform.h 174-183). *)
From Verif Require Import Base NameModel.
Local Open Scope list_scope.

(** OSService::is_absolute, sources/unix.cpp 285. *)
Definition is_absolute (path : bytes) : bool := match path with c :: _ => Byte.eqb c slash | [] => false end.
(** OSService::concat_and_norm, sources/unix.cpp 287-300. *)
Definition concat_and_norm (base_dir path : bytes) : res bytes :=
  if match base_dir with [] => true | _ => is_absolute path end then Ok path
  else if negb (is_absolute base_dir) then Err EInval
  else if Byte.eqb (last base_dir x00) slash then Ok (base_dir ++ path)
  else Ok (base_dir ++ slash :: path).

(** Environment: the directories and files of the host, without symbolic links. *)
Record htree : Type := mkTree { ht_root : nat; ht_child : nat -> bytes -> option nat; ht_parent : nat -> nat }.
(** Environment: path_resolution(7). *)
Fixpoint follow (t : htree) (at_ : nat) (l : list bytes) : option nat :=
  match l with
  | [] => Some at_
  | w :: l' =>
    if bytes_eqb w [] || bytes_eqb w [dot] then follow t at_ l'
    else if bytes_eqb w [dot; dot] then follow t (ht_parent t at_) l'
    else match ht_child t at_ w with Some n => follow t n l' | None => None end
  end.
Definition resolve (t : htree) (start : nat) (path : bytes) : option nat :=
  match path with
  | [] => None
  | c :: _ => follow t (if Byte.eqb c slash then ht_root t else start) (split_slash path)
  end.

(** m_dir_name and m_dir_fd, sources/platform.h 158-160. *)
Record service : Type := mkSvc { sv_name : bytes; sv_dir : nat }.
(** The constructor, sources/unix.cpp 310-324.  [realpath]: what realpath(3) gives for
    [path]. *)
Definition service_for (t : htree) (cwd : nat) (realpath path : bytes) : res service :=
  match resolve t cwd path with
  | Some d => Ok (mkSvc (realpath ++ [slash]) d)
  | None => Err (EPosix 2)
  end.
(** openat, fstatat, mkdirat, unlinkat, renameat, linkat, symlinkat and the like with
    m_dir_fd, sources/unix.cpp 326-465. *)
Definition reach_at (t : htree) (s : service) (path : bytes) : option nat := resolve t (sv_dir s) path.
(** opendir, the calls for attributes, and the tables of long names:
    norm_path, sources/platform.h 175-183; sources/unix.cpp 468-471 and 535-585,
    sources/lite_format.cpp 850 and 1189. *)
Definition reach_by_name (t : htree) (cwd : nat) (s : service) (path : bytes) : res (option nat) :=
  rbind (concat_and_norm (sv_name s) path) (fun q => Ok (resolve t cwd q)).
