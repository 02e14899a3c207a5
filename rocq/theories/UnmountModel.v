(** The commands ismount and unmount: how another process finds out whether a directory
    is served by securefs, and asks the one that serves it to stop. *)
From Coq Require Import Strings.String.
From Verif Require Import Base TextModel FuseModel.
Local Open Scope list_scope.

Section Dirs.
Variable S : Type.
(** A directory of the host as the system calls used here see it.  An answer is 0 or
    more, or the negated errno. *)
Record dirsys := mkDir {
  d_open : S -> S * Z;                             (* realpath and open *)
  d_ioctl : N -> bytes -> S -> S * (Z * bytes);    (* ioctl on it, with the memory of the argument *)
  d_stat : bytes -> S -> S * (Z * Z);              (* fstatat of a name in it: the answer and st_mode *)
  d_rmdir : bytes -> S -> S * Z                    (* unlinkat with AT_REMOVEDIR of a name in it *)
}.

(** OSService::OSService(path), unix.cpp 310-324.  The two calls are one, and the
    destructor's close is left out. *)
Definition os_open (d : dirsys) (s : S) : S * option Z :=
  let '(s1, rc) := d_open d s in (s1, if (rc <? 0)%Z then Some (- rc)%Z else None).

(** OSService::query_if_mounted_by_ioctl, unix.cpp 609-614 *)
Definition query_by_ioctl (d : dirsys) (s : S) : S * bool :=
  let '(s1, (rc, m)) := d_ioctl d cmd_query [x00; x00; x00; x00] s in
  (s1, (rc =? 0)%Z && bytes_eqb m magic).
(** OSService::trigger_unmount_by_ioctl, unix.cpp 615-622: [Some e] is the exception *)
Definition unmount_by_ioctl (d : dirsys) (s : S) : S * option Z :=
  let '(s1, (rc, _)) := d_ioctl d cmd_unmount [] s in
  (s1, if (rc <? 0)%Z then Some (- rc)%Z else None).
(** OSService::stat, unix.cpp 420-430: with ENOENT the structure stays as it was,
    which is all zero; other errors are exceptions *)
Definition os_stat_mode (d : dirsys) (name : bytes) (s : S) : S * (option Z + Z) :=
  let '(s1, (rc, mode)) := d_stat d name s in
  (s1, if (rc <? 0)%Z then (if (rc =? -2)%Z then inl None else inr (- rc)%Z) else inl (Some mode)).

(** The test of st_mode in sources/fuse_high_level_ops_base.cpp 848-866. *)
Definition is_dir_mode (m : Z) : bool := (Z.land m 61440 =? 16384)%Z.    (* S_IFMT, S_IFDIR *)

(** is_mounted_by_fuse, fuse_high_level_ops_base.cpp 848-866 *)
Definition is_mounted (fuse_t : bool) (d : dirsys) (s : S) : S * bool :=
  match os_open d s with
  | (s1, Some _) => (s1, false)
  | (s1, None) =>
    if fuse_t then
      match os_stat_mode d kSpecialFileName s1 with
      | (s2, inl (Some m)) => (s2, is_dir_mode m)
      | (s2, inl None) => (s2, is_dir_mode 0)
      | (s2, inr _) => (s2, false)
      end
    else query_by_ioctl d s1
  end.

(** trigger_unmount_by_fuse, 867-878; the result of remove_directory_nothrow
    (unix.cpp 383-386) is not looked at *)
Definition trigger_unmount (fuse_t : bool) (d : dirsys) (s : S) : S * option Z :=
  match os_open d s with
  | (s1, Some e) => (s1, Some e)
  | (s1, None) =>
    if fuse_t then (fst (d_rmdir d kSpecialFileName s1), None)
    else unmount_by_ioctl d s1
  end.

(** IsMountCommand::execute, commands.cpp 1362, UnmountCommand::execute, 1378-1382: the
    exit status; an exception of the system is a std::exception, but not a
    std::runtime_error, for commands_main, 1462-1466 *)
Definition ismount_cmd (fuse_t : bool) (d : dirsys) (s : S) : S * Z :=
  let '(s1, b) := is_mounted fuse_t d s in (s1, if b then 0%Z else 1%Z).
Definition unmount_cmd (fuse_t : bool) (d : dirsys) (s : S) : S * Z :=
  let '(s1, e) := trigger_unmount fuse_t d s in (s1, match e with None => 0%Z | Some _ => 2%Z end).

(** A directory of a file system served through FUSE, at the path [p] in it: the
    kernel turns the system calls into calls of FUSE.  Removing looks the name up first.
    Opening the directory is [op], which the kernel makes of other calls. *)
(** Environment: the kernel turns stat into getattr. *)
Definition fuse_stat (lg : option level) (ops : fops S) (p : bytes) (s : S) : S * (Z * Z) :=
  match fuse_call S lg ops (FGetattr (Some p) (Some [])) s with
  | Some (s1, FGetattr _ st, (_, rc)) => (s1, (rc, match st with Some (m :: _) => m | _ => 0%Z end))
  | Some (s1, _, (_, rc)) => (s1, (rc, 0%Z))
  | None => (s, ((-38)%Z, 0%Z))
  end.
(** Environment: a name in a directory of a mounted file system. *)
Definition child (p name : bytes) : bytes := if bytes_eqb p [x2f] then x2f :: name else p ++ x2f :: name.
(** Environment: a directory whose calls the kernel sends to
    FuseHighLevelOpsBase. *)
Definition served (lg : option level) (ops : fops S) (op : S -> S * Z) (p : bytes) : dirsys :=
  mkDir op
    (fun cmd m s =>
       match fuse_call S lg ops (FIoctl (Some p) cmd 0 None 16 (mkBuf 1 m)) s with    (* FUSE_IOCTL_DIR *)
       | Some (s1, FIoctl _ _ _ _ _ b, (_, rc)) => (s1, (rc, b_data b))
       | Some (s1, _, (_, rc)) => (s1, (rc, m))
       | None => (s, ((-38)%Z, m))
       end)
    (fun name => fuse_stat lg ops (child p name))
    (fun name s =>
       match fuse_stat lg ops (child p name) s with
       | (s1, (rc, m)) =>
         if (rc <? 0)%Z then (s1, rc)
         else if negb (is_dir_mode m) then (s1, (-20)%Z)
         else match fuse_call S lg ops (FRmdir (Some (child p name))) s1 with
              | Some (s2, _, (_, rc2)) => (s2, rc2)
              | None => (s1, (-38)%Z)
              end
       end).
End Dirs.
