(** What the statements about the FUSE boundary mean. *)
From Coq Require Import Strings.String.
From Verif Require Import Base TextModel FuseModel.
Local Open Scope list_scope.

(** The code for each kind of failure. *)
Definition errno_of (e : exn) : Z :=
  match e with
  | XVfs n | XPosix n _ => n
  | XInvalidArgument _ => 22                                        (* EINVAL *)
  | XTooLong _ => 27                                                (* EFBIG *)
  | XVerification _ | XFormat _ | XInternal _ | XStd _ => 1         (* EPERM *)
  end.
(** The answer FUSE should get: what the file system returns, or the negated code. *)
Definition code_of (o : outcome) : Z :=
  match o with Returns rc _ => rc | Throws e _ => (- errno_of e)%Z end.

(** An ioctl command that the file system answers with "not implemented" is
    answered with "not supported" instead (not with FUSE-T). *)
Definition answer (fuse_t : bool) (c : fcall) (o : outcome) : Z :=
  match fuse_t, c, o with
  | false, FIoctl _ _ _ _ _ _, Returns rc _ => if (rc =? -38)%Z then (-95)%Z else rc
  | _, _, _ => code_of o
  end.

(** Calls that the mount answers itself: with FUSE-T looking at and removing the
    special directory, otherwise two ioctl commands. *)
Definition special (fuse_t : bool) (c : fcall) : bool :=
  match fuse_t, c with
  | true, FGetattr p _ | true, FRmdir p => match p with Some p => bytes_eqb p (x2f :: kSpecialFileName) | None => false end
  | false, FIoctl _ cmd _ _ _ _ => (cmd =? cmd_query)%N || (cmd =? cmd_unmount)%N
  | _, _ => false
  end.

(** A call without the contents of its data buffers: only their size is kept. *)
Definition hide_buf (b : buffer) : buffer := mkBuf (b_addr b) (repeat x00 (length (b_data b))).
Definition hide (c : fcall) : fcall :=
  match c with
  | FRead p b o i => FRead p (hide_buf b) o i
  | FWrite p b o i => FWrite p (hide_buf b) o i
  | FReadlink p b => FReadlink p (hide_buf b)
  | FListxattr p b => FListxattr p (hide_buf b)
  | FGetxattr p n b q => FGetxattr p n (hide_buf b) q
  | FSetxattr p n b f q => FSetxattr p n (hide_buf b) f q
  | FGetpath p b i => FGetpath p (hide_buf b) i
  | FIoctl p c a i f d => FIoctl p c a i f (hide_buf d)
  | c => c
  end.
(** Two outcomes that differ at most in the contents of buffers. *)
Definition alike (o o' : outcome) : Prop :=
  match o, o' with
  | Returns rc c, Returns rc' c' => rc = rc' /\ hide c = hide c'
  | Throws e c, Throws e' c' => e = e' /\ hide c = hide c'
  | _, _ => False
  end.

(** Failures worth a line in the log whatever its level: not a plain answer of the
    file system, not "already exists", and not a missing attribute. *)
Definition notable (c : fcall) (e : exn) : Prop :=
  (forall n, e <> XVfs n) /\ errno_of e <> 17%Z /\
  match c with FGetxattr _ _ _ _ => errno_of e <> 61%Z | _ => True end.

(** The operation of FUSE that a call is. *)
Definition fuse_name (c : fcall) : string :=
  (match c with
  | FStatfs _ _ => "statfs"
  | FGetattr _ _ => "getattr"
  | FFgetattr _ _ _ => "fgetattr"
  | FOpendir _ _ => "opendir"
  | FReleasedir _ _ => "releasedir"
  | FReaddir _ _ _ _ _ => "readdir"
  | FCreate _ _ _ => "create"
  | FOpen _ _ => "open"
  | FRelease _ _ => "release"
  | FRead _ _ _ _ => "read"
  | FWrite _ _ _ _ => "write"
  | FFlush _ _ => "flush"
  | FFtruncate _ _ _ => "ftruncate"
  | FUnlink _ => "unlink"
  | FMkdir _ _ => "mkdir"
  | FRmdir _ => "rmdir"
  | FChmod _ _ => "chmod"
  | FChown _ _ _ => "chown"
  | FSymlink _ _ => "symlink"
  | FLink _ _ => "link"
  | FReadlink _ _ => "readlink"
  | FRename _ _ => "rename"
  | FFsync _ _ _ => "fsync"
  | FTruncate _ _ => "truncate"
  | FUtimens _ _ => "utimens"
  | FListxattr _ _ => "listxattr"
  | FGetxattr _ _ _ _ => "getxattr"
  | FSetxattr _ _ _ _ _ => "setxattr"
  | FRemovexattr _ _ => "removexattr"
  | FGetpath _ _ _ => "getpath"
  | FIoctl _ _ _ _ _ _ => "ioctl"
  end)%string.
