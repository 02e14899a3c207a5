(** The boundary to FUSE: exceptions, the tracer that turns them into return codes
    and logs calls, and the wrappers put around a file system at mount time. *)
From Coq Require Import Strings.String.
From Verif Require Import Base TextModel.
Local Open Scope list_scope.

(** ** Exceptions, sources/exceptions.h.  The message is [e.what()]. *)
Inductive exn :=
| XVfs (errc : Z)                          (* VFSException, 53-66 *)
| XPosix (errc : Z) (msg : bytes)          (* POSIXException, 74-87 *)
| XInvalidArgument (msg : bytes)           (* InvalidArgumentException, 111-123 *)
| XTooLong (msg : bytes)                   (* StreamTooLongException, 188-209 *)
| XVerification (msg : bytes)              (* MessageVerification-, XattrVerification-, LiteMessageVerificationException, 146-186 *)
| XFormat (msg : bytes)                    (* CorruptedMetaDataException, 128-144 *)
| XInternal (msg : bytes)                  (* UnreachableCode-, InvalidCast-, FileTypeInconsistencyException, 32-49, 211-240 *)
| XStd (msg : bytes).                      (* any other std::exception, such as throw_runtime_error's or bad_alloc *)

(** Environment: errno values used by sources/fuse_tracer_v2.h 97,
    sources/exceptions.h 29, 121 and 212, and
    sources/fuse_high_level_ops_base.cpp. *)
Definition EPERM : Z := 1. Definition EEXIST_ : Z := 17. Definition EINVAL : Z := 22.
(** Environment: errno values, as above. *)
Definition EFBIG : Z := 27. Definition ENOSYS : Z := 38. Definition ENODATA : Z := 61. Definition ENOTSUP : Z := 95.

(** error_number: ExceptionBase, 28, and its overriders; [None] for exceptions that
    are not an ExceptionBase. *)
Definition error_number (e : exn) : option Z :=
  match e with
  | XVfs n | XPosix n _ => Some n
  | XInvalidArgument _ => Some EINVAL
  | XTooLong _ => Some EFBIG
  | XVerification _ | XFormat _ | XInternal _ => Some EPERM
  | XStd _ => None
  end.
Definition what (e : exn) : bytes :=
  match e with
  | XVfs _ => []
  | XPosix _ m | XInvalidArgument m | XTooLong m | XVerification m | XFormat m | XInternal m | XStd m => m
  end.

(** ** Calls from FUSE, with the memory their pointers lead to.  A C string or a
    structure may be missing (null pointer); a structure is the list of its fields;
    a buffer has an address and a content. *)
Definition cstr := option bytes.
Definition sptr := option (list Z).
Record buffer := mkBuf { b_addr : N; b_data : bytes }.

(** The virtual methods of FuseHighLevelOpsBase with their arguments,
    sources/fuse_high_level_ops_base.h. *)
Inductive fcall :=
| FStatfs (path : cstr) (buf : sptr)
| FGetattr (path : cstr) (st : sptr)
| FFgetattr (path : cstr) (st info : sptr)
| FOpendir (path : cstr) (info : sptr)
| FReleasedir (path : cstr) (info : sptr)
| FReaddir (path : cstr) (buf filler : N) (off : Z) (info : sptr)
| FCreate (path : cstr) (mode : Z) (info : sptr)
| FOpen (path : cstr) (info : sptr)
| FRelease (path : cstr) (info : sptr)
| FRead (path : cstr) (buf : buffer) (off : Z) (info : sptr)
| FWrite (path : cstr) (buf : buffer) (off : Z) (info : sptr)
| FFlush (path : cstr) (info : sptr)
| FFtruncate (path : cstr) (len : Z) (info : sptr)
| FUnlink (path : cstr)
| FMkdir (path : cstr) (mode : Z)
| FRmdir (path : cstr)
| FChmod (path : cstr) (mode : Z)
| FChown (path : cstr) (uid gid : Z)
| FSymlink (to from : cstr)
| FLink (src dest : cstr)
| FReadlink (path : cstr) (buf : buffer)
| FRename (from to : cstr)
| FFsync (path : cstr) (datasync : Z) (info : sptr)
| FTruncate (path : cstr) (len : Z)
| FUtimens (path : cstr) (ts : sptr)
| FListxattr (path : cstr) (list : buffer)
| FGetxattr (path name : cstr) (value : buffer) (position : Z)
| FSetxattr (path name : cstr) (value : buffer) (flags position : Z)
| FRemovexattr (path name : cstr)
| FGetpath (path : cstr) (buf : buffer) (info : sptr)
| FIoctl (path : cstr) (cmd : N) (arg : N) (info : sptr) (flags : Z) (data : buffer).

(** What a call does: it returns a code or throws; in both cases the memory may
    have changed, which is given as the call with its new memory. *)
(** Helper (no code): return or throw of an operation. *)
Inductive outcome := Returns (rc : Z) (after : fcall) | Throws (e : exn) (after : fcall).
(** Helper (no code): the memory after the call. *)
Definition after_of (o : outcome) : fcall := match o with Returns _ c => c | Throws _ c => c end.

(** ** The arguments as the tracer prints them, sources/fuse_tracer_v2.h 13-39 and
    fuse_tracer_v2.cpp 24-149.  The printed text is a function of these values. *)
Inductive shown :=
| SNum (z : Z)
| SAddr (a : N)                  (* %p *)
| SStr (s : cstr)                (* the escaped string, or a null pointer *)
| SStruct (s : sptr)             (* the fields, or a null pointer *)
| SData (d : bytes)              (* PlainRawBuffer: the escaped content *)
| SRedacted (a : N) (size : nat). (* RedactedRawBuffer: address and size *)

(** sources/fuse_tracer_v2.h 12-21 and the uses of PlainRawBuffer and
    RedactedRawBuffer in sources/fuse_high_level_ops_base.cpp. *)
Definition data_arg (sensitive : bool) (b : buffer) : shown :=
  if sensitive then SData (b_data b) else SRedacted (b_addr b) (length (b_data b)).
(** Helper: the size argument beside a buffer. *)
Definition size_of (b : buffer) : shown := SNum (Z.of_nat (length (b_data b))).

(** The argument lists of the static functions, sources/fuse_high_level_ops_base.cpp 19-384. *)
Definition traced_args (sens : bool) (c : fcall) : string * list (string * shown) :=
  (match c with
  | FStatfs p b => ("statfs", [("path", SStr p); ("buf", SStruct b)])
  | FGetattr p st => ("getattr", [("path", SStr p); ("st", SStruct st)])
  | FFgetattr p st i => ("fgetattr", [("path", SStr p); ("st", SStruct st); ("info", SStruct i)])
  | FOpendir p i => ("opendir", [("path", SStr p); ("info", SStruct i)])
  | FReleasedir p i => ("releasedir", [("path", SStr p); ("info", SStruct i)])
  | FReaddir p b f o i => ("readdir", [("path", SStr p); ("buf", SAddr b); ("filler", SAddr f); ("off", SNum o); ("info", SStruct i)])
  | FCreate p m i => ("create", [("path", SStr p); ("mode", SNum m); ("info", SStruct i)])
  | FOpen p i => ("open", [("path", SStr p); ("info", SStruct i)])
  | FRelease p i => ("release", [("path", SStr p); ("info", SStruct i)])
  | FRead p b o i => ("read", [("path", SStr p); ("buf", data_arg sens b); ("size", size_of b); ("offset", SNum o); ("info", SStruct i)])
  | FWrite p b o i => ("write", [("path", SStr p); ("buf", data_arg sens b); ("size", size_of b); ("offset", SNum o); ("info", SStruct i)])
  | FFlush p i => ("flush", [("path", SStr p); ("info", SStruct i)])
  | FFtruncate p l i => ("ftruncate", [("path", SStr p); ("len", SNum l); ("info", SStruct i)])
  | FUnlink p => ("unlink", [("path", SStr p)])
  | FMkdir p m => ("mkdir", [("path", SStr p); ("mode", SNum m)])
  | FRmdir p => ("rmdir", [("path", SStr p)])
  | FChmod p m => ("chmod", [("path", SStr p); ("mode", SNum m)])
  | FChown p u g => ("chown", [("path", SStr p); ("uid", SNum u); ("gid", SNum g)])
  | FSymlink t f => ("symlink", [("to", SStr t); ("from", SStr f)])
  | FLink s d => ("link", [("src", SStr s); ("dest", SStr d)])
  | FReadlink p b => ("readlink", [("path", SStr p); ("buf", data_arg false b); ("size", size_of b)])
  | FRename f t => ("rename", [("from", SStr f); ("to", SStr t)])
  | FFsync p d i => ("fsync", [("path", SStr p); ("datasync", SNum d); ("info", SStruct i)])
  | FTruncate p l => ("truncate", [("path", SStr p); ("len", SNum l)])
  | FUtimens p t => ("utimens", [("path", SStr p); ("ts", SStruct t)])
  | FListxattr p b => ("listxattr", [("path", SStr p); ("list", data_arg sens b); ("size", size_of b)])
  | FGetxattr p n b q => ("getxattr", [("path", SStr p); ("name", SStr n); ("value", data_arg sens b); ("size", size_of b); ("position", SNum q)])
  | FSetxattr p n b f q => ("setxattr", [("path", SStr p); ("name", SStr n); ("value", data_arg sens b); ("size", size_of b); ("flags", SNum f); ("position", SNum q)])
  | FRemovexattr p n => ("removexattr", [("path", SStr p); ("name", SStr n)])
  | FGetpath p b i => ("getpath", [("path", SStr p); ("buf", SAddr (b_addr b)); ("size", size_of b); ("info", SStruct i)])
  | FIoctl p c a i f d => ("ioctl", [("path", SStr p); ("cmd", SNum (Z.of_N c)); ("arg", SAddr a); ("fi", SStruct i); ("flags", SNum f); ("data", SAddr (b_addr d))])
  end)%string.

(** ** The log *)
Inductive level := LTrace | LVerbose | LInfo | LWarning | LError.           (* logger.h 15-22 *)
Definition level_num (l : level) : nat := match l with LTrace => 0 | LVerbose => 1 | LInfo => 2 | LWarning => 3 | LError => 4 end.
Definition level_le (a b : level) : bool := level_num a <=? level_num b.

(** A line: severity, function, arguments, return code and message of the exception.
    Time, thread and line number are left out. *)
(** What print_function_starts, print_function_returns and
    print_function_exception log (sources/fuse_tracer_v2.h 47-66). *)
Record line := mkLine { ln_level : level; ln_fun : string; ln_args : list (string * shown); ln_rc : option Z; ln_what : option bytes }.

(** [None] is a missing logger (global_logger.get() = nullptr). *)
Definition print_function_starts (lg : option level) (a : string * list (string * shown)) : list line :=   (* fuse_tracer_v2.cpp 166-177 *)
  match lg with
  | Some lv => if level_le lv LTrace then [mkLine LTrace (fst a) (snd a) None None] else []
  | None => []
  end.
Definition print_function_returns (lg : option level) (a : string * list (string * shown)) (rc : Z) : list line :=   (* 179-195 *)
  match lg with
  | Some lv => if level_le lv LTrace then [mkLine LTrace (fst a) (snd a) (Some rc) None] else []
  | None => []
  end.
Definition print_function_exception (lg : option level) (a : string * list (string * shown)) (e : exn) (rc : Z) : list line :=   (* 197-229 *)
  match lg with
  | None => []
  | Some lv =>
    if negb (level_le lv LVerbose) && match error_number e with Some n => (n =? EEXIST_)%Z | None => false end then []
    else if level_le lv LError then [mkLine LError (fst a) (snd a) (Some rc) (Some (what e))] else []
  end.

(** FuseTracer::traced_call, fuse_tracer_v2.h 67-100: the lines and the code returned
    to FUSE.  [c] is the call before, the outcome has the memory afterwards. *)
Definition traced_call (lg : option level) (sens : bool) (c : fcall) (o : outcome) : list line * Z :=
  let starts := print_function_starts lg (traced_args sens c) in
  let a := traced_args sens (after_of o) in
  match o with
  | Returns rc _ => (starts ++ print_function_returns lg a rc, rc)
  | Throws (XVfs n) _ => (starts ++ print_function_returns lg a (- n)%Z, (- n)%Z)
  | Throws e _ =>
    let rc := match error_number e with Some n => (- n)%Z | None => (- EPERM)%Z end in
    (starts ++ print_function_exception lg a e rc, rc)
  end.

(** ** File systems as FUSE sees them: FuseHighLevelOpsBase, fuse_high_level_ops_base.h
    19-173.  [f_has] answers the has_ functions by the name of the call. *)
Section Stack.
Variable S : Type.
Record fops := mkOps { f_sensitive : bool; f_has : string -> bool; f_run : fcall -> S -> S * outcome }.

Variable notify : S -> S.          (* IdleShutdownHook::notify_activity, fuse_hook.cpp 22; see TimerModel *)
Variable clean_exit : S -> S.      (* clean_exit_fuse, fuse2_workaround.cpp *)
Variable uid gid : Z.              (* of the caller, from the fuse context *)
Definition magic : bytes := [x33; xf9; x0f; x0a].   (* get_magic_for_mounted_status, platform.h 225: 0xA0FF933 *)

(** The string given to traced_call in sources/fuse_high_level_ops_base.cpp. *)
Definition call_name (c : fcall) : string := fst (traced_args false c).

(** The lambda of static_getxattr, 284-309, which the other static functions do not have:
    "no such attribute" is not logged. *)
Definition quiet (c : fcall) (o : outcome) : outcome :=
  match c, o with
  | FGetxattr _ _ _ _, Throws e c' =>
    match error_number e with
    | Some n => if (n =? ENODATA)%Z then Returns (- n)%Z c' else o
    | None => o
    end
  | _, _ => o
  end.

(** The static functions together with the table of build_ops, 397-472: [None] when
    the operation is not offered; otherwise the state, the caller's memory and the
    lines and code of the tracer. *)
Definition fuse_call (lg : option level) (ops : fops) (c : fcall) (s : S) : option (S * fcall * (list line * Z)) :=
  if f_has ops (call_name c) then
    let '(s1, o) := f_run ops c s in
    Some (s1, after_of (quiet c o), traced_call lg (f_sensitive ops) c (quiet c o))
  else None.

(** HookedFuseHighLevelOps, fuse_hook.h 52-345: every operation notifies first. *)
Definition hooked (ops : fops) : fops :=
  mkOps (f_sensitive ops) (f_has ops) (fun c s => f_run ops c (notify s)).

(** AllowSensitiveLoggingFuseHighLevelOps, fuse_high_level_ops_base.cpp 736-743. *)
Definition sensitive (ops : fops) : fops := mkOps true (f_has ops) (f_run ops).

(** The ioctl commands, unix.cpp 607-608, for Linux: _IOR('s', 1, unsigned) and _IO('s', 2). *)
Definition cmd_query : N := 2147775233.     (* 2 << 30 | 4 << 16 | 's' << 8 | 1 *)
Definition cmd_unmount : N := 29442.        (* 's' << 8 | 2 *)
Definition ioc_size (cmd : N) : N := ((cmd / 65536) mod 16384)%N.

(** SpecialIoctlFuseHighLevelOps, 745-783; two trace lines of fixed text are left out. *)
Definition special_ioctl (ops : fops) : fops :=
  mkOps (f_sensitive ops)
    (fun n => if String.eqb n "ioctl" then true else f_has ops n)
    (fun c s =>
       match c with
       | FIoctl p cmd a i f d =>
         if (cmd =? cmd_query)%N then
           if negb (ioc_size cmd =? 4)%N then (s, Throws (XStd (str "Invalid coding for ioctl!!! A programming error!!!")) c)
           else (s, Returns 0 (FIoctl p cmd a i f (mkBuf (b_addr d) (magic ++ skipn 4 (b_data d)))))
         else if (cmd =? cmd_unmount)%N then (clean_exit s, Returns 0 c)
         else match f_run ops c s with
              | (s1, Returns rc c') => (s1, Returns (if (rc =? - ENOSYS)%Z then (- ENOTSUP)%Z else rc) c')
              | x => x
              end
       | _ => f_run ops c s
       end).

(** SpecialFiledFuseHighLevelOps, 785-836: 60 times U+100000. *)
Definition kSpecialFileName : bytes := concat (repeat [xf4; x80; x80; x80] 60).
Definition is_special (p : cstr) : bool :=
  match p with
  | Some (c :: p') => Byte.eqb c x2f && bytes_eqb p' kSpecialFileName
  | _ => false
  end.
(** the fields of [special_stat] are mode, nlink, uid and gid; the others are zero *)
Definition special_stat : list Z := [16895%Z; 2%Z; uid; gid].               (* S_IFDIR | 0777 *)
Definition special_filed (ops : fops) : fops :=
  mkOps (f_sensitive ops)
    (fun n => if String.eqb n "getattr" || String.eqb n "rmdir" then true else f_has ops n)
    (fun c s =>
       match c with
       | FGetattr p st => if is_special p then (s, Returns 0 (FGetattr p (Some special_stat))) else f_run ops c s
       | FRmdir p => if is_special p then (clean_exit s, Returns 0 c) else f_run ops c s
       | _ => f_run ops c s
       end).

(** make_fuse_high_level_ops, internal_mount.cpp 252-270, and wrap_as_unmountable_fuse,
    fuse_high_level_ops_base.cpp 838-846. *)
Definition make_fuse_ops (fuse_t : bool) (max_idle_seconds : nat) (allow_sensitive : bool) (inner : fops) : fops :=
  let ops := if 0 <? max_idle_seconds then hooked inner else inner in
  let ops := if allow_sensitive then sensitive ops else ops in
  if fuse_t then special_filed ops else special_ioctl ops.
End Stack.
