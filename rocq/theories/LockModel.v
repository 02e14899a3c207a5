(** The locks taken by the file system operations: sources/full_format.cpp,
    file_table_v2.cpp, lite_format.cpp and the guards of files.h and lock_guard.h.

    An operation is a statement over lock scopes ([stmt]); which files it visits, which
    branches it takes and where it throws are left open, so that a statement has many
    traces.  Threads execute traces step by step, in any interleaving.

    Not modelled: SQLite's own file locks, which give up with an error after two seconds
    (set_timeout(2000), lite_long_name_lookup_table.cpp 52, 127), and mutexes under which
    nothing is called (parent_id_mutex, files.h 188-197; the thread-local registry, C41;
    the timer, C42). *)
From Verif Require Import Base FullFsModel TableModel.
Local Open Scope nat_scope.
Local Open Scope list_scope.

(** The locks. *)
Inductive lk :=
| KFile (id : bytes)       (* FileBase::m_lock, files.h 47, of the object for [id] (one, by C24) *)
| KShard (s : nat)         (* FileTable::Shard::mu, file_table_v2.h *)
| KDir (n : nat)           (* lite: Directory::m_lock of an open directory, lite_format.h 117 *)
| KTable (n : nat)         (* lite: SQLiteDB mutex of a lookup table, lite_long_name_lookup_table.h 20-24 *)
| KHandle (n : nat)        (* lite: File::m_lock of an open file, lite_format.h 134 *)
| KInode (n : nat).        (* lite: flock on the host file, unix.cpp 67-90 *)

(** What a thread does. *)
(** Helper (no code): the lock operations of a thread. *)
Inductive instr :=
| Lock (l : lk)
| LockBoth (a b : lk)      (* std::lock *)
| Unlock (l : lk)
| Touch (l : lk).          (* use of what lock [l] protects *)

(** ** Operations *)
Inductive stmt :=
| SSkip
| SThrow                                  (* may throw *)
| STouch (l : lk)                         (* may throw *)
| SSeq (a b : stmt)
| SGuard (l : lk) (s : stmt)              (* FileLockGuard, LockGuard, files.h 559-573, lock_guard.h *)
| SDouble (a b : lk) (s : stmt)           (* DoubleFileLockGuard, files.h 600-626 *)
| SFinally (s c : stmt)                   (* [c]: the destructor of a FilePtrHolder declared before [s] *)
| SOr (a b : stmt)
| SAny (f : bytes -> stmt)                (* for some file *)
| SAnyN (f : nat -> stmt)
| SLoop (s : stmt).

(** Helper (no code): equality of locks. *)
Definition lk_eqb_dec : forall a b : lk, {a = b} + {a <> b}.
Proof. decide equality; auto using Nat.eq_dec, (list_eq_dec byte_eq_dec). Defined.

(** [tr s m t]: [s] can do [t], and throws if [m]. *)
(** Helper (no code): what a statement may do, scopes and exceptions as in C++.
    *)
Inductive tr : stmt -> bool -> list instr -> Prop :=
| T_skip : tr SSkip false []
| T_throw m : tr SThrow m []
| T_touch l m : tr (STouch l) m [Touch l]
| T_seq a b m t u : tr a false t -> tr b m u -> tr (SSeq a b) m (t ++ u)
| T_seq_throw a b t : tr a true t -> tr (SSeq a b) true t
| T_guard l s m t : tr s m t -> tr (SGuard l s) m (Lock l :: t ++ [Unlock l])
| T_double_same a s m t : tr s m t -> tr (SDouble a a s) m (Lock a :: t ++ [Unlock a])
| T_double a b s m t : a <> b -> tr s m t -> tr (SDouble a b s) m (LockBoth a b :: t ++ [Unlock b; Unlock a])
| T_finally s c m t u : tr s m t -> tr c false u -> tr (SFinally s c) m (t ++ u)
| T_or_l a b m t : tr a m t -> tr (SOr a b) m t
| T_or_r a b m t : tr b m t -> tr (SOr a b) m t
| T_any f id m t : tr (f id) m t -> tr (SAny f) m t
| T_anyn f n m t : tr (f n) m t -> tr (SAnyN f) m t
| T_loop_end s : tr (SLoop s) false []
| T_loop s m t u : tr s false t -> tr (SLoop s) m u -> tr (SLoop s) m (t ++ u)
| T_loop_throw s t : tr s true t -> tr (SLoop s) true t.

Notation "a ;; b" := (SSeq a b) (at level 60, right associativity).

(** FileTable::open_as, file_table_v2.cpp 51-84; create_as, 93-104: under the lock of the
    shard, except for the root. *)
Definition open_as (id : bytes) : stmt := if bytes_eqb id root_id then SThrow else SGuard (KShard (shard_of id)) SThrow.
Definition create_as (id : bytes) : stmt := SGuard (KShard (shard_of id)) SThrow.
(** FileTableCloser, 336-342: nothing if others use the file; else close, 122-138. *)
Definition closer (id : bytes) : stmt :=
  SOr SSkip (if bytes_eqb id root_id then SGuard (KFile id) SSkip else SGuard (KShard (shard_of id)) SSkip).
(** [with_file id s]: open the file, do [s], and let the holder go. *)
(** FilePtrHolder as a local variable, sources/file_table_v2.h 39 and
    file_table_v2.cpp 51-84. *)
Definition with_file (id : bytes) (s : stmt) : stmt := open_as id ;; SFinally s (closer id).
(** A use of a file under its lock. *)
(** FileLockGuard, sources/files.h 559-573. *)
Definition locked (id : bytes) : stmt := SGuard (KFile id) (STouch (KFile id)).

(** One step of the walk, generic_open, full_format.cpp 519-563: look into the directory,
    open the child, read it if it is a symbolic link, and let one or two of the holders
    go.  The nested calls for links make the same steps. *)
Definition walk_step : stmt :=
  SAny (fun parent => SAny (fun child =>
    SOr (open_as parent ;; closer child)                       (* "..", 524-529 *)
        (locked parent ;; SThrow ;; open_as child ;; SOr SSkip (locked child) ;; closer parent ;; closer child))).
Definition walk : stmt := SLoop walk_step.
(** open_base, 567-586: ends with a holder of some directory, for [s]; an exception lets
    the holder of the moment go. *)
Definition drop_any : stmt := SAny closer.
Definition open_base (k : bytes -> stmt) : stmt :=
  open_as root_id ;; SFinally walk drop_any ;; SThrow ;; SAny (fun dir => SFinally (k dir) (closer dir)).
(** open_all, 610-651: likewise, with the file. *)
Definition open_all (k : bytes -> stmt) : stmt :=
  SOr (with_file root_id (k root_id))
      (open_base (fun dir => locked dir ;; SThrow ;;
         SAny (fun id => with_file id (SOr (k id) (locked id ;; SFinally walk drop_any ;; SAny (fun id' => SFinally (k id') (closer id'))))))).
(** create, 587-609. *)
Definition create (k : bytes -> stmt) : stmt :=
  open_base (fun dir => SAny (fun id => create_as id ;; SFinally (locked id ;; locked dir ;; SOr (locked id ;; SThrow) (k id)) (closer id))).

Inductive fullop :=
(* vgetattr 42, vchmod 248, vchown 259, vreadlink 305, vtruncate 370, vutimens 381, vlistxattr 392, vgetxattr 406, vsetxattr 422, vremovexattr 446 *)
| OPath
(* vfgetattr 54, vreaddir 90, vread 163, vwrite 173, vflush 184, vftruncate 191, vfsync 360 *)
| OHandle
| OOpen        (* vopen 136-151, vopendir 66-79 *)
| ORelease     (* vrelease 152-162, vreleasedir 80-89 *)
| OCreate      (* vcreate 125-135, vmkdir 221-225 *)
| OSymlink     (* vsymlink 276-287 *)
| OUnlink      (* vunlink 202-220, vrmdir 226-247 *)
| OLink        (* vlink 288-304 *)
| ORename      (* vrename 326-359 *)
| OGetpath.    (* vgetpath 460-508 *)

(** The methods of sources/full_format.cpp 37-470. *)
Definition full_stmt (o : fullop) : stmt :=
  match o with
  | OPath => open_all (fun id => locked id)
  | OHandle => SAny locked
  | OOpen => open_all (fun id => SOr SSkip (locked id))
  | ORelease => SAny closer
  | OCreate => create (fun _ => SSkip)
  | OSymlink => create (fun id => locked id)
  | OUnlink => open_base (fun dir => locked dir ;; SThrow ;; SAny (fun id => with_file id (locked id)))
  | OLink => open_all (fun id => open_base (fun dir => SDouble (KFile dir) (KFile id) (STouch (KFile dir) ;; STouch (KFile id))))
  | ORename =>
    open_base (fun from => open_base (fun to =>
      SDouble (KFile from) (KFile to) (STouch (KFile from) ;; STouch (KFile to)) ;;
      SOr SSkip (SAny (fun id => with_file id (locked id)))))
  | OGetpath => open_as root_id ;; SFinally walk drop_any
  end.

(** ** The lite format *)
(** File::lock, lite_format.h 168-180: the handle, then the host file. *)
Definition handle_locked (n i : nat) (s : stmt) : stmt := SGuard (KHandle n) (SThrow ;; SGuard (KInode i) s).
(** FuseHighLevelOps::open, lite_format.cpp 1155-1186: the constructor of File locks the
    stream (lite_format.h 137-142), within the transaction if the name is long; then a
    truncation under the lock. *)
Definition lite_open : stmt :=
  SAnyN (fun i => SAnyN (fun n => SAnyN (fun tbl =>
    SOr (SThrow ;; SGuard (KInode i) (STouch (KInode i)))
        (SGuard (KTable tbl) (SThrow ;; SGuard (KInode i) (STouch (KInode i)))) ;;
    SOr SSkip (handle_locked n i (STouch (KInode i)))))).
Inductive liteop :=
| LHandleOp    (* vfgetattr 837, vread 904, vwrite 916, vflush 928, vftruncate 935, vfsync 1048 *)
| LReaddir     (* vreaddir 861-882 with next, 640-698 *)
| LOpen        (* vopen, vcreate 883-898 *)
| LTruncate    (* vtruncate 1058-1065 *)
| LNameOp      (* vunlink, vmkdir, vrmdir, vsymlink, vlink, vrename: a transaction or none *)
| LPathOp.     (* vgetattr, vchmod, ...: no lock *)
(** The methods of sources/lite_format.cpp 762-1152. *)
Definition lite_stmt (o : liteop) : stmt :=
  match o with
  | LHandleOp => SAnyN (fun n => SAnyN (fun i => handle_locked n i (STouch (KInode i))))
  | LReaddir => SAnyN (fun d => SGuard (KDir d) (SLoop (STouch (KDir d) ;; SOr SSkip (SAnyN (fun t => SGuard (KTable t) (STouch (KTable t)))))))
  | LOpen => lite_open
  | LTruncate => lite_open ;; SAnyN (fun n => SAnyN (fun i => handle_locked n i (STouch (KInode i))))
  | LNameOp => SOr SThrow (SAnyN (fun t => SGuard (KTable t) (STouch (KTable t))))
  | LPathOp => SThrow
  end.

(** What a thread runs: operations one after the other, each as it may go. *)
(** Helper (no code): calls one after the other. *)
Inductive runs : list stmt -> list instr -> Prop :=
| R_nil : runs [] []
| R_cons s l m t u : tr s m t -> runs l u -> runs (s :: l) (t ++ u).

(** ** Threads *)
(** Environment (no code): a thread, what it still does and holds. *)
Record thread := mkTh { todo : list instr; has : list lk; mid : option lk }.
(** Environment (no code): all threads. *)
Definition threads := list thread.

(** Helper (no code): nobody holds the lock. *)
Definition free (ts : threads) (l : lk) : Prop := forall th, In th ts -> ~ In l (has th).
(** Helper (no code): a lock given back. *)
Fixpoint drop_lk (l : lk) (h : list lk) : list lk :=
  match h with [] => [] | x :: h' => if lk_eqb_dec x l then h' else x :: drop_lk l h' end.
(** Helper (no code): update of a sequence. *)
Fixpoint put (ts : threads) (i : nat) (th : thread) : threads :=
  match ts, i with
  | [], _ => []
  | _ :: ts', O => th :: ts'
  | x :: ts', S i' => x :: put ts' i' th
  end.

(** One step of thread [th] among [ts].  std::lock: block on either lock, then try the
    other; if it is taken, let the first go and start again. *)
(** Environment: absl::Mutex, std::lock (called at sources/files.h 620) and
    flock. *)
Inductive tstep1 (ts : threads) : thread -> thread -> Prop :=
| S_lock l p h : free ts l -> tstep1 ts (mkTh (Lock l :: p) h None) (mkTh p (l :: h) None)
| S_unlock l p h : tstep1 ts (mkTh (Unlock l :: p) h None) (mkTh p (drop_lk l h) None)
| S_touch l p h : tstep1 ts (mkTh (Touch l :: p) h None) (mkTh p h None)
| S_first a b x p h : x = a \/ x = b -> free ts x -> tstep1 ts (mkTh (LockBoth a b :: p) h None) (mkTh (LockBoth a b :: p) (x :: h) (Some x))
| S_second a b x y p h : (x = a /\ y = b) \/ (x = b /\ y = a) -> free ts y ->
    tstep1 ts (mkTh (LockBoth a b :: p) h (Some x)) (mkTh p (y :: h) None)
| S_back a b x y p h : (x = a /\ y = b) \/ (x = b /\ y = a) -> ~ free ts y ->
    tstep1 ts (mkTh (LockBoth a b :: p) h (Some x)) (mkTh (LockBoth a b :: p) (drop_lk x h) None).
(** Helper (no code): some thread moves. *)
Inductive step1 : threads -> threads -> Prop :=
| S_one ts i th th' : nth_error ts i = Some th -> tstep1 ts th th' -> step1 ts (put ts i th').
(** Helper (no code): executions. *)
Inductive steps : threads -> threads -> Prop :=
| S_refl ts : steps ts ts
| S_step ts ts1 ts2 : step1 ts ts1 -> steps ts1 ts2 -> steps ts ts2.

(** Helper (no code): a thread that holds nothing. *)
Definition fresh (p : list instr) : thread := mkTh p [] None.
