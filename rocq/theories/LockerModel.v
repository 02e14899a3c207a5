(** The lock file of a full-format repository: RepoLocker, sources/full_format.h 19-52 and
    full_format.cpp 665-704, step by step as its system calls, for any number of processes
    that may die at any time; pids of dead processes are used again.

    The lock file is a name that stands for a host file or nothing; a host file holds a pid
    or nothing that is one.  Simplified: writing the pid is one step; read-only mounts take
    no lock and are left out. *)
From Verif Require Import Base.
Local Open Scope nat_scope.
Local Open Scope list_scope.

Inductive pstate :=
| PDead
| POut                               (* not locking: before, refused, or after *)
| PExists                            (* O_EXCL failed with EEXIST, 679-685 *)
| PCheck (i : nat)                   (* opened the existing file [i], 687 *)
| PSaw (i : nat) (c : option nat)    (* read [c] from it, 689 *)
| PGot (i : nat)                     (* open_lock_stream_checked returned [i], 667 *)
| PCleared (i : nat)                 (* resize(0), 669 *)
| PHold (i : nat)                    (* wrote the pid, 670 *)
| PClosing.                          (* closed the file, full_format.h 38 *)

(** Environment: the name .securefs.lock (sources/full_format.h 22), the files
    it has stood for and the processes. *)
Record locker := mkLocker { name : option nat; inodes : list (option nat); procs : nat -> pstate }.
(** Helper (no code): update of a map. *)
Definition pset (f : nat -> pstate) (p : nat) (v : pstate) : nat -> pstate := fun q => if q =? p then v else f q.
(** Environment: the process number in a lock file. *)
Definition content (s : locker) (i : nat) : option nat := nth i (inodes s) None.
Fixpoint set_nth (l : list (option nat)) (i : nat) (v : option nat) : list (option nat) :=
  match l, i with [], _ => [] | _ :: l', O => v :: l' | x :: l', S i' => x :: set_nth l' i' v end.
(** OSService::is_process_running, unix.cpp 507-537. *)
Definition running (s : locker) (p : nat) : bool := match procs s p with PDead => false | _ => true end.

(** Environment (no code): who takes the next step. *)
Inductive lact :=
| LSpawn (p : nat)                (* a process begins *)
| LGo (p : nat)                   (* its next system call *)
| LFail (p : nat)                 (* which fails instead *)
| LCrash (p : nat).               (* it ends, wherever it is *)

Definition go (s : locker) (p : nat) : locker :=
  let at_ st := mkLocker (name s) (inodes s) (pset (procs s) p st) in
  match procs s p with
  | PDead => s
  | POut =>  (* open_file_stream(O_RDWR | O_CREAT | O_EXCL), 677 *)
    match name s with
    | None => mkLocker (Some (length (inodes s))) (inodes s ++ [None]) (pset (procs s) p (PGot (length (inodes s))))
    | Some _ => at_ PExists
    end
  | PExists =>  (* open_file_stream(O_RDWR), 687 *)
    match name s with Some i => at_ (PCheck i) | None => at_ POut end
  | PCheck i => at_ (PSaw i (content s i))
  | PSaw i c =>  (* 689-702 *)
    if match c with Some q => running s q | None => false end then at_ POut else at_ (PGot i)
  | PGot i => mkLocker (name s) (set_nth (inodes s) i None) (pset (procs s) p (PCleared i))
  | PCleared i => mkLocker (name s) (set_nth (inodes s) i (Some p)) (pset (procs s) p (PHold i))
  | PHold i => at_ PClosing  (* ~RepoLocker, full_format.h 32-40 *)
  | PClosing => mkLocker None (inodes s) (pset (procs s) p POut)
  end.
Definition lstep (s : locker) (a : lact) : locker :=
  match a with
  | LSpawn p => match procs s p with PDead => mkLocker (name s) (inodes s) (pset (procs s) p POut) | _ => s end
  | LGo p => go s p
  | LFail p => match procs s p with PExists | PCheck _ | PSaw _ _ | PGot _ | PCleared _ => mkLocker (name s) (inodes s) (pset (procs s) p POut) | PClosing => mkLocker (name s) (inodes s) (pset (procs s) p POut) | _ => s end
  | LCrash p => mkLocker (name s) (inodes s) (pset (procs s) p PDead)
  end.
Fixpoint lrun (s : locker) (l : list lact) : locker := match l with [] => s | a :: l' => lrun (lstep s a) l' end.
(** Nobody runs; a lock file may have been left. *)
(** Environment (no code): the start. *)
Definition locker0 (left_over : option (option nat)) : locker :=
  match left_over with
  | None => mkLocker None [] (fun _ => PDead)
  | Some c => mkLocker (Some 0) [c] (fun _ => PDead)
  end.
