(** Model of calls on names in the lite format that overlap: the steps of
    FuseHighLevelOps, sources/lite_format.cpp 945-1047 and 1153-1225, and of the tables
    of long names, sources/lite_long_name_lookup_table.cpp, for any number of threads.

    A step is one system call of the host or one call of SQLite.  The sequential
    description is [LongNameModel]; here a table is a file of the host with an inode
    number, and its rows are kept by that number, as SQLite keeps them: a connection
    stays with the file it has opened, wherever its directory goes. *)
From Verif Require Import Base NameModel LongNameModel.

(** The table encrypted_mappings, sources/lite_long_name_lookup_table.cpp 13-18.
    *)
Definition rowlist : Type := list (bytes * bytes).

(** A database: what is committed, and the transaction that holds its write lock
    (SQLite's RESERVED lock) with the rows as this transaction sees them. *)
(** Environment: SQLite's database file behind db_
    (sources/lite_long_name_lookup_table.cpp 42-46, 99). *)
Record db : Type := mkDb { db_rows : rowlist; db_owner : option (nat * rowlist) }.

(** What a call still has to do. *)
(** Helper: the system calls and SQLite calls of sources/lite_format.cpp
    945-1047 and 1192-1225, one by one. *)
Inductive prog : Type :=
| PRet (r : res unit)
| POpen (d : hpath) (next : res nat -> prog)                             (* open the table of a directory *)
| PEdit (k : nat) (f : rowlist -> rowlist) (next : res unit -> prog)      (* a statement of the transaction *)
| PHost (call : hfs -> hfs * res unit) (next : res unit -> prog)          (* a system call *)
| PFinish (k : nat) (commit : bool) (next : prog).                        (* commit or rollback *)

(** A thread: idle, or in a call, with the connections that the call has open (the
    directory whose table was asked for, and the inode that was opened). *)
(** Environment: a FUSE worker thread. *)
Inductive lthread : Type :=
| LIdle
| LRun (o : lop) (conns : list (hpath * nat)) (p : prog).

(** Environment: the host and the threads. *)
Record world : Type := mkWorld {
  w_tree : hfs;                  (* tables are files here *)
  w_db : nat -> db;
  w_next : nat;                  (* inode number of the next table *)
  w_thr : nat -> lthread }.
(** Environment: an empty repository, nobody running. *)
Definition world0 : world := mkWorld empty_fs (fun _ => mkDb [] None) 0 (fun _ => LIdle).

(** Helper (no code): update of a map. *)
Definition nupd {A} (f : nat -> A) (i : nat) (v : A) : nat -> A := fun j => if j =? i then v else f j.

(** ** The programs *)
Section Programs.
Variable trans : translator.

(** has_uncaught_exceptions, sources/lite_long_name_lookup_table.cpp 105,
    negated. *)
Definition okb (r : res unit) : bool := match r with Ok _ => true | Err _ => false end.
(** sources/lite_format.cpp 1213-1223. *)
Definition edit_of (act : action) (u enc : bytes) : rowlist -> rowlist :=
  match act with ACreate => update_mapping u enc | ADelete => remove_mapping u end.

(** process_possible_long_name, sources/lite_format.cpp 1192-1225.  The constructor
    of LongNameLookupTable opens the database and makes the table
    (lite_long_name_lookup_table.cpp 40-52), "begin" takes no lock yet, the statement
    does; the destructor of the guard commits, or rolls back if an exception is on
    its way (101-118). *)
Definition c_process (path : bytes) (act : action) (callback : hpath -> (res unit -> prog) -> prog) : prog :=
  match t_encrypt trans path with
  | Err e => PRet (Err e)
  | Ok (P, []) => callback (comps P) PRet
  | Ok (P, enc) =>
    POpen (parent (comps P)) (fun r =>
      match r with
      | Err e => PRet (Err e)
      | Ok k =>
        PEdit k (edit_of act (get_last_component P) enc) (fun r =>
          match r with
          | Err e => PFinish k false (PRet (Err e))
          | Ok _ => callback (comps P) (fun r => PFinish k (okb r) (PRet r))
          end)
      end)
  end.
Definition host (call : hpath -> hfs -> hfs * res unit) (p : hpath) (next : res unit -> prog) : prog := PHost (call p) next.

(** vrename, 1019-1047, and DoubleLongNameLookupTable, lite_long_name_lookup_table.cpp
    120-157.  Nothing is done to a table whose name is not long.  SQLite commits the
    databases one after the other, each with its own lock. *)
Definition c_edit_if (l : bytes) (k : nat) (f : rowlist -> rowlist) (next : res unit -> prog) : prog :=
  match l with [] => next (Ok tt) | _ => PEdit k f next end.
Definition c_rename (from to : bytes) (bad : option err) : prog :=
  match t_encrypt trans from, t_encrypt trans to with
  | Err e, _ | _, Err e => PRet (Err e)
  | Ok (A, []), Ok (B, []) => PHost (h_rename bad (comps A) (comps B)) PRet
  | Ok (A, la), Ok (B, lb) =>
    let da := parent (comps A) in
    let db := parent (comps B) in
    let go ka kb :=
      let leave r := PFinish ka (okb r) (if hpath_eqb da db then PRet r else PFinish kb (okb r) (PRet r)) in
      c_edit_if la ka (remove_mapping (get_last_component A)) (fun r =>
        match r with
        | Err e => leave (Err e)
        | Ok _ =>
          c_edit_if lb kb (update_mapping (get_last_component B) lb) (fun r =>
            match r with
            | Err e => leave (Err e)
            | Ok _ => PHost (h_rename bad (comps A) (comps B)) leave
            end)
        end) in
    POpen da (fun r =>
      match r with
      | Err e => PRet (Err e)
      | Ok ka => if hpath_eqb da db then go ka ka
                 else POpen db (fun r => match r with Err e => PRet (Err e) | Ok kb => go ka kb end)
      end)
  end.

(** The calls.  Opening reads or writes the header of the file before the transaction
    ends; this does not concern names, so that only its failure ([late]) is kept, at
    the system call. *)
Definition c_start (o : lop) : prog :=
  match o with
  | LOpen path creat excl ino bad late =>                          (* open, 1153-1186 *)
    let call p fs0 :=
      match h_open bad creat excl ino p fs0 with
      | (fs1, Ok tt) => (fs1, match late with Some e => Err e | None => Ok tt end)
      | x => x
      end in
    if creat then c_process path ACreate (host call)
    else match t_encrypt trans path with
         | Err e => PRet (Err e)
         | Ok (P, _) => PHost (call (comps P)) PRet
         end
  | LMkdir path bad => c_process path ACreate (host (h_mkdir bad))                      (* vmkdir, 952-958 *)
  | LSymlink path ino bad => c_process path ACreate (host (h_open bad true true ino))    (* vsymlink, 984-992 *)
  | LLink src dest bad =>                                                               (* vlink, 993-1001 *)
    c_process dest ACreate
      (host (fun p fs0 => match t_encrypt trans src with
                          | Err e => (fs0, Err e)
                          | Ok (P, _) => h_link bad (comps P) p fs0
                          end))
  | LUnlink path bad => c_process path ADelete (host (h_unlink bad))                     (* vunlink, 945-951 *)
  | LRmdir path bad =>                                                                  (* vrmdir, 959-970 *)
    c_process path ADelete
      (fun p next => PHost (fun fs => (drop_table p fs, Ok tt)) (fun _ => PHost (h_rmdir bad p) next))
  | LRename from to bad => c_rename from to bad
  end.
End Programs.

(** ** Steps *)

(** sqlite3_open_v2 and "create table if not exists".  If the second fails, the file may
    have been made nevertheless; here it has not. *)
Definition open_db (d : hpath) (w : world) : world * res nat :=
  match w_tree w d with
  | None => (w, Err ENOENT)
  | Some es =>
    match ent kLongNameTableFileName es with
    | Some (KFile k) => (w, Ok k)
    | Some _ => (w, Err EInval)
    | None =>
      let k := w_next w in
      (mkWorld (hset (w_tree w) d (Some (ent_put kLongNameTableFileName (KFile k) es)))
               (nupd (w_db w) k (mkDb [] None)) (S k) (w_thr w), Ok k)
    end
  end.

(** Helper (no code): update of the world. *)
Definition set_thr (w : world) (t : nat) (x : lthread) : world := mkWorld (w_tree w) (w_db w) (w_next w) (nupd (w_thr w) t x).
(** Helper (no code): update of the world. *)
Definition set_db (w : world) (k : nat) (x : db) : world := mkWorld (w_tree w) (nupd (w_db w) k x) (w_next w) (w_thr w).
(** Helper (no code): update of the world. *)
Definition set_wtree (w : world) (fs : hfs) : world := mkWorld fs (w_db w) (w_next w) (w_thr w).

(** What the scheduler chooses: a thread begins a call, takes a step, or returns.
    [Go t (Some e)]: a call of SQLite fails with [e] (the database is busy for too
    long, the disk is full).  [Kill]: the process is killed and the repository mounted
    again; what was not committed is rolled back by SQLite when a table is next opened. *)
(** Environment (no code): who takes the next step, and whether it fails. *)
Inductive choice : Type := Begin (t : nat) (o : lop) | Go (t : nat) (fail : option err) | Return (t : nat) | Kill.
(** Helper (no code): what callers see. *)
Inductive levent : Type := LInv (t : nat) (o : lop) | LRet (t : nat) (r : res unit) | LKilled.

Section Steps.
Variable trans : translator.

(** The table's destructor closes its connection,
    sources/lite_long_name_lookup_table.cpp 54. *)
Definition drop_conn (k : nat) (conns : list (hpath * nat)) : list (hpath * nat) :=
  filter (fun c => negb (snd c =? k)) conns.

Definition c_step (c : choice) (w : world) : option (world * list levent) :=
  match c with
  | Begin t o =>
    match w_thr w t with
    | LIdle => Some (set_thr w t (LRun o [] (c_start trans o)), [LInv t o])
    | _ => None
    end
  | Return t =>
    match w_thr w t with
    | LRun _ _ (PRet r) => Some (set_thr w t LIdle, [LRet t r])
    | _ => None
    end
  | Go t fail =>
    match w_thr w t with
    | LRun o conns p =>
      match p, fail with
      | PRet _, _ => None
      | POpen d next, Some e => Some (set_thr w t (LRun o conns (next (Err e))), [])
      | POpen d next, None =>
        match open_db d w with
        | (w1, Ok k) => Some (set_thr w1 t (LRun o ((d, k) :: conns) (next (Ok k))), [])
        | (w1, Err e) => Some (set_thr w1 t (LRun o conns (next (Err e))), [])
        end
      | PEdit k f next, Some e => Some (set_thr w t (LRun o conns (next (Err e))), [])
      | PEdit k f next, None =>
        match db_owner (w_db w k) with
        | None =>
          Some (set_thr (set_db w k (mkDb (db_rows (w_db w k)) (Some (t, f (db_rows (w_db w k)))))) t
                        (LRun o conns (next (Ok tt))), [])
        | Some (t', m) =>
          if t' =? t
          then Some (set_thr (set_db w k (mkDb (db_rows (w_db w k)) (Some (t, f m)))) t (LRun o conns (next (Ok tt))), [])
          else None                                             (* waits for the lock *)
        end
      | PHost call next, Some _ => None
      | PHost call next, None =>
        let '(fs, r) := call (w_tree w) in Some (set_thr (set_wtree w fs) t (LRun o conns (next r)), [])
      | PFinish k commit next, _ =>
        let x := w_db w k in
        let x' := match db_owner x with
                  | Some (t', m) => if t' =? t
                                    then mkDb (if commit && match fail with None => true | _ => false end then m else db_rows x) None
                                    else x
                  | None => x
                  end in
        (* a commit that fails is logged, and the call goes on as if it had not (101-118) *)
        Some (set_thr (set_db w k x') t (LRun o (drop_conn k conns) next), [])
      end
    | LIdle => None
    end
  | Kill => Some (mkWorld (w_tree w) (fun k => mkDb (db_rows (w_db w k)) None) (w_next w) (fun _ => LIdle), [LKilled])
  end.

(** Helper (no code): executions. *)
Fixpoint c_run (cs : list choice) (w : world) : option (world * list levent) :=
  match cs with
  | [] => Some (w, [])
  | c :: cs' =>
    match c_step c w with
    | None => None
    | Some (w1, h1) => match c_run cs' w1 with
                       | None => None
                       | Some (w2, h2) => Some (w2, h1 ++ h2)
                       end
    end
  end.
End Steps.
