(** The full format's operations on names, run by several threads at once:
    sources/full_format.cpp 40-660, in steps between which other threads may do
    anything.

    A step is what is done under one lock: a use of a file under its lock
    (FileLockGuard, DoubleFileLockGuard), an opening or closing under the lock of a
    shard of the file table, a use of the remembered parent under its mutex.  That
    such steps exclude each other is C44; that the table keeps one object for a file
    and exact reference counts is C24, so that here [opened] lists the references,
    those of the kernel and those of running operations alike. *)
From Coq Require Import Strings.String.
From Verif Require Import Base TextModel NameModel BtreeModel BtreeSpec FullFsModel.
Local Open Scope list_scope.

(** ** Programs: steps on the shared state, then a result. *)
(** Helper (no code): a function body as a sequence of locked sections. *)
Inductive prog (A : Type) : Type :=
| PRet (a : A)
| PStep (upd : ffs -> ffs) (next : ffs -> prog A).
Arguments PRet {A} a.
Arguments PStep {A} upd next.

(** Helper (no code): sequencing. *)
Fixpoint bind {A B} (p : prog A) (f : A -> prog B) : prog B :=
  match p with
  | PRet a => f a
  | PStep upd next => PStep upd (fun st => bind (next st) f)
  end.
Notation "x <~ p ;; q" := (bind p (fun x => q)) (at level 61, p at next level, right associativity).

(** A program that nothing interrupts. *)
(** Helper (no code): no other thread runs. *)
Fixpoint alone {A} (p : prog A) (st : ffs) : ffs * A :=
  match p with
  | PRet a => (st, a)
  | PStep upd next => alone (next st) (upd st)
  end.

(** One step with an answer. *)
(** One scope of a FileLockGuard (sources/files.h 559-573) or of the file
    table's shard lock. *)
Definition p_do {A} (f : ffs -> ffs * A) : prog A := PStep (fun st => fst (f st)) (fun st => PRet (snd (f st))).
(** The same, without a change. *)
(** Helper (no code): a locked section that changes nothing. *)
Definition p_ask {A} (f : ffs -> A) : prog A := p_do (fun st => (st, f st)).

Section Fs.
Variable cmp : bytes -> bytes -> comparison.

(** FileTable::open_as, file_table_v2.cpp 51-84, which takes a reference. *)
Definition p_open (id : bytes) (ty : N) : prog (res holder) :=
  p_do (fun st => match open_as id ty st with Ok h => (hold id st, Ok h) | Err e => (st, Err e) end).
(** FileTableCloser, file_table_v2.cpp 336-342, and close_internal, 141-196. *)
Definition drop_ref (id : bytes) (st : ffs) : ffs := finish id (mkFfs (nodes st) (remove_one id (opened st))).
Definition p_drop (id : bytes) : prog unit := p_do (fun st => (drop_ref id st, tt)).
(** The holders that go out of scope when a function is left with [a]. *)
(** FilePtrHolder's destructor, sources/file_table_v2.h, run for each holder on
    return. *)
Fixpoint leave {A} (ids : list bytes) (a : A) : prog A :=
  match ids with
  | [] => PRet a
  | id :: l => _ <~ p_drop id;; leave l a
  end.
(** sources/files.h 194-198. *)
Definition p_set_parent (id p : bytes) : prog unit := p_do (fun st => (set_parent id p st, tt)).

(** generic_open, full_format.cpp 510-565, which takes over the reference to [parent]. *)
Fixpoint c_open (k : nat) : list bytes -> bytes -> holder -> prog (res (option holder)) :=
  match k with
  | O => fun _ _ parent => leave [fst parent] (Err E_LOOP)
  | S k' =>
    fix walk (splits : list bytes) (parent_id : bytes) (parent : holder) {struct splits} : prog (res (option holder)) :=
      match splits with
      | [] => PRet (Ok (Some parent))
      | s :: ss =>
        if bytes_eqb s (str ".") then walk ss parent_id parent
        else if bytes_eqb s (str "..") then
          up <~ p_ask (fun st => match get st (fst parent) with Some nd => Ok (i_parent nd) | None => Err EUndef end);;
          match up with
          | Err e => leave [fst parent] (Err e)
          | Ok pid =>
            o <~ p_open pid TDIR;;
            match o with
            | Err e => leave [fst parent] (Err e)
            | Ok h => _ <~ p_drop (fst parent);; walk ss pid h
            end
          end
        else
          found <~ p_ask (get_entry cmp parent s);;
          match found with
          | Err e => leave [fst parent] (Err e)
          | Ok None => leave [fst parent] (Ok None)
          | Ok (Some e) =>
            o <~ p_open (e_id e) (e_type e);;
            match o with
            | Err er => leave [fst parent] (Err er)
            | Ok child =>
              _ <~ p_set_parent (e_id e) parent_id;;
              if (e_type e =? TLINK)%N then
                target <~ p_ask (fun st => rmap i_data (cast_as TLINK child st));;
                match target with
                | Err er => leave [fst child; fst parent] (Err er)
                | Ok t =>
                  r <~ c_open k' (path_comps t) parent_id parent;;
                  match r with
                  | Ok (Some h) => _ <~ p_drop (fst child);; walk ss (fst h) h
                  | Ok None => leave [fst child] (Ok None)
                  | Err er => leave [fst child] (Err er)
                  end
                end
              else _ <~ p_drop (fst parent);; walk ss (fst child) child
            end
          end
      end
  end.

(** open_base, 567-586. *)
Definition c_base (path : bytes) : prog (res (holder * bytes)) :=
  o <~ p_open root_id TDIR;;
  match o with
  | Err e => PRet (Err e)
  | Ok root =>
    match path_comps path with
    | [] => PRet (Ok (root, []))
    | [s] => PRet (Ok (root, s))
    | splits =>
      r <~ c_open 16 (removelast splits) root_id root;;
      match r with
      | Ok (Some h) => PRet (Ok (h, last splits []))
      | Ok None => PRet (Err E_NOENT)
      | Err e => PRet (Err e)
      end
    end
  end.

(** open_all, 610-651. *)
Definition c_all (path : bytes) (follow : bool) : prog (res (option holder)) :=
  if bytes_eqb path [] || bytes_eqb path (str "/") then
    o <~ p_open root_id TDIR;; PRet (match o with Ok h => Ok (Some h) | Err e => Err e end)
  else
  b <~ c_base path;;
  match b with
  | Err e => PRet (Err e)
  | Ok (base, name) =>
    found <~ p_ask (get_entry cmp base name);;
    match found with
    | Err e => leave [fst base] (Err e)
    | Ok None => leave [fst base] (Ok None)
    | Ok (Some e) =>
      o <~ p_open (e_id e) (e_type e);;
      match o with
      | Err er => leave [fst base] (Err er)
      | Ok h =>
        _ <~ p_set_parent (e_id e) (fst base);;
        if follow && (snd h =? TLINK)%N then
          target <~ p_ask (fun st => rmap i_data (cast_as TLINK h st));;
          match target with
          | Err er => leave [fst h; fst base] (Err er)
          | Ok t =>
            r <~ c_open 16 (path_comps t) (fst base) base;;
            leave [fst h] r
          end
        else leave [fst base] (Ok (Some h))
      end
    end
  end.

(** FileBase::unlink, files.h 324-328. *)
Definition count_down (id : bytes) (st : ffs) : ffs :=
  match get st id with Some nd => put st id (with_nlink (dec32 (i_nlink nd)) nd) | None => st end.

(** create, 587-609.  The new file is made and initialised in one step: nobody else
    knows its id. *)
Definition c_create (path : bytes) (perm ty : N) (newid : bytes) (bad : option err) : prog (res holder) :=
  b <~ c_base path;;
  match b with
  | Err e => PRet (Err e)
  | Ok (base, name) =>
    c <~ p_do (fun st =>
           match bad, get st newid with
           | Some e, _ => (st, Err e)
           | None, Some _ => (st, Err E_EXIST)
           | None, None => (hold newid (put st newid (mkInode (perm mod 512 + ty * 4096)%N 1 [] [] root_id)), Ok tt)
           end);;
    match c with
    | Err e => leave [fst base] (Err e)
    | Ok _ =>
      a <~ p_do (add_entry cmp base name newid ty);;
      match a with
      | Err e => leave [newid; fst base] (Err e)
      | Ok false =>
        _ <~ p_do (fun st => (count_down newid st, tt));;
        leave [newid; fst base] (Err E_EXIST)
      | Ok true => _ <~ p_set_parent newid (fst base);; leave [fst base] (Ok (newid, ty))
      end
    end
  end.

(** vunlink, 202-220, and vrmdir, 226-247. *)
Definition c_remove (rmdir : bool) (path : bytes) : prog (res fout) :=
  b <~ c_base path;;
  match b with
  | Err e => PRet (Err e)
  | Ok (base, name) =>
    x <~ p_do (remove_entry cmp base name);;
    match x with
    | Err e => leave [fst base] (Err e)
    | Ok None => leave [fst base] (Err E_NOENT)
    | Ok (Some e) =>
      o <~ p_open (e_id e) (e_type e);;
      match o with
      | Err er => leave [fst base] (Err er)
      | Ok h =>
        r <~ p_do (fun st =>
               if rmdir then
                 match cast_as TDIR h st with
                 | Err er => (st, Err er)
                 | Ok nd => match i_dir nd with
                            | [] => (count_down (e_id e) st, Ok FOUnit)
                            | _ => (st, Err E_NOTEMPTY)
                            end
                 end
               else (count_down (e_id e) st, Ok FOUnit));;
        leave [e_id e; fst base] r
      end
    end
  end.

(** vlink, 288-304: both files are locked. *)
Definition link_step (h base : holder) (name : bytes) (st : ffs) : ffs * res fout :=
  match get st (fst h) with
  | None => (st, Err EUndef)
  | Some nd =>
    match add_entry cmp base name (fst h) (i_type nd) st with
    | (st3, Err e) => (st3, Err e)
    | (st3, Ok false) => (st3, Err E_EXIST)
    | (st3, Ok true) =>
      match get st3 (fst h) with
      | None => (st3, Err EUndef)
      | Some nd3 => (put st3 (fst h) (with_nlink (inc32 (i_nlink nd3)) nd3), Ok FOUnit)
      end
    end
  end.
Definition c_link (src dest : bytes) : prog (res fout) :=
  o <~ c_all src true;;
  match o with
  | Err e => PRet (Err e)
  | Ok None => PRet (Err E_NOENT)
  | Ok (Some h) =>
    b <~ c_base dest;;
    match b with
    | Err e => leave [fst h] (Err e)
    | Ok (base, name) => r <~ p_do (link_step h base name);; leave [fst base; fst h] r
    end
  end.

(** vrename, 326-359: both directories are locked for the exchange; the file that is
    replaced is answered, to be unlinked afterwards. *)
Definition rename_step (base_from base_to : holder) (last_from last_to : bytes) (st : ffs) : ffs * res (option entry) :=
  match remove_entry cmp base_from last_from st with
  | (st3, Err e) => (st3, Err e)
  | (st3, Ok None) => (st3, Err E_NOENT)
  | (st3, Ok (Some ef)) =>
    match remove_entry cmp base_to last_to st3 with
    | (st4, Err e) => (st4, Err e)
    | (st4, Ok (Some et)) =>
      if bytes_eqb (e_id ef) (e_id et) then
        match add_entry cmp base_from last_from (e_id ef) (e_type ef) st4 with
        | (st5, Err e) => (st5, Err e)
        | (st5, Ok _) =>
          match add_entry cmp base_to last_to (e_id et) (e_type et) st5 with
          | (st6, Err e) => (st6, Err e)
          | (st6, Ok _) => (st6, Ok None)
          end
        end
      else
        match add_entry cmp base_to last_to (e_id ef) (e_type ef) st4 with
        | (st5, Err e) => (st5, Err e)
        | (st5, Ok _) => (st5, Ok (Some et))
        end
    | (st4, Ok None) =>
      match add_entry cmp base_to last_to (e_id ef) (e_type ef) st4 with
      | (st5, Err e) => (st5, Err e)
      | (st5, Ok _) => (st5, Ok None)
      end
    end
  end.
Definition c_rename (from to : bytes) : prog (res fout) :=
  b1 <~ c_base from;;
  match b1 with
  | Err e => PRet (Err e)
  | Ok (base_from, last_from) =>
    b2 <~ c_base to;;
    match b2 with
    | Err e => leave [fst base_from] (Err e)
    | Ok (base_to, last_to) =>
      r <~ p_do (rename_step base_from base_to last_from last_to);;
      match r with
      | Err e => leave [fst base_to; fst base_from] (Err e)
      | Ok None => leave [fst base_to; fst base_from] (Ok FOUnit)
      | Ok (Some et) =>
        o <~ p_open (e_id et) (e_type et);;
        match o with
        | Err er => leave [fst base_to; fst base_from] (Err er)
        | Ok _ =>
          _ <~ p_do (fun st => (count_down (e_id et) st, tt));;
          leave [e_id et; fst base_to; fst base_from] (Ok FOUnit)
        end
      end
    end
  end.

(** One use of the file at the end of a path (vgetattr 41-51, vchmod 248-258,
    vreadlink 305-325, vtruncate 370-380). *)
Definition with_path (path : bytes) (follow : bool) (f : holder -> ffs -> ffs * res fout) : prog (res fout) :=
  o <~ c_all path follow;;
  match o with
  | Err e => PRet (Err e)
  | Ok None => PRet (Err E_NOENT)
  | Ok (Some h) => r <~ p_do (f h);; leave [fst h] r
  end.

(** What a thread does for a call.  Reads and writes of open files (C57) are single
    steps, see [step] below. *)
Definition body (o : fop) : prog (res fout) :=
  match o with
  | FCreate path perm newid bad =>
    r <~ c_create path perm TREG newid bad;;
    PRet (match r with Ok h => Ok (FOId (fst h)) | Err e => Err e end)
  | FMkdir path perm newid bad =>
    r <~ c_create path perm TDIR newid bad;;
    match r with Ok h => leave [fst h] (Ok FOUnit) | Err e => PRet (Err e) end
  | FSymlink target path newid bad =>
    r <~ c_create path 420 TLINK newid bad;;
    match r with
    | Err e => PRet (Err e)
    | Ok h =>
      u <~ p_do (fun st => match cast_as TLINK h st with
                           | Err e => (st, Err e)
                           | Ok nd => (put st (fst h) (with_data (arr_write (i_data nd) 0 target) nd), Ok FOUnit)
                           end);;
      leave [fst h] u
    end
  | FLink src dest => c_link src dest
  | FUnlink path => c_remove false path
  | FRmdir path => c_remove true path
  | FRename from to => c_rename from to
  | FOpen path trunc =>
    o <~ c_all path true;;
    match o with
    | Err e => PRet (Err e)
    | Ok None => PRet (Err E_NOENT)
    | Ok (Some h) =>
      if trunc then
        u <~ p_do (fun st => match cast_as TREG h st with
                             | Err e => (st, Err e)
                             | Ok nd => (put st (fst h) (with_data [] nd), Ok (FOId (fst h)))
                             end);;
        match u with Ok x => PRet (Ok x) | Err e => leave [fst h] (Err e) end
      else PRet (Ok (FOId (fst h)))
    end
  | FOpendir path =>
    o <~ c_all path true;;
    match o with
    | Err e => PRet (Err e)
    | Ok None => PRet (Err E_NOENT)
    | Ok (Some h) => if (snd h =? TDIR)%N then PRet (Ok (FOId (fst h))) else leave [fst h] (Err E_NOTDIR)
    end
  | FClose id dir =>
    t <~ p_ask (fun st => match get st id with Some nd => Ok (i_type nd) | None => Err EUndef end);;
    match t with
    | Err e => PRet (Err e)
    | Ok ty => if (ty =? if dir then TDIR else TREG)%N then leave [id] (Ok FOUnit)
               else PRet (Err (if dir then E_NOTDIR else E_INVAL))
    end
  | FTruncate path len =>
    with_path path true (fun h st =>
      match cast_as TREG h st with
      | Err e => (st, Err e)
      | Ok nd => (put st (fst h) (with_data (firstn len (i_data nd ++ repeat x00 (len - length (i_data nd)))) nd), Ok FOUnit)
      end)
  | FChattr path c =>
    with_path path false (fun h st =>
      match get st (fst h) with
      | None => (st, Err EUndef)
      | Some nd => (put st (fst h) (with_mode (new_mode c (i_mode nd)) nd), Ok FOUnit)
      end)
  | FGetattr path =>
    with_path path false (fun h st =>
      (st, match get st (fst h) with
           | None => Err EUndef
           | Some nd => Ok (FOStat (fst h) (i_mode nd) (i_nlink nd) (N.of_nat (length (i_data nd))))
           end))
  | FReadlink path =>
    with_path path false (fun h st => (st, rbind (cast_as TLINK h st) (fun nd => Ok (FOBytes (i_data nd)))))
  | FRead _ | FWrite _ _ | FReaddir _ | FEvict _ => p_do (fs_step cmp o)
  end.

(** ** Threads *)
(** Environment: a FUSE worker thread in one of the calls of
    sources/full_format.cpp 37-609. *)
Inductive thread := TIdle | TRun (o : fop) (p : prog (res fout)).

(** [handles]: the open files of the kernel, which it hands back to read, write,
    list and release. *)
Record world := mkWorld { files : ffs; handles : list bytes; threads : list thread }.

(** Helper (no code): update of a sequence. *)
Definition set_nth {A} (i : nat) (x : A) (l : list A) : list A := firstn i l ++ x :: skipn (S i) l.

(** What a call needs: the kernel uses handles it has, and the host's refusal is an
    error of the host. *)
(** Environment: what the kernel guarantees about info->fh, and the host about
    errno. *)
Definition call_ok (o : fop) (w : world) : Prop :=
  match o with
  | FClose id _ => In id (handles w)
  | FRead _ | FWrite _ _ | FReaddir _ | FEvict _ => False   (* see [W_io], [W_evict] *)
  | FCreate _ _ x bad | FMkdir _ _ x bad | FSymlink _ _ x bad => bad <> Some EUndef
  | _ => True
  end.
(** A handle is given up with the call that releases it. *)
(** set_file and get_file, sources/full_format.cpp 76, 81, 133, 148 and 153:
    handles the kernel holds. *)
Definition after_call (o : fop) (hs : list bytes) : list bytes :=
  match o with FClose id _ => remove_one id hs | _ => hs end.
(** set_file, sources/full_format.cpp 76, 133 and 148: a new handle. *)
Definition after_return (r : res fout) (hs : list bytes) : list bytes :=
  match r with Ok (FOId x) => x :: hs | _ => hs end.

(** Helper (no code): what happens in a run. *)
Inductive event :=
| ECall (i : nat) (o : fop)
| EStep (i : nat)
| ERet (i : nat) (o : fop) (r : res fout)
| EIo (o : fop) (r : res fout)
| EEvict (id : bytes).

Inductive wstep : world -> event -> world -> Prop :=
| W_call w i o : nth_error (threads w) i = Some TIdle -> call_ok o w ->
    wstep w (ECall i o) (mkWorld (files w) (after_call o (handles w)) (set_nth i (TRun o (body o)) (threads w)))
| W_step w i o upd next : nth_error (threads w) i = Some (TRun o (PStep upd next)) ->
    wstep w (EStep i) (mkWorld (upd (files w)) (handles w) (set_nth i (TRun o (next (files w))) (threads w)))
| W_return w i o r : nth_error (threads w) i = Some (TRun o (PRet r)) ->
    wstep w (ERet i o r) (mkWorld (files w) (after_return r (handles w)) (set_nth i TIdle (threads w)))
(* vread 163-172, vwrite 173-183, vftruncate 191-200, vreaddir 90-124: one use of the
   file, under its lock *)
| W_io w o id : (o = FRead id \/ (exists d, o = FWrite id d) \/ o = FReaddir id) -> In id (handles w) ->
    wstep w (EIo o (snd (fs_step cmp o (files w)))) (mkWorld (fst (fs_step cmp o (files w))) (handles w) (threads w))
(* close_internal, file_table_v2.cpp 181-195: a file not in use is forgotten *)
| W_evict w id : wstep w (EEvict id) (mkWorld (fst (fs_step cmp (FEvict id) (files w))) (handles w) (threads w)).

(** A run: events with the states after them, latest first. *)
(** Helper (no code): executions from a new repository. *)
Inductive run (n : nat) : list (event * world) -> world -> Prop :=
| R_start : run n [] (mkWorld new_repo [] (repeat TIdle n))
| R_step l w e w' : run n l w -> wstep w e w' -> run n ((e, w') :: l) w'.
End Fs.
