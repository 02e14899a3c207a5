(** A mounted repository of the full format: the stored pairs of files, the file
    objects in memory (ObjModel), the table that keeps them (sources/file_table_v2.cpp)
    and the operations of sources/full_format.cpp 40-660 on all that, run by several
    threads at once.

    The steps are those of FsConcModel: what is done under one lock.  Where FsConcModel
    works on a map from ids to inodes, here a directory is a B-tree in an encrypted
    stream, contents are an encrypted stream, attributes are an encrypted header, and
    whatever an object has not flushed is lost with it.

    Simplifications.  A holder has the class that was asked for (as in FullFsModel, see
    C48).  Every step reads the clock once.  An object that is opened draws random
    bytes from the position of the clock on.  A failure to flush is ignored: it is
    logged for all files but the root (128-137), and cannot happen here, where the host
    does what it is asked. *)
From Coq Require Import Strings.String.
From Verif Require Import Base TextModel NameModel StreamSpec AttrModel FullStreamModel BtreeModel FullFsModel ObjModel.
Local Open Scope list_scope.

(** A pair of stored files: on the host only, or with an object, its references
    (incref, decref, files.h) and its parent id.  The bytes on the host are then those
    under the object's streams. *)
Inductive rfile :=
| RStored (data meta : bytes)
| RLoaded (f : fob) (ref : nat) (parent : bytes).

(** The stored files and the objects of sources/file_table_v2.h 66-72 and 87. *)
Record repo := mkRepo { rp_files : list (bytes * rfile); rp_time : nat }.

(** Helper (no code): look-up by id. *)
Fixpoint rget (id : bytes) (l : list (bytes * rfile)) : option rfile :=
  match l with
  | [] => None
  | (i, x) :: l' => if bytes_eqb i id then Some x else rget id l'
  end.
(** Helper (no code): update by id. *)
Fixpoint rput (id : bytes) (x : rfile) (l : list (bytes * rfile)) : list (bytes * rfile) :=
  match l with
  | [] => [(id, x)]
  | (i, y) :: l' => if bytes_eqb i id then (id, x) :: l' else (i, y) :: rput id x l'
  end.
(** Helper (no code): removal by id. *)
Definition rdel (id : bytes) (l : list (bytes * rfile)) : list (bytes * rfile) :=
  filter (fun p => negb (bytes_eqb (fst p) id)) l.
(** Helper (no code): a change, which takes time. *)
Definition r_set (id : bytes) (x : rfile) (rp : repo) : repo := mkRepo (rput id x (rp_files rp)) (S (rp_time rp)).

(** ** Programs, as in FsConcModel *)
(** Helper (no code): a function body as a sequence of locked sections. *)
Inductive rprog (A : Type) : Type :=
| RRet (a : A)
| RStep (upd : repo -> repo) (next : repo -> rprog A).
Arguments RRet {A} a.
Arguments RStep {A} upd next.

(** Helper (no code): sequencing. *)
Fixpoint rbnd {A B} (p : rprog A) (f : A -> rprog B) : rprog B :=
  match p with
  | RRet a => f a
  | RStep upd next => RStep upd (fun rp => rbnd (next rp) f)
  end.
Local Notation "x <~ p ;; q" := (rbnd p (fun x => q)) (at level 61, p at next level, right associativity).

(** Helper (no code): no other thread runs. *)
Fixpoint r_alone {A} (p : rprog A) (rp : repo) : repo * A :=
  match p with
  | RRet a => (rp, a)
  | RStep upd next => r_alone (next rp) (upd rp)
  end.
(** Helper: one locked section. *)
Definition r_do {A} (f : repo -> repo * A) : rprog A := RStep (fun rp => fst (f rp)) (fun rp => RRet (snd (f rp))).

Section Repo.
Variable E : senv.

(** ** The table *)
(** sources/file_table_v2.cpp 110-120. *)
Definition good_class (ty : N) : bool := ((ty =? TREG) || (ty =? TDIR) || (ty =? TLINK))%N.

(** FileTable::open_as, file_table_v2.cpp 51-84; construct, 105-121. *)
Definition t_open (id : bytes) (ty : N) (rp : repo) : repo * res holder :=
  if bytes_eqb id root_id && negb (ty =? TDIR)%N then (rp, Err E_PERM)
  else match rget id (rp_files rp) with
       | None => (rp, Err E_NOENT)
       | Some (RLoaded f ref p) => (r_set id (RLoaded f (S ref) p) rp, Ok (id, ty))
       | Some (RStored d m) =>
         if good_class ty then
           match fo_open E id d m (rp_time rp) with
           | Ok f => (r_set id (RLoaded f 1 root_id) rp, Ok (id, ty))
           | Err e => (rp, Err e)
           end
         else (rp, Err E_PERM)
       end.

(** create_as, 94-104, with initialize_empty, full_format.cpp 592.  [bad] is a refusal
    of the host. *)
Definition t_create (id : bytes) (perm ty : N) (bad : option err) (rp : repo) : repo * res unit :=
  match bad, rget id (rp_files rp) with
  | Some e, _ => (rp, Err e)
  | None, Some _ => (rp, Err E_EXIST)
  | None, None =>
    match fo_open E id [] [] (rp_time rp) with
    | Ok f => (r_set id (RLoaded (fo_init E (v_clock E (rp_time rp)) perm ty f) 1 root_id) rp, Ok tt)
    | Err e => (rp, Err e)
    end
  end.

(** FileTableCloser, 336-342; close, 122-138; close_internal, 141-196.  An object that
    is closed stays in memory, in the cache. *)
Definition t_drop (id : bytes) (rp : repo) : repo :=
  match rget id (rp_files rp) with
  | Some (RLoaded f ref p) =>
    match ref with
    | O => rp
    | S (S n) => r_set id (RLoaded f (S n) p) rp
    | S O =>
      if negb (bytes_eqb id root_id) && (a_nlink (fo_attrs f) =? 0)%N
      then mkRepo (rdel id (rp_files rp)) (S (rp_time rp))
      else r_set id (RLoaded (fst (fo_flush E id f)) O p) rp
    end
  | _ => rp
  end.
(** close_internal, 181-195: the cache throws an object out, when it likes.  *)
Definition t_evict (id : bytes) (rp : repo) : repo :=
  match rget id (rp_files rp) with
  | Some (RLoaded f O _) => if bytes_eqb id root_id then rp else r_set id (RStored (f_data (fo_s f)) (f_meta (fo_s f))) rp
  | _ => rp
  end.

(** FileTable::~FileTable, 198-216: everything is flushed, and the objects are gone. *)
Definition t_unload (id : bytes) (x : rfile) : rfile :=
  match x with
  | RStored d m => RStored d m
  | RLoaded f _ _ => let f' := fst (fo_flush E id f) in RStored (f_data (fo_s f')) (f_meta (fo_s f'))
  end.
Definition unmount (rp : repo) : list (bytes * rfile) := map (fun p => (fst p, t_unload (fst p) (snd p))) (rp_files rp).
(** FileTable::init, 21-40: the root is opened, or made. *)
Definition mount (stored : list (bytes * rfile)) (t : nat) : repo * res unit :=
  let rp := mkRepo stored t in
  match rget root_id stored with
  | None => match fo_open E root_id [] [] t with
            | Ok f => (r_set root_id (RLoaded (fo_init E (v_clock E t) 493 TDIR f) 0 root_id) rp, Ok tt)
            | Err e => (rp, Err e)
            end
  | Some (RStored d m) => match fo_open E root_id d m t with
                          | Ok f => (r_set root_id (RLoaded f 0 root_id) rp, Ok tt)
                          | Err e => (rp, Err e)
                          end
  | Some (RLoaded _ _ _) => (rp, Err EUndef)
  end.

(** ** Uses of an object that somebody holds *)
Definition with_obj {X} (id : bytes) (f : timespec -> fob -> fob * res X) (rp : repo) : repo * res X :=
  match rget id (rp_files rp) with
  | Some (RLoaded o (S n) p) =>
    let '(o', r) := f (v_clock E (rp_time rp)) o in (r_set id (RLoaded o' (S n) p) rp, r)
  | _ => (rp, Err EUndef)
  end.
(** FileBase::cast_as, files.h 357-366. *)
Definition as_class {X} (want cls : N) (f : timespec -> fob -> fob * res X) (now : timespec) (o : fob) : fob * res X :=
  if (cls =? fo_type o)%N && (cls =? want)%N then f now o else (o, Err E_PERM).

(** Directory::get_entry, sources/files.h 455-460, on an object of the table. *)
Definition t_get (h : holder) (name : bytes) : repo -> repo * res (option entry) :=
  with_obj (fst h) (as_class TDIR (snd h) (fun now => fo_get E (fst h) now name)).
(** Directory::add_entry, sources/files.h 462-467, on an object of the table. *)
Definition t_add (h : holder) (name id : bytes) (ty : N) : repo -> repo * res bool :=
  with_obj (fst h) (as_class TDIR (snd h) (fun now => fo_add E (fst h) now name id ty)).
Definition t_remove (h : holder) (name : bytes) : repo -> repo * res (option entry) :=
  with_obj (fst h) (as_class TDIR (snd h) (fun now => fo_remove E (fst h) now name)).
(** get_parent_id, set_parent_id, files.h 187-198. *)
Definition t_parent (id : bytes) (rp : repo) : res bytes :=
  match rget id (rp_files rp) with Some (RLoaded _ (S _) p) => Ok p | _ => Err EUndef end.
Definition t_set_parent (id p : bytes) (rp : repo) : repo :=
  match rget id (rp_files rp) with Some (RLoaded f (S n) _) => r_set id (RLoaded f (S n) p) rp | _ => rp end.
Definition t_count_down (id : bytes) (rp : repo) : repo := fst (with_obj id (fun _ o => (fo_unlink o, Ok tt)) rp).
Definition t_target (h : holder) : repo -> repo * res bytes :=
  with_obj (fst h) (as_class TLINK (snd h) (fun now => fo_link_get E (fst h) now)).
Definition t_type (id : bytes) (rp : repo) : res N :=
  match rget id (rp_files rp) with Some (RLoaded f (S _) _) => Ok (fo_type f) | _ => Err EUndef end.

(** FileTable::open_as, sources/file_table_v2.cpp 51-84, one locked section. *)
Definition q_open (id : bytes) (ty : N) : rprog (res holder) := r_do (t_open id ty).
(** FileTableCloser and FileTable::close, sources/file_table_v2.cpp 122-196, one
    locked section. *)
Definition q_drop (id : bytes) : rprog unit := r_do (fun rp => (t_drop id rp, tt)).
(** FilePtrHolder's destructor, sources/file_table_v2.h 94-103, for each holder
    on return. *)
Fixpoint r_leave {A} (ids : list bytes) (a : A) : rprog A :=
  match ids with
  | [] => RRet a
  | id :: l => _ <~ q_drop id;; r_leave l a
  end.
(** sources/files.h 194-198. *)
Definition q_set_parent (id p : bytes) : rprog unit := r_do (fun rp => (t_set_parent id p rp, tt)).

(** ** The operations *)

(** generic_open, full_format.cpp 510-565. *)
Fixpoint r_open (k : nat) : list bytes -> bytes -> holder -> rprog (res (option holder)) :=
  match k with
  | O => fun _ _ parent => r_leave [fst parent] (Err E_LOOP)
  | S k' =>
    fix walk (splits : list bytes) (parent_id : bytes) (parent : holder) {struct splits} : rprog (res (option holder)) :=
      match splits with
      | [] => RRet (Ok (Some parent))
      | s :: ss =>
        if bytes_eqb s (str ".") then walk ss parent_id parent
        else if bytes_eqb s (str "..") then
          up <~ r_do (fun rp => (rp, t_parent (fst parent) rp));;
          match up with
          | Err e => r_leave [fst parent] (Err e)
          | Ok pid =>
            o <~ q_open pid TDIR;;
            match o with
            | Err e => r_leave [fst parent] (Err e)
            | Ok h => _ <~ q_drop (fst parent);; walk ss pid h
            end
          end
        else
          found <~ r_do (t_get parent s);;
          match found with
          | Err e => r_leave [fst parent] (Err e)
          | Ok None => r_leave [fst parent] (Ok None)
          | Ok (Some e) =>
            o <~ q_open (e_id e) (e_type e);;
            match o with
            | Err er => r_leave [fst parent] (Err er)
            | Ok child =>
              _ <~ q_set_parent (e_id e) parent_id;;
              if (e_type e =? TLINK)%N then
                target <~ r_do (t_target child);;
                match target with
                | Err er => r_leave [fst child; fst parent] (Err er)
                | Ok t =>
                  r <~ r_open k' (path_comps t) parent_id parent;;
                  match r with
                  | Ok (Some h) => _ <~ q_drop (fst child);; walk ss (fst h) h
                  | Ok None => r_leave [fst child] (Ok None)
                  | Err er => r_leave [fst child] (Err er)
                  end
                end
              else _ <~ q_drop (fst parent);; walk ss (fst child) child
            end
          end
      end
  end.

(** open_base, 567-586. *)
Definition r_base (path : bytes) : rprog (res (holder * bytes)) :=
  o <~ q_open root_id TDIR;;
  match o with
  | Err e => RRet (Err e)
  | Ok root =>
    match path_comps path with
    | [] => RRet (Ok (root, []))
    | [s] => RRet (Ok (root, s))
    | splits =>
      r <~ r_open 16 (removelast splits) root_id root;;
      match r with
      | Ok (Some h) => RRet (Ok (h, last splits []))
      | Ok None => RRet (Err E_NOENT)
      | Err e => RRet (Err e)
      end
    end
  end.

(** open_all, 610-651. *)
Definition r_all (path : bytes) (follow : bool) : rprog (res (option holder)) :=
  if bytes_eqb path [] || bytes_eqb path (str "/") then
    o <~ q_open root_id TDIR;; RRet (match o with Ok h => Ok (Some h) | Err e => Err e end)
  else
  b <~ r_base path;;
  match b with
  | Err e => RRet (Err e)
  | Ok (base, name) =>
    found <~ r_do (t_get base name);;
    match found with
    | Err e => r_leave [fst base] (Err e)
    | Ok None => r_leave [fst base] (Ok None)
    | Ok (Some e) =>
      o <~ q_open (e_id e) (e_type e);;
      match o with
      | Err er => r_leave [fst base] (Err er)
      | Ok h =>
        _ <~ q_set_parent (e_id e) (fst base);;
        if follow && (snd h =? TLINK)%N then
          target <~ r_do (t_target h);;
          match target with
          | Err er => r_leave [fst h; fst base] (Err er)
          | Ok t =>
            r <~ r_open 16 (path_comps t) (fst base) base;;
            r_leave [fst h] r
          end
        else r_leave [fst base] (Ok (Some h))
      end
    end
  end.

(** create, 587-609. *)
Definition r_create (path : bytes) (perm ty : N) (newid : bytes) (bad : option err) : rprog (res holder) :=
  b <~ r_base path;;
  match b with
  | Err e => RRet (Err e)
  | Ok (base, name) =>
    c <~ r_do (t_create newid perm ty bad);;
    match c with
    | Err e => r_leave [fst base] (Err e)
    | Ok _ =>
      a <~ r_do (t_add base name newid ty);;
      match a with
      | Err e => r_leave [newid; fst base] (Err e)
      | Ok false =>
        _ <~ r_do (fun rp => (t_count_down newid rp, tt));;
        r_leave [newid; fst base] (Err E_EXIST)
      | Ok true => _ <~ q_set_parent newid (fst base);; r_leave [fst base] (Ok (newid, ty))
      end
    end
  end.

(** vunlink, 202-220, and vrmdir, 226-247.  The iteration over the entries, which stops
    at the first, is run to its end here. *)
Definition rmdir_use (id : bytes) (now : timespec) (o : fob) : fob * res fout :=
  match fo_list E id now o with
  | (o1, Err e) => (o1, Err e)
  | (o1, Ok []) => (fo_unlink o1, Ok FOUnit)
  | (o1, Ok (_ :: _)) => (o1, Err E_NOTEMPTY)
  end.
Definition r_remove (rmdir : bool) (path : bytes) : rprog (res fout) :=
  b <~ r_base path;;
  match b with
  | Err e => RRet (Err e)
  | Ok (base, name) =>
    x <~ r_do (t_remove base name);;
    match x with
    | Err e => r_leave [fst base] (Err e)
    | Ok None => r_leave [fst base] (Err E_NOENT)
    | Ok (Some e) =>
      o <~ q_open (e_id e) (e_type e);;
      match o with
      | Err er => r_leave [fst base] (Err er)
      | Ok h =>
        r <~ r_do (with_obj (fst h) (if rmdir then as_class TDIR (snd h) (rmdir_use (fst h))
                                     else fun _ o => (fo_unlink o, Ok FOUnit)));;
        r_leave [e_id e; fst base] r
      end
    end
  end.

(** vlink, 288-304. *)
Definition t_link (h base : holder) (name : bytes) (rp : repo) : repo * res fout :=
  match t_type (fst h) rp with
  | Err e => (rp, Err e)
  | Ok ty =>
    match t_add base name (fst h) ty rp with
    | (rp1, Err e) => (rp1, Err e)
    | (rp1, Ok false) => (rp1, Err E_EXIST)
    | (rp1, Ok true) => with_obj (fst h) (fun now o => (fo_set_nlink E now (inc32 (a_nlink (fo_attrs o))) o, Ok FOUnit)) rp1
    end
  end.
Definition r_link (src dest : bytes) : rprog (res fout) :=
  o <~ r_all src true;;
  match o with
  | Err e => RRet (Err e)
  | Ok None => RRet (Err E_NOENT)
  | Ok (Some h) =>
    b <~ r_base dest;;
    match b with
    | Err e => r_leave [fst h] (Err e)
    | Ok (base, name) => r <~ r_do (t_link h base name);; r_leave [fst base; fst h] r
    end
  end.

(** vrename, 326-359. *)
Definition t_rename (base_from base_to : holder) (last_from last_to : bytes) (rp : repo) : repo * res (option entry) :=
  match t_remove base_from last_from rp with
  | (rp1, Err e) => (rp1, Err e)
  | (rp1, Ok None) => (rp1, Err E_NOENT)
  | (rp1, Ok (Some ef)) =>
    match t_remove base_to last_to rp1 with
    | (rp2, Err e) => (rp2, Err e)
    | (rp2, Ok (Some et)) =>
      if bytes_eqb (e_id ef) (e_id et) then
        match t_add base_from last_from (e_id ef) (e_type ef) rp2 with
        | (rp3, Err e) => (rp3, Err e)
        | (rp3, Ok _) =>
          match t_add base_to last_to (e_id et) (e_type et) rp3 with
          | (rp4, Err e) => (rp4, Err e)
          | (rp4, Ok _) => (rp4, Ok None)
          end
        end
      else
        match t_add base_to last_to (e_id ef) (e_type ef) rp2 with
        | (rp3, Err e) => (rp3, Err e)
        | (rp3, Ok _) => (rp3, Ok (Some et))
        end
    | (rp2, Ok None) =>
      match t_add base_to last_to (e_id ef) (e_type ef) rp2 with
      | (rp3, Err e) => (rp3, Err e)
      | (rp3, Ok _) => (rp3, Ok None)
      end
    end
  end.
Definition r_rename (from to : bytes) : rprog (res fout) :=
  b1 <~ r_base from;;
  match b1 with
  | Err e => RRet (Err e)
  | Ok (base_from, last_from) =>
    b2 <~ r_base to;;
    match b2 with
    | Err e => r_leave [fst base_from] (Err e)
    | Ok (base_to, last_to) =>
      r <~ r_do (t_rename base_from base_to last_from last_to);;
      match r with
      | Err e => r_leave [fst base_to; fst base_from] (Err e)
      | Ok None => r_leave [fst base_to; fst base_from] (Ok FOUnit)
      | Ok (Some et) =>
        o <~ q_open (e_id et) (e_type et);;
        match o with
        | Err er => r_leave [fst base_to; fst base_from] (Err er)
        | Ok _ =>
          _ <~ r_do (fun rp => (t_count_down (e_id et) rp, tt));;
          r_leave [e_id et; fst base_to; fst base_from] (Ok FOUnit)
        end
      end
    end
  end.

(** The shape of vgetattr, vchmod, vchown, vutimens and vtruncate,
    sources/full_format.cpp 42-53 and 248-285. *)
Definition r_path (path : bytes) (follow : bool) (f : holder -> timespec -> fob -> fob * res fout) : rprog (res fout) :=
  o <~ r_all path follow;;
  match o with
  | Err e => RRet (Err e)
  | Ok None => RRet (Err E_NOENT)
  | Ok (Some h) => r <~ r_do (with_obj (fst h) (f h));; r_leave [fst h] r
  end.
Definition done (f : timespec -> fob -> fob * res unit) (x : fout) (now : timespec) (o : fob) : fob * res fout :=
  let '(o1, r) := f now o in (o1, rmap (fun _ => x) r).
(** FileBase::stat, files.cpp 222-246. *)
Definition stat_use (id : bytes) (now : timespec) (o : fob) : fob * res fout :=
  let '(o1, r) := fo_size E id o in (o1, rmap (fun n => FOStat id (a_mode (fo_attrs o1)) (a_nlink (fo_attrs o1)) (N.of_nat n)) r).

Definition r_body (o : fop) : rprog (res fout) :=
  match o with
  | FCreate path perm newid bad =>                       (* vcreate, 125-133 *)
    r <~ r_create path perm TREG newid bad;;
    RRet (match r with Ok h => Ok (FOId (fst h)) | Err e => Err e end)
  | FMkdir path perm newid bad =>                        (* vmkdir, 221-225 *)
    r <~ r_create path perm TDIR newid bad;;
    match r with Ok h => r_leave [fst h] (Ok FOUnit) | Err e => RRet (Err e) end
  | FSymlink target path newid bad =>                    (* vsymlink, 276-287 *)
    r <~ r_create path 420 TLINK newid bad;;
    match r with
    | Err e => RRet (Err e)
    | Ok h =>
      u <~ r_do (with_obj (fst h) (as_class TLINK (snd h) (done (fun now => fo_link_set E (fst h) now target) FOUnit)));;
      r_leave [fst h] u
    end
  | FLink src dest => r_link src dest
  | FUnlink path => r_remove false path
  | FRmdir path => r_remove true path
  | FRename from to => r_rename from to
  | FOpen path trunc =>                                  (* vopen, 134-148 *)
    o <~ r_all path true;;
    match o with
    | Err e => RRet (Err e)
    | Ok None => RRet (Err E_NOENT)
    | Ok (Some h) =>
      if trunc then
        u <~ r_do (with_obj (fst h) (as_class TREG (snd h) (done (fun now => fo_truncate E (fst h) now 0) (FOId (fst h)))));;
        match u with Ok x => RRet (Ok x) | Err e => r_leave [fst h] (Err e) end
      else RRet (Ok (FOId (fst h)))
    end
  | FOpendir path =>                                     (* vopendir, 66-79 *)
    o <~ r_all path true;;
    match o with
    | Err e => RRet (Err e)
    | Ok None => RRet (Err E_NOENT)
    | Ok (Some h) => if (snd h =? TDIR)%N then RRet (Ok (FOId (fst h))) else r_leave [fst h] (Err E_NOTDIR)
    end
  | FClose id dir =>                                     (* vrelease, 152-162; vreleasedir, 80-89 *)
    t <~ r_do (fun rp => (rp, t_type id rp));;
    match t with
    | Err e => RRet (Err e)
    | Ok ty => if (ty =? if dir then TDIR else TREG)%N then r_leave [id] (Ok FOUnit)
               else RRet (Err (if dir then E_NOTDIR else E_INVAL))
    end
  | FTruncate path len =>                                (* vtruncate, 370-380 *)
    r_path path true (fun h => as_class TREG (snd h) (done (fun now => fo_truncate E (fst h) now len) FOUnit))
  | FChattr path c =>                                    (* vchmod, vchown, 248-275; vutimens, 381-391 *)
    r_path path false (fun h now o => (fo_chattr E now c o, Ok FOUnit))
  | FGetattr path => r_path path false (fun h => stat_use (fst h))       (* vgetattr, 41-51 *)
  | FReadlink path =>                                    (* vreadlink, 305-325 *)
    r_path path false (fun h => as_class TLINK (snd h) (fun now o => let '(o1, r) := fo_link_get E (fst h) now o in (o1, rmap FOBytes r)))
  | FRead _ | FWrite _ _ | FReaddir _ | FEvict _ => RRet (Err EUndef)    (* see [rio] *)
  end.

(** ** Uses of open files, each under the file's lock *)
Inductive rio :=
| IRead (id : bytes) (off len : nat)       (* vread, 163-172 *)
| IWrite (id : bytes) (off : nat) (d : bytes)  (* vwrite, 173-183 *)
| ITruncate (id : bytes) (len : nat)       (* vftruncate, 191-200 *)
| IStat (id : bytes)                       (* vfgetattr, 52-65 *)
| IList (id : bytes)                       (* vreaddir, 90-124, without "." and ".." *)
| IFlush (id : bytes).                     (* vflush, 184-190; vfsync *)
Definition io_file (o : rio) : bytes :=
  match o with IRead id _ _ | IWrite id _ _ | ITruncate id _ | IStat id | IList id | IFlush id => id end.
(** The class of an object is its type. *)
(** FileBase::cast_as, sources/files.h 357-366. *)
Definition own_class {X} (want : N) (bad : err) (f : timespec -> fob -> fob * res X) (now : timespec) (o : fob) : fob * res X :=
  if (fo_type o =? want)%N then f now o else (o, Err bad).
(** The calls on a handle, sources/full_format.cpp 54-64, 90-126 and 162-201. *)
Definition r_io (o : rio) : repo -> repo * res fout :=
  match o with
  | IRead id off len => with_obj id (own_class TREG E_PERM (fun now o => let '(o1, r) := fo_read E id now off len o in (o1, rmap FOBytes r)))
  | IWrite id off d => with_obj id (own_class TREG E_PERM (done (fun now => fo_write E id now off d) FOUnit))
  | ITruncate id len => with_obj id (own_class TREG E_PERM (done (fun now => fo_truncate E id now len) FOUnit))
  | IStat id => with_obj id (stat_use id)
  | IList id => with_obj id (own_class TDIR E_NOTDIR (fun now o =>
      let '(o1, r) := fo_list E id now o in (o1, rmap (fun l => FOList (map (fun e => (e_name e, e_id e, e_type e)) l)) r)))
  | IFlush id => with_obj id (fun _ o => let '(o1, r) := fo_flush E id o in (o1, rmap (fun _ => FOUnit) r))
  end.

(** ** Threads *)
(** Environment: a FUSE worker thread in one of the calls of
    sources/full_format.cpp 37-609. *)
Inductive rthread := RIdle | RRun (o : fop) (p : rprog (res fout)).
(** Environment: the repository, the kernel's handles and the threads. *)
Record rworld := mkRworld { w_repo : repo; w_handles : list bytes; w_threads : list rthread }.
(** Helper (no code): update of a sequence. *)
Definition rset_nth {A} (i : nat) (x : A) (l : list A) : list A := firstn i l ++ x :: skipn (S i) l.

(** What the kernel does: calls on names, uses of what it has open. *)
(** Environment: what the kernel guarantees about info->fh, and the host about
    errno. *)
Definition may_call (o : fop) (hs : list bytes) : Prop :=
  match o with
  | FClose id _ => In id hs
  | FRead _ | FWrite _ _ | FReaddir _ | FEvict _ => False
  | FCreate _ _ x bad | FMkdir _ _ x bad | FSymlink _ _ x bad => bad <> Some EUndef
  | _ => True
  end.
(** Environment: the kernel's handles after a release. *)
Definition given_up (o : fop) (hs : list bytes) : list bytes :=
  match o with FClose id _ => remove_one id hs | _ => hs end.
(** set_file, sources/full_format.cpp 76, 133 and 148: a new handle. *)
Definition handed_out (r : res fout) (hs : list bytes) : list bytes :=
  match r with Ok (FOId x) => x :: hs | _ => hs end.

(** Helper (no code): what happens in a run. *)
Inductive revent :=
| VCall (i : nat) (o : fop)
| VStep (i : nat)
| VRet (i : nat) (o : fop) (r : res fout)
| VIo (o : rio) (r : res fout)
| VEvict (id : bytes)
| VRemount (r : res unit).

(** Environment (no code): one step of the whole. *)
Inductive rwstep : rworld -> revent -> rworld -> Prop :=
| V_call w i o : nth_error (w_threads w) i = Some RIdle -> may_call o (w_handles w) ->
    rwstep w (VCall i o) (mkRworld (w_repo w) (given_up o (w_handles w)) (rset_nth i (RRun o (r_body o)) (w_threads w)))
| V_step w i o upd next : nth_error (w_threads w) i = Some (RRun o (RStep upd next)) ->
    rwstep w (VStep i) (mkRworld (upd (w_repo w)) (w_handles w) (rset_nth i (RRun o (next (w_repo w))) (w_threads w)))
| V_return w i o r : nth_error (w_threads w) i = Some (RRun o (RRet r)) ->
    rwstep w (VRet i o r) (mkRworld (w_repo w) (handed_out r (w_handles w)) (rset_nth i RIdle (w_threads w)))
| V_io w o : In (io_file o) (w_handles w) ->
    rwstep w (VIo o (snd (r_io o (w_repo w)))) (mkRworld (fst (r_io o (w_repo w))) (w_handles w) (w_threads w))
| V_evict w id : rwstep w (VEvict id) (mkRworld (t_evict id (w_repo w)) (w_handles w) (w_threads w))
(* unmounted when nothing is in use, and mounted again: only the stored files are left *)
| V_remount w : w_handles w = [] -> Forall (fun t => t = RIdle) (w_threads w) ->
    rwstep w (VRemount (snd (mount (unmount (w_repo w)) (rp_time (w_repo w)))))
      (mkRworld (fst (mount (unmount (w_repo w)) (rp_time (w_repo w)))) [] (w_threads w)).

(** A run from an empty directory of the host: events with the states after them,
    latest first. *)
(** Helper (no code): executions. *)
Inductive rrun (n : nat) : list (revent * rworld) -> rworld -> Prop :=
| RR_start : rrun n [] (mkRworld (fst (mount [] 0)) [] (repeat RIdle n))
| RR_step l w e w' : rrun n l w -> rwstep w e w' -> rrun n ((e, w') :: l) w'.
End Repo.
