(** The full format's directory operations: sources/full_format.cpp 40-609 with
    sources/file_table_v2.cpp and sources/files.h, one operation at a time.

    Simplifications.  A file is its mode, link count, directory entries, contents and
    the parent id kept in memory; times, owners and extended attributes are elsewhere
    (AttrModel, XattrModel; setting owners and times is here an operation that finds its
    file and changes nothing of the above).  Contents and directories are those of C02 and C17: byte
    arrays and finite maps.  A file object has the class that the directory entry
    names (in a repository written by securefs the two agree).  The parent id of an
    object is forgotten when the object leaves the cache: that is an operation of its
    own here, and is assumed not to happen in the middle of another one. *)
From Coq Require Import Strings.String.
From Verif Require Import Base TextModel NameModel BtreeModel BtreeSpec.
From Verif Require AttrModel.
Local Open Scope list_scope.

(** FileBase::REGULAR_FILE, DIRECTORY, SYMLINK, files.h 107-108. *)
Definition TREG : N := 8.
Definition TDIR : N := 4.
Definition TLINK : N := 10.

(** kRootId, sources/file_table_v2.h 22. *)
Definition root_id : bytes := repeat x00 32.

(** sources/exceptions.h 29: the default error_number of ExceptionBase. *)
Definition E_PERM : err := EPosix 1.     (* InvalidCastException, FileTypeInconsistencyException *)
Definition E_NOENT : err := EPosix 2.
Definition E_EXIST : err := EPosix 17.
Definition E_NOTDIR : err := EPosix 20.
Definition E_INVAL : err := EPosix 22.
Definition E_ISDIR : err := EPosix 21.
Definition E_NAMETOOLONG : err := EPosix 36.
Definition E_NOTEMPTY : err := EPosix 39.
Definition E_LOOP : err := EPosix 40.

(** sources/files.h 46-64 (mode and link count of m_flags, contents, parent_id)
    and 512-525 or btree_dir.h (directory). *)
Record inode := mkInode { i_mode : N; i_nlink : N; i_dir : list entry; i_data : bytes; i_parent : bytes }.
(** sources/files.h 129. *)
Definition i_type (nd : inode) : N := (i_mode nd / 4096)%N. (* type_for_mode *)

(** The stored files, by id, and the handles held by the kernel. *)
(** The stored files of sources/file_table_v2.cpp and the values put in
    fuse_file_info::fh (sources/full_format.cpp 76, 133, 148). *)
Record ffs := mkFfs { nodes : list (bytes * inode); opened : list bytes }.

(** Helper: finding a file by id in the host's directory. *)
Fixpoint nget (id : bytes) (l : list (bytes * inode)) : option inode :=
  match l with
  | [] => None
  | (i, nd) :: l' => if bytes_eqb i id then Some nd else nget id l'
  end.
(** Helper: storing a file under its id. *)
Fixpoint nput (id : bytes) (nd : inode) (l : list (bytes * inode)) : list (bytes * inode) :=
  match l with
  | [] => [(id, nd)]
  | (i, n) :: l' => if bytes_eqb i id then (id, nd) :: l' else (i, n) :: nput id nd l'
  end.
(** Helper: removing a file from the host's directory. *)
Definition ndel (id : bytes) (l : list (bytes * inode)) : list (bytes * inode) :=
  filter (fun p => negb (bytes_eqb (fst p) id)) l.

(** Helper: the file with an id. *)
Definition get (st : ffs) (id : bytes) : option inode := nget id (nodes st).
(** Helper: changing the file with an id. *)
Definition put (st : ffs) (id : bytes) (nd : inode) : ffs := mkFfs (nput id nd (nodes st)) (opened st).
(** Helper: a change of the directory's entries. *)
Definition with_dir (m : list entry) (nd : inode) : inode := mkInode (i_mode nd) (i_nlink nd) m (i_data nd) (i_parent nd).
(** sources/files.h 236-243 and 329-333. *)
Definition with_nlink (n : N) (nd : inode) : inode := mkInode (i_mode nd) n (i_dir nd) (i_data nd) (i_parent nd).
(** sources/files.h 194-198. *)
Definition with_parent (p : bytes) (nd : inode) : inode := mkInode (i_mode nd) (i_nlink nd) (i_dir nd) (i_data nd) p.
(** Helper: a change of the contents. *)
Definition with_data (d : bytes) (nd : inode) : inode := mkInode (i_mode nd) (i_nlink nd) (i_dir nd) d (i_parent nd).
(** sources/files.h 203-210. *)
Definition with_mode (m : N) (nd : inode) : inode := mkInode m (i_nlink nd) (i_dir nd) (i_data nd) (i_parent nd).

(** [absl::StrSplit(path, '/', absl::SkipEmpty())]. *)
(** The split of a path in sources/full_format.cpp, open_base and open_all. *)
Definition path_comps (path : bytes) : list bytes := filter (fun w => negb (bytes_eqb w [])) (split_slash path).

(** A file object in use: its id and its class. *)
(** FilePtrHolder, sources/file_table_v2.h 39 and 94-105. *)
Definition holder : Type := bytes * N.

Section Fs.
Variable cmp : bytes -> bytes -> comparison.

(** FileTable::open_as, file_table_v2.cpp 51-84, and construct, 105-121. *)
Definition open_as (id : bytes) (ty : N) (st : ffs) : res holder :=
  if bytes_eqb id root_id then if (ty =? TDIR)%N then Ok (id, ty) else Err E_PERM
  else match get st id with
       | None => Err E_NOENT
       | Some _ => if ((ty =? TREG) || (ty =? TDIR) || (ty =? TLINK))%N then Ok (id, ty) else Err E_PERM
       end.

(** FileBase::cast_as, files.h 357-366. *)
Definition cast_as (want : N) (h : holder) (st : ffs) : res inode :=
  match get st (fst h) with
  | None => Err EUndef
  | Some nd => if (snd h =? i_type nd)%N then if (snd h =? want)%N then Ok nd else Err E_PERM else Err E_PERM
  end.

(** Directory::get_entry, add_entry, remove_entry, files.h 451-481. *)
Definition get_entry (h : holder) (name : bytes) (st : ffs) : res (option entry) :=
  rbind (cast_as TDIR h st) (fun nd =>
  match dspec_step cmp (DGet name) (i_dir nd) with
  | (_, Ok (OEntry e)) => Ok e
  | (_, Ok _) => Err EUndef
  | (_, Err e) => Err e
  end).
Definition add_entry (h : holder) (name id : bytes) (ty : N) (st : ffs) : ffs * res bool :=
  match cast_as TDIR h st with
  | Err e => (st, Err e)
  | Ok nd =>
    match dspec_step cmp (DAdd name id ty) (i_dir nd) with
    | (m, Ok (OBool b)) => (put st (fst h) (with_dir m nd), Ok b)
    | (_, Ok _) => (st, Err EUndef)
    | (_, Err e) => (st, Err e)
    end
  end.
Definition remove_entry (h : holder) (name : bytes) (st : ffs) : ffs * res (option entry) :=
  match cast_as TDIR h st with
  | Err e => (st, Err e)
  | Ok nd =>
    match dspec_step cmp (DRemove name) (i_dir nd) with
    | (m, Ok (OEntry e)) => (put st (fst h) (with_dir m nd), Ok e)
    | (_, Ok _) => (st, Err EUndef)
    | (_, Err e) => (st, Err e)
    end
  end.

(** set_parent_id, files.h 187-191. *)
Definition set_parent (id p : bytes) (st : ffs) : ffs :=
  match get st id with Some nd => put st id (with_parent p nd) | None => st end.

(** generic_open, full_format.cpp 510-565.  [k] is 16 minus the recursion depth. *)
Fixpoint generic_open (k : nat) : list bytes -> bytes -> holder -> ffs -> ffs * res (option holder) :=
  match k with
  | O => fun _ _ _ st => (st, Err E_LOOP)
  | S k' =>
    fix walk (splits : list bytes) (parent_id : bytes) (parent : holder) (st : ffs) {struct splits} : ffs * res (option holder) :=
      match splits with
      | [] => (st, Ok (Some parent))
      | s :: ss =>
        if bytes_eqb s (str ".") then walk ss parent_id parent st
        else if bytes_eqb s (str "..") then
          match get st (fst parent) with
          | None => (st, Err EUndef)
          | Some nd =>
            match open_as (i_parent nd) TDIR st with
            | Err e => (st, Err e)
            | Ok h => walk ss (i_parent nd) h st
            end
          end
        else
          match get_entry parent s st with
          | Err e => (st, Err e)
          | Ok None => (st, Ok None)
          | Ok (Some e) =>
            match open_as (e_id e) (e_type e) st with
            | Err er => (st, Err er)
            | Ok child =>
              let st1 := set_parent (e_id e) parent_id st in
              if (e_type e =? TLINK)%N then
                match cast_as TLINK child st1 with
                | Err er => (st1, Err er)
                | Ok nd =>
                  match generic_open k' (path_comps (i_data nd)) parent_id parent st1 with
                  | (st2, Ok (Some h)) => walk ss (fst h) h st2
                  | (st2, Ok None) => (st2, Ok None)
                  | (st2, Err er) => (st2, Err er)
                  end
                end
              else walk ss (fst child) child st1
            end
          end
      end
  end.

(** sources/full_format.cpp 480 and 570. *)
Definition root_holder : holder := (root_id, TDIR).

(** open_base, 567-586. *)
Definition open_base (path : bytes) (st : ffs) : ffs * res (holder * bytes) :=
  match path_comps path with
  | [] => (st, Ok (root_holder, []))
  | [s] => (st, Ok (root_holder, s))
  | splits =>
    match generic_open 16 (removelast splits) root_id root_holder st with
    | (st1, Ok (Some h)) => (st1, Ok (h, last splits []))
    | (st1, Ok None) => (st1, Err E_NOENT)
    | (st1, Err e) => (st1, Err e)
    end
  end.

(** open_all, 610-651. *)
Definition open_all (path : bytes) (follow : bool) (st : ffs) : ffs * res (option holder) :=
  if bytes_eqb path [] || bytes_eqb path (str "/") then (st, Ok (Some root_holder)) else
  match open_base path st with
  | (st1, Err e) => (st1, Err e)
  | (st1, Ok (base, name)) =>
    match get_entry base name st1 with
    | Err e => (st1, Err e)
    | Ok None => (st1, Ok None)
    | Ok (Some e) =>
      match open_as (e_id e) (e_type e) st1 with
      | Err er => (st1, Err er)
      | Ok h =>
        let st2 := set_parent (e_id e) (fst base) st1 in
        if follow && (snd h =? TLINK)%N then
          match cast_as TLINK h st2 with
          | Err er => (st2, Err er)
          | Ok nd => generic_open 16 (path_comps (i_data nd)) (fst base) base st2
          end
        else (st2, Ok (Some h))
      end
    end
  end.

(** FileBase::unlink, files.h 324-328: the counter is 32 bits wide. *)
Definition dec32 (n : N) : N := ((n + (2 ^ 32 - 1)) mod 2 ^ 32)%N.
Definition inc32 (n : N) : N := ((n + 1) mod 2 ^ 32)%N.

(** FileTable::close_internal, file_table_v2.cpp 141-196, once the last reference of
    the operation at hand is gone. *)
Definition finish (id : bytes) (st : ffs) : ffs :=
  if bytes_eqb id root_id || existsb (bytes_eqb id) (opened st) then st else
  match get st id with
  | Some nd => if (i_nlink nd =? 0)%N then mkFfs (ndel id (nodes st)) (opened st) else st
  | None => st
  end.
Definition unlink_node (id : bytes) (st : ffs) : ffs :=
  match get st id with
  | Some nd => finish id (put st id (with_nlink (dec32 (i_nlink nd)) nd))
  | None => st
  end.

(** create, 587-609.  [bad] is a refusal of the host to make the stored files. *)
Definition create (path : bytes) (perm ty : N) (newid : bytes) (bad : option err) (st : ffs) : ffs * res holder :=
  match open_base path st with
  | (st1, Err e) => (st1, Err e)
  | (st1, Ok (base, name)) =>
    match bad, get st1 newid with
    | Some e, _ => (st1, Err e)
    | None, Some _ => (st1, Err E_EXIST)
    | None, None =>
      let st2 := put st1 newid (mkInode (perm mod 512 + ty * 4096)%N 1 [] [] root_id) in
      match add_entry base name newid ty st2 with
      | (st3, Err e) => (st3, Err e)
      | (st3, Ok false) => (unlink_node newid st3, Err E_EXIST)
      | (st3, Ok true) => (set_parent newid (fst base) st3, Ok (newid, ty))
      end
    end
  end.

(** What vchmod, vchown and vutimens, full_format.cpp 248-275 and 381-391, set.  [unset]
    is what the local variable of FileBase::utimens, files.cpp 339, happens to hold. *)
Inductive chattr :=
| ChMode (perm : N)
| ChOwner (uid gid : N)
| ChTimes (ts : option (AttrModel.timespec * AttrModel.timespec)) (unset : AttrModel.timespec).
Definition new_mode (c : chattr) (m : N) : N :=
  match c with ChMode perm => (m / 512 * 512 + perm mod 512)%N | _ => m end.

Inductive fop :=
| FCreate (path : bytes) (perm : N) (newid : bytes) (bad : option err)
| FMkdir (path : bytes) (perm : N) (newid : bytes) (bad : option err)
| FSymlink (target path newid : bytes) (bad : option err)
| FLink (src dest : bytes)
| FUnlink (path : bytes)
| FRmdir (path : bytes)
| FRename (from to : bytes)
| FOpen (path : bytes) (trunc : bool)
| FOpendir (path : bytes)
| FClose (id : bytes) (dir : bool)         (* release and releasedir *)
| FRead (id : bytes)
| FWrite (id data : bytes)               (* the contents become [data]; C02 says how *)
| FTruncate (path : bytes) (len : nat)
| FChattr (path : bytes) (c : chattr)
| FGetattr (path : bytes)
| FReadlink (path : bytes)
| FReaddir (id : bytes)
| FEvict (id : bytes).                   (* the cache of closed files forgets an object *)
(** Helper (no code): what a call gives to FUSE. *)
Inductive fout := FOUnit | FOId (id : bytes) | FOStat (id : bytes) (mode nlink size : N) | FOBytes (b : bytes) | FOList (l : list (bytes * bytes * N)).

(** Helper: a reference given back. *)
Fixpoint remove_one (id : bytes) (l : list bytes) : list bytes :=
  match l with
  | [] => []
  | x :: l' => if bytes_eqb x id then l' else x :: remove_one id l'
  end.
(** FilePtrHolder::release into fuse_file_info::fh, sources/full_format.cpp 76,
    133 and 148. *)
Definition hold (id : bytes) (st : ffs) : ffs := mkFfs (nodes st) (id :: opened st).

(** vunlink, 202-220, and vrmdir, 226-247. *)
Definition do_remove (rmdir : bool) (path : bytes) (st : ffs) : ffs * res fout :=
  match open_base path st with
  | (st1, Err e) => (st1, Err e)
  | (st1, Ok (base, name)) =>
    match remove_entry base name st1 with
    | (st2, Err e) => (st2, Err e)
    | (st2, Ok None) => (st2, Err E_NOENT)
    | (st2, Ok (Some e)) =>
      match open_as (e_id e) (e_type e) st2 with
      | Err er => (st2, Err er)
      | Ok h =>
        if rmdir then
          match cast_as TDIR h st2 with
          | Err er => (st2, Err er)
          | Ok nd => match i_dir nd with
                     | [] => (unlink_node (e_id e) st2, Ok FOUnit)
                     | _ => (st2, Err E_NOTEMPTY)
                     end
          end
        else (unlink_node (e_id e) st2, Ok FOUnit)
      end
    end
  end.

(** vlink, 288-304. *)
Definition do_link (src dest : bytes) (st : ffs) : ffs * res fout :=
  match open_all src true st with
  | (st1, Err e) => (st1, Err e)
  | (st1, Ok None) => (st1, Err E_NOENT)
  | (st1, Ok (Some h)) =>
    match open_base dest st1 with
    | (st2, Err e) => (st2, Err e)
    | (st2, Ok (base, name)) =>
      match get st2 (fst h) with
      | None => (st2, Err EUndef)
      | Some nd =>
        match add_entry base name (fst h) (i_type nd) st2 with
        | (st3, Err e) => (st3, Err e)
        | (st3, Ok false) => (st3, Err E_EXIST)
        | (st3, Ok true) =>
          match get st3 (fst h) with
          | None => (st3, Err EUndef)
          | Some nd3 => (put st3 (fst h) (with_nlink (inc32 (i_nlink nd3)) nd3), Ok FOUnit)
          end
        end
      end
    end
  end.

(** vrename, 326-359. *)
Definition do_rename (from to : bytes) (st : ffs) : ffs * res fout :=
  match open_base from st with
  | (st1, Err e) => (st1, Err e)
  | (st1, Ok (base_from, last_from)) =>
    match open_base to st1 with
    | (st2, Err e) => (st2, Err e)
    | (st2, Ok (base_to, last_to)) =>
      match remove_entry base_from last_from st2 with
      | (st3, Err e) => (st3, Err e)
      | (st3, Ok None) => (st3, Err E_NOENT)
      | (st3, Ok (Some ef)) =>
        match remove_entry base_to last_to st3 with
        | (st4, Err e) => (st4, Err e)
        | (st4, Ok (Some et)) =>
          if bytes_eqb (e_id ef) (e_id et) then
            match add_entry base_from last_from (e_id ef) (e_type ef) st4 with
            | (st5, Err e) => (st5, Err e)
            | (st5, Ok _) =>
              match add_entry base_to last_to (e_id et) (e_type et) st5 with
              | (st6, Err e) => (st6, Err e)
              | (st6, Ok _) => (st6, Ok FOUnit)
              end
            end
          else
            match add_entry base_to last_to (e_id ef) (e_type ef) st4 with
            | (st5, Err e) => (st5, Err e)
            | (st5, Ok _) =>
              match open_as (e_id et) (e_type et) st5 with
              | Err er => (st5, Err er)
              | Ok _ => (unlink_node (e_id et) st5, Ok FOUnit)
              end
            end
        | (st4, Ok None) =>
          match add_entry base_to last_to (e_id ef) (e_type ef) st4 with
          | (st5, Err e) => (st5, Err e)
          | (st5, Ok _) => (st5, Ok FOUnit)
          end
        end
      end
    end
  end.

Definition fs_step (o : fop) (st : ffs) : ffs * res fout :=
  match o with
  | FCreate path perm newid bad =>                       (* vcreate, 125-133 *)
    match create path perm TREG newid bad st with
    | (st1, Ok h) => (hold (fst h) st1, Ok (FOId (fst h)))
    | (st1, Err e) => (st1, Err e)
    end
  | FMkdir path perm newid bad =>                        (* vmkdir, 221-225 *)
    match create path perm TDIR newid bad st with
    | (st1, Ok h) => (st1, Ok FOUnit)
    | (st1, Err e) => (st1, Err e)
    end
  | FSymlink target path newid bad =>                    (* vsymlink, 276-287 *)
    match create path 420 TLINK newid bad st with
    | (st1, Ok h) =>
      match cast_as TLINK h st1 with
      | Err e => (st1, Err e)
      | Ok nd => (put st1 (fst h) (with_data (arr_write (i_data nd) 0 target) nd), Ok FOUnit)   (* Symlink::set, files.h 421-425: nothing is cut off *)
      end
    | (st1, Err e) => (st1, Err e)
    end
  | FLink src dest => do_link src dest st
  | FUnlink path => do_remove false path st
  | FRmdir path => do_remove true path st
  | FRename from to => do_rename from to st
  | FOpen path trunc =>                                  (* vopen, 134-148 *)
    match open_all path true st with
    | (st1, Ok (Some h)) =>
      if trunc then
        match cast_as TREG h st1 with
        | Err e => (st1, Err e)
        | Ok nd => (hold (fst h) (put st1 (fst h) (with_data [] nd)), Ok (FOId (fst h)))
        end
      else (hold (fst h) st1, Ok (FOId (fst h)))
    | (st1, Ok None) => (st1, Err E_NOENT)
    | (st1, Err e) => (st1, Err e)
    end
  | FOpendir path =>                                     (* vopendir, 66-79 *)
    match open_all path true st with
    | (st1, Ok (Some h)) => if (snd h =? TDIR)%N then (hold (fst h) st1, Ok (FOId (fst h))) else (st1, Err E_NOTDIR)
    | (st1, Ok None) => (st1, Err E_NOENT)
    | (st1, Err e) => (st1, Err e)
    end
  | FClose id dir =>                                     (* vrelease, 152-162; vreleasedir, 80-89 *)
    if existsb (bytes_eqb id) (opened st) then
      match get st id with
      | None => (st, Err EUndef)
      | Some nd =>
        if (i_type nd =? if dir then TDIR else TREG)%N then (finish id (mkFfs (nodes st) (remove_one id (opened st))), Ok FOUnit)
        else (st, Err (if dir then E_NOTDIR else E_INVAL))
      end
    else (st, Err EUndef)
  | FRead id =>                                          (* vread, 163-172: the whole contents, see C02 for ranges *)
    if existsb (bytes_eqb id) (opened st) then
      (st, rbind (cast_as TREG (id, match get st id with Some nd => i_type nd | None => 0%N end) st) (fun nd => Ok (FOBytes (i_data nd))))
    else (st, Err EUndef)
  | FWrite id data =>                                    (* vwrite, 173-183; vftruncate, 191-200: what the file then holds *)
    if existsb (bytes_eqb id) (opened st) then
      match cast_as TREG (id, match get st id with Some nd => i_type nd | None => 0%N end) st with
      | Err e => (st, Err e)
      | Ok nd => (put st id (with_data data nd), Ok FOUnit)
      end
    else (st, Err EUndef)
  | FTruncate path len =>                                (* vtruncate, 370-380 *)
    match open_all path true st with
    | (st1, Ok (Some h)) =>
      match cast_as TREG h st1 with
      | Err e => (st1, Err e)
      | Ok nd => (put st1 (fst h) (with_data (firstn len (i_data nd ++ repeat x00 (len - length (i_data nd)))) nd), Ok FOUnit)
      end
    | (st1, Ok None) => (st1, Err E_NOENT)
    | (st1, Err e) => (st1, Err e)
    end
  | FChattr path c =>                                    (* vchmod, vchown, 248-275; vutimens, 381-391 *)
    match open_all path false st with
    | (st1, Ok (Some h)) =>
      match get st1 (fst h) with
      | None => (st1, Err EUndef)
      | Some nd => (put st1 (fst h) (with_mode (new_mode c (i_mode nd)) nd), Ok FOUnit)
      end
    | (st1, Ok None) => (st1, Err E_NOENT)
    | (st1, Err e) => (st1, Err e)
    end
  | FGetattr path =>                                     (* vgetattr, 41-51 *)
    match open_all path false st with
    | (st1, Ok (Some h)) =>
      match get st1 (fst h) with
      | None => (st1, Err EUndef)
      | Some nd => (st1, Ok (FOStat (fst h) (i_mode nd) (i_nlink nd) (N.of_nat (length (i_data nd)))))
      end
    | (st1, Ok None) => (st1, Err E_NOENT)
    | (st1, Err e) => (st1, Err e)
    end
  | FReadlink path =>                                    (* vreadlink, 305-325 *)
    match open_all path false st with
    | (st1, Ok (Some h)) => (st1, rbind (cast_as TLINK h st1) (fun nd => Ok (FOBytes (i_data nd))))
    | (st1, Ok None) => (st1, Err E_NOENT)
    | (st1, Err e) => (st1, Err e)
    end
  | FReaddir id =>                                       (* vreaddir, 90-124, without "." and ".." *)
    if existsb (bytes_eqb id) (opened st) then
      match get st id with
      | None => (st, Err EUndef)
      | Some nd =>
        if (i_type nd =? TDIR)%N then (st, Ok (FOList (map (fun e => (e_name e, e_id e, e_type e)) (i_dir nd))))
        else (st, Err E_NOTDIR)
      end
    else (st, Err EUndef)
  | FEvict id =>                                         (* close_internal, file_table_v2.cpp 181-195 *)
    if existsb (bytes_eqb id) (opened st) then (st, Ok FOUnit) else (set_parent id root_id st, Ok FOUnit)
  end.
Fixpoint fs_run (ops : list fop) (st : ffs) : ffs :=
  match ops with
  | [] => st
  | o :: ops' => fs_run ops' (fst (fs_step o st))
  end.
End Fs.

(** FileTable::init, file_table_v2.cpp 21-40: a new repository. *)
Definition new_repo : ffs := mkFfs [(root_id, mkInode (493 + TDIR * 4096)%N 1 [] [] root_id)] [].
