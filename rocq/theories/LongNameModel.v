(** Model of the lite format's namespace operations and of its per-directory table
    of long names: sources/lite_format.cpp 945-1047, 1153-1225 and 1263-1317,
    sources/lite_long_name_lookup_table.cpp. *)
From Coq Require Import Strings.String.
From Verif Require Import Base TextModel CryptoModel NameModel.
Local Open Scope list_scope.

(** ** The host's directories.  A directory is named by the physical components
    that lead to it from the repository root; its entries are files (with an inode
    number, so that hard links can be told), directories and long-name tables.
    Symbolic links are files here: no virtual path leads through one. *)
(** Environment: a file, a directory or a table of the host. *)
Inductive kind : Type :=
| KFile (ino : nat)
| KDir
| KTable (rows : list (bytes * bytes)).
(** Environment: the entries of a directory of the host. *)
Definition hents : Type := list (bytes * kind).
(** Environment: a path of the host. *)
Definition hpath : Type := list bytes.
(** Environment: the host's directories by path. *)
Definition hfs : Type := hpath -> option hents.

(** Helper (no code): equality of paths. *)
Fixpoint hpath_eqb (a b : hpath) : bool :=
  match a, b with
  | [], [] => true
  | x :: a', y :: b' => bytes_eqb x y && hpath_eqb a' b'
  | _, _ => false
  end.
(** Helper (no code): a path below another. *)
Fixpoint strip_prefix (pre p : hpath) : option hpath :=
  match pre, p with
  | [], _ => Some p
  | x :: pre', y :: p' => if bytes_eqb x y then strip_prefix pre' p' else None
  | _ :: _, [] => None
  end.
(** Helper (no code): update of a map. *)
Definition hset (fs : hfs) (p : hpath) (v : option hents) : hfs :=
  fun q => if hpath_eqb p q then v else fs q.

(** Helper (no code): look-up by name. *)
Fixpoint ent {A} (c : bytes) (es : list (bytes * A)) : option A :=
  match es with
  | [] => None
  | (d, k) :: es' => if bytes_eqb d c then Some k else ent c es'
  end.
(** Helper (no code): removal by name. *)
Definition ent_del {A} (c : bytes) (es : list (bytes * A)) : list (bytes * A) :=
  filter (fun e => negb (bytes_eqb (fst e) c)) es.
(** Helper (no code): update by name. *)
Definition ent_put {A} (c : bytes) (k : A) (es : list (bytes * A)) : list (bytes * A) :=
  (c, k) :: ent_del c es.

(** The components of a physical path that the host follows ("" and "." stay). *)
(** Environment: how the host reads a path. *)
Definition comps (P : bytes) : hpath :=
  filter (fun w => negb (bytes_eqb w []) && negb (bytes_eqb w [dot])) (split_slash P).
(** Helper: NameTranslator::remove_last_component, sources/lite_format.cpp
    1258-1261, on components. *)
Definition parent (p : hpath) : hpath := removelast p.
(** Helper: NameTranslator::get_last_component, sources/lite_format.cpp
    1253-1256, on components. *)
Definition leaf (p : hpath) : bytes := last p [].

(** Environment: errno of the host. *)
Definition ENOENT : err := EPosix 2.
(** Environment: errno of the host. *)
Definition EEXIST : err := EPosix 17.
(** Environment: errno of the host. *)
Definition ENOTDIR : err := EPosix 20.
(** Environment: errno of the host. *)
Definition EISDIR : err := EPosix 21.
(** Environment: errno of the host. *)
Definition EINVALID : err := EPosix 22.
(** Environment: errno of the host. *)
Definition EPERM : err := EPosix 1.
(** Environment: errno of the host. *)
Definition ENOTEMPTY : err := EPosix 39.
(** Environment: errno of the host. *)
Definition EBUSY : err := EPosix 16.

(** ** System calls.  [bad] is a refusal of the host for any other reason (no
    permission, no space, name too long); such a call changes nothing. *)
Section Calls.
Variable bad : option err.

(** open with or without O_CREAT and O_EXCL; a new file gets inode [ino]. *)
(** OSService::open_file_stream, sources/unix.cpp 326-334. *)
Definition h_open (creat excl : bool) (ino : nat) (p : hpath) (fs : hfs) : hfs * res unit :=
  match bad, p with
  | Some e, _ => (fs, Err e)
  | None, [] => (fs, Err EISDIR)
  | None, _ =>
    match fs (parent p) with
    | None => (fs, Err ENOENT)
    | Some es =>
      match ent (leaf p) es with
      | Some KDir => (fs, Err (if creat && excl then EEXIST else EISDIR))
      | Some _ => (fs, if creat && excl then Err EEXIST else Ok tt)
      | None => if creat then (hset fs (parent p) (Some (ent_put (leaf p) (KFile ino) es)), Ok tt)
                else (fs, Err ENOENT)
      end
    end
  end.

(** mkdir *)
(** OSService::mkdir, sources/unix.cpp 362-368. *)
Definition h_mkdir (p : hpath) (fs : hfs) : hfs * res unit :=
  match bad, p with
  | Some e, _ => (fs, Err e)
  | None, [] => (fs, Err EEXIST)
  | None, _ =>
    match fs (parent p) with
    | None => (fs, Err ENOENT)
    | Some es =>
      match ent (leaf p) es with
      | Some _ => (fs, Err EEXIST)
      | None => (hset (hset fs (parent p) (Some (ent_put (leaf p) KDir es))) p (Some []), Ok tt)
      end
    end
  end.

(** link *)
(** OSService::link, sources/unix.cpp 396-403. *)
Definition h_link (src p : hpath) (fs : hfs) : hfs * res unit :=
  match bad, src, p with
  | Some e, _, _ => (fs, Err e)
  | None, [], _ => (fs, Err EPERM)
  | None, _, [] => (fs, Err EEXIST)
  | None, _, _ =>
    match fs (parent src), fs (parent p) with
    | Some es, Some ed =>
      match ent (leaf src) es, ent (leaf p) ed with
      | None, _ => (fs, Err ENOENT)
      | Some _, Some _ => (fs, Err EEXIST)
      | Some (KFile i), None => (hset fs (parent p) (Some (ent_put (leaf p) (KFile i) ed)), Ok tt)
      | Some _, None => (fs, Err EPERM)
      end
    | _, _ => (fs, Err ENOENT)
    end
  end.

(** unlink *)
(** OSService::remove_file, sources/unix.cpp 336-341. *)
Definition h_unlink (p : hpath) (fs : hfs) : hfs * res unit :=
  match bad, p with
  | Some e, _ => (fs, Err e)
  | None, [] => (fs, Err EISDIR)
  | None, _ =>
    match fs (parent p) with
    | None => (fs, Err ENOENT)
    | Some es =>
      match ent (leaf p) es with
      | None => (fs, Err ENOENT)
      | Some KDir => (fs, Err EISDIR)
      | Some _ => (hset fs (parent p) (Some (ent_del (leaf p) es)), Ok tt)
      end
    end
  end.

(** rmdir *)
(** OSService::remove_directory, sources/unix.cpp 343-348. *)
Definition h_rmdir (p : hpath) (fs : hfs) : hfs * res unit :=
  match bad, p with
  | Some e, _ => (fs, Err e)
  | None, [] => (fs, Err EBUSY)
  | None, _ =>
    match fs (parent p) with
    | None => (fs, Err ENOENT)
    | Some es =>
      match ent (leaf p) es, fs p with
      | None, _ => (fs, Err ENOENT)
      | Some KDir, Some [] => (hset (hset fs (parent p) (Some (ent_del (leaf p) es))) p None, Ok tt)
      | Some KDir, _ => (fs, Err ENOTEMPTY)
      | Some _, _ => (fs, Err ENOTDIR)
      end
    end
  end.

(** The directories below [a] move below [b]. *)
(** Environment: part of the host's rename. *)
Definition h_move (a b : hpath) (fs : hfs) : hfs :=
  fun q => match strip_prefix b q with
           | Some r => fs (a ++ r)
           | None => match strip_prefix a q with Some _ => None | None => fs q end
           end.

(** rename *)
(** OSService::rename, sources/unix.cpp 412-418. *)
Definition h_rename (a b : hpath) (fs : hfs) : hfs * res unit :=
  match bad, a, b with
  | Some e, _, _ => (fs, Err e)
  | None, [], _ => (fs, Err EBUSY)
  | None, _, [] => (fs, Err EBUSY)
  | None, _, _ =>
    match fs (parent a), fs (parent b) with
    | Some ea, Some eb =>
      match ent (leaf a) ea with
      | None => (fs, Err ENOENT)
      | Some k =>
        if hpath_eqb a b then (fs, Ok tt) else
        let go :=
          let fs1 := hset fs (parent a) (Some (ent_del (leaf a) ea)) in
          match fs1 (parent b) with
          | None => (fs, Err ENOENT)
          | Some eb1 =>
            let fs2 := hset fs1 (parent b) (Some (ent_put (leaf b) k eb1)) in
            (match k with KDir => h_move a b fs2 | _ => fs2 end, Ok tt)
          end in
        match k, ent (leaf b) eb with
        | KDir, _ =>
          match strip_prefix a b with
          | Some _ => (fs, Err EINVALID)
          | None =>
            match ent (leaf b) eb, fs b with
            | None, _ => go
            | Some KDir, Some [] => go
            | Some KDir, _ => (fs, Err ENOTEMPTY)
            | Some _, _ => (fs, Err ENOTDIR)
            end
          end
        | KFile i, Some (KFile j) => if i =? j then (fs, Ok tt) (* two links to one file: nothing happens *) else go
        | _, Some KDir => (fs, Err EISDIR)
        | _, _ => go
        end
      end
    | _, _ => (fs, Err ENOENT)
    end
  end.
End Calls.

(** ** The table of long names of one directory *)

(** LongNameLookupTable constructor, lite_long_name_lookup_table.cpp 40-52: the
    database file is made when missing.  Other SQLite errors are not modelled. *)
Definition open_table (d : hpath) (fs : hfs) : hfs * res (list (bytes * bytes)) :=
  match fs d with
  | None => (fs, Err ENOENT)
  | Some es =>
    match ent kLongNameTableFileName es with
    | Some (KTable m) => (fs, Ok m)
    | Some _ => (fs, Err EInval)
    | None => (hset fs d (Some (ent_put kLongNameTableFileName (KTable []) es)), Ok [])
    end
  end.
(** The commit at the end of a transaction: finish, 101-118. *)
Definition commit_table (d : hpath) (m : list (bytes * bytes)) (fs : hfs) : hfs :=
  match fs d with
  | Some es => hset fs d (Some (ent_put kLongNameTableFileName (KTable m) es))
  | None => fs
  end.
(** update_mapping is "insert or ignore", 81-89; remove_mapping, 91-97. *)
Definition update_mapping (u enc : bytes) (m : list (bytes * bytes)) : list (bytes * bytes) :=
  match ent u m with Some _ => m | None => (u, enc) :: m end.
Definition remove_mapping (u : bytes) (m : list (bytes * bytes)) : list (bytes * bytes) := ent_del u m.

Section Ops.
Variable trans : translator.

(** LongNameComponentAction, used at sources/lite_format.cpp 1213-1223. *)
Inductive action := ACreate | ADelete.

(** process_possible_long_name, sources/lite_format.cpp 1192-1225, for the two
    actions that touch the table. *)
Definition process (path : bytes) (act : action) (callback : hpath -> hfs -> hfs * res unit) (fs : hfs) : hfs * res unit :=
  match t_encrypt trans path with
  | Err e => (fs, Err e)
  | Ok (P, []) => callback (comps P) fs
  | Ok (P, enc) =>
    let d := parent (comps P) in
    match open_table d fs with
    | (fs1, Err e) => (fs1, Err e)
    | (fs1, Ok m) =>
      let u := get_last_component P in
      let m' := match act with ACreate => update_mapping u enc m | ADelete => remove_mapping u m end in
      match callback (comps P) fs1 with
      | (fs2, Ok tt) => (commit_table d m' fs2, Ok tt)
      | (fs2, Err e) => (fs2, Err e) (* rollback *)
      end
    end
  end.

(** Operations, with what the host answers.  [late] is a failure after the file was
    opened, while its header is read or written (File constructor). *)
(** The methods of sources/lite_format.cpp 945-1047 and open, 1153-1186. *)
Inductive lop :=
| LOpen (path : bytes) (creat excl : bool) (ino : nat) (bad late : option err)
| LMkdir (path : bytes) (bad : option err)
| LSymlink (path : bytes) (ino : nat) (bad : option err)
| LLink (src dest : bytes) (bad : option err)
| LUnlink (path : bytes) (bad : option err)
| LRmdir (path : bytes) (bad : option err)
| LRename (from to : bytes) (bad : option err).

(** remove_file_nothrow on the table of the directory about to be removed, 962-965. *)
Definition drop_table (p : hpath) (fs : hfs) : hfs :=
  match fs p with
  | Some es => match ent kLongNameTableFileName es with
               | None | Some KDir => fs
               | Some _ => hset fs p (Some (ent_del kLongNameTableFileName es))
               end
  | None => fs
  end.

(** vrename, 1019-1047, and DoubleLongNameLookupTable, lite_long_name_lookup_table.cpp
    120-157.  The test whether both tables are one file compares the directories
    here; the code compares the text of the paths, which is the same for the paths
    FUSE hands over. *)
Definition lite_rename (from to : bytes) (bad : option err) (fs : hfs) : hfs * res unit :=
  match t_encrypt trans from, t_encrypt trans to with
  | Err e, _ | _, Err e => (fs, Err e)
  | Ok (A, []), Ok (B, []) => h_rename bad (comps A) (comps B) fs
  | Ok (A, la), Ok (B, lb) =>
    let da := parent (comps A) in
    let db := parent (comps B) in
    match open_table da fs with
    | (fs1, Err e) => (fs1, Err e)
    | (fs1, Ok _) =>
      match open_table db fs1 with
      | (fs2, Err e) => (fs2, Err e)
      | (fs2, Ok _) =>
        match h_rename bad (comps A) (comps B) fs2 with
        | (fs3, Err e) => (fs3, Err e) (* rollback *)
        | (fs3, Ok tt) =>
          (* both tables are committed together; in one directory they are one table *)
          let edit (d : hpath) (m : list (bytes * bytes)) :=
            let m1 := if hpath_eqb d da then match la with [] => m | _ => remove_mapping (get_last_component A) m end else m in
            if hpath_eqb d db then match lb with [] => m1 | _ => update_mapping (get_last_component B) lb m1 end else m1 in
          let row (d : hpath) := match open_table d fs2 with (_, Ok m) => m | _ => [] end in
          let fs4 := commit_table da (edit da (row da)) fs3 in
          (commit_table db (edit db (row db)) fs4, Ok tt)
        end
      end
    end
  end.

Definition lite_step (o : lop) (fs : hfs) : hfs * res unit :=
  match o with
  | LOpen path creat excl ino bad late =>
    (* open, 1153-1186 *)
    let callback p fs0 :=
      match h_open bad creat excl ino p fs0 with
      | (fs1, Ok tt) => (fs1, match late with Some e => Err e | None => Ok tt end)
      | x => x
      end in
    if creat then process path ACreate callback fs
    else match t_encrypt trans path with
         | Err e => (fs, Err e)
         | Ok (P, _) => callback (comps P) fs
         end
  | LMkdir path bad => process path ACreate (h_mkdir bad) fs                      (* vmkdir, 952-958 *)
  | LSymlink path ino bad => process path ACreate (h_open bad true true ino) fs    (* vsymlink, 984-992 *)
  | LLink src dest bad =>                                                          (* vlink, 993-1001 *)
    process dest ACreate
      (fun p fs0 => match t_encrypt trans src with
                    | Err e => (fs0, Err e)
                    | Ok (P, _) => h_link bad (comps P) p fs0
                    end) fs
  | LUnlink path bad => process path ADelete (h_unlink bad) fs                     (* vunlink, 945-951 *)
  | LRmdir path bad =>                                                             (* vrmdir, 959-970 *)
    process path ADelete (fun p fs0 => h_rmdir bad p (drop_table p fs0)) fs
  | LRename from to bad => lite_rename from to bad fs
  end.

(** Helper (no code): a history of calls. *)
Fixpoint lite_run (ops : list lop) (fs : hfs) : hfs :=
  match ops with
  | [] => fs
  | o :: ops' => lite_run ops' (fst (lite_step o fs))
  end.
End Ops.

(** A new repository: an empty root. *)
(** Environment: a new repository. *)
Definition empty_fs : hfs := fun p => match p with [] => Some [] | _ => None end.

(** ** change_long_name_suffix, sources/lite_format.cpp 1263-1317.  [dirs] is what
    recursive_traverse finds, in the order in which it finds them. *)
Section Suffix.
Variable old_suffix new_suffix : bytes.
Variable bad : option err.   (* a refusal of the host's rename *)

(** change_long_name_suffix, sources/lite_format.cpp 1263-1315: the name with
    the new suffix. *)
Definition new_hash (hash : bytes) : bytes := firstn (length hash - length old_suffix) hash ++ new_suffix.

(** One table row, 1299-1311: the table and the physical entry. *)
Fixpoint change_rows (d : hpath) (hashes : list bytes) (m : list (bytes * bytes)) (fs : hfs)
  : hfs * res (list (bytes * bytes)) :=
  match hashes with
  | [] => (fs, Ok m)
  | h :: hs =>
    if ends_with h old_suffix then
      let value := match ent h m with Some v => v | None => [] end in
      let m' := remove_mapping h (update_mapping (new_hash h) value m) in
      match h_rename bad (d ++ [h]) (d ++ [new_hash h]) fs with
      | (fs1, Ok tt) => change_rows d hs m' fs1
      | (fs1, Err e) => (fs1, Err e)
      end
    else change_rows d hs m fs
  end.

(** One directory, 1288-1312. *)
Definition change_dir (d : hpath) (fs : hfs) : hfs * res unit :=
  match open_table d fs with
  | (fs1, Err e) => (fs1, Err e)
  | (fs1, Ok m) =>
    match change_rows d (map fst m) m fs1 with
    | (fs2, Err e) => (fs2, Err e)
    | (fs2, Ok m') => (commit_table d m' fs2, Ok tt)
    end
  end.

(** change_long_name_suffix, sources/lite_format.cpp 1263-1315: the walk over
    the directories. *)
Fixpoint change_dirs (dirs : list hpath) (fs : hfs) : hfs * res unit :=
  match dirs with
  | [] => (fs, Ok tt)
  | d :: ds =>
    match change_dir d fs with
    | (fs1, Ok tt) => change_dirs ds fs1
    | x => x
    end
  end.
End Suffix.
