(** What a mounted lite repository should do: a tree with the plain names
    ([LiteTreeSpec]) whose files are byte arrays and whose symbolic links are texts.
    Nothing here knows of encryption. *)
From Verif Require Import Base StreamSpec HandleModel LongNameModel LongNameSpec LiteTreeSpec LiteFsModel NameModel.
(** Error numbers, as on Linux: 2 is ENOENT, 9 is EBADF, 22 is EINVAL, 36 is ENAMETOOLONG. *)

(** A file is its content and how often it was opened with O_TRUNC; a handle is its
    file and how often that had been opened with O_TRUNC when the handle was. *)
Record pfs : Type := mkPfs {
  pf_tree : hfs;
  pf_files : nat -> option (bytes * nat);
  pf_handles : nat -> option (nat * nat);
  pf_next : nat;
  pf_links : nat -> option bytes;
  pf_nlinks : nat }.
Definition pf_empty : pfs := mkPfs empty_fs (fun _ => None) (fun _ => None) 0 (fun _ => None) 0.

Definition with_tree (s : pfs) (v : hfs) : pfs := mkPfs v (pf_files s) (pf_handles s) (pf_next s) (pf_links s) (pf_nlinks s).
Definition with_file (s : pfs) (i : nat) (c : bytes * nat) : pfs :=
  mkPfs (pf_tree s) (fupd (pf_files s) i (Some c)) (pf_handles s) (pf_next s) (pf_links s) (pf_nlinks s).
Definition with_handle (s : pfs) (h : nat) (v : option (nat * nat)) : pfs :=
  mkPfs (pf_tree s) (pf_files s) (fupd (pf_handles s) h v) (pf_next s) (pf_links s) (pf_nlinks s).
Definition with_new (s : pfs) : pfs :=
  mkPfs (pf_tree s) (fupd (pf_files s) (pf_next s) (Some ([], 0))) (pf_handles s) (S (pf_next s)) (pf_links s) (pf_nlinks s).
Definition with_link (s : pfs) (target : bytes) : pfs :=
  mkPfs (pf_tree s) (pf_files s) (pf_handles s) (pf_next s) (fupd (pf_links s) (pf_nlinks s) (Some target)) (S (pf_nlinks s)).

Definition at_path (s : pfs) (path : bytes) : option node := option_map node_of (plain_found (pf_tree s) path).

(** Open: the file of that name, which is made if [creat] says so, and emptied if
    [trunc] says so. *)
Definition p_open (s : pfs) (path : bytes) (creat excl trunc : bool) (bad : option err) : pfs * res nat :=
  match h_open bad creat excl (reg_ino (pf_next s)) (names_of path) (pf_tree s) with
  | (v, Err e) => (with_tree s v, Err e)
  | (v, Ok tt) =>
    let s1 := with_tree s v in
    match at_path s1 path with
    | Some (NReg i) =>
      let s2 := if i =? pf_next s then with_new s1 else s1 in
      match pf_files s2 i with
      | Some (c, g) => (if trunc then with_file s2 i ([], S g) else s2, Ok i)
      | None => (s2, Err EUndef)
      end
    | _ => (s1, Err EUndef)
    end
  end.
Definition opened_with (s : pfs) (h i : nat) : pfs :=
  match pf_files s i with Some (_, g) => with_handle s h (Some (i, g)) | None => s end.

(** A call on names. *)
Definition p_name (s : pfs) (o : lop) : pfs * vout := (with_tree s (fst (plain_step o (pf_tree s))), VRes (snd (plain_step o (pf_tree s)))).

Definition p_step (s : pfs) (op : vop) : pfs * vout :=
  match op with
  | VOpen path creat excl trunc h bad =>
    match p_open s path creat excl trunc bad with
    | (s1, Ok i) => (opened_with s1 h i, VRes (Ok tt))
    | (s1, Err e) => (s1, VRes (Err e))
    end
  | VIo h o =>
    match pf_handles s h with
    | None => (s, VData (OFail (EPosix 9)))
    | Some (i, _) =>
      match pf_files s i with
      | Some (c, g) => (with_file s i (fst (spec_step c o), g), VData (snd (spec_step c o)))
      | None => (s, VData (OFail EUndef))
      end
    end
  | VClose h => (with_handle s h None, VRes (Ok tt))
  | VTruncate path n bad =>
    match p_open s path false false false bad with
    | (s1, Ok i) =>
      match pf_files s1 i with
      | Some (c, g) => (with_file s1 i (arr_resize c n, g), VData ODone)
      | None => (s1, VRes (Err EUndef))
      end
    | (s1, Err e) => (s1, VRes (Err e))
    end
  | VGetattr path =>
    (s, VAttr (match at_path s path with
               | None => Err (EPosix 2)
               | Some NDir => Ok ADir
               | Some (NReg i) => match pf_files s i with Some (c, _) => Ok (AReg i (length c)) | None => Err EUndef end
               | Some (NLink i) => match pf_links s i with Some t => Ok (ALink i (length t)) | None => Err EUndef end
               | Some NOther => Err EUndef
               end))
  | VMkdir path bad => p_name s (LMkdir path bad)
  | VRmdir path bad => p_name s (LRmdir path bad)
  | VUnlink path bad => p_name s (LUnlink path bad)
  | VLink src dest bad => p_name s (LLink src dest bad)
  | VRename from to bad => p_name s (LRename from to bad)
  | VSymlink target path bad =>
    match plain_step (LSymlink path (link_ino (pf_nlinks s)) bad) (pf_tree s) with
    | (v, Ok tt) => (with_link (with_tree s v) target, VRes (Ok tt))
    | (v, Err e) => (with_tree s v, VRes (Err e))
    end
  | VReadlink path size =>
    (s, VText (match at_path s path with
               | None => Err (EPosix 2)
               | Some (NLink i) => match pf_links s i with Some t => Ok t | None => Err EUndef end
               | Some _ => Err (EPosix 22)
               end))
  | VRemount => (mkPfs (pf_tree s) (pf_files s) (fun _ => None) (pf_next s) (pf_links s) (pf_nlinks s), VRes (Ok tt))
  end.

(** The calls that the claim is about:
    - no handle is used after its file was opened with O_TRUNC anew, and no file
      grows over the limit;
    - the kernel follows symbolic links itself, so no link is opened or truncated;
    - the text of a link has no NUL and, in old repositories, no component over
      2000 bytes, and it is asked for with a buffer that holds it (what the host
      stores, at most [link_max] bytes, must fit in twice that buffer). *)
Definition stale (s : pfs) (h : nat) : Prop :=
  exists i g c g', pf_handles s h = Some (i, g) /\ pf_files s i = Some (c, g') /\ g <> g'.
Definition not_link (s : pfs) (path : bytes) : Prop := forall i, at_path s path <> Some (NLink i).
Definition proper (limit link_max : nat) (old : bool) (s : pfs) (op : vop) : Prop :=
  match op with
  | VOpen path creat excl _ _ _ => creat && excl = true \/ not_link s path
  | VIo h o => ~ stale s h /\ sop_within limit o
  | VTruncate path n _ => n <= limit /\ not_link s path
  | VSymlink target _ _ => ~ In x00 target /\ (old = true -> Forall (fun w => length w <= 2000) (split_slash target))
  | VReadlink path size =>
    1 < size /\ link_max <= size * 2 + 126 /\
    forall i t, at_path s path = Some (NLink i) -> pf_links s i = Some t -> length t < size
  | _ => True
  end.

(** The paths of a call; as FUSE sends them only [VGetattr] and [VReadlink] may name
    the root. *)
Definition vop_paths (op : vop) : list bytes :=
  match op with
  | VOpen p _ _ _ _ _ | VTruncate p _ _ | VGetattr p | VMkdir p _ | VRmdir p _ | VUnlink p _ | VSymlink _ p _ | VReadlink p _ => [p]
  | VLink p q _ | VRename p q _ => [p; q]
  | _ => []
  end.
Definition v_from_fuse (op : vop) : Prop :=
  Forall (fun p => fuse_path p /\ match op with VGetattr _ | VReadlink _ _ => True | _ => p <> [slash] end) (vop_paths op).
Definition v_names (ops : list vop) : list bytes := flat_map split_slash (flat_map vop_paths ops).

(** The call on names that is part of a call, for the refusals of [may_refuse]. *)
Definition name_part (s : pfs) (op : vop) : option lop :=
  match op with
  | VOpen path creat excl _ _ bad => Some (LOpen path creat excl (reg_ino (pf_next s)) bad None)
  | VMkdir path bad => Some (LMkdir path bad)
  | VRmdir path bad => Some (LRmdir path bad)
  | VUnlink path bad => Some (LUnlink path bad)
  | VLink src dest bad => Some (LLink src dest bad)
  | VRename from to bad => Some (LRename from to bad)
  | VSymlink _ path bad => Some (LSymlink path (link_ino (pf_nlinks s)) bad)
  | _ => None
  end.

(** The histories of such a file system.  Apart from the refusals of [may_refuse],
    the host may find what is stored for a link too long, if it is not much shorter
    than the host's limit. *)
Section History.
Variable limit link_max : nat.
Variable old : bool.

Inductive history : list vop -> pfs -> list vout -> pfs -> Prop :=
| hi_nil s : history [] s [] s
| hi_step op ops s outs s' :
    history ops (fst (p_step s op)) outs s' -> history (op :: ops) s (snd (p_step s op) :: outs) s'
| hi_refuse op ops s o e outs s' :
    name_part s op = Some o -> may_refuse (pf_tree s) o e -> history ops s outs s' ->
    history (op :: ops) s (VRes (Err e) :: outs) s'
| hi_long target path ops s outs s' :
    link_max < 30 * S (length target) ->
    history (VSymlink target path (Some (EPosix 36)) :: ops) s outs s' ->
    history (VSymlink target path None :: ops) s outs s'.

(** Every call is proper, whatever was refused before it. *)
Fixpoint all_proper (ops : list vop) (s : pfs) : Prop :=
  match ops with
  | [] => True
  | op :: ops' => proper limit link_max old s op /\ forall outs s1, history [op] s outs s1 -> all_proper ops' s1
  end.
End History.

(** Without such refusals. *)
Fixpoint run_proper (limit link_max : nat) (old : bool) (s : pfs) (ops : list vop) : Prop :=
  match ops with
  | [] => True
  | op :: ops' => proper limit link_max old s op /\ run_proper limit link_max old (fst (p_step s op)) ops'
  end.
Definition short_links (link_max : nat) (ops : list vop) : Prop :=
  Forall (fun op => match op with VSymlink t _ _ => 30 * S (length t) <= link_max | _ => True end) ops.
