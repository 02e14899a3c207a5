(** Model of a mounted lite repository as a whole: the calls of FuseHighLevelOps,
    sources/lite_format.cpp 766-1065 and 1153-1186, on names ([LongNameModel]) and
    contents ([HandleModel]) together, with symbolic links ([NameModel]).

    What the host stores is a tree of directories, the bytes of every file and the
    text of every symbolic link.  Inode numbers are the host's; here files get even
    and symbolic links odd ones.  Permissions, owners, times and extended attributes
    are left out. *)
From Verif Require Import Base StreamSpec BlockModel LiteModel NameModel HandleModel LongNameModel.

(** Helper: inode numbers of the host, regular files even. *)
Definition reg_ino (i : nat) : nat := 2 * i.
(** Helper: inode numbers of the host, symbolic links odd. *)
Definition link_ino (i : nat) : nat := 2 * i + 1.
(** Environment: what st_mode says of a file of the host
    (sources/lite_format.cpp 775-834). *)
Inductive node : Type := NDir | NReg (i : nat) | NLink (i : nat) | NOther.
(** Helper: the same from the tree of [LongNameModel]. *)
Definition node_of (k : kind) : node :=
  match k with
  | KDir => NDir
  | KFile j => if Nat.even j then NReg (Nat.div2 j) else NLink (Nat.div2 j)
  | KTable _ => NOther
  end.

(** The calls.  [bad] is a refusal of the host, as in [LongNameModel]. *)
(** The methods of FuseHighLevelOps, sources/lite_format.cpp 768-1065. *)
Inductive vop : Type :=
| VOpen (path : bytes) (creat excl trunc : bool) (h : nat) (bad : option err)
| VIo (h : nat) (o : sop)
| VClose (h : nat)
| VTruncate (path : bytes) (n : nat) (bad : option err)
| VGetattr (path : bytes)
| VMkdir (path : bytes) (bad : option err)
| VRmdir (path : bytes) (bad : option err)
| VUnlink (path : bytes) (bad : option err)
| VLink (src dest : bytes) (bad : option err)
| VRename (from to : bytes) (bad : option err)
| VSymlink (target path : bytes) (bad : option err)
| VReadlink (path : bytes) (size : nat)
| VRemount.                                    (* unmount and mount again *)

(** What stat tells: the kind, the inode number and the size (of a directory the
    size is the host's affair). *)
(** What vgetattr leaves in its fuse_stat, sources/lite_format.cpp 768-836. *)
Inductive attr : Type := ADir | AReg (i size : nat) | ALink (i size : nat).
(** Helper (no code): what a call gives to FUSE. *)
Inductive vout : Type :=
| VRes (r : res unit)
| VData (r : sout)
| VText (r : res bytes)
| VAttr (r : res attr).

(** Environment: errno of the host's symlink. *)
Definition ENAMETOOLONG : err := EPosix 36.

Section LiteFs.
Variable A : aead.
Variable bs iv_size : nat.
Variable check sparse : bool.
Variable session_key : bytes -> bytes.
Variable padding_of : bytes -> nat.
Variable padded : bool.
Variable rnd : nat -> nat -> bytes.
Variable iv_fuel : nat.
Variable trans : translator.
Variable link_max : nat.       (* the longest text the host stores in a symbolic link *)

(** [h_names] of the contents is not used: the tree has the names. *)
(** Environment: the host, with the open files of HandleModel. *)
Record lst : Type := mkLst {
  ls_tree : hfs;
  ls_h : hst;
  ls_links : nat -> option bytes;
  ls_nlinks : nat }.
(** Environment: an empty repository. *)
Definition ls_empty : lst := mkLst empty_fs h_empty (fun _ => None) 0.
(** Helper (no code): update of the state. *)
Definition set_tree (s : lst) (t : hfs) : lst := mkLst t (ls_h s) (ls_links s) (ls_nlinks s).
(** Helper (no code): update of the state. *)
Definition set_h (s : lst) (h : hst) : lst := mkLst (ls_tree s) h (ls_links s) (ls_nlinks s).

(** What the host finds at the physical path. *)
(** OSService::stat, sources/unix.cpp 420-430, after encrypt_full_path
    (sources/lite_format.cpp 770-772). *)
Definition locate (t : hfs) (path : bytes) : res kind :=
  match t_encrypt trans path with
  | Err e => Err e
  | Ok (P, _) =>
    match comps P with
    | [] => Ok KDir
    | p => match t (parent p) with
           | None => Err LongNameModel.ENOENT
           | Some es => match ent (leaf p) es with Some k => Ok k | None => Err LongNameModel.ENOENT end
           end
    end
  end.

(** A new, empty file. *)
(** Environment: the host's open with O_CREAT (sources/unix.cpp 326-334). *)
Definition new_file (h : hst) : hst :=
  mkH (h_names h) (fupd (h_files h) (h_next h) (Some [])) (h_handles h) (S (h_next h)) (h_rng h).

(** [open], 1153-1186.  If the header can neither be read nor written, the entry in
    the table of long names is rolled back ([late] in [LongNameModel]); the resize
    that follows with O_TRUNC is taken together with it.  The kernel follows
    symbolic links itself, so a path that leads to one is not opened. *)
Definition v_open (s : lst) (path : bytes) (creat excl trunc : bool) (bad : option err)
  : lst * res (nat * bytes * bytes) :=
  let fresh := h_next (ls_h s) in
  let names late := lite_step trans (LOpen path creat excl (reg_ino fresh) bad late) (ls_tree s) in
  match names None with
  | (t1, Err e) => (set_tree s t1, Err e)
  | (t1, Ok tt) =>
    match locate t1 path with
    | Err e => (set_tree s t1, Err e)
    | Ok k =>
      match node_of k with
      | NReg i =>
        let h1 := if i =? fresh then new_file (ls_h s) else ls_h s in
        match open_inode A bs iv_size check sparse session_key padding_of rnd iv_fuel h1 i trunc with
        | (h2, Ok (key, pad)) => (set_h (set_tree s t1) h2, Ok (i, key, pad))
        | (h2, Err e) => (set_h (set_tree s (fst (names (Some e)))) h2, Err e)
        end
      | _ => (set_tree s t1, Err EUndef)
      end
    end
  end.

(** A call that only concerns names. *)
(** sources/lite_format.cpp 945-1001: the calls of [LongNameModel]. *)
Definition v_name (s : lst) (o : lop) : lst * vout :=
  let '(t, r) := lite_step trans o (ls_tree s) in (set_tree s t, VRes r).

Definition v_step (s : lst) (op : vop) : lst * vout :=
  match op with
  | VOpen path creat excl trunc h bad =>              (* vcreate and vopen, 886-898 *)
    match v_open s path creat excl trunc bad with
    | (s1, Ok v) => (set_h s1 (set_handle (ls_h s1) h (Some v)), VRes (Ok tt))
    | (s1, Err e) => (s1, VRes (Err e))
    end
  | VIo h o =>                                        (* vread .. vftruncate, 904-944; vfgetattr, 836-844 *)
    match h_handles (ls_h s) h with
    | None => (s, VData (OFail EBADF))
    | Some (i, key, pad) =>
      let '(h1, r) := io A bs iv_size check sparse rnd iv_fuel (ls_h s) i key pad o in
      (set_h s h1, VData r)
    end
  | VClose h => (set_h s (set_handle (ls_h s) h None), VRes (Ok tt))   (* vrelease, 899-903 *)
  | VTruncate path n bad =>                           (* vtruncate, 1058-1064 *)
    match v_open s path false false false bad with
    | (s1, Ok (i, key, pad)) =>
      let '(h2, r) := io A bs iv_size check sparse rnd iv_fuel (ls_h s1) i key pad (SResize n) in
      (set_h s1 h2, VData r)
    | (s1, Err e) => (s1, VRes (Err e))
    end
  | VGetattr path =>                                  (* vgetattr, 766-835 *)
    match locate (ls_tree s) path with
    | Err e => (s, VAttr (Err e))
    | Ok k =>
      match node_of k with
      | NDir => (s, VAttr (Ok ADir))
      | NReg i =>
        match h_files (ls_h s) i with
        | None => (s, VAttr (Err EUndef))
        | Some f => match stat_size bs iv_size session_key padding_of padded rnd (ls_h s) f with
                    | OSize n => (s, VAttr (Ok (AReg i n)))
                    | OFail e => (s, VAttr (Err e))
                    | _ => (s, VAttr (Err EUndef))
                    end
        end
      | NLink i =>
        match ls_links s i with
        | None => (s, VAttr (Err EUndef))
        | Some [] => (s, VAttr (Ok (ALink i 0)))
        | Some stored => match t_link_dec trans stored with
                         | Ok target => (s, VAttr (Ok (ALink i (length target))))
                         | Err e => (s, VAttr (Err e))
                         end
        end
      | NOther => (s, VAttr (Err EUndef))
      end
    end
  | VMkdir path bad => v_name s (LMkdir path bad)
  | VRmdir path bad => v_name s (LRmdir path bad)
  | VUnlink path bad => v_name s (LUnlink path bad)
  | VLink src dest bad => v_name s (LLink src dest bad)
  | VRename from to bad => v_name s (LRename from to bad)
  | VSymlink target path bad =>                       (* vsymlink, 984-992 *)
    let i := ls_nlinks s in
    let go bad' stored :=
      match lite_step trans (LSymlink path (link_ino i) bad') (ls_tree s) with
      | (t1, Ok tt) => (mkLst t1 (ls_h s) (fupd (ls_links s) i (Some stored)) (S i), VRes (Ok tt))
      | (t1, Err e) => (set_tree s t1, VRes (Err e))
      end in
    match t_link_enc trans target with
    | Err e => go (Some e) []
    | Ok stored =>
      go (match bad with Some e => Some e | None => if link_max <? length stored then Some ENAMETOOLONG else None end) stored
    end
  | VReadlink path size =>                            (* vreadlink, 1002-1018 *)
    if size <=? 1 then (s, VText (Ok [])) else
    match locate (ls_tree s) path with
    | Err e => (s, VText (Err e))
    | Ok k =>
      match node_of k with
      | NLink i => match ls_links s i with
                   | Some stored => (s, VText (lite_readlink trans stored size))
                   | None => (s, VText (Err EUndef))
                   end
      | _ => (s, VText (Err EINVALID))
      end
    end
  | VRemount =>                                       (* nothing but the host's files outlives a mount *)
    let h := ls_h s in
    (set_h s (mkH (h_names h) (h_files h) (fun _ => None) (h_next h) (h_rng h)), VRes (Ok tt))
  end.
End LiteFs.
