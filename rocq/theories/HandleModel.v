(** Model of the open files of a lite repository: several handles, possibly on one
    file, and operations by path.  sources/lite_format.cpp 755-835, 886-950 and
    1050-1065, [open] 1153-1186; class File, sources/lite_format.h 128-190.

    Every operation runs while it holds the lock of its file (class File, [lock]),
    so they happen one after the other.  Directories are left out: a path is a
    number.  Where [LongNameModel] keeps the host's directories, this file keeps
    what is in the files. *)
From Verif Require Import Base StreamSpec BlockModel LiteModel.

(** Helper (no code): update of a map. *)
Definition fupd {A} (m : nat -> option A) (x : nat) (v : option A) : nat -> option A :=
  fun y => if x =? y then v else m y.

(** Operations.  A handle [h] is the number FUSE knows an open file by; opening with
    a number that is in use drops the old handle. *)
(** The calls of sources/lite_format.cpp 768-944, 945-951, 1019-1064 that touch
    contents. *)
Inductive hop : Type :=
| HCreate (p h : nat)                 (* create, exclusively *)
| HOpen (p h : nat) (trunc : bool)    (* open; [trunc] is O_TRUNC *)
| HIo (h : nat) (o : sop)             (* read, write, ftruncate, size through a handle *)
| HTruncate (p n : nat)
| HStat (p : nat)                     (* the size that stat reports *)
| HUnlink (p : nat)
| HLink (p q : nat)
| HRename (p q : nat)
| HClose (h : nat).
(** Helper (no code): what a call gives to FUSE. *)
Inductive hout : Type := HDone | HOut (r : sout).

Section Handles.
Variable A : aead.
Variable bs iv_size : nat.
Variable check sparse : bool.
Variable session_key : bytes -> bytes.
Variable padding_of : bytes -> nat.
Variable padded : bool.               (* max_padding_size > 0 *)
Variable rnd : nat -> nat -> bytes.
Variable iv_fuel : nat.

(** A handle holds the host's open file and the key schedule and padding that its
    constructor found.  A file without names stays while handles refer to it; it
    is never removed here. *)
(** The host's files and the File objects, sources/lite_format.h 129-134. *)
Record hst : Type := mkH {
  h_names : nat -> option nat;                  (* path to inode *)
  h_files : nat -> option bytes;                (* what is stored *)
  h_handles : nat -> option (nat * bytes * bytes);
  h_next : nat;                                 (* the next free inode *)
  h_rng : nat }.
(** Helper (no code): an empty repository. *)
Definition h_empty : hst := mkH (fun _ => None) (fun _ => None) (fun _ => None) 0 0.

(** Helper: a stored file is written. *)
Definition set_file (s : hst) (i : nat) (f : bytes) (rng : nat) : hst :=
  mkH (h_names s) (fupd (h_files s) i (Some f)) (h_handles s) (h_next s) rng.
(** Helper: info->fh is set or deleted (sources/lite_format.cpp 892, 897, 902).
    *)
Definition set_handle (s : hst) (h : nat) (v : option (nat * bytes * bytes)) : hst :=
  mkH (h_names s) (h_files s) (fupd (h_handles s) h v) (h_next s) (h_rng s).
(** Helper: a name of the host is set or removed. *)
Definition set_name (s : hst) (p : nat) (v : option nat) : hst :=
  mkH (fupd (h_names s) p v) (h_files s) (h_handles s) (h_next s) (h_rng s).

(** Environment: errno of the host's open. *)
Definition ENOENT : err := EPosix 2.
(** Environment: errno of the host for a file that is not there. *)
Definition EBADF : err := EPosix 9.
(** Environment: errno of the host's open with O_EXCL. *)
Definition EEXIST : err := EPosix 17.

(** A stream operation on the file behind an open file object. *)
(** sources/lite_format.h 146-165. *)
Definition io (s : hst) (i : nat) (key pad : bytes) (o : sop) : hst * sout :=
  match h_files s i with
  | None => (s, OFail EBADF)
  | Some f =>
    let '(l, r) := bb_step (lite_backend A bs iv_size check sparse rnd iv_fuel) (mkLite f key pad (h_rng s)) o in
    (set_file s i (l_file l) (l_rng l), r)
  end.

(** [open], lite_format.cpp 1153-1186, on an existing file: the host truncates the
    file if O_TRUNC is among the flags, which are passed on as they are
    (OSService::open_file_stream, unix.cpp 326-334); then the header is read, or
    written if the file is empty; then, with O_TRUNC, the file is resized to 0. *)
Definition open_inode (s : hst) (i : nat) (trunc : bool) : hst * res (bytes * bytes) :=
  match h_files s i with
  | None => (s, Err ENOENT)
  | Some f0 =>
    let f := if trunc then [] else f0 in
    match lite_open bs iv_size session_key padding_of rnd f (h_rng s) with
    | Err e => (set_file s i f (h_rng s), Err e)
    | Ok l =>
      let s1 := set_file s i (l_file l) (l_rng l) in
      if trunc then
        match io s1 i (l_key l) (l_pad l) (SResize 0) with
        | (s2, OFail e) => (s2, Err e)
        | (s2, _) => (s2, Ok (l_key l, l_pad l))
        end
      else (s1, Ok (l_key l, l_pad l))
    end
  end.

(** Opening by path, the handle being kept (vopen, 894-898) or not. *)
Definition open_path (s : hst) (p : nat) (trunc : bool) : hst * res (nat * bytes * bytes) :=
  match h_names s p with
  | None => (s, Err ENOENT)
  | Some i =>
    match open_inode s i trunc with
    | (s1, Ok (key, pad)) => (s1, Ok (i, key, pad))
    | (s1, Err e) => (s1, Err e)
    end
  end.

(** The size that vgetattr reports, 766-835: computed from the stored length when
    there is no padding, otherwise asked from the file. *)
Definition stat_size (s : hst) (f : bytes) : sout :=
  if length f =? 0 then OSize 0 else
  if padded then
    match lite_open bs iv_size session_key padding_of rnd f (h_rng s) with
    | Ok l => OSize (lite_size bs iv_size l)
    | Err e => OFail e
    end
  else OSize (calculate_real_size (length f) bs iv_size).

Definition hstep (s : hst) (op : hop) : hst * hout :=
  match op with
  | HCreate p h =>                                     (* vcreate, 886-893 *)
    match h_names s p with
    | Some _ => (s, HOut (OFail EEXIST))
    | None =>
      let i := h_next s in
      let s1 := mkH (fupd (h_names s) p (Some i)) (fupd (h_files s) i (Some [])) (h_handles s) (S i) (h_rng s) in
      match open_inode s1 i false with
      | (s2, Ok (key, pad)) => (set_handle s2 h (Some (i, key, pad)), HDone)
      | (s2, Err e) => (s2, HOut (OFail e))
      end
    end
  | HOpen p h trunc =>                                 (* vopen, 894-898 *)
    match open_path s p trunc with
    | (s1, Ok v) => (set_handle s1 h (Some v), HDone)
    | (s1, Err e) => (s1, HOut (OFail e))
    end
  | HIo h o =>                                         (* vread .. vftruncate, 904-944; vfgetattr, 836-844 *)
    match h_handles s h with
    | None => (s, HOut (OFail EBADF))
    | Some (i, key, pad) => let '(s1, r) := io s i key pad o in (s1, HOut r)
    end
  | HTruncate p n =>                                   (* vtruncate, 1058-1064 *)
    match open_path s p false with
    | (s1, Ok (i, key, pad)) => let '(s2, r) := io s1 i key pad (SResize n) in (s2, HOut r)
    | (s1, Err e) => (s1, HOut (OFail e))
    end
  | HStat p =>                                         (* vgetattr, 766-835 *)
    match h_names s p with
    | None => (s, HOut (OFail ENOENT))
    | Some i => match h_files s i with
                | None => (s, HOut (OFail ENOENT))
                | Some f => (s, HOut (stat_size s f))
                end
    end
  | HUnlink p =>                                       (* vunlink, 945-951 *)
    match h_names s p with
    | None => (s, HOut (OFail ENOENT))
    | Some _ => (set_name s p None, HDone)
    end
  | HLink p q =>                                       (* vlink, 993-1001 *)
    match h_names s p, h_names s q with
    | None, _ => (s, HOut (OFail ENOENT))
    | Some _, Some _ => (s, HOut (OFail EEXIST))
    | Some i, None => (set_name s q (Some i), HDone)
    end
  | HRename p q =>                                     (* vrename, 1019-1047; two links to one file: nothing *)
    match h_names s p with
    | None => (s, HOut (OFail ENOENT))
    | Some i =>
      match h_names s q with
      | Some j => if i =? j then (s, HDone) else (set_name (set_name s p None) q (Some i), HDone)
      | None => (set_name (set_name s p None) q (Some i), HDone)
      end
    end
  | HClose h => (set_handle s h None, HDone)           (* vrelease, 899-903 *)
  end.
End Handles.
