(** Which accesses a lite file allows: the flags and the mode given to open and create,
    what the host is asked for, and what the host then lets the open file do.
    Models sources/lite_format.cpp 768-835 (vgetattr of a regular file), 886-944 (vcreate,
    vopen, vrelease, vread, vwrite, vftruncate), 1059-1065 (vtruncate) and 1153-1186
    (open); sources/unix.cpp 97-147 and 326-334 (pread, pwrite, ftruncate, openat).
    Simplified: one name, never removed (see HandleModel); the numbers of the flags are
    those of Linux on x86; of the nine permission bits the host looks at those of the
    owner, whose process securefs is. *)
From Verif Require Import Base StreamSpec BlockModel LiteModel HandleModel CrashModel.
Local Open Scope list_scope.

(** Environment: the bits of the flags, fcntl.h. *)
Definition O_ACCMODE : N := 3.
Definition O_WRONLY : N := 1.
Definition O_RDWR : N := 2.
Definition O_CREAT : N := 64.
Definition O_EXCL : N := 128.
Definition O_TRUNC : N := 512.
Definition O_APPEND : N := 1024.
(** Environment: the bits of the mode, sys/stat.h. *)
Definition S_IRUSR : N := 256.
Definition S_IWUSR : N := 128.
(** Environment: errno of the host's open without permission. *)
Definition EACCES : err := EPosix 13.
(** Environment: errno of the host's ftruncate of a file that is open for reading. *)
Definition E_INVAL : err := EPosix 22.

(** The test [x & b], as in sources/lite_format.cpp 1155, 1170, 1180. *)
Definition has (x b : N) : bool := negb (N.land x b =? 0)%N.

(** The flags for the host, sources/lite_format.cpp 1155-1169. *)
Definition open_flags (flags : N) : N :=
  let flags := if has flags O_APPEND then N.ldiff flags O_APPEND else flags in
  if (N.land flags O_ACCMODE =? O_WRONLY)%N then N.lor (N.ldiff flags O_ACCMODE) O_RDWR else flags.
(** The mode for the host, sources/lite_format.cpp 1170-1173. *)
Definition open_mode (flags mode : N) : N := if has flags O_CREAT then N.lor mode S_IRUSR else mode.

(** ** The host *)
(** Environment: a file of the host, its mode and its bytes. *)
Record afile : Type := mkAf { af_mode : N; af_data : bytes }.

(** Environment: what a descriptor opened with these flags can do. *)
Definition fd_reads (flags : N) : bool :=
  let a := N.land flags O_ACCMODE in (a =? 0)%N || (a =? 2)%N.
Definition fd_writes (flags : N) : bool :=
  let a := N.land flags O_ACCMODE in (a =? 1)%N || (a =? 2)%N.

(** Environment: openat(2), for the owner of the file or for the superuser. *)
Definition host_open (super : bool) (umask : N) (f : option afile) (flags mode : N) : res afile :=
  match f with
  | None => if has flags O_CREAT then Ok (mkAf (N.ldiff mode umask) []) else Err ENOENT
  | Some f =>
    if has flags O_CREAT && has flags O_EXCL then Err EEXIST
    else
      let a := N.land flags O_ACCMODE in
      if negb super && ((negb (a =? 1)%N && negb (has (af_mode f) S_IRUSR))
                        || ((negb (a =? 0)%N || has flags O_TRUNC) && negb (has (af_mode f) S_IWUSR)))
      then Err EACCES
      else Ok (if has flags O_TRUNC then mkAf (af_mode f) [] else f)
  end.

(** Environment: pwrite(2), which on Linux appends if O_APPEND was given, and ftruncate(2). *)
Definition fd_perform (flags : N) (f : bytes) (p : phys) : res bytes :=
  match p with
  | PWrite off d =>
    if fd_writes flags then Ok (if has flags O_APPEND then f ++ d else arr_write f off d) else Err EBADF
  | PResize n => if fd_writes flags then Ok (arr_resize f n) else Err E_INVAL
  end.
(** Helper (no code): several of them, up to the first that fails. *)
Fixpoint fd_replay (flags : N) (f : bytes) (l : list phys) : bytes * option err :=
  match l with
  | [] => (f, None)
  | p :: l' => match fd_perform flags f p with Ok f' => fd_replay flags f' l' | Err e => (f, Some e) end
  end.

Section Access.
Variable A : aead.
Variable bs iv_size : nat.
Variable check sparse : bool.
Variable session_key : bytes -> bytes.
Variable padding_of : bytes -> nat.
Variable padded : bool.               (* max_padding_size > 0 *)
Variable rnd : nat -> nat -> bytes.
Variable iv_fuel : nat.
Variable super : bool.                (* securefs is run by the superuser *)
Variable umask : N.                   (* of the process of securefs *)

(** The header that is written to an empty file, sources/lite_stream.cpp 100-111. *)
Definition header_trace (file : bytes) (k : nat) : list phys :=
  if length (arr_read file 0 lite_id_size) =? 0 then
    let id := rnd k lite_id_size in
    let p := padding_of id in
    PWrite 0 id :: (if p =? 0 then [] else [PWrite lite_id_size (skipn 4 (rnd (S k) (4 + p)))])
  else [].

(** The constructor of the stream, sources/lite_stream.cpp 79-138, on a descriptor: it
    reads the header (98), or writes one. *)
Definition fd_stream (flags : N) (file : bytes) (k : nat) : bytes * res lite_st :=
  if negb (fd_reads flags) then (file, Err EBADF)
  else
    match lite_open bs iv_size session_key padding_of rnd file k with
    | Err e => (file, Err e)
    | Ok l =>
      match fd_replay flags file (header_trace file k) with
      | (f', Some e) => (f', Err e)
      | (f', None) => (f', Ok (mkLite f' (l_key l) (l_pad l) (l_rng l)))
      end
    end.

(** An operation of the stream on a descriptor: the answers are those of the stream, what
    it does to the file goes through the descriptor.  Simplified: every operation is taken
    to read from it. *)
(** sources/lite_stream.cpp 147-262 over sources/unix.cpp 97-147. *)
Definition fd_io (flags : N) (l : lite_st) (o : sop) : lite_st * sout :=
  if negb (fd_reads flags) then (l, OFail EBADF)
  else
    let '(l', r) := bb_step (lite_backend A bs iv_size check sparse rnd iv_fuel) l o in
    match fd_replay flags (l_file l) (lite_trace A bs iv_size check sparse rnd iv_fuel l o) with
    | (f', None) => (mkLite f' (l_key l') (l_pad l') (l_rng l'), r)
    | (f', Some e) => (mkLite f' (l_key l') (l_pad l') (l_rng l'), OFail e)
    end.

(** A handle: the flags that its opener gave, of which the kernel knows, the flags that the
    host was given, and the key and padding of its stream. *)
(** info->fh, sources/lite_format.h 129-134. *)
Record ahandle : Type := mkAh { ah_asked : N; ah_fd : N; ah_key : bytes; ah_pad : bytes }.
(** The file of the host, the File objects, and the source of random bytes. *)
Record ast : Type := mkAst { a_file : option afile; a_handles : nat -> option ahandle; a_rng : nat }.
(** Helper (no code): nothing there yet. *)
Definition a_empty : ast := mkAst None (fun _ => None) 0.

(** open, sources/lite_format.cpp 1153-1186. *)
Definition a_open (s : ast) (flags mode : N) : ast * res (N * bytes * bytes) :=
  let flags := open_flags flags in
  let mode := open_mode flags mode in
  match host_open super umask (a_file s) flags mode with
  | Err e => (s, Err e)
  | Ok f =>
    match fd_stream flags (af_data f) (a_rng s) with
    | (d, Err e) => (mkAst (Some (mkAf (af_mode f) d)) (a_handles s) (a_rng s), Err e)
    | (d, Ok l) =>
      if has flags O_TRUNC then
        let '(l', r) := fd_io flags l (SResize 0) in
        (mkAst (Some (mkAf (af_mode f) (l_file l'))) (a_handles s) (l_rng l'),
         match r with OFail e => Err e | _ => Ok (flags, l_key l', l_pad l') end)
      else (mkAst (Some (mkAf (af_mode f) d)) (a_handles s) (l_rng l), Ok (flags, l_key l, l_pad l))
    end
  end.

(** The calls.  [asked] are the flags of the open(2) that makes the kernel create a file;
    the kernel keeps them, and vcreate does not look at them. *)
(** sources/lite_format.cpp 768-835, 886-944, 1059-1065. *)
Inductive acall : Type :=
| ACreate (h : nat) (asked mode : N)
| AOpen (h : nat) (flags : N)
| AIo (h : nat) (o : sop)
| ATruncate (n : nat)
| AChmod (mode : N)
| AStat
| AClose (h : nat).
(** Helper (no code): the answers. *)
Inductive aout : Type := ADone | AData (r : sout) | AStatOut (mode : N) (size : nat) | AFail (e : err).

(** Environment: the kernel passes on only what the opener asked to be able to do
    (FMODE_READ and FMODE_WRITE). *)
Definition kernel_lets (asked : N) (o : sop) : bool :=
  match o with
  | SRead _ _ => fd_reads asked
  | SWrite _ _ | SResize _ => fd_writes asked
  | SSize => true
  end.

(** Helper: info->fh is set or deleted (sources/lite_format.cpp 892, 897, 902). *)
Definition with_handle (s : ast) (h : nat) (v : option ahandle) : ast :=
  mkAst (a_file s) (fupd (a_handles s) h v) (a_rng s).

(** The size that vgetattr reports, sources/lite_format.cpp 773-826: with padding the file
    is opened for reading. *)
Definition a_size (s : ast) (f : afile) : res nat :=
  if length (af_data f) =? 0 then Ok 0
  else if padded then
    match host_open super umask (Some f) 0 0 with
    | Err e => Err e
    | Ok _ =>
      match fd_stream 0 (af_data f) (a_rng s) with
      | (_, Ok l) => Ok (lite_size bs iv_size l)
      | (_, Err e) => Err e
      end
    end
  else Ok (calculate_real_size (length (af_data f)) bs iv_size).

(** sources/lite_format.cpp 768-835, 886-944, 1059-1065; chmod is the host's. *)
Definition a_step (s : ast) (c : acall) : ast * aout :=
  match c with
  | ACreate h asked mode =>                                              (* 886-893 *)
    match a_open s (N.lor O_CREAT (N.lor O_EXCL O_RDWR)) mode with
    | (s1, Err e) => (s1, AFail e)
    | (s1, Ok (fd, key, pad)) => (with_handle s1 h (Some (mkAh asked fd key pad)), ADone)
    end
  | AOpen h flags =>                                                     (* 894-898 *)
    match a_open s flags 0 with
    | (s1, Err e) => (s1, AFail e)
    | (s1, Ok (fd, key, pad)) => (with_handle s1 h (Some (mkAh flags fd key pad)), ADone)
    end
  | AIo h o =>                                                           (* 904-944 *)
    match a_handles s h, a_file s with
    | Some ah, Some f =>
      if kernel_lets (ah_asked ah) o then
        let '(l, r) := fd_io (ah_fd ah) (mkLite (af_data f) (ah_key ah) (ah_pad ah) (a_rng s)) o in
        (mkAst (Some (mkAf (af_mode f) (l_file l))) (a_handles s) (l_rng l), AData r)
      else (s, AData (OFail EBADF))
    | _, _ => (s, AFail EUndef)
    end
  | ATruncate n =>                                                       (* 1059-1065 *)
    match a_open s O_WRONLY 0 with
    | (s1, Err e) => (s1, AFail e)
    | (s1, Ok (fd, key, pad)) =>
      match a_file s1 with
      | Some f =>
        let '(l, r) := fd_io fd (mkLite (af_data f) key pad (a_rng s1)) (SResize n) in
        (mkAst (Some (mkAf (af_mode f) (l_file l))) (a_handles s1) (l_rng l),
         match r with OFail e => AFail e | _ => ADone end)
      | None => (s1, AFail EUndef)
      end
    end
  | AChmod mode =>
    match a_file s with
    | Some f => (mkAst (Some (mkAf mode (af_data f))) (a_handles s) (a_rng s), ADone)
    | None => (s, AFail ENOENT)
    end
  | AStat =>                                                             (* 768-835 *)
    match a_file s with
    | None => (s, AFail ENOENT)
    | Some f => match a_size s f with Ok n => (s, AStatOut (af_mode f) n) | Err e => (s, AFail e) end
    end
  | AClose h => (with_handle s h None, ADone)                            (* 899-903 *)
  end.
End Access.
