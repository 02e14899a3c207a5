(** Calls on an open file and what a loss of power can leave of its stored files. *)
From Verif Require Import Base StreamSpec BlockModel LiteModel FullStreamModel CrashModel.

(** What is called on an open file: read, write, truncate, size; a change of the stored
    attributes (full format: mode, owner, times); [vflush] (close); [vfsync].  What the calls
    answer is C01 and C02; here only what they leave behind is followed. *)
Inductive call := COp (o : sop) | CAttr (h : bytes) | CFlush | CFsync.

(** ** Lite format *)
Section Lite.
  Variable A : aead.
  Variable bs iv_size : nat.
  Variable check sparse : bool.
  Variable rnd : nat -> nat -> bytes.
  Variable iv_fuel : nat.

  (** The open file, the stored bytes as of the last [fsync] of the host, and the physical
      operations since then. *)
  (** The File object (sources/lite_format.h 129-134) and its stored file. *)
  Record ldur := mkLdur { ld_st : lite_st; ld_stable : bytes; ld_pending : list phys }.

  (** lite_format.cpp 901-938 (read, write, flush, truncate), 1044-1053 ([vfsync]: flush, then
      fsync); [AESGCMCryptStream::flush] (lite_stream.cpp 142) calls [UnixFileStream::flush],
      which is empty (unix.cpp 140); [File::fsync] (lite_format.h 171) is fsync(2) (unix.cpp
      90-95).  Attributes are the host's (lite_format.cpp 968-979) and not part of the file. *)
  Definition ldur_step (s : ldur) (c : call) : ldur :=
    match c with
    | COp o =>
        mkLdur (fst (bb_step (lite_backend A bs iv_size check sparse rnd iv_fuel) (ld_st s) o)) (ld_stable s)
               (ld_pending s ++ lite_trace A bs iv_size check sparse rnd iv_fuel (ld_st s) o)
    | CAttr _ | CFlush => s
    | CFsync => mkLdur (ld_st s) (l_file (ld_st s)) []
    end.
  Definition ldur_run (s : ldur) (l : list call) : ldur := fold_left ldur_step l s.
End Lite.

(** ** Full format *)
Section Full.
  Variable A : aead.
  Variable hmac : bytes -> bytes -> bytes.
  Variable dkey mkey id : bytes.
  Variable bs iv_size header_size : nat.
  Variable check sparse : bool.
  Variable rnd : nat -> nat -> bytes.
  Variable iv_fuel : nat.
  Notation fstep := (full_step A hmac dkey mkey id bs iv_size header_size check sparse rnd iv_fuel).
  Notation ftrace := (full_trace A hmac dkey mkey id bs iv_size header_size check sparse rnd iv_fuel).

  (** The streams of the file; the attributes in memory (m_flags and times, as the header they
      are written to) and whether they have changed (m_dirty); both stored files as of the last
      fsync of the host and the physical operations since then. *)
  (** The FileBase object (sources/files.h 46-61) and its two stored files. *)
  Record fdur := mkFdur {
    fd_st : full_st; fd_attr : bytes; fd_changed : bool;
    fd_data : bytes; fd_meta : bytes; fd_pending : list part }.

  (** Helper: a stream operation of sources/streams.cpp 302-568, with its
      physical operations noted. *)
  Definition fdur_do (s : fdur) (o : fop) : fdur * sout :=
    let '(s', r) := fstep (fd_st s) o in
    (mkFdur s' (fd_attr s) (fd_changed s) (fd_data s) (fd_meta s) (fd_pending s ++ ftrace (fd_st s) o),
     match r with FOut r' => r' | _ => ODone end).

  (** [FileBase::flush] (files.cpp 237-264): the attributes if they have changed, then the MAC;
      the later flush of the stream finds nothing to do.  [FileBase::fsync] (files.h 337-341):
      fsync(2) of both files and nothing else; [vfsync] (full_format.cpp 359-368) calls it
      alone.  [set_mode] and the like (files.h 205-310) change memory only. *)
  Definition fdur_step (s : fdur) (c : call) : fdur :=
    match c with
    | COp o => fst (fdur_do s (FOp o))
    | CAttr h => mkFdur (fd_st s) h true (fd_data s) (fd_meta s) (fd_pending s)
    | CFlush =>
        let '(s1, r1) :=
          if fd_changed s then
            let '(s', r) := fdur_do s (FWriteHeader (fd_attr s)) in
            match r with
            | OFail _ => (s', r)
            | _ => (mkFdur (fd_st s') (fd_attr s') false (fd_data s') (fd_meta s') (fd_pending s'), r)
            end
          else (s, ODone) in
        match r1 with OFail _ => s1 | _ => fst (fdur_do s1 FFlush) end
    | CFsync =>
        mkFdur (fd_st s) (fd_attr s) (fd_changed s) (f_data (fd_st s)) (f_meta (fd_st s)) []
    end.
  Definition fdur_run (s : fdur) (l : list call) : fdur := fold_left fdur_step l s.

  (** A new file: both stored files are empty, [initialize_empty] (files.cpp 81-112) has set
      the attributes, and they count as changed since there was no header to read
      ([read_header], files.cpp 164-173). *)
  Definition fdur_new (h : bytes) (k : nat) : fdur := mkFdur (mkFull [] [] false k) h true [] [] [].
End Full.
