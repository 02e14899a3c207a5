(** The two stream formats over a host whose calls can fail: what [pread], [pwrite] and
    [ftruncate] report is an argument of the model. *)
From Verif Require Import Base StreamSpec BlockModel CodecModel LiteModel FullStreamModel.

(** ** The host *)
(** The outcome of one call: it does all that was asked for, it fails with an errno and does
    nothing, or it transfers only the first [n] bytes. *)
(** Environment: the outcome of ::pread, ::pwrite or ::ftruncate as tested at
    sources/unix.cpp 106-147. *)
Inductive hout := HDone | HFail (errno : N) | HShort (n : nat).

(** The outcomes during one operation on a stream.  [on_mod n]: the [n]-th call that modifies
    a file (pwrite or ftruncate).  [on_pread n w p]: a pread made after [n] such calls, of the
    data ([w = true]) or metadata file, where [p] is the first block or, for the computation
    of the MAC, the offset.  Simplification: fstat does not fail. *)
(** Environment (no code): how the host behaves during one operation. *)
Record faults := mkFaults { on_pread : nat -> bool -> nat -> hout; on_mod : nat -> hout }.
(** Environment (no code): a host without failures. *)
Definition no_faults : faults := mkFaults (fun _ _ _ => HDone) (fun _ => HDone).

(** sources/unix.cpp 128: the errno for a short pwrite. *)
Definition host_EIO : N := 5.

(** [UnixFileStream::read], unix.cpp 103-109: one pread; a count less than asked for is
    handed on. *)
Definition h_pread (x : hout) (f : bytes) (off len : nat) : res bytes :=
  match x with
  | HDone => Ok (arr_read f off len)
  | HFail e => Err (EPosix e)
  | HShort m => Ok (firstn m (arr_read f off len))
  end.

(** [UnixFileStream::write], unix.cpp 119-126: one pwrite; a count other than asked for is
    EIO. *)
Definition h_pwrite (x : hout) (f : bytes) (off : nat) (d : bytes) : bytes * res unit :=
  match x with
  | HDone => (arr_write f off d, Ok tt)
  | HFail e => (f, Err (EPosix e))
  | HShort m => (arr_write f off (firstn m d), if m <? length d then Err (EPosix host_EIO) else Ok tt)
  end.

(** [UnixFileStream::resize], unix.cpp 142-147. *)
Definition h_trunc (x : hout) (f : bytes) (n : nat) : bytes * res unit :=
  match x with HFail e => (f, Err (EPosix e)) | _ => (arr_resize f n, Ok tt) end.

(** ** Lite format *)
Section Lite.
  Variable A : aead.
  Variable bs iv_size : nat.
  Variable check sparse : bool.
  Variable rnd : nat -> nat -> bytes.
  Variable iv_fuel : nat.
  Variable F : faults.
  Notation u := (ubs bs iv_size).

  (** The state of the stream and the number of modifying calls made. *)
  (** Helper: the stream object with a count of the host's calls. *)
  Definition hlite : Type := lite_st * nat.

  (** [read_multi_blocks], lite_stream.cpp 144-200. *)
  Definition hlite_read (a b : nat) (x : hlite) : res bytes :=
    let '(s, n) := x in
    if over_max lite_max_blocks_N b then Err ETooLong
    else
      rbind (h_pread (on_pread F n true a) (l_file s) (l_header s + u * a) ((b - a) * u)) (fun buf =>
      lite_read_loop A bs iv_size check (length buf) (l_key s) (l_pad s) a buf).

  (** [write_multi_blocks], lite_stream.cpp 202-246. *)
  Definition hlite_write (a e r : nat) (input : bytes) (x : hlite) : hlite * res unit :=
    let '(s, n) := x in
    if over_max lite_max_blocks_N e then (x, Err ETooLong)
    else
      let total := (e - a) * u + (if r <=? 0 then 0 else r + iv_size + mac_size) in
      match lite_write_loop A bs iv_size rnd iv_fuel total (l_key s) (l_pad s) a total input (l_rng s) with
      | Err y => (x, Err y)
      | Ok (buf, k) =>
          let '(f, y) := h_pwrite (on_mod F n) (l_file s) (a * u + l_header s) buf in
          ((mkLite f (l_key s) (l_pad s) k, S n), y)
      end.

  (** [adjust_logical_size], lite_stream.cpp 256-262. *)
  Definition hlite_adjust (m : nat) (x : hlite) : hlite * res unit :=
    let '(s, n) := x in
    let '(f, y) := h_trunc (on_mod F n) (l_file s)
                     (l_header s + m / bs * u + (if 0 <? m mod bs then m mod bs + iv_size + mac_size else 0)) in
    ((mkLite f (l_key s) (l_pad s) (l_rng s), S n), y).

  (** The virtual methods of lite::AESGCMCryptStream (sources/lite_stream.cpp)
      over the failing host. *)
  Definition hlite_backend : backend :=
    mkBackend hlite bs lite_max_blocks_N sparse (fun x => lite_size bs iv_size (fst x)) hlite_read hlite_write hlite_adjust.

  (** One operation of an open lite file, [BlockBasedStream] on top of the above. *)
  (** sources/streams.cpp 177-298 over the failing host. *)
  Definition hlite_step (s : lite_st) (o : sop) : lite_st * sout :=
    let '(x, r) := bb_step hlite_backend (s, 0) o in (fst x, r).
End Lite.

(** ** Full format *)
Section Full.
  Variable A : aead.
  Variable hmac : bytes -> bytes -> bytes.
  Variable dkey mkey id : bytes.
  Variable bs iv_size header_size : nat.
  Variable check sparse : bool.
  Variable rnd : nat -> nat -> bytes.
  Variable iv_fuel : nat.
  Variable F : faults.
  Notation ms := (meta_size iv_size).
  Notation mpos := (meta_pos iv_size header_size).

  (** Helper: the stream object with a count of the host's calls. *)
  Definition hfull : Type := full_st * nat.

  (** [read_multi_blocks], streams.cpp 415-473: the data, then the metadata. *)
  Definition hfull_read (a b : nat) (x : hfull) : res bytes :=
    let '(s, n) := x in
    if a =? b then Ok []
    else if over_max full_max_blocks_N b then Err ETooLong
    else
      rbind (h_pread (on_pread F n true a) (f_data s) (a * bs) ((b - a) * bs)) (fun data =>
      rbind (h_pread (on_pread F n false a) (f_meta s) (mpos a + hmac_len) ((b - a) * ms)) (fun meta =>
      if length data <=? 0 then Ok []
      else if negb (length meta mod ms =? 0) then Err EVerify
      else full_read_loop A dkey id bs iv_size check (length data) data (arr_resize meta ((b - a) * ms)))).

  (** [write_multi_blocks], streams.cpp 367-413, and [HMACStream::write], streams.cpp
      145-149: [is_dirty] is set after the call that changes the metadata. *)
  Definition hfull_write (a e r : nat) (input : bytes) (x : hfull) : hfull * res unit :=
    let '(s, n) := x in
    if over_max full_max_blocks_N e then (x, Err ETooLong)
    else
      let len := bs * (e - a) + r in
      match full_write_loop A dkey id bs iv_size rnd iv_fuel len (firstn len input) (f_rng s) with
      | Err y => (x, Err y)
      | Ok (d, m, k) =>
          match h_pwrite (on_mod F n) (f_data s) (a * bs) d with
          | (fd, Err y) => ((mkFull fd (f_meta s) (f_dirty s) k, S n), Err y)
          | (fd, Ok _) =>
              match h_pwrite (on_mod F (S n)) (f_meta s) (mpos a + hmac_len) m with
              | (fm, Err y) => ((mkFull fd fm (f_dirty s) k, S (S n)), Err y)
              | (fm, Ok _) => ((mkFull fd fm true k, S (S n)), Ok tt)
              end
          end
      end.

  (** [adjust_logical_size], streams.cpp 475-480, and [HMACStream::resize], 151-155. *)
  Definition hfull_adjust (m : nat) (x : hfull) : hfull * res unit :=
    let '(s, n) := x in
    match h_trunc (on_mod F n) (f_data s) m with
    | (fd, Err y) => ((mkFull fd (f_meta s) (f_dirty s) (f_rng s), S n), Err y)
    | (fd, Ok _) =>
        match h_trunc (on_mod F (S n)) (f_meta s) (mpos ((m + bs - 1) / bs) + hmac_len) with
        | (fm, Err y) => ((mkFull fd fm (f_dirty s) (f_rng s), S (S n)), Err y)
        | (fm, Ok _) => ((mkFull fd fm true (f_rng s), S (S n)), Ok tt)
        end
    end.

  (** The virtual methods at sources/streams.cpp 370-490 over the failing host.
      *)
  Definition hfull_backend : backend :=
    mkBackend hfull bs full_max_blocks_N sparse (fun x => full_size (fst x)) hfull_read hfull_write hfull_adjust.

  (** sources/streams.cpp 177-298 over the failing host. *)
  Definition hfull_step (s : full_st) (o : sop) : full_st * sout :=
    let '(x, r) := bb_step hfull_backend (s, 0) o in (fst x, r).

  (** [run_mac], streams.cpp 62-75: it goes on until a read returns nothing. *)
  Fixpoint hrun_mac (fuel : nat) (chunk : nat) (raw : bytes) (off : nat) : res bytes :=
    match fuel with
    | O => Err EFuel
    | S f =>
        rbind (h_pread (on_pread F 0 false off) raw off chunk) (fun d =>
        if length d =? 0 then Ok []
        else rmap (app d) (hrun_mac f chunk raw (off + length d)))
    end.

  (** [HMACStream::flush], streams.cpp 118-130. *)
  Definition hfull_flush (s : full_st) : full_st * res unit :=
    if f_dirty s then
      match hrun_mac (S (length (f_meta s))) (N.to_nat 4096) (f_meta s) hmac_len with
      | Err e => (s, Err e)
      | Ok m =>
          match h_pwrite (on_mod F 0) (f_meta s) 0 (hmac mkey (id ++ m)) with
          | (fm, Err e) => (mkFull (f_data s) fm true (f_rng s), Err e)
          | (fm, Ok _) => (mkFull (f_data s) fm false (f_rng s), Ok tt)
          end
      end
    else (s, Ok tt).

  (** The destructor, streams.cpp 106-116, drops what [flush] throws; the files are then
      opened again ([full_open]). *)
  Definition hfull_close (s : full_st) : bytes * bytes :=
    let s1 := fst (hfull_flush s) in (f_data s1, f_meta s1).
End Full.
