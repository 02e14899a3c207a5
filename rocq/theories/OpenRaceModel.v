(** Lite files that are opened, used and closed by any threads and processes at the same
    time: what an opening does between taking and giving back the lock of the host, in
    steps.  Models sources/lite_format.h 129-142 and 168-185 (class File: construction,
    lock, unlock), lite_stream.cpp 79-135 (the header of a file), lite_format.cpp 886-902
    (vcreate, vopen, vrelease) and 1153-1186 (open).
    Simplified: descriptors and mutexes are numbers of handles; O_TRUNC is left out (see
    HandleModel); the threads are those of ConcModel, in which an opening also takes the
    mutex of its handle, which nobody else has yet. *)
From Verif Require Import Base StreamSpec BlockModel LiteModel HandleModel ConcModel.
Local Open Scope nat_scope.
Local Open Scope list_scope.

(** What threads do: open the file of a handle, use it, close it. *)
(** vopen, vread, vwrite, vftruncate, vfgetattr and vrelease,
    sources/lite_format.cpp 837-944. *)
Inductive fcall := FOpen (h : nat) | FIo (h : nat) (o : sop) | FClose (h : nat).

(** A file: its stored bytes, and the key and padding that every open handle remembers
    (m_encryptor, m_decryptor and m_auxiliary of AESGCMCryptStream). *)
(** sources/lite_stream.h 30-34 for every open File. *)
Definition fstate : Type := bytes * (nat -> option (bytes * bytes)).

Section OpenRace.
Variable A : aead.
Variable bs iv_size : nat.
Variable check sparse : bool.
Variable session_key : bytes -> bytes.
Variable padding_of : bytes -> nat.
Variable rnd : nat -> nat -> bytes.
Variable iv_fuel : nat.
Variable writable : nat -> bool.       (* the handle is opened for writing (and reading), 1164-1169 *)

(** A program on the bytes of the file, as one on the file. *)
(** Helper (no code): a program on part of the state. *)
Fixpoint on_bytes {R} (p : prog bytes R) : prog fstate R :=
  match p with
  | PRet r => PRet r
  | PStep u next => PStep (fun s => (u (fst s), snd s)) (fun s => on_bytes (next (fst s)))
  end.

(** The handle is there: File::File has returned, lite_format.h 137-142. *)
Definition keep_handle (h : nat) (key pad : bytes) : prog fstate sout :=
  PStep (fun s => (fst s, upd (snd s) h (Some (key, pad)))) (fun _ => PRet ODone).

(** Opening, lite_stream.cpp 79-135, one step per access to the stored file.  Writing
    through a descriptor that was opened for reading fails with EBADF. *)
Definition open_steps (h k : nat) : prog fstate sout :=
  if (iv_size <? 12) || (32 <? iv_size) then PRet (OFail EInval)
  else if bs <? 32 then PRet (OFail EInval)
  else
    PStep (fun s => s) (fun s0 =>                       (* m_stream->read(id), 98 *)
      let id0 := arr_read (fst s0) 0 lite_id_size in
      if length id0 =? 0 then
        if writable h then
          let id := rnd k lite_id_size in
          PStep (fun s => (arr_write (fst s) 0 id, snd s)) (fun _ =>      (* m_stream->write(id), 103 *)
            let p := padding_of id in
            if p =? 0 then keep_handle h (session_key id) []
            else
              let pad := skipn 4 (rnd (S k) (4 + p)) in
              PStep (fun s => (arr_write (fst s) lite_id_size pad, snd s)) (fun _ =>    (* 109 *)
                keep_handle h (session_key id) pad))
        else PRet (OFail EBADF)
      else if negb (length id0 =? lite_id_size) then PRet (OFail EInval)
      else
        let p := padding_of id0 in
        PStep (fun s => s) (fun s1 =>                   (* 120-122 *)
          let pad := arr_read (fst s1) lite_id_size p in
          if negb (p =? 0) && negb (length pad =? p) then PRet (OFail EInval)
          else keep_handle h (session_key id0) pad)).

(** All calls in steps.  A handle that is not open has no object; using it is undefined. *)
(** sources/lite_format.cpp 895-944 and 1153-1186, in steps. *)
Definition call_steps (h0 : nat) (c : fcall) (k : nat) : prog fstate sout :=
  match c with
  | FOpen h => open_steps h k
  | FIo h o =>
    PStep (fun s => s) (fun s =>
      match snd s h with
      | None => PRet (OFail EUndef)
      | Some (key, pad) => on_bytes (lite_body A bs iv_size check sparse rnd iv_fuel key pad o k)
      end)
  | FClose h => PStep (fun s => (fst s, upd (snd s) h None)) (fun _ => PRet ODone)    (* vrelease *)
  end.

(** The same without interference, over the models of C01 and C53. *)
Definition call_alone (c : fcall) (k : nat) (s : fstate) : fstate * sout :=
  match c with
  | FOpen h =>
    match lite_open bs iv_size session_key padding_of rnd (fst s) k with
    | Err e => (s, OFail e)
    | Ok l =>
      if (length (fst s) =? 0) && negb (writable h) then (s, OFail EBADF)
      else ((l_file l, upd (snd s) h (Some (l_key l, l_pad l))), ODone)
    end
  | FIo h o =>
    match snd s h with
    | None => (s, OFail EUndef)
    | Some (key, pad) =>
      let '(l, r) := bb_step (lite_backend A bs iv_size check sparse rnd iv_fuel) (mkLite (fst s) key pad k) o in
      ((l_file l, snd s), r)
    end
  | FClose h => ((fst s, upd (snd s) h None), ODone)
  end.
End OpenRace.
