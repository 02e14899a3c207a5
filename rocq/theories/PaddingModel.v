(** Model of the padding length computation. *)
From Verif Require Import Base.

(** Value of a big-endian byte string ([CryptoPP::Integer] constructor with
    BIG_ENDIAN_ORDER, UNSIGNED). *)
(** sources/files.cpp 174-177. *)
Definition be_val (l : bytes) : N :=
  fold_left (fun acc b => (acc * 256 + b2n b)%N) l 0%N.

(** Common tail of [default_compute_padding] (lite_stream.cpp 278-294) and of
    the [FileBase] constructor (files.cpp 171-180): [t] is the pseudo-random
    string, [max] an [unsigned].  [max_padding + 1] wraps around in 32 bits, and
    [Integer::Modulo(0)] throws. *)
Definition padding_from (max : N) (t : bytes) : res N :=
  if (max =? 0)%N then Ok 0%N
  else
    let m := ((max + 1) mod 2 ^ 32)%N in
    if (m =? 0)%N then Err ERange else Ok (be_val t mod m)%N.

(** [default_compute_padding], lite_stream.cpp 278-294; [ecb] is AES in ECB mode
    under the padding key, applied to the 16-byte id. *)
Definition default_compute_padding (max : N) (ecb : bytes -> bytes) (id : bytes) : res N :=
  padding_from max (ecb id).

(** files.cpp 137-148, 171-180: the fourth 32-byte key derived from the file's id. *)
Definition full_compute_padding (max : N) (kdf : bytes -> nat -> bytes) (id : bytes) : res N :=
  if (max =? 0)%N then Ok 0%N
  else padding_from max (arr_read (kdf id (4 * 32)) (3 * 32) 32).
