(** Synthetic-IV encryption and key derivation of sources/crypto.cpp. *)
From Verif Require Import Base.

(** [CryptoPP::xorbuf]: byte-wise exclusive or of two buffers of equal length. *)
(** Called at sources/crypto.cpp 59, 84, 90 and 103. *)
Fixpoint xor_bytes (a b : bytes) : bytes :=
  match a, b with
  | x :: a', y :: b' => n2b (N.lxor (b2n x) (b2n y)) :: xor_bytes a' b'
  | _, _ => []
  end.

(** ** AES-SIV *)

(** [AES_SIV::IV_SIZE], crypto.h 33. *)
Definition siv_len : nat := 16.

(** [aes256_bitshift_left], crypto.cpp 42-52. *)
Fixpoint bitshift_left (buf : bytes) : bytes :=
  match buf with
  | [] => []
  | b :: rest =>
      n2b (N.lor (N.shiftl (b2n b) 1)
             (match rest with
              | [] => 0%N
              | c :: _ => N.land (N.shiftr (b2n c) 7) 1
              end)) :: bitshift_left rest
  end.

(** [aes256_cmac_Rb], crypto.cpp 36-37. *)
Definition cmac_Rb : bytes := zeros 15 ++ [n2b 135].

(** [aes256_siv_dbl], crypto.cpp 54-60. *)
Definition siv_dbl (block : bytes) : bytes :=
  let need_xor := (N.shiftr (b2n (nth 0 block x00)) 7 =? 1)%N in
  let shifted := bitshift_left block in
  if need_xor then xor_bytes shifted cmac_Rb else shifted.

Section SIV.
(** The two keyed primitives of Crypto++: CMAC-AES with the first half of the
    key, and the AES-CTR key stream with the second half. *)
Variable cmac : bytes -> bytes.
Variable keystream : bytes -> nat -> bytes.

(** [AES_SIV::s2v], crypto.cpp 70-106. *)
Definition s2v (plaintext ad : bytes) : bytes :=
  let D := cmac (zeros 16) in
  let D := if (0 <? length ad) then xor_bytes (siv_dbl D) (cmac ad) else D in
  if siv_len <=? length plaintext then
    let n := length plaintext - siv_len in
    (* xorbuf of the last sixteen bytes of T *)
    cmac (firstn n plaintext ++ xor_bytes (skipn n plaintext) D)
  else
    let padded := plaintext ++ [n2b 128] ++ zeros (siv_len - (length plaintext + 1)) in
    cmac (xor_bytes (siv_dbl D) padded).

(** [modded_iv[8] &= 0x7f; modded_iv[12] &= 0x7f], crypto.cpp 117-121, 136-140. *)
Fixpoint and7f_at (l : bytes) (i : nat) : bytes :=
  match l, i with
  | [], _ => []
  | x :: l', 0 => n2b (N.land (b2n x) 127) :: l'
  | x :: l', S i' => x :: and7f_at l' i'
  end.
Definition mod_iv (iv : bytes) : bytes := and7f_at (and7f_at iv 8) 12.

(** [m_ctr.Resynchronize; m_ctr.ProcessData]: xor with the key stream. *)
(** sources/crypto.cpp 123-125 and 141-143. *)
Definition ctr (iv data : bytes) : bytes := xor_bytes data (keystream iv (length data)).

(** [AES_SIV::encrypt_and_authenticate], crypto.cpp 108-126: (siv, ciphertext). *)
Definition siv_encrypt (plaintext ad : bytes) : bytes * bytes :=
  let siv := s2v plaintext ad in (siv, ctr (mod_iv siv) plaintext).

(** [AES_SIV::decrypt_and_verify], crypto.cpp 128-147: (verified, plaintext). *)
Definition siv_decrypt (siv ciphertext ad : bytes) : bool * bytes :=
  let plaintext := ctr (mod_iv siv) ciphertext in
  (bytes_eqb siv (s2v plaintext ad), plaintext).
End SIV.

(** ** HKDF *)

Section HKDF.
(** HMAC-SHA-256: key, message. *)
Variable hmac : bytes -> bytes -> bytes.

(** hmac_type::DIGESTSIZE, sources/crypto.cpp 204 and 216 (HMAC-SHA-256). *)
Definition digest_size : nat := 32.

(** The loop of [hkdf_expand], crypto.cpp 207-220.  [out] holds the bytes
    produced so far ([i + j] of them), of which the last [j] are the previous
    block; [calculator.TruncatedFinal] keeps a prefix of the digest. *)
Fixpoint hkdf_loop (fuel : nat) (prk info : bytes) (out_len i j : nat) (counter : byte) (out : bytes) : res bytes :=
  if i + j <? out_len then
    match fuel with
    | 0 => Err EFuel
    | S fuel' =>
        let digest := hmac prk (arr_read out i j ++ info ++ [counter]) in
        let small_len := Nat.min (out_len - i - j) digest_size in
        hkdf_loop fuel' prk info out_len (i + j) small_len (n2b (b2n counter + 1)) (out ++ firstn small_len digest)
    end
  else Ok out.

(** [hkdf_expand], crypto.cpp 196-221. *)
Definition hkdf_expand (prk info : bytes) (out_len : nat) : res bytes :=
  if 255 * digest_size <? out_len then Err EInval
  else hkdf_loop (S out_len) prk info out_len 0 0 (n2b 1) [].

(** [hkdf], crypto.cpp 223-243. *)
Definition hkdf (key salt info : bytes) (out_len : nat) : res bytes :=
  if 0 <? length salt then hkdf_expand (hmac salt key) info out_len
  else hkdf_expand key info out_len.

(** Keys of a full-format file, files.cpp 136-148 and 167-180: data key,
    metadata key, extended-attribute key, and the padding key when padding is on. *)
Definition file_keys (master id : bytes) (padded : bool) : res (bytes * bytes * bytes * option bytes) :=
  rbind (hkdf master [] id (if padded then 128 else 96)) (fun k =>
  Ok (arr_read k 0 32, arr_read k 32 32, arr_read k 64 32,
      if padded then Some (arr_read k 96 32) else None)).
End HKDF.
