(** Model of the lite-format encrypted stream,
    sources/lite_stream.{h,cpp} ([securefs::lite::AESGCMCryptStream]). *)
From Verif Require Import Base StreamSpec BlockModel CodecModel.

(** An authenticated cipher with detached MAC (Crypto++
    [GCM<AES>::EncryptAndAuthenticate] / [DecryptAndVerify]).
    [a_dec key iv aad ct mac] gives the verification result and the bytes left
    in the output buffer. *)
(** CryptoPP::GCM<AES> as used at sources/lite_stream.cpp 183-195 and 225-240:
    external, an argument of the model. *)
Record aead := mkAead {
  a_enc : bytes -> bytes -> bytes -> bytes -> bytes * bytes;
  a_dec : bytes -> bytes -> bytes -> bytes -> bytes -> bool * bytes
}.

(** What correctness needs to know about the cipher. *)
(** Environment: the assumption about CryptoPP::GCM<AES>. *)
Record aead_ok (A : aead) : Prop := {
  aead_ct_len : forall k iv aad p, length (fst (a_enc A k iv aad p)) = length p;
  aead_mac_len : forall k iv aad p, length (snd (a_enc A k iv aad p)) = 16;
  aead_dec_len : forall k iv aad c m, length (snd (a_dec A k iv aad c m)) = length c;
  aead_dec_enc : forall k iv aad p,
    a_dec A k iv aad (fst (a_enc A k iv aad p)) (snd (a_enc A k iv aad p)) = (true, p)
}.

(** [get_mac_size], lite_stream.h 42; [get_id_size], lite_stream.h 44. *)
Definition mac_size : nat := 16.
Definition lite_id_size : nat := 16.

(** [MAX_BLOCKS], lite_stream.cpp 20. *)
Definition lite_max_blocks_N : N := (2 ^ 31 - 1)%N.
Definition lite_max_blocks : nat := N.to_nat lite_max_blocks_N.

(** [AESGCMCryptStream::calculate_real_size], lite_stream.cpp 264-277. *)
Definition calculate_real_size (underlying block_size iv_size : nat) : nat :=
  let ubs := block_size + iv_size + mac_size in
  if underlying <=? lite_id_size then 0
  else
    let u := underlying - lite_id_size in
    let num := u / ubs in
    let residue := u mod ubs in
    num * block_size +
      (if iv_size + mac_size <? residue then residue - iv_size - mac_size else 0).

Section Lite.
  (** Everything a mounted repository fixes. *)
  Variable A : aead.
  Variable bs iv_size : nat.              (* block size, IV size *)
  Variable check : bool.                  (* verification enabled *)
  Variable sparse : bool.                 (* is_sparse() of the stored file *)
  Variable session_key : bytes -> bytes.  (* calc.compute_session_key(id) *)
  Variable padding_of : bytes -> nat.     (* calc.compute_padding(id) *)
  (** [generate_random]: the k-th call, asked for n bytes. *)
  Variable rnd : nat -> nat -> bytes.
  Variable iv_fuel : nat.

  (** sources/lite_stream.h 48-51. *)
  Definition ubs : nat := bs + iv_size + mac_size. (* get_underlying_block_size *)

  (** The object: stored file, key schedule, bytes of [m_auxiliary] after the
      first four (the padding), and the position in the random source. *)
  (** sources/lite_stream.h 30-34. *)
  Record lite_st := mkLite {
    l_file : bytes;
    l_key : bytes;
    l_pad : bytes;
    l_rng : nat
  }.

  (** sources/lite_stream.h 46. *)
  Definition l_header (s : lite_st) : nat := lite_id_size + length (l_pad s).

  (** Associated data of a block, lite_stream.cpp 181-183, 224-225: 32-bit block
      number followed by the padding. *)
  Definition lite_aad (pad : bytes) (block : nat) : bytes :=
    to_le 4 (N.of_nat block) ++ pad.

  (** lite_stream.cpp 226-229: draw until the IV is not all zero. *)
  Fixpoint next_iv (fuel : nat) (k : nat) : res (bytes * nat) :=
    match fuel with
    | O => Err EFuel
    | S f =>
        let iv := rnd k iv_size in
        if all_zero iv then next_iv f (S k) else Ok (iv, S k)
    end.

  (** Body of the loop in [read_multi_blocks], lite_stream.cpp 159-196, for one
      underlying block [eb] (longer than IV and MAC). *)
  Definition lite_decode_block (key pad : bytes) (block : nat) (eb : bytes) : res bytes :=
    let vsize := length eb - mac_size - iv_size in
    if all_zero eb then Ok (zeros vsize)
    else
      let '(success, out) :=
        a_dec A key (firstn iv_size eb) (lite_aad pad block)
              (arr_read eb iv_size vsize) (arr_read eb (length eb - mac_size) mac_size) in
      if check && negb success then Err EVerify else Ok out.

  (** The loop of [read_multi_blocks], lite_stream.cpp 157-199. *)
  Fixpoint lite_read_loop (fuel : nat) (key pad : bytes) (block : nat) (buf : bytes) : res bytes :=
    match fuel with
    | O => match buf with [] => Ok [] | _ => Err EFuel end
    | S f =>
        match buf with
        | [] => Ok []
        | _ =>
            let u := min ubs (length buf) in
            if u <=? mac_size + iv_size then Ok []
            else
              rbind (lite_decode_block key pad block (firstn u buf)) (fun out =>
              rbind (lite_read_loop f key pad (S block) (skipn u buf)) (fun rest =>
              Ok (out ++ rest)))
        end
    end.

  (** [read_multi_blocks], lite_stream.cpp 146-200. *)
  Definition lite_read_multi (a b : nat) (s : lite_st) : res bytes :=
    if over_max lite_max_blocks_N b then Err ETooLong
    else
      let buf := arr_read (l_file s) (l_header s + ubs * a) ((b - a) * ubs) in
      lite_read_loop (length buf) (l_key s) (l_pad s) a buf.

  (** One iteration of the loop in [write_multi_blocks], lite_stream.cpp
      219-238: IV, ciphertext, MAC. *)
  Definition lite_encode_block (key pad : bytes) (block : nat) (iv p : bytes) : bytes :=
    let '(ct, mac) := a_enc A key iv (lite_aad pad block) p in
    iv ++ ct ++ mac.

  (** The loop of [write_multi_blocks], lite_stream.cpp 213-242; [remaining] is
      [buffer.size() - i]. *)
  Fixpoint lite_write_loop (fuel : nat) (key pad : bytes) (block : nat)
           (remaining : nat) (input : bytes) (k : nat) : res (bytes * nat) :=
    match fuel with
    | O => if remaining =? 0 then Ok ([], k) else Err EFuel
    | S f =>
        if remaining =? 0 then Ok ([], k)
        else
          let u := min ubs remaining in
          let v := u - mac_size - iv_size in
          rbind (if 0 <? v then
                   rbind (next_iv iv_fuel k) (fun '(iv, k') =>
                     Ok (lite_encode_block key pad block iv (firstn v input), k'))
                 else Ok (zeros u, k))
            (fun '(eb, k') =>
          rbind (lite_write_loop f key pad (S block) (remaining - u) (skipn v input) k')
            (fun '(rest, k'') => Ok (eb ++ rest, k'')))
    end.

  (** [write_multi_blocks], lite_stream.cpp 202-246.
      Simplification: the random source position is not advanced when the loop
      fails (which it cannot, except by fuel). *)
  Definition lite_write_multi (a e r : nat) (input : bytes) (s : lite_st) : lite_st * res unit :=
    if over_max lite_max_blocks_N e then (s, Err ETooLong)
    else
      let total := (e - a) * ubs + (if r <=? 0 then 0 else r + iv_size + mac_size) in
      match lite_write_loop total (l_key s) (l_pad s) a total input (l_rng s) with
      | Err x => (s, Err x)
      | Ok (buf, k) =>
          (mkLite (arr_write (l_file s) (a * ubs + l_header s) buf) (l_key s) (l_pad s) k, Ok tt)
      end.

  (** [size], lite_stream.cpp 248-254. *)
  Definition lite_size (s : lite_st) : nat :=
    if length (l_file s) <=? l_header s then 0
    else calculate_real_size (length (l_file s) - length (l_pad s)) bs iv_size.

  (** [adjust_logical_size], lite_stream.cpp 256-262. *)
  Definition lite_adjust (n : nat) (s : lite_st) : lite_st * res unit :=
    let nb := n / bs in
    let residue := n mod bs in
    (mkLite (arr_resize (l_file s)
               (l_header s + nb * ubs + (if 0 <? residue then residue + iv_size + mac_size else 0)))
            (l_key s) (l_pad s) (l_rng s), Ok tt).

  (** sources/lite_stream.h 63-72 and 91-95: the virtual methods. *)
  Definition lite_backend : backend :=
    mkBackend lite_st bs lite_max_blocks_N sparse lite_size lite_read_multi lite_write_multi
              lite_adjust.

  (** Constructor, lite_stream.cpp 79-138, on a stored file. *)
  Definition lite_open (file : bytes) (k : nat) : res lite_st :=
    if (iv_size <? 12) || (32 <? iv_size) then Err EInval
    else if bs <? 32 then Err EInval
    else
      let id0 := arr_read file 0 lite_id_size in
      if length id0 =? 0 then
        let id := rnd k lite_id_size in
        let f1 := arr_write file 0 id in
        let p := padding_of id in
        if p =? 0 then Ok (mkLite f1 (session_key id) [] (S k))
        else
          let aux := rnd (S k) (4 + p) in
          let pad := skipn 4 aux in
          Ok (mkLite (arr_write f1 lite_id_size pad) (session_key id) pad (S (S k)))
      else if negb (length id0 =? lite_id_size) then Err EInval
      else
        let p := padding_of id0 in
        let pad := arr_read file lite_id_size p in
        if negb (p =? 0) && negb (length pad =? p) then Err EInval
        else Ok (mkLite file (session_key id0) pad k).

  (** A step of a lite file: a stream operation, or closing and reopening it
      (the stored bytes are all that survives; [StreamOpener::open],
      lite_format.h 92-103, constructs a new object). *)
  Definition lite_step (s : lite_st) (o : lop) : lite_st * lout :=
    match o with
    | LOp o' => let '(s', r) := bb_step lite_backend s o' in (s', LOut r)
    | LReopen =>
        match lite_open (l_file s) (l_rng s) with
        | Ok s' => (s', LReopened)
        | Err e => (s, LOut (OFail e))
        end
    end.
End Lite.
