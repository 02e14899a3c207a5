(** Model of the full-format encrypted stream and its authenticated metadata,
    sources/streams.cpp 48-157 ([HMACStream]) and 302-568
    ([internal::AESGCMCryptStream]). *)
From Verif Require Import Base StreamSpec BlockModel CodecModel LiteModel.

(** ** [HMACStream] over a stored file *)

(** [hmac_length], streams.cpp 56. *)
Definition hmac_len : nat := 32.

(** [run_mac], streams.cpp 62-75: the authenticated message is the id followed
    by everything after the first 32 bytes, read in chunks of 4096 bytes. *)
Fixpoint run_mac_loop (fuel : nat) (chunk : nat) (raw : bytes) (off : nat) : res bytes :=
  match fuel with
  | O => Err EFuel
  | S f =>
      let d := arr_read raw off chunk in
      if length d =? 0 then Ok []
      else rmap (app d) (run_mac_loop f chunk raw (off + length d))
  end.

(** sources/streams.cpp 64-77 (run_mac): the id, then the stream from
    hmac_length on in pieces of 4096 bytes. *)
Definition mac_message (id raw : bytes) : res bytes :=
  rmap (app id) (run_mac_loop (S (length raw)) (N.to_nat 4096) raw hmac_len).

Section Hmac.
  Variable hmac : bytes -> bytes -> bytes.   (* HMAC-SHA-256: key, message *)
  Variable mkey id : bytes.

  (** Constructor check, streams.cpp 78-104. *)
  Definition hmac_open (check : bool) (raw : bytes) : res unit :=
    if check then
      let h := arr_read raw 0 hmac_len in
      if length h =? 0 then Ok tt
      else if negb (length h =? hmac_len) then Err EVerify
      else
        rbind (mac_message id raw) (fun m =>
          if bytes_eqb (hmac mkey m) h then Ok tt else Err EVerify)
    else Ok tt.

  (** [flush], streams.cpp 118-130. *)
  Definition hmac_flush (raw : bytes) (dirty : bool) : bytes * bool * res unit :=
    if dirty then
      match mac_message id raw with
      | Ok m => (arr_write raw 0 (hmac mkey m), false, Ok tt)
      | Err e => (raw, dirty, Err e)
      end
    else (raw, dirty, Ok tt).

  (** [size], streams.cpp 132-138. *)
  Definition hmac_size (raw : bytes) : nat :=
    if length raw <? hmac_len then 0 else length raw - hmac_len.

  (** [read], [write], [resize], streams.cpp 140-155. *)
  Definition hmac_read (raw : bytes) (off len : nat) : bytes := arr_read raw (off + hmac_len) len.
  Definition hmac_write (raw : bytes) (off : nat) (d : bytes) : bytes := arr_write raw (off + hmac_len) d.
  Definition hmac_resize (raw : bytes) (n : nat) : bytes := arr_resize raw (n + hmac_len).
End Hmac.

(** ** [AESGCMCryptStream] *)

(** [max_block_number], streams.cpp 318. *)
Definition full_max_blocks_N : N := (2 ^ 30)%N.

Section Full.
  Variable A : aead.
  Variable hmac : bytes -> bytes -> bytes.
  Variable dkey mkey id : bytes.          (* data key, metadata key, file id *)
  Variable bs iv_size header_size : nat.
  Variable check sparse : bool.
  Variable rnd : nat -> nat -> bytes.
  Variable iv_fuel : nat.

  Definition meta_size : nat := iv_size + mac_size.                      (* 308 *)
  Definition enc_header_size : nat := header_size + iv_size + mac_size.  (* 312-315 *)
  Definition meta_pos (block : nat) : nat := enc_header_size + meta_size * block. (* 330-333 *)

  (** sources/streams.cpp 321-327 and 50-54: the members that change. *)
  Record full_st := mkFull {
    f_data : bytes;     (* the data file *)
    f_meta : bytes;     (* the metadata file, HMAC field included *)
    f_dirty : bool;     (* HMACStream::is_dirty *)
    f_rng : nat
  }.

  (** Loop of [write_multi_blocks], streams.cpp 381-407: ciphertexts and
      (IV, MAC) records of the blocks of [input]. *)
  Fixpoint full_write_loop (fuel : nat) (input : bytes) (k : nat) : res (bytes * bytes * nat) :=
    match fuel with
    | O => match input with [] => Ok ([], [], k) | _ => Err EFuel end
    | S f =>
        match input with
        | [] => Ok ([], [], k)
        | _ =>
            rbind (next_iv iv_size rnd iv_fuel k) (fun '(iv, k1) =>
            let this := firstn bs input in
            let '(ct, mac) := a_enc A dkey iv id this in
            rbind (full_write_loop f (skipn bs input) k1) (fun '(d, m, k2) =>
            Ok (ct ++ d, (iv ++ mac) ++ m, k2)))
        end
    end.

  (** [write_multi_blocks], streams.cpp 367-413: data file first, then metadata. *)
  Definition full_write_multi (a e r : nat) (input : bytes) (s : full_st) : full_st * res unit :=
    if over_max full_max_blocks_N e then (s, Err ETooLong)
    else
      let n := bs * (e - a) + r in
      match full_write_loop n (firstn n input) (f_rng s) with
      | Err x => (s, Err x)
      | Ok (d, m, k) =>
          (mkFull (arr_write (f_data s) (a * bs) d)
                  (hmac_write (f_meta s) (meta_pos a) m) true k, Ok tt)
      end.

  (** One block in the loop of [read_multi_blocks], streams.cpp 441-471. *)
  Definition full_decode_block (d m : bytes) : res bytes :=
    if all_zero m && all_zero d then Ok (zeros (length d))
    else
      let '(success, out) := a_dec A dkey (firstn iv_size m) id d (skipn iv_size m) in
      if negb success && check then Err EVerify else Ok out.

  (** sources/streams.cpp 440-467. *)
  Fixpoint full_read_loop (fuel : nat) (data meta : bytes) : res bytes :=
    match fuel with
    | O => match data with [] => Ok [] | _ => Err EFuel end
    | S f =>
        match data with
        | [] => Ok []
        | _ =>
            rbind (full_decode_block (firstn bs data) (firstn meta_size meta)) (fun out =>
            rbind (full_read_loop f (skipn bs data) (skipn meta_size meta)) (fun rest =>
            Ok (out ++ rest)))
        end
    end.

  (** [read_multi_blocks], streams.cpp 415-473; the buffer of metadata is zero
      beyond what was read. *)
  Definition full_read_multi (a b : nat) (s : full_st) : res bytes :=
    if a =? b then Ok []
    else if over_max full_max_blocks_N b then Err ETooLong
    else
      let data := arr_read (f_data s) (a * bs) ((b - a) * bs) in
      let meta := hmac_read (f_meta s) (meta_pos a) ((b - a) * meta_size) in
      if length data <=? 0 then Ok []
      else if negb (length meta mod meta_size =? 0) then Err EVerify
      else full_read_loop (length data) data (arr_resize meta ((b - a) * meta_size)).

  (** [adjust_logical_size], streams.cpp 475-480. *)
  Definition full_adjust (n : nat) (s : full_st) : full_st * res unit :=
    (mkFull (arr_resize (f_data s) n)
            (hmac_resize (f_meta s) (meta_pos ((n + bs - 1) / bs))) true (f_rng s), Ok tt).

  (** [size], streams.cpp 494. *)
  Definition full_size (s : full_st) : nat := length (f_data s).

  (** sources/streams.cpp 369-490: the virtual methods. *)
  Definition full_backend : backend :=
    mkBackend full_st bs full_max_blocks_N sparse full_size full_read_multi full_write_multi full_adjust.

  (** [unchecked_read_header] / [read_header], streams.cpp 497-519, 538-549.
      [None]: no header present.  The verification result of the header is
      ignored by the code. *)
  Definition full_read_header (len : nat) (s : full_st) : res (option bytes) :=
    if header_size <? len then Err EInval
    else
      let buf := hmac_read (f_meta s) 0 enc_header_size in
      if length buf =? 0 then Ok None
      else if negb (length buf =? enc_header_size) then Err ECorrupt
      else
        let '(_, out) := a_dec A dkey (firstn iv_size buf) id
                           (skipn (iv_size + mac_size) buf) (arr_read buf iv_size mac_size) in
        Ok (Some (firstn len out)).

  (** [unchecked_write_header] / [write_header], streams.cpp 521-535, 553-565. *)
  Definition full_write_header (h : bytes) (s : full_st) : full_st * res unit :=
    if header_size <? length h then (s, Err EInval)
    else
      let p := h ++ zeros (header_size - length h) in
      let iv := rnd (f_rng s) iv_size in
      let '(ct, mac) := a_enc A dkey iv id p in
      (mkFull (f_data s) (hmac_write (f_meta s) 0 (iv ++ mac ++ ct)) true (S (f_rng s)), Ok tt).

  (** [flush], streams.cpp 488-492. *)
  Definition full_flush (s : full_st) : full_st * res unit :=
    let '(raw, d, r) := hmac_flush hmac mkey id (f_meta s) (f_dirty s) in
    (mkFull (f_data s) raw d (f_rng s), r).

  (** Constructor, streams.cpp 344-365. *)
  Definition full_open (data meta : bytes) (k : nat) : res full_st :=
    rmap (fun _ => mkFull data meta false k) (hmac_open hmac mkey id check meta).

  (** Operations on an open full-format file; [FReopen] destroys the object
      (the destructor flushes the metadata, streams.cpp 106-116) and constructs a
      new one from the stored files. *)
  Definition full_step (s : full_st) (o : fop) : full_st * fout :=
    match o with
    | FOp o' => let '(s', r) := bb_step full_backend s o' in (s', FOut r)
    | FWriteHeader h =>
        let '(s', r) := full_write_header h s in (s', FOut (res_out r))
    | FReadHeader len =>
        (s, match full_read_header len s with Ok h => FHeader h | Err e => FOut (OFail e) end)
    | FFlush => let '(s', r) := full_flush s in (s', FOut (res_out r))
    | FReopen =>
        let s1 := fst (full_flush s) in
        match full_open (f_data s1) (f_meta s1) (f_rng s1) with
        | Ok s' => (s', FReopened)
        | Err e => (s1, FOut (OFail e))
        end
    end.
End Full.
