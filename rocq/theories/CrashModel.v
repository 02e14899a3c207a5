(** The physical file operations behind a stream operation, one by one and in order, for both
    formats. *)
From Verif Require Import Base StreamSpec BlockModel CodecModel LiteModel FullStreamModel.

(** ** Physical operations *)
(** [UnixFileStream::write] (pwrite) and [UnixFileStream::resize] (ftruncate), sources/unix.cpp. *)
Inductive phys := PWrite (off : nat) (d : bytes) | PResize (n : nat).
Definition perform (f : bytes) (p : phys) : bytes :=
  match p with PWrite off d => arr_write f off d | PResize n => arr_resize f n end.
Definition replay (f : bytes) (l : list phys) : bytes := fold_left perform l f.

(** A backend that also writes down what its virtual methods do to the stored files. *)
Section Traced.
  Context {P : Type}.
  Variable B : backend.
  Variable on_write : nat -> nat -> nat -> bytes -> bk_state B -> list P.
  Variable on_adjust : nat -> bk_state B -> list P.
  (** Helper: a stream over a host that notes its calls (sources/unix.cpp
      122-129, 142-147). *)
  Definition traced : backend :=
    mkBackend (bk_state B * list P) (bk_bs B) (bk_max B) (bk_sparse B)
      (fun x => bk_size B (fst x))
      (fun a b x => bk_read B a b (fst x))
      (fun a e r d x => let '(s', o) := bk_write B a e r d (fst x) in ((s', snd x ++ on_write a e r d (fst x)), o))
      (fun n x => let '(s', o) := bk_adjust B n (fst x) in ((s', snd x ++ on_adjust n (fst x)), o)).
  (** What the stream operation [o] does in state [s] to the stored files. *)
  (** Helper: the notes of one call. *)
  Definition trace (s : bk_state B) (o : sop) : list P := snd (fst (bb_step traced (s, []) o)).
End Traced.

(** ** Lite format *)
Section Lite.
  Variable A : aead.
  Variable bs iv_size : nat.
  Variable check sparse : bool.
  Variable rnd : nat -> nat -> bytes.
  Variable iv_fuel : nat.

  (** lite_stream.cpp 244: one write for all blocks. *)
  Definition lite_on_write (a e r : nat) (input : bytes) (s : lite_st) : list phys :=
    if over_max lite_max_blocks_N e then []
    else
      let total := (e - a) * ubs bs iv_size + (if r <=? 0 then 0 else r + iv_size + mac_size) in
      match lite_write_loop A bs iv_size rnd iv_fuel total (l_key s) (l_pad s) a total input (l_rng s) with
      | Err _ => []
      | Ok (buf, _) => [PWrite (a * ubs bs iv_size + l_header s) buf]
      end.
  (** lite_stream.cpp 256-262. *)
  Definition lite_on_adjust (n : nat) (s : lite_st) : list phys :=
    [PResize (l_header s + n / bs * ubs bs iv_size + (if 0 <? n mod bs then n mod bs + iv_size + mac_size else 0))].
  Definition lite_trace : lite_st -> sop -> list phys :=
    trace (lite_backend A bs iv_size check sparse rnd iv_fuel) lite_on_write lite_on_adjust.
End Lite.

(** ** Full format *)
(** Two files: the ciphertexts and the metadata. *)
(** The members m_stream and m_metastream, sources/streams.cpp 323-324. *)
Inductive part := PData (p : phys) | PMeta (p : phys).
(** Helper: the calls on m_stream. *)
Definition data_part (l : list part) : list phys := flat_map (fun x => match x with PData p => [p] | PMeta _ => [] end) l.
(** Helper: the calls on the stream under m_metastream. *)
Definition meta_part (l : list part) : list phys := flat_map (fun x => match x with PData _ => [] | PMeta p => [p] end) l.

Section Full.
  Variable A : aead.
  Variable hmac : bytes -> bytes -> bytes.
  Variable dkey mkey id : bytes.
  Variable bs iv_size header_size : nat.
  Variable check sparse : bool.
  Variable rnd : nat -> nat -> bytes.
  Variable iv_fuel : nat.

  (** streams.cpp 409-412: the ciphertexts, then their nonces and tags. *)
  Definition full_on_write (a e r : nat) (input : bytes) (s : full_st) : list part :=
    if over_max full_max_blocks_N e then []
    else
      let n := bs * (e - a) + r in
      match full_write_loop A dkey id bs iv_size rnd iv_fuel n (firstn n input) (f_rng s) with
      | Err _ => []
      | Ok (d, m, _) => [PData (PWrite (a * bs) d); PMeta (PWrite (meta_pos iv_size header_size a + hmac_len) m)]
      end.
  (** streams.cpp 475-480. *)
  Definition full_on_adjust (n : nat) (s : full_st) : list part :=
    [PData (PResize n); PMeta (PResize (meta_pos iv_size header_size ((n + bs - 1) / bs) + hmac_len))].

  (** The operations of an open file; [FReopen] and [FFlush] write the MAC if the metadata has
      changed (streams.cpp 118-130). *)
  Definition full_trace (s : full_st) (o : fop) : list part :=
    match o with
    | FOp o' => trace (full_backend A dkey id bs iv_size header_size check sparse rnd iv_fuel) full_on_write full_on_adjust s o'
    | FWriteHeader h =>
        if header_size <? length h then []
        else
          let '(ct, mac) := a_enc A dkey (rnd (f_rng s) iv_size) id (h ++ zeros (header_size - length h)) in
          [PMeta (PWrite (0 + hmac_len) (rnd (f_rng s) iv_size ++ mac ++ ct))]
    | FReadHeader _ => []
    | FFlush | FReopen =>
        if f_dirty s then match mac_message id (f_meta s) with Ok m => [PMeta (PWrite 0 (hmac mkey m))] | Err _ => [] end else []
    end.
End Full.
