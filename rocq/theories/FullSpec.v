(** Vocabulary for the statements about tampered full-format files.  No proofs
    here. *)
From Verif Require Import Base StreamSpec LiteModel FullStreamModel.

Section FullSpec.
  Variable A : aead.
  Variable hmac : bytes -> bytes -> bytes.
  Variable dkey mkey id : bytes.
  Variable bs iv_size header_size : nat.

  (** What the two stored files hold for block [i]: the ciphertext, and the
      nonce-and-tag record (16-byte tag) after the 32-byte MAC and the encrypted
      header. *)
  Definition stored_data (data : bytes) (i : nat) : bytes := arr_read data (i * bs) bs.
  Definition stored_record (meta : bytes) (i : nat) : bytes :=
    arr_read meta (32 + (header_size + iv_size + 16) + i * (iv_size + 16)) (iv_size + 16).

  (** [log]: every (file id, metadata body) for which the owner of the key ever
      computed a MAC, for any file of the repository.  The attacker's metadata
      file [meta'] carries no forged MAC. *)
  Definition mac_not_forged (log : list (bytes * bytes)) (meta' : bytes) : Prop :=
    hmac mkey (id ++ skipn 32 meta') = firstn 32 meta' ->
    exists id2 b2, In (id2, b2) log /\ id2 ++ b2 = id ++ skipn 32 meta'.

  (** The entries of that log which stem from this file: the states of its
      history in which the metadata had been flushed. *)
  Definition flushed (s : full_st) : bool := negb (f_dirty s) && (0 <? length (f_meta s)).
  Definition own_log (snaps : list full_st) : list (bytes * bytes) :=
    map (fun s => (id, skipn 32 (f_meta s))) (filter flushed snaps).

  (** No forged block: if block [i] of the attacker's files is accepted by the
      cipher under this file's id, then that ciphertext, nonce and tag were
      stored together, in some state of the history, for some block [j]. *)
  Definition blocks_not_forged (snaps : list full_st) (data' meta' : bytes) : Prop :=
    forall i iv mac,
      length iv = iv_size -> arr_resize (stored_record meta' i) (iv_size + 16) = iv ++ mac ->
      stored_data data' i <> [] ->
      fst (a_dec A dkey iv id (stored_data data' i) mac) = true ->
      exists s j, In s snaps /\ stored_data (f_data s) j = stored_data data' i /\
                  stored_record (f_meta s) j = iv ++ mac.

  (** Nonces are fresh: the same (non-zero) nonce-and-tag record never stands
      for two different ciphertexts in the history. *)
  Definition fresh_records (snaps : list full_st) : Prop :=
    forall s1 i1 s2 i2, In s1 snaps -> In s2 snaps ->
      stored_record (f_meta s1) i1 = stored_record (f_meta s2) i2 ->
      all_zero (stored_record (f_meta s1) i1) = false ->
      stored_data (f_data s1) i1 = stored_data (f_data s2) i2.
End FullSpec.
