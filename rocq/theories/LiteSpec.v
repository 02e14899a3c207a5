(** Vocabulary for the statements about lite files: what an attacker may do and
    what "not forged" means.  No proofs here. *)
From Verif Require Import Base StreamSpec BlockModel LiteModel.

Section LiteSpec.
  Variable A : aead.
  Variable bs iv_size : nat.

  (** The bytes stored for block [j] of a lite file. *)
  Definition stored_block (s : lite_st) (j : nat) : bytes :=
    arr_read (l_file s) (l_header s + j * (bs + iv_size + 16)) (bs + iv_size + 16).

  (** The attacker, who has seen the stored files [snaps], put no forgery into
      [file']: if some piece of [file'] is accepted by the cipher under the
      file's key as (IV, ciphertext, tag) with associated data [aad], then it is
      a block which stands in one of the snapshots at a position whose
      associated data is [aad]. *)
  Definition lite_no_forgery (key pad : bytes) (snaps : list lite_st) (file' : bytes) : Prop :=
    forall iv aad ct mac o,
      length iv = iv_size -> length mac = 16 -> ct <> [] ->
      arr_read file' o (length (iv ++ ct ++ mac)) = iv ++ ct ++ mac ->
      fst (a_dec A key iv aad ct mac) = true ->
      exists s j, In s snaps /\ aad = lite_aad pad j /\ stored_block s j = iv ++ ct ++ mac.
End LiteSpec.

(** The states a run goes through, including the first and the last. *)
Definition snapshots {S O R} (step : S -> O -> S * R) (s : S) (ops : list O) : list S :=
  map (fun k => fst (run_ops step s (firstn k ops))) (seq 0 (Datatypes.S (length ops))).
