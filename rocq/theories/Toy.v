(** Concrete instances used only to show that hypotheses are satisfiable. *)
From Verif Require Import Base BaseLemmas LiteModel LiteProofs.

(** A toy authenticated cipher: identity "encryption"; the tag is all [xaa] for
    one chosen (iv, aad, ciphertext) and all [xbb] for any other. *)
Definition toy_tag (sp : bytes * bytes * bytes) (iv aad ct : bytes) : bytes :=
  let '(iv0, aad0, ct0) := sp in
  if bytes_eqb iv iv0 && bytes_eqb aad aad0 && bytes_eqb ct ct0 then repeat xaa 16 else repeat xbb 16.

Definition toy_aead (sp : bytes * bytes * bytes) : aead :=
  mkAead (fun _ iv aad p => (p, toy_tag sp iv aad p))
         (fun _ iv aad ct mac => (bytes_eqb mac (toy_tag sp iv aad ct), ct)).

Lemma toy_aead_ok sp : aead_ok (toy_aead sp).
Proof.
  destruct sp as [[iv0 aad0] ct0].
  constructor; intros; cbn [toy_aead a_enc a_dec fst snd]; try reflexivity.
  - unfold toy_tag. destruct (_ && _); reflexivity.
  - rewrite bytes_eqb_refl. reflexivity.
Qed.

Definition toy_rnd (k n : nat) : bytes := repeat (n2b (N.of_nat k + 1)) n.

(** An all-zero draw happens every 256 draws, never twice in a row. *)
Lemma toy_env_ok sp : lite_env_ok (toy_aead sp) 32 12 toy_rnd 2.
Proof.
  constructor; try lia.
  - apply toy_aead_ok.
  - intros k n. apply repeat_length.
  - intros k. unfold toy_rnd.
    assert (Hz : forall m, all_zero (repeat (n2b m) 12) = Byte.eqb x00 (n2b m)).
    { intros m. cbn [repeat all_zero forallb]. destruct (Byte.eqb x00 (n2b m)); reflexivity. }
    assert (H0 : forall m, Byte.eqb x00 (n2b m) = true -> (m mod 256 = 0)%N).
    { intros m H. apply byte_eqb_eq in H. rewrite <- b2n_n2b, <- H. reflexivity. }
    destruct (all_zero (repeat (n2b (N.of_nat (k + 0) + 1)) 12)) eqn:E0; [|exists 0; split; [lia|exact E0]].
    exists 1. split; [lia|]. rewrite Hz in *. apply H0 in E0.
    destruct (Byte.eqb x00 (n2b (N.of_nat (k + 1) + 1))) eqn:E1; [|reflexivity].
    apply H0 in E1. exfalso. replace (N.of_nat (k + 1) + 1)%N with (N.of_nat (k + 0) + 1 + 1)%N in E1 by lia.
    rewrite N.add_mod, E0 in E1 by lia. discriminate E1.
Qed.
