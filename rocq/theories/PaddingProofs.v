From Verif Require Import Base BaseLemmas PaddingModel CodecModel CodecProofs.
Local Open Scope N_scope.

Lemma padding_from_bound max t p : padding_from max t = Ok p -> p <= max.
Proof.
  unfold padding_from. destruct (N.eqb_spec max 0) as [->|Hm].
  - intros H; injection H as <-. lia.
  - destruct (N.eqb_spec ((max + 1) mod 2 ^ 32) 0) as [E|E]; [discriminate|].
    intros H; injection H as <-.
    pose proof (N.mod_lt (be_val t) _ E). pose proof (N.mod_le (max + 1) (2 ^ 32) ltac:(lia)). lia.
Qed.

Lemma padding_from_total max t : max < 2 ^ 32 - 1 -> exists p, padding_from max t = Ok p.
Proof.
  intros H. unfold padding_from. destruct (N.eqb_spec max 0); [eauto|].
  rewrite N.mod_small by lia. destruct (N.eqb_spec (max + 1) 0); [lia|eauto].
Qed.

Lemma be_val_app l m : be_val (l ++ m) = be_val l * 256 ^ N.of_nat (length m) + be_val m.
Proof.
  unfold be_val. rewrite fold_left_app.
  generalize (fold_left (fun acc b => acc * 256 + b2n b) l 0) as a.
  induction m as [|x m IH] using rev_ind; intros a.
  - cbn. lia.
  - rewrite !fold_left_app, app_length. cbn [fold_left length]. rewrite (IH a).
    replace (N.of_nat (length m + 1)) with (N.succ (N.of_nat (length m))) by lia.
    rewrite N.pow_succ_r'. lia.
Qed.

Lemma be_val_surj (w : nat) v : v < 256 ^ N.of_nat w -> exists l, length l = w /\ be_val l = v.
Proof.
  revert v. induction w as [|w IH]; intros v Hv.
  - exists []. split; [reflexivity|]. cbn in *. lia.
  - replace (N.of_nat (S w)) with (N.succ (N.of_nat w)) in Hv by lia. rewrite N.pow_succ_r' in Hv.
    destruct (IH (v / 256)) as (l & Hl & Hval).
    { apply N.div_lt_upper_bound; lia. }
    exists (l ++ [n2b v]). split; [rewrite app_length; cbn; lia|].
    rewrite be_val_app, Hval. cbn [length]. change (256 ^ N.of_nat 1) with 256.
    unfold be_val. cbn [fold_left]. rewrite b2n_n2b. pose proof (N.div_mod v 256 ltac:(lia)). lia.
Qed.

(** Every value up to the maximum is attained, provided the keyed transformation
    is onto the 16-byte strings (a block cipher is a permutation). *)
Lemma padding_attainable max ecb v :
  max < 2 ^ 32 - 1 -> v <= max ->
  (forall t, length t = 16%nat -> exists id, length id = 16%nat /\ ecb id = t) ->
  exists id, length id = 16%nat /\ default_compute_padding max ecb id = Ok v.
Proof.
  intros Hm Hv Hs.
  destruct (be_val_surj 16 v) as (t & Ht & Hval).
  { change (256 ^ N.of_nat 16) with (2 ^ 128). assert (2 ^ 32 - 1 < 2 ^ 128) by reflexivity. lia. }
  destruct (Hs t Ht) as (id & Hid & He). exists id. split; [exact Hid|].
  unfold default_compute_padding, padding_from. rewrite He, Hval.
  destruct (N.eqb_spec max 0) as [->|Hne]; [f_equal; lia|].
  rewrite (N.mod_small (max + 1)) by lia. destruct (N.eqb_spec (max + 1) 0); [lia|].
  rewrite N.mod_small by lia. reflexivity.
Qed.
