(** C94: keys that do not look random are reported. *)
From Coq Require Import Lia.
From Verif Require Import Base RandomModel RandomSpec.
Local Open Scope list_scope.

Lemma table_ok c : nth (N.to_nat (b2n c)) TABLE 0%N = N.of_nat (ones_in c).
Proof. destruct c; vm_compute; reflexivity. Qed.
Lemma popcount_ok key : popcount key = N.of_nat (ones key).
Proof.
  assert (H : forall a, fold_left (fun res c => (res + nth (N.to_nat (b2n c)) TABLE 0)%N) key a = (a + N.of_nat (ones key))%N); [|apply H]. unfold ones.
  induction key as [|c key IH]; intros a; cbn [fold_left map list_sum fold_right]; [lia|].
  rewrite IH, table_ok. unfold list_sum. cbn [fold_right]. lia.
Qed.

(** The ones are counted right. *)
Theorem C94_count : forall key, popcount key = N.of_nat (ones key).
Proof. exact popcount_ok. Qed.
Print Assumptions C94_count.
(** Exactly the suspicious keys are reported. *)
Theorem C94_warns : forall key, warns key = true <-> suspicious key.
Proof.
  intros key. unfold warns, suspicious. cbv zeta. rewrite popcount_ok, orb_true_iff, !N.leb_le. lia.
Qed.
Print Assumptions C94_warns.
(** A key that was never filled, or filled with one bit, is always reported. *)
Theorem C94_unfilled : forall n, warns (repeat x00 n) = true /\ warns (repeat xff n) = true.
Proof.
  assert (H : forall c n, ones (repeat c n) = n * ones_in c).
  { intros c n. unfold ones. induction n as [|n IH]; [reflexivity|]. cbn [repeat map list_sum fold_right]. unfold list_sum in *. cbn [fold_right]. rewrite IH. lia. }
  intros n. split; apply C94_warns; unfold suspicious; cbv zeta; rewrite H, repeat_length; [left|right].
  - change (ones_in x00) with 0. lia.
  - change (ones_in xff) with 8. lia.
Qed.
Print Assumptions C94_unfilled.
Example C94_example : warns [x55; x0f; x93; xc6] = false /\ warns [x01; x02; x80; x40] = true /\ ones [x55; x0f; x93; xc6] = 16.
Proof. now vm_compute. Qed.
(** Where four keys are checked as one block (sources/files.cpp 173), a key among them
    that was never filled is not noticed. *)
Theorem C94_together_refuted : exists k1 k2 k3 k4, Forall (fun k => length k = 32) [k1; k2; k3; k4] /\ k4 = repeat x00 32 /\
  warns (k1 ++ k2 ++ k3 ++ k4) = false.
Proof. exists (repeat x55 32), (repeat x55 32), (repeat x55 32), (repeat x00 32). split; [repeat constructor|]. split; [reflexivity|]. vm_compute. reflexivity. Qed.
Print Assumptions C94_together_refuted.
