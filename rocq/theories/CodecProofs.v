(** Little-endian codec lemmas. *)
From Verif Require Import Base BaseLemmas CodecModel.
Local Open Scope N_scope.

(** Value of a byte string as a base-256 number, least significant first. *)
Fixpoint le_val (l : bytes) : N :=
  match l with [] => 0 | b :: l' => b2n b + 256 * le_val l' end.

Lemma le_val_bound l : le_val l < 2 ^ (8 * N.of_nat (length l)).
Proof.
  induction l as [|b l IH]; [cbn; lia|].
  cbn [le_val length].
  replace (8 * N.of_nat (S (length l))) with (8 + 8 * N.of_nat (length l)) by lia.
  rewrite N.pow_add_r. change (2 ^ 8) with 256. pose proof (b2n_lt b). nia.
Qed.

Lemma lor_add_shift a b k : a < 2 ^ k -> N.lor a (N.shiftl b k) = a + b * 2 ^ k.
Proof.
  intros Ha.
  rewrite <- N.lxor_lor.
  - rewrite <- N.add_nocarry_lxor.
    + rewrite N.shiftl_mul_pow2. reflexivity.
    + apply N.bits_inj. intros i. rewrite N.land_spec, N.bits_0.
      destruct (N.lt_ge_cases i k) as [H|H].
      * rewrite N.shiftl_spec_low by exact H. apply andb_false_r.
      * replace (N.testbit a i) with false; [reflexivity|].
        symmetry. destruct (N.eq_dec a 0) as [->|Hn]; [apply N.bits_0|].
        apply N.bits_above_log2. apply N.log2_lt_pow2 in Ha; [|lia]. lia.
  - apply N.bits_inj. intros i. rewrite N.land_spec, N.bits_0.
    destruct (N.lt_ge_cases i k) as [H|H].
    + rewrite N.shiftl_spec_low by exact H. apply andb_false_r.
    + replace (N.testbit a i) with false; [reflexivity|].
      symmetry. destruct (N.eq_dec a 0) as [->|Hn]; [apply N.bits_0|].
      apply N.bits_above_log2. apply N.log2_lt_pow2 in Ha; [|lia]. lia.
Qed.

Lemma le_val_app a b : le_val (a ++ b) = le_val a + 2 ^ (8 * N.of_nat (length a)) * le_val b.
Proof.
  induction a as [|x a IH]; [cbn [app le_val length N.of_nat]; change (2 ^ (8 * 0)) with 1; lia|].
  cbn [app le_val length]. rewrite IH.
  replace (8 * N.of_nat (S (length a))) with (8 + 8 * N.of_nat (length a)) by lia.
  rewrite N.pow_add_r. change (2 ^ 8) with 256. lia.
Qed.

Lemma from_le_val l : from_le l = le_val l.
Proof.
  unfold from_le.
  assert (H : forall n, (n <= length l)%nat ->
    fold_left (fun v i => N.lor v (N.shiftl (b2n (nth i l x00)) (8 * N.of_nat i))) (seq 0 n) 0
    = le_val (firstn n l)).
  { induction n as [|n IH]; intros Hn; [reflexivity|].
    rewrite seq_S, fold_left_app. cbn [fold_left]. rewrite IH by lia.
    replace (0 + n)%nat with n by lia.
    assert (Hf : firstn (S n) l = firstn n l ++ [nth n l x00]).
    { clear IH. revert n Hn. induction l as [|x l IHl]; intros n Hn; [cbn in Hn; lia|].
      destruct n as [|n]; [reflexivity|]. cbn [firstn app nth]. f_equal. apply IHl. cbn in Hn. lia. }
    rewrite Hf, le_val_app, firstn_length_le by lia.
    cbn [le_val].
    rewrite lor_add_shift.
    - lia.
    - pose proof (le_val_bound (firstn n l)) as Hb. rewrite firstn_length_le in Hb by lia. exact Hb. }
  rewrite H by lia. rewrite firstn_all. reflexivity.
Qed.

Lemma to_le_length w n : length (to_le w n) = w.
Proof. unfold to_le. rewrite map_length, seq_length. reflexivity. Qed.

Lemma to_le_S w n : to_le (S w) n = n2b n :: to_le w (n / 256).
Proof.
  unfold to_le. cbn [seq map]. f_equal.
  rewrite <- seq_shift, map_map. apply map_ext. intros i.
  f_equal. rewrite !N.shiftr_div_pow2.
  replace (8 * N.of_nat (S i)) with (8 + 8 * N.of_nat i) by lia.
  rewrite N.pow_add_r. change (2 ^ 8) with 256.
  rewrite N.div_div; [reflexivity|lia|]. apply N.pow_nonzero; lia.
Qed.

Lemma le_val_to_le w n : le_val (to_le w n) = n mod 2 ^ (8 * N.of_nat w).
Proof.
  revert n; induction w as [|w IH]; intros n.
  - cbn. symmetry. apply N.mod_1_r.
  - rewrite to_le_S. cbn [le_val]. rewrite IH, b2n_n2b.
    replace (8 * N.of_nat (S w)) with (8 + 8 * N.of_nat w) by lia.
    rewrite N.pow_add_r. change (2 ^ 8) with 256.
    rewrite N.mod_mul_r; [reflexivity|lia|apply N.pow_nonzero; lia].
Qed.

Lemma to_le_le_val l : to_le (length l) (le_val l) = l.
Proof.
  induction l as [|b l IH]; [reflexivity|].
  cbn [length le_val]. rewrite to_le_S. f_equal.
  - apply b2n_inj. rewrite b2n_n2b. pose proof (b2n_lt b).
    rewrite N.mul_comm, N.mod_add by lia. apply N.mod_small; exact H.
  - rewrite N.mul_comm, N.div_add by lia. pose proof (b2n_lt b).
    rewrite N.div_small by exact H. exact IH.
Qed.

Lemma from_to_le w n : n < 2 ^ (8 * N.of_nat w) -> from_le (to_le w n) = n.
Proof. intros H. rewrite from_le_val, le_val_to_le. apply N.mod_small; exact H. Qed.

Lemma to_from_le l : to_le (length l) (from_le l) = l.
Proof. rewrite from_le_val. apply to_le_le_val. Qed.

Lemma from_le_bound l : from_le l < 2 ^ (8 * N.of_nat (length l)).
Proof. rewrite from_le_val. apply le_val_bound. Qed.

Lemma to_le_inj w a b :
  a < 2 ^ (8 * N.of_nat w) -> b < 2 ^ (8 * N.of_nat w) -> to_le w a = to_le w b -> a = b.
Proof. intros Ha Hb H. rewrite <- (from_to_le w a Ha), <- (from_to_le w b Hb), H. reflexivity. Qed.

(** ** Inode numbers *)
Lemma from_le_inj a b : length a = length b -> from_le a = from_le b -> a = b.
Proof.
  intros HL H. rewrite <- (to_from_le a), <- (to_from_le b), HL, H. reflexivity.
Qed.

Lemma lxor_ones_inj a b k : N.lxor a k = N.lxor b k -> a = b.
Proof.
  intros H. apply (f_equal (fun x => N.lxor x k)) in H.
  rewrite !N.lxor_assoc, N.lxor_nilpotent, !N.lxor_0_r in H. exact H.
Qed.

Lemma lxor_ones_bound a k : a < 2 ^ k -> N.lxor a (N.ones k) < 2 ^ k.
Proof.
  intros H. destruct (N.eq_dec (N.lxor a (N.ones k)) 0) as [E|E]; [rewrite E; apply N.neq_0_lt_0, N.pow_nonzero; discriminate|].
  apply N.log2_lt_pow2; [lia|]. apply N.nle_gt. intros Hle.
  pose proof (N.bit_log2 _ E) as Hb. rewrite N.lxor_spec, N.ones_spec_high in Hb by exact Hle.
  assert (Ha : forall i, k <= i -> N.testbit a i = false).
  { intros i Hi. rewrite <- (N.mod_small a (2 ^ k)) by exact H. apply N.mod_pow2_bits_high. exact Hi. }
  rewrite Ha in Hb by exact Hle. discriminate.
Qed.

Lemma inode_number_props :
  inode_number (zeros 32) = 2 ^ 64 - 1 /\
  (forall id id', length id = 32%nat -> length id' = 32%nat ->
     (inode_number id = inode_number id' <-> firstn 8 id = firstn 8 id')) /\
  (forall id, length id = 32%nat -> inode_number id < 2 ^ 64) /\
  (forall id, length id = 32%nat -> (inode_number id = 0 <-> firstn 8 id = repeat xff 8)).
Proof.
  assert (HI : forall id id', length id = 32%nat -> length id' = 32%nat ->
     (inode_number id = inode_number id' <-> firstn 8 id = firstn 8 id')).
  { intros id id' H H'. unfold inode_number. split.
    - intros E. apply lxor_ones_inj in E. apply from_le_inj in E; [exact E|]. rewrite !firstn_length. lia.
    - intros ->. reflexivity. }
  split; [vm_compute; reflexivity|]. split; [exact HI|]. split.
  - intros id H. unfold inode_number. apply lxor_ones_bound.
    eapply N.lt_le_trans; [apply from_le_bound|]. apply N.pow_le_mono_r; [discriminate|]. rewrite firstn_length. lia.
  - intros id H. replace 0 with (inode_number (repeat xff 32)) by (vm_compute; reflexivity).
    rewrite HI by (try exact H; reflexivity). reflexivity.
Qed.
