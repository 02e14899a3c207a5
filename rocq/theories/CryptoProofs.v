(** SIV and HKDF proofs. *)
From Verif Require Import Base BaseLemmas CodecProofs CryptoModel CryptoSpec.

(** ** xor of byte strings *)

Lemma xor_bytes_length a b : length (xor_bytes a b) = min (length a) (length b).
Proof. revert b; induction a as [|x a IH]; intros [|y b]; cbn; auto. Qed.

Lemma n2b_lxor x y : b2n (n2b (N.lxor (b2n x) (b2n y))) = N.lxor (b2n x) (b2n y).
Proof.
  rewrite b2n_n2b. apply N.mod_small.
  destruct (N.eq_dec (N.lxor (b2n x) (b2n y)) 0) as [E|E]; [rewrite E; reflexivity|].
  change 256%N with (2 ^ 8)%N. apply N.log2_lt_pow2; [lia|].
  eapply N.le_lt_trans; [apply N.log2_lxor|]. apply N.max_lub_lt.
  - destruct (N.eq_dec (b2n x) 0) as [E0|E0]; [rewrite E0; reflexivity|]. apply N.log2_lt_pow2; [lia|apply b2n_lt].
  - destruct (N.eq_dec (b2n y) 0) as [E0|E0]; [rewrite E0; reflexivity|]. apply N.log2_lt_pow2; [lia|apply b2n_lt].
Qed.

Lemma xor_bytes_cancel a k : length a <= length k -> xor_bytes (xor_bytes a k) k = a.
Proof.
  revert k; induction a as [|x a IH]; intros [|y k] H; cbn [length] in H; try lia; [reflexivity|reflexivity|].
  cbn [xor_bytes]. rewrite IH by lia. f_equal. apply b2n_inj.
  rewrite n2b_lxor. rewrite n2b_lxor, N.lxor_assoc, N.lxor_nilpotent, N.lxor_0_r. reflexivity.
Qed.

(** ** Big-endian numbers *)

Lemma be_val_bound l : (be_val l < 2 ^ (8 * N.of_nat (length l)))%N.
Proof.
  induction l as [|b l IH]; [cbn; lia|]. cbn [be_val length]. pose proof (b2n_lt b).
  replace (8 * N.of_nat (S (length l)))%N with (8 + 8 * N.of_nat (length l))%N by lia.
  rewrite N.pow_add_r. change (2 ^ 8)%N with 256%N. set (M := (2 ^ (8 * N.of_nat (length l)))%N) in *. nia.
Qed.

Lemma be_val_app a b : be_val (a ++ b) = (be_val a * 2 ^ (8 * N.of_nat (length b)) + be_val b)%N.
Proof.
  induction a as [|x a IH]; [reflexivity|]. cbn [app be_val]. rewrite IH, app_length.
  replace (8 * N.of_nat (length a + length b))%N with (8 * N.of_nat (length a) + 8 * N.of_nat (length b))%N by lia.
  rewrite N.pow_add_r. lia.
Qed.

Lemma bits_high a k i : (a < 2 ^ k)%N -> (k <= i)%N -> N.testbit a i = false.
Proof. intros H Hi. rewrite <- (N.mod_small a (2 ^ k)) by exact H. apply N.mod_pow2_bits_high. exact Hi. Qed.

Lemma lxor_add_shift a b a' b' k : (a < 2 ^ k)%N -> (a' < 2 ^ k)%N ->
  N.lxor (a + b * 2 ^ k) (a' + b' * 2 ^ k) = (N.lxor a a' + N.lxor b b' * 2 ^ k)%N.
Proof.
  intros Ha Ha'.
  assert (Hx : (N.lxor a a' < 2 ^ k)%N).
  { destruct (N.eq_dec (N.lxor a a') 0) as [E|E]; [rewrite E; lia|].
    apply N.log2_lt_pow2; [lia|]. apply N.nle_gt. intros Hle.
    assert (Hb : N.testbit (N.lxor a a') (N.log2 (N.lxor a a')) = true) by (apply N.bit_log2; exact E).
    rewrite N.lxor_spec, (bits_high a k), (bits_high a' k) in Hb by assumption. discriminate. }
  rewrite <- !lor_add_shift by assumption. apply N.bits_inj. intros i.
  rewrite N.lxor_spec, !N.lor_spec, N.lxor_spec.
  destruct (N.lt_ge_cases i k) as [Hi|Hi].
  - rewrite !N.shiftl_spec_low by exact Hi. rewrite !orb_false_r. reflexivity.
  - rewrite (bits_high a k), (bits_high a' k) by assumption. rewrite !N.shiftl_spec_high' by exact Hi.
    rewrite N.lxor_spec. cbn [orb xorb]. reflexivity.
Qed.

Lemma be_val_xor a b : length a = length b -> be_val (xor_bytes a b) = N.lxor (be_val a) (be_val b).
Proof.
  revert b; induction a as [|x a IH]; intros [|y b] H; cbn [length] in H; try lia; [reflexivity|].
  cbn [xor_bytes be_val]. rewrite IH by lia. rewrite n2b_lxor, xor_bytes_length.
  replace (min (length a) (length b)) with (length a) by lia.
  rewrite (N.add_comm (b2n x * _)), (N.add_comm (b2n y * _)).
  replace (length b) with (length a) by lia.
  rewrite lxor_add_shift; [lia|apply be_val_bound|].
  replace (length a) with (length b) by lia. apply be_val_bound.
Qed.

Lemma bitshift_left_length l : length (bitshift_left l) = length l.
Proof. induction l as [|b l IH]; cbn; auto. Qed.

(** Carry into a byte: the top bit of the rest. *)
Definition top (l : bytes) : N := match l with [] => 0%N | c :: _ => N.land (N.shiftr (b2n c) 7) 1 end.

Lemma top_byte c : N.land (N.shiftr (b2n c) 7) 1 = (b2n c / 128)%N.
Proof.
  change 1%N with (N.ones 1). rewrite N.land_ones, N.shiftr_div_pow2. change (2 ^ 7)%N with 128%N. change (2 ^ 1)%N with 2%N.
  apply N.mod_small. pose proof (b2n_lt c). apply N.div_lt_upper_bound; lia.
Qed.

Lemma top_val l : (top l <= 1)%N /\ (top l * 2 ^ (8 * N.of_nat (length l)) <= 2 * be_val l < (top l + 1) * 2 ^ (8 * N.of_nat (length l)))%N.
Proof.
  destruct l as [|c l]; [cbn; lia|]. cbn [top be_val length]. rewrite top_byte.
  pose proof (b2n_lt c). pose proof (be_val_bound l) as HB.
  pose proof (N.div_mod (b2n c) 128 ltac:(lia)) as E. pose proof (N.mod_lt (b2n c) 128 ltac:(lia)) as Hm.
  replace (8 * N.of_nat (S (length l)))%N with (8 + 8 * N.of_nat (length l))%N by lia.
  rewrite N.pow_add_r. change (2 ^ 8)%N with 256%N. set (M := (2 ^ (8 * N.of_nat (length l)))%N) in *.
  set (t := (b2n c / 128)%N) in *. set (r := (b2n c mod 128)%N) in *.
  assert (Ht : (t <= 1)%N) by lia. split; [exact Ht|]. rewrite E. split; nia.
Qed.

Lemma be_val_shift l :
  (be_val (bitshift_left l) + top l * 2 ^ (8 * N.of_nat (length l)) = 2 * be_val l)%N.
Proof.
  induction l as [|b l IH]; [reflexivity|]. cbn [bitshift_left be_val length]. fold (top l).
  rewrite bitshift_left_length. pose proof (top_val l) as [Ht1 _].
  assert (Hv : b2n (n2b (N.lor (N.shiftl (b2n b) 1) (top l))) = (2 * b2n b + top l - 256 * (b2n b / 128))%N).
  { rewrite b2n_n2b. rewrite N.lor_comm, lor_add_shift by (change (2 ^ 1)%N with 2%N; lia). change (2 ^ 1)%N with 2%N.
    pose proof (b2n_lt b). pose proof (N.div_mod (b2n b) 128 ltac:(lia)) as E. pose proof (N.mod_lt (b2n b) 128 ltac:(lia)) as Hm.
    assert ((b2n b / 128 < 2)%N) by (apply N.div_lt_upper_bound; lia).
    symmetry. apply (N.mod_unique _ 256 (b2n b / 128)); lia. }
  rewrite Hv. cbn [top]. rewrite top_byte.
  replace (8 * N.of_nat (S (length l)))%N with (8 + 8 * N.of_nat (length l))%N by lia.
  rewrite N.pow_add_r. change (2 ^ 8)%N with 256%N. set (M := (2 ^ (8 * N.of_nat (length l)))%N) in *.
  pose proof (N.div_mod (b2n b) 128 ltac:(lia)) as E. pose proof (N.mod_lt (b2n b) 128 ltac:(lia)) as Hm.
  set (t := (b2n b / 128)%N) in *. assert (Hle : (256 * t <= 2 * b2n b + top l)%N) by lia.
  set (V := be_val (bitshift_left l)) in *. set (W := be_val l) in *.
  assert (E2 : ((2 * b2n b + top l - 256 * t) * M + 256 * t * M = (2 * b2n b + top l) * M)%N).
  { rewrite <- N.mul_add_distr_r. f_equal. lia. }
  lia.
Qed.

Lemma siv_dbl_spec block : length block = 16 -> is_double (siv_dbl block) block.
Proof.
  intros HL. unfold siv_dbl. destruct block as [|c l]; [discriminate|]. cbn [nth].
  pose proof (be_val_shift (c :: l)) as HS. pose proof (top_val (c :: l)) as [Ht1 Ht2]. cbn [top] in *.
  pose proof (bitshift_left_length (c :: l)) as HLs.
  rewrite HL in *. change (8 * N.of_nat 16)%N with 128%N in *.
  rewrite top_byte in *. rewrite N.shiftr_div_pow2. change (2 ^ 7)%N with 128%N.
  unfold is_double, gf_double. change (2 ^ 128)%N with (2 * 2 ^ 127)%N in *.
  destruct (N.eqb_spec (b2n c / 128) 1) as [E|E].
  - rewrite E in *. destruct (N.ltb_spec (be_val (c :: l)) (2 ^ 127)) as [H|H]; [lia|].
    split; [rewrite xor_bytes_length, HLs; reflexivity|].
    rewrite be_val_xor by (rewrite HLs; reflexivity). change (be_val cmac_Rb) with 135%N. f_equal. lia.
  - assert (E0 : (b2n c / 128 = 0)%N) by lia. rewrite E0 in *.
    destruct (N.ltb_spec (be_val (c :: l)) (2 ^ 127)) as [H|H]; [|lia].
    split; [exact HLs|]. lia.
Qed.

Lemma xor_is_xor a b : length a = 16 -> length b = 16 -> is_xor (xor_bytes a b) a b.
Proof.
  intros Ha Hb. split; [rewrite xor_bytes_length, Ha, Hb; reflexivity|]. apply be_val_xor. congruence.
Qed.

(** ** SIV *)

Section SIVP.
Variable cmac : bytes -> bytes.
Variable keystream : bytes -> nat -> bytes.
Hypothesis cmac_len : forall m, length (cmac m) = 16.
Hypothesis ks_len : forall iv n, length (keystream iv n) = n.

Lemma s2v_rfc ad p : rfc5297_s2v cmac ad p (s2v cmac p ad).
Proof.
  unfold s2v, rfc5297_s2v.
  set (d := if 0 <? length ad then xor_bytes (siv_dbl (cmac (zeros 16))) (cmac ad) else cmac (zeros 16)).
  assert (Hdbl : length (siv_dbl (cmac (zeros 16))) = 16) by apply siv_dbl_spec, cmac_len.
  assert (Hd : length d = 16).
  { unfold d. destruct (0 <? length ad); [|apply cmac_len]. rewrite xor_bytes_length, Hdbl, cmac_len. reflexivity. }
  exists d. split.
  - unfold d. destruct ad as [|x ad]; [left; auto|]. right. split; [discriminate|]. cbn [length Nat.ltb Nat.leb].
    exists (siv_dbl (cmac (zeros 16))). split; [apply siv_dbl_spec, cmac_len|]. apply xor_is_xor; [exact Hdbl|apply cmac_len].
  - unfold siv_len. destruct (Nat.leb_spec 16 (length p)) as [H|H].
    + left. split; [exact H|]. exists (firstn (length p - 16) p), (skipn (length p - 16) p), (xor_bytes (skipn (length p - 16) p) d).
      assert (length (skipn (length p - 16) p) = 16) by (rewrite skipn_length; lia).
      split; [symmetry; apply firstn_skipn|]. split; [assumption|]. split; [apply xor_is_xor; assumption|reflexivity].
    + right. split; [exact H|].
      exists (siv_dbl d), (p ++ [n2b 128] ++ zeros (15 - length p)), (xor_bytes (siv_dbl d) (p ++ [n2b 128] ++ zeros (15 - length p))).
      split; [apply siv_dbl_spec; exact Hd|]. split; [reflexivity|].
      assert (length (p ++ [n2b 128] ++ zeros (15 - length p)) = 16) by (rewrite !app_length, zeros_length; cbn [length]; lia).
      split; [apply xor_is_xor; [apply siv_dbl_spec; exact Hd|assumption]|].
      do 2 f_equal. replace (16 - (length p + 1)) with (15 - length p) by lia. reflexivity.
Qed.

Lemma s2v_length p ad : length (s2v cmac p ad) = 16.
Proof. unfold s2v. destruct (siv_len <=? length p); apply cmac_len. Qed.

Lemma ctr_length iv d : length (ctr keystream iv d) = length d.
Proof. unfold ctr. rewrite xor_bytes_length, ks_len. lia. Qed.

Lemma ctr_involutive iv d : ctr keystream iv (ctr keystream iv d) = d.
Proof. unfold ctr at 1. rewrite ctr_length. unfold ctr. apply xor_bytes_cancel. rewrite ks_len. lia. Qed.

Lemma siv_roundtrip p ad :
  siv_decrypt cmac keystream (fst (siv_encrypt cmac keystream p ad)) (snd (siv_encrypt cmac keystream p ad)) ad = (true, p).
Proof. unfold siv_encrypt, siv_decrypt. cbn [fst snd]. rewrite ctr_involutive, bytes_eqb_refl. reflexivity. Qed.

Lemma siv_accepts siv c ad p :
  siv_decrypt cmac keystream siv c ad = (true, p) -> siv_encrypt cmac keystream p ad = (siv, c).
Proof.
  unfold siv_encrypt, siv_decrypt. intros H. injection H as H <-. apply bytes_eqb_eq in H.
  rewrite <- H, ctr_involutive. reflexivity.
Qed.

Lemma siv_inj p p' ad : siv_encrypt cmac keystream p ad = siv_encrypt cmac keystream p' ad -> p = p'.
Proof.
  intros H. pose proof (siv_roundtrip p ad) as H1. rewrite H, siv_roundtrip in H1. congruence.
Qed.

Lemma siv_lengths p ad :
  length (fst (siv_encrypt cmac keystream p ad)) = 16 /\ length (snd (siv_encrypt cmac keystream p ad)) = length p.
Proof. unfold siv_encrypt. cbn [fst snd]. split; [apply s2v_length|apply ctr_length]. Qed.
End SIVP.

(** ** HKDF *)

Section HKDFP.
Variable hmac : bytes -> bytes -> bytes.
Hypothesis hmac_len : forall k m, length (hmac k m) = 32.
Variables prk info : bytes.

Notation T := (rfc5869_T hmac prk info).
Definition TT (n : nat) : bytes := concat (map T (seq 1 n)).

Lemma T_length n : 0 < n -> length (T n) = 32.
Proof. destruct n; [lia|]. intros _. cbn [rfc5869_T]. apply hmac_len. Qed.

Ltac fold_TT := repeat match goal with |- context [concat (map (rfc5869_T hmac prk info) (seq 1 ?n))] => change (concat (map (rfc5869_T hmac prk info) (seq 1 n))) with (TT n) end.

Lemma TT_S n : TT (S n) = TT n ++ T (S n).
Proof. unfold TT. rewrite seq_S, map_app, concat_app. cbn [map concat Nat.add]. rewrite app_nil_r. reflexivity. Qed.

Lemma TT_length n : length (TT n) = 32 * n.
Proof.
  induction n as [|n IH]; [reflexivity|]. rewrite TT_S, app_length, IH, T_length by lia. lia.
Qed.

Lemma TT_last n : arr_read (TT n) (32 * n - (if n =? 0 then 0 else 32)) (if n =? 0 then 0 else 32) = T n.
Proof.
  destruct n as [|n]; [reflexivity|]. cbn [Nat.eqb]. rewrite TT_S. unfold arr_read.
  replace (32 * S n - 32) with (length (TT n)) by (rewrite TT_length; lia).
  rewrite skipn_app, skipn_all, Nat.sub_diag. cbn [app skipn]. apply firstn_all2. rewrite T_length; lia.
Qed.

Lemma counter_next k : n2b (b2n (n2b k) + 1) = n2b (k + 1).
Proof.
  apply b2n_inj. rewrite !b2n_n2b. rewrite N.add_mod_idemp_l by lia. reflexivity.
Qed.

Lemma hkdf_loop_ok out_len : forall fuel n, 32 * n <= out_len -> out_len - 32 * n < fuel ->
  hkdf_loop hmac fuel prk info out_len (32 * n - (if n =? 0 then 0 else 32)) (if n =? 0 then 0 else 32)
    (n2b (N.of_nat (S n))) (TT n)
  = Ok (rfc5869_okm hmac prk info out_len).
Proof.
  intros fuel. induction fuel as [|fuel IH]; intros n Hn Hf; [lia|].
  assert (Hij : 32 * n - (if n =? 0 then 0 else 32) + (if n =? 0 then 0 else 32) = 32 * n) by (destruct n; cbn [Nat.eqb]; lia).
  cbn [hkdf_loop]. rewrite Hij.
  destruct (Nat.ltb_spec (32 * n) out_len) as [Hlt|Hge].
  - rewrite TT_last.
    replace (out_len - (32 * n - (if n =? 0 then 0 else 32)) - (if n =? 0 then 0 else 32)) with (out_len - 32 * n) by (destruct n; cbn [Nat.eqb]; lia).
    change (hmac prk (T n ++ info ++ [n2b (N.of_nat (S n))])) with (T (S n)).
    rewrite counter_next. replace (N.of_nat (S n) + 1)%N with (N.of_nat (S (S n))) by lia.
    unfold digest_size. destruct (Nat.le_gt_cases 32 (out_len - 32 * n)) as [Hfull|Hpart].
    + rewrite Nat.min_r by exact Hfull. rewrite firstn_all2 by (rewrite T_length; lia). rewrite <- TT_S.
      specialize (IH (S n) ltac:(lia) ltac:(lia)). cbn [Nat.eqb] in IH.
      replace (32 * S n - 32) with (32 * n) in IH by lia. exact IH.
    + rewrite Nat.min_l by lia.
      assert (Hend : forall c, hkdf_loop hmac fuel prk info out_len (32 * n) (out_len - 32 * n) c (TT n ++ firstn (out_len - 32 * n) (T (S n)))
                 = Ok (TT n ++ firstn (out_len - 32 * n) (T (S n)))).
      { intros c. destruct fuel; cbn [hkdf_loop]; replace (32 * n + (out_len - 32 * n)) with out_len by lia;
          rewrite Nat.ltb_irrefl; reflexivity. }
      rewrite Hend. f_equal. unfold rfc5869_okm. fold_TT.
      replace ((out_len + 31) / 32) with (S n).
      2: { apply (Nat.div_unique (out_len + 31) 32 (S n) (out_len - 32 * n - 1)); lia. }
      rewrite TT_S. rewrite firstn_app, TT_length.
      rewrite (firstn_all2 (n := out_len)) by (rewrite TT_length; lia). reflexivity.
  - f_equal. assert (out_len = 32 * n) by lia. unfold rfc5869_okm. fold_TT.
    replace ((out_len + 31) / 32) with n by (apply (Nat.div_unique (out_len + 31) 32 n 31); lia).
    rewrite firstn_all2 by (rewrite TT_length; lia). reflexivity.
Qed.

Lemma hkdf_expand_ok out_len :
  hkdf_expand hmac prk info out_len =
  if 255 * 32 <? out_len then Err EInval else Ok (rfc5869_okm hmac prk info out_len).
Proof.
  unfold hkdf_expand, digest_size. destruct (255 * 32 <? out_len); [reflexivity|].
  exact (hkdf_loop_ok out_len (S out_len) 0 ltac:(lia) ltac:(lia)).
Qed.

Lemma TT_prefix n m : n <= m -> exists r, TT m = TT n ++ r.
Proof.
  induction 1 as [|m _ (r & IH)]; [exists []; rewrite app_nil_r; reflexivity|].
  exists (r ++ T (S m)). rewrite TT_S. rewrite IH, app_assoc. reflexivity.
Qed.

Lemma okm_prefix a L : a <= L -> firstn a (rfc5869_okm hmac prk info L) = rfc5869_okm hmac prk info a.
Proof.
  intros H. unfold rfc5869_okm. fold_TT. rewrite firstn_firstn, Nat.min_l by exact H.
  destruct (TT_prefix ((a + 31) / 32) ((L + 31) / 32)) as (r & Hr).
  { apply Nat.div_le_mono; lia. }
  rewrite Hr, firstn_app.
  replace (a - length (TT ((a + 31) / 32))) with 0.
  - cbn [firstn]. apply app_nil_r.
  - rewrite TT_length. pose proof (Nat.div_mod (a + 31) 32 ltac:(lia)). pose proof (Nat.mod_upper_bound (a + 31) 32 ltac:(lia)). lia.
Qed.

Lemma okm_length L : length (rfc5869_okm hmac prk info L) = L.
Proof.
  unfold rfc5869_okm. fold_TT. rewrite firstn_length. rewrite TT_length.
  pose proof (Nat.div_mod (L + 31) 32 ltac:(lia)). pose proof (Nat.mod_upper_bound (L + 31) 32 ltac:(lia)). lia.
Qed.
End HKDFP.

Lemma file_keys_padding hmac master id : (forall k m, length (hmac k m) = 32) ->
  exists d m x p, file_keys hmac master id false = Ok (d, m, x, None) /\
                  file_keys hmac master id true = Ok (d, m, x, Some p) /\
                  length d = 32 /\ length m = 32 /\ length x = 32 /\ length p = 32 /\
                  rfc5869_okm hmac master id 128 = d ++ m ++ x ++ p.
Proof.
  intros HH. unfold file_keys, hkdf. cbn [length Nat.ltb Nat.leb]. rewrite !hkdf_expand_ok by exact HH.
  cbn [Nat.ltb Nat.leb Nat.mul Nat.add rbind].
  pose proof (okm_prefix hmac HH master id 96 128 ltac:(lia)) as HP.
  pose proof (okm_length hmac HH master id 128) as HL.
  set (K := rfc5869_okm hmac master id 128) in *. set (K96 := rfc5869_okm hmac master id 96) in *.
  assert (HR : forall o, o + 32 <= 96 -> arr_read K96 o 32 = arr_read K o 32).
  { intros o Ho. rewrite <- HP. unfold arr_read. rewrite skipn_firstn_comm, firstn_firstn.
    f_equal. lia. }
  rewrite !HR by lia.
  exists (arr_read K 0 32), (arr_read K 32 32), (arr_read K 64 32), (arr_read K 96 32).
  repeat split; try (rewrite arr_read_length; lia).
  assert (HS : forall o m, arr_read K o (32 + m) = arr_read K o 32 ++ arr_read K (o + 32) m) by (intros; apply arr_read_split).
  rewrite <- (arr_read_all K 128) at 1 by lia.
  change 128 with (32 + (32 + (32 + 32))). rewrite (HS 0), (HS (0 + 32)), (HS (0 + 32 + 32)). reflexivity.
Qed.
