(** The lite stream meets the backend contract and can be reopened. *)
From Verif Require Import Base BaseLemmas StreamSpec BlockModel BlockProofs CodecModel
  CodecProofs LiteModel.

(** Assumptions on the environment of a lite stream (all satisfiable, see
    [Properties]): functional correctness of the cipher, [generate_random]
    fills the buffer it is given, and among any [iv_fuel] consecutive draws one
    is not all zero. *)
Record lite_env_ok (A : aead) (bs iv_size : nat) (rnd : nat -> nat -> bytes) (iv_fuel : nat)
  : Prop := {
  le_aead : aead_ok A;
  le_bs : 32 <= bs;
  le_iv_min : 12 <= iv_size;
  le_iv_max : iv_size <= 32;
  le_rnd : forall k n, length (rnd k n) = n;
  le_nonzero : forall k, exists j, j < iv_fuel /\ all_zero (rnd (k + j) iv_size) = false
}.

Lemma lite_over_max_false b : b <= lite_max_blocks -> over_max lite_max_blocks_N b = false.
Proof. unfold lite_max_blocks. apply over_max_false. Qed.

Lemma lite_over_max_inv b : over_max lite_max_blocks_N b = false -> b <= lite_max_blocks.
Proof. unfold over_max, lite_max_blocks. rewrite N.ltb_ge. lia. Qed.

Lemma lite_max_blocks_lt : (N.of_nat lite_max_blocks < 2 ^ 32)%N.
Proof. unfold lite_max_blocks. rewrite N2Nat.id. reflexivity. Qed.

Lemma bk_maxn_lite A bs iv_size check sparse rnd iv_fuel :
  bk_maxn (lite_backend A bs iv_size check sparse rnd iv_fuel) = lite_max_blocks.
Proof. unfold bk_maxn, lite_max_blocks. cbn [bk_max lite_backend]. reflexivity. Qed.

(* a huge [nat]: never unfold it *)
#[global] Opaque lite_max_blocks.

Lemma mul_lt_block i e u : i < e -> i * u + u <= e * u.
Proof. intros H. assert (S i * u <= e * u) by (apply Nat.mul_le_mono_r; lia). lia. Qed.

Lemma mul_le_mono i e u : i <= e -> i * u <= e * u.
Proof. apply Nat.mul_le_mono_r. Qed.

Lemma mul_lt_inv i e u r : i * u < e * u + r -> r <= u -> i <= e.
Proof. intros. destruct (Nat.le_gt_cases i e); [assumption|]. pose proof (mul_lt_block e i u ltac:(lia)). lia. Qed.

Section LiteProofs.
  Variable A : aead.
  Variable bs iv_size : nat.
  Variable check sparse : bool.
  Variable session_key : bytes -> bytes.
  Variable padding_of : bytes -> nat.
  Variable rnd : nat -> nat -> bytes.
  Variable iv_fuel : nat.
  Hypothesis HE : lite_env_ok A bs iv_size rnd iv_fuel.

  Notation ubs := (ubs bs iv_size).
  Notation ov := (iv_size + mac_size).
  Notation decode := (lite_decode_block A iv_size check).
  Notation B := (lite_backend A bs iv_size check sparse rnd iv_fuel).

  Lemma ubs_eq : ubs = bs + ov.
  Proof. unfold LiteModel.ubs, mac_size. lia. Qed.

  (** Length of the block area for [n] logical bytes. *)
  Definition phys_len (n : nat) : nat :=
    (n / bs) * ubs + (if n mod bs =? 0 then 0 else n mod bs + ov).

  Lemma bs_pos' : 0 < bs.
  Proof. pose proof (le_bs _ _ _ _ _ HE). lia. Qed.

  Lemma div_eq q r : r < bs -> (q * bs + r) / bs = q.
  Proof.
    intros H. pose proof bs_pos'. rewrite Nat.add_comm, Nat.div_add by lia.
    rewrite Nat.div_small by lia. lia.
  Qed.

  Lemma mod_eq q r : r < bs -> (q * bs + r) mod bs = r.
  Proof.
    intros H. pose proof bs_pos'. rewrite Nat.add_comm, Nat.mod_add by lia.
    apply Nat.mod_small; lia.
  Qed.

  Lemma divmod_ex n : exists q r, n = q * bs + r /\ r < bs.
  Proof.
    pose proof bs_pos'. exists (n / bs), (n mod bs).
    pose proof (Nat.div_mod n bs ltac:(lia)). pose proof (Nat.mod_upper_bound n bs ltac:(lia)). lia.
  Qed.

  Lemma phys_len_qr q r :
    r <= bs -> phys_len (q * bs + r) = q * ubs + (if r =? 0 then 0 else r + ov).
  Proof.
    intros Hr. unfold phys_len. pose proof bs_pos'.
    destruct (Nat.eq_dec r bs) as [->|Hne].
    - replace (q * bs + bs) with ((q + 1) * bs + 0) by lia.
      rewrite div_eq, mod_eq by lia. cbn [Nat.eqb]. rewrite ubs_eq.
      destruct (Nat.eqb_spec bs 0); lia.
    - rewrite div_eq, mod_eq by lia. reflexivity.
  Qed.

  (** Extent of block [i]. *)
  Lemma phys_len_block n i :
    i * bs < n -> min ubs (phys_len n - i * ubs) = min bs (n - i * bs) + ov.
  Proof.
    intros Hi. destruct (divmod_ex n) as (q & r & -> & Hr).
    rewrite phys_len_qr by lia. pose proof ubs_eq as HU.
    assert (Hiq : i <= q) by (eapply mul_lt_inv; [exact Hi|lia]).
    destruct (Nat.eq_dec i q) as [->|Hne].
    - destruct (Nat.eqb_spec r 0); lia.
    - pose proof (mul_lt_block i q bs ltac:(lia)). pose proof (mul_lt_block i q ubs ltac:(lia)).
      destruct (Nat.eqb_spec r 0); lia.
  Qed.

  Lemma phys_len_ge n i : i * bs <= n -> i * ubs <= phys_len n.
  Proof.
    intros Hi. destruct (divmod_ex n) as (q & r & -> & Hr). rewrite phys_len_qr by lia.
    assert (Hiq : i <= q).
    { destruct (Nat.le_gt_cases i q); [assumption|]. pose proof (mul_lt_block q i bs ltac:(lia)). lia. }
    pose proof (mul_le_mono i q ubs Hiq). lia.
  Qed.

  Lemma phys_len_le n i : n <= i * bs -> phys_len n <= i * ubs.
  Proof.
    intros Hi. destruct (divmod_ex n) as (q & r & -> & Hr). rewrite phys_len_qr by lia.
    pose proof ubs_eq. destruct (Nat.eqb_spec r 0) as [->|Hne].
    - assert (q <= i). { destruct (Nat.le_gt_cases q i); [assumption|].
        pose proof (mul_lt_block i q bs ltac:(lia)). pose proof bs_pos'. lia. }
      pose proof (mul_le_mono q i ubs ltac:(lia)). lia.
    - assert (q < i). { destruct (Nat.lt_ge_cases q i); [assumption|].
        pose proof (mul_le_mono i q bs ltac:(lia)). lia. }
      pose proof (mul_lt_block q i ubs ltac:(lia)). lia.
  Qed.

  Lemma phys_len_mono n m : n <= m -> phys_len n <= phys_len m.
  Proof.
    intros H. destruct (divmod_ex n) as (q & r & -> & Hr). rewrite phys_len_qr by lia.
    destruct (divmod_ex m) as (q' & r' & -> & Hr'). rewrite phys_len_qr by lia.
    assert (Hq : q <= q').
    { destruct (Nat.le_gt_cases q q'); [assumption|]. pose proof (mul_lt_block q' q bs ltac:(lia)). lia. }
    pose proof ubs_eq. destruct (Nat.eq_dec q q') as [->|Hne].
    - destruct (Nat.eqb_spec r 0), (Nat.eqb_spec r' 0); lia.
    - pose proof (mul_lt_block q q' ubs ltac:(lia)).
      destruct (Nat.eqb_spec r 0), (Nat.eqb_spec r' 0); lia.
  Qed.

  Lemma phys_len_max n m : phys_len (max n m) = max (phys_len n) (phys_len m).
  Proof.
    destruct (Nat.le_ge_cases n m) as [H|H]; pose proof (phys_len_mono _ _ H).
    - rewrite !Nat.max_r by lia. reflexivity.
    - rewrite !Nat.max_l by lia. reflexivity.
  Qed.

  (** Representation: state [s] stores content [c]. *)
  Record LRep (s : lite_st) (c : bytes) : Prop := {
    rep_len : length (l_file s) = l_header s + phys_len (length c);
    rep_hdr : exists id, length id = lite_id_size /\
      firstn (l_header s) (l_file s) = id ++ l_pad s /\
      session_key id = l_key s /\ padding_of id = length (l_pad s);
    rep_blk : forall i, i * bs < length c ->
      decode (l_key s) (l_pad s) i (arr_read (l_file s) (l_header s + i * ubs) ubs)
      = Ok (arr_read c (i * bs) bs)
  }.

  Lemma decode_length key pad i eb out :
    ov <= length eb -> decode key pad i eb = Ok out -> length out = length eb - ov.
  Proof.
    intros Hl. unfold lite_decode_block. destruct (all_zero eb).
    - intros H; injection H as <-. rewrite zeros_length. lia.
    - destruct (a_dec A key (firstn iv_size eb) (lite_aad pad i)
                 (arr_read eb iv_size (length eb - mac_size - iv_size))
                 (arr_read eb (length eb - mac_size) mac_size)) as [ok o] eqn:E.
      destruct (check && negb ok); [discriminate|]. intros H; injection H as <-.
      pose proof (aead_dec_len _ (le_aead _ _ _ _ _ HE) key (firstn iv_size eb) (lite_aad pad i)
                 (arr_read eb iv_size (length eb - mac_size - iv_size))
                 (arr_read eb (length eb - mac_size) mac_size)) as Hd.
      rewrite E in Hd. cbn [snd] in Hd. rewrite Hd, arr_read_length. lia.
  Qed.

  Lemma encode_length key pad i iv p :
    length iv = iv_size -> length (lite_encode_block A key pad i iv p) = length p + ov.
  Proof.
    intros Hiv. unfold lite_encode_block.
    pose proof (aead_ct_len _ (le_aead _ _ _ _ _ HE) key iv (lite_aad pad i) p) as H1.
    pose proof (aead_mac_len _ (le_aead _ _ _ _ _ HE) key iv (lite_aad pad i) p) as H2.
    destruct (a_enc A key iv (lite_aad pad i) p) as [ct mac]. cbn [fst snd] in *.
    rewrite !app_length. unfold mac_size. lia.
  Qed.

  Lemma decode_encode key pad i iv p :
    length iv = iv_size -> all_zero iv = false ->
    decode key pad i (lite_encode_block A key pad i iv p) = Ok p.
  Proof.
    intros Hiv Hnz. unfold lite_decode_block. rewrite (encode_length _ _ _ _ _ Hiv).
    unfold lite_encode_block.
    pose proof (aead_ct_len _ (le_aead _ _ _ _ _ HE) key iv (lite_aad pad i) p) as H1.
    pose proof (aead_mac_len _ (le_aead _ _ _ _ _ HE) key iv (lite_aad pad i) p) as H2.
    pose proof (aead_dec_enc _ (le_aead _ _ _ _ _ HE) key iv (lite_aad pad i) p) as H3.
    destruct (a_enc A key iv (lite_aad pad i) p) as [ct mac]. cbn [fst snd] in *.
    rewrite all_zero_app, Hnz. cbn [andb].
    replace (firstn iv_size (iv ++ ct ++ mac)) with iv.
    2: { rewrite firstn_app, Hiv, Nat.sub_diag, <- Hiv, firstn_all. cbn. symmetry. apply app_nil_r. }
    replace (arr_read (iv ++ ct ++ mac) iv_size (length p + ov - mac_size - iv_size)) with ct.
    2: { unfold arr_read. rewrite skipn_app, Hiv, Nat.sub_diag, <- Hiv, skipn_all. cbn [app skipn].
         rewrite firstn_app, firstn_all2 by lia.
         replace (length p + (length iv + mac_size) - mac_size - length iv - length ct) with 0 by lia.
         cbn. symmetry. apply app_nil_r. }
    replace (arr_read (iv ++ ct ++ mac) (length p + ov - mac_size) mac_size) with mac.
    2: { unfold arr_read. rewrite app_assoc, skipn_app, skipn_all2 by (rewrite app_length; lia).
         rewrite app_length. replace (length p + ov - mac_size - (length iv + length ct)) with 0 by lia.
         cbn [app skipn]. symmetry. apply firstn_all2. unfold mac_size. lia. }
    rewrite H3. cbn [negb]. rewrite andb_false_r. reflexivity.
  Qed.

  Lemma next_iv_ok fuel k :
    (exists j, j < fuel /\ all_zero (rnd (k + j) iv_size) = false) ->
    exists iv k', next_iv iv_size rnd fuel k = Ok (iv, k') /\
      length iv = iv_size /\ all_zero iv = false.
  Proof.
    revert k; induction fuel as [|f IH]; intros k (j & Hj & Hz); [lia|].
    cbn [next_iv]. destruct (all_zero (rnd k iv_size)) eqn:E.
    - apply IH. destruct j as [|j].
      + rewrite Nat.add_0_r in Hz. congruence.
      + exists j. split; [lia|]. replace (S k + j) with (k + S j) by lia. exact Hz.
    - exists (rnd k iv_size), (S k). split; [reflexivity|].
      split; [apply (le_rnd _ _ _ _ _ HE)|exact E].
  Qed.

  (** ** Reading *)

  Lemma read_loop_ok s c m :
    LRep s c -> forall a fuel,
    let buf := arr_read (l_file s) (l_header s + ubs * a) (m * ubs) in
    length buf <= fuel ->
    lite_read_loop A bs iv_size check fuel (l_key s) (l_pad s) a buf
    = Ok (arr_read c (a * bs) (m * bs)).
  Proof.
    intros HR. induction m as [|m IH]; intros a fuel buf Hfuel; subst buf.
    { rewrite Nat.mul_0_l in *. rewrite !arr_read_zero. destruct fuel; reflexivity. }
    set (buf := arr_read (l_file s) (l_header s + ubs * a) (S m * ubs)) in *.
    assert (Hblen : length buf = min (S m * ubs) (phys_len (length c) - a * ubs)).
    { unfold buf. rewrite arr_read_length, (rep_len _ _ HR). lia. }
    pose proof ubs_eq as HU. pose proof bs_pos' as Hbs.
    destruct (Nat.lt_ge_cases (a * bs) (length c)) as [Hin|Hout].
    - pose proof (phys_len_block _ _ Hin) as Hpb.
      destruct fuel as [|f]; [lia|].
      cbn [lite_read_loop]. destruct buf as [|x buf'] eqn:Ebuf; [cbn [length] in Hblen; lia|].
      rewrite <- Ebuf in *. clear Ebuf x buf'.
      assert (Hu : min ubs (length buf) = min bs (length c - a * bs) + ov) by (rewrite Hblen; lia).
      rewrite Hu.
      destruct (Nat.leb_spec (min bs (length c - a * bs) + ov) (mac_size + iv_size)) as [Hc|Hc]; [lia|].
      replace (firstn (min bs (length c - a * bs) + ov) buf)
        with (arr_read (l_file s) (l_header s + a * ubs) ubs).
      2: { rewrite <- Hu. unfold buf. apply bytes_ext.
           - rewrite firstn_length, !arr_read_length. lia.
           - intros i Hi. rewrite arr_read_length in Hi. rewrite get_firstn, !get_arr_read, arr_read_length.
             destruct (Nat.ltb_spec i ubs); [|lia].
             destruct (Nat.ltb_spec i (min ubs (min (S m * ubs) (length (l_file s) - (l_header s + ubs * a))))); [|lia].
             destruct (Nat.ltb_spec i (S m * ubs)); [|lia]. f_equal. lia. }
      rewrite (rep_blk _ _ HR a Hin). cbn [rbind].
      assert (Hrest : skipn (min bs (length c - a * bs) + ov) buf
                      = arr_read (l_file s) (l_header s + ubs * S a) (m * ubs)).
      { rewrite <- Hu. destruct (Nat.le_gt_cases ubs (length buf)) as [Hfull|Hpart].
        - rewrite Nat.min_l by lia. unfold buf. unfold arr_read.
          rewrite skipn_firstn_comm, skipn_skipn. f_equal; [lia|]. f_equal. lia.
        - rewrite Nat.min_r by lia. rewrite skipn_all.
          symmetry. apply arr_read_over. rewrite (rep_len _ _ HR). lia. }
      rewrite Hrest, IH.
      + cbn [rbind]. f_equal.
        replace (S m * bs) with (bs + m * bs) by lia. rewrite arr_read_split.
        replace (S a * bs) with (a * bs + bs) by lia. reflexivity.
      + rewrite <- Hrest, skipn_length. lia.
    - pose proof (phys_len_le _ _ Hout).
      assert (Hb0 : buf = []) by (apply length_zero_iff_nil; lia).
      rewrite Hb0. rewrite arr_read_over by lia. destruct fuel; reflexivity.
  Qed.

  (** ** Writing *)

  Lemma write_loop_ok m r :
    r <= bs -> forall block input k fuel key pad,
    m * bs + r <= length input ->
    let total := m * ubs + (if r <=? 0 then 0 else r + iv_size + mac_size) in
    total <= fuel ->
    exists buf k', lite_write_loop A bs iv_size rnd iv_fuel fuel key pad block total input k
                   = Ok (buf, k') /\
      length buf = total /\
      (forall j, j * bs < m * bs + r ->
        decode key pad (block + j) (arr_read buf (j * ubs) ubs)
        = Ok (arr_read (firstn (m * bs + r) input) (j * bs) bs)).
  Proof.
    intros Hr. pose proof ubs_eq as HU. pose proof bs_pos' as Hbs. unfold mac_size in *.
    induction m as [|m IH]; intros block input k fuel key pad Hin Hfuel.
    - rewrite !Nat.mul_0_l, !Nat.add_0_l in *.
      destruct (Nat.leb_spec r 0) as [H0|H0].
      + exists [], k. split; [destruct fuel; reflexivity|]. split; [reflexivity|].
        intros j Hj. lia.
      + destruct fuel as [|f]; [lia|]. cbn [lite_write_loop].
        destruct (Nat.eqb_spec (r + iv_size + 16) 0); [lia|].
        rewrite Nat.min_r by lia. unfold mac_size.
        replace (r + iv_size + 16 - 16 - iv_size) with r by lia.
        destruct (Nat.ltb_spec 0 r); [|lia].
        destruct (next_iv_ok iv_fuel k (le_nonzero _ _ _ _ _ HE k)) as (iv & k' & Hiv & Hl & Hnz).
        rewrite Hiv. cbn [rbind]. rewrite Nat.sub_diag.
        assert (Hend : forall f' blk inp kk, lite_write_loop A bs iv_size rnd iv_fuel f' key pad blk 0 inp kk
                       = Ok ([], kk)) by (intros [|f'] blk inp kk; reflexivity).
        rewrite Hend. cbn [rbind].
        exists (lite_encode_block A key pad block iv (firstn r input) ++ []), k'.
        split; [reflexivity|]. rewrite app_nil_r.
        assert (HL : length (lite_encode_block A key pad block iv (firstn r input)) = r + ov).
        { rewrite encode_length by exact Hl. rewrite firstn_length_le by lia. reflexivity. }
        split; [rewrite HL; unfold mac_size; lia|].
        intros j Hj. assert (j = 0) as -> by (destruct j; [reflexivity|lia]).
        rewrite !Nat.mul_0_l, Nat.add_0_r. rewrite arr_read_all by (rewrite HL; unfold mac_size; lia).
        rewrite decode_encode by assumption. f_equal.
        symmetry. apply arr_read_all. rewrite firstn_length. lia.
    - destruct fuel as [|f]; [lia|]. cbn [lite_write_loop].
      set (tot' := m * ubs + (if r <=? 0 then 0 else r + iv_size + 16)) in *.
      replace (S m * ubs + (if r <=? 0 then 0 else r + iv_size + 16)) with (ubs + tot') in * by (unfold tot'; lia).
      destruct (Nat.eqb_spec (ubs + tot') 0); [lia|].
      rewrite Nat.min_l by lia. unfold mac_size.
      replace (ubs - 16 - iv_size) with bs by lia.
      destruct (Nat.ltb_spec 0 bs); [|lia].
      destruct (next_iv_ok iv_fuel k (le_nonzero _ _ _ _ _ HE k)) as (iv & k' & Hiv & Hl & Hnz).
      rewrite Hiv. cbn [rbind].
      replace (ubs + tot' - ubs) with tot' by lia.
      destruct (IH (S block) (skipn bs input) k' f key pad) as (buf & k'' & Hlp & HLb & Hdec).
      { rewrite skipn_length. lia. }
      { unfold tot' in *. lia. }
      fold tot' in Hlp, HLb. rewrite Hlp. cbn [rbind].
      set (eb := lite_encode_block A key pad block iv (firstn bs input)).
      assert (HL : length eb = ubs).
      { unfold eb. rewrite encode_length by exact Hl. rewrite firstn_length_le by lia. unfold mac_size. lia. }
      exists (eb ++ buf), k''. split; [reflexivity|]. split; [rewrite app_length; lia|].
      intros j Hj. destruct j as [|j].
      + rewrite !Nat.mul_0_l, Nat.add_0_r.
        replace (arr_read (eb ++ buf) 0 ubs) with eb.
        2: { unfold arr_read. cbn [skipn]. rewrite firstn_app, HL, Nat.sub_diag, firstn_all2 by lia.
             cbn. symmetry. apply app_nil_r. }
        unfold eb. rewrite decode_encode by assumption. f_equal.
        unfold arr_read. cbn [skipn]. rewrite firstn_firstn. f_equal. lia.
      + replace (block + S j) with (S block + j) by lia.
        replace (arr_read (eb ++ buf) (S j * ubs) ubs) with (arr_read buf (j * ubs) ubs).
        2: { unfold arr_read. f_equal. rewrite skipn_app, HL.
             rewrite (skipn_all2 eb) by lia. cbn [app]. f_equal. lia. }
        rewrite Hdec by lia. f_equal.
        unfold arr_read. rewrite (firstn_skipn_comm (m * bs + r)).
        rewrite skipn_skipn. f_equal. f_equal; [lia|]. f_equal. lia.
  Qed.

  Lemma write_multi_ok s a e r input :
    a <= e -> e <= lite_max_blocks -> r <= bs -> (e - a) * bs + r <= length input ->
    exists buf k', lite_write_multi A bs iv_size rnd iv_fuel a e r input s
        = (mkLite (arr_write (l_file s) (l_header s + a * ubs) buf) (l_key s) (l_pad s) k', Ok tt) /\
      length buf = (e - a) * ubs + (if r =? 0 then 0 else r + ov) /\
      (forall j, j * bs < (e - a) * bs + r ->
        decode (l_key s) (l_pad s) (a + j) (arr_read buf (j * ubs) ubs)
        = Ok (arr_read (firstn ((e - a) * bs + r) input) (j * bs) bs)).
  Proof.
    intros Hae He Hr Hin. unfold lite_write_multi.
    rewrite lite_over_max_false by exact He.
    destruct (write_loop_ok (e - a) r Hr a input (l_rng s)
      ((e - a) * ubs + (if r <=? 0 then 0 else r + iv_size + mac_size)) (l_key s) (l_pad s) Hin
      (Nat.le_refl _)) as (buf & k' & Hlp & HL & Hd).
    rewrite Hlp. exists buf, k'. split.
    - do 2 f_equal. f_equal. lia.
    - split; [|exact Hd]. rewrite HL. destruct r; cbn [Nat.leb Nat.eqb]; lia.
  Qed.

  Lemma real_size_ok s c : LRep s c -> lite_size bs iv_size s = length c.
  Proof.
    intros HR. unfold lite_size. rewrite (rep_len _ _ HR).
    unfold l_header. pose proof ubs_eq as HU. pose proof bs_pos' as Hbs.
    unfold lite_id_size in *.
    destruct (divmod_ex (length c)) as (q & r & Hc & Hr). rewrite Hc, phys_len_qr by lia.
    set (t := q * ubs + (if r =? 0 then 0 else r + ov)).
    assert (Ht : t = 0 -> q * bs + r = 0).
    { unfold t. destruct (Nat.eqb_spec r 0) as [->|]; [|lia]. intros H.
      assert (q = 0) by (destruct q; [reflexivity|lia]). subst. lia. }
    destruct (Nat.leb_spec (16 + length (l_pad s) + t) (16 + length (l_pad s))) as [H0|H0].
    { symmetry. apply Ht. lia. }
    unfold calculate_real_size, lite_id_size.
    replace (16 + length (l_pad s) + t - length (l_pad s)) with (16 + t) by lia.
    destruct (Nat.leb_spec (16 + t) 16); [lia|].
    replace (16 + t - 16) with t by lia.
    replace (bs + iv_size + mac_size) with ubs by reflexivity.
    unfold t. set (w := if r =? 0 then 0 else r + ov).
    assert (Hw : w < ubs) by (unfold w; destruct (Nat.eqb_spec r 0); lia).
    rewrite (Nat.add_comm (q * ubs)), Nat.div_add, Nat.mod_add by lia.
    rewrite Nat.div_small, Nat.mod_small by lia. cbn [Nat.add].
    unfold w. destruct (Nat.eqb_spec r 0).
    - destruct (Nat.ltb_spec (iv_size + mac_size) 0); lia.
    - destruct (Nat.ltb_spec (iv_size + mac_size) (r + ov)); lia.
  Qed.

  (** ** The contract *)

  Lemma hdr_write s c off d :
    LRep s c -> l_header s <= off -> firstn (l_header s) (arr_write (l_file s) off d)
                = firstn (l_header s) (l_file s).
  Proof.
    intros HR Ho. pose proof (rep_len _ _ HR) as HL.
    apply bytes_ext.
    - rewrite !firstn_length, arr_write_length. destruct d; lia.
    - intros i Hi. rewrite firstn_length in Hi. rewrite !get_firstn, get_arr_write.
      destruct (Nat.ltb_spec i (l_header s)); [|reflexivity].
      destruct (Nat.leb_spec off i); [lia|reflexivity].
  Qed.

  Lemma hdr_resize s c n :
    LRep s c -> l_header s <= n -> firstn (l_header s) (arr_resize (l_file s) n)
                = firstn (l_header s) (l_file s).
  Proof.
    intros HR Ho. pose proof (rep_len _ _ HR) as HL. unfold arr_resize.
    rewrite firstn_app, firstn_firstn, Nat.min_l by lia.
    rewrite firstn_length.
    replace (l_header s - min n (length (l_file s))) with 0 by lia. apply app_nil_r.
  Qed.

  Lemma lite_backend_ok : backend_ok B LRep.
  Proof.
    pose proof ubs_eq as HU. pose proof bs_pos' as Hbs.
    constructor; rewrite ?bk_maxn_lite; cbn [bk_bs bk_size bk_read bk_write bk_adjust lite_backend bk_state].
    - exact Hbs.
    - apply real_size_ok.
    - (* read *)
      intros s c a b HR Hab Hb. unfold lite_read_multi.
      rewrite lite_over_max_false by exact Hb.
      apply (read_loop_ok s c (b - a) HR a). lia.
    - (* write *)
      intros s c a e r d HR Hae Hr Hlim Hd Hac Hend Hne.
      assert (He : e <= lite_max_blocks).
      { destruct (Nat.le_gt_cases e lite_max_blocks); [assumption|].
        pose proof (mul_lt_block lite_max_blocks e bs ltac:(lia)). lia. }
      destruct (write_multi_ok s a e r d Hae He Hr Hd) as (buf & k' & Hw & HLb & Hdec).
      eexists. split; [exact Hw|].
      set (d' := firstn ((e - a) * bs + r) d) in *.
      assert (Hd' : length d' = (e - a) * bs + r) by (unfold d'; rewrite firstn_length; lia).
      assert (Hsub : (e - a) * bs = e * bs - a * bs) by apply Nat.mul_sub_distr_r.
      assert (Hsubu : (e - a) * ubs = e * ubs - a * ubs) by apply Nat.mul_sub_distr_r.
      pose proof (mul_le_mono a e bs Hae) as Hm1. pose proof (mul_le_mono a e ubs Hae) as Hm2.
      pose proof (phys_len_ge _ _ Hac) as Hpg.
      assert (Hbne : 0 < length buf).
      { rewrite HLb. destruct (Nat.eqb_spec r 0); [|lia]. subst r.
        assert (e - a <> 0) by (intros Hz; rewrite Hz in Hne; lia).
        destruct (e - a); [lia|]. lia. }
      assert (Hc' : length (arr_write c (a * bs) d') = max (length c) (e * bs + r)).
      { rewrite arr_write_length_ne by lia. rewrite Hd'. lia. }
      constructor; cbn [l_file l_key l_pad l_rng l_header].
      + rewrite arr_write_length_ne by lia. rewrite Hc', phys_len_max, phys_len_qr by lia.
        unfold l_header at 2. cbn [l_pad]. fold (l_header s).
        rewrite (rep_len _ _ HR), HLb. lia.
      + destruct (rep_hdr _ _ HR) as (id & H1 & H2 & H3 & H4).
        exists id. split; [exact H1|]. split; [|split; assumption].
        change (l_header (mkLite (arr_write (l_file s) (l_header s + a * ubs) buf) (l_key s) (l_pad s) k'))
          with (l_header s).
        rewrite (hdr_write s c) by (try exact HR; lia). exact H2.
      + intros i Hi. rewrite Hc' in Hi.
        change (l_header (mkLite (arr_write (l_file s) (l_header s + a * ubs) buf) (l_key s) (l_pad s) k'))
          with (l_header s).
        pose proof (rep_len _ _ HR) as HL.
        destruct (Nat.lt_ge_cases i a) as [Hia|Hia].
        { (* before the range *)
          pose proof (mul_lt_block i a bs Hia). pose proof (mul_lt_block i a ubs Hia).
          rewrite !arr_read_write_disj_l by lia.
          apply (rep_blk _ _ HR). lia. }
        pose proof (mul_le_mono a i bs Hia). pose proof (mul_le_mono a i ubs Hia).
        destruct (Nat.lt_ge_cases (i * bs) (e * bs + r)) as [Hin|Hout].
        * (* inside the range *)
          assert (Hie : i <= e) by (eapply mul_lt_inv; [exact Hin|exact Hr]).
          pose proof (mul_le_mono i e ubs Hie). pose proof (mul_le_mono i e bs Hie).
          assert (Hsi : (i - a) * bs = i * bs - a * bs) by apply Nat.mul_sub_distr_r.
          assert (Hsiu : (i - a) * ubs = i * ubs - a * ubs) by apply Nat.mul_sub_distr_r.
          assert (Hf : arr_read (arr_write (l_file s) (l_header s + a * ubs) buf)
                        (l_header s + i * ubs) ubs = arr_read buf ((i - a) * ubs) ubs).
          { destruct (Nat.lt_ge_cases i e) as [Hlt|Hge].
            - pose proof (mul_lt_block i e ubs Hlt).
              rewrite arr_read_write_in by (rewrite ?HLb; destruct (r =? 0); lia). f_equal; lia.
            - assert (i = e) as -> by lia.
              destruct (Nat.eqb_spec r 0) as [Hr0|Hr0]; [lia|].
              destruct (Nat.eq_dec r bs) as [->|Hrb].
              + rewrite arr_read_write_in by (rewrite ?HLb; lia). f_equal; lia.
              + assert (length c <= e * bs + r) by lia.
                rewrite arr_read_write_tail; [f_equal; lia|lia|lia|].
                pose proof (phys_len_mono (length c) (e * bs + r) ltac:(lia)) as Hpm.
                rewrite phys_len_qr in Hpm by lia. destruct (Nat.eqb_spec r 0); lia. }
          assert (Hg : arr_read (arr_write c (a * bs) d') (i * bs) bs = arr_read d' ((i - a) * bs) bs).
          { destruct (Nat.lt_ge_cases i e) as [Hlt|Hge].
            - pose proof (mul_lt_block i e bs Hlt).
              rewrite arr_read_write_in by (rewrite ?Hd'; lia). f_equal; lia.
            - assert (i = e) as -> by lia.
              destruct (Nat.eq_dec r bs) as [->|Hrb].
              + rewrite arr_read_write_in by (rewrite ?Hd'; lia). f_equal; lia.
              + rewrite arr_read_write_tail; [f_equal; lia|lia|lia|lia]. }
          rewrite Hf, Hg. replace i with (a + (i - a)) at 1 by lia. apply Hdec. lia.
        * (* after the range *)
          assert (i * bs < length c) by lia.
          rewrite (arr_read_write_disj_r c) by (rewrite Hd'; lia).
          rewrite arr_read_write_disj_r.
          { apply (rep_blk _ _ HR). lia. }
          rewrite HLb. destruct (Nat.eqb_spec r 0) as [Hr0|Hr0].
          -- assert (e <= i). { destruct (Nat.le_gt_cases e i); [assumption|].
               pose proof (mul_lt_block i e bs ltac:(lia)). lia. }
             pose proof (mul_le_mono e i ubs ltac:(lia)). lia.
          -- assert (e < i). { destruct (Nat.lt_ge_cases e i); [assumption|].
               pose proof (mul_le_mono i e bs ltac:(lia)). lia. }
             pose proof (mul_lt_block e i ubs ltac:(lia)). lia.
    - (* shrink *)
      intros s c e r d HR Hr Hrb Hlt Hm Hd.
      destruct (write_multi_ok s e e r d (Nat.le_refl _) ltac:(lia) ltac:(lia) ltac:(lia))
        as (buf & k' & Hw & HLb & Hdec).
      rewrite Nat.sub_diag, !Nat.mul_0_l, !Nat.add_0_l in *.
      assert (Hlb : length buf = r + ov) by (rewrite HLb; destruct (Nat.eqb_spec r 0); lia). clear HLb.
      eexists. eexists. split; [exact Hw|]. split; [reflexivity|].
      rewrite div_eq, mod_eq by lia. cbn [l_file l_key l_pad l_rng].
      destruct (Nat.ltb_spec 0 r); [|lia].
      set (s1 := mkLite (arr_write (l_file s) (l_header s + e * ubs) buf) (l_key s) (l_pad s) k').
      change (l_header s1) with (l_header s).
      pose proof (rep_len _ _ HR) as HL.
      assert (Hfl : l_header s + e * ubs + (r + ov) <= length (l_file s)).
      { pose proof (phys_len_mono (e * bs + r) (length c) ltac:(lia)) as Hpm.
        rewrite phys_len_qr in Hpm by lia. destruct (Nat.eqb_spec r 0); lia. }
      set (nl := l_header s + e * ubs + (r + iv_size + mac_size)).
      assert (Hnl : nl = l_header s + e * ubs + (r + ov)) by (unfold nl; lia).
      constructor; cbn [l_file l_key l_pad l_rng].
      + rewrite arr_resize_length, app_length, !firstn_length, !Nat.min_l by lia.
        change (l_header (mkLite (arr_resize (arr_write (l_file s) (l_header s + e * ubs) buf) nl)
           (l_key s) (l_pad s) k')) with (l_header s).
        rewrite phys_len_qr by lia. destruct (Nat.eqb_spec r 0); lia.
      + destruct (rep_hdr _ _ HR) as (id & H1 & H2 & H3 & H4).
        exists id. split; [exact H1|]. split; [|split; assumption].
        change (l_header (mkLite (arr_resize (arr_write (l_file s) (l_header s + e * ubs) buf) nl)
           (l_key s) (l_pad s) k')) with (l_header s).
        rewrite <- H2, <- (hdr_write s c (l_header s + e * ubs) buf HR) by lia.
        unfold arr_resize. rewrite firstn_app, firstn_firstn, Nat.min_l by lia.
        rewrite firstn_length, arr_write_length_ne by lia.
        replace (l_header s - min nl (max (length (l_file s)) (l_header s + e * ubs + length buf)))
          with 0 by lia.
        apply app_nil_r.
      + intros i Hi. rewrite app_length, !firstn_length, !Nat.min_l in Hi by lia.
        change (l_header (mkLite (arr_resize (arr_write (l_file s) (l_header s + e * ubs) buf) nl)
           (l_key s) (l_pad s) k')) with (l_header s).
        assert (Hie : i <= e) by (eapply mul_lt_inv; [exact Hi|lia]).
        assert (Hwl : length (arr_write (l_file s) (l_header s + e * ubs) buf) = length (l_file s)).
        { rewrite arr_write_length_ne; lia. }
        destruct (Nat.lt_ge_cases i e) as [Hlt'|Hge].
        * pose proof (mul_lt_block i e ubs Hlt'). pose proof (mul_lt_block i e bs Hlt').
          rewrite arr_read_resize by lia. rewrite arr_read_write_disj_l by lia.
          rewrite (rep_blk _ _ HR i) by lia. f_equal.
          unfold arr_read. rewrite skipn_app, skipn_firstn_comm.
          rewrite firstn_app, firstn_firstn, Nat.min_l by lia.
          rewrite firstn_length, firstn_length, skipn_length.
          replace (bs - min (e * bs - i * bs) (length c - i * bs)) with 0 by lia.
          cbn [firstn]. symmetry; apply app_nil_r.
        * assert (i = e) as -> by lia.
          replace (arr_read (arr_resize (arr_write (l_file s) (l_header s + e * ubs) buf) nl)
                     (l_header s + e * ubs) ubs) with (arr_read buf (0 * ubs) ubs).
          2: { rewrite Nat.mul_0_l. apply bytes_ext.
               - rewrite !arr_read_length, arr_resize_length. lia.
               - intros i Hi'. rewrite arr_read_length in Hi'.
                 rewrite !get_arr_read, get_arr_resize, get_arr_write.
                 destruct (Nat.ltb_spec i ubs); [|lia].
                 destruct (Nat.ltb_spec (l_header s + e * ubs + i) nl); [|lia].
                 destruct (Nat.leb_spec (l_header s + e * ubs) (l_header s + e * ubs + i)); [|lia].
                 destruct (Nat.ltb_spec (l_header s + e * ubs + i) (l_header s + e * ubs + length buf)); [|lia].
                 cbn [andb]. f_equal. lia. }
          replace e with (e + 0) at 1 by lia. rewrite Hdec by lia. f_equal.
          rewrite Nat.mul_0_l. apply bytes_ext.
          -- rewrite !arr_read_length, app_length, !firstn_length. lia.
          -- intros i Hi'. rewrite arr_read_length, firstn_length in Hi'.
             rewrite !get_arr_read, get_app, firstn_length, !get_firstn.
             destruct (Nat.ltb_spec i bs); [|lia].
             destruct (Nat.ltb_spec (e * bs + i) (min (e * bs) (length c))); [lia|].
             f_equal; cbn [Nat.add].
             replace (e * bs + i - min (e * bs) (length c)) with i by lia. reflexivity.
    - (* truncate *)
      intros s c e HR He. eexists. split; [reflexivity|].
      replace (e * bs) with (e * bs + 0) by lia.
      rewrite div_eq, mod_eq by lia. cbn [Nat.ltb Nat.leb].
      rewrite !Nat.add_0_r.
      pose proof (rep_len _ _ HR) as HL. pose proof (phys_len_ge _ _ He) as Hpg.
      set (nl := l_header s + e * ubs).
      constructor; cbn [l_file l_key l_pad l_rng].
      + change (l_header (mkLite (arr_resize (l_file s) nl) (l_key s) (l_pad s) (l_rng s))) with (l_header s).
        rewrite arr_resize_length, firstn_length, Nat.min_l by lia.
        replace (e * bs) with (e * bs + 0) by lia. rewrite phys_len_qr by lia. cbn [Nat.eqb]. lia.
      + destruct (rep_hdr _ _ HR) as (id & H1 & H2 & H3 & H4).
        exists id. split; [exact H1|]. split; [|split; assumption].
        change (l_header (mkLite (arr_resize (l_file s) nl) (l_key s) (l_pad s) (l_rng s))) with (l_header s).
        rewrite (hdr_resize s c) by (try exact HR; lia). exact H2.
      + change (l_header (mkLite (arr_resize (l_file s) nl) (l_key s) (l_pad s) (l_rng s))) with (l_header s).
        intros i Hi. rewrite firstn_length, Nat.min_l in Hi by lia.
        assert (Hie : i < e).
        { destruct (Nat.lt_ge_cases i e); [assumption|]. pose proof (mul_le_mono e i bs ltac:(lia)). lia. }
        pose proof (mul_lt_block i e ubs Hie). pose proof (mul_lt_block i e bs Hie).
        rewrite arr_read_resize by lia. rewrite (rep_blk _ _ HR i) by lia. f_equal.
        unfold arr_read. rewrite skipn_firstn_comm, firstn_firstn. f_equal. lia.
    - (* grow *)
      intros s c n HR Hn Hcase. eexists. split; [reflexivity|].
      pose proof (rep_len _ _ HR) as HL.
      pose proof (phys_len_mono _ _ Hn) as Hpm.
      set (nl := l_header s + n / bs * ubs + (if 0 <? n mod bs then n mod bs + iv_size + mac_size else 0)).
      assert (Hnl : nl = l_header s + phys_len n).
      { unfold nl, phys_len. destruct (n mod bs); cbn [Nat.ltb Nat.leb Nat.eqb]; lia. }
      assert (Hlc : length (c ++ zeros (n - length c)) = n) by (rewrite app_length, zeros_length; lia).
      constructor; cbn [l_file l_key l_pad l_rng].
      + change (l_header (mkLite (arr_resize (l_file s) nl) (l_key s) (l_pad s) (l_rng s))) with (l_header s).
        rewrite arr_resize_length, Hlc. exact Hnl.
      + destruct (rep_hdr _ _ HR) as (id & H1 & H2 & H3 & H4).
        exists id. split; [exact H1|]. split; [|split; assumption].
        change (l_header (mkLite (arr_resize (l_file s) nl) (l_key s) (l_pad s) (l_rng s))) with (l_header s).
        rewrite (hdr_resize s c) by (try exact HR; lia). exact H2.
      + change (l_header (mkLite (arr_resize (l_file s) nl) (l_key s) (l_pad s) (l_rng s))) with (l_header s).
        intros i Hi. rewrite Hlc in Hi.
        destruct Hcase as [Heq|(q & Hq)].
        { rewrite Heq, Nat.sub_diag. cbn [zeros repeat]. rewrite app_nil_r.
          replace nl with (length (l_file s)) by (rewrite Hnl, HL, Heq; reflexivity).
          rewrite arr_resize_same. apply (rep_blk _ _ HR). lia. }
        assert (HLq : length (l_file s) = l_header s + q * ubs).
        { rewrite HL, Hq. replace (q * bs) with (q * bs + 0) by lia. rewrite phys_len_qr by lia.
          cbn [Nat.eqb]. lia. }
        destruct (Nat.lt_ge_cases i q) as [Hiq|Hiq].
        * pose proof (mul_lt_block i q ubs Hiq). pose proof (mul_lt_block i q bs Hiq).
          rewrite arr_read_resize by lia. rewrite (rep_blk _ _ HR i) by lia. f_equal.
          unfold arr_read. rewrite skipn_app, firstn_app, skipn_length.
          replace (bs - (length c - i * bs)) with 0 by lia. cbn [firstn]. symmetry. apply app_nil_r.
        * pose proof (mul_le_mono q i ubs Hiq). pose proof (mul_le_mono q i bs Hiq).
          pose proof (phys_len_block _ _ Hi) as Hpb.
          assert (Hz : arr_read (arr_resize (l_file s) nl) (l_header s + i * ubs) ubs
                       = zeros (min bs (n - i * bs) + ov)).
          { rewrite <- Hpb. apply bytes_ext.
            - rewrite arr_read_length, arr_resize_length, zeros_length. lia.
            - intros j Hj. rewrite get_arr_read, get_arr_resize, get_zeros.
              destruct (j <? ubs); [|reflexivity].
              destruct (l_header s + i * ubs + j <? nl); [|reflexivity].
              apply get_over. lia. }
          rewrite Hz. unfold lite_decode_block. rewrite all_zero_zeros, zeros_length.
          f_equal. apply bytes_ext.
          -- rewrite zeros_length, arr_read_length, Hlc. lia.
          -- intros j Hj. rewrite zeros_length in Hj. rewrite get_zeros, get_arr_read, get_app, get_zeros.
             destruct (j <? bs); [|reflexivity].
             destruct (Nat.ltb_spec (i * bs + j) (length c)); [lia|reflexivity].
  Qed.

  (** ** Opening *)

  Lemma lite_open_fresh k :
    exists s, lite_open bs iv_size session_key padding_of rnd [] k = Ok s /\ LRep s [].
  Proof.
    unfold lite_open. pose proof (le_bs _ _ _ _ _ HE). pose proof (le_iv_min _ _ _ _ _ HE).
    pose proof (le_iv_max _ _ _ _ _ HE).
    destruct (Nat.ltb_spec iv_size 12); [lia|]. destruct (Nat.ltb_spec 32 iv_size); [lia|]. cbn [orb].
    destruct (Nat.ltb_spec bs 32); [lia|].
    rewrite arr_read_nil. cbn [length Nat.eqb].
    pose proof (le_rnd _ _ _ _ _ HE k lite_id_size) as Hid.
    assert (Hw : arr_write [] 0 (rnd k lite_id_size) = rnd k lite_id_size).
    { change 0 with (length (@nil byte)). rewrite arr_write_app. reflexivity. }
    rewrite Hw.
    assert (Hp0 : phys_len 0 = 0).
    { unfold phys_len. rewrite Nat.div_small, Nat.mod_small by lia. reflexivity. }
    destruct (Nat.eqb_spec (padding_of (rnd k lite_id_size)) 0) as [E|E].
    - eexists. split; [reflexivity|]. constructor; cbn [l_file l_key l_pad].
      + unfold l_header. cbn [l_pad length]. rewrite Hp0. lia.
      + exists (rnd k lite_id_size). split; [exact Hid|]. unfold l_header. cbn [l_pad length].
        rewrite firstn_all2 by lia. rewrite app_nil_r. auto.
      + intros i Hi. cbn [length] in Hi. lia.
    - set (id := rnd k lite_id_size) in *.
      set (pad := skipn 4 (rnd (S k) (4 + padding_of id))).
      assert (Hpad : length pad = padding_of id).
      { unfold pad. rewrite skipn_length, (le_rnd _ _ _ _ _ HE). lia. }
      assert (Hw2 : arr_write id lite_id_size pad = id ++ pad).
      { rewrite <- Hid at 1. apply arr_write_app. }
      eexists. split; [reflexivity|]. constructor; cbn [l_file l_key l_pad].
      + rewrite Hw2, app_length. unfold l_header. cbn [l_pad length]. rewrite Hp0, Hid. lia.
      + exists id. split; [exact Hid|]. unfold l_header. cbn [l_pad length].
        rewrite Hw2, firstn_all2 by (rewrite app_length; lia). auto.
      + intros i Hi. cbn [length] in Hi. lia.
  Qed.

  Lemma lite_reopen s c k :
    LRep s c ->
    lite_open bs iv_size session_key padding_of rnd (l_file s) k
      = Ok (mkLite (l_file s) (l_key s) (l_pad s) k) /\
    LRep (mkLite (l_file s) (l_key s) (l_pad s) k) c.
  Proof.
    intros HR. split.
    - unfold lite_open. pose proof (le_bs _ _ _ _ _ HE). pose proof (le_iv_min _ _ _ _ _ HE).
      pose proof (le_iv_max _ _ _ _ _ HE).
      destruct (Nat.ltb_spec iv_size 12); [lia|]. destruct (Nat.ltb_spec 32 iv_size); [lia|]. cbn [orb].
      destruct (Nat.ltb_spec bs 32); [lia|].
      destruct (rep_hdr _ _ HR) as (id & I1 & I2 & I3 & I4).
      pose proof (rep_len _ _ HR) as HL.
      assert (Hid : arr_read (l_file s) 0 lite_id_size = id).
      { unfold arr_read. cbn [skipn].
        replace (firstn lite_id_size (l_file s)) with (firstn lite_id_size (firstn (l_header s) (l_file s))).
        - rewrite I2, firstn_app, I1, Nat.sub_diag, firstn_all2 by lia. apply app_nil_r.
        - rewrite firstn_firstn, Nat.min_l by (unfold l_header; lia). reflexivity. }
      assert (Hpad : arr_read (l_file s) lite_id_size (padding_of id) = l_pad s).
      { unfold arr_read. rewrite I4.
        rewrite firstn_skipn_comm. change (lite_id_size + length (l_pad s)) with (l_header s).
        rewrite I2, skipn_app, I1, Nat.sub_diag, skipn_all2 by lia. reflexivity. }
      rewrite Hid. rewrite I1. cbn [lite_id_size Nat.eqb negb].
      change 16 with lite_id_size. rewrite Hpad, I4, Nat.eqb_refl. cbn [negb]. rewrite andb_false_r.
      rewrite I3. reflexivity.
    - destruct HR as [R1 R2 R3]. constructor; assumption.
  Qed.

  (** ** Refinement for any history with reopens *)

  Lemma lite_refines s c ops :
    LRep s c -> length c <= lite_max_blocks * bs -> Forall (lop_within (lite_max_blocks * bs)) ops ->
    exists s',
      run_ops (lite_step A bs iv_size check sparse session_key padding_of rnd iv_fuel) s ops
        = (s', snd (run_ops lspec_step c ops)) /\
      LRep s' (fst (run_ops lspec_step c ops)) /\
      length (fst (run_ops lspec_step c ops)) <= lite_max_blocks * bs.
  Proof.
    revert s c. induction ops as [|o ops IH]; intros s c HR Hl Hall.
    - exists s. auto.
    - inversion Hall as [|? ? Ho Hops]; subst.
      assert (Hst : exists s1, lite_step A bs iv_size check sparse session_key padding_of rnd iv_fuel s o
                = (s1, snd (lspec_step c o)) /\ LRep s1 (fst (lspec_step c o)) /\
                length (fst (lspec_step c o)) <= lite_max_blocks * bs).
      { destruct o as [o'|]; cbn [lite_step lspec_step].
        - destruct (bb_step_ok B LRep lite_backend_ok s c o' HR
            ltac:(rewrite bk_maxn_lite; exact Hl) ltac:(rewrite bk_maxn_lite; exact Ho)) as (s1 & Hs & HR1 & Hl1).
          rewrite bk_maxn_lite in Hl1. rewrite Hs. destruct (spec_step c o') as [c1 r1]. cbn [fst snd] in *. exists s1. auto.
        - destruct (lite_reopen s c (l_rng s) HR) as [Ho' HR1]. rewrite Ho'. cbn [fst snd].
          eexists. split; [reflexivity|]. split; [exact HR1|exact Hl]. }
      destruct Hst as (s1 & Hs & HR1 & Hl1).
      destruct (IH s1 _ HR1 Hl1 Hops) as (s2 & Hs2 & HR2 & Hl2).
      exists s2. cbn [run_ops]. rewrite Hs.
      destruct (lspec_step c o) as [c1 r1]. cbn [fst snd] in *.
      rewrite Hs2. destruct (run_ops lspec_step c1 ops) as [c2 rs]. auto.
  Qed.
End LiteProofs.
