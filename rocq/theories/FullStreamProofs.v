(** The full-format stream refines (content, header). *)
From Verif Require Import Base BaseLemmas StreamSpec BlockModel BlockProofs CodecModel
  LiteModel LiteProofs FullStreamModel.

Definition full_max_blocks : nat := N.to_nat full_max_blocks_N.

Lemma full_over_max_false b : b <= full_max_blocks -> over_max full_max_blocks_N b = false.
Proof. unfold full_max_blocks. apply over_max_false. Qed.

Lemma full_over_max_inv b : over_max full_max_blocks_N b = false -> b <= full_max_blocks.
Proof. unfold over_max, full_max_blocks. rewrite N.ltb_ge. lia. Qed.

Lemma bk_maxn_full A dkey id bs iv_size header_size check sparse rnd iv_fuel :
  bk_maxn (full_backend A dkey id bs iv_size header_size check sparse rnd iv_fuel) = full_max_blocks.
Proof. unfold bk_maxn, full_max_blocks. cbn [bk_max full_backend]. reflexivity. Qed.

(* a huge [nat]: never unfold it *)
#[global] Opaque full_max_blocks.

(** ** A suffix of a stored file behaves like a file *)

Lemma skipn_arr_read p raw off len : arr_read raw (off + p) len = arr_read (skipn p raw) off len.
Proof. unfold arr_read. rewrite skipn_skipn. reflexivity. Qed.

Lemma get_skipn {p raw} i : get (skipn p raw) i = get raw (p + i).
Proof.
  unfold get. revert raw. induction p as [|p IH]; intros raw; [reflexivity|].
  destruct raw; [destruct i; reflexivity|]. apply IH.
Qed.

Lemma skipn_arr_write p raw off d : skipn p (arr_write raw (off + p) d) = arr_write (skipn p raw) off d.
Proof.
  destruct d as [|x d']; [reflexivity|]. set (d := x :: d'). assert (Hd : 0 < length d) by (cbn; lia).
  apply bytes_ext.
  - rewrite skipn_length, !arr_write_length_ne, skipn_length by lia. lia.
  - intros i _. rewrite get_skipn, !get_arr_write, get_skipn.
    destruct (Nat.leb_spec (off + p) (p + i)), (Nat.leb_spec off i); try lia; cbn [andb]; [|reflexivity].
    destruct (Nat.ltb_spec (p + i) (off + p + length d)), (Nat.ltb_spec i (off + length d)); try lia;
      [|reflexivity]. f_equal. lia.
Qed.

Lemma skipn_arr_resize p raw n : skipn p (arr_resize raw (n + p)) = arr_resize (skipn p raw) n.
Proof.
  apply bytes_ext.
  - rewrite skipn_length, !arr_resize_length. lia.
  - intros i _. rewrite get_skipn, !get_arr_resize, get_skipn.
    destruct (Nat.ltb_spec (p + i) (n + p)), (Nat.ltb_spec i n); try lia; reflexivity.
Qed.

Lemma all_zero_get l : (forall i, i < length l -> get l i = x00) -> all_zero l = true.
Proof.
  intros H. apply all_zero_iff. apply bytes_ext; [rewrite zeros_length; reflexivity|].
  intros i Hi. rewrite get_zeros. apply H, Hi.
Qed.

Lemma run_mac_loop_ok fuel chunk raw off :
  0 < chunk -> length raw - off < fuel -> run_mac_loop fuel chunk raw off = Ok (skipn off raw).
Proof.
  intros Hc. revert off. induction fuel as [|f IH]; intros off Hf; [lia|].
  cbn [run_mac_loop]. destruct (Nat.eqb_spec (length (arr_read raw off chunk)) 0) as [E|E].
  - rewrite arr_read_length in E. rewrite skipn_all2 by lia. reflexivity.
  - rewrite IH by (rewrite arr_read_length in *; lia). cbn [rmap]. f_equal.
    unfold arr_read at 1. rewrite <- (firstn_skipn chunk (skipn off raw)) at 2. f_equal.
    rewrite skipn_skipn. rewrite arr_read_length in *.
    destruct (Nat.le_ge_cases chunk (length raw - off)).
    + f_equal. lia.
    + rewrite !skipn_all2 by lia. reflexivity.
Qed.

Lemma mac_message_ok id raw : mac_message id raw = Ok (id ++ skipn hmac_len raw).
Proof. unfold mac_message. rewrite run_mac_loop_ok by lia. reflexivity. Qed.

(** Assumptions on the environment. *)
Record full_env_ok (A : aead) (hmac : bytes -> bytes -> bytes) (bs iv_size : nat)
    (rnd : nat -> nat -> bytes) (iv_fuel : nat) : Prop := {
  fe_aead : aead_ok A;
  fe_hmac : forall k m, length (hmac k m) = 32;
  fe_bs : 0 < bs;
  fe_iv : 0 < iv_size;
  fe_rnd : forall k n, length (rnd k n) = n;
  fe_nonzero : forall k, exists j, j < iv_fuel /\ all_zero (rnd (k + j) iv_size) = false
}.

Section FullProofs.
  Variable A : aead.
  Variable hmac : bytes -> bytes -> bytes.
  Variable dkey mkey id : bytes.
  Variable bs iv_size header_size : nat.
  Variable check sparse : bool.
  Variable rnd : nat -> nat -> bytes.
  Variable iv_fuel : nat.
  Hypothesis HE : full_env_ok A hmac bs iv_size rnd iv_fuel.

  Notation ms := (meta_size iv_size).
  Notation ehs := (enc_header_size iv_size header_size).
  (** Strict decoding: an all-zero record only goes with an all-zero block. *)
  Definition sdecode (d m : bytes) : res bytes :=
    if all_zero m && negb (all_zero d) then Err EUndef
    else full_decode_block A dkey id iv_size true d m.

  Lemma sdecode_decode ck d m p : sdecode d m = Ok p -> full_decode_block A dkey id iv_size ck d m = Ok p.
  Proof.
    unfold sdecode. destruct (_ && _); [discriminate|]. unfold full_decode_block.
    destruct (_ && _); [auto|]. destruct (a_dec _ _ _ _ _ _) as [[] o]; [auto|discriminate].
  Qed.

  Notation decode := sdecode.
  Notation B := (full_backend A dkey id bs iv_size header_size check sparse rnd iv_fuel).
  Notation body s := (skipn hmac_len (f_meta s)).

  Lemma fbs_pos : 0 < bs. Proof. exact (fe_bs _ _ _ _ _ _ HE). Qed.
  Lemma ms_pos : 0 < ms. Proof. unfold meta_size, mac_size. lia. Qed.

  (** Number of blocks. *)
  Definition nb (n : nat) : nat := (n + bs - 1) / bs.

  Lemma nb_qr q r : r <= bs -> nb (q * bs + r) = q + (if r =? 0 then 0 else 1).
  Proof.
    intros Hr. pose proof fbs_pos. unfold nb. destruct (Nat.eqb_spec r 0) as [->|Hne].
    - replace (q * bs + 0 + bs - 1) with (bs - 1 + q * bs) by lia.
      rewrite Nat.div_add, Nat.div_small by lia. lia.
    - replace (q * bs + r + bs - 1) with (r - 1 + (q + 1) * bs) by lia.
      rewrite Nat.div_add, Nat.div_small by lia. lia.
  Qed.

  Lemma f_divmod n : exists q r, n = q * bs + r /\ r < bs.
  Proof.
    pose proof fbs_pos. exists (n / bs), (n mod bs).
    pose proof (Nat.div_mod n bs ltac:(lia)). pose proof (Nat.mod_upper_bound n bs ltac:(lia)). lia.
  Qed.

  Lemma nb_spec n i : i < nb n <-> i * bs < n.
  Proof.
    destruct (f_divmod n) as (q & r & -> & Hr). rewrite nb_qr by lia. pose proof fbs_pos.
    split; intros Hi.
    - destruct (Nat.eqb_spec r 0).
      + pose proof (mul_lt_block i q bs ltac:(lia)). lia.
      + pose proof (mul_le_mono i q bs ltac:(lia)). lia.
    - assert (i <= q) by (eapply mul_lt_inv; [exact Hi|lia]).
      destruct (Nat.eqb_spec r 0); [|lia]. destruct (Nat.eq_dec i q); [subst; lia|lia].
  Qed.

  Lemma nb_mono n m : n <= m -> nb n <= nb m.
  Proof. intros H. unfold nb. apply Nat.div_le_mono; pose proof fbs_pos; lia. Qed.

  Lemma nb_max n m : nb (max n m) = max (nb n) (nb m).
  Proof.
    destruct (Nat.le_ge_cases n m) as [H|H]; pose proof (nb_mono _ _ H);
      [rewrite !Nat.max_r by lia|rewrite !Nat.max_l by lia]; reflexivity.
  Qed.

  (** The stored header. *)
  Definition dec_header (buf : bytes) : bytes :=
    snd (a_dec A dkey (firstn iv_size buf) id (skipn (iv_size + mac_size) buf) (arr_read buf iv_size mac_size)).

  Definition hdr_ok (h : option bytes) (b : bytes) : Prop :=
    match h with
    | None => all_zero (firstn ehs b) = true
    | Some p => ehs <= length b /\ length p = header_size /\ dec_header (firstn ehs b) = p
    end.

  Record FRep (h : option bytes) (s : full_st) (c : bytes) : Prop := {
    fr_data : length (f_data s) = length c;
    fr_meta : length (body s) = ehs + ms * nb (length c) \/ (length (body s) = 0 /\ length c = 0);
    fr_hdr : hdr_ok h (body s);
    fr_blk : forall i, i * bs < length c ->
      decode (arr_read (f_data s) (i * bs) bs) (arr_read (body s) (ehs + ms * i) ms)
      = Ok (arr_read c (i * bs) bs);
    fr_mac : f_dirty s = false ->
      f_meta s = [] \/ (hmac_len <= length (f_meta s) /\ firstn hmac_len (f_meta s) = hmac mkey (id ++ body s))
  }.

  Lemma hdr_ok_ext h b b' :
    hdr_ok h b -> (ehs <= length b -> ehs <= length b' /\ firstn ehs b' = firstn ehs b) ->
    (length b = 0 -> all_zero (firstn ehs b') = true) -> (length b = 0 \/ ehs <= length b) -> hdr_ok h b'.
  Proof.
    intros H1 H2 H3 H4. destruct h as [p|]; cbn in *.
    - destruct H1 as (L & Lp & D). destruct (H2 L) as [L' E]. rewrite E. auto.
    - destruct H4 as [H4|H4]; [auto|]. destruct (H2 H4) as [_ ->]. exact H1.
  Qed.

  Lemma fdecode_length d m out : decode d m = Ok out -> length out = length d.
  Proof.
    intros H. apply (sdecode_decode true) in H. revert H.
    unfold full_decode_block. destruct (_ && _).
    - intros H; injection H as <-. apply zeros_length.
    - pose proof (aead_dec_len _ (fe_aead _ _ _ _ _ _ HE) dkey (firstn iv_size m) id d (skipn iv_size m)) as HL.
      destruct (a_dec _ _ _ _ _ _) as [ok o]. destruct (_ && _); [discriminate|].
      intros H; injection H as <-. exact HL.
  Qed.

  Lemma fdecode_encode iv p :
    length iv = iv_size -> all_zero iv = false ->
    decode (fst (a_enc A dkey iv id p)) (iv ++ snd (a_enc A dkey iv id p)) = Ok p.
  Proof.
    intros Hl Hz. unfold sdecode, full_decode_block. rewrite all_zero_app, Hz. cbn [andb].
    rewrite firstn_app, Hl, Nat.sub_diag, firstn_all2, app_nil_r by lia.
    rewrite skipn_app, Hl, Nat.sub_diag, skipn_all2 by lia. cbn [app skipn].
    rewrite (aead_dec_enc _ (fe_aead _ _ _ _ _ _ HE)). reflexivity.
  Qed.

  Lemma fnext_iv k :
    exists iv k', next_iv iv_size rnd iv_fuel k = Ok (iv, k') /\ length iv = iv_size /\ all_zero iv = false.
  Proof.
    pose proof (fe_nonzero _ _ _ _ _ _ HE k) as Hx. pose proof (fe_rnd _ _ _ _ _ _ HE) as HL.
    clear HE. revert k Hx. induction iv_fuel as [|f IH]; intros k (j & Hj & Hz); [lia|].
    cbn [next_iv]. destruct (all_zero (rnd k iv_size)) eqn:E.
    - apply IH. destruct j as [|j].
      + rewrite Nat.add_0_r in Hz. congruence.
      + exists j. split; [lia|]. replace (S k + j) with (k + S j) by lia. exact Hz.
    - exists (rnd k iv_size), (S k). split; [reflexivity|]. split; [apply HL|exact E].
  Qed.

  (** ** Reading *)

  Lemma fread_loop_ok h s c m :
    FRep h s c -> forall a fuel,
    let data := arr_read (f_data s) (a * bs) (m * bs) in
    length data <= fuel ->
    full_read_loop A dkey id bs iv_size check fuel data
      (arr_resize (arr_read (body s) (ehs + ms * a) (m * ms)) (m * ms))
    = Ok (arr_read c (a * bs) (m * bs)).
  Proof.
    intros HR. pose proof fbs_pos as Hbs. induction m as [|m IH]; intros a fuel data Hf; subst data.
    { rewrite !Nat.mul_0_l in *. rewrite !arr_read_zero. destruct fuel; reflexivity. }
    destruct (Nat.lt_ge_cases (a * bs) (length c)) as [Hin|Hout].
    2: { rewrite !(arr_read_over _ (a * bs)) by (rewrite ?(fr_data _ _ _ HR); lia). destruct fuel; reflexivity. }
    pose proof (fr_data _ _ _ HR) as HD.
    set (data := arr_read (f_data s) (a * bs) (S m * bs)) in *.
    assert (HdL : length data = min (S m * bs) (length c - a * bs)) by (unfold data; rewrite arr_read_length; lia).
    destruct fuel as [|f]; [lia|]. cbn [full_read_loop].
    destruct data as [|x d'] eqn:Ed; [cbn in HdL; lia|]. rewrite <- Ed in *. clear Ed x d'.
    assert (Hd1 : firstn bs data = arr_read (f_data s) (a * bs) bs).
    { unfold data, arr_read. rewrite firstn_firstn. f_equal. lia. }
    assert (Hd2 : skipn bs data = arr_read (f_data s) (S a * bs) (m * bs)).
    { unfold data, arr_read. rewrite skipn_firstn_comm, skipn_skipn. replace (S m * bs - bs) with (m * bs) by lia. reflexivity. }
    assert (Hml : length (arr_read (body s) (ehs + ms * a) ms) = ms).
    { rewrite arr_read_length. apply nb_spec in Hin.
      destruct (fr_meta _ _ _ HR) as [HM|[_ HM]].
      - pose proof (mul_lt_block a (nb (length c)) ms Hin). lia.
      - assert (nb (length c) = 0); [|lia]. rewrite HM. replace 0 with (0 * bs + 0) by lia.
        rewrite nb_qr by lia. reflexivity. }
    assert (Hm1 : firstn ms (arr_resize (arr_read (body s) (ehs + ms * a) (S m * ms)) (S m * ms))
                  = arr_read (body s) (ehs + ms * a) ms).
    { apply bytes_ext.
      - rewrite firstn_length, arr_resize_length. lia.
      - intros i Hi. rewrite get_firstn, get_arr_resize, !get_arr_read. rewrite firstn_length, arr_resize_length in Hi.
        destruct (Nat.ltb_spec i ms), (Nat.ltb_spec i (S m * ms)); try lia; reflexivity. }
    assert (Hm2 : skipn ms (arr_resize (arr_read (body s) (ehs + ms * a) (S m * ms)) (S m * ms))
                  = arr_resize (arr_read (body s) (ehs + ms * S a) (m * ms)) (m * ms)).
    { apply bytes_ext.
      - rewrite skipn_length, !arr_resize_length. lia.
      - intros i Hi. rewrite get_skipn, !get_arr_resize, !get_arr_read.
        destruct (Nat.ltb_spec (ms + i) (S m * ms)), (Nat.ltb_spec i (m * ms)); try lia; try reflexivity.
        f_equal. lia. }
    rewrite Hd1, Hd2, Hm1, Hm2, (sdecode_decode _ _ _ _ (fr_blk _ _ _ HR a Hin)). cbn [rbind].
    rewrite IH.
    - cbn [rbind]. f_equal. replace (S m * bs) with (bs + m * bs) by lia. rewrite arr_read_split.
      f_equal. f_equal; lia.
    - rewrite <- Hd2, skipn_length. lia.
  Qed.

  (** ** Writing *)

  Lemma fwrite_loop_ok fuel input k :
    length input <= fuel ->
    exists d m k', full_write_loop A dkey id bs iv_size rnd iv_fuel fuel input k = Ok (d, m, k') /\
      length d = length input /\ length m = ms * nb (length input) /\
      (forall j, j * bs < length input ->
         decode (arr_read d (j * bs) bs) (arr_read m (ms * j) ms) = Ok (arr_read input (j * bs) bs)).
  Proof.
    pose proof fbs_pos as Hbs. revert input k. induction fuel as [|f IH]; intros input k Hf.
    - destruct input; [|cbn in Hf; lia]. exists [], [], k. cbn [full_write_loop].
      split; [reflexivity|]. split; [reflexivity|].
      replace (length (@nil byte)) with (0 * bs + 0) by (cbn; lia). rewrite nb_qr by lia. split; [cbn; lia|].
      intros j Hj. lia.
    - cbn [full_write_loop]. destruct input as [|x i'] eqn:Ei.
      { exists [], [], k. split; [reflexivity|]. split; [reflexivity|].
        replace (length (@nil byte)) with (0 * bs + 0) by (cbn; lia). rewrite nb_qr by lia. split; [cbn; lia|].
        intros j Hj. lia. }
      rewrite <- Ei in *. assert (Hi0 : 0 < length input) by (rewrite Ei; cbn; lia). clear Ei x i'.
      destruct (fnext_iv k) as (iv & k1 & Hiv & Hl & Hz). rewrite Hiv. cbn [rbind].
      pose proof (fdecode_encode iv (firstn bs input) Hl Hz) as Hde.
      pose proof (aead_ct_len _ (fe_aead _ _ _ _ _ _ HE) dkey iv id (firstn bs input)) as Hct.
      pose proof (aead_mac_len _ (fe_aead _ _ _ _ _ _ HE) dkey iv id (firstn bs input)) as Hmac.
      destruct (a_enc A dkey iv id (firstn bs input)) as [ct mac]. cbn [fst snd] in *.
      destruct (IH (skipn bs input) k1 ltac:(rewrite skipn_length; lia)) as (d & m & k2 & Hr & Hd & Hm & Hj).
      rewrite Hr. cbn [rbind]. exists (ct ++ d), ((iv ++ mac) ++ m), k2. split; [reflexivity|].
      rewrite firstn_length in Hct. rewrite skipn_length in *.
      assert (Him : length (iv ++ mac) = ms) by (rewrite app_length; unfold meta_size, mac_size; lia).
      split; [rewrite app_length; lia|].
      assert (Hnb : nb (length input) = S (nb (length input - bs))).
      { destruct (Nat.le_gt_cases bs (length input)).
        - unfold nb. replace (length input + bs - 1) with (length input - bs + bs - 1 + 1 * bs) by lia.
          rewrite Nat.div_add by lia. lia.
        - replace (length input - bs) with (0 * bs + 0) by lia. rewrite nb_qr by lia.
          replace (length input) with (0 * bs + length input) by lia. rewrite nb_qr by lia.
          destruct (Nat.eqb_spec (length input) 0); [lia|]. reflexivity. }
      split; [rewrite app_length, Him, Hm, Hnb; lia|].
      intros j Hjl. destruct j as [|j].
      + rewrite Nat.mul_0_l, Nat.mul_0_r.
        replace (arr_read ((iv ++ mac) ++ m) 0 ms) with (iv ++ mac).
        2: { unfold arr_read. cbn [skipn]. rewrite firstn_app, Him, Nat.sub_diag, firstn_all2 by lia.
             symmetry. apply app_nil_r. }
        replace (arr_read (ct ++ d) 0 bs) with ct.
        2: { unfold arr_read. cbn [skipn]. rewrite firstn_app.
             destruct (Nat.le_gt_cases bs (length input)).
             - replace (bs - length ct) with 0 by lia. rewrite firstn_all2 by lia. symmetry. apply app_nil_r.
             - assert (d = []) as -> by (apply length_zero_iff_nil; lia).
               rewrite firstn_all2, firstn_nil by lia. symmetry. apply app_nil_r. }
        rewrite Hde. reflexivity.
      + assert (Hge : bs <= length input) by lia.
        assert (HctL : length ct = bs) by lia.
        replace (arr_read ((iv ++ mac) ++ m) (ms * S j) ms) with (arr_read m (ms * j) ms).
        2: { unfold arr_read. f_equal. rewrite skipn_app, Him, (skipn_all2 (iv ++ mac)) by lia.
             cbn [app]. f_equal. lia. }
        replace (arr_read (ct ++ d) (S j * bs) bs) with (arr_read d (j * bs) bs).
        2: { unfold arr_read. f_equal. rewrite skipn_app, HctL, (skipn_all2 ct) by lia.
             cbn [app]. f_equal. lia. }
        rewrite Hj by lia. f_equal. unfold arr_read. rewrite skipn_skipn. f_equal. f_equal. lia.
  Qed.

  Lemma fwrite_multi_ok s a e r input :
    a <= e -> e <= full_max_blocks -> r <= bs -> (e - a) * bs + r <= length input ->
    exists d m k', full_write_multi A dkey id bs iv_size header_size rnd iv_fuel a e r input s
        = (mkFull (arr_write (f_data s) (a * bs) d)
                  (hmac_write (f_meta s) (ehs + ms * a) m) true k', Ok tt) /\
      length d = (e - a) * bs + r /\ length m = ms * (e - a + (if r =? 0 then 0 else 1)) /\
      (forall j, j * bs < (e - a) * bs + r ->
         decode (arr_read d (j * bs) bs) (arr_read m (ms * j) ms)
         = Ok (arr_read (firstn ((e - a) * bs + r) input) (j * bs) bs)).
  Proof.
    intros Hae He Hr Hin. unfold full_write_multi. rewrite full_over_max_false by exact He.
    replace (bs * (e - a) + r) with ((e - a) * bs + r) by lia.
    assert (HL : length (firstn ((e - a) * bs + r) input) = (e - a) * bs + r) by (rewrite firstn_length; lia).
    destruct (fwrite_loop_ok ((e - a) * bs + r) (firstn ((e - a) * bs + r) input) (f_rng s) ltac:(lia))
      as (d & m & k' & Hl & Hd & Hm & Hj).
    rewrite Hl. exists d, m, k'. split; [reflexivity|]. rewrite HL in *.
    rewrite nb_qr in Hm by lia. auto.
  Qed.

  Lemma body_write s d m k a :
    body (mkFull d (hmac_write (f_meta s) a m) true k) = arr_write (body s) a m.
  Proof. cbn [f_meta]. unfold hmac_write. apply skipn_arr_write. Qed.

  Lemma body_resize s d k n :
    body (mkFull d (hmac_resize (f_meta s) n) true k) = arr_resize (body s) n.
  Proof. cbn [f_meta]. unfold hmac_resize. apply skipn_arr_resize. Qed.

  Lemma body_cases h s c : FRep h s c -> length (body s) = 0 \/ ehs <= length (body s).
  Proof. intros HR. destruct (fr_meta _ _ _ HR) as [H|[H _]]; [right; lia|left; exact H]. Qed.

  Lemma hdr_write h s c a m :
    FRep h s c -> hdr_ok h (arr_write (body s) (ehs + ms * a) m).
  Proof.
    intros HR. pose proof (body_cases _ _ _ HR) as Hc.
    apply (hdr_ok_ext h (body s)); [exact (fr_hdr _ _ _ HR)| | |exact Hc].
    - intros HL. split.
      + rewrite arr_write_length. destruct m; lia.
      + apply bytes_ext.
        * rewrite !firstn_length, arr_write_length. destruct m; lia.
        * intros i Hi. rewrite !get_firstn, get_arr_write. destruct (Nat.ltb_spec i ehs); [|reflexivity].
          destruct (Nat.leb_spec (ehs + ms * a) i); [lia|reflexivity].
    - intros H0. apply all_zero_get. intros i Hi.
      rewrite get_firstn, get_arr_write.
      destruct (Nat.ltb_spec i ehs); [|reflexivity].
      destruct (Nat.leb_spec (ehs + ms * a) i); [lia|]. cbn [andb]. apply get_over. lia.
  Qed.

  Lemma hdr_resize' h s c n :
    FRep h s c -> hdr_ok h (arr_resize (body s) (ehs + ms * n)).
  Proof.
    intros HR. pose proof (body_cases _ _ _ HR) as Hc.
    apply (hdr_ok_ext h (body s)); [exact (fr_hdr _ _ _ HR)| | |exact Hc].
    - intros HL. split; [rewrite arr_resize_length; lia|].
      apply bytes_ext.
      + rewrite !firstn_length, arr_resize_length. lia.
      + intros i Hi. rewrite !get_firstn, get_arr_resize. destruct (Nat.ltb_spec i ehs); [|reflexivity].
        destruct (Nat.ltb_spec i (ehs + ms * n)); [reflexivity|lia].
    - intros H0. apply all_zero_get. intros i Hi. rewrite get_firstn, get_arr_resize.
      destruct (i <? ehs); [|reflexivity]. destruct (_ <? _); [|reflexivity]. apply get_over. lia.
  Qed.

  Lemma nb_0 : nb 0 = 0.
  Proof. replace 0 with (0 * bs + 0) at 1 by lia. rewrite nb_qr by lia. reflexivity. Qed.

  Lemma full_backend_ok h : backend_ok B (FRep h).
  Proof.
    pose proof fbs_pos as Hbs. pose proof ms_pos as Hms.
    constructor; rewrite ?bk_maxn_full;
      cbn [bk_bs bk_size bk_read bk_write bk_adjust full_backend bk_state].
    - exact Hbs.
    - intros s c HR. apply (fr_data _ _ _ HR).
    - (* read *)
      intros s c a b HR Hab Hb. unfold full_read_multi.
      destruct (Nat.eqb_spec a b) as [->|Hne].
      { rewrite Nat.sub_diag, Nat.mul_0_l. rewrite arr_read_zero. reflexivity. }
      rewrite full_over_max_false by exact Hb.
      pose proof (fr_data _ _ _ HR) as HD.
      destruct (Nat.leb_spec (length (arr_read (f_data s) (a * bs) ((b - a) * bs))) 0) as [H0|H0].
      { f_equal. symmetry. rewrite arr_read_length in H0. apply arr_read_over.
        assert ((b - a) * bs <> 0) by (apply Nat.neq_mul_0; lia). lia. }
      unfold hmac_read, meta_pos. rewrite skipn_arr_read.
      assert (Hmod : length (arr_read (body s) (ehs + ms * a) ((b - a) * ms)) mod ms = 0).
      { rewrite arr_read_length in *. destruct (fr_meta _ _ _ HR) as [HM|[HM _]].
        - rewrite HM. replace (ehs + ms * nb (length c) - (ehs + ms * a)) with ((nb (length c) - a) * ms)
            by (rewrite Nat.mul_sub_distr_r; lia).
          rewrite Nat.mul_min_distr_r. apply Nat.mod_mul. lia.
        - rewrite HM. replace (min ((b - a) * ms) (0 - (ehs + ms * a))) with 0 by lia. apply Nat.mod_0_l. lia. }
      rewrite Hmod. cbn [Nat.eqb negb].
      apply (fread_loop_ok h s c (b - a) HR a). lia.
    - (* write *)
      intros s c a e r d HR Hae Hr Hlim Hd Hac Hend Hne.
      assert (He : e <= full_max_blocks).
      { destruct (Nat.le_gt_cases e full_max_blocks); [assumption|].
        pose proof (mul_lt_block full_max_blocks e bs ltac:(lia)). lia. }
      destruct (fwrite_multi_ok s a e r d Hae He Hr Hd) as (ct & m & k' & Hw & HLd & HLm & Hdec).
      eexists. split; [exact Hw|].
      set (d' := firstn ((e - a) * bs + r) d) in *.
      assert (Hd' : length d' = (e - a) * bs + r) by (unfold d'; rewrite firstn_length; lia).
      assert (Hsub : (e - a) * bs = e * bs - a * bs) by apply Nat.mul_sub_distr_r.
      pose proof (mul_le_mono a e bs Hae) as Hm1.
      pose proof (fr_data _ _ _ HR) as HD.
      assert (Hc' : length (arr_write c (a * bs) d') = max (length c) (e * bs + r)).
      { rewrite arr_write_length_ne by lia. rewrite Hd'. lia. }
      set (z := if r =? 0 then 0 else 1) in *.
      assert (Hz : 0 < e - a + z).
      { unfold z. destruct (Nat.eqb_spec r 0); [|lia]. subst r.
        destruct (e - a); [lia|lia]. }
      assert (Hmpos : 0 < length m).
      { rewrite HLm. destruct (e - a + z); [lia|]. lia. }
      assert (Hnbr : nb (e * bs + r) = e + z) by (unfold z; apply nb_qr; lia).
      assert (Hanb : a <= nb (length c) \/ a = 0).
      { left. destruct (Nat.le_gt_cases a (nb (length c))); [assumption|exfalso].
        assert (Hx : ~ (nb (length c) < nb (length c))) by lia. rewrite nb_spec in Hx.
        pose proof (mul_lt_block (nb (length c)) a bs ltac:(assumption)). lia. }
      constructor.
      + cbn [f_data]. rewrite arr_write_length_ne by lia. rewrite Hc', HD, HLd. lia.
      + left. rewrite body_write, arr_write_length_ne by lia. rewrite Hc', nb_max, Hnbr, HLm.
        pose proof (mul_le_mono a (e + z) ms ltac:(lia)).
        replace (ehs + ms * a + ms * (e - a + z)) with (ehs + ms * (e + z)).
        2: { rewrite <- Nat.add_assoc, <- Nat.mul_add_distr_l. do 2 f_equal. lia. }
        destruct (fr_meta _ _ _ HR) as [HM|[HM HC0]].
        * rewrite HM. rewrite Nat.add_max_distr_l, Nat.mul_max_distr_l. reflexivity.
        * rewrite HM, HC0, nb_0. rewrite Nat.max_0_l, Nat.max_0_l. reflexivity.
      + rewrite body_write. apply (hdr_write h s c). exact HR.
      + intros i Hi. rewrite Hc' in Hi. rewrite body_write. cbn [f_data].
        assert (Hbl : forall q, q < nb (length c) -> ehs + ms * q + ms <= length (body s)).
        { intros q Hq. destruct (fr_meta _ _ _ HR) as [HM|[_ HM]].
          - pose proof (mul_lt_block q (nb (length c)) ms Hq). lia.
          - rewrite HM, nb_0 in Hq. lia. }
        destruct (Nat.lt_ge_cases i a) as [Hia|Hia].
        { pose proof (mul_lt_block i a bs Hia). pose proof (mul_lt_block i a ms Hia).
          assert (Hin : i * bs < length c) by lia.
          pose proof (Hbl i ltac:(apply nb_spec; exact Hin)).
          rewrite !arr_read_write_disj_l by lia. apply (fr_blk _ _ _ HR). exact Hin. }
        pose proof (mul_le_mono a i bs Hia). pose proof (mul_le_mono a i ms Hia).
        assert (Hi' : i < e + z \/ e + z <= i) by lia.
        destruct Hi' as [Hin|Hout].
        * assert (Hib : i * bs < e * bs + r) by (apply nb_spec; rewrite Hnbr; exact Hin).
          assert (Hsi : (i - a) * bs = i * bs - a * bs) by apply Nat.mul_sub_distr_r.
          assert (Hsm : ms * (i - a) = ms * i - ms * a) by apply Nat.mul_sub_distr_l.
          pose proof (mul_lt_block i (e + z) ms Hin) as Hmi.
          assert (HLm' : length m = ms * e + ms * z - ms * a).
          { rewrite HLm, Nat.mul_add_distr_l, Nat.mul_sub_distr_l.
            pose proof (mul_le_mono a e ms Hae). lia. }
          rewrite (arr_read_write_in (body s)) by lia.
          replace (ehs + ms * i - (ehs + ms * a)) with (ms * (i - a)) by lia.
          assert (Hdd : arr_read (arr_write (f_data s) (a * bs) ct) (i * bs) bs = arr_read ct ((i - a) * bs) bs /\
                        arr_read (arr_write c (a * bs) d') (i * bs) bs = arr_read d' ((i - a) * bs) bs).
          { destruct (Nat.lt_ge_cases i e) as [Hlt|Hge].
            - pose proof (mul_lt_block i e bs Hlt).
              rewrite !arr_read_write_in by lia. split; f_equal; lia.
            - assert (i = e) as -> by (unfold z in *; destruct (r =? 0); lia).
              destruct (Nat.eq_dec r bs) as [->|Hrb].
              + rewrite !arr_read_write_in by lia. split; f_equal; lia.
              + rewrite !arr_read_write_tail by lia. split; f_equal; lia. }
          destruct Hdd as [-> ->]. apply Hdec. lia.
        * assert (Hin : i * bs < length c).
          { assert (~ i * bs < e * bs + r) by (rewrite <- nb_spec, Hnbr; lia). lia. }
          assert (e * bs + r <= i * bs).
          { assert (~ i * bs < e * bs + r) by (rewrite <- nb_spec, Hnbr; lia). lia. }
          pose proof (mul_le_mono (e + z) i ms Hout).
          rewrite (arr_read_write_disj_r (f_data s)) by lia.
          rewrite (arr_read_write_disj_r c) by lia.
          rewrite (arr_read_write_disj_r (body s)).
          { apply (fr_blk _ _ _ HR). exact Hin. }
          rewrite HLm. replace (ehs + ms * a + ms * (e - a + z)) with (ehs + ms * (e + z)); [lia|].
          rewrite <- Nat.add_assoc, <- Nat.mul_add_distr_l. do 2 f_equal. lia.
      + intros Hx. discriminate Hx.
    - (* shrink *)
      intros s c e r d HR Hr Hrb Hlt Hm Hd.
      destruct (fwrite_multi_ok s e e r d (Nat.le_refl _) ltac:(lia) ltac:(lia) ltac:(lia))
        as (ct & m & k' & Hw & HLd & HLm & Hdec).
      rewrite Nat.sub_diag, !Nat.mul_0_l, !Nat.add_0_l in *.
      destruct (Nat.eqb_spec r 0) as [|_]; [lia|]. rewrite Nat.mul_1_r in HLm.
      eexists. eexists. split; [exact Hw|]. split; [reflexivity|].
      pose proof (fr_data _ _ _ HR) as HD.
      assert (Hnbr : nb (e * bs + r) = e + 1) by (rewrite nb_qr by lia; destruct (Nat.eqb_spec r 0); lia).
      fold (nb (e * bs + r)). rewrite Hnbr. unfold meta_pos.
      assert (HeL : e < nb (length c)) by (apply nb_spec; lia).
      assert (Hbl : forall q, q < nb (length c) -> ehs + ms * q + ms <= length (body s)).
      { intros q Hq. destruct (fr_meta _ _ _ HR) as [HM|[_ HM]].
        - pose proof (mul_lt_block q (nb (length c)) ms Hq). lia.
        - rewrite HM, nb_0 in Hq. lia. }
      pose proof (Hbl e HeL) as HbE.
      set (s1 := mkFull (arr_write (f_data s) (e * bs) ct) (hmac_write (f_meta s) (ehs + ms * e) m) true k').
      assert (Hb1 : body s1 = arr_write (body s) (ehs + ms * e) m) by apply body_write.
      assert (HcL : length (firstn (e * bs) c ++ firstn r d) = e * bs + r).
      { rewrite app_length, !firstn_length. lia. }
      assert (Hdl1 : length (arr_write (f_data s) (e * bs) ct) = length c) by (rewrite arr_write_length_ne; lia).
      constructor.
      + cbn [f_data s1]. rewrite arr_resize_length, HcL. reflexivity.
      + left. rewrite body_resize, arr_resize_length, HcL, Hnbr. reflexivity.
      + rewrite body_resize, Hb1.
        assert (Hh1 : hdr_ok h (arr_write (body s) (ehs + ms * e) m)) by (eapply hdr_write; exact HR).
        apply (hdr_ok_ext h _ _ Hh1).
        * intros HL. split; [rewrite arr_resize_length; lia|].
          apply bytes_ext; [rewrite !firstn_length, arr_resize_length; lia|].
          intros i Hi. rewrite !get_firstn, get_arr_resize. destruct (Nat.ltb_spec i ehs); [|reflexivity].
          destruct (Nat.ltb_spec i (ehs + ms * (e + 1))); [reflexivity|lia].
        * intros HL. rewrite arr_write_length_ne in HL by lia. lia.
        * right. rewrite arr_write_length_ne by lia. lia.
      + intros i Hi. rewrite HcL in Hi. rewrite body_resize, Hb1. cbn [f_data s1].
        assert (Hie : i < e + 1) by (rewrite <- Hnbr; apply nb_spec; exact Hi).
        pose proof (mul_lt_block i (e + 1) ms Hie).
        pose proof (arr_write_length_ne (body s) (ehs + ms * e) m ltac:(lia)) as Hwl.
        rewrite (arr_read_resize (arr_write (body s) (ehs + ms * e) m)) by lia.
        destruct (Nat.lt_ge_cases i e) as [Hlt'|Hge].
        * pose proof (mul_lt_block i e bs Hlt'). pose proof (mul_lt_block i e ms Hlt').
          rewrite arr_read_resize by lia. rewrite !arr_read_write_disj_l by lia.
          rewrite (fr_blk _ _ _ HR i) by lia. f_equal.
          unfold arr_read. rewrite skipn_app, skipn_firstn_comm.
          rewrite firstn_app, firstn_firstn, Nat.min_l by lia.
          rewrite firstn_length, firstn_length, skipn_length.
          replace (bs - min (e * bs - i * bs) (length c - i * bs)) with 0 by lia.
          cbn [firstn]. symmetry; apply app_nil_r.
        * assert (i = e) as -> by lia.
          rewrite (arr_read_write_in (body s)) by lia. rewrite Nat.sub_diag.
          replace (arr_read (arr_resize (arr_write (f_data s) (e * bs) ct) (e * bs + r)) (e * bs) bs)
            with (arr_read ct (0 * bs) bs).
          2: { rewrite Nat.mul_0_l. apply bytes_ext.
               - rewrite !arr_read_length, arr_resize_length. lia.
               - intros i Hi'. rewrite arr_read_length in Hi'.
                 rewrite !get_arr_read, get_arr_resize, get_arr_write.
                 destruct (Nat.ltb_spec i bs); [|lia].
                 destruct (Nat.ltb_spec (e * bs + i) (e * bs + r)); [|lia].
                 destruct (Nat.leb_spec (e * bs) (e * bs + i)); [|lia].
                 destruct (Nat.ltb_spec (e * bs + i) (e * bs + length ct)); [|lia].
                 cbn [andb]. f_equal. lia. }
          replace (arr_read m 0 ms) with (arr_read m (ms * 0) ms) by (f_equal; lia).
          rewrite Hdec by lia. f_equal.
          rewrite Nat.mul_0_l. apply bytes_ext.
          -- rewrite !arr_read_length, app_length, !firstn_length. lia.
          -- intros i Hi'. rewrite arr_read_length, firstn_length in Hi'.
             rewrite !get_arr_read, get_app, firstn_length, !get_firstn.
             destruct (Nat.ltb_spec i bs); [|lia].
             destruct (Nat.ltb_spec (e * bs + i) (min (e * bs) (length c))); [lia|].
             f_equal; cbn [Nat.add].
             replace (e * bs + i - min (e * bs) (length c)) with i by lia. reflexivity.
      + intros Hx. discriminate Hx.
    - (* truncate *)
      intros s c e HR He. eexists. split; [reflexivity|].
      pose proof (fr_data _ _ _ HR) as HD.
      assert (Hnbe : nb (e * bs) = e).
      { replace (e * bs) with (e * bs + 0) by lia. rewrite nb_qr by lia. cbn. lia. }
      assert (HcL : length (firstn (e * bs) c) = e * bs) by (rewrite firstn_length; lia).
      fold (nb (e * bs)). rewrite Hnbe. unfold meta_pos.
      constructor.
      + cbn [f_data]. rewrite arr_resize_length, HcL. reflexivity.
      + left. rewrite body_resize, arr_resize_length, HcL, Hnbe. reflexivity.
      + rewrite body_resize. eapply hdr_resize'. exact HR.
      + intros i Hi. rewrite HcL in Hi. rewrite body_resize. cbn [f_data].
        assert (Hie : i < e) by (rewrite <- Hnbe; apply nb_spec; exact Hi).
        pose proof (mul_lt_block i e bs Hie). pose proof (mul_lt_block i e ms Hie).
        assert (Hic : i * bs < length c) by lia.
        assert (ehs + ms * i + ms <= length (body s)).
        { apply nb_spec in Hic. destruct (fr_meta _ _ _ HR) as [HM|[_ HM]].
          - pose proof (mul_lt_block i (nb (length c)) ms Hic). lia.
          - rewrite HM, nb_0 in Hic. lia. }
        rewrite !arr_read_resize by lia. rewrite (fr_blk _ _ _ HR i) by lia. f_equal.
        unfold arr_read. rewrite skipn_firstn_comm, firstn_firstn. f_equal. lia.
      + intros Hx. discriminate Hx.
    - (* grow *)
      intros s c n HR Hn Hcase. eexists. split; [reflexivity|].
      pose proof (fr_data _ _ _ HR) as HD.
      assert (HcL : length (c ++ zeros (n - length c)) = n) by (rewrite app_length, zeros_length; lia).
      fold (nb n). unfold meta_pos. pose proof (nb_mono _ _ Hn) as Hnm.
      constructor.
      + cbn [f_data]. rewrite arr_resize_length, HcL. reflexivity.
      + left. rewrite body_resize, arr_resize_length, HcL. reflexivity.
      + rewrite body_resize. eapply hdr_resize'. exact HR.
      + intros i Hi. rewrite HcL in Hi. rewrite body_resize. cbn [f_data].
        assert (Hin : i < nb n) by (apply nb_spec; exact Hi).
        pose proof (mul_lt_block i (nb n) ms Hin).
        assert (Hbl : i * bs < length c -> ehs + ms * i + ms <= length (body s)).
        { intros Hic. apply nb_spec in Hic. destruct (fr_meta _ _ _ HR) as [HM|[_ HM]].
          - pose proof (mul_lt_block i (nb (length c)) ms Hic). lia.
          - rewrite HM, nb_0 in Hic. lia. }
        destruct Hcase as [Heq|(q & Hq)].
        { specialize (Hbl ltac:(lia)). rewrite (arr_read_resize (body s)) by lia.
          rewrite <- Heq, <- HD, arr_resize_same, HD, Nat.sub_diag. cbn [zeros repeat].
          rewrite app_nil_r. apply (fr_blk _ _ _ HR). lia. }
        assert (Hnq : nb (length c) = q).
        { rewrite Hq. replace (q * bs) with (q * bs + 0) by lia. rewrite nb_qr by lia. cbn. lia. }
        destruct (Nat.lt_ge_cases i q) as [Hiq|Hiq].
        * pose proof (mul_lt_block i q bs Hiq). specialize (Hbl ltac:(lia)).
          rewrite !arr_read_resize by lia. rewrite (fr_blk _ _ _ HR i) by lia. f_equal.
          unfold arr_read. rewrite skipn_app, firstn_app, skipn_length.
          replace (bs - (length c - i * bs)) with 0 by lia. cbn [firstn]. symmetry. apply app_nil_r.
        * pose proof (mul_le_mono q i bs Hiq). pose proof (mul_le_mono q i ms Hiq).
          assert (Hbo : length (body s) <= ehs + ms * i).
          { destruct (fr_meta _ _ _ HR) as [HM|[HM _]]; rewrite HM; [rewrite Hnq|]; lia. }
          rewrite (arr_read_resize_hole (body s)) by lia.
          assert (Hz : arr_read (arr_resize (f_data s) n) (i * bs) bs = zeros (min bs (n - i * bs))).
          { apply bytes_ext.
            - rewrite arr_read_length, arr_resize_length, zeros_length. lia.
            - intros j Hj. rewrite get_arr_read, get_arr_resize, get_zeros.
              destruct (j <? bs); [|reflexivity]. destruct (i * bs + j <? n); [|reflexivity].
              apply get_over. lia. }
          assert (Hz2 : arr_read (c ++ zeros (n - length c)) (i * bs) bs = zeros (min bs (n - i * bs))).
          { apply bytes_ext.
            - rewrite arr_read_length, HcL, zeros_length. lia.
            - intros j Hj. rewrite get_arr_read, get_app, !get_zeros.
              destruct (j <? bs); [|reflexivity].
              destruct (Nat.ltb_spec (i * bs + j) (length c)); [lia|reflexivity]. }
          rewrite Hz, Hz2. unfold sdecode, full_decode_block. rewrite !all_zero_zeros, zeros_length. reflexivity.
      + intros Hx. discriminate Hx.
  Qed.

  (** ** Header, flush, reopen *)

  Lemma FRep_rng h s c k : FRep h s c -> FRep h (mkFull (f_data s) (f_meta s) (f_dirty s) k) c.
  Proof.
    intros HR. constructor; cbn [f_data f_meta f_dirty]; [apply (fr_data _ _ _ HR)|apply (fr_meta _ _ _ HR)|
      apply (fr_hdr _ _ _ HR)|apply (fr_blk _ _ _ HR)|apply (fr_mac _ _ _ HR)].
  Qed.

  Lemma FRep_fresh k : FRep None (mkFull [] [] false k) [].
  Proof.
    constructor; cbn [f_data f_meta f_dirty].
    - reflexivity.
    - right. auto.
    - cbn. rewrite firstn_nil. reflexivity.
    - intros i Hi. cbn in Hi. lia.
    - auto.
  Qed.

  Lemma enc_block_header iv p :
    length iv = iv_size -> length p = header_size ->
    let '(ct, mac) := a_enc A dkey iv id p in
    length (iv ++ mac ++ ct) = ehs /\ dec_header (iv ++ mac ++ ct) = p.
  Proof.
    intros Hl Hp.
    pose proof (aead_ct_len _ (fe_aead _ _ _ _ _ _ HE) dkey iv id p) as Hct.
    pose proof (aead_mac_len _ (fe_aead _ _ _ _ _ _ HE) dkey iv id p) as Hmac.
    pose proof (aead_dec_enc _ (fe_aead _ _ _ _ _ _ HE) dkey iv id p) as Hde.
    destruct (a_enc A dkey iv id p) as [ct mac]. cbn [fst snd] in *.
    split.
    - rewrite !app_length. unfold enc_header_size, mac_size. lia.
    - unfold dec_header, arr_read.
      rewrite firstn_app, Hl, Nat.sub_diag, firstn_all2 by lia. cbn [firstn]. rewrite app_nil_r.
      rewrite (skipn_app iv_size iv), Hl, Nat.sub_diag, (skipn_all2 iv) by lia. cbn [app skipn].
      rewrite firstn_app. replace (mac_size - length mac) with 0 by (unfold mac_size; lia).
      rewrite firstn_all2 by (unfold mac_size; lia). cbn [firstn]. rewrite app_nil_r.
      rewrite app_assoc, skipn_app, skipn_all2 by (rewrite app_length; unfold mac_size; lia).
      rewrite app_length. replace (iv_size + mac_size - (length iv + length mac)) with 0 by (unfold mac_size; lia).
      cbn [app skipn]. rewrite Hde. reflexivity.
  Qed.

  Lemma full_write_header_ok h w s c :
    FRep h s c -> length w <= header_size ->
    exists s', full_write_header A dkey id iv_size header_size rnd w s = (s', Ok tt) /\
      FRep (Some (w ++ zeros (header_size - length w))) s' c.
  Proof.
    intros HR Hw. pose proof ms_pos as Hms. unfold full_write_header.
    destruct (Nat.ltb_spec header_size (length w)); [lia|].
    set (p := w ++ zeros (header_size - length w)).
    assert (Hp : length p = header_size) by (unfold p; rewrite app_length, zeros_length; lia).
    set (iv := rnd (f_rng s) iv_size). assert (Hiv : length iv = iv_size) by apply (fe_rnd _ _ _ _ _ _ HE).
    pose proof (enc_block_header iv p Hiv Hp) as He. destruct (a_enc A dkey iv id p) as [ct mac].
    destruct He as [HL HD]. eexists. split; [reflexivity|].
    set (d := iv ++ mac ++ ct) in *.
    assert (Hehs : 0 < ehs) by (unfold enc_header_size, mac_size; lia).
    constructor.
    - apply (fr_data _ _ _ HR).
    - left. rewrite body_write, arr_write_length_ne by lia. rewrite HL.
      destruct (fr_meta _ _ _ HR) as [HM|[HM HC]]; rewrite HM; [lia|]. rewrite HC, nb_0. lia.
    - rewrite body_write. cbn [hdr_ok]. split; [rewrite arr_write_length_ne by lia; lia|]. split; [exact Hp|].
      replace (firstn ehs (arr_write (body s) 0 d)) with d; [exact HD|].
      apply bytes_ext; [rewrite firstn_length, arr_write_length_ne by lia; lia|].
      intros i Hi. rewrite get_firstn, get_arr_write.
      destruct (Nat.ltb_spec i ehs); [|lia]. cbn [Nat.leb andb].
      destruct (Nat.ltb_spec i (0 + length d)); [|lia]. f_equal. lia.
    - intros i Hi. rewrite body_write. cbn [f_data].
      rewrite (arr_read_write_disj_r (body s)) by lia. apply (fr_blk _ _ _ HR). exact Hi.
    - intros Hx. discriminate Hx.
  Qed.

  Lemma full_read_header_ok p len s c :
    FRep (Some p) s c -> len <= header_size ->
    full_read_header A dkey id iv_size header_size len s = Ok (Some (firstn len p)).
  Proof.
    intros HR Hl. unfold full_read_header. destruct (Nat.ltb_spec header_size len); [lia|].
    unfold hmac_read. rewrite skipn_arr_read. unfold arr_read. cbn [skipn].
    destruct (fr_hdr _ _ _ HR) as (HL & Hp & HD).
    assert (Hehs : 0 < ehs) by (unfold enc_header_size, mac_size; lia).
    assert (HL' : length (firstn ehs (body s)) = ehs) by (rewrite firstn_length; lia).
    rewrite HL'. destruct (Nat.eqb_spec ehs 0); [lia|]. rewrite Nat.eqb_refl. cbn [negb].
    unfold dec_header, arr_read in HD. destruct (a_dec _ _ _ _ _ _) as [ok out]. cbn [snd] in HD. subst p. reflexivity.
  Qed.

  Lemma full_flush_ok h s c :
    FRep h s c -> exists s', full_flush hmac mkey id s = (s', Ok tt) /\ FRep h s' c /\ f_dirty s' = false.
  Proof.
    intros HR. unfold full_flush, hmac_flush. destruct (f_dirty s) eqn:Ed.
    - rewrite mac_message_ok. eexists. split; [reflexivity|]. split; [|reflexivity].
      set (t := hmac mkey (id ++ body s)). assert (Ht : length t = 32) by apply (fe_hmac _ _ _ _ _ _ HE).
      assert (Hb : skipn hmac_len (arr_write (f_meta s) 0 t) = body s).
      { apply bytes_ext.
        - rewrite !skipn_length, arr_write_length_ne by lia. unfold hmac_len. lia.
        - intros i Hi. rewrite !get_skipn, get_arr_write. unfold hmac_len. cbn [Nat.leb andb].
          destruct (Nat.ltb_spec (32 + i) (0 + length t)); [lia|reflexivity]. }
      constructor; cbn [f_data f_meta f_dirty]; rewrite ?Hb.
      + apply (fr_data _ _ _ HR).
      + apply (fr_meta _ _ _ HR).
      + apply (fr_hdr _ _ _ HR).
      + apply (fr_blk _ _ _ HR).
      + intros _. right. split; [rewrite arr_write_length_ne by lia; unfold hmac_len; lia|].
        change (firstn hmac_len (arr_write (f_meta s) 0 t) = t).
        apply bytes_ext; [rewrite firstn_length, arr_write_length_ne by lia; unfold hmac_len; lia|].
        intros i Hi. rewrite get_firstn, get_arr_write. rewrite firstn_length in Hi. unfold hmac_len in *.
        destruct (Nat.ltb_spec i 32); [|lia]. cbn [Nat.leb andb].
        destruct (Nat.ltb_spec i (0 + length t)); [|lia]. f_equal. lia.
    - eexists. split; [reflexivity|]. split; [|reflexivity].
      destruct s as [fd fm fdirty frng]. cbn in *. subst fdirty. exact HR.
  Qed.

  Lemma full_open_ok h s c k :
    FRep h s c -> f_dirty s = false ->
    full_open hmac mkey id check (f_data s) (f_meta s) k = Ok (mkFull (f_data s) (f_meta s) false k).
  Proof.
    intros HR Hd. unfold full_open, hmac_open. destruct s as [fd fm fdirty frng]. cbn in Hd. subst fdirty.
    destruct check; [|reflexivity]. cbn [f_data f_meta f_rng].
    destruct (fr_mac _ _ _ HR eq_refl) as [HM|[HL HM]]; cbn [f_meta] in *.
    - subst fm. reflexivity.
    - rewrite arr_read_length. replace (min hmac_len (length fm - 0)) with hmac_len by lia.
      unfold arr_read. cbn [skipn]. change (hmac_len =? 0) with false. rewrite Nat.eqb_refl. cbn [negb].
      rewrite mac_message_ok. cbn [rbind]. rewrite HM, bytes_eqb_refl. reflexivity.
  Qed.

  Notation limit := (full_max_blocks * bs).

  Notation fstep := (full_step A hmac dkey mkey id bs iv_size header_size check sparse rnd iv_fuel).

  Lemma full_step_ok h s c o :
    FRep h s c -> length c <= limit -> fop_within limit header_size o ->
    let '(c', h') := fst (fspec_step header_size (c, h) o) in
    fout_ok (snd (fspec_step header_size (c, h) o)) (snd (fstep s o)) /\
    FRep h' (fst (fstep s o)) c' /\ length c' <= limit.
  Proof.
    intros HR Hc Ho. destruct o as [o|w|len| |]; cbn [full_step fspec_step fop_within] in *.
    - destruct (bb_step_ok B (FRep h) (full_backend_ok h) s c o HR
        ltac:(rewrite bk_maxn_full; exact Hc) ltac:(rewrite bk_maxn_full; exact Ho)) as (s1 & Hs & HR1 & Hl1).
      rewrite bk_maxn_full in Hl1. rewrite Hs. destruct (spec_step c o) as [c1 r1]. cbn [fst snd] in *.
      split; [right; reflexivity|]. auto.
    - destruct (full_write_header_ok h w s c HR Ho) as (s1 & -> & HR1). cbn [fst snd].
      split; [right; reflexivity|]. auto.
    - cbn [fst snd]. destruct h as [p|].
      + rewrite (full_read_header_ok p len s c HR Ho). split; [right; reflexivity|]. auto.
      + split; [left; reflexivity|]. auto.
    - destruct (full_flush_ok h s c HR) as (s1 & -> & HR1 & _). cbn [fst snd].
      split; [right; reflexivity|]. auto.
    - destruct (full_flush_ok h s c HR) as (s1 & -> & HR1 & Hd1). cbn [fst snd].
      rewrite (full_open_ok h s1 c (f_rng s1) HR1 Hd1). cbn [fst snd].
      split; [right; reflexivity|]. rewrite <- Hd1. auto using FRep_rng.
  Qed.

  Lemma full_refines ops : forall h s c,
    FRep h s c -> length c <= limit -> Forall (fop_within limit header_size) ops ->
    let '(c', h') := fst (run_ops (fspec_step header_size) (c, h) ops) in
    Forall2 fout_ok (snd (run_ops (fspec_step header_size) (c, h) ops)) (snd (run_ops fstep s ops)) /\
    FRep h' (fst (run_ops fstep s ops)) c' /\ length c' <= limit.
  Proof.
    induction ops as [|o ops IH]; intros h s c HR Hl Hall.
    - cbn. auto.
    - inversion Hall as [|? ? Ho Hops]; subst.
      pose proof (full_step_ok h s c o HR Hl Ho) as Hs. cbn [run_ops].
      destruct (fstep s o) as [s1 r1]. destruct (fspec_step header_size (c, h) o) as [[c1 h1] q1].
      cbn [fst snd] in Hs. destruct Hs as (Hq & HR1 & Hl1).
      pose proof (IH h1 s1 c1 HR1 Hl1 Hops) as Hr.
      destruct (run_ops fstep s1 ops) as [s2 rs]. destruct (run_ops (fspec_step header_size) (c1, h1) ops) as [[c2 h2] qs].
      cbn [fst snd] in *. destruct Hr as (H1 & H2 & H3). auto.
  Qed.

  Lemma full_reopen_history k ops k2 ops2 :
    Forall (fop_within limit header_size) ops -> Forall (fop_within limit header_size) ops2 ->
    let sF := fst (full_flush hmac mkey id (fst (run_ops fstep (mkFull [] [] false k) ops))) in
    exists s1, full_open hmac mkey id check (f_data sF) (f_meta sF) k2 = Ok s1 /\
      Forall2 fout_ok
        (snd (run_ops (fspec_step header_size) (fst (run_ops (fspec_step header_size) ([], None) ops)) ops2))
        (snd (run_ops fstep s1 ops2)).
  Proof.
    intros H1 H2 sF.
    pose proof (full_refines ops None (mkFull [] [] false k) [] (FRep_fresh k) (Nat.le_0_l _) H1) as HA.
    destruct (fst (run_ops (fspec_step header_size) ([], None) ops)) as [c h]. destruct HA as (_ & HR & Hl).
    destruct (full_flush_ok h _ c HR) as (s1 & E & HR1 & Hd). unfold sF. rewrite E. cbn [fst].
    exists (mkFull (f_data s1) (f_meta s1) false k2). split; [apply (full_open_ok h s1 c k2 HR1 Hd)|].
    pose proof (FRep_rng h s1 c k2 HR1) as HR2. rewrite Hd in HR2.
    pose proof (full_refines ops2 h _ c HR2 Hl H2) as HB.
    destruct (fst (run_ops (fspec_step header_size) (c, h) ops2)) as [c2 h2]. exact (proj1 HB).
  Qed.

  Lemma full_history k ops :
    Forall (fop_within limit header_size) ops ->
    Forall2 fout_ok (snd (run_ops (fspec_step header_size) ([], None) ops))
                    (snd (run_ops fstep (mkFull [] [] false k) ops)).
  Proof.
    intros H1.
    pose proof (full_refines ops None (mkFull [] [] false k) [] (FRep_fresh k) (Nat.le_0_l _) H1) as HA.
    destruct (fst (run_ops (fspec_step header_size) ([], None) ops)) as [c h]. exact (proj1 HA).
  Qed.
End FullProofs.

Lemma full_open_empty hmac mkey id check k : full_open hmac mkey id check [] [] k = Ok (mkFull [] [] false k).
Proof. destruct check; reflexivity. Qed.
