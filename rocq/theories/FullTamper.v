(** Reading from arbitrary (tampered) full-format files. *)
From Verif Require Import Base BaseLemmas StreamSpec BlockModel BlockProofs CodecModel
  LiteModel LiteSpec LiteProofs LiteTamper FullStreamModel FullSpec FullStreamProofs.

Lemma Forall_firstn {X} (P : X -> Prop) n l : Forall P l -> Forall P (firstn n l).
Proof.
  intros H. revert n. induction H as [|x l Hx Hl IH]; intros [|n]; cbn [firstn]; constructor; auto.
Qed.

(** What holds of each byte a block read returns holds of each byte of a
    byte-granular read. *)
Lemma bb_read_bytes (B : backend) (P : nat -> byte -> Prop) s off len out :
  0 < bk_bs B ->
  (forall a b o, bk_read B a b s = Ok o -> forall p, p < length o -> P (a * bk_bs B + p) (get o p)) ->
  bb_read B off len s = Ok out ->
  forall p, p < length out -> P (off + p) (get out p).
Proof.
  intros Hbs HP H p Hp. unfold bb_read in H. set (bs := bk_bs B) in *.
  destruct (len <=? 0). { injection H as <-. cbn in Hp. lia. }
  pose proof (Nat.div_mod off bs ltac:(lia)) as E.
  destruct ((off mod bs =? 0) && ((off + len) mod bs =? 0)) eqn:Eal.
  - apply andb_prop in Eal as [E1 _]. apply Nat.eqb_eq in E1.
    pose proof (HP _ _ _ H p Hp) as Hq. replace (off + p) with (off / bs * bs + p) by lia. exact Hq.
  - destruct (bk_read B _ _ s) as [raw|e] eqn:Er; [|discriminate].
    cbn [rbind] in H. destruct (Nat.leb_spec (length raw) (off mod bs)) as [Hle|Hgt].
    { injection H as <-. cbn in Hp. lia. }
    injection H as <-. rewrite arr_read_length in Hp.
    pose proof (HP _ _ _ Er (off mod bs + p) ltac:(lia)) as Hq.
    rewrite get_arr_read. destruct (Nat.ltb_spec p (min (length raw - off mod bs) len)); [|lia].
    replace (off + p) with (off / bs * bs + (off mod bs + p)) by lia. exact Hq.
Qed.

Section FullTamper.
  Variable A : aead.
  Variable hmac : bytes -> bytes -> bytes.
  Variable dkey mkey id : bytes.
  Variable bs iv_size header_size : nat.
  Variable sparse : bool.
  Variable rnd : nat -> nat -> bytes.
  Variable iv_fuel : nat.
  Hypothesis HE : full_env_ok A hmac bs iv_size rnd iv_fuel.

  Notation ms := (meta_size iv_size).
  Notation ehs := (enc_header_size iv_size header_size).
  Notation decode := (full_decode_block A dkey id iv_size true).
  Notation B := (full_backend A dkey id bs iv_size header_size true sparse rnd iv_fuel).
  Notation body s := (skipn hmac_len (f_meta s)).
  Notation fstep := (full_step A hmac dkey mkey id bs iv_size header_size true sparse rnd iv_fuel).
  Notation sdec := (sdecode A dkey id iv_size).
  Notation Rep := (FRep A hmac dkey mkey id bs iv_size header_size).
  Notation srec := (stored_record iv_size header_size).
  Notation sdat := (stored_data bs).

  Lemma srec_body meta i : srec meta i = arr_read (skipn hmac_len meta) (ehs + ms * i) ms.
  Proof.
    unfold stored_record. rewrite <- skipn_arr_read. unfold hmac_len, enc_header_size, meta_size, mac_size.
    f_equal. lia.
  Qed.

  Lemma decode_len d m out : decode d m = Ok out -> length out = length d.
  Proof.
    unfold full_decode_block. destruct (_ && _).
    - intros H; injection H as <-. apply zeros_length.
    - pose proof (aead_dec_len _ (fe_aead _ _ _ _ _ _ HE) dkey (firstn iv_size m) id d (skipn iv_size m)) as HL.
      destruct (a_dec _ _ _ _ _ _) as [ok o]. destruct (_ && _); [discriminate|].
      intros H; injection H as <-. exact HL.
  Qed.

  Lemma fread_loop_inv data mbody m : forall a fuel out,
    full_read_loop A dkey id bs iv_size true fuel (arr_read data (a * bs) (m * bs))
      (arr_resize (arr_read mbody (ehs + ms * a) (m * ms)) (m * ms)) = Ok out ->
    forall p, p < length out ->
    exists pt, decode (arr_read data ((a + p / bs) * bs) bs)
                 (arr_resize (arr_read mbody (ehs + ms * (a + p / bs)) ms) ms) = Ok pt /\
      p mod bs < length pt /\ get out p = get pt (p mod bs).
  Proof.
    pose proof (fe_bs _ _ _ _ _ _ HE) as Hbs. induction m as [|m IH]; intros a fuel out H p Hp.
    { rewrite !Nat.mul_0_l, arr_read_zero in H. destruct fuel; injection H as <-; cbn in Hp; lia. }
    destruct fuel as [|f]; cbn [full_read_loop] in H.
    { destruct (arr_read data (a * bs) (S m * bs)); [injection H as <-; cbn in Hp; lia|discriminate]. }
    destruct (arr_read data (a * bs) (S m * bs)) as [|x d'] eqn:Ed; [injection H as <-; cbn in Hp; lia|].
    rewrite <- Ed in H. clear Ed x d'.
    set (d := arr_read data (a * bs) (S m * bs)) in *.
    assert (Hd1 : firstn bs d = arr_read data (a * bs) bs).
    { unfold d, arr_read. rewrite firstn_firstn. f_equal. lia. }
    assert (Hd2 : skipn bs d = arr_read data (S a * bs) (m * bs)).
    { unfold d, arr_read. rewrite skipn_firstn_comm, skipn_skipn.
      replace (S m * bs - bs) with (m * bs) by lia. reflexivity. }
    assert (Hm1 : firstn ms (arr_resize (arr_read mbody (ehs + ms * a) (S m * ms)) (S m * ms))
                  = arr_resize (arr_read mbody (ehs + ms * a) ms) ms).
    { apply bytes_ext.
      - rewrite firstn_length, !arr_resize_length. lia.
      - intros i Hi. rewrite get_firstn, !get_arr_resize, !get_arr_read.
        destruct (Nat.ltb_spec i ms), (Nat.ltb_spec i (S m * ms)); try lia; reflexivity. }
    assert (Hm2 : skipn ms (arr_resize (arr_read mbody (ehs + ms * a) (S m * ms)) (S m * ms))
                  = arr_resize (arr_read mbody (ehs + ms * S a) (m * ms)) (m * ms)).
    { apply bytes_ext.
      - rewrite skipn_length, !arr_resize_length. lia.
      - intros i Hi. rewrite get_skipn, !get_arr_resize, !get_arr_read.
        destruct (Nat.ltb_spec (ms + i) (S m * ms)), (Nat.ltb_spec i (m * ms)); try lia; try reflexivity.
        f_equal. lia. }
    rewrite Hd1, Hd2, Hm1, Hm2 in H.
    destruct (decode _ _) as [pt|e] eqn:E1 in H; [|discriminate].
    cbn [rbind] in H. pose proof (decode_len _ _ _ E1) as HL. rewrite arr_read_length in HL.
    destruct (full_read_loop _ _ _ _ _ _ f _ _) as [rest|e] eqn:E2; [|discriminate].
    cbn [rbind] in H. injection H as <-. rewrite app_length in Hp.
    destruct (Nat.lt_ge_cases p (length pt)) as [Hlt|Hge].
    - assert (Hpb : p < bs) by lia. rewrite (Nat.div_small p bs), (Nat.mod_small p bs) by lia.
      rewrite Nat.add_0_r. exists pt. split; [exact E1|]. split; [exact Hlt|].
      rewrite get_app. destruct (Nat.ltb_spec p (length pt)); [reflexivity|lia].
    - (* the rest is not empty, so the first block is full *)
      assert (Hfull : length pt = bs).
      { assert (bs <= length data - a * bs); [|lia].
        destruct (Nat.le_gt_cases bs (length data - a * bs)); [assumption|exfalso].
        rewrite (arr_read_over data) in E2 by lia. destruct f; injection E2 as <-; cbn in Hp; lia. }
      assert (Hpp : p - length pt < length rest) by lia.
      destruct (IH (S a) f rest E2 (p - length pt) Hpp) as (pt' & H1 & H2 & H3).
      rewrite Hfull in *.
      assert (Hdv : p / bs = S ((p - bs) / bs)).
      { replace p with (p - bs + 1 * bs) at 1 by lia. rewrite Nat.div_add by lia. lia. }
      assert (Hmd : p mod bs = (p - bs) mod bs).
      { replace p with (p - bs + 1 * bs) at 1 by lia. rewrite Nat.mod_add by lia. reflexivity. }
      rewrite Hdv, Hmd. replace (a + S ((p - bs) / bs)) with (S a + (p - bs) / bs) by lia.
      exists pt'. split; [exact H1|]. split; [exact H2|]. rewrite get_app.
      destruct (Nat.ltb_spec p (length pt)); [lia|]. rewrite Hfull. exact H3.
  Qed.

  Definition tblock (s : full_st) (q : nat) (x : byte) : Prop :=
    exists pt, decode (sdat (f_data s) (q / bs)) (arr_resize (srec (f_meta s) (q / bs)) ms) = Ok pt /\
      q mod bs < length pt /\ x = get pt (q mod bs).

  Lemma fread_multi_inv s a b out :
    full_read_multi A dkey id bs iv_size header_size true a b s = Ok out ->
    forall p, p < length out -> tblock s (a * bs + p) (get out p).
  Proof.
    pose proof (fe_bs _ _ _ _ _ _ HE) as Hbs. unfold full_read_multi. intros H p Hp.
    destruct (a =? b); [injection H as <-; cbn in Hp; lia|].
    destruct (over_max _ _); [discriminate|].
    destruct (length _ <=? 0); [injection H as <-; cbn in Hp; lia|].
    unfold hmac_read, meta_pos in H. rewrite skipn_arr_read in H.
    destruct (negb _); [discriminate|].
    destruct (fread_loop_inv _ _ _ _ _ _ H p Hp) as (pt & H1 & H2 & H3).
    assert (Hdv : (a * bs + p) / bs = a + p / bs).
    { rewrite Nat.add_comm, Nat.div_add by lia. lia. }
    assert (Hmd : (a * bs + p) mod bs = p mod bs).
    { rewrite Nat.add_comm, Nat.mod_add by lia. reflexivity. }
    unfold tblock. rewrite Hdv, Hmd, srec_body. exists pt. auto.
  Qed.

  (** Each state of a history represents the specification's content at that time. *)
  Lemma fsnapshot_rep ops k n :
    Forall (fop_within (full_max_blocks * bs) header_size) ops ->
    let '(c, h) := fst (run_ops (fspec_step header_size) ([], None) (firstn n ops)) in
    Rep h (fst (run_ops fstep (mkFull [] [] false k) (firstn n ops))) c.
  Proof.
    intros Hall.
    pose proof (full_refines A hmac dkey mkey id bs iv_size header_size true sparse rnd iv_fuel HE (firstn n ops)
      None (mkFull [] [] false k) [] (FRep_fresh A hmac dkey mkey id bs iv_size header_size k) (Nat.le_0_l _)
      (Forall_firstn _ n ops Hall)) as H.
    destruct (fst (run_ops (fspec_step header_size) ([], None) (firstn n ops))) as [c h].
    exact (proj1 (proj2 H)).
  Qed.

  Variable k : nat.
  Variable ops : list fop.
  Hypothesis Hops : Forall (fop_within (full_max_blocks * bs) header_size) ops.
  Notation s0 := (mkFull [] [] false k).
  Notation snaps := (snapshots fstep s0 ops).
  Notation state_at n := (fst (run_ops fstep s0 (firstn n ops))).
  Notation spec_at n := (fst (run_ops (fspec_step header_size) ([], None) (firstn n ops))).

  Lemma open_genuine others data' meta' k' s' :
    Forall (fun e => fst e <> id /\ length (fst e) = length id) others ->
    mac_not_forged hmac mkey id (own_log id snaps ++ others) meta' ->
    full_open hmac mkey id true data' meta' k' = Ok s' ->
    s' = mkFull data' meta' false k' /\
    (meta' = [] \/
     exists n, n <= length ops /\ f_dirty (state_at n) = false /\
       skipn 32 meta' = skipn 32 (f_meta (state_at n)) /\
       forall len p, len <= header_size -> snd (spec_at n) = Some p ->
         full_read_header A dkey id iv_size header_size len s' = Ok (Some (firstn len p))).
  Proof.
    intros Hoth Hnf Ho. unfold full_open, hmac_open in Ho.
    rewrite arr_read_length in Ho.
    destruct (Nat.eqb_spec (min hmac_len (length meta' - 0)) 0) as [E0|E0].
    { cbn [rmap] in Ho. injection Ho as <-. split; [reflexivity|]. left. unfold hmac_len in E0.
      apply length_zero_iff_nil. lia. }
    destruct (Nat.eqb_spec (min hmac_len (length meta' - 0)) hmac_len) as [E1|E1]; [|discriminate].
    cbn [negb] in Ho. rewrite mac_message_ok in Ho. cbn [rbind] in Ho.
    destruct (bytes_eqb _ _) eqn:E2; [|discriminate]. cbn [rmap] in Ho. injection Ho as <-.
    split; [reflexivity|]. right. apply bytes_eqb_eq in E2.
    destruct (Hnf E2) as (id2 & b2 & Hin & Heq).
    assert (Hid : In (id, skipn 32 meta') (own_log id snaps)).
    { apply in_app_or in Hin as [Hin|Hin].
      - pose proof Hin as Hin'. unfold own_log in Hin'. apply in_map_iff in Hin' as (s & Hs & _).
        injection Hs as <- <-. apply app_inv_head in Heq. rewrite <- Heq. exact Hin.
      - rewrite Forall_forall in Hoth. destruct (Hoth _ Hin) as [Hne HL]. cbn [fst] in *.
        exfalso. apply Hne. apply (f_equal (firstn (length id))) in Heq.
        rewrite !firstn_app, HL, Nat.sub_diag, !firstn_all2 in Heq by lia.
        cbn [firstn] in Heq. rewrite !app_nil_r, firstn_all in Heq. exact Heq. }
    unfold own_log in Hid. apply in_map_iff in Hid as (s & Hs & Hf). apply filter_In in Hf as [Hsn Hf].
    unfold flushed in Hf. apply andb_prop in Hf as [Hf _]. apply negb_true_iff in Hf.
    apply in_snapshots in Hsn as (n & Hn & ->). exists n.
    assert (Hb : skipn 32 meta' = skipn 32 (f_meta (state_at n))) by congruence.
    split; [exact Hn|]. split; [exact Hf|]. split; [exact Hb|].
    intros len p Hlen Hp. pose proof (fsnapshot_rep ops k n Hops) as HR.
    destruct (spec_at n) as [c h]. cbn [snd] in Hp. subst h.
    rewrite <- (full_read_header_ok A hmac dkey mkey id bs iv_size header_size p len _ c HR Hlen).
    unfold full_read_header. destruct (header_size <? len); [reflexivity|].
    unfold hmac_read. cbn [f_meta]. rewrite !skipn_arr_read. change hmac_len with 32. rewrite Hb. reflexivity.
  Qed.

  (** Blocks which verify are blocks of the history. *)
  Lemma tblock_source data' meta' i pt :
    blocks_not_forged A dkey id bs iv_size header_size snaps data' meta' ->
    decode (sdat data' i) (arr_resize (srec meta' i) ms) = Ok pt -> 0 < length pt ->

    pt = zeros (length pt) \/
    exists n j, n <= length ops /\
      srec (f_meta (state_at n)) j = arr_resize (srec meta' i) ms /\
      sdat (f_data (state_at n)) j = sdat data' i /\
      all_zero (srec (f_meta (state_at n)) j) = false /\
      pt = arr_read (fst (spec_at n)) (j * bs) bs.
  Proof.
    intros Hnf Hd Hpt. pose proof (decode_len _ _ _ Hd) as HL.
    pose proof Hd as Hd'. unfold full_decode_block in Hd.
    destruct (all_zero (arr_resize (srec meta' i) ms) && all_zero (sdat data' i)) eqn:Ez.
    { injection Hd as <-. left. rewrite zeros_length. reflexivity. }
    set (m := arr_resize (srec meta' i) ms) in *.
    assert (Hm : length m = ms) by (unfold m; apply arr_resize_length).
    destruct (a_dec A dkey (firstn iv_size m) id (sdat data' i) (skipn iv_size m)) as [ok out] eqn:Ed.
    destruct ok; [|discriminate]. cbn [negb andb] in Hd. injection Hd as ->.
    destruct (Hnf i (firstn iv_size m) (skipn iv_size m)) as (s & j & Hs & Hsd & Hsr).
    { rewrite firstn_length, Hm. unfold meta_size. lia. }
    { rewrite firstn_skipn. reflexivity. }
    { intros E. rewrite E in HL. cbn in HL. lia. }
    { rewrite Ed. reflexivity. }
    rewrite firstn_skipn in Hsr. apply in_snapshots in Hs as (n & Hn & ->).
    pose proof (fsnapshot_rep ops k n Hops) as HR. destruct (spec_at n) as [c h] eqn:Esp.
    assert (Hj : j * bs < length c).
    { rewrite <- (fr_data _ _ _ _ _ _ _ _ _ _ _ HR). destruct (Nat.lt_ge_cases (j * bs) (length (f_data (state_at n)))); [assumption|].
      unfold stored_data in Hsd at 1. rewrite arr_read_over in Hsd by assumption. rewrite <- Hsd in HL. cbn in HL. lia. }
    pose proof (fr_blk _ _ _ _ _ _ _ _ _ _ _ HR j Hj) as Hb. rewrite <- srec_body in Hb. fold (sdat (f_data (state_at n)) j) in Hb.
    right. exists n, j. split; [exact Hn|]. split; [exact Hsr|]. split; [exact Hsd|].
    rewrite Hsd, Hsr in Hb. rewrite Hsr. unfold sdecode in Hb.
    destruct (all_zero m) eqn:Ezm.
    - cbn [andb] in Ez, Hb. rewrite Ez in Hb. discriminate Hb.
    - cbn [andb] in Hb. split; [reflexivity|]. rewrite Esp. cbn [fst].
      unfold m in *. rewrite Hd' in Hb. injection Hb as <-. reflexivity.
  Qed.

  Lemma full_read_genuine others data' meta' k' s' off len out :
    Forall (fun e => fst e <> id /\ length (fst e) = length id) others ->
    mac_not_forged hmac mkey id (own_log id snaps ++ others) meta' ->
    blocks_not_forged A dkey id bs iv_size header_size snaps data' meta' ->
    fresh_records bs iv_size header_size snaps ->
    full_open hmac mkey id true data' meta' k' = Ok s' ->
    bb_read B off len s' = Ok out ->
    exists n, n <= length ops /\ (meta' = [] \/ f_dirty (state_at n) = false) /\
    exists src : nat -> bytes,
      (forall p, p < length out ->
         (off + p) mod bs < length (src ((off + p) / bs)) /\
         get out p = get (src ((off + p) / bs)) ((off + p) mod bs)) /\
      (forall i, src i = zeros (length (src i)) \/
                 (meta' <> [] /\ src i = arr_read (fst (spec_at n)) (i * bs) bs)).
  Proof.
    intros Hoth Hmf Hbf Hfr Ho Hr.
    destruct (open_genuine others data' meta' k' s' Hoth Hmf Ho) as [-> Hcase].
    assert (Hby := bb_read_bytes B (tblock (mkFull data' meta' false k')) _ off len out (fe_bs _ _ _ _ _ _ HE)
      (fun a b o => fread_multi_inv (mkFull data' meta' false k') a b o) Hr).
    cbn [bk_bs full_backend] in Hby.
    assert (Hex : exists n, n <= length ops /\ (meta' = [] \/ f_dirty (state_at n) = false) /\
      (meta' = [] \/ skipn 32 meta' = skipn 32 (f_meta (state_at n)))).
    { destruct Hcase as [->|(n & Hn & Hd & Hb & _)].
      - exists 0. split; [lia|]. auto.
      - exists n. auto. }
    destruct Hex as (n & Hn & Hnd & Hb). exists n. split; [exact Hn|]. split; [exact Hnd|].
    (* the source of block i *)
    exists (fun i => match decode (sdat data' i) (arr_resize (srec meta' i) ms) with Ok pt => pt | Err _ => [] end).
    split.
    - intros p Hp. destruct (Hby p Hp) as (pt & H1 & H2 & H3). cbn [f_data f_meta] in H1.
      rewrite H1. auto.
    - intros i. destruct (decode (sdat data' i) (arr_resize (srec meta' i) ms)) as [pt|e] eqn:Ed; [|left; reflexivity].
      destruct (Nat.eq_dec (length pt) 0) as [E0|E0].
      { left. apply length_zero_iff_nil in E0. subst pt. reflexivity. }
      destruct (tblock_source data' meta' i pt Hbf Ed ltac:(lia)) as [Hz|(n2 & j & Hn2 & Hr2 & Hd2 & Hnz & Hpt)].
      { left. exact Hz. }
      assert (Hme : meta' <> []).
      { intros ->. rewrite Hr2 in Hnz. unfold stored_record, arr_read in Hnz. rewrite skipn_nil, firstn_nil in Hnz.
        unfold arr_resize in Hnz. rewrite firstn_nil in Hnz. cbn [app] in Hnz. rewrite all_zero_zeros in Hnz. discriminate. }
      destruct Hb as [Hb|Hb]; [contradiction|]. right. split; [exact Hme|].
      (* the record of block i in the flushed state *)
      assert (Hrec : srec meta' i = srec (f_meta (state_at n)) i).
      { rewrite !srec_body. change hmac_len with 32. rewrite Hb. reflexivity. }
      pose proof (fsnapshot_rep ops k n Hops) as HR. destruct (spec_at n) as [c h] eqn:Esp. cbn [fst].
      assert (Hms : length (srec (f_meta (state_at n)) i) = ms \/ srec (f_meta (state_at n)) i = []).
      { rewrite srec_body, arr_read_length.
        destruct (fr_meta _ _ _ _ _ _ _ _ _ _ _ HR) as [HM|[HM _]].
        - destruct (Nat.lt_ge_cases i (nb bs (length c))) as [Hi|Hi].
          + left. pose proof (mul_lt_block i (nb bs (length c)) ms Hi). lia.
          + right. pose proof (mul_le_mono (nb bs (length c)) i ms Hi). apply arr_read_over. lia.
        - right. apply arr_read_over. lia. }
      assert (Hres : arr_resize (srec meta' i) ms = srec (f_meta (state_at n)) i /\ length (srec (f_meta (state_at n)) i) = ms).
      { rewrite Hrec. destruct Hms as [Hms|Hms].
        - split; [|exact Hms]. rewrite <- Hms. apply arr_resize_same.
        - exfalso. rewrite Hr2, Hrec, Hms in Hnz. unfold arr_resize in Hnz. rewrite firstn_nil in Hnz.
          cbn [app] in Hnz. rewrite all_zero_zeros in Hnz. discriminate. }
      destruct Hres as [Hres Hlen].
      assert (Hic : i * bs < length c).
      { apply (nb_spec A hmac bs iv_size rnd iv_fuel HE). destruct (Nat.lt_ge_cases i (nb bs (length c))) as [Hi|Hi]; [exact Hi|].
        exfalso. pose proof (mul_le_mono (nb bs (length c)) i ms Hi).
        rewrite srec_body in Hlen. rewrite arr_read_over in Hlen.
        - cbn in Hlen. unfold meta_size, mac_size in Hlen. lia.
        - destruct (fr_meta _ _ _ _ _ _ _ _ _ _ _ HR) as [HM|[HM _]]; lia. }
      assert (Hsame : sdat (f_data (state_at n)) i = sdat data' i).
      { rewrite <- Hd2. apply Hfr.
        - apply in_snapshots. exists n. auto.
        - apply in_snapshots. exists n2. auto.
        - rewrite <- Hres. symmetry. exact Hr2.
        - rewrite <- Hres, <- Hr2. exact Hnz. }
      pose proof (sdecode_decode A dkey id iv_size true _ _ _ (fr_blk _ _ _ _ _ _ _ _ _ _ _ HR i Hic)) as Hdec.
      rewrite <- srec_body in Hdec. fold (sdat (f_data (state_at n)) i) in Hdec.
      rewrite Hsame, <- Hres, Ed in Hdec. injection Hdec as ->. reflexivity.
  Qed.
End FullTamper.
