(** Properties C02, C03 (full part), C06, C07: full-format file content and the
    stream adaptors. *)
From Verif Require Import Base BaseLemmas StreamSpec BlockModel BlockProofs LiteModel LiteSpec LiteProofs
  FullStreamModel FullSpec FullStreamProofs FullTamper AdaptorModel AdaptorProofs LiteTamper Toy.

(** C02.  Any history of reads, writes, resizes, size queries, header writes and
    reads, flushes and reopens on a new full-format file gives the outputs of
    the specification (a byte array and, independent of it, a header). *)
Theorem C02_full_file_is_byte_array :
  forall (A : aead) hmac dkey mkey id bs iv_size header_size check sparse rnd iv_fuel k ops,
    full_env_ok A hmac bs iv_size rnd iv_fuel ->
    Forall (fop_within (full_max_blocks * bs) header_size) ops ->
    full_open hmac mkey id check [] [] k = Ok (mkFull [] [] false k) /\
    Forall2 fout_ok
      (snd (run_ops (fspec_step header_size) ([], None) ops))
      (snd (run_ops (full_step A hmac dkey mkey id bs iv_size header_size check sparse rnd iv_fuel)
                    (mkFull [] [] false k) ops)).
Proof.
  exact (fun A hmac dkey mkey id bs iv_size header_size check sparse rnd iv_fuel k ops HE Hops =>
    conj (full_open_empty hmac mkey id check k)
      (full_history A hmac dkey mkey id bs iv_size header_size check sparse rnd iv_fuel HE k ops Hops)).
Qed.
Print Assumptions C02_full_file_is_byte_array.

(** C03, full part.  After any history, destroying the object (which flushes)
    and opening the stored files anew succeeds and continues with the same
    content and header. *)
Theorem C03_full_reopen :
  forall (A : aead) hmac dkey mkey id bs iv_size header_size check sparse rnd iv_fuel k ops k2 ops2,
    full_env_ok A hmac bs iv_size rnd iv_fuel ->
    Forall (fop_within (full_max_blocks * bs) header_size) ops ->
    Forall (fop_within (full_max_blocks * bs) header_size) ops2 ->
    let step := full_step A hmac dkey mkey id bs iv_size header_size check sparse rnd iv_fuel in
    let spec := fspec_step header_size in
    let sF := fst (full_flush hmac mkey id (fst (run_ops step (mkFull [] [] false k) ops))) in
    exists s1,
      full_open hmac mkey id check (f_data sF) (f_meta sF) k2 = Ok s1 /\
      Forall2 fout_ok (snd (run_ops spec (fst (run_ops spec ([], None) ops)) ops2))
                      (snd (run_ops step s1 ops2)).
Proof.
  exact (fun A hmac dkey mkey id bs iv_size header_size check sparse rnd iv_fuel k ops k2 ops2 HE H1 H2 =>
    full_reopen_history A hmac dkey mkey id bs iv_size header_size check sparse rnd iv_fuel HE k ops k2 ops2 H1 H2).
Qed.
Print Assumptions C03_full_reopen.

Definition toy_hmac (k m : bytes) : bytes := repeat (n2b (N.of_nat (length m))) 32.

Lemma toy_full_env sp : full_env_ok (toy_aead sp) toy_hmac 32 12 toy_rnd 2.
Proof.
  pose proof (toy_env_ok sp) as H. constructor; try lia.
  - apply toy_aead_ok.
  - intros. apply repeat_length.
  - apply (le_rnd _ _ _ _ _ H).
  - apply (le_nonzero _ _ _ _ _ H).
Qed.

Definition exf_ops : list fop :=
  [FOp (SWrite 40 [x61; x62; x63]); FWriteHeader [x01; x02]; FOp SSize; FOp (SRead 30 20); FReopen;
   FOp (SResize 41); FOp (SWrite 0 (repeat x7a 33)); FReadHeader 3; FFlush; FReopen; FOp (SRead 0 100);
   FReadHeader 1].

Lemma full_max_1000 : 1000 <= full_max_blocks.
Proof. apply full_over_max_inv. vm_compute. reflexivity. Qed.

Example C02_example :
  full_env_ok (toy_aead ([], [], [])) toy_hmac 32 12 toy_rnd 2 /\
  Forall (fop_within (full_max_blocks * 32) 5) exf_ops /\
  snd (run_ops (full_step (toy_aead ([], [], [])) toy_hmac [] [] [x09] 32 12 5 true true toy_rnd 2)
         (mkFull [] [] false 0) exf_ops)
  = [FOut ODone; FOut ODone; FOut (OSize 43); FOut (OData (zeros 10 ++ [x61; x62; x63])); FReopened;
     FOut ODone; FOut ODone; FHeader (Some [x01; x02; x00]); FOut ODone; FReopened;
     FOut (OData (repeat x7a 33 ++ zeros 7 ++ [x61])); FHeader (Some [x01])].
Proof.
  split; [apply toy_full_env|]. split; [|vm_compute; reflexivity].
  pose proof full_max_1000.
  unfold exf_ops. repeat (apply Forall_cons || apply Forall_nil);
    cbn [fop_within sop_within length repeat]; try exact I; lia.
Qed.

(** C06, first half.  The metadata file [meta'] (whatever it holds) is accepted
    only if it is empty or its whole body is the one this file had at a moment
    [n] of its history at which its metadata had been flushed; the header then
    read is the header of that moment.  [others] are the MACs computed for
    other files of the repository. *)
Theorem C06_accepted_metadata_was_flushed :
  forall (A : aead) hmac dkey mkey id bs iv_size header_size sparse rnd iv_fuel,
    full_env_ok A hmac bs iv_size rnd iv_fuel ->
    forall k ops others data' meta' k' s',
      Forall (fop_within (full_max_blocks * bs) header_size) ops ->
      let step := full_step A hmac dkey mkey id bs iv_size header_size true sparse rnd iv_fuel in
      let state_at n := fst (run_ops step (mkFull [] [] false k) (firstn n ops)) in
      let spec_at n := fst (run_ops (fspec_step header_size) ([], None) (firstn n ops)) in
      Forall (fun e => fst e <> id /\ length (fst e) = length id) others ->
      mac_not_forged hmac mkey id (own_log id (snapshots step (mkFull [] [] false k) ops) ++ others) meta' ->
      full_open hmac mkey id true data' meta' k' = Ok s' ->
      s' = mkFull data' meta' false k' /\
      (meta' = [] \/
       exists n, n <= length ops /\ f_dirty (state_at n) = false /\
         skipn 32 meta' = skipn 32 (f_meta (state_at n)) /\
         forall len p, len <= header_size -> snd (spec_at n) = Some p ->
           full_read_header A dkey id iv_size header_size len s' = Ok (Some (firstn len p))).
Proof.
  exact (fun A hmac dkey mkey id bs iv_size header_size sparse rnd iv_fuel HE k ops others data' meta' k' s' Hops =>
    open_genuine A hmac dkey mkey id bs iv_size header_size sparse rnd iv_fuel HE k ops Hops others data' meta' k' s').
Qed.
Print Assumptions C06_accepted_metadata_was_flushed.

(** C06, second half.  If moreover no block is forged and nonces are fresh,
    every block of a successful read of the tampered files is all zeros or the
    content of that same block at that one flushed moment [n]. *)
Theorem C06_tampered_read_is_one_flushed_version :
  forall (A : aead) hmac dkey mkey id bs iv_size header_size sparse rnd iv_fuel,
    full_env_ok A hmac bs iv_size rnd iv_fuel ->
    forall k ops others data' meta' k' s' off len out,
      Forall (fop_within (full_max_blocks * bs) header_size) ops ->
      let step := full_step A hmac dkey mkey id bs iv_size header_size true sparse rnd iv_fuel in
      let snaps := snapshots step (mkFull [] [] false k) ops in
      let state_at n := fst (run_ops step (mkFull [] [] false k) (firstn n ops)) in
      let spec_at n := fst (run_ops (fspec_step header_size) ([], None) (firstn n ops)) in
      Forall (fun e => fst e <> id /\ length (fst e) = length id) others ->
      mac_not_forged hmac mkey id (own_log id snaps ++ others) meta' ->
      blocks_not_forged A dkey id bs iv_size header_size snaps data' meta' ->
      fresh_records bs iv_size header_size snaps ->
      full_open hmac mkey id true data' meta' k' = Ok s' ->
      bb_read (full_backend A dkey id bs iv_size header_size true sparse rnd iv_fuel) off len s' = Ok out ->
      exists n, n <= length ops /\ (meta' = [] \/ f_dirty (state_at n) = false) /\
      exists src : nat -> bytes,
        (forall p, p < length out ->
           (off + p) mod bs < length (src ((off + p) / bs)) /\
           get out p = get (src ((off + p) / bs)) ((off + p) mod bs)) /\
        (forall i, src i = zeros (length (src i)) \/
                   (meta' <> [] /\ src i = arr_read (fst (spec_at n)) (i * bs) bs)).
Proof.
  exact (fun A hmac dkey mkey id bs iv_size header_size sparse rnd iv_fuel HE k ops others data' meta' k' s' off len out Hops =>
    full_read_genuine A hmac dkey mkey id bs iv_size header_size sparse rnd iv_fuel HE k ops Hops others data' meta' k' s' off len out).
Qed.
Print Assumptions C06_tampered_read_is_one_flushed_version.

(** A case where all hypotheses hold: header and one 32-byte block are written
    and flushed; later the content is changed but not flushed; the attacker puts
    back the flushed metadata and the old block, followed by a zeroed block. *)
Definition ex6_data : bytes := repeat x64 32.
Definition ex6_id : bytes := [x09].
Definition ex6_aead : aead := toy_aead (toy_rnd 1 12, ex6_id, ex6_data).
Definition ex6_step := full_step ex6_aead toy_hmac [] [] ex6_id 32 12 5 true true toy_rnd 2.
Definition ex6_ops : list fop := [FWriteHeader [x01]; FOp (SWrite 0 ex6_data); FFlush].
Definition ex6_s0 : full_st := mkFull [] [] false 0.
Definition ex6_meta' : bytes := f_meta (fst (run_ops ex6_step ex6_s0 ex6_ops)).
Definition ex6_data' : bytes := ex6_data ++ zeros 32.

Lemma ex6_snaps : snapshots ex6_step ex6_s0 ex6_ops =
  [ex6_s0; mkFull [] (zeros 32 ++ repeat x01 12 ++ repeat xbb 16 ++ [x01; x00; x00; x00; x00]) true 1;
   mkFull ex6_data (zeros 32 ++ repeat x01 12 ++ repeat xbb 16 ++ [x01; x00; x00; x00; x00]
                    ++ repeat x02 12 ++ repeat xaa 16) true 2;
   mkFull ex6_data (repeat x3e 32 ++ repeat x01 12 ++ repeat xbb 16 ++ [x01; x00; x00; x00; x00]
                    ++ repeat x02 12 ++ repeat xaa 16) false 2].
Proof. vm_compute. reflexivity. Qed.

Example C06_example :
  Forall (fop_within (full_max_blocks * 32) 5) ex6_ops /\
  mac_not_forged toy_hmac [] ex6_id (own_log ex6_id (snapshots ex6_step ex6_s0 ex6_ops) ++ []) ex6_meta' /\
  blocks_not_forged ex6_aead [] ex6_id 32 12 5 (snapshots ex6_step ex6_s0 ex6_ops) ex6_data' ex6_meta' /\
  fresh_records 32 12 5 (snapshots ex6_step ex6_s0 ex6_ops) /\
  exists s', full_open toy_hmac [] ex6_id true ex6_data' ex6_meta' 7 = Ok s' /\
    bb_read (full_backend ex6_aead [] ex6_id 32 12 5 true true toy_rnd 2) 0 64 s' = Ok (ex6_data ++ zeros 32).
Proof.
  pose proof full_max_1000 as Hmax.
  split. { unfold ex6_ops. repeat (apply Forall_cons || apply Forall_nil);
    cbn [fop_within sop_within length repeat ex6_data]; try exact I; lia. }
  rewrite ex6_snaps. split.
  { intros _. eexists _, _. split; [left; reflexivity|]. vm_compute. reflexivity. }
  split.
  { intros i iv mac Hiv Hrec Hne Hv.
    assert (Hm : ex6_meta' = repeat x3e 32 ++ repeat x01 12 ++ repeat xbb 16 ++ [x01; x00; x00; x00; x00]
                    ++ repeat x02 12 ++ repeat xaa 16) by (vm_compute; reflexivity).
    rewrite Hm in Hrec.
    cbn [ex6_aead toy_aead a_dec fst] in Hv. apply bytes_eqb_eq in Hv.
    destruct i as [|i].
    - exists (mkFull ex6_data (repeat x3e 32 ++ repeat x01 12 ++ repeat xbb 16 ++ [x01; x00; x00; x00; x00]
                    ++ repeat x02 12 ++ repeat xaa 16) false 2), 0.
      split; [right; right; right; left; reflexivity|]. split; [vm_compute; reflexivity|].
      rewrite <- Hrec. vm_compute. reflexivity.
    - exfalso. unfold stored_record in Hrec. rewrite arr_read_over in Hrec.
      2: { rewrite !app_length, !repeat_length. cbn [length]. lia. }
      unfold arr_resize in Hrec. rewrite firstn_nil in Hrec. cbn [app length Nat.sub] in Hrec.
      assert (Hin : exists x, In x mac /\ x <> x00).
      { rewrite Hv. unfold toy_tag. destruct (_ && _);
          [exists xaa|exists xbb]; split; try (left; reflexivity); discriminate. }
      destruct Hin as (x & Hx & Hx0). apply Hx0.
      assert (Hin : In x (zeros (12 + 16 - 0))) by (rewrite Hrec; apply in_or_app; right; exact Hx).
      apply repeat_spec in Hin. exact Hin. }
  split.
  { (* only block 0 has a non-empty record *)
    assert (Hrec : forall s i, In s [ex6_s0; mkFull [] (zeros 32 ++ repeat x01 12 ++ repeat xbb 16 ++ [x01; x00; x00; x00; x00]) true 1;
       mkFull ex6_data (zeros 32 ++ repeat x01 12 ++ repeat xbb 16 ++ [x01; x00; x00; x00; x00]
                    ++ repeat x02 12 ++ repeat xaa 16) true 2;
       mkFull ex6_data (repeat x3e 32 ++ repeat x01 12 ++ repeat xbb 16 ++ [x01; x00; x00; x00; x00]
                    ++ repeat x02 12 ++ repeat xaa 16) false 2] ->
       all_zero (stored_record 12 5 (f_meta s) i) = false -> i = 0 /\ f_data s = ex6_data).
    { intros s i Hs Hz. destruct i as [|i].
      - split; [reflexivity|].
        destruct Hs as [<-|[<-|[<-|[<-|[]]]]]; try reflexivity; vm_compute in Hz; discriminate.
      - exfalso. unfold stored_record in Hz. rewrite arr_read_over in Hz; [discriminate|].
        destruct Hs as [<-|[<-|[<-|[<-|[]]]]]; cbn [f_meta ex6_s0 length];
          unfold zeros; rewrite ?app_length, ?repeat_length; cbn [length]; lia. }
    intros s1 i1 s2 i2 H1 H2 Heq Hz. pose proof Hz as Hz2. rewrite Heq in Hz2.
    destruct (Hrec s1 i1 H1 Hz) as [-> ->]. destruct (Hrec s2 i2 H2 Hz2) as [-> ->]. reflexivity. }
  eexists. split; [vm_compute; reflexivity|]. vm_compute. reflexivity.
Qed.

(** C07.  Let [D] be any stream that behaves as a byte array.  Then each
    adaptor over [D] behaves as a byte array; the padded and the authenticated
    stream keep a prefix in [D] which content operations neither show nor
    change.  [R s c] reads "state [s] of the wrapped stream holds [c]". *)
Theorem C07_padded_stream_is_byte_array :
  forall (D : strm) R limit pre,
    behaves_as_array (sm_step D) R limit -> length pre <= limit ->
    behaves_as_array (sm_step (padded D (length pre))) (fun s c => R s (pre ++ c)) (limit - length pre).
Proof. exact (fun D R limit pre HD => padded_array D R limit HD pre). Qed.
Print Assumptions C07_padded_stream_is_byte_array.

(** Constructing the padded stream: content after the first [p] bytes is kept; a
    stream shorter than [p] gets [p] random bytes of padding and is then empty. *)
Theorem C07_padded_open :
  forall (D : strm) R limit p rnd s c,
    behaves_as_array (sm_step D) R limit ->
    R s c -> length c <= limit -> p <= limit -> p <= length rnd ->
    exists s' pre, padded_open D p rnd s = (s', ODone) /\ length pre = p /\
      R s' (pre ++ skipn p c) /\ (p <= length c -> pre = firstn p c).
Proof. exact (fun D R limit p rnd s c HD => padded_open_ok D R limit HD p rnd s c). Qed.
Print Assumptions C07_padded_open.

Theorem C07_authenticated_stream_is_byte_array :
  forall (D : strm) R limit,
    behaves_as_array (sm_step D) R limit -> 32 <= limit ->
    behaves_as_array (sm_step (hmacd D))
      (fun s c => exists raw, R (fst s) raw /\ length raw <= limit /\ c = skipn 32 raw) (limit - 32).
Proof. exact (fun D R limit HD => hmacd_array D R limit HD). Qed.
Print Assumptions C07_authenticated_stream_is_byte_array.

Theorem C07_authentication_code_untouched :
  forall (D : strm) R limit s o raw,
    behaves_as_array (sm_step D) R limit ->
    R (fst s) raw -> 32 <= length raw -> length raw <= limit -> sop_within (limit - 32) o -> 32 <= limit ->
    exists raw', R (fst (fst (hmacd_step D s o))) raw' /\ firstn 32 raw' = firstn 32 raw.
Proof. exact (fun D R limit s o raw HD => hmacd_prefix D R limit HD s o raw). Qed.
Print Assumptions C07_authentication_code_untouched.

(** The write-cached stream, from its construction on and for any history. *)
Theorem C07_write_cached_stream_is_byte_array :
  forall (D : strm) R limit cache_size d c ops,
    behaves_as_array (sm_step D) R limit ->
    R d c -> length c <= limit -> Forall (sop_within limit) ops ->
    snd (run_ops (sm_step (wcached D)) (wc_open D cache_size d) ops) = snd (run_ops spec_step c ops).
Proof.
  exact (fun D R limit n d c ops HD Hd Hc Hall =>
    match run_array _ _ limit ops (wcached_array D R limit HD) _ c (wc_open_rep D R n d c Hd) Hc Hall with
    | ex_intro _ s' (conj H _) => eq_trans (f_equal snd H) eq_refl
    end).
Qed.
Print Assumptions C07_write_cached_stream_is_byte_array.

(** The hypotheses hold for stored files and, by C01/C02, for the encrypted
    streams; e.g. a padded full-format file (the stack built in files.cpp
    117-181) behaves as a byte array. *)
Theorem C07_padded_full_file_is_byte_array :
  forall (A : aead) hmac dkey mkey id bs iv_size header_size check sparse rnd iv_fuel h pre,
    full_env_ok A hmac bs iv_size rnd iv_fuel -> length pre <= full_max_blocks * bs ->
    let D := mkStrm full_st (bb_step (full_backend A dkey id bs iv_size header_size check sparse rnd iv_fuel)) in
    behaves_as_array (sm_step (padded D (length pre)))
      (fun s c => FRep A hmac dkey mkey id bs iv_size header_size h s (pre ++ c))
      (full_max_blocks * bs - length pre).
Proof. exact padded_full_array. Qed.
Print Assumptions C07_padded_full_file_is_byte_array.

Example C07_example :
  behaves_as_array (sm_step raw_file) (fun s c => s = c) 1000 /\
  snd (run_ops (sm_step (padded raw_file 3)) [x0a; x0b; x0c]
         [SWrite 2 [x61]; SSize; SRead 0 9; SResize 1; SRead 0 9])
    = [ODone; OSize 3; OData [x00; x00; x61]; ODone; OData [x00]] /\
  fst (run_ops (sm_step (padded raw_file 3)) [x0a; x0b; x0c]
         [SWrite 2 [x61]; SSize; SRead 0 9; SResize 1; SRead 0 9]) = [x0a; x0b; x0c; x00].
Proof. split; [apply raw_file_array|]. split; vm_compute; reflexivity. Qed.
