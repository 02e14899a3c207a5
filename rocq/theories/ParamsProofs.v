(** Proofs about ParamsModel. *)
From Coq Require Import Strings.String.
From Verif Require Import Base BaseLemmas TextModel TextProofs NameModel ProtoModel ProtoProofs TableIoModel TableIoProofs ParamsModel ParamsSpec.
Local Open Scope nat_scope.
Local Open Scope list_scope.

(** ** Text *)
Section Utf8.
  Local Open Scope N_scope.
  Lemma between_true lo hi n : n < 256 -> lo <= n <= hi -> between lo hi (n2b n) = true.
  Proof. intros H1 [H2 H3]. unfold between. rewrite b2n_small by exact H1. apply N.leb_le in H2, H3. now rewrite H2, H3. Qed.
  Lemma between_high lo hi n : n < 256 -> hi < n -> between lo hi (n2b n) = false.
  Proof. intros H1 H2. unfold between. rewrite b2n_small by exact H1. apply N.leb_gt in H2. rewrite H2. apply andb_false_r. Qed.

  Lemma utf8_app c r : scalar c -> valid_utf8 (utf8 c ++ r) = valid_utf8 r.
  Proof.
    intros Hc. unfold utf8. unfold scalar in Hc.
    assert (Hm1 : c mod 64 < 64) by (apply N.mod_lt; lia).
    assert (Hm2 : (c / 64) mod 64 < 64) by (apply N.mod_lt; lia).
    assert (Hm3 : (c / 4096) mod 64 < 64) by (apply N.mod_lt; lia).
    pose proof (N.div_mod c 64 ltac:(lia)) as E1.
    pose proof (N.div_mod (c / 64) 64 ltac:(lia)) as E2. rewrite N.div_div in E2 by lia. change (64 * 64) with 4096 in E2.
    pose proof (N.div_mod (c / 4096) 64 ltac:(lia)) as E3. rewrite N.div_div in E3 by lia. change (4096 * 64) with 262144 in E3.
    assert (L1 : forall x, x < 128 -> b2n (n2b x) <? 128 = true) by (intros x Hx; rewrite b2n_small by lia; now apply N.ltb_lt).
    assert (L2 : forall x, 128 <= x < 256 -> b2n (n2b x) <? 128 = false) by (intros x Hx; rewrite b2n_small by lia; now apply N.ltb_ge).
    destruct (N.ltb_spec c 128); [cbn [app valid_utf8]; now rewrite L1|].
    destruct (N.ltb_spec c 2048).
    { cbn [app valid_utf8]. rewrite L2 by lia. rewrite between_true by lia. unfold cont. rewrite between_true by lia. reflexivity. }
    destruct (N.ltb_spec c 65536).
    { cbn [app valid_utf8]. rewrite L2 by lia. rewrite between_high by lia. rewrite between_true by lia. unfold cont.
      rewrite (between_true 128 191) by lia. rewrite b2n_small by lia.
      rewrite between_true; [reflexivity|lia|].
      destruct (N.eqb_spec (224 + c / 4096) 224); destruct (N.eqb_spec (224 + c / 4096) 237); lia. }
    cbn [app valid_utf8]. rewrite L2 by lia. rewrite !between_high by lia. rewrite between_true by lia. unfold cont.
    rewrite !(between_true 128 191) by lia. rewrite b2n_small by lia.
    rewrite between_true; [reflexivity|lia|].
    destruct (N.eqb_spec (240 + c / 262144) 240); destruct (N.eqb_spec (240 + c / 262144) 244); lia.
  Qed.
  Lemma text_valid s : is_text s -> valid_utf8 s = true.
  Proof.
    intros (cs & H & ->). induction H as [|c cs Hc _ IH]; [reflexivity|].
    cbn [flat_map]. now rewrite utf8_app.
  Qed.
End Utf8.

(** ** Sizes *)
Lemma enc_varint_len f n : length (enc_varint_ f n) <= f.
Proof. revert n; induction f as [|f IH]; intros n; cbn; [lia|]. destruct (n <? 128)%N; cbn; [lia|]. specialize (IH (n / 128)%N). lia. Qed.
Lemma enc_varint_le n : length (enc_varint n) <= 10.
Proof. apply enc_varint_len. Qed.
Lemma enc_fields_app a b : enc_fields (a ++ b) = enc_fields a ++ enc_fields b.
Proof. unfold enc_fields. now rewrite map_app, concat_app. Qed.
Lemma w_int_len k n : length (enc_fields (w_int k n)) <= 20.
Proof.
  unfold w_int. destruct (n =? 0)%N; unfold enc_fields; cbn [map concat enc_field]; [cbn; lia|].
  rewrite app_nil_r, app_length. pose proof (enc_varint_le (k * 8)). pose proof (enc_varint_le n). lia.
Qed.
Lemma w_bool_len k n : length (enc_fields (w_bool k n)) <= 20.
Proof.
  unfold w_bool. destruct n; unfold enc_fields; cbn [map concat enc_field]; [|cbn; lia].
  rewrite app_nil_r, app_length. pose proof (enc_varint_le (k * 8)). pose proof (enc_varint_le 1). lia.
Qed.
Lemma w_bytes_len k b : length (enc_fields (w_bytes k b)) <= 20 + length b.
Proof.
  unfold w_bytes. destruct b as [|x b]; unfold enc_fields; cbn [map concat enc_field]; [cbn; lia|].
  rewrite app_nil_r, !app_length. pose proof (enc_varint_le (k * 8 + 2)). pose proof (enc_varint_le (N.of_nat (length (x :: b)))). lia.
Qed.

Lemma modest_ok b : modest b -> bytes_ok b.
Proof. unfold modest, bytes_ok, max_len. lia. Qed.
Lemma size_len60 s : length (enc_fields (size_fields s)) <= 60.
Proof.
  unfold size_fields. rewrite !enc_fields_app, !app_length.
  pose proof (w_int_len 1 (z_block s)). pose proof (w_int_len 2 (z_iv s)). pose proof (w_int_len 3 (z_padding s)). lia.
Qed.
Lemma size_len s : bytes_ok (enc_fields (size_fields s)).
Proof.
  unfold bytes_ok, size_fields. rewrite !enc_fields_app, !app_length.
  pose proof (w_int_len 1 (z_block s)). pose proof (w_int_len 2 (z_iv s)). pose proof (w_int_len 3 (z_padding s)). unfold max_len. lia.
Qed.
Lemma argon_len s : bytes_ok (enc_fields (argon_fields s)).
Proof.
  unfold bytes_ok, argon_fields. rewrite !enc_fields_app, !app_length.
  pose proof (w_int_len 1 (a_time s)). pose proof (w_int_len 2 (a_memory s)). pose proof (w_int_len 3 (a_parallel s)). unfold max_len. lia.
Qed.
Lemma full_len f : modest (u_master f) -> (N.of_nat (length (enc_fields (full_fields f))) < 268435456 + 100)%N.
Proof.
  unfold modest, full_fields. intros H. rewrite !enc_fields_app, !app_length.
  pose proof (w_bytes_len 1 (u_master f)). pose proof (w_bool_len 2 (u_store_time f)). pose proof (w_bool_len 3 (u_legacy_io f)).
  pose proof (w_bool_len 4 (u_nocase f)). pose proof (w_bool_len 5 (u_nonorm f)). lia.
Qed.
Lemma lite_len l : modest (i_name l) -> modest (i_content l) -> modest (i_xattr l) -> modest (i_padding l) -> modest (i_suffix l) ->
  (N.of_nat (length (enc_fields (lite_fields l))) < 1342177280 + 200)%N.
Proof.
  unfold modest, lite_fields. intros A B C D E. rewrite !enc_fields_app, !app_length.
  pose proof (w_bytes_len 1 (i_name l)). pose proof (w_bytes_len 2 (i_content l)). pose proof (w_bytes_len 3 (i_xattr l)).
  pose proof (w_bytes_len 4 (i_padding l)). pose proof (w_bytes_len 6 (i_suffix l)).
  match goal with |- context [enc_fields ?m] => match m with context [i_threshold l] => assert (length (enc_fields m) <= 20) end end.
  { destruct (i_threshold l) as [n|]; unfold enc_fields; cbn [map concat enc_field]; [|cbn; lia].
    rewrite app_nil_r, app_length. pose proof (enc_varint_le (5 * 8)). pose proof (enc_varint_le n). lia. }
  lia.
Qed.

(** What remains after the suffix, for suffixes that are not text. *)
Definition storable_but_text (d : dec_params) : Prop :=
  match d_size d with Some s => is_u32 (z_block s) /\ is_u32 (z_iv s) /\ is_u32 (z_padding s) | None => True end /\
  match d_format d with
  | FNone => True
  | FLite l =>
    modest (i_name l) /\ modest (i_content l) /\ modest (i_xattr l) /\ modest (i_padding l) /\ modest (i_suffix l) /\
    match i_threshold l with Some n => is_u32 n | None => True end
  | FFull f => modest (u_master f)
  end.
Lemma storable_weak d : storable d -> storable_but_text d.
Proof. intros [A B]. split; [exact A|]. destruct (d_format d); tauto. Qed.

Lemma storable_ok d : storable d -> dec_ok d.
Proof.
  intros [A B]. split.
  - destruct (d_size d) as [s|]; [|exact I]. split; [exact A|apply size_len].
  - destruct (d_format d) as [|l|f]; [exact I| |].
    + destruct B as (B1 & B2 & B3 & B4 & B5 & B6 & B7). split.
      * repeat split; try now apply modest_ok. { destruct (i_threshold l); exact B6. } now apply text_valid.
      * unfold bytes_ok. pose proof (lite_len l B1 B2 B3 B4 B5). unfold max_len. lia.
    + split; [now apply modest_ok|]. unfold bytes_ok. pose proof (full_len f B). unfold max_len. lia.
Qed.

Lemma ser_dec_len d : storable_but_text d -> bytes_ok (ser_dec d).
Proof.
  intros [A B]. unfold ser_dec, dec_fields, bytes_ok. rewrite enc_fields_app, app_length.
  match goal with |- context [enc_fields ?m] => match m with context [d_size d] => assert (length (enc_fields m) <= 80) end end.
  { destruct (d_size d) as [s|]; unfold enc_fields at 1; cbn [map concat enc_field]; [|cbn; lia].
    rewrite app_nil_r, !app_length. pose proof (enc_varint_le (1 * 8 + 2)). pose proof (enc_varint_le (N.of_nat (length (enc_fields (size_fields s))))).
    pose proof (size_len60 s). lia. }
  match goal with |- context [enc_fields ?m] => match m with context [d_format d] => assert (N.of_nat (length (enc_fields m)) < 1342177280 + 300)%N end end.
  { destruct (d_format d) as [|l|f]; unfold enc_fields at 1; cbn [map concat enc_field]; [cbn; lia| |].
    - destruct B as (B1 & B2 & B3 & B4 & B5 & B6). pose proof (lite_len l B1 B2 B3 B4 B5).
      rewrite app_nil_r, !app_length. pose proof (enc_varint_le (2 * 8 + 2)). pose proof (enc_varint_le (N.of_nat (length (enc_fields (lite_fields l))))). lia.
    - pose proof (full_len f B).
      rewrite app_nil_r, !app_length. pose proof (enc_varint_le (3 * 8 + 2)). pose proof (enc_varint_le (N.of_nat (length (enc_fields (full_fields f))))). lia. }
  unfold max_len. lia.
Qed.

(** ** The cipher *)
Lemma xor_byte_twice a b : xor_byte (xor_byte a b) b = a.
Proof.
  apply byte_eqb_eq. revert a b. apply (byte_sweep2 (fun a b => Byte.eqb (xor_byte (xor_byte a b) b) a)). vm_compute. reflexivity.
Qed.
Lemma xor_byte_swap a b c : xor_byte (xor_byte a b) c = xor_byte (xor_byte a c) b.
Proof.
  unfold xor_byte. assert (Hl : forall x y, (N.lxor (b2n x) (b2n y) < 256)%N).
  { intros x y. pose proof (b2n_lt x). pose proof (b2n_lt y).
    destruct (N.eq_dec (N.lxor (b2n x) (b2n y)) 0) as [->|H1]; [lia|].
    apply N.log2_lt_pow2 with (b := 8%N); [lia|]. eapply N.le_lt_trans; [apply N.log2_lxor|].
    apply N.max_lub_lt.
    - destruct (N.eq_dec (b2n x) 0) as [->|]; [reflexivity|]. apply N.log2_lt_pow2; [lia|exact H].
    - destruct (N.eq_dec (b2n y) 0) as [->|]; [reflexivity|]. apply N.log2_lt_pow2; [lia|exact H0]. }
  rewrite !b2n_small by apply Hl. f_equal. rewrite !N.lxor_assoc. f_equal. apply N.lxor_comm.
Qed.
Lemma xor_bytes_length a b : length (xor_bytes a b) = min (length a) (length b).
Proof. revert b; induction a as [|x a IH]; intros [|y b]; cbn; auto. Qed.
Lemma xor_bytes_twice a b : length a <= length b -> xor_bytes (xor_bytes a b) b = a.
Proof. revert b; induction a as [|x a IH]; intros [|y b] H; cbn in *; auto; try lia. rewrite xor_byte_twice, IH by lia. reflexivity. Qed.
Lemma xor_bytes_swap a b c : xor_bytes (xor_bytes a b) c = xor_bytes (xor_bytes a c) b.
Proof. revert b c; induction a as [|x a IH]; intros [|y b] [|z c]; cbn; auto. now rewrite xor_byte_swap, IH. Qed.

Lemma gcm_crypt_length C k iv t : crypto_ok C -> length (gcm_crypt C k iv t) = length t.
Proof. intros [H _]. unfold gcm_crypt. rewrite xor_bytes_length, H. lia. Qed.
Lemma gcm_crypt_twice C k iv t : crypto_ok C -> gcm_crypt C k iv (gcm_crypt C k iv t) = t.
Proof. intros H. unfold gcm_crypt at 1. rewrite gcm_crypt_length by exact H. unfold gcm_crypt. apply xor_bytes_twice. destruct H as [-> _]. lia. Qed.
Lemma gcm_open_seal C k iv aad p : crypto_ok C -> 12 <= length iv ->
  gcm_open C k iv aad (gcm_crypt C k iv p) (c_tag C k iv aad (gcm_crypt C k iv p)) = Ok (Some p).
Proof.
  intros H Hiv. unfold gcm_open. destruct (Nat.ltb_spec (length iv) 12); [lia|].
  destruct H as [H1 H2]. rewrite H2. cbn [Nat.ltb Nat.leb]. rewrite firstn_all2 by (rewrite H2; lia). rewrite bytes_eqb_refl.
  now rewrite gcm_crypt_twice.
Qed.
Lemma gcm_open_some C k iv aad ct mac p : crypto_ok C -> gcm_open C k iv aad ct mac = Ok (Some p) ->
  12 <= length iv /\ length mac <= 16 /\ mac = firstn (length mac) (c_tag C k iv aad ct) /\ p = gcm_crypt C k iv ct.
Proof.
  intros H. unfold gcm_open. destruct (Nat.ltb_spec (length iv) 12); [discriminate|]. destruct (Nat.ltb_spec 16 (length mac)); [discriminate|].
  destruct (bytes_eqb mac _) eqn:E; [|discriminate]. intros E2. injection E2 as <-. apply bytes_eqb_eq in E. repeat split; auto; lia.
Qed.
(** A complete tag that was not forged: the plaintext was sealed. *)
Lemma gcm_open_sealed C sealed k iv aad ct mac p : crypto_ok C -> unforged C sealed iv aad ct mac -> length mac = 16 ->
  gcm_open C k iv aad ct mac = Ok (Some p) -> In (k, iv, aad, p) sealed.
Proof.
  intros H U Hm E. destruct (gcm_open_some _ _ _ _ _ _ _ H E) as (_ & _ & Et & ->).
  rewrite Hm, firstn_all2 in Et by (destruct H as [_ H2]; rewrite H2; lia).
  destruct (U k (eq_sym Et)) as (p & Hin & ->). now rewrite gcm_crypt_twice.
Qed.

(** ** Key files *)
Lemma pieces_all : forall fuel off file, length file < off + fuel -> key_file_pieces fuel off file = skipn off file.
Proof.
  induction fuel as [|f IH]; intros off file H; cbn [key_file_pieces].
  - rewrite skipn_all2 by lia. reflexivity.
  - pose proof (arr_read_length file off 4096) as HL.
    destruct (arr_read file off 4096) as [|x l] eqn:E.
    + cbn [length] in HL. rewrite skipn_all2 by lia. reflexivity.
    + assert (G : off < length file) by (cbn [length] in HL; lia). rewrite <- E in *. clear E. rewrite IH by lia.
      unfold arr_read. rewrite firstn_length, skipn_length.
      rewrite <- (firstn_skipn (min 4096 (length file - off)) (skipn off file)) at 2.
      rewrite skipn_skipn. replace (min 4096 (length file - off) + off) with (off + min 4096 (length file - off)) by lia. f_equal.
      destruct (le_lt_dec 4096 (length file - off)); [f_equal; lia|]. rewrite !firstn_all2; rewrite ?skipn_length; try lia; reflexivity.
Qed.
Lemma hmac_file C k file : hmac_sha256 C k file = c_hmac C k file.
Proof. unfold hmac_sha256. now rewrite pieces_all by lia. Qed.
Global Opaque hmac_sha256.

(** ** Writing and reading a configuration *)
Lemma encrypt_inv C d a pw kf iv salt e : encrypt_params C d a pw kf iv salt = Ok e ->
  exists k, password_key C (mkEnc salt iv [] [] (Some a)) pw kf = Ok k /\ length salt = 32 /\
    e = mkEnc salt iv (c_tag C k iv [] (gcm_crypt C k iv (ser_dec d))) (gcm_crypt C k iv (ser_dec d)) (Some a).
Proof.
  unfold encrypt_params, password_key. cbn [e_salt e_argon gcm_seal]. destruct (length salt =? 32) eqn:El; cbn [negb rbind]; [|discriminate].
  apply Nat.eqb_eq in El. destruct (of_opt _) as [k|] eqn:E; cbn [rbind]; [|discriminate]. intros H. injection H as <-. exists k. auto.
Qed.
Lemma password_key_ext C e e' pw kf : e_salt e = e_salt e' -> e_argon e = e_argon e' -> password_key C e pw kf = password_key C e' pw kf.
Proof. intros H1 H2. unfold password_key. now rewrite H1, H2. Qed.

Lemma encrypted_enc_ok C d a pw kf iv salt e : crypto_ok C -> storable_but_text d -> argon_range a -> length iv = 12 ->
  encrypt_params C d a pw kf iv salt = Ok e -> enc_ok e.
Proof.
  intros HC Hd Ha Hiv H. apply encrypt_inv in H as (k & _ & Hs & ->).
  unfold enc_ok. cbn [e_salt e_iv e_mac e_ct e_argon].
  split; [unfold bytes_ok, max_len; lia|]. split; [unfold bytes_ok, max_len; lia|].
  split; [destruct HC as [_ HC]; unfold bytes_ok, max_len; rewrite HC; lia|].
  split; [unfold bytes_ok; rewrite gcm_crypt_length by exact HC; now apply ser_dec_len|].
  split; [exact Ha|apply argon_len].
Qed.

Lemma decrypt_encrypt_any C d a pw kf iv salt e : crypto_ok C -> length iv = 12 -> encrypt_params C d a pw kf iv salt = Ok e ->
  decrypt_params C e pw kf = match parse_dec (ser_dec d) with Some d' => Ok d' | None => Err ECorrupt end.
Proof.
  intros HC Hiv H. apply encrypt_inv in H as (k & Hk & _ & ->). unfold decrypt_params.
  match goal with |- context [password_key C ?x pw kf] => replace (password_key C x pw kf) with (Ok k) by (symmetry; exact Hk) end. cbn [rbind e_iv e_ct e_mac]. rewrite gcm_open_seal by (auto; lia). reflexivity.
Qed.

Lemma config_round_trip_ok C json d a pw kf iv salt e : crypto_ok C -> storable_but_text d -> dec_ok d -> argon_range a -> length iv = 12 ->
  encrypt_params C d a pw kf iv salt = Ok e -> decrypt_config C json (ser_enc e) pw kf = Ok d.
Proof.
  intros HC Hd Hd2 Ha Hiv H. unfold decrypt_config.
  rewrite parse_ser_enc by (eapply encrypted_enc_ok; eauto).
  erewrite decrypt_encrypt_any by eassumption. now rewrite parse_ser_dec.
Qed.
Lemma config_round_trip C json d a pw kf iv salt e : crypto_ok C -> storable d -> argon_range a -> length iv = 12 ->
  encrypt_params C d a pw kf iv salt = Ok e -> decrypt_config C json (ser_enc e) pw kf = Ok d.
Proof. intros HC Hd. apply config_round_trip_ok; auto using storable_weak, storable_ok. Qed.

(** Not text: written, but not readable. *)
Lemma lite_fold_bad l : valid_utf8 (i_suffix l) = false -> ofold lite_step (lite_fields l) lite0 = None.
Proof.
  intros H. unfold lite_fields. rewrite !app_assoc, ofold_app.
  destruct (ofold lite_step _ lite0) as [a|]; [|reflexivity].
  destruct (i_suffix l) as [|c s] eqn:E; [discriminate|]. cbn [w_bytes ofold lite_step]. now rewrite H.
Qed.
Lemma not_text_unreadable d l : d_format d = FLite l -> storable_but_text d -> valid_utf8 (i_suffix l) = false -> parse_dec (ser_dec d) = None.
Proof.
  intros Hf [A B] Hu. rewrite Hf in B. destruct B as (B1 & B2 & B3 & B4 & B5 & B6). unfold parse_dec, ser_dec.
  assert (Hl : Forall field_ok (lite_fields l)).
  { unfold lite_fields. rewrite !Forall_app. repeat split; try (apply w_bytes_ok; [lia|lia|now apply modest_ok]).
    destruct (i_threshold l) as [n|]; repeat constructor; cbn; unfold is_u32 in B6; lia. }
  rewrite parse_message_ok.
  - unfold dec_fields. rewrite Hf, ofold_app. destruct (ofold dec_step _ dec0) as [x|] eqn:E; [|reflexivity].
    assert (Hx : d_format x = FNone).
    { destruct (d_size d) as [s|]; cbn [ofold dec_step dec0 d_size] in E; [|injection E as <-; reflexivity].
      destruct (embedded _ _ _); [|discriminate]. injection E as <-. reflexivity. }
    cbn [ofold dec_step]. rewrite Hx. unfold embedded. rewrite parse_message_ok by exact Hl. now rewrite lite_fold_bad.
  - unfold dec_fields. rewrite Forall_app, Hf. split.
    + destruct (d_size d) as [s|]; repeat constructor; cbn; try lia. apply size_len.
    + repeat constructor; cbn; try lia. pose proof (lite_len l B1 B2 B3 B4 B5). unfold max_len. lia.
Qed.

(** ** What has been read can be written again *)
Lemma parse_fields_suffix : forall fuel depth grp bs l r, parse_fields fuel depth grp bs = Some (l, r) -> exists pre, bs = pre ++ r.
Proof.
  induction fuel as [|f IH]; intros depth grp bs l r H; cbn [parse_fields] in H; [discriminate|].
  destruct bs as [|b bs']. { destruct grp; [discriminate|]. injection H as _ <-. now exists []. }
  destruct (dec_tag (b :: bs')) as [[tag r0]|] eqn:Et; [|discriminate].
  assert (S0 : exists pre, b :: bs' = pre ++ r0).
  { unfold dec_tag in Et. destruct (dec_varint_ 5 (b :: bs')) as [[n r1]|] eqn:E; [|discriminate]. injection Et as _ <-. now apply dec_varint_suffix in E. }
  destruct S0 as [pre0 S0]. cbv zeta in H.
  destruct (tag mod 8 =? 4)%N.
  { destruct grp as [g|]; [|discriminate]. destruct (g =? _)%N; [|discriminate]. injection H as _ <-. eauto. }
  destruct (tag / 8 =? 0)%N; [discriminate|].
  match type of H with match ?v with _ => _ end = _ => destruct v as [[v0 r']|] eqn:Ev end; [|discriminate].
  assert (S1 : exists pre, r0 = pre ++ r').
  { destruct (tag mod 8)%N as [|p]; [|destruct p as [[p|p|]|[p|p|]|]; try discriminate; try (destruct p; discriminate)].
    - unfold dec_varint in Ev. destruct (dec_varint_ 10 r0) as [[n0 r1]|] eqn:E; [|discriminate]. injection Ev as _ <-. now apply dec_varint_suffix in E.
    - destruct p; try discriminate. destruct (take_bytes 4 r0) as [[n0 r1]|] eqn:E; [|discriminate]. injection Ev as _ <-. now apply take_suffix in E.
    - destruct depth as [|d]; [discriminate|]. destruct (parse_fields f d (Some (tag / 8)%N) r0) as [[l0 r1]|] eqn:E; [|discriminate]. injection Ev as _ <-. eapply IH; exact E.
    - unfold dec_len in Ev. destruct (dec_varint_ 5 r0) as [[n0 r1]|] eqn:E; [|discriminate].
      destruct (n0 <? max_len)%N; [|discriminate]. destruct (take_bytes (N.to_nat n0) r1) as [[b0 r2]|] eqn:E2; [|discriminate].
      injection Ev as _ <-. apply dec_varint_suffix in E as [p1 ->]. apply take_suffix in E2 as [p2 ->]. exists (p1 ++ p2). now rewrite app_assoc.
    - destruct (take_bytes 8 r0) as [[n0 r1]|] eqn:E; [|discriminate]. injection Ev as _ <-. now apply take_suffix in E. }
  destruct S1 as [pre1 ->].
  destruct (parse_fields f depth grp r') as [[l2 r2]|] eqn:E; [|discriminate]. injection H as _ <-.
  apply IH in E as [pre2 ->]. rewrite S0. exists (pre0 ++ pre1 ++ pre2). now rewrite !app_assoc.
Qed.
(** No value is longer than the message. *)
Definition short (n : nat) (f : field) : Prop := match snd f with VLen b => length b <= n | _ => True end.
Lemma parse_fields_short : forall fuel depth grp bs l r n, parse_fields fuel depth grp bs = Some (l, r) -> length bs <= n -> Forall (short n) l.
Proof.
  induction fuel as [|f IH]; intros depth grp bs l r n H Hn; cbn [parse_fields] in H; [discriminate|].
  destruct bs as [|b bs']. { destruct grp; [discriminate|]. injection H as <- _. constructor. }
  destruct (dec_tag (b :: bs')) as [[tag r0]|] eqn:Et; [|discriminate].
  assert (S0 : length r0 <= n).
  { unfold dec_tag in Et. destruct (dec_varint_ 5 (b :: bs')) as [[m r1]|] eqn:E; [|discriminate]. injection Et as _ <-. apply dec_varint_suffix in E as [pre E].
    rewrite E, app_length in Hn. lia. }
  cbv zeta in H.
  destruct (tag mod 8 =? 4)%N.
  { destruct grp as [g|]; [|discriminate]. destruct (g =? _)%N; [|discriminate]. injection H as <- _. constructor. }
  destruct (tag / 8 =? 0)%N; [discriminate|].
  match type of H with match ?v with _ => _ end = _ => destruct v as [[v0 r']|] eqn:Ev end; [|discriminate].
  assert (S1 : length r' <= n /\ match v0 with VLen b => length b <= n | _ => True end).
  { destruct (tag mod 8)%N as [|p]; [|destruct p as [[p|p|]|[p|p|]|]; try discriminate; try (destruct p; discriminate)].
    - unfold dec_varint in Ev. destruct (dec_varint_ 10 r0) as [[n0 r1]|] eqn:E; [|discriminate]. injection Ev as <- <-. apply dec_varint_suffix in E as [p ->].
      rewrite app_length in S0. split; [lia|exact I].
    - destruct p; try discriminate. destruct (take_bytes 4 r0) as [[n0 r1]|] eqn:E; [|discriminate]. injection Ev as <- <-. apply take_suffix in E as [p ->].
      rewrite app_length in S0. split; [lia|exact I].
    - destruct depth as [|d]; [discriminate|]. destruct (parse_fields f d (Some (tag / 8)%N) r0) as [[l0 r1]|] eqn:E; [|discriminate]. injection Ev as <- <-.
      apply parse_fields_suffix in E as [p ->]. rewrite app_length in S0. split; [lia|exact I].
    - unfold dec_len in Ev. destruct (dec_varint_ 5 r0) as [[n0 r1]|] eqn:E; [|discriminate].
      destruct (n0 <? max_len)%N; [|discriminate]. unfold take_bytes in Ev. destruct (length r1 <? N.to_nat n0); [discriminate|].
      injection Ev as <- <-. apply dec_varint_suffix in E as [p1 ->]. rewrite app_length in S0. rewrite firstn_length, skipn_length. lia.
    - destruct (take_bytes 8 r0) as [[n0 r1]|] eqn:E; [|discriminate]. injection Ev as <- <-. apply take_suffix in E as [p ->].
      rewrite app_length in S0. split; [lia|exact I]. }
  destruct S1 as [S1 S2].
  destruct (parse_fields f depth grp r') as [[l2 r2]|] eqn:E; [|discriminate]. injection H as <- _.
  constructor; [exact S2|]. eapply IH; eauto.
Qed.
Lemma parse_message_short depth bs l n : parse_message depth bs = Some l -> length bs <= n -> Forall (short n) l.
Proof. unfold parse_message. destruct (parse_fields _ _ _ _) as [[l0 r]|] eqn:E; [|discriminate]. intros H; injection H as <-. eapply parse_fields_short; eauto. Qed.

Lemma ofold_inv {A} (P : A -> Prop) (Q : field -> Prop) (step : A -> field -> option A) :
  (forall a f a', P a -> Q f -> step a f = Some a' -> P a') ->
  forall l a a', P a -> Forall Q l -> ofold step l a = Some a' -> P a'.
Proof.
  intros H. induction l as [|f l IH]; intros a a' Ha HF E; cbn in E. { injection E as <-. exact Ha. }
  inversion HF; subst. destruct (step a f) as [a1|] eqn:E1; [|discriminate]. eapply IH; [|eassumption|exact E]. eapply H; eauto.
Qed.

(** [dec_ok] with the lengths of the parts instead of their encoding. *)
Definition dec_parsed (n : nat) (d : dec_params) : Prop :=
  match d_size d with Some s => size_ok s | None => True end /\
  match d_format d with
  | FNone => True
  | FLite l => length (i_name l) <= n /\ length (i_content l) <= n /\ length (i_xattr l) <= n /\ length (i_padding l) <= n /\ length (i_suffix l) <= n /\
               match i_threshold l with Some t => u32_ok t | None => True end /\ valid_utf8 (i_suffix l) = true
  | FFull f => length (u_master f) <= n
  end.
Lemma u32_lt n : u32_ok (u32 n).
Proof. unfold u32_ok, u32. apply N.mod_lt. lia. Qed.
Ltac field_cases k v := destruct k as [|[[k|k|]|[k|k|]|]]; try destruct k; destruct v.

Lemma size_step_ok s f s' : size_ok s -> size_step s f = Some s' -> size_ok s'.
Proof.
  intros (A & B & C) H. destruct f as [k v].
  destruct k as [|[[k|k|]|[k|k|]|]]; cbn in H; try (injection H as <-; now repeat split); destruct v; injection H as <-; repeat split; auto; apply u32_lt.
Qed.
Definition lite_parsed (n : nat) (l : lite_params) : Prop :=
  length (i_name l) <= n /\ length (i_content l) <= n /\ length (i_xattr l) <= n /\ length (i_padding l) <= n /\ length (i_suffix l) <= n /\
  match i_threshold l with Some t => u32_ok t | None => True end /\ valid_utf8 (i_suffix l) = true.
Lemma lite_step_ok n l f l' : lite_parsed n l -> short n f -> lite_step l f = Some l' -> lite_parsed n l'.
Proof.
  intros HP Hf H. pose proof HP as (A & B & C & D & E & F & G). destruct f as [k v]. unfold short in Hf. cbn [snd] in Hf.
  destruct k as [|[[[k|k|]|[k|k|]|]|[[k|k|]|[k|k|]|]|]]; cbn [lite_step] in H; try (injection H as <-; exact HP);
    destruct v; try (injection H as <-; exact HP);
    try (injection H as <-; unfold lite_parsed; cbn [i_name i_content i_xattr i_padding i_threshold i_suffix]; repeat (split; [assumption||(apply u32_lt)|]); first [assumption|apply u32_lt|split; [apply u32_lt|assumption]]).
  destruct (valid_utf8 b) eqn:Eu; [|discriminate]. injection H as <-. unfold lite_parsed; cbn [i_name i_content i_xattr i_padding i_threshold i_suffix].
  repeat (split; [assumption|]). exact Eu.
Qed.
Lemma full_step_ok n p f p' : length (u_master p) <= n -> short n f -> full_step p f = Some p' -> length (u_master p') <= n.
Proof.
  intros A Hf H. destruct f as [k v]. unfold short in Hf. cbn [snd] in Hf.
  destruct k as [|[[[k|k|]|[k|k|]|]|[[k|k|]|[k|k|]|]|]]; cbn [full_step] in H; try (injection H as <-; exact A);
    destruct v; injection H as <-; cbn [u_master]; assumption.
Qed.
Lemma dec_step_ok n d f d' : dec_parsed n d -> short n f -> dec_step d f = Some d' -> dec_parsed n d'.
Proof.
  intros [A B] Hf H. destruct f as [k v]. unfold short in Hf. cbn [snd] in Hf.
  destruct k as [|[[k|k|]|[k|k|]|]]; cbn [dec_step] in H; try (injection H as <-; now split); destruct v as [| |b| |]; try (injection H as <-; now split).
  - (* 3 *) destruct (embedded full_step b _) as [p|] eqn:E; [|discriminate]. injection H as <-. split; [exact A|]. cbn [d_format].
    unfold embedded in E. destruct (parse_message 99 b) as [l|] eqn:El; [|discriminate].
    refine (ofold_inv (fun p => length (u_master p) <= n) (short n) full_step (fun a f a' => full_step_ok n a f a') l _ p _ (parse_message_short _ _ _ n El Hf) E).
    destruct (d_format d); cbn; try lia.
  - (* 2 *) destruct (embedded lite_step b _) as [p|] eqn:E; [|discriminate]. injection H as <-. split; [exact A|]. cbn [d_format].
    unfold embedded in E. destruct (parse_message 99 b) as [l|] eqn:El; [|discriminate].
    refine (ofold_inv (lite_parsed n) (short n) lite_step (fun a f a' => lite_step_ok n a f a') l _ p _ (parse_message_short _ _ _ n El Hf) E).
    destruct (d_format d); try exact B; unfold lite_parsed; cbn; repeat split; try lia.
  - (* 1 *) destruct (embedded size_step b _) as [p|] eqn:E; [|discriminate]. injection H as <-. split; [|exact B]. cbn [d_size].
    unfold embedded in E. destruct (parse_message 99 b) as [l|] eqn:El; [|discriminate].
    refine (ofold_inv size_ok (fun _ => True) size_step (fun a f a' Ha _ => size_step_ok a f a' Ha) l _ p _ _ E).
    + destruct (d_size d); [exact A|]. repeat split.
    + clear. induction l; constructor; auto.
Qed.
Lemma parse_dec_parsed bs d : parse_dec bs = Some d -> dec_parsed (length bs) d.
Proof.
  unfold parse_dec. destruct (parse_message 100 bs) as [l|] eqn:E; [|discriminate]. intros H.
  refine (ofold_inv (dec_parsed (length bs)) (short (length bs)) dec_step (fun a f a' => dec_step_ok _ a f a') l _ d _ (parse_message_short _ _ _ _ E (le_n _)) H).
  split; exact I.
Qed.
Lemma parse_enc_ct bs e : parse_enc bs = Some e -> length (e_ct e) <= length bs.
Proof.
  unfold parse_enc. destruct (parse_message 100 bs) as [l|] eqn:E; [|discriminate]. intros H.
  refine (ofold_inv (fun e => length (e_ct e) <= length bs) (short (length bs)) enc_step _ l _ e _ (parse_message_short _ _ _ _ E (le_n _)) H); [|cbn; lia].
  clear. intros e [k v] e' A Hf H. unfold short in Hf. cbn [snd] in Hf.
  destruct k as [|[[[k|k|]|[k|k|]|]|[[k|k|]|[k|k|]|]|]]; cbn [enc_step] in H; try (injection H as <-; exact A); destruct v; try (injection H as <-; exact A); try (injection H as <-; cbn; assumption).
  destruct (embedded _ _ _); [|discriminate]. injection H as <-. exact A.
Qed.

Lemma dec_parsed_ok n d : dec_parsed n d -> (N.of_nat n < 268435456)%N -> storable_but_text d /\ dec_ok d.
Proof.
  intros [A B] Hn. assert (M : forall b : bytes, length b <= n -> modest b) by (intros b Hb; unfold modest; lia). split; split.
  - exact A.
  - destruct (d_format d) as [|l|f]; [exact I| |now apply M].
    destruct B as (B1 & B2 & B3 & B4 & B5 & B6 & B7). repeat (split; [now apply M|]). exact B6.
  - destruct (d_size d) as [s|]; [|exact I]. split; [exact A|apply size_len].
  - destruct (d_format d) as [|l|f]; [exact I| |].
    + destruct B as (B1 & B2 & B3 & B4 & B5 & B6 & B7). split.
      * unfold lite_ok. repeat (split; [now apply modest_ok, M|]). split; [exact B6|]. split; [now apply modest_ok, M|exact B7].
      * unfold bytes_ok. pose proof (lite_len l (M _ B1) (M _ B2) (M _ B3) (M _ B4) (M _ B5)). unfold max_len. lia.
    + split; [now apply modest_ok, M|]. unfold bytes_ok. pose proof (full_len f (M _ B)). unfold max_len. lia.
Qed.

(** ** Legacy configurations *)
Lemma parse_hex_length s b : parse_hex s = Ok b -> length b <= length s.
Proof. intros H. apply parse_hex_inv in H. rewrite <- H, hexify_length. lia. Qed.

Lemma legacy_try_inv C y k m : crypto_ok C -> legacy_try C y k = Ok (Some m) ->
  exists iv mac ct, parse_hex (y_iv y) = Ok iv /\ parse_hex (y_mac y) = Ok mac /\ parse_hex (y_key y) = Ok ct /\
    (y_version y = 1 \/ y_version y = 2 \/ y_version y = 3 \/ y_version y = 4)%N /\
    gcm_open C k iv (legacy_header (y_version y)) ct mac = Ok (Some m) /\ length m = length ct.
Proof.
  intros HC. unfold legacy_try. destruct (parse_hex (y_iv y)) as [iv|] eqn:E1; cbn [rbind]; [|discriminate].
  destruct (parse_hex (y_mac y)) as [mac|] eqn:E2; cbn [rbind]; [|discriminate]. destruct (parse_hex (y_key y)) as [ct|] eqn:E3; cbn [rbind]; [|discriminate].
  destruct (version_header (y_version y)) as [hd|] eqn:E4; cbn [rbind]; [|discriminate]. intros H.
  assert (V : (y_version y = 1 \/ y_version y = 2 \/ y_version y = 3 \/ y_version y = 4)%N /\ hd = legacy_header (y_version y)).
  { unfold version_header in E4. destruct (y_version y) as [|[[p|p|]|[p|[p|p|]|]|]]; try discriminate; try (destruct p; discriminate); injection E4 as <-; auto 10. }
  destruct V as [V ->]. exists iv, mac, ct. repeat (split; [reflexivity || assumption|]).
  destruct (gcm_open_some _ _ _ _ _ _ _ HC H) as (_ & _ & _ & ->). now apply gcm_crypt_length.
Qed.

(** The keys tried, in order. *)
Lemma legacy_master_inv C y pw kf m : legacy_master_key C y pw kf = Ok (Some m) -> exists k, legacy_try C y k = Ok (Some m).
Proof.
  unfold legacy_master_key. destruct (parse_hex (y_salt y)) as [salt|]; cbn [rbind]; [|discriminate]. destruct kf as [f|].
  - destruct (legacy_kdf C y pw _) as [k1|]; cbn [rbind]; [|discriminate].
    destruct (legacy_try C y k1) as [[m1|]|] eqn:E; cbn [rbind]; [|  |discriminate].
    + intros H. injection H as ->. eauto.
    + destruct (legacy_kdf C y pw salt) as [k2|]; cbn [rbind]; [|discriminate]. eauto.
  - destruct (legacy_kdf C y pw salt) as [k1|]; cbn [rbind]; [|discriminate]. eauto.
Qed.

Lemma decrypt_legacy_inv C y pw kf d : crypto_ok C -> decrypt_legacy C y pw kf = Ok d ->
  exists key, legacy_master_key C y pw kf = Ok (Some key) /\ legacy_meaning y key d.
Proof.
  intros HC. unfold decrypt_legacy. destruct (legacy_master_key C y pw kf) as [[key|]|] eqn:E; cbn [rbind]; try discriminate.
  apply legacy_master_inv in E as F. destruct F as [k F]. apply legacy_try_inv in F as (_ & _ & _ & _ & _ & _ & V & _ & _); [|exact HC].
  intros H. exists key. split; [reflexivity|]. destruct (N.eqb_spec (y_version y) 4) as [V4|V4].
  - destruct (Nat.eqb_spec (length key) 96) as [L|L].
    + cbn [negb andb] in H. injection H as <-. rewrite L. cbn [Nat.eqb].
      pose proof (lm_lite3 y (firstn 32 key) (firstn 32 (skipn 32 key)) (firstn 32 (skipn 64 key)) V4) as P.
      replace (firstn 32 key ++ firstn 32 (skipn 32 key) ++ firstn 32 (skipn 64 key)) with key in P.
      * apply P; rewrite firstn_length, ?skipn_length; lia.
      * rewrite (firstn_all2 (skipn 64 key)) by (rewrite skipn_length; lia). change 64 with (32 + 32) at 1. rewrite <- skipn_skipn, !firstn_skipn. reflexivity.
    + destruct (Nat.eqb_spec (length key) 128) as [L2|L2]; cbn [negb andb] in H; [|discriminate]. injection H as <-.
      pose proof (lm_lite4 y (firstn 32 key) (firstn 32 (skipn 32 key)) (firstn 32 (skipn 64 key)) (firstn 32 (skipn 96 key)) V4) as P.
      replace (firstn 32 key ++ firstn 32 (skipn 32 key) ++ firstn 32 (skipn 64 key) ++ firstn 32 (skipn 96 key)) with key in P.
      * apply P; rewrite firstn_length, ?skipn_length; lia.
      * rewrite (firstn_all2 (skipn 96 key)) by (rewrite skipn_length; lia). change 96 with (32 + 64) at 1. rewrite <- (skipn_skipn 32 64), firstn_skipn.
        change 64 with (32 + 32) at 1. rewrite <- skipn_skipn, !firstn_skipn. reflexivity.
  - injection H as <-.
    replace (mkFullP key (y_version y =? 3)%N (y_version y =? 1)%N false false)
      with (mkFullP key (if N.eq_dec (y_version y) 3 then true else false) (if N.eq_dec (y_version y) 1 then true else false) false false).
    + apply lm_full. tauto.
    + destruct (N.eq_dec (y_version y) 3) as [->|N3]; [reflexivity|]. destruct (N.eq_dec (y_version y) 1) as [->|N1]; [reflexivity|].
      apply N.eqb_neq in N3, N1. now rewrite N3, N1.
Qed.

(** And the other direction. *)
Lemma legacy_meaning_decrypt C y pw kf key d : legacy_master_key C y pw kf = Ok (Some key) -> legacy_meaning y key d -> decrypt_legacy C y pw kf = Ok d.
Proof.
  intros E H. unfold decrypt_legacy. rewrite E. cbn [rbind]. destruct H as [key V|n c x V H1 H2 H3|n c x p V H1 H2 H3 H4].
  - assert (F : (y_version y =? 4)%N = false) by (apply N.eqb_neq; lia). rewrite F.
    destruct V as [V|[V|V]]; rewrite V; reflexivity.
  - rewrite V. cbn [N.eqb Pos.eqb]. rewrite !app_length, H1, H2, H3. cbn [Nat.eqb negb andb Nat.add].
    assert (A1 : firstn 32 (n ++ c ++ x) = n) by (rewrite firstn_app, H1, Nat.sub_diag, firstn_O, app_nil_r; apply firstn_all2; lia).
    assert (A2 : skipn 32 (n ++ c ++ x) = c ++ x) by (rewrite skipn_app, H1, Nat.sub_diag, skipn_all2 by lia; reflexivity).
    assert (A3 : skipn 32 (c ++ x) = x) by (rewrite skipn_app, H2, Nat.sub_diag, skipn_all2 by lia; reflexivity).
    change 64 with (32 + 32). rewrite <- !skipn_skipn, A1, A2, A3.
    rewrite !firstn_app, H2, Nat.sub_diag, ?firstn_O, ?app_nil_r, ?firstn_all2 by lia. reflexivity.
  - rewrite V. cbn [N.eqb Pos.eqb]. rewrite !app_length, H1, H2, H3, H4. cbn [Nat.eqb negb andb Nat.add].
    assert (A1 : firstn 32 (n ++ c ++ x ++ p) = n) by (rewrite firstn_app, H1, Nat.sub_diag, firstn_O, app_nil_r; apply firstn_all2; lia).
    assert (A2 : skipn 32 (n ++ c ++ x ++ p) = c ++ x ++ p) by (rewrite skipn_app, H1, Nat.sub_diag, skipn_all2 by lia; reflexivity).
    assert (A3 : skipn 32 (c ++ x ++ p) = x ++ p) by (rewrite skipn_app, H2, Nat.sub_diag, skipn_all2 by lia; reflexivity).
    assert (A4 : skipn 32 (x ++ p) = p) by (rewrite skipn_app, H3, Nat.sub_diag, skipn_all2 by lia; reflexivity).
    assert (B64 : skipn 64 (n ++ c ++ x ++ p) = x ++ p) by (change 64 with (32 + 32); rewrite <- skipn_skipn, A2, A3; reflexivity).
    assert (B96 : skipn 96 (n ++ c ++ x ++ p) = p) by (change 96 with (32 + 64); rewrite <- skipn_skipn, B64, A4; reflexivity).
    rewrite A1, A2, B64, B96.
    rewrite !firstn_app, H2, H3, Nat.sub_diag, ?firstn_O, ?app_nil_r, ?firstn_all2 by lia. reflexivity.
Qed.

Lemma legacy_kdf_iff C y pw salt k : legacy_kdf C y pw salt = Ok k <-> legacy_derives C y pw salt k.
Proof.
  assert (O : forall o, of_opt o = Ok k <-> o = Some k) by (intros [k'|]; cbn; split; intros H; congruence).
  unfold legacy_kdf. split.
  - destruct (bytes_eqb (y_pbkdf y) (str "argon2id")) eqn:E1. { apply bytes_eqb_eq in E1. intros H. apply O in H. now apply ld_argon2id. }
    destruct (bytes_eqb (y_pbkdf y) (str "scrypt")) eqn:E2. { apply bytes_eqb_eq in E2. intros H. apply O in H. now apply ld_scrypt. }
    destruct (bytes_eqb (y_pbkdf y) (str "pkcs5-pbkdf2-hmac-sha256")) eqn:E3; cbn [orb]. { apply bytes_eqb_eq in E3. intros H. apply O in H. apply ld_pbkdf2; auto. }
    destruct (bytes_eqb (y_pbkdf y) []) eqn:E4; [|discriminate]. apply bytes_eqb_eq in E4. intros H. apply O in H. apply ld_pbkdf2; auto.
  - intros [k' E H|k' E H|k' [E|E] H]; rewrite E, H; reflexivity.
Qed.

(** ** Files *)
Lemma fget_fput h p c q : fget (fput h p c) q = if bytes_eqb p q then Some (HFile c) else fget h q.
Proof.
  unfold fget, fput. rewrite hget_hput. destruct (path_dec [p] [q]) as [E|E].
  - injection E as ->. now rewrite bytes_eqb_refl.
  - destruct (bytes_eqb p q) eqn:F; [|reflexivity]. apply bytes_eqb_eq in F. congruence.
Qed.
Lemma fget_fdel h p q : fget (fdel h p) q = if bytes_eqb p q then None else fget h q.
Proof.
  unfold fget, fdel. rewrite hget_hdel. destruct (path_dec [p] [q]) as [E|E].
  - injection E as ->. now rewrite bytes_eqb_refl.
  - destruct (bytes_eqb p q) eqn:F; [|reflexivity]. apply bytes_eqb_eq in F. congruence.
Qed.

(** Every state of a replacement: only [path] and [tmp] may differ from before, and [path]
    holds the old or the new content. *)
Lemma replace_states w path tmp data h s : path <> tmp -> In s (fst (replace_file w path tmp data h)) ->
  (forall q, q <> path -> q <> tmp -> fget s q = fget h q) /\
  (fget s path = fget h path \/ (fget s path = Some (HFile data) /\ fget s tmp = None /\ snd (replace_file w path tmp data h) = Ok tt)).
Proof.
  intros Hne. unfold replace_file. destruct (fget h tmp) eqn:Et; [intros []|]. destruct (w_create w); [intros []|].
  assert (W : forall n, In s (write_states h tmp data n) -> (forall q, q <> path -> q <> tmp -> fget s q = fget h q) /\ fget s path = fget h path).
  { intros n Hin. apply in_map_iff in Hin as (i & <- & _). split.
    - intros q _ Hq. rewrite fget_fput. destruct (bytes_eqb tmp q) eqn:F; [|reflexivity]. apply bytes_eqb_eq in F. congruence.
    - rewrite fget_fput. destruct (bytes_eqb tmp path) eqn:F; [|reflexivity]. apply bytes_eqb_eq in F. congruence. }
  assert (D : forall c, In s (if w_remove w then [fdel (fput h tmp c) tmp] else []) -> (forall q, q <> path -> q <> tmp -> fget s q = fget h q) /\ fget s path = fget h path).
  { intros c. destruct (w_remove w); [|intros []]. intros [<-|[]]. split.
    - intros q _ Hq. rewrite fget_fdel, fget_fput. destruct (bytes_eqb tmp q) eqn:F; [|reflexivity]. apply bytes_eqb_eq in F. congruence.
    - rewrite fget_fdel, fget_fput. destruct (bytes_eqb tmp path) eqn:F; [|reflexivity]. apply bytes_eqb_eq in F. congruence. }
  destruct (w_write w) as [[n e]|].
  - cbn [fst]. rewrite in_app_iff. intros [H|H]; [apply W in H|apply D in H]; tauto.
  - destruct (w_rename w) as [e|]; cbn [fst]; rewrite in_app_iff.
    + intros [H|H]; [apply W in H|apply D in H]; tauto.
    + intros [H|[<-|[]]]; [apply W in H; tauto|]. split.
      * intros q Hq1 Hq2. rewrite fget_fdel, !fget_fput. destruct (bytes_eqb tmp q) eqn:F; [apply bytes_eqb_eq in F; congruence|].
        destruct (bytes_eqb path q) eqn:F2; [apply bytes_eqb_eq in F2; congruence|reflexivity].
      * right. rewrite !fget_fdel, !fget_fput, bytes_eqb_refl. destruct (bytes_eqb tmp path) eqn:F; [apply bytes_eqb_eq in F; congruence|].
        rewrite bytes_eqb_refl. auto.
Qed.
(** The end of a replacement. *)
Lemma replace_end w path tmp data h : path <> tmp ->
  let r := replace_file w path tmp data h in
  match snd r with
  | Ok _ => fget (last_state h r) path = Some (HFile data) /\ fget (last_state h r) tmp = None
  | Err _ => fget (last_state h r) path = fget h path /\ (w_remove w = true -> fget (last_state h r) tmp = fget h tmp)
  end.
Proof.
  intros Hne. unfold replace_file, last_state. destruct (fget h tmp) eqn:Et; [cbn; auto|]. destruct (w_create w); [cbn; auto|].
  assert (P : forall c, fget (fput h tmp c) path = fget h path).
  { intros c. rewrite fget_fput. destruct (bytes_eqb tmp path) eqn:F; [apply bytes_eqb_eq in F; congruence|reflexivity]. }
  assert (L : forall n x l, last (write_states h tmp data n ++ x :: l) h = last (x :: l) h).
  { intros n x l. induction (write_states h tmp data n) as [|y ys IH]; [reflexivity|]. change ((y :: ys) ++ x :: l) with (y :: ys ++ x :: l).
    destruct (ys ++ x :: l) eqn:E; [destruct ys; discriminate|]. rewrite <- IH. reflexivity. }
  assert (L2 : forall n, last (write_states h tmp data n) h = fput h tmp (firstn n data)).
  { intros n. unfold write_states. rewrite seq_S, map_app. cbn [map]. rewrite last_last. f_equal. }
  assert (R : forall n c, fget (last (write_states h tmp data n ++ (if w_remove w then [fdel (fput h tmp c) tmp] else [])) h) path = fget h path /\
                (w_remove w = true -> fget (last (write_states h tmp data n ++ (if w_remove w then [fdel (fput h tmp c) tmp] else [])) h) tmp = None)).
  { intros n c. destruct (w_remove w).
    - rewrite L. cbn [last]. rewrite !fget_fdel, bytes_eqb_refl. rewrite P. destruct (bytes_eqb tmp path) eqn:F; [apply bytes_eqb_eq in F; congruence|]. auto.
    - rewrite app_nil_r, L2, P. split; [reflexivity|discriminate]. }
  destruct (w_write w) as [[n e]|]; [cbn [fst snd]; apply R|].
  destruct (w_rename w) as [e|]; cbn [fst snd]; [apply R|].
  rewrite L. cbn [last]. rewrite !fget_fdel, !fget_fput, !bytes_eqb_refl. destruct (bytes_eqb tmp path) eqn:F; [apply bytes_eqb_eq in F; congruence|]. auto.
Qed.

Lemma app_ne_self (p s : bytes) : s <> [] -> p <> p ++ s.
Proof. intros H E. apply H. rewrite <- (app_nil_r p) in E at 1. now apply app_inv_head in E. Qed.

(** The configuration is found in the same place in every state in which no file but the
    temporary one appears or disappears. *)
Lemma config_path_same config h s p sfx : config_path config h = Ok p -> sfx <> [] ->
  (forall q, q <> p -> q <> p ++ sfx -> fget s q = fget h q) -> (fget s p = fget h p \/ exists c, fget s p = Some (HFile c)) ->
  (p = legacy_config_name -> p ++ sfx <> config_name) -> config_path config s = Ok p.
Proof.
  intros H Hs Hq Hp Hl. unfold config_path in *. destruct config as [|c cs]; [|exact H].
  destruct (fget h config_name) as [x|] eqn:E.
  - injection H as <-. destruct Hp as [->|[c ->]]; [now rewrite E|reflexivity].
  - destruct (fget h legacy_config_name) as [x|] eqn:E2; [|discriminate]. injection H as <-.
    rewrite Hq, E; [|discriminate|apply not_eq_sym, Hl; reflexivity]. destruct Hp as [->|[c ->]]; [now rewrite E2|reflexivity].
Qed.
Lemma tmp_not_config sfx : legacy_config_name ++ sfx <> config_name.
Proof. unfold legacy_config_name, config_name. intros E. discriminate E. Qed.

(** What has been opened can be encrypted and opened again. *)
Lemma opened_ok C json content pw kf d : crypto_ok C -> json_ok json -> (N.of_nat (length content) < 268435456)%N ->
  decrypt_config C json content pw kf = Ok d -> storable_but_text d /\ dec_ok d.
Proof.
  intros HC HJ Hn. unfold decrypt_config. destruct (parse_enc content) as [e|] eqn:Ee.
  - intros H. unfold decrypt_params in H. destruct (password_key C e pw kf) as [k|]; cbn [rbind] in H; [|discriminate].
    destruct (gcm_open C k (e_iv e) [] (e_ct e) (e_mac e)) as [[m|]|] eqn:Eg; cbn [rbind] in H; try discriminate.
    destruct (parse_dec m) as [d'|] eqn:Ep; [|discriminate]. injection H as ->.
    apply (dec_parsed_ok (length m)); [now apply parse_dec_parsed|].
    apply gcm_open_some in Eg as (_ & _ & _ & ->); [|exact HC]. rewrite gcm_crypt_length by exact HC. pose proof (parse_enc_ct _ _ Ee). lia.
  - destruct (json content) as [y|] eqn:Ej; [|discriminate]. intros H. destruct (HJ _ _ Ej) as (J1 & J2 & J3 & J4).
    apply decrypt_legacy_inv in H as (key & Hk & Hm); [|exact HC].
    apply legacy_master_inv in Hk as [k Hk]. apply legacy_try_inv in Hk as (iv & mac & ct & _ & _ & Hc & _ & _ & Hl); [|exact HC].
    apply parse_hex_length in Hc. assert (K : (N.of_nat (length key) < 268435456)%N) by lia.
    assert (Z : size_ok (legacy_size y)).
    { unfold size_ok, legacy_size, u32_ok; cbn [z_block z_iv z_padding]. unfold is_u32 in *. destruct (y_block_size y), (y_iv_size y); repeat split; lia. }
    apply (dec_parsed_ok (length key)); [|exact K].
    destruct Hm; (split; [exact Z|]); cbn [d_format u_master i_name i_content i_xattr i_padding i_suffix i_threshold]; [lia| |];
      rewrite ?app_length; repeat (split; [cbn; lia|]); (split; [destruct (y_long_name y); [reflexivity|exact I]|reflexivity]).
Qed.

(** Replacing the configuration by parameters [d2] for the secrets [pw2], [kf2]. *)
Lemma rewrite_safe C json w config sfx pw kf a pw2 kf2 iv salt h p content d d2 r :
  crypto_ok C -> sfx <> [] -> argon_range a -> length iv = 12 ->
  config_path config h = Ok p -> fget h p = Some (HFile content) ->
  decrypt_config C json content pw kf = Ok d -> storable_but_text d2 -> dec_ok d2 ->
  r = on_ok (encrypt_params C d2 a pw2 kf2 iv salt) (fun e => replace_file w p (p ++ sfx) (ser_enc e) h) ->
  (forall s, In s (crash_states h r) ->
     (forall q, q <> p -> q <> p ++ sfx -> fget s q = fget h q) /\
     ((fget s p = fget h p /\ open_repo C json config pw kf s = Ok d) \/
      (fget s p = fget (last_state h r) p /\ snd r = Ok tt /\ open_repo C json config pw2 kf2 s = Ok d2))) /\
  (snd r = Ok tt -> open_repo C json config pw2 kf2 (last_state h r) = Ok d2 /\ fget (last_state h r) (p ++ sfx) = None) /\
  (forall e, snd r = Err e -> fget (last_state h r) p = fget h p /\ (w_remove w = true -> fget (last_state h r) (p ++ sfx) = fget h (p ++ sfx))).
Proof.
  intros HC Hx Ha Hiv Hp Hf Hc Sd Od Er. set (tmp := p ++ sfx) in *.
  assert (Hne : p <> tmp) by now apply app_ne_self.
  assert (Old : forall s, (forall q, q <> p -> q <> tmp -> fget s q = fget h q) -> fget s p = fget h p -> open_repo C json config pw kf s = Ok d).
  { intros s Hq Hs. unfold open_repo. rewrite (config_path_same config h s p sfx Hp Hx Hq (or_introl Hs)) by (intros E; rewrite E; apply tmp_not_config).
    cbn [rbind]. unfold read_file. rewrite Hs, Hf. exact Hc. }
  destruct (encrypt_params C d2 a pw2 kf2 iv salt) as [e|er] eqn:Ee; cbn [on_ok] in Er.
  2: { subst r. cbn [fst snd crash_states]. split; [|split].
       - intros s [<-|[]]. split; [reflexivity|]. left. auto.
       - discriminate.
       - intros e _. split; reflexivity. }
  assert (Hn : decrypt_config C json (ser_enc e) pw2 kf2 = Ok d2) by (eapply config_round_trip_ok; eauto).
  assert (New : forall s, (forall q, q <> p -> q <> tmp -> fget s q = fget h q) -> fget s p = Some (HFile (ser_enc e)) -> open_repo C json config pw2 kf2 s = Ok d2).
  { intros s Hq Hs. unfold open_repo. rewrite (config_path_same config h s p sfx Hp Hx Hq (or_intror (ex_intro _ _ Hs))) by (intros E; rewrite E; apply tmp_not_config).
    cbn [rbind]. unfold read_file. rewrite Hs. exact Hn. }
  pose proof (replace_end w p tmp (ser_enc e) h Hne) as RE. cbv zeta in RE. rewrite <- Er in RE.
  assert (RS : forall s, In s (fst r) -> (forall q, q <> p -> q <> tmp -> fget s q = fget h q) /\
     (fget s p = fget h p \/ (fget s p = Some (HFile (ser_enc e)) /\ fget s tmp = None /\ snd r = Ok tt))) by (intros s Hin; rewrite Er in Hin |- *; now apply replace_states).
  split; [|split].
  - intros s [<-|Hin]; [split; [reflexivity|left; auto]|]. destruct (RS s Hin) as [Hq [Hs|(Hs & _ & Hr)]]; (split; [exact Hq|]).
    + left. auto.
    + right. rewrite Hr in RE. destruct RE as [RE _]. rewrite RE, Hs. auto.
  - intros Hr. rewrite Hr in RE. destruct RE as [RE1 RE2]. split; [|exact RE2]. apply New; [|exact RE1].
    intros q Hq1 Hq2. unfold last_state. destruct (fst r) as [|s0 l] eqn:El; [reflexivity|].
    apply (RS (last (s0 :: l) h)); auto.
    destruct (exists_last (l := s0 :: l)) as (l' & x & E); [discriminate|]. rewrite E, last_last. apply in_or_app. right. now left.
  - intros e0 Hr. rewrite Hr in RE. exact RE.
Qed.

(** The parameters after migrate-long-name. *)
Lemma migrate_params_ok d t sfx d2 : storable_but_text d -> dec_ok d -> modest sfx -> is_text sfx -> migrate_params d t sfx = Ok d2 -> storable_but_text d2 /\ dec_ok d2.
Proof.
  intros [S1 S2] [O1 O2] Hm Ht. unfold migrate_params. destruct (d_format d) as [|l|f] eqn:Ef; try discriminate.
  assert (K : forall t2, match t2 with Some n => is_u32 n | None => True end ->
    let d2 := mkDec (d_size d) (FLite (mkLite (i_name l) (i_content l) (i_xattr l) (i_padding l) t2 sfx)) in storable_but_text d2 /\ dec_ok d2).
  { intros t2 H2 d3. destruct S2 as (B1 & B2 & B3 & B4 & B5 & B6). destruct O2 as [(C1 & C2 & C3 & C4 & C5 & C6 & C7) C8].
    split; split; cbn [d3 d_size d_format]; try assumption.
    - cbn [i_name i_content i_xattr i_padding i_suffix i_threshold]. auto 10.
    - split.
      + unfold lite_ok. cbn [i_name i_content i_xattr i_padding i_suffix i_threshold]. repeat (split; [assumption|]). split; [now apply modest_ok|now apply text_valid].
      + unfold bytes_ok. pose proof (lite_len (mkLite (i_name l) (i_content l) (i_xattr l) (i_padding l) t2 sfx) B1 B2 B3 B4 Hm). unfold max_len. lia. }
  destruct (0 <? _)%N.
  - destruct sfx as [|c s]; [discriminate|]. destruct (bytes_eqb _ _); intros H; injection H as <-.
    + split; split; try assumption; rewrite Ef; assumption.
    + apply K. destruct S2 as (_ & _ & _ & _ & _ & S2). exact S2.
  - intros H. injection H as <-. apply K. apply u32_lt.
Qed.
