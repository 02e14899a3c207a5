(** Codecs, keys and attributes: C10, C11, C12, C13, C15, C16, C22, C45. *)
From Coq Require Import Strings.String.
From Verif Require Import Base BaseLemmas StreamSpec CodecModel CodecProofs TextModel TextProofs
  BlockModel LiteModel FullStreamModel FullStreamProofs CryptoModel CryptoSpec CryptoProofs AttrModel AttrProofs Toy PropertiesFull.
Local Open Scope list_scope.

(** ** C10: little-endian integers *)

Theorem C10_little_endian_roundtrip :
  forall (w : nat),
    (forall n : N, (n < 2 ^ (8 * N.of_nat w))%N ->
       from_le (to_le w n) = n /\ length (to_le w n) = w /\
       (forall i, i < w -> b2n (nth i (to_le w n) x00) = (n / 2 ^ (8 * N.of_nat i) mod 256)%N)) /\
    (forall l : bytes, length l = w -> to_le w (from_le l) = l /\ (from_le l < 2 ^ (8 * N.of_nat w))%N).
Proof.
  intros w. split.
  - intros n H. split; [apply from_to_le; exact H|]. split; [apply to_le_length|]. intros i Hi. unfold to_le.
    rewrite nth_indep with (d' := n2b (N.shiftr n (8 * N.of_nat 0))) by (rewrite map_length, seq_length; exact Hi).
    rewrite (map_nth (fun i => n2b (N.shiftr n (8 * N.of_nat i))) (seq 0 w) 0 i), seq_nth by exact Hi.
    rewrite b2n_n2b, N.shiftr_div_pow2. reflexivity.
  - intros l <-. split; [apply to_from_le|apply from_le_bound].
Qed.
Print Assumptions C10_little_endian_roundtrip.

Example C10_ex : to_le 4 4096 = [x00; x10; x00; x00] /\ from_le [x00; x10; x00; x00] = 4096%N.
Proof. vm_compute. auto. Qed.

(** ** C11: hexadecimal *)

Theorem C11_hex_codec :
  (forall data, parse_hex (hexify data) = Ok data) /\
  (forall s, (exists data, parse_hex s = Ok data) <->
             (length s mod 2 = 0 /\ Forall (fun c => In c (str "0123456789abcdef")) s)) /\
  (forall s data, parse_hex s = Ok data -> hexify data = s) /\
  (forall data, length (hexify data) = 2 * length data).
Proof. exact (conj parse_hexify (conj parse_hex_accepts (conj parse_hex_inv hexify_length))). Qed.
Print Assumptions C11_hex_codec.

Example C11_ex : hexify [x0f; xa9] = str "0fa9" /\ parse_hex (str "0fa9") = Ok [x0f; xa9] /\
                 parse_hex (str "0FA9") = Err EInval /\ parse_hex (str "0fa") = Err EInval.
Proof. vm_compute. auto. Qed.

(** ** C12: base32 *)

(** Every character is one of the thirty-two, the length is ceil(8n/5), and any
    spelling of the encoding that differs at most in letter case decodes to the
    original; so encodings stay distinct on a case-insensitive file system. *)
Theorem C12_base32_codec :
  forall data, exists enc,
    base32_encode data = Ok enc /\
    length enc = (8 * length data + 4) / 5 /\
    Forall (fun c => In c (str "ABCDEFGHIJKMNPQRSTUVWXYZ23456789")) enc /\
    (forall s, to_lower s = to_lower enc -> base32_decode s = Ok data) /\
    (forall data' enc', base32_encode data' = Ok enc' -> to_lower enc' = to_lower enc -> data' = data).
Proof.
  intros data. exists (enc32 data). split; [apply base32_encode_ok|].
  split; [rewrite enc32_length; unfold encode_groups; f_equal; lia|].
  split; [apply enc32_alphabet|]. split; [exact (base32_decode_ci data)|].
  intros data' enc' H. rewrite base32_encode_ok in H. injection H as <-. apply enc32_ci_inj.
Qed.
Print Assumptions C12_base32_codec.

Example C12_ex : base32_encode (str "hello") = Ok (str "PBUY25DR") /\ base32_decode (str "pbuY25dr") = Ok (str "hello").
Proof. vm_compute. auto. Qed.

(** Decoding is not injective: spare bits of the last character are ignored, and
    a NUL byte is taken for a digit because [strchr] finds the terminator.  So
    a decoded name does not determine the spelling it came from. *)
Theorem C12_decode_is_malleable_refuted :
  ~ (forall s s' d, base32_decode s = Ok d -> base32_decode s' = Ok d -> to_lower s = to_lower s').
Proof.
  intros H. specialize (H (str "AA") (str "AB") [x00] eq_refl eq_refl). vm_compute in H. discriminate.
Qed.
Print Assumptions C12_decode_is_malleable_refuted.

Theorem C12_nul_accepted_refuted :
  ~ (forall s d, base32_decode s = Ok d ->
       Forall (fun c => In c (str "ABCDEFGHIJKMNPQRSTUVWXYZabcdefghijkmnpqrstuvwxyz23456789")) s).
Proof.
  intros H. destruct (base32_decode [x00; x00]) as [d|e] eqn:E; [|vm_compute in E; discriminate]. specialize (H [x00; x00] d E). clear E. inversion H as [|? ? Hin _]; subst.
  vm_compute in Hin. intuition discriminate.
Qed.
Print Assumptions C12_nul_accepted_refuted.

(** ** C13: attribute header *)

(** Whatever data operations and earlier header writes came before, and whatever
    data operations, flushes and reopens came after, the attributes found when
    the file is next opened are the last ones stored. *)
Theorem C13_attributes_survive_reopen :
  forall (A : aead) hmac dkey mkey id bs iv_size check sparse rnd iv_fuel store_time k pre a post k2,
    full_env_ok A hmac bs iv_size rnd iv_fuel ->
    attrs_in_range a ->
    let hs := attr_header_size store_time in
    Forall (fop_within (full_max_blocks * bs) hs) pre ->
    Forall (fop_within (full_max_blocks * bs) hs) post ->
    Forall (fun o => match o with FWriteHeader _ => False | _ => True end) post ->
    let step := full_step A hmac dkey mkey id bs iv_size hs check sparse rnd iv_fuel in
    let s := fst (run_ops step (mkFull [] [] false k) (pre ++ FWriteHeader (pack_attrs store_time a) :: post)) in
    let sF := fst (full_flush hmac mkey id s) in
    exists s1, full_open hmac mkey id check (f_data sF) (f_meta sF) k2 = Ok s1 /\
               exists a', load_attrs A dkey id iv_size store_time s1 = Ok (a', false) /\
                 flags_of a' = flags_of a /\ (store_time = true -> a' = a).
Proof.
  intros. destruct (attrs_survive_reopen A hmac dkey mkey id bs iv_size check sparse rnd iv_fuel store_time k pre a post k2) as (s1 & H5 & H6);
    try assumption. exists s1. split; [exact H5|]. eexists. split; [exact H6|].
  destruct store_time; split; reflexivity || discriminate.
Qed.
Print Assumptions C13_attributes_survive_reopen.

Definition ex_attrs : attrs :=
  mkAttrs 33188 1000 1000 2 7 4294967295 3 (mkTs 1700000000 999999999) (mkTs (-5) 1) (mkTs 0 0) (mkTs 1600000000 7).
Example C13_ex :
  attrs_in_range ex_attrs /\ unpack_attrs true (Some (pack_attrs true ex_attrs)) = (ex_attrs, false) /\
  pack_attrs true ex_attrs <> zeros 80.
Proof. split; [|split; [vm_compute; reflexivity|vm_compute; discriminate]]. unfold attrs_in_range, ts_in_range. cbn. repeat split; try lia. repeat constructor. Qed.

(** ** C15: SIV *)

Theorem C15_siv_follows_rfc5297 :
  forall cmac, (forall m, length (cmac m) = 16) ->
  forall plaintext ad, rfc5297_s2v cmac ad plaintext (s2v cmac plaintext ad).
Proof. exact (fun cmac H p ad => s2v_rfc cmac (fun _ n => repeat x00 n) H (fun _ n => repeat_length x00 n) ad p). Qed.
Print Assumptions C15_siv_follows_rfc5297.

Theorem C15_siv_roundtrip_and_verification :
  forall cmac keystream,
    (forall m, length (cmac m) = 16) -> (forall iv n, length (keystream iv n) = n) ->
    forall ad plaintext,
      let '(siv, ct) := siv_encrypt cmac keystream plaintext ad in
      length siv = 16 /\ length ct = length plaintext /\
      siv_decrypt cmac keystream siv ct ad = (true, plaintext) /\
      (* only the genuine pair is accepted for a given plaintext *)
      (forall siv' ct', siv_decrypt cmac keystream siv' ct' ad = (true, plaintext) -> siv' = siv /\ ct' = ct) /\
      (* different plaintexts never share a (siv, ciphertext) pair *)
      (forall plaintext', siv_encrypt cmac keystream plaintext' ad = (siv, ct) -> plaintext' = plaintext).
Proof.
  intros cmac keystream Hc Hk ad p. pose proof (siv_lengths cmac keystream Hc Hk p ad) as HL.
  pose proof (siv_roundtrip cmac keystream Hc Hk p ad) as HR. destruct (siv_encrypt cmac keystream p ad) as [siv ct] eqn:E.
  cbn [fst snd] in *. split; [apply HL|]. split; [apply HL|]. split; [exact HR|]. split.
  - intros siv' ct' H. apply (siv_accepts cmac keystream Hc Hk) in H. rewrite E in H. injection H as <- <-. auto.
  - intros p' H. apply (siv_inj cmac keystream Hc Hk p' p ad). congruence.
Qed.
Print Assumptions C15_siv_roundtrip_and_verification.

Definition toy_cmac (m : bytes) : bytes := firstn 16 (map (fun b => n2b (b2n b + 1)) m ++ zeros 16).
Definition toy_ks (iv : bytes) (n : nat) : bytes := repeat (nth 3 iv x00) n.
Lemma toy_cmac_len m : length (toy_cmac m) = 16.
Proof. unfold toy_cmac. rewrite firstn_length, app_length, map_length, zeros_length. lia. Qed.
Lemma toy_ks_len iv n : length (toy_ks iv n) = n.
Proof. apply repeat_length. Qed.
Example C15_ex :
  let '(siv, ct) := siv_encrypt toy_cmac toy_ks (str "name") (str "ad") in
  ct <> str "name" /\ siv_decrypt toy_cmac toy_ks siv ct (str "ad") = (true, str "name") /\
  fst (siv_decrypt toy_cmac toy_ks siv (str "nam") (str "ad")) = false.
Proof. vm_compute. split; [discriminate|auto]. Qed.

(** ** C16: HKDF *)

Theorem C16_hkdf_follows_rfc5869 :
  forall hmac, (forall k m, length (hmac k m) = 32) ->
  forall key salt info len,
    hkdf hmac key salt info len =
      (if 255 * 32 <? len then Err EInval
       else Ok (rfc5869_okm hmac (match salt with [] => key | _ => hmac salt key end) info len)).
Proof.
  intros hmac H key salt info len. unfold hkdf. destruct salt; cbn [length Nat.ltb Nat.leb]; apply hkdf_expand_ok; exact H.
Qed.
Print Assumptions C16_hkdf_follows_rfc5869.

Theorem C16_shorter_keys_are_prefixes :
  forall hmac, (forall k m, length (hmac k m) = 32) ->
  forall key salt info a b ka kb,
    a <= b -> hkdf hmac key salt info a = Ok ka -> hkdf hmac key salt info b = Ok kb ->
    ka = firstn a kb /\ length ka = a.
Proof.
  intros hmac H key salt info a b ka kb Hab Ha Hb.
  rewrite C16_hkdf_follows_rfc5869 in Ha, Hb by exact H.
  destruct (255 * 32 <? a); [discriminate|]. destruct (255 * 32 <? b); [discriminate|].
  injection Ha as <-. injection Hb as <-. rewrite okm_prefix by assumption. split; [reflexivity|]. apply okm_length. exact H.
Qed.
Print Assumptions C16_shorter_keys_are_prefixes.

(** Turning padding on keeps the data, metadata and attribute keys of a file. *)
Theorem C16_padding_keeps_keys :
  forall hmac, (forall k m, length (hmac k m) = 32) ->
  forall master id, exists d m x p,
    file_keys hmac master id false = Ok (d, m, x, None) /\
    file_keys hmac master id true = Ok (d, m, x, Some p) /\
    length d = 32 /\ length m = 32 /\ length x = 32 /\ length p = 32 /\
    rfc5869_okm hmac master id 128 = d ++ m ++ x ++ p.
Proof. exact (fun hmac H master id => file_keys_padding hmac master id H). Qed.
Print Assumptions C16_padding_keeps_keys.

Example C16_ex : (forall k m, length (toy_hmac k m) = 32) /\
  hkdf toy_hmac (str "k") [] (str "info") 40 = Ok (repeat x05 32 ++ repeat x25 8) /\
  hkdf toy_hmac (str "k") [] (str "info") 8161 = Err EInval.
Proof. split; [intros; apply repeat_length|]. split; vm_compute; reflexivity. Qed.

(** ** C22: timestamps *)

(** Stored times on; [junk] is arbitrary.  The modification time is the clock
    reading of the last write, truncation or directory change, or the time given
    explicitly if that came later; the birth time never changes. *)
Theorem C22_mtime_and_birthtime :
  forall junk a evs, Forall (fun ev => fst ev <> AUtimens None) evs ->
    a_mtime (attr_run true junk a evs) = latest mtime_event (a_mtime a) evs /\
    a_birth (attr_run true junk a evs) = a_birth a.
Proof. exact (fun junk a evs H => conj (run_mtime junk a evs H) (run_birth true junk a evs)). Qed.
Print Assumptions C22_mtime_and_birthtime.

(** After any history [evs]: an operation other than unlinking and setting times
    sets ctime to now exactly when it modifies content or changes mode, owner or
    link count. *)
Theorem C22_ctime :
  forall junk a0 evs op now,
    let a := attr_run true junk a0 evs in
    op <> AUnlink -> (forall ts, op <> AUtimens ts) -> (a_nlink a < u32_max)%N ->
    let a' := attr_step true junk a (op, now) in
    (op = AModify \/ visible a' <> visible a -> a_ctime a' = now) /\
    (op <> AModify -> visible a' = visible a -> a_ctime a' = a_ctime a).
Proof. exact (fun junk a0 evs op now => step_ctime junk (attr_run true junk a0 evs) op now). Qed.
Print Assumptions C22_ctime.

(** Reading. *)
Theorem C22_atime :
  forall junk a0 evs now,
    let a := attr_run true junk a0 evs in
    let a' := attr_step true junk a (ARead, now) in
    a_mtime a' = a_mtime a /\ a_ctime a' = a_ctime a /\
    ((tv_sec (a_mtime a) <= tv_sec (a_atime a))%Z -> (tv_sec (a_ctime a) <= tv_sec (a_atime a))%Z -> a_atime a' = a_atime a) /\
    ((tv_sec (a_mtime a) <= tv_sec now)%Z -> (tv_sec (a_ctime a) <= tv_sec now)%Z ->
     (tv_sec (a_mtime a) <= tv_sec (a_atime a'))%Z /\ (tv_sec (a_ctime a) <= tv_sec (a_atime a'))%Z) /\
    (a_atime a' = a_atime a \/ a_atime a' = now) /\
    (forall op, op <> ARead -> (forall ts, op <> AUtimens ts) -> a_atime (attr_step true junk a (op, now)) = a_atime a).
Proof.
  intros junk a0 evs now. cbv zeta. destruct (read_atime junk (attr_run true junk a0 evs) now) as (H1 & H2 & H3 & H4 & H5).
  repeat (split; [assumption|]). intros op. apply step_atime.
Qed.
Print Assumptions C22_atime.

(** Explicit times are stored exactly. *)
Theorem C22_explicit_times :
  forall junk a0 evs t0 t1 now,
    let a' := attr_run true junk a0 (evs ++ [(AUtimens (Some (t0, t1)), now)]) in
    a_atime a' = t0 /\ a_mtime a' = t1.
Proof. intros. unfold a'. rewrite run_snoc. split; reflexivity. Qed.
Print Assumptions C22_explicit_times.

(** Stored times off: nothing stored ever changes. *)
Theorem C22_times_off :
  forall junk a evs, times (attr_run false junk a evs) = times a.
Proof. exact no_store_times. Qed.
Print Assumptions C22_times_off.

(** Findings.  [utimens] stores an uninitialised local variable as ctime (and as
    all times when called without times); [unlink] changes the link count without
    touching ctime. *)
Theorem C22_utimens_sets_ctime_refuted :
  ~ (forall junk a t0 t1 now, a_ctime (attr_step true junk a (AUtimens (Some (t0, t1)), now)) = now).
Proof. intros H. specialize (H (mkTs 1 1) ex_attrs zero_time zero_time zero_time). vm_compute in H. discriminate. Qed.
Theorem C22_utimens_now_refuted :
  ~ (forall junk a now, a_mtime (attr_step true junk a (AUtimens None, now)) = now).
Proof. intros H. specialize (H (mkTs 1 1) ex_attrs zero_time). vm_compute in H. discriminate. Qed.
Theorem C22_unlink_sets_ctime_refuted :
  ~ (forall junk a now, let a' := attr_step true junk a (AUnlink, now) in visible a' <> visible a -> a_ctime a' = now).
Proof.
  intros H. specialize (H zero_time ex_attrs (mkTs 5 5)). cbv zeta in H.
  assert (E : mkTs 0 0 = mkTs 5 5) by (apply H; vm_compute; discriminate). discriminate.
Qed.
Print Assumptions C22_utimens_sets_ctime_refuted.
Print Assumptions C22_utimens_now_refuted.
Print Assumptions C22_unlink_sets_ctime_refuted.

Example C22_ex :
  let evs := [(AModify, mkTs 10 0); (AChmod 448, mkTs 11 0); (ARead, mkTs 12 0); (ARead, mkTs 13 0);
              (AUtimens (Some (mkTs 1 1, mkTs 2 2)), mkTs 14 0); (AModify, mkTs 15 0)] in
  let a := attr_run true zero_time ex_attrs evs in
  a_mtime a = mkTs 15 0 /\ a_ctime a = mkTs 15 0 /\ a_atime a = mkTs 1 1 /\ a_birth a = a_birth ex_attrs /\ a_mode a = 33216%N.
Proof. vm_compute. auto 10. Qed.

(** ** C45: inode numbers *)

Theorem C45_inode_numbers :
  inode_number (zeros 32) = (2 ^ 64 - 1)%N /\
  (forall id id', length id = 32 -> length id' = 32 ->
     (inode_number id = inode_number id' <-> firstn 8 id = firstn 8 id')) /\
  (forall id, length id = 32 -> (inode_number id < 2 ^ 64)%N) /\
  (forall id, length id = 32 -> (inode_number id = 0%N <-> firstn 8 id = repeat xff 8)).
Proof. exact inode_number_props. Qed.
Print Assumptions C45_inode_numbers.
(** Three ids: the first two share their first eight bytes, the third does not. *)
Example C45_ex :
  inode_number (repeat x01 32) = 18374403900871474942%N /\
  inode_number (repeat x01 8 ++ repeat x02 24) = inode_number (repeat x01 32) /\
  inode_number (x02 :: repeat x01 31) = 18374403900871474941%N /\
  inode_number (repeat xff 8 ++ repeat x00 24) = 0%N.
Proof. vm_compute. repeat split. Qed.
