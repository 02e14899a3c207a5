(** Properties C38, C39, C46 and C50 to C52: the configuration of a repository. *)
From Coq Require Import Strings.String.
From Verif Require Import Base BaseLemmas TextModel TextProofs NameModel ProtoModel ProtoProofs TableIoModel ParamsModel ParamsSpec ParamsProofs.
Local Open Scope nat_scope.
Local Open Scope list_scope.

(** ** A library for the examples *)
Definition ex_hmac (k f : bytes) : bytes := firstn 32 (f ++ k ++ zeros 32).
Definition ex_kdf (pw salt : bytes) : option bytes := Some (firstn 32 (pw ++ salt ++ zeros 32)).
Definition ex_tag (k iv aad ct : bytes) : bytes := firstn 16 (k ++ zeros 16).
Definition ex_pc : pcrypto :=
  mkPc ex_hmac (fun t _ _ pw salt => if (t =? 0)%N then None else ex_kdf pw salt) (fun _ _ _ => ex_kdf) (fun _ => ex_kdf)
       (fun k iv n => repeat (hd x00 k) n) ex_tag.
Lemma ex_pc_ok : crypto_ok ex_pc.
Proof.
  split; intros; cbn [ex_pc c_stream c_tag]; [apply repeat_length|].
  unfold ex_tag. rewrite firstn_length, app_length, zeros_length. lia.
Qed.
Definition no_json (_ : bytes) : option legacy_params := None.
Lemma no_json_ok : json_ok no_json.
Proof. intros t y H. discriminate H. Qed.
Definition ex_argon := mkArgon 30 262144 4.
Definition ex_iv := repeat x01 12.
Definition ex_salt := repeat x02 32.
Definition ex_opts := mkCreate 12 4096 0 (CLite 128 (str ".ll")).
Definition key n : bytes := repeat n 32.
Lemma ex_opts_ok : options_ok ex_opts.
Proof.
  unfold options_ok, ex_opts, is_u32, modest. cbn [o_iv_size o_block_size o_max_padding o_format].
  repeat split; try reflexivity. exists [46; 108; 108]%N. split; [|reflexivity].
  repeat constructor; left; reflexivity.
Qed.

Section Helpers.
  Lemma password_key_gives C e pw kf k :
    password_key C e pw kf = Ok k <-> gives_key C (e_salt e) (match e_argon e with Some a => a | None => argon0 end) pw kf k.
  Proof.
    unfold password_key, gives_key. destruct (Nat.eqb_spec (length (e_salt e)) 32) as [L|L]; cbn [negb]; [|split; [discriminate|tauto]].
    destruct kf as [f|]; rewrite ?hmac_file; (destruct (c_argon2id _ _ _ _ _ _) as [k'|]; cbn [of_opt]; split; [intros H; injection H as ->; auto|intros [_ H]; congruence|discriminate|intros [_ H]; discriminate]).
  Qed.
  Lemma create_params_storable o r1 r2 r3 r4 : options_ok o -> Forall (fun r => length r = 32) [r1; r2; r3; r4] -> storable (create_params o r1 r2 r3 r4).
  Proof.
    intros (A & B & C & D) HF. inversion HF as [|? ? H1 HF1]; subst. inversion HF1 as [|? ? H2 HF2]; subst. inversion HF2 as [|? ? H3 HF3]; subst. inversion HF3 as [|? ? H4 HF4]; subst.
    split; cbn [create_params d_size d_format z_block z_iv z_padding]; [auto|].
    assert (M : forall r : bytes, length r = 32 -> modest r) by (intros r Hr; unfold modest; lia).
    destruct (o_format o) as [t s|c u]; cbn [i_name i_content i_xattr i_padding i_suffix i_threshold u_master]; [|now apply M].
    destruct D as (D1 & D2 & D3). repeat (split; [now auto|]). split; [|exact D3]. destruct (0 <? t)%N; [exact D1|exact I].
  Qed.
  Lemma create_ok C w config o r1 r2 r3 r4 a pw kf iv salt h :
    let path := match config with [] => config_name | _ => config end in
    let r := create C w config o r1 r2 r3 r4 a pw kf iv salt h in
    snd r = Ok tt -> exists e, encrypt_params C (create_params o r1 r2 r3 r4) a pw kf iv salt = Ok e /\ fget h path = None /\ last_state h r = fput h path (ser_enc e).
  Proof.
    cbv zeta. unfold create, on_ok. destruct (encrypt_params _ _ _ _ _ _ _) as [e|]; cbn [snd]; [|discriminate].
    destruct (fget h _) eqn:E; [discriminate|]. destruct (w_create w); [discriminate|]. destruct (w_write w) as [[n er]|]; [discriminate|]. intros _.
    exists e. split; [reflexivity|]. split; [reflexivity|]. unfold last_state. cbn [fst]. unfold write_states. rewrite seq_S, map_app. cbn [map]. rewrite last_last.
    now rewrite Nat.add_0_l, firstn_all.
  Qed.
  Lemma open_put C json config pw kf h c :
    open_repo C json config pw kf (fput h (match config with [] => config_name | _ => config end) c) = decrypt_config C json c pw kf.
  Proof.
    unfold open_repo, config_path. destruct config as [|x l].
    - rewrite fget_fput, bytes_eqb_refl. cbn [rbind]. unfold read_file. rewrite fget_fput, bytes_eqb_refl. reflexivity.
    - cbn [rbind]. unfold read_file. rewrite fget_fput, bytes_eqb_refl. reflexivity.
  Qed.
End Helpers.

(** ** C38: the right secrets *)
(** A repository that was created is opened by the same password and key file, with exactly
    the parameters it was created with. *)
Theorem C38_create_open C json w config o r1 r2 r3 r4 a pw kf iv salt h :
  crypto_ok C -> options_ok o -> Forall (fun r => length r = 32) [r1; r2; r3; r4] -> argon_range a -> length iv = 12 ->
  let r := create C w config o r1 r2 r3 r4 a pw kf iv salt h in
  snd r = Ok tt -> exists d, open_repo C json config pw kf (last_state h r) = Ok d /\ created_as o r1 r2 r3 r4 d.
Proof.
  intros HC Ho Hr Ha Hiv r H. exists (create_params o r1 r2 r3 r4). split.
  2:{ split; [eexists; repeat split; reflexivity|]. cbn [create_params d_format]. destruct (o_format o) as [t s|c u]; repeat split; try reflexivity.
      cbn [i_threshold]. destruct t; reflexivity. } destruct (create_ok C w config o r1 r2 r3 r4 a pw kf iv salt h H) as (e & He & _ & Hl). fold r in Hl.
  rewrite Hl, open_put. eapply config_round_trip; eauto. now apply create_params_storable.
Qed.
Print Assumptions C38_create_open.

Example C38_create_open_ex :
  let r := create ex_pc fine [] ex_opts (key x03) (key x04) (key x05) (key x06) ex_argon (str "secret") (Some (str "file")) ex_iv ex_salt [] in
  snd r = Ok tt /\
  open_repo ex_pc no_json [] (str "secret") (Some (str "file")) (last_state [] r) = Ok (create_params ex_opts (key x03) (key x04) (key x05) (key x06)) /\
  open_repo ex_pc no_json [] (str "Secret") (Some (str "file")) (last_state [] r) = Err EVerify.
Proof. vm_compute. repeat split. Qed.

(** The same for every set of parameters, in particular those of other versions. *)
Theorem C38_round_trip C json d a pw kf iv salt e : crypto_ok C -> storable d -> argon_range a -> length iv = 12 ->
  encrypt_params C d a pw kf iv salt = Ok e -> decrypt_config C json (ser_enc e) pw kf = Ok d.
Proof. apply config_round_trip. Qed.
Print Assumptions C38_round_trip.

Example C38_round_trip_ex :
  let d := mkDec (Some (mkSize 512 32 77)) (FFull (mkFullP (key x09) true false true false)) in
  storable d /\ exists e, encrypt_params ex_pc d ex_argon (str "p") None ex_iv ex_salt = Ok e.
Proof.
  split; [|eexists; reflexivity]. unfold storable, is_u32, modest. cbn [d_size d_format z_block z_iv z_padding u_master]. repeat split; reflexivity.
Qed.

(** Whatever is stored in the format written by the program with a complete MAC: if it is
    opened at all, then with a password and key file that give a key under which parameters
    were stored, and with exactly those parameters. *)
Theorem C38_secrets C json written content e pw kf d :
  crypto_ok C -> Forall (fun x => storable (snd x)) written ->
  parse_enc content = Some e -> length (e_mac e) = 16 ->
  unforged C (map (fun x => (fst (fst x), snd (fst x), [], ser_dec (snd x))) written) (e_iv e) [] (e_ct e) (e_mac e) ->
  decrypt_config C json content pw kf = Ok d ->
  exists k, gives_key C (e_salt e) (match e_argon e with Some a => a | None => argon0 end) pw kf k /\ In (k, e_iv e, d) written.
Proof.
  intros HC HW He Hm HU H. unfold decrypt_config in H. rewrite He in H. unfold decrypt_params in H.
  destruct (password_key C e pw kf) as [k|] eqn:Ek; cbn [rbind] in H; [|discriminate].
  destruct (gcm_open C k (e_iv e) [] (e_ct e) (e_mac e)) as [[m|]|] eqn:Eg; cbn [rbind] in H; try discriminate.
  pose proof (gcm_open_sealed _ _ _ _ _ _ _ _ HC HU Hm Eg) as Hin. apply in_map_iff in Hin as ([[k' iv'] d'] & E & Hin).
  cbn [fst snd] in E. injection E as -> -> <-. exists k. split; [now apply password_key_gives|].
  rewrite Forall_forall in HW. specialize (HW _ Hin). cbn [snd] in HW. rewrite parse_ser_dec in H by now apply storable_ok. injection H as <-. exact Hin.
Qed.
Print Assumptions C38_secrets.

(** A tag that is different for every other key and text than those of the example. *)
Definition ex_dec := mkDec (Some (mkSize 4096 12 0)) (FFull (mkFullP [x09] false false false false)).
Definition ex_k0 : bytes := firstn 32 (str "p" ++ ex_salt ++ zeros 32).
Definition ex_ct0 : bytes := xor_bytes (ser_dec ex_dec) (repeat x70 (length (ser_dec ex_dec))).
Definition ex_pc2 : pcrypto :=
  mkPc ex_hmac (fun t _ _ pw salt => if (t =? 0)%N then None else ex_kdf pw salt) (fun _ _ _ => ex_kdf) (fun _ => ex_kdf)
       (fun k iv n => repeat (hd x00 k) n)
       (fun k iv aad ct => if bytes_eqb k ex_k0 && bytes_eqb iv ex_iv && bytes_eqb aad [] && bytes_eqb ct ex_ct0 then repeat xaa 16 else repeat xbb 16).
Lemma ex_pc2_ok : crypto_ok ex_pc2.
Proof. split; intros; cbn [ex_pc2 c_stream c_tag]; [apply repeat_length|]. destruct (_ && _); reflexivity. Qed.
Definition ex_enc (ct : bytes) := mkEnc ex_salt ex_iv (repeat xaa 16) ct (Some ex_argon).
Example C38_secrets_ex :
  Forall (fun x => storable (snd x)) [(ex_k0, ex_iv, ex_dec)] /\
  (forall ct, unforged ex_pc2 (map (fun x => (fst (fst x), snd (fst x), [], ser_dec (snd x))) [(ex_k0, ex_iv, ex_dec)]) ex_iv [] ct (repeat xaa 16)) /\
  decrypt_config ex_pc2 no_json (ser_enc (ex_enc ex_ct0)) (str "p") None = Ok ex_dec /\
  decrypt_config ex_pc2 no_json (ser_enc (ex_enc ex_ct0)) (str "q") None = Err EVerify /\
  decrypt_config ex_pc2 no_json (ser_enc (ex_enc (x00 :: ex_ct0))) (str "p") None = Err EVerify.
Proof.
  split; [|split; [|vm_compute; repeat split]].
  - repeat constructor; cbn; unfold is_u32, modest; cbn; lia.
  - intros ct k H. cbn [ex_pc2 c_tag] in H. exists (ser_dec ex_dec). cbn [map fst snd].
    destruct (bytes_eqb k ex_k0 && bytes_eqb ex_iv ex_iv && bytes_eqb [] [] && bytes_eqb ct ex_ct0) eqn:E.
    + apply andb_prop in E as [E E2]. apply andb_prop in E as [E _]. apply andb_prop in E as [E _]. apply bytes_eqb_eq in E, E2. subst k ct.
      split; [now left|]. vm_compute. reflexivity.
    + exfalso. apply (f_equal (hd x00)) in H. discriminate H.
Qed.

(** The claim "any change to the stored bytes makes opening fail" is false: the length of the
    MAC is taken from the file.  Whoever can write the file but knows no secret can remove the
    MAC and then flip any bits of the stored parameters. *)
Theorem C38_no_mac_refuted C json d a pw kf iv salt e mask :
  crypto_ok C -> storable d -> argon_range a -> length iv = 12 -> encrypt_params C d a pw kf iv salt = Ok e -> length mask = length (e_ct e) ->
  let forged := mkEnc (e_salt e) (e_iv e) [] (xor_bytes (e_ct e) mask) (e_argon e) in
  decrypt_config C json (ser_enc forged) pw kf =
    match parse_dec (xor_bytes (ser_dec d) mask) with Some d' => Ok d' | None => Err ECorrupt end.
Proof.
  intros HC Hd Ha Hiv H Hm forged. pose proof (encrypted_enc_ok C d a pw kf iv salt e HC (storable_weak _ Hd) Ha Hiv H) as (O1 & O2 & O3 & O4 & O5).
  unfold decrypt_config. rewrite parse_ser_enc.
  - apply encrypt_inv in H as (k & Hk & _ & ->). cbn [e_salt e_iv e_mac e_ct e_argon] in *. unfold decrypt_params.
    match goal with |- context [password_key C ?x pw kf] => replace (password_key C x pw kf) with (Ok k) by (symmetry; exact Hk) end.
    unfold forged. cbn [rbind e_iv e_ct e_mac]. unfold gcm_open. destruct (Nat.ltb_spec (length iv) 12); [lia|]. cbn [length Nat.ltb Nat.leb firstn bytes_eqb rbind].
    replace (gcm_crypt C k iv (xor_bytes (gcm_crypt C k iv (ser_dec d)) mask)) with (xor_bytes (ser_dec d) mask); [reflexivity|].
    unfold gcm_crypt at 1. rewrite xor_bytes_length, Hm, Nat.min_id. rewrite xor_bytes_swap. f_equal.
    rewrite <- (gcm_crypt_twice C k iv (ser_dec d)) at 1 by exact HC. reflexivity.
  - unfold forged, enc_ok. cbn [e_salt e_iv e_mac e_ct e_argon]. split; [exact O1|]. split; [exact O2|]. split; [reflexivity|]. split; [|exact O5].
    unfold bytes_ok in *. rewrite xor_bytes_length, Hm, Nat.min_id. exact O4.
Qed.
Print Assumptions C38_no_mac_refuted.

(** For example, from block size 4096 to 2048 without any secret: the second byte of the
    number, the fourth of the parameters, changes by 0x30. *)
Example C38_no_mac_ex :
  decrypt_config ex_pc2 no_json (ser_enc (mkEnc ex_salt ex_iv [] (xor_bytes ex_ct0 ([x00; x00; x00; x00; x30] ++ zeros (length ex_ct0 - 5))) (Some ex_argon))) (str "p") None =
    Ok (mkDec (Some (mkSize 2048 12 0)) (FFull (mkFullP [x09] false false false false))).
Proof. vm_compute. reflexivity. Qed.

(** The round trip needs the suffix of long names to be text: with any other bytes the
    repository is created without an error and can never be opened. *)
Theorem C38_suffix_refuted C json w config o t s r1 r2 r3 r4 a pw kf iv salt h :
  crypto_ok C -> is_u32 (o_iv_size o) -> is_u32 (o_block_size o) -> is_u32 (o_max_padding o) -> o_format o = CLite t s -> is_u32 t -> modest s ->
  valid_utf8 s = false -> Forall (fun r => length r = 32) [r1; r2; r3; r4] -> argon_range a -> length iv = 12 ->
  let r := create C w config o r1 r2 r3 r4 a pw kf iv salt h in
  snd r = Ok tt -> open_repo C json config pw kf (last_state h r) = Err ECorrupt.
Proof.
  intros HC O1 O2 O3 Ho Ht Hs Hu Hr Ha Hiv r H. destruct (create_ok C w config o r1 r2 r3 r4 a pw kf iv salt h H) as (e & He & _ & Hl). fold r in Hl.
  assert (SB : storable_but_text (create_params o r1 r2 r3 r4)).
  { inversion Hr as [|? ? H1 HF1]; subst. inversion HF1 as [|? ? H2 HF2]; subst. inversion HF2 as [|? ? H3 HF3]; subst. inversion HF3 as [|? ? H4 HF4]; subst.
    assert (M : forall r : bytes, length r = 32 -> modest r) by (intros r0 Hr0; unfold modest; lia).
    split; cbn [create_params d_size d_format z_block z_iv z_padding]; [auto|]. rewrite Ho. cbn [i_name i_content i_xattr i_padding i_suffix i_threshold].
    repeat (split; [now auto|]). destruct (0 <? t)%N; [exact Ht|exact I]. }
  rewrite Hl, open_put. unfold decrypt_config. rewrite parse_ser_enc by (eapply encrypted_enc_ok; eauto).
  erewrite decrypt_encrypt_any by eassumption. erewrite not_text_unreadable; [reflexivity| |exact SB|].
  - cbn [create_params d_format]. rewrite Ho. reflexivity.
  - exact Hu.
Qed.
Print Assumptions C38_suffix_refuted.

Example C38_suffix_ex :
  let o := mkCreate 12 4096 0 (CLite 128 [x2e; xff]) in
  let r := create ex_pc fine [] o (key x03) (key x04) (key x05) (key x06) ex_argon (str "secret") None ex_iv ex_salt [] in
  snd r = Ok tt /\ open_repo ex_pc no_json [] (str "secret") None (last_state [] r) = Err ECorrupt.
Proof. vm_compute. repeat split. Qed.

(** ** C39: changing the password *)
Theorem C39_chpass C json w config suffix old_pw old_kf a new_pw new_kf iv salt h p content d :
  crypto_ok C -> json_ok json -> length suffix = 16 -> argon_range a -> length iv = 12 ->
  config_path config h = Ok p -> fget h p = Some (HFile content) -> modest content ->
  open_repo C json config old_pw old_kf h = Ok d ->
  let r := chpass C json w config suffix old_pw old_kf a new_pw new_kf iv salt h in
  let tmp := p ++ hexify suffix in
  (* wherever it stops, the old secrets or the new ones open the repository *)
  (forall s, In s (crash_states h r) ->
     (forall q, q <> p -> q <> tmp -> fget s q = fget h q) /\
     ((fget s p = fget h p /\ open_repo C json config old_pw old_kf s = Ok d) \/
      (fget s p = fget (last_state h r) p /\ snd r = Ok tt /\ open_repo C json config new_pw new_kf s = Ok d))) /\
  (* success: the new secrets, and no temporary file *)
  (snd r = Ok tt -> open_repo C json config new_pw new_kf (last_state h r) = Ok d /\ fget (last_state h r) tmp = None) /\
  (* failure: as before *)
  (forall e, snd r = Err e -> fget (last_state h r) p = fget h p /\ (w_remove w = true -> fget (last_state h r) tmp = fget h tmp)).
Proof.
  intros HC HJ Hsx Ha Hiv Hp Hf Hmod Ho r tmp.
  assert (Hc : decrypt_config C json content old_pw old_kf = Ok d).
  { unfold open_repo in Ho. rewrite Hp in Ho. cbn [rbind] in Ho. unfold read_file in Ho. rewrite Hf in Ho. exact Ho. }
  assert (Hx : hexify suffix <> []) by (intros E; apply (f_equal (@length byte)) in E; rewrite hexify_length, Hsx in E; discriminate).
  destruct (opened_ok _ _ _ _ _ _ HC HJ Hmod Hc) as [Sd Od].
  apply (rewrite_safe C json w config (hexify suffix) old_pw old_kf a new_pw new_kf iv salt h p content d d r); auto.
  unfold r, chpass. rewrite Hp. cbn [on_ok]. unfold read_file. rewrite Hf. cbn [on_ok]. rewrite Hc. reflexivity.
Qed.
Print Assumptions C39_chpass.

Definition ex_dir : host := match encrypt_params ex_pc ex_dec ex_argon (str "p") None ex_iv ex_salt with Ok e => fput [] config_name (ser_enc e) | Err _ => [] end.
Definition ex_chpass w := chpass ex_pc no_json w [] (repeat xab 16) (str "p") None ex_argon (str "new") (Some (str "file")) (repeat x07 12) (repeat x08 32) ex_dir.
Example C39_ex :
  config_path [] ex_dir = Ok config_name /\ open_repo ex_pc no_json [] (str "p") None ex_dir = Ok ex_dec /\
  snd (ex_chpass fine) = Ok tt /\
  open_repo ex_pc no_json [] (str "new") (Some (str "file")) (last_state ex_dir (ex_chpass fine)) = Ok ex_dec /\
  open_repo ex_pc no_json [] (str "p") None (last_state ex_dir (ex_chpass fine)) = Err EVerify /\
  map (fun s => option_map (fun n => match n with HFile c => length c | HDir => 0 end) (fget s (config_name ++ hexify (repeat xab 16)))) (fst (ex_chpass (mkWeather None (Some (3, FullFsModel.E_EXIST)) None true))) =
    [Some 0; Some 1; Some 2; Some 3; None].
Proof. vm_compute. repeat split. Qed.

(** With the wrong old secrets nothing happens at all. *)
Theorem C39_wrong_old C json w config suffix old_pw old_kf a new_pw new_kf iv salt h e :
  open_repo C json config old_pw old_kf h = Err e -> chpass C json w config suffix old_pw old_kf a new_pw new_kf iv salt h = ([], Err e).
Proof.
  unfold open_repo, chpass. destruct (config_path config h) as [p|]; cbn [rbind on_ok]; [|congruence]. destruct (read_file h p) as [c|]; cbn [rbind on_ok]; [|congruence].
  intros ->. reflexivity.
Qed.
Print Assumptions C39_wrong_old.
Example C39_wrong_old_ex : open_repo ex_pc no_json [] (str "q") None ex_dir = Err EVerify.
Proof. vm_compute. reflexivity. Qed.

(** "At any point" does not include a loss of power: as the data are never flushed, the
    configuration may then be neither the old nor the new one, and no secrets open it. *)
Theorem C39_power_failure_refuted C json w config suffix old_pw old_kf a new_pw new_kf iv salt h p :
  config_path config h = Ok p ->
  snd (chpass C json w config suffix old_pw old_kf a new_pw new_kf iv salt h) = Ok tt ->
  exists e kept, encrypt_params C (match open_repo C json config old_pw old_kf h with Ok d => d | Err _ => dec0 end) a new_pw new_kf iv salt = Ok e /\
    fget (last_state h (chpass C json w config suffix old_pw old_kf a new_pw new_kf iv salt h)) p = Some (HFile (ser_enc e)) /\
    forall pw kf, exists err, open_repo C json config pw kf (after_power_failure p (p ++ hexify suffix) (ser_enc e) kept h) = Err err.
Proof.
  intros Hp H. unfold chpass in *. unfold open_repo at 1. rewrite Hp in *. cbn [on_ok rbind] in *.
  destruct (read_file h p) as [c|] eqn:Er; cbn [on_ok rbind snd] in *; [|discriminate].
  destruct (decrypt_config C json c old_pw old_kf) as [d|]; cbn [on_ok snd] in *; [|discriminate].
  destruct (encrypt_params C d a new_pw new_kf iv salt) as [e|] eqn:Ee; cbn [on_ok snd] in *; [|discriminate].
  exists e, 0. split; [reflexivity|].
  assert (Hne : p <> p ++ hexify suffix).
  { destruct (hexify suffix) as [|x l] eqn:E; [|apply app_ne_self; discriminate]. exfalso. rewrite app_nil_r in H. unfold replace_file in H.
    unfold read_file in Er. destruct (fget h p); [discriminate H|discriminate]. }
  split.
  - pose proof (replace_end w p (p ++ hexify suffix) (ser_enc e) h Hne) as RE. cbv zeta in RE. rewrite H in RE. apply RE.
  - intros pw kf. set (s := after_power_failure _ _ _ _ _).
    assert (F : fget s p = Some (HFile [])).
    { unfold s, after_power_failure. rewrite fget_fdel, fget_fput. destruct (bytes_eqb (p ++ hexify suffix) p) eqn:E; [apply bytes_eqb_eq in E; congruence|].
      now rewrite bytes_eqb_refl. }
    assert (P : config_path config s = Ok p).
    { destruct (hexify suffix) as [|x l] eqn:E; [rewrite app_nil_r in Hne; congruence|].
      apply (config_path_same config h s p (x :: l) Hp); [discriminate| |eauto|intros Ep; rewrite Ep; apply tmp_not_config].
      intros q Hq1 Hq2. unfold s, after_power_failure. rewrite fget_fdel, fget_fput.
      destruct (bytes_eqb (p ++ x :: l) q) eqn:E1; [apply bytes_eqb_eq in E1; congruence|]. destruct (bytes_eqb p q) eqn:E2; [apply bytes_eqb_eq in E2; congruence|reflexivity]. }
    exists ECorrupt. unfold open_repo. rewrite P. cbn [rbind]. unfold read_file. rewrite F. reflexivity.
Qed.
Print Assumptions C39_power_failure_refuted.

(** ** C46: legacy configurations *)
(** Text that starts with a brace and consists of ordinary characters is never mistaken for
    the present format. *)
Lemma legacy_text rest : Forall ordinary rest -> parse_enc (x7b :: rest) = None.
Proof. intros H. unfold parse_enc. now rewrite json_not_message. Qed.

(** Each documented way from the secrets to the wrapping key opens the repository, and the
    parameters are the documented ones. *)
Theorem C46_opens C json rest y pw kf salt iv k master d :
  crypto_ok C -> Forall ordinary rest -> json (x7b :: rest) = Some y ->
  y_salt y = hexify salt -> y_iv y = hexify iv -> 12 <= length iv ->
  let header := legacy_header (y_version y) in
  let ct := gcm_crypt C k iv master in
  y_key y = hexify ct -> y_mac y = hexify (c_tag C k iv header ct) ->
  legacy_wrapping C y pw salt kf k -> legacy_meaning y master d ->
  (* the key derivation accepts its parameters *)
  (forall file, kf = Some file -> exists k1, legacy_derives C y pw (c_hmac C salt file) k1) ->
  (* another key does not happen to give the same tag *)
  (forall k1, legacy_wrapping C y pw salt kf k1 -> c_tag C k1 iv header ct = c_tag C k iv header ct -> k1 = k) ->
  decrypt_config C json (x7b :: rest) pw kf = Ok d.
Proof.
  intros HC HT HJ Hs Hi Hiv header ct Hk Hm HW HM HD HA.
  unfold decrypt_config. rewrite legacy_text by exact HT. rewrite HJ. apply (legacy_meaning_decrypt _ _ _ _ master); [|exact HM].
  assert (HV : version_header (y_version y) = Ok header).
  { unfold header, legacy_header. destruct HM as [? V|? ? ? V|? ? ? ? V]; [destruct V as [V|[V|V]]| |]; rewrite V; reflexivity. }
  assert (T : forall k1, legacy_try C y k1 = gcm_open C k1 iv header ct (c_tag C k iv header ct)).
  { intros k1. unfold legacy_try. rewrite Hi, Hm, Hk, !parse_hexify. cbn [rbind]. rewrite HV. reflexivity. }
  assert (TK : legacy_try C y k = Ok (Some master)) by (rewrite T; now apply gcm_open_seal).
  assert (TO : forall k1, legacy_wrapping C y pw salt kf k1 -> k1 <> k -> legacy_try C y k1 = Ok None).
  { intros k1 W1 N1. rewrite T. unfold gcm_open. destruct (Nat.ltb_spec (length iv) 12); [lia|]. destruct HC as [_ HC]. rewrite HC. cbn [Nat.ltb Nat.leb].
    rewrite firstn_all2 by (rewrite HC; lia). destruct (bytes_eqb _ _) eqn:E; [|reflexivity]. apply bytes_eqb_eq in E. elim N1. apply HA; auto. }
  unfold legacy_master_key. rewrite Hs, parse_hexify. cbn [rbind].
  inversion HW as [k0 D E1 E2|file k0 D E1 E2|file k0 D E1 E2]; subst.
  - apply legacy_kdf_iff in D. rewrite D. cbn [rbind]. exact TK.
  - rewrite hmac_file. apply legacy_kdf_iff in D. rewrite D. cbn [rbind]. rewrite TK. reflexivity.
  - rewrite hmac_file. destruct (HD file eq_refl) as [k1 D1]. pose proof D1 as D1'. apply legacy_kdf_iff in D1. rewrite D1. cbn [rbind].
    destruct (bytes_eq_dec k1 (c_hmac C k0 file)) as [->|N1].
    + rewrite TK. reflexivity.
    + rewrite TO; [|now apply lw_salted|exact N1]. cbn [rbind]. apply legacy_kdf_iff in D. rewrite D. cbn [rbind]. rewrite hmac_file. exact TK.
Qed.
Print Assumptions C46_opens.

(** What is opened with a complete, unforged MAC: the master key was wrapped under a key that
    the secrets give, as version 4 if and only if the repository is opened in the lite format. *)
Theorem C46_authentic C json sealed content y pw kf salt iv mac ct d :
  crypto_ok C -> parse_enc content = None -> json content = Some y ->
  y_salt y = hexify salt -> y_iv y = hexify iv -> y_mac y = hexify mac -> y_key y = hexify ct -> length mac = 16 ->
  (forall header, unforged C sealed iv header ct mac) ->
  decrypt_config C json content pw kf = Ok d ->
  exists k master header, legacy_wrapping C y pw salt kf k /\ In (k, iv, header, master) sealed /\ legacy_meaning y master d /\
    (header = str "version=4" \/ header = str "version=1") /\
    (header = str "version=4" <-> exists l, d_format d = FLite l).
Proof.
  intros HC He HJ Hs Hi Hm Hk Hl HU H. unfold decrypt_config in H. rewrite He, HJ in H.
  apply decrypt_legacy_inv in H as (master & HM & Hmean); [|exact HC].
  assert (HX : exists k, legacy_wrapping C y pw salt kf k /\ legacy_try C y k = Ok (Some master)).
  { unfold legacy_master_key in HM. rewrite Hs, parse_hexify in HM. cbn [rbind] in HM. destruct kf as [f|].
    - rewrite hmac_file in HM. destruct (legacy_kdf C y pw (c_hmac C salt f)) as [k1|] eqn:E1; cbn [rbind] in HM; [|discriminate].
      destruct (legacy_try C y k1) as [[m1|]|] eqn:E2; cbn [rbind] in HM; [| |discriminate].
      + injection HM as ->. exists k1. split; [apply lw_salted; now apply legacy_kdf_iff|exact E2].
      + destruct (legacy_kdf C y pw salt) as [k2|] eqn:E3; cbn [rbind] in HM; [|discriminate]. rewrite hmac_file in HM.
        exists (c_hmac C k2 f). split; [apply lw_mixed; now apply legacy_kdf_iff|exact HM].
    - destruct (legacy_kdf C y pw salt) as [k1|] eqn:E1; cbn [rbind] in HM; [|discriminate]. exists k1. split; [apply lw_password; now apply legacy_kdf_iff|exact HM]. }
  destruct HX as (k & HW & HT). exists k, master, (legacy_header (y_version y)).
  apply legacy_try_inv in HT as (iv' & mac' & ct' & E1 & E2 & E3 & V & Hg & _); [|exact HC].
  rewrite Hi, parse_hexify in E1. rewrite Hm, parse_hexify in E2. rewrite Hk, parse_hexify in E3. injection E1 as <-. injection E2 as <-. injection E3 as <-.
  split; [exact HW|]. split; [eapply gcm_open_sealed; eauto|]. split; [exact Hmean|].
  unfold legacy_header. destruct (N.eq_dec (y_version y) 4) as [V4|V4].
  - split; [now left|]. split; [intros _|reflexivity]. destruct Hmean as [key V'|a1 b1 c1|a1 b1 c1 d1]; [lia|eexists; reflexivity|eexists; reflexivity].
  - split; [now right|]. split; [intros E; discriminate E|intros [l E]]. destruct Hmean; [discriminate E|congruence|congruence].
Qed.
Print Assumptions C46_authentic.

(** A version 2 configuration with a key file, in each of the two derivations. *)
Definition ex_legacy (k : bytes) : legacy_params :=
  mkLegacy 2 None (Some 12%N) (hexify ex_salt) (hexify ex_iv) (hexify (c_tag ex_pc k ex_iv (str "version=1") (gcm_crypt ex_pc k ex_iv (key x09)))) (hexify (gcm_crypt ex_pc k ex_iv (key x09)))
    30 (str "scrypt") 8 1 0 0 0 false.
Definition ex_lk1 : bytes := firstn 32 (str "pw" ++ ex_hmac ex_salt (str "file") ++ zeros 32).
Definition ex_lk2 : bytes := ex_hmac (firstn 32 (str "pw" ++ ex_salt ++ zeros 32)) (str "file").
Definition ex_json (k : bytes) (t : bytes) : option legacy_params := if bytes_eqb t (str "{json}") then Some (ex_legacy k) else None.
Definition ex_legacy_dec := mkDec (Some (mkSize 4096 12 0)) (FFull (mkFullP (key x09) false false false false)).
Example C46_ex :
  str "{json}" = x7b :: str "json}" /\ Forall ordinary (str "json}") /\
  legacy_wrapping ex_pc (ex_legacy ex_lk1) (str "pw") ex_salt (Some (str "file")) ex_lk1 /\
  legacy_wrapping ex_pc (ex_legacy ex_lk2) (str "pw") ex_salt (Some (str "file")) ex_lk2 /\
  legacy_meaning (ex_legacy ex_lk2) (key x09) ex_legacy_dec /\
  (forall k1, legacy_wrapping ex_pc (ex_legacy ex_lk2) (str "pw") ex_salt (Some (str "file")) k1 -> ex_tag k1 ex_iv (str "version=1") [] = ex_tag ex_lk2 ex_iv (str "version=1") [] -> k1 = ex_lk2) /\
  decrypt_config ex_pc (ex_json ex_lk1) (str "{json}") (str "pw") (Some (str "file")) = Ok ex_legacy_dec /\
  decrypt_config ex_pc (ex_json ex_lk2) (str "{json}") (str "pw") (Some (str "file")) = Ok ex_legacy_dec /\
  decrypt_config ex_pc (ex_json ex_lk2) (str "{json}") (str "pw") (Some (str "fire")) = Err EVerify.
Proof.
  split; [reflexivity|]. split; [repeat constructor; intros E; discriminate E|].
  assert (D1 : legacy_derives ex_pc (ex_legacy ex_lk1) (str "pw") (c_hmac ex_pc ex_salt (str "file")) ex_lk1) by (apply ld_scrypt; reflexivity).
  split; [now apply lw_salted|].
  split; [apply (lw_mixed ex_pc (ex_legacy ex_lk2) (str "pw") ex_salt (str "file") (firstn 32 (str "pw" ++ ex_salt ++ zeros 32))); apply ld_scrypt; reflexivity|].
  split; [apply (lm_full (ex_legacy ex_lk2)); right; left; reflexivity|].
  split; [|vm_compute; repeat split].
  intros k1 W E. inversion W as [k0 D F1 F2|file k0 D F1 F2|file k0 D F1 F2]; subst.
  - inversion D as [k' G H|k' G H|k' G H]; subst; try (destruct G as [G|G]); try discriminate G.
    match goal with X : c_scrypt _ _ _ _ _ _ = Some k1 |- _ => cbn [ex_pc c_scrypt c_hmac] in X; unfold ex_kdf in X; assert (Ek : firstn 32 (str "pw" ++ ex_hmac ex_salt (str "file") ++ zeros 32) = k1) by congruence end. subst k1.
    exfalso. apply (f_equal (hd x00)) in E. discriminate E.
  - inversion D as [k' G H|k' G H|k' G H]; subst; try (destruct G as [G|G]); try discriminate G.
    match goal with X : c_scrypt _ _ _ _ _ _ = Some k0 |- _ => cbn [ex_pc c_scrypt c_hmac] in X; unfold ex_kdf in X; assert (Ek : firstn 32 (str "pw" ++ ex_salt ++ zeros 32) = k0) by congruence end. subst k0. reflexivity.
Qed.

(** The header says no more than that.  The sizes are not authenticated: whoever can write the
    file can change them to anything. *)
Definition with_sizes (y : legacy_params) (v : N) (b i : option N) (p : N) : legacy_params :=
  mkLegacy v b i (y_salt y) (y_iv y) (y_mac y) (y_key y) (y_iterations y) (y_pbkdf y) (y_scrypt_r y) (y_scrypt_p y) (y_argon2_m y) (y_argon2_p y) p (y_long_name y).
Theorem C46_sizes_refuted C y pw kf d b i p :
  decrypt_legacy C y pw kf = Ok d ->
  decrypt_legacy C (with_sizes y (y_version y) (Some b) (Some i) p) pw kf = Ok (mkDec (Some (mkSize b i p)) (d_format d)).
Proof.
  unfold decrypt_legacy. change (legacy_master_key C (with_sizes y (y_version y) (Some b) (Some i) p) pw kf) with (legacy_master_key C y pw kf).
  destruct (legacy_master_key C y pw kf) as [[m|]|]; cbn [rbind]; try discriminate. cbn [with_sizes y_version y_block_size y_iv_size y_max_padding y_long_name].
  destruct (y_version y =? 4)%N; [destruct (_ && _); [discriminate|]|]; intros H; injection H as <-; reflexivity.
Qed.
Print Assumptions C46_sizes_refuted.
Example C46_sizes_ex : decrypt_legacy ex_pc (ex_legacy ex_lk1) (str "pw") (Some (str "file")) = Ok ex_legacy_dec.
Proof. vm_compute. reflexivity. Qed.

(** Nor are versions 1, 2 and 3 separated, although they mean different storage. *)
Theorem C46_versions_refuted C y pw kf d v : crypto_ok C ->
  (y_version y = 1 \/ y_version y = 2 \/ y_version y = 3)%N -> (v = 1 \/ v = 2 \/ v = 3)%N ->
  decrypt_legacy C y pw kf = Ok d ->
  exists master, decrypt_legacy C (with_sizes y v (y_block_size y) (y_iv_size y) (y_max_padding y)) pw kf =
    Ok (mkDec (d_size d) (FFull (mkFullP master (v =? 3)%N (v =? 1)%N false false))) /\ exists st lg, d_format d = FFull (mkFullP master st lg false false).
Proof.
  intros HC Hy Hv H. unfold decrypt_legacy in *.
  replace (legacy_master_key C (with_sizes y v (y_block_size y) (y_iv_size y) (y_max_padding y)) pw kf) with (legacy_master_key C y pw kf).
  2: { assert (T : forall k, legacy_try C (with_sizes y v (y_block_size y) (y_iv_size y) (y_max_padding y)) k = legacy_try C y k).
       { intros k. unfold legacy_try. cbn [with_sizes y_iv y_mac y_key y_version]. replace (version_header v) with (version_header (y_version y)); [reflexivity|].
         destruct Hy as [Hy|[Hy|Hy]], Hv as [Hv|[Hv|Hv]]; rewrite Hy, Hv; reflexivity. }
       unfold legacy_master_key. cbn [with_sizes y_salt]. destruct (parse_hex (y_salt y)) as [s|]; cbn [rbind]; [|reflexivity].
       destruct kf as [f|]; change (legacy_kdf C (with_sizes y v (y_block_size y) (y_iv_size y) (y_max_padding y)) pw) with (legacy_kdf C y pw).
       - destruct (legacy_kdf C y pw (hmac_sha256 C s f)) as [k1|]; cbn [rbind]; [|reflexivity]. rewrite T.
         destruct (legacy_try C y k1) as [[m|]|]; cbn [rbind]; try reflexivity. destruct (legacy_kdf C y pw s) as [k2|]; cbn [rbind]; [|reflexivity]. now rewrite T.
       - destruct (legacy_kdf C y pw s) as [k1|]; cbn [rbind]; [|reflexivity]. now rewrite T. }
  destruct (legacy_master_key C y pw kf) as [[m|]|]; cbn [rbind] in *; try discriminate. exists m.
  cbn [with_sizes y_version y_block_size y_iv_size y_max_padding]. destruct (N.eqb_spec (y_version y) 4); [lia|]. destruct (N.eqb_spec v 4); [lia|].
  injection H as <-. split; [reflexivity|]. eexists _, _. reflexivity.
Qed.
Print Assumptions C46_versions_refuted.
Example C46_versions_ex :
  decrypt_legacy ex_pc (with_sizes (ex_legacy ex_lk1) 1 None (Some 12%N) 0) (str "pw") (Some (str "file")) =
    Ok (mkDec (Some (mkSize 4096 12 0)) (FFull (mkFullP (key x09) false true false false))).
Proof. vm_compute. reflexivity. Qed.

(** And text that does not start with the brace can be mistaken: after a newline, a brace and
    123 more bytes the file is taken for the present format, whatever the text says. *)
Theorem C46_newline_refuted C json rest pw kf : length rest = 123 -> decrypt_config C json (x0a :: x7b :: rest) pw kf = Err ECorrupt.
Proof.
  intros H. assert (P : parse_enc (x0a :: x7b :: rest) = Some (mkEnc rest [] [] [] None)).
  { assert (E : x0a :: x7b :: rest = enc_fields [(1%N, VLen rest)]).
    { unfold enc_fields. cbn [map concat enc_field]. rewrite H, app_nil_r. reflexivity. }
    rewrite E. unfold parse_enc. rewrite parse_message_ok; [reflexivity|]. repeat constructor; cbn; try lia. rewrite H. reflexivity. }
  unfold decrypt_config. rewrite P. unfold decrypt_params, password_key. cbn [e_salt]. rewrite H. reflexivity.
Qed.
Print Assumptions C46_newline_refuted.
Example C46_newline_ex : exists rest, length rest = 123 /\ last rest x00 = x7d.
Proof. exists (repeat x20 122 ++ [x7d]). split; reflexivity. Qed.

(** ** C50: creating a repository *)
(** No file that exists is changed, wherever the command stops; and a configuration in the
    place of the new one makes it fail. *)
Theorem C50_create C w config o r1 r2 r3 r4 a pw kf iv salt h :
  let path := match config with [] => config_name | _ => config end in
  let r := create C w config o r1 r2 r3 r4 a pw kf iv salt h in
  (forall s q, In s (crash_states h r) -> q <> path \/ fget h q <> None -> fget s q = fget h q) /\
  (fget h path <> None -> exists e, r = ([], Err e)).
Proof.
  intros path r. unfold r, create, on_ok. destruct (encrypt_params _ _ _ _ _ _ _) as [e|er].
  2: { split; [intros s q [<-|[]]; reflexivity|]. intros _. eauto. }
  change (match config with [] => config_name | _ :: _ => config end) with path.
  destruct (fget h path) as [n|] eqn:E.
  { split; [intros s q [<-|[]]; reflexivity|]. intros _. eauto. }
  assert (W : forall n s q, In s (write_states h path (ser_enc e) n) -> q <> path \/ fget h q <> None -> fget s q = fget h q).
  { intros n s q Hin Hq. apply in_map_iff in Hin as (i & <- & _). rewrite fget_fput. destruct (bytes_eqb path q) eqn:F; [|reflexivity].
    apply bytes_eqb_eq in F. subst q. destruct Hq as [Hq|Hq]; congruence. }
  split; [|intros Hn; congruence].
  intros s q Hin Hq. destruct (w_create w); [destruct Hin as [<-|[]]; reflexivity|].
  destruct (w_write w) as [[n er]|]; cbn [crash_states fst] in Hin; (destruct Hin as [<-|Hin]; [reflexivity|]); eapply W; eauto.
Qed.
Print Assumptions C50_create.
Example C50_ex :
  let r := create ex_pc fine [] ex_opts (key x03) (key x04) (key x05) (key x06) ex_argon (str "secret") None ex_iv ex_salt ex_dir in
  fget ex_dir config_name <> None /\ r = ([], Err FullFsModel.E_EXIST).
Proof. split; [discriminate|vm_compute; reflexivity]. Qed.

(** But a legacy configuration is not noticed: the new repository is created over the old one,
    whose configuration is from then on no longer looked at. *)
Theorem C50_legacy_refuted C w o r1 r2 r3 r4 a pw kf iv salt h :
  config_path [] h = Ok legacy_config_name ->
  let r := create C w [] o r1 r2 r3 r4 a pw kf iv salt h in
  snd r = Ok tt -> config_path [] (last_state h r) = Ok config_name.
Proof.
  intros _ r H. destruct (create_ok C w [] o r1 r2 r3 r4 a pw kf iv salt h H) as (e & _ & _ & Hl). fold r in Hl. rewrite Hl.
  unfold config_path. rewrite fget_fput. reflexivity.
Qed.
Print Assumptions C50_legacy_refuted.
Example C50_legacy_ex :
  let h := fput [] legacy_config_name (str "{json}") in
  let r := create ex_pc fine [] ex_opts (key x03) (key x04) (key x05) (key x06) ex_argon (str "secret") None ex_iv ex_salt h in
  open_repo ex_pc (ex_json ex_lk1) [] (str "pw") (Some (str "file")) h = Ok ex_legacy_dec /\ snd r = Ok tt /\
  open_repo ex_pc (ex_json ex_lk1) [] (str "pw") (Some (str "file")) (last_state h r) = Err EVerify.
Proof. vm_compute. repeat split. Qed.

(** ** C51: the password given on the command line *)
(** chpass understands its options as the other commands do, unless the option is given as
    the empty string. *)
Theorem C51_passwords pass keyfile ask typed : pass <> Some [] -> chpass_password pass keyfile ask typed = single_password pass keyfile ask typed.
Proof. intros H. unfold chpass_password, single_password. destruct pass as [[|c p]|]; [congruence|reflexivity|reflexivity]. Qed.
Print Assumptions C51_passwords.
Example C51_ex : single_password (Some (str "x")) (Some (str "k")) true (str "typed") = str "x" /\ single_password None (Some (str "k")) false (str "typed") = str " ".
Proof. split; reflexivity. Qed.

(** With --newpass "" and a key file the repository is afterwards not opened by the same
    options: chpass uses the empty password, mount a space. *)
Theorem C51_empty_refuted f file typed : single_password (Some []) (Some (f :: file)) false typed <> chpass_password (Some []) (Some (f :: file)) false typed.
Proof. discriminate. Qed.
Print Assumptions C51_empty_refuted.

(** ** C52: migrating to long names *)
Theorem C52_migrate C json w config pw kf a threshold suffix iv salt h p content d :
  crypto_ok C -> json_ok json -> modest suffix -> is_text suffix -> argon_range a -> length iv = 12 ->
  config_path config h = Ok p -> fget h p = Some (HFile content) -> modest content ->
  open_repo C json config pw kf h = Ok d ->
  let r := migrate_config C json w config pw kf a threshold suffix iv salt h in
  (forall s, In s (crash_states h r) ->
     (forall q, q <> p -> q <> p ++ str ".tmp" -> fget s q = fget h q) /\
     (open_repo C json config pw kf s = Ok d \/
      (snd r = Ok tt /\ exists d2, migrate_params d threshold suffix = Ok d2 /\ open_repo C json config pw kf s = Ok d2))) /\
  (snd r = Ok tt -> exists d2, migrate_params d threshold suffix = Ok d2 /\ open_repo C json config pw kf (last_state h r) = Ok d2) /\
  (forall e, snd r = Err e -> open_repo C json config pw kf (last_state h r) = Ok d).
Proof.
  intros HC HJ Hm Ht Ha Hiv Hp Hf Hmod Ho r.
  assert (Hc : decrypt_config C json content pw kf = Ok d).
  { unfold open_repo in Ho. rewrite Hp in Ho. cbn [rbind] in Ho. unfold read_file in Ho. rewrite Hf in Ho. exact Ho. }
  assert (Er : r = on_ok (migrate_params d threshold suffix) (fun d2 => on_ok (encrypt_params C d2 a pw kf iv salt) (fun e => replace_file w p (p ++ str ".tmp") (ser_enc e) h))).
  { unfold r, migrate_config. rewrite Hp. cbn [on_ok]. unfold read_file. rewrite Hf. cbn [on_ok]. rewrite Hc. reflexivity. }
  clearbody r. destruct (opened_ok _ _ _ _ _ _ HC HJ Hmod Hc) as [Sd Od].
  destruct (migrate_params d threshold suffix) as [d2|er] eqn:Em; cbn [on_ok] in Er.
  2: { subst r. split; [|split]; [intros s [<-|[]]; auto|discriminate|auto]. }
  destruct (migrate_params_ok d threshold suffix d2 Sd Od Hm Ht Em) as [S2 O2].
  assert (Hx : str ".tmp" <> []) by discriminate.
  destruct (rewrite_safe C json w config (str ".tmp") pw kf a pw kf iv salt h p content d d2 r HC Hx Ha Hiv Hp Hf Hc S2 O2 Er) as (R1 & R2 & R3).
  split; [|split].
  - intros s Hin. destruct (R1 s Hin) as [Q [[_ H]|(_ & H1 & H2)]]; (split; [exact Q|]); [left; exact H|right; eauto].
  - intros H. destruct (R2 H) as [H2 _]. eauto.
  - intros e He. destruct (R3 e He) as [H3 _].
    unfold last_state in *. destruct (fst r) as [|s0 l] eqn:El; [exact Ho|].
    destruct (exists_last (l := s0 :: l)) as (l' & x & E); [discriminate|]. rewrite E, last_last in *.
    destruct (R1 x) as [_ [[_ H]|(_ & H1 & _)]]; [|exact H|congruence].
    right. rewrite El. apply in_or_app. right. now left.
Qed.
Print Assumptions C52_migrate.

Definition ex_old_lite := mkDec (Some (mkSize 4096 12 0)) (FLite (mkLite (key x01) (key x02) (key x03) [] None [])).
Definition ex_lite_dir : host :=
  match encrypt_params ex_pc ex_old_lite ex_argon (str "pw") None ex_iv ex_salt with Ok e => fput [] config_name (ser_enc e) | Err _ => [] end.
Definition ex_migrate w h := migrate_config ex_pc no_json w [] (str "pw") None ex_argon 128 (str ".ll") ex_iv ex_salt h.
Example C52_ex :
  open_repo ex_pc no_json [] (str "pw") None ex_lite_dir = Ok ex_old_lite /\ snd (ex_migrate fine ex_lite_dir) = Ok tt /\
  open_repo ex_pc no_json [] (str "pw") None (last_state ex_lite_dir (ex_migrate fine ex_lite_dir)) =
    Ok (mkDec (Some (mkSize 4096 12 0)) (FLite (mkLite (key x01) (key x02) (key x03) [] (Some 128%N) (str ".ll")))).
Proof. vm_compute. repeat split. Qed.

(** But an interrupted migration cannot be repeated: the temporary file has a fixed name and
    is left behind, and from then on every attempt fails and changes nothing. *)
Theorem C52_repeat_refuted C json w config pw kf a threshold suffix iv salt h p :
  config_path config h = Ok p -> fget h (p ++ str ".tmp") <> None ->
  exists e, migrate_config C json w config pw kf a threshold suffix iv salt h = ([], Err e).
Proof.
  intros Hp Ht. unfold migrate_config. rewrite Hp. cbn [on_ok]. destruct (read_file h p) as [c|]; cbn [on_ok]; [|eauto].
  destruct (decrypt_config _ _ _ _ _) as [d|]; cbn [on_ok]; [|eauto]. destruct (migrate_params _ _ _) as [d2|]; cbn [on_ok]; [|eauto].
  destruct (encrypt_params _ _ _ _ _ _ _) as [e|]; cbn [on_ok]; [|eauto]. unfold replace_file. destruct (fget h _); [eauto|congruence].
Qed.
Print Assumptions C52_repeat_refuted.
Example C52_repeat_ex :
  let s := nth 5 (fst (ex_migrate fine ex_lite_dir)) [] in
  config_path [] s = Ok config_name /\ fget s (config_name ++ str ".tmp") <> None /\ ex_migrate fine s = ([], Err FullFsModel.E_EXIST).
Proof. vm_compute. repeat split. discriminate. Qed.
