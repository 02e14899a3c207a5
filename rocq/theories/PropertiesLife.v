(** Property C87: a repository keeps its files through sessions and changes of the password. *)
From Coq Require Import Strings.String ZArith Lia.
From Verif Require Import Base BaseLemmas TextModel TextProofs NameModel NameSpec NameTop StreamSpec CryptoModel BtreeModel LiteModel LiteProofs TableIoModel TableIoProofs ProtoModel ProtoProofs ParamsModel ParamsSpec ParamsProofs PropertiesParams
  MountModel MountSpec MountProofs HandleModel LongNameModel LongNameSpec PropertiesNames LiteTreeSpec LiteTreeProofs LiteTreeTop LiteFsModel LiteFsSpec LiteFsProofs LiteFsTop FullStreamModel FullFsModel FullFsSpec FullFsStep ObjModel ObjProofs
  RepoModel RepoSpec FsConcModel RepoProofs RepoRun RepoAlone RepoPlay PropertiesHandles PropertiesLongNames PropertiesLiteTree PropertiesLiteFs PropertiesMount AttrModel AttrProofs BtreeShape PropertiesFull PropertiesFullFs PropertiesRepo Toy LifeModel LifeSpec LifeProofs.
Local Open Scope nat_scope.
Local Open Scope list_scope.

Lemma after_create C w config o r1 r2 r3 r4 a pw kf iv salt h0 pend : options_ok o -> argon_range a -> length iv = 12 ->
  let r := ParamsModel.create C w config o r1 r2 r3 r4 a pw kf iv salt h0 in snd r = Ok tt ->
  (forall s, In s pend -> length s = 16) -> (forall s, In s pend -> fget h0 ((match config with [] => config_name | _ => config end) ++ hexify s) = None) ->
  holds_config C config (create_params o r1 r2 r3 r4) (pw, kf) pend (last_state h0 r).
Proof.
  intros Ho Ha Hi r Hr Hl Hfree. destruct (create_ok C w config o r1 r2 r3 r4 a pw kf iv salt h0 Hr) as (e & E1 & E2 & E3). fold r in E3. rewrite E3.
  exists e, a, iv, salt. split; [exact E1|]. split; [exact Ha|]. split; [exact Hi|]. split; [now rewrite fget_fput, bytes_eqb_refl|].
  intros s Hs. rewrite fget_fput. destruct (bytes_eqb _ _) eqn:Eq; [|now apply Hfree]. exfalso. apply bytes_eqb_eq in Eq.
  match type of Eq with ?x = ?y => first [apply (app_ne_self x (hexify s)); [now apply hexify_nil, Hl|congruence]|apply (app_ne_self y (hexify s)); [now apply hexify_nil, Hl|congruence]] end.
Qed.
Lemma suffix_lengths {Op} env dec (xs : list (command Op)) : Forall (command_ok env dec) xs -> forall s, In s (suffixes xs) -> length s = 16.
Proof.
  intros H s Hs. apply in_flat_map in Hs as (y & Hy1 & Hy2). rewrite Forall_forall in H. specialize (H y Hy1). destruct y; [|destruct Hy2]. destruct Hy2 as [<-|[]]. apply H.
Qed.

(** Lite format: whoever has the password is served by one plain file system that goes on
    from session to session, through any changes of the password, whether they succeed,
    fail or are killed at any moment. *)
Theorem C87_lite : forall C json env dec handle W w config o t sfx r1 r2 r3 r4 a pw kf iv salt h0 names xs,
  crypto_ok C -> options_ok o -> o_format o = CLite t sfx -> Forall (fun r => length r = 32) [r1; r2; r3; r4] -> argon_range a -> length iv = 12 ->
  (forall z, short_text (dec z)) -> is_int64 handle ->
  sizes_ok (lw_cmac W r1) (lw_stream W r1) (lw_blake W r1) -> (0 < N.to_nat t -> suffix_ok (suffix_in_force sfx)) ->
  lite_env_ok (lw_aead W) (N.to_nat (o_block_size o)) (N.to_nat (o_iv_size o)) (lw_rnd W) (lw_fuel W) -> (forall k id, lw_padding W k 0 id = 0) ->
  names_fit (lw_blake W r1) false (N.to_nat t) names ->
  let r := ParamsModel.create C w config o r1 r2 r3 r4 a pw kf iv salt h0 in snd r = Ok tt ->
  Forall (command_ok env dec) xs -> NoDup (suffixes xs) ->
  (forall s, In s (suffixes xs) -> fget h0 ((match config with [] => config_name | _ => config end) ++ hexify s) = None) ->
  no_accident C json (create_params o r1 r2 r3 r4) ((pw, kf) :: used_secrets xs) ->
  lived C vop vout pfs (lite_session (lw_link_max W)) (lite_proper (N.to_nat (o_block_size o)) (lw_link_max W) t names) (pw, kf) pf_empty xs
    (life C json config env dec handle lst vop vout (lite_serve W) xs (last_state h0 r, ls_empty)).
Proof.
  intros C json env dec handle W w config o t sfx r1 r2 r3 r4 a pw kf iv salt h0 names xs HC Ho Hf HK Ha Hi Hdec Hh (Z1 & Z2 & Z3) Hsfx HE Hpad Hfit r Hr Hok Hnd Hfree Hno.
  assert (Hd : storable (create_params o r1 r2 r3 r4)) by now apply create_params_storable.
  assert (HP : (0 <? o_max_padding o)%N = false -> forall id, lw_padding W r4 (o_max_padding o) id = 0).
  { intros Hz id. apply N.ltb_ge in Hz. replace (o_max_padding o) with 0%N by lia. apply Hpad. }
  pose (bs := N.to_nat (o_block_size o)). pose (ivs := N.to_nat (o_iv_size o)). pose (th := N.to_nat t).
  pose (tr := make_translator (lw_cmac W r1) (lw_stream W r1) (lw_blake W r1) false th sfx None None).
  pose (RRn := LiteTreeProofs.R (LiteTreeTop.phys (lw_cmac W r1) (lw_stream W r1) (lw_blake W r1) false th sfx) (LiteTreeTop.occ names) (LiteTreeTop.tab false th names)).
  refine (life_lived C json config env dec handle lst vop vout pfs (lite_serve W) (lite_session (lw_link_max W)) (lite_proper (N.to_nat (o_block_size o)) (lw_link_max W) t names) (create_params o r1 r2 r3 r4)
    (LR (lw_aead W) bs ivs true (lw_session W r2) (lw_padding W r4 (o_max_padding o)) tr (lw_link_max W) RRn (linkable false th)) HC Hd _ _ ((pw, kf) :: used_secrets xs) xs (pw, kf) _ _ pf_empty _ _ _ _ _ _ _).
  - intros c s disk p ops Hc Hm HR (P1 & P2 & P3).
    destruct (mount_lite env dec handle Hdec Hh o r1 r2 r3 r4 HK Hd t sfx c Hf Hc) as (s' & x & E1 & E2). rewrite Hm in E1. injection E1 as <-. rewrite E2.
    unfold lite_serve. set (l := lite_made o r1 r2 r3 r4 t sfx x).
    destruct (history_from (lw_cmac W r1) (lw_stream W r1) (lw_blake W r1) Z1 Z2 Z3 false th sfx (fun _ => Hsfx) names Hfit (lw_aead W) bs ivs true (lw_sparse W) (lw_session W r2)
      (lw_padding W r4 (o_max_padding o)) (0 <? o_max_padding o)%N (lw_rnd W) (lw_fuel W) HE HP (lw_link_max W) ops disk p HR P1 P2 P3) as (p' & H1 & H2).
    pose proof (remount_from (lw_cmac W r1) (lw_stream W r1) (lw_blake W r1) Z1 Z2 Z3 false th sfx (fun _ => Hsfx) names Hfit (lw_aead W) bs ivs true (lw_sparse W) (lw_session W r2)
      (lw_padding W r4 (o_max_padding o)) (0 <? o_max_padding o)%N (lw_rnd W) (lw_fuel W) HE HP (lw_link_max W) _ _ H2) as H3.
    change (v_step (lw_aead W) bs ivs true (lw_sparse W) (lw_session W r2) (lw_padding W r4 (o_max_padding o)) (0 <? o_max_padding o)%N (lw_rnd W) (lw_fuel W)
      (make_translator (lw_cmac W r1) (lw_stream W r1) (lw_blake W r1) false th sfx None None) (lw_link_max W)) with (lite_call W l) in H1, H2, H3.
    destruct (run_ops (lite_call W l) disk ops) as [d' outs]. cbn [fst snd] in *. exists outs, (fst (p_step p' LiteFsModel.VRemount)), (fst (lite_call W l d' LiteFsModel.VRemount)).
    split; [reflexivity|]. split; [|exact H3]. exists p'. split; [exact H1|reflexivity].
  - intros c Hc. destruct (mount_lite env dec handle Hdec Hh o r1 r2 r3 r4 HK Hd t sfx c Hf Hc) as (s' & x & E1 & _). eauto.
  - apply after_create; auto. now apply (suffix_lengths env dec).
  - apply (LR_empty (lw_aead W) bs ivs true (lw_session W r2) (lw_padding W r4 (o_max_padding o)) _ HP). apply R_empty.
  - exact Hnd.
  - exact Hok.
  - now left.
  - intros z Hz. now right.
  - exact Hno.
Qed.
Print Assumptions C87_lite.
(** With no names over the threshold and no links too long for the host nothing is refused
    that a plain file system allows: the answers are exactly its answers. *)
Theorem C87_lite_exact : forall C json env dec handle W w config o t sfx r1 r2 r3 r4 a pw kf iv salt h0 names xs,
  crypto_ok C -> options_ok o -> o_format o = CLite t sfx -> Forall (fun r => length r = 32) [r1; r2; r3; r4] -> argon_range a -> length iv = 12 ->
  (forall z, short_text (dec z)) -> is_int64 handle ->
  sizes_ok (lw_cmac W r1) (lw_stream W r1) (lw_blake W r1) -> (0 < N.to_nat t -> suffix_ok (suffix_in_force sfx)) ->
  lite_env_ok (lw_aead W) (N.to_nat (o_block_size o)) (N.to_nat (o_iv_size o)) (lw_rnd W) (lw_fuel W) -> (forall k id, lw_padding W k 0 id = 0) ->
  names_fit (lw_blake W r1) false (N.to_nat t) names ->
  no_long_names false (N.to_nat t) names ->
  let r := ParamsModel.create C w config o r1 r2 r3 r4 a pw kf iv salt h0 in snd r = Ok tt ->
  Forall (command_ok env dec) xs -> NoDup (suffixes xs) ->
  (forall s, In s (suffixes xs) -> fget h0 ((match config with [] => config_name | _ => config end) ++ hexify s) = None) ->
  no_accident C json (create_params o r1 r2 r3 r4) ((pw, kf) :: used_secrets xs) ->
  lived C vop vout pfs lite_session_exact (lite_proper_exact (N.to_nat (o_block_size o)) (lw_link_max W) t names) (pw, kf) pf_empty xs
    (life C json config env dec handle lst vop vout (lite_serve W) xs (last_state h0 r, ls_empty)).
Proof.
  intros C json env dec handle W w config o t sfx r1 r2 r3 r4 a pw kf iv salt h0 names xs HC Ho Hf HK Ha Hi Hdec Hh (Z1 & Z2 & Z3) Hsfx HE Hpad Hfit HL r Hr Hok Hnd Hfree Hno.
  assert (Hd : storable (create_params o r1 r2 r3 r4)) by now apply create_params_storable.
  assert (HP : (0 <? o_max_padding o)%N = false -> forall id, lw_padding W r4 (o_max_padding o) id = 0).
  { intros Hz id. apply N.ltb_ge in Hz. replace (o_max_padding o) with 0%N by lia. apply Hpad. }
  assert (Ht : LiteTreeTop.tab false (N.to_nat t) names = false).
  { unfold LiteTreeTop.tab. destruct HL as [HL|[->|HL]]; [discriminate|reflexivity|].
    destruct (existsb (fun n => N.to_nat t <? length n) names) eqn:E; [|apply Bool.andb_false_r]. exfalso. apply existsb_exists in E as (n & Hn & E).
    rewrite Forall_forall in HL. specialize (HL n Hn). apply Nat.ltb_lt in E. lia. }
  pose (bs := N.to_nat (o_block_size o)). pose (ivs := N.to_nat (o_iv_size o)). pose (th := N.to_nat t).
  pose (tr := make_translator (lw_cmac W r1) (lw_stream W r1) (lw_blake W r1) false th sfx None None).
  pose (RRn := LiteTreeProofs.R (LiteTreeTop.phys (lw_cmac W r1) (lw_stream W r1) (lw_blake W r1) false th sfx) (LiteTreeTop.occ names) (LiteTreeTop.tab false th names)).
  refine (life_lived C json config env dec handle lst vop vout pfs (lite_serve W) lite_session_exact (lite_proper_exact (N.to_nat (o_block_size o)) (lw_link_max W) t names) (create_params o r1 r2 r3 r4)
    (LR (lw_aead W) bs ivs true (lw_session W r2) (lw_padding W r4 (o_max_padding o)) tr (lw_link_max W) RRn (linkable false th)) HC Hd _ _ ((pw, kf) :: used_secrets xs) xs (pw, kf) _ _ pf_empty _ _ _ _ _ _ _).
  - intros c s disk p ops Hc Hm HR (P1 & P2 & P3 & P4).
    destruct (mount_lite env dec handle Hdec Hh o r1 r2 r3 r4 HK Hd t sfx c Hf Hc) as (s' & x & E1 & E2). rewrite Hm in E1. injection E1 as <-. rewrite E2.
    unfold lite_serve. set (l := lite_made o r1 r2 r3 r4 t sfx x).
    destruct (same_from (lw_cmac W r1) (lw_stream W r1) (lw_blake W r1) Z1 Z2 Z3 false th sfx (fun _ => Hsfx) names Hfit (lw_aead W) bs ivs true (lw_sparse W) (lw_session W r2)
      (lw_padding W r4 (o_max_padding o)) (0 <? o_max_padding o)%N (lw_rnd W) (lw_fuel W) HE HP (lw_link_max W) ops disk p HR P1 P2 Ht P3 P4) as (H1 & H2).
    pose proof (remount_from (lw_cmac W r1) (lw_stream W r1) (lw_blake W r1) Z1 Z2 Z3 false th sfx (fun _ => Hsfx) names Hfit (lw_aead W) bs ivs true (lw_sparse W) (lw_session W r2)
      (lw_padding W r4 (o_max_padding o)) (0 <? o_max_padding o)%N (lw_rnd W) (lw_fuel W) HE HP (lw_link_max W) _ _ H2) as H3.
    change (v_step (lw_aead W) bs ivs true (lw_sparse W) (lw_session W r2) (lw_padding W r4 (o_max_padding o)) (0 <? o_max_padding o)%N (lw_rnd W) (lw_fuel W)
      (make_translator (lw_cmac W r1) (lw_stream W r1) (lw_blake W r1) false th sfx None None) (lw_link_max W)) with (lite_call W l) in H1, H2, H3.
    destruct (run_ops (lite_call W l) disk ops) as [d' outs]. cbn [fst snd] in *. exists outs, (fst (p_step (fst (run_ops p_step p ops)) LiteFsModel.VRemount)), (fst (lite_call W l d' LiteFsModel.VRemount)).
    split; [reflexivity|]. split; [|exact H3]. split; [exact H1|reflexivity].
  - intros c Hc. destruct (mount_lite env dec handle Hdec Hh o r1 r2 r3 r4 HK Hd t sfx c Hf Hc) as (s' & x & E1 & _). eauto.
  - apply after_create; auto. now apply (suffix_lengths env dec).
  - apply (LR_empty (lw_aead W) bs ivs true (lw_session W r2) (lw_padding W r4 (o_max_padding o)) _ HP). apply R_empty.
  - exact Hnd.
  - exact Hok.
  - now left.
  - intros z Hz. now right.
  - exact Hno.
Qed.
Print Assumptions C87_lite_exact.

(** Full format: the same, with the map from ids to inodes as the plain file system. *)
Theorem C87_full : forall C json env dec handle W w config o nocase nonorm r1 r2 r3 r4 a pw kf iv salt h0 xs,
  crypto_ok C -> options_ok o -> o_format o = CFull nocase nonorm -> Forall (fun r => length r = 32) [r1; r2; r3; r4] -> argon_range a -> length iv = 12 ->
  (forall z, short_text (dec z)) -> is_int64 handle ->
  let E := full_env W (full_of o r1 nocase nonorm) in let cmp := fw_compare W (compare_of nocase nonorm) in senv_ok E ->
  let r := ParamsModel.create C w config o r1 r2 r3 r4 a pw kf iv salt h0 in snd r = Ok tt ->
  Forall (command_ok env dec) xs -> NoDup (suffixes xs) ->
  (forall s, In s (suffixes xs) -> fget h0 ((match config with [] => config_name | _ => config end) ++ hexify s) = None) ->
  no_accident C json (create_params o r1 r2 r3 r4) ((pw, kf) :: used_secrets xs) ->
  lived C rop (res fout) (list fop) (full_session cmp) (full_proper E cmp) (pw, kf) [] xs
    (life C json config env dec handle (list (bytes * rfile) * nat) rop (res fout) (full_serve W) xs (last_state h0 r, ([], 0))).
Proof.
  intros C json env dec handle W w config o nocase nonorm r1 r2 r3 r4 a pw kf iv salt h0 xs HC Ho Hf HK Ha Hi Hdec Hh E cmp HE r Hr Hok Hnd Hfree Hno.
  assert (Hcmp : v_cmp E = cmp) by (cbn [v_cmp E full_env full_of ff_compare]; reflexivity).
  assert (Hd : storable (create_params o r1 r2 r3 r4)) by now apply create_params_storable.
  refine (life_lived C json config env dec handle _ rop (res fout) (list fop) (full_serve W) (full_session cmp) (full_proper E cmp) (create_params o r1 r2 r3 r4)
    (full_rel E) HC Hd _ _ ((pw, kf) :: used_secrets xs) xs (pw, kf) _ _ [] _ _ _ _ _ _ _).
  - intros c s disk p ops Hc Hm HR HP.
    destruct (mount_full env dec handle Hdec Hh o r1 r2 r3 r4 HK Hd nocase nonorm c Hf Hc) as (s' & x & u & g & E1 & E2). rewrite Hm in E1. injection E1 as <-. rewrite E2.
    unfold full_serve. change (full_env W (full_made o r1 nocase nonorm x u g)) with E. destruct (full_session_ok E HE disk p ops HR HP) as (p' & H1 & H2). destruct HR as (H3 & _).
    destruct (RepoModel.mount E (fst disk) (snd disk)) as [rp rr]. cbn [fst snd] in *. rewrite H3. do 3 eexists. split; [reflexivity|]. split; [exact H1|exact H2].
  - intros c Hc. destruct (mount_full env dec handle Hdec Hh o r1 r2 r3 r4 HK Hd nocase nonorm c Hf Hc) as (s' & x & u & g & E1 & _). eauto.
  - apply after_create; auto. now apply (suffix_lengths env dec).
  - now apply full_start.
  - exact Hnd.
  - exact Hok.
  - now left.
  - intros z Hz. now right.
  - exact Hno.
Qed.
Print Assumptions C87_full.

(** ** A story *)
(** Passwords of which the first 16 letters tell them apart are no accident for the library
    of the examples. *)
Lemma ex_no_accident json d used : storable d -> Forall (fun s => 16 <= length (fst s)) used ->
  (forall s s', In s used -> In s' used -> firstn 16 (fst s) = firstn 16 (fst s') -> s' = s) -> no_accident ex_pc json d used.
Proof.
  intros Hd Hl Hu s s' a iv salt e d' Hs Hs' Ha Hi He Hdec. apply Hu; [exact Hs|exact Hs'|]. rewrite Forall_forall in Hl. pose proof (Hl _ Hs) as L1. pose proof (Hl _ Hs') as L2. cbn beta in L1, L2.
  unfold decrypt_config in Hdec. rewrite parse_ser_enc in Hdec by (apply (encrypted_enc_ok ex_pc d a (fst s) (snd s) iv salt e ex_pc_ok (storable_weak _ Hd) Ha Hi He)).
  apply encrypt_inv in He as (k & Hk & Hsalt & ->). unfold decrypt_params in Hdec. destruct (password_key ex_pc _ (fst s') (snd s')) as [k'|] eqn:Ek'; [|discriminate Hdec]. cbn [rbind] in Hdec.
  assert (K : forall x pw kf k0, password_key ex_pc x pw kf = Ok k0 -> 16 <= length pw -> firstn 16 k0 = firstn 16 pw /\ 16 <= length k0).
  { intros x pw kf k0 H0 HL. apply password_key_gives in H0 as [_ H0]. cbn [ex_pc c_argon2id] in H0. destruct (_ =? 0)%N; [discriminate H0|]. unfold ex_kdf in H0.
    match type of H0 with Some ?v = _ => assert (Hv : k0 = v) by congruence; rewrite Hv; clear H0 Hv end.
    rewrite firstn_firstn, firstn_length, !app_length, zeros_length. change (Nat.min 16 32) with 16. rewrite firstn_app. replace (16 - length pw) with 0 by lia. rewrite app_nil_r. split; [reflexivity|lia]. }
  destruct (K _ _ _ _ Hk L1) as [K1 K2]. destruct (K _ _ _ _ Ek' L2) as [K3 K4]. cbn [e_iv e_ct e_mac] in Hdec. unfold gcm_open in Hdec. rewrite Hi in Hdec. cbn [Nat.ltb Nat.leb] in Hdec.
  assert (T : forall k0 iv0 aad ct, 16 <= length k0 -> c_tag ex_pc k0 iv0 aad ct = firstn 16 k0).
  { intros k0 iv0 aad ct H0. cbn [ex_pc c_tag]. unfold ex_tag. rewrite firstn_app. replace (16 - length k0) with 0 by lia. now rewrite app_nil_r. }
  rewrite !T in Hdec by assumption. assert (L16 : length (firstn 16 k) = 16) by (rewrite firstn_length; lia). rewrite L16 in Hdec. cbn [Nat.ltb Nat.leb] in Hdec. rewrite firstn_firstn in Hdec. change (Nat.min 16 16) with 16 in Hdec.
  destruct (bytes_eqb (firstn 16 k) (firstn 16 k')) eqn:Eq; [|discriminate Hdec]. apply bytes_eqb_eq in Eq. congruence.
Qed.

Definition ex_cl_here (back : bool) : cmdline :=
  mkCl (str "/usr/bin/securefs") (str "/data") (str "/mnt") false back false false false false [str "allow_other"]
    (str "securefs") (str "securefs") false (str "auto") (str "none") 30 false 1000 (-1) false 60.
Lemma ex_usual back : usual ex_env ex_dec (ex_cl_here back).
Proof.
  unfold usual. cbn [cl_insecure cl_plain cl_normalization cl_use_ino cl_background cl_noflock ex_cl_here]. repeat (split; [reflexivity|]).
  split; [right; right; split; [reflexivity|eexists; reflexivity]|]. intros _. split; [reflexivity|]. destruct C58_ex as (H & _). exact H.
Qed.
Definition alice : secrets := (str "the first long password", None).
Definition bob : secrets := (str "another password of some length", Some (str "a key file")).
Definition sfx (b : byte) : bytes := repeat b 16.
Section Story.
Context {Op : Type}.
Variables first again last : list Op.
(** Files are written; somebody with the wrong password can neither change it nor mount; a
    change is killed while the new configuration is written; the host has no space for
    another; then one succeeds, the old password is refused and the new one finds the files. *)
Definition ex_life : list (command Op) :=
  [CMount Op alice (ex_cl_here false) first;
   CChpass Op fine (sfx x01) bob ex_argon alice ex_iv ex_salt None;
   CMount Op bob (ex_cl_here true) again;
   CChpass Op fine (sfx x02) alice ex_argon bob ex_iv ex_salt (Some 9);
   CMount Op alice (ex_cl_here true) again;
   CChpass Op (mkWeather None (Some (5, EPosix 28)) None false) (sfx x03) alice ex_argon bob ex_iv ex_salt None;
   CMount Op alice (ex_cl_here true) again;
   CChpass Op fine (sfx x04) alice ex_argon bob ex_iv ex_salt None;
   CMount Op alice (ex_cl_here true) again;
   CMount Op bob (ex_cl_here false) last].
Lemma ex_life_ok : Forall (command_ok ex_env ex_dec) ex_life /\ NoDup (suffixes ex_life) /\ forall json d, storable d -> no_accident ex_pc json d (alice :: used_secrets ex_life).
Proof.
  split; [|split].
  - unfold ex_life. repeat (apply Forall_cons; [first [exact (ex_usual _)|split; [reflexivity|split; [|reflexivity]]; vm_compute; repeat split; reflexivity]|]). apply Forall_nil.
  - cbn [suffixes ex_life flat_map app]. repeat (apply NoDup_cons; [intros H; cbn [In] in H; repeat (destruct H as [H|H]; [discriminate H|]); exact H|]). apply NoDup_nil.
  - intros json d Hd. apply ex_no_accident; [exact Hd| |].
    + apply Forall_forall. intros s H. cbn [used_secrets ex_life flat_map app In] in H. repeat (destruct H as [<-|H]; [apply Nat.leb_le; reflexivity|]). destruct H.
    + assert (Two : forall s, In s (alice :: used_secrets ex_life) -> s = alice \/ s = bob).
      { intros s H. cbn [used_secrets ex_life flat_map app In] in H. repeat (destruct H as [<-|H]; [auto|]). destruct H. }
      intros s s' H1 H2. destruct (Two s H1) as [->| ->], (Two s' H2) as [->| ->]; intros H; try reflexivity; apply (f_equal (hd x00)) in H; discriminate H.
Qed.
End Story.

Definition ex_lopts := mkCreate 12 32 0 (CLite 10 (str ".ll")).
Definition ex_lw : lite_world :=
  mkLw (fun k m => ex_cmac (m ++ k)) (fun k iv n => repeat (hd x00 k) n) (fun k m => ex_blake (k ++ m)) (fun b => Ok b) (fun b => Ok b) keyed_aead (fun k id => k ++ id) (fun k n id => N.to_nat n)
    toy_rnd 2 true 4095.
Definition ex_lfirst : list vop :=
  [VMkdir (str "/d") None; VOpen (str "/d/a long file name") true true false 1 None; LiteFsModel.VIo 1 (SWrite 30 (str "hello")); VSymlink (str "../elsewhere") (str "/s") None].
Definition ex_lagain : list vop := [VGetattr (str "/d/a long file name")].
Definition ex_llast : list vop := [LiteFsModel.VIo 1 SSize; VOpen (str "/d/a long file name") false false false 2 None; LiteFsModel.VIo 2 (SRead 28 100); VReadlink (str "/s") 4097].
Definition ex_lnames : list bytes := v_names (ex_lfirst ++ ex_lagain ++ ex_llast).
Definition ex_made := ParamsModel.create ex_pc fine [] ex_lopts (key x03) (key x04) (key x05) (key x06) ex_argon (fst alice) (snd alice) ex_iv ex_salt [].

Example C87_lite_example :
  options_ok ex_lopts /\ sizes_ok (lw_cmac ex_lw (key x03)) (lw_stream ex_lw (key x03)) (lw_blake ex_lw (key x03)) /\
  lite_env_ok (lw_aead ex_lw) 32 12 (lw_rnd ex_lw) (lw_fuel ex_lw) /\ names_fit (lw_blake ex_lw (key x03)) false 10 ex_lnames /\
  snd ex_made = Ok tt /\ lite_proper 32 4095 10 ex_lnames pf_empty ex_lfirst /\
  life ex_pc no_json [] ex_env ex_dec 5 lst vop vout (lite_serve ex_lw) (ex_life ex_lfirst ex_lagain ex_llast) (last_state [] ex_made, ls_empty) =
    [SServed vout (Ok [VRes (Ok tt); VRes (Ok tt); VData ODone; VRes (Ok tt)]);
     SDone vout (Err EVerify); SServed vout (Err EVerify); SKilled vout;
     SServed vout (Ok [VAttr (Ok (AReg 0 35))]); SDone vout (Err (EPosix 28)); SServed vout (Ok [VAttr (Ok (AReg 0 35))]);
     SDone vout (Ok tt); SServed vout (Err EVerify);
     SServed vout (Ok [VData (OFail EBADF); VRes (Ok tt); VData (OData ([x00; x00] ++ str "hello")); VText (Ok (str "../elsewhere"))])].
Proof.
  assert (H : 1000 <= lite_max_blocks) by (apply lite_over_max_inv; vm_compute; reflexivity).
  split; [|split; [|split; [exact keyed_env|split; [apply no_collision_b; vm_compute; reflexivity|split; [vm_compute; reflexivity|split]]]]].
  - unfold options_ok, ex_lopts, is_u32, modest. cbn [o_iv_size o_block_size o_max_padding o_format]. do 5 (split; [reflexivity|]).
    apply ascii_text, asciib_ok. reflexivity.
  - destruct ex_sizes as (H1 & _ & H3). split; [|split]; intros; cbn [ex_lw lw_cmac lw_stream lw_blake]; [apply H1|apply repeat_length|apply H3].
  - split; [unfold ex_lfirst; vfuse|]. split; [unfold ex_lnames, v_names; rewrite !flat_map_app; apply incl_appl, incl_refl|]. apply (all_proper_ok 1000); [lia|vm_compute; reflexivity].
  - vm_compute. reflexivity.
Qed.

(** With short names. *)
Definition ex_sfirst : list vop :=
  [VMkdir (str "/d") None; VOpen (str "/d/a") true true false 1 None; LiteFsModel.VIo 1 (SWrite 30 (str "hello")); VSymlink (str "../elsewhere") (str "/s") None].
Definition ex_slast : list vop := [VRename (str "/d/a") (str "/b") None; VOpen (str "/b") false false false 2 None; LiteFsModel.VIo 2 (SRead 28 100); VReadlink (str "/s") 4097].
Definition ex_snames : list bytes := v_names (ex_sfirst ++ ex_slast).
Example C87_lite_exact_example :
  names_fit (lw_blake ex_lw (key x03)) false 10 ex_snames /\ no_long_names false 10 ex_snames /\ lite_proper_exact 32 4095 10 ex_snames pf_empty ex_sfirst /\
  lite_proper_exact 32 4095 10 ex_snames (fst (p_step (fst (run_ops p_step pf_empty ex_sfirst)) LiteFsModel.VRemount)) ex_slast /\
  life ex_pc no_json [] ex_env ex_dec 5 lst vop vout (lite_serve ex_lw) (ex_life ex_sfirst [] ex_slast) (last_state [] ex_made, ls_empty) =
    [SServed vout (Ok [VRes (Ok tt); VRes (Ok tt); VData ODone; VRes (Ok tt)]);
     SDone vout (Err EVerify); SServed vout (Err EVerify); SKilled vout;
     SServed vout (Ok []); SDone vout (Err (EPosix 28)); SServed vout (Ok []);
     SDone vout (Ok tt); SServed vout (Err EVerify);
     SServed vout (Ok [VRes (Ok tt); VRes (Ok tt); VData (OData ([x00; x00] ++ str "hello")); VText (Ok (str "../elsewhere"))])].
Proof.
  assert (H : 1000 <= lite_max_blocks) by (apply lite_over_max_inv; vm_compute; reflexivity).
  assert (HS : forall ops, forallb (fun op => match op with VSymlink t _ _ => 30 * S (length t) <=? 4095 | _ => true end) ops = true -> short_links 4095 ops).
  { intros ops Ho. apply Forall_forall. intros op Hop. rewrite forallb_forall in Ho. specialize (Ho op Hop). destruct op; try exact I. now apply Nat.leb_le. }
  split; [apply no_collision_b; vm_compute; reflexivity|]. split; [right; right; apply Forall_forall; intros n Hn; apply Nat.leb_le; revert n Hn; apply forallb_forall; vm_compute; reflexivity|].
  split; [|split; [|vm_compute; reflexivity]].
  - split; [unfold ex_sfirst; vfuse|]. split; [unfold ex_snames, v_names; rewrite !flat_map_app; apply incl_appl, incl_refl|]. split; [apply HS; vm_compute; reflexivity|].
    apply (run_proper_ok 1000); [lia|vm_compute; reflexivity].
  - split; [unfold ex_slast; vfuse|]. split; [unfold ex_snames, v_names; rewrite !flat_map_app; apply incl_appr, incl_refl|]. split; [apply HS; vm_compute; reflexivity|].
    apply (run_proper_ok 1000); [lia|vm_compute; reflexivity].
Qed.

(** Full format. *)
Definition ex_fopts := mkCreate 12 4096 0 (CFull false false).
Definition ex_fw : full_world :=
  mkFw (toy_aead ([], [], [])) toy_hmac (fun k id => firstn 3 id ++ firstn 2 k) (fun k id => firstn 3 id ++ firstn 1 k) (fun _ n id => N.to_nat n) (fun _ => binary_compare)
    toy_rnd 2 true (fun n => repeat (n2b n) BLOCK_SIZE) 1000 1000 (fun k => AttrModel.mkTs (Z.of_nat (k mod 1000)) 5).
Definition ex_fE : senv := full_env ex_fw (full_of ex_fopts (key x03) false false).
Lemma ex_fE_ok : senv_ok ex_fE.
Proof.
  pose proof (toy_full_env ([], [], [])) as [F1 F2 F3 F4 F5 F6]. constructor; cbn [v_aead v_hmac v_bs v_iv v_rnd v_fuel v_cmp v_junk v_pad v_clock v_uid v_gid ex_fE full_env full_of ff_block ff_iv ff_padding ff_verify ff_compare ff_master ff_store_time ex_fopts o_block_size o_iv_size o_max_padding ex_fw fw_aead fw_hmac fw_padding fw_compare fw_rnd fw_fuel fw_junk fw_uid fw_gid fw_clock].
  - change (N.to_nat 4096) with 4096. change (N.to_nat 12) with 12. constructor; try assumption. lia.
  - exact binary_compare_ok.
  - intros n. apply repeat_length.
  - intros id. change full_max_blocks_N with 1073741824%N. change (N.of_nat (N.to_nat 4096)) with 4096%N. change (N.of_nat (N.to_nat 0)) with 0%N. lia.
  - intros k. unfold AttrProofs.ts_in_range. cbn [AttrModel.tv_sec AttrModel.tv_nsec]. pose proof (Nat.mod_upper_bound k 1000 ltac:(lia)). split; [|reflexivity]. lia.
  - reflexivity.
  - reflexivity.
Qed.
Definition ex_ffirst : list rop :=
  [OCall (FMkdir (str "/d") 493 (xid x01) None); OCall (FCreate (str "/d/f") 420 (xid x02) None); OIo (IWrite (xid x02) 3 (str "hello")); OCall (FClose (xid x02) false)].
Definition ex_fagain : list rop := [OCall (FGetattr (str "/d/f"))].
Definition ex_flast : list rop := [OCall (FOpen (str "/d/f") false); OIo (IRead (xid x02) 0 100); OCall (FClose (xid x02) false); OCall (FUnlink (str "/d/f"))].
Definition ex_fmade := ParamsModel.create ex_pc fine [] ex_fopts (key x03) (key x04) (key x05) (key x06) ex_argon (fst alice) (snd alice) ex_iv ex_salt [].
Example C87_full_example :
  options_ok ex_fopts /\ senv_ok ex_fE /\ snd ex_fmade = Ok tt /\ full_proper ex_fE (v_cmp ex_fE) [] ex_ffirst /\
  life ex_pc no_json [] ex_env ex_dec 5 (list (bytes * rfile) * nat) rop (res fout) (full_serve ex_fw) (ex_life ex_ffirst ex_fagain ex_flast) (last_state [] ex_fmade, ([], 0)) =
    [SServed _ (Ok [Ok FOUnit; Ok (FOId (xid x02)); Ok FOUnit; Ok FOUnit]);
     SDone _ (Err EVerify); SServed _ (Err EVerify); SKilled _;
     SServed _ (Ok [Ok (FOStat (xid x02) (420 + TREG * 4096) 1 8)]); SDone _ (Err (EPosix 28)); SServed _ (Ok [Ok (FOStat (xid x02) (420 + TREG * 4096) 1 8)]);
     SDone _ (Ok tt); SServed _ (Err EVerify);
     SServed _ (Ok [Ok (FOId (xid x02)); Ok (FOBytes ([x00; x00; x00] ++ str "hello")); Ok FOUnit; Ok FOUnit])].
Proof.
  split; [|split; [exact ex_fE_ok|split; [vm_compute; reflexivity|split]]].
  - unfold options_ok, ex_fopts, is_u32. cbn [o_iv_size o_block_size o_max_padding o_format]. do 3 (split; [reflexivity|]). exact I.
  - split; [|split].
    + apply (may_runb_ok ex_fE 4); [intros id; cbn; lia|vm_compute; reflexivity].
    + apply careful_run_b_ok; [exact binary_compare_ok|exact (new_repo_Inv binary_compare)|vm_compute; reflexivity|vm_compute; reflexivity].
    + vm_compute. reflexivity.
  - vm_compute. reflexivity.
Qed.
