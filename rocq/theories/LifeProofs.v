(** Proofs about the life of a repository. *)
From Coq Require Import Strings.String ZArith Lia.
From Verif Require Import Base BaseLemmas TextModel TextProofs NameModel NameSpec NameTop StreamSpec CryptoModel LiteModel LiteProofs TableIoModel TableIoProofs ProtoModel ProtoProofs ParamsModel ParamsSpec ParamsProofs
  MountModel MountSpec MountProofs HandleModel LongNameModel LongNameSpec LiteTreeSpec LiteTreeProofs LiteTreeTop LiteFsModel LiteFsSpec LiteFsProofs LiteFsTop FullStreamModel FullFsModel FullFsSpec FullFsStep ObjModel ObjProofs
  RepoModel RepoSpec FsConcModel RepoProofs RepoRun RepoAlone LifeModel LifeSpec.
Local Open Scope list_scope.

Definition secrets_dec (s s' : secrets) : {s = s'} + {s <> s'}.
Proof.
  assert (B : forall a b : bytes, {a = b} + {a <> b}) by (apply list_eq_dec, Byte.byte_eq_dec).
  destruct s as [a x], s' as [b y]. destruct (B a b) as [->|N]; [|right; congruence].
  destruct x as [x|], y as [y|]; try (right; congruence); [|left; reflexivity]. destruct (B x y) as [->|N]; [left; reflexivity|right; congruence].
Defined.

Section Generic.
Variable C : pcrypto.
Variable json : bytes -> option legacy_params.
Variable config : bytes.
Variable env : environment.
Variable dec : Z -> bytes.
Variable handle : Z.
Variables Disk Op Ans P : Type.
Variable serve : file_system -> Disk -> list Op -> Disk * res (list Ans).
Variable session : P -> list Op -> list Ans -> P -> Prop.
Variable proper : P -> list Op -> Prop.
Variable d : dec_params.
Variable R : Disk -> P -> Prop.
Hypothesis HC : crypto_ok C.
Hypothesis Hd : storable d.
Hypothesis serve_ok : forall c s disk p ops, usual env dec c -> MountModel.mount env dec handle d c = Ok s -> R disk p -> proper p ops ->
  exists outs p' disk', serve (s_fs s) disk ops = (disk', Ok outs) /\ session p ops outs p' /\ R disk' p'.
Hypothesis mount_ok : forall c, usual env dec c -> exists s, MountModel.mount env dec handle d c = Ok s.

Notation path := (match config with [] => config_name | _ => config end).
Definition holds_config (s : secrets) (pend : list bytes) (h : host) : Prop :=
  exists e a iv salt, encrypt_params C d a (fst s) (snd s) iv salt = Ok e /\ argon_range a /\ length iv = 12 /\
    fget h path = Some (HFile (ser_enc e)) /\ forall sfx, In sfx pend -> fget h (path ++ hexify sfx) = None.

Lemma config_there h x : fget h path = Some x -> config_path config h = Ok path.
Proof. unfold config_path. destruct config as [|c l]; [|reflexivity]. now intros ->. Qed.
Lemma open_it s pend h who : holds_config s pend h -> exists e a iv salt, encrypt_params C d a (fst s) (snd s) iv salt = Ok e /\ argon_range a /\ length iv = 12 /\
  open_repo C json config (fst who) (snd who) h = decrypt_config C json (ser_enc e) (fst who) (snd who).
Proof.
  intros (e & a & iv & salt & He & Ha & Hi & Hf & _). exists e, a, iv, salt. split; [exact He|]. split; [exact Ha|]. split; [exact Hi|].
  unfold open_repo. rewrite (config_there h _ Hf). cbn [rbind]. unfold read_file. now rewrite Hf.
Qed.
Lemma open_right s pend h : holds_config s pend h -> open_repo C json config (fst s) (snd s) h = Ok d.
Proof.
  intros H. destruct (open_it s pend h s H) as (e & a & iv & salt & He & Ha & Hi & ->). exact (config_round_trip C json d a _ _ iv salt e HC Hd Ha Hi He).
Qed.
Lemma open_wrong used s pend h who : no_accident C json d used -> In s used -> In who used -> holds_config s pend h -> who <> s ->
  exists e, open_repo C json config (fst who) (snd who) h = Err e.
Proof.
  intros Hno Hs Hw H Hne. destruct (open_it s pend h who H) as (e & a & iv & salt & He & Ha & Hi & ->).
  destruct (decrypt_config _ _ _ _ _) as [d'|x] eqn:E; [|eauto]. elim Hne. exact (Hno s who a iv salt e d' Hs Hw Ha Hi He E).
Qed.

Lemma hexify_nil sfx : length sfx = 16 -> hexify sfx <> [].
Proof. intros H E. apply (f_equal (@length byte)) in E. rewrite hexify_length, H in E. discriminate E. Qed.
Lemma other_tmp a b : a <> b -> path ++ hexify a <> path ++ hexify b.
Proof. intros H E. apply app_inv_head in E. apply H. now apply hexify_inj. Qed.

(** A change of the password. *)
Lemma change s sfx pend h old w a new iv salt used : holds_config s (sfx :: pend) h -> ~ In sfx pend -> length sfx = 16 -> argon_range a -> length iv = 12 ->
  no_accident C json d used -> In s used -> In old used ->
  (forall x, In x pend -> length x = 16) ->
  let r := chpass C json w config sfx (fst old) (snd old) a (fst new) (snd new) iv salt h in
  (forall st, In st (h :: fst r) -> holds_config s pend st \/ (old = s /\ holds_config new pend st)) /\
  match snd r with
  | Ok _ => old = s /\ holds_config new pend (last_state h r)
  | Err _ => holds_config s pend (last_state h r)
  end /\
  (old = s -> nothing_in_the_way C w a new salt -> snd r = Ok tt).
Proof.
  intros H Hfresh Hlen Ha Hiv Hno Hs Ho Hl r.
  assert (Hweak : holds_config s pend h).
  { destruct H as (e & a0 & iv0 & salt0 & H1 & H2 & H3 & H4 & H5). exists e, a0, iv0, salt0. repeat (split; [assumption|]). intros x Hx. apply H5. now right. }
  destruct (secrets_dec old s) as [->|Hne].
  2:{ destruct (open_wrong used s _ h old Hno Hs Ho H Hne) as [x Hx].
      assert (Er : r = ([], Err x)).
      { unfold r, chpass. unfold open_repo in Hx. destruct (config_path config h) as [q|]; cbn [rbind on_ok] in *; [|congruence].
        destruct (read_file h q) as [c|]; cbn [rbind on_ok] in *; [|congruence]. now rewrite Hx. }
      rewrite Er. cbn [fst snd last_state]. split; [|split].
      - intros st [<-|[]]. now left.
      - unfold last_state. exact Hweak.
      - congruence. }
  pose proof (open_right s _ h H) as Hop. destruct H as (e0 & a0 & iv0 & salt0 & He0 & Ha0 & Hiv0 & Hf0 & Hfree).
  assert (Er : r = on_ok (encrypt_params C d a (fst new) (snd new) iv salt) (fun e => replace_file w path (path ++ hexify sfx) (ser_enc e) h)).
  { unfold r, chpass. unfold open_repo in Hop. rewrite (config_there h _ Hf0) in *. cbn [rbind on_ok] in *. destruct (read_file h path) as [c|]; cbn [rbind on_ok] in *; [|discriminate Hop].
    now rewrite Hop. }
  assert (Hx : path <> path ++ hexify sfx) by now apply app_ne_self, hexify_nil.
  destruct (encrypt_params C d a (fst new) (snd new) iv salt) as [e|er] eqn:Ee; cbn [on_ok] in Er.
  2:{ rewrite Er. cbn [fst snd]. split; [|split].
      - intros st [<-|[]]. now left.
      - exact Hweak.
      - intros _ (_ & _ & _ & k & Hk1 & Hk2). exfalso. unfold encrypt_params, password_key in Ee. cbn [e_salt e_argon] in Ee. rewrite Hk1 in Ee. cbn [Nat.eqb negb] in Ee.
        destruct (snd new); rewrite ?hmac_file, Hk2 in Ee; cbn [of_opt rbind] in Ee; destruct (gcm_seal C k iv [] (ser_dec d)); discriminate Ee. }
  assert (Keep : forall st, (forall q, q <> path -> q <> path ++ hexify sfx -> fget st q = fget h q) ->
            (fget st path = fget h path -> holds_config s pend st) /\ (fget st path = Some (HFile (ser_enc e)) -> holds_config new pend st)).
  { intros st Hq.
    assert (Hfree' : forall x, In x pend -> fget st (path ++ hexify x) = None).
    { intros x Hin. rewrite Hq.
      - apply Hfree. now right.
      - apply not_eq_sym, app_ne_self, hexify_nil. now apply Hl.
      - apply other_tmp. intros ->. contradiction. }
    split; intros Hp.
    - exists e0, a0, iv0, salt0. rewrite Hp. repeat (split; [assumption|]). exact Hfree'.
    - exists e, a, iv, salt. repeat (split; [assumption|]). exact Hfree'. }
  assert (RS : forall st, In st (fst r) -> holds_config s pend st \/ (s = s /\ holds_config new pend st)).
  { intros st Hin. rewrite Er in Hin. destruct (replace_states w path (path ++ hexify sfx) (ser_enc e) h st Hx Hin) as [Hq [Hp|(Hp & _)]].
    - left. now apply Keep.
    - right. split; [reflexivity|]. now apply Keep. }
  split; [|split].
  - intros st [<-|Hin]; [now left|now apply RS].
  - pose proof (replace_end w path (path ++ hexify sfx) (ser_enc e) h Hx) as RE. cbv zeta in RE. rewrite <- Er in RE.
    assert (Hq : forall q, q <> path -> q <> path ++ hexify sfx -> fget (last_state h r) q = fget h q).
    { unfold last_state. destruct (fst r) as [|s0 l] eqn:El; [reflexivity|]. destruct (exists_last (l := s0 :: l)) as (l' & z & E); [discriminate|]. rewrite E, last_last.
      apply (replace_states w path (path ++ hexify sfx) (ser_enc e) h z Hx). rewrite <- Er, El, E. apply in_or_app. right. now left. }
    destruct (snd r) as [[]|]; [split; [reflexivity|]|]; now apply (Keep _ Hq), RE.
  - intros _ (W1 & W2 & W3 & _). rewrite Er. unfold replace_file. rewrite (Hfree sfx (or_introl eq_refl)), W1, W2, W3. reflexivity.
Qed.

Theorem life_lived used xs : forall s h disk p, holds_config s (suffixes xs) h -> R disk p -> NoDup (suffixes xs) -> Forall (command_ok env dec) xs ->
  In s used -> incl (used_secrets xs) used -> no_accident C json d used ->
  lived C Op Ans P session proper s p xs (life C json config env dec handle Disk Op Ans serve xs (h, disk)).
Proof.
  induction xs as [|x xs IH]; intros s h disk p HH HR Hnd Hok Hs Hin Hno; [exact I|].
  inversion Hok as [|x0 xs0 Hx Hok']; subst. cbn [life command_step]. destruct x as [w sfx old a new iv salt killed|who c ops].
  - destruct Hx as (X1 & X2 & X3). cbn [suffixes flat_map app] in *. fold (suffixes xs) in *. inversion Hnd as [|y l Hy Hnd']; subst.
    assert (Hold : In old used) by (apply Hin; left; reflexivity). assert (Hnew : In new used) by (apply Hin; right; left; reflexivity).
    assert (Hin' : incl (used_secrets xs) used) by (intros z Hz; apply Hin; right; right; exact Hz).
    assert (Hl : forall z, In z (suffixes xs) -> length z = 16).
    { intros z Hz. unfold suffixes in Hz. apply in_flat_map in Hz as (y & Hy1 & Hy2). rewrite Forall_forall in Hok'. specialize (Hok' y Hy1). destruct y; [|destruct Hy2]. destruct Hy2 as [<-|[]]. apply Hok'. }
    destruct (change s sfx (suffixes xs) h old w a new iv salt used HH Hy X1 X2 X3 Hno Hs Hold Hl) as (K1 & K2 & K3).
    set (r := chpass C json w config sfx (fst old) (snd old) a (fst new) (snd new) iv salt h) in *.
    destruct killed as [n|]; cbn [lived].
    + split; [reflexivity|]. assert (Hst : In (nth n (h :: fst r) (last_state h r)) (h :: fst r)).
      { destruct (Nat.lt_ge_cases n (length (h :: fst r))) as [L|L]; [now apply nth_In|]. rewrite nth_overflow by exact L. unfold last_state. destruct (fst r) as [|z l] eqn:E; [now left|]. right.
        destruct (exists_last (l := z :: l)) as (l' & y & E'); [discriminate|]. rewrite E', last_last. apply in_or_app. right. now left. }
      destruct (K1 _ Hst) as [K|[-> K]]; [left|right; split; [reflexivity|]]; now apply IH.
    + split; [intros E1 E2; now rewrite (K3 E1 E2)|]. destruct (snd r) as [[]|e].
      * destruct K2 as [-> K2]. left. split; [reflexivity|]. split; [reflexivity|]. now apply IH.
      * right. split; [eauto|]. now apply IH.
  - cbn [suffixes flat_map app] in *. fold (suffixes xs) in *. assert (Hwho : In who used) by (apply Hin; left; reflexivity).
    assert (Hin' : incl (used_secrets xs) used) by (intros z Hz; apply Hin; right; exact Hz).
    unfold run_mount. destruct (secrets_dec who s) as [->|Hne].
    + rewrite (open_right s _ h HH). destruct (mount_ok c Hx) as [sv Esv]. rewrite Esv. destruct (serve (s_fs sv) disk ops) as [disk' rr] eqn:Eserve. cbn [lived]. split; [|congruence].
      intros _ Hp. destruct (serve_ok c sv disk p ops Hx Esv HR Hp) as (outs & p' & disk2 & E1 & E2 & E3). rewrite Eserve in E1. injection E1 as -> ->.
      exists outs, p'. split; [reflexivity|]. split; [exact E2|]. now apply IH.
    + destruct (open_wrong used s _ h who Hno Hs Hwho HH Hne) as [e ->]. cbn [lived]. split; [congruence|]. intros _. split; [eauto|]. now apply IH.
Qed.
End Generic.

(** ** Mounting what was created *)
Lemma usual_mount env dec handle d c : usual env dec c -> storable d -> (forall z, short_text (dec z)) -> is_int64 handle ->
  exists ui locks, should_use_ino env c = Ok ui /\
  MountModel.mount env dec handle d c =
  rbind (make_fs d (build_options env c)) (fun fs =>
  Ok (mkServing fs (if (0 <? cl_idle c)%Z then Some (cl_idle c) else None) (cl_sensitive c) (build_args dec c ui) (cl_dir c) locks (Some (handle, cmd_level c)))).
Proof.
  intros (H1 & H2 & H3 & H4 & H5) Hd Hdec Hh.
  assert (U : exists ui, should_use_ino env c = Ok ui).
  { unfold should_use_ino. destruct H4 as [->|[->|[-> [t Et]]]]; [exists true; reflexivity|exists false; reflexivity|].
    change (bytes_eqb (str "auto") (str "true")) with false. change (bytes_eqb (str "auto") (str "false")) with false. change (bytes_eqb (str "auto") (str "auto")) with true.
    cbv iota. cbn [d_format fsparams dec0]. rewrite Et. eexists. reflexivity. }
  destruct U as [ui Eu]. assert (Ec : c = in_background (cl_background c) c) by (destruct c; reflexivity). destruct (cl_background c) eqn:Eb.
  - destruct (H5 eq_refl) as [_ Hp]. exists ui, true. split; [exact Eu|]. rewrite Ec, (mount_background env dec handle d c Hp Hdec Hh Hd), <- Ec, Eu. reflexivity.
  - exists ui, (negb (cl_noflock c)). split; [exact Eu|]. rewrite Ec, mount_foreground, <- Ec, Eu. reflexivity.
Qed.
Lemma usual_options env dec c : usual env dec c ->
  mo_disable_verification (build_options env c) = false /\ mo_plain (build_options env c) = false /\ mo_case_fold (build_options env c) = false /\ mo_nfc (build_options env c) = false.
Proof.
  intros (H1 & H2 & H3 & _). unfold build_options. cbv zeta. cbn [mo_disable_verification mo_plain mo_case_fold mo_nfc]. rewrite H1, H2, H3. repeat split; reflexivity.
Qed.

Section Created.
Variable env : environment.
Variable dec : Z -> bytes.
Variable handle : Z.
Hypothesis Hdec : forall z, short_text (dec z).
Hypothesis Hh : is_int64 handle.
Variable o : create_options.
Variables r1 r2 r3 r4 : bytes.
Hypothesis HK : Forall (fun r => length r = 32) [r1; r2; r3; r4].
Notation d := (create_params o r1 r2 r3 r4).
Hypothesis Hd : storable d.

Lemma key_ok r : length r = 32 -> from_byte_string r = Ok r.
Proof. intros H. unfold from_byte_string. now rewrite H. Qed.
Lemma keys32 : length r1 = 32 /\ length r2 = 32 /\ length r3 = 32 /\ length r4 = 32.
Proof. rewrite Forall_forall in HK. repeat split; apply HK; cbn; auto. Qed.

Definition lite_made (t : N) (sfx : bytes) (x : bool) : lite_fs :=
  mkLiteFs r2 r4 r1 r3 (o_block_size o) (o_iv_size o) (o_max_padding o) true x false false false t sfx.
Lemma mount_lite t sfx c : o_format o = CLite t sfx -> usual env dec c ->
  exists s x, MountModel.mount env dec handle d c = Ok s /\ s_fs s = LiteFs (lite_made t sfx x).
Proof.
  intros Hf Hc. destruct (usual_mount env dec handle d c Hc Hd Hdec Hh) as (ui & locks & _ & ->). destruct (usual_options env dec c Hc) as (A1 & A2 & A3 & A4).
  destruct keys32 as (K1 & K2 & K3 & K4). unfold make_fs, create_params. rewrite Hf. cbn [d_format i_content i_padding i_name i_xattr i_threshold i_suffix].
  rewrite !key_ok, A1, A2, A3, A4 by assumption. cbn [rbind]. destruct r4 as [|b4 l4] eqn:E4; [discriminate K4|]. rewrite (key_ok _ K4). cbn [rbind].
  exists (mkServing (LiteFs (lite_made t sfx (mo_xattr (build_options env c)))) (if (0 <? cl_idle c)%Z then Some (cl_idle c) else None) (cl_sensitive c) (build_args dec c ui) (cl_dir c) locks (Some (handle, cmd_level c))), (mo_xattr (build_options env c)).
  split; [|reflexivity]. unfold lite_made. rewrite E4. unfold sizes_of. cbn [d_size z_block z_iv z_padding negb].
  replace (match (if (0 <? t)%N then Some t else None) with Some t0 => t0 | None => 0%N end) with t; [reflexivity|]. destruct (N.ltb_spec 0 t); [reflexivity|lia].
Qed.
Definition full_made (nocase nonorm : bool) (x : bool) (u g : option Z) : full_fs :=
  mkFullFs r1 true (o_block_size o) (o_iv_size o) (o_max_padding o) false
    (match nocase, nonorm with true, true => CmpCaseNorm | true, false => CmpCase | false, true => CmpNorm | false, false => CmpBinary end) false false u g nocase x.
Lemma mount_full nocase nonorm c : o_format o = CFull nocase nonorm -> usual env dec c ->
  exists s x u g, MountModel.mount env dec handle d c = Ok s /\ s_fs s = FullFs (full_made nocase nonorm x u g).
Proof.
  intros Hf Hc. destruct (usual_mount env dec handle d c Hc Hd Hdec Hh) as (ui & locks & _ & ->). destruct (usual_options env dec c Hc) as (A1 & A2 & A3 & A4).
  destruct keys32 as (K1 & _). unfold make_fs, create_params. rewrite Hf. cbn [d_format u_master u_store_time u_legacy_io u_nocase].
  rewrite (key_ok r1 K1), A1. cbn [rbind negb]. eexists _, (mo_xattr (build_options env c)), (mo_uid (build_options env c)), (mo_gid (build_options env c)). split; [reflexivity|].
  cbn [s_fs]. unfold full_made. destruct nocase, nonorm; reflexivity.
Qed.
End Created.

(** ** Lite format *)
Section LiteFrom.
Variable cmac : bytes -> bytes.
Variable keystream : bytes -> nat -> bytes.
Variable blake : bytes -> bytes.
Hypothesis cmac_len : forall m, length (cmac m) = 16.
Hypothesis ks_len : forall iv n, length (keystream iv n) = n.
Hypothesis blake_len : forall m, length (blake m) = 32.
Variable no_op : bool.
Variable threshold : nat.
Variable suffix : bytes.
Hypothesis Hcfg : no_op = false -> config_ok threshold suffix.
Variable L : list bytes.
Hypothesis Hfit : names_fit blake no_op threshold L.
Notation tr := (make_translator cmac keystream blake no_op threshold suffix None None).
Notation RR := (LiteTreeProofs.R (LiteTreeTop.phys cmac keystream blake no_op threshold suffix) (LiteTreeTop.occ L) (LiteTreeTop.tab no_op threshold L)).
Variable A : aead.
Variable bs iv_size : nat.
Variable check sparse : bool.
Variable session_key : bytes -> bytes.
Variable padding_of : bytes -> nat.
Variable padded : bool.
Variable rnd : nat -> nat -> bytes.
Variable iv_fuel : nat.
Hypothesis HE : lite_env_ok A bs iv_size rnd iv_fuel.
Hypothesis HP : padded = false -> forall id, padding_of id = 0.
Variable link_max : nat.
Notation vstep := (v_step A bs iv_size check sparse session_key padding_of padded rnd iv_fuel tr link_max).
Notation rel_of := (LR A bs iv_size check session_key padding_of tr link_max RR (linkable no_op threshold)).

Lemma history_from ops s p : rel_of s p -> Forall v_from_fuse ops -> incl (v_names ops) L -> all_proper (lite_max_blocks * bs) link_max (negb no_op && (threshold =? 0)) ops p ->
  exists p', history link_max ops p (snd (run_ops vstep s ops)) p' /\ rel_of (fst (run_ops vstep s ops)) p'.
Proof.
  intros H HO HN Hp. refine (run_history A bs iv_size check sparse session_key padding_of padded rnd iv_fuel HE HP tr link_max (LiteTreeTop.tab no_op threshold L) RR (okp L) (okq L) (linkable no_op threshold)
    (step_names cmac keystream blake cmac_len ks_len blake_len no_op threshold suffix Hcfg L Hfit) (locate_same cmac keystream blake cmac_len ks_len blake_len no_op threshold suffix Hcfg L Hfit) _
    (linkable_fits cmac keystream blake cmac_len ks_len blake_len no_op threshold suffix Hcfg L Hfit) (link_nil cmac keystream blake no_op threshold suffix Hcfg L Hfit) (old_names no_op threshold) _ ops s p H (ops_ok L ops HO HN) Hp).
  - intros path (H1 & H2 & H3). split; assumption.
  - intros t H1 H2. split; assumption.
Qed.
Lemma same_from ops s p : rel_of s p -> Forall v_from_fuse ops -> incl (v_names ops) L -> LiteTreeTop.tab no_op threshold L = false -> short_links link_max ops ->
  run_proper (lite_max_blocks * bs) link_max (negb no_op && (threshold =? 0)) p ops ->
  snd (run_ops vstep s ops) = snd (run_ops p_step p ops) /\ rel_of (fst (run_ops vstep s ops)) (fst (run_ops p_step p ops)).
Proof.
  intros H HO HN Ht Hs Hp. refine (run_same A bs iv_size check sparse session_key padding_of padded rnd iv_fuel HE HP tr link_max (LiteTreeTop.tab no_op threshold L) RR (okp L) (okq L) (linkable no_op threshold)
    (step_names cmac keystream blake cmac_len ks_len blake_len no_op threshold suffix Hcfg L Hfit) (locate_same cmac keystream blake cmac_len ks_len blake_len no_op threshold suffix Hcfg L Hfit) _
    (linkable_fits cmac keystream blake cmac_len ks_len blake_len no_op threshold suffix Hcfg L Hfit) (link_nil cmac keystream blake no_op threshold suffix Hcfg L Hfit) (old_names no_op threshold) _ ops Ht Hs s p H (ops_ok L ops HO HN) Hp).
  - intros path (H1 & H2 & H3). split; assumption.
  - intros t H1 H2. split; assumption.
Qed.
Lemma remount_from s p : rel_of s p -> rel_of (fst (vstep s LiteFsModel.VRemount)) (fst (p_step p LiteFsModel.VRemount)).
Proof.
  intros H. destruct (history_from [LiteFsModel.VRemount] s p H) as (p' & H1 & H2); [repeat constructor|intros x []|cbn; auto|].
  cbn [run_ops] in H1, H2. destruct (vstep s LiteFsModel.VRemount) as [s1 r]. cbn [fst snd] in *.
  inversion H1 as [|op ops q outs q' H3|op ops q x e outs q' H3 H4 H5|]; subst; [|discriminate H3]. inversion H3; subst. exact H2.
Qed.
End LiteFrom.

(** ** Full format *)
Section FullFrom.
Variable E : senv.
Hypothesis HE : senv_ok E.
Notation cmp := (v_cmp E).
Lemma answers_app ops ops' : forall st, plain_ops cmp (ops ++ ops') st = plain_ops cmp ops st ++ plain_ops cmp ops' (fs_run cmp (plain_ops cmp ops st) st).
Proof.
  induction ops as [|o ops IH]; intros st; [reflexivity|]. cbn [app plain_ops]. rewrite IH, <- app_assoc, fs_run_app. reflexivity.
Qed.
Lemma history_all ops : forall rp st done, RR E rp st -> fs_run cmp done new_repo = st -> careful_run cmp done new_repo -> careful_run cmp (plain_ops cmp ops st) st ->
  (N.of_nat (length (done ++ plain_ops cmp ops st)) < 2 ^ 32 - 1)%N -> may_run E ops st ->
  Forall2 same_answer (r_answers E ops rp) (RepoSpec.plain_answers cmp ops st) /\ RR E (r_all_of E ops rp) (fs_run cmp (plain_ops cmp ops st) st).
Proof.
  induction ops as [|o ops IH]; intros rp st done HR Hd Hc Hc' Hl Hm; cbn [plain_ops r_answers RepoSpec.plain_answers may_run r_all_of] in *; [split; [constructor|exact HR]|].
  destruct Hm as (H1 & H2 & H3). rewrite app_assoc in Hl. apply careful_app in Hc' as [C1 C2].
  assert (Hre : reached cmp st). { exists done. split; [exact Hc|]. split; [|exact Hd]. rewrite !app_length in Hl. lia. }
  destruct (op_ok E HE o rp st HR H1 H2 (reached_ready E HE st Hre)) as [A1 A2].
  destruct (IH _ _ (done ++ as_fops o st) A1) as [B1 B2]; auto; [now rewrite fs_run_app, Hd| |].
  - apply careful_app. now rewrite Hd.
  - split; [constructor; assumption|]. now rewrite fs_run_app.
Qed.
Lemma all_of_app ops ops' : forall rp, r_all_of E (ops ++ ops') rp = r_all_of E ops' (r_all_of E ops rp).
Proof. induction ops as [|o ops IH]; intros rp; [reflexivity|]. cbn [app r_all_of]. apply IH. Qed.
Lemma ops_answers_app ops o : forall rp, r_answers E (ops ++ [o]) rp = r_answers E ops rp ++ [snd (r_apply E o (r_all_of E ops rp))].
Proof. induction ops as [|x ops IH]; intros rp; [reflexivity|]. cbn [app r_answers r_all_of]. now rewrite IH. Qed.
Lemma plain_answers_app ops o : forall st, RepoSpec.plain_answers cmp (ops ++ [o]) st = RepoSpec.plain_answers cmp ops st ++ [plain_answer cmp o (fs_run cmp (plain_ops cmp ops st) st)].
Proof. induction ops as [|x ops IH]; intros st; [reflexivity|]. cbn [app RepoSpec.plain_answers plain_ops]. now rewrite IH, fs_run_app. Qed.

Definition full_rel (disk : list (bytes * rfile) * nat) (done : list fop) : Prop :=
  snd (RepoModel.mount E (fst disk) (snd disk)) = Ok tt /\ RR E (fst (RepoModel.mount E (fst disk) (snd disk))) (fs_run cmp done new_repo) /\ careful_run cmp done new_repo.
Lemma full_start : full_rel ([], 0) [].
Proof.
  split; [|split; [apply (start_ok E HE)|exact I]]. cbn [fst snd]. unfold RepoModel.mount. cbn [rget].
  destruct (fo_create_ok E HE root_id 0 (v_clock E 0) 493 TDIR (so_clock _ HE 0)) as (f & E1 & _); [reflexivity|]. now rewrite E1.
Qed.
Lemma full_session_ok disk p ops : full_rel disk p -> full_proper E (v_cmp E) p ops ->
  let rp' := r_all_of E ops (fst (RepoModel.mount E (fst disk) (snd disk))) in
  exists p', full_session cmp p ops (r_answers E ops (fst (RepoModel.mount E (fst disk) (snd disk)))) p' /\ full_rel (unmount E rp', rp_time rp') p'.
Proof.
  intros (R1 & R2 & R3) (P1 & P2 & P3). cbv zeta. set (rp := fst (RepoModel.mount E (fst disk) (snd disk))) in *. set (st := fs_run cmp p new_repo) in *.
  destruct (history_all (ops ++ [ORemount]) rp st p R2 eq_refl R3 P2 P3 P1) as [A1 A2].
  exists (p ++ plain_ops cmp (ops ++ [ORemount]) st). split; [split; [|reflexivity]|].
  - fold st. rewrite ops_answers_app, plain_answers_app in A1. apply Forall2_app_inv_l in A1 as (l1 & l2 & B1 & B2 & B3).
    inversion B2 as [|? y ? l2' ? B4]; subst. inversion B4; subst. apply app_inj_tail in B3 as [<- _]. exact B1.
  - rewrite all_of_app in A2. cbn [r_all_of r_apply] in A2. cbn [fst snd]. rewrite ops_answers_app, plain_answers_app in A1.
    apply Forall2_app_inv_l in A1 as (l1 & l2 & B1 & B2 & B3). inversion B2 as [|? y ? l2' B5 B4]; subst. inversion B4; subst. apply app_inj_tail in B3 as [_ <-].
    cbn [r_apply plain_answer] in B5. unfold full_rel. cbn [fst snd]. destruct (RepoModel.mount E (unmount E _) _) as [rp2 rr]. cbn [fst snd] in *. split; [|split].
    + destruct rr as [[]|]; [reflexivity|]. cbn [rmap same_answer] in B5. discriminate B5.
    + now rewrite fs_run_app.
    + apply careful_app. split; assumption.
Qed.
End FullFrom.
