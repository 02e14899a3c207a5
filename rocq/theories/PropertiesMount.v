(** Property C58: mounting. *)
From Coq Require Import Strings.String ZArith.
From Verif Require Import Base BaseLemmas TextModel ProtoModel ProtoProofs ParamsModel ParamsSpec ParamsProofs MountModel MountSpec MountProofs.
Local Open Scope list_scope.

(** Mounting in the background gives exactly what mounting in the foreground gives: the
    same file system, FUSE arguments, repository, locks and logging, or the same error.
    [dec] prints a number, [handle] is the descriptor of the log. *)
Theorem C58_background_like_foreground :
  forall e dec handle p c,
    plain_cmdline c -> (forall z, short_text (dec z)) -> is_int64 handle -> storable p ->
    cl_noflock c = false ->
    mount e dec handle p (in_background true c) = mount e dec handle p (in_background false c).
Proof.
  intros e dec handle p c Hc Hd Hh Hp Hn. rewrite mount_foreground, mount_background by assumption. rewrite Hn. reflexivity.
Qed.
Print Assumptions C58_background_like_foreground.

(** Whatever the options, two mounts of one repository agree on everything that decides
    what is stored and how it is read back; and on the names when they are given the same
    two name options. *)
Theorem C58_options_do_not_change_storage :
  forall p e1 dec1 handle1 c1 s1 e2 dec2 handle2 c2 s2,
    mount e1 dec1 handle1 p (in_background false c1) = Ok s1 ->
    mount e2 dec2 handle2 p (in_background false c2) = Ok s2 ->
    storage (s_fs s1) = storage (s_fs s2) /\
    (cl_plain c1 = cl_plain c2 -> cl_normalization c1 = cl_normalization c2 -> naming (s_fs s1) = naming (s_fs s2)).
Proof.
  intros p e1 dec1 handle1 c1 s1 e2 dec2 handle2 c2 s2. rewrite !mount_foreground.
  destruct (should_use_ino e1 c1) as [u1|]; [|discriminate]. destruct (should_use_ino e2 c2) as [u2|]; [|discriminate]. cbn [rbind].
  unfold make_fs. destruct (d_format p) as [|l|u]; cbn [rbind]; [discriminate| |].
  - destruct (from_byte_string (i_content l)) as [ct|]; [|discriminate]. cbn [rbind].
    destruct (match i_padding l with [] => Ok (zeros 32) | b :: l0 => from_byte_string (b :: l0) end) as [pd|]; [|discriminate]. cbn [rbind].
    destruct (from_byte_string (i_name l)) as [nm|]; [|discriminate]. cbn [rbind].
    destruct (from_byte_string (i_xattr l)) as [xa|]; [|discriminate]. cbn [rbind].
    intros E1 E2. injection E1 as <-. injection E2 as <-. cbn [s_fs storage naming]. split; [reflexivity|].
    intros Hp Hn. cbn [lf_no_op lf_fold lf_nfc build_options mo_plain mo_case_fold mo_nfc]. unfold build_options. cbn [mo_plain mo_case_fold mo_nfc].
    rewrite Hp, Hn. reflexivity.
  - destruct (from_byte_string (u_master u)) as [mk|]; [|discriminate]. cbn [rbind].
    intros E1 E2. injection E1 as <-. injection E2 as <-. split; reflexivity.
Qed.
Print Assumptions C58_options_do_not_change_storage.

(** A repository that was created with the options [o] (and 32 random bytes per key) can be
    mounted with any options, and then every key, size and option of the creation and
    every option of the mount is where it belongs. *)
Theorem C58_created_then_mounted :
  forall o r1 r2 r3 r4 p e dec handle c fold nfc,
    created_as o r1 r2 r3 r4 p ->
    length r1 = 32 -> length r2 = 32 -> length r3 = 32 -> length r4 = 32 ->
    cl_use_ino c = str "true" \/ cl_use_ino c = str "false" \/ (cl_use_ino c = str "auto" /\ exists t, v_fstype e = Ok t) ->
    cl_plain c = false -> normalization_mode (cl_normalization c) fold nfc ->
    exists s, mount e dec handle p (in_background false c) = Ok s /\
      s_dir s = cl_dir c /\ s_locks s = negb (cl_noflock c) /\ s_sensitive s = cl_sensitive c /\
      s_idle s = (if (0 <? cl_idle c)%Z then Some (cl_idle c) else None) /\
      (exists a, s_args s = a ++ [cl_mount_point c]) /\
      (forall x, In x (cl_opts c) -> has_option x (s_args s)) /\
      has_option (str "fsname=" ++ cl_fsname c) (s_args s) /\ has_option (str "subtype=" ++ cl_subtype c) (s_args s) /\
      match o_format o, s_fs s with
      | CLite threshold suffix, LiteFs l =>
          lf_name l = r1 /\ lf_content l = r2 /\ lf_xattr_key l = r3 /\ lf_padding_key l = r4 /\
          lf_threshold l = threshold /\ lf_suffix l = suffix /\
          lf_block l = o_block_size o /\ lf_iv l = o_iv_size o /\ lf_padding l = o_max_padding o /\
          lf_no_op l = false /\ lf_fold l = fold /\ lf_nfc l = nfc /\
          lf_verify l = negb (cl_insecure c) /\ (lf_xattr l = true <-> cl_noxattr c = false /\ v_xattr e = true)
      | CFull nocase nonorm, FullFs f =>
          ff_master f = r1 /\ ff_nocase f = nocase /\
          ff_compare f = (match nocase, nonorm with true, true => CmpCaseNorm | true, false => CmpCase | false, true => CmpNorm | false, false => CmpBinary end) /\
          ff_block f = o_block_size o /\ ff_iv f = o_iv_size o /\ ff_padding f = o_max_padding o /\
          ff_verify f = negb (cl_insecure c) /\ (ff_xattr f = true <-> cl_noxattr c = false /\ v_xattr e = true) /\
          override (cl_uid c) (ff_uid f) /\ override (cl_gid c) (ff_gid f) /\ ff_read_only f = false
      | _, _ => False
      end.
Proof.
  intros o r1 r2 r3 r4 p e dec handle c fold nfc [(z & Ez & Z1 & Z2 & Z3) HF] L1 L2 L3 L4 Hino Hplain Hnorm.
  rewrite mount_foreground.
  assert (U : exists ui, should_use_ino e c = Ok ui).
  { unfold should_use_ino. destruct Hino as [->|[->|[-> [t Et]]]]; [exists true; reflexivity|exists false; reflexivity|].
    change (bytes_eqb (str "auto") (str "true")) with false. change (bytes_eqb (str "auto") (str "false")) with false. change (bytes_eqb (str "auto") (str "auto")) with true.
    cbv iota. cbn [d_format fsparams dec0]. rewrite Et. eexists. reflexivity. }
  destruct U as [ui Eu]. rewrite Eu. cbn [rbind].
  assert (HO : forall x, In x (cl_opts c) -> has_option x (build_args dec c ui)).
  { intros x Hx. unfold build_args. cbv zeta. apply in_split in Hx as (l1 & l2 & El). rewrite El.
    unfold has_option. rewrite flat_map_app. cbn [flat_map].
    match goal with |- exists a b, ?h :: ?a1 ++ ?a2 ++ ?a3 ++ ?a4 ++ ?a5 ++ ?a6 ++ ?a7 ++ ?a8 ++ ?a9 ++ ?a10 ++ ?a11 ++ (?a12 ++ ?a13 ++ ?a14) ++ ?a15 = _ =>
      exists (h :: a1 ++ a2 ++ a3 ++ a4 ++ a5 ++ a6 ++ a7 ++ a8 ++ a9 ++ a10 ++ a11 ++ a12), (a14 ++ a15) end.
    cbn [app]. rewrite <- !app_assoc. cbn [app]. rewrite <- !app_assoc. reflexivity. }
  assert (HL : exists a, build_args dec c ui = a ++ [cl_mount_point c]).
  { unfold build_args. cbv zeta. rewrite !app_assoc, app_comm_cons. eexists. reflexivity. }
  assert (H1 : has_option (str "fsname=" ++ cl_fsname c) (build_args dec c ui)).
  { unfold build_args, has_option. cbv zeta. exists [cl_exe c; str "-o"; str "hard_remove"]. eexists. reflexivity. }
  assert (H2 : has_option (str "subtype=" ++ cl_subtype c) (build_args dec c ui)).
  { unfold build_args, has_option. cbv zeta. exists [cl_exe c; str "-o"; str "hard_remove"; str "-o"; str "fsname=" ++ cl_fsname c]. eexists. reflexivity. }
  assert (HX : forall b, (if cl_noxattr c then false else v_xattr e) = b -> (b = true <-> cl_noxattr c = false /\ v_xattr e = true)).
  { intros b <-. destruct (cl_noxattr c), (v_xattr e); intuition congruence. }
  assert (KB : forall k, length k = 32 -> from_byte_string k = Ok k) by (intros k Hk; unfold from_byte_string; rewrite Hk; reflexivity).
  assert (HN : mo_case_fold (build_options e c) = fold /\ mo_nfc (build_options e c) = nfc).
  { unfold build_options. cbn [mo_case_fold mo_nfc]. rewrite Hplain. unfold normalization_mode in Hnorm.
    destruct Hnorm as [(-> & -> & ->)|[(-> & -> & ->)|[(-> & -> & ->)|(-> & -> & ->)]]]; split; reflexivity. }
  unfold make_fs, sizes_of. rewrite Ez. destruct (o_format o) as [t sfx|nocase nonorm], (d_format p) as [|l|u]; try contradiction.
  - destruct HF as (<- & <- & <- & <- & <- & Ht). rewrite !KB by assumption. cbn [rbind].
    replace (match i_padding l with [] => Ok (zeros 32) | b :: l0 => from_byte_string (b :: l0) end) with (@Ok bytes (i_padding l)).
    2: { destruct (i_padding l) as [|b k]; [discriminate L4|]. rewrite KB by exact L4. reflexivity. }
    cbn [rbind]. eexists. split; [reflexivity|].
    cbn [s_dir s_locks s_sensitive s_idle s_args s_fs lf_name lf_content lf_xattr_key lf_padding_key lf_threshold lf_suffix lf_block lf_iv lf_padding lf_no_op lf_fold lf_nfc lf_verify lf_xattr].
    repeat (split; [assumption || reflexivity|]).
    split; [rewrite Ht; destruct (N.eqb_spec t 0) as [->|]; reflexivity|]. repeat (split; [assumption || reflexivity|]).
    split; [apply HN|]. split; [apply HN|]. split; [reflexivity|]. apply HX. reflexivity.
  - destruct HF as (<- & <- & <- & Hs & Hi). rewrite KB by assumption. cbn [rbind]. eexists. split; [reflexivity|].
    cbn [s_dir s_locks s_sensitive s_idle s_args s_fs ff_master ff_nocase ff_compare ff_block ff_iv ff_padding ff_verify ff_xattr ff_uid ff_gid ff_read_only].
    repeat (split; [assumption || reflexivity|]). split; [unfold dir_comparison; destruct (u_nocase u), (u_nonorm u); reflexivity|].
    repeat (split; [assumption || reflexivity|]). split; [apply HX; reflexivity|].
    assert (HV : forall z, override z (if (z =? -1)%Z then None else Some z)).
    { intros y. unfold override. destruct (Z.eqb_spec y (-1)); auto. }
    split; [apply HV|]. split; [apply HV|reflexivity].
Qed.
Print Assumptions C58_created_then_mounted.

(** The arguments for FUSE, in full: inode numbers as asked for, and the options of the
    user after those of the program, so that the user's prevail. *)
Theorem C58_fuse_arguments :
  forall e dec handle p c s b, mount e dec handle p (in_background false c) = Ok s -> own_inodes e c b ->
    let timeout := dec (cl_attr_timeout c) in
    s_args s =
      [cl_exe c; str "-o"; str "hard_remove"; str "-o"; str "fsname=" ++ cl_fsname c; str "-o"; str "subtype=" ++ cl_subtype c;
       str "-o"; str "entry_timeout=" ++ timeout; str "-o"; str "attr_timeout=" ++ timeout; str "-o"; str "negative_timeout=" ++ timeout;
       str "-o"; str "atomic_o_trunc"] ++
      (if cl_single c then [str "-s"] else []) ++ [str "-f"] ++ (if b then [str "-o"; str "use_ino"] else []) ++ [str "-o"; str "big_writes"] ++
      flat_map (fun x => [str "-o"; x]) (cl_opts c) ++ [cl_mount_point c].
Proof.
  intros e dec handle p c s b H Hb. cbv zeta. rewrite mount_foreground in H.
  assert (U : should_use_ino e c = Ok b).
  { unfold should_use_ino. destruct Hb as [[-> ->]|[[-> ->]|[-> (t & Et & Hb)]]]; [reflexivity|reflexivity|].
    change (bytes_eqb (str "auto") (str "true")) with false. change (bytes_eqb (str "auto") (str "false")) with false. change (bytes_eqb (str "auto") (str "auto")) with true.
    cbv iota. cbn [d_format fsparams dec0]. rewrite Et. cbn [rbind]. f_equal. apply eq_true_iff_eq. rewrite Hb, existsb_exists. unfold stable_type.
    change [2435016766; 538032816; 4989; 61267; 61265; 16964; 18475; 18520; 1397118030; 16914836; 1481003842; 801189825]%N with stable_inodes.
    split; [intros (x & Hx & Ex); apply N.eqb_eq in Ex; now subst|intros Ht; exists t; split; [exact Ht|apply N.eqb_refl]]. }
  rewrite U in H. cbn [rbind] in H. destruct (make_fs _ _) as [f|]; [|discriminate H]. cbn [rbind] in H. injection H as <-. reflexivity.
Qed.
Print Assumptions C58_fuse_arguments.

(** Repositories of the lite format made before there was a key for padding can be
    mounted; the key is then 32 zero bytes. *)
Theorem C58_no_padding_key :
  forall p l e dec handle c b, d_format p = FLite l -> i_padding l = [] ->
    length (i_name l) = 32 -> length (i_content l) = 32 -> length (i_xattr l) = 32 -> own_inodes e c b ->
    exists s f, mount e dec handle p (in_background false c) = Ok s /\ s_fs s = LiteFs f /\
      lf_name f = i_name l /\ lf_content f = i_content l /\ lf_xattr_key f = i_xattr l /\ lf_padding_key f = repeat x00 32.
Proof.
  intros p l e dec handle c b Hf Hp L1 L2 L3 Hb. rewrite mount_foreground.
  assert (U : exists ui, should_use_ino e c = Ok ui).
  { unfold should_use_ino. destruct Hb as [[-> _]|[[-> _]|[-> (t & Et & _)]]]; [exists true; reflexivity|exists false; reflexivity|].
    change (bytes_eqb (str "auto") (str "true")) with false. change (bytes_eqb (str "auto") (str "false")) with false. change (bytes_eqb (str "auto") (str "auto")) with true.
    cbv iota. cbn [d_format fsparams dec0]. rewrite Et. eexists. reflexivity. }
  destruct U as [ui Eu]. rewrite Eu. cbn [rbind].
  assert (KB : forall k, length k = 32 -> from_byte_string k = Ok k) by (intros k Hk; unfold from_byte_string; rewrite Hk; reflexivity).
  unfold make_fs. rewrite Hf, Hp, !KB by assumption. cbn [rbind]. do 2 eexists. split; [reflexivity|]. cbn [s_fs]. split; [reflexivity|].
  cbn [lf_name lf_content lf_xattr_key lf_padding_key]. repeat split.
Qed.
Print Assumptions C58_no_padding_key.

(** The command that mounts in the background reports success only after it has seen the
    mount, and failure only after its child has ended. *)
Theorem C58_exit_code :
  forall observations code, wait_for_child observations = Some code ->
    exists before o after, observations = before ++ o :: after /\ Forall (fun x => x = (false, None)) before /\
      (code = 0%Z <-> fst o = true) /\ (code <> 0%Z -> exists k, o = (false, Some k) /\ (k <> 0%Z -> code = k)).
Proof.
  induction observations as [|[m k] l IH]; intros code H; cbn [wait_for_child] in H; [discriminate|].
  destruct m.
  - injection H as <-. exists [], (true, k), l. repeat split; auto. congruence.
  - destruct k as [k|].
    + injection H as <-. exists [], (false, Some k), l. split; [reflexivity|]. split; [constructor|]. cbn [fst].
      destruct (Z.eqb_spec k 0) as [->|N]; (split; [split; intros; [lia|discriminate]|]); intros _; eexists; (split; [reflexivity|]); lia.
    + destruct (IH _ H) as (b & o & a & -> & HF & H1 & H2). exists ((false, None) :: b), o, a. repeat split; auto; apply H1.
Qed.
Print Assumptions C58_exit_code.

(** ** A concrete repository and command line *)
Definition ex_cl : cmdline :=
  mkCl (str "/usr/bin/securefs") (str "/data") (str "/mnt") false false false false false false [str "allow_other"]
    (str "securefs") (str "securefs") false (str "auto") (str "casefold+nfc") 30 false 1000 (-1) false 60.
Definition ex_env : environment := mkEnv true (Ok 61267%N).           (* ext4 *)
Definition ex_dec (z : Z) : bytes := if (z =? 30)%Z then str "30" else [].
Definition ex_lite_options : create_options := mkCreate 12 4096 100 (CLite 128 (str ".longname")).
Definition ex_full_options : create_options := mkCreate 12 4096 100 (CFull true false).
Definition ex_lite_params : dec_params := create_params ex_lite_options (repeat x01 32) (repeat x02 32) (repeat x03 32) (repeat x04 32).
Definition ex_full_params : dec_params := create_params ex_full_options (repeat x01 32) (repeat x02 32) (repeat x03 32) (repeat x04 32).

Lemma short_ascii s : asciib s && (length s <? 1000)%nat = true -> short_text s.
Proof. intros E. apply andb_prop in E as [E1 E2]. apply Nat.ltb_lt in E2. split; [apply ascii_text, asciib_ok; exact E1|lia]. Qed.

Example C58_ex :
  plain_cmdline ex_cl /\ (forall z, short_text (ex_dec z)) /\ storable ex_lite_params /\ cl_noflock ex_cl = false /\
  created_as ex_lite_options (repeat x01 32) (repeat x02 32) (repeat x03 32) (repeat x04 32) ex_lite_params /\
  created_as ex_full_options (repeat x01 32) (repeat x02 32) (repeat x03 32) (repeat x04 32) ex_full_params /\
  normalization_mode (cl_normalization ex_cl) true true /\
  match mount ex_env ex_dec 5 ex_lite_params (in_background true ex_cl) with
  | Ok s => s_locks s = true /\ s_idle s = Some 60%Z /\ s_log s = Some (5%Z, LInfo) /\
            In (str "use_ino") (s_args s) /\ last (s_args s) [] = str "/mnt"
  | Err _ => False
  end.
Proof.
  split; [|split; [|split; [|split; [reflexivity|split; [|split; [|split]]]]]].
  - unfold plain_cmdline, is_int, is_int64. cbn [cl_exe cl_dir cl_mount_point cl_opts cl_fsname cl_subtype cl_uid cl_gid cl_idle ex_cl].
    repeat split; try (apply short_ascii; vm_compute; reflexivity); try lia.
    repeat (apply Forall_cons || apply Forall_nil). apply short_ascii. reflexivity.
  - intros z. unfold ex_dec. destruct (z =? 30)%Z; apply short_ascii; reflexivity.
  - unfold storable, ex_lite_params, create_params, ex_lite_options, is_u32, modest.
    cbn [d_size d_format z_block z_iv z_padding i_name i_content i_xattr i_padding i_suffix i_threshold o_format o_block_size o_iv_size o_max_padding].
    split; [split; [lia|split; lia]|]. change (0 <? 128)%N with true. cbv iota.
    do 4 (split; [reflexivity|]). split; [reflexivity|]. split; [lia|]. apply ascii_text, asciib_ok. reflexivity.
  - split; [eexists; split; [reflexivity|]; repeat split|]. repeat split.
  - split; [eexists; split; [reflexivity|]; repeat split|]. repeat split.
  - right. right. right. repeat split.
  - vm_compute. repeat (split; [reflexivity|]). split; [|reflexivity]. do 17 (try (left; reflexivity); right). tauto.
Qed.

(** ** Findings *)
(** --noflock is lost on the way into the background: the file system locks. *)
Theorem C58_noflock_in_background_refuted :
  exists e dec handle p c s, plain_cmdline c /\ storable p /\ cl_noflock c = true /\ cl_background c = true /\
    mount e dec handle p c = Ok s /\ s_locks s = true.
Proof.
  pose (c := mkCl (str "/usr/bin/securefs") (str "/data") (str "/mnt") false true false false false false [str "allow_other"]
    (str "securefs") (str "securefs") true (str "auto") (str "casefold+nfc") 30 false 1000 (-1) false 60).
  destruct (mount ex_env ex_dec 5 ex_lite_params c) as [s|] eqn:E; [|vm_compute in E; discriminate E].
  exists ex_env, ex_dec, 5%Z, ex_lite_params, c, s. destruct C58_ex as (H1 & _ & H2 & _).
  split; [exact H1|]. split; [exact H2|]. split; [reflexivity|]. split; [reflexivity|]. split; [exact E|].
  vm_compute in E. injection E as <-. reflexivity.
Qed.
Print Assumptions C58_noflock_in_background_refuted.

(** Paths that are not UTF-8 can be mounted in the foreground but not in the background. *)
Theorem C58_background_bytes_refuted :
  exists e dec handle p c s, storable p /\ mount e dec handle p (in_background false c) = Ok s /\
    mount e dec handle p (in_background true c) = Err EInval.
Proof.
  pose (c := mkCl (str "/usr/bin/securefs") (str "/data") (str "/mnt/" ++ [xff]) false true false false false false [str "allow_other"]
    (str "securefs") (str "securefs") true (str "auto") (str "casefold+nfc") 30 false 1000 (-1) false 60).
  destruct (mount ex_env ex_dec 5 ex_lite_params (in_background false c)) as [s|] eqn:E; [|vm_compute in E; discriminate E].
  exists ex_env, ex_dec, 5%Z, ex_lite_params, c, s. destruct C58_ex as (_ & _ & H2 & _). split; [exact H2|]. split; [exact E|]. vm_compute. reflexivity.
Qed.
Print Assumptions C58_background_bytes_refuted.

(** With --use-ino auto, the full format asks for its own inode numbers only when the host
    happens to be one of the known file systems: not always, as documented. *)
Theorem C58_use_ino_full_refuted :
  exists e dec handle u z c s, mount e dec handle (mkDec (Some z) (FFull u)) c = Ok s /\ cl_use_ino c = str "auto" /\
    ~ In (str "use_ino") (s_args s).
Proof.
  destruct (mount (mkEnv true (Ok 1%N)) ex_dec 5 ex_full_params ex_cl) as [s|] eqn:E; [|vm_compute in E; discriminate E].
  exists (mkEnv true (Ok 1%N)), ex_dec, 5%Z, (mkFullP (repeat x01 32) false false true false), (mkSize 4096 12 100), ex_cl, s.
  split; [exact E|]. split; [reflexivity|]. vm_compute in E. injection E as <-. cbn. intuition discriminate.
Qed.
Print Assumptions C58_use_ino_full_refuted.

(** A normalization mode that does not exist is taken for "none". *)
Theorem C58_normalization_checked_refuted :
  exists e dec handle p c s, mount e dec handle p c = Ok s /\ cl_normalization c = str "NFC" /\ naming (s_fs s) = (false, false, false).
Proof.
  pose (c := mkCl (str "/usr/bin/securefs") (str "/data") (str "/mnt") false false false false false false []
    (str "securefs") (str "securefs") false (str "auto") (str "NFC") 30 false 1000 (-1) false 60).
  destruct (mount ex_env ex_dec 5 ex_lite_params c) as [s|] eqn:E; [|vm_compute in E; discriminate E].
  exists ex_env, ex_dec, 5%Z, ex_lite_params, c, s. split; [exact E|]. split; [reflexivity|]. vm_compute in E. injection E as <-. reflexivity.
Qed.
Print Assumptions C58_normalization_checked_refuted.

(** --uid-override and --gid-override do nothing in the lite format. *)
Definition with_owner (u g : Z) (c : cmdline) : cmdline :=
  mkCl (cl_exe c) (cl_dir c) (cl_mount_point c) (cl_single c) (cl_background c) (cl_insecure c) (cl_noxattr c) (cl_verbose c) (cl_trace c)
    (cl_opts c) (cl_fsname c) (cl_subtype c) (cl_noflock c) (cl_use_ino c) (cl_normalization c) (cl_attr_timeout c) (cl_plain c)
    u g (cl_sensitive c) (cl_idle c).
Theorem C58_owner_override_lite_refuted :
  forall e dec handle z l c u g,
    mount e dec handle (mkDec z (FLite l)) (in_background false (with_owner u g c)) =
    mount e dec handle (mkDec z (FLite l)) (in_background false c).
Proof.
  intros. rewrite !mount_foreground. reflexivity.
Qed.
Print Assumptions C58_owner_override_lite_refuted.

(** A lite repository without a key for padding. *)
Definition ex_old_params : dec_params :=
  mkDec (d_size ex_lite_params) (FLite (match d_format ex_lite_params with
    | FLite l => mkLite (i_name l) (i_content l) (i_xattr l) [] (i_threshold l) (i_suffix l) | _ => lite0 end)).
Example C58_inodes_example : own_inodes ex_env ex_cl true /\
  (exists s, mount ex_env ex_dec 5 ex_old_params (in_background false ex_cl) = Ok s) /\
  match d_format ex_old_params with FLite l => i_padding l = [] /\ length (i_name l) = 32 /\ length (i_content l) = 32 /\ length (i_xattr l) = 32 | _ => False end.
Proof.
  split; [right; right; split; [reflexivity|]; exists 61267%N; split; [reflexivity|]; split; [intros _; unfold stable_type; cbn; tauto|reflexivity]|].
  split; [eexists; vm_compute; reflexivity|]. repeat split.
Qed.
