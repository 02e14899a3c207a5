(** Mounting: from the options of the mount command to the file system that answers the
    calls.  Models MountCommand in sources/commands.cpp 513-963, ProtoMountCommand 1197-1218,
    sources/internal_mount.cpp, and the messages MountOptions and InternalMountData of
    protos/params.proto that carry a mount into a background process.  The branches for
    Linux only. *)
From Coq Require Import Strings.String ZArith.
From Verif Require Import Base TextModel ProtoModel.
Local Open Scope N_scope.
Local Open Scope list_scope.

(** ** The messages *)
(** MountOptions, params.proto 91-103 *)
Record mount_options := mkMo {
  mo_read_only : bool; mo_disable_verification : bool; mo_uid : option Z; mo_gid : option Z;
  mo_xattr : bool; mo_case_fold : bool; mo_nfc : bool; mo_plain : bool; mo_sensitive : bool; mo_idle : Z }.
(** InternalMountData.BackgroundLogging, 120-125 *)
Record background_logging := mkBl { bl_handle : option Z; bl_level : option Z }.
(** InternalMountData, 105-130 *)
Record mount_data := mkMd {
  md_params : option dec_params; md_options : option mount_options; md_args : list bytes; md_dir : bytes;
  md_logging : option background_logging }.

(** Signed numbers travel as 64-bit two's complement. *)
Definition of_signed (z : Z) : N := Z.to_N (z mod 18446744073709551616).
Definition to_int32 (n : N) : Z :=
  let m := Z.of_N (n mod 4294967296) in if (m <? 2147483648)%Z then m else (m - 4294967296)%Z.
Definition to_int64 (n : N) : Z :=
  let m := Z.of_N (n mod 18446744073709551616) in if (m <? 9223372036854775808)%Z then m else (m - 18446744073709551616)%Z.

(** libprotobuf, used at sources/params_io.cpp 303, 321 and 347: an optional int32 or int64 field. *)
Definition w_opt (k : N) (o : option Z) : list field := match o with Some z => [(k, VInt (of_signed z))] | None => [] end.
(** An embedded message, written when it is present. *)
(** libprotobuf, used at sources/params_io.cpp 303, 321 and 347: an embedded message. *)
Definition w_msg {A} (k : N) (fields : A -> list field) (o : option A) : list field :=
  match o with Some a => [(k, VLen (enc_fields (fields a)))] | None => [] end.
(** protos/params.proto 88-100. *)
Definition mo_fields (m : mount_options) : list field :=
  w_bool 1 (mo_read_only m) ++ w_bool 2 (mo_disable_verification m) ++ w_opt 3 (mo_uid m) ++ w_opt 4 (mo_gid m) ++
  w_bool 5 (mo_xattr m) ++ w_bool 6 (mo_case_fold m) ++ w_bool 7 (mo_nfc m) ++ w_bool 8 (mo_plain m) ++
  w_bool 9 (mo_sensitive m) ++ w_int 10 (of_signed (mo_idle m)).
(** protos/params.proto 117-122. *)
Definition bl_fields (b : background_logging) : list field := w_opt 1 (bl_handle b) ++ w_opt 2 (bl_level b).
(** protos/params.proto 102-126. *)
Definition md_fields (d : mount_data) : list field :=
  w_msg 1 dec_fields (md_params d) ++ w_msg 2 mo_fields (md_options d) ++ map (fun a => (3, VLen a)) (md_args d) ++
  w_bytes 4 (md_dir d) ++ w_msg 5 bl_fields (md_logging d).
(** SerializeAsString *)
(** SerializeToString of InternalMountData, sources/commands.cpp 942. *)
Definition ser_md (d : mount_data) : bytes := enc_fields (md_fields d).

(** protos/params.proto 88-100: default values. *)
Definition mo0 := mkMo false false None None false false false false false 0.
(** protos/params.proto 117-122: default values. *)
Definition bl0 := mkBl None None.
(** protos/params.proto 102-126: default values. *)
Definition md0 := mkMd None None [] [] None.
(** protos/params.proto 88-100: parsing a field. *)
Definition mo_step (m : mount_options) (f : field) : option mount_options :=
  let '(mkMo r d u g x c n p s i) := m in
  match f with
  | (1, VInt v) => Some (mkMo (to_bool v) d u g x c n p s i)
  | (2, VInt v) => Some (mkMo r (to_bool v) u g x c n p s i)
  | (3, VInt v) => Some (mkMo r d (Some (to_int32 v)) g x c n p s i)
  | (4, VInt v) => Some (mkMo r d u (Some (to_int32 v)) x c n p s i)
  | (5, VInt v) => Some (mkMo r d u g (to_bool v) c n p s i)
  | (6, VInt v) => Some (mkMo r d u g x (to_bool v) n p s i)
  | (7, VInt v) => Some (mkMo r d u g x c (to_bool v) p s i)
  | (8, VInt v) => Some (mkMo r d u g x c n (to_bool v) s i)
  | (9, VInt v) => Some (mkMo r d u g x c n p (to_bool v) i)
  | (10, VInt v) => Some (mkMo r d u g x c n p s (to_int64 v))
  | _ => Some m
  end.
Definition bl_step (b : background_logging) (f : field) : option background_logging :=
  match f with
  | (1, VInt v) => Some (mkBl (Some (to_int64 v)) (bl_level b))
  | (2, VInt v) => Some (mkBl (bl_handle b) (Some (to_int32 v)))    (* open enumeration: any number is kept *)
  | _ => Some b
  end.
(** Strings (but not bytes) must be UTF-8 when parsed. *)
Definition md_step (d : mount_data) (f : field) : option mount_data :=
  let '(mkMd p o a dir l) := d in
  match f with
  | (1, VLen b) => match embedded dec_step b (match p with Some x => x | None => dec0 end) with Some x => Some (mkMd (Some x) o a dir l) | None => None end
  | (2, VLen b) => match embedded mo_step b (match o with Some x => x | None => mo0 end) with Some x => Some (mkMd p (Some x) a dir l) | None => None end
  | (3, VLen b) => if valid_utf8 b then Some (mkMd p o (a ++ [b]) dir l) else None
  | (4, VLen b) => if valid_utf8 b then Some (mkMd p o a b l) else None
  | (5, VLen b) => match embedded bl_step b (match l with Some x => x | None => bl0 end) with Some x => Some (mkMd p o a dir (Some x)) | None => None end
  | _ => Some d
  end.
(** ParseFromFileDescriptor *)
(** sources/commands.cpp 1197-1218 (ProtoMountCommand). *)
Definition parse_md (bs : bytes) : option mount_data :=
  match parse_message 100 bs with Some l => ofold md_step l md0 | None => None end.

(** ** The command line *)
(** The arguments of MountCommand, commands.cpp 541-651, as TCLAP hands them over (numbers
    in the range of int, --max-idle-seconds of int64).  --fsname to --normalization are
    texts. *)
Record cmdline := mkCl {
  cl_exe : bytes; cl_dir : bytes; cl_mount_point : bytes;
  cl_single : bool; cl_background : bool; cl_insecure : bool; cl_noxattr : bool; cl_verbose : bool; cl_trace : bool;
  cl_opts : list bytes; cl_fsname : bytes; cl_subtype : bytes; cl_noflock : bool; cl_use_ino : bytes;
  cl_normalization : bytes; cl_attr_timeout : Z; cl_plain : bool; cl_uid : Z; cl_gid : Z; cl_sensitive : bool; cl_idle : Z }.

(** What the host answers: whether the repository supports attributes (listxattr, 789-793)
    and the type of its file system (statfs, 685-689) or an error. *)
Record environment := mkEnv { v_xattr : bool; v_fstype : res N }.

(** 526-539 *)
Definition stable_inodes : list N :=
  [0x9123683E; 0x2011BAB0; 0x137D; 0xEF53; 0xEF51; 0x4244; 0x482B; 0x4858; 0x5346544E; 0x01021994; 0x58465342; 0x2FC12FC1].

(** should_use_ino, 668-702.  [fsparams] is the member of that name (652), which nothing
    ever assigns: it is the empty message. *)
Definition fsparams : dec_params := dec0.
Definition should_use_ino (e : environment) (c : cmdline) : res bool :=
  if bytes_eqb (cl_use_ino c) (str "true") then Ok true
  else if bytes_eqb (cl_use_ino c) (str "false") then Ok false
  else if bytes_eqb (cl_use_ino c) (str "auto") then
    match d_format fsparams with
    | FFull _ => Ok true
    | _ => rbind (v_fstype e) (fun t => Ok (existsb (N.eqb t) stable_inodes))
    end
  else Err EInval.

(** 773-815 *)
Definition build_options (e : environment) (c : cmdline) : mount_options :=
  let norm := cl_normalization c in
  mkMo false (cl_insecure c)
    (if (cl_uid c =? -1)%Z then None else Some (cl_uid c))
    (if (cl_gid c =? -1)%Z then None else Some (cl_gid c))
    (if cl_noxattr c then false else v_xattr e)
    (if cl_plain c then false else bytes_eqb norm (str "casefold") || bytes_eqb norm (str "casefold+nfc"))
    (if cl_plain c then false else bytes_eqb norm (str "nfc") || bytes_eqb norm (str "casefold+nfc"))
    (cl_plain c) (cl_sensitive c) (cl_idle c).

(** 817-895; [dec] prints a number. *)
Definition build_args (dec : Z -> bytes) (c : cmdline) (use_ino : bool) : list bytes :=
  let o x := [str "-o"; x] in
  cl_exe c :: o (str "hard_remove") ++ o (str "fsname=" ++ cl_fsname c) ++ o (str "subtype=" ++ cl_subtype c) ++
  o (str "entry_timeout=" ++ dec (cl_attr_timeout c)) ++ o (str "attr_timeout=" ++ dec (cl_attr_timeout c)) ++
  o (str "negative_timeout=" ++ dec (cl_attr_timeout c)) ++ o (str "atomic_o_trunc") ++
  (if cl_single c then [str "-s"] else []) ++ [str "-f"] ++
  (if use_ino then o (str "use_ino") else []) ++ o (str "big_writes") ++
  flat_map o (cl_opts c) ++ [cl_mount_point c].

(** build_internal_mount_data, 705-902; [p] is the decrypted configuration and [handle]
    the native handle of the logger. *)
Definition build (e : environment) (dec : Z -> bytes) (handle : Z) (p : dec_params) (c : cmdline) : res mount_data :=
  rbind (should_use_ino e c) (fun use_ino =>
  Ok (mkMd (Some p) (Some (build_options e c)) (build_args dec c use_ino) (cl_dir c)
       (if cl_background c then
          Some (mkBl (Some handle) (if cl_trace c then Some 0%Z else if cl_verbose c then Some 1%Z else None))
        else None))).

(** ** The file system, internal_mount.cpp *)
Inductive comparison_kind := CmpBinary | CmpCase | CmpNorm | CmpCaseNorm.
(** params_to_dir_name_comparison, 32-49 *)
Definition dir_comparison (u : full_params) : comparison_kind :=
  if u_nocase u && u_nonorm u then CmpCaseNorm else if u_nocase u then CmpCase else if u_nonorm u then CmpNorm else CmpBinary.

(** The file system as it is put together: FullFs from make_file_table 50-112 and
    make_full_format_fuse_high_level_ops 180-208, LiteFs from 209-250. *)
Record full_fs := mkFullFs {
  ff_master : bytes; ff_verify : bool; ff_block : N; ff_iv : N; ff_padding : N; ff_store_time : bool;
  ff_compare : comparison_kind; ff_legacy_io : bool; ff_read_only : bool;
  ff_uid : option Z; ff_gid : option Z; ff_nocase : bool; ff_xattr : bool }.
Record lite_fs := mkLiteFs {
  lf_content : bytes; lf_padding_key : bytes; lf_name : bytes; lf_xattr_key : bytes;
  lf_block : N; lf_iv : N; lf_padding : N; lf_verify : bool; lf_xattr : bool;
  lf_no_op : bool; lf_fold : bool; lf_nfc : bool; lf_threshold : N; lf_suffix : bytes }.
Inductive file_system := FullFs (f : full_fs) | LiteFs (l : lite_fs).

(** from_byte_string, 28-31: a key of another length than 32 is refused (myutils.h, PODArray). *)
Definition from_byte_string (k : bytes) : res bytes := if (length k =? 32)%nat then Ok k else Err EInval.

(** The accessor size_params() of protos/params.proto 40: the default when
    absent. *)
Definition sizes_of (p : dec_params) : size_params := match d_size p with Some s => s | None => size0 end.

(** make_inner_fuse_high_level_ops, 113-130 *)
Definition make_fs (p : dec_params) (m : mount_options) : res file_system :=
  let s := sizes_of p in
  let verify := negb (mo_disable_verification m) in
  match d_format p with
  | FFull u =>
    rbind (from_byte_string (u_master u)) (fun k =>
    Ok (FullFs (mkFullFs k verify (z_block s) (z_iv s) (z_padding s) (u_store_time u) (dir_comparison u) (u_legacy_io u)
                  (mo_read_only m) (mo_uid m) (mo_gid m) (u_nocase u) (mo_xattr m))))
  | FLite l =>
    rbind (from_byte_string (i_content l)) (fun content =>
    rbind (match i_padding l with [] => Ok (zeros 32) | k => from_byte_string k end) (fun padding =>
    rbind (from_byte_string (i_name l)) (fun name =>
    rbind (from_byte_string (i_xattr l)) (fun xattr =>
    Ok (LiteFs (mkLiteFs content padding name xattr (z_block s) (z_iv s) (z_padding s) verify (mo_xattr m)
                  (mo_plain m) (mo_case_fold m) (mo_nfc m) (match i_threshold l with Some t => t | None => 0 end) (i_suffix l)))))))
  | FNone => Err EInval                                  (* "Unsupported format" *)
  end.

(** ** The process that serves the mount *)
Inductive level := LTrace | LVerbose | LInfo | LWarning | LError.
(** proto_to_logger_level, 160-176 *)
Definition level_of (n : Z) : level :=
  if (n =? 0)%Z then LTrace else if (n =? 1)%Z then LVerbose else if (n =? 2)%Z then LInfo
  else if (n =? 3)%Z then LWarning else if (n =? 4)%Z then LError else LInfo.

Record serving := mkServing {
  s_fs : file_system; s_idle : option Z; s_sensitive : bool;  (* make_fuse_high_level_ops, 252-270 *)
  s_args : list bytes; s_dir : bytes;
  s_locks : bool;              (* is_lock_enabled *)
  s_log : option (Z * level)   (* the native handle and level of the logger *)
}.

(** internal_mount, 271-328, in a process with the given lock flag and logger. *)
Definition internal_mount (locks : bool) (log : option (Z * level)) (d : mount_data) : res serving :=
  let m := match md_options d with Some m => m | None => mo0 end in
  let log' := match md_logging d with
              | None => log
              | Some b => match bl_handle b with
                          | None => None
                          | Some h => Some (h, match bl_level b with Some n => level_of n | None => LInfo end)
                          end
              end in
  rbind (make_fs (match md_params d with Some p => p | None => dec0 end) m) (fun fs =>
  Ok (mkServing fs (if (0 <? mo_idle m)%Z then Some (mo_idle m) else None) (mo_sensitive m) (md_args d) (md_dir d) locks log')).

(** The level of the logger of the command, recreate_logger 920-931. *)
Definition cmd_level (c : cmdline) : level := if cl_trace c then LTrace else if cl_verbose c then LVerbose else LInfo.

(** MountCommand::execute, 933-945, and the child, ProtoMountCommand::execute 1207-1217.
    The flag of lock_enabled.cpp starts as true in every process; parse_cmdline, 914-918,
    changes it in the process of the command.  The child inherits the descriptor
    [handle]. *)
Definition mount (e : environment) (dec : Z -> bytes) (handle : Z) (p : dec_params) (c : cmdline) : res serving :=
  rbind (build e dec handle p c) (fun d =>
  if cl_background c then
    match parse_md (ser_md d) with
    | None => Err EInval
    | Some d' => internal_mount true (Some (2%Z, LInfo)) d'
    end
  else internal_mount (negb (cl_noflock c)) (Some (handle, cmd_level c)) d).

(** The command waits for its child, 946-958: the observations are, in order, whether the
    mount point is mounted and the exit code of the child if it has ended. *)
Fixpoint wait_for_child (observations : list (bool * option Z)) : option Z :=
  match observations with
  | [] => None                                           (* still waiting *)
  | (true, _) :: _ => Some 0%Z
  | (false, Some code) :: _ => Some (if (code =? 0)%Z then -1 else code)%Z
  | (false, None) :: l => wait_for_child l
  end.
