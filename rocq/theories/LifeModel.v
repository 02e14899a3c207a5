(** The life of a repository: after [create] its owner mounts it, uses it, unmounts it and
    changes the password, in any order, with any options, and some of the commands are
    killed.  Put together from ParamsModel (the configuration file), MountModel (from the
    configuration and the command line to the file system), LiteFsModel and RepoModel (the
    file system).

    Left out: kills of a mounted process (C75 and C76), the other commands, and that the
    configuration may lie in the same host directory as the stored files (its name is not
    one of theirs, C30 and C50). *)
From Coq Require Import ZArith.
From Verif Require Import Base TextModel StreamSpec BlockModel LiteModel NameModel TableIoModel ProtoModel ParamsModel MountModel LiteFsModel ObjModel FullStreamModel RepoModel RepoSpec.
Local Open Scope list_scope.

(** The secrets: the password and the content of the key file, if there is one
    (sources/commands.cpp 166-190). *)
Definition secrets := (bytes * option bytes)%type.

Section Life.
Variable C : pcrypto.
Variable json : bytes -> option legacy_params.
Variable config : bytes.               (* --config *)
Variable env : environment.
Variable dec : Z -> bytes.
Variable handle : Z.
(** What the host stores for the repository, the calls and their answers. *)
Variables Disk Op Ans : Type.
(** A mounted file system serves calls until it is unmounted. *)
Variable serve : file_system -> Disk -> list Op -> Disk * res (list Ans).

(** The commands: chpass (sources/commands.cpp 474-501), which may be killed after
    [killed] changes to the host's files, and mount (933-945, 1207-1217), up to the
    unmount. *)
Inductive command :=
| CChpass (w : weather) (suffix : bytes) (old : secrets) (a : argon_params) (new : secrets) (iv salt : bytes) (killed : option nat)
| CMount (who : secrets) (c : cmdline) (ops : list Op).
(** What the user sees of them. *)
Inductive seen :=
| SDone (r : res unit)
| SKilled
| SServed (r : res (list Ans)).

(** MountCommand::execute with its child, sources/commands.cpp 933-945 and 1207-1217. *)
Definition run_mount (who : secrets) (c : cmdline) (ops : list Op) (h : host) (d : Disk) : Disk * res (list Ans) :=
  match open_repo C json config (fst who) (snd who) h with
  | Err e => (d, Err e)
  | Ok p =>
    match MountModel.mount env dec handle p c with
    | Err e => (d, Err e)
    | Ok s => serve (s_fs s) d ops
    end
  end.
(** One command after another, sources/commands.cpp 1438-1452. *)
Definition command_step (x : command) (s : host * Disk) : (host * Disk) * seen :=
  let '(h, d) := s in
  match x with
  | CChpass w suffix old a new iv salt killed =>
    let r := chpass C json w config suffix (fst old) (snd old) a (fst new) (snd new) iv salt h in
    match killed with
    | None => ((last_state h r, d), SDone (snd r))
    | Some n => ((nth n (h :: fst r) (last_state h r), d), SKilled)
    end
  | CMount who c ops =>
    let '(d', r) := run_mount who c ops h d in ((h, d'), SServed r)
  end.
(** Helper (no code): all of them. *)
Fixpoint life (xs : list command) (s : host * Disk) : list seen :=
  match xs with
  | [] => []
  | x :: xs' => let '(s', r) := command_step x s in r :: life xs' s'
  end.
End Life.

(** ** The file system of the lite format *)
(** What the keys of the repository go into: AES-SIV and Blake2b for names (sources/
    lite_format.cpp 1227-1251), AES-GCM for contents (sources/lite_stream.cpp 34-38, 64-78), the
    padding (sources/lite_stream.cpp 40-47), and the process: its random numbers, whether
    the host knows holes, and what it says of long link texts. *)
Record lite_world := mkLw {
  lw_cmac : bytes -> bytes -> bytes; lw_stream : bytes -> bytes -> nat -> bytes; lw_blake : bytes -> bytes -> bytes;
  lw_fold : bytes -> res bytes; lw_nfc : bytes -> res bytes;
  lw_aead : aead; lw_session : bytes -> bytes -> bytes; lw_padding : bytes -> N -> bytes -> nat;
  lw_rnd : nat -> nat -> bytes; lw_fuel : nat; lw_sparse : bool; lw_link_max : nat }.
(** make_name_translator as it is called, sources/internal_mount.cpp 113-130. *)
Definition names_with (W : lite_world) (l : lite_fs) : translator :=
  make_translator (lw_cmac W (lf_name l)) (lw_stream W (lf_name l)) (lw_blake W (lf_name l)) (lf_no_op l) (N.to_nat (lf_threshold l)) (lf_suffix l)
    (if lf_nfc l then Some (lw_nfc W) else None) (if lf_fold l then Some (lw_fold W) else None).
(** FuseHighLevelOps of the lite format with the StreamOpener made at
    sources/internal_mount.cpp 113-130. *)
Definition lite_call (W : lite_world) (l : lite_fs) : lst -> vop -> lst * vout :=
  v_step (lw_aead W) (N.to_nat (lf_block l)) (N.to_nat (lf_iv l)) (lf_verify l) (lw_sparse W) (lw_session W (lf_content l))
    (lw_padding W (lf_padding_key l) (lf_padding l)) (0 <? lf_padding l)%N (lw_rnd W) (lw_fuel W) (names_with W l) (lw_link_max W).
(** The main loop, sources/internal_mount.cpp 271-328: calls until the unmount, which
    closes what is open. *)
Definition lite_serve (W : lite_world) (f : file_system) (d : lst) (ops : list vop) : lst * res (list vout) :=
  match f with
  | LiteFs l => let '(d', outs) := run_ops (lite_call W l) d ops in (fst (lite_call W l d' LiteFsModel.VRemount), Ok outs)
  | FullFs _ => (d, Err EInval)
  end.

(** ** The file system of the full format *)
(** The keys of a file are derived from the master key and its id, the padding likewise
    (sources/files.cpp 136-179); the rest is the process. *)
Record full_world := mkFw {
  fw_aead : aead; fw_hmac : bytes -> bytes -> bytes;
  fw_dkey : bytes -> bytes -> bytes; fw_mkey : bytes -> bytes -> bytes; fw_padding : bytes -> N -> bytes -> nat;
  fw_compare : comparison_kind -> bytes -> bytes -> comparison;
  fw_rnd : nat -> nat -> bytes; fw_fuel : nat; fw_sparse : bool; fw_junk : N -> bytes;
  fw_uid : N; fw_gid : N; fw_clock : nat -> AttrModel.timespec }.
(** make_file_table, sources/internal_mount.cpp 50-112. *)
Definition full_env (W : full_world) (f : full_fs) : senv :=
  mkSenv (fw_aead W) (fw_hmac W) (fw_dkey W (ff_master f)) (fw_mkey W (ff_master f)) (fw_padding W (ff_master f) (ff_padding f))
    (N.to_nat (ff_block f)) (N.to_nat (ff_iv f)) (ff_verify f) (fw_sparse W) (ff_store_time f) (fw_rnd W) (fw_fuel W)
    (fw_compare W (ff_compare f)) (fw_junk W) (fw_uid W) (fw_gid W) (fw_clock W).
(** Helper (no code): the calls one after another. *)
Fixpoint r_all_of (E : senv) (ops : list rop) (rp : repo) : repo :=
  match ops with [] => rp | o :: ops' => r_all_of E ops' (fst (r_apply E o rp)) end.
(** The main loop, sources/internal_mount.cpp 271-328: the root is opened or made
    (sources/file_table_v2.cpp 21-40), calls are served, and at the end everything in
    memory is written back.  What the host stores, and a count of the readings of clock
    and random numbers. *)
Definition full_serve (W : full_world) (f : file_system) (d : list (bytes * rfile) * nat) (ops : list rop) : (list (bytes * rfile) * nat) * res (list (res FullFsModel.fout)) :=
  match f with
  | FullFs f =>
    let E := full_env W f in
    match RepoModel.mount E (fst d) (snd d) with
    | (_, Err e) => (d, Err e)
    | (rp, Ok tt) => let rp' := r_all_of E ops rp in ((unmount E rp', rp_time rp'), Ok (r_answers E ops rp))
    end
  | LiteFs _ => (d, Err EInval)
  end.
