(** What is claimed about mounting, in terms of MountModel's inputs and outputs. *)
From Coq Require Import Strings.String ZArith.
From Verif Require Import Base TextModel ProtoModel ParamsModel ParamsSpec MountModel.
Local Open Scope list_scope.

(** The same command line in the foreground and in the background. *)
Definition in_background (b : bool) (c : cmdline) : cmdline :=
  mkCl (cl_exe c) (cl_dir c) (cl_mount_point c) (cl_single c) b (cl_insecure c) (cl_noxattr c) (cl_verbose c) (cl_trace c)
    (cl_opts c) (cl_fsname c) (cl_subtype c) (cl_noflock c) (cl_use_ino c) (cl_normalization c) (cl_attr_timeout c) (cl_plain c)
    (cl_uid c) (cl_gid c) (cl_sensitive c) (cl_idle c).

(** Numbers as TCLAP gives them (int, int64) and texts of modest size in UTF-8. *)
Definition is_int (z : Z) : Prop := (-2147483648 <= z < 2147483648)%Z.
Definition is_int64 (z : Z) : Prop := (-9223372036854775808 <= z < 9223372036854775808)%Z.
Definition short_text (b : bytes) : Prop := is_text b /\ (N.of_nat (length b) < 1048576)%N.
Definition plain_cmdline (c : cmdline) : Prop :=
  short_text (cl_exe c) /\ short_text (cl_dir c) /\ short_text (cl_mount_point c) /\ Forall short_text (cl_opts c) /\
  short_text (cl_fsname c) /\ short_text (cl_subtype c) /\
  is_int (cl_uid c) /\ is_int (cl_gid c) /\ is_int64 (cl_idle c).

(** Everything about a file system that decides what is stored and how it is read back:
    keys, sizes, the layout of the repository and what is recorded with a file.  Left
    out are the switches of a single mount and the treatment of names. *)
Definition storage (f : file_system) : list bytes * list N * (bool * bool * bool * option comparison_kind) * bytes :=
  match f with
  | FullFs f => ([ff_master f], [ff_block f; ff_iv f; ff_padding f], (ff_store_time f, ff_legacy_io f, ff_nocase f, Some (ff_compare f)), [])
  | LiteFs l => ([lf_content l; lf_padding_key l; lf_name l; lf_xattr_key l], [lf_block l; lf_iv l; lf_padding l; lf_threshold l],
                 (false, false, false, None), lf_suffix l)
  end.
(** How names are treated (lite format). *)
Definition naming (f : file_system) : bool * bool * bool :=
  match f with FullFs _ => (false, false, false) | LiteFs l => (lf_no_op l, lf_fold l, lf_nfc l) end.

(** The four modes that --normalization documents. *)
Definition normalization_mode (s : bytes) (fold nfc : bool) : Prop :=
  (s = str "none" /\ fold = false /\ nfc = false) \/ (s = str "casefold" /\ fold = true /\ nfc = false) \/
  (s = str "nfc" /\ fold = false /\ nfc = true) \/ (s = str "casefold+nfc" /\ fold = true /\ nfc = true).

(** Option "-o x" among the arguments for FUSE. *)
Definition has_option (x : bytes) (args : list bytes) : Prop := exists a b, args = a ++ str "-o" :: x :: b.

(** A -1 stands for no override. *)
Definition override (z : Z) (o : option Z) : Prop := (z = (-1)%Z /\ o = None) \/ (z <> (-1)%Z /\ o = Some z).

(** Types of file systems on Linux whose inode numbers are taken to be stable, by their
    magic numbers: btrfs, exFAT, ext, ext2/3/4, old ext2, HFS, HFS+, HFSX, NTFS, tmpfs,
    XFS, ZFS. *)
Definition stable_type (t : N) : Prop :=
  In t [2435016766; 538032816; 4989; 61267; 61265; 16964; 18475; 18520; 1397118030; 16914836; 1481003842; 801189825]%N.
(** Whether the file system's own inode numbers are to be shown. *)
Definition own_inodes (e : environment) (c : cmdline) (b : bool) : Prop :=
  (cl_use_ino c = str "true" /\ b = true) \/ (cl_use_ino c = str "false" /\ b = false) \/
  (cl_use_ino c = str "auto" /\ exists t, v_fstype e = Ok t /\ (b = true <-> stable_type t)).
