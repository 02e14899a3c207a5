(** A file object of the full format: sources/files.h and sources/files.cpp (class
    FileBase and its subclasses) over the encrypted stream of FullStreamModel, the
    padding of AdaptorModel, the attributes of AttrModel and, for directories, the
    B-tree of GBtreeModel.

    Simplifications.  The class of an object is what its mode says (in a repository
    written by securefs the directory entry an object is opened by agrees with it).
    The stored pair of files is a pair of byte arrays.  [rnd] gives the random bytes
    drawn at a position; an object starts at the position it is told. *)
From Verif Require Import Base StreamSpec BlockModel LiteModel FullStreamModel AdaptorModel AttrModel BtreeModel GBtreeModel FullFsModel.
Local Open Scope list_scope.

(** What an object is given. *)
Record senv := mkSenv {
  v_aead : aead;
  v_hmac : bytes -> bytes -> bytes;
  (* the keys and the padding size derived from the master key and the id,
     FileBase::FileBase, files.cpp 136-147 and 171-179 *)
  v_dkey : bytes -> bytes;
  v_mkey : bytes -> bytes;
  v_pad : bytes -> nat;
  v_bs : nat;                        (* block size *)
  v_iv : nat;                        (* IV size *)
  v_check : bool;
  v_sparse : bool;                   (* is_sparse of the data stream *)
  v_store : bool;                    (* store_time *)
  v_rnd : nat -> nat -> bytes;       (* random bytes: position, how many *)
  v_fuel : nat;
  v_cmp : bytes -> bytes -> comparison;
  v_junk : N -> bytes;               (* what uninitialised page buffers hold, btree_dir.cpp *)
  v_uid : N;                         (* of the process *)
  v_gid : N;
  v_clock : nat -> timespec          (* successive readings of the clock *)
}.

Section Obj.
Variable E : senv.
Notation A := (v_aead E).
Notation hmac := (v_hmac E).
Notation dkey := (v_dkey E).
Notation mkey := (v_mkey E).
Notation pad := (v_pad E).
Notation bs := (v_bs E).
Notation iv_size := (v_iv E).
Notation check := (v_check E).
Notation sparse := (v_sparse E).
Notation store_time := (v_store E).
Notation rnd := (v_rnd E).
Notation iv_fuel := (v_fuel E).
Notation cmp := (v_cmp E).
Notation junk := (v_junk E).
Notation proc_uid := (v_uid E).
Notation proc_gid := (v_gid E).

(** m_stream before padding and after, files.cpp 148-160 and 179.  No padding is
    padding of length zero. *)
Definition o_base (id : bytes) : strm :=
  mkStrm full_st (bb_step (full_backend A (dkey id) id bs iv_size (attr_header_size store_time) check sparse rnd iv_fuel)).
Definition o_strm (id : bytes) : strm := padded (o_base id) (pad id).

(** sources/files.h 46-64 and the node cache of sources/btree_dir.h. *)
Record fob := mkFob { fo_s : full_st; fo_attrs : attrs; fo_dirty : bool; fo_cache : list (N * node) }.

(** FileBase::FileBase, files.cpp 117-181. *)
Definition fo_open (id data meta : bytes) (k : nat) : res fob :=
  rbind (full_open hmac (mkey id) id check data meta k) (fun s =>
  rbind (load_attrs A (dkey id) id iv_size store_time s) (fun '(a, d) =>
  match padded_open (o_base id) (pad id) (rnd k (pad id)) (mkFull (f_data s) (f_meta s) (f_dirty s) (S k)) with
  | (s1, ODone) => Ok (mkFob s1 a d [])
  | (_, OFail e) => Err e
  | (_, _) => Err EUndef
  end)).

(** initialize_empty, files.cpp 83-115, with the mode of [create], full_format.cpp 592. *)
Definition fo_init (now : timespec) (perm ty : N) (f : fob) : fob :=
  mkFob (fo_s f) (initialize_empty store_time now proc_uid proc_gid (perm mod 512 + ty * 4096)%N u32_max u32_max) (fo_dirty f) (fo_cache f).

Definition fo_type (f : fob) : N := (a_mode (fo_attrs f) / 4096)%N. (* get_real_type, files.cpp 220 *)

(** update_atime_helper, update_mtime_helper, update_ctime_helper, files.h 283-310. *)
Definition atime_due (a : attrs) : bool :=
  store_time && ((tv_sec (a_atime a) <? tv_sec (a_mtime a))%Z || (tv_sec (a_atime a) <? tv_sec (a_ctime a))%Z).
Definition fo_atime (now : timespec) (f : fob) : fob :=
  mkFob (fo_s f) (update_atime store_time now (fo_attrs f)) (fo_dirty f || atime_due (fo_attrs f)) (fo_cache f).
Definition fo_mtime (now : timespec) (f : fob) : fob :=
  mkFob (fo_s f) (update_mtime store_time now (fo_attrs f)) (fo_dirty f || store_time) (fo_cache f).

(** set_mode and set_nlink, files.h 203-210 and 236-243; unlink, 330-334. *)
Definition fo_set_mode (now : timespec) (v : N) (f : fob) : fob :=
  if (a_mode (fo_attrs f) =? v)%N then f
  else mkFob (fo_s f) (update_ctime store_time now (AttrModel.set_mode v (fo_attrs f))) true (fo_cache f).
Definition fo_set_nlink (now : timespec) (v : N) (f : fob) : fob :=
  if (a_nlink (fo_attrs f) =? v)%N then f
  else mkFob (fo_s f) (update_ctime store_time now (AttrModel.set_nlink v (fo_attrs f))) true (fo_cache f).
Definition fo_unlink (f : fob) : fob :=
  mkFob (fo_s f) (AttrModel.set_nlink (dec32 (a_nlink (fo_attrs f))) (fo_attrs f)) true (fo_cache f).

(** set_uid and set_gid, files.h 214-232. *)
Definition fo_set_uid (now : timespec) (v : N) (f : fob) : fob :=
  if (a_uid (fo_attrs f) =? v)%N then f
  else mkFob (fo_s f) (update_ctime store_time now (AttrModel.set_uid v (fo_attrs f))) true (fo_cache f).
Definition fo_set_gid (now : timespec) (v : N) (f : fob) : fob :=
  if (a_gid (fo_attrs f) =? v)%N then f
  else mkFob (fo_s f) (update_ctime store_time now (AttrModel.set_gid v (fo_attrs f))) true (fo_cache f).
(** utimens, files.cpp 335-358.  Without stored times the host's are set, which are not
    modelled. *)
Definition fo_utimens (ts : option (timespec * timespec)) (unset : timespec) (f : fob) : fob :=
  if store_time then
    let '(t0, t1) := match ts with Some p => p | None => (unset, unset) end in
    mkFob (fo_s f) (set_ctime unset (set_mtime t1 (set_atime t0 (fo_attrs f)))) true (fo_cache f)
  else f.
(** What vchmod, vchown and vutimens do to the file, full_format.cpp 256, 270-273, 389. *)
Definition fo_chattr (now : timespec) (c : chattr) (f : fob) : fob :=
  match c with
  | ChMode _ => fo_set_mode now (new_mode c (a_mode (fo_attrs f))) f
  | ChOwner uid gid =>
    let f1 := if (uid =? u32_max)%N then f else fo_set_uid now uid f in
    if (gid =? u32_max)%N then f1 else fo_set_gid now gid f1
  | ChTimes ts unset => fo_utimens ts unset f
  end.

(** ** The contents, m_stream *)
(** A call on m_stream, sources/files.h 73 and 378-401. *)
Definition fo_call (id : bytes) (o : sop) (f : fob) : fob * sout :=
  let '(s, r) := sm_step (o_strm id) (fo_s f) o in (mkFob s (fo_attrs f) (fo_dirty f) (fo_cache f), r).
(** Helper (no code): a result of a stream call. *)
Definition out_unit (r : sout) : res unit := match r with ODone => Ok tt | OFail e => Err e | _ => Err EUndef end.
(** Helper (no code): a result of a stream call. *)
Definition out_bytes (r : sout) : res bytes := match r with OData d => Ok d | OFail e => Err e | _ => Err EUndef end.

(** m_stream->size (), in stat, files.cpp 222-243. *)
Definition fo_size (id : bytes) (f : fob) : fob * res nat :=
  let '(f1, r) := fo_call id SSize f in (f1, match r with OSize n => Ok n | OFail e => Err e | _ => Err EUndef end).
(** RegularFile::read, write, truncate, files.h 378-401. *)
Definition fo_read (id : bytes) (now : timespec) (off len : nat) (f : fob) : fob * res bytes :=
  let '(f1, r) := fo_call id (SRead off len) (fo_atime now f) in (f1, out_bytes r).
Definition fo_write (id : bytes) (now : timespec) (off : nat) (d : bytes) (f : fob) : fob * res unit :=
  let '(f1, r) := fo_call id (SWrite off d) (fo_mtime now f) in (f1, out_unit r).
Definition fo_truncate (id : bytes) (now : timespec) (n : nat) (f : fob) : fob * res unit :=
  let '(f1, r) := fo_call id (SResize n) (fo_mtime now f) in (f1, out_unit r).
(** Symlink::get and set, files.h 413-426. *)
Definition fo_link_get (id : bytes) (now : timespec) (f : fob) : fob * res bytes :=
  match fo_size id f with
  | (f1, Err e) => (f1, Err e)
  | (f1, Ok n) =>
    match fo_call id (SRead 0 n) f1 with
    | (f2, OData d) => (fo_atime now f2, Ok d)
    | (f2, r) => (f2, out_bytes r)
    end
  end.
Definition fo_link_set (id : bytes) (now : timespec) (d : bytes) (f : fob) : fob * res unit :=
  let '(f1, r) := fo_call id (SWrite 0 d) (fo_mtime now f) in (f1, out_unit r).

(** ** Directories *)
(** Helper: the members BtreeDirectory works on (sources/files.h 75-97). *)
Definition to_g (id : bytes) (f : fob) : gbt (o_strm id) :=
  mkG (o_strm id) (fo_s f) (a_root_page (fo_attrs f)) (a_start_free (fo_attrs f)) (a_num_free (fo_attrs f)) (fo_dirty f) (fo_cache f).
(** sources/files.h 77-97. *)
Definition set_words (r fr nf : N) (a : attrs) : attrs :=
  mkAttrs (a_mode a) (a_uid a) (a_gid a) (a_nlink a) r fr nf (a_atime a) (a_mtime a) (a_ctime a) (a_birth a).
(** Helper: the same, back. *)
Definition of_g (id : bytes) (f : fob) (g : gbt (o_strm id)) : fob :=
  mkFob (g_stream _ g) (set_words (g_root _ g) (g_free _ g) (g_nfree _ g) (fo_attrs f)) (g_dirty _ g) (g_cache _ g).
(** Helper: a method of BtreeDirectory (sources/btree_dir.cpp) on the object. *)
Definition fo_dir {X} (id : bytes) (m : GM (o_strm id) X) (f : fob) : fob * res X :=
  let '(g, r) := m (to_g id f) in (of_g id f g, r).

(** Directory::get_entry, add_entry, remove_entry, iterate_over_entries, files.h 456-492,
    and BtreeDirectory::empty, btree_dir.cpp. *)
Definition fo_get (id : bytes) (now : timespec) (name : bytes) (f : fob) : fob * res (option entry) :=
  fo_dir id (g_get_entry (o_strm id) cmp name) (fo_atime now f).
Definition fo_add (id : bytes) (now : timespec) (name x : bytes) (ty : N) (f : fob) : fob * res bool :=
  fo_dir id (g_add_entry (o_strm id) cmp name x ty) (fo_mtime now f).
Definition fo_remove (id : bytes) (now : timespec) (name : bytes) (f : fob) : fob * res (option entry) :=
  fo_dir id (g_remove_entry (o_strm id) cmp name) (fo_mtime now f).
Definition fo_list (id : bytes) (now : timespec) (f : fob) : fob * res (list entry) :=
  fo_dir id (g_list_entries (o_strm id)) (fo_atime now f).
Definition fo_empty (id : bytes) (f : fob) : fob * res bool := fo_dir id (g_is_empty (o_strm id)) f.

(** ** FileBase::flush, files.cpp 247-276, with BtreeDirectory::subflush *)
Definition fo_subflush (id : bytes) (f : fob) : fob * res unit :=
  if (fo_type f =? TDIR)%N then fo_dir id (g_subflush (o_strm id) cmp junk) f else (f, Ok tt).
Definition fo_header (id : bytes) (f : fob) : fob * res unit :=
  if fo_dirty f then
    match full_write_header A (dkey id) id iv_size (attr_header_size store_time) rnd (pack_attrs store_time (fo_attrs f)) (fo_s f) with
    | (s, Ok tt) => (mkFob s (fo_attrs f) false (fo_cache f), Ok tt)
    | (s, Err e) => (mkFob s (fo_attrs f) true (fo_cache f), Err e)
    end
  else (f, Ok tt).
Definition fo_flush (id : bytes) (f : fob) : fob * res unit :=
  match fo_subflush id f with
  | (f1, Err e) => (f1, Err e)
  | (f1, Ok tt) =>
    match fo_header id f1 with
    | (f2, Err e) => (f2, Err e)
    | (f2, Ok tt) =>
      let '(s, r) := full_flush hmac (mkey id) id (fo_s f2) in
      (mkFob s (fo_attrs f2) (fo_dirty f2) (fo_cache f2), r)
    end
  end.
End Obj.
