(** Attributes of a full-format file: sources/files.h and sources/files.cpp
    (class FileBase). *)
From Verif Require Import Base CodecModel StreamSpec BlockModel LiteModel FullStreamModel.

(** [fuse_timespec]: seconds are a signed 64-bit number, nanoseconds are kept as
    the unsigned 32-bit number the format stores. *)
Record timespec := mkTs { tv_sec : Z; tv_nsec : N }.

(** [m_flags[0..6]] and the four times, files.h 50-57, accessors files.h 68-95
    and 200-262. *)
Record attrs := mkAttrs {
  a_mode : N; a_uid : N; a_gid : N; a_nlink : N;
  a_root_page : N; a_start_free : N; a_num_free : N;
  a_atime : timespec; a_mtime : timespec; a_ctime : timespec; a_birth : timespec
}.

(** Helper: static_cast<uint32_t>(-1), used at sources/files.cpp 97-98 and 187.
    *)
Definition u32_max : N := 4294967295.

(** files.h 36-41. *)
Definition num_flags : nat := 7.
Definition attr_header_size (store_time : bool) : nat := if store_time then 80 else 32.
Definition atime_offset : nat := num_flags * 4.
Definition mtime_offset : nat := atime_offset + 8 + 4.
Definition ctime_offset : nat := mtime_offset + 8 + 4.
Definition btime_offset : nat := ctime_offset + 8 + 4.

(** Conversion of a signed 64-bit value to [uint64_t] and back. *)
Definition to_u64 (z : Z) : N := Z.to_N (z mod 2 ^ 64).
Definition of_u64 (n : N) : Z := if (n <? 2 ^ 63)%N then Z.of_N n else (Z.of_N n - 2 ^ 64)%Z.

(** sources/files.h: m_flags[0] to m_flags[6] in order (layout at
    sources/files.cpp 15-37). *)
Definition flags_of (a : attrs) : list N :=
  [a_mode a; a_uid a; a_gid a; a_nlink a; a_root_page a; a_start_free a; a_num_free a].

(** sources/files.cpp 255-258: the loop writing the flags. *)
Fixpoint put_flags (h : bytes) (i : nat) (fs : list N) : bytes :=
  match fs with
  | [] => h
  | f :: fs' => put_flags (put_at h (i * 4) (to_le 4 f)) (S i) fs'
  end.

(** sources/files.cpp 261-269: one of the four times, seconds then nanoseconds.
    *)
Definition put_time (h : bytes) (off : nat) (t : timespec) : bytes :=
  put_at (put_at h off (to_le 8 (to_u64 (tv_sec t)))) (off + 8) (to_le 4 (tv_nsec t)).

(** The header written by [FileBase::flush], files.cpp 250-270. *)
Definition pack_attrs (store_time : bool) (a : attrs) : bytes :=
  let h := put_flags (zeros (attr_header_size store_time)) 0 (flags_of a) in
  if store_time then
    put_time (put_time (put_time (put_time h atime_offset (a_atime a)) mtime_offset (a_mtime a))
                       ctime_offset (a_ctime a)) btime_offset (a_birth a)
  else h.

(** sources/files.cpp 200. *)
Definition get_flag (h : bytes) (i : nat) : N := from_le (arr_read h (i * 4) 4).
(** sources/files.cpp 204-215: one of the four times. *)
Definition get_time (h : bytes) (off : nat) : timespec :=
  mkTs (of_u64 (from_le (arr_read h off 8))) (from_le (arr_read h (off + 8) 4)).

(** Member initialisers of the times, files.h 55-56. *)
Definition zero_time : timespec := mkTs 0 0.

(** [FileBase::read_header], files.cpp 183-218, given what the stream returned.
    Also returns whether the object is dirty afterwards ([set_num_free_page]
    sets the flag).  Without stored times the four times keep their initial
    value. *)
Definition unpack_attrs (store_time : bool) (h : option bytes) : attrs * bool :=
  match h with
  | None => (mkAttrs u32_max u32_max u32_max u32_max u32_max u32_max 0
               zero_time zero_time zero_time zero_time, true)
  | Some h =>
      (mkAttrs (get_flag h 0) (get_flag h 1) (get_flag h 2) (get_flag h 3)
               (get_flag h 4) (get_flag h 5) (get_flag h 6)
               (if store_time then get_time h atime_offset else zero_time)
               (if store_time then get_time h mtime_offset else zero_time)
               (if store_time then get_time h ctime_offset else zero_time)
               (if store_time then get_time h btime_offset else zero_time), false)
  end.

(** Loading the attributes from an opened file, files.cpp 189-192. *)
Definition load_attrs (A : aead) (dkey id : bytes) (iv_size : nat) (store_time : bool) (s : full_st) : res (attrs * bool) :=
  rmap (unpack_attrs store_time)
    (full_read_header A dkey id iv_size (attr_header_size store_time) (attr_header_size store_time) s).

(** ** Operations that touch attributes *)

(** [initialize_empty], files.cpp 83-115.  [now] is the clock reading,
    [proc_uid]/[proc_gid] the ids of the process.  Link count one, no pages. *)
Definition initialize_empty (store_time : bool) (now : timespec) (proc_uid proc_gid mode uid gid : N) : attrs :=
  let t := if store_time then now else zero_time in
  mkAttrs mode (if (uid =? u32_max)%N then proc_uid else uid) (if (gid =? u32_max)%N then proc_gid else gid)
          1 u32_max u32_max 0 t t t t.

(** sources/files.h 265-269, the assignment. *)
Definition set_atime t a := mkAttrs (a_mode a) (a_uid a) (a_gid a) (a_nlink a) (a_root_page a) (a_start_free a) (a_num_free a) t (a_mtime a) (a_ctime a) (a_birth a).
(** sources/files.h 271-275, the assignment. *)
Definition set_mtime t a := mkAttrs (a_mode a) (a_uid a) (a_gid a) (a_nlink a) (a_root_page a) (a_start_free a) (a_num_free a) (a_atime a) t (a_ctime a) (a_birth a).
(** sources/files.h 277-281, the assignment. *)
Definition set_ctime t a := mkAttrs (a_mode a) (a_uid a) (a_gid a) (a_nlink a) (a_root_page a) (a_start_free a) (a_num_free a) (a_atime a) (a_mtime a) t (a_birth a).
(** sources/files.h 207, the assignment alone. *)
Definition set_mode v a := mkAttrs v (a_uid a) (a_gid a) (a_nlink a) (a_root_page a) (a_start_free a) (a_num_free a) (a_atime a) (a_mtime a) (a_ctime a) (a_birth a).
(** sources/files.h 218, the assignment alone. *)
Definition set_uid v a := mkAttrs (a_mode a) v (a_gid a) (a_nlink a) (a_root_page a) (a_start_free a) (a_num_free a) (a_atime a) (a_mtime a) (a_ctime a) (a_birth a).
(** sources/files.h 229, the assignment alone. *)
Definition set_gid v a := mkAttrs (a_mode a) (a_uid a) v (a_nlink a) (a_root_page a) (a_start_free a) (a_num_free a) (a_atime a) (a_mtime a) (a_ctime a) (a_birth a).
(** sources/files.h 240, the assignment alone. *)
Definition set_nlink v a := mkAttrs (a_mode a) (a_uid a) (a_gid a) v (a_root_page a) (a_start_free a) (a_num_free a) (a_atime a) (a_mtime a) (a_ctime a) (a_birth a).

(** [update_atime_helper], files.h 283-291: compares whole seconds. *)
Definition update_atime (store_time : bool) (now : timespec) (a : attrs) : attrs :=
  if store_time && ((tv_sec (a_atime a) <? tv_sec (a_mtime a))%Z || (tv_sec (a_atime a) <? tv_sec (a_ctime a))%Z)
  then set_atime now a else a.

(** [update_mtime_helper], files.h 293-301. *)
Definition update_mtime (store_time : bool) (now : timespec) (a : attrs) : attrs :=
  if store_time then set_ctime now (set_mtime now a) else a.

(** [update_ctime_helper], files.h 303-310. *)
Definition update_ctime (store_time : bool) (now : timespec) (a : attrs) : attrs :=
  if store_time then set_ctime now a else a.

(** What an API call does to the attributes of the file it is applied to. *)
Inductive attr_op : Type :=
| ARead        (* RegularFile::read 378-382, Directory::get_entry 456-461 and iterate_over_entries 488-492, Symlink::get 412-419 *)
| AModify      (* RegularFile::write 384-389, truncate 396-400, Directory::add_entry 463-468 and remove_entry 474-483, Symlink::set 421-425 *)
| AChmod (mode : N)    (* set_mode 203-210, called by vchmod, full_format.cpp 248-258 *)
| AChown (uid gid : N) (* set_uid, set_gid 214-232, called by vchown, full_format.cpp 259-275 *)
| ALink                (* set_nlink (get_nlink () + 1), full_format.cpp 298-302 *)
| AUnlink              (* unlink, files.h 330-334 *)
| AUtimens (ts : option (timespec * timespec)). (* utimens, files.cpp 335-358 *)

(** [set_mode], [set_uid], [set_gid], [set_nlink]: nothing happens when the value
    is unchanged. *)
(** sources/files.h 203-243: the four setters have this one shape. *)
Definition set_if (get : attrs -> N) (set : N -> attrs -> attrs) (store_time : bool) (now : timespec) (v : N) (a : attrs) : attrs :=
  if (get a =? v)%N then a else update_ctime store_time now (set v a).

(** [junk] is the indeterminate value of the uninitialised local
    [fuse_timespec current_time] in [utimens], files.cpp 339. *)
Definition attr_step (store_time : bool) (junk : timespec) (a : attrs) (ev : attr_op * timespec) : attrs :=
  let '(op, now) := ev in
  match op with
  | ARead => update_atime store_time now a
  | AModify => update_mtime store_time now a
  | AChmod m => set_if a_mode set_mode store_time now (N.lor (N.land (a_mode a) (N.ldiff (N.ones 32) 511)) (N.land m 511)) a
  | AChown u g =>
      let a1 := if (u =? u32_max)%N then a else set_if a_uid set_uid store_time now u a in
      if (g =? u32_max)%N then a1 else set_if a_gid set_gid store_time now g a1
  | ALink => set_if a_nlink set_nlink store_time now ((a_nlink a + 1) mod 2 ^ 32)%N a
  | AUnlink => set_nlink ((a_nlink a + u32_max) mod 2 ^ 32)%N a
  | AUtimens ts =>
      if store_time then
        match ts with
        | Some (t0, t1) => set_ctime junk (set_mtime t1 (set_atime t0 a))
        | None => set_ctime junk (set_mtime junk (set_atime junk a))
        end
      else a
  end.

(** Helper (no code): a history of calls, one after the other. *)
Definition attr_run (store_time : bool) (junk : timespec) (a : attrs) (evs : list (attr_op * timespec)) : attrs :=
  fold_left (attr_step store_time junk) evs a.
