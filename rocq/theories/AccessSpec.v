(** What the owner of a file can do with it: an ordinary file with a mode, opened for
    reading, for writing or both.  Nothing here knows of encryption, or of the flags and
    the mode that the host is given. *)
From Verif Require Import Base StreamSpec HandleModel AccessModel.
(** Error numbers, as on Linux: 2 is ENOENT, 9 is EBADF, 13 is EACCES, 17 is EEXIST. *)
Local Open Scope list_scope.

(** What the flags of an open ask for. *)
Definition reads (flags : N) : bool := (N.land flags O_ACCMODE =? 0)%N || (N.land flags O_ACCMODE =? 2)%N.
Definition writes (flags : N) : bool := (N.land flags O_ACCMODE =? 1)%N || (N.land flags O_ACCMODE =? 2)%N.
Definition truncates (flags : N) : bool := N.testbit flags 9.

(** The permissions of the owner. *)
Definition may_read (mode : N) : bool := N.testbit mode 8.
Definition may_write (mode : N) : bool := N.testbit mode 7.

(** The file, and of every open handle what it was opened for. *)
Record fst_ : Type := mkFst { s_mode : N; s_content : bytes }.
Record sst : Type := mkSst { s_file : option fst_; s_handles : nat -> option N }.
Definition s_empty : sst := mkSst None (fun _ => None).

(** [plain] tells how an ordinary file differs from one of securefs, which
    - needs the permission to read also for opening it to write and for truncating it,
    - needs that permission for telling the size, if sizes are padded ([padded]),
    - gives its owner that permission when it creates it. *)
Section Spec.
Variable plain padded super : bool.
Variable umask : N.

Definition allows_open (mode flags : N) : bool :=
  super || ((may_read mode || (plain && negb (reads flags))) && (may_write mode || negb (writes flags))).
Definition allows_truncate (mode : N) : bool := super || (may_write mode && (plain || may_read mode)).
Definition allows_stat (mode : N) : bool := super || plain || negb padded || may_read mode.
Definition new_mode (mode : N) : N := N.ldiff (if plain then mode else N.setbit mode 8) umask.

Definition allows_io (asked : N) (o : sop) : bool :=
  match o with
  | SRead _ _ => reads asked
  | SWrite _ _ | SResize _ => writes asked
  | SSize => true
  end.

Definition s_step (s : sst) (c : acall) : sst * aout :=
  match c, s_file s with
  | ACreate h asked mode, None => (mkSst (Some (mkFst (new_mode mode) [])) (fupd (s_handles s) h (Some asked)), ADone)
  | ACreate h asked mode, Some _ => (s, AFail (EPosix 17))
  | AOpen h flags, Some f =>
    if allows_open (s_mode f) flags then
      if truncates flags then (mkSst (Some (mkFst (s_mode f) [])) (fupd (fun _ => None) h (Some flags)), ADone)
      else (mkSst (Some f) (fupd (s_handles s) h (Some flags)), ADone)
    else (s, AFail (EPosix 13))
  | AIo h o, Some f =>
    match s_handles s h with
    | Some asked =>
      if allows_io asked o then
        (mkSst (Some (mkFst (s_mode f) (fst (spec_step (s_content f) o)))) (s_handles s), AData (snd (spec_step (s_content f) o)))
      else (s, AData (OFail (EPosix 9)))
    | None => (s, AFail EUndef)
    end
  | ATruncate n, Some f =>
    if allows_truncate (s_mode f) then (mkSst (Some (mkFst (s_mode f) (arr_resize (s_content f) n))) (s_handles s), ADone)
    else (s, AFail (EPosix 13))
  | AChmod mode, Some f => (mkSst (Some (mkFst mode (s_content f))) (s_handles s), ADone)
  | AStat, Some f => if allows_stat (s_mode f) then (s, AStatOut (s_mode f) (length (s_content f))) else (s, AFail (EPosix 13))
  | AClose h, _ => (mkSst (s_file s) (fupd (s_handles s) h None), ADone)
  | AIo _ _, None => (s, AFail EUndef)
  | _, None => (s, AFail (EPosix 2))
  end.

(** The histories that are spoken of.  A file is opened for reading, writing or both, and
    with O_TRUNC only for writing; O_CREAT does not come with open (FUSE calls create
    instead).  Handles are used while they are open, and not after another opening with
    O_TRUNC (see C53).  Sizes are below the limit. *)
Definition sane (limit : nat) (s : sst) (c : acall) : Prop :=
  match c with
  | AOpen _ flags =>
    N.land flags O_ACCMODE <> 3%N /\ N.testbit flags 6 = false /\ (truncates flags = true -> writes flags = true)
  | AIo h o => s_handles s h <> None /\ sop_within limit o
  | ATruncate n => n <= limit
  | _ => True
  end.
Fixpoint all_sane (limit : nat) (s : sst) (l : list acall) : Prop :=
  match l with
  | [] => True
  | c :: l' => sane limit s c /\ all_sane limit (fst (s_step s c)) l'
  end.
End Spec.

(** The owner never takes away the permission to read. *)
Definition readable (umask : N) (c : acall) : Prop :=
  match c with
  | ACreate _ _ mode => may_read mode = true /\ N.testbit umask 8 = false
  | AChmod mode => may_read mode = true
  | _ => True
  end.
