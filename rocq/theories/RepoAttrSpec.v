(** What stat reports of the files of a mounted repository, and what may change it. *)
From Verif Require Import Base AttrModel FullStreamModel FullFsModel ObjModel RepoModel.
Local Open Scope list_scope.

(** FileBase::stat, files.cpp 222-243, but for the inode number and the size.  Without
    stored times those of the host's file are reported, which are not modelled. *)
Record times := mkTimes { t_atime : timespec; t_mtime : timespec; t_ctime : timespec; t_birth : timespec }.
Record seen := mkSeen { s_mode : N; s_uid : N; s_gid : N; s_nlink : N; s_times : option times }.
Definition seen_of (store : bool) (a : attrs) : seen :=
  mkSeen (a_mode a) (a_uid a) (a_gid a) (a_nlink a)
         (if store then Some (mkTimes (a_atime a) (a_mtime a) (a_ctime a) (a_birth a)) else None).
(** Of the file [id]: by its object, or from the header that is stored (files.cpp 183-218). *)
Definition file_seen (E : senv) (id : bytes) (rp : repo) : option seen :=
  match rget id (rp_files rp) with
  | None => None
  | Some (RLoaded f _ _) => Some (seen_of (v_store E) (fo_attrs f))
  | Some (RStored d m) =>
    match load_attrs (v_aead E) (v_dkey E id) id (v_iv E) (v_store E) (mkFull d m false 0) with
    | Ok (a, _) => Some (seen_of (v_store E) a)
    | Err _ => None
    end
  end.

(** What can happen to a file. *)
Inductive change :=
| CLook                   (* it is read: contents, entries, target *)
| CModify                 (* contents or entries change *)
| CLink | CUnlink         (* one name more, one less *)
| CSet (c : chattr).      (* chmod, chown, utimens *)

Definition on_times (f : times -> times) (s : seen) : seen :=
  mkSeen (s_mode s) (s_uid s) (s_gid s) (s_nlink s) (option_map f (s_times s)).
Definition touch_ctime (now : timespec) : seen -> seen :=
  on_times (fun t => mkTimes (t_atime t) (t_mtime t) now (t_birth t)).
(** An id that is to be set, minus one to leave it alone (chown(2)). *)
Definition chosen (v old : N) : N := if (v =? 4294967295)%N then old else v.
Definition changed (now : timespec) (c : change) (s : seen) : seen :=
  match c with
  (* as with relatime, by whole seconds *)
  | CLook => on_times (fun t =>
      if (tv_sec (t_atime t) <? tv_sec (t_mtime t))%Z || (tv_sec (t_atime t) <? tv_sec (t_ctime t))%Z
      then mkTimes now (t_mtime t) (t_ctime t) (t_birth t) else t) s
  | CModify => on_times (fun t => mkTimes (t_atime t) now now (t_birth t)) s
  (* 32 bits *)
  | CLink => touch_ctime now (mkSeen (s_mode s) (s_uid s) (s_gid s) ((s_nlink s + 1) mod 2 ^ 32) (s_times s))
  | CUnlink => mkSeen (s_mode s) (s_uid s) (s_gid s) ((s_nlink s + (2 ^ 32 - 1)) mod 2 ^ 32) (s_times s)
  (* the permission bits; the time only if something changes *)
  | CSet (ChMode perm) =>
    let m := (s_mode s / 512 * 512 + perm mod 512)%N in
    if (m =? s_mode s)%N then s else touch_ctime now (mkSeen m (s_uid s) (s_gid s) (s_nlink s) (s_times s))
  | CSet (ChOwner uid gid) =>
    let u := chosen uid (s_uid s) in let g := chosen gid (s_gid s) in
    if (u =? s_uid s)%N && (g =? s_gid s)%N then s
    else touch_ctime now (mkSeen (s_mode s) u g (s_nlink s) (s_times s))
  | CSet (ChTimes ts unset) => on_times (fun t =>
      match ts with
      | Some (a, m) => mkTimes a m unset (t_birth t)
      | None => mkTimes unset unset unset (t_birth t)
      end) s
  end.

(** Changes out of [P], at readings of the clock from the [k]th until before the [k']th. *)
Inductive many (E : senv) (P : change -> Prop) (k k' : nat) : seen -> seen -> Prop :=
| many_none s : many E P k k' s s
| many_one s s' c j : many E P k k' s s' -> P c -> k <= j < k' -> many E P k k' s (changed (v_clock E j) c s').

(** What a call does to a file.  Directories are searched and links are followed by all. *)
Definition makes (o : fop) (id : bytes) (c : change) : Prop :=
  c = CLook \/
  match o with
  | FCreate _ _ x _ | FMkdir _ _ x _ | FSymlink _ _ x _ => c = CModify \/ c = CUnlink /\ id = x  (* if the name is taken *)
  | FLink _ _ => c = CModify \/ c = CLink
  | FUnlink _ | FRmdir _ | FRename _ _ => c = CModify \/ c = CUnlink
  | FOpen _ true | FTruncate _ _ => c = CModify
  | FChattr _ x => c = CSet x
  | _ => False
  end.
(** A new file: its permissions, type, the process's ids. *)
Definition born (E : senv) (now : timespec) (perm ty : N) : seen :=
  mkSeen (perm mod 512 + ty * 4096) (v_uid E) (v_gid E) 1 (if v_store E then Some (mkTimes now now now now) else None).
Definition brings (E : senv) (o : fop) (id : bytes) (now : timespec) (s : seen) : Prop :=
  match o with
  | FCreate _ perm x _ => x = id /\ s = born E now perm TREG
  | FMkdir _ perm x _ => x = id /\ s = born E now perm TDIR
  | FSymlink _ _ x _ => x = id /\ s = born E now 420 TLINK
  | _ => False
  end.
Definition io_makes (o : rio) (c : change) : Prop :=
  match o with
  | IRead _ _ _ | IList _ => c = CLook
  | IWrite _ _ _ | ITruncate _ _ => c = CModify
  | IStat _ | IFlush _ => False
  end.

(** What is reported of [id] before and after an event. *)
Definition accounted (E : senv) (w : rworld) (e : revent) (w' : rworld) (id : bytes) : Prop :=
  let k := rp_time (w_repo w) in
  let k' := rp_time (w_repo w') in
  match e with
  | VStep i => exists o p, nth_error (w_threads w) i = Some (RRun o p) /\
    match file_seen E id (w_repo w), file_seen E id (w_repo w') with
    | None, None => True
    | None, Some s' => brings E o id (v_clock E k) s'
    | Some s, Some s' => many E (makes o id) k k' s s'
    | Some s, None => s_nlink s = 0%N /\ id <> root_id
    end
  | VIo o _ =>
    match file_seen E id (w_repo w), file_seen E id (w_repo w') with
    | None, None => True
    | Some s, Some s' => s' = s \/ io_file o = id /\ exists c, io_makes o c /\ s' = changed (v_clock E k) c s
    | _, _ => False
    end
  (* nothing: a call begins or ends, the cache throws the file out, or all is unmounted and mounted again *)
  | VCall _ _ | VRet _ _ _ | VEvict _ | VRemount _ => file_seen E id (w_repo w') = file_seen E id (w_repo w)
  end.

(** In particular: who changes what.  The type of a file and the time of its birth stay. *)
Definition birth_of (s : seen) : option timespec := option_map t_birth (s_times s).
Definition mtime_of (s : seen) : option timespec := option_map t_mtime (s_times s).
Definition running (w : rworld) (e : revent) (o : fop) : Prop :=
  exists i p, e = VStep i /\ nth_error (w_threads w) i = Some (RRun o p).
Definition may_relink (o : fop) : Prop :=
  match o with
  | FLink _ _ | FUnlink _ | FRmdir _ | FRename _ _ | FCreate _ _ _ _ | FMkdir _ _ _ _ | FSymlink _ _ _ _ => True
  | _ => False
  end.
Definition may_modify (o : fop) : Prop :=
  match o with
  | FOpen _ true | FTruncate _ _ | FChattr _ (ChTimes _ _) => True
  | _ => may_relink o
  end.
Record spared (w : rworld) (e : revent) (s s' : seen) : Prop := {
  sp_type : (s_mode s' / 512 = s_mode s / 512)%N;
  sp_birth : birth_of s' = birth_of s;
  sp_mode : s_mode s' = s_mode s \/
    exists path perm, running w e (FChattr path (ChMode perm)) /\ s_mode s' = (s_mode s / 512 * 512 + perm mod 512)%N;
  sp_owner : s_uid s' = s_uid s /\ s_gid s' = s_gid s \/
    exists path u g, running w e (FChattr path (ChOwner u g)) /\ s_uid s' = chosen u (s_uid s) /\ s_gid s' = chosen g (s_gid s);
  sp_links : s_nlink s' = s_nlink s \/ exists o, running w e o /\ may_relink o;
  sp_mtime : mtime_of s' = mtime_of s \/ (exists o, running w e o /\ may_modify o) \/
    exists o r, e = VIo o r /\ io_makes o CModify }.

(** The file [id] is changed as a call of chmod, chown or utimens asks. *)
Definition applies (E : senv) (c : chattr) (id : bytes) (rp rp' : repo) : Prop :=
  exists s, file_seen E id rp = Some s /\ file_seen E id rp' = Some (changed (v_clock E (rp_time rp)) (CSet c) s).
(** A step of thread [i] did [Q], since its latest call. *)
Inductive since_call (i : nat) (Q : repo -> repo -> Prop) : list (revent * rworld) -> Prop :=
| SC_here e w w' l : Q (w_repo w) (w_repo w') -> since_call i Q ((VStep i, w') :: (e, w) :: l)
| SC_later e w l : since_call i Q l -> (forall o, e <> VCall i o) -> since_call i Q ((e, w) :: l).
