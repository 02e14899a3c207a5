(** Model of the calls that read and change the mode, the owner and the times of a path in
    the lite format, on a host that has symbolic links: vgetattr, vchmod, vchown, vutimens
    (sources/lite_format.cpp 768-836, 971-983, 1066-1070) and OSService::stat, chmod, chown,
    utimens (sources/unix.cpp 420-449, 461-466). *)
From Verif Require Import Base NameModel UnixPathModel.
Local Open Scope list_scope.

(** Environment: what stat tells of a file but its size. *)
Record attrs : Type := mkAttrs { at_mode : N; at_uid : N; at_gid : N; at_atime : N * N; at_mtime : N * N }.
(** Environment: the host's files and directories by inode number; [lh_link]: the text of a
    symbolic link. *)
Record lhost : Type := mkLH { lh_tree : htree; lh_link : nat -> option bytes; lh_attr : nat -> attrs }.
(** Helper (no code): update of the attributes of one inode. *)
Definition set_attr (h : lhost) (n : nat) (f : attrs -> attrs) : lhost :=
  mkLH (lh_tree h) (lh_link h) (fun m => if m =? n then f (lh_attr h m) else lh_attr h m).

(** Environment: errno of the host. *)
Definition ELOOP : err := EPosix 40.
(** Environment: errno of the host. *)
Definition ENOTSUP : err := EPosix 95.

(** Environment: path_resolution(7).  [fol]: whether a symbolic link at the end is followed;
    [hops]: how many may be followed in all.  Simplified: a separator at the end of the path
    does not make the host follow a link (no path handed over here has one), and a file is
    a directory without entries. *)
Definition skipped (w : bytes) : bool := bytes_eqb w [] || bytes_eqb w [dot].
Fixpoint walk (h : lhost) (fol : bool) (hops : nat) : nat -> list bytes -> res nat :=
  fix go (at_ : nat) (l : list bytes) : res nat :=
    match l with
    | [] => Ok at_
    | w :: l' =>
      if skipped w then go at_ l'
      else if bytes_eqb w [dot; dot] then go (ht_parent (lh_tree h) at_) l'
      else match ht_child (lh_tree h) at_ w with
           | None => Err (EPosix 2)
           | Some n =>
             match lh_link h n with
             | None => go n l'
             | Some text =>
               if forallb skipped l' && negb fol then Ok n
               else match hops with
                    | O => Err ELOOP
                    | S k => walk h fol k (if is_absolute text then ht_root (lh_tree h) else at_) (split_slash text ++ l')
                    end
             end
           end
    end.
(** Environment: the path given to a call with a directory's descriptor. *)
Definition lresolve (h : lhost) (dir : nat) (P : bytes) (fol : bool) : res nat :=
  match P with
  | [] => Err (EPosix 2)
  | _ => walk h fol 40 (if is_absolute P then ht_root (lh_tree h) else dir) (split_slash P)
  end.

(** Environment: fchmodat, fchownat, utimensat.  [able]: whether the host can do this to a
    symbolic link itself; [bad]: a refusal for another reason. *)
Definition host_set (able : bool) (bad : option err) (h : lhost) (dir : nat) (P : bytes) (fol : bool) (f : attrs -> attrs) : lhost * res unit :=
  match lresolve h dir P fol with
  | Err e => (h, Err e)
  | Ok n =>
    match bad with
    | Some e => (h, Err e)
    | None =>
      match lh_link h n with
      | Some _ => if able then (set_attr h n f, Ok tt) else (h, Err ENOTSUP)
      | None => (set_attr h n f, Ok tt)
      end
    end
  end.

(** The calls; [bad1] and [bad2] are refusals of the first and the second attempt. *)
Inductive aop : Type :=
| AStat (path : bytes)
| AChmod (path : bytes) (mode : N) (bad1 bad2 : option err)
| AChown (path : bytes) (uid gid : N) (bad1 bad2 : option err)
| AUtimens (path : bytes) (atime mtime : N * N) (now : N * N) (bad : option err).
(** Helper (no code): what a call gives to FUSE. *)
Inductive aout : Type := AAttr (r : res attrs) | ADone (r : res unit).

(** Environment: chown(2); 2^32 - 1 stands for no change. *)
Definition new_id (old new : N) : N := if (new =? 4294967295)%N then old else new.
(** Environment: utimensat(2), UTIME_NOW and UTIME_OMIT on Linux. *)
Definition new_time (now old new : N * N) : N * N :=
  if (snd new =? 1073741823)%N then now else if (snd new =? 1073741822)%N then old else new.

Section Calls.
Variable trans : translator.
Variable able_mode able_owner : bool.
Variable dir : nat.            (* m_dir_fd *)

(** OSService::chmod and OSService::chown, sources/unix.cpp 432-449: when the host cannot do
    it to a link itself, once more following links. *)
Definition set_or_follow (able : bool) (bad1 bad2 : option err) (h : lhost) (P : bytes) (f : attrs -> attrs) : lhost * res unit :=
  match host_set able bad1 h dir P false f with
  | (h1, Err e) =>
    match e with
    | EPosix 95 => host_set able bad2 h1 dir P true f
    | _ => (h1, Err e)
    end
  | x => x
  end.

Definition a_step (h : lhost) (o : aop) : lhost * aout :=
  match o with
  | AStat path =>                                     (* vgetattr, 768-777; unix.cpp 420-430 *)
    match t_encrypt trans path with
    | Err e => (h, AAttr (Err e))
    | Ok (P, _) => (h, AAttr (rbind (lresolve h dir P false) (fun n => Ok (lh_attr h n))))
    end
  | AChmod path mode bad1 bad2 =>                     (* vchmod, 971-975 *)
    match t_encrypt trans path with
    | Err e => (h, ADone (Err e))
    | Ok (P, _) =>
      let '(h1, r) := set_or_follow able_mode bad1 bad2 h P
        (fun a => mkAttrs mode (at_uid a) (at_gid a) (at_atime a) (at_mtime a)) in (h1, ADone r)
    end
  | AChown path uid gid bad1 bad2 =>                  (* vchown, 976-983 *)
    match t_encrypt trans path with
    | Err e => (h, ADone (Err e))
    | Ok (P, _) =>
      let '(h1, r) := set_or_follow able_owner bad1 bad2 h P
        (fun a => mkAttrs (at_mode a) (new_id (at_uid a) uid) (new_id (at_gid a) gid) (at_atime a) (at_mtime a)) in (h1, ADone r)
    end
  | AUtimens path atime mtime now bad =>              (* vutimens, 1066-1070; unix.cpp 461-466 *)
    match t_encrypt trans path with
    | Err e => (h, ADone (Err e))
    | Ok (P, _) =>
      let '(h1, r) := host_set true bad h dir P false
        (fun a => mkAttrs (at_mode a) (at_uid a) (at_gid a) (new_time now (at_atime a) atime) (new_time now (at_mtime a) mtime)) in (h1, ADone r)
    end
  end.
(** Helper (no code): a history of calls. *)
Fixpoint a_run (h : lhost) (ops : list aop) : lhost * list aout :=
  match ops with
  | [] => (h, [])
  | o :: ops' => let '(h1, r) := a_step h o in let '(h2, rs) := a_run h1 ops' in (h2, r :: rs)
  end.
End Calls.
