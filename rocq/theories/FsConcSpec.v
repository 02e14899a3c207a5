(** What stays true of the full format's files while several threads work on names. *)
From Coq Require Import Strings.String.
From Verif Require Import Base TextModel NameModel BtreeModel BtreeSpec FullFsModel FullFsSpec FsConcModel.
(** Error numbers, as on Linux: 1 is EPERM, 36 is ENAMETOOLONG, 39 is ENOTEMPTY. *)
Local Open Scope list_scope.

(** No link count is about to leave 32 bits. *)
Definition room (st : ffs) : Prop := forall id nd, get st id = Some nd -> (i_nlink nd < 2 ^ 32 - 1)%N.

(** No directory that has been removed, but is still in use, has entries. *)
Definition tidy (st : ffs) : Prop := forall id nd, get st id = Some nd -> i_nlink nd = 0%N -> i_dir nd = [].

(** Every name leads to a stored file of the type it says; a file has at least as many
    links as names, so that it is not deleted while it has one; what is in use is
    stored; and what is stored has a link or is in use. *)
Record sound (st : ffs) : Prop := {
  so_root : is_dir st root_id;
  so_entry : forall e, In e (all_entries st) -> exists nd, get st (e_id e) = Some nd /\ i_type nd = e_type e;
  so_nlink : forall id nd, get st id = Some nd -> (N.of_nat (refs st id + root_bonus id) <= i_nlink nd)%N;
  so_open : forall id, In id (opened st) -> get st id <> None;
  so_used : forall id nd, get st id = Some nd -> id = root_id \/ i_nlink nd <> 0%N \/ In id (opened st) }.

(** No operation is running. *)
Definition quiet (w : world) : Prop := Forall (fun t => t = TIdle) (threads w).

(** Failures after which something stays behind: a name is refused after the file
    was made or taken from its old place (C23, C26), a directory that has entries has
    lost its name (C27), the wrong kind of release has kept its file in use. *)
Definition left_behind (o : fop) (e : err) : Prop :=
  match o with
  | FCreate _ _ _ None | FMkdir _ _ _ None | FSymlink _ _ _ None => e = (EPosix 1) \/ e = (EPosix 36)
  | FRmdir _ => e = (EPosix 1) \/ e = (EPosix 39)
  | FRename _ _ => e = (EPosix 1) \/ e = (EPosix 36)
  | FClose _ _ => True
  | _ => False
  end.
Definition clean (ev : event) : Prop :=
  match ev with ERet _ o (Err e) => ~ left_behind o e | _ => True end.

(** Every state of a run, the first one included. *)
Definition always (P : ffs -> Prop) (l : list (event * world)) : Prop :=
  P new_repo /\ Forall (fun x => P (files (snd x))) l.
