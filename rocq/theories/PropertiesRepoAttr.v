(** C78: the mode, owner, link count and times of the files of a mounted repository. *)
From Coq Require Import Strings.String Lia.
From Verif Require Import Base TextModel AttrModel FullFsModel FsConcModel ObjModel ObjProofs RepoModel RepoSpec RepoRun RepoAlone RepoPlay RepoAttrSpec RepoAttrProofs Toy PropertiesFull PropertiesFullFs PropertiesRepo.
Local Open Scope list_scope.

(** ** Examples *)
(** Two threads, with the cache throwing the file out and the repository mounted again in
    between. *)
Definition ex_attr : list kcmd :=
  [KCall 0 (FCreate (str "/f") 420 (xid x01) None); KFin 0; KCall 1 (FChattr (str "/f") (ChOwner 7 4294967295)); KStep 1 2;
   KCall 0 (FChattr (str "/f") (ChMode 384)); KFin 0; KFin 1; KIo (IWrite (xid x01) 0 (str "abc")); KIo (IRead (xid x01) 0 2);
   KCall 0 (FClose (xid x01) false); KFin 0; KEvict (xid x01); KCall 1 (FLink (str "/f") (str "/g")); KFin 1; KRemount;
   KCall 0 (FChattr (str "/g") (ChTimes (Some (mkTs 11 1, mkTs 22 2)) (mkTs 33 3))); KFin 0; KRemount; KCall 1 (FUnlink (str "/f")); KFin 1].
Definition ex_attr_run : list (revent * rworld) := fst (rplayed toy_senv 2 ex_attr).
(** Mode, owner, group, links, and seconds of the times of access, modification, change and birth, after every event, without repetitions. *)
Definition ex_row (s : option seen) : list N :=
  match s with
  | None => []
  | Some s => [s_mode s; s_uid s; s_gid s; s_nlink s] ++
    match s_times s with
    | None => []
    | Some t => [Z.to_N (tv_sec (t_atime t)); Z.to_N (tv_sec (t_mtime t)); Z.to_N (tv_sec (t_ctime t)); Z.to_N (tv_sec (t_birth t))]
    end
  end.
Fixpoint ex_rows (last : list N) (l : list (revent * rworld)) : list (list N) :=
  match l with
  | [] => []
  | (_, w) :: l' =>
    let r := ex_row (file_seen toy_senv (xid x01) (w_repo w)) in
    (if list_eq_dec N.eq_dec last r then [] else [r]) ++ ex_rows r l'
  end.

(** ** C78 *)

(** Of every file, what stat reports after an event of a run follows from what it
    reported before and from the event, as the table of [accounted] says: a call on names
    makes the changes of [makes] only, at times the clock gives while the event goes on;
    a use of an open file makes those of [io_makes], and of that file only; a file comes
    into being with the permissions it was created with, the process's ids and the time,
    and disappears with no link left; and when the cache throws it out, when all is
    unmounted and mounted again, and when a call begins or ends, nothing changes. *)
Theorem C78_accounted : forall E, senv_ok E -> forall n l w e w', rrun E n l w -> rwstep E w e w' -> Forall (fun x => event_fits E (fst x)) l ->
  (forall id, accounted E w e w' id) \/
  (exists l2 l1 l' aw, l = l2 ++ l1 /\ sees (v_cmp E) n l1 l' aw /\ run (v_cmp E) n l' aw /\ ~ dirs_fit 2 (files aw)).
Proof.
  intros E HE n l w e w' Hr Hs Hf. destruct (run_ok E HE n l w Hr Hf) as [(l' & aw & _ & _ & HW)|H]; [left|now right].
  exact (event_accounted E HE w aw e w' HW (run_tmeach E n l w Hr) Hs).
Qed.
Print Assumptions C78_accounted.
Example C78_accounted_example : exists w, rrun toy_senv 2 ex_attr_run w /\ Forall (fun x => event_fits toy_senv (fst x)) ex_attr_run /\ length ex_attr_run = 62 /\
  ex_rows [] (rev ex_attr_run) =
    [[33188; 1000; 1000; 1; 2; 2; 2; 2]; [33152; 1000; 1000; 1; 2; 2; 13; 2]; [33152; 7; 1000; 1; 2; 2; 18; 2]; [33152; 7; 1000; 1; 2; 20; 20; 2];
     [33152; 7; 1000; 1; 21; 20; 20; 2]; [33152; 7; 1000; 2; 21; 20; 31; 2]; [33152; 7; 1000; 2; 11; 22; 33; 2]; [33152; 7; 1000; 1; 11; 22; 33; 2]]%N.
Proof.
  exists (snd (rplayed toy_senv 2 ex_attr)). split; [apply rplayed_run; vm_compute; reflexivity|]. split; [apply (events_fit toy_senv 4 toy_pad); vm_compute; reflexivity|].
  split; vm_compute; reflexivity.
Qed.

(** In particular: no event changes the type of a file or the time of its birth; only
    chmod changes permissions, and to those it asks for; only chown changes owner and
    group, and to those it asks for, minus one for the old one; only the calls that add
    and remove names change the link count; and only those, opening for truncation,
    truncating, writing and utimens change the time of modification. *)
Theorem C78_who : forall E, senv_ok E -> forall n l w e w', rrun E n l w -> rwstep E w e w' -> Forall (fun x => event_fits E (fst x)) l ->
  (forall id s s', file_seen E id (w_repo w) = Some s -> file_seen E id (w_repo w') = Some s' -> spared w e s s') \/
  (exists l2 l1 l' aw, l = l2 ++ l1 /\ sees (v_cmp E) n l1 l' aw /\ run (v_cmp E) n l' aw /\ ~ dirs_fit 2 (files aw)).
Proof.
  intros E HE n l w e w' Hr Hs Hf. destruct (C78_accounted E HE n l w e w' Hr Hs Hf) as [H|H]; [left|now right].
  intros id s s'. now apply accounted_spared.
Qed.
Print Assumptions C78_who.

(** A call of chmod, chown or utimens that reports success has taken effect: since it
    began, one of its steps changed some file as it asks, whatever else goes on. *)
Theorem C78_takes_effect : forall E n l w i path c r w', rrun E n l w -> rwstep E w (VRet i (FChattr path c) (Ok r)) w' ->
  exists id, since_call i (applies E c id) l.
Proof. exact returned_due. Qed.
Print Assumptions C78_takes_effect.
Definition ex_chown (k : nat) : list kcmd := [KCall 0 (FCreate (str "/f") 420 (xid x01) None); KFin 0; KCall 1 (FChattr (str "/f") (ChOwner 7 8)); KStep 1 k].
Example C78_takes_effect_example : exists l w w', rrun toy_senv 2 l w /\ rwstep toy_senv w (VRet 1 (FChattr (str "/f") (ChOwner 7 8)) (Ok FOUnit)) w'.
Proof.
  exists (fst (rplayed toy_senv 2 (ex_chown 7))), (snd (rplayed toy_senv 2 (ex_chown 7))). eexists.
  split; [apply rplayed_run; vm_compute; reflexivity|]. apply V_return. vm_compute. reflexivity.
Qed.

(** When nothing else goes on, the file is the one that stat finds by the same path, and
    all that is done to it otherwise is that it may be searched on the way. *)
Theorem C78_named : forall E path c rp r id m n z,
  snd (r_apply E (OCall (FChattr path c)) rp) = Ok r ->
  snd (r_apply E (OCall (FGetattr path)) rp) = Ok (FOStat id m n z) -> n <> 0%N ->
  let rp' := fst (r_apply E (OCall (FChattr path c)) rp) in
  exists s s1 j, rp_time rp <= j < rp_time rp' /\ file_seen E id rp = Some s /\
    many E (fun c => c = CLook) (rp_time rp) j s s1 /\
    file_seen E id rp' = Some (changed (v_clock E j) (CSet c) s1).
Proof. exact chattr_alone. Qed.
Print Assumptions C78_named.
Example C78_named_example : 
  let rp := w_repo (snd (rplayed toy_senv 2 ex_attr)) in
  let rp' := fst (r_apply toy_senv (OCall (FChattr (str "/g") (ChOwner 4294967295 12))) rp) in
  snd (r_apply toy_senv (OCall (FChattr (str "/g") (ChOwner 4294967295 12))) rp) = Ok FOUnit /\
  snd (r_apply toy_senv (OCall (FGetattr (str "/g"))) rp) = Ok (FOStat (xid x01) 33152 1 3) /\
  (ex_row (file_seen toy_senv (xid x01) rp), ex_row (file_seen toy_senv (xid x01) rp')) =
    ([33152; 7; 1000; 1; 11; 22; 33; 2], [33152; 7; 12; 1; 11; 22; 54; 2])%N.
Proof. split; [|split]; vm_compute; reflexivity. Qed.
