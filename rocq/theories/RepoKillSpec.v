(** What a kill may do to a mounted repository of the full format. *)
From Coq Require Import Strings.String Permutation.
From Verif Require Import Base TextModel NameModel StreamSpec AttrModel AttrProofs BtreeModel BtreeInsert FullFsModel FullFsSpec FullStreamModel ObjModel RepoModel RepoSpec RepoKillModel FsConcModel.
Local Open Scope list_scope.

(** The stored files of [id] open, and hold just what the inode says: mode, number of
    links, names of a directory, contents of anything else. *)
Definition reads_as (E : senv) (id data meta : bytes) (nd : inode) : Prop :=
  forall k now, ts_in_range now -> exists f, fo_open E id data meta k = Ok f /\
    a_mode (fo_attrs f) = i_mode nd /\ a_nlink (fo_attrs f) = i_nlink nd /\
    if (i_type nd =? TDIR)%N
    then exists f' l, fo_list E id now f = (f', Ok l) /\ Permutation l (i_dir nd)
    else exists f', fo_read E id now 0 (length (i_data nd)) f = (f', Ok (i_data nd)) /\
         exists f'', fo_size E id f' = (f'', Ok (length (i_data nd))).

(** ** Runs *)
Section Plain.
Variable cmp : bytes -> bytes -> comparison.
(** A kill is seen as a remount is: only parents remembered in memory are gone. *)
Inductive kseen (w : world) : kevent -> list event -> Prop :=
| KSeen e evs : seen_as cmp w e evs -> kseen w (KEv e) evs
| KSeen_kill ids : kseen w (KKill (Ok tt)) (map EEvict ids).

(** The moments of a run, latest first: what has just happened (nothing at the start),
    and the map then. *)
Notation moments := (list (option kevent * world)).
Inductive ksees (n : nat) : list (kevent * rworld) -> moments -> list (event * world) -> world -> Prop :=
| KS_start : ksees n [] [(None, mkWorld new_repo [] (repeat TIdle n))] [] (mkWorld new_repo [] (repeat TIdle n))
| KS_step l h l' w e rw evs new w' : ksees n l h l' w -> kseen w e evs -> goes cmp w evs new w' ->
    handles w' = w_handles rw -> ksees n ((e, rw) :: l) ((Some e, w') :: h) (new ++ l') w'.
End Plain.
Notation moments := (list (option kevent * world)).

Definition kevent_fits (E : senv) (e : kevent) : Prop := match e with KEv e => event_fits E e | KKill _ => True end.
(** Some call has begun to act. *)
Definition worked (l : list (kevent * rworld)) : Prop := exists i w, In (KEv (VStep i), w) l.
(** No kill before that. *)
Fixpoint kills_late (l : list (kevent * rworld)) : Prop :=
  match l with
  | [] => True
  | (KKill _, _) :: l' => worked l' /\ kills_late l'
  | (KEv _, _) :: l' => kills_late l'
  end.

(** ** Since a file was last flushed *)
Definition is_flush (id : bytes) (e : option kevent) : bool :=
  match e with Some (KEv (VIo (IFlush x) _)) => bytes_eqb x id | _ => false end.
(** Has an open file been flushed since it was made? *)
Fixpoint flushed (id : bytes) (h : moments) : bool :=
  match h with
  | [] => false
  | (e, w) :: h' =>
    match get (files w) id with
    | None => false
    | Some _ => is_flush id e || flushed id h'
    end
  end.
(** The file as it was at the moments from the last flush on, if there was one, and
    since it was made otherwise. *)
Fixpoint since_flush (id : bytes) (h : moments) : list inode :=
  match h with
  | [] => []
  | (e, w) :: h' =>
    match get (files w) id with
    | None => []
    | Some nd => nd :: (if is_flush id e then [] else since_flush id h')
    end
  end.
(** The file as it was at any moment since it was made. *)
Fixpoint since_made (id : bytes) (h : moments) : list inode :=
  match h with
  | [] => []
  | (_, w) :: h' =>
    match get (files w) id with
    | None => []
    | Some nd => nd :: since_made id h'
    end
  end.

(** ** MACs *)
(** The MAC that belongs on metadata, without the 32 bytes in front where it is kept. *)
Definition mac_of (E : senv) (id meta : bytes) : bytes := v_hmac E (v_mkey E id) (id ++ skipn hmac_len meta).
(** Two MACs of one file agree, or one is all zeros. *)
Definition mac_again (E : senv) (id data meta : bytes) (h : moments) : Prop :=
  mac_of E id meta = repeat x00 hmac_len \/
  exists nd0 data0 meta0, In nd0 (since_made id h) /\ reads_as E id data0 meta0 nd0 /\
    (mac_of E id meta0 = mac_of E id meta \/ mac_of E id meta0 = repeat x00 hmac_len).

(** What is found of a file that was in use when the process was killed. *)
Definition found (E : senv) (id data meta : bytes) (h : moments) : Prop :=
  (* the file as it was at a moment since it was last flushed *)
  (exists nd0, In nd0 (since_flush id h) /\ reads_as E id data meta nd0) \/
  (* nothing, of a file that was made and never flushed *)
  (meta = [] /\ flushed id h = false) \/
  (* bytes that do not bear their MAC: refused, if MACs are checked *)
  (firstn hmac_len meta <> mac_of E id meta /\ (v_check E = true -> forall k, fo_open E id data meta k = Err EVerify)) \/
  (* or else MACs are not what they should be *)
  mac_again E id data meta h.
