(** What overlapping calls on the names of a lite repository should look like: every
    call works on a plain tree at one moment between its call and its return. *)
From Verif Require Import Base TextModel NameModel NameSpec LongNameModel LongNameSpec LiteTreeSpec LiteConcModel.
(** Error numbers, as on Linux: 39 is ENOTEMPTY. *)

Inductive pthread : Type := PIdle | PCalled (o : lop) | PDone (r : res unit).
Record pworld : Type := mkP { p_tree : hfs; p_thr : nat -> pthread }.
Definition pworld0 : pworld := mkP empty_fs (fun _ => PIdle).

(** Answers that a call may give, at its moment, instead of that of the plain tree:
    - those of a call that no other overlaps ([may_refuse]);
    - an empty directory is not removed, if long names are in use;
    - a call with a long name fails, because its table is in use or cannot be opened.
    None of them changes anything. *)
Inductive may_fail (long : bytes -> Prop) (v : hfs) : lop -> err -> Prop :=
| fail_refuse o e : may_refuse v o e -> may_fail long v o e
| fail_rmdir path : plain_found v path = Some KDir -> v (names_of path) = Some [] -> may_fail long v (LRmdir path None) (EPosix 39)
| fail_table o path e : In path (op_paths o) -> long path -> may_fail long v o e.

Section Moments.
Variable fails : hfs -> lop -> err -> Prop.

Inductive pstep : pworld -> list levent -> pworld -> Prop :=
| P_call a t o : p_thr a t = PIdle ->
    pstep a [LInv t o] (mkP (p_tree a) (nupd (p_thr a) t (PCalled o)))
| P_moment a t o : p_thr a t = PCalled o ->
    pstep a [] (mkP (fst (plain_step o (p_tree a))) (nupd (p_thr a) t (PDone (snd (plain_step o (p_tree a))))))
| P_fail a t o e : p_thr a t = PCalled o -> fails (p_tree a) o e ->
    pstep a [] (mkP (p_tree a) (nupd (p_thr a) t (PDone (Err e))))
| P_return a t r : p_thr a t = PDone r ->
    pstep a [LRet t r] (mkP (p_tree a) (nupd (p_thr a) t PIdle))
| P_killed a :                                     (* every call under way has had its moment, or never will *)
    pstep a [LKilled] (mkP (p_tree a) (fun _ => PIdle)).

(** [moments a h b]: from [a], the calls and returns [h] can be seen, and [b] reached. *)
Inductive moments : pworld -> list levent -> pworld -> Prop :=
| M_nil a : moments a [] a
| M_step a h1 b h2 c : moments a h1 b -> pstep b h2 c -> moments a (h1 ++ h2) c.
End Moments.

(** The calls of a schedule. *)
Definition calls_of (cs : list choice) : list lop :=
  flat_map (fun c => match c with Begin _ o => [o] | _ => [] end) cs.

(** A path whose last name is too long to be stored in its directory entry. *)
Definition long_path (no_op : bool) (threshold : nat) (path : bytes) : Prop :=
  no_op = false /\ 0 < threshold /\ threshold < length (leaf (names_of path)).

(** ** The tables of long names.  What another process would find on the disk: *)
Definition table_kind (rows : nat -> rowlist) (e : bytes * kind) : bytes * kind :=
  if bytes_eqb (fst e) kLongNameTableFileName
  then (fst e, match snd e with KFile k => KTable (rows k) | x => x end)
  else e.
Definition with_rows (rows : nat -> rowlist) (fs : hfs) : hfs := fun p => option_map (map (table_kind rows)) (fs p).
Definition on_disk (w : world) : hfs := with_rows (fun k => db_rows (w_db w k)) (w_tree w).

(** No call is under way. *)
Definition at_rest (w : world) : Prop := forall t, w_thr w t = LIdle.

(** The table at [d] is the one with inode [k]. *)
Definition table_at (fs : hfs) (d : hpath) (k : nat) : Prop :=
  exists es, fs d = Some es /\ ent kLongNameTableFileName es = Some (KFile k).

(** Every call that has opened a table and has not yet done its work in the directory
    still finds this table there: the directory has not been moved or removed, nor
    tried to be removed, meanwhile. *)
Definition waiting (p : prog) : Prop := match p with PFinish _ _ _ | PRet _ => False | _ => True end.
Definition undisturbed (w : world) : Prop :=
  forall t o conns p d k, w_thr w t = LRun o conns p -> waiting p -> In (d, k) conns -> table_at (w_tree w) d k.

(** A step that the tables survive: no commit fails; the process is not killed between
    the work of a call and its commit; and when a call does its work in the directory,
    it is one of those that the tables survive when nothing overlaps ([benign]). *)
Fixpoint committing (p : prog) : Prop := match p with PFinish _ c next => c = true \/ committing next | _ => False end.
Definition gentle_step (trans : translator) (suffix : bytes) (c : choice) (w : world) : Prop :=
  match c with
  | Begin _ o => Forall fuse_path (op_paths o)
  | Go t fail =>
    match w_thr w t with
    | LRun o _ (PHost _ _) => benign trans suffix o (w_tree w)
    | LRun _ _ (PFinish _ true _) => fail = None
    | _ => True
    end
  | Return _ => True
  | Kill => forall t o conns p, w_thr w t = LRun o conns p -> ~ committing p
  end.
Fixpoint gentle_run (trans : translator) (suffix : bytes) (cs : list choice) (w : world) : Prop :=
  match cs with
  | [] => True
  | c :: cs' =>
    gentle_step trans suffix c w /\
    match c_step trans c w with None => True | Some (w1, _) => gentle_run trans suffix cs' w1 end
  end.
Fixpoint undisturbed_run (trans : translator) (cs : list choice) (w : world) : Prop :=
  undisturbed w /\
  match cs with
  | [] => True
  | c :: cs' => match c_step trans c w with None => True | Some (w1, _) => undisturbed_run trans cs' w1 end
  end.

(** A name of a call that is under way. *)
Definition under_way (trans : translator) (w : world) (u : bytes) : Prop :=
  exists t o conns p path P l, w_thr w t = LRun o conns p /\ In path (op_paths o) /\
    t_encrypt trans path = Ok (P, l) /\ get_last_component P = u.
