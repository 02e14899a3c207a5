(** What the storage of the full format should do: hold two byte strings per file id. *)
From Verif Require Import Base TextModel FullFsModel TableIoModel.
(** Error numbers, as on Linux: 2 is ENOENT, 17 is EEXIST. *)
Local Open Scope list_scope.

(** The data and the metadata of each file. *)
Definition store := bytes -> option bytes * option bytes.
Definition at_id (m : store) (id : bytes) (v : option bytes * option bytes) : store := fun i => if bytes_eqb i id then v else m i.

(** An operation that runs to its end.  (Only after a crash is just one of the two there.) *)
Definition store_step (op : ioop) (m : store) : store * ioans :=
  match op with
  | IoCreate id =>
    match m id with
    | (None, None) => (at_id m id (Some [], Some []), IoDone)
    | (None, y) => (at_id m id (Some [], y), IoErr (EPosix 17))
    | (Some _, _) => (m, IoErr (EPosix 17))
    end
  | IoPut id d e => match m id with (Some _, Some _) => (at_id m id (Some d, Some e), IoDone) | _ => (m, IoErr (EPosix 2)) end
  | IoGet id => match m id with (Some d, Some e) => (m, IoBytes d e) | _ => (m, IoErr (EPosix 2)) end
  | IoUnlink id => (at_id m id (None, None), IoDone)
  end.
(** What a crash during it can leave of the one file it is about. *)
Definition crash_leaves (op : ioop) (v v' : option bytes * option bytes) : Prop :=
  match op with
  | IoCreate _ => v' = v \/ (fst v = None /\ (v' = (Some [], snd v) \/ (snd v = None /\ v' = (Some [], Some []))))
  | IoUnlink _ => v' = v \/ v' = (None, snd v) \/ v' = (None, None)
  | _ => v' = v
  end.

Definition op_id (op : ioop) : bytes := match op with IoCreate id | IoPut id _ _ | IoGet id | IoUnlink id => id end.

(** A history: each operation, with [Some n] if the host stopped after [n] of its calls. *)
Inductive history : store -> list (ioop * option nat) -> list ioans -> store -> Prop :=
| H_nil m : history m [] [] m
| H_op m op evs r l m' : snd (store_step op m) = r -> history (fst (store_step op m)) evs l m' -> history m ((op, None) :: evs) (r :: l) m'
| H_crash m op n v evs l m' : crash_leaves op (m (op_id op)) v -> history (at_id m (op_id op) v) evs l m' -> history m ((op, Some n) :: evs) l m'.

(** The same events on the host. *)
Fixpoint host_run (legacy : bool) (evs : list (ioop * option nat)) (h : host) : host * list ioans :=
  match evs with
  | [] => (h, [])
  | (op, None) :: evs' => let (h1, r) := io_step legacy op h in let (h2, l) := host_run legacy evs' h1 in (h2, r :: l)
  | (op, Some n) :: evs' => host_run legacy evs' (fst (hcalls (firstn n (io_calls legacy op)) h))
  end.

(** The host entries that belong to the storage: those in or under a directory named by
    two hexadecimal digits. *)
Definition own (p : list bytes) : Prop := exists b rest, p = hexify [b] :: rest.
Definition clean (h : host) : Prop := forall p, own p -> hget h p = None.
