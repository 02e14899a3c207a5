(** What the users of the file table may see, said without the table: a user opens,
    creates, reads, changes and drops; every file is one cell. *)
From Verif Require Import Base FullFsModel TableModel.
(** Error numbers, as on Linux: 1 is EPERM, 2 is ENOENT, 17 is EEXIST. *)
Local Open Scope nat_scope.
Local Open Scope list_scope.

(** The files, and the handles in use with the file each was opened for. *)
Record cells := mkCells { files : bytes -> option content; handles : list (nat * bytes) }.

Definition unused (s : cells) (id : bytes) : Prop := forall a, ~ In (a, id) (handles s).
Definition set_cell (id : bytes) (v : option content) (s : cells) : cells := mkCells (dset (files s) id v) (handles s).
Definition take (a : nat) (id : bytes) (s : cells) : cells := mkCells (files s) ((a, id) :: handles s).
Fixpoint drop_handle (a : nat) (l : list (nat * bytes)) : list (nat * bytes) :=
  match l with [] => [] | p :: l' => if fst p =? a then l' else p :: drop_handle a l' end.

(** A handle for [id]: the one everybody else using [id] has, and used for nothing else. *)
Definition handle_for (s : cells) (a : nat) (id : bytes) : Prop :=
  (forall b, In (b, id) (handles s) -> b = a) /\ (forall id', In (a, id') (handles s) -> id' = id).

(** Only the holder of a handle can use it; anybody else may be made to wait. *)
Definition may_wait (s : cells) (x : act) : Prop :=
  match x with
  | ARead a | AChange a _ | ACast a _ | AFlush a _ | ADrop a => forall id, ~ In (a, id) (handles s)
  | _ => True
  end.

(** [lawful s x r s']: [x] may answer [r], and the files are then as in [s']. *)
Inductive lawful : cells -> act -> tres -> cells -> Prop :=
| L_wait s x : may_wait s x -> lawful s x TWait s
| L_open s id ty bad a c : files s id = Some c -> handle_for s a id -> lawful s (AOpen id ty bad) (TObj a) (take a id s)
| L_missing s id ty bad : files s id = None -> lawful s (AOpen id ty bad) (TErr (EPosix 2)) s
| L_open_bad s id ty e : lawful s (AOpen id ty (Some e)) (TErr e) s
| L_open_type s id ty bad c : files s id = Some c -> good_class ty = false \/ (id = root_id /\ ty <> TDIR) ->
    lawful s (AOpen id ty bad) (TErr (EPosix 1)) s
| L_create s id ty a : files s id = None -> handle_for s a id -> lawful s (ACreate id ty None) (TObj a) (take a id (set_cell id (Some blank) s))
| L_exists s id ty bad : files s id <> None -> lawful s (ACreate id ty bad) (TErr (if bytes_eqb id root_id then EInval else (EPosix 17))) s
| L_create_bad s id ty e : lawful s (ACreate id ty (Some e)) (TErr e) s
| L_create_type s id ty : good_class ty = false -> lawful s (ACreate id ty None) (TErr (EPosix 1)) s
| L_read s a id c : In (a, id) (handles s) -> files s id = Some c -> lawful s (ARead a) (TCont c) s
| L_change s a id c c' : In (a, id) (handles s) -> files s id = Some c -> lawful s (AChange a c') TDone (set_cell id (Some c') s)
| L_cast s a id c : In (a, id) (handles s) -> files s id = Some c -> lawful s (ACast a (kind_of c)) TDone s
| L_cast_bad s a id want : In (a, id) (handles s) -> lawful s (ACast a want) (TErr (EPosix 1)) s
| L_flush s a id bad : In (a, id) (handles s) -> lawful s (AFlush a bad) TDone s
| L_drop s a id : In (a, id) (handles s) -> lawful s (ADrop a) TDone (mkCells (files s) (drop_handle a (handles s)))
| L_read_id s a : lawful s (AReadId a) TDone s
| L_read_dead s a : lawful s (AReadId a) TDead s
| L_close s id bad : lawful s (AClose id bad) TDone s
| L_finish s k bad : lawful s (AFinish k bad) TDone s
| L_remove s k bad id c : files s id = Some c -> c_nlink c = 0%N -> unused s id ->
    lawful s (AFinish k bad) (TRemoved id) (set_cell id None s).

Fixpoint lawful_run (s : cells) (h : list (act * tres)) (s' : cells) : Prop :=
  match h with
  | [] => s' = s
  | (x, r) :: h' => exists s1, lawful s x r s1 /\ lawful_run s1 h' s'
  end.

(** What was stored before the table was made. *)
Definition cells0 (d : bytes -> option content) : cells :=
  mkCells (match d root_id with Some _ => d | None => dset d root_id (Some root_content) end) [].

(** ** Further notions *)
(** How many users have handle [a]. *)
Definition users (a : nat) (s : cells) : nat := length (filter (fun p => fst p =? a) (handles s)).

(** When the table makes an action wait: the shard is being cleaned up, or there is
    nothing to do. *)
Definition waits (x : act) (t : table) : Prop :=
  match x with
  | AOpen id _ _ | ACreate id _ _ => id <> root_id /\ busy t (shard_of id) <> None
  | ARead a | AChange a _ | ACast a _ | AFlush a _ | ADrop a => ~ In a (held t)
  | AReadId a => ~ In a (going t)
  | AClose id _ => ~ In id (closing t) \/ (id <> root_id /\ busy t (shard_of id) <> None)
  | AFinish k _ => busy t k = None
  end.

(** Every object is opened with the type of the file. *)
Definition typed (kind : bytes -> N) (x : act) : Prop :=
  match x with AOpen id ty _ | ACreate id ty _ => ty = kind id | _ => True end.

(** No input or output fails. *)
Definition healthy (x : act) : Prop :=
  match x with AClose _ (Some _) | AFinish _ (Some _) => False | _ => True end.

(** The closers are done. *)
Definition quiet (t : table) : Prop := going t = [] /\ closing t = [] /\ (forall s, busy t s = None).

(** Every closer reads the id at once, as if before giving up its reference. *)
Inductive prompt : list act -> Prop :=
| P_nil : prompt []
| P_drop a l : prompt l -> prompt (ADrop a :: AReadId a :: l)
| P_other x l : (forall a, x <> ADrop a) -> (forall a, x <> AReadId a) -> prompt l -> prompt (x :: l).
