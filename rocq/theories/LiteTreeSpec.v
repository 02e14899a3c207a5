(** What the directories of a lite repository should look like: a tree with the
    plain names, on which every operation is the host's own system call. *)
From Coq Require Import Strings.String.
From Verif Require Import Base TextModel NameModel NameSpec LongNameModel LongNameSpec.
(** Error numbers, as on Linux: 2 is ENOENT, 39 is ENOTEMPTY. *)
Local Open Scope list_scope.

(** The names in a path. *)
Definition names_of (path : bytes) : hpath := nonempty (split_slash path).

(** The same operation on a plain tree. *)
Definition plain_step (o : lop) (v : hfs) : hfs * res unit :=
  match o with
  | LOpen path creat excl ino bad late =>
    match h_open bad creat excl ino (names_of path) v with
    | (v1, Ok tt) => (v1, match late with Some e => Err e | None => Ok tt end)
    | x => x
    end
  | LMkdir path bad => h_mkdir bad (names_of path) v
  | LSymlink path ino bad => h_open bad true true ino (names_of path) v
  | LLink src dest bad => h_link bad (names_of src) (names_of dest) v
  | LUnlink path bad => h_unlink bad (names_of path) v
  | LRmdir path bad => h_rmdir bad (names_of path) v
  | LRename from to bad => h_rename bad (names_of from) (names_of to) v
  end.

(** Where the plain tree finds a path. *)
Definition plain_found (v : hfs) (path : bytes) : option kind :=
  match names_of path with
  | [] => Some KDir
  | p => match v (parent p) with Some es => ent (leaf p) es | None => None end
  end.

(** Two answers that a lite repository may give instead:
    - a directory is not renamed onto an empty directory (which a plain host allows);
    - a missing directory is reported where the host had another reason to refuse. *)
Definition op_bad (o : lop) : option err :=
  match o with
  | LOpen _ _ _ _ bad _ | LMkdir _ bad | LSymlink _ _ bad | LLink _ _ bad | LUnlink _ bad | LRmdir _ bad | LRename _ _ bad => bad
  end.
Inductive may_refuse (v : hfs) : lop -> err -> Prop :=
| refuse_rename from to : plain_found v from = Some KDir -> plain_found v to = Some KDir -> v (names_of to) = Some [] ->
    may_refuse v (LRename from to None) (EPosix 39)
| refuse_missing o path : op_bad o <> None -> In path (op_paths o) -> v (parent (names_of path)) = None ->
    may_refuse v o (EPosix 2).

(** [plain_history ops v outs v']: from the tree [v], [ops] may answer [outs] and leave [v']. *)
Inductive plain_history : list lop -> hfs -> list (res unit) -> hfs -> Prop :=
| ph_nil v : plain_history [] v [] v
| ph_step o ops v outs v' :
    plain_history ops (fst (plain_step o v)) outs v' ->
    plain_history (o :: ops) v (snd (plain_step o v) :: outs) v'
| ph_refuse o ops v e outs v' :
    may_refuse v o e -> plain_history ops v outs v' ->
    plain_history (o :: ops) v (Err e :: outs) v'.

(** The history with no such refusal. *)
Fixpoint plain_answers (ops : list lop) (v : hfs) : list (res unit) :=
  match ops with
  | [] => []
  | o :: ops' => snd (plain_step o v) :: plain_answers ops' (fst (plain_step o v))
  end.
Fixpoint plain_run (ops : list lop) (v : hfs) : hfs :=
  match ops with
  | [] => v
  | o :: ops' => plain_run ops' (fst (plain_step o v))
  end.

(** The answers of a lite repository. *)
Fixpoint lite_answers (trans : translator) (ops : list lop) (fs : hfs) : list (res unit) :=
  match ops with
  | [] => []
  | o :: ops' => snd (lite_step trans o fs) :: lite_answers trans ops' (fst (lite_step trans o fs))
  end.

(** Operations as FUSE sends them: never on the root itself. *)
Definition from_fuse (o : lop) : Prop := Forall (fun p => fuse_path p /\ p <> [slash]) (op_paths o).

(** The names for which this is claimed:
    - with plain names, not "." and ".." (which FUSE never sends) and not the name of
      the table of long names, which a lite repository reserves;
    - with the names of old repositories, at most 2000 bytes;
    - otherwise any names, if no two of the long ones have the same digest. *)
Definition names_fit (digest : bytes -> bytes) (no_op : bool) (threshold : nat) (names : list bytes) : Prop :=
  if no_op then ~ In [dot] names /\ ~ In [dot; dot] names /\ ~ In kLongNameTableFileName names
  else if threshold =? 0 then Forall (fun n => length n <= 2000) names
  else no_collision digest threshold names.

(** No name is too long to be stored in its directory entry. *)
Definition no_long_names (no_op : bool) (threshold : nat) (names : list bytes) : Prop :=
  no_op = true \/ threshold = 0 \/ Forall (fun n => length n <= threshold) names.
