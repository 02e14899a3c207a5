(** What a path is spelled like, and what other threads leave alone: said over the plain
    cells of [TableSpec], without objects, addresses or caches. *)
From Verif Require Import Base FullFsModel BtreeModel TableModel TableSpec GetpathModel.
Local Open Scope nat_scope.
Local Open Scope list_scope.

Section Spec.
Variable entries : bytes -> list entry.
Variable cmp : bytes -> bytes -> comparison.

(** [names] is how the directories spell [path], starting from the directory [id]. *)
Inductive spelled (s : cells) : bytes -> list bytes -> list bytes -> Prop :=
| SP_nil id : spelled s id [] []
| SP_cons id c e name path names :
    files s id = Some c -> kind_of c = TDIR -> In e (entries (c_data c)) -> cmp name (e_name e) = Eq ->
    spelled s (e_id e) path names -> spelled s id (name :: path) (e_name e :: names).

(** A directory that a directory has an entry for has links. *)
Definition linked (s : cells) : Prop :=
  forall id c e c', files s id = Some c -> kind_of c = TDIR -> In e (entries (c_data c)) ->
    files s (e_id e) = Some c' -> kind_of c' = TDIR -> c_nlink c' <> 0%N.
End Spec.

(** The references this thread has. *)
Definition ours (p : pc) : list nat :=
  match p with
  | PLook h _ _ | POpen h _ _ _ _ | PReadId _ h _ _ | PClose _ h _ _ | PFinish _ h _ _ => [h]
  | PDrop old h _ _ => [old; h]
  | _ => []
  end.

(** Other threads do anything, except that they do not change a directory or turn
    something into one; and they give up only references of their own. *)
Definition calm (x : act) (t : table) (p : pc) : Prop :=
  match x with
  | AChange a c => kind_of c <> TDIR /\ forall o, oget t a = Some o -> kind_of (o_cont o) <> TDIR
  | ADrop a => count_occ Nat.eq_dec (ours p) a < count_occ Nat.eq_dec (held t) a
  | _ => True
  end.
(** The same in all of a schedule. *)
Fixpoint calm_run entries cmp (xs : list (option act)) (t : table) (p : pc) : Prop :=
  match xs with
  | [] => True
  | None :: xs' => let (t1, p1) := gstep entries cmp t p in calm_run entries cmp xs' t1 p1
  | Some x :: xs' => calm x t p /\ calm_run entries cmp xs' (fst (tstep x t)) p
  end.

(** How often other threads put a file to rest. *)
Definition is_finish (x : option act) : bool := match x with Some (AFinish _ _) => true | _ => false end.
Definition rests (xs : list (option act)) : nat := length (filter is_finish xs).
