(** What the users of per-thread objects see, without slots and generations. *)
From Coq Require Import Sorting.Permutation.
From Verif Require Import Base ThreadLocalModel.
Local Open Scope nat_scope.
Local Open Scope list_scope.

(** An object, the thread and the owner it was made for. *)
Record thing := mkThing { t_obj : nat; t_thread : nat; t_owner : nat }.
(** The owners made so far with their types, which of them are alive, the objects that
    exist, the initializers that run, and the objects made so far. *)
Record world := mkWorld { types : list nat; alive : list nat; things : list thing; running : nat -> list nat; count : nat }.

Definition type_of (w : world) (x : thing) : nat := nth (t_owner x) (types w) 0.
(** [d] is the destruction of exactly the objects [l], each once and as its own type. *)
Definition destroyed (w : world) (l : list thing) (d : list (nat * nat)) : Prop :=
  Permutation d (map (fun x => (t_obj x, type_of w x)) l).

(** What is not done (see [ThreadLocalModel]); [ts] are the threads. *)
Definition misuse (ts : list nat) (w : world) (a : tlact) : Prop :=
  match a with
  | ANew _ => False
  | ADel o => ~ In o (alive w) \/ exists t, In o (running w t)
  | AGet t o => ~ In o (alive w) \/ In o (running w t) \/ ~ In t ts
  | AInit t _ => running w t = []
  | AExit t => running w t <> []
  end.

Inductive lawful (ts : list nat) : world -> tlact -> tlres -> list (nat * nat) -> world -> Prop :=
| W_not w a : misuse ts w a -> lawful ts w a RNot [] w
(* at most 256 owners at a time *)
| W_new w ty : length (alive w) < 256 ->
    lawful ts w (ANew ty) (RNew (length (types w))) [] (mkWorld (types w ++ [ty]) (length (types w) :: alive w) (things w) (running w) (count w))
| W_full w ty : length (alive w) = 256 -> lawful ts w (ANew ty) RFull [] w
(* the end of an owner leaves the objects *)
| W_del w o l1 l2 : alive w = l1 ++ o :: l2 -> (forall t, ~ In o (running w t)) ->
    lawful ts w (ADel o) RDone [] (mkWorld (types w) (l1 ++ l2) (things w) (running w) (count w))
(* the object of this owner for this thread, if there is one *)
| W_get w t o x : In o (alive w) -> In (mkThing x t o) (things w) -> lawful ts w (AGet t o) (RObj x) [] w
(* else the initializer is called; objects of owners that are gone may go *)
| W_init w t o d gone rest : In o (alive w) -> (forall x, ~ In (mkThing x t o) (things w)) -> ~ In o (running w t) ->
    Permutation (things w) (gone ++ rest) -> Forall (fun x => t_thread x = t /\ ~ In (t_owner x) (alive w)) gone -> destroyed w gone d ->
    lawful ts w (AGet t o) RInit d (mkWorld (types w) (alive w) rest (upd (running w) t (o :: running w t)) (count w))
(* its object is the object from now on *)
| W_made w t o r : running w t = o :: r ->
    lawful ts w (AInit t true) (RObj (count w)) [] (mkWorld (types w) (alive w) (mkThing (count w) t o :: things w) (upd (running w) t r) (S (count w)))
| W_threw w t o r : running w t = o :: r ->
    lawful ts w (AInit t false) RThrew [] (mkWorld (types w) (alive w) (things w) (upd (running w) t r) (count w))
(* the end of a thread ends its objects *)
| W_exit w t d rest gone : running w t = [] -> Permutation (things w) (gone ++ rest) -> Forall (fun x => t_thread x = t) gone -> Forall (fun x => t_thread x <> t) rest ->
    destroyed w gone d -> lawful ts w (AExit t) RDone d (mkWorld (types w) (alive w) rest (running w) (count w)).

Fixpoint lawful_run (ts : list nat) (w : world) (h : list (tlact * tlres * list (nat * nat))) (w' : world) : Prop :=
  match h with
  | [] => w' = w
  | (a, r, d) :: h' => exists w1, lawful ts w a r d w1 /\ lawful_run ts w1 h' w'
  end.
Definition world0 : world := mkWorld [] [] [] (fun _ => []) 0.
