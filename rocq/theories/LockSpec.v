(** What the threads that run the operations must be able to count on. *)
From Verif Require Import Base LockModel.
Local Open Scope nat_scope.
Local Open Scope list_scope.

(** Every thread has done all it had to do, and holds no lock. *)
Definition all_done (ts : threads) : Prop := forall th, In th ts -> todo th = [] /\ has th = [].
(** Nobody can move. *)
Definition stuck (ts : threads) : Prop := forall ts', ~ step1 ts ts'.
(** [th] is about to use what [l] protects. *)
Definition uses (th : thread) (l : lk) : Prop := exists p, todo th = Touch l :: p /\ mid th = None.

(** Runs, with the number of steps, and how many of them are a std::lock that gives its
    first lock back because it could not have the second. *)
Definition gave_up (th th' : thread) : bool :=
  (length (todo th') =? length (todo th)) && match mid th' with None => true | Some _ => false end.
Inductive counted : nat -> nat -> threads -> threads -> Prop :=
| N_refl ts : counted 0 0 ts ts
| N_step n k ts i th th' ts' : nth_error ts i = Some th -> tstep1 ts th th' -> counted n k (put ts i th') ts' ->
    counted (S n) (if gave_up th th' then S k else k) ts ts'.
(** The instructions left. *)
Definition work (ts : threads) : nat := list_sum (map (fun th => length (todo th)) ts).
