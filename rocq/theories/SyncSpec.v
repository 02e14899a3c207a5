(** What may be said of a history of the idle timer, and of the processes that lock a
    repository. *)
From Coq Require Import ZArith.
From Verif Require Import Base TimerModel LockerModel.
Local Open Scope list_scope.

(** ** The timer: histories are latest first *)
(** The time asked for last. *)
Fixpoint last_set (h : list (tact * tans)) : option Z :=
  match h with [] => None | (TSet t, TNothing) :: _ => Some t | _ :: h' => last_set h' end.
(** What the clock shows; [t0] at first. *)
Fixpoint last_clock (t0 : Z) (h : list (tact * tans)) : Z :=
  match h with [] => t0 | (TClock t, _) :: _ => t | _ :: h' => last_clock t0 h' end.
Definition destroying (h : list (tact * tans)) : Prop := exists r, In (TDestroy, r) h.
Definition joined (h : list (tact * tans)) : Prop := In (TJoin, TNothing) h.
Definition answers (r : tans) (h : list (tact * tans)) : nat :=
  length (filter (fun p => match snd p, r with TDecided, TDecided => true | TCalled, TCalled => true | _, _ => false end) h).
(** Every time asked for. *)
Definition asked (t : Z) (h : list (tact * tans)) : Prop := In (TSet t, TNothing) h.

(** ** The lock file *)
Definition holds (s : locker) (p : nat) : Prop := exists i, procs s p = PHold i.
(** [p] is not in the middle of taking or giving back the lock. *)
Definition quiet (s : locker) (p : nat) : Prop := match procs s p with PDead | POut | PHold _ => True | _ => False end.
(** Processes take and give back the lock one at a time (each may die or fail on the
    way). *)
Fixpoint one_at_a_time (s : locker) (l : list lact) : Prop :=
  match l with
  | [] => True
  | a :: l' => match a with LGo p => forall q, q <> p -> quiet s q | _ => True end /\ one_at_a_time (lstep s a) l'
  end.
