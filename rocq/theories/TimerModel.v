(** The idle timer: sources/resettable_timer.cpp 10-58.

    The worker thread, the callers of setTimePoint, the destructor and the clock
    (absl::Now) move in any order; the clock may show anything.  What happens under the
    mutex is one step; between the end of the wait and the reading of the clock nothing
    else happens (the mutex is held), and the clock is taken not to change there. *)
From Coq Require Import ZArith.
From Verif Require Import Base.
Local Open Scope Z_scope.
Local Open Scope list_scope.

Inductive worker :=
| WNone                 (* not started *)
| WTop                  (* before the lock, 35 *)
| WWait (until : Z)     (* in AwaitWithDeadline, 36-42 *)
| WFire                 (* out of the loop, before callback_, 54 *)
| WCalled               (* the callback was called *)
| WExit.                (* returned at 45 *)
Record timer := mkTimer { trigger : Z; wake : bool; exiting : bool; work : worker; now : Z; gone : bool }.

Inductive tact :=
| TSet (t : Z)          (* setTimePoint *)
| TClock (t : Z)        (* the clock shows [t] *)
| TWork                 (* the worker goes on if it can *)
| TDestroy              (* the destructor, 12-15 *)
| TJoin.                (* its join, 16-19, if the worker has ended *)
Inductive tans := TNothing | TBlocked | TDecided | TCalled.

Definition tmstep (a : tact) (s : timer) : timer * tans :=
  match a with
  | TClock t => (mkTimer (trigger s) (wake s) (exiting s) (work s) t (gone s), TNothing)
  | TSet t =>  (* 22-57; not called once the destructor runs *)
    if exiting s then (s, TBlocked) else
    (mkTimer t (t <? trigger s) (exiting s) (match work s with WNone => WTop | k => k end) (now s) (gone s), TNothing)
  | TDestroy => (mkTimer (trigger s) (wake s) true (work s) (now s) (gone s), TNothing)
  | TJoin =>
    if exiting s && match work s with WNone | WCalled | WExit => true | _ => false end
    then (mkTimer (trigger s) (wake s) (exiting s) (work s) (now s) true, TNothing) else (s, TBlocked)
  | TWork =>
    match work s with
    | WTop => (mkTimer (trigger s) (wake s) (exiting s) (WWait (trigger s)) (now s) (gone s), TNothing)
    | WWait d =>
      if wake s || exiting s || (d <=? now s) then
        if exiting s then (mkTimer (trigger s) (wake s) true WExit (now s) (gone s), TNothing)
        else if trigger s <=? now s then (mkTimer (trigger s) false false WFire (now s) (gone s), TDecided)
        else (mkTimer (trigger s) false false WTop (now s) (gone s), TNothing)
      else (s, TBlocked)
    | WFire => (mkTimer (trigger s) (wake s) (exiting s) WCalled (now s) (gone s), TCalled)
    | WNone | WCalled | WExit => (s, TBlocked)
    end
  end.

(** The history, latest first. *)
Fixpoint tmrun (l : list tact) (s : timer) (h : list (tact * tans)) : timer * list (tact * tans) :=
  match l with
  | [] => (s, h)
  | a :: l' => let '(s1, r) := tmstep a s in tmrun l' s1 ((a, r) :: h)
  end.
(** resettable_timer.h 28: [epoch] is absl::UniversalEpoch. *)
Definition timer0 (epoch t : Z) : timer := mkTimer epoch false false WNone t false.
