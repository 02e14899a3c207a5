(** What the statements about waiting for a mount in the background mean. *)
From Verif Require Import Base WaitModel.
Local Open Scope list_scope.

(** How a process ends: with a code, or by a signal (and perhaps a dump of its memory). *)
Inductive ending := Exited (code : N) | Killed (signal : N) (dumped : bool).
(** As Linux puts it into a number. *)
Definition status_of (e : ending) : N :=
  match e with
  | Exited code => code * 256
  | Killed signal dumped => signal + if dumped then 128 else 0
  end%N.
Definition real (e : ending) : Prop :=
  match e with Exited code => (code < 256)%N | Killed signal _ => (0 < signal < 127)%N end.
(** What the command should give for it: never 0. *)
Definition reported (e : ending) : Z :=
  match e with
  | Exited 0%N => -1
  | Exited code => Z.of_N code
  | Killed signal _ => 128 + Z.of_N signal
  end%Z.

(** The events are what can happen: children end as processes do. *)
Definition possible (l : list wev) : Prop := Forall (fun e => match e with EvEnd st => exists x, real x /\ st = status_of x | _ => True end) l.
(** Nobody but the child mounts a securefs on the directory. *)
Definition undisturbed (mounts : list mounter) (l : list wev) : Prop := ~ In BySecurefs mounts /\ ~ In ByChild mounts /\ ~ In (EvOther BySecurefs) l.
(** The steps of the command among the events. *)
Definition steps_of (l : list wev) : nat := length (filter (fun e => match e with EvCommand _ _ => true | _ => false end) l).
(** No call of the command fails for a passing reason. *)
Definition steady_calls (l : list wev) : Prop := Forall (fun e => match e with EvCommand a c => a = true /\ c = true | _ => True end) l.
Definition quiet_calls (l : list wev) : Prop := Forall (fun e => match e with EvCommand a c => c = true | _ => True end) l.
