(** What is claimed about serving and stopping, in terms of the steps seen from outside. *)
From Verif Require Import Base ShutdownModel.
Local Open Scope nat_scope.
Local Open Scope list_scope.

(** The requests taken from the kernel, and those completed. *)
Definition taken (l : list seen) : list nat := flat_map (fun x => match x with Taken q => [q] | Completed _ => [] end) l.
Definition completed (l : list seen) : list nat := flat_map (fun x => match x with Completed q => [q] | Taken _ => [] end) l.

(** A reason to stop: a signal, a request to unmount, or the kernel ends the session or
    reports an error. *)
Definition reason (l : label) : bool :=
  match l with LSignal => true | LComplete _ stop => stop | LReceive _ REnd => true | LReceive _ (RError _) => true | _ => false end.
(** The errors reported when receiving, in order. *)
Definition errors (ls : list label) : list N := flat_map (fun l => match l with LReceive _ (RError e) => [e] | _ => [] end) ls.
(** Steps that the program takes by itself, without waiting for the kernel or a user. *)
Definition own (l : label) : bool := match l with LReceive _ _ => false | LSignal => false | _ => true end.
Definition not_signal (l : label) : bool := match l with LSignal => false | _ => true end.
(** Requests one after the other: each is completed before the next is taken. *)
Definition one_by_one (l : list seen) : Prop :=
  exists qs, l = flat_map (fun q => [Taken q; Completed q]) qs \/
             exists q, l = flat_map (fun q => [Taken q; Completed q]) qs ++ [Taken q].
