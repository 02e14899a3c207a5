(** What starting a child should do to the descriptors of the two processes. *)
From Verif Require Import Base SpawnModel.
Local Open Scope list_scope.

(** The same descriptors are open and refer to the same. *)
Definition same_table (t t' : table) : Prop := forall fd, look t fd = look t' fd.
(** No descriptor of the process refers to the pipe yet, which is new. *)
Definition no_pipe (t : table) : Prop := forall fd o c, look t fd = Some (o, c) -> o <> OPipeRead /\ o <> OPipeWrite.
Definition inherited (e : option entry) : option entry :=
  match e with Some (o, false) => Some (o, false) | _ => None end.
