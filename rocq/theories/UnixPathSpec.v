(** Where calls on a repository should lead: down from its directory, name by name. *)
From Verif Require Import Base NameModel LongNameSpec UnixPathModel.
Local Open Scope list_scope.

Fixpoint down (t : htree) (at_ : nat) (names : list bytes) : option nat :=
  match names with
  | [] => Some at_
  | n :: l => match ht_child t at_ n with Some x => down t x l | None => None end
  end.
(** A name that a directory can have. *)
Definition a_name (n : bytes) : Prop := n <> [] /\ n <> [dot] /\ n <> [dot; dot] /\ ~ In slash n.
(** A path as FUSE hands it over. *)
Definition names_path (p : bytes) (names : list bytes) : Prop :=
  Forall a_name names /\ p = path_of names.
(** The directory still has the name under which it was found. *)
Definition still_there (t : htree) (s : service) : Prop :=
  exists real, sv_name s = real ++ [slash] /\ hd x00 real = slash /\ resolve t (ht_root t) real = Some (sv_dir s).
