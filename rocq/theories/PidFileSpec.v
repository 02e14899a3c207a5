(** What a script finds in the file with the number of the process. *)
From Coq Require Import Strings.String DecimalString.
From Verif Require Import Base PidFileModel.
Local Open Scope list_scope.

(** The content of the file, if there is one. *)
Definition pid_file (h : phost) : option bytes := match ph_name h with Some i => Some (ph_data h i) | None => None end.
(** The number that a text says in decimal. *)
Definition number_in (text : bytes) : option N :=
  match NilZero.uint_of_string (string_of_list_byte text) with Some u => Some (N.of_uint u) | None => None end.
(** Mounts one after the other, each with the failures it meets. *)
Definition one_by_one (ms : list (N * bool * option nat)) : list pev :=
  flat_map (fun m => let '(p, bad, cut) := m in [PStart p bad; PWrite p cut; PEnd p]) ms.
(** Nobody else's file is in the way, and the directory can be changed. *)
Definition usable (h : phost) : Prop := ph_dir h = true /\ forall i, ph_name h = Some i -> ph_mine h i = true.
