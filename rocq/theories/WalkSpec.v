(** What is in a tree of directories, and what a walk over it should see. *)
From Verif Require Import Base TextModel NameModel LongNameModel WalkModel.
Local Open Scope list_scope.

Definition real_name (name : bytes) : Prop := name <> [dot] /\ name <> [dot; dot].

(** [inside n path c]: going down from [n] along [path] leads to [c]. *)
Inductive inside : node -> list bytes -> node -> Prop :=
| inside_here n : inside n [] n
| inside_down o l e name shown child path c :
    In (name, shown, child) l -> real_name name -> inside child path c ->
    inside (NDir o l e) (name :: path) c.

(** A tree of the host: a directory, in which names are not empty and have no slash,
    no two entries of one directory have the same name, and only "." and ".." lead up. *)
Definition host_tree (n : node) : Prop :=
  (exists o l e, n = NDir o l e) /\
  (forall p, ~ inside n p NUp) /\
  (forall p o l e, inside n p (NDir o l e) ->
     NoDup (map (fun x => fst (fst x)) l) /\ forall name b c, In (name, b, c) l -> name <> [] /\ ~ In slash name).
(** Every directory in it can be opened and listed to its end. *)
Definition readable (n : node) : Prop := forall p o l e, inside n p (NDir o l e) -> o = None /\ e = None.
(** The host tells the type of everything in it. *)
Definition types_told (n : node) : Prop :=
  forall p o l e name b c, inside n p (NDir o l e) -> In (name, b, c) l -> b = true.

(** The text of the path that leads from [dir] down. *)
Definition text (dir : bytes) (path : list bytes) : bytes := dir ++ flat_map (fun w => slash :: w) path.
Definition type_of (n : node) : N :=
  match n with NFile => S_IFREG | NLink => S_IFLNK | NOther => 0%N | NUp | NDir _ _ _ => S_IFDIR end.

(** A callback that keeps everything it is told. *)
Definition keep (dir name : bytes) (t : N) (s : list (bytes * bytes * N)) : res (list (bytes * bytes * N)) :=
  Ok (s ++ [(dir, name, t)]).

(** The tree is what the directories [fs] look like to a walk.  Other files may lie
    among them, such as the one with the parameters, but no other table. *)
Definition shows (n : node) (fs : hfs) : Prop :=
  forall p o l e, inside n p (NDir o l e) ->
  exists es, fs p = Some es /\
    (forall name, ent name es <> None -> exists b c, In (name, b, c) l) /\
    forall name b c, real_name name -> In (name, b, c) l ->
      match ent name es with
      | Some KDir => exists o' l' e', c = NDir o' l' e'
      | Some _ => c = NFile
      | None => c = NFile /\ name <> kLongNameTableFileName
      end.
