(** What the statements about long names mean. *)
From Coq Require Import Strings.String.
From Verif Require Import Base TextModel NameModel NameSpec LongNameModel.
(** Error numbers, as on Linux: 2 is ENOENT. *)
Local Open Scope list_scope.

(** A path as FUSE hands it over: "/", or "/name" once or several times. *)
Definition path_of (names : list bytes) : bytes :=
  match names with [] => [slash] | _ => flat_map (fun n => slash :: n) names end.
Definition fuse_path (path : bytes) : Prop :=
  exists names, Forall (fun n => n <> [] /\ ~ In slash n) names /\ path = path_of names.

(** A physical entry that stands for a name too long to be stored in it. *)
Definition long_entry (suffix u : bytes) : Prop := hd x00 u <> dot /\ ends_with u suffix = true.

Definition op_paths (o : lop) : list bytes :=
  match o with
  | LOpen p _ _ _ _ _ | LMkdir p _ | LSymlink p _ _ | LUnlink p _ | LRmdir p _ => [p]
  | LLink p q _ | LRename p q _ => [p; q]
  end.

(** Where the host finds what a virtual path names. *)
Definition found (trans : translator) (fs : hfs) (path : bytes) : option kind :=
  match t_encrypt trans path with
  | Ok (P, _) => match comps P with
                 | [] => Some KDir
                 | p => match fs (parent p) with Some es => ent (leaf p) es | None => None end
                 end
  | Err _ => None
  end.
Definition entries_of (trans : translator) (fs : hfs) (path : bytes) : list bytes :=
  match t_encrypt trans path with
  | Ok (P, _) => match fs (comps P) with Some es => map fst es | None => [] end
  | Err _ => []
  end.

(** Operations that the table survives.  The three that it does not survive are
    - creating a file whose header then cannot be written,
    - removing a directory that is not empty,
    - renaming one link of a file to another link of the same file;
    they matter only where long names are involved. *)
Definition benign (trans : translator) (suffix : bytes) (o : lop) (fs : hfs) : Prop :=
  Forall fuse_path (op_paths o) /\
  match o with
  | LOpen p true _ _ _ (Some _) => found trans fs p <> None \/ exists P, t_encrypt trans p = Ok (P, [])
  | LRmdir p _ => Forall (fun u => ~ long_entry suffix u) (entries_of trans fs p)
  | LRename p q _ => forall i, found trans fs p = Some (KFile i) -> found trans fs q = Some (KFile i) ->
                     p = q \/ exists P, t_encrypt trans p = Ok (P, [])
  | _ => True
  end.
Fixpoint benign_run (trans : translator) (suffix : bytes) (ops : list lop) (fs : hfs) : Prop :=
  match ops with
  | [] => True
  | o :: ops' => benign trans suffix o fs /\ benign_run trans suffix ops' (fst (lite_step trans o fs))
  end.

(** What a listing of a physical directory shows, besides "." and "..". *)
Definition table_of (es : hents) (u : bytes) : res bytes :=
  match ent kLongNameTableFileName es with
  | Some (KTable m) => match ent u m with Some l => Ok l | None => Err (EPosix 2) end
  | _ => Err (EPosix 2)
  end.
Definition listing (trans : translator) (es : hents) : list bytes :=
  list_names trans (table_of es) (map fst es) [].

(** All names that occur in a history. *)
Definition op_names (ops : list lop) : list bytes := flat_map split_slash (flat_map op_paths ops).

(** The directories that hold a table, each once, in some order. *)
Definition tables (fs : hfs) (dirs : list hpath) : Prop :=
  NoDup dirs /\ forall d, In d dirs <-> exists es m, fs d = Some es /\ ent kLongNameTableFileName es = Some (KTable m).
(** No directory of the list lies below a long-named entry of an earlier one. *)
Fixpoint deep_first (suffix : bytes) (dirs : list hpath) : Prop :=
  match dirs with
  | [] => True
  | d :: ds => Forall (fun d' => forall h r, long_entry suffix h -> d' <> d ++ h :: r) ds /\ deep_first suffix ds
  end.

(** Every long-named entry of every directory has its full name in the directory's
    table: encrypting that name again leads to this entry and to what the table holds. *)
Definition all_recorded (trans : translator) (threshold : nat) (suffix : bytes) (fs : hfs) : Prop :=
  forall d es u k, fs d = Some es -> In (u, k) es -> long_entry suffix u ->
  exists name P l, threshold < length name /\ ~ In slash name /\ t_encrypt trans (slash :: name) = Ok (P, l) /\
    get_last_component P = u /\ table_of es u = Ok l.
(** No table says anything about an entry that is not there, or says it twice. *)
Definition nothing_stale (suffix : bytes) (fs : hfs) : Prop :=
  forall d es m, fs d = Some es -> ent kLongNameTableFileName es = Some (KTable m) ->
  NoDup (map fst m) /\ forall u l, In (u, l) m -> long_entry suffix u /\ In u (map fst es).
