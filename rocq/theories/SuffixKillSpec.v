(** What a change of the suffix that is stopped part of the way may leave. *)
From Verif Require Import Base TextModel NameModel LongNameModel LongNameSpec.
Local Open Scope list_scope.

(** The name with the other suffix. *)
Definition swapped (old new u : bytes) : bytes := firstn (length u - length old) u ++ new.
(** An entry's name, or, if it is a long one, its name with the new suffix. *)
Definition either (old new u u' : bytes) : Prop := u' = u \/ (long_entry old u /\ u' = swapped old new u).

(** The directories [fs'] are [fs] with some long entries under their new names: [w]
    says where each directory is now. *)
Record renamed_only (old new : bytes) (fs fs' : hfs) (w : hpath -> hpath) : Prop := mkRenamedOnly {
  (** a directory's path differs only in suffixes *)
  ro_path : forall p, fs p <> None -> Forall2 (either old new) p (w p);
  (** nothing else is a directory *)
  ro_all : forall q, fs' q <> None -> exists p, fs p <> None /\ q = w p;
  (** different ones are in different places *)
  ro_apart : forall p p', fs p <> None -> fs p' <> None -> w p = w p' -> p = p';
  (** each directory has its entries, and no others *)
  ro_entries : forall p es, fs p = Some es -> exists es', fs' (w p) = Some es' /\
    (forall u k, u <> kLongNameTableFileName -> ent u es = Some k ->
       exists u', either old new u u' /\ ent u' es' = Some k /\ w (p ++ [u]) = w p ++ [u']) /\
    (forall u' k, u' <> kLongNameTableFileName -> ent u' es' = Some k ->
       exists u, either old new u u' /\ ent u es = Some k) /\
    (** its table is as before, or says the same of the new names, which are all there *)
    (ent kLongNameTableFileName es' = ent kLongNameTableFileName es \/
     exists m m', ent kLongNameTableFileName es = Some (KTable m) /\ ent kLongNameTableFileName es' = Some (KTable m') /\
       (forall x l, ent x m' = Some l <-> exists h, ent h m = Some l /\ x = swapped old new h) /\
       forall u k, long_entry old u -> ent u es = Some k -> ent (swapped old new u) es' = Some k) }.

(** A path all of whose names are stored as they are. *)
Definition short_path (threshold : nat) (path : bytes) : Prop :=
  exists names, Forall (fun n => n <> [] /\ ~ In slash n /\ length n <= threshold) names /\ path = path_of names.
