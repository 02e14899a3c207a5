(** The process that serves a mounted repository of the full format is killed.

    What is left is what the host has: the bytes under the streams of every file object
    (the two streams of a file write through to the host at once, sources/streams.cpp,
    sources/platform.h), without what the objects keep in memory: the attributes and
    the page words of the header (sources/files.cpp 85-160, files.h 72-97), the pages a
    directory has not written back (sources/btree_dir.cpp 36-88, 240-262), and the MAC
    of the metadata, which is written by a flush only (sources/streams.cpp 101-130).

    A kill is between two steps of RepoModel; one between the host writes of a single
    operation on a stream is what CrashModel is about (C09). *)
From Coq Require Import Strings.String.
From Verif Require Import Base TextModel NameModel StreamSpec AttrModel FullStreamModel BtreeModel FullFsModel ObjModel RepoModel.
Local Open Scope list_scope.

(** The two files of the host, whatever the process remembers of them. *)
(** Environment: the stored data file. *)
Definition host_data (x : rfile) : bytes := match x with RStored d _ => d | RLoaded f _ _ => f_data (fo_s f) end.
(** Environment: the stored metadata file. *)
Definition host_meta (x : rfile) : bytes := match x with RStored _ m => m | RLoaded f _ _ => f_meta (fo_s f) end.
(** Environment: the stored files. *)
Definition host_files (rp : repo) : list (bytes * rfile) :=
  map (fun p => (fst p, RStored (host_data (snd p)) (host_meta (snd p)))) (rp_files rp).

(** Runs in which the process is also killed, and the repository mounted again
    (FileTable::init, sources/file_table_v2.cpp 21-40): here at a moment when nothing is
    in use. *)
Section Kill.
Variable E : senv.
Inductive kevent :=
| KEv (e : revent)
| KKill (r : res unit).

(** Environment: a step of [RepoModel], or the process dies and the repository
    is mounted again (sources/file_table_v2.cpp 20-40). *)
Inductive kstep : rworld -> kevent -> rworld -> Prop :=
| K_ev w e w' : rwstep E w e w' -> kstep w (KEv e) w'
| K_kill w : w_handles w = [] -> Forall (fun t => t = RIdle) (w_threads w) ->
    kstep w (KKill (snd (mount E (host_files (w_repo w)) (rp_time (w_repo w)))))
      (mkRworld (fst (mount E (host_files (w_repo w)) (rp_time (w_repo w)))) [] (w_threads w)).

(** Helper (no code): executions. *)
Inductive krun (n : nat) : list (kevent * rworld) -> rworld -> Prop :=
| KR_start : krun n [] (mkRworld (fst (mount E [] 0)) [] (repeat RIdle n))
| KR_step l w e w' : krun n l w -> kstep w e w' -> krun n ((e, w') :: l) w'.
End Kill.
