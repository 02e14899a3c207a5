(** C24, C25 and C48: the table of open files, under every interleaving, and its storage. *)
From Coq Require Import ZArith Strings.String.
From Verif Require Import Base BaseLemmas TextModel FullFsModel TableModel TableSpec TableProofs TableTop TableMore
  NameModel TableIoModel TableIoSpec TableIoProofs.
Local Open Scope nat_scope.
Local Open Scope list_scope.

(** C24.  Whatever is stored, and however the opens, creations, reads, changes, flushes,
    drops and cleanups of any number of threads are interleaved, with any of them failing:
    - every answer is one that plain cells, one per file, would give ([lawful]): users of
      the same file have the same object, and no object serves two files; what is read is
      what was changed last, even if everybody had dropped the file in between; a file is
      removed only when it has no links and nobody uses it;
    - an object somebody uses has not been destroyed, and its reference count is the number
      of its users;
    - at most 50 idle objects are kept per shard;
    - closing the table stores the present content of every file. *)
Theorem C24_table :
  forall d xs t h, trun xs (start d) = (t, h) ->
  exists s, lawful_run (cells0 d) h s /\
    (forall a id, In (a, id) (handles s) -> exists o, oget t a = Some o /\ o_dead o = false /\ o_id o = id /\ Some (o_cont o) = files s id) /\
    (forall a o, oget t a = Some o -> o_ref o = Z.of_nat (users a s)) /\
    (forall k, length (cached t k) <= 50) /\
    (forall id, shutdown t id = files s id).
Proof.
  intros d xs t h E. destruct (start_TI d) as [H Hs]. destruct (run_TI xs (start d) (cells0 d) H Hs t h E) as (s & L & H' & Hs').
  exists s. split; [exact L|]. split; [|split; [|split; [exact Hs'|intros id; now apply shutdown_files]]].
  - intros a id Hh. apply (handle_iff t s a id H') in Hh. destruct Hh as (_ & o & [A1 A2] & A3). exists o. repeat split; auto. rewrite <- A3. symmetry. apply (i_files1 t s H' a o). now split.
  - intros a o Ho. rewrite (users_count t s a H'). now apply (i_ref t s H').
Qed.
Print Assumptions C24_table.

(** ids used in the examples *)
Definition ida : bytes := repeat x01 32.
Definition idb : bytes := repeat x02 32.
Definition file_a : content := mkC (420 + TREG * 4096) 1 [x41].
Definition stored_a : bytes -> option content := dset (fun _ => None) ida (Some file_a).

(** A schedule with two users of one file, a third that waits during the cleanup, a file
    created and removed: the answers. *)
Definition ex_schedule : list act :=
  [AOpen ida TREG None; AOpen ida TREG None; AChange 1 (mkC (420 + TREG * 4096) 1 [x42]); ADrop 1; ARead 1; ADrop 1; AReadId 1; AClose ida None;
   AOpen ida TREG None; AFinish (shard_of ida) None; AOpen ida TREG None; ARead 1;
   ACreate idb TDIR None; AChange 2 (mkC (493 + TDIR * 4096) 0 []); ADrop 2; AReadId 2; AClose idb None; AFinish (shard_of idb) None; AOpen idb TDIR None].
Example C24_example :
  let '(t, h) := trun ex_schedule (start stored_a) in
  map snd h = [TObj 1; TObj 1; TDone; TDone; TCont (mkC (420 + TREG * 4096) 1 [x42]); TDone; TDone; TDone;
    TWait; TDone; TObj 1; TCont (mkC (420 + TREG * 4096) 1 [x42]);
    TObj 2; TDone; TDone; TDone; TDone; TRemoved idb; TErr E_NOENT] /\
  shutdown t ida = Some (mkC (420 + TREG * 4096) 1 [x42]) /\ held t = [1].
Proof. vm_compute. repeat split. Qed.

(** C24, waiting.  An action that is made to wait either is not one its thread could take
    (it has no such handle, nothing to close), or its shard is being cleaned up; and the
    end of the cleanup, whether it works or not, ends the wait. *)
Theorem C24_waiting :
  forall d xs t h, trun xs (start d) = (t, h) ->
  forall x, snd (tstep x t) = TWait ->
    waits x t /\ forall k bad, busy (fst (tstep (AFinish k bad) t)) k = None.
Proof.
  intros d xs t h E x Hx. destruct (start_TI d) as [H Hs]. destruct (run_TI xs (start d) (cells0 d) H Hs t h E) as (s & _ & H' & _).
  split; [now apply wait_only|intros k bad; now apply (finish_frees k bad t s)].
Qed.
Print Assumptions C24_waiting.
Example C24_waiting_example :
  let t := fst (trun [AOpen ida TREG None; ADrop 1; AReadId 1; AClose ida None] (start stored_a)) in
  snd (tstep (AOpen ida TREG None) t) = TWait /\ snd (tstep (AOpen ida TREG None) (fst (tstep (AFinish (shard_of ida) None) t))) = TObj 1.
Proof. vm_compute. repeat split. Qed.

(** C24, nothing is left behind.  When the writes of the cleanup succeed, then each time
    the closers are done, every file that nobody uses has links: what has lost its last
    link and its last user has been removed. *)
Theorem C24_no_orphans :
  forall d xs t h, (forall id c, id <> root_id -> d id = Some c -> c_nlink c <> 0%N) ->
  Forall healthy xs -> trun xs (start d) = (t, h) -> quiet t ->
  exists s, lawful_run (cells0 d) h s /\
    forall id c, id <> root_id -> files s id = Some c -> unused s id -> c_nlink c <> 0%N.
Proof.
  intros d xs t h Hd Hx E Q. destruct (start_TI d) as [H Hs].
  destruct (run_more xs (start d) (cells0 d) H Hs (start_LK d) (start_ND d Hd) Hx) as (s & L & H' & HL & HN). rewrite E in *. cbn [fst snd] in *.
  exists s. split; [exact L|]. intros id c. now apply (quiet_links t s).
Qed.
Print Assumptions C24_no_orphans.
Example C24_no_orphans_example :
  (forall id c, id <> root_id -> stored_a id = Some c -> c_nlink c <> 0%N) /\
  Forall healthy ex_schedule /\ quiet (fst (trun ex_schedule (start stored_a))).
Proof.
  repeat split.
  - intros id c _. unfold stored_a, dset. destruct (bytes_eqb id ida); [intros [= <-]; discriminate|discriminate].
  - repeat constructor.
  - intros s. vm_compute. repeat (destruct s as [|s]; [reflexivity|]). reflexivity.
Qed.

(** The rest of C24 is refuted: one access is not covered by the count.  The closer gives
    up its reference and only then reads the id of the object ([FileTableCloser]).  Another
    thread can open, drop and clean up the file in between, and the closer then reads an
    object that is gone. *)
Theorem C24_use_after_free_refuted :
  exists xs a, In (AReadId a, TDead) (snd (trun xs (start stored_a))).
Proof.
  exists [AOpen ida TREG None; ADrop 1; AOpen ida TREG None; AChange 1 (mkC (420 + TREG * 4096) 0 []); ADrop 1; AReadId 1; AClose ida None; AFinish (shard_of ida) None; AReadId 1], 1.
  vm_compute. repeat (first [left; reflexivity | right]).
Qed.
Print Assumptions C24_use_after_free_refuted.

(** If the id were read at once, no schedule would touch a destroyed object. *)
Theorem C24_prompt :
  forall d xs, prompt xs -> forall x r, In (x, r) (snd (trun xs (start d))) -> r <> TDead.
Proof. intros d xs Hp. destruct (start_TI d) as [H Hs]. exact (prompt_run xs Hp (start d) (cells0 d) H Hs eq_refl). Qed.
Print Assumptions C24_prompt.
Example C24_prompt_example : prompt [AOpen ida TREG None; AOpen ida TREG None; ADrop 1; AReadId 1; AChange 1 (mkC 0 0 []); ADrop 1; AReadId 1; AClose ida None; AFinish (shard_of ida) None].
Proof. repeat (first [apply P_nil | apply P_drop | apply P_other; [discriminate|discriminate|]]). Qed.

(** C48.  An object is used as a regular file, a directory or a symbolic link only if it
    was made as one and the file's recorded type says so, whatever types it was asked for
    before, and whoever has changed the recorded type meanwhile. *)
Theorem C48_no_confusion :
  forall d xs t h, trun xs (start d) = (t, h) ->
  exists s, lawful_run (cells0 d) h s /\
    forall a want, snd (tstep (ACast a want) t) = TDone ->
      exists id c o, In (a, id) (handles s) /\ files s id = Some c /\ kind_of c = want /\ oget t a = Some o /\ o_dead o = false /\ o_class o = want.
Proof.
  intros d xs t h E. destruct (start_TI d) as [H Hs]. destruct (run_TI xs (start d) (cells0 d) H Hs t h E) as (s & L & H' & Hs').
  exists s. split; [exact L|]. intros a want Hc.
  destruct (tstep (ACast a want) t) as [t' r] eqn:Et. cbn in Hc. subst r. destruct (step_TI _ t s H' Hs' t' TDone Et) as (s' & Ls & _).
  inversion Ls; subst. match goal with A : In (a, ?i) (handles ?z), B : files ?z ?i = Some ?c |- _ => destruct (cast_handle t z a i c H' A B) as (o & [O1 O2] & _ & _ & O4); exists i, c, o end.
  repeat split; auto. specialize (O4 (kind_of c)). rewrite Et in O4. cbn [snd] in O4. destruct (o_class o =? kind_of c)%N eqn:Ek; [now apply N.eqb_eq in Ek|discriminate].
Qed.
Print Assumptions C48_no_confusion.

(** C48, the right type works.  If every file is only ever opened with its own type, then
    using it as that type succeeds and as any other type is refused with EPERM. *)
Theorem C48_right_type :
  forall kind d xs t h, kind root_id = TDIR -> Forall (typed kind) xs -> trun xs (start d) = (t, h) ->
  exists s, lawful_run (cells0 d) h s /\
    forall a id c want, In (a, id) (handles s) -> files s id = Some c -> kind_of c = kind id ->
      snd (tstep (ACast a want) t) = if (want =? kind id)%N then TDone else TErr (EPosix 1).
Proof.
  intros kind d xs t h Hk Hx E. destruct (start_TI d) as [H Hs].
  assert (Hc : forall a o, alive (start d) a o -> o_class o = kind (o_id o)).
  { intros [|[|a]] o [A _]; unfold oget, start in A; cbn [heap nth_error] in A; try discriminate. injection A as <-. cbn [o_class o_id]. congruence. }
  pose proof (run_class kind xs Hk (start d) (cells0 d) H Hs Hc Hx) as Hc'. cbn zeta in Hc'. rewrite E in Hc'. cbn [fst] in Hc'.
  destruct (run_TI xs (start d) (cells0 d) H Hs t h E) as (s & L & H' & Hs'). exists s. split; [exact L|].
  intros a id c want Hh Hf Hkc. destruct (cast_handle t s a id c H' Hh Hf) as (o & A & A1 & A2 & A3). rewrite A3, (Hc' a o A), A1, Hkc, N.eqb_refl. cbn. now rewrite N.eqb_sym.
Qed.
Print Assumptions C48_right_type.
Example C48_example :
  let t := fst (trun [AOpen ida TREG None; ACreate idb TDIR None; AChange 2 (mkC (493 + TDIR * 4096) 1 [])] (start stored_a)) in
  map (fun p => snd (tstep (ACast (fst p) (snd p)) t)) [(1, TREG); (1, TDIR); (2, TDIR); (2, TLINK)] = [TDone; TErr E_PERM; TDone; TErr E_PERM].
Proof. vm_compute. reflexivity. Qed.

(** That hypothesis is needed: one open with a wrong type, which nothing refuses at the
    time, makes the right type be refused too, as long as the object is in use or idle in
    the table. *)
Theorem C48_poisoned_refuted :
  exists xs, Forall healthy xs /\
    let t := fst (trun xs (start stored_a)) in
    exists a, held t = [a] /\ snd (tstep (ARead a) t) = TCont file_a /\ kind_of file_a = TREG /\ snd (tstep (ACast a TREG) t) = TErr E_PERM.
Proof.
  exists [AOpen ida TDIR None; ADrop 1; AReadId 1; AClose ida None; AFinish (shard_of ida) None; AOpen ida TREG None].
  split; [repeat constructor|]. exists 1. vm_compute. repeat split.
Qed.
Print Assumptions C48_poisoned_refuted.

(** C25.  In both layouts the data and the metadata of different ids are stored under
    different paths, no data path is a metadata path, and every path stays inside the
    repository: its components are not empty, and neither "." nor "..". *)
Theorem C25_paths :
  forall legacy i j, length i = 32 -> length j = 32 ->
    (data_path legacy i = data_path legacy j -> i = j) /\
    (meta_path legacy i = meta_path legacy j -> i = j) /\
    data_path legacy i <> meta_path legacy j /\
    (forall c, In c (split_slash (data_path legacy i)) \/ In c (split_slash (meta_path legacy i)) -> c <> [] /\ c <> str "." /\ c <> str "..").
Proof.
  intros l i j Hi Hj. split; [intros E; apply (dc_inj l); unfold dc; now rewrite E|]. split; [intros E; apply (mc_inj l); unfold mc; now rewrite E|].
  split; [intros E; apply (dc_mc l i j); unfold dc, mc; now rewrite E|].
  intros c Hc. apply (components_ok l i c Hi). exact Hc.
Qed.
Print Assumptions C25_paths.

(** C25, as a store.  Start from any host directory that has nothing in or under names of
    two hexadecimal digits.  However creations, rewrites, reads and removals of any files
    follow each other, with the host stopping in the middle of any of them, the storage
    answers like two byte strings per id: no operation on one file, finished or not, is
    seen through another, and nothing else in the directory is touched. *)
Theorem C25_store :
  forall legacy evs h, clean h -> Forall (fun e => length (op_id (fst e)) = 32) evs ->
  exists m, history (fun _ => (None, None)) evs (snd (host_run legacy evs h)) m /\
    (forall id, length id = 32 -> snd (io_step legacy (IoGet id) (fst (host_run legacy evs h))) = snd (store_step (IoGet id) m)) /\
    (forall p, ~ own p -> hget (fst (host_run legacy evs h)) p = hget h p).
Proof.
  intros l evs h Hc Hf. destruct (run_ok l h evs Hf h _ (clean_Rep l h Hc)) as (m & L & R). exists m. split; [exact L|]. split.
  - intros id Hi. destruct (proj1 (get_ok l h _ m id R Hi)) as (h' & E & _). now rewrite E.
  - intros p Hp. now apply (r_foreign l h _ m R).
Qed.
Print Assumptions C25_store.
Definition ex_host : host := [([str ".config.pb"], HFile [x41])].
Example C25_example :
  let evs := [(IoCreate ida, None); (IoCreate idb, None); (IoPut ida [x41] [x42], None); (IoUnlink idb, Some 1); (IoGet idb, None); (IoUnlink idb, None); (IoGet ida, None); (IoCreate ida, None)] in
  Forall (fun e => length (op_id (fst e)) = 32) evs /\
  (forall l, snd (host_run l evs ex_host) = [IoDone; IoDone; IoDone; IoErr E_NOENT; IoDone; IoBytes [x41] [x42]; IoErr E_EXIST]) /\
  clean ex_host.
Proof.
  split; [repeat constructor|]. split; [intros []; vm_compute; reflexivity|].
  intros p (b & r & ->). cbn [hget ex_host]. destruct (path_dec _ _) as [E|_]; [|reflexivity]. exfalso. apply (f_equal (hd [])) in E. cbn [hd] in E.
  assert (F : In x2e (hexify [b])) by (rewrite <- E; now left). pose proof (TextProofs.hexify_digits [b]) as G. rewrite Forall_forall in G. apply G in F. vm_compute in F. intuition discriminate.
Qed.
