(** C23, C26, C27, C28 and C49: names, links and paths of the full format. *)
From Coq Require Import Strings.String.
From Verif Require Import Base BaseLemmas TextModel NameModel BtreeModel BtreeSpec BtreeShape FullFsModel FullFsSpec FullFsStep.
Local Open Scope list_scope.

(** ** A history for the examples *)
Definition xid (b : byte) : bytes := repeat b 32.
Definition ex_fops : list fop :=
  [FMkdir (str "/d") 493 (xid x01) None; FCreate (str "/d/f") 420 (xid x02) None; FWrite (xid x02) (str "hello"); FClose (xid x02) false;
   FLink (str "/d/f") (str "/g"); FSymlink (str "d/../d") (str "/l") (xid x03) None; FMkdir (str "/l/sub") 448 (xid x04) None;
   FCreate (str "/g") 420 (xid x05) None; FRename (str "/g") (str "/l/sub/g2"); FEvict (xid x01); FOpen (str "/l/sub/../f") false;
   FUnlink (str "/d/f"); FRename (str "/d/sub/g2") (str "/h"); FTruncate (str "/h") 3; FChattr (str "/h") (ChMode 384);
   FSymlink (str "/b") (str "/a") (xid x06) None; FSymlink (str "a") (str "/b") (xid x07) None; FUnlink (str "/h");
   FMkdir (str "/e") 493 (xid x08) None; FRmdir (str "/d/sub"); FGetattr (str "/d"); FCreate (str "/d/k") 420 (xid x09) (Some (EPosix 28))].
Definition ex_ffs : ffs := fs_run binary_compare ex_fops new_repo.
Lemma ex_ffs_reached : reached binary_compare ex_ffs.
Proof. apply (reached_b binary_compare binary_compare_ok); [vm_compute; reflexivity|vm_compute; reflexivity]. Qed.

(** ** C23 *)

(** After every history, the link count of every file is the number of directory
    entries that name it (and one for the root), a file is stored exactly if it has
    a name or is open, and entries give the types of the files they name.  The
    histories are those in which no directory is replaced or removed while it has
    entries and no name is made in a bad place; without that it is false, see
    below. *)
Theorem C23_link_counts : forall cmp, cmp_ok cmp -> forall st, reached cmp st -> counts_right st.
Proof. intros cmp Hcmp st H. exact (Inv_counts cmp st (proj1 (reached_Inv cmp Hcmp st H))). Qed.
Print Assumptions C23_link_counts.
Example C23_example : reached binary_compare ex_ffs /\
  map (fun p => (fst p, i_nlink (snd p))) (nodes ex_ffs) =
    [(root_id, 1%N); (xid x01, 1%N); (xid x02, 0%N); (xid x03, 1%N); (xid x06, 1%N); (xid x07, 1%N); (xid x08, 1%N)] /\
  opened ex_ffs = [xid x02].
Proof. split; [exact ex_ffs_reached|]. vm_compute. split; reflexivity. Qed.

(** Renaming over a directory with entries is accepted and leaves files that no name
    leads to. *)
Theorem C23_replaced_directory_refuted : exists ops,
  snd (fs_step binary_compare (FRename (str "/a") (str "/b")) (fs_run binary_compare ops new_repo)) = Ok FOUnit /\
  counts_right (fs_run binary_compare ops new_repo) /\
  ~ counts_right (fst (fs_step binary_compare (FRename (str "/a") (str "/b")) (fs_run binary_compare ops new_repo))).
Proof.
  exists [FMkdir (str "/a") 493 (xid x01) None; FMkdir (str "/b") 493 (xid x02) None; FCreate (str "/b/f") 420 (xid x03) None; FClose (xid x03) false].
  split; [vm_compute; reflexivity|]. split.
  - apply (C23_link_counts binary_compare binary_compare_ok). apply (reached_b binary_compare binary_compare_ok); vm_compute; reflexivity.
  - intros [_ H _]. specialize (H (xid x03)). destruct H as [H _].
    assert (G : get (fst (fs_step binary_compare (FRename (str "/a") (str "/b"))
      (fs_run binary_compare [FMkdir (str "/a") 493 (xid x01) None; FMkdir (str "/b") 493 (xid x02) None; FCreate (str "/b/f") 420 (xid x03) None; FClose (xid x03) false] new_repo))) (xid x03) <> None)
      by (vm_compute; discriminate).
    apply H in G. vm_compute in G. destruct G as [G|[G|[]]]; [discriminate|]. inversion G.
Qed.
Print Assumptions C23_replaced_directory_refuted.

(** Making a file whose name is too long is refused, but leaves a file without a name. *)
Definition long_name : bytes := repeat x61 256.
Theorem C23_long_name_refuted :
  snd (fs_step binary_compare (FCreate long_name 420 (xid x01) None) new_repo) = Err (EPosix 36) /\
  ~ counts_right (fst (fs_step binary_compare (FCreate long_name 420 (xid x01) None) new_repo)).
Proof.
  split; [vm_compute; reflexivity|]. intros [_ H _]. specialize (H (xid x01)). destruct H as [H _].
  assert (G : get (fst (fs_step binary_compare (FCreate long_name 420 (xid x01) None) new_repo)) (xid x01) <> None) by (vm_compute; discriminate).
  apply H in G. vm_compute in G. destruct G as [G|[G|[]]]; [discriminate|]. inversion G.
Qed.
Print Assumptions C23_long_name_refuted.

(** ** C26 *)

(** Renaming makes the new name mean what the old one did and the old one mean
    nothing, nothing else changes its meaning, and no file changes its contents; or
    both names already mean the same file and nothing changes; or it fails because
    there is no such file or no such directory, and nothing changes. *)
Theorem C26_rename : forall cmp, cmp_ok cmp -> forall st, reached cmp st ->
  forall from to, careful cmp (FRename from to) st ->
  forall st' r, fs_step cmp (FRename from to) st = (st', r) ->
  same_contents st st' /\
  match r with
  | Ok _ => renamed cmp st from to st'
  | Err e => (no_file cmp st from e \/ base_fails cmp st to e) /\ same_names (name_in cmp st') (name_in cmp st)
  end.
Proof.
  intros cmp Hcmp st H from to Hc st' r E. destruct (reached_Inv cmp Hcmp st H) as [Hv Hs].
  destruct (step_ok cmp Hcmp _ st Hv Hs Hc st' r E) as (_ & _ & G & _).
  destruct r; cbn [effect refused] in G; tauto.
Qed.
Print Assumptions C26_rename.
Example C26_example : careful binary_compare (FRename (str "/d") (str "/l/../e")) ex_ffs /\
  snd (fs_step binary_compare (FRename (str "/d") (str "/l/../e")) ex_ffs) = Ok FOUnit.
Proof.
  split; [|vm_compute; reflexivity].
  apply (careful_b_ok binary_compare); [exact (proj1 (reached_Inv _ binary_compare_ok _ ex_ffs_reached))|vm_compute; reflexivity].
Qed.

(** Without the condition on the new name the file is lost when the rename fails. *)
Theorem C26_long_name_refuted : exists st, reached binary_compare st /\ exists x,
  name_in binary_compare st root_id (str "a") = Some x /\
  snd (fs_step binary_compare (FRename (str "/a") long_name) st) = Err (EPosix 36) /\
  name_in binary_compare (fst (fs_step binary_compare (FRename (str "/a") long_name) st)) root_id (str "a") = None.
Proof.
  exists (fs_run binary_compare [FMkdir (str "/a") 493 (xid x01) None] new_repo). split.
  - apply (reached_b binary_compare binary_compare_ok); vm_compute; reflexivity.
  - eexists. vm_compute. repeat split.
Qed.
Print Assumptions C26_long_name_refuted.

(** Renaming a directory into itself is accepted; it can no longer be reached. *)
Theorem C26_own_descendant_refuted : exists st, reached binary_compare st /\
  snd (fs_step binary_compare (FRename (str "/a") (str "/a/b")) st) = Ok FOUnit /\
  get (fst (fs_step binary_compare (FRename (str "/a") (str "/a/b")) st)) (xid x01) <> None /\
  forall n, name_in binary_compare (fst (fs_step binary_compare (FRename (str "/a") (str "/a/b")) st)) root_id n = None.
Proof.
  exists (fs_run binary_compare [FMkdir (str "/a") 493 (xid x01) None] new_repo). split; [|split; [|split]].
  - apply (reached_b binary_compare binary_compare_ok); vm_compute; reflexivity.
  - vm_compute. reflexivity.
  - vm_compute. discriminate.
  - intros n. vm_compute. reflexivity.
Qed.
Print Assumptions C26_own_descendant_refuted.

(** ** C27 *)

(** A directory that is removed was empty, whatever the caller checked. *)
Theorem C27_only_empty : forall cmp, cmp_ok cmp -> forall st, reached cmp st ->
  forall path st' o, fs_step cmp (FRmdir path) st = (st', Ok o) ->
  exists d n x nx, designates cmp st path d n /\ name_in cmp st d n = Some (x, TDIR) /\ get st x = Some nx /\ i_dir nx = [].
Proof. intros cmp Hcmp st H path st' o E. exact (rmdir_success cmp Hcmp path st st' o (proj1 (reached_Inv cmp Hcmp st H)) E). Qed.
Print Assumptions C27_only_empty.
Example C27_example : snd (fs_step binary_compare (FRmdir (str "/l/../e")) ex_ffs) = Ok FOUnit.
Proof. vm_compute. reflexivity. Qed.

(** But a refused removal is not without effect: the directory loses its name, and
    with it everything below. *)
Theorem C27_refusal_refuted : exists st, reached binary_compare st /\ exists x,
  name_in binary_compare st root_id (str "d") = Some x /\
  snd (fs_step binary_compare (FRmdir (str "/d")) st) = Err (EPosix 39) /\
  name_in binary_compare (fst (fs_step binary_compare (FRmdir (str "/d")) st)) root_id (str "d") = None.
Proof.
  exists (fs_run binary_compare [FMkdir (str "/d") 493 (xid x01) None; FCreate (str "/d/f") 420 (xid x02) None; FClose (xid x02) false] new_repo). split.
  - apply (reached_b binary_compare binary_compare_ok); vm_compute; reflexivity.
  - eexists. vm_compute. repeat split.
Qed.
Print Assumptions C27_refusal_refuted.

(** ** C28 *)

(** Opening a path (following a link at its end) and asking for its attributes (not
    following) find a file exactly if the path leads to it, and fail exactly with the
    errors [fails_at] describes or because something does not exist. *)
Theorem C28_open : forall cmp, cmp_ok cmp -> forall st, reached cmp st -> forall path,
  (forall x, (exists st', fs_step cmp (FOpen path false) st = (st', Ok (FOId x))) <-> ends_at cmp st path true (Some x)) /\
  (forall e, (exists st', fs_step cmp (FOpen path false) st = (st', Err e)) <->
             fails_at cmp st path true e \/ (ends_at cmp st path true None /\ e = (EPosix 2))).
Proof. intros cmp Hcmp st H path. exact (open_iff cmp st path (proj1 (reached_Inv cmp Hcmp st H))). Qed.
Print Assumptions C28_open.
Theorem C28_stat : forall cmp, cmp_ok cmp -> forall st, reached cmp st -> forall path,
  (forall x, (exists st' m l z, fs_step cmp (FGetattr path) st = (st', Ok (FOStat x m l z))) <-> ends_at cmp st path false (Some x)) /\
  (forall e, (exists st', fs_step cmp (FGetattr path) st = (st', Err e)) <->
             fails_at cmp st path false e \/ (ends_at cmp st path false None /\ e = (EPosix 2))).
Proof. intros cmp Hcmp st H path. exact (stat_iff cmp st path (proj1 (reached_Inv cmp Hcmp st H))). Qed.
Print Assumptions C28_stat.

(** Along plain names the components are visited in order. *)
Theorem C28_plain : forall cmp, cmp_ok cmp -> forall st, reached cmp st -> forall path x,
  path_comps path <> [] -> plain_walk cmp st root_id (path_comps path) = Some x ->
  exists st', fs_step cmp (FOpen path false) st = (st', Ok (FOId x)).
Proof. intros cmp Hcmp st H path x Hp Hw. exact (plain_open cmp st path x (proj1 (reached_Inv cmp Hcmp st H)) Hw Hp). Qed.
Print Assumptions C28_plain.

(** Symbolic links that lead to each other end in ELOOP. *)
Theorem C28_loop : forall cmp, cmp_ok cmp -> forall st, reached cmp st -> forall (P : bytes -> Prop), link_loop cmp st P ->
  forall path n rest, P n -> path_comps path = n :: rest ->
  exists st', fs_step cmp (FOpen path false) st = (st', Err (EPosix 40)).
Proof. intros cmp Hcmp st H P HP path n rest Hn Hp. exact (loop_open cmp st P path n rest (proj1 (reached_Inv cmp Hcmp st H)) HP Hn Hp). Qed.
Print Assumptions C28_loop.
Example C28_example :
  plain_walk binary_compare ex_ffs root_id (path_comps (str "/e")) = Some (xid x08) /\
  link_loop binary_compare ex_ffs (fun n => n = str "a" \/ n = str "b") /\
  snd (fs_step binary_compare (FOpen (str "/a/x") false) ex_ffs) = Err (EPosix 40) /\
  snd (fs_step binary_compare (FOpen (str "/l/../l") false) ex_ffs) = Ok (FOId (xid x01)) /\
  snd (fs_step binary_compare (FOpen (str "/d/nothing") false) ex_ffs) = Err (EPosix 2).
Proof.
  split; [vm_compute; reflexivity|]. split; [|vm_compute; repeat split].
  intros n [->| ->]; (split; [discriminate|]); (split; [discriminate|]); (split; [vm_compute; lia|]).
  - exists (xid x06). eexists _, (str "b"), []. split; [vm_compute; reflexivity|]. split; [vm_compute; reflexivity|]. split; [vm_compute; reflexivity|now right].
  - exists (xid x07). eexists _, (str "a"), []. split; [vm_compute; reflexivity|]. split; [vm_compute; reflexivity|]. split; [vm_compute; reflexivity|now left].
Qed.

(** ** C49 *)

(** Every operation has exactly its effect on names, modes and contents, or fails for
    one of its reasons without effect; nothing undefined happens. *)
Theorem C49_effects : forall cmp, cmp_ok cmp -> forall st, reached cmp st ->
  forall o, careful cmp o st -> forall st' r, fs_step cmp o st = (st', r) ->
  effect cmp o st r st' /\ counts_right st' /\ (well_called o st -> r <> Err EUndef).
Proof.
  intros cmp Hcmp st H o Hc st' r E. destruct (reached_Inv cmp Hcmp st H) as [Hv Hs].
  destruct (step_ok cmp Hcmp o st Hv Hs Hc st' r E) as (G1 & _ & G & W). split; [exact G|]. split; [exact (Inv_counts cmp st' G1)|exact W].
Qed.
Print Assumptions C49_effects.
Example C49_example : forallb (fun o => careful_b binary_compare o ex_ffs)
  [FCreate (str "/d/new") 420 (xid x10) None; FLink (str "/e/../nothing") (str "/x"); FUnlink (str "/a"); FRmdir (str "/e"); FRename (str "/d") (str "/e");
   FTruncate (str "/d") 3; FReadlink (str "/l"); FWrite (xid x02) (str "x"); FReaddir (xid x02); FOpen (str "/l") true;
   FOpendir (str "/l"); FOpendir (str "/a"); FRead (xid x02); FClose (xid x02) true; FClose (xid x02) false] = true /\
  map (fun o => snd (fs_step binary_compare o ex_ffs))
  [FCreate (str "/d/new") 420 (xid x10) None; FLink (str "/e/../nothing") (str "/x"); FUnlink (str "/a"); FRmdir (str "/e"); FRename (str "/d") (str "/e");
   FTruncate (str "/d") 3; FReadlink (str "/l"); FWrite (xid x02) (str "x"); FReaddir (xid x02); FOpen (str "/l") true;
   FOpendir (str "/l"); FOpendir (str "/a"); FRead (xid x02); FClose (xid x02) true; FClose (xid x02) false] =
  [Ok (FOId (xid x10)); Err (EPosix 2); Ok FOUnit; Ok FOUnit; Ok FOUnit; Err (EPosix 1); Ok (FOBytes (str "d/../d")); Ok FOUnit; Err (EPosix 20); Err (EPosix 1);
   Ok (FOId (xid x01)); Err (EPosix 40); Ok (FOBytes (str "hel")); Err (EPosix 20); Ok FOUnit].
Proof. vm_compute. split; reflexivity. Qed.
