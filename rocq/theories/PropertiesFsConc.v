(** C69: operations on names of the full format, by several threads at once. *)
From Coq Require Import Strings.String Permutation Lia.
From Verif Require Import Base BaseLemmas TextModel NameModel BtreeModel BtreeSpec BtreeShape FullFsModel FullFsSpec FullFsStep FsConcModel FsConcSpec FsConcProofs FsConcSafe FsConcOps FsConcWorld FsConcPlay FsConcSeq PropertiesFullFs.
Local Open Scope list_scope.

(** ** A history for the examples: three threads; calls overlap. *)
Definition ex_sched : list cmd :=
  [Call 0 (FMkdir (str "/d") 493 (xid x01) None); Step 0 2; Call 1 (FMkdir (str "/d") 493 (xid x02) None); Step 1 3; Fin 0; Fin 1;
   Call 0 (FCreate (str "/d/f") 420 (xid x03) None); Call 1 (FCreate (str "/d/f") 420 (xid x04) None); Call 2 (FRename (str "/d") (str "/e"));
   Step 0 4; Step 1 6; Step 2 3; Fin 0; Fin 2; Fin 1; Io (FWrite (xid x03) (str "hello"));
   Call 0 (FLink (str "/e/f") (str "/g")); Call 1 (FUnlink (str "/e/f")); Call 2 (FOpen (str "/e/f") false);
   Step 0 5; Step 1 4; Step 2 5; Fin 0; Step 1 2; Evict (xid x02); Fin 2; Fin 1;
   Call 0 (FClose (xid x03) false); Call 1 (FRmdir (str "/e")); Step 1 2; Fin 0; Fin 1;
   Call 0 (FRename (str "/g") (str "/h")); Call 1 (FUnlink (str "/g")); Step 0 2; Step 1 1; Fin 0; Fin 1].
Definition ex_conc : list (event * world) * world := played binary_compare 3 ex_sched.
Lemma ex_conc_run : run binary_compare 3 (fst ex_conc) (snd ex_conc).
Proof. apply played_run. vm_compute. reflexivity. Qed.
Definition returns (l : list (event * world)) : list (fop * res fout) :=
  flat_map (fun x => match fst x with ERet _ o r => [(o, r)] | _ => [] end) (rev l).

Lemma ex_conc_room : always room (fst ex_conc).
Proof. apply (alwaysb_ok roomb); [exact roomb_ok|]. vm_compute. reflexivity. Qed.
Lemma ex_conc_tidy : always tidy (fst ex_conc).
Proof. apply (alwaysb_ok tidyb); [exact tidyb_ok|]. vm_compute. reflexivity. Qed.

(** ** C69 *)

(** Whatever calls any number of threads make at once, with their steps in any order,
    and whenever objects are evicted: at every moment every name leads to a stored file
    of the type it says; no file has fewer links than names, so that none is deleted
    while it has a name; every file in use is stored; a file that is stored has a link
    or is in use; and the files the kernel has open are in use. *)
Theorem C69_sound : forall cmp, cmp_ok cmp -> forall n l w, run cmp n l w -> always room l ->
  sound (files w) /\ (forall id, In id (handles w) -> In id (opened (files w))).
Proof. intros cmp Hcmp n l w. exact (runs_sound cmp n l w Hcmp). Qed.
Print Assumptions C69_sound.

(** No call ends by using a file that is gone. *)
Theorem C69_no_undefined : forall cmp, cmp_ok cmp -> forall n l w, run cmp n l w -> always room l ->
  forall i o r w', In (ERet i o r, w') l \/ In (EIo o r, w') l -> r <> Err EUndef.
Proof.
  intros cmp Hcmp n l w H Hr i o r w' Hi. pose proof (runs_defined cmp n l w Hcmp H Hr) as Hd. rewrite Forall_forall in Hd.
  destruct Hi as [Hi|Hi]; apply (Hd _ Hi).
Qed.
Print Assumptions C69_no_undefined.

(** When no call is running and none has failed in a way that leaves something behind,
    the link counts are exact, what is stored is what has a name or is open, and nothing
    but the kernel's open files is in use: overlapping calls lose no count and no
    reference.  A directory that is removed while another call makes something in it is
    the exception ([tidy]), see below. *)
Theorem C69_exact : forall cmp, cmp_ok cmp -> forall n l w, run cmp n l w -> always room l -> always tidy l ->
  Forall (fun x => clean (fst x)) l -> quiet w ->
  counts_right (files w) /\ Permutation (opened (files w)) (handles w).
Proof. intros cmp Hcmp n l w. exact (runs_exact cmp n l w Hcmp). Qed.
Print Assumptions C69_exact.
Example C69_example : run binary_compare 3 (fst ex_conc) (snd ex_conc) /\ always room (fst ex_conc) /\ always tidy (fst ex_conc) /\
  Forall (fun x => clean (fst x)) (fst ex_conc) /\ quiet (snd ex_conc) /\ length (fst ex_conc) = 108 /\
  map snd (returns (fst ex_conc)) =
    [Err (EPosix 17); Ok FOUnit; Ok (FOId (xid x03)); Ok FOUnit; Err (EPosix 17); Ok FOUnit; Err (EPosix 2); Ok FOUnit; Ok FOUnit; Ok FOUnit; Ok FOUnit; Err (EPosix 2)] /\
  map (fun p => (fst p, i_nlink (snd p), map (fun e => (e_name e, e_id e)) (i_dir (snd p)))) (nodes (files (snd ex_conc))) =
    [(root_id, 1%N, [(str "h", xid x03)]); (xid x03, 1%N, [])].
Proof.
  split; [exact ex_conc_run|]. split; [exact ex_conc_room|]. split; [exact ex_conc_tidy|].
  split; [apply all_clean; vm_compute; reflexivity|]. split; [apply quietb_ok; vm_compute; reflexivity|]. split; [vm_compute; reflexivity|]. split; vm_compute; reflexivity.
Qed.

(** A call that nothing interrupts answers what the model of C23 and C49 says and leaves
    the files it says, so that what is proved there holds here of calls that do not
    overlap.  What a call starts from, a state of C69_sound is. *)
Theorem C69_alone : forall cmp o st, in_step o -> (forall id dir, o = FClose id dir -> In id (opened st)) -> sound st -> room st ->
  snd (alone (body cmp o) st) = snd (fs_step cmp o st) /\
  nodes (fst (alone (body cmp o) st)) = nodes (fst (fs_step cmp o st)) /\
  Permutation (opened (fst (alone (body cmp o) st))) (opened (fst (fs_step cmp o st))).
Proof.
  intros cmp o st Hi Hc Hs Hr. apply body_alone; [exact Hi|exact Hc| |exact Hr].
  intros id nd Hg Hn. destruct (so_used _ Hs id nd Hg) as [E|[E|E]]; [now left|contradiction|now right].
Qed.
Print Assumptions C69_alone.
Example C69_alone_example : sound (files (snd ex_conc)) /\ room (files (snd ex_conc)) /\
  fst (alone (body binary_compare (FUnlink (str "/h"))) (files (snd ex_conc))) = new_repo /\
  snd (alone (body binary_compare (FUnlink (str "/h"))) (files (snd ex_conc))) = Ok FOUnit.
Proof.
  split; [exact (proj1 (C69_sound _ binary_compare_ok _ _ _ ex_conc_run ex_conc_room))|].
  split; [apply roomb_ok; vm_compute; reflexivity|]. split; vm_compute; reflexivity.
Qed.

(** A file can be made in a directory that another call removes in the meantime: both
    calls succeed, and the file stays, with no name that leads to it. *)
Theorem C69_removed_directory_refuted : exists l w, run binary_compare 2 l w /\ always room l /\ Forall (fun x => clean (fst x)) l /\ quiet w /\
  returns l = [(FMkdir (str "/d") 493 (xid x01) None, Ok FOUnit); (FRmdir (str "/d"), Ok FOUnit);
               (FCreate (str "/d/f") 420 (xid x02) None, Ok (FOId (xid x02))); (FClose (xid x02) false, Ok FOUnit)] /\
  map (fun p => (fst p, i_nlink (snd p), i_dir (snd p))) (nodes (files w)) = [(root_id, 1%N, []); (xid x02, 1%N, [])] /\ ~ counts_right (files w).
Proof.
  set (s := [Call 0 (FMkdir (str "/d") 493 (xid x01) None); Fin 0; Call 0 (FCreate (str "/d/f") 420 (xid x02) None); Step 0 5;
             Call 1 (FRmdir (str "/d")); Fin 1; Fin 0; Call 0 (FClose (xid x02) false); Fin 0]).
  exists (fst (played binary_compare 2 s)), (snd (played binary_compare 2 s)).
  split; [apply played_run; vm_compute; reflexivity|]. split; [apply (alwaysb_ok roomb); [exact roomb_ok|vm_compute; reflexivity]|].
  split; [apply all_clean; vm_compute; reflexivity|]. split; [apply quietb_ok; vm_compute; reflexivity|]. split; [vm_compute; reflexivity|].
  split; [vm_compute; reflexivity|]. intros [H _ _]. specialize (H (xid x02) (mkInode (420 + TREG * 4096)%N 1 [] [] (xid x01))).
  assert (E : get (files (snd (played binary_compare 2 s))) (xid x02) = Some (mkInode (420 + TREG * 4096)%N 1 [] [] (xid x01))) by (vm_compute; reflexivity).
  apply H in E. vm_compute in E. discriminate.
Qed.
Print Assumptions C69_removed_directory_refuted.

(** A path with ".." can lead elsewhere although no name changes, when a directory it
    has passed is evicted meanwhile. *)
Theorem C69_dotdot_refuted : exists l1 w1 l2 w2 o r,
  run binary_compare 1 l1 w1 /\ quiet w1 /\ run binary_compare 1 (l2 ++ l1) w2 /\ quiet w2 /\
  map fst l2 = ERet 0 o r :: repeat (EStep 0) 12 ++ [EEvict (xid x02)] ++ repeat (EStep 0) 13 ++ [ECall 0 o] /\
  o = FGetattr (str "/p/a/b/../../x") /\ same_files (files w1) (files w2) /\
  r = Ok (FOStat (xid x04) (420 + TREG * 4096) 1 0) /\ snd (fs_step binary_compare o (files w1)) = Ok (FOStat (xid x05) (420 + TREG * 4096) 1 0).
Proof.
  set (s1 := [Call 0 (FMkdir (str "/p") 493 (xid x01) None); Fin 0; Call 0 (FMkdir (str "/p/a") 493 (xid x02) None); Fin 0;
              Call 0 (FMkdir (str "/p/a/b") 493 (xid x03) None); Fin 0; Call 0 (FCreate (str "/x") 420 (xid x04) None); Fin 0;
              Call 0 (FCreate (str "/p/x") 420 (xid x05) None); Fin 0]).
  set (s2 := [Call 0 (FGetattr (str "/p/a/b/../../x")); Step 0 13; Evict (xid x02); Fin 0]).
  exists (fst (played binary_compare 1 s1)), (snd (played binary_compare 1 s1)).
  set (w1 := snd (played binary_compare 1 s1)). set (h2 := played_on binary_compare w1 s2).
  exists (fst h2), (snd h2), (FGetattr (str "/p/a/b/../../x")), (Ok (FOStat (xid x04) (420 + TREG * 4096) 1 0)).
  assert (H1 : run binary_compare 1 (fst (played binary_compare 1 s1)) w1) by (apply played_run; vm_compute; reflexivity).
  split; [exact H1|]. split; [apply quietb_ok; vm_compute; reflexivity|]. split; [now apply played_on_run|].
  split; [apply quietb_ok; vm_compute; reflexivity|]. split; [vm_compute; reflexivity|]. split; [reflexivity|].
  split; [split; vm_compute; reflexivity|]. split; [reflexivity|]. vm_compute. reflexivity.
Qed.
Print Assumptions C69_dotdot_refuted.
