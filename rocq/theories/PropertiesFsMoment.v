(** C70: each overlapping call takes effect at single moments. *)
From Coq Require Import Strings.String Permutation Lia.
From Verif Require Import Base BaseLemmas TextModel NameModel BtreeModel BtreeSpec BtreeShape FullFsModel FullFsSpec FullFsStep FsConcModel FsConcSpec FsConcProofs FsConcSafe FsConcOps FsConcWorld FsConcPlay FsConcSeq FsMomentSpec FsMomentProofs FsMomentOps FsMomentWorld PropertiesFullFs PropertiesFsConc.
Local Open Scope list_scope.

(** ** C70 *)

(** Whatever calls any number of threads make at once, with their steps in any order,
    and whenever objects are evicted: when a call has returned, then among the steps it
    took since it was called there is one that did all it is to do to the names, as a
    call that nothing interrupts would, and its other steps changed nothing; what it
    answered was so at one of its steps; and the directories on its path were found by
    looking up each component in turn at later and later steps ([happened]). *)
Theorem C70_one_moment : forall cmp, cmp_ok cmp -> forall n later i o r w' l w,
  run cmp n (later ++ (ERet i o r, w') :: l) w -> always room l -> happened cmp o r (own_steps i l).
Proof.
  intros cmp Hcmp n later i o r w' l w H Hr. destruct (run_suffix cmp n later _ w H) as (w1 & H1). exact (run_moment cmp Hcmp n l (ERet i o r) w' w1 H1 Hr).
Qed.
Print Assumptions C70_one_moment.

(** Nothing else changes names: a call that begins or returns changes no file, an
    eviction no name and no contents, and reading, writing and listing an open file
    change no name, and no contents but those written. *)
Theorem C70_only_steps : forall cmp w ev w', wstep cmp w ev w' ->
  match ev with
  | EStep _ => True
  | EIo (FWrite id d) r => same_names (name_in cmp (files w')) (name_in cmp (files w)) /\
      (r = Ok FOUnit -> changed cmp (files w) id (fun v => (fst v, d)) (files w')) /\ (r <> Ok FOUnit -> files w' = files w)
  | EEvict _ => calm cmp (files w, files w')
  | _ => files w' = files w
  end.
Proof. intros cmp w ev w' H. exact (others_calm cmp w ev w' H). Qed.
Print Assumptions C70_only_steps.

Lemma cut_at (L : list (event * world)) k ev : option_map fst (nth_error L k) = Some ev -> exists w, L = firstn k L ++ (ev, w) :: skipn (S k) L.
Proof.
  revert L. induction k as [|k IH]; intros [|[e w] L] H; try discriminate H.
  - injection H as ->. now exists w.
  - destruct (IH L H) as (w' & E). exists w'. change (skipn (S (S k)) ((e, w) :: L)) with (skipn (S k) L). cbn [firstn app]. now rewrite <- E.
Qed.
Lemma always_skip P k l : always P l -> always P (skipn k l).
Proof. intros H. rewrite <- (firstn_skipn k l) in H. now apply always_app in H. Qed.

(** In the history of C69: a link is made, in 13 steps, while two other threads are about
    to remove and to open the name that was looked up; and a file that was to be created
    in a directory, renamed meanwhile, is found to be there. *)
Example C70_example : exists later w' l, run binary_compare 3 (later ++ (ERet 0 (FLink (str "/e/f") (str "/g")) (Ok FOUnit), w') :: l) (snd ex_conc) /\ always room l /\
  length (own_steps 0 l) = 13 /\
  map (fun s => (name_in binary_compare (fst s) root_id (str "g"), name_in binary_compare (snd s) root_id (str "g"))) (skipn 9 (own_steps 0 l)) =
    [(None, None); (None, Some (xid x03, TREG)); (Some (xid x03, TREG), Some (xid x03, TREG)); (Some (xid x03, TREG), Some (xid x03, TREG))].
Proof.
  destruct (cut_at (fst ex_conc) 35 (ERet 0 (FLink (str "/e/f") (str "/g")) (Ok FOUnit))) as (w' & E); [vm_compute; reflexivity|].
  exists (firstn 35 (fst ex_conc)), w', (skipn 36 (fst ex_conc)). split; [rewrite <- E; exact ex_conc_run|]. split; [apply always_skip; exact ex_conc_room|].
  split; vm_compute; reflexivity.
Qed.
Example C70_example_exists : exists later w' l, run binary_compare 3 (later ++ (ERet 1 (FCreate (str "/d/f") 420 (xid x04) None) (Err E_EXIST), w') :: l) (snd ex_conc) /\ always room l /\
  length (own_steps 1 l) = 10 /\
  map (fun s => name_in binary_compare (fst s) root_id (str "d")) (own_steps 1 l) = repeat (Some (xid x02, TDIR)) 6 ++ repeat None 4.
Proof.
  destruct (cut_at (fst ex_conc) 62 (ERet 1 (FCreate (str "/d/f") 420 (xid x04) None) (Err E_EXIST))) as (w' & E); [vm_compute; reflexivity|].
  exists (firstn 62 (fst ex_conc)), w', (skipn 63 (fst ex_conc)). split; [rewrite <- E; exact ex_conc_run|]. split; [apply always_skip; exact ex_conc_room|].
  split; vm_compute; reflexivity.
Qed.

(** A symbolic link is not made in one moment: another thread can read it before it has
    its target. *)
Theorem C70_symlink_refuted : exists l w, run binary_compare 2 l w /\ always room l /\ quiet w /\
  returns l = [(FReadlink (str "/l"), Ok (FOBytes [])); (FSymlink (str "target") (str "/l") (xid x01) None, Ok FOUnit); (FReadlink (str "/l"), Ok (FOBytes (str "target")))].
Proof.
  set (s := [Call 0 (FSymlink (str "target") (str "/l") (xid x01) None); Step 0 3; Call 1 (FReadlink (str "/l")); Fin 1; Fin 0; Call 1 (FReadlink (str "/l")); Fin 1]).
  exists (fst (played binary_compare 2 s)), (snd (played binary_compare 2 s)).
  split; [apply played_run; vm_compute; reflexivity|]. split; [apply (alwaysb_ok roomb); [exact roomb_ok|vm_compute; reflexivity]|].
  split; [apply quietb_ok; vm_compute; reflexivity|]. vm_compute. reflexivity.
Qed.
Print Assumptions C70_symlink_refuted.

(** A link is not made in one moment either: the file is looked up first, and it gets
    the new name even if it has been removed meanwhile, and another thread has seen that
    it has neither name.  One after another, no order of these calls gives that. *)
Theorem C70_link_refuted : exists l w, run binary_compare 2 l w /\ always room l /\ quiet w /\
  returns l = [(FCreate (str "/a") 420 (xid x01) None, Ok (FOId (xid x01))); (FClose (xid x01) false, Ok FOUnit); (FUnlink (str "/a"), Ok FOUnit);
               (FGetattr (str "/b"), Err E_NOENT); (FLink (str "/a") (str "/b"), Ok FOUnit); (FGetattr (str "/b"), Ok (FOStat (xid x01) (420 + TREG * 4096) 1 0))].
Proof.
  set (s := [Call 0 (FCreate (str "/a") 420 (xid x01) None); Fin 0; Call 0 (FClose (xid x01) false); Fin 0; Call 0 (FLink (str "/a") (str "/b")); Step 0 5;
             Call 1 (FUnlink (str "/a")); Fin 1; Call 1 (FGetattr (str "/b")); Fin 1; Fin 0; Call 1 (FGetattr (str "/b")); Fin 1]).
  exists (fst (played binary_compare 2 s)), (snd (played binary_compare 2 s)).
  split; [apply played_run; vm_compute; reflexivity|]. split; [apply (alwaysb_ok roomb); [exact roomb_ok|vm_compute; reflexivity]|].
  split; [apply quietb_ok; vm_compute; reflexivity|]. vm_compute. reflexivity.
Qed.
Print Assumptions C70_link_refuted.
