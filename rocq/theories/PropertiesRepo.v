(** C72: a mounted repository of the full format is a plain file system. *)
From Coq Require Import Strings.String Lia Permutation.
From Verif Require Import Base BaseLemmas TextModel NameModel AttrModel AttrProofs BtreeModel BtreeSpec BtreeShape BtreeInsert FullStreamModel FullStreamProofs FullFsModel FullFsSpec FullFsStep ObjModel ObjProofs
  RepoModel RepoSpec FsConcModel RepoRun RepoAlone RepoPlay Toy PropertiesFull PropertiesFullFs.
Local Open Scope list_scope.

(** ** Examples *)
Definition toy_senv : senv := mkSenv (toy_aead ([], [], [])) toy_hmac (fun id => firstn 3 id) (fun id => firstn 3 id) (fun id => length id mod 5) 4096 12 true true true toy_rnd 2
  binary_compare (fun n => repeat (n2b n) BLOCK_SIZE) 1000 1000 (fun k => mkTs (Z.of_nat (k mod 1000)) 5).
Lemma toy_senv_ok : senv_ok toy_senv.
Proof.
  pose proof (toy_full_env ([], [], [])) as [F1 F2 F3 F4 F5 F6]. constructor; cbn [v_aead v_hmac v_bs v_iv v_rnd v_fuel v_cmp v_junk v_pad v_clock v_uid v_gid toy_senv].
  - constructor; try assumption. lia.
  - exact binary_compare_ok.
  - intros n. apply repeat_length.
  - intros id. change full_max_blocks_N with 1073741824%N. change (N.of_nat 4096) with 4096%N. pose proof (Nat.mod_upper_bound (length id) 5 ltac:(lia)). lia.
  - intros k. unfold ts_in_range. cbn [tv_sec tv_nsec]. pose proof (Nat.mod_upper_bound k 1000 ltac:(lia)). split; [|reflexivity]. lia.
  - reflexivity.
  - reflexivity.
Qed.

(** One call after another, unmounts in between. *)
Definition ex_rops : list rop :=
  [OCall (FMkdir (str "/d") 493 (xid x01) None); OCall (FCreate (str "/d/f") 420 (xid x02) None); OIo (IWrite (xid x02) 3 (str "hello")); OCall (FClose (xid x02) false);
   OCall (FLink (str "/d/f") (str "/g")); OCall (FSymlink (str "d/../d") (str "/l") (xid x03) None); ORemount;
   OCall (FOpen (str "/l/f") false); OIo (IRead (xid x02) 0 100); OIo (IStat (xid x02)); OIo (ITruncate (xid x02) 5); OIo (IFlush (xid x02)); OCall (FUnlink (str "/g"));
   OCall (FRename (str "/d/f") (str "/h")); OIo (IRead (xid x02) 0 100); OCall (FClose (xid x02) false); OEvict (xid x02); OCall (FOpendir (str "/")); OIo (IList root_id); OCall (FClose root_id true);
   ORemount; OCall (FGetattr (str "/h")); OCall (FReadlink (str "/l")); OCall (FGetattr (str "/l/f"))].

(** ** C72 *)

(** One call after another: in every history of calls on names, uses of open files,
    evictions from the cache and remounts, from an empty directory of the host on, the
    repository answers as the map from ids to inodes does (see [plain_answers]): what
    the calls on names answer is what C23, C26, C27, C28 and C49 are about, what is read
    is what the bytes last written and truncated leave, and a remount changes nothing.
    All of it goes through the B-trees, the headers and the two encrypted streams of
    every file.

    The histories are those of C23 ([careful_run]), short enough for 32-bit link counts,
    in which no directory has more than [MAX_ENTRIES] - 4 = 5,999,996 names and no file
    exceeds what the format can address ([may_run]). *)
Theorem C72_one_by_one : forall E, senv_ok E -> forall ops, may_run E ops new_repo ->
  careful_run (v_cmp E) (plain_ops (v_cmp E) ops new_repo) new_repo ->
  (N.of_nat (length (plain_ops (v_cmp E) ops new_repo)) < 2 ^ 32 - 1)%N ->
  Forall2 same_answer (r_answers E ops (fst (mount E [] 0))) (plain_answers (v_cmp E) ops new_repo).
Proof.
  intros E HE ops Hm Hc Hl. exact (history_ok E HE ops _ new_repo [] (start_ok E HE) eq_refl I Hc Hl Hm).
Qed.
Print Assumptions C72_one_by_one.
Lemma toy_pad id : (N.of_nat (v_pad toy_senv id) <= 4)%N.
Proof. cbn [v_pad toy_senv]. pose proof (Nat.mod_upper_bound (length id) 5 ltac:(lia)). lia. Qed.
Example C72_one_by_one_example : senv_ok toy_senv /\ may_run toy_senv ex_rops new_repo /\
  careful_run binary_compare (plain_ops binary_compare ex_rops new_repo) new_repo /\
  (N.of_nat (length (plain_ops binary_compare ex_rops new_repo)) < 2 ^ 32 - 1)%N /\
  r_answers toy_senv ex_rops (fst (mount toy_senv [] 0)) =
    [Ok FOUnit; Ok (FOId (xid x02)); Ok FOUnit; Ok FOUnit; Ok FOUnit; Ok FOUnit; Ok FOUnit;
     Ok (FOId (xid x02)); Ok (FOBytes ([x00; x00; x00] ++ str "hello")); Ok (FOStat (xid x02) (420 + TREG * 4096) 2 8); Ok FOUnit; Ok FOUnit; Ok FOUnit;
     Ok FOUnit; Ok (FOBytes ([x00; x00; x00] ++ str "he")); Ok FOUnit; Ok FOUnit; Ok (FOId root_id);
     Ok (FOList [(str "d", xid x01, TDIR); (str "h", xid x02, TREG); (str "l", xid x03, TLINK)]); Ok FOUnit;
     Ok FOUnit; Ok (FOStat (xid x02) (420 + TREG * 4096) 1 5); Ok (FOBytes (str "d/../d")); Err (EPosix 2)].
Proof.
  split; [exact toy_senv_ok|]. split; [apply (may_runb_ok toy_senv 4 toy_pad); vm_compute; reflexivity|]. split; [|split; vm_compute; reflexivity].
  apply careful_run_b_ok; [exact binary_compare_ok|exact (new_repo_Inv binary_compare)|vm_compute; reflexivity|vm_compute; reflexivity].
Qed.

(** Several threads: every run of a repository, with calls that overlap, uses of open
    files, evictions and remounts at any time at which nothing is in use, is a run of the
    same calls over the map, step for step, with the same answers and the same open files
    (see [sees]), up to a moment at which a directory has more than [MAX_ENTRIES] - 2
    names.  C69 and C70 are about the runs over the map.  Every remount succeeds. *)
Theorem C72_runs : forall E, senv_ok E -> forall n l w, rrun E n l w -> Forall (fun x => event_fits E (fst x)) l ->
  (exists l' aw, sees (v_cmp E) n l l' aw /\ run (v_cmp E) n l' aw) \/
  (exists l2 l1 l' aw, l = l2 ++ l1 /\ sees (v_cmp E) n l1 l' aw /\ run (v_cmp E) n l' aw /\ ~ dirs_fit 2 (files aw)).
Proof.
  intros E HE n l w H Hf. destruct (run_ok E HE n l w H Hf) as [(l' & aw & A1 & A2 & _)|H1]; [left; eauto|now right].
Qed.
Print Assumptions C72_runs.
(** Two threads: a file is made in a directory while that is renamed, a link is followed
    while the file is removed, and everything is mounted again. *)
Definition ex_sched : list kcmd :=
  [KCall 0 (FMkdir (str "/d") 493 (xid x01) None); KFin 0; KCall 0 (FCreate (str "/d/f") 420 (xid x02) None); KStep 0 5;
   KCall 1 (FRename (str "/d") (str "/e")); KFin 1; KFin 0; KIo (IWrite (xid x02) 0 (str "abc")); KCall 1 (FSymlink (str "e/f") (str "/l") (xid x03) None); KFin 1;
   KCall 1 (FOpen (str "/l") false); KStep 1 3; KCall 0 (FUnlink (str "/e/f")); KStep 0 4; KEvict (xid x01); KFin 0; KFin 1;
   KCall 0 (FGetattr (str "/e/f")); KFin 0; KIo (IRead (xid x02) 1 10); KCall 0 (FClose (xid x02) false); KFin 0; KRemount;
   KCall 0 (FReadlink (str "/l")); KFin 0; KCall 1 (FGetattr (str "/e/f")); KFin 1].
Definition r_returns (l : list (revent * rworld)) : list (res fout) :=
  flat_map (fun x => match fst x with VRet _ _ r => [r] | VIo _ r => [r] | VRemount (Ok _) => [Ok (FOBytes (str "mounted"))] | _ => [] end) (rev l).
Example C72_runs_example : exists l w, rrun toy_senv 2 l w /\ Forall (fun x => event_fits toy_senv (fst x)) l /\ length l = 96 /\
  r_returns l =
    [Ok FOUnit; Ok FOUnit; Ok (FOId (xid x02)); Ok FOUnit; Ok FOUnit; Ok FOUnit; Err (EPosix 2); Err (EPosix 2); Ok (FOBytes (str "bc")); Ok FOUnit;
     Ok (FOBytes (str "mounted")); Ok (FOBytes (str "e/f")); Err (EPosix 2)].
Proof.
  exists (fst (rplayed toy_senv 2 ex_sched)), (snd (rplayed toy_senv 2 ex_sched)).
  split; [apply rplayed_run; vm_compute; reflexivity|]. split; [apply (events_fit toy_senv 4 toy_pad); vm_compute; reflexivity|].
  split; vm_compute; reflexivity.
Qed.
