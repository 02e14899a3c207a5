(** Tables of long names that cannot be written: C99. *)
From Coq Require Import Strings.String.
From Verif Require Import Base BaseLemmas TextModel NameModel NameSpec LongNameModel LongNameSpec LongNameProofs
  PropertiesNames PropertiesLongNames CommitFailModel CommitFailSpec CommitFailProofs.
Local Open Scope list_scope.

(** Whichever commits fail, every call answers what it answers when none fails, and leaves
    the same directories and files on the host; only what is in the tables differs. *)
Theorem C99_calls_as_before :
  forall trans ops,
    snd (run_cf trans ops empty_fs) = answers trans (map fst ops) empty_fs /\
    same_but_tables (fst (run_cf trans ops empty_fs)) (lite_run trans (map fst ops) empty_fs).
Proof. intros trans ops. destruct (history_same trans ops empty_fs empty_fs (same_refl _)) as (H1 & H2). split; assumption. Qed.
Print Assumptions C99_calls_as_before.

(** So every path leads to the file or the directory it leads to when none fails. *)
Theorem C99_paths_as_before :
  forall trans ops path,
    match found trans (fst (run_cf trans ops empty_fs)) path, found trans (lite_run trans (map fst ops) empty_fs) path with
    | Some k, Some k' => same_kind k k'
    | None, None => True
    | _, _ => False
    end.
Proof.
  intros trans ops path. destruct (C99_calls_as_before trans ops) as (_ & H). unfold found.
  destruct (t_encrypt trans path) as [[P l]|e]; [|exact I]. destruct (comps P) as [|x p]; [reflexivity|]. set (q := x :: p). clearbody q.
  pose proof (H (parent q)) as D. destruct (fst (run_cf trans ops empty_fs) (parent q)) as [es|], (lite_run trans (map fst ops) empty_fs (parent q)) as [es'|]; try contradiction; [|exact I].
  exact (ent_same (leaf q) _ _ D).
Qed.
Print Assumptions C99_paths_as_before.

(** No table ever says anything wrong: what it has for an entry is the encrypted name of a
    path that leads to an entry of that name. *)
Theorem C99_no_wrong_row :
  forall trans ops, rows_right trans (fst (run_cf trans ops empty_fs)).
Proof.
  intros trans ops. apply rows_history. intros p es n m u enc E Hi _. unfold empty_fs in E.
  destruct p; [|discriminate E]. injection E as <-. destruct Hi.
Qed.
Print Assumptions C99_no_wrong_row.

(** A call that opens for creation and whose commit does not fail records the name, whatever
    failed before, and also when the file was there already. *)
Theorem C99_opened_again_is_recorded :
  forall trans ops path excl ino bad late fb P enc fs,
    t_encrypt trans path = Ok (P, enc) -> enc <> [] ->
    step_cf trans false fb (LOpen path true excl ino bad late) (fst (run_cf trans ops empty_fs)) = (fs, Ok tt) ->
    exists es l path' P', fs (parent (comps P)) = Some es /\ table_of es (get_last_component P) = Ok l /\
      t_encrypt trans path' = Ok (P', l) /\ get_last_component P' = get_last_component P.
Proof.
  intros trans ops path excl ino bad late fb P enc fs E Ne Hs.
  destruct (open_records trans path excl ino bad late fb _ _ _ _ E Ne Hs) as (es & m & l & H1 & H2 & H3).
  assert (R : rows_right trans fs).
  { pose proof (rows_history trans [(LOpen path true excl ino bad late, (false, fb))] _ (C99_no_wrong_row trans ops)) as R.
    cbn [run_cf] in R. rewrite Hs in R. exact R. }
  destruct (R _ _ _ _ _ _ H1 (ent_in _ _ _ H2) (row_in _ _ _ H3)) as (path' & P' & E' & Eu & _).
  exists es, l, path', P'. split; [exact H1|]. split; [|split; [exact E'|symmetry; exact Eu]].
  unfold table_of. rewrite H2, H3. reflexivity.
Qed.
Print Assumptions C99_opened_again_is_recorded.

(** A call whose commit fails leaves what the tables say as it was, and one whose commit does
    not fail changes what they say of the entries it makes or removes only.  [d] is any
    directory that does not lie at or below a path the call changes, [u] any entry. *)
Theorem C99_other_names_kept :
  forall trans ops o faila failb d es u,
    let fs := fst (run_cf trans ops empty_fs) in
    fs d = Some es ->
    (forall path P enc, In path (changed o) -> t_encrypt trans path = Ok (P, enc) ->
       leaf (comps P) <> kLongNameTableFileName /\ (forall below, d <> comps P ++ below) /\
       ((faila = true /\ failb = true) \/ parent (comps P) <> d \/ get_last_component P <> u)) ->
    exists es', fst (step_cf trans faila failb o fs) d = Some es' /\ table_of es' u = table_of es u.
Proof.
  intros trans ops o fa fb d es u fs E H. pose proof (step_says trans fa fb o fs d u H) as S. unfold says in S. rewrite E in S.
  destruct (fst (step_cf trans fa fb o fs) d) as [es'|]; [|discriminate S]. exists es'. split; [reflexivity|]. injection S as S. exact S.
Qed.
Print Assumptions C99_other_names_kept.

(** The name may be missing, though the call that created the file reported success. *)
Theorem C99_recorded_refuted :
  ~ (forall ops, Forall fuse_path (flat_map op_paths (map fst ops)) ->
     Forall (fun o => match fst o with LOpen _ true true _ None None => True | _ => False end) ops ->
     Forall (fun r => r = Ok tt) (snd (run_cf ex_tr ops empty_fs)) ->
     all_recorded ex_tr 10 ll (fst (run_cf ex_tr ops empty_fs))).
Proof.
  intros H. set (ops := [(LOpen (str "/a long file name") true true 1 None None, (true, false))]).
  assert (HA : snd (run_cf ex_tr ops empty_fs) = [Ok tt]) by (vm_compute; reflexivity).
  assert (HR : all_recorded ex_tr 10 ll (fst (run_cf ex_tr ops empty_fs))).
  { apply H; [unfold ops; cbn [map fst flat_map op_paths app]; fuse|repeat constructor|]. rewrite HA. repeat constructor. }
  revert HR. destruct (fst (run_cf ex_tr ops empty_fs) []) as [es|] eqn:Ees; [|vm_compute in Ees; discriminate Ees].
  apply (not_recorded _ _ _ _ [] es Ees). vm_compute in Ees. injection Ees as <-. vm_compute. reflexivity.
Qed.
Print Assumptions C99_recorded_refuted.

(** And a name may stay in the table when the file is gone. *)
Theorem C99_nothing_stale_refuted :
  ~ (forall ops, Forall fuse_path (flat_map op_paths (map fst ops)) ->
     Forall (fun r => r = Ok tt) (snd (run_cf ex_tr ops empty_fs)) ->
     nothing_stale ll (fst (run_cf ex_tr ops empty_fs))).
Proof.
  intros H. set (ops := [(LOpen (str "/a long file name") true true 1 None None, (false, false));
                         (LUnlink (str "/a long file name") None, (true, false))]).
  assert (HA : snd (run_cf ex_tr ops empty_fs) = [Ok tt; Ok tt]) by (vm_compute; reflexivity).
  assert (HR : nothing_stale ll (fst (run_cf ex_tr ops empty_fs))).
  { apply H; [unfold ops; cbn [map fst flat_map op_paths app]; fuse|]. rewrite HA. repeat constructor. }
  destruct (fst (run_cf ex_tr ops empty_fs) []) as [es|] eqn:Ees; [|vm_compute in Ees; discriminate Ees].
  destruct (ent kLongNameTableFileName es) as [[i| |m]|] eqn:Em; vm_compute in Ees; injection Ees as <-; vm_compute in Em; try discriminate Em.
  destruct (HR [] _ m ltac:(vm_compute; reflexivity) ltac:(rewrite <- Em; vm_compute; reflexivity)) as (_ & K).
  injection Em as <-. destruct (K _ _ (or_introl eq_refl)) as (_ & Hi). vm_compute in Hi. destruct Hi as [Hi|[]]. discriminate Hi.
Qed.
Print Assumptions C99_nothing_stale_refuted.

(** A run with failing commits: a long-named directory and two files in it, the commit of the
    second and of the rename failing; then the second is opened again. *)
Definition ex_cf : list (lop * (bool * bool)) :=
  [ (LMkdir (str "/a directory with a long name") None, (true, false));
    (LOpen (str "/a directory with a long name/first long file name") true true 1 None None, (false, false));
    (LOpen (str "/a directory with a long name/second long file name") true true 2 None None, (true, false));
    (LOpen (str "/a directory with a long name/second long file name") true true 3 None None, (false, false));
    (LRename (str "/a directory with a long name/first long file name") (str "/another long file name") None, (false, true)) ].
Example C99_example :
  snd (run_cf ex_tr ex_cf empty_fs) = [Ok tt; Ok tt; Ok tt; Err LongNameModel.EEXIST; Ok tt] /\
  found ex_tr (fst (run_cf ex_tr ex_cf empty_fs)) (str "/another long file name") = Some (KFile 1) /\
  found ex_tr (fst (run_cf ex_tr ex_cf empty_fs)) (str "/a directory with a long name/second long file name") = Some (KFile 2).
Proof. split; [vm_compute; reflexivity|]. split; vm_compute; reflexivity. Qed.
Example C99_example_again :
  (exists P enc, t_encrypt ex_tr (str "/a directory with a long name/second long file name") = Ok (P, enc) /\ enc <> []) /\
  snd (step_cf ex_tr false false (LOpen (str "/a directory with a long name/second long file name") true false 4 None None)
         (fst (run_cf ex_tr ex_cf empty_fs))) = Ok tt.
Proof. split; [|vm_compute; reflexivity]. eexists _, _. split; [vm_compute; reflexivity|]. intros E. discriminate E. Qed.
(** The commit for a further file in the long-named directory fails: the row of the first one
    meets the conditions, and it is there. *)
Example C99_example_kept :
  let ops := firstn 2 ex_cf in
  let o := LOpen (str "/a directory with a long name/second long file name") true true 2 None None in
  match t_encrypt ex_tr (str "/a directory with a long name/first long file name"),
        t_encrypt ex_tr (str "/a directory with a long name/second long file name") with
  | Ok (P, l), Ok (P', _) =>
    parent (comps P) = parent (comps P') /\ bytes_eqb (leaf (comps P')) kLongNameTableFileName = false /\
    strip_prefix (comps P') (parent (comps P)) = None /\
    bytes_eqb (get_last_component P) (get_last_component P') = false /\
    match fst (run_cf ex_tr ops empty_fs) (parent (comps P)) with
    | Some es => table_of es (get_last_component P) = Ok l
    | None => False
    end
  | _, _ => False
  end.
Proof. vm_compute. repeat (split; [reflexivity|]). reflexivity. Qed.
