(** Long names in the lite format: C35 and C47. *)
From Coq Require Import Strings.String.
From Verif Require Import Base BaseLemmas TextModel CryptoModel NameModel NameSpec NameTop
  LongNameModel LongNameSpec LongNameProofs LongNameInv LongNameSuffix LongNameTop PropertiesNames.
Local Open Scope list_scope.

(** ** C35 *)

(** After any history of operations that the tables survive (see [benign]), failed
    ones included, every long-named entry of every directory is recorded. *)
Theorem C35_long_names_recorded :
  forall cmac keystream blake, sizes_ok cmac keystream blake ->
  forall threshold suffix, 0 < threshold -> suffix_ok (suffix_in_force suffix) ->
  let tr := make_translator cmac keystream blake false threshold suffix None None in
  forall ops, benign_run tr (suffix_in_force suffix) ops empty_fs ->
    all_recorded tr threshold (suffix_in_force suffix) (lite_run tr ops empty_fs).
Proof.
  intros cmac ks blake (H1 & H2 & H3) threshold suffix Ht Hs tr ops Hb.
  apply (inv_recorded cmac ks blake H1 H2 H3 threshold Ht suffix (fun _ => True) _ Hs).
  exact (hist_inv_all cmac ks blake H1 H2 H3 threshold Ht suffix Hs ops Hb).
Qed.
Print Assumptions C35_long_names_recorded.

Theorem C35_nothing_stale :
  forall cmac keystream blake, sizes_ok cmac keystream blake ->
  forall threshold suffix, 0 < threshold -> suffix_ok (suffix_in_force suffix) ->
  let tr := make_translator cmac keystream blake false threshold suffix None None in
  forall ops, benign_run tr (suffix_in_force suffix) ops empty_fs ->
    nothing_stale (suffix_in_force suffix) (lite_run tr ops empty_fs).
Proof.
  intros cmac ks blake (H1 & H2 & H3) threshold suffix Ht Hs tr ops Hb.
  apply (inv_not_stale cmac ks blake threshold suffix (fun _ => True)).
  exact (hist_inv_all cmac ks blake H1 H2 H3 threshold Ht suffix Hs ops Hb).
Qed.
Print Assumptions C35_nothing_stale.

(** So a directory lists exactly the names that can be opened in it, each once. *)
Theorem C35_listing_is_what_can_be_opened :
  forall cmac keystream blake, sizes_ok cmac keystream blake ->
  forall threshold suffix, 0 < threshold -> suffix_ok (suffix_in_force suffix) ->
  let tr := make_translator cmac keystream blake false threshold suffix None None in
  forall ops, benign_run tr (suffix_in_force suffix) ops empty_fs ->
  let fs := lite_run tr ops empty_fs in
  forall dir name P l es,
    Forall (fun n => n <> [] /\ ~ In slash n) dir -> name <> [] -> ~ In slash name ->
    no_collision blake threshold (name :: op_names ops) ->
    t_encrypt tr (path_of dir) = Ok (P, l) -> fs (comps P) = Some es ->
    NoDup (listing tr es) /\
    (In name (listing tr es) <-> found tr fs (path_of (dir ++ [name])) <> None).
Proof.
  intros cmac ks blake (H1 & H2 & H3) threshold suffix Ht Hs tr ops Hb fs dir name P l es Hd Hn Hsl Hc He Hes.
  eapply (listing_matches cmac ks blake H1 H2 H3 threshold Ht (fun n => In n (name :: op_names ops)) suffix Hs); eauto.
  - exact (hist_inv cmac ks blake H1 H2 H3 threshold Ht suffix Hs ops Hb (name :: op_names ops) (fun x Hx => or_intror Hx)).
  - left. reflexivity.
Qed.
Print Assumptions C35_listing_is_what_can_be_opened.

(** Witnesses. *)
Definition ll : bytes := str ".ll".
Definition ex_ops : list lop :=
  [ LMkdir (str "/a directory with a long name") None;
    LOpen (str "/a directory with a long name/first long file name") true true 1 None None;
    LOpen (str "/a directory with a long name/first long file name") true true 2 None None; (* EEXIST *)
    LLink (str "/a directory with a long name/first long file name") (str "/a second name for the file") None;
    LSymlink (str "/short") 3 None;
    LOpen (str "/no such directory at all/xxxxxxxxxxxxxxx") true false 4 None None;          (* ENOENT *)
    LRename (str "/a directory with a long name/first long file name") (str "/a directory with a long name/third long file name") None;
    LRename (str "/short") (str "/this one was short before") None;
    LUnlink (str "/a second name for the file") (Some (EPosix 13));                           (* refused by the host *)
    LUnlink (str "/a second name for the file") None ].

Fixpoint fuse_pathb_go (ws : list bytes) : bool :=
  match ws with [] => true | w :: ws' => negb (bytes_eqb w []) && fuse_pathb_go ws' end.
Lemma fuse_pathb path : hd x00 path = slash -> fuse_pathb_go (split_slash (tl path)) = true -> fuse_path path.
Proof.
  intros H1 H2. destruct path as [|c path]; [discriminate|]. cbn [hd tl] in *. subst c. exists (split_slash path).
  split.
  - pose proof (NameProofs.split_no_slash path) as HN. revert HN H2. generalize (split_slash path). intros ws.
    induction ws as [|w ws IH]; intros HN H2; [constructor|]. inversion HN. subst. cbn [fuse_pathb_go] in H2. apply andb_true_iff in H2.
    destruct H2 as (A & B). constructor; [split; [|assumption]|apply IH; assumption]. intros ->. discriminate.
  - pose proof (NameProofs.join_split path) as HJ. pose proof (NameProofs.split_ne path). unfold path_of. destruct (split_slash path) as [|w ws]; [congruence|].
    rewrite <- HJ. clear. revert w. induction ws as [|w' ws IH]; intros w; [cbn; rewrite app_nil_r; reflexivity|].
    rewrite NameProofs.join_cons by discriminate. cbn [flat_map]. specialize (IH w'). cbn [flat_map] in IH. rewrite <- IH. reflexivity.
Qed.

Ltac fuse := repeat (constructor; [apply fuse_pathb; vm_compute; reflexivity|]); constructor.
Lemma ex_benign : benign_run ex_tr ll ex_ops empty_fs.
Proof.
  unfold ex_ops. repeat (split; [split; [cbn [op_paths]; fuse|try exact I]|]); try exact I.
  all: intros i H1 H2; vm_compute in H2; discriminate.
Qed.

Lemma no_collision_b digest threshold l :
  forallb (fun a => forallb (fun b => negb (bytes_eqb (digest a) (digest b)) || bytes_eqb a b) l) l = true -> no_collision digest threshold l.
Proof.
  intros H a b Ha Hb _ _ E. rewrite forallb_forall in H. specialize (H a Ha). rewrite forallb_forall in H. specialize (H b Hb).
  rewrite E, bytes_eqb_refl in H. cbn in H. apply bytes_eqb_eq in H. exact H.
Qed.

Example C35_example :
  benign_run ex_tr ll ex_ops empty_fs /\ no_collision ex_blake 10 (str "third long file name" :: op_names ex_ops) /\
  match t_encrypt ex_tr (str "/"), t_encrypt ex_tr (str "/a directory with a long name") with
  | Ok (P, _), Ok (Q, _) =>
    match lite_run ex_tr ex_ops empty_fs (comps P), lite_run ex_tr ex_ops empty_fs (comps Q) with
    | Some es, Some es' =>
      listing ex_tr es = [str "this one was short before"; str "a directory with a long name"] /\
      listing ex_tr es' = [str "third long file name"] /\ length es = 3 /\ length es' = 2
    | _, _ => False
    end
  | _, _ => False
  end.
Proof. split; [exact ex_benign|]. split; [apply no_collision_b; vm_compute; reflexivity|]. vm_compute. repeat split. Qed.

(** The operations that the tables do not survive. *)
Definition unrecorded (suffix : bytes) (es : hents) : bool :=
  existsb (fun e => negb (Byte.eqb (hd x00 (fst e)) dot) && ends_with (fst e) suffix &&
                    match table_of es (fst e) with Ok _ => false | Err _ => true end) es.
Lemma not_recorded tr threshold suffix fs d es : fs d = Some es -> unrecorded suffix es = true -> ~ all_recorded tr threshold suffix fs.
Proof.
  intros Hd Hu HR. unfold unrecorded in Hu. apply existsb_exists in Hu. destruct Hu as ([u k] & Hi & Hu). cbn [fst] in Hu.
  apply andb_true_iff in Hu. destruct Hu as (HL & Hu). apply (long_iff suffix u) in HL.
  destruct (HR d es u k Hd Hi HL) as (name & P & l & _ & _ & _ & _ & Ht). rewrite Ht in Hu. discriminate.
Qed.

(** Removing a directory that is not empty fails, as it should, but its table is
    gone: the long names in it are no longer listed. *)
Theorem C35_failed_rmdir_refuted :
  ~ (forall ops, Forall fuse_path (flat_map op_paths ops) ->
     Forall (fun o => match o with LMkdir _ None | LOpen _ _ _ _ None None | LRmdir _ None => True | _ => False end) ops ->
     all_recorded ex_tr 10 ll (lite_run ex_tr ops empty_fs)).
Proof.
  intros H. set (ops := [LMkdir (str "/d") None; LOpen (str "/d/a long file name") true true 1 None None; LRmdir (str "/d") None]).
  assert (HR : all_recorded ex_tr 10 ll (lite_run ex_tr ops empty_fs)).
  { apply H; [unfold ops; cbn [flat_map op_paths app]; fuse|repeat constructor]. }
  revert HR. destruct (t_encrypt ex_tr (str "/d")) as [[P l]|] eqn:E; [|vm_compute in E; discriminate].
  destruct (lite_run ex_tr ops empty_fs (comps P)) as [es|] eqn:Ees.
  - apply (not_recorded _ _ _ _ (comps P) es Ees). vm_compute in E. injection E as <- <-. vm_compute in Ees. injection Ees as <-. vm_compute. reflexivity.
  - exfalso. vm_compute in E. injection E as <- <-. vm_compute in Ees. discriminate.
Qed.
Print Assumptions C35_failed_rmdir_refuted.

(** Renaming a link of a file to another link of the same file: the host does
    nothing and reports success, the table loses the old name. *)
Theorem C35_rename_between_links_refuted :
  ~ (forall ops, Forall fuse_path (flat_map op_paths ops) ->
     Forall (fun o => match o with LOpen _ _ _ _ None None | LLink _ _ None | LRename _ _ None => True | _ => False end) ops ->
     all_recorded ex_tr 10 ll (lite_run ex_tr ops empty_fs)).
Proof.
  intros H. set (ops := [LOpen (str "/a long file name") true true 1 None None; LLink (str "/a long file name") (str "/b") None;
                         LRename (str "/a long file name") (str "/b") None]).
  assert (HR : all_recorded ex_tr 10 ll (lite_run ex_tr ops empty_fs)).
  { apply H; [unfold ops; cbn [flat_map op_paths app]; fuse|repeat constructor]. }
  revert HR. destruct (lite_run ex_tr ops empty_fs []) as [es|] eqn:Ees; [|vm_compute in Ees; discriminate].
  apply (not_recorded _ _ _ _ [] es Ees). vm_compute in Ees. injection Ees as <-. vm_compute. reflexivity.
Qed.
Print Assumptions C35_rename_between_links_refuted.

(** Creating a file whose header cannot be written: the table forgets the name,
    the file stays. *)
Theorem C35_failed_create_refuted :
  ~ (forall ops, Forall fuse_path (flat_map op_paths ops) ->
     Forall (fun o => match o with LOpen _ _ _ _ None _ => True | _ => False end) ops ->
     all_recorded ex_tr 10 ll (lite_run ex_tr ops empty_fs)).
Proof.
  intros H. set (ops := [LOpen (str "/a long file name") true true 1 None (Some (EPosix 28))]).
  assert (HR : all_recorded ex_tr 10 ll (lite_run ex_tr ops empty_fs)).
  { apply H; [unfold ops; cbn [flat_map op_paths app]; fuse|repeat constructor]. }
  revert HR. destruct (lite_run ex_tr ops empty_fs []) as [es|] eqn:Ees; [|vm_compute in Ees; discriminate].
  apply (not_recorded _ _ _ _ [] es Ees). vm_compute in Ees. injection Ees as <-. vm_compute. reflexivity.
Qed.
Print Assumptions C35_failed_create_refuted.

(** ** C47 *)

(** A suffix change that reports success leaves every path where it was: with the
    new suffix it finds what it found with the old one; every long name is recorded
    under the new suffix, and directories list what can be opened in them.  [dirs]
    are the directories with a table, in the order in which the host reports them. *)
Theorem C47_suffix_change_keeps_every_path :
  forall cmac keystream blake, sizes_ok cmac keystream blake ->
  forall threshold old new, 0 < threshold -> suffix_ok (suffix_in_force old) -> suffix_ok new -> suffix_in_force old <> new ->
  let tr := make_translator cmac keystream blake false threshold old None None in
  let tr' := make_translator cmac keystream blake false threshold new None None in
  forall ops, benign_run tr (suffix_in_force old) ops empty_fs ->
  let fs := lite_run tr ops empty_fs in
  forall dirs bad fs', tables fs dirs -> change_dirs (suffix_in_force old) new bad dirs fs = (fs', Ok tt) ->
    (forall path, fuse_path path -> found tr' fs' path = found tr fs path) /\
    all_recorded tr' threshold new fs' /\ nothing_stale new fs' /\
    forall dir name P l es,
      Forall (fun n => n <> [] /\ ~ In slash n) dir -> name <> [] -> ~ In slash name ->
      no_collision blake threshold (name :: op_names ops) ->
      t_encrypt tr' (path_of dir) = Ok (P, l) -> fs' (comps P) = Some es ->
      NoDup (listing tr' es) /\
      (In name (listing tr' es) <-> found tr fs (path_of (dir ++ [name])) <> None).
Proof.
  intros cmac ks blake (H1 & H2 & H3) threshold old new Ht Hs Hs2 Hne tr tr' ops Hb fs dirs bad fs' HT Hc.
  pose proof (hist_inv_all cmac ks blake H1 H2 H3 threshold Ht old Hs ops Hb) as HI.
  pose proof (eff2 old new Hs2 Hne) as Ef. assert (Hs2' : suffix_ok (effective new)) by (rewrite Ef; exact Hs2).
  pose proof (suffix_inv cmac ks blake H1 H2 H3 threshold Ht (fun _ => True) old new Hs Hs2 Hne fs HI dirs bad fs' HT Hc) as HI2.
  assert (HF : forall path, fuse_path path -> found tr' fs' path = found tr fs path).
  { intros path Hp. apply (suffix_found cmac ks blake H1 H2 H3 threshold Ht (fun _ => True) old new Hs Hs2 Hne fs HI dirs bad fs' path HT Hc). apply okp_all. exact Hp. }
  split; [exact HF|]. split; [|split].
  - rewrite <- Ef in HI2 at 1. pose proof (inv_recorded cmac ks blake H1 H2 H3 threshold Ht new (fun _ => True) fs' Hs2' HI2) as HX. rewrite Ef in HX. exact HX.
  - rewrite <- Ef in HI2 at 1. pose proof (inv_not_stale cmac ks blake threshold new (fun _ => True) fs' HI2) as HX. rewrite Ef in HX. exact HX.
  - intros dir name P l es Hd Hn Hsl Hcol He Hes.
    pose proof (hist_inv cmac ks blake H1 H2 H3 threshold Ht old Hs ops Hb (name :: op_names ops) (fun x Hx => or_intror Hx)) as HIL.
    pose proof (suffix_inv cmac ks blake H1 H2 H3 threshold Ht (fun n => In n (name :: op_names ops)) old new Hs Hs2 Hne fs HIL dirs bad fs' HT Hc) as HI3.
    rewrite <- Ef in HI3 at 1.
    destruct (listing_matches cmac ks blake H1 H2 H3 threshold Ht (fun n => In n (name :: op_names ops)) new Hs2' Hcol fs' dir name P l es HI3 Hd Hn Hsl (or_introl eq_refl) He Hes) as (A & B).
    fold tr' in A, B. split; [exact A|]. rewrite B, HF; [reflexivity|]. exists (dir ++ [name]). split; [|reflexivity]. apply Forall_app. auto.
Qed.
Print Assumptions C47_suffix_change_keeps_every_path.

(** The change goes through when the host refuses nothing and no directory of the
    list lies below a long-named entry of an earlier one. *)
Theorem C47_suffix_change_goes_through :
  forall cmac keystream blake, sizes_ok cmac keystream blake ->
  forall threshold old new, 0 < threshold -> suffix_ok (suffix_in_force old) -> suffix_ok new -> suffix_in_force old <> new ->
  let tr := make_translator cmac keystream blake false threshold old None None in
  forall ops, benign_run tr (suffix_in_force old) ops empty_fs ->
  let fs := lite_run tr ops empty_fs in
  forall dirs, tables fs dirs -> deep_first (suffix_in_force old) dirs ->
  exists fs', change_dirs (suffix_in_force old) new None dirs fs = (fs', Ok tt).
Proof.
  intros cmac ks blake (H1 & H2 & H3) threshold old new Ht Hs Hs2 Hne tr ops Hb fs dirs HT HD.
  pose proof (hist_inv_all cmac ks blake H1 H2 H3 threshold Ht old Hs ops Hb) as HI.
  exact (suffix_succeeds cmac ks blake H1 H2 H3 threshold Ht (fun _ => True) old new Hs Hs2 Hne fs HI dirs HT HD).
Qed.
Print Assumptions C47_suffix_change_goes_through.

(** Two nested long-named directories, each with a table. *)
Definition ex_nest : list lop :=
  [ LMkdir (str "/the outer directory") None;
    LMkdir (str "/the outer directory/the inner directory") None;
    LOpen (str "/the outer directory/the inner directory/a long file name") true true 1 None None;
    LMkdir (str "/s") None;
    LOpen (str "/s/another long file name") true true 2 None None;
    LOpen (str "/s/t") true true 3 None None ].
Lemma ex_nest_benign : benign_run ex_tr ll ex_nest empty_fs.
Proof. unfold ex_nest. repeat (split; [split; [cbn [op_paths]; fuse|try exact I]|]); exact I. Qed.

Definition ex_dir (p : bytes) : hpath := match t_encrypt ex_tr p with Ok (P, _) => comps P | Err _ => [] end.
Definition ex_dirs : list hpath :=
  map ex_dir [str "/the outer directory/the inner directory"; str "/the outer directory"; str "/s"; str "/"].
Definition ex_new := make_translator ex_cmac ex_ks ex_blake false 10 (str "@@") None None.
Definition ex_fs : hfs := lite_run ex_tr ex_nest empty_fs.

Lemma ex_all_dirs d es : ex_fs d = Some es -> In d ex_dirs.
Proof.
  pose proof (hist_inv_all ex_cmac ex_ks ex_blake (proj1 ex_sizes) (proj1 (proj2 ex_sizes)) (proj2 (proj2 ex_sizes)) 10 ltac:(lia) ll ex_suffix
    ex_nest ex_nest_benign) as (HI & _). change (tree_ok ex_fs) in HI. revert es.
  assert (HV : forallb (fun d => match ex_fs d with
                         | Some es => forallb (fun e => match snd e with KDir => existsb (hpath_eqb (d ++ [fst e])) ex_dirs | _ => true end) es
                         | None => false end) ex_dirs = true) by (vm_compute; reflexivity).
  induction d as [|u d IH] using rev_ind; intros es Hd.
  - vm_compute. auto 6.
  - assert (Hp : ex_fs (d ++ [u]) <> None) by congruence. apply (proj2 HI) in Hp. destruct Hp as (es0 & He0 & Hk). specialize (IH es0 He0).
    rewrite forallb_forall in HV. specialize (HV d IH). rewrite He0 in HV. rewrite forallb_forall in HV. apply ent_in in Hk. specialize (HV _ Hk).
    cbn [snd fst] in HV. apply existsb_exists in HV. destruct HV as (x & Hx & E). apply hpath_eqb_eq in E. subst x. exact Hx.
Qed.
Lemma ex_tables l : NoDup l -> (forall d, In d l <-> In d ex_dirs) -> tables ex_fs l.
Proof.
  intros ND Hl. split; [exact ND|]. intros d. rewrite Hl. split.
  - intros Hi. assert (HV : forallb (fun d => match ex_fs d with Some es => match ent kLongNameTableFileName es with Some (KTable _) => true | _ => false end | None => false end) ex_dirs = true) by (vm_compute; reflexivity).
    rewrite forallb_forall in HV. specialize (HV d Hi). destruct (ex_fs d) as [es|]; [|discriminate HV]. exists es.
    destruct (ent kLongNameTableFileName es) as [[| |m]|]; [discriminate HV|discriminate HV| |discriminate HV]. exists m. split; reflexivity.
  - intros (es & m & Hd & _). eapply ex_all_dirs. exact Hd.
Qed.
Lemma ex_dirs_nodup : NoDup ex_dirs.
Proof. vm_compute. repeat (constructor; [intros H; repeat (destruct H as [H|H]; [discriminate|]); destruct H|]). constructor. Qed.

Example C47_example :
  suffix_ok (str "@@") /\ tables ex_fs ex_dirs /\ deep_first ll ex_dirs /\
  match change_dirs ll (str "@@") None ex_dirs ex_fs with
  | (fs', Ok tt) =>
    found ex_new fs' (str "/the outer directory/the inner directory/a long file name") = Some (KFile 1) /\
    found ex_tr ex_fs (str "/the outer directory/the inner directory/a long file name") = Some (KFile 1) /\
    found ex_new fs' (str "/s/another long file name") = Some (KFile 2) /\
    found ex_tr fs' (str "/s/another long file name") = None /\
    match fs' (match t_encrypt ex_new (str "/s") with Ok (P, _) => comps P | Err _ => [] end) with
    | Some es => listing ex_new es = [str "another long file name"; str "t"]
    | None => False
    end
  | _ => False
  end.
Proof.
  split; [|split; [|split]].
  - split; [exists x40; split; [left; reflexivity|]|split]; vm_compute; intros H; repeat (destruct H as [H|H]; [discriminate|]); destruct H.
  - apply ex_tables; [exact ex_dirs_nodup|]. intros d. reflexivity.
  - assert (Hd : exists a b c, ex_dirs = [a; b; c; []] /\ length a = 2 /\ length b = 1 /\ length c = 1 )
      by (eexists _, _, _; vm_compute; repeat split).
    destruct Hd as (a & b & c & -> & La & Lb & Lc). cbn [deep_first].
    assert (HX : forall (d x : hpath) h r, length x <= length d -> x <> d ++ h :: r).
    { intros d x h r HL E. apply (f_equal (@length _)) in E. rewrite app_length in E. cbn in E. lia. }
    repeat (split; [repeat (constructor; [intros h r L; apply HX; cbn [length]; lia|]); constructor|]). exact I.
  - vm_compute. repeat split.
Qed.

(** In another order - one in which the host may report them: the table of the root
    before its subdirectory - the change stops half-way with an error, and some files
    are found neither with the old suffix nor with the new one. *)
Theorem C47_other_orders_refuted :
  ~ (forall ops, benign_run ex_tr ll ops empty_fs ->
     forall dirs fs' r, tables (lite_run ex_tr ops empty_fs) dirs ->
     change_dirs ll (str "@@") None dirs (lite_run ex_tr ops empty_fs) = (fs', r) ->
     (forall path, fuse_path path -> found ex_tr fs' path = found ex_tr (lite_run ex_tr ops empty_fs) path) \/
     (forall path, fuse_path path -> found ex_new fs' path = found ex_tr (lite_run ex_tr ops empty_fs) path)).
Proof.
  intros H. specialize (H ex_nest ex_nest_benign (rev ex_dirs)). fold ex_fs in H.
  destruct (change_dirs ll (str "@@") None (rev ex_dirs) ex_fs) as [fs' r] eqn:E.
  specialize (H fs' r (ex_tables _ (NoDup_rev ex_dirs_nodup) (fun d => iff_sym (in_rev ex_dirs d))) eq_refl).
  apply (f_equal fst) in E. cbn [fst] in E. symmetry in E. rename E into Ef.
  set (p := str "/the outer directory/the inner directory/a long file name") in *.
  assert (Hp : fuse_path p) by (apply fuse_pathb; vm_compute; reflexivity).
  destruct H as [H|H]; specialize (H p Hp); rewrite Ef in H; vm_compute in H; discriminate.
Qed.
Print Assumptions C47_other_orders_refuted.
