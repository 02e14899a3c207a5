(** The directories of the lite format: C54. *)
From Coq Require Import Strings.String.
From Verif Require Import Base BaseLemmas TextModel CryptoModel NameModel NameSpec NameTop
  LongNameModel LongNameSpec LongNameProofs LongNameInv LongNameTop PropertiesNames PropertiesLongNames
  LiteTreeSpec LiteTreeProofs LiteTreeTop.
Local Open Scope list_scope.

(** Whatever the mount options, any history of operations answers as the host would
    answer on a tree with the plain names, but for the two refusals of
    [may_refuse]; and every path leads to what that tree has there. *)
Theorem C54_directories_are_a_plain_tree :
  forall cmac keystream blake, sizes_ok cmac keystream blake ->
  forall no_op threshold suffix, (no_op = false -> 0 < threshold -> suffix_ok (suffix_in_force suffix)) ->
  let tr := make_translator cmac keystream blake no_op threshold suffix None None in
  forall ops names, Forall from_fuse ops -> incl (op_names ops) names -> names_fit blake no_op threshold names ->
  exists v, plain_history ops empty_fs (lite_answers tr ops empty_fs) v /\
    forall path, fuse_path path -> incl (split_slash path) names ->
      found tr (lite_run tr ops empty_fs) path = plain_found v path.
Proof.
  intros cmac ks blake (H1 & H2 & H3) no_op threshold suffix Hc tr ops names HO HN HF.
  destruct (history_exists cmac ks blake H1 H2 H3 no_op threshold suffix Hc names HF ops HO HN) as (v & HP & HR).
  exists v. split; [exact HP|]. intros path Hp Hi. exact (found_same cmac ks blake H1 H2 H3 no_op threshold suffix Hc names HF v _ path HR Hp Hi).
Qed.
Print Assumptions C54_directories_are_a_plain_tree.

(** If no name is too long to be stored, there is no refusal, and directories list
    exactly the names they hold, each once. *)
Theorem C54_exact_without_long_names :
  forall cmac keystream blake, sizes_ok cmac keystream blake ->
  forall no_op threshold suffix, (no_op = false -> 0 < threshold -> suffix_ok (suffix_in_force suffix)) ->
  let tr := make_translator cmac keystream blake no_op threshold suffix None None in
  forall ops names, Forall from_fuse ops -> incl (op_names ops) names -> names_fit blake no_op threshold names ->
  no_long_names no_op threshold names ->
  lite_answers tr ops empty_fs = plain_answers ops empty_fs /\
  (forall path, fuse_path path -> incl (split_slash path) names ->
     found tr (lite_run tr ops empty_fs) path = plain_found (plain_run ops empty_fs) path) /\
  forall dir, Forall (fun n => n <> [] /\ ~ In slash n) dir -> incl dir names ->
    exists P l, t_encrypt tr (path_of dir) = Ok (P, l) /\
    match plain_run ops empty_fs dir, lite_run tr ops empty_fs (comps P) with
    | None, None => True
    | Some plain, Some es => NoDup (listing tr es) /\ forall n, In n (listing tr es) <-> ent n plain <> None
    | _, _ => False
    end.
Proof.
  intros cmac ks blake (H1 & H2 & H3) no_op threshold suffix Hc tr ops names HO HN HF HL.
  assert (Ht : tab no_op threshold names = false).
  { unfold tab. destruct no_op; [reflexivity|]. destruct HL as [HL|[->|HL]]; [discriminate|reflexivity|].
    destruct (existsb (fun n => threshold <? length n) names) eqn:E; [|apply Bool.andb_false_r]. exfalso. apply existsb_exists in E as (n & Hn & E).
    rewrite Forall_forall in HL. specialize (HL n Hn). apply Nat.ltb_lt in E. lia. }
  destruct (history_exact cmac ks blake H1 H2 H3 no_op threshold suffix Hc names HF ops HO HN Ht) as (HA & HR).
  split; [exact HA|]. split.
  - intros path Hp Hi. exact (found_same cmac ks blake H1 H2 H3 no_op threshold suffix Hc names HF _ _ path HR Hp Hi).
  - intros dir Hd Hi. destruct (dir_same cmac ks blake H1 H2 H3 no_op threshold suffix Hc names HF _ _ dir HR Hd Hi) as (P & l & E & O).
    exists P, l. split; [exact E|]. unfold optR in O. fold tr in O. destruct (plain_run ops empty_fs dir) as [ev|], (lite_run tr ops empty_fs (comps P)) as [es|]; try contradiction; [|exact I].
    exact (listing_same cmac ks blake H1 H2 H3 no_op threshold suffix Hc names HF ev es Ht O).
Qed.
Print Assumptions C54_exact_without_long_names.

(** With long names, after operations that the tables survive, directories list
    exactly the names that the plain tree has there, each once. *)
Theorem C54_listings_with_long_names :
  forall cmac keystream blake, sizes_ok cmac keystream blake ->
  forall threshold suffix, 0 < threshold -> suffix_ok (suffix_in_force suffix) ->
  let tr := make_translator cmac keystream blake false threshold suffix None None in
  forall ops names, Forall from_fuse ops -> incl (op_names ops) names -> no_collision blake threshold names ->
  benign_run tr (suffix_in_force suffix) ops empty_fs ->
  exists v, plain_history ops empty_fs (lite_answers tr ops empty_fs) v /\
  forall dir, Forall (fun n => n <> [] /\ ~ In slash n) dir -> incl dir names ->
    exists P l, t_encrypt tr (path_of dir) = Ok (P, l) /\
    match v dir, lite_run tr ops empty_fs (comps P) with
    | None, None => True
    | Some plain, Some es => NoDup (listing tr es) /\ forall n, In n (listing tr es) <-> ent n plain <> None
    | _, _ => False
    end.
Proof.
  intros cmac ks blake (H1 & H2 & H3) threshold suffix Ht Hs tr ops names HO HN HF Hb.
  assert (Hc : false = false -> config_ok threshold suffix) by (intros _ _; exact Hs).
  assert (HF' : names_fit blake false threshold names) by (unfold names_fit; destruct (Nat.eqb_spec threshold 0); [lia|exact HF]).
  destruct (history_exists cmac ks blake H1 H2 H3 false threshold suffix Hc names HF' ops HO HN) as (v & HP & HR).
  exists v. split; [exact HP|]. intros dir Hd Hi.
  destruct (dir_same cmac ks blake H1 H2 H3 false threshold suffix Hc names HF' _ _ dir HR Hd Hi) as (P & l & E & O).
  exists P, l. split; [exact E|]. unfold optR in O. fold tr in O.
  destruct (v dir) as [ev|] eqn:Ev.
  - destruct (listing_long cmac ks blake H1 H2 H3 false threshold suffix Hc names HF' v ops dir P l ev eq_refl Ht HR HN Hb Hd Hi E Ev) as (es & Es & G).
    fold tr in Es. rewrite Es. exact G.
  - destruct (lite_run tr ops empty_fs (comps P)); [contradiction|exact I].
Qed.
Print Assumptions C54_listings_with_long_names.

(** Witnesses: [ex_ops] (with long names) and a history with short ones. *)
Ltac ffuse := repeat (apply Forall_cons; [unfold from_fuse; cbn [op_paths]; repeat (apply Forall_cons; [split; [apply fuse_pathb; vm_compute; reflexivity|discriminate]|]); apply Forall_nil|]); apply Forall_nil.
Definition ex_short : list lop :=
  [ LMkdir (str "/d") None; LOpen (str "/d/f") true true 1 None None; LLink (str "/d/f") (str "/g") None;
    LMkdir (str "/e") None; LRename (str "/d") (str "/e") None; LRmdir (str "/e") None; LUnlink (str "/nothing") None;
    LOpen (str "/e/h") true true 2 None (Some (EPosix 28)) ].
Example C54_example :
  Forall from_fuse ex_ops /\ names_fit ex_blake false 10 (op_names ex_ops) /\ benign_run ex_tr ll ex_ops empty_fs /\
  lite_answers ex_tr ex_ops empty_fs = [Ok tt; Ok tt; Err EEXIST; Ok tt; Ok tt; Err ENOENT; Ok tt; Ok tt; Err (EPosix 13); Ok tt] /\
  Forall from_fuse ex_short /\ names_fit ex_blake false 10 (op_names ex_short) /\ no_long_names false 10 (op_names ex_short) /\
  lite_answers ex_tr ex_short empty_fs = [Ok tt; Ok tt; Ok tt; Ok tt; Ok tt; Err ENOTEMPTY; Err ENOENT; Err (EPosix 28)] /\
  found ex_tr (lite_run ex_tr ex_short empty_fs) (str "/e/f") = Some (KFile 1) /\
  found ex_tr (lite_run ex_tr ex_short empty_fs) (str "/e/h") = Some (KFile 2) /\
  found ex_tr (lite_run ex_tr ex_short empty_fs) (str "/d") = None.
Proof.
  split; [unfold ex_ops; ffuse|]. split; [apply no_collision_b; vm_compute; reflexivity|]. split; [exact ex_benign|].
  split; [vm_compute; reflexivity|]. split; [unfold ex_short; ffuse|]. split; [apply no_collision_b; vm_compute; reflexivity|].
  split; [right; right; apply Forall_forall; intros n Hn; apply Nat.leb_le; revert n Hn; apply Forall_forall;
          vm_compute; repeat constructor|]. 
  vm_compute. repeat split.
Qed.

(** The first refusal does happen: a directory that once held a long name is empty
    again, but its table is still there, and it is not replaced by a rename. *)
Theorem C54_rename_onto_emptied_directory_refuted :
  ~ (forall ops names, Forall from_fuse ops -> incl (op_names ops) names -> names_fit ex_blake false 10 names ->
     lite_answers ex_tr ops empty_fs = plain_answers ops empty_fs).
Proof.
  intros H.
  specialize (H [LMkdir (str "/d") None; LOpen (str "/d/a long file name") true true 1 None None; LUnlink (str "/d/a long file name") None;
                 LMkdir (str "/e") None; LRename (str "/e") (str "/d") None]).
  specialize (H (op_names _) ltac:(ffuse) (incl_refl _) ltac:(apply no_collision_b; vm_compute; reflexivity)).
  vm_compute in H. discriminate.
Qed.
Print Assumptions C54_rename_onto_emptied_directory_refuted.

(** With plain names the name of the table is not protected: a user's file of that
    name is deleted by an attempt to remove its directory, even if that fails. *)
Definition ex_plain : translator := make_translator ex_cmac ex_ks ex_blake true 0 [] None None.
Theorem C54_reserved_name_refuted :
  ~ (forall ops, Forall from_fuse ops -> lite_answers ex_plain ops empty_fs = plain_answers ops empty_fs /\
     forall path, fuse_path path -> found ex_plain (lite_run ex_plain ops empty_fs) path = plain_found (plain_run ops empty_fs) path).
Proof.
  intros H.
  destruct (H [LMkdir (str "/d") None; LOpen (str "/d/f") true true 1 None None; LOpen (str "/d/.long_names.db") true true 2 None None;
               LRmdir (str "/d") None] ltac:(ffuse)) as (_ & HF).
  specialize (HF (str "/d/.long_names.db") ltac:(apply fuse_pathb; vm_compute; reflexivity)). vm_compute in HF. discriminate.
Qed.
Print Assumptions C54_reserved_name_refuted.
