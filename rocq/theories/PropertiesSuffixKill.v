(** A change of the long-name suffix that is killed part of the way: C97. *)
From Coq Require Import Strings.String.
From Verif Require Import Base BaseLemmas TextModel CryptoModel NameModel NameSpec NameTop
  LongNameModel LongNameSpec LongNameProofs LongNameInv LongNameSuffix LongNameTop PropertiesNames PropertiesLongNames
  SuffixKillModel SuffixKillSpec SuffixKillProofs.
Local Open Scope list_scope.

(** ** C97 *)

(** Wherever the command is killed, or stops with an error, and in whatever order the
    host reports the directories: every directory is still there with its entries,
    some long ones under their new names, and there is nothing else; each table is
    as it was, or says of the new names what it said of the old ones and then they are
    all there. *)
Theorem C97_nothing_lost :
  forall cmac keystream blake, sizes_ok cmac keystream blake ->
  forall threshold old new, 0 < threshold -> suffix_ok (suffix_in_force old) -> suffix_ok new -> suffix_in_force old <> new ->
  let tr := make_translator cmac keystream blake false threshold old None None in
  forall ops, benign_run tr (suffix_in_force old) ops empty_fs ->
  let fs := lite_run tr ops empty_fs in
  forall dirs fs', tables fs dirs -> In fs' (fs :: dirs_states (suffix_in_force old) new dirs fs) ->
  exists w, renamed_only (suffix_in_force old) new fs fs' w.
Proof.
  intros cmac ks blake (H1 & H2 & H3) threshold old new Ht Hs Hs2 Hne tr ops Hb fs dirs fs' HT Hi.
  pose proof (hist_inv_all cmac ks blake H1 H2 H3 threshold Ht old Hs ops Hb) as HI.
  pose proof (top_named_long cmac ks blake H1 H2 H3 threshold Ht (fun _ => True) old Hs) as A1.
  pose proof (top_named_TN cmac ks blake H1 H2 H3 threshold (fun _ => True) old Hs) as A2.
  pose proof (top_image_inj cmac ks blake H1 H2 H3 threshold Ht (fun _ => True) old new Hs Hs2) as A3.
  pose proof (top_nh_ne old new Hne) as A4.
  pose proof (top_nh_TN cmac ks blake H1 H2 H3 threshold Ht (fun _ => True) old new Hs Hs2 Hne) as A5.
  destruct (states_sim _ new _ A1 A2 A3 A4 A5 fs HI dirs fs' HT Hi) as (e & tab & HS & HTb).
  exists (sg e). exact (sim_renamed_only _ new _ A1 A2 A3 A4 A5 fs HI e tab fs' HS HTb).
Qed.
Print Assumptions C97_nothing_lost.

(** A path leads, with the old suffix as with the new one, to what it led to before, or
    to nothing; with the old suffix, which is still in the configuration, one made of
    short names leads to what it led to. *)
Theorem C97_never_something_else :
  forall cmac keystream blake, sizes_ok cmac keystream blake ->
  forall threshold old new, 0 < threshold -> suffix_ok (suffix_in_force old) -> suffix_ok new -> suffix_in_force old <> new ->
  let tr := make_translator cmac keystream blake false threshold old None None in
  let tr' := make_translator cmac keystream blake false threshold new None None in
  forall ops, benign_run tr (suffix_in_force old) ops empty_fs ->
  let fs := lite_run tr ops empty_fs in
  forall dirs fs', tables fs dirs -> In fs' (fs :: dirs_states (suffix_in_force old) new dirs fs) ->
  (forall path, fuse_path path ->
    (found tr fs' path = None \/ found tr fs' path = found tr fs path) /\
    (found tr' fs' path = None \/ found tr' fs' path = found tr fs path)) /\
  forall path, short_path threshold path ->
    found tr fs' path = found tr fs path /\ found tr' fs' path = found tr fs path.
Proof.
  intros cmac ks blake (H1 & H2 & H3) threshold old new Ht Hs Hs2 Hne tr tr' ops Hb fs dirs fs' HT Hi.
  pose proof (hist_inv_all cmac ks blake H1 H2 H3 threshold Ht old Hs ops Hb) as HI. fold tr fs in HI.
  pose proof (top_named_long cmac ks blake H1 H2 H3 threshold Ht (fun _ => True) old Hs) as A1.
  pose proof (top_named_TN cmac ks blake H1 H2 H3 threshold (fun _ => True) old Hs) as A2.
  pose proof (top_image_inj cmac ks blake H1 H2 H3 threshold Ht (fun _ => True) old new Hs Hs2) as A3.
  pose proof (top_nh_ne old new Hne) as A4.
  pose proof (top_nh_TN cmac ks blake H1 H2 H3 threshold Ht (fun _ => True) old new Hs Hs2 Hne) as A5.
  destruct (states_sim _ new _ A1 A2 A3 A4 A5 fs HI dirs fs' HT Hi) as (e & tab & HS & HTb).
  pose proof (eff2 old new Hs2 Hne) as Ef. assert (Hs2' : suffix_ok (effective new)) by (rewrite Ef; exact Hs2).
  set (pc1 := pcomp cmac ks blake threshold old). set (pc2 := pcomp cmac ks blake threshold new).
  assert (Nm : forall n, n <> [] /\ ~ In slash n -> exists l, named cmac ks blake threshold (fun _ => True) old (pc1 n) l).
  { intros n (Hn & Hsl). eexists. exists n. eauto. }
  assert (Img : forall n, n <> [] -> image (effective old) new (pc1 n) (pc2 n)).
  { intros n Hn. unfold pc2. rewrite <- (pc_change cmac ks blake H1 H2 H3 threshold Ht (fun _ => True) old new Hs Hs2 Hne n Hn). fold pc1.
    unfold rs. destruct (negb _ && _) eqn:El; [right|left; reflexivity]. split; [|reflexivity]. apply long_iff. exact El. }
  assert (TN2 : forall n, n <> [] -> ~ In slash n -> pc2 n <> TN).
  { intros n Hn Hsl. apply (top_named_TN cmac ks blake H1 H2 H3 threshold (fun _ => True) new Hs2' _ (stored cmac ks threshold n)). exists n. auto 6. }
  split.
  - intros path (names & HF & ->).
    destruct (new_names_total _ _ _ H1 H2 H3 threshold old None None (path_of names) Ht) as (P1 & l1 & He1).
    destruct (new_names_total _ _ _ H1 H2 H3 threshold new None None (path_of names) Ht) as (P2 & l2 & He2).
    destruct names as [|n names _] using rev_ind.
    + unfold found. unfold tr, tr'. rewrite He1, He2, (comps_path cmac ks blake H1 H2 H3 threshold old Hs [] P1 l1 HF He1),
        (comps_path cmac ks blake H1 H2 H3 threshold new Hs2' [] P2 l2 HF He2). split; right; reflexivity.
    + assert (Hnn : names ++ [n] <> []) by (destruct names; discriminate).
      unfold tr, tr'. rewrite (found_eq cmac ks blake H1 H2 H3 threshold new fs' _ P2 l2 Hs2' HF Hnn He2),
        !(found_eq cmac ks blake H1 H2 H3 threshold old _ _ P1 l1 Hs HF Hnn He1).
      fold pc1 pc2. rewrite removelast_last, last_last. apply Forall_app in HF. destruct HF as (HF & Hl). inversion Hl as [|x y (Hn & Hsl) _]. subst x y.
      split; eapply (sim_right _ new _ A3 fs HI e tab fs' _ _ _ _ HS).
      * clear - HF Nm. induction HF as [|m ms Hm HF IH]; constructor; [|exact IH]. split; [left; reflexivity|apply Nm; exact Hm].
      * left. reflexivity.
      * apply Nm. auto.
      * destruct (Nm n (conj Hn Hsl)) as (l & Hl'). exact (A2 _ _ Hl').
      * clear - HF Nm Img. induction HF as [|m ms Hm HF IH]; constructor; [|exact IH]. split; [apply Img; apply Hm|apply Nm; exact Hm].
      * apply Img. exact Hn.
      * apply Nm. auto.
      * apply TN2; assumption.
  - intros path (names & HL & ->).
    assert (HF : Forall (fun n => n <> [] /\ ~ In slash n) names) by (eapply Forall_impl; [|exact HL]; cbn beta; tauto).
    assert (Sh : forall n, n <> [] /\ ~ In slash n /\ length n <= threshold -> ~ long_entry (effective old) (pc1 n) /\ pc2 n = pc1 n).
    { intros n (Hn & Hsl & Hlen).
      destruct (pc_cases cmac ks blake H1 H2 H3 threshold Ht (fun _ => True) old n Hn) as [(_ & E1 & _)|(H & _)]; [|lia].
      destruct (pc_cases cmac ks blake H1 H2 H3 threshold Ht (fun _ => True) new n Hn) as [(_ & E2 & _)|(H & _)]; [|lia].
      split; [|unfold pc1, pc2; congruence]. intros L.
      assert (Hx : stored cmac ks threshold n <> []) by (apply (A1 (pc1 n) (stored cmac ks threshold n)); [exists n; auto 6|exact L]).
      apply Hx. destruct (pc_cases cmac ks blake H1 H2 H3 threshold Ht (fun _ => True) old n Hn) as [(_ & _ & E)|(H & _)]; [exact E|lia]. }
    destruct (new_names_total _ _ _ H1 H2 H3 threshold old None None (path_of names) Ht) as (P1 & l1 & He1).
    destruct (new_names_total _ _ _ H1 H2 H3 threshold new None None (path_of names) Ht) as (P2 & l2 & He2).
    destruct names as [|n names _] using rev_ind.
    + unfold found. unfold tr, tr'. rewrite He1, He2, (comps_path cmac ks blake H1 H2 H3 threshold old Hs [] P1 l1 HF He1),
        (comps_path cmac ks blake H1 H2 H3 threshold new Hs2' [] P2 l2 HF He2). split; reflexivity.
    + assert (Hnn : names ++ [n] <> []) by (destruct names; discriminate).
      unfold tr, tr'. rewrite (found_eq cmac ks blake H1 H2 H3 threshold new fs' _ P2 l2 Hs2' HF Hnn He2),
        !(found_eq cmac ks blake H1 H2 H3 threshold old _ _ P1 l1 Hs HF Hnn He1).
      fold pc1 pc2. rewrite removelast_last, last_last. apply Forall_app in HF. destruct HF as (HF & Hl). inversion Hl as [|x y (Hn & Hsl) _]. subst x y.
      apply Forall_app in HL. destruct HL as (HL & Hl2). inversion Hl2 as [|x y Hsn _]. subst x y.
      assert (HX : lookup fs' (map pc1 names) (pc1 n) = lookup fs (map pc1 names) (pc1 n)).
      { apply (sim_short _ new _ A2 A3 fs HI e tab fs' _ _ HS).
        - clear - HL Sh Nm. induction HL as [|m ms Hm HL IH]; constructor; [|exact IH]. split; [apply (Sh m Hm)|apply Nm; tauto].
        - apply (Sh n Hsn).
        - apply Nm. auto. }
      split; [exact HX|]. rewrite <- HX. destruct (Sh n Hsn) as (_ & ->).
      replace (map pc2 names) with (map pc1 names); [reflexivity|]. apply map_ext_in. intros m Hm. rewrite Forall_forall in HL.
      symmetry. apply (Sh m (HL m Hm)).
Qed.
Print Assumptions C97_never_something_else.

(** The states are those of the command of C47: the last is the one it leaves. *)
Theorem C97_ends_as_the_command :
  forall old new dirs fs, last (dirs_states old new dirs fs) fs = fst (change_dirs old new None dirs fs).
Proof. intros old new dirs fs. apply states_last. Qed.
Print Assumptions C97_ends_as_the_command.

Lemma ex_differ : suffix_in_force ll <> str "@@".
Proof. vm_compute. discriminate. Qed.

(** Witnesses: killed in the middle of C47's example, whose directories are in an order
    in which the command succeeds. *)
Definition ex_states : list hfs := dirs_states ll (str "@@") ex_dirs ex_fs.
Definition ex_kill (n : nat) : hfs := nth n ex_states ex_fs.
Definition ex_long : bytes := str "/the outer directory/the inner directory/a long file name".

Example C97_example :
  suffix_ok (suffix_in_force ll) /\ suffix_ok (str "@@") /\ suffix_in_force ll <> str "@@" /\
  benign_run ex_tr (suffix_in_force ll) ex_nest empty_fs /\ tables ex_fs ex_dirs /\ length ex_states = 12 /\
  Forall fuse_path [ex_long; str "/s/another long file name"] /\ short_path 10 (str "/s/t") /\
  map (fun fs => (found ex_tr fs ex_long, found ex_new fs ex_long, found ex_tr fs (str "/s/another long file name"),
                  found ex_new fs (str "/s/another long file name"), found ex_tr fs (str "/s/t"))) [ex_kill 0; ex_kill 1; ex_kill 4; ex_kill 11] =
  [(Some (KFile 1), None, Some (KFile 2), None, Some (KFile 3));
   (None, None, Some (KFile 2), None, Some (KFile 3));
   (None, None, Some (KFile 2), None, Some (KFile 3));
   (None, Some (KFile 1), None, Some (KFile 2), Some (KFile 3))].
Proof.
  destruct C47_example as (E1 & E2 & _).
  split; [exact ex_suffix|]. split; [exact E1|]. split; [vm_compute; discriminate|]. split; [exact ex_nest_benign|]. split; [exact E2|].
  split; [vm_compute; reflexivity|]. split; [repeat (constructor; [apply fuse_pathb; vm_compute; reflexivity|]); constructor|].
  split; [|vm_compute; reflexivity].
  exists [str "s"; str "t"]. split; [|reflexivity].
  repeat (constructor; [split; [discriminate|]; split; [intros [H|[]]; discriminate H|cbn; lia]|]). constructor.
Qed.

Lemma ex_kill_in : In (ex_kill 1) (dirs_states ll (str "@@") ex_dirs ex_fs).
Proof.
  unfold ex_kill. fold ex_states. assert (HL : length ex_states = 12) by (vm_compute; reflexivity).
  apply (nth_In ex_states ex_fs). rewrite HL. lia.
Qed.

(** But a kill does not leave the repository with one suffix or with the other: although
    the order of the directories is a good one, a file is found with neither. *)
Theorem C97_one_or_the_other_refuted :
  ~ (forall ops, benign_run ex_tr ll ops empty_fs ->
     forall dirs fs', tables (lite_run ex_tr ops empty_fs) dirs -> deep_first ll dirs ->
     In fs' (dirs_states ll (str "@@") dirs (lite_run ex_tr ops empty_fs)) ->
     forall path, fuse_path path ->
       found ex_tr fs' path = found ex_tr (lite_run ex_tr ops empty_fs) path \/
       found ex_new fs' path = found ex_tr (lite_run ex_tr ops empty_fs) path).
Proof.
  intros H. destruct C47_example as (_ & E2 & E3 & _).
  pose proof ex_kill_in as Hi.
  specialize (H ex_nest ex_nest_benign ex_dirs (ex_kill 1) E2 E3 Hi ex_long ltac:(apply fuse_pathb; vm_compute; reflexivity)).
  destruct H as [H|H]; clear - H; vm_compute in H; discriminate H.
Qed.
Print Assumptions C97_one_or_the_other_refuted.

Lemma ex_kill_dirs w : renamed_only ll (str "@@") ex_fs (ex_kill 1) w -> forall p, ex_fs p <> None -> In (w p) ex_dirs.
Proof.
  intros HR.
  pose proof (hist_inv_all ex_cmac ex_ks ex_blake (proj1 ex_sizes) (proj1 (proj2 ex_sizes)) (proj2 (proj2 ex_sizes)) 10 ltac:(lia) ll ex_suffix
    ex_nest ex_nest_benign) as (HI & HJ). change (tree_ok ex_fs) in HI.
  assert (HV : forallb (fun d => match ex_kill 1 d with
                         | Some es => forallb (fun e => match snd e with KDir => existsb (hpath_eqb (d ++ [fst e])) ex_dirs | _ => true end) es
                         | None => false end) ex_dirs = true) by (vm_compute; reflexivity).
  induction p as [|u p IH] using rev_ind; intros Hp.
  - pose proof (ro_path _ _ _ _ _ HR [] Hp) as HP. inversion HP. vm_compute. auto 6.
  - apply (proj2 HI) in Hp. destruct Hp as (es & He & Hk). specialize (IH ltac:(rewrite He; discriminate)).
    destruct (ro_entries _ _ _ _ _ HR p es He) as (es' & He' & F & _).
    assert (Nu : u <> kLongNameTableFileName).
    { intros ->. destruct (do_table _ _ _ (HJ p es He)) as [E|(m & E)]; rewrite E in Hk; discriminate Hk. }
    destruct (F u KDir Nu Hk) as (u' & _ & Hu' & ->). rewrite forallb_forall in HV. specialize (HV _ IH). rewrite He' in HV.
    rewrite forallb_forall in HV. apply ent_in in Hu'. specialize (HV _ Hu'). cbn [snd fst] in HV.
    apply existsb_exists in HV. destruct HV as (x & Hx & E). apply hpath_eqb_eq in E. subst x. exact Hx.
Qed.

(** Nor does giving the command again repair it: the entry that was renamed is no longer
    there under the name that is in the table, and the command stops at it. *)
Theorem C97_again_refuted :
  ~ (forall ops, benign_run ex_tr ll ops empty_fs ->
     forall dirs fs', tables (lite_run ex_tr ops empty_fs) dirs -> deep_first ll dirs ->
     In fs' (dirs_states ll (str "@@") dirs (lite_run ex_tr ops empty_fs)) ->
     forall dirs', tables fs' dirs' ->
     exists fs2, change_dirs ll (str "@@") None dirs' fs' = (fs2, Ok tt)).
Proof.
  intros H. destruct C47_example as (_ & E2 & E3 & _).
  pose proof ex_kill_in as Hi.
  destruct (C97_nothing_lost ex_cmac ex_ks ex_blake ex_sizes 10 ll (str "@@") ltac:(lia) ex_suffix (proj1 C47_example) ex_differ
    ex_nest ex_nest_benign ex_dirs (ex_kill 1) E2 (or_intror Hi)) as (w & HR).
  assert (HT : tables (ex_kill 1) ex_dirs).
  { split; [exact ex_dirs_nodup|]. intros d. split.
    - intros Hd. assert (HV : forallb (fun d => match ex_kill 1 d with Some es => match ent kLongNameTableFileName es with Some (KTable _) => true | _ => false end | None => false end) ex_dirs = true) by (vm_compute; reflexivity).
      rewrite forallb_forall in HV. specialize (HV d Hd). destruct (ex_kill 1 d) as [es|]; [|discriminate HV]. exists es.
      destruct (ent kLongNameTableFileName es) as [[| |m]|]; [discriminate HV|discriminate HV| |discriminate HV]. exists m. split; reflexivity.
    - intros (es & m & Hd & _). destruct (ro_all _ _ _ _ _ HR d ltac:(rewrite Hd; discriminate)) as (p & Hp & ->). apply (ex_kill_dirs w HR p Hp). }
  destruct (H ex_nest ex_nest_benign ex_dirs (ex_kill 1) E2 E3 Hi ex_dirs HT) as (fs2 & E).
  apply (f_equal snd) in E. clear - E. vm_compute in E. discriminate E.
Qed.
Print Assumptions C97_again_refuted.
