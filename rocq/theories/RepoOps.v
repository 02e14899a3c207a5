(** The calls of FsConcModel, on a repository. *)
From Coq Require Import Strings.String Lia Permutation.
From Verif Require Import Base BaseLemmas TextModel NameModel StreamSpec AttrModel AttrProofs FullStreamModel FullStreamProofs BtreeModel BtreeSpec BtreeInsert FullFsModel FullFsSpec FullFsProofs FullFsPath FullFsInv FullFsStep
  ObjModel ObjProofs RepoModel RepoSpec FsConcModel FsConcProofs FsConcSafe RepoProofs RepoSim.
Local Open Scope list_scope.

Lemma length_olim E n id : length_ok E (N.of_nat n) -> n <= olim E id.
Proof.
  intros H. specialize (H id). unfold olim. assert (Hm : (full_max_blocks_N * N.of_nat (v_bs E) = N.of_nat (full_max_blocks * v_bs E))%N).
  { now rewrite Nat2N.inj_mul, full_max_blocks_of_N. }
  rewrite Hm in H. clear Hm. generalize dependent (full_max_blocks * v_bs E). intros m H. lia.
Qed.

Lemma resize_alt d n : arr_resize d n = firstn n (d ++ repeat x00 (n - length d)).
Proof. unfold arr_resize, zeros. rewrite firstn_app, (firstn_all2 (repeat x00 _)); [reflexivity|]. now rewrite repeat_length. Qed.

Section Ops.
Variable E : senv.
Hypothesis HE : senv_ok E.
Notation cmp := (v_cmp E).
Notation RR := (RR E).
Notation psim := (psim E).

Lemma sim_classed h want (f : timespec -> fob -> fob * res fout) (up : inode -> inode) (x : fout) rp st : RR rp st -> In (fst h) (opened st) ->
  (forall now o nd, ts_in_range now -> ORep E (fst h) o nd -> i_type nd = want -> exists o', f now o = (o', Ok x) /\ ORep E (fst h) o' (up nd)) ->
  (forall nd, i_type (up nd) = i_type nd /\ i_dir (up nd) = i_dir nd /\ i_parent (up nd) = i_parent nd) ->
  forall g, g = match cast_as want h st with Err e => (st, Err e) | Ok nd => (put st (fst h) (up nd), Ok x) end ->
  RR (fst (with_obj E (fst h) (as_class want (snd h) f) rp)) (fst g) /\ opened (fst g) = opened st /\ snd (with_obj E (fst h) (as_class want (snd h) f) rp) = snd g.
Proof.
  intros H Hi Hf Hup g ->. destruct (get st (fst h)) as [nd|] eqn:Eg; [|now elim (rr_open _ _ _ H _ Hi)].
  destruct (RR_there _ _ _ _ _ H Eg) as (y & _ & Hgn & _). rewrite (cast_cases want h st nd Eg).
  destruct ((snd h =? i_type nd)%N && (snd h =? want)%N) eqn:Ec; cbn [fst snd].
  - apply andb_prop in Ec as Ec2. destruct Ec2 as [E1 E2]. apply N.eqb_eq in E1. apply N.eqb_eq in E2. destruct (Hup nd) as (U1 & U2 & U3).
    destruct (RR_obj E HE (fst h) (as_class want (snd h) f) rp st nd (up nd) (Ok x) H Hi Eg) as (rp' & E3 & HR).
    + now apply (good_same _ nd).
    + exact U3.
    + intros now o Hn Ho. rewrite (as_class_ok E want h f (fst h) nd now o Ho), Ec. apply Hf; [exact Hn|exact Ho|congruence].
    + rewrite E3. cbn [fst snd]. auto.
  - destruct (RR_obj E HE (fst h) (as_class want (snd h) f) rp st nd nd (Err E_PERM) H Hi Eg Hgn eq_refl) as (rp' & E3 & HR).
    + intros now o Hn Ho. rewrite (as_class_ok E want h f (fst h) nd now o Ho), Ec. eauto.
    + rewrite E3. rewrite (put_same _ _ _ Eg) in HR. cbn [fst snd]. auto.
Qed.
Lemma done_ok (f : timespec -> fob -> fob * res unit) x now o o' : f now o = (o', Ok tt) -> done f x now o = (o', Ok x).
Proof. intros H. unfold done. now rewrite H. Qed.

(** ** create *)
Definition Qc (newid : bytes) (ty : N) (o : list bytes) (r r' : res holder) : Prop :=
  r = r' /\ match r with Ok h => h = (newid, ty) /\ o = [newid] | Err _ => o = [] end.
Lemma sim_new path perm ty newid bad : good_type ty -> length newid = 32 -> no_nul path ->
  psim (Qc newid ty) [] (r_create E path perm ty newid bad) (c_create cmp path perm ty newid bad).
Proof.
  intros Hty Hid Hnul. unfold r_create, c_create. apply psim_bind. eapply psim_imp; [|exact (sim_base E HE path)].
  intros o r r' [<- Ho]. destruct r as [[base name]|er].
  2:{ subst o. exists []. split; [reflexivity|]. split; reflexivity. }
  destruct Ho as [-> ->]. apply last_nul in Hnul. set (name := last (path_comps path) []) in *.
  apply psim_do. intros rp st rest H1 H2 H3. destruct (sim_create E HE newid perm ty bad rp st H1 Hty Hid) as (rp' & E1 & HR).
  rewrite E1. cbn [fst snd].
  assert (Hk : forall e, RepoSim.psim E (Qc newid ty) [fst base] (r_leave E [fst base] (Err e)) (leave [fst base] (Err e))).
  { intros e. apply psim_leave1; [exact HE|]. split; reflexivity. }
  destruct bad as [e|]; cbn [fst snd].
  { exists [fst base]. split; [exact HR|]. split; [exact H2|apply Hk]. }
  destruct (get st newid) as [nd|]; cbn [fst snd].
  { exists [fst base]. split; [exact HR|]. split; [exact H2|apply Hk]. }
  exists [newid; fst base]. split; [exact HR|]. split; [cbn [opened hold put app]; now constructor|].
  clear - HE Hty Hid Hnul. apply psim_use. intros rp st H1 H2 H3.
  destruct (sim_add E HE base name newid ty rp st 1 H1 H3) as (rp' & E1 & HR & _ & Ho); [apply H2; right; now left|exact Hnul|exact Hid|exact Hty|].
  rewrite E1. cbn [fst snd]. split; [exact HR|]. split; [exact Ho|]. destruct (snd (add_entry cmp base name newid ty st)) as [[|]|e].
  - apply psim_parent; [now left|]. apply (psim_leave E HE _ _ _ [newid]); [|apply perm_swap]. split; [reflexivity|]. split; reflexivity.
  - apply psim_use. clear - HE. intros rp st H1 H2 H3. cbn [fst snd]. split; [apply sim_down; auto; apply H2; now left|].
    split; [unfold count_down; destruct (get st newid); reflexivity|]. apply (psim_leave E HE _ _ _ []); [|reflexivity]. split; reflexivity.
  - apply (psim_leave E HE _ _ _ []); [|reflexivity]. split; reflexivity.
Qed.

(** ** All calls *)
Definition Qbd (op : fop) (o : list bytes) (r r' : res fout) : Prop := same_answer r r' /\
  o = match op, r with _, Ok (FOId x) => [x] | FClose id _, Err _ => [id] | _, _ => [] end.
Lemma same_refl_answer r : same_answer r r.
Proof. destruct r as [[]|]; cbn [same_answer]; auto. Qed.
Definition no_close (op : fop) : Prop := forall id d, op <> FClose id d.
Lemma Qbd_err op e : no_close op -> Qbd op [] (Err e) (Err e).
Proof. intros H. split; [reflexivity|]. destruct op; try reflexivity. now elim (H id dir). Qed.
Lemma Qbd_unit op : Qbd op [] (Ok FOUnit) (Ok FOUnit).
Proof. split; [reflexivity|]. now destruct op. Qed.
Definition not_handle (r : res fout) : Prop := forall x, r <> Ok (FOId x).
Lemma Qbd_same op r r' : no_close op -> same_answer r r' -> not_handle r -> Qbd op [] r r'.
Proof.
  intros H Hs Hn. split; [exact Hs|]. destruct r as [[]|]; try (now destruct op); try (now elim (Hn id)). destruct op; try reflexivity. now elim (H id dir).
Qed.
Lemma psim_ret {A B} (Q : list bytes -> A -> B -> Prop) own a b : Q own a b -> psim Q own (RRet a) (PRet b).
Proof. intros H. exists own. split; [reflexivity|exact H]. Qed.

Lemma sim_rm rmdir path op : no_close op -> psim (Qbd op) [] (r_remove E rmdir path) (c_remove cmp rmdir path).
Proof.
  intros Hno. unfold r_remove, c_remove. apply psim_bind. eapply psim_imp; [|exact (sim_base E HE path)].
  intros o r r' [<- Ho]. destruct r as [[base name]|er].
  2:{ subst o. apply psim_ret. now apply Qbd_err. }
  destruct Ho as [-> _]. apply psim_use. intros rp st H1 H2 H3.
  destruct (sim_remove E HE base name rp st 2 H1 H3) as (rp' & E1 & HR & _ & Ho & Hg); [apply H2; now left|].
  rewrite E1. cbn [fst snd]. split; [exact HR|]. split; [exact Ho|]. destruct (snd (remove_entry cmp base name st)) as [[e|]|er].
  - destruct Hg as [Hty Hid]. clear - HE Hno Hty Hid. apply psim_open; [exact Hty| |].
    + intros er. apply psim_leave1; [exact HE|]. now apply Qbd_err.
    + apply psim_use. intros rp st H1 H2 H3. cbn [fst snd]. assert (Hi : In (e_id e) (opened st)) by (apply H2; now left).
      assert (Hdown : RR (t_count_down E (e_id e) rp) (count_down (e_id e) st)) by (apply sim_down; auto).
      assert (Hopen : opened (count_down (e_id e) st) = opened st) by (unfold count_down; destruct (get st (e_id e)); reflexivity).
      destruct (get st (e_id e)) as [nd|] eqn:Eg; [|now elim (rr_open _ _ _ H1 _ Hi)].
      destruct (RR_there _ _ _ _ _ H1 Eg) as (y & _ & Hgn & _).
      assert (Hleave : forall u, u = Ok FOUnit \/ (exists er, u = Err er) -> RepoSim.psim E (Qbd op) [e_id e; fst base] (r_leave E [e_id e; fst base] u) (leave [e_id e; fst base] u)).
      { intros u Hu. apply (psim_leave E HE _ _ _ []); [|reflexivity]. destruct Hu as [->|[er ->]]; [apply Qbd_unit|now apply Qbd_err]. }
      destruct rmdir.
      * rewrite (cast_cases TDIR (e_id e, e_type e) st nd Eg). cbn [fst snd]. destruct ((e_type e =? i_type nd)%N && (e_type e =? TDIR)%N) eqn:Ec.
        -- apply andb_prop in Ec as Ec2. destruct Ec2 as [E1 E2]. apply N.eqb_eq in E1. apply N.eqb_eq in E2.
           destruct (i_dir nd) as [|e0 l0] eqn:Ed.
           ++ destruct (RR_obj E HE (e_id e) (as_class TDIR (e_type e) (rmdir_use E (e_id e))) rp st nd (with_nlink (dec32 (i_nlink nd)) nd) (Ok FOUnit) H1 Hi Eg) as (rp' & E3 & HR).
              ** now apply (good_same _ nd).
              ** reflexivity.
              ** intros now o Hn Ho. rewrite (as_class_ok E TDIR (e_id e, e_type e) _ (e_id e) nd now o Ho). cbn [snd]. rewrite Ec. unfold rmdir_use.
                 destruct (ORep_list E HE (e_id e) o nd now Ho Hn) as (o1 & l & E4 & Ho1 & Hp); [congruence|]. rewrite Ed in Hp. apply Permutation_sym, Permutation_nil in Hp. subst l. rewrite E4.
                 eexists. split; [reflexivity|]. now apply ORep_unlink.
              ** rewrite E3. cbn [fst snd]. unfold count_down. rewrite Eg. split; [exact HR|]. split; [reflexivity|]. apply Hleave. now left.
           ++ destruct (RR_look E HE (e_id e) (as_class TDIR (e_type e) (rmdir_use E (e_id e))) (fun r => r = Err E_NOTEMPTY) rp st nd H1 Hi Eg) as (rp' & r & E3 & HR & ->).
              ** intros now o Hn Ho. rewrite (as_class_ok E TDIR (e_id e, e_type e) _ (e_id e) nd now o Ho). cbn [snd]. rewrite Ec. unfold rmdir_use.
                 destruct (ORep_list E HE (e_id e) o nd now Ho Hn) as (o1 & l & E4 & Ho1 & Hp); [congruence|]. rewrite Ed in Hp. rewrite E4. destruct l as [|e1 l]; [apply Permutation_nil in Hp; discriminate Hp|].
                 eauto.
              ** rewrite E3. cbn [fst snd]. split; [exact HR|]. split; [reflexivity|]. apply Hleave. right. eauto.
        -- destruct (RR_look E HE (e_id e) (as_class TDIR (e_type e) (rmdir_use E (e_id e))) (fun r => r = Err E_PERM) rp st nd H1 Hi Eg) as (rp' & r & E3 & HR & ->).
           ++ intros now o Hn Ho. rewrite (as_class_ok E TDIR (e_id e, e_type e) _ (e_id e) nd now o Ho). cbn [snd]. rewrite Ec. eauto.
           ++ rewrite E3. cbn [fst snd]. split; [exact HR|]. split; [reflexivity|]. apply Hleave. right. eauto.
      * destruct (RR_obj E HE (e_id e) (fun _ o => (fo_unlink o, Ok FOUnit)) rp st nd (with_nlink (dec32 (i_nlink nd)) nd) (Ok FOUnit) H1 Hi Eg) as (rp' & E3 & HR).
        -- now apply (good_same _ nd).
        -- reflexivity.
        -- intros now o Hn Ho. eexists. split; [reflexivity|]. now apply ORep_unlink.
        -- rewrite E3. cbn [fst snd]. unfold count_down. rewrite Eg. split; [exact HR|]. split; [reflexivity|]. apply Hleave. now left.
  - apply psim_leave1; [exact HE|]. now apply Qbd_err.
  - apply psim_leave1; [exact HE|]. now apply Qbd_err.
Qed.

Lemma link_answer h base name st : snd (link_step cmp h base name st) = Ok FOUnit \/ exists e, snd (link_step cmp h base name st) = Err e.
Proof.
  unfold link_step. destruct (get st (fst h)) as [nd|]; cbn [snd]; [|eauto]. destruct (add_entry cmp base name (fst h) (i_type nd) st) as [st3 [[|]|e]]; cbn [snd]; [|eauto|eauto].
  destruct (get st3 (fst h)); cbn [snd]; eauto.
Qed.
Lemma sim_ln src dest : no_nul dest -> psim (Qbd (FLink src dest)) [] (r_link E src dest) (c_link cmp src dest).
Proof.
  intros Hnul. unfold r_link, c_link. apply psim_bind. eapply psim_imp; [|exact (sim_all E HE src true)].
  intros o r r' [<- Ho]. destruct r as [[h|]|er]; subst o; [|apply psim_ret; now apply Qbd_err|apply psim_ret; now apply Qbd_err].
  apply psim_bind. eapply psim_imp; [|apply (psim_frame E _ [fst h] (Qb dest) []); exact (sim_base E HE dest)].
  cbn beta. intros o r r' (o1 & -> & <- & Ho). destruct r as [[base name]|er].
  2:{ subst o1. apply psim_leave1; [exact HE|]. now apply Qbd_err. }
  destruct Ho as [-> ->]. cbn [app]. apply last_nul in Hnul. apply psim_use. intros rp st H1 H2 H3.
  destruct (sim_link E HE h base (last (path_comps dest) []) rp st H1) as (rp' & E1 & HR & Ho); [apply (small_le 2); [lia|exact H3]|apply H2; right; now left|apply H2; now left|exact Hnul|].
  rewrite E1. cbn [fst snd]. split; [exact HR|]. split; [exact Ho|]. apply (psim_leave E HE _ _ _ []); [|reflexivity].
  destruct (link_answer h base (last (path_comps dest) []) st) as [->|[e ->]]; [apply Qbd_unit|now apply Qbd_err].
Qed.

Lemma sim_mv from to : no_nul from -> no_nul to -> psim (Qbd (FRename from to)) [] (r_rename E from to) (c_rename cmp from to).
Proof.
  intros Hf Ht. unfold r_rename, c_rename. apply psim_bind. eapply psim_imp; [|exact (sim_base E HE from)].
  intros o r r' [<- Ho]. destruct r as [[bf lf]|er].
  2:{ subst o. apply psim_ret. now apply Qbd_err. }
  destruct Ho as [-> ->]. apply psim_bind. eapply psim_imp; [|apply (psim_frame E _ [fst bf] (Qb to) []); exact (sim_base E HE to)].
  cbn beta. intros o r r' (o1 & -> & <- & Ho). destruct r as [[bt lt]|er].
  2:{ subst o1. apply psim_leave1; [exact HE|]. now apply Qbd_err. }
  destruct Ho as [-> ->]. cbn [app]. apply last_nul in Hf. apply last_nul in Ht.
  set (lf := last (path_comps from) []) in *. set (lt := last (path_comps to) []) in *. apply psim_use. intros rp st H1 H2 H3.
  destruct (sim_rename E HE bf bt lf lt rp st H1 H3) as (rp' & E1 & HR & Ho & Hg); [apply H2; right; now left|apply H2; now left|exact Hf|exact Ht|].
  rewrite E1. cbn [fst snd]. split; [exact HR|]. split; [exact Ho|]. destruct (snd (rename_step cmp bf bt lf lt st)) as [[e|]|er].
  - destruct Hg as [Hty Hid]. apply psim_open; [exact Hty| |].
    + intros er. apply (psim_leave E HE _ _ _ []); [|reflexivity]. now apply Qbd_err.
    + apply psim_use. clear - HE. intros rp st H1 H2 H3. cbn [fst snd]. split; [apply sim_down; auto; apply H2; now left|].
      split; [unfold count_down; destruct (get st (e_id e)); reflexivity|]. apply (psim_leave E HE _ _ _ []); [|reflexivity]. apply Qbd_unit.
  - apply (psim_leave E HE _ _ _ []); [|reflexivity]. apply Qbd_unit.
  - apply (psim_leave E HE _ _ _ []); [|reflexivity]. now apply Qbd_err.
Qed.

Lemma sim_path op path follow f g : no_close op ->
  (forall h rp st, RR rp st -> In (fst h) (opened st) -> RR (fst (with_obj E (fst h) (f h) rp)) (fst (g h st)) /\ opened (fst (g h st)) = opened st /\
     same_answer (snd (with_obj E (fst h) (f h) rp)) (snd (g h st)) /\ not_handle (snd (with_obj E (fst h) (f h) rp))) ->
  psim (Qbd op) [] (r_path E path follow f) (with_path cmp path follow g).
Proof.
  intros Hno H. unfold r_path, with_path. apply psim_bind. eapply psim_imp; [|exact (sim_all E HE path follow)].
  intros o r r' [<- Ho]. destruct r as [[h|]|er]; subst o; [|apply psim_ret; now apply Qbd_err|apply psim_ret; now apply Qbd_err].
  apply psim_use. intros rp st H1 H2 H3. destruct (H h rp st H1) as (A1 & A2 & A3 & A4); [apply H2; now left|]. split; [exact A1|]. split; [exact A2|].
  apply psim_leave1; [exact HE|]. now apply Qbd_same.
Qed.

Lemma stat_ok id rp st nd : RR rp st -> In id (opened st) -> get st id = Some nd ->
  RR (fst (with_obj E id (stat_use E id) rp)) st /\ exists s, snd (with_obj E id (stat_use E id) rp) = Ok (FOStat id (i_mode nd) (i_nlink nd) s) /\
    ((i_mode nd / 4096)%N <> TDIR -> s = N.of_nat (length (i_data nd))).
Proof.
  intros H Hi Eg.
  destruct (RR_look E HE id (stat_use E id) (fun r => exists s, r = Ok (FOStat id (i_mode nd) (i_nlink nd) s) /\ ((i_mode nd / 4096)%N <> TDIR -> s = N.of_nat (length (i_data nd)))) rp st nd H Hi Eg) as (rp' & r & E3 & HR & Hr).
  - intros now o Hn Ho. unfold stat_use. destruct (ORep_size E HE id o nd Ho) as (o1 & n & E1 & Ho1 & Hs). rewrite E1. do 2 eexists. split; [reflexivity|]. split; [exact Ho1|].
    cbn [rmap]. rewrite (or_mode _ _ _ _ Ho1), (or_nlink _ _ _ _ Ho1). eexists. split; [reflexivity|]. intros Ht. now rewrite Hs.
  - rewrite E3. auto.
Qed.

Definition begins (o : fop) : list bytes := match o with FClose id _ => [id] | _ => [] end.
Lemma sim_body o hs : may_call o hs -> call_fits E o -> psim (Qbd o) (begins o) (r_body E o) (body cmp o).
Proof.
  destruct o; cbn [may_call call_fits begins]; intros Hn Hs; try contradiction; cbn [r_body body].
  - (* create *) destruct Hs as [Hp Hx]. apply psim_bind. eapply psim_imp; [|exact (sim_new path perm TREG newid bad (or_introl eq_refl) Hx Hp)].
    intros o r r' [<- Ho]. apply psim_ret. destruct r as [h|e]; [destruct Ho as [-> ->]|subst o]; split; reflexivity.
  - (* mkdir *) destruct Hs as [Hp Hx]. apply psim_bind. eapply psim_imp; [|exact (sim_new path perm TDIR newid bad (or_intror (or_introl eq_refl)) Hx Hp)].
    intros o r r' [<- Ho]. destruct r as [h|e]; [destruct Ho as [-> ->]|subst o].
    + apply psim_leave1; [exact HE|]. apply Qbd_unit.
    + apply psim_ret. now apply Qbd_err.
  - (* symlink *) destruct Hs as (Hp & Hx & Hl). apply psim_bind. eapply psim_imp; [|exact (sim_new path 420 TLINK newid bad (or_intror (or_intror eq_refl)) Hx Hp)].
    intros o r r' [<- Ho]. destruct r as [h|e]; [destruct Ho as [-> ->]|subst o; apply psim_ret; now apply Qbd_err].
    apply psim_use. intros rp st H1 H2 H3.
    destruct (sim_classed (newid, TLINK) TLINK (done (fun now => fo_link_set E newid now target) FOUnit) (fun nd => with_data (arr_write (i_data nd) 0 target) nd) FOUnit rp st H1) with (g := match cast_as TLINK (newid, TLINK) st with
                           | Err e => (st, Err e)
                           | Ok nd => (put st newid (with_data (arr_write (i_data nd) 0 target) nd), Ok FOUnit)
                           end) as (A1 & A2 & A3).
    + apply H2. now left.
    + intros now o nd Hn' Ho Ht. destruct (ORep_write E HE newid o nd now 0 target Ho Hn') as (o' & E1 & Ho'); [rewrite Ht; discriminate|cbn [plus]; now apply length_olim|].
      exists o'. split; [|exact Ho']. now apply done_ok.
    + intros nd. split; [reflexivity|]. split; reflexivity.
    + reflexivity.
    + cbn [fst snd] in *. split; [exact A1|]. split; [exact A2|]. rewrite A3. apply psim_leave1; [exact HE|]. apply Qbd_same; [discriminate|apply same_refl_answer|].
      intros x. destruct (cast_as TLINK (newid, TLINK) st); discriminate.
  - now apply sim_ln.
  - apply sim_rm. discriminate.
  - apply sim_rm. discriminate.
  - now apply sim_mv.
  - (* open *) apply psim_bind. eapply psim_imp; [|exact (sim_all E HE path true)].
    intros o r r' [<- Ho]. destruct r as [[h|]|er]; subst o; [|apply psim_ret; now apply Qbd_err|apply psim_ret; now apply Qbd_err].
    destruct trunc; [|apply psim_ret; split; reflexivity]. apply psim_use. intros rp st H1 H2 H3.
    destruct (sim_classed h TREG (done (fun now => fo_truncate E (fst h) now 0) (FOId (fst h))) (fun nd => with_data [] nd) (FOId (fst h)) rp st H1) with (g := match cast_as TREG h st with
                             | Err e => (st, Err e)
                             | Ok nd => (put st (fst h) (with_data [] nd), Ok (FOId (fst h)))
                             end) as (A1 & A2 & A3).
    + apply H2. now left.
    + intros now o nd Hn' Ho Ht. destruct (ORep_truncate E HE (fst h) o nd now 0 Ho Hn') as (o' & E1 & Ho'); [rewrite Ht; discriminate|lia|].
      exists o'. split; [now apply done_ok|]. exact Ho'.
    + intros nd. split; [reflexivity|]. split; reflexivity.
    + reflexivity.
    + split; [exact A1|]. split; [exact A2|]. rewrite A3. destruct (cast_as TREG h st) as [nd|e]; cbn [snd].
      * apply psim_ret. split; reflexivity.
      * apply psim_leave1; [exact HE|]. now apply Qbd_err.
  - (* opendir *) apply psim_bind. eapply psim_imp; [|exact (sim_all E HE path true)].
    intros o r r' [<- Ho]. destruct r as [[h|]|er]; subst o; [|apply psim_ret; now apply Qbd_err|apply psim_ret; now apply Qbd_err].
    destruct (snd h =? TDIR)%N; [apply psim_ret; split; reflexivity|]. apply psim_leave1; [exact HE|]. now apply Qbd_err.
  - (* close *) apply psim_look. intros rp st H1 H2 H3. cbn [fst snd]. split; [exact H1|]. assert (Hi : In id (opened st)) by (apply H2; now left).
    destruct (get st id) as [nd|] eqn:Eg; [|now elim (rr_open _ _ _ H1 _ Hi)]. split; [exact (sim_type E _ _ _ _ H1 Hi Eg)|].
    destruct (_ =? _)%N; [apply psim_leave1; [exact HE|apply Qbd_unit]|]. apply psim_ret. split; reflexivity.
  - (* truncate *) apply sim_path; [discriminate|]. intros h rp st H1 Hi.
    destruct (sim_classed h TREG (done (fun now => fo_truncate E (fst h) now len) FOUnit) (fun nd => with_data (firstn len (i_data nd ++ repeat x00 (len - length (i_data nd)))) nd) FOUnit rp st H1 Hi) with (g := match cast_as TREG h st with
      | Err e => (st, Err e)
      | Ok nd => (put st (fst h) (with_data (firstn len (i_data nd ++ repeat x00 (len - length (i_data nd)))) nd), Ok FOUnit)
      end) as (A1 & A2 & A3).
    + intros now o nd Hn' Ho Ht. destruct (ORep_truncate E HE (fst h) o nd now len Ho Hn') as (o' & E1 & Ho'); [rewrite Ht; discriminate|now apply length_olim|].
      exists o'. split; [now apply done_ok|]. now rewrite <- resize_alt.
    + intros nd. split; [reflexivity|]. split; reflexivity.
    + reflexivity.
    + split; [exact A1|]. split; [exact A2|]. rewrite A3. split; [apply same_refl_answer|]. intros x. destruct (cast_as TREG h st); discriminate.
  - (* chmod *) apply sim_path; [discriminate|]. intros h rp st H1 Hi. destruct (get st (fst h)) as [nd|] eqn:Eg; [|now elim (rr_open _ _ _ H1 _ Hi)].
    destruct (RR_there _ _ _ _ _ H1 Eg) as (y & _ & Hgn & _).
    assert (Ht : i_type (with_mode (new_mode c (i_mode nd)) nd) = i_type nd) by (unfold i_type; cbn [with_mode i_mode]; apply FullFsStep.new_mode_keep).
    destruct (RR_obj E HE (fst h) (fun now o => (fo_chattr E now c o, Ok FOUnit)) rp st nd (with_mode (new_mode c (i_mode nd)) nd) (Ok FOUnit) H1 Hi Eg) as (rp' & E3 & HR).
    + now apply (good_same _ nd).
    + reflexivity.
    + intros now o Hn' Ho. eexists. split; [reflexivity|]. apply (ORep_chattr E); [exact Ho|exact Hn'| |exact Ht].
      destruct c; exact Hs.
    + rewrite E3. cbn [fst snd]. split; [exact HR|]. split; [reflexivity|]. split; [reflexivity|discriminate].
  - (* getattr *) apply sim_path; [discriminate|]. intros h rp st H1 Hi. destruct (get st (fst h)) as [nd|] eqn:Eg; [|now elim (rr_open _ _ _ H1 _ Hi)].
    destruct (stat_ok (fst h) rp st nd H1 Hi Eg) as (A1 & s & A2 & A3). cbn [fst snd]. split; [exact A1|]. split; [reflexivity|]. rewrite A2. cbn [same_answer]. split; [auto|discriminate].
  - (* readlink *) apply sim_path; [discriminate|]. intros h rp st H1 Hi. destruct (get st (fst h)) as [nd|] eqn:Eg; [|now elim (rr_open _ _ _ H1 _ Hi)].
    destruct (RR_look E HE (fst h) (as_class TLINK (snd h) (fun now o => let '(o1, r) := fo_link_get E (fst h) now o in (o1, rmap FOBytes r))) (fun r => r = rbind (cast_as TLINK h st) (fun nd => Ok (FOBytes (i_data nd)))) rp st nd H1 Hi Eg) as (rp' & r & E3 & HR & ->).
    + intros now o Hn' Ho. rewrite (as_class_ok E TLINK h _ (fst h) nd now o Ho), (cast_cases TLINK h st nd Eg).
      destruct ((snd h =? i_type nd)%N && (snd h =? TLINK)%N) eqn:Ec; [|do 2 eexists; split; [reflexivity|]; split; [exact Ho|reflexivity]].
      apply andb_prop in Ec. destruct Ec as [E1 E2]. apply N.eqb_eq in E1. apply N.eqb_eq in E2.
      destruct (ORep_link_get E HE (fst h) o nd now Ho Hn') as (o' & E3 & Ho'); [rewrite <- E1, E2; discriminate|]. rewrite E3. eauto.
    + rewrite E3. cbn [fst snd]. split; [exact HR|]. split; [reflexivity|]. split; [apply same_refl_answer|]. intros x. destruct (cast_as TLINK h st); discriminate.
Qed.
End Ops.
