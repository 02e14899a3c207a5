(** Every operation keeps the invariant of FsConcSafe. *)
From Coq Require Import Strings.String Lia ZArith Permutation.
From Verif Require Import Base BaseLemmas TextModel NameModel BtreeModel BtreeSpec FullFsModel FullFsSpec FullFsProofs FullFsPath FullFsInv FullFsStep FsConcModel FsConcSpec FsConcProofs FsConcSafe.
Local Open Scope list_scope.

Section Ops.
Variable cmp : bytes -> bytes -> comparison.
Hypothesis Hcmp : cmp_ok cmp.
Notation safe := (safe cmp).
Notation CInv := (CInv cmp).

Lemma debt_in pos ep lost id : In id pos -> (1 <= debts (pos ++ ep) lost id)%Z.
Proof. intros H. apply occ_in in H. unfold debts. rewrite occ_app. lia. Qed.
Lemma debts_cons x pos lost id : debts (x :: pos) lost id = (debts pos lost id + ind x id)%Z.
Proof. unfold debts. rewrite !Nat2Z.inj_add, occ_ind. lia. Qed.

(** ** What adding and removing entries do *)
Definition keeps (st st' : ffs) : Prop := forall id nd, get st id = Some nd ->
  exists nd', get st' id = Some nd' /\ i_type nd' = i_type nd /\ i_nlink nd' = i_nlink nd.
Definition ffind (st : ffs) (d n : bytes) : option entry :=
  match get st d with Some nd => find_name cmp n (i_dir nd) | None => None end.
Lemma keeps_refl st : keeps st st.
Proof. intros id nd H. eauto. Qed.
Lemma keeps_put st d nd nd' : get st d = Some nd -> i_type nd' = i_type nd -> i_nlink nd' = i_nlink nd -> keeps st (put st d nd').
Proof.
  intros Hg Ht Hn id n Hi. rewrite get_put. destruct (bytes_eqb d id) eqn:E; [|eauto].
  apply bytes_eqb_eq in E. subst id. replace n with nd by congruence. eauto.
Qed.
Lemma remove_keeps h n st st' r : remove_entry cmp h n st = (st', r) -> keeps st st'.
Proof.
  unfold remove_entry, cast_as. destruct (get st (fst h)) as [nd|] eqn:Eg; [|intros [= <- <-]; apply keeps_refl].
  destruct (_ =? _)%N; [|intros [= <- <-]; apply keeps_refl]. destruct (_ =? _)%N; [|intros [= <- <-]; apply keeps_refl].
  cbn [dspec_step]. destruct (name_too_long n); [intros [= <- <-]; apply keeps_refl|]. intros [= <- <-]. now apply (keeps_put st _ nd).
Qed.
Lemma add_keeps h n x ty st st' r : add_entry cmp h n x ty st = (st', r) -> keeps st st'.
Proof.
  unfold add_entry, cast_as. destruct (get st (fst h)) as [nd|] eqn:Eg; [|intros [= <- <-]; apply keeps_refl].
  destruct (_ =? _)%N; [|intros [= <- <-]; apply keeps_refl]. destruct (_ =? _)%N; [|intros [= <- <-]; apply keeps_refl].
  cbn [dspec_step]. destruct (name_too_long n); [intros [= <- <-]; apply keeps_refl|].
  destruct (find_name cmp n (i_dir nd)); intros [= <- <-]; now apply (keeps_put st _ nd).
Qed.
Lemma remove_effect h n st st' o : remove_entry cmp h n st = (st', Ok o) ->
  o = ffind st (fst h) n /\ forall d m, ffind st' d m = if bytes_eqb (fst h) d && same_name cmp n m then None else ffind st d m.
Proof.
  unfold remove_entry, cast_as, ffind. destruct (get st (fst h)) as [nd|] eqn:Eg; [|discriminate].
  destruct (_ =? _)%N; [|discriminate]. destruct (_ =? _)%N; [|discriminate].
  cbn [dspec_step]. destruct (name_too_long n); [discriminate|]. intros [= <- <-]. split; [reflexivity|].
  intros d m. rewrite get_put. destruct (bytes_eqb (fst h) d) eqn:E; [|reflexivity]. apply bytes_eqb_eq in E. subst d. rewrite Eg. cbn [with_dir i_dir andb].
  destruct (same_name cmp n m) eqn:Em; [now apply find_drop_same|now apply find_drop_other].
Qed.
Lemma add_effect h n x ty st st' b : add_entry cmp h n x ty st = (st', Ok b) ->
  (if b then ffind st (fst h) n = None else ffind st (fst h) n <> None) /\
  forall d m, bytes_eqb (fst h) d && same_name cmp n m = false -> ffind st' d m = ffind st d m.
Proof.
  unfold add_entry, cast_as, ffind. destruct (get st (fst h)) as [nd|] eqn:Eg; [|discriminate].
  destruct (_ =? _)%N; [|discriminate]. destruct (_ =? _)%N; [|discriminate].
  cbn [dspec_step]. destruct (name_too_long n); [discriminate|].
  destruct (find_name cmp n (i_dir nd)) eqn:Ef; intros [= <- <-]; (split; [congruence|]); intros d m Hm;
    rewrite get_put; destruct (bytes_eqb (fst h) d) eqn:E; try reflexivity; apply bytes_eqb_eq in E; subst d; rewrite Eg; cbn [with_dir i_dir andb] in *;
    [reflexivity|].
  unfold find_name. cbn [find e_name]. now rewrite (same_sym _ Hcmp), Hm.
Qed.

(** ** create *)
Definition Qcreate (bad : option err) (newid : bytes) (ty : N) (r : res holder) (own : list holder) (pos : list bytes) : Prop :=
  r <> Err EUndef /\
  own = match r with Ok _ => [(newid, ty)] | _ => [] end /\ (forall h, r = Ok h -> h = (newid, ty)) /\
  (pos = [] \/ (bad = None /\ (r = Err E_PERM \/ r = Err E_NAMETOOLONG))).

Lemma type_of_new perm ty : i_type (mkInode (perm mod 512 + ty * 4096)%N 1 [] [] root_id) = ty.
Proof. unfold i_type. cbn. rewrite N.div_add by lia. rewrite N.div_small; [lia|]. pose proof (N.mod_lt perm 512). lia. Qed.

Lemma safe_create path perm ty newid bad : good_type ty -> bad <> Some EUndef ->
  safe (c_create cmp path perm ty newid bad) (Qcreate bad newid ty) [] [].
Proof.
  intros Hty Hbad. unfold c_create. apply safe_bind. eapply safe_imp; [|exact (safe_base cmp path)].
  intros r o q (-> & Hu & Ho). destruct r as [[base name]|er].
  2:{ subst o. split; [congruence|]. split; [reflexivity|]. split; [discriminate|now left]. }
  destruct Ho as (t & ->).
  apply safe_do. intros eo ep lost st Hi Hr. destruct bad as [e|].
  { cbn [fst snd]. exists [(fst base, t)], [], lost. split; [exact Hi|]. split; [reflexivity|]. apply safe_leave1.
    split; [congruence|]. split; [reflexivity|]. split; [discriminate|now left]. }
  destruct (get st newid) as [n|] eqn:Eg; cbn [fst snd].
  { exists [(fst base, t)], [], lost. split; [exact Hi|]. split; [reflexivity|]. apply safe_leave1.
    split; [discriminate|]. split; [reflexivity|]. split; [discriminate|now left]. }
  exists [(newid, ty); (fst base, t)], [newid], lost. split; [|split; [reflexivity|]].
  { pose proof (CI_new cmp _ _ st newid (mkInode (perm mod 512 + ty * 4096)%N 1 [] [] root_id) Hi Eg eq_refl eq_refl) as H.
    rewrite type_of_new in H. specialize (H Hty (debts_nonneg _ _)). eapply CI_ext; [exact H|reflexivity|]. intros id. cbn [app]. now rewrite debts_cons. }
  clear eo ep lost st Hi Hr Eg. apply safe_do. intros eo ep lost st Hi Hr.
  destruct (ci_have _ _ _ _ Hi newid ty (or_introl eq_refl)) as (nx & Eg & Et).
  destruct (add_entry cmp base name newid ty st) as [st' r] eqn:Ea. rewrite <- Et in Ea.
  pose proof (add_cases cmp _ _ st base name newid nx Hi (or_intror (or_introl eq_refl)) Eg _ _ Ea) as Hc. cbn [fst snd].
  destruct r as [[|]|e].
  - destruct Hc as [H1 _]. exists [(newid, ty); (fst base, t)], [], lost. split; [|split; [reflexivity|]].
    { eapply CI_ext; [exact H1|reflexivity|]. intros id. cbn [app]. rewrite debts_cons. lia. }
    apply safe_parent. apply safe_leave_2. split; [discriminate|]. split; [reflexivity|]. split; [congruence|now left].
  - exists [(newid, ty); (fst base, t)], [newid], lost. split; [exact Hc|split; [reflexivity|]].
    clear - Hcmp. apply safe_do. intros eo ep lost st Hi Hr. cbn [fst snd]. exists [(newid, ty); (fst base, t)], [], lost. split; [|split; [reflexivity|]].
    { eapply CI_ext; [exact (CI_down cmp _ _ st newid Hi Hr (or_introl eq_refl) (debt_in [newid] ep lost newid (or_introl eq_refl)))|reflexivity|].
      intros id. cbn [app]. rewrite debts_cons. lia. }
    eapply safe_leave2; [|reflexivity]. split; [discriminate|]. split; [reflexivity|]. split; [discriminate|now left].
  - destruct Hc as [-> He]. exists [(newid, ty); (fst base, t)], [newid], lost. split; [exact Hi|split; [reflexivity|]].
    eapply safe_leave2; [|reflexivity]. split; [intros [= ->]; now destruct He|]. split; [reflexivity|]. split; [discriminate|].
    right. split; [reflexivity|]. destruct He as [->| ->]; auto.
Qed.

(** ** All calls *)
Definition Qbody (o : fop) (r : res fout) (own : list holder) (pos : list bytes) : Prop :=
  r <> Err EUndef /\
  map fst own = match o, r with
                | _, Ok (FOId x) => [x]
                | FClose id _, Err _ => [id]
                | _, _ => []
                end /\
  (pos = [] \/ exists e, r = Err e /\ left_behind o e).
Definition not_id (r : res fout) : Prop := forall x, r <> Ok (FOId x).
Lemma Qbody_none o r : r <> Err EUndef -> (forall id d, o <> FClose id d) -> not_id r -> Qbody o r [] [].
Proof.
  intros Hu Ho Hn. split; [exact Hu|]. split; [|now left]. destruct r as [[]|]; try (now destruct o); try (now elim (Hn id)).
  destruct o; try reflexivity. now elim (Ho id dir).
Qed.
Lemma Qbody_left o e pos : e <> EUndef -> (forall id d, o <> FClose id d) -> left_behind o e -> Qbody o (Err e) [] pos.
Proof.
  intros Hu Ho Hl. split; [congruence|]. split; [|right; eauto]. destruct o; try reflexivity. now elim (Ho id dir).
Qed.

Lemma root_type own D st id nd : CI cmp own D st -> get st id = Some nd -> id = root_id -> i_type nd = TDIR.
Proof. intros H Hg ->. destruct (ci_root _ _ _ _ H) as (n & E & Ht). congruence. Qed.

Lemma safe_remove rmdir path o : (forall id d, o <> FClose id d) -> (forall e, rmdir = true -> e = E_PERM \/ e = E_NOTEMPTY -> left_behind o e) ->
  safe (c_remove cmp rmdir path) (Qbody o) [] [].
Proof.
  intros Hno Hlb. unfold c_remove. apply safe_bind. eapply safe_imp; [|exact (safe_base cmp path)].
  intros r ow q (-> & Hu & Ho). destruct r as [[base name]|er].
  2:{ subst ow. apply Qbody_none; [congruence|exact Hno|discriminate]. }
  destruct Ho as (t & ->). apply safe_do. intros eo ep lost st Hi Hr.
  destruct (remove_entry cmp base name st) as [st' r] eqn:Ea.
  pose proof (remove_cases cmp Hcmp _ _ st base name Hi (or_introl eq_refl) _ _ Ea) as Hc. cbn [fst snd].
  destruct r as [[e|]|er].
  - destruct Hc as (H1 & Hty & nd & nx & _ & Hgx & Htx). exists [(fst base, t)], [e_id e], lost. split; [|split; [reflexivity|]].
    { eapply CI_ext; [exact H1|reflexivity|]. intros id. cbn [app]. now rewrite debts_cons. }
    apply safe_open_debt; [now left|exact Hty| |].
    { intros Hx. rewrite <- Htx. exact (root_type _ _ _ _ _ H1 Hgx Hx). }
    clear - Hcmp Hno Hlb. intros t'. cbn [app]. apply safe_do. intros eo ep lost st Hi Hr.
    assert (Hd : exists own' pos' lost', CInv (own' ++ eo) (pos' ++ ep) lost' (count_down (e_id e) st) /\ (tidy st -> lost' = lost) /\
      safe (leave [e_id e; fst base] (Ok FOUnit)) (Qbody o) own' pos').
    { exists [(fst base, t); (e_id e, t')], [], lost. split; [|split; [reflexivity|]].
      - eapply CI_ext; [exact (CI_down cmp _ _ st (e_id e) Hi Hr (or_intror (or_introl eq_refl)) (debt_in [e_id e] ep lost (e_id e) (or_introl eq_refl)))|reflexivity|].
        intros id. cbn [app]. rewrite debts_cons. lia.
      - eapply safe_leave2; [|apply perm_swap]. apply Qbody_none; [discriminate|exact Hno|discriminate]. }
    destruct rmdir; [|exact Hd].
    assert (Hf : forall er, er = E_PERM \/ er = E_NOTEMPTY -> exists own' pos' lost', CInv (own' ++ eo) (pos' ++ ep) lost' st /\ (tidy st -> lost' = lost) /\
      safe (leave [e_id e; fst base] (Err er)) (Qbody o) own' pos').
    { intros er He. exists [(fst base, t); (e_id e, t')], [e_id e], lost. split; [exact Hi|split; [reflexivity|]].
      eapply safe_leave2; [|apply perm_swap]. apply Qbody_left; [destruct He as [->| ->]; discriminate|exact Hno|now apply Hlb]. }
    unfold cast_as. cbn [fst snd]. destruct (ci_have _ _ _ _ Hi (e_id e) t' (or_intror (or_introl eq_refl))) as (nx & -> & _).
    destruct (e_type e =? i_type nx)%N; [|apply Hf; now left]. destruct (e_type e =? TDIR)%N; [|apply Hf; now left].
    destruct (i_dir nx); [exact Hd|apply Hf; now right].
  - exists [(fst base, t)], [], lost. split; [exact Hc|split; [reflexivity|]]. apply safe_leave1. apply Qbody_none; [discriminate|exact Hno|discriminate].
  - destruct Hc as [-> He]. exists [(fst base, t)], [], lost. split; [exact Hi|split; [reflexivity|]]. apply safe_leave1.
    apply Qbody_none; [destruct He as [->| ->]; discriminate|exact Hno|discriminate].
Qed.

Lemma safe_link src dest : safe (c_link cmp src dest) (Qbody (FLink src dest)) [] [].
Proof.
  unfold c_link. apply safe_bind. eapply safe_imp; [|exact (safe_all cmp src true)].
  intros r ow q (-> & Hu & Ho). destruct r as [[h|]|er].
  2:{ subst ow. apply Qbody_none; discriminate. }
  2:{ subst ow. apply Qbody_none; [congruence|discriminate|discriminate]. }
  destruct Ho as (t & ->). apply safe_bind. eapply safe_imp; [|apply (safe_frame cmp _ Qbase [(fst h, t)] [] []); exact (safe_base cmp dest)].
  cbn beta. intros r ow q (o1 & -> & -> & Hu' & Ho). destruct r as [[base name]|er].
  2:{ subst o1. apply safe_leave1. apply Qbody_none; [congruence|discriminate|discriminate]. }
  destruct Ho as (t2 & ->). cbn [app]. apply safe_do. intros eo ep lost st Hi Hr.
  destruct (ci_have _ _ _ _ Hi (fst h) t (or_intror (or_introl eq_refl))) as (nd & Eg & Et).
  assert (Hd : exists st' r, link_step cmp h base name st = (st', r) /\ r <> Err EUndef /\ not_id r /\ CI cmp ((fst base, t2) :: (fst h, t) :: eo) (debts ep lost) st').
  { unfold link_step. rewrite Eg. destruct (add_entry cmp base name (fst h) (i_type nd) st) as [st' r] eqn:Ea.
    pose proof (add_cases cmp _ _ st base name (fst h) nd Hi (or_introl eq_refl) Eg _ _ Ea) as Hc.
    destruct r as [[|]|e].
    - destruct Hc as (H1 & nx & Hgx & _ & Hn). rewrite Hgx. do 2 eexists. split; [reflexivity|]. split; [discriminate|]. split; [discriminate|].
      eapply CI_ext; [exact (CI_up cmp _ _ _ (fst h) nx H1 ltac:(rewrite Hn; exact (Hr _ _ Eg)) Hgx)|reflexivity|]. intros id. cbn [app]. lia.
    - do 2 eexists. split; [reflexivity|]. split; [discriminate|]. split; [discriminate|exact Hc].
    - destruct Hc as [-> He]. do 2 eexists. split; [reflexivity|]. split; [destruct He as [->| ->]; discriminate|]. split; [discriminate|exact Hi]. }
  destruct Hd as (st' & r & -> & Hru & Hrn & Hi'). cbn [fst snd]. exists [(fst base, t2); (fst h, t)], [], lost. split; [exact Hi'|split; [reflexivity|]].
  eapply safe_leave2; [|reflexivity]. apply Qbody_none; [exact Hru|discriminate|exact Hrn].
Qed.

Lemma ind_cons2 x y ep lost id : (debts ep lost id + ind x id + ind y id)%Z = debts ([y; x] ++ ep) lost id.
Proof. cbn [app]. rewrite !debts_cons. lia. Qed.

Lemma rename_cases own ep lost st bf bt lf lt : CI cmp own (debts ep lost) st -> In (fst bf) (map fst own) -> In (fst bt) (map fst own) ->
  forall st' r, rename_step cmp bf bt lf lt st = (st', r) ->
  match r with
  | Ok None => CI cmp own (debts ep lost) st'
  | Ok (Some e) => CI cmp own (debts ([e_id e] ++ ep) lost) st' /\ good_type (e_type e) /\ (e_id e = root_id -> e_type e = TDIR)
  | Err e => e = E_NOENT /\ CI cmp own (debts ep lost) st' \/ (e = E_PERM \/ e = E_NAMETOOLONG) /\ exists pos, CI cmp own (debts (pos ++ ep) lost) st'
  end.
Proof.
  intros H Hf Ht st' r. unfold rename_step.
  destruct (remove_entry cmp bf lf st) as [st3 r3] eqn:E3. pose proof (remove_cases cmp Hcmp _ _ st bf lf H Hf _ _ E3) as H3.
  destruct r3 as [[ef|]|e].
  2:{ intros [= <- <-]. left. auto. }
  2:{ intros [= <- <-]. destruct H3 as [-> He]. right. split; [exact He|]. exists []. exact H. }
  destruct H3 as (H3 & Gf & _ & nf & _ & Hnf & Htf).
  destruct (remove_entry cmp bt lt st3) as [st4 r4] eqn:E4. pose proof (remove_cases cmp Hcmp _ _ st3 bt lt H3 Ht _ _ E4) as H4.
  destruct (remove_keeps _ _ _ _ _ E4 _ _ Hnf) as (nf4 & Hnf4 & Htf4 & _). rewrite Htf in Htf4.
  destruct (remove_effect _ _ _ _ _ E3) as [_ X3].
  destruct r4 as [[et|]|e].
  - destruct H4 as (H4 & Gt & _ & nt & _ & Hnt & Htt). destruct (remove_effect _ _ _ _ _ E4) as [Y4 X4].
    destruct (bytes_eqb (e_id ef) (e_id et)) eqn:Eid.
    + destruct (add_entry cmp bf lf (e_id ef) (e_type ef) st4) as [st5 r5] eqn:E5. rewrite <- Htf4 in E5.
      pose proof (add_cases cmp _ _ st4 bf lf (e_id ef) nf4 H4 Hf Hnf4 _ _ E5) as H5.
      destruct r5 as [[|]|e].
      * destruct H5 as [H5 _].
        destruct (add_keeps _ _ _ _ _ _ _ E5 _ _ Hnt) as (nt5 & Hnt5 & Htt5 & _). rewrite Htt in Htt5.
        destruct (add_effect _ _ _ _ _ _ _ E5) as [_ X5].
        destruct (add_entry cmp bt lt (e_id et) (e_type et) st5) as [st6 r6] eqn:E6. rewrite <- Htt5 in E6.
        pose proof (add_cases cmp _ _ st5 bt lt (e_id et) nt5 H5 Ht Hnt5 _ _ E6) as H6.
        destruct r6 as [[|]|e]; intros [= <- <-].
        -- destruct H6 as [H6 _]. eapply CI_ext; [exact H6|reflexivity|]. intros id. cbn beta. lia.
        -- exfalso. destruct (add_effect _ _ _ _ _ _ _ E6) as [Y6 _]. apply Y6. rewrite X5.
           ++ rewrite X4, bytes_eqb_refl, (same_refl _ Hcmp). reflexivity.
           ++ specialize (X3 (fst bt) lt). destruct (bytes_eqb (fst bf) (fst bt) && same_name cmp lf lt); [congruence|reflexivity].
        -- destruct H6 as [-> He]. right. split; [exact He|]. exists [e_id et]. eapply CI_ext; [exact H5|reflexivity|].
           intros id. cbn [app]. rewrite debts_cons. lia.
      * exfalso. destruct (add_effect _ _ _ _ _ _ _ E5) as [Y5 _]. apply Y5. rewrite X4.
        destruct (_ && _); [reflexivity|]. rewrite X3, bytes_eqb_refl, (same_refl _ Hcmp). reflexivity.
      * destruct H5 as [-> He]. intros [= <- <-]. right. split; [exact He|]. exists [e_id et; e_id ef]. eapply CI_ext; [exact H4|reflexivity|].
        intros id. now rewrite <- ind_cons2.
    + destruct (add_entry cmp bt lt (e_id ef) (e_type ef) st4) as [st5 r5] eqn:E5. rewrite <- Htf4 in E5.
      pose proof (add_cases cmp _ _ st4 bt lt (e_id ef) nf4 H4 Ht Hnf4 _ _ E5) as H5.
      destruct r5 as [[|]|e]; intros [= <- <-].
      * destruct H5 as [H5 _]. split; [|split; [exact Gt|]].
        -- eapply CI_ext; [exact H5|reflexivity|]. intros id. cbn [app]. rewrite debts_cons. lia.
        -- intros Hx. rewrite <- Htt. exact (root_type _ _ _ _ _ H4 Hnt Hx).
      * exfalso. destruct (add_effect _ _ _ _ _ _ _ E5) as [Y5 _]. apply Y5. rewrite X4, bytes_eqb_refl, (same_refl _ Hcmp). reflexivity.
      * destruct H5 as [-> He]. right. split; [exact He|]. exists [e_id et; e_id ef]. eapply CI_ext; [exact H4|reflexivity|].
        intros id. now rewrite <- ind_cons2.
  - destruct (remove_effect _ _ _ _ _ E4) as [Y4 X4].
    destruct (add_entry cmp bt lt (e_id ef) (e_type ef) st4) as [st5 r5] eqn:E5. rewrite <- Htf4 in E5.
    pose proof (add_cases cmp _ _ st4 bt lt (e_id ef) nf4 H4 Ht Hnf4 _ _ E5) as H5.
    destruct r5 as [[|]|e]; intros [= <- <-].
    + destruct H5 as [H5 _]. eapply CI_ext; [exact H5|reflexivity|]. intros id. cbn beta. lia.
    + exfalso. destruct (add_effect _ _ _ _ _ _ _ E5) as [Y5 _]. apply Y5. rewrite X4, bytes_eqb_refl, (same_refl _ Hcmp). reflexivity.
    + destruct H5 as [-> He]. right. split; [exact He|]. exists [e_id ef]. eapply CI_ext; [exact H4|reflexivity|].
      intros id. cbn [app]. now rewrite debts_cons.
  - intros [= <- <-]. destruct H4 as [-> He]. right. split; [exact He|]. exists [e_id ef]. eapply CI_ext; [exact H3|reflexivity|].
    intros id. cbn [app]. now rewrite debts_cons.
Qed.

Lemma safe_rename from to : safe (c_rename cmp from to) (Qbody (FRename from to)) [] [].
Proof.
  unfold c_rename. apply safe_bind. eapply safe_imp; [|exact (safe_base cmp from)].
  intros r ow q (-> & Hu & Ho). destruct r as [[bf lf]|er].
  2:{ subst ow. apply Qbody_none; [congruence|discriminate|discriminate]. }
  destruct Ho as (tf & ->). apply safe_bind. eapply safe_imp; [|apply (safe_frame cmp _ Qbase [(fst bf, tf)] [] []); exact (safe_base cmp to)].
  cbn beta. intros r ow q (o1 & -> & -> & Hu' & Ho). destruct r as [[bt lt]|er].
  2:{ subst o1. apply safe_leave1. apply Qbody_none; [congruence|discriminate|discriminate]. }
  destruct Ho as (tt' & ->). cbn [app]. apply safe_do. intros eo ep lost st Hi Hr.
  destruct (rename_step cmp bf bt lf lt st) as [st' r] eqn:Ea.
  pose proof (rename_cases _ _ _ st bf bt lf lt Hi (or_intror (or_introl eq_refl)) (or_introl eq_refl) _ _ Ea) as Hc. cbn [fst snd].
  destruct r as [[e|]|er].
  - destruct Hc as (H1 & Hty & Hroot). exists [(fst bt, tt'); (fst bf, tf)], [e_id e], lost. split; [exact H1|split; [reflexivity|]].
    apply safe_open_debt; [now left|exact Hty|exact Hroot|]. clear - Hcmp. intros t. cbn [app]. apply safe_do. intros eo ep lost st Hi Hr. cbn [fst snd].
    exists [(fst bt, tt'); (fst bf, tf); (e_id e, t)], [], lost. split; [|split; [reflexivity|]].
    + eapply CI_ext; [exact (CI_down cmp _ _ st (e_id e) Hi Hr (or_intror (or_intror (or_introl eq_refl))) (debt_in [e_id e] ep lost (e_id e) (or_introl eq_refl)))|reflexivity|].
      intros id. cbn [app]. rewrite debts_cons. lia.
    + eapply safe_leave3; [apply Qbody_none; discriminate|]. apply (Permutation_app_comm [_; _] [_]).
  - exists [(fst bt, tt'); (fst bf, tf)], [], lost. split; [exact Hc|split; [reflexivity|]]. eapply safe_leave2; [apply Qbody_none; discriminate|reflexivity].
  - destruct Hc as [[-> H1]|[He (pos & H1)]].
    + exists [(fst bt, tt'); (fst bf, tf)], [], lost. split; [exact H1|split; [reflexivity|]]. eapply safe_leave2; [apply Qbody_none; discriminate|reflexivity].
    + exists [(fst bt, tt'); (fst bf, tf)], pos, lost. split; [exact H1|split; [reflexivity|]]. eapply safe_leave2; [|reflexivity].
      apply Qbody_left; [destruct He as [->| ->]; discriminate|discriminate|exact He].
Qed.

Lemma safe_with o path follow f : (forall id d, o <> FClose id d) ->
  (forall h t own D st, CI cmp own D st -> In (fst h, t) own -> CI cmp own D (fst (f h st)) /\ snd (f h st) <> Err EUndef /\ not_id (snd (f h st))) ->
  safe (with_path cmp path follow f) (Qbody o) [] [].
Proof.
  intros Hno Hf. unfold with_path. apply safe_bind. eapply safe_imp; [|exact (safe_all cmp path follow)].
  intros r ow q (-> & Hu & Ho). destruct r as [[h|]|er].
  - destruct Ho as (t & ->). apply safe_keep. intros eo D st Hi. destruct (Hf h t _ _ _ Hi (or_introl eq_refl)) as (H1 & H2 & H3).
    split; [exact H1|]. apply safe_leave1. now apply Qbody_none.
  - subst ow. apply Qbody_none; [discriminate|exact Hno|discriminate].
  - subst ow. apply Qbody_none; [congruence|exact Hno|discriminate].
Qed.
Lemma CI_cast own D st h t want : CI cmp own D st -> In (fst h, t) own ->
  match cast_as want h st with Ok nd => get st (fst h) = Some nd | Err e => e <> EUndef end.
Proof.
  intros H Hi. unfold cast_as. destruct (ci_have _ _ _ _ H _ _ Hi) as (nd & -> & _).
  destruct (_ =? _)%N; [|discriminate]. destruct (_ =? _)%N; [reflexivity|discriminate].
Qed.

Definition starts (o : fop) (own : list holder) : Prop :=
  match o with FClose id _ => exists t, own = [(id, t)] | _ => own = [] end.
Definition no_io (o : fop) : Prop :=
  match o with
  | FRead _ | FWrite _ _ | FReaddir _ | FEvict _ => False
  | FCreate _ _ _ bad | FMkdir _ _ _ bad | FSymlink _ _ _ bad => bad <> Some EUndef
  | _ => True
  end.

Lemma safe_body o own : no_io o -> starts o own -> safe (body cmp o) (Qbody o) own [].
Proof.
  destruct o; cbn [no_io starts]; intros Hn Hs; try contradiction; try (subst own); cbn [body].
  - (* create *) apply safe_bind. eapply safe_imp; [|exact (safe_create path perm TREG newid bad (or_introl eq_refl) Hn)].
    intros r ow q (Hu & -> & Hh & Hq). destruct r as [h|e].
    + rewrite (Hh h eq_refl). split; [discriminate|]. split; [reflexivity|]. left. destruct Hq as [?|[_ [?|?]]]; [assumption|discriminate|discriminate].
    + split; [congruence|]. split; [reflexivity|]. destruct Hq as [?|[-> Hq]]; [now left|]. right. exists e. split; [reflexivity|].
      destruct Hq as [[= ->]|[= ->]]; cbn; auto.
  - (* mkdir *) apply safe_bind. eapply safe_imp; [|exact (safe_create path perm TDIR newid bad (or_intror (or_introl eq_refl)) Hn)].
    intros r ow q (Hu & -> & Hh & Hq). destruct r as [h|e].
    + rewrite (Hh h eq_refl). cbn [fst]. destruct Hq as [->|[_ [?|?]]]; [|discriminate|discriminate]. apply safe_leave1. apply Qbody_none; discriminate.
    + split; [congruence|]. split; [reflexivity|]. destruct Hq as [?|[-> Hq]]; [now left|]. right. exists e. split; [reflexivity|].
      destruct Hq as [[= ->]|[= ->]]; cbn; auto.
  - (* symlink *) apply safe_bind. eapply safe_imp; [|exact (safe_create path 420 TLINK newid bad (or_intror (or_intror eq_refl)) Hn)].
    intros r ow q (Hu & -> & Hh & Hq). destruct r as [h|e].
    + rewrite (Hh h eq_refl). destruct Hq as [->|[_ [?|?]]]; [|discriminate|discriminate].
      apply safe_keep. intros eo D st Hi. pose proof (CI_cast _ _ _ (newid, TLINK) TLINK TLINK Hi (or_introl eq_refl)) as Hc.
      destruct (cast_as TLINK (newid, TLINK) st) as [nd|e]; cbn [fst snd].
      * split; [now apply (CI_same cmp _ _ _ newid nd)|]. apply safe_leave1. apply Qbody_none; discriminate.
      * split; [exact Hi|]. apply safe_leave1. apply Qbody_none; [congruence|discriminate|discriminate].
    + split; [congruence|]. split; [reflexivity|]. destruct Hq as [?|[-> Hq]]; [now left|]. right. exists e. split; [reflexivity|].
      destruct Hq as [[= ->]|[= ->]]; cbn; auto.
  - apply safe_link.
  - apply safe_remove; [discriminate|discriminate].
  - apply safe_remove; [discriminate|]. cbn. auto.
  - apply safe_rename.
  - (* open *) apply safe_bind. eapply safe_imp; [|exact (safe_all cmp path true)].
    intros r ow q (-> & Hu & Ho). destruct r as [[h|]|er].
    + destruct Ho as (t & ->). assert (Hq : Qbody (FOpen path trunc) (Ok (FOId (fst h))) [(fst h, t)] []).
      { split; [discriminate|]. split; [reflexivity|now left]. }
      destruct trunc; [|exact Hq]. apply safe_keep. intros eo D st Hi.
      pose proof (CI_cast _ _ _ h t TREG Hi (or_introl eq_refl)) as Hc. destruct (cast_as TREG h st) as [nd|e]; cbn [fst snd].
      * split; [now apply (CI_same cmp _ _ _ (fst h) nd)|exact Hq].
      * split; [exact Hi|]. apply safe_leave1. apply Qbody_none; [congruence|discriminate|discriminate].
    + subst ow. apply Qbody_none; discriminate.
    + subst ow. apply Qbody_none; [congruence|discriminate|discriminate].
  - (* opendir *) apply safe_bind. eapply safe_imp; [|exact (safe_all cmp path true)].
    intros r ow q (-> & Hu & Ho). destruct r as [[h|]|er].
    + destruct Ho as (t & ->). destruct (_ =? _)%N.
      * split; [discriminate|]. split; [reflexivity|now left].
      * apply safe_leave1. apply Qbody_none; discriminate.
    + subst ow. apply Qbody_none; discriminate.
    + subst ow. apply Qbody_none; [congruence|discriminate|discriminate].
  - (* close *) destruct Hs as (t & ->). apply safe_ask. intros eo D st Hi.
    destruct (ci_have _ _ _ _ Hi id t (or_introl eq_refl)) as (nd & -> & _). destruct (_ =? _)%N.
    + apply safe_leave1. split; [discriminate|]. split; [reflexivity|now left].
    + split; [now destruct dir|]. split; [now destruct dir|now left].
  - (* truncate *) apply safe_with; [discriminate|]. intros h t own D st Hi Hin. pose proof (CI_cast _ _ _ h t TREG Hi Hin) as Hc.
    destruct (cast_as TREG h st) as [nd|e]; cbn [fst snd].
    + split; [now apply (CI_same cmp _ _ _ (fst h) nd)|]. split; discriminate.
    + split; [exact Hi|]. split; [congruence|discriminate].
  - (* chmod *) apply safe_with; [discriminate|]. intros h t own D st Hi Hin. destruct (ci_have _ _ _ _ Hi _ _ Hin) as (nd & Eg & _). rewrite Eg. cbn [fst snd].
    split; [|split; discriminate]. apply (CI_same cmp _ _ _ (fst h) nd); auto. unfold i_type. cbn [with_mode i_mode].
    apply FullFsStep.new_mode_keep.
  - (* getattr *) apply safe_with; [discriminate|]. intros h t own D st Hi Hin. destruct (ci_have _ _ _ _ Hi _ _ Hin) as (nd & Eg & _). rewrite Eg. cbn [fst snd].
    split; [exact Hi|]. split; discriminate.
  - (* readlink *) apply safe_with; [discriminate|]. intros h t own D st Hi Hin. pose proof (CI_cast _ _ _ h t TLINK Hi Hin) as Hc. cbn [fst snd].
    split; [exact Hi|]. destruct (cast_as TLINK h st) as [nd|e]; cbn [rbind]; split; congruence.
Qed.
End Ops.
