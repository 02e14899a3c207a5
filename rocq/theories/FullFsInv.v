(** Each step on directories and counts keeps the accounts. *)
From Coq Require Import Strings.String Lia.
From Verif Require Import Base BaseLemmas TextModel NameModel BtreeModel BtreeSpec FullFsModel FullFsSpec FullFsProofs FullFsPath.
Local Open Scope list_scope.

Lemma in_nput x nd d nd' l : In (x, nd) (nput d nd' l) -> (x = d /\ nd = nd') \/ In (x, nd) l.
Proof.
  induction l as [|[i n] l IH]; cbn [nput].
  - intros [[= <- <-]|[]]. now left.
  - destruct (bytes_eqb i d) eqn:E.
    + intros [[= <- <-]|H]; [now left|right; now right].
    + intros [[= <- <-]|H]; [right; now left|]. destruct (IH H) as [|H']; [now left|right; now right].
Qed.
Lemma entries_put st d nd e : In e (all_entries (put st d nd)) -> In e (i_dir nd) \/ In e (all_entries st).
Proof.
  intros H. apply in_ent_of in H. destruct H as (x & n & Hi & He). cbn [put nodes] in Hi.
  apply in_nput in Hi. destruct Hi as [[-> ->]|Hi]; [now left|]. right. apply in_ent_of. eauto.
Qed.
Lemma refs_put st d nd nd' id : NoDup (map fst (nodes st)) -> get st d = Some nd ->
  refs (put st d nd') id + cnt id (i_dir nd) = refs st id + cnt id (i_dir nd').
Proof. intros Hn Hg. rewrite !refs_cnt. cbn [put nodes]. now apply cnt_put. Qed.
Lemma refs_put_same st d nd nd' id : NoDup (map fst (nodes st)) -> get st d = Some nd -> i_dir nd' = i_dir nd ->
  refs (put st d nd') id = refs st id.
Proof. intros Hn Hg E. pose proof (refs_put st d nd nd' id Hn Hg). rewrite E in H. lia. Qed.

Definition size (st : ffs) : nat := length (all_entries st).
Lemma size_put st d nd nd' : NoDup (map fst (nodes st)) -> get st d = Some nd ->
  size (put st d nd') + length (i_dir nd) = size st + length (i_dir nd').
Proof. intros Hn Hg. unfold size, all_entries. cbn [put nodes]. now apply len_put. Qed.
Lemma refs_size st id : refs st id <= size st.
Proof. unfold refs, size. induction (all_entries st) as [|e l IH]; cbn [filter length]; [lia|]. destruct (bytes_eqb (e_id e) id); cbn [length]; lia. Qed.
Lemma sf_size st st' : same_files st st' -> size st = size st'.
Proof. intros H. unfold size. now rewrite (sf_entries _ _ H). Qed.

Ltac ands := repeat match goal with |- _ /\ _ => split end.

Section Inv.
Variable cmp : bytes -> bytes -> comparison.
Hypothesis Hcmp : cmp_ok cmp.

(** ** remove_entry *)
Lemma drop_Inv pos neg st d nd n e : Inv cmp pos neg st -> get st d = Some nd -> find_name cmp n (i_dir nd) = Some e ->
  Inv cmp (e_id e :: pos) neg (put st d (with_dir (drop_name cmp n (i_dir nd)) nd)).
Proof.
  intros Hv Hg Hf. set (st' := put _ _ _).
  destruct (find_entry cmp _ _ _ _ _ Hg Hf) as [Hall Hcon].
  destruct (open_entry cmp _ _ _ _ Hv Hall) as (_ & (ne & Hne & Hte) & Hner). cbn [fst snd] in Hne, Hte.
  pose proof (iv_names _ _ _ _ Hv _ _ Hg) as Hdist.
  assert (R : forall id, refs st' id + (if bytes_eqb (e_id e) id then 1 else 0) = refs st id).
  { intros id. pose proof (refs_put st d nd (with_dir (drop_name cmp n (i_dir nd)) nd) id (iv_ids _ _ _ _ Hv) Hg) as H. fold st' in H.
    cbn [with_dir i_dir] in H. destruct (cnt_drop cmp Hcmp n (i_dir nd) e id Hdist Hf) as [C _]. lia. }
  assert (O : forall id, occ id (e_id e :: pos) = (if bytes_eqb (e_id e) id then 1 else 0) + occ id pos).
  { intros id. rewrite occ_cons. destruct (bytes_eqb (e_id e) id) eqn:E1, (bytes_eqb id (e_id e)) eqn:E2; try reflexivity.
    - apply bytes_eqb_eq in E1. apply bytes_eqb_neq in E2. congruence.
    - apply bytes_eqb_neq in E1. apply bytes_eqb_eq in E2. congruence. }
  assert (G : forall id nd', get st' id = Some nd' -> exists nd0, get st id = Some nd0 /\ i_type nd' = i_type nd0 /\ i_nlink nd' = i_nlink nd0 /\
     i_parent nd' = i_parent nd0 /\ ((id = d /\ i_dir nd' = drop_name cmp n (i_dir nd0)) \/ i_dir nd' = i_dir nd0)).
  { intros id nd'. unfold st'. rewrite get_put. destruct (bytes_eqb d id) eqn:E.
    - apply bytes_eqb_eq in E. subst id. intros [= <-]. exists nd. repeat split; try assumption. now left.
    - intros H. exists nd'. repeat split; try assumption. now right. }
  assert (X : forall id, get st id <> None -> get st' id <> None).
  { intros id. unfold st'. rewrite get_put. destruct (bytes_eqb d id); [discriminate|auto]. }
  constructor.
  - apply nput_nodup. apply (iv_ids _ _ _ _ Hv).
  - destruct (iv_root _ _ _ _ Hv) as (nr & Hr & Htr & Hpr). destruct (get st' root_id) as [nr'|] eqn:Er; [|now elim (X root_id); [congruence|]].
    exists nr'. destruct (G _ _ Er) as (nd0 & H0 & Ht & _ & Hp & _). assert (nd0 = nr) by congruence. subst.
    repeat split; congruence.
  - destruct (iv_rootref _ _ _ _ Hv) as [H1 H2]. split; [specialize (R root_id); lia|]. intros [E|E]; [now elim Hner|contradiction].
  - intros id nd' Hg'. destruct (G _ _ Hg') as (nd0 & H0 & _ & -> & _). pose proof (iv_nlink _ _ _ _ Hv id nd0 H0) as H.
    rewrite H. rewrite O. specialize (R id). f_equal. lia.
  - intros x Hx. assert (Hx' : In x (all_entries st)).
    { apply entries_put in Hx. destruct Hx as [Hx|Hx]; [|exact Hx]. cbn [with_dir i_dir] in Hx. apply drop_in in Hx.
      apply in_ent_of. exists d, nd. split; [now apply nget_in|tauto]. }
    destruct (iv_entries _ _ _ _ Hv x Hx') as (nx & Hgx & Htx). destruct (get st' (e_id x)) as [nx'|] eqn:Ex; [|now elim (X (e_id x)); [congruence|]].
    exists nx'. split; [reflexivity|]. destruct (G _ _ Ex) as (nd0 & H0 & Ht & _). congruence.
  - intros id [<-|Hi]; apply X; [congruence|now apply (iv_pos _ _ _ _ Hv)].
  - intros id Hi. apply X. now apply (iv_opened _ _ _ _ Hv).
  - intros id nd' Hg'. destruct (G _ _ Hg') as (nd0 & H0 & _). destruct (iv_garbage _ _ _ _ Hv id nd0 H0) as [H|[H|[H|H]]].
    + now left.
    + specialize (R id). destruct (bytes_eqb (e_id e) id) eqn:E.
      * apply bytes_eqb_eq in E. right. right. right. now left.
      * right. left. lia.
    + right. right. now left.
    + right. right. right. now right.
  - intros id nd' Hg' Ht'. destruct (G _ _ Hg') as (nd0 & H0 & Ht & _).
    pose proof (iv_once _ _ _ _ Hv id nd0 H0 ltac:(congruence)) as H. rewrite O. specialize (R id). lia.
  - intros id nd' Hg' Hd. destruct (G _ _ Hg') as (nd0 & H0 & Ht & _ & _ & Hdir). rewrite Ht. apply (iv_dironly _ _ _ _ Hv id nd0 H0).
    destruct Hdir as [[-> Hdir]|Hdir]; [|congruence]. intros E. rewrite E in Hdir. now cbn in Hdir.
  - intros id nd' Hg'. destruct (G _ _ Hg') as (nd0 & H0 & _ & _ & _ & [[-> ->]| ->]).
    + apply (drop_distinct cmp). now apply (iv_names _ _ _ _ Hv d).
    + now apply (iv_names _ _ _ _ Hv id).
  - intros id nd' Hg' Hr Hz Hp. destruct (G _ _ Hg') as (nd0 & H0 & _ & _ & _ & Hdir).
    assert (Hz0 : i_dir nd0 = []).
    { apply (iv_unlinked _ _ _ _ Hv id nd0 H0 Hr).
      - specialize (R id). destruct (bytes_eqb (e_id e) id) eqn:E; [|lia]. apply bytes_eqb_eq in E. elim Hp. now left.
      - intros Hi. apply Hp. now right. }
    rewrite Hz0 in Hdir. destruct Hdir as [[_ ->]| ->]; reflexivity.
  - intros id nd' Hg'. destruct (G _ _ Hg') as (nd0 & H0 & -> & _). now apply (iv_types _ _ _ _ Hv id).
Qed.

Lemma remove_entry_ok pos neg st h n : Inv cmp pos neg st -> on st h ->
  forall st' r, remove_entry cmp h n st = (st', r) ->
  match r with
  | Err e => e <> EUndef /\ st' = st /\ ((snd h <> TDIR /\ e = E_PERM) \/ (snd h = TDIR /\ length n > 255 /\ e = E_NAMETOOLONG))
  | Ok None => same_files st st' /\ Inv cmp pos neg st' /\ snd h = TDIR /\ length n <= 255 /\ name_in cmp st (fst h) n = None
  | Ok (Some e) => exists nd, snd h = TDIR /\ length n <= 255 /\ get st (fst h) = Some nd /\ find_name cmp n (i_dir nd) = Some e /\
      st' = put st (fst h) (with_dir (drop_name cmp n (i_dir nd)) nd) /\ Inv cmp (e_id e :: pos) neg st' /\ size st' + 1 = size st
  end.
Proof.
  intros Hv (nd & Hg & Ht) st' r. unfold remove_entry, cast_as. rewrite Hg, Ht, N.eqb_refl.
  destruct (snd h =? TDIR)%N eqn:E; [|intros [= <- <-]; apply N.eqb_neq in E; split; [discriminate|auto]]. apply N.eqb_eq in E.
  cbn [dspec_step]. destruct (name_too_long n) eqn:El.
  { intros [= <- <-]. split; [discriminate|]. split; [reflexivity|]. right. unfold name_too_long in El. apply Nat.ltb_lt in El. split; [exact E|]. split; [exact El|reflexivity]. }
  apply long_iff in El. intros [= <- <-]. destruct (find_name cmp n (i_dir nd)) as [e|] eqn:Ef.
  - exists nd. ands; try assumption; try reflexivity.
    + now apply drop_Inv.
    + pose proof (size_put st (fst h) nd (with_dir (drop_name cmp n (i_dir nd)) nd) (iv_ids _ _ _ _ Hv) Hg) as H.
      cbn [with_dir i_dir] in H. destruct (cnt_drop cmp Hcmp n (i_dir nd) e [] (iv_names _ _ _ _ Hv _ _ Hg) Ef) as [_ C]. lia.
  - rewrite (drop_id _ _ _ Ef). assert (Es : with_dir (i_dir nd) nd = nd) by (destruct nd; reflexivity). rewrite Es.
    assert (Hs : same_files st (put st (fst h) nd)) by (eapply sf_put; [exact Hg|reflexivity]).
    split; [exact Hs|]. split; [|repeat split; try assumption; now rewrite find_name_in, Hg, Ef].
    apply (Inv_sf cmp pos neg st); [exact Hv|exact Hs|]. destruct (iv_root _ _ _ _ Hv) as (nr & Hr & _ & Hp).
    rewrite get_put. destruct (bytes_eqb (fst h) root_id) eqn:Eb; [|eauto]. apply bytes_eqb_eq in Eb. rewrite Eb in Hg. exists nd. split; congruence.
Qed.

(** ** add_entry *)
Lemma add_Inv pos neg st d nd n x nx : Inv cmp (x :: pos) neg st -> get st d = Some nd -> i_type nd = TDIR ->
  d = root_id \/ refs st d > 0 \/ In d (x :: pos) -> get st x = Some nx -> find_name cmp n (i_dir nd) = None ->
  Inv cmp pos neg (put st d (with_dir (mkEntry n x (i_type nx) :: i_dir nd) nd)).
Proof.
  intros Hv Hg Htd Hlink Hx Hf. set (st' := put _ _ _).
  assert (Hxr : x <> root_id) by (intros ->; apply (iv_rootref _ _ _ _ Hv); now left).
  assert (R : forall id, refs st' id = refs st id + (if bytes_eqb x id then 1 else 0)).
  { intros id. pose proof (refs_put st d nd (with_dir (mkEntry n x (i_type nx) :: i_dir nd) nd) id (iv_ids _ _ _ _ Hv) Hg) as H. fold st' in H.
    cbn [with_dir i_dir] in H. rewrite cnt_cons in H. cbn [e_id] in H. lia. }
  assert (O : forall id, occ id (x :: pos) = (if bytes_eqb x id then 1 else 0) + occ id pos).
  { intros id. rewrite occ_cons. destruct (bytes_eqb x id) eqn:E1, (bytes_eqb id x) eqn:E2; try reflexivity.
    - apply bytes_eqb_eq in E1. apply bytes_eqb_neq in E2. congruence.
    - apply bytes_eqb_neq in E1. apply bytes_eqb_eq in E2. congruence. }
  assert (G : forall id nd', get st' id = Some nd' -> exists nd0, get st id = Some nd0 /\ i_type nd' = i_type nd0 /\ i_nlink nd' = i_nlink nd0 /\
     i_parent nd' = i_parent nd0 /\ ((id = d /\ i_dir nd' = mkEntry n x (i_type nx) :: i_dir nd0) \/ (id <> d /\ i_dir nd' = i_dir nd0))).
  { intros id nd'. unfold st'. rewrite get_put. destruct (bytes_eqb d id) eqn:E.
    - apply bytes_eqb_eq in E. subst id. intros [= <-]. exists nd. repeat split; try assumption. now left.
    - intros H. apply bytes_eqb_neq in E. exists nd'. repeat split; try assumption. right. auto. }
  assert (X : forall id, get st id <> None -> get st' id <> None).
  { intros id. unfold st'. rewrite get_put. destruct (bytes_eqb d id); [discriminate|auto]. }
  constructor.
  - apply nput_nodup. apply (iv_ids _ _ _ _ Hv).
  - destruct (iv_root _ _ _ _ Hv) as (nr & Hr & Htr & Hpr). destruct (get st' root_id) as [nr'|] eqn:Er; [|now elim (X root_id); [congruence|]].
    exists nr'. destruct (G _ _ Er) as (nd0 & H0 & Ht & _ & Hp & _). assert (nd0 = nr) by congruence. subst.
    repeat split; congruence.
  - destruct (iv_rootref _ _ _ _ Hv) as [H1 H2]. split.
    + rewrite R. assert (bytes_eqb x root_id = false) as -> by now apply bytes_eqb_neq. lia.
    + intros Hi. apply H2. now right.
  - intros id nd' Hg'. destruct (G _ _ Hg') as (nd0 & H0 & _ & -> & _). pose proof (iv_nlink _ _ _ _ Hv id nd0 H0) as H.
    rewrite H. rewrite O. rewrite (R id). f_equal. lia.
  - intros y Hy. apply entries_put in Hy. cbn [with_dir i_dir In] in Hy.
    assert (Hy' : (e_id y = x /\ e_type y = i_type nx) \/ In y (all_entries st)).
    { destruct Hy as [[<-|Hy]|Hy]; [left; auto| |now right]. right. apply in_ent_of. exists d, nd. split; [now apply nget_in|exact Hy]. }
    assert (Hgy : exists ny, get st (e_id y) = Some ny /\ i_type ny = e_type y).
    { destruct Hy' as [[E1 E2]|Hy']; [|now apply (iv_entries _ _ _ _ Hv)]. exists nx. rewrite E1, E2. auto. }
    destruct Hgy as (ny & Hgy & Hty). destruct (get st' (e_id y)) as [ny'|] eqn:Ey; [|now elim (X (e_id y)); [congruence|]].
    exists ny'. split; [reflexivity|]. destruct (G _ _ Ey) as (nd0 & H0 & Ht & _). congruence.
  - intros id Hi. apply X. apply (iv_pos _ _ _ _ Hv). now right.
  - intros id Hi. apply X. now apply (iv_opened _ _ _ _ Hv).
  - intros id nd' Hg'. destruct (G _ _ Hg') as (nd0 & H0 & _). rewrite (R id). destruct (iv_garbage _ _ _ _ Hv id nd0 H0) as [H|[H|[H|[H|H]]]].
    + now left.
    + right. left. lia.
    + right. right. now left.
    + right. left. subst id. rewrite bytes_eqb_refl. lia.
    + right. right. now right.
  - intros id nd' Hg' Ht'. destruct (G _ _ Hg') as (nd0 & H0 & Ht & _).
    pose proof (iv_once _ _ _ _ Hv id nd0 H0 ltac:(congruence)) as H. rewrite O in H. rewrite (R id). lia.
  - intros id nd' Hg' Hd. destruct (G _ _ Hg') as (nd0 & H0 & Ht & _ & _ & Hdir). rewrite Ht.
    destruct Hdir as [[-> Hdir]|[_ Hdir]]; [congruence|]. apply (iv_dironly _ _ _ _ Hv id nd0 H0). congruence.
  - intros id nd' Hg'. destruct (G _ _ Hg') as (nd0 & H0 & _ & _ & _ & [[-> ->]|[_ ->]]).
    + assert (nd0 = nd) by congruence. subst nd0. cbn [names_distinct e_name]. split; [exact Hf|]. now apply (iv_names _ _ _ _ Hv d).
    + now apply (iv_names _ _ _ _ Hv id).
  - intros id nd' Hg' Hr Hz Hp. destruct (G _ _ Hg') as (nd0 & H0 & _ & _ & _ & Hdir).
    rewrite R in Hz. assert (Hxi : x <> id). { intros ->. rewrite bytes_eqb_refl in Hz. lia. }
    assert (Hz0 : refs st id = 0) by lia.
    assert (Hnp : ~ In id (x :: pos)) by (intros [E|E]; auto).
    destruct Hdir as [[-> _]|[_ ->]]; [|now apply (iv_unlinked _ _ _ _ Hv id nd0 H0 Hr Hz0)].
    destruct Hlink as [->|[Hl|Hl]]; [congruence|lia|contradiction].
  - intros id nd' Hg'. destruct (G _ _ Hg') as (nd0 & H0 & -> & _). now apply (iv_types _ _ _ _ Hv id).
Qed.

Lemma add_entry_ok pos neg st h n x nx : Inv cmp (x :: pos) neg st -> on st h ->
  fst h = root_id \/ refs st (fst h) > 0 \/ In (fst h) (x :: pos) -> get st x = Some nx ->
  forall st' r, add_entry cmp h n x (i_type nx) st = (st', r) ->
  match r with
  | Err e => e <> EUndef /\ st' = st /\ ((snd h <> TDIR /\ e = E_PERM) \/ (snd h = TDIR /\ length n > 255 /\ e = E_NAMETOOLONG))
  | Ok false => same_files st st' /\ Inv cmp (x :: pos) neg st' /\ snd h = TDIR /\ length n <= 255 /\ name_in cmp st (fst h) n <> None
  | Ok true => exists nd, snd h = TDIR /\ length n <= 255 /\ get st (fst h) = Some nd /\ find_name cmp n (i_dir nd) = None /\
      st' = put st (fst h) (with_dir (mkEntry n x (i_type nx) :: i_dir nd) nd) /\ Inv cmp pos neg st' /\ size st' = size st + 1
  end.
Proof.
  intros Hv (nd & Hg & Ht) Hlink Hx st' r. unfold add_entry, cast_as. rewrite Hg, Ht, N.eqb_refl.
  destruct (snd h =? TDIR)%N eqn:E; [|intros [= <- <-]; apply N.eqb_neq in E; split; [discriminate|auto]]. apply N.eqb_eq in E.
  cbn [dspec_step]. destruct (name_too_long n) eqn:El.
  { intros [= <- <-]. split; [discriminate|]. split; [reflexivity|]. right. unfold name_too_long in El. apply Nat.ltb_lt in El. split; [exact E|]. split; [exact El|reflexivity]. }
  apply long_iff in El. destruct (find_name cmp n (i_dir nd)) as [e|] eqn:Ef; intros [= <- <-].
  - assert (Es : with_dir (i_dir nd) nd = nd) by (destruct nd; reflexivity). rewrite Es.
    assert (Hs : same_files st (put st (fst h) nd)) by (eapply sf_put; [exact Hg|reflexivity]).
    split; [exact Hs|]. split; [|repeat split; try assumption; now rewrite find_name_in, Hg, Ef].
    apply (Inv_sf cmp (x :: pos) neg st); [exact Hv|exact Hs|]. destruct (iv_root _ _ _ _ Hv) as (nr & Hr & _ & Hp).
    rewrite get_put. destruct (bytes_eqb (fst h) root_id) eqn:Eb; [|eauto]. apply bytes_eqb_eq in Eb. rewrite Eb in Hg. exists nd. split; congruence.
  - exists nd. ands; try assumption; try reflexivity.
    + apply add_Inv; try assumption. congruence.
    + pose proof (size_put st (fst h) nd (with_dir (mkEntry n x (i_type nx) :: i_dir nd) nd) (iv_ids _ _ _ _ Hv) Hg) as H.
      cbn [with_dir i_dir length] in H. lia.
Qed.

(** ** Changing a file without touching directories *)
Lemma keep_Inv pos neg pos' neg' st x nx nx' : Inv cmp pos neg st -> get st x = Some nx ->
  i_type nx' = i_type nx -> i_dir nx' = i_dir nx -> i_parent nx' = i_parent nx ->
  (i_nlink nx' + N.of_nat (occ x neg') = N.of_nat (refs st x + root_bonus x + occ x pos'))%N ->
  (forall id, id <> x -> occ id pos' = occ id pos /\ occ id neg' = occ id neg) ->
  (i_type nx = TDIR -> refs st x + occ x pos' <= 1) ->
  (occ x pos > 0 -> x = root_id \/ refs st x > 0 \/ In x (opened st) \/ occ x pos' > 0) ->
  (x <> root_id -> refs st x = 0 -> occ x pos' = 0 -> i_dir nx = []) ->
  ~ In root_id pos' ->
  Inv cmp pos' neg' (put st x nx').
Proof.
  intros Hv Hx Et Ed Ep Hnl Hoth Honce Hgarb Hunl Hrp. set (st' := put _ _ _).
  assert (R : forall id, refs st' id = refs st id) by (intros id; eapply refs_put_same; [apply (iv_ids _ _ _ _ Hv)|exact Hx|exact Ed]).
  assert (G : forall id nd', get st' id = Some nd' -> exists nd0, get st id = Some nd0 /\ i_type nd' = i_type nd0 /\ i_dir nd' = i_dir nd0 /\ i_parent nd' = i_parent nd0 /\
     ((id = x /\ nd' = nx') \/ (id <> x /\ nd' = nd0))).
  { intros id nd'. unfold st'. rewrite get_put. destruct (bytes_eqb x id) eqn:E.
    - apply bytes_eqb_eq in E. subst id. intros [= <-]. exists nx. repeat split; try assumption. now left.
    - intros H. apply bytes_eqb_neq in E. exists nd'. repeat split; try assumption. right. auto. }
  assert (X : forall id, get st id <> None -> get st' id <> None).
  { intros id. unfold st'. rewrite get_put. destruct (bytes_eqb x id); [discriminate|auto]. }
  assert (P : forall id, id <> x -> (In id pos <-> In id pos')).
  { intros id Hne. rewrite !occ_in. destruct (Hoth id Hne). lia. }
  constructor.
  - apply nput_nodup. apply (iv_ids _ _ _ _ Hv).
  - destruct (iv_root _ _ _ _ Hv) as (nr & Hr & Htr & Hpr). destruct (get st' root_id) as [nr'|] eqn:Er; [|now elim (X root_id); [congruence|]].
    exists nr'. destruct (G _ _ Er) as (nd0 & H0 & Ht & _ & Hp & _). assert (nd0 = nr) by congruence. subst.
    repeat split; congruence.
  - rewrite R. split; [apply (iv_rootref _ _ _ _ Hv)|exact Hrp].
  - intros id nd' Hg'. rewrite R. destruct (G _ _ Hg') as (nd0 & H0 & _ & _ & _ & [[-> ->]|[Hne ->]]); [exact Hnl|].
    destruct (Hoth id Hne) as [-> ->]. now apply (iv_nlink _ _ _ _ Hv).
  - intros y Hy. assert (Hy' : In y (all_entries st)).
    { apply entries_put in Hy. destruct Hy as [Hy|Hy]; [|exact Hy]. rewrite Ed in Hy. apply in_ent_of. exists x, nx. split; [now apply nget_in|exact Hy]. }
    destruct (iv_entries _ _ _ _ Hv y Hy') as (ny & Hgy & Hty). destruct (get st' (e_id y)) as [ny'|] eqn:Ey; [|now elim (X (e_id y)); [congruence|]].
    exists ny'. split; [reflexivity|]. destruct (G _ _ Ey) as (nd0 & H0 & Ht & _). congruence.
  - intros id Hi. apply X. destruct (list_eq_dec Byte.byte_eq_dec id x) as [->|Hne]; [congruence|]. apply (iv_pos _ _ _ _ Hv). now apply P.
  - intros id Hi. apply X. now apply (iv_opened _ _ _ _ Hv).
  - intros id nd' Hg'. rewrite R. destruct (G _ _ Hg') as (nd0 & H0 & _). destruct (iv_garbage _ _ _ _ Hv id nd0 H0) as [H|[H|[H|H]]].
    + now left.
    + right. now left.
    + right. right. now left.
    + destruct (list_eq_dec Byte.byte_eq_dec id x) as [->|Hne].
      * apply occ_in in H. destruct (Hgarb H) as [E|[E|[E|E]]]; [now left|right; now left|right; right; now left|].
        right. right. right. now apply occ_in.
      * right. right. right. now apply P.
  - intros id nd' Hg' Ht'. rewrite R. destruct (G _ _ Hg') as (nd0 & H0 & Ht & _ & _ & [[-> ->]|[Hne ->]]).
    + apply Honce. congruence.
    + destruct (Hoth id Hne) as [-> _]. apply (iv_once _ _ _ _ Hv id nd0 H0). congruence.
  - intros id nd' Hg' Hd. destruct (G _ _ Hg') as (nd0 & H0 & Ht & Hdir & _). rewrite Ht. apply (iv_dironly _ _ _ _ Hv id nd0 H0). congruence.
  - intros id nd' Hg'. destruct (G _ _ Hg') as (nd0 & H0 & _ & -> & _). now apply (iv_names _ _ _ _ Hv id).
  - intros id nd' Hg' Hr Hz Hp. rewrite R in Hz. destruct (G _ _ Hg') as (nd0 & H0 & _ & Hdir & _ & [[-> ->]|[Hne ->]]).
    + rewrite Hdir. assert (nd0 = nx) by congruence. subst. apply Hunl; try assumption. rewrite occ_in in Hp. lia.
    + apply (iv_unlinked _ _ _ _ Hv id nd0 H0 Hr Hz). intros Hi. apply Hp. now apply P.
  - intros id nd' Hg'. destruct (G _ _ Hg') as (nd0 & H0 & -> & _). now apply (iv_types _ _ _ _ Hv id).
Qed.
Lemma data_Inv pos neg st x nx nx' : Inv cmp pos neg st -> get st x = Some nx ->
  i_type nx' = i_type nx -> i_dir nx' = i_dir nx -> i_parent nx' = i_parent nx -> i_nlink nx' = i_nlink nx ->
  Inv cmp pos neg (put st x nx').
Proof.
  intros Hv Hx E1 E2 E3 E4. eapply keep_Inv; try eassumption; auto.
  - rewrite E4. now apply (iv_nlink _ _ _ _ Hv).
  - intros Ht. now apply (iv_once _ _ _ _ Hv x nx).
  - intros Hr Hz Ho. apply (iv_unlinked _ _ _ _ Hv x nx); try assumption. rewrite occ_in. lia.
  - apply (iv_rootref _ _ _ _ Hv).
Qed.
Lemma bump_Inv pos neg st x nx : Inv cmp pos neg st -> get st x = Some nx -> i_type nx <> TDIR ->
  Inv cmp (x :: pos) (x :: neg) st.
Proof.
  intros Hv Hx Ht.
  assert (Hxr : x <> root_id).
  { intros ->. destruct (iv_root _ _ _ _ Hv) as (nr & Hr & Htr & _). congruence. }
  assert (Hd : i_dir nx = []). { destruct (i_dir nx) as [|e l] eqn:E; [reflexivity|]. elim Ht. apply (iv_dironly _ _ _ _ Hv x nx Hx). congruence. }
  constructor; try apply Hv.
  - destruct (iv_rootref _ _ _ _ Hv) as [H1 H2]. split; [exact H1|]. intros [E|E]; auto.
  - intros id nd Hg. pose proof (iv_nlink _ _ _ _ Hv id nd Hg). rewrite !occ_cons. lia.
  - intros id [<-|Hi]; [congruence|now apply (iv_pos _ _ _ _ Hv)].
  - intros id nd Hg. destruct (iv_garbage _ _ _ _ Hv id nd Hg) as [H|[H|[H|H]]]; auto. right. right. right. now right.
  - intros id nd Hg Htd. rewrite occ_cons. destruct (bytes_eqb id x) eqn:E; [apply bytes_eqb_eq in E; congruence|]. now apply (iv_once _ _ _ _ Hv id nd).
  - intros id nd Hg Hr Hz Hp. apply (iv_unlinked _ _ _ _ Hv id nd); try assumption. intros Hi. apply Hp. now right.
Qed.
Lemma occ_other id x l : id <> x -> occ id (x :: l) = occ id l.
Proof. intros H. rewrite occ_cons. assert (bytes_eqb id x = false) as -> by now apply bytes_eqb_neq. reflexivity. Qed.
Lemma occ_self x l : occ x (x :: l) = S (occ x l).
Proof. rewrite occ_cons, bytes_eqb_refl. reflexivity. Qed.

Lemma inc_Inv pos neg st x nx : Inv cmp pos (x :: neg) st -> get st x = Some nx -> (i_nlink nx < 2 ^ 32 - 1)%N ->
  Inv cmp pos neg (put st x (with_nlink (inc32 (i_nlink nx)) nx)).
Proof.
  intros Hv Hx Hb. eapply keep_Inv; try eassumption; auto.
  - cbn [with_nlink i_nlink]. pose proof (iv_nlink _ _ _ _ Hv x nx Hx) as H. rewrite occ_self in H. unfold inc32. rewrite N.mod_small by lia. lia.
  - intros id Hne. now rewrite occ_other.
  - intros Ht. now apply (iv_once _ _ _ _ Hv x nx).
  - intros Hr Hz Ho. apply (iv_unlinked _ _ _ _ Hv x nx); try assumption. rewrite occ_in. lia.
  - apply (iv_rootref _ _ _ _ Hv).
Qed.

(** ** A new file *)
Lemma new_Inv pos neg st x nx : Inv cmp pos neg st -> get st x = None -> i_nlink nx = 1%N -> i_dir nx = [] ->
  i_type nx = TREG \/ i_type nx = TDIR \/ i_type nx = TLINK -> ~ In x neg ->
  Inv cmp (x :: pos) neg (put st x nx) /\ size (put st x nx) = size st.
Proof.
  intros Hv Hx Hn Hd Hty Hneg. set (st' := put _ _ _).
  assert (Hxr : x <> root_id). { intros ->. destruct (iv_root _ _ _ _ Hv) as (nr & Hr & _). congruence. }
  assert (R : forall id, refs st' id = refs st id).
  { intros id. rewrite !refs_cnt. unfold st'. cbn [put nodes]. rewrite cnt_put_new by exact Hx. rewrite Hd. cbn. lia. }
  assert (G : forall id nd', get st' id = Some nd' -> (id = x /\ nd' = nx) \/ (id <> x /\ get st id = Some nd')).
  { intros id nd'. unfold st'. rewrite get_put. destruct (bytes_eqb x id) eqn:E.
    - apply bytes_eqb_eq in E. subst id. intros [= <-]. now left.
    - apply bytes_eqb_neq in E. intros H. right. auto. }
  assert (X : forall id nd, get st id = Some nd -> get st' id = Some nd).
  { intros id nd Hg. unfold st'. rewrite get_put. destruct (bytes_eqb x id) eqn:E; [|exact Hg]. apply bytes_eqb_eq in E. congruence. }
  assert (Z : refs st x = 0).
  { rewrite refs_cnt. apply cnt_zero. intros e He E. destruct (iv_entries _ _ _ _ Hv e He) as (nd & Hg & _). congruence. }
  assert (Zp : occ x pos = 0).
  { destruct (Nat.eq_dec (occ x pos) 0) as [|Hnz]; [assumption|]. assert (Hi : In x pos) by (apply occ_in; lia).
    now elim (iv_pos _ _ _ _ Hv x Hi). }
  assert (Zn : occ x neg = 0). { rewrite occ_in in Hneg. lia. }
  split; [constructor|].
  - apply nput_nodup. apply (iv_ids _ _ _ _ Hv).
  - destruct (iv_root _ _ _ _ Hv) as (nr & Hr & Htr & Hpr). exists nr. auto.
  - rewrite R. destruct (iv_rootref _ _ _ _ Hv) as [H1 H2]. split; [exact H1|]. intros [E|E]; auto.
  - intros id nd' Hg'. rewrite R. destruct (G _ _ Hg') as [[-> ->]|[Hne Hg]].
    + rewrite occ_self, Hn, Z, Zp, Zn. unfold root_bonus. assert (bytes_eqb x root_id = false) as -> by now apply bytes_eqb_neq. reflexivity.
    + rewrite occ_other by exact Hne. now apply (iv_nlink _ _ _ _ Hv).
  - intros y Hy. apply entries_put in Hy. rewrite Hd in Hy. destruct Hy as [[]|Hy].
    destruct (iv_entries _ _ _ _ Hv y Hy) as (ny & Hgy & Hty'). exists ny. auto.
  - intros id [<-|Hi].
    + unfold st'. rewrite get_put_eq. discriminate.
    + pose proof (iv_pos _ _ _ _ Hv id Hi) as H. destruct (get st id) as [nd|] eqn:E; [|congruence]. rewrite (X _ _ E). discriminate.
  - intros id Hi. pose proof (iv_opened _ _ _ _ Hv id Hi) as H. destruct (get st id) as [nd|] eqn:E; [|congruence]. rewrite (X _ _ E). discriminate.
  - intros id nd' Hg'. rewrite R. destruct (G _ _ Hg') as [[-> ->]|[Hne Hg]].
    + right. right. right. now left.
    + destruct (iv_garbage _ _ _ _ Hv id nd' Hg) as [H|[H|[H|H]]]; auto. right. right. right. now right.
  - intros id nd' Hg' Ht'. rewrite R. destruct (G _ _ Hg') as [[-> ->]|[Hne Hg]].
    + rewrite occ_self. lia.
    + rewrite occ_other by exact Hne. now apply (iv_once _ _ _ _ Hv id nd').
  - intros id nd' Hg' Hd'. destruct (G _ _ Hg') as [[-> ->]|[Hne Hg]]; [congruence|]. now apply (iv_dironly _ _ _ _ Hv id nd').
  - intros id nd' Hg'. destruct (G _ _ Hg') as [[-> ->]|[Hne Hg]]; [now rewrite Hd|]. now apply (iv_names _ _ _ _ Hv id nd').
  - intros id nd' Hg' Hr Hz Hp. rewrite R in Hz. destruct (G _ _ Hg') as [[-> ->]|[Hne Hg]]; [exact Hd|].
    apply (iv_unlinked _ _ _ _ Hv id nd'); try assumption. intros Hi. apply Hp. now right.
  - intros id nd' Hg'. destruct (G _ _ Hg') as [[-> ->]|[Hne Hg]]; [exact Hty|]. now apply (iv_types _ _ _ _ Hv id nd').
  - unfold size, all_entries, st'. cbn [put nodes]. fold (ent_of (nput x nx (nodes st))). rewrite len_put_new by exact Hx. rewrite Hd. cbn. unfold ent_of. lia.
Qed.

(** ** Removing a file that has no name and no user *)
Lemma existsb_in id l : existsb (bytes_eqb id) l = true <-> In id l.
Proof.
  rewrite existsb_exists. split.
  - intros (y & Hy & E). apply bytes_eqb_eq in E. now subst.
  - intros H. exists id. split; [exact H|apply bytes_eqb_refl].
Qed.

(** All of [Inv] but the clause on unused files, which may fail for [x] alone. *)
Definition almost (x : bytes) (pos neg : list bytes) (st : ffs) : Prop :=
  Inv cmp pos neg (mkFfs (nodes st) (if get st x then x :: opened st else opened st)).

Lemma finish_Inv pos st x : almost x pos [] st -> Inv cmp pos [] (finish x st) /\ size (finish x st) <= size st /\
  opened (finish x st) = opened st /\
  (forall id, get (finish x st) id = get st id \/
     (id = x /\ get (finish x st) id = None /\ x <> root_id /\ ~ In x (opened st) /\ refs st x = 0 /\ occ x pos = 0 /\ exists nd, get st x = Some nd /\ i_dir nd = [])).
Proof.
  unfold almost. intros Hv. unfold finish.
  set (sta := mkFfs (nodes st) _) in Hv.
  assert (Gs : forall id, get sta id = get st id) by reflexivity.
  assert (Rs : forall id, refs sta id = refs st id) by reflexivity.
  assert (Hback : (get st x = None \/ x = root_id \/ In x (opened st) \/ refs st x > 0 \/ In x pos) -> Inv cmp pos [] st).
  { intros Hc. constructor; try exact (iv_ids _ _ _ _ Hv); try exact (iv_root _ _ _ _ Hv); try exact (iv_rootref _ _ _ _ Hv);
      try exact (iv_nlink _ _ _ _ Hv); try exact (iv_entries _ _ _ _ Hv); try exact (iv_pos _ _ _ _ Hv);
      try exact (iv_once _ _ _ _ Hv); try exact (iv_dironly _ _ _ _ Hv); try exact (iv_names _ _ _ _ Hv);
      try exact (iv_unlinked _ _ _ _ Hv); try exact (iv_types _ _ _ _ Hv).
    - intros id Hi. apply (iv_opened _ _ _ _ Hv id). unfold sta. cbn [opened]. destruct (get st x); [now right|exact Hi].
    - intros id nd Hg. destruct (iv_garbage _ _ _ _ Hv id nd Hg) as [H|[H|[H|H]]]; auto.
      unfold sta in H. cbn [opened] in H. destruct (get st x) as [nx|] eqn:Ex; [|auto].
      destruct H as [<-|H]; [|auto]. destruct Hc as [H|[H|[H|[H|H]]]]; auto. discriminate. }
  destruct (bytes_eqb x root_id || existsb (bytes_eqb x) (opened st))%bool eqn:Eb.
  { split; [|split; [lia|split; [reflexivity|now left]]]. apply Hback. apply orb_true_iff in Eb. destruct Eb as [E|E].
    - apply bytes_eqb_eq in E. auto.
    - apply existsb_in in E. auto. }
  apply orb_false_iff in Eb. destruct Eb as [Er Eo].
  apply bytes_eqb_neq in Er. assert (Ho : ~ In x (opened st)) by (rewrite <- existsb_in; congruence).
  destruct (get st x) as [nx|] eqn:Ex.
  2:{ split; [apply Hback; now left|split; [lia|split; [reflexivity|now left]]]. }
  destruct (i_nlink nx =? 0)%N eqn:En.
  2:{ split; [|split; [lia|split; [reflexivity|now left]]]. apply Hback. apply N.eqb_neq in En.
      pose proof (iv_nlink _ _ _ _ Hv x nx Ex) as H. rewrite Rs in H. unfold root_bonus in H.
      assert (Hb : bytes_eqb x root_id = false) by now apply bytes_eqb_neq. rewrite Hb in H. cbn in H.
      destruct (Nat.eq_dec (refs st x) 0); [|right; right; right; left; lia]. right. right. right. right. apply occ_in. lia. }
  apply N.eqb_eq in En.
  pose proof (iv_nlink _ _ _ _ Hv x nx Ex) as Hnl. rewrite Rs, En in Hnl. cbn in Hnl.
  assert (Z : refs st x = 0) by lia. assert (Zp : occ x pos = 0) by lia.
  assert (Hpx : ~ In x pos) by (rewrite occ_in; lia).
  assert (Hd : i_dir nx = []) by (apply (iv_unlinked _ _ _ _ Hv x nx Ex Er Z Hpx)).
  assert (Hdel : forall nd, In (x, nd) (nodes st) -> i_dir nd = []).
  { intros nd Hi. apply (in_nget _ _ _ (iv_ids _ _ _ _ Hv)) in Hi. unfold get in Ex. cbn in Hi. congruence. }
  set (st' := mkFfs (ndel x (nodes st)) (opened st)).
  assert (R : forall id, refs st' id = refs st id). { intros id. rewrite !refs_cnt. apply cnt_del. exact Hdel. }
  assert (G : forall id, id <> x -> get st' id = get st id). { intros id Hne. apply nget_del_ne. congruence. }
  assert (G0 : get st' x = None) by apply nget_del_eq.
  assert (Ge : forall id nd, get st' id = Some nd -> id <> x /\ get st id = Some nd).
  { intros id nd Hg. assert (id <> x) by congruence. split; [assumption|]. now rewrite <- G. }
  split; [|split; [apply len_del|split; [reflexivity|]]].
  - constructor.
    + apply ndel_nodup. exact (iv_ids _ _ _ _ Hv).
    + rewrite G by auto. exact (iv_root _ _ _ _ Hv).
    + rewrite R. exact (iv_rootref _ _ _ _ Hv).
    + intros id nd Hg. rewrite R. apply Ge in Hg. apply (iv_nlink _ _ _ _ Hv). tauto.
    + intros e He. assert (He' : In e (all_entries st)).
      { apply in_ent_of in He. destruct He as (d & nd & Hi & He). apply filter_In in Hi. apply in_ent_of. exists d, nd. tauto. }
      destruct (iv_entries _ _ _ _ Hv e He') as (nd & Hg & Ht). exists nd. split; [|exact Ht]. rewrite G; [exact Hg|].
      intros E. rewrite refs_cnt in Z. rewrite cnt_zero in Z. exact (Z e He' E).
    + intros id Hi. rewrite G; [now apply (iv_pos _ _ _ _ Hv)|intros ->; contradiction].
    + intros id Hi. rewrite G; [|intros ->; contradiction]. apply (iv_opened _ _ _ _ Hv id). cbn. now right.
    + intros id nd Hg. rewrite R. apply Ge in Hg. destruct Hg as [Hne Hg].
      destruct (iv_garbage _ _ _ _ Hv id nd Hg) as [H|[H|[[H|H]|H]]]; auto. congruence.
    + intros id nd Hg. rewrite R. apply Ge in Hg. apply (iv_once _ _ _ _ Hv id nd). tauto.
    + intros id nd Hg. apply Ge in Hg. apply (iv_dironly _ _ _ _ Hv id nd). tauto.
    + intros id nd Hg. apply Ge in Hg. apply (iv_names _ _ _ _ Hv id nd). tauto.
    + intros id nd Hg. rewrite R. apply Ge in Hg. apply (iv_unlinked _ _ _ _ Hv id nd). tauto.
    + intros id nd Hg. apply Ge in Hg. apply (iv_types _ _ _ _ Hv id nd). tauto.
  - intros id. destruct (list_eq_dec Byte.byte_eq_dec id x) as [->|Hne]; [|left; now apply G].
    right. repeat split; try assumption. exists nx. auto.
Qed.

Lemma unlink_Inv pos st x nx : Inv cmp (x :: pos) [] st -> get st x = Some nx -> (i_nlink nx < 2 ^ 32)%N ->
  (refs st x = 0 -> occ x pos = 0 -> i_dir nx = []) ->
  Inv cmp pos [] (unlink_node x st) /\ size (unlink_node x st) <= size st /\ opened (unlink_node x st) = opened st /\
  (forall id, id <> x -> get (unlink_node x st) id = get st id) /\
  (get (unlink_node x st) x = Some (with_nlink (i_nlink nx - 1) nx) \/ (get (unlink_node x st) x = None /\ i_dir nx = [])).
Proof.
  intros Hv Hx Hb Hemp. unfold unlink_node. rewrite Hx.
  assert (Hxr : x <> root_id) by (intros ->; apply (iv_rootref _ _ _ _ Hv); now left).
  pose proof (iv_nlink _ _ _ _ Hv x nx Hx) as Hnl. rewrite occ_self in Hnl. cbn [occ filter length] in Hnl.
  assert (Ed : dec32 (i_nlink nx) = (i_nlink nx - 1)%N).
  { unfold dec32. replace (i_nlink nx + (2 ^ 32 - 1))%N with ((i_nlink nx - 1) + 1 * 2 ^ 32)%N by lia.
    rewrite N.mod_add by lia. apply N.mod_small. lia. }
  rewrite Ed. set (nx' := with_nlink _ nx). set (st1 := put st x nx').
  assert (Ha : almost x pos [] st1).
  { unfold almost. unfold st1 at 2. rewrite get_put_eq.
    change (mkFfs (nodes st1) (x :: opened st1)) with (put (mkFfs (nodes st) (x :: opened st)) x nx').
    assert (Hv' : Inv cmp (x :: pos) [] (mkFfs (nodes st) (x :: opened st))).
    { constructor; try exact (iv_ids _ _ _ _ Hv); try exact (iv_root _ _ _ _ Hv); try exact (iv_rootref _ _ _ _ Hv);
      try exact (iv_nlink _ _ _ _ Hv); try exact (iv_entries _ _ _ _ Hv); try exact (iv_pos _ _ _ _ Hv);
      try exact (iv_once _ _ _ _ Hv); try exact (iv_dironly _ _ _ _ Hv); try exact (iv_names _ _ _ _ Hv);
      try exact (iv_unlinked _ _ _ _ Hv); try exact (iv_types _ _ _ _ Hv).
      - intros id [<-|Hi]; [change (get st x <> None); congruence|now apply (iv_opened _ _ _ _ Hv)].
      - intros id nd Hg. destruct (iv_garbage _ _ _ _ Hv id nd Hg) as [H|[H|[H|H]]]; auto. right. right. left. now right. }
    eapply keep_Inv; try exact Hv'; try exact Hx; try reflexivity.
    - cbn [i_nlink nx' with_nlink occ filter length]. change (refs (mkFfs (nodes st) (x :: opened st)) x) with (refs st x). lia.
    - intros id Hne. now rewrite occ_other.
    - intros Ht. change (refs (mkFfs (nodes st) (x :: opened st)) x) with (refs st x).
      pose proof (iv_once _ _ _ _ Hv x nx Hx Ht) as H. rewrite occ_self in H. lia.
    - intros _. right. right. left. now left.
    - intros _. exact Hemp.
    - intros Hi. apply (iv_rootref _ _ _ _ Hv). now right. }
  destruct (finish_Inv pos st1 x Ha) as (F1 & F2 & F3 & F4).
  assert (Hs : size st1 = size st).
  { pose proof (size_put st x nx nx' (iv_ids _ _ _ _ Hv) Hx) as H. cbn [nx' with_nlink i_dir] in H. fold st1 in H. lia. }
  ands; try assumption; try lia.
  - intros id Hne. destruct (F4 id) as [->|(E & _)]; [|congruence]. unfold st1. apply get_put_ne. congruence.
  - destruct (F4 x) as [->|(_ & -> & _ & _ & _ & _ & nd & Hg & Hd)].
    + left. unfold st1. apply get_put_eq.
    + right. split; [reflexivity|]. unfold st1 in Hg. rewrite get_put_eq in Hg. injection Hg as <-. exact Hd.
Qed.
End Inv.
