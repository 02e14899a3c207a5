(** Link counts and references under every interleaving. *)
From Coq Require Import Strings.String Lia ZArith Permutation.
From Verif Require Import Base BaseLemmas TextModel NameModel BtreeModel BtreeSpec FullFsModel FullFsSpec FullFsProofs FullFsPath FullFsInv FsConcModel FsConcSpec.
Local Open Scope list_scope.

Definition ind (x id : bytes) : Z := if bytes_eqb x id then 1%Z else 0%Z.
Lemma ind_refl x : ind x x = 1%Z.
Proof. unfold ind. now rewrite bytes_eqb_refl. Qed.
Lemma ind_ne x y : x <> y -> ind x y = 0%Z.
Proof. intros H. unfold ind. assert (bytes_eqb x y = false) as -> by now apply bytes_eqb_neq. reflexivity. Qed.
Lemma ind_nonneg x y : (0 <= ind x y)%Z.
Proof. unfold ind. destruct (bytes_eqb x y); lia. Qed.

Section Conc.
Variable cmp : bytes -> bytes -> comparison.
Hypothesis Hcmp : cmp_ok cmp.

(** [own]: the references, with the types of the files; [D id]: links of [id] that no
    name accounts for. *)
Record CI (own : list holder) (D : bytes -> Z) (st : ffs) : Prop := {
  ci_ids : NoDup (map fst (nodes st));
  ci_root : is_dir st root_id;
  ci_nlink : forall id nd, get st id = Some nd -> Z.of_N (i_nlink nd) = (Z.of_nat (refs st id + root_bonus id) + D id)%Z;
  ci_entries : forall e, In e (all_entries st) -> exists nd, get st (e_id e) = Some nd /\ i_type nd = e_type e;
  ci_debt : forall id, (0 < D id)%Z -> get st id <> None;
  ci_own : Permutation (opened st) (map fst own);
  ci_have : forall id t, In (id, t) own -> exists nd, get st id = Some nd /\ i_type nd = t;
  ci_used : forall id nd, get st id = Some nd -> id = root_id \/ i_nlink nd <> 0%N \/ In id (map fst own);
  ci_names : forall id nd, get st id = Some nd -> names_distinct cmp (i_dir nd);
  ci_types : forall id nd, get st id = Some nd -> i_type nd = TREG \/ i_type nd = TDIR \/ i_type nd = TLINK }.

Lemma CI_ext own own' D D' st : CI own D st -> Permutation own own' -> (forall id, D id = D' id) -> CI own' D' st.
Proof.
  intros H Hp HD. constructor; try apply H.
  - intros id nd Hg. rewrite <- HD. now apply (ci_nlink _ _ _ H).
  - intros id Hd. rewrite <- HD in Hd. now apply (ci_debt _ _ _ H).
  - rewrite <- Hp. apply (ci_own _ _ _ H).
  - intros id t Hi. apply (ci_have _ _ _ H). now apply (Permutation_in _ (Permutation_sym Hp)).
  - intros id nd Hg. destruct (ci_used _ _ _ H id nd Hg) as [E|[E|E]]; auto. right. right. now apply (Permutation_in _ (Permutation_map fst Hp)).
Qed.

Lemma ci_there own D st id : CI own D st -> In id (map fst own) -> get st id <> None.
Proof. intros H Hi. apply in_map_iff in Hi. destruct Hi as ([x t] & <- & Hi). destruct (ci_have _ _ _ H x t Hi) as (n & E & _). cbn. congruence. Qed.
Lemma CI_put own D D' st d nd nd' : CI own D st -> get st d = Some nd -> i_type nd' = i_type nd ->
  names_distinct cmp (i_dir nd') ->
  (forall e, In e (i_dir nd') -> In e (i_dir nd) \/ exists nx, get st (e_id e) = Some nx /\ i_type nx = e_type e) ->
  (forall id, D' id = (D id + Z.of_nat (cnt id (i_dir nd)) - Z.of_nat (cnt id (i_dir nd')) +
     (Z.of_N (i_nlink nd') - Z.of_N (i_nlink nd)) * ind d id)%Z) ->
  (forall id, (0 < D' id)%Z -> get st id <> None) ->
  (d = root_id \/ i_nlink nd' <> 0%N \/ In d (map fst own)) ->
  CI own D' (put st d nd').
Proof.
  intros H Hg Ht Hd He HD Hpos Hu. set (st' := put st d nd').
  assert (R : forall id, Z.of_nat (refs st' id) = (Z.of_nat (refs st id) + Z.of_nat (cnt id (i_dir nd')) - Z.of_nat (cnt id (i_dir nd)))%Z).
  { intros id. pose proof (refs_put st d nd nd' id (ci_ids _ _ _ H) Hg) as E. fold st' in E. lia. }
  assert (X : forall id n, get st id = Some n -> exists n', get st' id = Some n' /\ i_type n' = i_type n).
  { intros id n Hn. unfold st'. rewrite get_put. destruct (bytes_eqb d id) eqn:E; [|eauto]. apply bytes_eqb_eq in E. subst. exists nd'. split; congruence. }
  assert (X' : forall id, get st id <> None -> get st' id <> None).
  { intros id Hi. destruct (get st id) as [n|] eqn:E; [|congruence]. destruct (X _ _ E) as (n' & -> & _). discriminate. }
  assert (Y : forall id n', get st' id = Some n' -> (id = d /\ n' = nd') \/ (id <> d /\ get st id = Some n')).
  { intros id n'. unfold st'. rewrite get_put. destruct (bytes_eqb d id) eqn:E; intros Hn.
    - apply bytes_eqb_eq in E. left. split; congruence.
    - apply bytes_eqb_neq in E. right. split; congruence. }
  constructor.
  - apply nput_nodup. apply (ci_ids _ _ _ H).
  - destruct (ci_root _ _ _ H) as (nr & Hr & Htr). destruct (X _ _ Hr) as (n' & Hn' & Ht'). exists n'. split; congruence.
  - intros id n' Hn'. rewrite Nat2Z.inj_add, R, HD. destruct (Y _ _ Hn') as [[-> ->]|[Hne Hn]].
    + rewrite ind_refl. pose proof (ci_nlink _ _ _ H d nd Hg). lia.
    + rewrite (ind_ne d id) by auto. pose proof (ci_nlink _ _ _ H id n' Hn). lia.
  - intros e Hi. assert (exists nx, get st (e_id e) = Some nx /\ i_type nx = e_type e) as (nx & Hx & Htx).
    { apply entries_put in Hi. destruct Hi as [Hi|Hi]; [|now apply (ci_entries _ _ _ H)].
      destruct (He e Hi) as [Hi'|Hx]; [|exact Hx]. apply (ci_entries _ _ _ H). apply in_ent_of. exists d, nd. split; [now apply nget_in|exact Hi']. }
    destruct (X _ _ Hx) as (n' & Hn' & Ht'). exists n'. split; congruence.
  - intros id Hi. apply X'. now apply Hpos.
  - exact (ci_own _ _ _ H).
  - intros id t Hi. destruct (ci_have _ _ _ H id t Hi) as (n & Hn & Htn). destruct (X _ _ Hn) as (n' & Hn' & Ht'). exists n'. split; congruence.
  - intros id n' Hn'. destruct (Y _ _ Hn') as [[-> ->]|[Hne Hn]]; [exact Hu|]. now apply (ci_used _ _ _ H).
  - intros id n' Hn'. destruct (Y _ _ Hn') as [[-> ->]|[Hne Hn]]; [exact Hd|]. now apply (ci_names _ _ _ H id).
  - intros id n' Hn'. destruct (Y _ _ Hn') as [[-> ->]|[Hne Hn]]; [|now apply (ci_types _ _ _ H id)]. rewrite Ht. now apply (ci_types _ _ _ H d).
Qed.

(** A change that neither directories nor counts see. *)
Lemma CI_same own D st d nd nd' : CI own D st -> get st d = Some nd -> i_type nd' = i_type nd -> i_dir nd' = i_dir nd -> i_nlink nd' = i_nlink nd ->
  CI own D (put st d nd').
Proof.
  intros H Hg Ht Hd Hn. eapply CI_put; try eassumption.
  - rewrite Hd. now apply (ci_names _ _ _ H d).
  - intros e He. rewrite Hd in He. now left.
  - intros id. rewrite Hd, Hn. lia.
  - apply (ci_debt _ _ _ H).
  - rewrite Hn. now apply (ci_used _ _ _ H d nd).
Qed.
Lemma CI_parent own D st id p : CI own D st -> CI own D (set_parent id p st).
Proof.
  intros H. unfold set_parent. destruct (get st id) as [nd|] eqn:E; [|exact H]. now apply (CI_same own D st id nd).
Qed.

Lemma CI_hold own D st id nd : CI own D st -> get st id = Some nd -> CI ((id, i_type nd) :: own) D (hold id st).
Proof.
  intros H Hi. constructor; try apply H.
  - cbn. constructor. apply (ci_own _ _ _ H).
  - intros x t [[= <- <-]|Hx]; [eauto|now apply (ci_have _ _ _ H)].
  - intros x n Hg. destruct (ci_used _ _ _ H x n Hg) as [E|[E|E]]; auto. right. right. now right.
Qed.

Lemma perm_remove_one id l l' : Permutation l l' -> Permutation (remove_one id l) (remove_one id l').
Proof.
  induction 1 as [|x l l' Hp IH|x y l|l1 l2 l3 H1 IH1 H2 IH2]; cbn [remove_one]; auto.
  - destruct (bytes_eqb x id); auto.
  - destruct (bytes_eqb y id) eqn:Ey, (bytes_eqb x id) eqn:Ex; auto.
    + apply bytes_eqb_eq in Ey. apply bytes_eqb_eq in Ex. subst. reflexivity.
    + constructor.
  - now transitivity (remove_one id l2).
Qed.
Lemma occ_map x l : occ x (map e_id l) = cnt x l.
Proof.
  induction l as [|e l IH]; [reflexivity|]. cbn [map]. rewrite occ_cons, cnt_cons, IH. f_equal.
  destruct (bytes_eqb x (e_id e)) eqn:E1, (bytes_eqb (e_id e) x) eqn:E2; try reflexivity.
  - apply bytes_eqb_eq in E1. apply bytes_eqb_neq in E2. congruence.
  - apply bytes_eqb_neq in E1. apply bytes_eqb_eq in E2. congruence.
Qed.
(** Giving up a reference: the last one of a file without links deletes it. *)
Lemma CI_drop own own' t D st id : CI own D st -> Permutation own ((id, t) :: own') -> (forall x, (0 <= D x)%Z) ->
  exists l, CI own' (fun x => (D x + Z.of_nat (occ x l))%Z) (drop_ref id st) /\ (tidy st -> l = []).
Proof.
  intros H0 Hpo Hnn. assert (H : CI ((id, t) :: own') D st) by (eapply CI_ext; [exact H0|exact Hpo|reflexivity]). clear H0 Hpo own.
  set (st1 := mkFfs (nodes st) (remove_one id (opened st))).
  assert (Hp : Permutation (opened st1) (map fst own')).
  { unfold st1. cbn [opened]. rewrite (perm_remove_one id _ _ (ci_own _ _ _ H)). cbn [map fst remove_one]. now rewrite bytes_eqb_refl. }
  assert (Hother : forall x, x <> id -> In x (map fst ((id, t) :: own')) -> In x (map fst own')) by (intros x Hne [E|E]; [cbn in E; congruence|exact E]).
  assert (Hsimple : (forall nd, get st id = Some nd -> id = root_id \/ i_nlink nd <> 0%N \/ In id (map fst own')) -> CI own' D st1).
  { intros Hk. constructor; try apply H; [exact Hp| |].
    - intros x t' Hx. apply (ci_have _ _ _ H). now right.
    - intros x nd Hg. destruct (list_eq_dec Byte.byte_eq_dec x id) as [->|Hne]; [now apply Hk|].
      destruct (ci_used _ _ _ H x nd Hg) as [E|[E|E]]; auto. }
  assert (Hkeep : drop_ref id st = st1 -> (forall nd, get st id = Some nd -> id = root_id \/ i_nlink nd <> 0%N \/ In id (map fst own')) ->
    exists l, CI own' (fun x => (D x + Z.of_nat (occ x l))%Z) (drop_ref id st) /\ (tidy st -> l = [])).
  { intros -> Hk. exists []. split; [|reflexivity]. eapply CI_ext; [now apply Hsimple|reflexivity|]. intros x. cbn. lia. }
  assert (Ed : drop_ref id st = if bytes_eqb id root_id || existsb (bytes_eqb id) (remove_one id (opened st)) then st1 else
    match get st id with
    | Some nd => if (i_nlink nd =? 0)%N then mkFfs (ndel id (nodes st)) (opened st1) else st1
    | None => st1
    end) by reflexivity.
  rewrite Ed in *. clear Ed.
  destruct (bytes_eqb id root_id || existsb (bytes_eqb id) (remove_one id (opened st))) eqn:E1.
  { apply Hkeep; [reflexivity|]. intros nd _. apply Bool.orb_true_iff in E1. destruct E1 as [E|E].
    - left. now apply bytes_eqb_eq.
    - right. right. apply existsb_in in E. now apply (Permutation_in _ Hp). }
  apply Bool.orb_false_iff in E1. destruct E1 as [Er Eo]. apply bytes_eqb_neq in Er.
  destruct (get st id) as [nd|] eqn:Eg; [|apply Hkeep; [reflexivity|discriminate]].
  destruct (i_nlink nd =? 0)%N eqn:En; [|apply Hkeep; [reflexivity|]; intros ? [= <-]; right; left; now apply N.eqb_neq in En].
  apply N.eqb_eq in En.
  assert (Hz : refs st id = 0 /\ D id = 0%Z).
  { pose proof (ci_nlink _ _ _ H id nd Eg) as Hl. rewrite En in Hl. specialize (Hnn id). lia. }
  destruct Hz as [Hz HDz].
  assert (HE : forall e, In e (ent_of (ndel id (nodes st))) -> In e (all_entries st)).
  { intros e He. apply in_ent_of in He. destruct He as (d & n & Hi & Hie). apply in_ent_of. exists d, n. split; [|exact Hie]. apply filter_In in Hi. tauto. }
  assert (HC : forall x, cnt x (ent_of (ndel id (nodes st))) + cnt x (i_dir nd) = cnt x (ent_of (nodes st))).
  { intros x. pose proof (ci_ids _ _ _ H) as Hn. unfold get in Eg. clear - Hn Eg. revert Hn Eg. induction (nodes st) as [|[i n] l IH]; cbn [map fst nget]; intros Hn Hg; [discriminate|].
    inversion Hn as [|? ? Hni Hn' E]; subst. cbn [ndel filter fst]. destruct (bytes_eqb i id) eqn:E; cbn [negb].
    - injection Hg as ->. apply bytes_eqb_eq in E. subst i. cbn [ent_of flat_map snd]. rewrite cnt_app.
      assert (filter (fun p : bytes * inode => negb (bytes_eqb (fst p) id)) l = l) as ->; [|unfold ent_of; lia].
      clear - Hni. induction l as [|[j m] l IH]; [reflexivity|]. cbn [filter fst map In] in *. assert (bytes_eqb j id = false) as -> by (apply bytes_eqb_neq; tauto).
      cbn [negb]. f_equal. apply IH. tauto.
    - cbn [ent_of flat_map snd]. rewrite !cnt_app. specialize (IH Hn' Hg). unfold ent_of, ndel in IH. lia. }
  exists (map e_id (i_dir nd)). split; [|intros Ht; now rewrite (Ht id nd Eg En)].
  apply (CI_ext own' own' (fun x => (D x + Z.of_nat (cnt x (i_dir nd)))%Z)); [|reflexivity|intros x; now rewrite occ_map].
  assert (Hg2 : forall x n, get (mkFfs (ndel id (nodes st)) (opened st1)) x = Some n -> x <> id /\ get st x = Some n).
  { intros x n. unfold get. cbn [nodes]. destruct (list_eq_dec Byte.byte_eq_dec id x) as [<-|Hne]; [rewrite nget_del_eq; discriminate|].
    rewrite nget_del_ne by exact Hne. auto. }
  assert (Hg3 : forall x, x <> id -> get (mkFfs (ndel id (nodes st)) (opened st1)) x = get st x).
  { intros x Hne. unfold get. cbn [nodes]. apply nget_del_ne. congruence. }
  constructor.
  - cbn [nodes]. apply ndel_nodup. apply (ci_ids _ _ _ H).
  - destruct (ci_root _ _ _ H) as (nr & Hr & Ht). exists nr. split; [|exact Ht]. rewrite Hg3; [exact Hr|congruence].
  - intros x n Hn. apply Hg2 in Hn. destruct Hn as [Hne Hn]. rewrite (ci_nlink _ _ _ H x n Hn).
    rewrite !refs_cnt. cbn [nodes]. specialize (HC x). lia.
  - intros e He. specialize (HE e He). destruct (ci_entries _ _ _ H e HE) as (n & Hn & Ht). exists n. split; [|exact Ht]. rewrite Hg3; [exact Hn|].
    intros Hc. assert (cnt id (all_entries st) > 0) by (apply cnt_pos; eauto). unfold refs in Hz. fold (cnt id (all_entries st)) in Hz. lia.
  - intros x Hx. destruct (list_eq_dec Byte.byte_eq_dec x id) as [->|Hne].
    + exfalso. specialize (HC id). rewrite refs_cnt in Hz. lia.
    + rewrite Hg3 by exact Hne. destruct (Z_lt_le_dec 0 (D x)) as [Hd|Hd]; [now apply (ci_debt _ _ _ H)|].
      assert (Hc : cnt x (i_dir nd) > 0) by lia. apply cnt_pos in Hc. destruct Hc as (e & Hi & <-).
      destruct (ci_entries _ _ _ H e) as (n & Hn & _); [|congruence]. apply in_ent_of. exists id, nd. split; [now apply nget_in|exact Hi].
  - exact Hp.
  - intros x t' Hx. rewrite Hg3.
    + apply (ci_have _ _ _ H). now right.
    + intros ->. apply (in_map fst) in Hx. apply (Permutation_in _ (Permutation_sym Hp)) in Hx. apply existsb_in in Hx. cbn in Hx. congruence.
  - intros x n Hn. apply Hg2 in Hn. destruct Hn as [Hne Hn]. destruct (ci_used _ _ _ H x n Hn) as [E|[E|E]]; auto.
  - intros x n Hn. apply Hg2 in Hn. now apply (ci_names _ _ _ H x).
  - intros x n Hn. apply Hg2 in Hn. now apply (ci_types _ _ _ H x).
Qed.

(** ** The directory operations *)
Lemma long_false n : name_too_long n = false -> length n <= 255.
Proof. unfold name_too_long. apply Nat.ltb_ge. Qed.

Lemma get_entry_cases own D st h n : CI own D st -> In (fst h) (map fst own) ->
  forall r, get_entry cmp h n st = r ->
  match r with
  | Err e => e = E_PERM \/ e = E_NAMETOOLONG
  | Ok None => name_in cmp st (fst h) n = None
  | Ok (Some e) => name_in cmp st (fst h) n = Some (e_id e, e_type e) /\ (e_type e = TREG \/ e_type e = TDIR \/ e_type e = TLINK)
  end.
Proof.
  intros H Hi r. unfold get_entry, cast_as, name_in. pose proof (ci_there _ _ _ _ H Hi) as Hh.
  destruct (get st (fst h)) as [nd|] eqn:Eg; [|congruence].
  destruct (snd h =? i_type nd)%N; [|intros <-; cbn; auto]. destruct (snd h =? TDIR)%N; [|intros <-; cbn; auto].
  cbn [rbind dspec_step]. destruct (name_too_long n); [intros <-; cbn; auto|]. intros <-. cbn.
  destruct (find_name cmp n (i_dir nd)) as [e|] eqn:Ef; [|reflexivity]. split; [reflexivity|].
  apply find_some in Ef. destruct Ef as [Ei _].
  destruct (ci_entries _ _ _ H e) as (nx & Hx & <-); [|now apply (ci_types _ _ _ H (e_id e))].
  apply in_ent_of. exists (fst h), nd. split; [now apply nget_in|exact Ei].
Qed.

Lemma remove_cases own D st h n : CI own D st -> In (fst h) (map fst own) ->
  forall st' r, remove_entry cmp h n st = (st', r) ->
  match r with
  | Err e => st' = st /\ (e = E_PERM \/ e = E_NAMETOOLONG)
  | Ok None => CI own D st'
  | Ok (Some e) => CI own (fun id => (D id + ind (e_id e) id)%Z) st' /\ (e_type e = TREG \/ e_type e = TDIR \/ e_type e = TLINK) /\
      exists nd nx, get st (fst h) = Some nd /\ get st' (e_id e) = Some nx /\ i_type nx = e_type e
  end.
Proof.
  intros H Hi st' r. unfold remove_entry, cast_as. pose proof (ci_there _ _ _ _ H Hi) as Hh.
  destruct (get st (fst h)) as [nd|] eqn:Eg; [|congruence].
  destruct (snd h =? i_type nd)%N; [|intros [= <- <-]; auto]. destruct (snd h =? TDIR)%N; [|intros [= <- <-]; auto].
  cbn [dspec_step]. destruct (name_too_long n); [intros [= <- <-]; auto|]. intros [= <- <-].
  destruct (find_name cmp n (i_dir nd)) as [e|] eqn:Ef.
  - pose proof Ef as Ef'. apply find_some in Ef'. destruct Ef' as [Ei _].
    destruct (ci_entries _ _ _ H e) as (nx & Hx & Htx).
    { apply in_ent_of. exists (fst h), nd. split; [now apply nget_in|exact Ei]. }
    pose proof (ci_names _ _ _ H _ _ Eg) as Hdist.
    split; [|split].
    + eapply (CI_put own D); try eassumption; cbn [with_dir i_dir i_type i_mode i_nlink].
      * reflexivity.
      * now apply (drop_distinct cmp).
      * intros x Hx'. apply drop_in in Hx'. left. tauto.
      * intros id. destruct (cnt_drop cmp Hcmp n (i_dir nd) e id Hdist Ef) as [C _]. unfold ind.
        destruct (bytes_eqb (e_id e) id); lia.
      * intros id Hd. destruct (list_eq_dec Byte.byte_eq_dec (e_id e) id) as [<-|Hne]; [congruence|].
        rewrite (ind_ne (e_id e) id) in Hd by exact Hne. apply (ci_debt _ _ _ H). lia.
      * now apply (ci_used _ _ _ H (fst h) nd).
    + rewrite <- Htx. now apply (ci_types _ _ _ H (e_id e)).
    + exists nd. rewrite get_put. destruct (bytes_eqb (fst h) (e_id e)) eqn:E.
      * apply bytes_eqb_eq in E. eexists. split; [reflexivity|]. split; [reflexivity|]. cbn. rewrite <- Htx. rewrite E in Eg. assert (nd = nx) by congruence. now subst.
      * exists nx. auto.
  - rewrite (drop_id _ _ _ Ef). apply (CI_same own D st (fst h) nd); auto.
Qed.

Lemma add_cases own D st h n x nx : CI own D st -> In (fst h) (map fst own) -> get st x = Some nx ->
  forall st' r, add_entry cmp h n x (i_type nx) st = (st', r) ->
  match r with
  | Err e => st' = st /\ (e = E_PERM \/ e = E_NAMETOOLONG)
  | Ok false => CI own D st'
  | Ok true => CI own (fun id => (D id - ind x id)%Z) st' /\ exists nx', get st' x = Some nx' /\ i_type nx' = i_type nx /\ i_nlink nx' = i_nlink nx
  end.
Proof.
  intros H Hi Hx st' r. unfold add_entry, cast_as. pose proof (ci_there _ _ _ _ H Hi) as Hh.
  destruct (get st (fst h)) as [nd|] eqn:Eg; [|congruence].
  destruct (snd h =? i_type nd)%N; [|intros [= <- <-]; auto]. destruct (snd h =? TDIR)%N; [|intros [= <- <-]; auto].
  cbn [dspec_step]. destruct (name_too_long n); [intros [= <- <-]; auto|].
  destruct (find_name cmp n (i_dir nd)) as [e|] eqn:Ef; intros [= <- <-].
  - apply (CI_same own D st (fst h) nd); auto.
  - split.
    + eapply (CI_put own D); try eassumption; cbn [with_dir i_dir i_type i_mode i_nlink].
      * reflexivity.
      * cbn [names_distinct]. split; [exact Ef|now apply (ci_names _ _ _ H (fst h))].
      * intros e [<-|He]; [right; cbn; eauto|now left].
      * intros id. rewrite cnt_cons. cbn [e_id]. unfold ind. destruct (bytes_eqb x id); lia.
      * intros id Hd. apply (ci_debt _ _ _ H). pose proof (ind_nonneg x id). lia.
      * now apply (ci_used _ _ _ H (fst h) nd).
    + rewrite get_put. destruct (bytes_eqb (fst h) x) eqn:E.
      * apply bytes_eqb_eq in E. rewrite E in Eg. assert (nd = nx) by congruence. subst. eexists. split; [reflexivity|]. split; reflexivity.
      * eauto.
Qed.

Lemma CI_down own D st x : CI own D st -> room st -> In x (map fst own) -> (1 <= D x)%Z ->
  CI own (fun id => (D id - ind x id)%Z) (count_down x st).
Proof.
  intros H Hr Hi Hd. unfold count_down. pose proof (ci_there _ _ _ _ H Hi) as Hh. destruct (get st x) as [nd|] eqn:Eg; [|congruence].
  pose proof (ci_nlink _ _ _ H x nd Eg) as Hn. pose proof (Hr x nd Eg) as Hb.
  assert (Ed : dec32 (i_nlink nd) = (i_nlink nd - 1)%N).
  { unfold dec32. replace (i_nlink nd + (2 ^ 32 - 1))%N with ((i_nlink nd - 1) + 1 * 2 ^ 32)%N by lia. rewrite N.mod_add by lia. apply N.mod_small. lia. }
  eapply (CI_put own D); try eassumption; cbn [with_nlink i_dir i_type i_mode i_nlink].
  - reflexivity.
  - now apply (ci_names _ _ _ H x).
  - auto.
  - intros id. rewrite Ed. replace (Z.of_N (i_nlink nd - 1) - Z.of_N (i_nlink nd))%Z with (-1)%Z by lia. lia.
  - intros id Hd'. apply (ci_debt _ _ _ H). pose proof (ind_nonneg x id). lia.
  - auto.
Qed.
Lemma CI_up own D st x nd : CI own D st -> (i_nlink nd < 2 ^ 32 - 1)%N -> get st x = Some nd ->
  CI own (fun id => (D id + ind x id)%Z) (put st x (with_nlink (inc32 (i_nlink nd)) nd)).
Proof.
  intros H Hb Eg.
  assert (Ed : inc32 (i_nlink nd) = (i_nlink nd + 1)%N) by (unfold inc32; apply N.mod_small; lia).
  eapply (CI_put own D); try eassumption; cbn [with_nlink i_dir i_type i_mode i_nlink].
  - reflexivity.
  - now apply (ci_names _ _ _ H x).
  - auto.
  - intros id. rewrite Ed. replace (Z.of_N (i_nlink nd + 1) - Z.of_N (i_nlink nd))%Z with 1%Z by lia. lia.
  - intros id Hd'. destruct (list_eq_dec Byte.byte_eq_dec x id) as [<-|Hne]; [congruence|]. rewrite (ind_ne x id) in Hd' by exact Hne.
    apply (ci_debt _ _ _ H). lia.
  - rewrite Ed. right. left. lia.
Qed.
Lemma CI_new own D st x nd : CI own D st -> get st x = None -> i_nlink nd = 1%N -> i_dir nd = [] ->
  i_type nd = TREG \/ i_type nd = TDIR \/ i_type nd = TLINK -> (forall id, (0 <= D id)%Z) ->
  CI ((x, i_type nd) :: own) (fun id => (D id + ind x id)%Z) (hold x (put st x nd)).
Proof.
  intros H Hx Hn Hd Ht Hnn.
  assert (HD0 : D x = 0%Z). { destruct (Z_lt_le_dec 0 (D x)) as [Hl|Hl]; [now elim (ci_debt _ _ _ H x Hl)|]. specialize (Hnn x). lia. }
  assert (Hrx : refs st x = 0).
  { rewrite refs_cnt. apply cnt_zero. intros e He Hc. destruct (ci_entries _ _ _ H e He) as (n & Hg & _). congruence. }
  assert (Hnr : x <> root_id). { intros ->. destruct (ci_root _ _ _ H) as (n & Hg & _). congruence. }
  set (st' := put st x nd).
  assert (R : forall id, refs st' id = refs st id).
  { intros id. rewrite !refs_cnt. unfold st'. cbn [put nodes]. rewrite cnt_put_new by exact Hx. rewrite Hd. cbn. lia. }
  assert (X : forall id n, get st id = Some n -> get st' id = Some n).
  { intros id n Hg. unfold st'. rewrite get_put_ne; [exact Hg|congruence]. }
  assert (Y : forall id n, get st' id = Some n -> (id = x /\ n = nd) \/ (id <> x /\ get st id = Some n)).
  { intros id n. unfold st'. rewrite get_put. destruct (bytes_eqb x id) eqn:E; intros Hg.
    - apply bytes_eqb_eq in E. left. split; congruence.
    - apply bytes_eqb_neq in E. right. split; congruence. }
  constructor; change (get (hold x st')) with (get st'); change (refs (hold x st')) with (refs st'); change (all_entries (hold x st')) with (all_entries st').
  - apply nput_nodup. apply (ci_ids _ _ _ H).
  - destruct (ci_root _ _ _ H) as (n & Hg & Htr). exists n. split; [now apply X|exact Htr].
  - intros id n Hg. rewrite R. destruct (Y _ _ Hg) as [[-> ->]|[Hne Hg']].
    + rewrite ind_refl, HD0, Hn, Hrx. unfold root_bonus. assert (bytes_eqb x root_id = false) as -> by now apply bytes_eqb_neq. reflexivity.
    + rewrite (ind_ne x id) by congruence. pose proof (ci_nlink _ _ _ H id n Hg'). lia.
  - intros e He. apply entries_put in He. rewrite Hd in He. destruct He as [[]|He]. destruct (ci_entries _ _ _ H e He) as (n & Hg & Hte). exists n. split; [now apply X|exact Hte].
  - intros id Hl. destruct (list_eq_dec Byte.byte_eq_dec x id) as [<-|Hne]; [unfold st'; rewrite get_put_eq; discriminate|].
    rewrite (ind_ne x id) in Hl by exact Hne. pose proof (ci_debt _ _ _ H id ltac:(lia)) as Hg. destruct (get st id) as [n|] eqn:E; [|congruence]. rewrite (X _ _ E). discriminate.
  - cbn. constructor. apply (ci_own _ _ _ H).
  - intros id t [[= <- <-]|Hi]; [unfold st'; rewrite get_put_eq; eauto|].
    destruct (ci_have _ _ _ H id t Hi) as (n & Hg & Htn). exists n. split; [now apply X|exact Htn].
  - intros id n Hg. destruct (Y _ _ Hg) as [[-> ->]|[Hne Hg']]; [right; right; now left|].
    destruct (ci_used _ _ _ H id n Hg') as [E|[E|E]]; auto. right. right. now right.
  - intros id n Hg. destruct (Y _ _ Hg) as [[-> ->]|[Hne Hg']]; [rewrite Hd; exact I|]. now apply (ci_names _ _ _ H id).
  - intros id n Hg. destruct (Y _ _ Hg) as [[-> ->]|[Hne Hg']]; [exact Ht|]. now apply (ci_types _ _ _ H id).
Qed.
End Conc.
