(** Path resolution follows the names. *)
From Coq Require Import Strings.String Lia.
From Verif Require Import Base BaseLemmas TextModel NameModel BtreeModel BtreeSpec FullFsModel FullFsSpec FullFsProofs.
Local Open Scope list_scope.

Definition occ (id : bytes) (l : list bytes) : nat := length (filter (bytes_eqb id) l).
Lemma occ_cons id x l : occ id (x :: l) = (if bytes_eqb id x then 1 else 0) + occ id l.
Proof. unfold occ. cbn [filter]. now destruct (bytes_eqb id x). Qed.
Lemma occ_in id l : In id l <-> occ id l > 0.
Proof.
  induction l as [|x l IH]; [cbn; split; [easy|lia]|]. rewrite occ_cons. cbn [In].
  destruct (bytes_eqb id x) eqn:E.
  - apply bytes_eqb_eq in E. subst. split; [lia|now left].
  - apply bytes_eqb_neq in E. rewrite IH. split; [intros [H|H]; [congruence|lia]|intros H; right; lia].
Qed.

(** A state in which every file's link count is right, up to the names in [pos] that
    are taken away but still counted, and those in [neg] that are made but not counted. *)
Record Inv (cmp : bytes -> bytes -> comparison) (pos neg : list bytes) (st : ffs) : Prop := {
  iv_ids : NoDup (map fst (nodes st));
  iv_root : exists nd, get st root_id = Some nd /\ i_type nd = TDIR /\ i_parent nd = root_id;
  iv_rootref : refs st root_id = 0 /\ ~ In root_id pos;
  iv_nlink : forall id nd, get st id = Some nd -> (i_nlink nd + N.of_nat (occ id neg) = N.of_nat (refs st id + root_bonus id + occ id pos))%N;
  iv_entries : forall e, In e (all_entries st) -> exists nd, get st (e_id e) = Some nd /\ i_type nd = e_type e;
  iv_pos : forall id, In id pos -> get st id <> None;
  iv_opened : forall id, In id (opened st) -> get st id <> None;
  iv_garbage : forall id nd, get st id = Some nd -> id = root_id \/ refs st id > 0 \/ In id (opened st) \/ In id pos;
  iv_once : forall id nd, get st id = Some nd -> i_type nd = TDIR -> refs st id + occ id pos <= 1;
  iv_dironly : forall id nd, get st id = Some nd -> i_dir nd <> [] -> i_type nd = TDIR;
  iv_names : forall id nd, get st id = Some nd -> names_distinct cmp (i_dir nd);
  iv_unlinked : forall id nd, get st id = Some nd -> id <> root_id -> refs st id = 0 -> ~ In id pos -> i_dir nd = [];
  iv_types : forall id nd, get st id = Some nd -> i_type nd = TREG \/ i_type nd = TDIR \/ i_type nd = TLINK }.

(** ** Forgetting parents *)
Definition unp (nd : inode) : inode := with_parent root_id nd.
Lemma sf_refl st : same_files st st.
Proof. now split. Qed.
Lemma sf_trans a b c : same_files a b -> same_files b c -> same_files a c.
Proof. intros [H1 H2] [H3 H4]. split; congruence. Qed.
Lemma sf_sym a b : same_files a b -> same_files b a.
Proof. intros [H1 H2]. now split. Qed.
Lemma nget_unp id l : option_map unp (nget id l) = nget id (map (fun p => (fst p, with_parent root_id (snd p))) l).
Proof.
  induction l as [|[i n] l IH]; cbn [map nget fst snd option_map]; [reflexivity|].
  destruct (bytes_eqb i id); [reflexivity|exact IH].
Qed.
Lemma sf_get st st' id : same_files st st' -> option_map unp (get st id) = option_map unp (get st' id).
Proof. intros [H _]. unfold get. now rewrite !nget_unp, H. Qed.
Lemma sf_get_some st st' id nd : same_files st st' -> get st id = Some nd ->
  exists nd', get st' id = Some nd' /\ unp nd' = unp nd.
Proof.
  intros H Hg. pose proof (sf_get _ _ id H) as E. rewrite Hg in E. destruct (get st' id) as [nd'|]; [|discriminate].
  assert (E' : unp nd = unp nd') by (cbn [option_map] in E; congruence). exists nd'. auto.
Qed.
Lemma unp_fields a b : unp a = unp b -> i_mode a = i_mode b /\ i_nlink a = i_nlink b /\ i_dir a = i_dir b /\ i_data a = i_data b.
Proof. unfold unp, with_parent. intros [= H1 H2 H3 H4]. auto. Qed.
Lemma unp_type a b : unp a = unp b -> i_type a = i_type b.
Proof. intros H. apply unp_fields in H. unfold i_type. destruct H as [-> _]. reflexivity. Qed.
Lemma sf_entries st st' : same_files st st' -> all_entries st = all_entries st'.
Proof.
  intros [H _]. unfold all_entries.
  assert (E : forall l, flat_map (fun p : bytes * inode => i_dir (snd p)) l =
                        flat_map (fun p => i_dir (snd p)) (map (fun p => (fst p, with_parent root_id (snd p))) l)).
  { induction l as [|[i n] l IH]; cbn [flat_map map fst snd]; [reflexivity|]. now rewrite IH. }
  rewrite E, H, <- E. reflexivity.
Qed.
Lemma sf_refs st st' id : same_files st st' -> refs st id = refs st' id.
Proof. intros H. unfold refs. now rewrite (sf_entries _ _ H). Qed.
Lemma sf_keys st st' : same_files st st' -> map fst (nodes st) = map fst (nodes st').
Proof.
  intros [H _].
  assert (E : forall l : list (bytes * inode), map fst l = map fst (map (fun p => (fst p, with_parent root_id (snd p))) l)).
  { intros l. rewrite map_map. reflexivity. }
  rewrite E, H, <- E. reflexivity.
Qed.
Lemma sf_put st id nd nd' : get st id = Some nd -> unp nd' = unp nd -> same_files st (put st id nd').
Proof.
  intros Hg Hu. split; [|reflexivity]. unfold get, put in *. cbn [nodes].
  induction (nodes st) as [|[i n] l IH]; cbn [nget nput map] in *; [discriminate|].
  destruct (bytes_eqb i id) eqn:E; cbn [map fst snd].
  - injection Hg as ->. apply bytes_eqb_eq in E. subst. f_equal. f_equal. unfold unp in Hu. auto.
  - f_equal. auto.
Qed.
Lemma sf_set_parent st id p : same_files st (set_parent id p st).
Proof.
  unfold set_parent. destruct (get st id) as [nd|] eqn:E; [|apply sf_refl].
  eapply sf_put; [exact E|]. destruct nd. reflexivity.
Qed.
Lemma sf_name_in cmp st st' d n : same_files st st' -> name_in cmp st d n = name_in cmp st' d n.
Proof.
  intros H. unfold name_in. pose proof (sf_get _ _ d H) as E.
  destruct (get st d) as [a|], (get st' d) as [b|]; try discriminate; [|reflexivity].
  assert (E' : unp a = unp b) by (cbn [option_map] in E; congruence). apply unp_fields in E'. destruct E' as (_ & _ & -> & _). reflexivity.
Qed.
Lemma sf_dir st st' id : same_files st st' -> is_dir st id -> is_dir st' id.
Proof.
  intros H (nd & Hg & Ht). destruct (sf_get_some _ _ _ _ H Hg) as (nd' & Hg' & Hu).
  exists nd'. split; [exact Hg'|]. rewrite <- Ht. apply unp_type. auto.
Qed.
Lemma sf_full st st' id : same_files st st' -> is_full_dir st id -> is_full_dir st' id.
Proof.
  intros H (nd & Hg & Ht). destruct (sf_get_some _ _ _ _ H Hg) as (nd' & Hg' & Hu).
  exists nd'. split; [exact Hg'|]. apply unp_fields in Hu. destruct Hu as (_ & _ & -> & _). exact Ht.
Qed.
Lemma sf_leads cmp st st' k s p r : same_files st st' -> leads cmp st k s p r -> leads cmp st' k s p r.
Proof.
  intros H L.
  induction L as [k s|k s p r L IH|k d p r L IH|k x d s p r L IH
                 |k d s nd n p N1 N2 Hl Hg Ht Hn
                 |k d s nd n p r x ty N1 N2 Hl Hg Ht Hn Hty L IH
                 |k d s nd n p x ln N1 N2 Hl Hg Ht Hn Hx L IH
                 |k d s nd n p r x ln s1 N1 N2 Hl Hg Ht Hn Hx L1 IH1 L IH].
  - constructor.
  - now constructor.
  - now constructor.
  - now constructor.
  - destruct (sf_get_some _ _ _ _ H Hg) as (nd' & Hg' & Hu). rewrite (sf_name_in _ _ _ _ _ H) in Hn.
    eapply L_missing; try eassumption. rewrite (unp_type _ _ Hu). exact Ht.
  - destruct (sf_get_some _ _ _ _ H Hg) as (nd' & Hg' & Hu). rewrite (sf_name_in _ _ _ _ _ H) in Hn.
    eapply L_name; try eassumption. rewrite (unp_type _ _ Hu). exact Ht.
  - destruct (sf_get_some _ _ _ _ H Hg) as (nd' & Hg' & Hu). rewrite (sf_name_in _ _ _ _ _ H) in Hn.
    destruct (sf_get_some _ _ _ _ H Hx) as (ln' & Hx' & Hul). pose proof (unp_fields _ _ Hul) as (_ & _ & _ & Hd).
    eapply L_link_missing; try eassumption; [rewrite (unp_type _ _ Hu); exact Ht|]. rewrite Hd. exact IH.
  - destruct (sf_get_some _ _ _ _ H Hg) as (nd' & Hg' & Hu). rewrite (sf_name_in _ _ _ _ _ H) in Hn.
    destruct (sf_get_some _ _ _ _ H Hx) as (ln' & Hx' & Hul). pose proof (unp_fields _ _ Hul) as (_ & _ & _ & Hd).
    eapply L_link; try eassumption; [rewrite (unp_type _ _ Hu); exact Ht|]. rewrite Hd. exact IH1.
Qed.
Lemma sf_designates cmp st st' path d n : same_files st st' -> designates cmp st path d n -> designates cmp st' path d n.
Proof.
  intros H [D|(D1 & D2 & s & D3)]; [now left|]. right. repeat split; try assumption. exists s. eapply sf_leads; eassumption.
Qed.

(** Walking is a function. *)
Lemma leads_det cmp st k s p r : leads cmp st k s p r -> forall r', leads cmp st k s p r' -> r = r'.
Proof.
  intros L.
  induction L as [k s|k s p r L IH|k d p r L IH|k x d s p r L IH
                 |k d s nd n p N1 N2 Hl Hg Ht Hn
                 |k d s nd n p r x ty N1 N2 Hl Hg Ht Hn Hty L IH
                 |k d s nd n p x ln N1 N2 Hl Hg Ht Hn Hx L IH
                 |k d s nd n p r x ln s1 N1 N2 Hl Hg Ht Hn Hx L1 IH1 L IH];
  intros r' L'; inversion L'; subst; try congruence; auto; try discriminate.
  - assert (x0 = x) by congruence. subst. auto.
  - assert (x0 = x) by congruence. subst. assert (ln0 = ln) by congruence. subst.
    match goal with H : leads _ _ _ _ _ (Some _) |- _ => apply IH in H; discriminate H end.
  - assert (x0 = x) by congruence. subst. assert (ln0 = ln) by congruence. subst.
    match goal with H : leads _ _ _ _ (path_comps _) None |- _ => apply IH1 in H; discriminate H end.
  - assert (x0 = x) by congruence. subst. assert (ln0 = ln) by congruence. subst.
    match goal with H : leads _ _ _ _ (path_comps _) (Some _) |- _ => apply IH1 in H; injection H as <- end. auto.
Qed.
Lemma sf_fails cmp st st' k s p e : same_files st st' -> fails cmp st k s p e -> fails cmp st' k s p e.
Proof.
  intros H X.
  induction X as [k s p e X IH|k d p e X IH|k x d s p e X IH
                 |k d s nd n p N1 N2 Hg Ht|k d s nd n p N1 N2 Hg Ht Hl
                 |k d s nd n p x ty e N1 N2 Hl Hg Ht Hn Hty X IH
                 |d s nd n p x N1 N2 Hl Hg Ht Hn
                 |k d s nd n p x ln e N1 N2 Hl Hg Ht Hn Hx X IH
                 |k d s nd n p x ln s1 e N1 N2 Hl Hg Ht Hn Hx L X IH];
  try (now constructor); destruct (sf_get_some _ _ _ _ H Hg) as (nd' & Hg' & Hu); rewrite <- (unp_type _ _ Hu) in Ht;
  try rewrite (sf_name_in _ _ _ _ _ H) in Hn.
  - eapply X_notdir; eassumption.
  - eapply X_long; eassumption.
  - eapply X_name; eassumption.
  - eapply X_loop; eassumption.
  - destruct (sf_get_some _ _ _ _ H Hx) as (ln' & Hx' & Hul). pose proof (unp_fields _ _ Hul) as (_ & _ & _ & Hd).
    eapply X_in; try eassumption. rewrite Hd. exact IH.
  - destruct (sf_get_some _ _ _ _ H Hx) as (ln' & Hx' & Hul). pose proof (unp_fields _ _ Hul) as (_ & _ & _ & Hd).
    eapply X_after; try eassumption. rewrite Hd. eapply sf_leads; eassumption.
Qed.
Lemma fails_no cmp st k s p e : fails cmp st k s p e -> e <> EUndef /\ forall o, ~ leads cmp st k s p o.
Proof.
  intros X.
  induction X as [k s p e X [IH1 IH]|k d p e X [IH1 IH]|k x d s p e X [IH1 IH]
                 |k d s nd n p N1 N2 Hg Ht|k d s nd n p N1 N2 Hg Ht Hl
                 |k d s nd n p x ty e N1 N2 Hl Hg Ht Hn Hty X [IH1 IH]
                 |d s nd n p x N1 N2 Hl Hg Ht Hn
                 |k d s nd n p x ln e N1 N2 Hl Hg Ht Hn Hx X [IH1 IH]
                 |k d s nd n p x ln s1 e N1 N2 Hl Hg Ht Hn Hx L X [IH1 IH]];
  (split; [first [assumption | discriminate]|]); intros o L'; inversion L'; subst; try congruence; try lia; try (eapply IH; eassumption).
  - assert (x0 = x) by congruence. subst. eapply IH; eassumption.
  - assert (x0 = x) by congruence. subst. assert (ln0 = ln) by congruence. subst. eapply IH; eassumption.
  - assert (x0 = x) by congruence. subst. assert (ln0 = ln) by congruence. subst. eapply IH; eassumption.
  - assert (x0 = x) by congruence. subst. assert (ln0 = ln) by congruence. subst.
    match goal with H : leads _ _ _ _ (path_comps _) None |- _ => pose proof (leads_det _ _ _ _ _ _ L _ H) as Hd; discriminate Hd end.
  - assert (x0 = x) by congruence. subst. assert (ln0 = ln) by congruence. subst.
    match goal with H : leads _ _ _ _ (path_comps _) (Some _) |- _ => pose proof (leads_det _ _ _ _ _ _ L _ H) as Hd; injection Hd as <- end.
    eapply IH; eassumption.
Qed.

Lemma leads_mono cmp st k s p r : leads cmp st k s p r -> leads cmp st (S k) s p r.
Proof.
  intros L.
  induction L as [k s|k s p r L IH|k d p r L IH|k x d s p r L IH
                 |k d s nd n p N1 N2 Hl Hg Ht Hn
                 |k d s nd n p r x ty N1 N2 Hl Hg Ht Hn Hty L IH
                 |k d s nd n p x ln N1 N2 Hl Hg Ht Hn Hx L IH
                 |k d s nd n p r x ln s1 N1 N2 Hl Hg Ht Hn Hx L1 IH1 L IH].
  - constructor.
  - now constructor.
  - now constructor.
  - now constructor.
  - eapply L_missing; eassumption.
  - eapply L_name; eassumption.
  - eapply L_link_missing; eassumption.
  - eapply L_link; eassumption.
Qed.
Lemma leads_app cmp st k s p s1 : leads cmp st k s p (Some s1) -> forall q r, leads cmp st k s1 q r -> leads cmp st k s (p ++ q) r.
Proof.
  intros L. remember (Some s1) as o eqn:Eo. revert s1 Eo.
  induction L as [k s|k s p r L IH|k d p r L IH|k x d s p r L IH
                 |k d s nd n p N1 N2 Hl Hg Ht Hn
                 |k d s nd n p r x ty N1 N2 Hl Hg Ht Hn Hty L IH
                 |k d s nd n p x ln N1 N2 Hl Hg Ht Hn Hx L IH
                 |k d s nd n p r x ln s2 N1 N2 Hl Hg Ht Hn Hx L1 IH1 L IH]; intros s1 Eo q r' Q; try discriminate; cbn [app].
  - injection Eo as ->. exact Q.
  - constructor. eapply IH; eassumption.
  - constructor. eapply IH; eassumption.
  - constructor. eapply IH; eassumption.
  - eapply L_name; try eassumption. eapply IH; eassumption.
  - eapply L_link; try eassumption. eapply IH; eassumption.
Qed.

(** ** The chain of parents *)
Definition contains (st : ffs) (d x : bytes) : Prop := exists nd e, get st d = Some nd /\ In e (i_dir nd) /\ e_id e = x.
Fixpoint chain (st : ffs) (s : list bytes) : Prop :=
  match s with
  | [] => False
  | x :: t =>
    match t with
    | [] => x = root_id
    | y :: _ => x <> root_id /\ (exists nd, get st x = Some nd /\ i_parent nd = y) /\ contains st y x /\ chain st t
    end
  end.

Section Path.
Variable cmp : bytes -> bytes -> comparison.
Hypothesis Hcmp : cmp_ok cmp.
Variables pos neg : list bytes.

Lemma sf_contains st st' d x : same_files st st' -> contains st d x -> contains st' d x.
Proof.
  intros H (nd & e & Hg & Hi & He). destruct (sf_get_some _ _ _ _ H Hg) as (nd' & Hg' & Hu).
  exists nd', e. repeat split; try assumption. apply unp_fields in Hu. destruct Hu as (_ & _ & -> & _). exact Hi.
Qed.
Lemma contains_refs st d x : NoDup (map fst (nodes st)) -> contains st d x -> refs st x > 0.
Proof.
  intros Hn (nd & e & Hg & Hi & He). rewrite refs_cnt.
  assert (cnt x (i_dir nd) > 0) by (apply cnt_pos; eauto). pose proof (one_name x d nd (nodes st) Hn Hg). lia.
Qed.
Lemma contains_once st d d' x : Inv cmp pos neg st -> is_dir st x -> contains st d x -> contains st d' x -> d = d'.
Proof.
  intros Hv (nx & Hx & Ht) (nd & e & Hg & Hi & He) (nd' & e' & Hg' & Hi' & He').
  destruct (list_eq_dec Byte.byte_eq_dec d d') as [|Hne]; [assumption|exfalso].
  pose proof (two_names x d d' nd nd' (nodes st) (iv_ids _ _ _ _ Hv) Hne Hg Hg') as H.
  assert (cnt x (i_dir nd) > 0) by (apply cnt_pos; eauto).
  assert (cnt x (i_dir nd') > 0) by (apply cnt_pos; eauto).
  pose proof (iv_once _ _ _ _ Hv x nx Hx Ht) as Ho. rewrite refs_cnt in Ho. lia.
Qed.
Lemma contains_dir st d x : Inv cmp pos neg st -> contains st d x -> is_dir st d.
Proof.
  intros Hv (nd & e & Hg & Hi & He). exists nd. split; [exact Hg|]. apply (iv_dironly _ _ _ _ Hv d nd Hg).
  destruct (i_dir nd); [easy|discriminate].
Qed.
Lemma contains_get st d x : Inv cmp pos neg st -> contains st d x -> exists nx, get st x = Some nx.
Proof.
  intros Hv (nd & e & Hg & Hi & He). destruct (iv_entries _ _ _ _ Hv e) as (nx & Hx & _).
  - apply in_ent_of. exists d, nd. split; [now apply nget_in|exact Hi].
  - exists nx. now rewrite <- He.
Qed.

Lemma get_set_parent st x p id : get (set_parent x p st) id =
  if bytes_eqb x id then option_map (with_parent p) (get st id) else get st id.
Proof.
  unfold set_parent. destruct (get st x) as [nd|] eqn:E.
  - rewrite get_put. destruct (bytes_eqb x id) eqn:Ex; [|reflexivity]. apply bytes_eqb_eq in Ex. subst. now rewrite E.
  - destruct (bytes_eqb x id) eqn:Ex; [|reflexivity]. apply bytes_eqb_eq in Ex. subst. now rewrite E.
Qed.

Lemma Inv_sf st st' : Inv cmp pos neg st -> same_files st st' ->
  (exists nd, get st' root_id = Some nd /\ i_parent nd = root_id) -> Inv cmp pos neg st'.
Proof.
  intros Hv H (nr & Hr & Hp). pose proof (sf_sym _ _ H) as H'.
  assert (Hback : forall id nd', get st' id = Some nd' -> exists nd, get st id = Some nd /\ unp nd = unp nd')
    by (intros id nd' Hg; exact (sf_get_some _ _ _ _ H' Hg)).
  assert (Hex : forall id, get st id <> None -> get st' id <> None).
  { intros id Hg. pose proof (sf_get _ _ id H) as E. destruct (get st id), (get st' id); try discriminate; congruence. }
  constructor.
  - rewrite <- (sf_keys _ _ H). apply (iv_ids _ _ _ _ Hv).
  - exists nr. repeat split; try assumption. destruct (Hback _ _ Hr) as (nd & Hg & Hu). rewrite <- (unp_type _ _ Hu).
    destruct (iv_root _ _ _ _ Hv) as (nd2 & Hg2 & Ht & _). congruence.
  - rewrite <- (sf_refs _ _ _ H). apply (iv_rootref _ _ _ _ Hv).
  - intros id nd' Hg. destruct (Hback _ _ Hg) as (nd & Hg0 & Hu). rewrite <- (sf_refs _ _ _ H).
    apply unp_fields in Hu. destruct Hu as (_ & <- & _). now apply (iv_nlink _ _ _ _ Hv).
  - intros e He. rewrite <- (sf_entries _ _ H) in He. destruct (iv_entries _ _ _ _ Hv e He) as (nd & Hg & Ht).
    destruct (sf_get_some _ _ _ _ H Hg) as (nd' & Hg' & Hu). exists nd'. split; [exact Hg'|]. rewrite <- Ht. now apply unp_type.
  - intros id Hi. apply Hex. now apply (iv_pos _ _ _ _ Hv).
  - intros id Hi. apply Hex. apply (iv_opened _ _ _ _ Hv). destruct H as [_ ->]. exact Hi.
  - intros id nd' Hg. destruct (Hback _ _ Hg) as (nd & Hg0 & Hu). rewrite <- (sf_refs _ _ _ H). destruct H as [_ <-].
    now apply (iv_garbage _ _ _ _ Hv id nd).
  - intros id nd' Hg Ht. destruct (Hback _ _ Hg) as (nd & Hg0 & Hu). rewrite <- (sf_refs _ _ _ H).
    apply (iv_once _ _ _ _ Hv id nd Hg0). now rewrite (unp_type _ _ Hu).
  - intros id nd' Hg Ht. destruct (Hback _ _ Hg) as (nd & Hg0 & Hu). rewrite <- (unp_type _ _ Hu).
    apply (iv_dironly _ _ _ _ Hv id nd Hg0). apply unp_fields in Hu. destruct Hu as (_ & _ & -> & _). exact Ht.
  - intros id nd' Hg. destruct (Hback _ _ Hg) as (nd & Hg0 & Hu). apply unp_fields in Hu. destruct Hu as (_ & _ & <- & _).
    now apply (iv_names _ _ _ _ Hv id nd).
  - intros id nd' Hg Hr0 Hz Hp0. destruct (Hback _ _ Hg) as (nd & Hg0 & Hu). apply unp_fields in Hu. destruct Hu as (_ & _ & <- & _).
    apply (iv_unlinked _ _ _ _ Hv id nd); try assumption. now rewrite (sf_refs _ _ _ H).
  - intros id nd' Hg. destruct (Hback _ _ Hg) as (nd & Hg0 & Hu). rewrite <- (unp_type _ _ Hu).
    now apply (iv_types _ _ _ _ Hv id nd).
Qed.
Lemma Inv_set_parent st x p : Inv cmp pos neg st -> x <> root_id -> Inv cmp pos neg (set_parent x p st).
Proof.
  intros Hv Hx. apply (Inv_sf st); [exact Hv|apply sf_set_parent|].
  destruct (iv_root _ _ _ _ Hv) as (nd & Hg & _ & Hp). exists nd. split; [|exact Hp].
  rewrite get_set_parent. assert (bytes_eqb x root_id = false) as -> by now apply bytes_eqb_neq. exact Hg.
Qed.
Lemma contains_not_root st d x : Inv cmp pos neg st -> contains st d x -> x <> root_id.
Proof.
  intros Hv Hc ->. pose proof (contains_refs _ _ _ (iv_ids _ _ _ _ Hv) Hc) as H.
  pose proof (proj1 (iv_rootref _ _ _ _ Hv)). lia.
Qed.

Lemma chain_dirs st x s y : Inv cmp pos neg st -> chain st (x :: s) -> In y s -> is_dir st y.
Proof.
  intros Hv. revert x. induction s as [|z s IH]; intros x Hc Hi; [easy|].
  destruct Hc as (_ & _ & Hcon & Hc). destruct Hi as [->|Hi].
  - eapply contains_dir; eassumption.
  - eapply IH; eassumption.
Qed.
Lemma chain_set st x d : Inv cmp pos neg st -> contains st d x ->
  forall s, (forall y, In y s -> is_dir st y) -> chain st s -> chain (set_parent x d st) s.
Proof.
  intros Hv Hcon. induction s as [|y s IH]; intros Hd Hc; [easy|].
  destruct s as [|z s]; [exact Hc|]. destruct Hc as (Hy & (nd & Hg & Hp) & Hyz & Hc).
  split; [exact Hy|]. split; [|split].
  - rewrite get_set_parent. destruct (bytes_eqb x y) eqn:E.
    + apply bytes_eqb_eq in E. subst y. rewrite Hg. cbn [option_map]. eexists. split; [reflexivity|]. cbn.
      apply (contains_once st d z x Hv); [apply Hd; now left|exact Hcon|exact Hyz].
    + eauto.
  - eapply sf_contains; [apply sf_set_parent|exact Hyz].
  - apply IH; [|exact Hc]. intros w Hw. apply Hd. now right.
Qed.
Lemma chain_push st x d s : Inv cmp pos neg st -> is_dir st d -> contains st d x -> chain st (d :: s) ->
  chain (set_parent x d st) (x :: d :: s) /\ chain (set_parent x d st) (d :: s).
Proof.
  intros Hv Hd Hcon Hc.
  assert (Hc2 : chain (set_parent x d st) (d :: s)).
  { apply chain_set; try assumption. intros y [<-|Hy]; [exact Hd|]. eapply chain_dirs; eassumption. }
  split; [|exact Hc2]. split; [eapply contains_not_root; eassumption|]. split; [|split; [|exact Hc2]].
  - destruct (contains_get _ _ _ Hv Hcon) as (nx & Hx). rewrite get_set_parent, bytes_eqb_refl, Hx. cbn. eauto.
  - eapply sf_contains; [apply sf_set_parent|exact Hcon].
Qed.

(** ** generic_open *)
Definition on (st : ffs) (h : holder) : Prop := exists nd, get st (fst h) = Some nd /\ i_type nd = snd h.

Definition walked (k : nat) (st : ffs) (s p : list bytes) (st' : ffs) (r : res (option holder)) : Prop :=
  same_files st st' /\ Inv cmp pos neg st' /\
  match r with
  | Ok (Some h) => exists s', leads cmp st k s p (Some (fst h :: s')) /\ on st' h /\ chain st' (fst h :: s')
  | Ok None => leads cmp st k s p None
  | Err e => fails cmp st k s p e
  end.

Lemma find_name_in st d n : name_in cmp st d n =
  match get st d with Some nd => match find_name cmp n (i_dir nd) with Some e => Some (e_id e, e_type e) | None => None end | None => None end.
Proof. unfold name_in. destruct (get st d); [|reflexivity]. now destruct (find_name cmp n (i_dir i)). Qed.

Lemma get_entry_ok st h n : on st h ->
  get_entry cmp h n st =
    if (snd h =? TDIR)%N then if name_too_long n then Err E_NAMETOOLONG else
      match get st (fst h) with Some nd => Ok (find_name cmp n (i_dir nd)) | None => Err EUndef end
    else Err E_PERM.
Proof.
  intros (nd & Hg & Ht). unfold get_entry, cast_as. rewrite Hg, Ht, N.eqb_refl. cbn [rbind].
  destruct (snd h =? TDIR)%N; [|reflexivity]. cbn [rbind dspec_step]. destruct (name_too_long n); reflexivity.
Qed.

Lemma open_entry st e : Inv cmp pos neg st -> In e (all_entries st) -> open_as (e_id e) (e_type e) st = Ok (e_id e, e_type e) /\
  on st (e_id e, e_type e) /\ e_id e <> root_id.
Proof.
  intros Hv He. destruct (iv_entries _ _ _ _ Hv e He) as (nx & Hx & Ht).
  assert (Hr : e_id e <> root_id).
  { intros E. pose proof (proj1 (iv_rootref _ _ _ _ Hv)) as H0. rewrite refs_cnt in H0. rewrite cnt_zero in H0. now apply (H0 e He). }
  split; [|split; [exists nx; auto|exact Hr]].
  unfold open_as. assert (bytes_eqb (e_id e) root_id = false) as -> by now apply bytes_eqb_neq. rewrite Hx.
  destruct (iv_types _ _ _ _ Hv _ _ Hx) as [E|[E|E]]; rewrite E in Ht; rewrite <- Ht; reflexivity.
Qed.
Lemma find_entry st d nd n e : get st d = Some nd -> find_name cmp n (i_dir nd) = Some e ->
  In e (all_entries st) /\ contains st d (e_id e).
Proof.
  intros Hg Hf. apply find_some in Hf. destruct Hf as [Hi _]. split.
  - apply in_ent_of. exists d, nd. split; [now apply nget_in|exact Hi].
  - exists nd, e. auto.
Qed.

Lemma is_dir_on st h : on st h -> snd h = TDIR -> is_dir st (fst h).
Proof. intros (nd & Hg & Ht) E. exists nd. split; [exact Hg|congruence]. Qed.

Lemma long_iff n : name_too_long n = false <-> length n <= 255.
Proof. unfold name_too_long. rewrite Nat.ltb_ge. reflexivity. Qed.

Lemma generic_open_ok k : forall splits s h st, Inv cmp pos neg st -> chain st (fst h :: s) -> on st h ->
  forall st' r, generic_open cmp (S k) splits (fst h) h st = (st', r) -> walked k st (fst h :: s) splits st' r.
Proof.
  induction k as [k IHk] using (well_founded_induction Wf_nat.lt_wf).
  induction splits as [|c cs IH]; intros s h st Hv Hch Hon st' r Hrun.
  - cbn in Hrun. injection Hrun as <- <-. split; [apply sf_refl|]. split; [exact Hv|]. exists s.
    split; [constructor|]. auto.
  - cbn [generic_open] in Hrun. fold (generic_open cmp k) in Hrun.
    destruct (bytes_eqb c (str ".")) eqn:Edot.
    { apply bytes_eqb_eq in Edot. subst c.
      destruct (IH s h st Hv Hch Hon st' r Hrun) as (W1 & W2 & W3). split; [exact W1|]. split; [exact W2|].
      destruct r as [[h'|]|e].
      - destruct W3 as (s' & L & W). exists s'. split; [now constructor|exact W].
      - now constructor.
      - now constructor. }
    destruct (bytes_eqb c (str "..")) eqn:Edd.
    { apply bytes_eqb_eq in Edd. subst c. pose proof Hon as (nd & Hg & Ht). rewrite Hg in Hrun.
      assert (Hpar : exists d' s', open_as (i_parent nd) TDIR st = Ok (d', TDIR) /\ d' = i_parent nd /\ chain st (d' :: s') /\ on st (d', TDIR) /\
        (forall k' p o, leads cmp st k' (d' :: s') p o <-> leads cmp st k' (fst h :: s) (str ".." :: p) o) /\
        (forall k' p e, fails cmp st k' (d' :: s') p e -> fails cmp st k' (fst h :: s) (str ".." :: p) e)).
      { destruct s as [|y s].
        - change (fst h = root_id) in Hch. destruct (iv_root _ _ _ _ Hv) as (nr & Hr & Htr & Hpr). rewrite Hch in Hg. assert (nr = nd) by congruence. subst nr.
          exists root_id, []. unfold open_as. rewrite Hpr, bytes_eqb_refl. repeat split; try reflexivity.
          + exists nd. auto.
          + rewrite Hch. now constructor.
          + rewrite Hch. intros L. inversion L; subst; try congruence; try assumption.
          + rewrite Hch. intros k' p e X. now constructor.
        - destruct Hch as (Hnr & (nd' & Hg' & Hp') & Hcon & Hch). assert (nd' = nd) by congruence. subst nd'.
          destruct (contains_dir _ _ _ Hv Hcon) as (ny & Hy & Hty).
          exists y, s. rewrite Hp'. unfold open_as.
          split; [destruct (bytes_eqb y root_id); [reflexivity|rewrite Hy; reflexivity]|].
          repeat split; try assumption.
          + exists ny. auto.
          + now constructor.
          + intros L. inversion L; subst; try congruence; try assumption.
          + intros k' p e X. now constructor. }
      destruct Hpar as (d' & s' & Ho & -> & Hch' & Hon' & Hl & HX). rewrite Ho in Hrun.
      destruct (IH s' (i_parent nd, TDIR) st Hv Hch' Hon' st' r Hrun) as (W1 & W2 & W3).
      split; [exact W1|]. split; [exact W2|]. cbn [fst] in W3.
      destruct r as [[h'|]|e].
      - destruct W3 as (s'' & L & W). exists s''. split; [now apply Hl|exact W].
      - now apply Hl.
      - now apply HX. }
    assert (N1 : c <> str ".") by now apply bytes_eqb_neq.
    assert (N2 : c <> str "..") by now apply bytes_eqb_neq.
    rewrite (get_entry_ok _ _ _ Hon) in Hrun. pose proof Hon as (nd & Hg & Ht).
    destruct (snd h =? TDIR)%N eqn:Etd.
    2:{ injection Hrun as <- <-. apply N.eqb_neq in Etd. split; [apply sf_refl|]. split; [exact Hv|].
        eapply X_notdir; try eassumption; congruence. }
    apply N.eqb_eq in Etd. destruct (name_too_long c) eqn:Elong.
    { injection Hrun as <- <-. split; [apply sf_refl|]. split; [exact Hv|].
      assert (Hnl : ~ length c <= 255) by (intros Hl; apply long_iff in Hl; congruence).
      eapply X_long; try eassumption; [congruence|lia]. }
    apply long_iff in Elong. rewrite Hg in Hrun. destruct (find_name cmp c (i_dir nd)) as [e|] eqn:Ef.
    2:{ injection Hrun as <- <-. split; [apply sf_refl|]. split; [exact Hv|].
        eapply L_missing; try eassumption; [congruence|]. rewrite find_name_in, Hg, Ef. reflexivity. }
    destruct (find_entry _ _ _ _ _ Hg Ef) as [Hall Hcon].
    destruct (open_entry _ _ Hv Hall) as (Ho & Hone & Hner). rewrite Ho in Hrun.
    assert (Hnm : name_in cmp st (fst h) c = Some (e_id e, e_type e)) by (rewrite find_name_in, Hg, Ef; reflexivity).
    assert (Htd : i_type nd = TDIR) by congruence.
    assert (Hdir : is_dir st (fst h)) by (exists nd; auto).
    destruct (chain_push _ _ _ _ Hv Hdir Hcon Hch) as [Hpush Hkeep].
    pose proof (Inv_set_parent _ _ (fst h) Hv Hner) as Hv1.
    pose proof (sf_set_parent st (e_id e) (fst h)) as Hsf1.
    set (st1 := set_parent (e_id e) (fst h) st) in *.
    assert (Hon1 : on st1 (e_id e, e_type e)).
    { destruct Hone as (nx & Hx & Htx). destruct (sf_get_some _ _ _ _ Hsf1 Hx) as (nx' & Hx' & Hu).
      exists nx'. split; [exact Hx'|]. rewrite (unp_type _ _ Hu). exact Htx. }
    destruct (e_type e =? TLINK)%N eqn:Elnk.
    + apply N.eqb_eq in Elnk. rewrite Elnk in *. cbn zeta beta in Hrun.
      destruct Hon1 as (nx & Hx & Htx). cbn [fst snd] in Hx, Htx.
      unfold cast_as in Hrun. cbn [fst snd] in Hrun. rewrite Hx, Htx in Hrun. rewrite !N.eqb_refl in Hrun.
      assert (Hx0 : exists ln, get st (e_id e) = Some ln /\ i_data ln = i_data nx).
      { destruct (sf_get_some _ _ _ _ (sf_sym _ _ Hsf1) Hx) as (ln & Hln & Hu). exists ln. split; [exact Hln|]. now apply unp_fields in Hu. }
      destruct Hx0 as (ln & Hln & Hdata).
      destruct (generic_open cmp k (path_comps (i_data nx)) (fst h) h st1) as [st2 rr] eqn:Erun.
      assert (Honh : on st1 h).
      { destruct (sf_get_some _ _ _ _ Hsf1 Hg) as (nd' & Hg' & Hu). exists nd'. split; [exact Hg'|]. rewrite (unp_type _ _ Hu). exact Ht. }
      destruct k as [|k].
      { cbn in Erun. injection Erun as <- <-. injection Hrun as <- <-. split; [exact Hsf1|]. split; [exact Hv1|].
        eapply X_loop; eassumption. }
      destruct (IHk k (Nat.lt_succ_diag_r k) (path_comps (i_data nx)) s h st1 Hv1 Hkeep Honh st2 rr Erun) as (W1 & W2 & W3).
      assert (Hback : forall p o, leads cmp st1 k (fst h :: s) p o <-> leads cmp st k (fst h :: s) p o).
      { intros p o. split; apply sf_leads; [now apply sf_sym|exact Hsf1]. }
      destruct rr as [[h2|]|er].
      * destruct W3 as (s2 & L2 & Hon2 & Hch2).
        destruct (IH s2 h2 st2 W2 Hch2 Hon2 st' r Hrun) as (V1 & V2 & V3).
        pose proof (sf_trans _ _ _ Hsf1 W1) as Hsf2.
        split; [eapply sf_trans; eassumption|]. split; [exact V2|].
        rewrite <- Hdata in L2. apply Hback in L2.
        destruct r as [[h'|]|e'].
        -- destruct V3 as (s'' & L & W). exists s''. split; [|exact W]. eapply L_link; try eassumption.
           eapply sf_leads; [apply sf_sym; exact Hsf2|exact L].
        -- eapply L_link; try eassumption. eapply sf_leads; [apply sf_sym; exact Hsf2|exact V3].
        -- eapply X_after; try eassumption. eapply sf_fails; [apply sf_sym; exact Hsf2|exact V3].
      * injection Hrun as <- <-. split; [eapply sf_trans; eassumption|]. split; [exact W2|].
        rewrite <- Hdata in W3. apply Hback in W3. eapply L_link_missing; eassumption.
      * injection Hrun as <- <-. split; [eapply sf_trans; eassumption|]. split; [exact W2|].
        rewrite <- Hdata in W3. eapply X_in; try eassumption. eapply sf_fails; [apply sf_sym; exact Hsf1|exact W3].
    + apply N.eqb_neq in Elnk. cbn [fst] in Hrun.
      destruct (IH (fst h :: s) (e_id e, e_type e) st1 Hv1 Hpush Hon1 st' r Hrun) as (W1 & W2 & W3).
      split; [eapply sf_trans; eassumption|]. split; [exact W2|]. cbn [fst] in W3.
      destruct r as [[h'|]|e'].
      * destruct W3 as (s'' & L & W). exists s''. split; [|exact W]. eapply L_name; try eassumption.
        eapply sf_leads; [apply sf_sym; exact Hsf1|exact L].
      * eapply L_name; try eassumption. eapply sf_leads; [apply sf_sym; exact Hsf1|exact W3].
      * eapply X_name; try eassumption. eapply sf_fails; [apply sf_sym; exact Hsf1|exact W3].
Qed.

(** ** open_base and open_all *)
Lemma root_on st : Inv cmp pos neg st -> on st root_holder.
Proof. intros Hv. destruct (iv_root _ _ _ _ Hv) as (nd & Hg & Ht & _). exists nd. auto. Qed.

Lemma linked_top st x s : Inv cmp pos neg st -> chain st (x :: s) -> x = root_id \/ refs st x > 0.
Proof.
  intros Hv Hc. destruct s as [|y s]; [now left|]. right. destruct Hc as (_ & _ & Hcon & _).
  eapply contains_refs; [apply (iv_ids _ _ _ _ Hv)|exact Hcon].
Qed.

Lemma open_base_ok path st : Inv cmp pos neg st -> forall st' r, open_base cmp path st = (st', r) ->
  same_files st st' /\ Inv cmp pos neg st' /\
  match r with
  | Ok (h, n) => designates cmp st path (fst h) n /\ on st' h /\ (exists s, chain st' (fst h :: s) /\ leads cmp st 15 [root_id] (removelast (path_comps path)) (Some (fst h :: s)))
  | Err e => e <> EUndef /\ forall d n, ~ designates cmp st path d n
  end.
Proof.
  intros Hv st' r. unfold open_base, designates. destruct (path_comps path) as [|c [|c2 cs]] eqn:Ep.
  - intros [= <- <-]. split; [apply sf_refl|]. split; [exact Hv|]. split; [left; auto|]. split; [now apply root_on|]. exists []. split; [reflexivity|constructor].
  - intros [= <- <-]. split; [apply sf_refl|]. split; [exact Hv|]. split.
    + right. split; [discriminate|]. split; [reflexivity|]. exists []. constructor.
    + split; [now apply root_on|]. exists []. split; [reflexivity|constructor].
  - remember (c :: c2 :: cs) as l. cbv zeta.
    destruct (generic_open cmp 16 (removelast l) root_id root_holder st) as [st1 rr] eqn:Er.
    destruct (generic_open_ok 15 (removelast l) [] root_holder st Hv eq_refl (root_on _ Hv) st1 rr Er) as (W1 & W2 & W3).
    destruct rr as [[h|]|e]; intros [= <- <-]; (split; [exact W1|]); (split; [exact W2|]).
    + destruct W3 as (s' & L & Hon & Hch). split; [|subst l; eauto]. right. subst l. split; [discriminate|]. split; [reflexivity|].
      exists s'. exact L.
    + split; [discriminate|]. intros d n [(Hc & _)|(_ & _ & s & L)]; [subst l; discriminate|].
      pose proof (leads_det _ _ _ _ _ _ W3 _ L) as H. discriminate H.
    + apply fails_no in W3. destruct W3 as [We W3]. split; [exact We|]. intros d n [(Hc & _)|(_ & _ & s & L)]; [subst l; discriminate|]. exact (W3 _ L).
Qed.
Lemma designates_det st path d n d' n' : designates cmp st path d n -> designates cmp st path d' n' -> d = d' /\ n = n'.
Proof.
  intros [(H1 & -> & ->)|(H1 & -> & s & L)] [(H1' & -> & ->)|(H1' & -> & s' & L')]; try congruence; auto.
  pose proof (leads_det _ _ _ _ _ _ L _ L') as H. injection H as -> _. auto.
Qed.


Lemma open_all_ok path follow st : Inv cmp pos neg st -> forall st' r, open_all cmp path follow st = (st', r) ->
  same_files st st' /\ Inv cmp pos neg st' /\
  match r with
  | Ok (Some h) => ends_at cmp st path follow (Some (fst h)) /\ on st' h /\ (exists s, chain st' (fst h :: s)) 
  | Ok None => ends_at cmp st path follow None
  | Err e => e <> EUndef /\ forall o, ~ ends_at cmp st path follow o
  end.
Proof.
  intros Hv st' r. unfold open_all, ends_at.
  destruct (bytes_eqb path [] || bytes_eqb path (str "/")).
  { intros [= <- <-]. split; [apply sf_refl|]. split; [exact Hv|]. split; [reflexivity|]. split; [now apply root_on|]. exists []. reflexivity. }
  destruct (open_base cmp path st) as [st1 rb] eqn:Eb.
  destruct (open_base_ok path st Hv st1 rb Eb) as (W1 & W2 & W3).
  destruct rb as [[base n]|e].
  2:{ intros [= <- <-]. split; [exact W1|]. split; [exact W2|]. destruct W3 as [We W3]. split; [exact We|]. intros o (d & n & D & _). exact (W3 _ _ D). }
  destruct W3 as (D & Hon & s & Hch & Lb).
  rewrite (get_entry_ok _ _ _ Hon). pose proof Hon as (nd & Hg & Ht).
  destruct (sf_get_some _ _ _ _ (sf_sym _ _ W1) Hg) as (nd0 & Hg0 & Hu).
  destruct (snd base =? TDIR)%N eqn:Etd.
  2:{ intros [= <- <-]. apply N.eqb_neq in Etd. split; [exact W1|]. split; [exact W2|]. split; [discriminate|]. intros o (d & n0 & D' & Hdir & _).
      destruct (designates_det _ _ _ _ _ _ D D') as [<- <-]. destruct Hdir as (nd' & Hg' & Ht').
      assert (nd' = nd0) by congruence. subst nd'. pose proof (unp_type _ _ Hu). congruence. }
  apply N.eqb_eq in Etd. destruct (name_too_long n) eqn:Elong.
  { intros [= <- <-]. split; [exact W1|]. split; [exact W2|]. split; [discriminate|]. intros o (d & n0 & D' & _ & Hl & _).
    destruct (designates_det _ _ _ _ _ _ D D') as [<- <-]. apply long_iff in Hl. congruence. }
  apply long_iff in Elong. rewrite Hg.
  assert (Hdir0 : is_dir st (fst base)).
  { exists nd0. split; [exact Hg0|]. rewrite (unp_type _ _ Hu). congruence. }
  pose proof (sf_name_in cmp _ _ (fst base) n W1) as Hnm. rewrite (find_name_in st1), Hg in Hnm.
  destruct (find_name cmp n (i_dir nd)) as [e|] eqn:Ef.
  2:{ intros [= <- <-]. split; [exact W1|]. split; [exact W2|]. exists (fst base), n.
      split; [exact D|]. split; [exact Hdir0|]. split; [exact Elong|]. rewrite Hnm. reflexivity. }
  destruct (find_entry _ _ _ _ _ Hg Ef) as [Hall Hcon].
  destruct (open_entry _ _ W2 Hall) as (Ho & Hone & Hner). rewrite Ho. cbv zeta. cbn [snd].
  assert (Hdir : is_dir st1 (fst base)) by (exists nd; split; [exact Hg|congruence]).
  destruct (chain_push _ _ _ _ W2 Hdir Hcon Hch) as [Hpush Hkeep].
  pose proof (Inv_set_parent _ _ (fst base) W2 Hner) as Hv1.
  pose proof (sf_trans _ _ _ W1 (sf_set_parent st1 (e_id e) (fst base))) as Hsf1.
  pose proof (sf_set_parent st1 (e_id e) (fst base)) as Hsf01.
  set (st2 := set_parent (e_id e) (fst base) st1) in *.
  assert (Hon1 : on st2 (e_id e, e_type e)).
  { destruct Hone as (nx & Hx & Htx). destruct (sf_get_some _ _ _ _ Hsf01 Hx) as (nx' & Hx' & Hux).
    exists nx'. split; [exact Hx'|]. rewrite (unp_type _ _ Hux). exact Htx. }
  destruct (follow && (e_type e =? TLINK)%N)%bool eqn:Elnk.
  2:{ intros [= <- <-]. split; [exact Hsf1|]. split; [exact Hv1|]. split; [|eauto].
      exists (fst base), n. split; [exact D|]. split; [exact Hdir0|]. split; [exact Elong|]. rewrite Hnm, Elnk. reflexivity. }
  pose proof Elnk as Elnk'. apply andb_true_iff in Elnk'. destruct Elnk' as [_ El]. apply N.eqb_eq in El.
  destruct Hon1 as (nx & Hx & Htx). cbn [fst snd] in Hx, Htx.
  unfold cast_as. cbn [fst snd]. rewrite Hx, Htx, El. rewrite !N.eqb_refl.
  destruct (sf_get_some _ _ _ _ (sf_sym _ _ Hsf1) Hx) as (ln & Hln & Hul). apply unp_fields in Hul. destruct Hul as (_ & _ & _ & Hdata).
  assert (Honh : on st2 base).
  { destruct (sf_get_some _ _ _ _ Hsf01 Hg) as (nd' & Hg' & Hu'). exists nd'. split; [exact Hg'|]. rewrite (unp_type _ _ Hu'). exact Ht. }
  intros Erun.
  destruct (generic_open_ok 15 _ _ _ _ Hv1 Hkeep Honh _ _ Erun) as (V1 & V2 & V3).
  split; [eapply sf_trans; eassumption|]. split; [exact V2|]. rewrite <- Hdata in V3.
  assert (Hb : forall o, leads cmp st2 15 (fst base :: s) (path_comps (i_data ln)) o -> leads cmp st 15 (fst base :: s) (path_comps (i_data ln)) o).
  { intros o. apply sf_leads. now apply sf_sym. }
  assert (Huse : forall o', leads cmp st 15 (fst base :: s) (path_comps (i_data ln)) o' ->
    exists d n0, designates cmp st path d n0 /\ is_dir st d /\ length n0 <= 255 /\
    match name_in cmp st d n0 with
    | Some (x, ty) => if follow && (ty =? TLINK)%N then exists ln s r, get st x = Some ln /\
        leads cmp st 15 [root_id] (removelast (path_comps path)) (Some (d :: s)) /\ leads cmp st 15 (d :: s) (path_comps (i_data ln)) r /\
        match o' with Some (y :: _) => Some y | _ => None end = match r with Some (y :: _) => Some y | _ => None end else match o' with Some (y :: _) => Some y | _ => None end = Some x
    | None => match o' with Some (y :: _) => Some y | _ => None end = None
    end).
  { intros o' L. exists (fst base), n. split; [exact D|]. split; [exact Hdir0|]. split; [exact Elong|]. rewrite Hnm, Elnk.
    exists ln, s, o'. auto. }
  destruct r as [[h|]|er].
  - destruct V3 as (s' & L & Hon' & Hch'). split; [|eauto]. apply (Huse (Some (fst h :: s'))). now apply Hb.
  - apply (Huse None). now apply Hb.
  - apply fails_no in V3. destruct V3 as [Ve V3]. split; [exact Ve|]. intros o (d & n0 & D' & _ & _ & Hm). destruct (designates_det _ _ _ _ _ _ D D') as [<- <-].
    rewrite Hnm, Elnk in Hm. destruct Hm as (ln' & s' & r & Hln' & Ls & Lr & _).
    assert (ln' = ln) by congruence. subst ln'. pose proof (leads_det _ _ _ _ _ _ Lb _ Ls) as E. injection E as <-.
    apply (V3 r). eapply sf_leads; [exact Hsf1|exact Lr].
Qed.

(** ** The errors *)
Lemma open_base_err path st : Inv cmp pos neg st -> forall st' e, open_base cmp path st = (st', Err e) ->
  fails cmp st 15 [root_id] (removelast (path_comps path)) e \/
  (leads cmp st 15 [root_id] (removelast (path_comps path)) None /\ e = E_NOENT).
Proof.
  intros Hv st' e. unfold open_base. destruct (path_comps path) as [|c [|c2 cs]] eqn:Ep; [discriminate|discriminate|].
  remember (c :: c2 :: cs) as l.
  destruct (generic_open cmp 16 (removelast l) root_id root_holder st) as [st1 rr] eqn:Er.
  destruct (generic_open_ok 15 (removelast l) [] root_holder st Hv eq_refl (root_on _ Hv) st1 rr Er) as (W1 & W2 & W3).
  destruct rr as [[h|]|e0]; intros [= <- <-]; auto.
Qed.
Lemma open_all_err path follow st : Inv cmp pos neg st -> forall st' e, open_all cmp path follow st = (st', Err e) ->
  fails_at cmp st path follow e.
Proof.
  intros Hv st' e. unfold open_all, fails_at.
  destruct (bytes_eqb path [] || bytes_eqb path (str "/")) eqn:Es; [discriminate|].
  apply orb_false_iff in Es. destruct Es as [E1 E2]. apply bytes_eqb_neq in E1. apply bytes_eqb_neq in E2.
  intros Hr. split; [exact E1|]. split; [exact E2|]. revert Hr.
  destruct (open_base cmp path st) as [st1 rb] eqn:Eb.
  destruct (open_base_ok path st Hv st1 rb Eb) as (W1 & W2 & W3).
  destruct rb as [[base n]|e0].
  2:{ intros [= <- <-]. destruct (open_base_err path st Hv st1 e0 Eb) as [H|H]; auto. }
  destruct W3 as (D & Hon & s & Hch & Lb).
  assert (Hn : n = last (path_comps path) []).
  { destruct D as [(-> & _ & ->)|(_ & -> & _)]; reflexivity. }
  rewrite (get_entry_ok _ _ _ Hon). pose proof Hon as (nd & Hg & Ht).
  destruct (sf_get_some _ _ _ _ (sf_sym _ _ W1) Hg) as (nd0 & Hg0 & Hu). pose proof (unp_type _ _ Hu) as Htu.
  assert (Hdir : snd base = TDIR -> is_dir st (fst base)) by (intros E; exists nd0; split; [exact Hg0|congruence]).
  intros Hr. right. right. exists (fst base), s, n. split; [exact Lb|]. split; [exact Hn|]. revert Hr.
  destruct (snd base =? TDIR)%N eqn:Etd.
  2:{ intros [= <- <-]. apply N.eqb_neq in Etd. left. split; [|reflexivity]. intros (nd' & Hg' & Ht'). congruence. }
  apply N.eqb_eq in Etd. destruct (name_too_long n) eqn:Elong.
  { intros [= <- <-]. right. left. split; [auto|]. split; [|reflexivity]. 
    assert (~ length n <= 255) by (intros Hl; apply long_iff in Hl; congruence). lia. }
  apply long_iff in Elong. rewrite Hg.
  pose proof (sf_name_in cmp _ _ (fst base) n W1) as Hnm. rewrite (find_name_in st1), Hg in Hnm.
  destruct (find_name cmp n (i_dir nd)) as [en|] eqn:Ef; [|discriminate].
  destruct (find_entry _ _ _ _ _ Hg Ef) as [Hall Hcon].
  destruct (open_entry _ _ W2 Hall) as (Ho & Hone & Hner). rewrite Ho. cbv zeta. cbn [snd].
  assert (Hd1 : is_dir st1 (fst base)) by (exists nd; split; [exact Hg|congruence]).
  destruct (chain_push _ _ _ _ W2 Hd1 Hcon Hch) as [Hpush Hkeep].
  pose proof (Inv_set_parent _ _ (fst base) W2 Hner) as Hv1.
  pose proof (sf_set_parent st1 (e_id en) (fst base)) as Hsf01. pose proof (sf_trans _ _ _ W1 Hsf01) as Hsf1.
  set (st2 := set_parent (e_id en) (fst base) st1) in *.
  destruct follow; cbn [andb]; [|discriminate]. destruct (e_type en =? TLINK)%N eqn:El; [|discriminate]. apply N.eqb_eq in El.
  destruct Hone as (nx0 & Hx0 & Htx0). destruct (sf_get_some _ _ _ _ Hsf01 Hx0) as (nx & Hx & Hux).
  pose proof (unp_type _ _ Hux) as Htx. cbn [fst snd] in *.
  unfold cast_as. cbn [fst snd]. rewrite Hx, Htx, Htx0, El. rewrite !N.eqb_refl.
  destruct (sf_get_some _ _ _ _ (sf_sym _ _ Hsf1) Hx) as (ln & Hln & Hul). apply unp_fields in Hul. destruct Hul as (_ & _ & _ & Hdata).
  assert (Honh : on st2 base).
  { destruct (sf_get_some _ _ _ _ Hsf01 Hg) as (nd' & Hg' & Hu'). exists nd'. split; [exact Hg'|]. rewrite (unp_type _ _ Hu'). exact Ht. }
  intros Erun. destruct (generic_open_ok 15 _ _ _ _ Hv1 Hkeep Honh _ _ Erun) as (_ & _ & V3).
  right. right. exists (e_id en), ln. split; [auto|]. split; [exact Elong|]. split; [rewrite Hnm, El; reflexivity|].
  split; [reflexivity|]. split; [exact Hln|]. rewrite Hdata. eapply sf_fails; [apply sf_sym; exact Hsf1|exact V3].
Qed.
End Path.
