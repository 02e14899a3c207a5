(** The statements of PropertiesLiteTree, for the translator chosen at mount time. *)
From Coq Require Import Strings.String.
From Verif Require Import Base BaseLemmas TextModel TextProofs CryptoModel CryptoProofs NameModel NameSpec NameProofs NameTop
  LongNameModel LongNameSpec LongNameProofs LongNameInv LongNameTop LiteTreeSpec LiteTreeProofs.
Local Open Scope list_scope.

Lemma names_of_path names : Forall (fun n => n <> [] /\ ~ In slash n) names -> names_of (path_of names) = names.
Proof.
  intros HF. unfold names_of. destruct names as [|n names]; [reflexivity|]. rewrite split_path_of by (auto; discriminate).
  cbn [nonempty filter]. exact (nonempty_id _ HF).
Qed.
Lemma names_incl names L : Forall (fun n => n <> [] /\ ~ In slash n) names -> incl (split_slash (path_of names)) L -> incl names L.
Proof.
  intros HF Hi. destruct names as [|n names]; [intros x []|]. rewrite split_path_of in Hi by (auto; discriminate).
  intros x Hx. apply Hi. right. exact Hx.
Qed.

Section Top.
Variable cmac : bytes -> bytes.
Variable keystream : bytes -> nat -> bytes.
Variable blake : bytes -> bytes.
Hypothesis cmac_len : forall m, length (cmac m) = 16.
Hypothesis ks_len : forall iv n, length (keystream iv n) = n.
Hypothesis blake_len : forall m, length (blake m) = 32.
Notation make := (make_translator cmac keystream blake).
Variable no_op : bool.
Variable threshold : nat.
Variable suffix : bytes.
Hypothesis Hcfg : no_op = false -> config_ok threshold suffix.
Variable L : list bytes.
Hypothesis Hfit : names_fit blake no_op threshold L.
Notation tr := (make no_op threshold suffix None None).

Definition phys (n : bytes) : bytes := if no_op then n else pcomp cmac keystream blake threshold suffix n.
Definition occ (n : bytes) : Prop := In n L /\ n <> [] /\ ~ In slash n.
Definition okp (path : bytes) : Prop := fuse_path path /\ path <> [slash] /\ incl (split_slash path) L.
Definition tab : bool := negb no_op && (0 <? threshold) && existsb (fun n => threshold <? length n) L.

Lemma phys_inj a b : occ a -> occ b -> phys a = phys b -> a = b.
Proof.
  intros (Ha & Ha1 & Ha2) (Hb & Hb1 & Hb2) E. unfold phys in E. destruct no_op eqn:En; [exact E|]. specialize (Hcfg eq_refl).
  unfold pcomp in E. unfold names_fit in Hfit. destruct (Nat.ltb_spec 0 threshold) as [Ht|Ht].
  - apply (ncomp_inj cmac keystream cmac_len ks_len blake blake_len threshold (effective suffix) (Hcfg Ht)); [|rewrite E; reflexivity].
    destruct (Nat.eqb_spec threshold 0); [lia|]. intros H1 H2. apply Hfit; assumption.
  - apply (lcomp_inj cmac keystream cmac_len ks_len); rewrite E; reflexivity.
Qed.
Lemma phys_TN a : occ a -> phys a <> TN.
Proof.
  intros (Ha & Ha1 & Ha2) E. unfold phys in E. destruct no_op eqn:En.
  - destruct Hfit as (_ & _ & H). apply H. rewrite <- E. exact Ha.
  - pose proof (pcomp_safe _ _ _ cmac_len ks_len blake_len threshold suffix a (Hcfg eq_refl) Ha1) as (_ & _ & _ & H).
    apply H. rewrite E. reflexivity.
Qed.

Lemma steps_dot names : Forall (fun n => n <> [] /\ ~ In slash n) names -> ~ In [dot] names ->
  steps (dot :: path_of names) = names.
Proof.
  intros HF Hd. unfold steps. destruct names as [|n names]; [reflexivity|].
  assert (E : split_slash (dot :: path_of (n :: names)) = [dot] :: n :: names).
  { rewrite split_cons_other by discriminate. rewrite split_path_of by (auto; discriminate). reflexivity. }
  rewrite E. remember (n :: names) as ns. clear - HF Hd. cbn [filter]. change (bytes_eqb [dot] [dot]) with true.
  rewrite Bool.andb_comm. cbn [negb andb]. induction ns as [|x ns IH]; [reflexivity|].
  inversion HF as [|? ? (H1 & H2) H3]; subst. cbn [filter].
  replace (bytes_eqb x []) with false by (symmetry; apply bytes_eqb_neq; exact H1).
  replace (bytes_eqb x [dot]) with false by (symmetry; apply bytes_eqb_neq; intros ->; apply Hd; left; reflexivity).
  cbn [negb andb]. f_equal. apply IH; [exact H3|]. intros Hi. apply Hd. right. exact Hi.
Qed.

Lemma enc_names names : Forall (fun n => n <> [] /\ ~ In slash n) names -> incl names L ->
  exists P l, t_encrypt tr (path_of names) = Ok (P, l) /\ comps P = map phys names /\ (l <> [] -> tab = true).
Proof.
  intros HF Hi. destruct no_op eqn:En.
  - unfold make_translator. cbn [t_encrypt noop_translator]. unfold noop_encrypt_full.
    assert (Hhd : exists t, path_of names = slash :: t) by (destruct names; cbn; eauto). destruct Hhd as (t & Et).
    rewrite Et. change (Byte.eqb slash slash) with true. cbv iota. rewrite <- Et. eexists _, _. split; [reflexivity|].
    split; [|congruence]. destruct Hfit as (Hd & _). change (steps (dot :: path_of names) = map phys names). rewrite steps_dot; [|exact HF|intros H; apply Hd, Hi, H].
    unfold phys. rewrite En, map_id. reflexivity.
  - specialize (Hcfg eq_refl).
    assert (ET : exists P l, t_encrypt (make false threshold suffix None None) (path_of names) = Ok (P, l)).
    { destruct (Nat.ltb_spec 0 threshold) as [Ht|Ht]; [apply new_names_total; assumption|].
      assert (threshold = 0) by lia. subst threshold. unfold names_fit in Hfit. cbn [Nat.eqb] in Hfit.
      destruct (legacy_names_total cmac keystream blake cmac_len ks_len suffix (path_of names)) as (P & E); [|eauto].
      destruct names as [|n names]; [repeat constructor; cbn; lia|]. rewrite split_path_of by (auto; discriminate).
      constructor; [cbn; lia|]. rewrite Forall_forall in Hfit. apply Forall_forall. intros x Hx. apply Hfit, Hi, Hx. }
    destruct ET as (P & l & E). exists P, l. split; [exact E|].
    assert (Hhd : hd x00 (path_of names) = slash) by (destruct names; reflexivity).
    destruct (containment _ _ _ cmac_len ks_len blake_len threshold suffix _ P l Hcfg Hhd E) as (H2 & _). split.
    + change (comps P) with (steps P). change (nonempty (split_slash (path_of names))) with (names_of (path_of names)) in H2.
      rewrite names_of_path in H2 by exact HF. unfold phys. rewrite En. clear - H2. induction H2 as [|x y xs ys (E & _) _ IH]; [reflexivity|].
      cbn [map]. congruence.
    + intros Hl. destruct names as [|n names _] using rev_ind.
      * exfalso. rewrite make_inner in E. destruct (0 <? threshold).
        -- cbn [t_encrypt new_translator] in E. rewrite new_encrypt_ok in E by assumption. injection E as _ <-. apply Hl. reflexivity.
        -- cbn in E. injection E as _ <-. apply Hl. reflexivity.
      * destruct (path_of_snoc names n) as (dir & Ed). rewrite Ed in E.
        apply Forall_app in HF. destruct HF as (_ & HF). inversion HF as [|x y (H1 & H3) _]. subst.
        destruct (make_last _ _ _ cmac_len ks_len threshold suffix dir n P _ Hcfg H1 H3 E) as (_ & El). subst l.
        unfold tab. rewrite En. cbn [negb andb]. destruct (0 <? threshold); cbn [andb] in *; [|congruence].
        apply existsb_exists. exists n. split; [apply Hi; apply in_or_app; right; left; reflexivity|].
        destruct (threshold <? length n); [reflexivity|congruence].
Qed.

Lemma enc path : okp path -> exists P l, t_encrypt tr path = Ok (P, l) /\
  comps P = map phys (names_of path) /\ Forall occ (names_of path) /\ names_of path <> [] /\ (l <> [] -> tab = true).
Proof.
  intros ((names & HF & ->) & Hr & Hi). apply names_incl in Hi; [|exact HF].
  destruct (enc_names names HF Hi) as (P & l & E & EC & Hl). exists P, l. rewrite names_of_path by exact HF.
  split; [exact E|]. split; [exact EC|]. split; [|split; [intros ->; apply Hr; reflexivity|exact Hl]].
  rewrite Forall_forall in *. intros x Hx. destruct (HF x Hx). split; [apply Hi; exact Hx|auto].
Qed.

Notation RR := (R phys occ tab).

Lemma R_start : RR empty_fs empty_fs.
Proof. apply R_empty. Qed.

Section Ops.
Variable ops : list lop.
Hypothesis Hops : Forall from_fuse ops.
Hypothesis Hnames : incl (op_names ops) L.

Lemma ops_okp : Forall okp (flat_map op_paths ops).
Proof.
  apply Forall_forall. intros p Hp. apply in_flat_map in Hp as (o & Ho & Hp). rewrite Forall_forall in Hops. specialize (Hops o Ho).
  unfold from_fuse in Hops. rewrite Forall_forall in Hops. destruct (Hops p Hp) as [H1 H2]. split; [exact H1|]. split; [exact H2|].
  intros x Hx. apply Hnames. unfold op_names. apply in_flat_map. exists p. split; [|exact Hx]. apply in_flat_map. eauto.
Qed.

Theorem history_exists : exists v, plain_history ops empty_fs (lite_answers tr ops empty_fs) v /\ RR v (lite_run tr ops empty_fs).
Proof. exact (run_R phys occ phys_inj phys_TN tab tr okp enc ops ops_okp _ _ R_start). Qed.

Theorem history_exact : tab = false -> lite_answers tr ops empty_fs = plain_answers ops empty_fs /\ RR (plain_run ops empty_fs) (lite_run tr ops empty_fs).
Proof. intros Ht. exact (run_exact phys occ phys_inj phys_TN tab tr okp enc ops Ht ops_okp _ _ R_start). Qed.
End Ops.

Lemma found_same v h path : RR v h -> fuse_path path -> incl (split_slash path) L -> found tr h path = plain_found v path.
Proof.
  intros H Hp Hi. destruct (bytes_dec path [slash]) as [->|N].
  - destruct (enc_names [] (Forall_nil _) (incl_nil_l _)) as (P & l & E & EC & _). unfold found. change [slash] with (path_of []). rewrite E, EC. reflexivity.
  - apply (found_R phys occ tab tr okp enc); [exact H|]. repeat split; assumption.
Qed.

Lemma occ_all names : Forall (fun n => n <> [] /\ ~ In slash n) names -> incl names L -> Forall occ names.
Proof. intros HF Hi. rewrite Forall_forall in *. intros x Hx. destruct (HF x Hx). split; [apply Hi; exact Hx|auto]. Qed.

(** A directory of the plain tree and the host's directory for it. *)
Lemma dir_same v h dir : RR v h -> Forall (fun n => n <> [] /\ ~ In slash n) dir -> incl dir L ->
  exists P l, t_encrypt tr (path_of dir) = Ok (P, l) /\ optR phys occ tab (v dir) (h (comps P)).
Proof.
  intros H HF Hi. destruct (enc_names dir HF Hi) as (P & l & E & EC & _). exists P, l. split; [exact E|]. rewrite EC. apply H.
  apply occ_all; assumption.
Qed.

(** Without long names every directory lists what the plain one holds. *)
Lemma list_plain (table : bytes -> res bytes) us prev : no_op = true -> ~ In [] us -> list_names tr table us prev = us.
Proof using cmac keystream blake no_op threshold suffix.
  clear Hcfg Hfit. intros Hn. revert prev. induction us as [|u us IH]; intros prev Hu; [reflexivity|]. cbn [list_names].
  destruct u as [|c u]; [exfalso; apply Hu; left; reflexivity|]. rewrite Hn in *. change (t_noop (make true threshold suffix None None)) with true.
  cbv iota. rewrite IH by (intros X; apply Hu; right; exact X). destruct (bytes_eqb (c :: u) [dot] || bytes_eqb (c :: u) [dot; dot]); reflexivity.
Qed.

Lemma listing_same ev eh : tab = false -> dirR phys occ tab ev eh ->
  NoDup (listing tr eh) /\ forall n, In n (listing tr eh) <-> ent n ev <> None.
Proof.
  intros Ht D. unfold listing.
  assert (Hkeys : forall u, In u (map fst eh) -> exists n, occ n /\ u = phys n /\ ent n ev <> None).
  { intros u Hu. apply ent_some in Hu as (k & Hk). destruct (d_keys _ _ _ _ _ D u ltac:(congruence)) as [->|(n & Hn & ->)].
    - pose proof (d_table _ _ _ _ _ D) as T. rewrite Hk in T. destruct k as [i| |m]; cbn [isTable] in T; [contradiction|contradiction|rewrite Ht in T; discriminate].
    - exists n. split; [exact Hn|]. split; [reflexivity|]. rewrite <- (d_ent _ _ _ _ _ D n Hn). congruence. }
  assert (Hback : forall n, ent n ev <> None -> occ n /\ In (phys n) (map fst eh)).
  { intros n Hn. pose proof (d_occ _ _ _ _ _ D n Hn) as Ho. split; [exact Ho|]. rewrite <- (d_ent _ _ _ _ _ D n Ho) in Hn.
    destruct (In_dec bytes_dec (phys n) (map fst eh)) as [Hi|Hi]; [exact Hi|]. apply ent_none in Hi. congruence. }
  pose proof (d_ndh _ _ _ _ _ D) as ND. set (us := map fst eh) in *. clearbody us. clear D.
  destruct (Bool.bool_dec no_op true) as [En|En0]; [|assert (En : no_op = false) by (destruct no_op; congruence); clear En0].
  - assert (Hid : forall n, phys n = n) by (intros n; unfold phys; rewrite En; reflexivity).
    rewrite list_plain; [|exact En|].
    + split; [exact ND|]. intros n. split; intros H.
      * destruct (Hkeys n H) as (m & _ & E & Hm). rewrite Hid in E. subst. exact Hm.
      * destruct (Hback n H) as (_ & Hm). rewrite Hid in Hm. exact Hm.
    + intros H. destruct (Hkeys [] H) as (m & (_ & Hm & _) & E & _). rewrite Hid in E. congruence.
  - pose proof (Hcfg En) as Hc.
    assert (HX : exists ns, Forall2 (fun u n => occ n /\ u = phys n /\ ent n ev <> None) us ns).
    { clear ND Hback. induction us as [|u us IH]; [exists []; constructor|]. destruct IH as (ns & F); [intros x Hx; apply Hkeys; right; exact Hx|].
      destruct (Hkeys u (or_introl eq_refl)) as (n & Hn). exists (n :: ns). constructor; assumption. }
    destruct HX as (ns & F).
    assert (EL : list_names (make false threshold suffix None None) (table_of eh) us [] = concat (map (fun n => [n]) ns)).
    { apply (listing_exact _ _ _ cmac_len ks_len blake_len threshold suffix); [exact Hc|]. clear - F En Hc Hcfg cmac_len ks_len blake_len Hfit Ht.
      induction F as [|u n us ns (Ho & -> & _) F IH]; [constructor|]. cbn [map]. constructor; [|exact IH].
      destruct Ho as (Hi & Hn & Hsl).
      assert (Hpath : path_of [n] = slash :: n) by (unfold path_of; cbn [flat_map]; apply app_nil_r).
      destruct (enc_names [n]) as (P & l & E & _ & Hl); [repeat constructor; auto|intros x [<-|[]]; exact Hi|]. rewrite Hpath in E. rewrite En in E.
      destruct (make_last _ _ _ cmac_len ks_len threshold suffix [] n P l Hc Hn Hsl E) as (EP & El).
      unfold phys. rewrite En, <- EP. apply (shown_created _ _ [] n P l Hn Hsl E). intros Hx. apply Hl in Hx. congruence. }
    replace tr with (make false threshold suffix None None) by (rewrite En; reflexivity).
    rewrite EL. assert (EC : concat (map (fun n : bytes => [n]) ns) = ns) by (clear; induction ns; cbn; [reflexivity|congruence]). rewrite EC.
    assert (EM : us = map phys ns) by (clear - F; induction F as [|u n us ns (_ & E & _) F IH]; cbn; congruence).
    split; [apply (NoDup_map_inv phys); rewrite <- EM; exact ND|].
    intros n. split; intros H.
    + clear - F H. induction F as [|u m us ns (_ & _ & E) F IH]; [destruct H|destruct H as [<-|H]; auto].
    + destruct (Hback n H) as (Ho & Hi). rewrite EM in Hi. apply in_map_iff in Hi as (m & E & Hm).
      assert (Hom : occ m). { clear - F Hm. induction F as [|u m' us ns (O & _) F IH]; [destruct Hm|destruct Hm as [<-|Hm]; auto]. }
      apply phys_inj in E; [subst; exact Hm|exact Hom|exact Ho].
Qed.

(** With long names, after benign operations. *)
Lemma listing_long v ops dir P l ev : no_op = false -> 0 < threshold -> RR v (lite_run tr ops empty_fs) ->
  incl (op_names ops) L ->
  benign_run tr (effective suffix) ops empty_fs ->
  Forall (fun n => n <> [] /\ ~ In slash n) dir -> incl dir L ->
  t_encrypt tr (path_of dir) = Ok (P, l) -> v dir = Some ev ->
  exists es, lite_run tr ops empty_fs (comps P) = Some es /\ NoDup (listing tr es) /\ forall n, In n (listing tr es) <-> ent n ev <> None.
Proof.
  intros En Ht H HL Hb HF Hi E Ev.
  destruct (dir_same v _ dir H HF Hi) as (P' & l' & E' & O). rewrite E in E'. injection E' as <- <-. rewrite Ev in O.
  destruct (lite_run tr ops empty_fs (comps P)) as [es|] eqn:Es; [|contradiction]. exists es. split; [reflexivity|]. cbn in O.
  pose proof (Hcfg En Ht) as Hs.
  assert (Hnc : forall a b, In a L -> In b L -> threshold < length a -> threshold < length b -> blake a = blake b -> a = b).
  { unfold names_fit in Hfit. rewrite En in Hfit. destruct (Nat.eqb_spec threshold 0); [lia|]. exact Hfit. }
  rewrite En in *.
  assert (HI : inv (effective suffix) (named cmac keystream blake threshold (fun n => In n L) suffix) (lite_run (make false threshold suffix None None) ops empty_fs)).
  { apply runs; try assumption. clear - Hb HL. revert Hb. generalize empty_fs. induction ops as [|o os IH]; intros fs Hb; [constructor|].
    cbn [benign_run] in Hb. destruct Hb as [[Hb1 _] Hb2]. cbn [flat_map]. apply Forall_app. split.
    - apply Forall_forall. intros p Hp. rewrite Forall_forall in Hb1. destruct (Hb1 p Hp) as (names & HF & ->). exists names. split; [exact HF|]. split; [|reflexivity].
      apply Forall_forall. intros x Hx. apply HL. unfold op_names. cbn [flat_map]. rewrite flat_map_app. apply in_or_app. left. apply in_flat_map. exists (path_of names). split; [exact Hp|].
      rewrite split_path_of; [right; exact Hx|intros ->; destruct Hx|exact HF].
    - eapply IH; [|exact Hb2]. intros x Hx. apply HL. unfold op_names in *. cbn [flat_map]. rewrite flat_map_app. apply in_or_app. right. exact Hx. }
  pose proof (proj2 HI _ _ Es) as Hok.
  destruct (es_listing cmac keystream blake cmac_len ks_len blake_len threshold Ht (fun n => In n L) suffix Hs Hnc es (map fst es) Hok (do_nodup _ _ _ Hok) (incl_refl _)) as (ns & El & ND & HLs).
  unfold listing. rewrite El. split; [exact ND|]. intros n. rewrite HLs. split.
  - intros (u & l9 & Hu & _ & -> & Hin & Hn & Hsl). rewrite <- (d_ent _ _ _ _ _ O n); [|split; auto].
    apply ent_some in Hu as (k & Hk). unfold phys. rewrite En. congruence.
  - intros Hn. pose proof (d_occ _ _ _ _ _ O n Hn) as (H1 & H2 & H3). exists (phys n), (stored cmac keystream threshold n).
    rewrite <- (d_ent _ _ _ _ _ O n) in Hn by (split; auto). unfold phys in *. rewrite En in *. split.
    + destruct (In_dec bytes_dec (pcomp cmac keystream blake threshold suffix n) (map fst es)) as [Hx|Hx]; [exact Hx|]. apply ent_none in Hx. congruence.
    + split; [exists n; auto 6|auto].
Qed.
End Top.
