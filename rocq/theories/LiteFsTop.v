(** The file system of [LiteFsSpec] for the three ways of storing names. *)
From Coq Require Import Strings.String.
From Verif Require Import Base BaseLemmas TextModel TextProofs StreamSpec LiteModel LiteProofs NameModel NameSpec NameProofs NameTop
  HandleModel LongNameModel LongNameSpec LongNameProofs LiteTreeSpec LiteTreeProofs LiteTreeTop LiteFsModel LiteFsSpec LiteFsProofs.
Local Open Scope list_scope.

Section Lengths.
Variable cmac : bytes -> bytes.
Variable keystream : bytes -> nat -> bytes.
Hypothesis cmac_len : forall m, length (cmac m) = 16.
Hypothesis ks_len : forall iv n, length (keystream iv n) = n.

(** How long the text of a link becomes. *)
Lemma lcomp_len v : length (lcomp cmac keystream v) <= 30 * length v.
Proof.
  destruct v as [|c v]; [cbn; lia|]. cbn [lcomp]. rewrite enc32_length, (NameProofs.box_length cmac keystream cmac_len ks_len). unfold encode_groups.
  apply Nat.div_le_upper_bound; [lia|]. cbn [length]. lia.
Qed.
Lemma join_len ws : length (join_slash (map (lcomp cmac keystream) ws)) <= 30 * length (join_slash ws).
Proof.
  induction ws as [|w ws IH]; [cbn; lia|]. destruct ws as [|w' ws].
  - cbn [map join_slash]. apply lcomp_len.
  - cbn [map] in IH |- *. rewrite (join_cons w), (join_cons (lcomp cmac keystream w)) by discriminate. rewrite !app_length. cbn [length]. pose proof (lcomp_len w). lia.
Qed.

End Lengths.

Section Top.
Variable cmac : bytes -> bytes.
Variable keystream : bytes -> nat -> bytes.
Variable blake : bytes -> bytes.
Hypothesis cmac_len : forall m, length (cmac m) = 16.
Hypothesis ks_len : forall iv n, length (keystream iv n) = n.
Hypothesis blake_len : forall m, length (blake m) = 32.
Variable no_op : bool.
Variable threshold : nat.
Variable suffix : bytes.
Hypothesis Hcfg : no_op = false -> config_ok threshold suffix.
Variable L : list bytes.
Hypothesis Hfit : names_fit blake no_op threshold L.
Notation tr := (make_translator cmac keystream blake no_op threshold suffix None None).
Notation RR := (R (phys cmac keystream blake no_op threshold suffix) (occ L) (tab no_op threshold L)).

Definition okq (path : bytes) : Prop := fuse_path path /\ incl (split_slash path) L.
Definition old_names : bool := negb no_op && (threshold =? 0).
Definition linkable (t : bytes) : Prop :=
  ~ In x00 t /\ (old_names = true -> Forall (fun w => length w <= 2000) (split_slash t)).

Lemma linkable_fits t : linkable t ->
  exists stored, t_link_enc tr t = Ok stored /\ t_link_dec tr stored = Ok t /\ ~ In x00 stored /\ ~ In x00 t /\ length stored <= 30 * S (length t).
Proof.
  intros [Hz Ho]. unfold old_names in Ho. destruct no_op.
  - exists t. cbn. repeat split; auto; lia.
  - rewrite make_inner. cbn [negb andb] in Ho. destruct (Nat.ltb_spec 0 threshold) as [Ht|Ht].
    + destruct (new_link_ok cmac keystream cmac_len ks_len t) as (s & E1 & E2 & E3 & E4). exists s.
      split; [exact E1|]. split; [exact E2|]. split; [exact E4|]. split; [exact Hz|]. lia.
    + assert (threshold = 0) as E0 by lia. rewrite E0 in Ho. specialize (Ho eq_refl).
      destruct (legacy_link_ok cmac keystream cmac_len ks_len t Ho) as (s & E1 & E2 & E3). exists s.
      split; [exact E1|]. split; [exact E2|]. split; [exact E3|]. split; [exact Hz|].
      cbn [t_link_enc legacy_translator] in E1. unfold legacy_link_enc in E1. destruct t as [|c t]; [injection E1 as <-; cbn; lia|].
      destruct (bytes_eqb (c :: t) [slash]); [injection E1 as <-; cbn [length]; lia|].
      rewrite (legacy_encrypt_path_total cmac keystream cmac_len ks_len _ Ho) in E1. assert (Es : s = join_slash (map (lcomp cmac keystream) (split_slash (c :: t)))) by congruence. rewrite Es. clear E1 E2 E3 Es.
      pose proof (join_len cmac keystream cmac_len ks_len (split_slash (c :: t))) as J. rewrite join_split in J. lia.
Qed.
Lemma link_nil : t_link_dec tr [] = Ok [].
Proof. destruct no_op; [reflexivity|]. rewrite make_inner. destruct (0 <? threshold); reflexivity. Qed.

Lemma step_names o v h : RR v h -> Forall (okp L) (op_paths o) ->
  (RR (fst (plain_step o v)) (fst (lite_step tr o h)) /\ snd (lite_step tr o h) = snd (plain_step o v)) \/
  (~ always_same o /\ exists e, tab no_op threshold L = true /\ may_refuse v o e /\ RR v (fst (lite_step tr o h)) /\ snd (lite_step tr o h) = Err e).
Proof.
  intros H Ho.
  assert (Hdec : always_same o \/ ~ always_same o) by (destruct o as [? [|] ? ? ? ?| | | | | |]; cbn; auto).
  destruct Hdec as [Ha|Hn].
  - destruct o as [path [|] excl ino bad late| | | | | |]; try contradiction. left.
    pose proof (Forall_inv Ho) as Hp. cbn [op_paths] in Hp.
    destruct (enc cmac keystream blake cmac_len ks_len blake_len no_op threshold suffix Hcfg L Hfit path Hp) as (P & l & E & EC & HO & Hne & _).
    cbn [lite_step plain_step]. rewrite E, EC.
    pose proof (open_R _ _ (phys_inj cmac keystream blake cmac_len ks_len blake_len no_op threshold suffix Hcfg L Hfit)
                  (phys_TN cmac keystream blake cmac_len ks_len blake_len no_op threshold suffix Hcfg L Hfit)
                  (tab no_op threshold L) v h bad false excl ino _ H HO Hne) as [O1 O2].
    destruct (h_open bad false excl ino (names_of path) v) as [v2 [[]|e]], (h_open bad false excl ino (map (phys cmac keystream blake no_op threshold suffix) (names_of path)) h) as [h2 [[]|e']]; cbn [fst snd] in O1, O2; try discriminate O2; split; auto.
  - destruct (step_R _ _ (phys_inj cmac keystream blake cmac_len ks_len blake_len no_op threshold suffix Hcfg L Hfit)
                  (phys_TN cmac keystream blake cmac_len ks_len blake_len no_op threshold suffix Hcfg L Hfit)
                  (tab no_op threshold L) tr (okp L) (enc cmac keystream blake cmac_len ks_len blake_len no_op threshold suffix Hcfg L Hfit) o v h H Ho) as [S|(e & S)]; [left; exact S|].
    right. split; [exact Hn|]. exists e. exact S.
Qed.

Lemma locate_same v h path : RR v h -> okq path ->
  locate tr h path = match plain_found v path with Some k => Ok k | None => Err LongNameModel.ENOENT end.
Proof.
  intros H [Hp Hi]. rewrite <- (found_same cmac keystream blake cmac_len ks_len blake_len no_op threshold suffix Hcfg L Hfit v h path H Hp Hi).
  destruct Hp as (names & HF & ->). pose proof (names_incl _ _ HF Hi) as Hi'.
  destruct (enc_names cmac keystream blake cmac_len ks_len blake_len no_op threshold suffix Hcfg L Hfit names HF Hi') as (P & l & E & _).
  unfold locate, found. rewrite E. destruct (comps P) as [|x p]; [reflexivity|]. destruct (h (parent (x :: p))) as [es|]; [|reflexivity].
  destruct (ent (leaf (x :: p)) es); reflexivity.
Qed.

(** ** The whole *)
Variable A : aead.
Variable bs iv_size : nat.
Variable check sparse : bool.
Variable session_key : bytes -> bytes.
Variable padding_of : bytes -> nat.
Variable padded : bool.
Variable rnd : nat -> nat -> bytes.
Variable iv_fuel : nat.
Hypothesis HE : lite_env_ok A bs iv_size rnd iv_fuel.
Hypothesis HP : padded = false -> forall id, padding_of id = 0.
Variable link_max : nat.
Notation vrun := (run_ops (v_step A bs iv_size check sparse session_key padding_of padded rnd iv_fuel tr link_max) ls_empty).
Notation rel_of := (LR A bs iv_size check session_key padding_of tr link_max RR linkable).

Variable ops : list vop.
Hypothesis Hops : Forall v_from_fuse ops.
Hypothesis Hnames : incl (v_names ops) L.

Lemma ops_ok : Forall (paths_ok (okp L) okq) ops.
Proof.
  apply Forall_forall. intros op Hin. rewrite Forall_forall in Hops. specialize (Hops op Hin). unfold v_from_fuse in Hops.
  assert (Hi : forall p, In p (vop_paths op) -> incl (split_slash p) L).
  { intros p Hp x Hx. apply Hnames. unfold v_names. apply in_flat_map. exists p. split; [|exact Hx]. apply in_flat_map. eauto. }
  assert (G : forall p, In p (vop_paths op) -> fuse_path p) by (intros p Hp; rewrite Forall_forall in Hops; apply (Hops p Hp)).
  destruct op; cbn [paths_ok vop_paths] in *; try (split; [apply G|apply Hi]; left; reflexivity);
    (apply Forall_forall; intros p Hp; split; [exact (G p Hp)|]; split; [|exact (Hi p Hp)]; rewrite Forall_forall in Hops; apply (Hops p Hp)).
Qed.

Theorem whole_history : all_proper (lite_max_blocks * bs) link_max old_names ops pf_empty ->
  exists p, history link_max ops pf_empty (snd (vrun ops)) p /\ rel_of (fst (vrun ops)) p.
Proof.
  intros Hp. refine (run_history A bs iv_size check sparse session_key padding_of padded rnd iv_fuel HE HP tr link_max (tab no_op threshold L) RR (okp L) okq linkable
    step_names locate_same _ linkable_fits link_nil old_names _ ops ls_empty pf_empty _ ops_ok Hp).
  - intros path (H1 & H2 & H3). split; assumption.
  - intros t H1 H2. split; assumption.
  - apply (LR_empty A bs iv_size check session_key padding_of padded HP). apply R_empty.
Qed.

Theorem whole_same : tab no_op threshold L = false -> short_links link_max ops -> run_proper (lite_max_blocks * bs) link_max old_names pf_empty ops ->
  snd (vrun ops) = snd (run_ops p_step pf_empty ops) /\ rel_of (fst (vrun ops)) (fst (run_ops p_step pf_empty ops)).
Proof.
  intros Ht Hs Hp. refine (run_same A bs iv_size check sparse session_key padding_of padded rnd iv_fuel HE HP tr link_max (tab no_op threshold L) RR (okp L) okq linkable
    step_names locate_same _ linkable_fits link_nil old_names _ ops Ht Hs ls_empty pf_empty _ ops_ok Hp).
  - intros path (H1 & H2 & H3). split; assumption.
  - intros t H1 H2. split; assumption.
  - apply (LR_empty A bs iv_size check session_key padding_of padded HP). apply R_empty.
Qed.
End Top.
