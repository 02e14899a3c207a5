(** The statements of PropertiesLiteConc, for the translator chosen at mount time. *)
From Coq Require Import Strings.String.
From Verif Require Import Base BaseLemmas TextModel TextProofs CryptoModel CryptoProofs NameModel NameSpec NameProofs NameTop
  LongNameModel LongNameSpec LongNameProofs LongNameInv LongNameTop LiteTreeSpec LiteTreeProofs LiteTreeTop
  LiteConcModel LiteConcSpec LiteConcTree LiteConcProofs LiteConcTables LiteConcInv.
Local Open Scope list_scope.

Lemma moments_mono (f g : hfs -> lop -> err -> Prop) a h b : (forall v o e, f v o e -> g v o e) -> moments f a h b -> moments g a h b.
Proof.
  intros H M. induction M as [|a h1 b h2 c M IH S]; [apply M_nil|]. eapply M_step; [exact IH|].
  destruct S as [a1 t o E|a1 t o E|a1 t o e E F|a1 t r E|a1]; [apply P_call|apply P_moment|eapply P_fail; [|apply H; exact F]|apply P_return|apply P_killed]; exact E.
Qed.

Section Top.
Variable cmac : bytes -> bytes.
Variable keystream : bytes -> nat -> bytes.
Variable blake : bytes -> bytes.
Hypothesis cmac_len : forall m, length (cmac m) = 16.
Hypothesis ks_len : forall iv n, length (keystream iv n) = n.
Hypothesis blake_len : forall m, length (blake m) = 32.
Notation make := (make_translator cmac keystream blake).
Variable no_op : bool.
Variable threshold : nat.
Variable suffix : bytes.
Hypothesis Hcfg : no_op = false -> config_ok threshold suffix.
Variable L : list bytes.
Hypothesis Hfit : names_fit blake no_op threshold L.
Notation tr := (make no_op threshold suffix None None).
Notation phys := (phys cmac keystream blake no_op threshold suffix).
Notation occ := (occ L).
Notation okp := (okp L).
Notation tab := (tab no_op threshold L).

Lemma leaf_snoc (p : hpath) x : leaf (p ++ [x]) = x.
Proof. unfold leaf. apply last_last. Qed.

Lemma enc_long path P l : okp path -> t_encrypt tr path = Ok (P, l) -> l <> [] -> long_path no_op threshold path.
Proof.
  intros ((names & HF & ->) & Hr & Hi) E Hl. unfold long_path. rewrite names_of_path by exact HF.
  assert (Hn : names <> []) by (intros ->; apply Hr; reflexivity).
  destruct no_op eqn:En.
  - exfalso. cbn [make_translator t_encrypt noop_translator] in E. unfold noop_encrypt_full in E. destruct (path_of names) as [|b t]; [injection E as _ <-; apply Hl; reflexivity|].
    destruct (Byte.eqb b slash); injection E as _ <-; apply Hl; reflexivity.
  - split; [reflexivity|]. specialize (Hcfg eq_refl).
    destruct names as [|n names _] using rev_ind; [congruence|]. destruct (path_of_snoc names n) as (dir & Ed). rewrite Ed in E.
    apply Forall_app in HF. destruct HF as (_ & HF). inversion HF as [|x y (H1 & H3) _]. subst.
    destruct (make_last _ _ _ cmac_len ks_len threshold suffix dir n P _ Hcfg H1 H3 E) as (_ & El). subst l. rewrite leaf_snoc.
    destruct (Nat.ltb_spec 0 threshold) as [Ht|Ht]; cbn [andb] in Hl; [|congruence].
    destruct (Nat.ltb_spec threshold (length n)); [auto|congruence].
Qed.

Lemma encl path : okp path -> exists P l, t_encrypt tr path = Ok (P, l) /\
  comps P = map phys (names_of path) /\ Forall occ (names_of path) /\ names_of path <> [] /\
  (l <> [] -> tab = true /\ long_path no_op threshold path).
Proof.
  intros Hp. destruct (enc cmac keystream blake cmac_len ks_len blake_len no_op threshold suffix Hcfg L Hfit path Hp) as (P & l & E & H1 & H2 & H3 & H4).
  exists P, l. repeat (split; [assumption|]). intros Hl. split; [auto|]. eapply enc_long; eassumption.
Qed.

Section Run.
Variable cs : list choice.
Hypothesis Hops : Forall from_fuse (calls_of cs).
Hypothesis Hnames : incl (op_names (calls_of cs)) L.

Lemma calls_okp : Forall (fun o => Forall okp (op_paths o)) (calls_of cs).
Proof.
  apply Forall_forall. intros o Ho. apply Forall_forall. intros p Hp. rewrite Forall_forall in Hops. specialize (Hops o Ho).
  unfold from_fuse in Hops. rewrite Forall_forall in Hops. destruct (Hops p Hp) as [H1 H2]. split; [exact H1|]. split; [exact H2|].
  intros x Hx. apply Hnames. unfold op_names. apply in_flat_map. exists p. split; [|exact Hx]. apply in_flat_map. eauto.
Qed.

Theorem moments_exist w h : c_run tr cs world0 = Some (w, h) ->
  exists a, moments (fails tab (long_path no_op threshold)) pworld0 h a /\
    R phys occ tab (p_tree a) (with_rows (fun _ => []) (w_tree w)).
Proof.
  intros E. destruct (run_Q phys occ (phys_inj cmac keystream blake cmac_len ks_len blake_len no_op threshold suffix Hcfg L Hfit)
    (phys_TN cmac keystream blake cmac_len ks_len blake_len no_op threshold suffix Hcfg L Hfit) tab (long_path no_op threshold) tr okp encl
    cs world0 w h pworld0 E (Q0 _ _ _ _) calls_okp pworld0 [] (M_nil _ _)) as (a & M & HQ & _).
  exists a. split; [exact M|exact HQ].
Qed.

Lemma found_rows rows h path : okp path -> found tr (with_rows rows h) path = found tr h path.
Proof.
  intros Hp. destruct (encl path Hp) as (P & l & E & EC & HO & Hn & _). unfold found. rewrite E, EC.
  pose proof (usual_pc phys occ (phys_TN cmac keystream blake cmac_len ks_len blake_len no_op threshold suffix Hcfg L Hfit) _ HO Hn) as U.
  destruct (map phys (names_of path)) as [|x p] eqn:Ep; [reflexivity|]. rewrite <- Ep in *.
  unfold with_rows. destruct (h (parent (map phys (names_of path)))) as [es|]; [|reflexivity]. cbn [option_map].
  apply f_ent. destruct U as [U|U]; [congruence|exact U].
Qed.

Lemma found_moment v h path : R phys occ tab v (with_rows (fun _ => []) h) -> fuse_path path -> incl (split_slash path) L ->
  found tr h path = plain_found v path.
Proof.
  intros H Hp Hi. rewrite <- (found_same cmac keystream blake cmac_len ks_len blake_len no_op threshold suffix Hcfg L Hfit v _ path H Hp Hi).
  destruct (bytes_dec path [slash]) as [->|N].
  - unfold found. destruct (enc_names cmac keystream blake cmac_len ks_len blake_len no_op threshold suffix Hcfg L Hfit [] (Forall_nil _) (incl_nil_l _)) as (P & l & E & EC & _).
    change [slash] with (path_of []). rewrite E, EC. reflexivity.
  - symmetry. apply found_rows. repeat split; assumption.
Qed.
End Run.
End Top.

(** ** The tables *)
Lemma gentle_paths trans suffix cs : forall w w' h, gentle_run trans suffix cs w -> c_run trans cs w = Some (w', h) ->
  Forall fuse_path (flat_map op_paths (calls_of cs)).
Proof.
  induction cs as [|c cs IH]; intros w w' h HG HR; [constructor|]. cbn [c_run gentle_run] in *. destruct HG as [H1 H2].
  destruct (c_step trans c w) as [[w1 h1]|]; [|discriminate HR]. destruct (c_run trans cs w1) as [[w2 h2]|] eqn:ER; [|discriminate HR].
  specialize (IH _ _ _ H2 ER). unfold calls_of. cbn [flat_map]. rewrite flat_map_app. apply Forall_app. split; [|exact IH].
  destruct c as [t o|t f|t|]; cbn [flat_map]; [rewrite app_nil_r; exact H1|constructor|constructor|constructor].
Qed.

Section RestTop.
Variable cmac : bytes -> bytes.
Variable keystream : bytes -> nat -> bytes.
Variable blake : bytes -> bytes.
Hypothesis cmac_len : forall m, length (cmac m) = 16.
Hypothesis ks_len : forall iv n, length (keystream iv n) = n.
Hypothesis blake_len : forall m, length (blake m) = 32.
Variable threshold : nat.
Hypothesis Ht : 0 < threshold.
Variable suffix : bytes.
Hypothesis Hs : suffix_ok (effective suffix).
Notation tr := (make_translator cmac keystream blake false threshold suffix None None).
Notation nm := (named cmac keystream blake threshold).

Theorem reach_J cs w h L : gentle_run tr (effective suffix) cs world0 -> undisturbed_run tr cs world0 ->
  c_run tr cs world0 = Some (w, h) -> incl (op_names (calls_of cs)) L ->
  J tr (effective suffix) (nm (fun n => In n L) suffix) (LongNameTop.okp (fun n => In n L)) w.
Proof.
  intros HG HU HR HL.
  eapply (run_J tr (effective suffix) _ (LongNameTop.okp (fun n => In n L))); try eassumption.
  - apply top_named_long; assumption.
  - apply top_named_TN; assumption.
  - apply top_enc; assumption.
  - intros t o Hi. apply Forall_forall. intros p Hp.
    assert (Hin : In p (flat_map op_paths (calls_of cs))).
    { apply in_flat_map. exists o. split; [|exact Hp]. unfold calls_of. apply in_flat_map. exists (Begin t o). split; [exact Hi|left; reflexivity]. }
    apply okp_listed; [|intros n Hn; apply HL; unfold op_names; apply in_flat_map; eauto].
    pose proof (gentle_paths _ _ _ _ _ _ HG HR) as HF. rewrite Forall_forall in HF. exact (HF p Hin).
  - apply J0. eapply ext_inv; [apply inv_empty|]. intros p. unfold with_rows, world0. cbn. unfold empty_fs. destruct p; reflexivity.
Qed.

Theorem rest_inv cs w h L : gentle_run tr (effective suffix) cs world0 -> undisturbed_run tr cs world0 ->
  c_run tr cs world0 = Some (w, h) -> at_rest w -> incl (op_names (calls_of cs)) L ->
  inv (effective suffix) (nm (fun n => In n L) suffix) (on_disk w).
Proof.
  intros HG HU HR HA HL.
  apply (rest_J tr (effective suffix) (nm (fun n => In n L) suffix) (LongNameTop.okp (fun n => In n L))); [|exact HA]. eapply reach_J; eassumption.
Qed.

(** at any moment, but for the names of calls under way *)
Theorem killed_recorded cs w h : gentle_run tr (effective suffix) cs world0 -> undisturbed_run tr cs world0 -> c_run tr cs world0 = Some (w, h) ->
  forall d es u k, on_disk w d = Some es -> In (u, k) es -> long_entry (effective suffix) u -> ~ under_way tr w u ->
  exists name P l, threshold < length name /\ ~ In slash name /\ t_encrypt tr (slash :: name) = Ok (P, l) /\
    get_last_component P = u /\ table_of es u = Ok l.
Proof.
  intros HG HU HR d es u k Hd Hi Hl HW. pose proof (reach_J cs w h _ HG HU HR (incl_refl _)) as HJ.
  assert (Hu : ent u es <> None). { apply (in_map fst) in Hi. cbn [fst] in Hi. apply ent_some in Hi. destruct Hi as (k' & ->). discriminate. }
  destruct (disk_long _ _ _ _ _ _ _ _ HJ Hd Hu Hl HW) as (l & Hn & Hr).
  assert (Hne : l <> []) by (apply (top_named_long cmac keystream blake cmac_len ks_len blake_len threshold Ht _ suffix Hs u l Hn); exact Hl).
  destruct (named_means cmac keystream blake cmac_len ks_len blake_len threshold Ht _ suffix Hs u l Hn Hne) as (name & P & _ & H1 & _ & H2 & H3 & H4).
  exists name, P, l. repeat (split; [assumption|]). exact Hr.
Qed.
Theorem killed_stale cs w h : gentle_run tr (effective suffix) cs world0 -> undisturbed_run tr cs world0 -> c_run tr cs world0 = Some (w, h) ->
  forall d es m u l, on_disk w d = Some es -> ent TN es = Some (KTable m) -> In (u, l) m -> ~ under_way tr w u ->
  long_entry (effective suffix) u /\ In u (map fst es).
Proof.
  intros HG HU HR d es m u l Hd Hm Hi HW. pose proof (reach_J cs w h _ HG HU HR (incl_refl _)) as HJ.
  destruct (disk_stale _ _ _ _ _ _ _ _ _ _ HJ Hd Hm Hi HW) as (A & B). split; [exact A|].
  destruct (In_dec bytes_dec u (map fst es)) as [Hx|Hx]; [exact Hx|]. apply ent_none in Hx. contradiction.
Qed.
End RestTop.
