From Verif Require Import Base BaseLemmas TextModel CryptoModel CryptoProofs StreamSpec LiteModel LiteProofs NameModel NameSpec NameProofs NameTop
  HandleModel LongNameModel LongNameSpec LongNameProofs LiteTreeSpec LiteTreeProofs LiteTreeTop LiteFsModel LiteFsSpec LiteFsProofs LiteFsTop
  XattrModel XattrSpec XattrProofs XattrTop LifeProofs XattrFsModel XattrFsSpec.

Section XFs.
Variable cmac : bytes -> bytes.
Variable keystream : bytes -> nat -> bytes.
Variable blake : bytes -> bytes.
Hypothesis cmac_len : forall m, length (cmac m) = 16.
Hypothesis ks_len : forall iv n, length (keystream iv n) = n.
Hypothesis blake_len : forall m, length (blake m) = 32.
Variable no_op : bool.
Variable threshold : nat.
Variable suffix : bytes.
Hypothesis Hcfg : no_op = false -> config_ok threshold suffix.
Variable L : list bytes.
Hypothesis Hfit : names_fit blake no_op threshold L.
Notation tr := (make_translator cmac keystream blake no_op threshold suffix None None).
Notation RR := (R (phys cmac keystream blake no_op threshold suffix) (occ L) (LiteTreeTop.tab no_op threshold L)).
Variable A : aead.
Variable bs iv_size : nat.
Variable check sparse : bool.
Variable session_key : bytes -> bytes.
Variable padding_of : bytes -> nat.
Variable padded : bool.
Variable rnd : nat -> nat -> bytes.
Variable iv_fuel : nat.
Hypothesis HE : lite_env_ok A bs iv_size rnd iv_fuel.
Hypothesis HP : padded = false -> forall id, padding_of id = 0.
Variable link_max : nat.
Variable xcmac : bytes -> bytes.
Variable xks : bytes -> nat -> bytes.
Hypothesis xcmac_len : forall m, length (xcmac m) = 16.
Hypothesis xks_len : forall iv n, length (xks iv n) = n.
Variable b64 : bytes -> bytes.
Variable unb64 : bytes -> option bytes.
Hypothesis code : text_code b64 unb64.
Variable XA : aead.
Hypothesis HXA : aead_ok XA.
Variable xkey : bytes.
Variable xiv_size : nat.
Variable verify : bool.
Notation rel_of := (LR A bs iv_size check session_key padding_of tr link_max RR (linkable no_op threshold)).
Notation lview := (view xcmac xks b64 unb64 (lstored XA xkey xiv_size)).
Notation xstep := (x_step A bs iv_size check sparse session_key padding_of padded rnd iv_fuel tr link_max xcmac xks b64 unb64 XA xkey xiv_size verify).
Notation xon := (x_on tr xcmac xks b64 unb64 XA xkey xiv_size verify).
Notation old := (negb no_op && (threshold =? 0)).

Definition XR (s : xst) (p : pxs) : Prop := rel_of (xs_fs s) (px_fs p) /\ forall i, lview (px_attrs p i) (xs_attrs s i).

Lemma fits_value o h : lite_fits xiv_size o h -> forall n fl iv bad bad2, o <> XSet n [] fl iv bad bad2.
Proof. intros F n fl iv bad bad2 ->. destruct F as [_ [F _]]. congruence. Qed.
Lemma on_sim s p path o : XR s p -> okq L path -> on_proper xiv_size p path o ->
  XR (fst (xon s path o)) (fst (px_on p path o)) /\ seen (snd (xon s path o)) = seen (snd (px_on p path o)).
Proof.
  intros [H1 H2] Hq Hp. unfold on_proper in Hp. unfold px_on.
  assert (Hv : forall n fl iv bad bad2, o <> XSet n [] fl iv bad bad2).
  { destruct (at_path (px_fs p) path) as [[|i|i|]|]; try contradiction; exact (fits_value _ _ Hp). }
  assert (E : xon s path o =
    match locate tr (ls_tree (xs_fs s)) path with
    | Err e => (s, Err e)
    | Ok k => match node_of k with
      | NReg i => let '(a, r) := lite_xstep xcmac xks b64 unb64 XA xkey xiv_size verify o (xs_attrs s i) in (mkXst (xs_fs s) (put_attrs (xs_attrs s) i a), r)
      | _ => (s, Err EUndef)
      end
    end).
  { destruct o as [n [|c v] fl iv bad bad2| | |]; try reflexivity. exfalso. exact (Hv _ _ _ _ _ eq_refl). }
  rewrite E. clear E Hv.
  rewrite (locate_same cmac keystream blake cmac_len ks_len blake_len no_op threshold suffix Hcfg L Hfit _ _ path (lr_tree _ _ _ _ _ _ _ _ _ _ _ _ H1) Hq).
  unfold at_path in *. destruct (plain_found (pf_tree (px_fs p)) path) as [k|]; cbn [option_map] in *; [|split; [split; assumption|reflexivity]].
  destruct (node_of k) as [|i|i|]; try contradiction.
  destruct (lite_xstep_sim xcmac xks xcmac_len xks_len b64 unb64 code XA HXA xkey xiv_size verify o _ _ (H2 i) Hp) as [V S].
  destruct (lite_xstep _ _ _ _ _ _ _ _ o (xs_attrs s i)) as [a r]. cbn [fst snd] in *. split; [|exact S].
  split; [exact H1|]. intros j. cbn [px_attrs xs_attrs]. unfold put_attrs. destruct (j =? i); [exact V|apply H2].
Qed.

Lemma x_names_head c cs : incl (x_names (c :: cs)) L -> incl (flat_map split_slash (x_paths c)) L /\ incl (x_names cs) L.
Proof. unfold x_names. cbn [flat_map]. rewrite flat_map_app. intros H. split; intros x Hx; apply H, in_or_app; auto. Qed.
Lemma path_ok path : fuse_path path -> incl (flat_map split_slash [path]) L -> okq L path.
Proof. intros H1 H2. split; [exact H1|]. intros x Hx. apply H2. cbn [flat_map]. rewrite app_nil_r. exact Hx. Qed.

Lemma x_history_from cs : forall s p, XR s p -> Forall x_from_fuse cs -> incl (x_names cs) L ->
  x_all_proper (lite_max_blocks * bs) link_max old xiv_size cs p ->
  exists p', x_history link_max cs p (map as_seen (snd (run_ops xstep s cs))) p' /\ XR (fst (run_ops xstep s cs)) p'.
Proof.
  induction cs as [|c cs IH]; intros s p HR HF HN Hp; [exists p; split; [constructor|exact HR]|].
  apply Forall_cons_iff in HF as [F1 F2]. apply x_names_head in HN as [N1 N2]. destruct c as [op|path o]; cbn [x_all_proper] in Hp; destruct Hp as [P1 P2].
  - destruct HR as [H1 H2].
    destruct (history_from cmac keystream blake cmac_len ks_len blake_len no_op threshold suffix Hcfg L Hfit A bs iv_size check sparse session_key padding_of padded rnd iv_fuel HE HP link_max [op] _ _ H1) as (f & G1 & G2).
    { constructor; [exact F1|constructor]. }
    { unfold v_names. cbn [flat_map]. rewrite app_nil_r. exact N1. }
    { cbn [all_proper]. split; [exact P1|auto]. }
    cbn [run_ops] in G1, G2 |- *. unfold x_step at 1 3. 
    destruct (v_step _ _ _ _ _ _ _ _ _ _ _ _ (xs_fs s) op) as [s1 r] eqn:Ev. cbn [fst snd] in G1, G2.
    destruct (IH (mkXst s1 (xs_attrs s)) (mkPx f (px_attrs p)) (conj G2 H2) F2 N2 (P2 _ _ G1)) as (p' & K1 & K2).
    destruct (run_ops xstep (mkXst s1 (xs_attrs s)) cs) as [s2 outs]. cbn [fst snd map as_seen] in *.
    exists p'. split; [|exact K2]. econstructor; eassumption.
  - destruct (on_sim s p path o HR (path_ok path F1 N1) P1) as [S1 S2].
    cbn [run_ops]. unfold x_step at 1 3. destruct (xon s path o) as [s1 r]. cbn [fst snd] in S1, S2.
    destruct (IH _ _ S1 F2 N2 P2) as (p' & K1 & K2). destruct (run_ops xstep s1 cs) as [s2 outs]. cbn [fst snd map as_seen] in *.
    exists p'. split; [|exact K2]. rewrite S2. constructor. exact K1.
Qed.

Lemma x_same_from cs : LiteTreeTop.tab no_op threshold L = false -> forall s p, XR s p -> Forall x_from_fuse cs -> incl (x_names cs) L -> x_short_links link_max cs ->
  x_run_proper (lite_max_blocks * bs) link_max old xiv_size cs p ->
  map as_seen (snd (run_ops xstep s cs)) = snd (run_ops px_step p cs) /\ XR (fst (run_ops xstep s cs)) (fst (run_ops px_step p cs)).
Proof.
  intros Ht. induction cs as [|c cs IH]; intros s p HR HF HN HS Hp; [split; [reflexivity|exact HR]|].
  apply Forall_cons_iff in HF as [F1 F2]. apply x_names_head in HN as [N1 N2]. apply Forall_cons_iff in HS as [S1 S2]. cbn [x_run_proper] in Hp. destruct Hp as [P1 P2].
  cbn [run_ops]. destruct c as [op|path o]; cbn [px_step] in *.
  - destruct HR as [H1 H2].
    destruct (same_from cmac keystream blake cmac_len ks_len blake_len no_op threshold suffix Hcfg L Hfit A bs iv_size check sparse session_key padding_of padded rnd iv_fuel HE HP link_max [op] _ _ H1) as [G1 G2].
    { constructor; [exact F1|constructor]. }
    { unfold v_names. cbn [flat_map]. rewrite app_nil_r. exact N1. }
    { exact Ht. }
    { exact S1. }
    { cbn [run_proper]. split; [exact P1|exact I]. }
    cbn [run_ops] in G1, G2. unfold x_step at 1 3.
    destruct (v_step _ _ _ _ _ _ _ _ _ _ _ _ (xs_fs s) op) as [s1 r] eqn:Ev. destruct (p_step (px_fs p) op) as [f q]. cbn [fst snd] in *. injection G1 as ->.
    destruct (IH (mkXst s1 (xs_attrs s)) (mkPx f (px_attrs p)) (conj G2 H2) F2 N2 S2 P2) as [K1 K2].
    destruct (run_ops xstep (mkXst s1 (xs_attrs s)) cs) as [s2 outs]. destruct (run_ops px_step (mkPx f (px_attrs p)) cs) as [p2 pouts]. cbn [fst snd map as_seen] in *.
    split; [rewrite K1; reflexivity|exact K2].
  - destruct (on_sim s p path o HR (path_ok path F1 N1) P1) as [Q1 Q2].
    unfold x_step at 1 3. destruct (xon s path o) as [s1 r]. destruct (px_on p path o) as [p1 q]. cbn [fst snd] in *.
    destruct (IH _ _ Q1 F2 N2 S2 P2) as [K1 K2].
    destruct (run_ops xstep s1 cs) as [s2 outs]. destruct (run_ops px_step p1 cs) as [p2 pouts]. cbn [fst snd map as_seen] in *.
    split; [rewrite K1, Q2; reflexivity|exact K2].
Qed.

Lemma XR_start before : (forall i, all_foreign (unwrap_name xcmac xks unb64) (before i)) -> XR (mkXst ls_empty before) px_empty.
Proof.
  intros H. split.
  - apply (LR_empty A bs iv_size check session_key padding_of padded HP). apply R_empty.
  - intros i. apply view_start. apply H.
Qed.
End XFs.
