(** The statements of PropertiesListConc, for the translator chosen at mount time. *)
From Coq Require Import Strings.String.
From Verif Require Import Base BaseLemmas TextModel TextProofs CryptoModel CryptoProofs NameModel NameSpec NameProofs NameTop
  LongNameModel LongNameSpec LongNameProofs LongNameInv LongNameTop LiteTreeSpec LiteTreeProofs LiteTreeTop
  LiteConcModel LiteConcSpec LiteConcTree LiteConcProofs LiteConcTables LiteConcInv LiteConcTop ListConcModel ListConcSpec ListConcProofs.
Local Open Scope list_scope.

Section Top.
Variable cmac : bytes -> bytes.
Variable keystream : bytes -> nat -> bytes.
Variable blake : bytes -> bytes.
Hypothesis cmac_len : forall m, length (cmac m) = 16.
Hypothesis ks_len : forall iv n, length (keystream iv n) = n.
Hypothesis blake_len : forall m, length (blake m) = 32.
Variable threshold : nat.
Hypothesis Ht : 0 < threshold.
Variable suffix : bytes.
Hypothesis Hs : suffix_ok (effective suffix).
Notation tr := (make_translator cmac keystream blake false threshold suffix None None).
Notation pc := (pcomp cmac keystream blake threshold suffix).
Variable L : list bytes.
Hypothesis Hcol : no_collision blake threshold L.

Lemma fit : names_fit blake false threshold L.
Proof. unfold names_fit. destruct (Nat.eqb_spec threshold 0); [lia|exact Hcol]. Qed.

Variable dir : list bytes.
Hypothesis Hdir : Forall nice dir.
Variable P l : bytes.
Hypothesis HP : t_encrypt tr (path_of dir) = Ok (P, l).
Notation d := (comps P).

Lemma d_is : d = map pc dir.
Proof. exact (comps_path cmac keystream blake cmac_len ks_len blake_len threshold suffix Hs dir P l Hdir HP). Qed.

Lemma found_has w n : nice n -> (found tr (w_tree w) (path_of (dir ++ [n])) <> None <-> has d w (pc n)).
Proof.
  intros Hn. assert (HF : Forall nice (dir ++ [n])) by (apply Forall_app; auto).
  destruct (new_names_total _ _ _ cmac_len ks_len blake_len threshold suffix None None (path_of (dir ++ [n])) Ht) as (P' & l' & He').
  unfold found, has. rewrite He', (comps_path cmac keystream blake cmac_len ks_len blake_len threshold suffix Hs _ _ _ HF He'), map_app. cbn [map]. rewrite d_is.
  destruct (map pc dir ++ [pc n]) eqn:E; [destruct (map pc dir); discriminate|].
  rewrite <- E, parent_app, leaf_app. destruct (w_tree w (map pc dir)) as [es|].
  - split; [intros H; destruct (ent (pc n) es) as [k|] eqn:Ek; [exists es, k; auto|congruence]|]. intros (es' & k & E1 & E2). congruence.
  - split; [congruence|]. intros (es' & k & E1 & _). discriminate E1.
Qed.

Lemma fuse_calls cs : Forall from_fuse (calls_of cs) -> Forall (fun o => Forall fuse_path (op_paths o)) (calls_of cs).
Proof.
  intros H. eapply Forall_impl; [|exact H]. intros o Ho. eapply Forall_impl; [|exact Ho]. intros p Hp. apply Hp.
Qed.

Lemma reached_kinds cs w h : Forall from_fuse (calls_of cs) -> incl (op_names (calls_of cs)) L -> incl dir L ->
  c_run tr cs world0 = Some (w, h) -> kinds cmac keystream blake threshold suffix d nice w.
Proof.
  intros HF HI HD HR. split.
  - destruct (moments_exist cmac keystream blake cmac_len ks_len blake_len false threshold suffix (fun _ _ => Hs) L fit cs HF HI w h HR) as (a & _ & RR).
    intros u (es & k & E1 & E2). destruct (bytes_dec u TN) as [->|N]; [left; reflexivity|]. right.
    assert (HO : Forall (occ L) dir). { rewrite Forall_forall in *. intros x Hx. destruct (Hdir x Hx). split; [apply HD; exact Hx|auto]. }
    specialize (RR dir HO). change (map (phys cmac keystream blake false threshold suffix) dir) with (map pc dir) in RR.
    unfold with_rows in RR. rewrite <- d_is, E1 in RR. cbn [option_map] in RR. destruct (p_tree a dir) as [ev|]; [|destruct RR].
    destruct (d_keys _ _ _ _ _ RR u) as [E|(n & (_ & Hn) & ->)]; [|congruence|exists n; split; [exact Hn|reflexivity]].
    rewrite f_ent by exact N. congruence.
  - intros k. apply r_rows. exact (runs_ok cmac keystream blake cmac_len ks_len blake_len threshold Ht suffix Hs cs (fuse_calls cs HF) _ _ _
      (rowsok0 cmac keystream blake threshold suffix) HR).
Qed.

Lemma pre_calls cs0 cs pre post (Q : lop -> Prop) : changes cs = pre ++ post -> Forall Q (calls_of (cs0 ++ changes cs)) -> Forall Q (calls_of (cs0 ++ pre)).
Proof. intros ->. rewrite app_assoc, calls_app. intros H. apply Forall_app in H. apply H. Qed.
Lemma pre_names cs0 cs pre post : changes cs = pre ++ post -> incl (op_names (calls_of (cs0 ++ changes cs))) L -> incl (op_names (calls_of (cs0 ++ pre))) L.
Proof.
  intros ->. rewrite app_assoc, calls_app. intros H x Hx. apply H. unfold op_names in *. rewrite !flat_map_app. apply in_or_app. left. exact Hx.
Qed.

Theorem only cs0 w h cs ws li : c_run tr cs0 world0 = Some (w, h) -> s_run tr d cs w lister0 = Some (ws, li) ->
  Forall from_fuse (calls_of (cs0 ++ changes cs)) -> incl (op_names (calls_of (cs0 ++ changes cs))) L -> incl dir L ->
  given_seen tr d [] cs w lister0 ->
  forall n, In n (s_out li) -> n = [dot] \/ n = [dot; dot] \/
    (nice n /\ exists w', In w' ws /\ found tr (w_tree w') (path_of (dir ++ [n])) <> None).
Proof.
  intros HR HL HF HI HD HG n Hn.
  assert (HK : Forall (kinds cmac keystream blake threshold suffix d nice) ws).
  { apply Forall_forall. intros w' Hw. destruct (visited tr d cs cs0 w h lister0 ws li HR HL w' Hw) as (pre & post & h' & E1 & E2).
    eapply reached_kinds; [eapply pre_calls; eassumption|eapply pre_names; eassumption|exact HD|exact E2]. }
  destruct (only_run cmac keystream blake cmac_len ks_len blake_len threshold Ht suffix Hs d ws cs [] w lister0 ws li HL HK) as [H _]; auto.
  - intros x [].
  - intros x Hx; exact Hx.
  - split; [intros m []|exact I].
  - destruct (H n Hn) as [E|[E|(E & w' & Hw & Hh)]]; auto. right; right. split; [exact E|]. exists w'. split; [exact Hw|]. apply found_has; assumption.
Qed.

Theorem shown cs0 w h cs ws li name P' l' :
  gentle_run tr (effective suffix) (cs0 ++ changes cs) world0 -> undisturbed_run tr (cs0 ++ changes cs) world0 ->
  c_run tr cs0 world0 = Some (w, h) -> s_run tr d cs w lister0 = Some (ws, li) -> s_pc li = SReady ->
  incl (op_names (calls_of (cs0 ++ changes cs))) L -> In name L -> nice name -> name <> [dot] -> name <> [dot; dot] ->
  no_failure cs -> readdir_works tr d cs w ws -> table_kept d ws ->
  t_encrypt tr (path_of (dir ++ [name])) = Ok (P', l') ->
  (forall w', In w' ws -> found tr (w_tree w') (path_of (dir ++ [name])) <> None /\ ~ under_way tr w' (get_last_component P')) ->
  count_occ (list_eq_dec Byte.byte_eq_dec) (s_out li) name = 1.
Proof.
  intros HG HU HR HL HE HI HnL Hn N1 N2 HN (RG & RO) HT He HW.
  destruct (path_of_snoc dir name) as (pre & Ep). rewrite Ep in He.
  destruct (make_last _ _ _ cmac_len ks_len threshold suffix pre name P' l' (fun _ => Hs) (proj1 Hn) (proj2 Hn) He) as (EL & _). rewrite <- Ep in He.
  assert (HC : forall a b, In a L -> In b L -> pc a = pc b -> a = b).
  { intros a b Ha Hb E. exact (pc_inj cmac keystream blake cmac_len ks_len blake_len threshold Ht (fun n => In n L) suffix Hs Hcol a b Ha Hb E). }
  assert (HK : Forall (fun w => kinds cmac keystream blake threshold suffix d (fun n => In n L /\ nice n) w /\ in_table cmac keystream blake threshold suffix d name w) ws).
  { apply Forall_forall. intros w' Hw. destruct (visited tr d cs cs0 w h lister0 ws li HR HL w' Hw) as (p1 & p2 & h' & E1 & E2).
    rewrite E1, app_assoc in HG, HU. apply gentle_pre in HG. apply calm_pre in HU.
    pose proof (pre_names _ _ _ _ E1 HI) as HI'.
    pose proof (reach_J cmac keystream blake cmac_len ks_len blake_len threshold Ht suffix Hs _ _ _ L HG HU E2 HI') as HJ.
    split; [split|].
    - intros u (es & k & F1 & F2). destruct (bytes_dec u TN) as [->|N]; [left; reflexivity|]. right.
      assert (Hd : with_rows (arow w') (w_tree w') d = Some (map (table_kind (arow w')) es)) by (unfold with_rows; rewrite F1; reflexivity).
      destruct (do_named _ _ _ (proj2 (j_inv _ _ _ _ w' HJ) _ _ Hd) u) as [E|(x & n & Ho & Hn1 & Hn2 & Eu & _)]; [|congruence|exists n; repeat split; assumption].
      rewrite f_ent by exact N. congruence.
    - intros k. apply r_rows. refine (runs_ok cmac keystream blake cmac_len ks_len blake_len threshold Ht suffix Hs (cs0 ++ p1) _ _ _ _
        (rowsok0 cmac keystream blake threshold suffix) E2).
      pose proof (gentle_paths _ _ _ _ _ _ HG E2) as HF. apply Forall_forall. intros o Ho. apply Forall_forall. intros p Hp.
      rewrite Forall_forall in HF. apply HF. apply in_flat_map. eauto.
    - intros HLn. destruct (HW w' Hw) as [Hf Hun]. rewrite EL in Hun. apply found_has in Hf; [|exact Hn]. destruct Hf as (es & k & F1 & F2).
      destruct (pc_not_dot cmac keystream blake cmac_len ks_len blake_len threshold suffix Hs name (proj1 Hn)) as (_ & _ & NT).
      assert (Hd : on_disk w' d = Some (map (table_kind (fun k => db_rows (w_db w' k))) es)) by (unfold on_disk, with_rows; rewrite F1; reflexivity).
      assert (Hlong : long_entry (effective suffix) (pc name)).
      { apply (top_named_long cmac keystream blake cmac_len ks_len blake_len threshold Ht (fun n => In n L) suffix Hs (pc name) (stored cmac keystream threshold name)).
        - exists name. destruct Hn. auto.
        - unfold stored. rewrite (proj2 (Nat.ltb_lt _ _) HLn). apply (enc_box_ne cmac keystream blake); assumption. }
      destruct (disk_long _ _ _ _ _ _ _ (pc name) HJ Hd) as (x & (n1 & Ho & Hn1 & Hn2 & Eu & Ex) & Hx); [rewrite f_ent by exact NT; congruence|exact Hlong|exact Hun|].
      assert (n1 = name) as -> by (apply HC; auto).
      unfold table_of in Hx. change kLongNameTableFileName with TN in Hx. rewrite f_ent_TN in Hx. destruct (ent TN es) as [kd|] eqn:Et; [|discriminate Hx].
      assert (TW : lookup (w_tree w') d TN = Some kd) by (unfold lookup; rewrite F1; exact Et).
      destruct (j_low _ _ _ _ w' HJ _ _ TW) as (k0 & -> & _). cbn [option_map] in Hx. exists es, k0. split; [exact F1|]. split; [exact Et|].
      destruct (ent (pc name) (db_rows (w_db w' k0))) as [y|]; [|discriminate Hx]. unfold stored in Ex. rewrite (proj2 (Nat.ltb_lt _ _) HLn) in Ex. congruence. }
  destruct (shown_run cmac keystream blake cmac_len ks_len blake_len threshold Ht suffix Hs d ws (fun n => In n L /\ nice n)) with (name := name) (cs := cs) (past := @nil world) (w := w) (li := lister0) (ws := ws) (li' := li) as (_ & HX); auto.
  - intros n Hx. apply Hx.
  - intros m (Hm & _) E. apply HC; assumption.
  - exact (proj1 Hn).
  - intros x [].
  - intros x Hx; exact Hx.
  - split; [intros k H; discriminate H|]. split; [exact I|]. cbn. discriminate.
  - assert (P0 : pend cmac keystream blake threshold suffix name li = 0) by (unfold pend; rewrite HE; reflexivity).
    rewrite P0 in HX. cbn in HX. rewrite (RO (pc name)) in HX; [lia|]. intros w' Hw. apply found_has; [exact Hn|]. apply HW. exact Hw.
Qed.
End Top.
