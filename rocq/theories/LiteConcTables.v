(** Where the tables of long names are, when system calls are made one by one. *)
From Verif Require Import Base BaseLemmas TextModel NameModel NameSpec LongNameModel LongNameSpec LongNameProofs LongNameInv
  LiteTreeSpec LiteConcModel LiteConcSpec LiteConcTree.
Local Open Scope list_scope.

Notation tn fs d := (lookup fs d TN).

Lemma tn_hset fs d es q : tn (hset fs d (Some es)) q = if hpath_eqb d q then ent TN es else tn fs q.
Proof. unfold lookup, hset. destruct (hpath_eqb d q); reflexivity. Qed.
Lemma tn_hset_none fs d q : tn (hset fs d None) q = if hpath_eqb d q then None else tn fs q.
Proof. unfold lookup, hset. destruct (hpath_eqb d q); reflexivity. Qed.
Lemma tn_same fs d es es' q : fs d = Some es -> ent TN es' = ent TN es -> tn (hset fs d (Some es')) q = tn fs q.
Proof.
  intros E H. rewrite tn_hset. destruct (hpath_eqb d q) eqn:Q; [|reflexivity]. apply hpath_eqb_eq in Q. subst q. unfold lookup. rewrite E. exact H.
Qed.
Lemma parent_ne p : p <> [] -> p <> parent p.
Proof. intros H. rewrite (parent_leaf p H) at 1. intros E. symmetry in E. exact (snoc_ne _ _ E). Qed.

(** No table appears, and that of the directory stays. *)
Definition shrinks (call : hfs -> hfs * res unit) : Prop := forall fs q x, tn (fst (call fs)) q = Some x -> tn fs q = Some x.
Definition stays (call : hfs -> hfs * res unit) (d : hpath) : Prop := forall fs, snd (call fs) = Ok tt -> tn (fst (call fs)) d = tn fs d.

Ltac nil := let H := fresh in intros H; exact H.

Lemma open_tn bad creat excl ino p fs q : usual p -> tn (fst (h_open bad creat excl ino p fs)) q = tn fs q.
Proof.
  intros U. unfold h_open. destruct bad as [e|]; [reflexivity|]. destruct p as [|x p0] eqn:Ep; [reflexivity|]. rewrite <- Ep in *.
  destruct U as [U|U]; [congruence|]. clear Ep. destruct (fs (parent p)) as [es|] eqn:E; [|reflexivity].
  destruct (ent (leaf p) es) as [[i| |m]|]; try reflexivity. destruct creat; [|reflexivity]. cbn [fst].
  eapply tn_same; [exact E|]. apply ent_put_ne. exact U.
Qed.
Lemma link_tn bad s p fs q : usual p -> tn (fst (h_link bad s p fs)) q = tn fs q.
Proof.
  intros U. unfold h_link. destruct bad as [e|]; [reflexivity|]. destruct s as [|y s0] eqn:Es; [reflexivity|]. rewrite <- Es. destruct p as [|x p0] eqn:Ep; [reflexivity|]. rewrite <- Ep in *.
  destruct U as [U|U]; [congruence|]. clear Ep. destruct (fs (parent s)) as [es|]; [|reflexivity]. destruct (fs (parent p)) as [ed|] eqn:E; [|reflexivity].
  destruct (ent (leaf s) es) as [[i| |m]|]; destruct (ent (leaf p) ed) as [k|]; try reflexivity. cbn [fst].
  eapply tn_same; [exact E|]. apply ent_put_ne. exact U.
Qed.
Lemma unlink_tn bad p fs q : usual p -> tn (fst (h_unlink bad p fs)) q = tn fs q.
Proof.
  intros U. unfold h_unlink. destruct bad as [e|]; [reflexivity|]. destruct p as [|x p0] eqn:Ep; [reflexivity|]. rewrite <- Ep in *.
  destruct U as [U|U]; [congruence|]. clear Ep. destruct (fs (parent p)) as [es|] eqn:E; [|reflexivity].
  destruct (ent (leaf p) es) as [[i| |m]|]; try reflexivity; cbn [fst]; (eapply tn_same; [exact E|]; apply ent_del_ne; exact U).
Qed.
Lemma mkdir_tn bad p fs q : usual p -> tn (fst (h_mkdir bad p fs)) q = tn fs q \/ tn (fst (h_mkdir bad p fs)) q = None /\ q = p /\ p <> [].
Proof.
  intros U. unfold h_mkdir. destruct bad as [e|]; [left; reflexivity|]. destruct p as [|x p0] eqn:Ep; [left; reflexivity|]. rewrite <- Ep in *.
  destruct U as [U|U]; [congruence|]. assert (Hp : p <> []) by congruence. clear Ep. destruct (fs (parent p)) as [es|] eqn:E; [|left; reflexivity].
  destruct (ent (leaf p) es) as [k|]; [left; reflexivity|]. cbn [fst]. rewrite tn_hset. destruct (hpath_eqb p q) eqn:Q.
  - right. apply hpath_eqb_eq in Q. auto.
  - left. eapply tn_same; [exact E|]. apply ent_put_ne. exact U.
Qed.
Lemma rmdir_tn bad p fs q : usual p -> tn (fst (h_rmdir bad p fs)) q = tn fs q \/ tn (fst (h_rmdir bad p fs)) q = None /\ q = p /\ p <> [].
Proof.
  intros U. unfold h_rmdir. destruct bad as [e|]; [left; reflexivity|]. destruct p as [|x p0] eqn:Ep; [left; reflexivity|]. rewrite <- Ep in *.
  destruct U as [U|U]; [congruence|]. assert (Hp : p <> []) by congruence. clear Ep. destruct (fs (parent p)) as [es|] eqn:E; [|left; reflexivity].
  destruct (ent (leaf p) es) as [[i| |m]|]; destruct (fs p) as [[|y l]|]; try (left; reflexivity). cbn [fst]. rewrite tn_hset_none. destruct (hpath_eqb p q) eqn:Q.
  - right. apply hpath_eqb_eq in Q. auto.
  - left. eapply tn_same; [exact E|]. apply ent_del_ne. exact U.
Qed.
Lemma drop_tn p fs q : tn (drop_table p fs) q = tn fs q \/ tn (drop_table p fs) q = None /\ q = p.
Proof.
  unfold drop_table. destruct (fs p) as [es|] eqn:E; [|left; reflexivity].
  destruct (ent TN es) as [[i| |m]|] eqn:Et; try (left; reflexivity); rewrite tn_hset; destruct (hpath_eqb p q) eqn:Q; try (left; reflexivity);
    right; rewrite ent_del_eq; apply hpath_eqb_eq in Q; auto.
Qed.

(** ** Every table is in one place. *)
Definition uniq (fs : hfs) : Prop := forall d d' k, tn fs d = Some (KFile k) -> tn fs d' = Some (KFile k) -> d = d'.
Definition low (n : nat) (fs : hfs) : Prop := forall d x, tn fs d = Some x -> exists k, x = KFile k /\ k < n.
Definition calm (call : hfs -> hfs * res unit) : Prop := forall fs n, uniq fs -> low n fs -> uniq (fst (call fs)) /\ low n (fst (call fs)).

Lemma shrink_calm call : shrinks call -> calm call.
Proof.
  intros S fs n U L. split.
  - intros d d' k H1 H2. apply (U d d' k); apply S; assumption.
  - intros d x H. apply (L d). apply S. exact H.
Qed.
Lemma open_shrinks bad creat excl ino p : usual p -> shrinks (h_open bad creat excl ino p).
Proof. intros U fs q x. rewrite open_tn by exact U. nil. Qed.
Lemma link_shrinks bad s p : usual p -> shrinks (h_link bad s p).
Proof. intros U fs q x. rewrite link_tn by exact U. nil. Qed.
Lemma unlink_shrinks bad p : usual p -> shrinks (h_unlink bad p).
Proof. intros U fs q x. rewrite unlink_tn by exact U. nil. Qed.
Lemma mkdir_shrinks bad p : usual p -> shrinks (h_mkdir bad p).
Proof. intros U fs q x. destruct (mkdir_tn bad p fs q U) as [->|(-> & _)]; [nil|discriminate]. Qed.
Lemma rmdir_shrinks bad p : usual p -> shrinks (h_rmdir bad p).
Proof. intros U fs q x. destruct (rmdir_tn bad p fs q U) as [->|(-> & _)]; [nil|discriminate]. Qed.
Lemma drop_shrinks p : shrinks (fun fs => (drop_table p fs, Ok tt)).
Proof. intros fs q x. cbn [fst]. destruct (drop_tn p fs q) as [->|(-> & _)]; [nil|discriminate]. Qed.

Lemma mkdir_stays bad p : usual p -> stays (h_mkdir bad p) (parent p).
Proof. intros U fs _. destruct (mkdir_tn bad p fs (parent p) U) as [->|(_ & E & N)]; [reflexivity|]. exfalso. exact (parent_ne p N (eq_sym E)). Qed.
Lemma rmdir_stays bad p : usual p -> stays (h_rmdir bad p) (parent p).
Proof. intros U fs _. destruct (rmdir_tn bad p fs (parent p) U) as [->|(_ & E & N)]; [reflexivity|]. exfalso. exact (parent_ne p N (eq_sym E)). Qed.

Lemma rename_calm bad a b : usual a -> usual b -> calm (h_rename bad a b).
Proof.
  intros Ua Ub fs n U L. unfold h_rename. destruct bad as [e|]; [split; assumption|]. destruct a as [|x a0] eqn:Ea; [split; assumption|].
  destruct b as [|y b0] eqn:Eb; [split; assumption|]. rewrite <- Ea, <- Eb in *.
  destruct Ua as [Ua|Ua]; [congruence|]. destruct Ub as [Ub|Ub]; [congruence|]. clear Ea Eb.
  destruct (fs (parent a)) as [ea|] eqn:E1; [|split; assumption]. destruct (fs (parent b)) as [eb|] eqn:E2; [|split; assumption].
  destruct (ent (leaf a) ea) as [k|]; [|split; assumption]. destruct (hpath_eqb a b); [split; assumption|]. cbv zeta.
  set (go := match hset fs (parent a) (Some (ent_del (leaf a) ea)) (parent b) with
       | None => (fs, Err ENOENT)
       | Some eb1 => (match k with KDir => h_move a b (hset (hset fs (parent a) (Some (ent_del (leaf a) ea))) (parent b) (Some (ent_put (leaf b) k eb1)))
                      | _ => hset (hset fs (parent a) (Some (ent_del (leaf a) ea))) (parent b) (Some (ent_put (leaf b) k eb1)) end, Ok tt) end).
  assert (G : uniq (fst go) /\ low n (fst go)).
  { unfold go. destruct (hset fs (parent a) (Some (ent_del (leaf a) ea)) (parent b)) as [eb1|] eqn:E3; [|split; assumption]. cbn [fst].
    set (fs2 := hset (hset fs (parent a) (Some (ent_del (leaf a) ea))) (parent b) (Some (ent_put (leaf b) k eb1))).
    assert (S2 : forall q, tn fs2 q = tn fs q).
    { intros q. unfold fs2. rewrite (tn_same _ _ _ _ q E3); [|apply ent_put_ne; exact Ub]. eapply tn_same; [exact E1|]. apply ent_del_ne. exact Ua. }
    assert (K2 : uniq fs2 /\ low n fs2).
    { split; [intros d d' i; rewrite !S2; apply U|intros d v; rewrite S2; apply L]. }
    destruct k; try exact K2. clearbody fs2. destruct K2 as [U2 L2]. clear - U2 L2.
    assert (M : forall q x, tn (h_move a b fs2) q = Some x ->
       (exists r, q = b ++ r /\ tn fs2 (a ++ r) = Some x) \/ (strip_prefix a q = None /\ tn fs2 q = Some x)).
    { intros q x. unfold h_move, lookup. destruct (strip_prefix b q) as [r|] eqn:S.
      - apply strip_some in S. intros H. left. exists r. auto.
      - destruct (strip_prefix a q) eqn:S'; [discriminate|]. auto. }
    split.
    - intros d d' i H1 H2. apply M in H1, H2. destruct H1 as [(r & -> & H1)|(S1 & H1)], H2 as [(r' & -> & H2)|(S2 & H2)].
      + pose proof (U2 _ _ _ H1 H2) as E. apply app_inv_head in E. congruence.
      + exfalso. pose proof (U2 _ _ _ H1 H2) as E. subst d'. apply (proj1 (strip_none _ _) S2 r eq_refl).
      + exfalso. pose proof (U2 _ _ _ H1 H2) as E. subst d. apply (proj1 (strip_none _ _) S1 r' eq_refl).
      + exact (U2 _ _ _ H1 H2).
    - intros d x H. apply M in H. destruct H as [(r & _ & H)|(_ & H)]; exact (L2 _ _ H). }
  clearbody go.
  destruct k as [i| |m].
  - destruct (ent (leaf b) eb) as [[j| |m]|]; try exact G; try (split; assumption). destruct (i =? j); [split; assumption|exact G].
  - destruct (strip_prefix a b); [split; assumption|]. destruct (ent (leaf b) eb) as [[j| |m]|]; try exact G; try (split; assumption).
    destruct (fs b) as [[|z l]|]; try exact G; split; assumption.
  - destruct (ent (leaf b) eb) as [[j| |m']|]; try exact G; split; assumption.
Qed.

(** ** Trees with the same entries, in another order. *)
Definition same (fs fs' : hfs) : Prop :=
  forall d, match fs d, fs' d with
            | Some e, Some e' => NoDup (map fst e') /\ forall v, ent v e' = ent v e
            | None, None => True
            | _, _ => False
            end.

Lemma same_inv suffix named fs fs' : inv suffix named fs -> same fs fs' -> inv suffix named fs'.
Proof.
  intros [[T0 T] D] S.
  assert (N : forall d, fs' d <> None <-> fs d <> None).
  { intros d. specialize (S d). destruct (fs d), (fs' d); try contradiction; split; congruence. }
  assert (X : forall d c, (exists es, fs' d = Some es /\ ent c es = Some KDir) <-> (exists es, fs d = Some es /\ ent c es = Some KDir)).
  { intros d c. specialize (S d). destruct (fs d) as [e|], (fs' d) as [e'|]; try contradiction.
    - destruct S as [_ S]. split; intros (es & [= <-] & H); eexists; (split; [reflexivity|]); congruence.
    - split; intros (es & H & _); discriminate H. }
  split.
  - split; [apply N; exact T0|]. intros p c. rewrite X, N. apply T.
  - intros p es E. specialize (S p). rewrite E in S. destruct (fs p) as [e|] eqn:Ep; [|contradiction]. destruct S as [S1 S2].
    eapply dir_ok_ext; [exact (D _ _ Ep)|exact S1|exact S2].
Qed.
Lemma ext_inv suffix named fs fs' : inv suffix named fs -> (forall p, fs' p = fs p) -> inv suffix named fs'.
Proof.
  intros HI H. eapply same_inv; [exact HI|]. intros d. rewrite H. destruct (fs d) as [e|] eqn:E; [|exact I].
  split; [|auto]. apply (do_nodup _ _ _ (proj2 HI _ _ E)).
Qed.

Lemma rows_ext (r1 r2 : nat -> rowlist) fs p : (forall k, r1 k = r2 k) -> with_rows r1 fs p = with_rows r2 fs p.
Proof.
  intros H. unfold with_rows. destruct (fs p) as [es|]; [|reflexivity]. cbn [option_map]. f_equal. apply map_ext. intros [c k]. unfold table_kind. cbn [fst snd].
  destruct (bytes_eqb c TN); [|reflexivity]. destruct k; try reflexivity. rewrite H. reflexivity.
Qed.

(** [tree_ok] does not depend on the rows. *)
Lemma f_KDir rows c es : ent c (map (table_kind rows) es) = Some KDir <-> ent c es = Some KDir.
Proof.
  destruct (bytes_dec c TN) as [->|N]; [|rewrite f_ent by exact N; reflexivity]. rewrite f_ent_TN. destruct (ent TN es) as [[i| |m]|]; cbn [option_map]; split; congruence.
Qed.
Lemma tree_raw rows fs : tree_ok (with_rows rows fs) -> tree_ok fs.
Proof.
  intros [T0 T]. assert (N : forall d, fs d <> None <-> with_rows rows fs d <> None).
  { intros d. unfold with_rows. destruct (fs d); cbn [option_map]; [split; discriminate|reflexivity]. }
  split; [apply N; exact T0|]. intros p c. rewrite N, <- T. unfold with_rows.
  split; intros (es & E & H).
  - rewrite E. cbn [option_map]. eexists. split; [reflexivity|]. apply f_KDir. exact H.
  - destruct (fs p) as [e|]; [|discriminate E]. cbn [option_map] in E. injection E as <-. eexists. split; [reflexivity|]. apply f_KDir in H. exact H.
Qed.
Lemma keys_raw rows (es : hents) : NoDup (map fst (map (table_kind rows) es)) -> NoDup (map fst es).
Proof. rewrite f_keys. auto. Qed.

(** Committing new rows of one table. *)
Lemma commit_same rw fs d k m : uniq fs -> tn fs d = Some (KFile k) -> (forall p es, fs p = Some es -> NoDup (map fst es)) ->
  same (commit_table d m (with_rows rw fs)) (with_rows (nupd rw k m) fs).
Proof.
  intros U H ND q. unfold commit_table. unfold lookup in H. destruct (fs d) as [ed|] eqn:Ed; [|discriminate H].
  assert (EW : with_rows rw fs d = Some (map (table_kind rw) ed)) by (unfold with_rows; rewrite Ed; reflexivity). rewrite EW.
  destruct (hpath_dec d q) as [<-|N].
  - rewrite hset_eq. unfold with_rows. rewrite Ed. cbn [option_map]. split; [rewrite f_keys; exact (ND _ _ Ed)|].
    intros v. destruct (bytes_dec TN v) as [<-|Nv].
    + rewrite ent_put_eq, f_ent_TN, H. cbn [option_map]. unfold nupd. rewrite Nat.eqb_refl. reflexivity.
    + rewrite ent_put_ne by exact Nv. rewrite !f_ent by congruence. reflexivity.
  - rewrite hset_ne by exact N. unfold with_rows. destruct (fs q) as [eq|] eqn:Eq; [|exact I]. cbn [option_map].
    split; [rewrite f_keys; exact (ND _ _ Eq)|]. intros v. destruct (bytes_dec TN v) as [<-|Nv].
    + rewrite !f_ent_TN. destruct (ent TN eq) as [[i| |mm]|] eqn:Et; try reflexivity. cbn [option_map]. unfold nupd.
      destruct (Nat.eqb_spec i k) as [->|Ni]; [|reflexivity]. exfalso. apply N. apply (U d q k); unfold lookup; [rewrite Ed; exact H|rewrite Eq; exact Et].
    + rewrite !f_ent by congruence. reflexivity.
Qed.
