(** A lite repository behaves as the plain tree of [LiteTreeSpec]. *)
From Coq Require Import Strings.String.
From Verif Require Import Base BaseLemmas TextModel NameModel NameSpec NameProofs LongNameModel LongNameSpec LongNameProofs LongNameInv LiteTreeSpec.
Local Open Scope list_scope.

Section Tree.
Variable pc : bytes -> bytes.        (* the physical name of a name *)
Variable occ : bytes -> Prop.        (* the names that occur *)
Hypothesis pc_inj : forall a b, occ a -> occ b -> pc a = pc b -> a = b.
Hypothesis pc_TN : forall a, occ a -> pc a <> TN.

Variable tab : bool.                 (* whether names too long to be stored occur *)
Definition isTable (k : option kind) : Prop := match k with None => True | Some (KTable _) => tab = true | _ => False end.

Record dirR (ev eh : hents) : Prop := {
  d_ent : forall n, occ n -> ent (pc n) eh = ent n ev;
  d_keys : forall u, ent u eh <> None -> u = TN \/ exists n, occ n /\ u = pc n;
  d_occ : forall n, ent n ev <> None -> occ n;
  d_table : isTable (ent TN eh);
  d_ndv : NoDup (map fst ev);
  d_ndh : NoDup (map fst eh) }.

Definition optR (a b : option hents) : Prop :=
  match a, b with None, None => True | Some ev, Some eh => dirR ev eh | _, _ => False end.

Definition R (v h : hfs) : Prop := forall q, Forall occ q -> optR (v q) (h (map pc q)).

Lemma dirR_nil : dirR [] [].
Proof. constructor; cbn; auto; try (intros; congruence); constructor. Qed.

Lemma R_empty : R empty_fs empty_fs.
Proof. intros [|x q] _; cbn; [apply dirR_nil|exact I]. Qed.

Lemma ent_in_ne (u : bytes) (es : hents) : es <> [] -> exists w, ent w es <> None.
Proof. destruct es as [|[w k] es]; [congruence|]. intros _. exists w. cbn [ent]. rewrite bytes_eqb_refl. discriminate. Qed.

Lemma dirR_empty ev eh : dirR ev eh -> ent TN eh = None -> (ev = [] <-> eh = []).
Proof.
  intros [D1 D2 D3 D4 D5 D6] Ht. split; intros E.
  - destruct eh as [|x eh]; [reflexivity|]. exfalso. destruct (ent_in_ne [] (x :: eh) ltac:(discriminate)) as (w & Hw).
    destruct (D2 w Hw) as [->|(n & Hn & ->)]; [congruence|]. rewrite (D1 n Hn), E in Hw. apply Hw. reflexivity.
  - destruct ev as [|x ev]; [reflexivity|]. exfalso. destruct (ent_in_ne [] (x :: ev) ltac:(discriminate)) as (w & Hw).
    pose proof (D3 w Hw) as Ho. rewrite <- (D1 w Ho), E in Hw. apply Hw. reflexivity.
Qed.

Lemma map_pc_inj p q : Forall occ p -> Forall occ q -> map pc p = map pc q -> p = q.
Proof.
  intros Hp. revert q. induction Hp as [|x p Hx Hp IH]; intros [|y q] Hq E; try discriminate; [reflexivity|].
  inversion Hq; subst. cbn [map] in E. injection E as E1 E2. f_equal; [apply pc_inj; assumption|apply IH; assumption].
Qed.

Lemma eqb_pc p q : Forall occ p -> Forall occ q -> hpath_eqb (map pc p) (map pc q) = hpath_eqb p q.
Proof.
  intros Hp Hq. destruct (hpath_eqb p q) eqn:E.
  - apply hpath_eqb_eq in E. subst. apply hpath_eqb_refl.
  - apply hpath_eqb_neq in E. apply hpath_eqb_neq. intros E'. apply E. apply map_pc_inj; assumption.
Qed.

Lemma strip_pc p q : Forall occ p -> Forall occ q -> strip_prefix (map pc p) (map pc q) = option_map (map pc) (strip_prefix p q).
Proof.
  intros Hp. revert q. induction Hp as [|x p Hx Hp IH]; intros [|y q] Hq; cbn [map strip_prefix]; try reflexivity.
  inversion Hq; subst. destruct (bytes_eqb x y) eqn:E.
  - apply bytes_eqb_eq in E. subst. rewrite bytes_eqb_refl. apply IH. assumption.
  - apply bytes_eqb_neq in E. replace (bytes_eqb (pc x) (pc y)) with false; [reflexivity|]. symmetry. apply bytes_eqb_neq.
    intros E'. apply E, pc_inj; assumption.
Qed.

Lemma strip_occ p q r : Forall occ q -> strip_prefix p q = Some r -> Forall occ r.
Proof. intros Hq E. apply strip_some in E. subst. apply Forall_app in Hq. tauto. Qed.

Lemma parent_pc p : parent (map pc p) = map pc (parent p).
Proof. unfold parent. induction p as [|x [|y p] IH]; [reflexivity|reflexivity|]. cbn [map removelast] in *. f_equal. exact IH. Qed.
Lemma leaf_pc p : p <> [] -> leaf (map pc p) = pc (leaf p).
Proof.
  unfold leaf. induction p as [|x [|y p] IH]; intros H; [congruence|reflexivity|].
  cbn [map] in *. change (last (pc y :: map pc p) [] = pc (last (y :: p) [])). apply IH. discriminate.
Qed.
Lemma parent_occ p : Forall occ p -> Forall occ (parent p).
Proof.
  unfold parent. induction p as [|x [|y p] IH]; intros H; [constructor|constructor|]. inversion H; subst.
  change (Forall occ (x :: removelast (y :: p))). constructor; auto.
Qed.
Lemma leaf_occ p : p <> [] -> Forall occ p -> occ (leaf p).
Proof. intros Hn H. rewrite (parent_leaf p Hn) in H. apply Forall_app in H as [_ H]. inversion H; assumption. Qed.

(** Changing one directory. *)
Lemma R_set v h p ov oh : R v h -> Forall occ p -> optR ov oh -> R (hset v p ov) (hset h (map pc p) oh).
Proof.
  intros H Hp Ho q Hq. unfold hset. rewrite eqb_pc by assumption. destruct (hpath_eqb p q) eqn:E; [exact Ho|apply H; exact Hq].
Qed.
Lemma R_set_h v h p ev eh : R v h -> Forall occ p -> v p = Some ev -> dirR ev eh -> R v (hset h (map pc p) (Some eh)).
Proof.
  intros H Hp Hv Ho q Hq. unfold hset. rewrite eqb_pc by assumption. destruct (hpath_eqb p q) eqn:E; [|apply H; exact Hq].
  apply hpath_eqb_eq in E. subst q. rewrite Hv. exact Ho.
Qed.

Lemma R_some v h p ev : R v h -> Forall occ p -> v p = Some ev -> exists eh, h (map pc p) = Some eh /\ dirR ev eh.
Proof. intros H Hp E. specialize (H p Hp). rewrite E in H. destruct (h (map pc p)) as [eh|]; [eauto|contradiction]. Qed.
Lemma R_none v h p : R v h -> Forall occ p -> v p = None -> h (map pc p) = None.
Proof. intros H Hp E. specialize (H p Hp). rewrite E in H. destruct (h (map pc p)) as [eh|]; [contradiction|reflexivity]. Qed.

Lemma dirR_put ev eh n k : dirR ev eh -> occ n -> dirR (ent_put n k ev) (ent_put (pc n) k eh).
Proof.
  intros [D1 D2 D3 D4 D5 D6] Hn. constructor; try (apply ent_put_nodup; assumption); try (apply ent_del_nodup; assumption).
  - intros m Hm. destruct (bytes_dec n m) as [->|N]; [rewrite !ent_put_eq; reflexivity|].
    rewrite !ent_put_ne; auto.
  - intros u Hu. destruct (bytes_dec (pc n) u) as [<-|N]; [right; eauto|]. rewrite ent_put_ne in Hu by exact N. auto.
  - intros m Hm. destruct (bytes_dec n m) as [->|N]; [exact Hn|]. rewrite ent_put_ne in Hm by exact N. auto.
  - rewrite ent_put_ne; [exact D4|apply pc_TN; exact Hn].
Qed.
Lemma dirR_del ev eh n : dirR ev eh -> occ n -> dirR (ent_del n ev) (ent_del (pc n) eh).
Proof.
  intros [D1 D2 D3 D4 D5 D6] Hn. constructor; try (apply ent_put_nodup; assumption); try (apply ent_del_nodup; assumption).
  - intros m Hm. destruct (bytes_dec n m) as [->|N]; [rewrite !ent_del_eq; reflexivity|].
    rewrite !ent_del_ne; auto.
  - intros u Hu. destruct (bytes_dec (pc n) u) as [<-|N]; [right; eauto|]. rewrite ent_del_ne in Hu by exact N. auto.
  - intros m Hm. destruct (bytes_dec n m) as [->|N]; [exact Hn|]. rewrite ent_del_ne in Hm by exact N. auto.
  - rewrite ent_del_ne; [exact D4|apply pc_TN; exact Hn].
Qed.
Lemma dirR_table ev eh m : tab = true -> dirR ev eh -> dirR ev (ent_put TN (KTable m) eh).
Proof.
  intros Ht [D1 D2 D3 D4 D5 D6]. constructor; [| |exact D3| |exact D5|apply ent_put_nodup; exact D6].
  - intros n Hn. rewrite ent_put_ne; [auto|]. intros E. exact (pc_TN n Hn (eq_sym E)).
  - intros u Hu. destruct (bytes_dec TN u) as [<-|N]; [auto|]. rewrite ent_put_ne in Hu by exact N. auto.
  - rewrite ent_put_eq. exact Ht.
Qed.
Lemma dirR_no_table ev eh : dirR ev eh -> dirR ev (ent_del TN eh).
Proof.
  intros [D1 D2 D3 D4 D5 D6]. constructor; [| |exact D3| |exact D5|apply ent_del_nodup; exact D6].
  - intros n Hn. rewrite ent_del_ne; [auto|]. intros E. exact (pc_TN n Hn (eq_sym E)).
  - intros u Hu. destruct (bytes_dec TN u) as [<-|N]; [auto|]. rewrite ent_del_ne in Hu by exact N. auto.
  - rewrite ent_del_eq. exact I.
Qed.

(** Table operations are invisible. *)
Lemma open_table_R v h d : tab = true -> R v h -> Forall occ d ->
  match v d with
  | None => open_table (map pc d) h = (h, Err ENOENT)
  | Some _ => exists h1 m, open_table (map pc d) h = (h1, Ok m) /\ R v h1
  end.
Proof.
  intros Ht H Hd. unfold open_table. destruct (v d) as [ev|] eqn:E.
  - destruct (R_some _ _ _ _ H Hd E) as (eh & Eh & D). rewrite Eh. pose proof (d_table _ _ D) as T.
    destruct (ent TN eh) as [[i| |m]|] eqn:Et; cbn in T; try contradiction.
    + eexists _, _. split; [reflexivity|exact H].
    + eexists _, _. split; [reflexivity|]. eapply R_set_h; eauto. apply dirR_table; [exact Ht|exact D].
  - rewrite (R_none _ _ _ H Hd E). reflexivity.
Qed.
Lemma commit_R v h d m : tab = true -> R v h -> Forall occ d -> R v (commit_table (map pc d) m h).
Proof.
  intros Ht H Hd. unfold commit_table. destruct (v d) as [ev|] eqn:E.
  - destruct (R_some _ _ _ _ H Hd E) as (eh & Eh & D). rewrite Eh. eapply R_set_h; eauto. apply dirR_table; [exact Ht|exact D].
  - rewrite (R_none _ _ _ H Hd E). exact H.
Qed.
Lemma drop_R v h p : R v h -> Forall occ p -> R v (drop_table (map pc p) h) /\
  forall eh, drop_table (map pc p) h (map pc p) = Some eh -> ent TN eh = None.
Proof.
  intros H Hp. unfold drop_table. destruct (v p) as [ev|] eqn:E.
  - destruct (R_some _ _ _ _ H Hp E) as (eh & Eh & D). rewrite Eh. pose proof (d_table _ _ D) as T.
    destruct (ent TN eh) as [[i| |m]|] eqn:Et; cbn in T; try contradiction.
    + split; [eapply R_set_h; eauto; apply dirR_no_table; exact D|]. intros eh'. rewrite hset_eq. intros [= <-]. apply ent_del_eq.
    + split; [exact H|]. intros eh' E'. congruence.
  - rewrite (R_none _ _ _ H Hp E). split; [exact H|]. rewrite (R_none _ _ _ H Hp E). discriminate.
Qed.

(** The system calls. *)
Ltac pp := rewrite ?parent_pc, ?leaf_pc by assumption.
Ltac look H p E ev eh Eh D := destruct (H p ltac:(assumption)) eqn:E.

Lemma case_dir v h p : R v h -> Forall occ p ->
  (v p = None /\ h (map pc p) = None) \/ exists ev eh, v p = Some ev /\ h (map pc p) = Some eh /\ dirR ev eh.
Proof.
  intros H Hp. pose proof (H p Hp) as Q. unfold optR in Q.
  destruct (v p) as [ev|], (h (map pc p)) as [eh|]; try contradiction; [right; eauto 6|left; auto].
Qed.

Definition sim (a b : hfs * res unit) : Prop := R (fst a) (fst b) /\ snd a = snd b.

Lemma open_R v h bad creat excl ino p : R v h -> Forall occ p -> p <> [] ->
  sim (h_open bad creat excl ino p v) (h_open bad creat excl ino (map pc p) h).
Proof.
  intros H Hp Hn. unfold h_open. destruct bad as [e|]; [split; [exact H|reflexivity]|].
  destruct p as [|x p0] eqn:Ep; [congruence|]. rewrite <- Ep in *.
  assert (Em : exists y l, map pc p = y :: l) by (rewrite Ep; cbn; eauto). destruct Em as (y & l & Em). rewrite Em, <- Em. clear Ep Em.
  pp. pose proof (parent_occ _ Hp) as Hpp. pose proof (leaf_occ _ Hn Hp) as Hl.
  destruct (case_dir _ _ _ H Hpp) as [[E1 E2]|(ev & eh & E1 & E2 & D)]; rewrite E1, E2; [split; [exact H|reflexivity]|].
  rewrite (d_ent _ _ D _ Hl). destruct (ent (leaf p) ev) as [[i| |m]|]; try (split; [exact H|reflexivity]).
  destruct creat; [|split; [exact H|reflexivity]]. split; [|reflexivity]. cbn [fst]. apply R_set; auto. apply dirR_put; assumption.
Qed.

Lemma mkdir_R v h bad p : R v h -> Forall occ p -> p <> [] -> sim (h_mkdir bad p v) (h_mkdir bad (map pc p) h).
Proof.
  intros H Hp Hn. unfold h_mkdir. destruct bad as [e|]; [split; [exact H|reflexivity]|].
  destruct p as [|x p0] eqn:Ep; [congruence|]. rewrite <- Ep in *.
  assert (Em : exists y l, map pc p = y :: l) by (rewrite Ep; cbn; eauto). destruct Em as (y & l & Em). rewrite Em, <- Em. clear Ep Em.
  pp. pose proof (parent_occ _ Hp) as Hpp. pose proof (leaf_occ _ Hn Hp) as Hl.
  destruct (case_dir _ _ _ H Hpp) as [[E1 E2]|(ev & eh & E1 & E2 & D)]; rewrite E1, E2; [split; [exact H|reflexivity]|].
  rewrite (d_ent _ _ D _ Hl). destruct (ent (leaf p) ev) as [k|]; [split; [exact H|reflexivity]|].
  split; [|reflexivity]. cbn [fst]. apply R_set; [|exact Hp|exact dirR_nil]. apply R_set; auto. apply dirR_put; assumption.
Qed.

Lemma unlink_R v h bad p : R v h -> Forall occ p -> p <> [] -> sim (h_unlink bad p v) (h_unlink bad (map pc p) h).
Proof.
  intros H Hp Hn. unfold h_unlink. destruct bad as [e|]; [split; [exact H|reflexivity]|].
  destruct p as [|x p0] eqn:Ep; [congruence|]. rewrite <- Ep in *.
  assert (Em : exists y l, map pc p = y :: l) by (rewrite Ep; cbn; eauto). destruct Em as (y & l & Em). rewrite Em, <- Em. clear Ep Em.
  pp. pose proof (parent_occ _ Hp) as Hpp. pose proof (leaf_occ _ Hn Hp) as Hl.
  destruct (case_dir _ _ _ H Hpp) as [[E1 E2]|(ev & eh & E1 & E2 & D)]; rewrite E1, E2; [split; [exact H|reflexivity]|].
  rewrite (d_ent _ _ D _ Hl). destruct (ent (leaf p) ev) as [[i| |m]|]; try (split; [exact H|reflexivity]).
  all: split; [|reflexivity]; cbn [fst]; apply R_set; auto; apply dirR_del; assumption.
Qed.

(** rmdir, after the table was dropped *)
Lemma rmdir_R v h bad p : R v h -> Forall occ p -> p <> [] -> (forall eh, h (map pc p) = Some eh -> ent TN eh = None) ->
  sim (h_rmdir bad p v) (h_rmdir bad (map pc p) h).
Proof.
  intros H Hp Hn HT. unfold h_rmdir. destruct bad as [e|]; [split; [exact H|reflexivity]|].
  destruct p as [|x p0] eqn:Ep; [congruence|]. rewrite <- Ep in *.
  assert (Em : exists y l, map pc p = y :: l) by (rewrite Ep; cbn; eauto). destruct Em as (y & l & Em). rewrite Em, <- Em. clear Ep Em.
  pp. pose proof (parent_occ _ Hp) as Hpp. pose proof (leaf_occ _ Hn Hp) as Hl.
  destruct (case_dir _ _ _ H Hpp) as [[E1 E2]|(ev & eh & E1 & E2 & D)]; rewrite E1, E2; [split; [exact H|reflexivity]|].
  rewrite (d_ent _ _ D _ Hl). destruct (ent (leaf p) ev) as [[i| |m]|]; try (split; [exact H|reflexivity]).
  destruct (case_dir _ _ _ H Hp) as [[E3 E4]|(pv & ph & E3 & E4 & Dp)]; rewrite E3, E4; [split; [exact H|reflexivity]|].
  pose proof (dirR_empty _ _ Dp (HT _ E4)) as He.
  destruct pv as [|x0 pv], ph as [|x1 ph]; try (exfalso; destruct He as [He1 He2]; (discriminate He1 + discriminate He2); reflexivity);
    [|split; [exact H|reflexivity]].
  split; [|reflexivity]. cbn [fst]. apply R_set; [|exact Hp|exact I]. apply R_set; auto. apply dirR_del; assumption.
Qed.

Lemma link_R v h bad s p : R v h -> Forall occ p -> p <> [] -> Forall occ s -> s <> [] ->
  sim (h_link bad s p v) (h_link bad (map pc s) (map pc p) h).
Proof.
  intros H Hp Hn Hs Hsn. unfold h_link. destruct bad as [e|]; [split; [exact H|reflexivity]|].
  destruct p as [|x p0] eqn:Ep; [congruence|]. rewrite <- Ep in *.
  assert (Em : exists y l, map pc p = y :: l) by (rewrite Ep; cbn; eauto). destruct Em as (y & l & Em).
  destruct s as [|xs s0] eqn:Es; [congruence|]. rewrite <- Es in *.
  assert (Ems : exists y l, map pc s = y :: l) by (rewrite Es; cbn; eauto). destruct Ems as (ys & ls & Ems).
  rewrite Em, <- Em, Ems, <- Ems. clear Ep Em Es Ems.
  pp. pose proof (parent_occ _ Hp) as Hpp. pose proof (leaf_occ _ Hn Hp) as Hl.
  pose proof (parent_occ _ Hs) as Hsp. pose proof (leaf_occ _ Hsn Hs) as Hsl.
  destruct (case_dir _ _ _ H Hsp) as [[E1 E2]|(ev & eh & E1 & E2 & D)]; rewrite E1, E2; [split; [exact H|reflexivity]|].
  destruct (case_dir _ _ _ H Hpp) as [[E3 E4]|(dv & dh & E3 & E4 & Dd)]; rewrite E3, E4; [split; [exact H|reflexivity]|].
  rewrite (d_ent _ _ D _ Hsl), (d_ent _ _ Dd _ Hl).
  destruct (ent (leaf s) ev) as [[i| |m]|]; destruct (ent (leaf p) dv) as [k|]; try (split; [exact H|reflexivity]).
  split; [|reflexivity]; cbn [fst]; apply R_set; auto; apply dirR_put; assumption.
Qed.

Lemma move_R v h a b : R v h -> Forall occ a -> Forall occ b -> R (h_move a b v) (h_move (map pc a) (map pc b) h).
Proof.
  intros H Ha Hb q Hq. unfold h_move. rewrite !strip_pc by assumption.
  destruct (strip_prefix b q) as [r|] eqn:E; cbn [option_map].
  - rewrite <- map_app. apply H. apply Forall_app. split; [exact Ha|]. eapply strip_occ; eauto.
  - destruct (strip_prefix a q); cbn [option_map]; [exact I|apply H; exact Hq].
Qed.

(** rename: the table of the target may be in the way. *)
Lemma rename_R v h bad a b : R v h -> Forall occ a -> a <> [] -> Forall occ b -> b <> [] ->
  sim (h_rename bad a b v) (h_rename bad (map pc a) (map pc b) h) \/
  (tab = true /\ bad = None /\ h_rename bad (map pc a) (map pc b) h = (h, Err ENOTEMPTY) /\ v b = Some [] /\
   exists ea eb, v (parent a) = Some ea /\ ent (leaf a) ea = Some KDir /\ v (parent b) = Some eb /\ ent (leaf b) eb = Some KDir).
Proof.
  intros H Ha Han Hb Hbn. unfold h_rename. destruct bad as [e|]; [left; split; [exact H|reflexivity]|].
  destruct a as [|x a0] eqn:Ea; [congruence|]. rewrite <- Ea in *.
  assert (Em : exists y l, map pc a = y :: l) by (rewrite Ea; cbn; eauto). destruct Em as (y & l & Em).
  destruct b as [|xs b0] eqn:Eb; [congruence|]. rewrite <- Eb in *.
  assert (Ems : exists y l, map pc b = y :: l) by (rewrite Eb; cbn; eauto). destruct Ems as (ys & ls & Ems).
  rewrite Em, <- Em, Ems, <- Ems. clear Ea Em Eb Ems.
  pp. pose proof (parent_occ _ Ha) as Hap. pose proof (leaf_occ _ Han Ha) as Hal.
  pose proof (parent_occ _ Hb) as Hbp. pose proof (leaf_occ _ Hbn Hb) as Hbl.
  destruct (case_dir _ _ _ H Hap) as [[E1 E2]|(ev & eh & E1 & E2 & D)]; rewrite E1, E2; [left; split; [exact H|reflexivity]|].
  destruct (case_dir _ _ _ H Hbp) as [[E3 E4]|(dv & dh & E3 & E4 & Dd)]; rewrite E3, E4; [left; split; [exact H|reflexivity]|].
  rewrite (d_ent _ _ D _ Hal), (d_ent _ _ Dd _ Hbl).
  destruct (ent (leaf a) ev) as [k|] eqn:Ek; [|left; split; [exact H|reflexivity]].
  rewrite eqb_pc by assumption. destruct (hpath_eqb a b) eqn:Eab; [left; split; [exact H|reflexivity]|].
  cbv zeta.
  set (gv := match hset v (parent a) (Some (ent_del (leaf a) ev)) (parent b) with
     | None => (v, Err ENOENT)
     | Some eb1 => (match k with KDir => h_move a b (hset (hset v (parent a) (Some (ent_del (leaf a) ev))) (parent b) (Some (ent_put (leaf b) k eb1)))
                    | _ => hset (hset v (parent a) (Some (ent_del (leaf a) ev))) (parent b) (Some (ent_put (leaf b) k eb1)) end, Ok tt) end).
  set (gh := match hset h (map pc (parent a)) (Some (ent_del (pc (leaf a)) eh)) (map pc (parent b)) with
     | None => (h, Err ENOENT)
     | Some eb1 => (match k with KDir => h_move (map pc a) (map pc b) (hset (hset h (map pc (parent a)) (Some (ent_del (pc (leaf a)) eh))) (map pc (parent b)) (Some (ent_put (pc (leaf b)) k eb1)))
                    | _ => hset (hset h (map pc (parent a)) (Some (ent_del (pc (leaf a)) eh))) (map pc (parent b)) (Some (ent_put (pc (leaf b)) k eb1)) end, Ok tt) end).
  assert (G : sim gv gh).
  { unfold gv, gh.
    assert (H1 : R (hset v (parent a) (Some (ent_del (leaf a) ev))) (hset h (map pc (parent a)) (Some (ent_del (pc (leaf a)) eh)))).
    { apply R_set; auto. apply dirR_del; assumption. }
    destruct (case_dir _ _ _ H1 Hbp) as [[E5 E6]|(fv & fh & E5 & E6 & Df)]; rewrite E5, E6; [split; [exact H|reflexivity]|].
    assert (H2 : R (hset (hset v (parent a) (Some (ent_del (leaf a) ev))) (parent b) (Some (ent_put (leaf b) k fv)))
                   (hset (hset h (map pc (parent a)) (Some (ent_del (pc (leaf a)) eh))) (map pc (parent b)) (Some (ent_put (pc (leaf b)) k fh)))).
    { apply R_set; auto. apply dirR_put; assumption. }
    split; [|reflexivity]. cbn [fst]. destruct k; try exact H2. apply move_R; assumption. }
  clearbody gv gh.
  destruct k as [i| |m].
  - left. destruct (ent (leaf b) dv) as [[j| |m]|]; try exact G; try (split; [exact H|reflexivity]).
    destruct (i =? j); [split; [exact H|reflexivity]|exact G].
  - rewrite strip_pc by assumption. destruct (strip_prefix a b) as [r|]; cbn [option_map]; [left; split; [exact H|reflexivity]|].
    destruct (ent (leaf b) dv) as [[j| |m]|] eqn:Ekb; try (left; exact G); try (left; split; [exact H|reflexivity]).
    destruct (case_dir _ _ _ H Hb) as [[E5 E6]|(pv & ph & E5 & E6 & Dp)]; rewrite E5, E6; [left; split; [exact H|reflexivity]|].
    destruct pv as [|x0 pv].
    + destruct ph as [|x1 ph]; [left; exact G|]. right. split.
      { pose proof (d_table _ _ Dp) as T. destruct (ent TN (x1 :: ph)) as [[i| |m]|] eqn:Et; try contradiction; [exact T|].
        exfalso. pose proof (proj1 (dirR_empty _ _ Dp Et) eq_refl). discriminate. }
      split; [reflexivity|]. split; [reflexivity|]. split; [reflexivity|].
      exists ev, dv. auto.
    + destruct ph as [|x1 ph]; [|left; split; [exact H|reflexivity]].
      exfalso. destruct (ent_in_ne [] (x0 :: pv) ltac:(discriminate)) as (w & Hw).
      pose proof (d_occ _ _ Dp w Hw) as Ho. apply Hw. rewrite <- (d_ent _ _ Dp _ Ho). reflexivity.
  - left. destruct (ent (leaf b) dv) as [[j| |m']|]; try exact G; split; [exact H|reflexivity].
Qed.

(** ** The operations *)
Variable trans : translator.
Variable okp : bytes -> Prop.
Hypothesis enc : forall path, okp path -> exists P l, t_encrypt trans path = Ok (P, l) /\
  comps P = map pc (names_of path) /\ Forall occ (names_of path) /\ names_of path <> [] /\ (l <> [] -> tab = true).

Lemma process_R v h path act f g : R v h -> okp path ->
  (forall h1, R v h1 -> sim f (g (map pc (names_of path)) h1)) ->
  sim f (process trans path act g h) \/ 
  (tab = true /\ v (parent (names_of path)) = None /\ process trans path act g h = (h, Err ENOENT)).
Proof.
  intros H Hp Hc. destruct (enc path Hp) as (P & l & E & EC & HO & Hn & Htl). unfold process. rewrite E, EC, parent_pc.
  destruct l as [|c l]; [left; apply Hc; exact H|].
  pose proof (Htl ltac:(discriminate)) as Ht. pose proof (open_table_R v h (parent (names_of path)) Ht H (parent_occ _ HO)) as T.
  destruct (v (parent (names_of path))) as [ev|] eqn:Ev.
  - destruct T as (h1 & m & -> & R1). left. specialize (Hc h1 R1). destruct (g (map pc (names_of path)) h1) as [h2 [[]|e]]; [|exact Hc].
    destruct Hc as [C1 C2]. split; [|exact C2]. cbn [fst] in *. apply commit_R; [exact Ht|exact C1|apply parent_occ; exact HO].
  - rewrite T. right. auto.
Qed.

(** Without a refusal the host reports a missing directory as well. *)
Definition gentle (o : lop) (v h : hfs) : Prop :=
  (R (fst (plain_step o v)) (fst (lite_step trans o h)) /\ snd (lite_step trans o h) = snd (plain_step o v)) \/
  exists e, tab = true /\ may_refuse v o e /\ R v (fst (lite_step trans o h)) /\ snd (lite_step trans o h) = Err e.

Lemma step_R o v h : R v h -> Forall okp (op_paths o) -> gentle o v h.
Proof.
  intros H HO. unfold gentle.
  assert (Miss : tab = true -> forall path, In path (op_paths o) -> v (parent (names_of path)) = None ->
     lite_step trans o h = (h, Err ENOENT) -> (op_bad o = None -> plain_step o v = (v, Err ENOENT)) ->
     (R (fst (plain_step o v)) (fst (lite_step trans o h)) /\ snd (lite_step trans o h) = snd (plain_step o v)) \/
     exists e, tab = true /\ may_refuse v o e /\ R v (fst (lite_step trans o h)) /\ snd (lite_step trans o h) = Err e).
  { intros Ht path Hi Hv E Hb. destruct (op_bad o) as [e|] eqn:Eb.
    - right. exists ENOENT. split; [exact Ht|]. split; [apply (refuse_missing v o path); [congruence|exact Hi|exact Hv]|]. rewrite E. auto.
    - left. rewrite E, Hb by reflexivity. auto. }
  destruct o as [path creat excl ino bad late|path bad|path ino bad|src dest bad|path bad|path bad|from to bad]; cbn [op_paths] in *.
  - inversion HO as [|? ? Hp _]; subst. destruct (enc path Hp) as (P & l & E & EC & HOc & Hn & Htl).
    assert (C : forall h1, R v h1 -> sim (plain_step (LOpen path creat excl ino bad late) v)
        (match h_open bad creat excl ino (map pc (names_of path)) h1 with
         | (fs1, Ok tt) => (fs1, match late with Some e => Err e | None => Ok tt end) | x => x end)).
    { intros h1 H1. cbn [plain_step]. pose proof (open_R v h1 bad creat excl ino _ H1 HOc Hn) as [O1 O2].
      destruct (h_open bad creat excl ino (names_of path) v) as [v2 [[]|e]], (h_open bad creat excl ino (map pc (names_of path)) h1) as [h2 [[]|e']]; cbn [fst snd] in O1, O2; try discriminate; split; auto. }
    destruct creat.
    + destruct (process_R v h path ACreate _ (fun p fs0 => match h_open bad true excl ino p fs0 with
         | (fs1, Ok tt) => (fs1, match late with Some e => Err e | None => Ok tt end) | x => x end) H Hp C) as [[S1 S2]|(Ht & Hv & Em)].
      * left. auto.
      * apply (Miss Ht path); [left; reflexivity|exact Hv|exact Em|]. cbn [op_bad]. intros ->. cbn [plain_step]. unfold h_open.
        destruct (names_of path) eqn:En; [congruence|]. rewrite <- En in *. rewrite Hv. reflexivity.
    + left. destruct (C h H) as [S1 S2]. cbn [lite_step]. rewrite E, EC. auto.
  - inversion HO as [|? ? Hp _]; subst. destruct (enc path Hp) as (P & l & E & EC & HOc & Hn & Htl).
    destruct (process_R v h path ACreate (h_mkdir bad (names_of path) v) (h_mkdir bad) H Hp) as [[S1 S2]|(Ht & Hv & Em)].
    + intros h1 H1. apply mkdir_R; assumption.
    + left. cbn [plain_step lite_step]. auto.
    + apply (Miss Ht path); [left; reflexivity|exact Hv|exact Em|]. cbn [op_bad]. intros ->. cbn [plain_step]. unfold h_mkdir.
      destruct (names_of path) eqn:En; [congruence|]. rewrite <- En in *. rewrite Hv. reflexivity.
  - inversion HO as [|? ? Hp _]; subst. destruct (enc path Hp) as (P & l & E & EC & HOc & Hn & Htl).
    destruct (process_R v h path ACreate (h_open bad true true ino (names_of path) v) (h_open bad true true ino) H Hp) as [[S1 S2]|(Ht & Hv & Em)].
    + intros h1 H1. apply open_R; assumption.
    + left. cbn [plain_step lite_step]. auto.
    + apply (Miss Ht path); [left; reflexivity|exact Hv|exact Em|]. cbn [op_bad]. intros ->. cbn [plain_step]. unfold h_open.
      destruct (names_of path) eqn:En; [congruence|]. rewrite <- En in *. rewrite Hv. reflexivity.
  - inversion HO as [|? ? Hs HO']; subst. inversion HO' as [|? ? Hp _]; subst.
    destruct (enc dest Hp) as (P & l & E & EC & HOc & Hn & Htl). destruct (enc src Hs) as (Ps & ls & Es & ECs & HOs & Hns & Htls).
    destruct (process_R v h dest ACreate (h_link bad (names_of src) (names_of dest) v)
      (fun p fs0 => match t_encrypt trans src with Err e => (fs0, Err e) | Ok (P, _) => h_link bad (comps P) p fs0 end) H Hp) as [[S1 S2]|(Ht & Hv & Em)].
    + intros h1 H1. rewrite Es, ECs. apply link_R; assumption.
    + left. cbn [plain_step lite_step]. auto.
    + apply (Miss Ht dest); [right; left; reflexivity|exact Hv|exact Em|]. cbn [op_bad]. intros ->. cbn [plain_step]. unfold h_link.
      destruct (names_of dest) eqn:En; [congruence|]. rewrite <- En in *. destruct (names_of src) eqn:Ens; [congruence|]. rewrite <- Ens in *.
      rewrite Hv. destruct (v (parent (names_of src))); reflexivity.
  - inversion HO as [|? ? Hp _]; subst. destruct (enc path Hp) as (P & l & E & EC & HOc & Hn & Htl).
    destruct (process_R v h path ADelete (h_unlink bad (names_of path) v) (h_unlink bad) H Hp) as [[S1 S2]|(Ht & Hv & Em)].
    + intros h1 H1. apply unlink_R; assumption.
    + left. cbn [plain_step lite_step]. auto.
    + apply (Miss Ht path); [left; reflexivity|exact Hv|exact Em|]. cbn [op_bad]. intros ->. cbn [plain_step]. unfold h_unlink.
      destruct (names_of path) eqn:En; [congruence|]. rewrite <- En in *. rewrite Hv. reflexivity.
  - inversion HO as [|? ? Hp _]; subst. destruct (enc path Hp) as (P & l & E & EC & HOc & Hn & Htl).
    destruct (process_R v h path ADelete (h_rmdir bad (names_of path) v) (fun p fs0 => h_rmdir bad p (drop_table p fs0)) H Hp) as [[S1 S2]|(Ht & Hv & Em)].
    + intros h1 H1. destruct (drop_R v h1 (names_of path) H1 HOc) as [H2 H3]. apply rmdir_R; assumption.
    + left. cbn [plain_step lite_step]. auto.
    + apply (Miss Ht path); [left; reflexivity|exact Hv|exact Em|]. cbn [op_bad]. intros ->. cbn [plain_step]. unfold h_rmdir.
      destruct (names_of path) eqn:En; [congruence|]. rewrite <- En in *. rewrite Hv. reflexivity.
  - inversion HO as [|? ? Hs HO']; subst. inversion HO' as [|? ? Hp _]; subst.
    destruct (enc to Hp) as (B & lb & Eb & ECb & HOb & Hnb & Htb). destruct (enc from Hs) as (A & la & Ea & ECa & HOa & Hna & Hta).
    assert (Ref : forall h1, R v h1 -> 
       sim (h_rename bad (names_of from) (names_of to) v) (h_rename bad (map pc (names_of from)) (map pc (names_of to)) h1) \/
       h_rename bad (map pc (names_of from)) (map pc (names_of to)) h1 = (h1, Err ENOTEMPTY) /\ tab = true /\ may_refuse v (LRename from to bad) ENOTEMPTY).
    { intros h1 H1. destruct (rename_R v h1 bad _ _ H1 HOa Hna HOb Hnb) as [S|(Ht & -> & Er & Hv & ea & eb & V1 & V2 & V3 & V4)]; [left; exact S|].
      right. split; [exact Er|]. split; [exact Ht|]. apply refuse_rename; [| |exact Hv]; unfold plain_found.
      - destruct (names_of from) eqn:En; [congruence|]. rewrite <- En in *. rewrite V1. exact V2.
      - destruct (names_of to) eqn:En; [congruence|]. rewrite <- En in *. rewrite V3. exact V4. }
    destruct (list_eq_dec byte_eq_dec la []) as [Nla|Nla], (list_eq_dec byte_eq_dec lb []) as [Nlb|Nlb].
    { subst la lb. cbn [plain_step lite_step]. unfold lite_rename. rewrite Ea, Eb, ECa, ECb.
      destruct (Ref h H) as [[S1 S2]|(Er & Ht' & Hm)]; [left; auto|right; exists ENOTEMPTY; rewrite Er; auto]. }
    all: assert (Ht : tab = true) by (apply Hta + apply Htb; assumption).
    all: assert (Elong : lite_step trans (LRename from to bad) h =
         (let da := parent (comps A) in let db := parent (comps B) in
          match open_table da h with
          | (fs1, Err e) => (fs1, Err e)
          | (fs1, Ok _) =>
            match open_table db fs1 with
            | (fs2, Err e) => (fs2, Err e)
            | (fs2, Ok _) =>
              match h_rename bad (comps A) (comps B) fs2 with
              | (fs3, Err e) => (fs3, Err e)
              | (fs3, Ok tt) =>
                let edit (d : hpath) (m : list (bytes * bytes)) :=
                  let m1 := if hpath_eqb d da then match la with [] => m | _ => remove_mapping (get_last_component A) m end else m in
                  if hpath_eqb d db then match lb with [] => m1 | _ => update_mapping (get_last_component B) lb m1 end else m1 in
                let row (d : hpath) := match open_table d fs2 with (_, Ok m) => m | _ => [] end in
                let fs4 := commit_table da (edit da (row da)) fs3 in
                (commit_table db (edit db (row db)) fs4, Ok tt)
              end
            end
          end)) by (cbn [lite_step]; unfold lite_rename; rewrite Ea, Eb; destruct la, lb; try congruence; reflexivity).
    all: cbv zeta in Elong; rewrite ECa, ECb, !parent_pc in Elong.
    all: pose proof (open_table_R v h (parent (names_of from)) Ht H (parent_occ _ HOa)) as Ta.
    all: destruct (v (parent (names_of from))) as [ea|] eqn:Eva;
      [destruct Ta as (h1 & m1 & Ta & R1); rewrite Ta in Elong
      |rewrite Ta in Elong; apply (Miss Ht from); [left; reflexivity|exact Eva|exact Elong|];
       cbn [op_bad plain_step]; intros ->; unfold h_rename;
       destruct (names_of from) eqn:En; [congruence|]; rewrite <- En in *; destruct (names_of to) eqn:Ent; [congruence|]; rewrite Eva; reflexivity].
    all: pose proof (open_table_R v h1 (parent (names_of to)) Ht R1 (parent_occ _ HOb)) as Tb.
    all: destruct (v (parent (names_of to))) as [eb|] eqn:Evb;
      [destruct Tb as (h2 & m2 & Tb & R2); rewrite Tb in Elong|rewrite Tb in Elong].
    all: try match type of Elong with _ = (?h1, Err ENOENT) =>
       destruct (op_bad (LRename from to bad)) as [e0|] eqn:Ebad;
       [right; exists ENOENT; split; [exact Ht|]; split; [apply (refuse_missing v _ to); [congruence|right; left; reflexivity|exact Evb]|]; rewrite Elong; split; [exact R1|reflexivity]
       |left; rewrite Elong; cbn [op_bad] in Ebad; subst bad; cbn [plain_step fst snd]; unfold h_rename;
        destruct (names_of from) eqn:En; [congruence|]; rewrite <- En in *; destruct (names_of to) eqn:Ent; [congruence|]; rewrite <- Ent in *; rewrite Eva, Evb; split; [exact R1|reflexivity]] end.
    all: destruct (Ref h2 R2) as [[S1 S2]|(Er & Ht' & Hm)];
      [|right; exists ENOTEMPTY; rewrite Er in Elong; rewrite Elong; auto].
    all: left; rewrite Elong; cbn [plain_step];
      destruct (h_rename bad (map pc (names_of from)) (map pc (names_of to)) h2) as [h3 [[]|e]]; cbn [fst snd] in *; split; auto;
      apply commit_R; [exact Ht|apply commit_R; [exact Ht| |]|]; try (apply parent_occ; assumption); exact S1.
Qed.

Theorem run_R ops : Forall okp (flat_map op_paths ops) -> forall v h, R v h ->
  exists v', plain_history ops v (lite_answers trans ops h) v' /\ R v' (lite_run trans ops h).
Proof.
  induction ops as [|o ops IH]; intros HO v h H; [exists v; split; [constructor|exact H]|].
  cbn [flat_map] in HO. apply Forall_app in HO as [H1 H2]. cbn [lite_answers lite_run].
  destruct (step_R o v h H H1) as [[S1 S2]|(e & Ht & He & S1 & S2)].
  - destruct (IH H2 _ _ S1) as (v' & P & Rv). exists v'. split; [|exact Rv]. rewrite S2. constructor. exact P.
  - destruct (IH H2 _ _ S1) as (v' & P & Rv). exists v'. split; [|exact Rv]. rewrite S2. eapply ph_refuse; eauto.
Qed.

Theorem run_exact ops : tab = false -> Forall okp (flat_map op_paths ops) -> forall v h, R v h ->
  lite_answers trans ops h = plain_answers ops v /\ R (plain_run ops v) (lite_run trans ops h).
Proof.
  intros Hf. induction ops as [|o ops IH]; intros HO v h H; [split; [reflexivity|exact H]|].
  cbn [flat_map] in HO. apply Forall_app in HO as [H1 H2]. cbn [lite_answers lite_run plain_answers plain_run].
  destruct (step_R o v h H H1) as [[S1 S2]|(e & Ht & _)]; [|congruence].
  destruct (IH H2 _ _ S1) as [P Rv]. rewrite S2, P. split; [reflexivity|exact Rv].
Qed.

(** What is found at the end. *)
Lemma found_R v h path : R v h -> okp path -> found trans h path = plain_found v path.
Proof.
  intros H Hp. destruct (enc path Hp) as (P & l & E & EC & HO & Hn & Htl). unfold found, plain_found. rewrite E, EC.
  destruct (names_of path) as [|x p] eqn:En; [congruence|]. rewrite <- En in *.
  assert (Em : exists y l, map pc (names_of path) = y :: l) by (rewrite En; cbn; eauto). destruct Em as (y & l0 & Em). rewrite Em, <- Em.
  rewrite parent_pc, leaf_pc by exact Hn.
  destruct (case_dir _ _ _ H (parent_occ _ HO)) as [[E1 E2]|(ev & eh & E1 & E2 & D)]; rewrite E1, E2; [reflexivity|].
  apply (d_ent _ _ D). apply leaf_occ; assumption.
Qed.
End Tree.
