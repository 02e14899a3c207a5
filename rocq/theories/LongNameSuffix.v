(** Changing the long-name suffix: the files stay where they were. *)
From Coq Require Import Strings.String Sorting.Permutation.
From Verif Require Import Base BaseLemmas TextModel CryptoModel NameModel LongNameModel LongNameSpec LongNameProofs LongNameInv.
Local Open Scope list_scope.

(** ** A rename of one entry to a fresh name in the same directory *)
Definition redirect (d : hpath) (h h' : bytes) (q : hpath) : hpath :=
  match strip_prefix (d ++ [h]) q with Some r => (d ++ [h']) ++ r | None => q end.

Lemma tree_file_below fs d u r es : tree_ok fs -> fs d = Some es -> ent u es <> Some KDir -> fs ((d ++ [u]) ++ r) = None.
Proof.
  intros T Hd Hu. destruct (fs ((d ++ [u]) ++ r)) eqn:E; [|reflexivity]. exfalso.
  assert (HX : fs (d ++ u :: r) <> None) by (rewrite <- app_assoc in E; cbn [app] in E; congruence).
  apply (tree_below fs d u r T) in HX. destruct HX as (e & He & Hk). congruence.
Qed.

Lemma rename_fresh fs d h h' es k : tree_ok fs -> fs d = Some es -> ent h es = Some k -> ent h' es = None ->
  exists fs', h_rename None (d ++ [h]) (d ++ [h']) fs = (fs', Ok tt) /\ tree_ok fs' /\
    fs' d = Some (ent_put h' k (ent_del h es)) /\
    (forall q, fs q <> None -> q <> d -> fs' (redirect d h h' q) = fs q) /\
    (forall q, fs' q <> None -> exists q0, fs q0 <> None /\ q = redirect d h h' q0).
Proof.
  intros T Hd Hh Hh'. assert (Hne : h <> h') by congruence.
  assert (Nab : d ++ [h] <> d ++ [h']) by (intros E; apply snoc_inj in E; tauto).
  assert (Na : d ++ [h] <> []) by (destruct d; discriminate). assert (Nb : d ++ [h'] <> []) by (destruct d; discriminate).
  destruct (h_rename None (d ++ [h]) (d ++ [h']) fs) as [fs' r] eqn:E.
  assert (Hst : strip_prefix (d ++ [h]) (d ++ [h']) = None).
  { apply strip_none. intros s Hs. rewrite <- app_assoc in Hs. apply app_inv_head in Hs. injection Hs as Hs _. congruence. }
  pose proof (h_rename_spec _ _ _ _ _ _ T E) as HS.
  assert (Hr : r = Ok tt /\ fs' = match k with
     | KDir => h_move (d ++ [h]) (d ++ [h']) (hset (hset fs d (Some (ent_del h es))) d (Some (ent_put h' k (ent_del h es))))
     | _ => hset (hset fs d (Some (ent_del h es))) d (Some (ent_put h' k (ent_del h es))) end).
  { unfold h_rename in E. destruct (d ++ [h]) as [|x1 l1] eqn:E1; [congruence|]. destruct (d ++ [h']) as [|x2 l2] eqn:E2; [congruence|].
    rewrite <- E1, <- E2 in *. rewrite !parent_app, !leaf_app, Hd, Hh, Hh' in E.
    replace (hpath_eqb (d ++ [h]) (d ++ [h'])) with false in E by (symmetry; apply hpath_eqb_neq; exact Nab).
    rewrite Hst, hset_eq in E. destruct k; injection E as <- <-; auto. }
  destruct Hr as (-> & Hfs'). destruct HS as [(_ & e & HX)|[(_ & _ & _ & _ & ea & eb & k0 & H1 & H2 & H3 & H4)|(_ & ea & eb & k0 & R)]]; [discriminate| |].
  { exfalso. rewrite parent_app, leaf_app in *. destruct H4 as [H4|(i & -> & H4)]; [congruence|].
    assert (eb = es) by congruence. subst. congruence. }
  exists fs'. split; [reflexivity|]. split; [apply R|].
  pose proof (rn_new _ _ _ _ _ _ _ R) as HN. pose proof (rn_src _ _ _ _ _ _ _ R) as HS. pose proof (rn_ent _ _ _ _ _ _ _ R) as HE.
  rewrite !parent_app, !leaf_app in *. rewrite hpath_eqb_refl in HN.
  assert (ea = es) by congruence. subst ea. assert (k0 = k) by congruence. subst k0.
  split; [exact HN|].
  assert (Dd : forall r, d <> (d ++ [h]) ++ r).
  { intros r X. apply (f_equal (@length _)) in X. rewrite !app_length in X. cbn in X. lia. }
  assert (Dd' : forall r, d <> (d ++ [h']) ++ r).
  { intros r X. apply (f_equal (@length _)) in X. rewrite !app_length in X. cbn in X. lia. }
  assert (Hbelow' : forall r, fs ((d ++ [h']) ++ r) = None).
  { intros r. eapply tree_file_below; [exact T|exact Hd|congruence]. }
  assert (Hbelow : k <> KDir -> forall r, fs ((d ++ [h]) ++ r) = None).
  { intros Hk r. eapply tree_file_below; [exact T|exact Hd|congruence]. }
  assert (Hplain : k <> KDir -> (forall q, fs q <> None -> q <> d -> fs' (redirect d h h' q) = fs q) /\
    (forall q, fs' q <> None -> exists q0, fs q0 <> None /\ q = redirect d h h' q0)).
  { intros Hk. assert (Hf2 : fs' = hset (hset fs d (Some (ent_del h es))) d (Some (ent_put h' k (ent_del h es)))) by (destruct k; [exact Hfs'|congruence|exact Hfs']).
    assert (Hrd : forall q, fs q <> None -> redirect d h h' q = q).
    { intros q Hq. unfold redirect. destruct (strip_prefix (d ++ [h]) q) as [r|] eqn:Es; [|reflexivity].
      apply strip_some in Es. subst q. rewrite (Hbelow Hk) in Hq. congruence. }
    split.
    - intros q Hq Nq. rewrite Hrd by exact Hq. rewrite Hf2, !hset_ne by congruence. reflexivity.
    - intros q Hq. exists q. assert (Hq0 : fs q <> None).
      { rewrite Hf2 in Hq. destruct (hpath_dec d q) as [<-|N]; [congruence|]. rewrite !hset_ne in Hq by exact N. exact Hq. }
      split; [exact Hq0|]. symmetry. apply Hrd. exact Hq0. }
  destruct k as [i| |m]; [apply Hplain; discriminate| |apply Hplain; discriminate].
  rewrite Hfs'. split.
  - intros q Hq Nq. unfold redirect, h_move. destruct (strip_prefix (d ++ [h]) q) as [r|] eqn:Es.
    + rewrite (proj2 (strip_some (d ++ [h']) _ r) eq_refl). apply strip_some in Es. subst q.
      rewrite !hset_ne by apply Dd. reflexivity.
    + destruct (strip_prefix (d ++ [h']) q) as [r|] eqn:Es2.
      * apply strip_some in Es2. subst q. rewrite Hbelow' in Hq. congruence.
      * rewrite Es. rewrite !hset_ne by congruence. reflexivity.
  - intros q Hq. unfold h_move in Hq. destruct (strip_prefix (d ++ [h']) q) as [r|] eqn:Es2.
    + exists ((d ++ [h]) ++ r). rewrite !hset_ne in Hq by apply Dd. split; [exact Hq|].
      unfold redirect. rewrite (proj2 (strip_some (d ++ [h]) _ r) eq_refl). apply strip_some in Es2. exact Es2.
    + destruct (strip_prefix (d ++ [h]) q) as [r|] eqn:Es; [congruence|]. exists q. unfold redirect. rewrite Es. split; [|reflexivity].
      destruct (hpath_dec d q) as [<-|N]; [congruence|]. rewrite !hset_ne in Hq by exact N. exact Hq.
Qed.

(** ** Where an old path is in a partly changed tree *)
Fixpoint sge (e : hpath -> bytes -> bytes) (pre d : hpath) : hpath :=
  match d with
  | [] => []
  | u :: r => e pre u :: sge e (pre ++ [u]) r
  end.
Definition sg (e : hpath -> bytes -> bytes) (d : hpath) : hpath := sge e [] d.

Lemma sge_app e pre d r : sge e pre (d ++ r) = sge e pre d ++ sge e (pre ++ d) r.
Proof.
  revert pre. induction d as [|u d IH]; intros pre; cbn [app sge].
  - rewrite app_nil_r. reflexivity.
  - rewrite IH, <- app_assoc. reflexivity.
Qed.
Lemma sge_length e pre d : length (sge e pre d) = length d.
Proof. revert pre. induction d as [|u d IH]; intros pre; cbn [sge length]; [reflexivity|]. rewrite IH. reflexivity. Qed.
Lemma sg_snoc e d u : sg e (d ++ [u]) = sg e d ++ [e d u].
Proof. unfold sg. rewrite sge_app. reflexivity. Qed.
Lemma sge_ext e e' pre d : (forall x u y, d = x ++ u :: y -> e (pre ++ x) u = e' (pre ++ x) u) -> sge e pre d = sge e' pre d.
Proof.
  revert pre. induction d as [|u d IH]; intros pre H; cbn [sge]; [reflexivity|]. f_equal.
  - specialize (H [] u d eq_refl). rewrite app_nil_r in H. exact H.
  - apply IH. intros x v y ->. specialize (H (u :: x) v y eq_refl). rewrite <- app_assoc. exact H.
Qed.
Lemma sg_id d : sg (fun _ u => u) d = d.
Proof. unfold sg. generalize (@nil bytes). induction d as [|u d IH]; intros pre; cbn [sge]; [reflexivity|]. rewrite IH. reflexivity. Qed.

Section Change.
Variable s1 s2 : bytes.
Variable named : bytes -> bytes -> Prop.
Notation long := (long_entry s1).
Notation nh := (new_hash s1 s2).
Hypothesis named_long : forall u l, named u l -> (l <> [] <-> long u).
Hypothesis named_TN : forall u l, named u l -> u <> TN.
(** an entry, renamed or not, tells which entry it was *)
Definition image (u x : bytes) : Prop := x = u \/ (long u /\ x = nh u).
Hypothesis image_inj : forall u l u' l' x, named u l -> named u' l' -> image u x -> image u' x -> u = u'.
Hypothesis nh_ne : forall u, long u -> nh u <> u.
Hypothesis nh_TN : forall u l, named u l -> long u -> nh u <> TN.

Lemma image_TN u l x : named u l -> image u x -> x <> TN.
Proof. intros Hn [->|(Hl & ->)]; [exact (named_TN _ _ Hn)|exact (nh_TN _ _ Hn Hl)]. Qed.

Variable fs0 : hfs.
Hypothesis inv0 : inv s1 named fs0.


Lemma named0 d es u : fs0 d = Some es -> ent u es <> None -> u <> TN -> exists l, named u l.
Proof. intros Hd Hu N. destruct (do_named _ _ _ (proj2 inv0 _ _ Hd) u Hu) as [E|E]; [congruence|exact E]. Qed.
Lemma comp_named d u r : fs0 (d ++ u :: r) <> None -> exists l, named u l.
Proof.
  intros H. apply (tree_below fs0 d u r (proj1 inv0)) in H. destruct H as (es & Hd & Hk). eapply named0; [exact Hd|congruence|].
  intros ->. destruct (do_table _ _ _ (proj2 inv0 _ _ Hd)) as [E|(m & E)]; congruence.
Qed.

Definition images (e : hpath -> bytes -> bytes) : Prop := forall d u, image u (e d u).
Lemma images_id : images (fun _ u => u).
Proof. intros d u. left. reflexivity. Qed.

Lemma sg_inj e1 e2 d1 d2 : images e1 -> images e2 -> fs0 d1 <> None -> fs0 d2 <> None -> sg e1 d1 = sg e2 d2 -> d1 = d2.
Proof.
  intros I1 I2. revert d2. induction d1 as [|u x IH] using rev_ind; intros d2 H1 H2 E.
  - destruct d2 as [|v y]; [reflexivity|]. discriminate.
  - destruct d2 as [|v y _] using rev_ind.
    + apply (f_equal (@length _)) in E. unfold sg in E. rewrite !sge_length, app_length in E. cbn in E. lia.
    + rewrite !sg_snoc in E. apply snoc_inj in E. destruct E as (Ex & Eu).
      assert (x = y). { apply IH; [eapply tree_prefix; [apply inv0|exact H1]|eapply tree_prefix; [apply inv0|exact H2]|exact Ex]. }
      subst y. destruct (comp_named x u [] H1) as (l & Hn). destruct (comp_named x v [] H2) as (l' & Hn').
      f_equal. f_equal. eapply image_inj; [exact Hn|exact Hn'|apply I1|rewrite Eu; apply I2].
Qed.

(** The state part of the way: [e] says under which name each old entry is now,
    [tab] what the table entry of each old directory is now. *)
Record sim (e : hpath -> bytes -> bytes) (tab : hpath -> option kind) (fs : hfs) : Prop := mkSim {
  sm_tree : tree_ok fs;
  sm_im : images e;
  sm_fwd : forall d es0, fs0 d = Some es0 -> exists es, fs (sg e d) = Some es /\ NoDup (map fst es) /\
     (forall u, u <> TN -> ent u es0 <> None -> ent (e d u) es = ent u es0) /\
     (forall v, v <> TN -> ent v es <> None -> exists u, u <> TN /\ ent u es0 <> None /\ v = e d u) /\
     ent TN es = tab d;
  sm_bwd : forall q, fs q <> None -> exists d, fs0 d <> None /\ q = sg e d }.

Definition eupd (e : hpath -> bytes -> bytes) (d : hpath) (h : bytes) : hpath -> bytes -> bytes :=
  fun d' u => if hpath_eqb d' d && bytes_eqb u h then nh h else e d' u.
Lemma eupd_same e d h : eupd e d h d h = nh h.
Proof. unfold eupd. rewrite hpath_eqb_refl, bytes_eqb_refl. reflexivity. Qed.
Lemma eupd_other e d h d' u : d' <> d \/ u <> h -> eupd e d h d' u = e d' u.
Proof.
  intros H. unfold eupd. destruct (hpath_eqb d' d) eqn:E1; [|reflexivity]. destruct (bytes_eqb u h) eqn:E2; [|reflexivity].
  apply hpath_eqb_eq in E1. apply bytes_eqb_eq in E2. destruct H; congruence.
Qed.

Lemma sg_eupd e d h lh q : images e -> named h lh -> fs0 d <> None -> sg e d = d -> e d h = h -> fs0 q <> None ->
  sg (eupd e d h) q = redirect d h (nh h) (sg e q).
Proof.
  intros Im Nh Hd Hsd He Hq.
  assert (Hd' : sg (eupd e d h) d = d).
  { transitivity (sg e d); [|exact Hsd]. apply sge_ext. intros x u y E. cbn [app]. apply eupd_other. left.
    intros ->. apply (f_equal (@length _)) in E. rewrite app_length in E. cbn in E. lia. }
  unfold redirect. destruct (strip_prefix (d ++ [h]) q) as [r|] eqn:Es.
  - apply strip_some in Es. subst q. rewrite <- app_assoc. cbn [app]. unfold sg in *. rewrite !sge_app. cbn [app sge]. rewrite Hd', Hsd, He, eupd_same.
    replace (d ++ h :: sge e (d ++ [h]) r) with ((d ++ [h]) ++ sge e (d ++ [h]) r) by (rewrite <- app_assoc; reflexivity).
    rewrite (proj2 (strip_some (d ++ [h]) _ _) eq_refl), <- app_assoc. cbn [app]. do 2 f_equal.
    apply sge_ext. intros x u y E. apply eupd_other. left. intros X. apply (f_equal (@length _)) in X. rewrite !app_length in X. cbn in X. lia.
  - assert (Hsame : sg (eupd e d h) q = sg e q).
    { apply sge_ext. intros x u y E. cbn [app]. apply eupd_other. destruct (hpath_dec x d) as [->|N]; [|left; exact N].
      right. intros ->. apply (proj1 (strip_none _ _) Es y). rewrite <- app_assoc. exact E. }
    rewrite Hsame. destruct (strip_prefix (d ++ [h]) (sg e q)) as [r|] eqn:Es2; [|reflexivity]. exfalso.
    apply strip_some in Es2. rewrite <- app_assoc in Es2. cbn [app] in Es2.
    assert (HL : length d < length q).
    { apply (f_equal (@length _)) in Es2. unfold sg in Es2. rewrite sge_length, app_length in Es2. cbn in Es2. lia. }
    assert (Eq : exists x u y, q = x ++ u :: y /\ length x = length d).
    { exists (firstn (length d) q). destruct (skipn (length d) q) as [|u y] eqn:Ek.
      - apply (f_equal (@length _)) in Ek. rewrite skipn_length in Ek. cbn in Ek. lia.
      - exists u, y. rewrite <- Ek, firstn_skipn, firstn_length. split; [reflexivity|lia]. }
    destruct Eq as (x & u & y & -> & Lx). unfold sg in Es2. rewrite sge_app in Es2. cbn [app sge] in Es2.
    assert (E1 : sge e [] x = d /\ e x u :: sge e (x ++ [u]) y = h :: r).
    { assert (HX : length (sge e [] x) = length d) by (rewrite sge_length; exact Lx).
      clear - Es2 HX. revert d Es2 HX. generalize (sge e [] x) as a. induction a as [|c a IH]; intros [|c' d] E HX; cbn in *; try discriminate; [auto|].
      injection E as -> E. injection HX as HX. destruct (IH d E HX) as (-> & ?). auto. }
    destruct E1 as (E1 & E2). injection E2 as E2 _.
    assert (x = d). { apply (sg_inj e e); auto. - eapply tree_prefix; [apply inv0|exact Hq]. - unfold sg in *. congruence. }
    subst x. destruct (comp_named d u y Hq) as (l & Hn).
    apply (proj1 (strip_none _ _) Es y). rewrite <- app_assoc. cbn [app]. do 2 f_equal.
    f_equal. eapply image_inj; [exact Hn|exact Nh|apply Im|rewrite E2; left; reflexivity].
Qed.

Lemma sim_step e tab fs d es0 h lh : sim e tab fs -> fs0 d = Some es0 -> sg e d = d -> named h lh -> long h -> ent h es0 <> None -> e d h = h ->
  exists fs', h_rename None (d ++ [h]) (d ++ [nh h]) fs = (fs', Ok tt) /\ sim (eupd e d h) tab fs'.
Proof.
  intros [T Im Fw Bw] Hd Hsd Nh Lh Hh He. destruct (Fw d es0 Hd) as (es & Hes & ND & F1 & F2 & F3). rewrite Hsd in Hes.
  pose proof (named_TN _ _ Nh) as NT.
  assert (Eh : ent h es = ent h es0) by (rewrite <- (F1 h NT Hh), He; reflexivity).
  destruct (ent h es0) as [k|] eqn:Ek; [|congruence].
  assert (Hfresh : ent (nh h) es = None).
  { destruct (ent (nh h) es) eqn:E; [|reflexivity]. exfalso.
    destruct (F2 (nh h) (nh_TN _ _ Nh Lh) ltac:(congruence)) as (u & Nu & Hu & Eu).
    destruct (named0 d es0 u Hd Hu Nu) as (l & Hn).
    assert (u = h). { eapply image_inj; [exact Hn|exact Nh|apply Im|]. rewrite <- Eu. right. auto. }
    subst u. rewrite He in Eu. exact (nh_ne h Lh Eu). }
  destruct (rename_fresh fs d h (nh h) es k T Hes Eh Hfresh) as (fs' & Er & T' & Hd' & Hq & Hb).
  exists fs'. split; [exact Er|].
  assert (Hrd : redirect d h (nh h) d = d).
  { unfold redirect. destruct (strip_prefix (d ++ [h]) d) as [r|] eqn:Es; [|reflexivity]. exfalso. apply strip_some in Es.
    apply (f_equal (@length _)) in Es. rewrite !app_length in Es. cbn in Es. lia. }
  assert (Hd0 : fs0 d <> None) by congruence.
  constructor.
  - exact T'.
  - intros d' u. unfold eupd. destruct (hpath_eqb d' d && bytes_eqb u h) eqn:E; [|apply Im].
    apply andb_true_iff in E. destruct E as (_ & E). apply bytes_eqb_eq in E. subst u. right. auto.
  - intros q eq0 Hq0. assert (Hq0' : fs0 q <> None) by congruence.
    rewrite (sg_eupd e d h lh q Im Nh Hd0 Hsd He Hq0').
    destruct (hpath_dec q d) as [->|Nq].
    + rewrite Hsd, Hrd. assert (eq0 = es0) by congruence. subst eq0. exists (ent_put (nh h) k (ent_del h es)). split; [exact Hd'|].
      split; [apply ent_put_nodup, ent_del_nodup; exact ND|]. split; [|split].
      * intros u Nu Hu. destruct (bytes_dec u h) as [->|Nuh].
        -- rewrite eupd_same, ent_put_eq. congruence.
        -- rewrite eupd_other by auto.
           destruct (named0 d es0 u Hd Hu Nu) as (l & Hn).
           assert (Nx1 : nh h <> e d u).
           { intros E. apply Nuh. eapply image_inj; [exact Hn|exact Nh|apply Im|]. rewrite <- E. right. auto. }
           assert (Nx2 : h <> e d u).
           { intros E. apply Nuh. eapply image_inj; [exact Hn|exact Nh|apply Im|]. rewrite <- E. left. reflexivity. }
           rewrite ent_put_ne, ent_del_ne by assumption. apply F1; assumption.
      * intros v Nv Hv. destruct (bytes_dec (nh h) v) as [<-|Nv1].
        -- exists h. rewrite eupd_same. split; [exact NT|]. split; [congruence|reflexivity].
        -- rewrite ent_put_ne in Hv by exact Nv1. destruct (bytes_dec h v) as [<-|Nv2]; [rewrite ent_del_eq in Hv; congruence|].
           rewrite ent_del_ne in Hv by exact Nv2. destruct (F2 v Nv Hv) as (u & Nu & Hu & Eu). exists u. split; [exact Nu|]. split; [exact Hu|].
           rewrite eupd_other; [exact Eu|]. right. intros ->. congruence.
      * rewrite ent_put_ne, ent_del_ne; [exact F3|exact NT|exact (nh_TN _ _ Nh Lh)].
    + destruct (Fw q eq0 Hq0) as (eq1 & Heq1 & NDq & G1 & G2 & G3). exists eq1.
      rewrite Hq; [|congruence|].
      2: { intros E. apply Nq. apply (sg_inj e e); auto. congruence. }
      split; [exact Heq1|]. split; [exact NDq|]. split; [|split; [|exact G3]].
      * intros u Nu Hu. rewrite eupd_other by auto. apply G1; assumption.
      * intros v Nv Hv. destruct (G2 v Nv Hv) as (u & Nu & Hu & Eu). exists u. rewrite eupd_other by auto. auto.
  - intros q Hq'. destruct (Hb q Hq') as (q0 & Hq0 & ->). destruct (Bw q0 Hq0) as (d0 & Hd00 & ->). exists d0. split; [exact Hd00|].
    symmetry. apply (sg_eupd e d h lh d0); assumption.
Qed.

Definition tupd (tab : hpath -> option kind) (d : hpath) (m : list (bytes * bytes)) : hpath -> option kind :=
  fun d' => if hpath_eqb d' d then Some (KTable m) else tab d'.
Lemma sim_commit e tab fs d m m0 : sim e tab fs -> fs0 d <> None -> sg e d = d -> tab d = Some (KTable m0) ->
  sim e (tupd tab d m) (commit_table d m fs).
Proof.
  intros [T Im Fw Bw] Hd Hsd Ht. destruct (fs0 d) as [es0|] eqn:Ed; [|congruence]. destruct (Fw d es0 Ed) as (es & Hes & ND & F1 & F2 & F3).
  rewrite Hsd in Hes. unfold commit_table. rewrite Hes. constructor.
  - eapply tree_hset; [exact T|exact Hes|]. apply same_put; congruence.
  - exact Im.
  - intros q eq0 Hq0. unfold tupd. destruct (hpath_dec q d) as [->|Nq].
    + rewrite Hsd, hset_eq, hpath_eqb_refl. assert (eq0 = es0) by congruence. subst eq0.
      eexists. split; [reflexivity|]. split; [apply ent_put_nodup; exact ND|]. split; [|split].
      * intros u Nu Hu. destruct (named0 d es0 u Ed Hu Nu) as (l & Hn).
        rewrite ent_put_ne; [apply F1; assumption|]. intros E. exact (image_TN _ _ _ Hn (Im d u) (eq_sym E)).
      * intros v Nv Hv. rewrite ent_put_ne in Hv by congruence. apply F2; assumption.
      * apply ent_put_eq.
    + destruct (Fw q eq0 Hq0) as (eq1 & Heq1 & G). exists eq1.
      replace (hpath_eqb q d) with false by (symmetry; apply hpath_eqb_neq; exact Nq).
      rewrite hset_ne; [auto|]. intros E. apply Nq. apply (sg_inj e e); auto; congruence.
  - intros q Hq. apply Bw. destruct (hpath_dec d q) as [<-|N]; [congruence|]. rewrite hset_ne in Hq by exact N. exact Hq.
Qed.

(** The rows of one table, part of the way. *)
Definition rows_as (r0 : list (bytes * bytes)) (g : bytes -> bytes) (m : list (bytes * bytes)) : Prop :=
  NoDup (map fst m) /\ forall x l, ent x m = Some l <-> exists h, ent h r0 = Some l /\ x = g h.

Fixpoint efold (e : hpath -> bytes -> bytes) (d : hpath) (hs : list bytes) : hpath -> bytes -> bytes :=
  match hs with [] => e | h :: hs' => efold (eupd e d h) d hs' end.

Lemma efold_at e d hs d' u : efold e d hs d' u = if hpath_eqb d' d && existsb (bytes_eqb u) hs then nh u else e d' u.
Proof.
  revert e. induction hs as [|h hs IH]; intros e; cbn [efold existsb].
  - rewrite Bool.andb_false_r. reflexivity.
  - rewrite IH. destruct (hpath_eqb d' d) eqn:E; cbn [andb].
    + destruct (existsb (bytes_eqb u) hs); [rewrite Bool.orb_true_r; reflexivity|]. rewrite Bool.orb_false_r.
      unfold eupd. rewrite E. cbn [andb]. destruct (bytes_eqb u h) eqn:E2; [|reflexivity]. apply bytes_eqb_eq in E2. subst. reflexivity.
    + unfold eupd. rewrite E. reflexivity.
Qed.

Lemma change_rows_ok bad tab d es0 hs : forall e fs m,
  (bad = None \/ hs = []) ->
  sim e tab fs -> fs0 d = Some es0 -> sg e d = d -> NoDup hs ->
  (forall h, In h hs -> long h /\ ent h es0 <> None /\ ent h (rows es0) <> None /\ e d h = h) ->
  rows_as (rows es0) (e d) m ->
  exists fs' m', change_rows s1 s2 bad d hs m fs = (fs', Ok m') /\ sim (efold e d hs) tab fs' /\ rows_as (rows es0) (efold e d hs d) m'.
Proof.
  induction hs as [|h hs IH]; intros e fs m Hbad HS Hd Hsd ND Hh HR; [cbn; eauto|].
  destruct Hbad as [->|]; [|discriminate]. cbn [change_rows efold]. inversion ND as [|x l Hni ND']. subst.
  destruct (Hh h (or_introl eq_refl)) as (Lh & Hes & Hrow & He). rewrite (proj2 Lh).
  assert (NT : h <> TN) by (intros ->; exact (not_long_TN s1 Lh)).
  destruct (named0 d es0 h Hd Hes NT) as (lh & Nh).
  destruct (sim_step e tab fs d es0 h lh HS Hd Hsd Nh Lh Hes He) as (fs1 & Er & HS1). rewrite Er.
  apply IH; auto.
  - transitivity (sg e d); [|exact Hsd]. apply sge_ext. intros x u y E. cbn [app]. apply eupd_other. left.
    intros ->. apply (f_equal (@length _)) in E. rewrite app_length in E. cbn in E. lia.
  - intros h' Hi. destruct (Hh h' (or_intror Hi)) as (A & B & C & D). split; [exact A|]. split; [exact B|]. split; [exact C|].
    rewrite eupd_other; [exact D|]. right. intros ->. contradiction.
  - destruct HR as (NDm & HR). pose proof (sm_im _ _ _ HS) as Im.
    assert (Hinj : forall h' l', ent h' (rows es0) = Some l' -> forall x, e d h' = x -> image h x -> h' = h).
    { intros h' l' Hr x <- Hx. destruct (do_exact _ _ _ (proj2 inv0 _ _ Hd) h' ltac:(congruence)) as (L' & H').
      destruct (named0 d es0 h' Hd H') as (l2 & N2); [intros ->; exact (not_long_TN s1 L')|].
      eapply image_inj; [exact N2|exact Nh|apply Im|exact Hx]. }
    assert (Hval : exists l0, ent h (rows es0) = Some l0 /\ ent h m = Some l0).
    { destruct (ent h (rows es0)) as [l0|] eqn:E; [|congruence]. exists l0. split; [reflexivity|]. apply HR. exists h. split; [exact E|congruence]. }
    destruct Hval as (l0 & Hl0 & Hm0).
    assert (Hnew : ent (nh h) m = None).
    { destruct (ent (nh h) m) as [l|] eqn:E; [|reflexivity]. exfalso. apply HR in E. destruct E as (h' & Hr & Ex).
      assert (h' = h) by (eapply Hinj; [exact Hr|symmetry; exact Ex|right; auto]). subst h'. rewrite He in Ex. exact (nh_ne h Lh Ex). }
    assert (Nn : nh h <> h) by exact (nh_ne h Lh).
    rewrite Hm0. split.
    + apply ent_del_nodup, update_nodup. exact NDm.
    + intros x l. unfold remove_mapping. split.
      * intros Hx. destruct (bytes_dec h x) as [<-|N1]; [rewrite ent_del_eq in Hx; discriminate|].
        rewrite ent_del_ne in Hx by exact N1. destruct (bytes_dec (nh h) x) as [<-|N2].
        -- rewrite update_eq, Hnew in Hx. injection Hx as <-. exists h. rewrite eupd_same. auto.
        -- rewrite update_ne in Hx by exact N2. apply HR in Hx. destruct Hx as (h' & Hr & Ex). exists h'. split; [exact Hr|].
           rewrite eupd_other; [exact Ex|]. right. intros ->. congruence.
      * intros (h' & Hr & Ex). destruct (bytes_dec h' h) as [->|N1].
        -- rewrite eupd_same in Ex. subst x. rewrite ent_del_ne, update_eq, Hnew by congruence. congruence.
        -- rewrite eupd_other in Ex by auto. assert (Nx : h <> x).
           { intros <-. apply N1. eapply Hinj; [exact Hr|symmetry; exact Ex|left; reflexivity]. }
           assert (Nx2 : nh h <> x).
           { intros <-. apply N1. eapply Hinj; [exact Hr|symmetry; exact Ex|right; auto]. }
           rewrite ent_del_ne, update_ne by assumption. apply HR. eauto.
Qed.

(** ** All directories *)
(** how far the work has come *)
Record progress (todo done : list hpath) (e : hpath -> bytes -> bytes) (tab : hpath -> option kind) : Prop := mkProgress {
  pg_todo : forall d es, In d todo -> fs0 d = Some es -> tab d = ent TN es /\ forall u, e d u = u;
  pg_done : forall d es, In d done -> fs0 d = Some es -> (exists m, tab d = Some (KTable m) /\ rows_as (rows es) (e d) m) /\
              (forall u, ent u (rows es) <> None -> e d u = nh u);
  pg_short : forall d u, ~ long u -> e d u = u;
  pg_other : forall d es, ~ In d todo -> ~ In d done -> fs0 d = Some es -> tab d = ent TN es }.

Lemma existsb_in u hs : existsb (bytes_eqb u) hs = true <-> In u hs.
Proof.
  rewrite existsb_exists. split; [intros (x & Hi & E); apply bytes_eqb_eq in E; congruence|intros H; exists u; split; [exact H|apply bytes_eqb_refl]].
Qed.

Lemma change_dir_ok bad d todo done e tab fs : sim e tab fs -> progress (d :: todo) done e tab ->
  ~ In d todo -> ~ In d done -> (exists es m, fs0 d = Some es /\ ent TN es = Some (KTable m) /\ (bad = None \/ m = [])) -> sg e d = d ->
  exists fs' e' tab', change_dir s1 s2 bad d fs = (fs', Ok tt) /\ sim e' tab' fs' /\ progress todo (d :: done) e' tab'
    /\ (forall d' u, d' <> d -> e' d' u = e d' u).
Proof.
  intros HS HP N1 N2 (es & m & Hd & Hm & Hbad) Hsd.
  destruct (pg_todo _ _ _ _ HP d es (or_introl eq_refl) Hd) as (Htab & Hid).
  destruct (sm_fwd _ _ _ HS d es Hd) as (es1 & Hes1 & ND1 & F1 & F2 & F3). rewrite Hsd in Hes1.
  assert (Hrows : rows es = m) by (unfold rows; rewrite Hm; reflexivity).
  unfold change_dir, open_table. rewrite Hes1, F3, Htab, Hm.
  pose proof (proj2 inv0 _ _ Hd) as Hok.
  assert (Hcr : exists fs' m', change_rows s1 s2 bad d (map fst m) m fs = (fs', Ok m') /\ sim (efold e d (map fst m)) tab fs' /\ rows_as (rows es) (efold e d (map fst m) d) m').
  { apply (change_rows_ok bad tab d es); auto.
    - destruct Hbad as [->| ->]; auto.
    - rewrite <- Hrows. apply Hok.
    - intros h Hi. rewrite <- Hrows in Hi. apply ent_some in Hi. destruct Hi as (l & Hl).
      destruct (do_exact _ _ _ Hok h ltac:(congruence)) as (A & B). repeat (split; [auto; congruence|]). apply Hid.
    - rewrite Hrows. split; [rewrite <- Hrows; apply Hok|]. intros x l. split; [intros Hx; exists x; rewrite Hid; auto|].
      intros (h & Hl & ->). rewrite Hid. exact Hl. }
  destruct Hcr as (fs2 & m' & Er & HS2 & HR2). rewrite Er.
  assert (Hd0 : fs0 d <> None) by congruence.
  assert (Hsd2 : sg (efold e d (map fst m)) d = d).
  { transitivity (sg e d); [|exact Hsd]. apply sge_ext. intros x u y E. cbn [app]. rewrite efold_at.
    replace (hpath_eqb x d) with false; [reflexivity|]. symmetry. apply hpath_eqb_neq.
    intros ->. apply (f_equal (@length _)) in E. rewrite app_length in E. cbn in E. lia. }
  exists (commit_table d m' fs2), (efold e d (map fst m)), (tupd tab d m'). split; [reflexivity|]. split.
  - eapply sim_commit; [exact HS2|exact Hd0|exact Hsd2|]. rewrite Htab. exact Hm.
  - split.
    + constructor.
      * intros d' es' Hi Hd'. assert (Nd : d' <> d) by (intros ->; contradiction). apply hpath_eqb_neq in Nd.
        destruct (pg_todo _ _ _ _ HP d' es' (or_intror Hi) Hd') as (A & B). unfold tupd. rewrite Nd. split; [exact A|].
        intros u. rewrite efold_at, Nd. apply B.
      * intros d' es' [<-|Hi] Hd'.
        -- assert (es' = es) by congruence. subst es'. split.
           ++ exists m'. unfold tupd. rewrite hpath_eqb_refl. auto.
           ++ intros u Hu. rewrite efold_at, hpath_eqb_refl. cbn [andb]. rewrite <- Hrows.
              replace (existsb (bytes_eqb u) (map fst (rows es))) with true; [reflexivity|]. symmetry. apply existsb_in.
              destruct (In_dec bytes_dec u (map fst (rows es))) as [Hi|Hi]; [exact Hi|]. apply ent_none in Hi. contradiction.
        -- assert (Nd : d' <> d) by (intros ->; contradiction). apply hpath_eqb_neq in Nd.
           destruct (pg_done _ _ _ _ HP d' es' Hi Hd') as ((m1 & A & B1 & B2) & C). split.
           ++ exists m1. unfold tupd. rewrite Nd. split; [exact A|]. split; [exact B1|]. intros x l. rewrite B2.
              split; intros (h & Hh1 & Hh2); exists h; (split; [exact Hh1|]); rewrite efold_at, Nd in *; exact Hh2.
           ++ intros u Hu. rewrite efold_at, Nd. apply C. exact Hu.
      * intros d' u Nu. rewrite efold_at. destruct (hpath_eqb d' d && existsb (bytes_eqb u) (map fst m)) eqn:E; [|apply (pg_short _ _ _ _ HP); exact Nu].
        exfalso. apply andb_true_iff in E. destruct E as (_ & E). apply existsb_in in E. rewrite <- Hrows in E. apply ent_some in E. destruct E as (l & El).
        apply Nu. apply (do_exact _ _ _ Hok u). congruence.
      * intros d' es' X1 X2 Hd'. unfold tupd. assert (Nd : d' <> d) by (intros ->; apply X2; left; reflexivity). apply hpath_eqb_neq in Nd. rewrite Nd.
        eapply (pg_other _ _ _ _ HP); [|intros Hi; apply X2; right; exact Hi|exact Hd']. intros [E|Hi]; [apply hpath_eqb_neq in Nd; congruence|contradiction].
    + intros d' u Nd. rewrite efold_at. apply hpath_eqb_neq in Nd. rewrite Nd. reflexivity.
Qed.

(** A directory that can be opened under its old path has not moved. *)
Lemma unmoved e tab fs d : sim e tab fs -> fs0 d <> None -> fs d <> None -> sg e d = d.
Proof.
  intros HS H0 H. destruct (sm_bwd _ _ _ HS d H) as (d' & Hd' & E). rewrite E at 2. f_equal.
  apply (sg_inj (fun _ u => u) e); auto; [exact images_id|apply HS|]. rewrite sg_id. exact E.
Qed.

Lemma change_dirs_sound bad todo : forall done e tab fs fs',
  sim e tab fs -> progress todo done e tab -> NoDup (todo ++ done) ->
  (forall d, In d todo -> exists es m, fs0 d = Some es /\ ent TN es = Some (KTable m)) ->
  change_dirs s1 s2 bad todo fs = (fs', Ok tt) ->
  exists e' tab', sim e' tab' fs' /\ progress [] (rev todo ++ done) e' tab'.
Proof.
  induction todo as [|d todo IH]; intros done e tab fs fs' HS HP ND Ht Hc; cbn [change_dirs] in Hc.
  - injection Hc as <-. eauto.
  - cbn [app] in ND. inversion ND as [|x l Hni ND']. subst. destruct (Ht d (or_introl eq_refl)) as (es & m & Hd & Hm).
    destruct (change_dir s1 s2 bad d fs) as [fs1 r] eqn:Ec. destruct r as [[]|er]; [|discriminate].
    assert (Hfd : fs d <> None).
    { intros E. unfold change_dir, open_table in Ec. rewrite E in Ec. discriminate. }
    assert (Hsd : sg e d = d) by (eapply unmoved; eauto; congruence).
    assert (Hbad : bad = None \/ m = []).
    { destruct bad as [er|]; [|auto]. right. destruct m as [|[h l] m]; [reflexivity|exfalso].
      destruct (sm_fwd _ _ _ HS d es Hd) as (es1 & Hes1 & ND1 & F1 & F2 & F3). rewrite Hsd in Hes1.
      destruct (pg_todo _ _ _ _ HP d es (or_introl eq_refl) Hd) as (Htab & _).
      unfold change_dir, open_table in Ec. rewrite Hes1, F3, Htab, Hm in Ec. cbn [map fst change_rows] in Ec.
      destruct (do_exact _ _ _ (proj2 inv0 _ _ Hd) h) as (Lh & _).
      { unfold rows. rewrite Hm. cbn [ent]. rewrite bytes_eqb_refl. discriminate. }
      rewrite (proj2 Lh) in Ec. unfold h_rename in Ec. discriminate. }
    assert (Ni : ~ In d todo /\ ~ In d done) by (split; intros Hi; apply Hni; apply in_or_app; auto).
    destruct (change_dir_ok bad d todo done e tab fs HS HP (proj1 Ni) (proj2 Ni)) as (fs2 & e2 & tab2 & Ec2 & HS2 & HP2 & _); [exists es, m; auto|exact Hsd|].
    rewrite Ec in Ec2. injection Ec2 as ->.
    destruct (IH (d :: done) e2 tab2 fs2 fs' HS2 HP2) as (e' & tab' & A & B); auto.
    + apply (Permutation_NoDup (Permutation_middle todo done d)). constructor; assumption.
    + intros d' Hi. apply Ht. right. exact Hi.
    + exists e', tab'. split; [exact A|]. cbn [rev]. rewrite <- app_assoc. exact B.
Qed.

Lemma change_dirs_total todo : forall done e tab fs,
  sim e tab fs -> progress todo done e tab -> NoDup (todo ++ done) ->
  (forall d, In d todo -> exists es m, fs0 d = Some es /\ ent TN es = Some (KTable m)) ->
  deep_first s1 todo -> (forall d, In d todo -> sg e d = d) ->
  exists fs', change_dirs s1 s2 None todo fs = (fs', Ok tt).
Proof.
  induction todo as [|d todo IH]; intros done e tab fs HS HP ND Ht HD Hsg; cbn [change_dirs]; [eauto|].
  cbn [app] in ND. inversion ND as [|x l Hni ND']. subst. destruct (Ht d (or_introl eq_refl)) as (es & m & Hd & Hm).
  assert (Ni : ~ In d todo /\ ~ In d done) by (split; intros Hi; apply Hni; apply in_or_app; auto).
  destruct (change_dir_ok None d todo done e tab fs HS HP (proj1 Ni) (proj2 Ni)) as (fs2 & e2 & tab2 & Ec2 & HS2 & HP2 & He2); [exists es, m; auto|apply Hsg; left; reflexivity|].
  rewrite Ec2. destruct HD as (HD1 & HD2). apply (IH (d :: done) e2 tab2); auto.
  - apply (Permutation_NoDup (Permutation_middle todo done d)). constructor; assumption.
  - intros d' Hi. apply Ht. right. exact Hi.
  - intros d' Hi. transitivity (sg e d'); [|exact (Hsg d' (or_intror Hi))]. apply sge_ext. intros x u y E. cbn [app].
    destruct (hpath_dec x d) as [->|N]; [|apply He2; exact N].
    rewrite Forall_forall in HD1. specialize (HD1 d' Hi u y). assert (Nu : ~ long u) by (intros L; exact (HD1 L E)).
    rewrite (pg_short _ _ _ _ HP2 d u Nu), (pg_short _ _ _ _ HP d u Nu). reflexivity.
Qed.

Lemma start dirs : tables fs0 dirs -> sim (fun _ u => u) (fun d => lookup fs0 d TN) fs0 /\ progress dirs [] (fun _ u => u) (fun d => lookup fs0 d TN).
Proof.
  intros (ND & HT). split.
  - constructor; [apply inv0|exact images_id| |].
    + intros d es0 Hd. exists es0. rewrite sg_id. split; [exact Hd|]. split; [apply (proj2 inv0 _ _ Hd)|].
      split; [auto|]. split; [intros v Nv Hv; exists v; auto|]. unfold lookup. rewrite Hd. reflexivity.
    + intros q Hq. exists q. rewrite sg_id. auto.
  - constructor; auto.
    + intros d es _ Hd. unfold lookup. rewrite Hd. auto.
    + intros d es [].
    + intros d es _ _ Hd. unfold lookup. rewrite Hd. reflexivity.
Qed.

(** ** The result *)
Definition rs (u : bytes) : bytes := if negb (Byte.eqb (hd x00 u) dot) && ends_with u s1 then nh u else u.
Lemma long_iff u : negb (Byte.eqb (hd x00 u) dot) && ends_with u s1 = true <-> long u.
Proof.
  unfold long_entry. rewrite andb_true_iff, negb_true_iff. split; intros (A & B); (split; [|exact B]).
  - intros E. rewrite E in A. discriminate.
  - destruct (Byte.eqb (hd x00 u) dot) eqn:E; [|reflexivity]. apply byte_eqb_eq in E. congruence.
Qed.
Lemma rs_image u : image u (rs u).
Proof. unfold rs. destruct (negb _ && _) eqn:E; [right; split; [apply long_iff; exact E|reflexivity]|left; reflexivity]. Qed.

Theorem changed dirs bad fs' : tables fs0 dirs -> change_dirs s1 s2 bad dirs fs0 = (fs', Ok tt) ->
  tree_ok fs' /\
  (forall d es0, fs0 d = Some es0 -> exists es, fs' (map rs d) = Some es /\ NoDup (map fst es) /\
     (forall u, u <> TN -> ent u es0 <> None -> ent (rs u) es = ent u es0) /\
     (forall v, v <> TN -> ent v es <> None -> exists u, u <> TN /\ ent u es0 <> None /\ v = rs u) /\
     (ent TN es0 = None -> ent TN es = None) /\
     (forall m0, ent TN es0 = Some (KTable m0) -> exists m, ent TN es = Some (KTable m) /\ rows_as m0 rs m)) /\
  (forall q, fs' q <> None -> exists d, fs0 d <> None /\ q = map rs d).
Proof.
  intros HT Hc. destruct (start dirs HT) as (HS0 & HP0). pose proof HT as (ND & HT').
  destruct (change_dirs_sound bad dirs [] _ _ fs0 fs' HS0 HP0) as (e & tab & HS & HP).
  - rewrite app_nil_r. exact ND.
  - intros d Hi. apply HT'. exact Hi.
  - exact Hc.
  - rewrite app_nil_r in HP.
    assert (He : forall d es0 u, fs0 d = Some es0 -> ent u es0 <> None \/ ent u (rows es0) <> None -> e d u = rs u).
    { intros d es0 u Hd Hu. pose proof (proj2 inv0 _ _ Hd) as Hok. unfold rs.
      destruct (negb (Byte.eqb (hd x00 u) dot) && ends_with u s1) eqn:E.
      - apply long_iff in E. assert (Hr : ent u (rows es0) <> None).
        { destruct Hu as [Hu|Hu]; [|exact Hu]. destruct (do_long _ _ _ Hok u Hu E) as (l & _ & Hl). congruence. }
        assert (Hi : In d (rev dirs)).
        { rewrite <- in_rev. apply HT'. unfold rows in Hr. destruct (ent TN es0) as [[| |m]|] eqn:Em; try (cbn in Hr; congruence). eauto. }
        apply (pg_done _ _ _ _ HP d es0 Hi Hd). exact Hr.
      - apply (pg_short _ _ _ _ HP). intros L. apply long_iff in L. congruence. }
    assert (Hsg : forall d, fs0 d <> None -> sg e d = map rs d).
    { intros d. induction d as [|u d IH] using rev_ind; intros Hd; [reflexivity|]. rewrite sg_snoc, map_app. cbn [map].
      apply (proj2 (proj1 inv0)) in Hd. destruct Hd as (es & Hd & Hk). rewrite IH by congruence. rewrite (He d es u Hd) by (left; congruence). reflexivity. }
    split; [apply HS|]. split.
    + intros d es0 Hd. destruct (sm_fwd _ _ _ HS d es0 Hd) as (es & Hes & NDe & F1 & F2 & F3). exists es.
      rewrite Hsg in Hes by congruence. split; [exact Hes|]. split; [exact NDe|]. split; [|split; [|split]].
      * intros u Nu Hu. rewrite <- (He d es0 u Hd) by auto. apply F1; assumption.
      * intros v Nv Hv. destruct (F2 v Nv Hv) as (u & Nu & Hu & ->). exists u. split; [exact Nu|]. split; [exact Hu|]. apply (He d es0 u Hd). auto.
      * intros Hn. rewrite F3. rewrite (pg_other _ _ _ _ HP d es0); [exact Hn|intros []| |exact Hd].
        rewrite <- in_rev. intros Hi. apply HT' in Hi. destruct Hi as (e2 & m2 & A & B). congruence.
      * intros m0 Hm0. assert (Hi : In d (rev dirs)) by (rewrite <- in_rev; apply HT'; eauto).
        destruct (pg_done _ _ _ _ HP d es0 Hi Hd) as ((m & A & B1 & B2) & _). exists m. split; [congruence|]. split; [exact B1|].
        assert (Hr0 : rows es0 = m0) by (unfold rows; rewrite Hm0; reflexivity). rewrite Hr0 in *.
        intros x l. rewrite B2. split; intros (h & Hh & ->); exists h; (split; [exact Hh|]);
          rewrite (He d es0 h Hd) by (right; rewrite Hr0; congruence); reflexivity.
    + intros q Hq. destruct (sm_bwd _ _ _ HS q Hq) as (d & Hd & ->). exists d. split; [exact Hd|]. apply Hsg. exact Hd.
Qed.

Theorem change_succeeds dirs : tables fs0 dirs -> deep_first s1 dirs -> exists fs', change_dirs s1 s2 None dirs fs0 = (fs', Ok tt).
Proof.
  intros HT HD. destruct (start dirs HT) as (HS0 & HP0). destruct HT as (ND & HT').
  eapply (change_dirs_total dirs []); eauto.
  - rewrite app_nil_r. exact ND.
  - intros d Hi. apply HT'. exact Hi.
  - intros d _. apply sg_id.
Qed.

(** Every name is found where it was. *)
Theorem found_again dirs bad fs' d u : tables fs0 dirs -> change_dirs s1 s2 bad dirs fs0 = (fs', Ok tt) ->
  Forall (fun c => exists l, named c l) d -> (exists l, named u l) ->
  lookup fs' (map rs d) (rs u) = lookup fs0 d u.
Proof.
  intros HT Hc Hnd (lu & Hnu). destruct (changed dirs bad fs' HT Hc) as (T & HF & HB). unfold lookup.
  assert (Hinj : forall v lv, named v lv -> rs v = rs u -> v = u).
  { intros v lv Hv E. eapply image_inj; [exact Hv|exact Hnu|apply rs_image|rewrite E; apply rs_image]. }
  destruct (fs0 d) as [es0|] eqn:Ed.
  - destruct (HF d es0 Ed) as (es & Hes & NDe & F1 & F2 & _). rewrite Hes.
    destruct (ent u es0) as [k|] eqn:Ek.
    + rewrite F1; [exact Ek|exact (named_TN _ _ Hnu)|congruence].
    + destruct (ent (rs u) es) as [k|] eqn:Ek2; [|reflexivity]. exfalso.
      destruct (F2 (rs u)) as (v & Nv & Hv & Ev); [exact (image_TN _ _ _ Hnu (rs_image u))|congruence|].
      destruct (named0 d es0 v Ed Hv Nv) as (lv & Hlv). rewrite (Hinj v lv Hlv (eq_sym Ev)) in Hv. congruence.
  - destruct (fs' (map rs d)) as [es|] eqn:E; [|reflexivity]. exfalso.
    destruct (HB (map rs d) ltac:(congruence)) as (d' & Hd' & Em).
    assert (d = d'); [|congruence]. clear - image_inj inv0 named_long named_TN nh_ne nh_TN Hnd Hd' Em.
    assert (Hn' : Forall (fun c => exists l, named c l) d').
    { apply Forall_forall. intros c Hi. apply in_split in Hi. destruct Hi as (x & y & ->). apply (comp_named x c y). exact Hd'. }
    clear Hd'. revert d' Em Hn'. induction d as [|c d IH]; intros [|c' d'] Em Hn'; try discriminate; [reflexivity|].
    cbn [map] in Em. injection Em as E1 E2. inversion Hnd as [|x l (l1 & H1) H1']. subst. inversion Hn' as [|x l (l2 & H2) H2']. subst.
    f_equal; [|apply IH; assumption]. eapply image_inj; [exact H1|exact H2|apply rs_image|rewrite E1; apply rs_image].
Qed.
End Change.
