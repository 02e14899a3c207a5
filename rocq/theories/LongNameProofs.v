(** Invariants of the long-name tables. *)
From Coq Require Import Strings.String.
From Verif Require Import Base BaseLemmas TextModel CryptoModel NameModel LongNameModel.
Local Open Scope list_scope.

(** ** Association lists and paths *)
Section Ent.
Context {A : Type}.
Implicit Types es : list (bytes * A).

Lemma ent_del_eq c es : ent c (ent_del c es) = None.
Proof.
  induction es as [|[d k] es IH]; [reflexivity|]. unfold ent_del in *. cbn [filter fst].
  destruct (bytes_eqb d c) eqn:E; cbn [negb]; [exact IH|]. cbn [ent]. rewrite E. exact IH.
Qed.
Lemma ent_del_ne c d es : c <> d -> ent d (ent_del c es) = ent d es.
Proof.
  intros N. induction es as [|[x k] es IH]; [reflexivity|]. unfold ent_del in *. cbn [filter fst ent].
  destruct (bytes_eqb x c) eqn:E; cbn [negb].
  - apply bytes_eqb_eq in E. subst x. apply bytes_eqb_neq in N. rewrite N. exact IH.
  - cbn [ent]. rewrite IH. reflexivity.
Qed.
Lemma ent_put_eq c k es : ent c (ent_put c k es) = Some k.
Proof. cbn [ent_put ent]. rewrite bytes_eqb_refl. reflexivity. Qed.
Lemma ent_put_ne c d k es : c <> d -> ent d (ent_put c k es) = ent d es.
Proof. intros N. cbn [ent_put ent]. pose proof N as N'. apply bytes_eqb_neq in N. rewrite N. apply ent_del_ne. exact N'. Qed.
Lemma ent_in c k es : ent c es = Some k -> In (c, k) es.
Proof.
  induction es as [|[d j] es IH]; [discriminate|]. cbn [ent]. destruct (bytes_eqb d c) eqn:E.
  - apply bytes_eqb_eq in E. subst. intros [= ->]. left. reflexivity.
  - right. auto.
Qed.
Lemma ent_none c es : ent c es = None <-> ~ In c (map fst es).
Proof.
  induction es as [|[d j] es IH]; [cbn; tauto|]. cbn [ent map fst In]. destruct (bytes_eqb d c) eqn:E.
  - apply bytes_eqb_eq in E. subst. split; [discriminate|tauto].
  - apply bytes_eqb_neq in E. rewrite IH. tauto.
Qed.
Lemma ent_some c es : In c (map fst es) -> exists k, ent c es = Some k.
Proof. intros H. destruct (ent c es) eqn:E; [eauto|]. apply ent_none in E. tauto. Qed.
Lemma in_ent c k es : NoDup (map fst es) -> In (c, k) es -> ent c es = Some k.
Proof.
  induction es as [|[d j] es IH]; [intros _ []|]. cbn [map fst]. intros ND [[= -> ->]|Hi]; cbn [ent].
  - rewrite bytes_eqb_refl. reflexivity.
  - inversion ND as [|x l Hx HN]. subst. destruct (bytes_eqb d c) eqn:E.
    + apply bytes_eqb_eq in E. subst. exfalso. apply Hx. change c with (fst (c, k)). apply in_map. exact Hi.
    + auto.
Qed.
Lemma ent_del_keys c es x : In x (map fst (ent_del c es)) -> In x (map fst es) /\ x <> c.
Proof.
  intros H. split.
  - unfold ent_del in H. apply in_map_iff in H. destruct H as (e & <- & He). apply filter_In in He. apply in_map, He.
  - intros ->. apply ent_some in H. rewrite ent_del_eq in H. destruct H as (? & ?). discriminate.
Qed.
Lemma ent_del_nodup c es : NoDup (map fst es) -> NoDup (map fst (ent_del c es)).
Proof.
  induction es as [|[d j] es IH]; [intros; constructor|]. cbn [map fst]. intros ND. inversion ND as [|x l Hx HN]. subst.
  unfold ent_del in *. cbn [filter fst]. destruct (bytes_eqb d c); cbn [negb]; [auto|].
  cbn [map fst]. constructor; [|auto]. intros Hi. apply (ent_del_keys c es d) in Hi. tauto.
Qed.
Lemma ent_put_nodup c k es : NoDup (map fst es) -> NoDup (map fst (ent_put c k es)).
Proof.
  intros ND. cbn [ent_put map fst]. constructor; [|apply ent_del_nodup; exact ND].
  intros Hi. apply (ent_del_keys c es c) in Hi. tauto.
Qed.
End Ent.

Definition bytes_dec : forall a b : bytes, {a = b} + {a <> b} := list_eq_dec byte_eq_dec.
Definition hpath_dec : forall a b : hpath, {a = b} + {a <> b} := list_eq_dec bytes_dec.

Lemma hpath_eqb_eq a b : hpath_eqb a b = true <-> a = b.
Proof.
  revert b; induction a as [|x a IH]; intros [|y b]; cbn [hpath_eqb]; split; try congruence.
  - intros H. apply andb_true_iff in H. destruct H as (H1 & H2). apply bytes_eqb_eq in H1. apply IH in H2. congruence.
  - intros [= -> ->]. rewrite bytes_eqb_refl. apply IH. reflexivity.
Qed.
Lemma hpath_eqb_refl a : hpath_eqb a a = true.
Proof. apply hpath_eqb_eq. reflexivity. Qed.
Lemma hpath_eqb_neq a b : hpath_eqb a b = false <-> a <> b.
Proof. rewrite <- hpath_eqb_eq. destruct (hpath_eqb a b); split; congruence. Qed.

Lemma hset_eq fs p v : hset fs p v p = v.
Proof. unfold hset. rewrite hpath_eqb_refl. reflexivity. Qed.
Lemma hset_ne fs p v q : p <> q -> hset fs p v q = fs q.
Proof. intros N. unfold hset. apply hpath_eqb_neq in N. rewrite N. reflexivity. Qed.

Lemma strip_some a p r : strip_prefix a p = Some r <-> p = a ++ r.
Proof.
  revert p; induction a as [|x a IH]; intros p; cbn [strip_prefix app].
  - split; congruence.
  - destruct p as [|y p]; [split; discriminate|]. destruct (bytes_eqb x y) eqn:E.
    + apply bytes_eqb_eq in E. subst y. rewrite IH. split; congruence.
    + apply bytes_eqb_neq in E. split; [discriminate|]. intros [= -> ->]. congruence.
Qed.
Lemma strip_none a p : strip_prefix a p = None <-> forall r, p <> a ++ r.
Proof.
  destruct (strip_prefix a p) as [r|] eqn:E.
  - apply strip_some in E. split; [discriminate|]. intros H. exfalso. exact (H r E).
  - split; [|reflexivity]. intros _ r Hr. apply strip_some in Hr. congruence.
Qed.

Lemma parent_leaf p : p <> [] -> p = parent p ++ [leaf p].
Proof. apply app_removelast_last. Qed.
Lemma parent_app d u : parent (d ++ [u]) = d.
Proof. apply removelast_last. Qed.
Lemma leaf_app d u : leaf (d ++ [u]) = u.
Proof. apply last_last. Qed.

(** ** The directory tree *)
Definition tree_ok (fs : hfs) : Prop :=
  fs [] <> None /\
  forall p c, (exists es, fs p = Some es /\ ent c es = Some KDir) <-> fs (p ++ [c]) <> None.

Definition same_dirs (es es' : hents) : Prop := forall c, ent c es = Some KDir <-> ent c es' = Some KDir.

Lemma tree_hset fs d es es' : tree_ok fs -> fs d = Some es -> same_dirs es es' -> tree_ok (hset fs d (Some es')).
Proof.
  intros (H0 & HT) Hd Hs. split.
  - unfold hset. destruct (hpath_eqb d []); [discriminate|exact H0].
  - intros p c. assert (E : hset fs d (Some es') (p ++ [c]) <> None <-> fs (p ++ [c]) <> None).
    { destruct (hpath_dec d (p ++ [c])) as [->|N]; [rewrite hset_eq, Hd; split; discriminate|rewrite hset_ne by exact N; reflexivity]. }
    rewrite E, <- HT. destruct (hpath_dec d p) as [->|N].
    + rewrite hset_eq, Hd. split; intros (e & [= <-] & He); eexists; (split; [reflexivity|]); apply Hs; exact He.
    + rewrite hset_ne by exact N. reflexivity.
Qed.

Lemma snoc_inj {A} (p q : list A) c d : p ++ [c] = q ++ [d] -> p = q /\ c = d.
Proof. intros H. apply app_inj_tail in H. exact H. Qed.
Lemma snoc_ne {A} (p : list A) c : p <> p ++ [c].
Proof. intros H. apply (f_equal (@length _)) in H. rewrite app_length in H. cbn in H. lia. Qed.

Lemma tree_mkdir fs d u es : tree_ok fs -> fs d = Some es -> ent u es = None ->
  tree_ok (hset (hset fs d (Some (ent_put u KDir es))) (d ++ [u]) (Some [])).
Proof.
  intros (H0 & HT) Hd Hu.
  assert (HN : fs (d ++ [u]) = None).
  { destruct (fs (d ++ [u])) eqn:E; [|reflexivity]. assert (HX : fs (d ++ [u]) <> None) by congruence.
    apply HT in HX. destruct HX as (e & He & Hk). congruence. }
  split.
  - rewrite hset_ne by (intros HX; destruct d; discriminate). unfold hset. destruct (hpath_eqb d []); [discriminate|exact H0].
  - intros p c. destruct (hpath_dec (d ++ [u]) (p ++ [c])) as [E|N].
    + apply snoc_inj in E. destruct E as (-> & ->). rewrite hset_eq, hset_ne, hset_eq by (intros HX; symmetry in HX; exact (snoc_ne _ _ HX)).
      split; [discriminate|]. intros _. eexists. split; [reflexivity|]. apply ent_put_eq.
    + rewrite (hset_ne _ (d ++ [u]) _ (p ++ [c])) by exact N.
      assert (E : hset fs d (Some (ent_put u KDir es)) (p ++ [c]) <> None <-> fs (p ++ [c]) <> None).
      { destruct (hpath_dec d (p ++ [c])) as [->|N2]; [rewrite hset_eq, Hd; split; discriminate|rewrite hset_ne by exact N2; reflexivity]. }
      rewrite E, <- HT. destruct (hpath_dec (d ++ [u]) p) as [<-|N1].
      * rewrite hset_eq, HN. split; intros (e & He & Hk); [injection He as <-; discriminate|discriminate].
      * rewrite hset_ne by exact N1. destruct (hpath_dec d p) as [->|N2].
        -- rewrite hset_eq, Hd. split; intros (e & [= <-] & Hk); (eexists; split; [reflexivity|]).
           ++ rewrite ent_put_ne in Hk by (intros ->; apply N; reflexivity). exact Hk.
           ++ rewrite ent_put_ne by (intros ->; apply N; reflexivity). exact Hk.
        -- rewrite hset_ne by exact N2. reflexivity.
Qed.

Lemma tree_empty_dir fs p c : tree_ok fs -> fs p = Some [] -> fs (p ++ [c]) = None.
Proof.
  intros (H0 & HT) Hp. destruct (fs (p ++ [c])) eqn:E; [|reflexivity].
  assert (HX : fs (p ++ [c]) <> None) by congruence. apply HT in HX. destruct HX as (e & He & Hk).
  rewrite Hp in He. injection He as <-. discriminate.
Qed.
Lemma tree_prefix fs p r : tree_ok fs -> fs (p ++ r) <> None -> fs p <> None.
Proof.
  intros T. revert p. induction r as [|c r IH] using rev_ind; intros p H; [rewrite app_nil_r in H; exact H|].
  rewrite app_assoc in H. apply T in H. destruct H as (e & He & _). apply IH. congruence.
Qed.
Lemma tree_below fs p c r : tree_ok fs -> fs (p ++ c :: r) <> None -> exists es, fs p = Some es /\ ent c es = Some KDir.
Proof.
  intros T H. apply T. apply (tree_prefix fs (p ++ [c]) r T). rewrite <- app_assoc. exact H.
Qed.

Lemma tree_rmdir fs d u es : tree_ok fs -> fs d = Some es -> fs (d ++ [u]) = Some [] ->
  tree_ok (hset (hset fs d (Some (ent_del u es))) (d ++ [u]) None).
Proof.
  intros T Hd Hu. pose proof T as (H0 & HT). split.
  - rewrite hset_ne by (intros HX; destruct d; discriminate). unfold hset. destruct (hpath_eqb d []); [discriminate|exact H0].
  - intros p c. destruct (hpath_dec (d ++ [u]) (p ++ [c])) as [E|N].
    + apply snoc_inj in E. destruct E as (-> & ->). rewrite hset_eq, hset_ne, hset_eq by (intros HX; symmetry in HX; exact (snoc_ne _ _ HX)).
      split; [|congruence]. intros (e & [= <-] & Hk). rewrite ent_del_eq in Hk. discriminate.
    + rewrite (hset_ne _ (d ++ [u]) _ (p ++ [c])) by exact N.
      assert (E : hset fs d (Some (ent_del u es)) (p ++ [c]) <> None <-> fs (p ++ [c]) <> None).
      { destruct (hpath_dec d (p ++ [c])) as [->|N2]; [rewrite hset_eq, Hd; split; discriminate|rewrite hset_ne by exact N2; reflexivity]. }
      rewrite E, <- HT. destruct (hpath_dec (d ++ [u]) p) as [<-|N1].
      * rewrite hset_eq, Hu. split; intros (e & He & Hk); [discriminate|injection He as <-; discriminate].
      * rewrite hset_ne by exact N1. destruct (hpath_dec d p) as [->|N2].
        -- rewrite hset_eq, Hd. split; intros (e & [= <-] & Hk); (eexists; split; [reflexivity|]).
           ++ rewrite ent_del_ne in Hk by (intros ->; apply N; reflexivity). exact Hk.
           ++ rewrite ent_del_ne by (intros ->; apply N; reflexivity). exact Hk.
        -- rewrite hset_ne by exact N2. reflexivity.
Qed.

Lemma same_del c (es : hents) : ent c es <> Some KDir -> same_dirs es (ent_del c es).
Proof.
  intros H x. destruct (bytes_dec c x) as [->|N]; [rewrite ent_del_eq; split; [tauto|discriminate]|rewrite ent_del_ne by exact N; reflexivity].
Qed.
Lemma same_put c k (es : hents) : ent c es <> Some KDir -> k <> KDir -> same_dirs es (ent_put c k es).
Proof.
  intros H Hk x. destruct (bytes_dec c x) as [->|N]; [rewrite ent_put_eq; split; [tauto|congruence]|rewrite ent_put_ne by exact N; reflexivity].
Qed.

(** What a rename that does something does to the directories. *)
Record renamed (a b : hpath) (fs fs' : hfs) (ea eb : hents) (k : kind) : Prop := mkRenamed {
  rn_ne : a <> b;
  rn_a : a <> [];
  rn_b : b <> [];
  rn_src : fs (parent a) = Some ea;
  rn_ent : ent (leaf a) ea = Some k;
  rn_dst : fs (parent b) = Some eb;
  rn_over : ent (leaf b) eb <> Some KDir \/ k = KDir;
  rn_tree : tree_ok fs';
  rn_new : fs' (parent b) = Some (ent_put (leaf b) k (if hpath_eqb (parent a) (parent b) then ent_del (leaf a) ea else eb));
  rn_old : parent a <> parent b -> fs' (parent a) = Some (ent_del (leaf a) ea);
  rn_rest : forall q es, fs' q = Some es -> q <> parent a -> q <> parent b -> exists q', fs q' = Some es }.

Lemma move_tree a b fs ea eb : tree_ok fs -> a <> b -> a <> [] -> b <> [] ->
  fs (parent a) = Some ea -> ent (leaf a) ea = Some KDir -> fs (parent b) = Some eb ->
  strip_prefix a b = None -> (ent (leaf b) eb = None \/ fs b = Some []) ->
  renamed a b fs
    (h_move a b (hset (hset fs (parent a) (Some (ent_del (leaf a) ea))) (parent b)
       (Some (ent_put (leaf b) KDir (if hpath_eqb (parent a) (parent b) then ent_del (leaf a) ea else eb))))) ea eb KDir.
Proof.
  intros T Hne Ha Hb Hsa Hka Hsb Hst Hover. pose proof T as (H0 & HT).
  rewrite (parent_leaf a Ha) in Hst, Hne. rewrite (parent_leaf b Hb) in Hst, Hne. rewrite (parent_leaf b Hb) in Hover at 2. unfold h_move.
  rewrite (parent_leaf a Ha), (parent_leaf b Hb), !parent_app, !leaf_app.
  set (da := parent a) in *. set (db := parent b) in *. set (ua := leaf a) in *. set (ub := leaf b) in *. clearbody da db ua ub. clear a b Ha Hb.
  pose proof (proj1 (strip_none _ _) Hst) as Hst'.
  set (eb1 := ent_put ub KDir (if hpath_eqb da db then ent_del ua ea else eb)).
  set (fs2 := hset (hset fs da (Some (ent_del ua ea))) db (Some eb1)).
  set (F := fun q => match strip_prefix (db ++ [ub]) q with Some r => fs2 ((da ++ [ua]) ++ r)
                     | None => match strip_prefix (da ++ [ua]) q with Some _ => None | None => fs2 q end end).
  (* positions *)
  assert (P1 : forall r, da <> (da ++ [ua]) ++ r).
  { intros r E. apply (f_equal (@length _)) in E. rewrite !app_length in E. cbn in E. lia. }
  assert (P2 : forall r, db <> (db ++ [ub]) ++ r).
  { intros r E. apply (f_equal (@length _)) in E. rewrite !app_length in E. cbn in E. lia. }
  assert (P3 : forall r, db <> (da ++ [ua]) ++ r).
  { intros r E. apply (Hst' (r ++ [ub])). rewrite E at 1. rewrite <- !app_assoc. reflexivity. }
  assert (P4 : forall r, da <> (db ++ [ub]) ++ r).
  { intros r E. destruct Hover as [HO|HO].
    - assert (HX : fs ((db ++ [ub]) ++ r) <> None) by (rewrite <- E; congruence).
      apply (tree_prefix fs (db ++ [ub]) r T) in HX. apply HT in HX. destruct HX as (e & He & Hk). congruence.
    - destruct r as [|c r].
      + rewrite app_nil_r in E. rewrite <- E, Hsa in HO. injection HO as ->. discriminate.
      + assert (HX : fs ((db ++ [ub]) ++ c :: r) <> None) by (rewrite <- E; congruence).
        apply (tree_below fs _ c r T) in HX. destruct HX as (e & He & Hk). rewrite HO in He. injection He as <-. discriminate. }
  assert (Fb : forall r, F ((db ++ [ub]) ++ r) = fs ((da ++ [ua]) ++ r)).
  { intros r. unfold F. rewrite (proj2 (strip_some (db ++ [ub]) _ r) eq_refl). unfold fs2.
    rewrite !hset_ne; [reflexivity|apply P1|apply P3]. }
  assert (Fa : forall r, strip_prefix (db ++ [ub]) ((da ++ [ua]) ++ r) = None -> F ((da ++ [ua]) ++ r) = None).
  { intros r E. unfold F. rewrite E, (proj2 (strip_some (da ++ [ua]) _ r) eq_refl). reflexivity. }
  assert (Fo : forall q, strip_prefix (db ++ [ub]) q = None -> strip_prefix (da ++ [ua]) q = None -> F q = fs2 q).
  { intros q E1 E2. unfold F. rewrite E1, E2. reflexivity. }
  assert (F2 : F db = Some eb1).
  { rewrite Fo; [unfold fs2; rewrite hset_eq; reflexivity| |]; apply strip_none; auto. }
  assert (F1 : da <> db -> F da = Some (ent_del ua ea)).
  { intros N. rewrite Fo; [unfold fs2; rewrite hset_ne, hset_eq by congruence; reflexivity| |]; apply strip_none; auto. }
  assert (Hua : da = db -> ua <> ub) by (intros -> ->; apply Hne; reflexivity).
  assert (HfsA : fs (da ++ [ua]) <> None) by (apply HT; eauto).
  constructor; rewrite ?parent_app, ?leaf_app; auto.
  - intros E. destruct da; discriminate.
  - intros E. destruct db; discriminate.
  - change (tree_ok F). split.
    + rewrite Fo; [|apply strip_none; intros r E; destruct db; discriminate|apply strip_none; intros r E; destruct da; discriminate].
      unfold fs2, hset. destruct (hpath_eqb db []); [discriminate|]. destruct (hpath_eqb da []); [discriminate|exact H0].
    + intros p c. destruct (strip_prefix (db ++ [ub]) (p ++ [c])) as [r|] eqn:Eb.
      * apply strip_some in Eb. destruct r as [|x r _] using rev_ind.
        -- rewrite app_nil_r in Eb. apply snoc_inj in Eb. destruct Eb as (-> & ->). rewrite F2.
           rewrite <- (app_nil_r (db ++ [ub])), Fb, app_nil_r. split; [intros _; exact HfsA|].
           intros _. eexists. split; [reflexivity|]. apply ent_put_eq.
        -- rewrite app_assoc in Eb. apply snoc_inj in Eb. destruct Eb as (-> & ->). rewrite Fb. replace (((db ++ [ub]) ++ r) ++ [x]) with ((db ++ [ub]) ++ (r ++ [x])) by (rewrite !app_assoc; reflexivity). rewrite Fb, (app_assoc _ r [x]). apply HT.
      * assert (Ebp : strip_prefix (db ++ [ub]) p = None).
        { apply strip_none. intros r ->. apply (proj1 (strip_none _ _) Eb (r ++ [c])). rewrite !app_assoc. reflexivity. }
        destruct (strip_prefix (da ++ [ua]) (p ++ [c])) as [r|] eqn:Ea.
        -- apply strip_some in Ea. assert (FN : F (p ++ [c]) = None) by (rewrite Ea in *; apply Fa; exact Eb).
           rewrite FN. split; [|congruence]. intros (e & He & Hk). exfalso. destruct r as [|x r _] using rev_ind.
           ++ rewrite app_nil_r in Ea. apply snoc_inj in Ea. destruct Ea as (-> & ->). destruct (hpath_dec da db) as [E|N].
              ** subst db. rewrite F2 in He. injection He as <-. unfold eb1 in Hk. rewrite hpath_eqb_refl in Hk.
                 rewrite ent_put_ne, ent_del_eq in Hk by (intros HX; apply Hua; [reflexivity|congruence]). discriminate.
              ** rewrite F1 in He by exact N. injection He as <-. rewrite ent_del_eq in Hk. discriminate.
           ++ rewrite app_assoc in Ea. apply snoc_inj in Ea. destruct Ea as (-> & ->). rewrite Fa in He by exact Ebp. discriminate.
        -- assert (Eap : strip_prefix (da ++ [ua]) p = None).
           { apply strip_none. intros r ->. apply (proj1 (strip_none _ _) Ea (r ++ [c])). rewrite !app_assoc. reflexivity. }
           rewrite !Fo by assumption.
           assert (E : fs2 (p ++ [c]) <> None <-> fs (p ++ [c]) <> None).
           { unfold fs2. destruct (hpath_dec db (p ++ [c])) as [<-|N1]; [rewrite hset_eq; split; [congruence|discriminate]|].
             rewrite hset_ne by exact N1. destruct (hpath_dec da (p ++ [c])) as [<-|N2]; [rewrite hset_eq; split; [congruence|discriminate]|].
             rewrite hset_ne by exact N2. reflexivity. }
           rewrite E, <- HT.
           assert (Cb : p = db -> c <> ub).
           { intros -> ->. apply (proj1 (strip_none _ _) Eb []). rewrite app_nil_r. reflexivity. }
           assert (Ca : p = da -> c <> ua).
           { intros -> ->. apply (proj1 (strip_none _ _) Ea []). rewrite app_nil_r. reflexivity. }
           unfold fs2. destruct (hpath_dec db p) as [<-|N1].
           ++ rewrite hset_eq. unfold eb1. destruct (hpath_eqb da db) eqn:Ed.
              ** apply hpath_eqb_eq in Ed. subst db. rewrite Hsa. specialize (Ca eq_refl). specialize (Cb eq_refl).
                 split; intros (e & [= <-] & Hk); (eexists; split; [reflexivity|]).
                 --- rewrite ent_put_ne, ent_del_ne in Hk by congruence. exact Hk.
                 --- rewrite ent_put_ne, ent_del_ne by congruence. exact Hk.
              ** rewrite Hsb. specialize (Cb eq_refl).
                 split; intros (e & [= <-] & Hk); (eexists; split; [reflexivity|]).
                 --- rewrite ent_put_ne in Hk by congruence. exact Hk.
                 --- rewrite ent_put_ne by congruence. exact Hk.
           ++ rewrite hset_ne by exact N1. destruct (hpath_dec da p) as [<-|N2].
              ** rewrite hset_eq, Hsa. specialize (Ca eq_refl).
                 split; intros (e & [= <-] & Hk); (eexists; split; [reflexivity|]).
                 --- rewrite ent_del_ne in Hk by congruence. exact Hk.
                 --- rewrite ent_del_ne by congruence. exact Hk.
              ** rewrite hset_ne by exact N2. reflexivity.
  - intros q es Hq N1 N2. change (F q = Some es) in Hq. unfold F in Hq.
    destruct (strip_prefix (db ++ [ub]) q) as [r|] eqn:E1.
    + exists ((da ++ [ua]) ++ r). apply strip_some in E1. subst q. rewrite <- Fb. unfold F.
      rewrite (proj2 (strip_some (db ++ [ub]) _ r) eq_refl). exact Hq.
    + destruct (strip_prefix (da ++ [ua]) q); [discriminate|]. unfold fs2 in Hq. rewrite !hset_ne in Hq by congruence. eauto.
Qed.

Lemma file_moved a b fs ea eb k : tree_ok fs -> a <> b -> a <> [] -> b <> [] ->
  fs (parent a) = Some ea -> ent (leaf a) ea = Some k -> fs (parent b) = Some eb ->
  k <> KDir -> ent (leaf b) eb <> Some KDir ->
  renamed a b fs
    (hset (hset fs (parent a) (Some (ent_del (leaf a) ea))) (parent b)
       (Some (ent_put (leaf b) k (if hpath_eqb (parent a) (parent b) then ent_del (leaf a) ea else eb)))) ea eb k.
Proof.
  intros T Hne Ha Hb Hsa Hka Hsb Hk Hd.
  assert (T1 : tree_ok (hset fs (parent a) (Some (ent_del (leaf a) ea)))).
  { eapply tree_hset; [exact T|exact Hsa|]. apply same_del. congruence. }
  constructor; auto.
  - destruct (hpath_eqb (parent a) (parent b)) eqn:E.
    + apply hpath_eqb_eq in E. eapply tree_hset; [exact T1|rewrite <- E, hset_eq; reflexivity|].
      assert (N : leaf a <> leaf b). { intros X. apply Hne. rewrite (parent_leaf a Ha), (parent_leaf b Hb). congruence. }
      apply same_put; [|exact Hk]. rewrite ent_del_ne by exact N. rewrite E, Hsb in Hsa. injection Hsa as ->. exact Hd.
    + apply hpath_eqb_neq in E. eapply tree_hset; [exact T1|rewrite hset_ne by exact E; exact Hsb|]. apply same_put; assumption.
  - rewrite hset_eq. reflexivity.
  - intros N. rewrite hset_ne, hset_eq by congruence. reflexivity.
  - intros q es Hq N1 N2. rewrite !hset_ne in Hq by congruence. eauto.
Qed.

Lemma h_rename_spec bad a b fs fs' r : tree_ok fs -> h_rename bad a b fs = (fs', r) ->
  (fs' = fs /\ exists e, r = Err e) \/
  (fs' = fs /\ r = Ok tt /\ a <> [] /\ b <> [] /\ exists ea eb k, fs (parent a) = Some ea /\ ent (leaf a) ea = Some k /\ fs (parent b) = Some eb /\
     (a = b \/ exists i, k = KFile i /\ ent (leaf b) eb = Some (KFile i))) \/
  (r = Ok tt /\ exists ea eb k, renamed a b fs fs' ea eb k).
Proof.
  intros T. unfold h_rename. destruct bad as [e|]; [intros [= <- <-]; eauto|].
  destruct a as [|xa a']; [intros [= <- <-]; eauto|]. destruct b as [|xb b']; [intros [= <- <-]; eauto|].
  set (a := xa :: a'). set (b := xb :: b'). assert (Ha : a <> []) by discriminate. assert (Hb : b <> []) by discriminate. clearbody a b. clear xa a' xb b'.
  destruct (fs (parent a)) as [ea|] eqn:Ea; [|intros [= <- <-]; eauto].
  destruct (fs (parent b)) as [eb|] eqn:Eb; [|intros [= <- <-]; eauto].
  destruct (ent (leaf a) ea) as [k|] eqn:Ek; [|intros [= <- <-]; eauto].
  destruct (hpath_eqb a b) eqn:Eab.
  { apply hpath_eqb_eq in Eab. intros [= <- <-]. right. left. repeat (split; [auto|]). exists ea, eb, k. auto. }
  apply hpath_eqb_neq in Eab.
  assert (Hgo : hset fs (parent a) (Some (ent_del (leaf a) ea)) (parent b) =
                Some (if hpath_eqb (parent a) (parent b) then ent_del (leaf a) ea else eb)).
  { destruct (hpath_eqb (parent a) (parent b)) eqn:E.
    - apply hpath_eqb_eq in E. rewrite E, hset_eq. reflexivity.
    - apply hpath_eqb_neq in E. rewrite hset_ne by exact E. exact Eb. }
  cbv zeta. rewrite Hgo.
  assert (Hfile : k <> KDir -> ent (leaf b) eb <> Some KDir ->
    (hset (hset fs (parent a) (Some (ent_del (leaf a) ea))) (parent b)
       (Some (ent_put (leaf b) k (if hpath_eqb (parent a) (parent b) then ent_del (leaf a) ea else eb))), Ok tt) = (fs', r) ->
    r = Ok tt /\ exists ea eb k, renamed a b fs fs' ea eb k).
  { intros Hk Hd E. injection E as <- <-. split; [reflexivity|]. exists ea, eb, k.
    apply file_moved; auto. }
  destruct k as [i| |m].
  - destruct (ent (leaf b) eb) as [[j| |m']|] eqn:Ed.
    + destruct (Nat.eqb_spec i j) as [<-|N].
      * intros [= <- <-]. right. left. repeat (split; [auto|]). exists ea, eb, (KFile i). repeat (split; [auto|]). right. eauto.
      * intros E. right. right. apply Hfile; [discriminate|discriminate|exact E].
    + intros [= <- <-]; eauto.
    + intros E. right. right. apply Hfile; [discriminate|discriminate|exact E].
    + intros E. right. right. apply Hfile; [discriminate|discriminate|exact E].
  - assert (Hdir : strip_prefix a b = None -> (ent (leaf b) eb = None \/ fs b = Some []) ->
      (h_move a b (hset (hset fs (parent a) (Some (ent_del (leaf a) ea))) (parent b)
       (Some (ent_put (leaf b) KDir (if hpath_eqb (parent a) (parent b) then ent_del (leaf a) ea else eb)))), Ok tt) = (fs', r) ->
      r = Ok tt /\ exists ea eb k, renamed a b fs fs' ea eb k).
    { intros Hs Ho [= <- <-]. split; [reflexivity|]. exists ea, eb, KDir. apply move_tree; auto. }
    destruct (strip_prefix a b) eqn:Es; [intros [= <- <-]; eauto|].
    destruct (ent (leaf b) eb) as [[j| |m']|] eqn:Ed; [intros [= <- <-]; eauto| |intros [= <- <-]; eauto|].
    + destruct (fs b) as [[|x l]|] eqn:Efb; [|intros [= <- <-]; eauto|intros [= <- <-]; eauto].
      intros E. right. right. apply Hdir; auto.
    + intros E. right. right. apply Hdir; auto.
  - destruct (ent (leaf b) eb) as [[j| |m']|] eqn:Ed.
    + intros E. right. right. apply Hfile; [discriminate|discriminate|exact E].
    + intros [= <- <-]; eauto.
    + intros E. right. right. apply Hfile; [discriminate|discriminate|exact E].
    + intros E. right. right. apply Hfile; [discriminate|discriminate|exact E].
Qed.
