(** Proofs about a change of the suffix that is stopped part of the way. *)
From Coq Require Import Sorting.Permutation.
From Verif Require Import Base BaseLemmas TextModel CryptoModel NameModel NameSpec NameTop LongNameModel LongNameSpec LongNameProofs LongNameInv LongNameSuffix LongNameTop
  SuffixKillModel SuffixKillSpec.
Local Open Scope list_scope.

Section Kill.
Variable s1 s2 : bytes.
Variable named : bytes -> bytes -> Prop.
Notation long := (long_entry s1).
Notation nh := (new_hash s1 s2).
Notation image := (image s1 s2).
Hypothesis named_long : forall u l, named u l -> (l <> [] <-> long u).
Hypothesis named_TN : forall u l, named u l -> u <> TN.
Hypothesis image_inj : forall u l u' l' x, named u l -> named u' l' -> image u x -> image u' x -> u = u'.
Hypothesis nh_ne : forall u, long u -> nh u <> u.
Hypothesis nh_TN : forall u l, named u l -> long u -> nh u <> TN.
Variable fs0 : hfs.
Hypothesis inv0 : inv s1 named fs0.
Notation sim := (sim s1 s2 fs0).
Notation progress := (progress s1 s2 fs0).

(** Every table is as it was, or wholly changed. *)
Definition tabs (e : hpath -> bytes -> bytes) (tab : hpath -> option kind) : Prop :=
  forall d es, fs0 d = Some es -> tab d = ent TN es \/
    exists m m', ent TN es = Some (KTable m) /\ tab d = Some (KTable m') /\
      (forall x l, ent x m' = Some l <-> exists h, ent h m = Some l /\ x = nh h) /\
      forall u, ent u (rows es) <> None -> e d u = nh u.

Lemma progress_tabs todo done e tab : (forall d, In d done -> exists es m, fs0 d = Some es /\ ent TN es = Some (KTable m)) ->
  progress todo done e tab -> tabs e tab.
Proof.
  intros HD HP d es Hd. destruct (in_dec hpath_dec d todo) as [Hi|Hi].
  - left. apply (pg_todo _ _ _ _ _ _ _ HP d es Hi Hd).
  - destruct (in_dec hpath_dec d done) as [Hj|Hj].
    + right. destruct (HD d Hj) as (es' & m & Hd' & Hm). assert (es' = es) by congruence. subst es'.
      destruct (pg_done _ _ _ _ _ _ _ HP d es Hj Hd) as ((m' & Ht & _ & HR) & Hu). exists m, m'.
      assert (Hr : rows es = m) by (unfold rows; rewrite Hm; reflexivity). rewrite Hr in *.
      split; [exact Hm|]. split; [exact Ht|]. split; [|exact Hu]. intros x l. rewrite HR.
      split; intros (h & Hh & ->); exists h; (split; [exact Hh|]); [|symmetry]; apply Hu; congruence.
    + left. exact (pg_other _ _ _ _ _ _ _ HP d es Hi Hj Hd).
Qed.

Lemma rows_states_sim tab d es0 hs : forall e fs m, sim e tab fs -> fs0 d = Some es0 -> sg e d = d -> NoDup hs ->
  (forall h, In h hs -> long h /\ ent h es0 <> None /\ e d h = h) ->
  forall fs', In fs' (rows_states s1 s2 d hs m fs) -> exists e', sim e' tab fs' /\ forall d' u, d' <> d -> e' d' u = e d' u.
Proof.
  induction hs as [|h hs IH]; intros e fs m HS Hd Hsd ND Hh fs' Hi; [destruct Hi|]. inversion ND as [|x l Hni ND']. subst.
  destruct (Hh h (or_introl eq_refl)) as (Lh & Hes & He). cbn [rows_states] in Hi. rewrite (proj2 Lh) in Hi.
  assert (NT : h <> TN) by (intros ->; exact (not_long_TN s1 Lh)).
  destruct (named0 s1 named fs0 inv0 d es0 h Hd Hes NT) as (lh & Nh).
  destruct (sim_step s1 s2 named named_long named_TN image_inj nh_ne nh_TN fs0 inv0 e tab fs d es0 h lh HS Hd Hsd Nh Lh Hes He) as (fs1 & Er & HS1).
  rewrite Er in Hi.
  assert (HO : forall d' u, d' <> d -> eupd s1 s2 e d h d' u = e d' u) by (intros d' u N; apply eupd_other; left; exact N).
  destruct Hi as [<-|Hi]; [eauto|].
  destruct (IH (eupd s1 s2 e d h) fs1 (remove_mapping h (update_mapping (nh h) (match ent h m with Some v => v | None => [] end) m))) with (fs' := fs') as (e' & A & B); auto.
  - transitivity (sg e d); [|exact Hsd]. apply sge_ext. intros x u y E. cbn [app]. apply eupd_other. left.
    intros ->. apply (f_equal (@length _)) in E. rewrite app_length in E. cbn in E. lia.
  - intros h' Hj. destruct (Hh h' (or_intror Hj)) as (X & Y & Z). split; [exact X|]. split; [exact Y|].
    rewrite eupd_other; [exact Z|]. right. intros ->. contradiction.
  - exists e'. split; [exact A|]. intros d' u N. rewrite (B d' u N). apply HO. exact N.
Qed.

Lemma dirs_states_sim todo : forall done e tab fs, sim e tab fs -> progress todo done e tab -> NoDup (todo ++ done) ->
  (forall d, In d (todo ++ done) -> exists es m, fs0 d = Some es /\ ent TN es = Some (KTable m)) ->
  forall fs', In fs' (dirs_states s1 s2 todo fs) -> exists e' tab', sim e' tab' fs' /\ tabs e' tab'.
Proof.
  induction todo as [|d todo IH]; intros done e tab fs HS HP ND Ht fs' Hi; [destruct Hi|].
  assert (HTb : tabs e tab).
  { eapply progress_tabs; [|exact HP]. intros d' Hj. apply Ht. apply in_or_app. right. exact Hj. }
  cbn [app] in ND. inversion ND as [|x l Hni ND']. subst. destruct (Ht d (or_introl eq_refl)) as (es & m & Hd & Hm).
  assert (Ni : ~ In d todo /\ ~ In d done) by (split; intros Hj; apply Hni; apply in_or_app; auto).
  cbn [dirs_states] in Hi. unfold open_table in Hi. destruct (fs d) as [es1|] eqn:Efd.
  - assert (Hsd : sg e d = d) by (eapply (unmoved s1 s2 named named_long named_TN image_inj nh_ne nh_TN fs0 inv0); eauto; congruence).
    destruct (sm_fwd _ _ _ _ _ _ HS d es Hd) as (es2 & Hes2 & _ & _ & _ & F3). rewrite Hsd in Hes2. assert (es2 = es1) by congruence. subst es2.
    destruct (pg_todo _ _ _ _ _ _ _ HP d es (or_introl eq_refl) Hd) as (Htab & Hid).
    rewrite F3, Htab, Hm in Hi.
    destruct (change_dir_ok s1 s2 named named_long named_TN image_inj nh_ne nh_TN fs0 inv0 None d todo done e tab fs HS HP (proj1 Ni) (proj2 Ni)) as (fs2 & e2 & tab2 & Ec2 & HS2 & HP2 & _);
      [exists es, m; auto|exact Hsd|].
    rewrite Ec2 in Hi. apply in_app_or in Hi. destruct Hi as [[<-|Hi]|Hi]; [eauto| |].
    + pose proof (proj2 inv0 _ _ Hd) as Hok. assert (Hrows : rows es = m) by (unfold rows; rewrite Hm; reflexivity).
      destruct (rows_states_sim tab d es (map fst m) e fs m HS Hd Hsd) with (fs' := fs') as (e' & A & B); auto.
      * rewrite <- Hrows. apply Hok.
      * intros h Hj. rewrite <- Hrows in Hj. apply ent_some in Hj. destruct Hj as (l & Hl).
        destruct (do_exact _ _ _ Hok h ltac:(congruence)) as (X & Y). split; [exact X|]. split; [exact Y|]. apply Hid.
      * exists e', tab. split; [exact A|]. intros d' es' Hd'. destruct (hpath_dec d' d) as [->|N].
        -- left. assert (es' = es) by congruence. subst es'. exact Htab.
        -- destruct (HTb d' es' Hd') as [E|(m0 & m' & X1 & X2 & X3 & X4)]; [left; exact E|right]. exists m0, m'.
           split; [exact X1|]. split; [exact X2|]. split; [exact X3|]. intros u Hu. rewrite (B d' u N). apply X4. exact Hu.
    + assert (HTd : forall d', In d' (todo ++ d :: done) -> exists es m, fs0 d' = Some es /\ ent TN es = Some (KTable m)).
      { intros d' Hj. apply Ht. apply in_app_or in Hj. destruct Hj as [Hj|[<-|Hj]]; [right; apply in_or_app; left; exact Hj|left; reflexivity|right; apply in_or_app; right; exact Hj]. }
      destruct Hi as [<-|Hi].
      * exists e2, tab2. split; [exact HS2|]. eapply progress_tabs; [|exact HP2]. intros d' Hj. apply HTd. apply in_or_app. right. exact Hj.
      * eapply (IH (d :: done)); [exact HS2|exact HP2| |exact HTd|exact Hi].
        apply (Permutation_NoDup (Permutation_middle todo done d)). constructor; assumption.
  - unfold change_dir, open_table in Hi. rewrite Efd in Hi. destruct Hi as [<-|[<-|[]]]; eauto.
Qed.

Lemma states_sim dirs fs' : tables fs0 dirs -> In fs' (fs0 :: dirs_states s1 s2 dirs fs0) -> exists e tab, sim e tab fs' /\ tabs e tab.
Proof.
  intros HT Hi. destruct (start s1 s2 named fs0 inv0 dirs HT) as (HS & HP). destruct HT as (ND & HT).
  destruct Hi as [<-|Hi].
  - exists (fun _ u => u), (fun d => lookup fs0 d TN). split; [exact HS|]. eapply progress_tabs; [|exact HP]. intros d [].
  - eapply (dirs_states_sim dirs []); [exact HS|exact HP|rewrite app_nil_r; exact ND| |exact Hi].
    intros d Hj. rewrite app_nil_r in Hj. apply HT. exact Hj.
Qed.

Lemma image_either u x : image u x -> either s1 s2 u x.
Proof. intros H. exact H. Qed.
Lemma sge_either e pre d : images s1 s2 e -> Forall2 (either s1 s2) d (sge e pre d).
Proof. intros Im. revert pre. induction d as [|u d IH]; intros pre; cbn [sge]; constructor; [apply image_either, Im|apply IH]. Qed.

Lemma sim_renamed_only e tab fs' : sim e tab fs' -> tabs e tab -> renamed_only s1 s2 fs0 fs' (sg e).
Proof.
  intros HS HT. pose proof (sm_im _ _ _ _ _ _ HS) as Im. constructor.
  - intros p _. apply sge_either. exact Im.
  - exact (sm_bwd _ _ _ _ _ _ HS).
  - intros p p' H1 H2 E. exact (sg_inj s1 s2 named named_long named_TN image_inj nh_ne nh_TN fs0 inv0 e e p p' Im Im H1 H2 E).
  - intros p es Hp. destruct (sm_fwd _ _ _ _ _ _ HS p es Hp) as (es' & Hes' & _ & F1 & F2 & F3). exists es'. split; [exact Hes'|]. split; [|split].
    + intros u k Nu Hu. exists (e p u). split; [apply image_either, Im|]. split; [|apply sg_snoc]. rewrite F1 by (auto; congruence). exact Hu.
    + intros u' k Nu Hu. destruct (F2 u' Nu ltac:(congruence)) as (u & N & Hue & ->). exists u. split; [apply image_either, Im|].
      rewrite <- (F1 u N Hue). exact Hu.
    + rewrite F3. destruct (HT p es Hp) as [E|(m & m' & X1 & X2 & X3 & X4)]; [left; exact E|right]. exists m, m'.
      split; [exact X1|]. split; [exact X2|]. split; [exact X3|]. intros u k Lu Hu.
      assert (N : u <> TN) by (intros ->; exact (not_long_TN s1 Lu)).
      change (ent (nh u) es' = Some k). rewrite <- (X4 u).
      * rewrite F1 by (auto; congruence). exact Hu.
      * destruct (do_long _ _ _ (proj2 inv0 _ _ Hp) u ltac:(congruence) Lu) as (l & _ & Hl). congruence.
Qed.

(** Names that are stored as they are stay where they are. *)
Lemma sim_short e tab fs' d u : sim e tab fs' -> Forall (fun c => ~ long c /\ exists l, named c l) d -> ~ long u -> (exists l, named u l) ->
  lookup fs' d u = lookup fs0 d u.
Proof.
  intros HS HD Hu (lu & Nu). pose proof (sm_im _ _ _ _ _ _ HS) as Im.
  assert (Hsh : forall d c, ~ long c -> e d c = c) by (intros d' c Hc; destruct (Im d' c) as [E|(L & _)]; [exact E|contradiction]).
  assert (Hsg : sg e d = d).
  { transitivity (sg (fun _ u => u) d); [|apply sg_id]. apply sge_ext. intros x c y ->. apply Hsh. apply Forall_app in HD.
    destruct HD as (_ & HD). inversion HD as [|? ? (A & _) _]. exact A. }
  unfold lookup. destruct (fs0 d) as [es0|] eqn:Ed.
  - destruct (sm_fwd _ _ _ _ _ _ HS d es0 Ed) as (es & Hes & _ & F1 & F2 & _). rewrite Hsg in Hes. rewrite Hes.
    destruct (ent u es0) as [k|] eqn:Ek.
    + rewrite <- (Hsh d u Hu). rewrite F1; [exact Ek|exact (named_TN _ _ Nu)|congruence].
    + destruct (ent u es) as [k|] eqn:Ek2; [|reflexivity]. exfalso.
      destruct (F2 u (named_TN _ _ Nu) ltac:(congruence)) as (v & Nv & Hv & Ev).
      destruct (named0 s1 named fs0 inv0 d es0 v Ed Hv Nv) as (lv & Hlv).
      assert (v = u). { apply (image_inj v lv u lu u Hlv Nu); [rewrite Ev; apply Im|left; reflexivity]. } congruence.
  - destruct (fs' d) as [es|] eqn:E; [|reflexivity]. exfalso.
    destruct (sm_bwd _ _ _ _ _ _ HS d ltac:(congruence)) as (d' & Hd' & Em). assert (d = d'); [|congruence].
    assert (Hn' : Forall (fun c => exists l, named c l) d').
    { apply Forall_forall. intros c Hi. apply in_split in Hi. destruct Hi as (x & y & ->). apply (comp_named s1 named fs0 inv0 x c y). exact Hd'. }
    clear - image_inj Em Hn' HD Im. unfold sg in Em. revert d' Em Hn'. generalize (@nil bytes) as pre.
    induction d as [|c d IH]; intros pre [|c' d'] Em Hn'; try discriminate; [reflexivity|].
    cbn [sge] in Em. injection Em as E1 E2. inversion HD as [|? ? (_ & l1 & H1) HD']. inversion Hn' as [|? ? (l2 & H2) Hn2].
    assert (Hc : c' = c) by (apply (image_inj c' l2 c l1 c H2 H1); [rewrite E1; apply Im|left; reflexivity]).
    f_equal; [symmetry; exact Hc|]. eapply IH; eauto.
Qed.

(** Under the old names and under the new ones there is nothing but what was there. *)
Lemma sim_right e tab fs' D D0 x u : sim e tab fs' -> Forall2 (fun c0 c => image c0 c /\ exists l, named c0 l) D0 D ->
  image u x -> (exists l, named u l) -> x <> TN -> lookup fs' D x = None \/ lookup fs' D x = lookup fs0 D0 u.
Proof.
  intros HS HD Iu (lu & Nu) Nx. pose proof (sm_im _ _ _ _ _ _ HS) as Im. unfold lookup.
  destruct (fs' D) as [es|] eqn:E; [|left; reflexivity]. destruct (ent x es) as [k|] eqn:Ek; [right|left; reflexivity].
  destruct (sm_bwd _ _ _ _ _ _ HS D ltac:(congruence)) as (d' & Hd' & Em).
  assert (Hn' : Forall (fun c => exists l, named c l) d').
  { apply Forall_forall. intros c Hi. apply in_split in Hi. destruct Hi as (a & b & ->). apply (comp_named s1 named fs0 inv0 a c b). exact Hd'. }
  assert (d' = D0).
  { clear - image_inj Em Hn' HD Im. unfold sg in Em. revert d' Em Hn'. generalize (@nil bytes) as pre.
    induction HD as [|c0 c D0 D (I0 & l0 & N0) HD IH]; intros pre [|c' d'] Em Hn'; try discriminate; [reflexivity|].
    cbn [sge] in Em. injection Em as E1 E2. inversion Hn' as [|? ? (l2 & H2) Hn2].
    assert (Hc : c' = c0) by (apply (image_inj c' l2 c0 l0 c H2 N0); [rewrite E1; apply Im|exact I0]).
    f_equal; [exact Hc|]. eapply IH; eauto. }
  subst d'. destruct (fs0 D0) as [es0|] eqn:Ed; [|congruence].
  destruct (sm_fwd _ _ _ _ _ _ HS D0 es0 Ed) as (es1 & Hes & _ & F1 & F2 & _). rewrite <- Em in Hes.
  assert (es1 = es) by congruence. subst es1.
  destruct (F2 x Nx ltac:(congruence)) as (v & Nv & Hv & Ev).
  destruct (named0 s1 named fs0 inv0 D0 es0 v Ed Hv Nv) as (lv & Hlv).
  assert (v = u) by (apply (image_inj v lv u lu x Hlv Nu); [rewrite Ev; apply Im|exact Iu]). subst v.
  rewrite <- (F1 u Nv Hv), <- Ev. symmetry. exact Ek.
Qed.
End Kill.

Lemma app_last_ne {A} (a b : list A) d : b <> [] -> last (a ++ b) d = last b d.
Proof.
  intros H. induction a as [|x a IH]; [reflexivity|]. cbn [app last]. rewrite IH. destruct (a ++ b) eqn:E; [|reflexivity].
  apply app_eq_nil in E. destruct E. contradiction.
Qed.

(** The states end in the one the change leaves. *)
Lemma states_last s1 s2 dirs : forall fs, last (dirs_states s1 s2 dirs fs) fs = fst (change_dirs s1 s2 None dirs fs).
Proof.
  induction dirs as [|d ds IH]; intros fs; [reflexivity|]. cbn [dirs_states change_dirs].
  destruct (change_dir s1 s2 None d fs) as [fs2 [[]|e]] eqn:E.
  - rewrite <- IH. rewrite app_last_ne by discriminate. destruct (dirs_states s1 s2 ds fs2) as [|a l] eqn:El; [reflexivity|].
    change (last (a :: l) fs = last (a :: l) fs2). clear. revert a. induction l as [|b l IHl]; intros a; [reflexivity|]. exact (IHl b).
  - rewrite app_last_ne by discriminate. reflexivity.
Qed.
