(** No deadlock. *)
From Coq Require Import Lia Sorting.Permutation.
From Verif Require Import Base FullFsModel TableModel LockModel.
Local Open Scope nat_scope.
Local Open Scope list_scope.

Definition rank (l : lk) : nat :=
  match l with KDir _ => 0 | KTable _ => 1 | KHandle _ => 2 | KInode _ => 3 | KFile _ => 4 | KShard _ => 5 end.
Definition above (h : list lk) (l : lk) : Prop := forall x, In x h -> rank x < rank l.

(** ** What the statements guarantee *)
Fixpoint safe (h : list lk) (s : stmt) : Prop :=
  match s with
  | SSkip | SThrow => True
  | STouch l => In l h
  | SSeq a b => safe h a /\ safe h b
  | SGuard l s => above h l /\ safe (l :: h) s
  | SDouble a b s => above h a /\ above h b /\ (a = b -> safe (a :: h) s) /\ safe (b :: a :: h) s
  | SFinally s c => safe h s /\ safe h c
  | SOr a b => safe h a /\ safe h b
  | SAny f => forall id, safe h (f id)
  | SAnyN f => forall n, safe h (f n)
  | SLoop s => safe h s
  end.

Fixpoint good (h : list lk) (p : list instr) : Prop :=
  match p with
  | [] => h = []
  | Lock l :: p => above h l /\ good (l :: h) p
  | LockBoth a b :: p => a <> b /\ above h a /\ above h b /\ good (b :: a :: h) p
  | Unlock l :: p => In l h /\ good (drop_lk l h) p
  | Touch l :: p => In l h /\ good h p
  end.

Lemma drop_same l h : drop_lk l (l :: h) = h.
Proof. cbn. destruct (lk_eqb_dec l l); [reflexivity|contradiction]. Qed.
Lemma drop_perm l h k : Permutation h k -> Permutation (drop_lk l h) (drop_lk l k).
Proof.
  induction 1 as [|x h k P IH|x y h|h k j P1 IH1 P2 IH2]; cbn.
  - constructor.
  - destruct (lk_eqb_dec x l); [exact P|now constructor].
  - destruct (lk_eqb_dec x l) as [->|], (lk_eqb_dec y l) as [->|]; try reflexivity. constructor.
  - now transitivity (drop_lk l k).
Qed.
Lemma above_perm h k l : Permutation h k -> above h l -> above k l.
Proof. intros P H x Hx. apply H. eapply Permutation_in; [symmetry; exact P|exact Hx]. Qed.
Lemma good_perm p : forall h k, Permutation h k -> good h p -> good k p.
Proof.
  induction p as [|[l|a b|l|l] p IH]; intros h k P; cbn [good].
  - intros ->. now apply Permutation_nil.
  - intros [H1 H2]. split; [eapply above_perm; eassumption|]. eapply IH; [|exact H2]. now constructor.
  - intros (H1 & H2 & H3 & H4). repeat split; auto; try (eapply above_perm; eassumption). eapply IH; [|exact H4]. now do 2 constructor.
  - intros [H1 H2]. split; [eapply Permutation_in; eassumption|]. eapply IH; [apply drop_perm; exact P|exact H2].
  - intros [H1 H2]. split; [eapply Permutation_in; eassumption|]. eapply IH; eassumption.
Qed.
Lemma safe_good s m t : tr s m t -> forall h p, safe h s -> good h p -> good h (t ++ p).
Proof.
  induction 1 as [|m|l m|a b m t u Ha IHa Hb IHb|a b t Ha IHa|l s m t Hs IHs|a s m t Hs IHs|a b s m t N Hs IHs|s c m t u Hs IHs Hc IHc|a b m t Ha IHa|a b m t Hb IHb|f id m t Hf IHf|f n m t Hf IHf|s|s m t u Hs IHs Hl IHl|s t Hs IHs];
    intros h p Hsafe Hp; cbn [safe] in Hsafe; rewrite <- ?app_assoc; cbn [app].
  - exact Hp.
  - exact Hp.
  - cbn. auto.
  - destruct Hsafe. auto.
  - destruct Hsafe. auto.
  - destruct Hsafe as [H1 H2]. rewrite <- app_assoc. cbn [good app]. split; [exact H1|]. apply IHs; [exact H2|]. cbn [app good]. rewrite drop_same. split; [now left|exact Hp].
  - destruct Hsafe as (H1 & _ & H2 & _). rewrite <- app_assoc. cbn [good app]. split; [exact H1|]. apply IHs; [now apply H2|]. cbn [app good]. rewrite drop_same. split; [now left|exact Hp].
  - destruct Hsafe as (H1 & H2 & _ & H3). rewrite <- app_assoc. cbn [good app]. repeat split; auto. apply IHs; [exact H3|]. cbn [app good]. rewrite drop_same. split; [now left|]. rewrite drop_same. split; [now left|exact Hp].
  - destruct Hsafe. auto.
  - destruct Hsafe. auto.
  - destruct Hsafe. auto.
  - auto.
  - auto.
  - exact Hp.
  - apply IHs; [exact Hsafe|]. apply IHl; [exact Hsafe|exact Hp].
  - auto.
Qed.
Lemma runs_good l t : (forall s, In s l -> safe [] s) -> runs l t -> good [] t.
Proof.
  intros Hs H. induction H as [|s l m t u Ht Hr IH]; [reflexivity|]. eapply safe_good; [exact Ht|apply Hs; now left|]. apply IH. intros x Hx. apply Hs. now right.
Qed.

(** ** The operations *)
Lemma safe_open h id : above h (KShard (shard_of id)) -> safe h (open_as id).
Proof. intros H. unfold open_as. destruct (bytes_eqb id root_id); cbn; auto. Qed.
Lemma above_nil l : above [] l.
Proof. intros x []. Qed.
Lemma safe_closer id : safe [] (closer id).
Proof. unfold closer. destruct (bytes_eqb id root_id); cbn; repeat split; auto using above_nil. Qed.
Lemma safe_locked id : safe [] (locked id).
Proof. cbn. split; [apply above_nil|auto]. Qed.
Lemma safe_open0 id : safe [] (open_as id).
Proof. apply safe_open, above_nil. Qed.
Global Hint Resolve above_nil safe_closer safe_locked safe_open0 : locks.
Opaque open_as closer locked.
Lemma safe_walk : safe [] (SFinally walk drop_any).
Proof.
  cbn [safe walk walk_step drop_any]. split; [|auto with locks]. intros p c.
  split; [split; auto with locks|]. split; [apply safe_locked|]. split; [exact I|]. split; [auto with locks|]. split; [split; [exact I|apply safe_locked]|split; auto with locks].
Qed.
Lemma safe_base k : (forall d, safe [] (k d)) -> safe [] (open_base k).
Proof.
  intros H. unfold open_base. cbn [safe]. split; [auto with locks|]. split; [exact safe_walk|]. split; [exact I|]. intros d. split; [apply H|auto with locks].
Qed.
Lemma safe_with id s : safe [] s -> safe [] (with_file id s).
Proof. intros H. cbn [with_file safe]. auto with locks. Qed.
Lemma safe_all k : (forall d, safe [] (k d)) -> safe [] (open_all k).
Proof.
  intros H. unfold open_all. cbn [safe]. split; [apply safe_with; auto|]. apply safe_base. intros d. cbn [safe]. split; [auto with locks|]. split; [exact I|].
  intros id. apply safe_with. cbn [safe]. split; [apply H|]. split; [auto with locks|]. split; [exact safe_walk|]. intros id'. split; [apply H|auto with locks].
Qed.
Lemma safe_create k : (forall d, safe [] (k d)) -> safe [] (create k).
Proof.
  intros H. unfold create. apply safe_base. intros d. cbn [safe create_as]. intros id. split; [split; [apply above_nil|exact I]|].
  split; [|auto with locks]. split; [apply safe_locked|]. split; [apply safe_locked|]. split; [split; [apply safe_locked|exact I]|apply H].
Qed.
Lemma safe_double a b : safe [] (SDouble (KFile a) (KFile b) (STouch (KFile a) ;; STouch (KFile b))).
Proof. cbn. repeat split; auto with locks; match goal with E : _ = _ |- _ => injection E as -> | _ => idtac end; auto. Qed.
Lemma full_safe o : safe [] (full_stmt o).
Proof.
  destruct o; cbn [full_stmt].
  - apply safe_all; auto with locks.
  - intros id. apply safe_locked.
  - apply safe_all. intros d. split; [exact I|apply safe_locked].
  - intros id. apply safe_closer.
  - apply safe_create. intros d. exact I.
  - apply safe_create. auto with locks.
  - apply safe_base. intros d. split; [apply safe_locked|]. split; [exact I|]. intros id. apply safe_with. auto with locks.
  - apply safe_all. intros d. apply safe_base. intros e. apply safe_double.
  - apply safe_base. intros d. apply safe_base. intros e. split; [apply safe_double|]. split; [exact I|]. intros id. apply safe_with. auto with locks.
  - split; [apply safe_open0|]. apply safe_walk.
Qed.
Transparent open_as closer locked.
Lemma lite_safe o : safe [] (lite_stmt o).
Proof.
  assert (A : forall h l, (forall x, In x h -> rank x < rank l) -> above h l) by auto.
  destruct o; cbn; unfold above; intros; repeat split; intros; cbn in *; repeat match goal with H : _ \/ _ |- _ => destruct H | H : False |- _ => destruct H end; subst; cbn; auto; lia.
Qed.

(** ** Progress *)
Definition th_ok (th : thread) : Prop :=
  match mid th with
  | None => good (has th) (todo th)
  | Some x => exists a b p h, todo th = LockBoth a b :: p /\ (x = a \/ x = b) /\ has th = x :: h /\ good h (todo th)
  end.
Definition excl (ts : threads) : Prop :=
  forall i j a b l, i <> j -> nth_error ts i = Some a -> nth_error ts j = Some b -> In l (has a) -> ~ In l (has b).
Record ok (ts : threads) : Prop := mkOk { k_th : forall th, In th ts -> th_ok th; k_ex : excl ts }.

Lemma put_same ts i th th' : nth_error ts i = Some th -> nth_error (put ts i th') i = Some th'.
Proof. revert i. induction ts as [|x ts IH]; intros [|i]; cbn; try discriminate; auto. Qed.
Lemma put_other ts i th' j : i <> j -> nth_error (put ts i th') j = nth_error ts j.
Proof. revert i j. induction ts as [|x ts IH]; intros [|i] [|j]; cbn; auto; try congruence. Qed.
Lemma put_in ts i th th' x : nth_error ts i = Some th -> In x (put ts i th') -> x = th' \/ In x ts.
Proof.
  intros H Hx. apply In_nth_error in Hx. destruct Hx as (j & Hj). destruct (Nat.eq_dec i j) as [<-|N].
  - rewrite (put_same ts i th th' H) in Hj. left. congruence.
  - rewrite put_other in Hj by exact N. right. eapply nth_error_In. exact Hj.
Qed.
Lemma drop_in l h x : In x (drop_lk l h) -> In x h.
Proof. induction h as [|y h IH]; [easy|]. cbn. destruct (lk_eqb_dec y l); [now right|]. intros [->|H]; [now left|right; auto]. Qed.

(** A step only adds locks that were free. *)
Lemma step_has ts th th' : tstep1 ts th th' -> forall l, In l (has th') -> In l (has th) \/ free ts l.
Proof.
  destruct 1; cbn [has]; intros k Hk.
  - destruct Hk as [<-|Hk]; auto.
  - left. eapply drop_in. exact Hk.
  - auto.
  - destruct Hk as [<-|Hk]; auto.
  - destruct Hk as [<-|Hk]; auto.
  - left. eapply drop_in. exact Hk.
Qed.
Lemma step_th_ok ts th th' : th_ok th -> tstep1 ts th th' -> th_ok th'.
Proof.
  intros H S. destruct S; unfold th_ok in *; cbn [mid todo has good] in *.
  - apply H.
  - apply H.
  - apply H.
  - exists a, b, p, h. auto.
  - destruct H as (a' & b' & p' & h' & E & _ & E2 & G). injection E as <- <- <-. subst h. cbn [good] in G. destruct G as (_ & _ & _ & G). eapply good_perm; [|exact G].
    match goal with H : _ \/ _ |- _ => destruct H as [[-> ->]|[-> ->]] end; [reflexivity|apply perm_swap].
  - destruct H as (a' & b' & p' & h' & E & _ & E2 & G). injection E as <- <- <-. subst h. rewrite drop_same. exact G.
Qed.
Lemma step_ok ts ts' : ok ts -> step1 ts ts' -> ok ts'.
Proof.
  intros [H1 H2] S. destruct S as [ts i th th' Hi S]. split.
  - intros x Hx. destruct (put_in ts i th th' x Hi Hx) as [->|Hx']; [|now apply H1]. eapply step_th_ok; [|exact S]. apply H1. eapply nth_error_In. exact Hi.
  - assert (G : forall j b l, i <> j -> nth_error ts j = Some b -> In l (has th') -> ~ In l (has b)).
    { intros j b l N Hj Hl. destruct (step_has ts th th' S l Hl) as [Hl'|Hf]; [eapply (H2 i j); eauto|]. apply Hf. eapply nth_error_In. exact Hj. }
    intros j k a b l N Ha Hb Hl Hl'. destruct (Nat.eq_dec i j) as [<-|Nj].
    + rewrite (put_same ts i th th' Hi) in Ha. injection Ha as <-. rewrite put_other in Hb by exact N. exact (G k b l N Hb Hl Hl').
    + rewrite put_other in Ha by exact Nj. destruct (Nat.eq_dec i k) as [<-|Nk].
      * rewrite (put_same ts i th th' Hi) in Hb. injection Hb as <-. exact (G j a l Nj Ha Hl' Hl).
      * rewrite put_other in Hb by exact Nk. exact (H2 j k a b l N Ha Hb Hl Hl').
Qed.
Lemma steps_ok ts ts' : ok ts -> steps ts ts' -> ok ts'.
Proof. intros H S. induction S; [exact H|]. apply IHS. eapply step_ok; eauto. Qed.
Lemma steps_trans a b c : steps a b -> steps b c -> steps a c.
Proof. induction 1; [auto|]. intros. econstructor; eauto. Qed.

Definition weight (th : thread) : nat := 2 * length (todo th) + match mid th with Some _ => 1 | None => 0 end.
Definition total (ts : threads) : nat := fold_right (fun th n => weight th + n) 0 ts.
Lemma total_put ts i th th' : nth_error ts i = Some th -> total (put ts i th') + weight th = total ts + weight th'.
Proof. revert i. induction ts as [|x ts IH]; intros [|i]; cbn [nth_error put]; try discriminate; unfold total; cbn [fold_right]; fold total; [intros [= ->]; lia|]. intros H. specialize (IH i H). unfold total in IH. lia. Qed.

Lemma free_dec ts l : {free ts l} + {~ free ts l}.
Proof.
  induction ts as [|x ts IH]; [left; intros th []|]. destruct (in_dec lk_eqb_dec l (has x)) as [H|H].
  - right. intros F. apply (F x); [now left|exact H].
  - destruct IH as [F|F]; [left|right].
    + intros th [<-|Ht]; auto.
    + intros G. apply F. intros th Ht. apply G. now right.
Qed.
Lemma not_free ts l : ~ free ts l -> exists th, In th ts /\ In l (has th).
Proof.
  intros H. destruct (existsb (fun th => if in_dec lk_eqb_dec l (has th) then true else false) ts) eqn:E.
  - apply existsb_exists in E. destruct E as (th & H1 & H2). destruct (in_dec lk_eqb_dec l (has th)); [eauto|discriminate].
  - exfalso. apply H. intros th Ht Hl. assert (existsb (fun th => if in_dec lk_eqb_dec l (has th) then true else false) ts = true); [|congruence].
    apply existsb_exists. exists th. split; [exact Ht|]. now destruct (in_dec lk_eqb_dec l (has th)).
Qed.
Definition finished (ts : threads) : Prop := forall th, In th ts -> todo th = [] /\ has th = [].

(** One step, or the two steps of std::lock. *)
Definition smaller (ts : threads) : Prop := exists ts', steps ts ts' /\ total ts' < total ts.
Lemma one_smaller ts i th th' : nth_error ts i = Some th -> tstep1 ts th th' -> weight th' < weight th -> smaller ts.
Proof.
  intros Hi S W. exists (put ts i th'). split; [econstructor; [econstructor; eauto|constructor]|]. pose proof (total_put ts i th th' Hi). lia.
Qed.
Lemma max_held ts : (forall th, In th ts -> has th = []) \/ exists th l, In th ts /\ In l (has th) /\ forall th' l', In th' ts -> In l' (has th') -> rank l' <= rank l.
Proof.
  assert (L : forall h : list lk, h = [] \/ exists l, In l h /\ forall l', In l' h -> rank l' <= rank l).
  { induction h as [|x h IH]; [now left|]. right. destruct IH as [->|(l & H1 & H2)]; [exists x; split; [now left|]; intros l' [<-|[]]; lia|].
    destruct (Nat.le_gt_cases (rank x) (rank l)); [exists l|exists x]; (split; [now (left + right)|]); intros l' [<-|Hl]; try lia; specialize (H2 l' Hl); lia. }
  induction ts as [|x ts IH]; [left; easy|]. destruct IH as [IH|(th & l & H1 & H2 & H3)].
  - destruct (L (has x)) as [E|(l & H1 & H2)]; [left; intros th [<-|H]; auto|]. right. exists x, l. split; [now left|]. split; [exact H1|].
    intros th' l' [<-|Ht] Hl; [now apply H2|]. rewrite (IH th' Ht) in Hl. destruct Hl.
  - right. destruct (L (has x)) as [E|(l2 & G1 & G2)].
    + exists th, l. split; [now right|]. split; [exact H2|]. intros th' l' [<-|Ht] Hl; [rewrite E in Hl; destruct Hl|eauto].
    + destruct (Nat.le_gt_cases (rank l2) (rank l)).
      * exists th, l. split; [now right|]. split; [exact H2|]. intros th' l' [<-|Ht] Hl; [specialize (G2 l' Hl); lia|eauto].
      * exists x, l2. split; [now left|]. split; [exact G1|]. intros th' l' [<-|Ht] Hl; [now apply G2|specialize (H3 th' l' Ht Hl); lia].
Qed.

Lemma progress ts : ok ts -> finished ts \/ smaller ts.
Proof.
  intros [H1 H2].
  (* someone in the middle of std::lock *)
  destruct (existsb (fun th => match mid th with Some _ => true | None => false end) ts) eqn:Em.
  { right. apply existsb_exists in Em. destruct Em as (th & Ht & Hm). destruct (mid th) as [x|] eqn:Ex; [|discriminate]. pose proof (H1 th Ht) as K. unfold th_ok in K. rewrite Ex in K.
    destruct K as (a & b & p & h & E1 & E2 & E3 & G). apply In_nth_error in Ht. destruct Ht as (i & Hi). destruct th as [td hs md]. cbn in E1, E3, Ex. subst.
    assert (Y : exists y, (x = a /\ y = b) \/ (x = b /\ y = a)) by (destruct E2 as [->| ->]; eauto). destruct Y as (y & Y).
    destruct (free_dec ts y) as [F|F].
    - eapply one_smaller; [exact Hi|eapply S_second; [exact Y|exact F]|]. unfold weight. cbn [todo mid length]. lia.
    - eapply one_smaller; [exact Hi|eapply S_back; [exact Y|exact F]|]. unfold weight. cbn [todo mid length]. lia. }
  assert (Hm : forall th, In th ts -> mid th = None).
  { intros th Ht. destruct (mid th) eqn:E; [|reflexivity]. assert (F : existsb (fun th => match mid th with Some _ => true | None => false end) ts = true); [|congruence].
    apply existsb_exists. exists th. rewrite E. auto. }
  clear Em.
  (* what an unfinished thread wants *)
  assert (Want : forall i th, nth_error ts i = Some th -> todo th <> [] -> smaller ts \/ exists l, ~ free ts l /\ above (has th) l).
  { intros i th Hi Hn. pose proof (nth_error_In _ _ Hi) as Ht. pose proof (H1 th Ht) as K. unfold th_ok in K. rewrite (Hm th Ht) in K. pose proof (Hm th Ht) as M.
    destruct th as [td hs md]. cbn in *. subst md. destruct td as [|[l|a b|l|l] p]; [contradiction| | | |]; cbn [good] in K.
    - destruct (free_dec ts l) as [F|F]; [left|right; exists l; tauto]. eapply one_smaller; [exact Hi|eapply S_lock; exact F|]. unfold weight. cbn [todo mid length]. lia.
    - destruct K as (N & A & B & G). destruct (free_dec ts a) as [F|F]; [|right; eauto]. destruct (free_dec ts b) as [F2|F2]; [|right; eauto].
      left. set (t1 := mkTh (LockBoth a b :: p) (a :: hs) (Some a)). set (t2 := mkTh p (b :: a :: hs) None).
      exists (put (put ts i t1) i t2). split.
      + econstructor; [econstructor; [exact Hi|]; eapply S_first; [now left|exact F]|]. econstructor; [|constructor]. econstructor; [eapply put_same; exact Hi|].
        eapply S_second; [left; split; reflexivity|]. intros th' Ht' Hl. destruct (put_in ts i _ t1 th' Hi Ht') as [->|Ht2]; [|exact (F2 th' Ht2 Hl)].
        cbn in Hl. destruct Hl as [E|Hl]; [congruence|]. exact (F2 _ Ht Hl).
      + pose proof (total_put ts i _ t1 Hi) as P1. pose proof (total_put (put ts i t1) i t1 t2 (put_same ts i _ t1 Hi)) as P2. unfold weight in *. cbn [todo mid length t1 t2] in *. lia.
    - left. eapply one_smaller; [exact Hi|eapply S_unlock|]. unfold weight. cbn [todo mid length]. lia.
    - left. eapply one_smaller; [exact Hi|eapply S_touch|]. unfold weight. cbn [todo mid length]. lia. }
  destruct (max_held ts) as [E|(th & l & Ht & Hl & Hmax)].
  - (* nothing is held *)
    destruct (existsb (fun th => match todo th with [] => false | _ => true end) ts) eqn:Et.
    + right. apply existsb_exists in Et. destruct Et as (th & Ht & Hn). apply In_nth_error in Ht. destruct Ht as (i & Hi).
      destruct (Want i th Hi) as [S|(l & F & _)]; [intros E0; rewrite E0 in Hn; discriminate|exact S|]. exfalso. apply F. intros th' Ht'. rewrite (E th' Ht'). easy.
    + left. intros th Ht. split; [|now apply E]. destruct (todo th) eqn:Eq; [reflexivity|]. assert (F : existsb (fun th => match todo th with [] => false | _ => true end) ts = true); [|congruence].
      apply existsb_exists. exists th. rewrite Eq. auto.
  - (* the holder of the highest lock *)
    right. pose proof (H1 th Ht) as K. unfold th_ok in K. rewrite (Hm th Ht) in K. apply In_nth_error in Ht. destruct Ht as (i & Hi).
    destruct (Want i th Hi) as [S|(l' & F & A)]; [|exact S|].
    + intros E0. rewrite E0 in K. cbn in K. rewrite K in Hl. destruct Hl.
    + exfalso. apply not_free in F. destruct F as (th' & Ht' & Hl'). specialize (A l Hl). specialize (Hmax th' l' Ht' Hl'). lia.
Qed.
Theorem can_finish ts : ok ts -> exists ts', steps ts ts' /\ finished ts'.
Proof.
  remember (total ts) as n eqn:E. revert ts E. induction n as [n IH] using lt_wf_ind. intros ts -> H. destruct (progress ts H) as [F|(ts1 & S & L)].
  - exists ts. split; [constructor|exact F].
  - destruct (IH (total ts1) L ts1 eq_refl (steps_ok ts ts1 H S)) as (ts2 & S2 & F). exists ts2. split; [eapply steps_trans; eauto|exact F].
Qed.
Lemma init_ok ps : Forall (good []) ps -> ok (map fresh ps).
Proof.
  intros H. split.
  - intros th Ht. apply in_map_iff in Ht. destruct Ht as (p & <- & Hp). rewrite Forall_forall in H. exact (H p Hp).
  - intros i j a b l _ Ha _ Hl. apply nth_error_In, in_map_iff in Ha. destruct Ha as (p & <- & _). destruct Hl.
Qed.
