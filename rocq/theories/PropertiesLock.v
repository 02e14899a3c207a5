(** C44: the operations cannot block each other for ever, and whoever uses a file alone
    has its lock. *)
From Coq Require Import Lia.
From Verif Require Import Base FullFsModel TableModel LockModel LockSpec LockProofs.
Local Open Scope nat_scope.
Local Open Scope list_scope.

(** [p] is what some thread does that performs operations of the full format (of the lite
    format) one after the other, on whatever files, in whatever way they go. *)
Definition full_thread (p : list instr) : Prop := exists ops, runs (map full_stmt ops) p.
Definition lite_thread (p : list instr) : Prop := exists ops, runs (map lite_stmt ops) p.

Lemma full_good ps : Forall full_thread ps -> Forall (good []) ps.
Proof.
  apply Forall_impl. intros p (ops & H). eapply runs_good; [|exact H]. intros s Hs. apply in_map_iff in Hs. destruct Hs as (o & <- & _). apply full_safe.
Qed.
Lemma lite_good ps : Forall lite_thread ps -> Forall (good []) ps.
Proof.
  apply Forall_impl. intros p (ops & H). eapply runs_good; [|exact H]. intros s Hs. apply in_map_iff in Hs. destruct Hs as (o & <- & _). apply lite_safe.
Qed.

(** C44.  Any number of threads run any operations.  Wherever they have got to, they can
    still all finish; so they are never stuck before. *)
Theorem C44_full_no_deadlock :
  forall ps ts, Forall full_thread ps -> steps (map fresh ps) ts ->
  (exists ts', steps ts ts' /\ all_done ts') /\ (stuck ts -> all_done ts).
Proof.
  intros ps ts H S. apply full_good in H. pose proof (steps_ok _ _ (init_ok ps H) S) as K. destruct (can_finish ts K) as (ts' & S' & F). split; [eauto|].
  intros St. destruct S' as [|ts t1 t2 H1 _]; [exact F|]. destruct (St _ H1).
Qed.
Print Assumptions C44_full_no_deadlock.

Theorem C44_lite_no_deadlock :
  forall ps ts, Forall lite_thread ps -> steps (map fresh ps) ts ->
  (exists ts', steps ts ts' /\ all_done ts') /\ (stuck ts -> all_done ts).
Proof.
  intros ps ts H S. apply lite_good in H. pose proof (steps_ok _ _ (init_ok ps H) S) as K. destruct (can_finish ts K) as (ts' & S' & F). split; [eauto|].
  intros St. destruct S' as [|ts t1 t2 H1 _]; [exact F|]. destruct (St _ H1).
Qed.
Print Assumptions C44_lite_no_deadlock.

(** C44, no endless waiting by accident either: however the threads are scheduled, the
    number of steps is bounded by the work there is, but for std::lock taking its first
    lock in vain. *)
Definition debt (th : thread) : nat := 2 * length (todo th) - match mid th with Some _ => 1 | None => 0 end.
Definition debts (ts : threads) : nat := list_sum (map debt ts).
Lemma debts_put ts i th th' : nth_error ts i = Some th -> debts (put ts i th') + debt th = debts ts + debt th'.
Proof. revert i. induction ts as [|x ts IH]; intros [|i]; cbn [nth_error put]; try discriminate; unfold debts; cbn [map]; change (list_sum (?x :: ?l)) with (x + list_sum l); [intros [= ->]; cbn [list_sum]; unfold list_sum; cbn; lia|]. intros H. specialize (IH i H). unfold debts, list_sum in *. cbn [fold_right]. lia. Qed.
Theorem C44_bounded :
  forall n k ts ts', counted n k ts ts' -> (forall th, In th ts -> mid th = None) -> n <= 2 * work ts + 2 * k.
Proof.
  assert (L : forall n k ts ts', counted n k ts ts' -> n + debts ts' <= debts ts + 2 * k).
  { induction 1 as [|n k ts i th th' ts' Hi S _ IH]; [lia|]. pose proof (debts_put ts i th th' Hi) as P. unfold gave_up.
    destruct S; unfold debt in P; cbn [todo mid length] in *; try rewrite Nat.eqb_refl in *; cbn [andb];
      try (destruct (Nat.eqb_spec (length p) (S (length p))); [lia|]); cbn [andb]; lia. }
  intros n k ts ts' H M. specialize (L _ _ _ _ H). assert (E : debts ts = 2 * work ts); [|lia].
  clear - M. unfold debts, work. induction ts as [|x ts IH]; [reflexivity|]. cbn [map]. change (debt x + debts ts = 2 * (length (todo x) + work ts)). unfold debts, work.
  rewrite IH by (intros th H; apply M; now right). unfold debt. rewrite (M x (or_introl eq_refl)). lia.
Qed.
Print Assumptions C44_bounded.

(** C44, exclusion.  A thread about to use what a lock protects has that lock, and no
    other thread has it. *)
Theorem C44_exclusive :
  forall ps ts, Forall full_thread ps \/ Forall lite_thread ps -> steps (map fresh ps) ts ->
  forall i j a b l, nth_error ts i = Some a -> nth_error ts j = Some b -> uses a l -> In l (has a) /\ (i <> j -> ~ In l (has b) /\ ~ uses b l).
Proof.
  intros ps ts H S i j a b l Ha Hb (p & U1 & U2).
  assert (H' : Forall (good []) ps) by (destruct H; [now apply full_good|now apply lite_good]).
  destruct (steps_ok _ _ (init_ok ps H') S) as [K X].
  assert (Own : forall c q, In c ts -> todo c = Touch l :: q -> mid c = None -> In l (has c)).
  { intros c q Hc E M. specialize (K c Hc). unfold th_ok in K. rewrite M, E in K. apply K. }
  assert (La : In l (has a)) by (eapply Own; eauto using nth_error_In). split; [exact La|]. intros N.
  assert (Nb : ~ In l (has b)) by (exact (X i j a b l N Ha Hb La)). split; [exact Nb|]. intros (q & V1 & V2). apply Nb. eapply Own; eauto using nth_error_In.
Qed.
Print Assumptions C44_exclusive.

(** The hypotheses are met: two threads that rename from directory A to B and from B to
    A, each with the two locks taken by std::lock. *)
Definition dA : bytes := repeat x01 32.
Definition dB : bytes := repeat x02 32.
Lemma tr_seq' a b m t u w : tr a false t -> tr b m u -> w = t ++ u -> tr (SSeq a b) m w.
Proof. intros H1 H2 ->. now constructor. Qed.
Lemma tr_fin' s c m t u w : tr s m t -> tr c false u -> w = t ++ u -> tr (SFinally s c) m w.
Proof. intros H1 H2 ->. now constructor. Qed.
Lemma tr_closer id : tr (closer id) false [].
Proof. apply T_or_l. constructor. Qed.
Lemma tr_drop : tr drop_any false [].
Proof. apply T_any with root_id. apply tr_closer. Qed.
Lemma tr_base k d m t : tr (k d) m t -> tr (open_base k) m t.
Proof.
  intros H. unfold open_base. eapply tr_seq'; [unfold open_as; cbn; apply T_throw| |].
  - eapply tr_seq'; [eapply tr_fin'; [apply T_loop_end|apply tr_drop|reflexivity]| |].
    + eapply tr_seq'; [apply T_throw| |].
      * apply T_any with d. eapply tr_fin'; [exact H|apply tr_closer|reflexivity].
      * reflexivity.
    + reflexivity.
  - cbn. now rewrite app_nil_r.
Qed.
Definition ren0 (a b : bytes) : list instr := [LockBoth (KFile a) (KFile b); Touch (KFile a); Touch (KFile b); Unlock (KFile b); Unlock (KFile a)].
Lemma ren_runs a b : a <> b -> full_thread (ren0 a b).
Proof.
  intros N. exists [ORename]. cbn [map]. replace (ren0 a b) with (ren0 a b ++ []) by apply app_nil_r. econstructor; [|constructor].
  cbn [full_stmt]. apply tr_base with a. apply tr_base with b. eapply tr_seq'.
  - apply T_double with (m := false) (t := [Touch (KFile a); Touch (KFile b)]); [congruence|]. eapply tr_seq'; [apply T_touch|apply T_touch|reflexivity].
  - apply T_or_l. apply T_skip.
  - reflexivity.
Qed.
Example C44_full_example :
  Forall full_thread [ren0 dA dB; ren0 dB dA] /\
  (* each has one of the two locks, and one gives up *)
  steps (map fresh [ren0 dA dB; ren0 dB dA])
    [mkTh (ren0 dA dB) [KFile dA] (Some (KFile dA)); mkTh (ren0 dB dA) [KFile dB] (Some (KFile dB))].
Proof.
  split; [repeat constructor; apply ren_runs; intros E; apply (f_equal (hd x00)) in E; discriminate|].
  econstructor; [apply (S_one _ 0 (fresh (ren0 dA dB)) (mkTh (ren0 dA dB) [KFile dA] (Some (KFile dA)))); [reflexivity|apply S_first; [now left|intros th [<-|[<-|[]]] []]]|].
  econstructor; [apply (S_one _ 1 (fresh (ren0 dB dA)) (mkTh (ren0 dB dA) [KFile dB] (Some (KFile dB)))); [reflexivity|apply S_first; [now left|]]|constructor].
  intros th [<-|[<-|[]]]; [|intros []]. intros [E|[]]. discriminate.
Qed.

(** With the same locks taken one after the other instead, two such renames can get stuck:
    the model does have deadlocks to avoid. *)
Definition bad_ren (a b : bytes) : stmt := SGuard (KFile a) (SGuard (KFile b) (STouch (KFile a) ;; STouch (KFile b))).
Definition bad_tr (a b : bytes) : list instr := [Lock (KFile a); Lock (KFile b); Touch (KFile a); Touch (KFile b); Unlock (KFile b); Unlock (KFile a)].
Example C44_nested_stuck :
  tr (bad_ren dA dB) false (bad_tr dA dB) /\ tr (bad_ren dB dA) false (bad_tr dB dA) /\
  exists ts, steps (map fresh [bad_tr dA dB; bad_tr dB dA]) ts /\ stuck ts /\ ~ all_done ts.
Proof.
  assert (T : forall a b, tr (bad_ren a b) false (bad_tr a b)).
  { intros a b. apply (T_guard _ _ _ [Lock (KFile b); Touch (KFile a); Touch (KFile b); Unlock (KFile b)]). apply (T_guard _ _ _ [Touch (KFile a); Touch (KFile b)]). eapply tr_seq'; [apply T_touch|apply T_touch|reflexivity]. }
  split; [apply T|]. split; [apply T|].
  assert (N : dA <> dB) by (intros E; apply (f_equal (hd x00)) in E; discriminate).
  exists [mkTh (tl (bad_tr dA dB)) [KFile dA] None; mkTh (tl (bad_tr dB dA)) [KFile dB] None]. split; [|split].
  - econstructor; [apply (S_one _ 0 (fresh (bad_tr dA dB)) (mkTh (tl (bad_tr dA dB)) [KFile dA] None)); [reflexivity|apply S_lock; intros th [<-|[<-|[]]] []]|].
    econstructor; [apply (S_one _ 1 (fresh (bad_tr dB dA)) (mkTh (tl (bad_tr dB dA)) [KFile dB] None)); [reflexivity|apply S_lock]|constructor].
    intros th [<-|[<-|[]]]; [|intros []]. intros [E|[]]. discriminate.
  - intros ts' H. inversion H as [ts i th th' Hi S]; subst. destruct i as [|[|i]]; cbn in Hi; [| |destruct i; discriminate]; injection Hi as <-.
    + inversion S as [l p h F| | | | |]; subst. apply (F (mkTh (tl (bad_tr dB dA)) [KFile dB] None)); [right; now left|now left].
    + inversion S as [l p h F| | | | |]; subst. apply (F (mkTh (tl (bad_tr dA dB)) [KFile dA] None)); [now left|now left].
  - intros F. destruct (F _ (or_introl eq_refl)) as [E _]. discriminate.
Qed.

(** A lite thread: reading a directory with long names, and writing to a file. *)
Example C44_lite_example :
  lite_thread [Lock (KDir 0); Touch (KDir 0); Lock (KTable 1); Touch (KTable 1); Unlock (KTable 1); Unlock (KDir 0);
               Lock (KHandle 2); Lock (KInode 3); Touch (KInode 3); Unlock (KInode 3); Unlock (KHandle 2)].
Proof.
  exists [LReaddir; LHandleOp]. cbn [map lite_stmt].
  apply (R_cons _ _ false [Lock (KDir 0); Touch (KDir 0); Lock (KTable 1); Touch (KTable 1); Unlock (KTable 1); Unlock (KDir 0)]
                [Lock (KHandle 2); Lock (KInode 3); Touch (KInode 3); Unlock (KInode 3); Unlock (KHandle 2)]).
  - apply T_anyn with 0. apply (T_guard _ _ _ [Touch (KDir 0); Lock (KTable 1); Touch (KTable 1); Unlock (KTable 1)]).
    apply (T_loop _ false [Touch (KDir 0); Lock (KTable 1); Touch (KTable 1); Unlock (KTable 1)] []); [|apply T_loop_end].
    eapply tr_seq'; [apply T_touch|apply T_or_r; apply T_anyn with 1; apply (T_guard _ _ _ [Touch (KTable 1)]); apply T_touch|reflexivity].
  - apply (R_cons _ _ false [Lock (KHandle 2); Lock (KInode 3); Touch (KInode 3); Unlock (KInode 3); Unlock (KHandle 2)] []); [|constructor].
    apply T_anyn with 2. apply T_anyn with 3. apply (T_guard _ _ _ [Lock (KInode 3); Touch (KInode 3); Unlock (KInode 3)]).
    eapply tr_seq'; [apply T_throw|apply (T_guard _ _ _ [Touch (KInode 3)]); apply T_touch|reflexivity].
Qed.
