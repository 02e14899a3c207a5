From Coq Require Import ZArith Lia.
From Verif Require Import Base TimerModel LockerModel SyncSpec.
Local Open Scope list_scope.

(** ** The timer *)
Record TM (ep t0 : Z) (s : timer) (h : list (tact * tans)) : Prop := mkTM {
  m_now : now s = last_clock t0 h;
  m_trig : trigger s = match last_set h with Some t => t | None => ep end;
  m_none : work s = WNone <-> last_set h = None;
  m_exit : exiting s = true <-> destroying h;
  m_decided : answers TDecided h = match work s with WFire | WCalled => 1 | _ => 0 end;
  m_called : answers TCalled h = match work s with WCalled => 1 | _ => 0 end;
  m_wait : forall d, work s = WWait d -> asked d h;
  m_joined : joined h -> match work s with WNone | WCalled | WExit => exiting s = true | _ => False end;
  m_wexit : work s = WExit -> exiting s = true
}.
Lemma last_set_asked h t : last_set h = Some t -> asked t h.
Proof.
  induction h as [|[a r] h IH]; cbn; [discriminate|]. destruct a; try (intros H; right; now apply IH). destruct r; try (intros H; right; now apply IH). intros [= ->]. now left.
Qed.
(** What holds at every moment of a history. *)
Definition every (P : list (tact * tans) -> Prop) (h : list (tact * tans)) : Prop := forall h1 h2, h = h1 ++ h2 -> P h2.
Lemma every_nil (P : _ -> Prop) : P [] -> every P [].
Proof. intros H h1 h2 E. symmetry in E. apply app_eq_nil in E as [_ ->]. exact H. Qed.
Lemma every_cons (P : _ -> Prop) x h : P (x :: h) -> every P h -> every P (x :: h).
Proof. intros H E h1 h2 Eq. destruct h1 as [|y h1]; cbn in Eq; [subst; exact H|]. injection Eq as _ ->. now apply (E h1). Qed.
Definition sound (t0 : Z) (h : list (tact * tans)) : Prop :=
  match h with
  | (_, TDecided) :: h' => (exists t, last_set h' = Some t /\ (t <= last_clock t0 h')%Z) /\ ~ destroying h' /\ answers TDecided h' = 0
  | (_, TCalled) :: h' => answers TDecided h' = 1 /\ answers TCalled h' = 0 /\ ~ joined h'
  | _ => True
  end.
Lemma destroying_cons a r h : destroying ((a, r) :: h) <-> a = TDestroy \/ destroying h.
Proof.
  unfold destroying. cbn. split.
  - intros (r0 & [[= <- <-]|H]); [now left|right; eauto].
  - intros [->|(r0 & H)]; [exists r; now left|exists r0; now right].
Qed.
Lemma tm_step ep t0 s h a s' r : TM ep t0 s h -> tmstep a s = (s', r) -> TM ep t0 s' ((a, r) :: h) /\ sound t0 ((a, r) :: h).
Proof.
  intros [H1 H2 H3 H4 H5 H6 H7 H8 H9] E.
  assert (Nj : joined ((a, r) :: h) <-> (a = TJoin /\ r = TNothing) \/ joined h) by (unfold joined; cbn; split; [intros [[= -> ->]|H]; tauto|intros [[-> ->]|H]; tauto]).
  assert (K : forall d, asked d h -> asked d ((a, r) :: h)) by (intros d; unfold asked; cbn; tauto).
  destruct a as [t|t| | |]; cbn [tmstep] in E.
  - destruct (exiting s) eqn:Ex; injection E as <- <-; (split; [constructor|exact I]); cbn [now trigger work exiting gone last_clock last_set answers filter snd length]; auto.
    + rewrite destroying_cons. rewrite Ex. intuition discriminate.
    + rewrite Nj. intros [[? _]|Hj]; [discriminate|]. specialize (H8 Hj). now rewrite Ex in *.
    + destruct (work s); intuition discriminate.
    + rewrite destroying_cons. rewrite <- H4. intuition discriminate.
    + clear - H5. unfold answers in *. destruct (work s); exact H5.
    + clear - H6. unfold answers in *. destruct (work s); exact H6.
    + intros d Hd. apply K, H7. destruct (work s); try discriminate; exact Hd.
    + rewrite Nj. intros [[? _]|Hj]; [discriminate|]. specialize (H8 Hj). destruct (work s); auto; congruence.
    + intros Hw. apply H9. destruct (work s); try discriminate; reflexivity.
  - injection E as <- <-. split; [constructor|exact I]; cbn [now trigger work exiting gone last_clock last_set answers filter snd length]; auto.
    + rewrite destroying_cons, H4. intuition discriminate.
    + rewrite Nj. intros [[? _]|Hj]; [discriminate|]. now apply H8.
  - destruct (work s) as [| |d| | |] eqn:W.
    + injection E as <- <-. split; [constructor|exact I]; cbn [now trigger work exiting gone last_clock last_set answers filter snd length]; auto; rewrite ?W; auto.
      * rewrite destroying_cons, H4. intuition discriminate.
      * rewrite Nj. intros [[? _]|Hj]; [discriminate|]. now apply H8.
    + injection E as <- <-. split; [constructor|exact I]; cbn [now trigger work exiting gone last_clock last_set answers filter snd length]; auto.
      * split; [discriminate|]. intros H. apply H3 in H. discriminate.
      * rewrite destroying_cons, H4. intuition discriminate.
      * intros d [= <-]. rewrite H2. destruct (last_set h) as [t|] eqn:L; [|discriminate (proj2 H3 eq_refl)]. apply K. now apply last_set_asked.
      * rewrite Nj. intros [[? _]|Hj]; [discriminate|]. now apply H8.
      * discriminate.
    + destruct (wake s || exiting s || (d <=? now s)%Z) eqn:G.
      * destruct (exiting s) eqn:Ex; [|destruct (trigger s <=? now s)%Z eqn:T]; injection E as <- <-.
        -- split; [constructor|exact I]; cbn [now trigger work exiting gone last_clock last_set answers filter snd length]; auto; try discriminate.
           ++ split; [discriminate|]. intros H. apply H3 in H. discriminate.
           ++ rewrite destroying_cons, <- H4. intuition discriminate.
        -- assert (Nd : ~ destroying h) by (intros Hd; apply H4 in Hd; congruence).
           split; [constructor|]; cbn [now trigger work exiting gone last_clock last_set answers filter snd length]; auto; try discriminate.
           ++ split; [discriminate|]. intros H. apply H3 in H. discriminate.
           ++ rewrite destroying_cons, <- H4. intuition discriminate.
           ++ rewrite Nj. intros [[? _]|Hj]; [discriminate|]. specialize (H8 Hj). exact H8.
           ++ cbn [sound]. split; [|split; [exact Nd|exact H5]]. destruct (last_set h) as [t|] eqn:L; [|discriminate (proj2 H3 eq_refl)]. exists t. split; [reflexivity|]. apply Z.leb_le in T. rewrite <- H1, <- H2. exact T.
        -- split; [constructor|exact I]; cbn [now trigger work exiting gone last_clock last_set answers filter snd length]; auto; try discriminate.
           ++ split; [discriminate|]. intros H. apply H3 in H. discriminate.
           ++ rewrite destroying_cons, <- H4. intuition discriminate.
           ++ rewrite Nj. intros [[? _]|Hj]; [discriminate|]. specialize (H8 Hj). exact H8.
      * injection E as <- <-. split; [constructor|exact I]; cbn [now trigger work exiting gone last_clock last_set answers filter snd length]; auto; rewrite ?W; auto.
        -- rewrite destroying_cons, H4. intuition discriminate.
        -- rewrite Nj. intros [[? _]|Hj]; [discriminate|]. now apply H8.
    + injection E as <- <-. split; [constructor|]; cbn [now trigger work exiting gone last_clock last_set answers filter snd length]; auto; try discriminate.
      * split; [discriminate|]. intros H. apply H3 in H. discriminate.
      * rewrite destroying_cons, H4. intuition discriminate.
      * rewrite Nj. intros [[? _]|Hj]; [discriminate|]. destruct (H8 Hj).
      * cbn [sound]. split; [exact H5|]. split; [exact H6|]. intros Hj. exact (H8 Hj).
    + injection E as <- <-. split; [constructor|exact I]; cbn [now trigger work exiting gone last_clock last_set answers filter snd length]; auto; rewrite ?W; auto.
      * rewrite destroying_cons, H4. intuition discriminate.
      * rewrite Nj. intros [[? _]|Hj]; [discriminate|]. now apply H8.
    + injection E as <- <-. split; [constructor|exact I]; cbn [now trigger work exiting gone last_clock last_set answers filter snd length]; auto; rewrite ?W; auto.
      * rewrite destroying_cons, H4. intuition discriminate.
  - injection E as <- <-. split; [constructor|exact I]; cbn [now trigger work exiting gone last_clock last_set answers filter snd length]; auto.
    + rewrite destroying_cons. tauto.
    + rewrite Nj. intros [[? _]|Hj]; [discriminate|]. specialize (H8 Hj). destruct (work s); auto.
  - destruct (exiting s) eqn:Ex; cbn [andb] in E; [destruct (match work s with WNone | WCalled | WExit => true | _ => false end) eqn:W|]; injection E as <- <-;
      (split; [constructor|exact I]); cbn [now trigger work exiting gone last_clock last_set answers filter snd length]; rewrite ?Ex; auto;
      try (rewrite destroying_cons, <- H4; intuition discriminate);
      rewrite Nj; intros [[? ?]|Hj]; try discriminate; try (now apply H8); destruct (work s); auto; discriminate.
Qed.
Lemma tm_run ep t0 l : forall s h s' h', TM ep t0 s h -> every (sound t0) h -> tmrun l s h = (s', h') -> TM ep t0 s' h' /\ every (sound t0) h'.
Proof.
  induction l as [|a l IH]; intros s h s' h' H Hs E; cbn in E; [injection E as <- <-; auto|]. destruct (tmstep a s) as [s1 r] eqn:Es. destruct (tm_step ep t0 s h a s1 r H Es) as [H1 H2].
  eapply IH; [exact H1| |exact E]. now apply every_cons.
Qed.
Lemma tm_start ep t0 : TM ep t0 (timer0 ep t0) [].
Proof. constructor; cbn; auto; try tauto; try discriminate. split; [discriminate|]. intros (r & []). Qed.

(** ** The lock file *)
Lemma pset_same f p v : pset f p v p = v.
Proof. unfold pset. now rewrite Nat.eqb_refl. Qed.
Lemma pset_other f p v q : q <> p -> pset f p v q = f q.
Proof. intros H. unfold pset. now apply Nat.eqb_neq in H as ->. Qed.
Lemma set_nth_length l i v : length (set_nth l i v) = length l.
Proof. revert i. induction l as [|x l IH]; intros [|i]; cbn; auto. Qed.
Lemma set_nth_same l i v : i < length l -> nth i (set_nth l i v) None = v.
Proof. revert i. induction l as [|x l IH]; intros [|i]; cbn; try lia; auto. intros. apply IH. lia. Qed.
Lemma set_nth_other l i v j : j <> i -> nth j (set_nth l i v) None = nth j l None.
Proof. revert i j. induction l as [|x l IH]; intros [|i] [|j] H; cbn; auto; try congruence. Qed.

Record LI (s : locker) : Prop := mkLI {
  (* the file a holder has written its pid to is the lock file *)
  b_hold : forall p i, procs s p = PHold i -> name s = Some i /\ content s i = Some p;
  b_name : forall i, name s = Some i -> i < length (inodes s);
  (* one in the middle has the lock file in hand *)
  b_check : forall p i, procs s p = PCheck i -> name s = Some i;
  b_saw : forall p i c, procs s p = PSaw i c -> name s = Some i /\ c = content s i;
  b_got : forall p i, procs s p = PGot i \/ procs s p = PCleared i -> name s = Some i /\ forall q, ~ holds s q;
  b_closing : forall p, procs s p = PClosing -> forall q, ~ holds s q;
  b_one : forall p q, p <> q -> ~ quiet s p -> quiet s q
}.
Lemma LI_quiet s p : LI s -> ~ quiet s p -> forall q, q <> p -> quiet s q.
Proof. intros H N q Nq. apply (b_one s H p q); auto. Qed.
(** Everything but [p] stays: enough that [p]'s own facts hold. *)
Lemma move s p st nm ins : LI s -> (forall q, q <> p -> quiet s q) ->
  (forall i, nm = Some i -> i < length ins) ->
  (forall q i, q <> p -> procs s q = PHold i -> nm = Some i /\ nth i ins None = Some q) ->
  (forall i, st = PHold i -> nm = Some i /\ nth i ins None = Some p) ->
  (forall i, st = PCheck i -> nm = Some i) ->
  (forall i c, st = PSaw i c -> nm = Some i /\ c = nth i ins None) ->
  (forall i, st = PGot i \/ st = PCleared i -> nm = Some i) ->
  (match st with PGot _ | PCleared _ | PClosing => forall q, q <> p -> ~ holds s q | _ => True end) ->
  LI (mkLocker nm ins (pset (procs s) p st)).
Proof.
  intros H Q B1 B2 B3 B4 B5 B6 B7.
  assert (Oth : forall q, q <> p -> pset (procs s) p st q = procs s q) by (intros; now apply pset_other).
  assert (NotMid : forall q, q <> p -> match procs s q with PDead | POut | PHold _ => True | _ => False end) by (intros q Nq; exact (Q q Nq)).
  constructor; cbn [name inodes procs]; unfold content; cbn [inodes].
  - intros q i E. destruct (Nat.eq_dec q p) as [->|N]; [rewrite pset_same in E; now apply B3|]. rewrite Oth in E by exact N. now apply B2.
  - exact B1.
  - intros q i E. destruct (Nat.eq_dec q p) as [->|N]; [rewrite pset_same in E; now apply B4|]. rewrite Oth in E by exact N. specialize (NotMid q N). rewrite E in NotMid. destruct NotMid.
  - intros q i c E. destruct (Nat.eq_dec q p) as [->|N]; [rewrite pset_same in E; now apply B5|]. rewrite Oth in E by exact N. specialize (NotMid q N). rewrite E in NotMid. destruct NotMid.
  - intros q i E. destruct (Nat.eq_dec q p) as [->|N].
    + rewrite pset_same in E. split; [now apply B6|]. intros q (j & Ej). destruct (Nat.eq_dec q p) as [->|Nq]; cbn [procs] in Ej; [rewrite pset_same in Ej; destruct E; congruence|]. rewrite Oth in Ej by exact Nq.
      destruct E as [-> | ->]; apply (B7 q Nq); exists j; exact Ej.
    + rewrite Oth in E by exact N. specialize (NotMid q N). destruct E as [E|E]; rewrite E in NotMid; destruct NotMid.
  - intros q E. destruct (Nat.eq_dec q p) as [->|N].
    + rewrite pset_same in E. subst st. intros q (j & Ej). cbn [procs] in Ej. destruct (Nat.eq_dec q p) as [->|Nq]; [rewrite pset_same in Ej; discriminate|]. rewrite Oth in Ej by exact Nq. apply (B7 q Nq). exists j; exact Ej.
    + rewrite Oth in E by exact N. specialize (NotMid q N). rewrite E in NotMid. destruct NotMid.
  - intros a b Nab Na. unfold quiet in *. cbn [procs] in *. destruct (Nat.eq_dec a p) as [->|Np].
    + rewrite Oth by congruence. apply NotMid. congruence.
    + exfalso. apply Na. rewrite Oth by exact Np. now apply NotMid.
Qed.
(** Leaving, at any time. *)
Lemma leave s p st : LI s -> st = PDead \/ st = POut -> LI (mkLocker (name s) (inodes s) (pset (procs s) p st)).
Proof.
  intros [H1 H2 H3 H4 H5 H6 H7] St.
  assert (Same : forall q v, pset (procs s) p st q = v -> v <> PDead -> v <> POut -> q <> p /\ procs s q = v).
  { intros q v E N1 N2. destruct (Nat.eq_dec q p) as [->|N]; [rewrite pset_same in E; destruct St; congruence|]. rewrite pset_other in E by exact N. auto. }
  assert (Hold : forall q, holds (mkLocker (name s) (inodes s) (pset (procs s) p st)) q -> holds s q).
  { intros q (i & E). cbn in E. apply Same in E; [|discriminate..]. exists i. tauto. }
  constructor; cbn [name inodes procs]; unfold content; cbn [inodes].
  - intros q i E. apply Same in E; [|discriminate..]. now apply H1.
  - exact H2.
  - intros q i E. apply Same in E; [|discriminate..]. apply (H3 q). tauto.
  - intros q i c E. apply Same in E; [|discriminate..]. apply (H4 q). tauto.
  - intros q i E. assert (E' : procs s q = PGot i \/ procs s q = PCleared i) by (destruct E as [E|E]; apply Same in E; try discriminate; tauto). destruct (H5 q i E') as [A B]. split; [exact A|]. intros x Hx. apply (B x). now apply Hold.
  - intros q E x Hx. apply Same in E; [|discriminate..]. apply (H6 q (proj2 E) x). now apply Hold.
  - intros a b N Na. unfold quiet in *. cbn [procs] in *. destruct (Nat.eq_dec b p) as [->|Nb]; [rewrite pset_same; destruct St as [-> | ->]; exact I|]. rewrite pset_other by exact Nb.
    destruct (Nat.eq_dec a p) as [->|Np]; [exfalso; apply Na; rewrite pset_same; destruct St as [-> | ->]; exact I|]. rewrite pset_other in Na by exact Np. now apply (H7 a b).
Qed.
Lemma one_holder s : LI s -> forall p q, holds s p -> holds s q -> p = q.
Proof. intros H p q (i & Ei) (j & Ej). destruct (b_hold s H p i Ei) as [A B]. destruct (b_hold s H q j Ej) as [C D]. congruence. Qed.

Lemma go_LI s p : LI s -> (forall q, q <> p -> quiet s q) -> LI (go s p).
Proof.
  intros H Q. unfold go. destruct (procs s p) as [| | |i|i c|i|i|i|] eqn:E.
  - exact H.
  - destruct (name s) as [i|] eqn:N.
    + rewrite <- N. apply move; auto; try discriminate; try (intros; destruct H0; discriminate); [apply (b_name s H)|intros q j _; apply (b_hold s H)].
    + apply move; auto; try discriminate.
      * intros i [= <-]. rewrite app_length. cbn. lia.
      * intros q i Nq Eq. destruct (b_hold s H q i Eq). congruence.
      * intros i [[= <-]|?]; [reflexivity|discriminate].
      * intros q Nq (i & Eq). destruct (b_hold s H q i Eq). congruence.
  - destruct (name s) as [i|] eqn:N; rewrite <- N; apply move; auto; try discriminate; try (intros; destruct H0; discriminate); try apply (b_name s H); try (intros q j _; apply (b_hold s H)).
    intros j [= <-]. exact N.
  - apply move; auto; try discriminate; try (intros; destruct H0; discriminate); try apply (b_name s H); try (intros q j _; apply (b_hold s H)).
    intros j c [= <- <-]. split; [now apply (b_check s H p)|reflexivity].
  - destruct (b_saw s H p i c E) as [N C]. destruct (match c with Some q => running s q | None => false end) eqn:R.
    + apply leave; auto.
    + apply move; auto; try discriminate; try apply (b_name s H); try (intros q j _; apply (b_hold s H)).
      * intros j [[= <-]|?]; [exact N|discriminate].
      * intros q Nq (j & Eq). destruct (b_hold s H q j Eq) as [A B]. assert (j = i) by congruence. subst j. rewrite C, B in R. unfold running in R. rewrite Eq in R. discriminate.
  - destruct (b_got s H p i (or_introl E)) as [N B]. apply move; auto; try discriminate.
    + intros j Ej. rewrite set_nth_length. now apply (b_name s H).
    + intros q j Nq Eq. exfalso. apply (B q). exists j; exact Eq.
    + intros j [?|[= <-]]; [discriminate|exact N].
  - destruct (b_got s H p i (or_intror E)) as [N B]. apply move; auto; try discriminate; try (intros; destruct H0; discriminate).
    + intros j Ej. rewrite set_nth_length. now apply (b_name s H).
    + intros q j Nq Eq. exfalso. apply (B q). exists j; exact Eq.
    + intros j [= <-]. split; [exact N|]. apply set_nth_same. now apply (b_name s H).
  - apply move; auto; try discriminate; try (intros; destruct H0; discriminate); try apply (b_name s H); try (intros q j _; apply (b_hold s H)).
    intros q Nq Hq. apply Nq. symmetry. apply (one_holder s H); [exists i; exact E|exact Hq].
  - apply move; auto; try discriminate; try (intros; destruct H0; discriminate).
    intros q i Nq Eq. exfalso. apply (b_closing s H p E q). exists i; exact Eq.
Qed.
Lemma lrun_LI l : forall s, LI s -> one_at_a_time s l -> LI (lrun s l).
Proof.
  induction l as [|a l IH]; intros s H O; [exact H|]. destruct O as [O1 O2]. cbn [lrun]. apply IH; [|exact O2]. destruct a as [p|p|p|p]; cbn [lstep].
  - destruct (procs s p); auto. apply leave; auto.
  - now apply go_LI.
  - destruct (procs s p); auto; apply leave; auto.
  - apply leave; auto.
Qed.
Lemma locker0_LI c : LI (locker0 c).
Proof.
  destruct c as [c|]; constructor; cbn; try discriminate; try (intros; match goal with H : _ \/ _ |- _ => destruct H; discriminate end); try (intros; exact I).
  intros i [= <-]. lia.
Qed.
