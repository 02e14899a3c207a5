(** Proofs for C57. *)
From Verif Require Import Base BaseLemmas StreamSpec BlockModel LiteModel ConcModel ConcSpec.

Lemma upd_eq {X} (f : nat -> X) i v : upd f i v i = v.
Proof. unfold upd. rewrite Nat.eqb_refl. reflexivity. Qed.
Lemma upd_ne {X} (f : nat -> X) i j v : j <> i -> upd f i v j = f j.
Proof. unfold upd. intros H. apply Nat.eqb_neq in H. rewrite H. reflexivity. Qed.

Section Refine.
Variable St R Op Abs : Type.
Variable obj_of mutex_of : nat -> nat.
Variable flock_on : bool.
Variable failed : option (N -> R).
Variable body : nat -> Op -> nat -> prog St R.
Variable apply : Abs -> Op -> Abs * R.
Variable Rep : nat -> St -> Abs -> Prop.
Variable ok : nat -> Op -> Prop.

Hypothesis Hlocks : flock_on = true \/ forall h h', obj_of h = obj_of h' -> mutex_of h = mutex_of h'.
Hypothesis Hbody : forall h o k s a, ok h o -> Rep (obj_of h) s a ->
  Rep (obj_of h) (fst (exec (body h o k) s)) (fst (apply a o)) /\ snd (exec (body h o k) s) = snd (apply a o).

Local Notation conf := (conf St R Op).
Local Notation cstep := (cstep St R Op obj_of mutex_of flock_on failed body).
Local Notation astep := (astep Abs R Op apply obj_of failed).
Local Notation aconf := (aconf Abs R Op).
Local Notation th c := (c_threads St R Op c).

(** What a thread and its atomic counterpart have to do with each other. *)
Definition th_rel (c : conf) (t : nat) (x : thread St R Op) (y : athread R Op) : Prop :=
  match x, y with
  | TIdle _ _ _, AIdle _ _ => True
  | TCalled _ _ _ h o k, ACalled _ _ h' o' => h' = h /\ o' = o /\ ok h o
  | TMutex _ _ _ h o k, ACalled _ _ h' o' => h' = h /\ o' = o /\ ok h o /\ c_mutex _ _ _ c (mutex_of h) = Some t
  | TRun _ _ _ h o k p, ACalled _ _ h' o' => h' = h /\ o' = o /\ ok h o /\ c_mutex _ _ _ c (mutex_of h) = Some t /\
      (flock_on = true -> c_flock _ _ _ c (obj_of h) = Some h)
  | TLeave _ _ _ h r, ADone _ _ r' => r' = r /\ c_mutex _ _ _ c (mutex_of h) = Some t
  | TOut _ _ _ r, ADone _ _ r' => r' = r
  | _, _ => False
  end.
Record sim (c : conf) (a : aconf) : Prop := {
  s_threads : forall t, th_rel c t (th c t) (a_threads _ _ _ a t);
  s_rest : forall i, at_rest obj_of c i -> Rep i (c_files _ _ _ c i) (a_files _ _ _ a i);
  s_run : forall t h o k p, th c t = TRun _ _ _ h o k p ->
    exists s0, Rep (obj_of h) s0 (a_files _ _ _ a (obj_of h)) /\ exec p (c_files _ _ _ c (obj_of h)) = exec (body h o k) s0 }.

(** Two threads never work on the same file. *)
Lemma exclusive c a t t' h h' o o' k k' p p' : sim c a ->
  th c t = TRun _ _ _ h o k p -> th c t' = TRun _ _ _ h' o' k' p' -> obj_of h = obj_of h' -> t = t'.
Proof.
  intros [S _ _] E E' Eo. pose proof (S t) as A1. pose proof (S t') as A2. rewrite E in A1. rewrite E' in A2. cbn [th_rel] in *.
  destruct (a_threads _ _ _ a t) as [|h1 o1|]; try contradiction. destruct (a_threads _ _ _ a t') as [|h2 o2|]; try contradiction.
  destruct A1 as (_ & _ & _ & M1 & F1), A2 as (_ & _ & _ & M2 & F2). destruct Hlocks as [Hf|Hm].
  - specialize (F1 Hf). specialize (F2 Hf). rewrite Eo in F1. rewrite F1 in F2. injection F2 as ->. rewrite M1 in M2. congruence.
  - rewrite (Hm _ _ Eo) in M1. rewrite M1 in M2. congruence.
Qed.

(** The mutex a thread holds, and the file it works on. *)
Definition holds_mutex (x : thread St R Op) (m : nat) : Prop :=
  match x with TMutex _ _ _ h _ _ | TRun _ _ _ h _ _ _ | TLeave _ _ _ h _ => mutex_of h = m | _ => False end.
Definition works_on (x : thread St R Op) (i : nat) : Prop :=
  match x with TRun _ _ _ h _ _ _ => obj_of h = i | _ => False end.

Lemma holder c a t m : sim c a -> holds_mutex (th c t) m -> c_mutex _ _ _ c m = Some t.
Proof.
  intros [S _ _] H. specialize (S t). destruct (th c t), (a_threads _ _ _ a t); cbn in *; try contradiction; subst m; tauto.
Qed.
Lemma locker c a t i : sim c a -> works_on (th c t) i -> flock_on = true ->
  exists h o k p, th c t = TRun _ _ _ h o k p /\ c_flock _ _ _ c i = Some h.
Proof.
  intros [S _ _] H Hf. specialize (S t). destruct (th c t) eqn:E, (a_threads _ _ _ a t); cbn in *; try contradiction. subst i.
  destruct S as (_ & _ & _ & _ & F). eauto 10.
Qed.
Lemma exclusive' c a t t' i : sim c a -> works_on (th c t) i -> works_on (th c t') i -> t = t'.
Proof.
  intros HS H H'. destruct (th c t) eqn:E; try contradiction. destruct (th c t') eqn:E'; try contradiction. cbn in *.
  eapply (exclusive c a t t'); eauto. congruence.
Qed.

(** A thread changes, the locks of others do not. *)
Lemma th_rel_other c c' t x y : 
  (forall m, holds_mutex x m -> c_mutex _ _ _ c' m = c_mutex _ _ _ c m) ->
  (flock_on = true -> forall i, works_on x i -> c_flock _ _ _ c' i = c_flock _ _ _ c i) ->
  th_rel c t x y -> th_rel c' t x y.
Proof.
  intros HM HF H. destruct x, y; cbn in *; try contradiction; auto.
  - rewrite HM by reflexivity. exact H.
  - rewrite HM by reflexivity. destruct H as (H1 & H2 & H3 & H4 & H5). repeat split; auto. intros E. rewrite HF; auto.
  - rewrite HM by reflexivity. exact H.
Qed.

Lemma at_rest_iff c i : at_rest obj_of c i <-> forall t, ~ works_on (th c t) i.
Proof.
  split.
  - intros H t W. destruct (th c t) eqn:E; try contradiction. cbn in W. exact (H _ _ _ _ _ E W).
  - intros H t h o k p E W. apply (H t). rewrite E. exact W.
Qed.

(** A step that changes neither files nor who works on them. *)
Lemma sim_thread c a t x y mx fl :
  sim c a -> (forall i, works_on x i <-> works_on (th c t) i) -> (forall i, ~ works_on x i) ->
  let c' := mkC St R Op (c_files _ _ _ c) mx fl (upd (th c) t x) in
  th_rel c' t x y ->
  (forall t' m, t' <> t -> holds_mutex (th c t') m -> mx m = c_mutex _ _ _ c m) ->
  (forall t' i, t' <> t -> works_on (th c t') i -> fl i = c_flock _ _ _ c i) ->
  sim c' (mkA Abs R Op (a_files _ _ _ a) (upd (a_threads _ _ _ a) t y)).
Proof.
  intros HS Hw Hn c' Hx HM HF. constructor.
  - intros t'. cbn [c' c_threads a_threads]. destruct (Nat.eq_dec t' t) as [->|N]; [rewrite !upd_eq; exact Hx|].
    rewrite !upd_ne by assumption. apply (th_rel_other c); [intros m; apply (HM t' m N)|intros _ i; apply (HF t' i N)|apply HS].
  - intros i Hr. cbn [c' c_files a_files]. apply HS. apply at_rest_iff. rewrite at_rest_iff in Hr. intros t' W. apply (Hr t').
    cbn [c' c_threads]. destruct (Nat.eq_dec t' t) as [->|N]; [rewrite upd_eq; apply Hw; exact W|rewrite upd_ne by assumption; exact W].
  - intros t' h o k p E. cbn [c' c_threads c_files a_files] in *. destruct (Nat.eq_dec t' t) as [->|N].
    + rewrite upd_eq in E. exfalso. apply (Hn (obj_of h)). rewrite E. reflexivity.
    + rewrite upd_ne in E by assumption. eapply s_run; eauto.
Qed.

Lemma sim_same c a t y : sim c (mkA Abs R Op (a_files _ _ _ a) (upd (a_threads _ _ _ a) t y)) -> a_threads _ _ _ a t = y -> sim c a.
Proof.
  intros [G1 G2 G3] Ea. constructor; auto. intros t'. specialize (G1 t'). cbn [a_threads] in G1.
  destruct (Nat.eq_dec t' t) as [->|N]; [rewrite (upd_eq (a_threads _ _ _ a)), <- Ea in G1; exact G1|rewrite (upd_ne (a_threads _ _ _ a)) in G1 by assumption; exact G1].
Qed.

Lemma sim_start files afiles : (forall i, Rep i (files i) (afiles i)) -> sim (start St R Op files) (atomic_start Abs R Op afiles).
Proof. intros H. constructor; cbn; try discriminate; auto. Qed.

(** A thread begins to work. *)
Lemma sim_begin c a t h o k fl :
  sim c a -> th c t = TMutex _ _ _ h o k -> (forall t', t' <> t -> ~ works_on (th c t') (obj_of h)) ->
  (flock_on = true -> fl (obj_of h) = Some h) -> (forall i, i <> obj_of h -> fl i = c_flock _ _ _ c i) ->
  sim (mkC St R Op (c_files _ _ _ c) (c_mutex _ _ _ c) fl (upd (th c) t (TRun _ _ _ h o k (body h o k)))) a.
Proof.
  intros HS E Hw Hfl Hfl'. pose proof (s_threads _ _ HS t) as A1. rewrite E in A1. cbn [th_rel] in A1.
  destruct (a_threads _ _ _ a t) as [|h1 o1|] eqn:Ea; try contradiction. destruct A1 as (-> & -> & Hok & HM).
  assert (Hr : at_rest obj_of c (obj_of h)).
  { apply at_rest_iff. intros t' W. destruct (Nat.eq_dec t' t) as [->|N]; [rewrite E in W; exact W|exact (Hw t' N W)]. }
  constructor.
  - intros t'. cbn [c_threads]. destruct (Nat.eq_dec t' t) as [->|N].
    + rewrite upd_eq, Ea. cbn [th_rel c_mutex c_flock]. auto.
    + rewrite upd_ne by assumption. apply (th_rel_other c); [auto| |apply HS]. cbn [c_flock]. intros _ i W. apply Hfl'. intros ->. exact (Hw t' N W).
  - intros i Hi. cbn [c_files]. apply HS. apply at_rest_iff. rewrite at_rest_iff in Hi. intros t' W. apply (Hi t'). cbn [c_threads].
    destruct (Nat.eq_dec t' t) as [->|N]; [rewrite E in W; contradiction|rewrite upd_ne by assumption; exact W].
  - intros t' h' o' k' p E'. cbn [c_threads c_files] in *. destruct (Nat.eq_dec t' t) as [->|N].
    + rewrite upd_eq in E'. injection E' as <- <- <- <-. exists (c_files _ _ _ c (obj_of h)). split; [apply HS; exact Hr|reflexivity].
    + rewrite upd_ne in E' by assumption. eapply s_run; eauto.
Qed.

Definition ev_ok (e : option (event R Op)) : Prop := match e with Some (EInv _ _ _ h o) => ok h o | _ => True end.

Lemma sim_step c e c' a : cstep c e c' -> ev_ok e -> sim c a ->
  (e = None /\ sim c' a) \/ exists a', astep a e a' /\ sim c' a'.
Proof.
  intros H Hev HS. destruct H as [c t h o k E|c t h o k E Em|c t h o k E Hf Ef|c t h o k E Hf|c t h o k f n E Hf Efl|c t h o k u nx E|c t h o k r E|c t h r E|c t r E];
    pose proof (s_threads _ _ HS t) as A1; rewrite E in A1; cbn [th_rel] in A1;
    destruct (a_threads _ _ _ a t) as [|h1 o1|r1] eqn:Ea; try contradiction.
  - right. eexists. split; [apply A_call; exact Ea|]. apply sim_thread; auto; [rewrite E; reflexivity|cbn; auto].
  - left. split; [reflexivity|]. destruct A1 as (-> & -> & Hok).
    assert (G : sim (mkC St R Op (c_files _ _ _ c) (upd (c_mutex _ _ _ c) (mutex_of h) (Some t)) (c_flock _ _ _ c) (upd (th c) t (TMutex _ _ _ h o k)))
                    (mkA Abs R Op (a_files _ _ _ a) (upd (a_threads _ _ _ a) t (ACalled _ _ h o)))).
    { apply sim_thread; auto; [rewrite E; reflexivity|cbn [th_rel c_mutex]; rewrite upd_eq; auto|].
      intros t' m N Hm. pose proof (holder _ _ _ _ HS Hm) as Hh. destruct (Nat.eq_dec m (mutex_of h)) as [->|Nm]; [congruence|apply upd_ne; exact Nm]. }
    exact (sim_same _ _ _ _ G Ea).
  - left. split; [reflexivity|]. apply sim_begin; auto; [|intros _; apply upd_eq|intros i Ni; apply upd_ne; exact Ni].
    intros t' N W. destruct (locker _ _ _ _ HS W Hf) as (h' & o' & k' & p' & E' & F'). destruct Ef as [Ef|Ef]; [congruence|].
    rewrite F' in Ef. injection Ef as ->. apply N.
    assert (M1 : c_mutex _ _ _ c (mutex_of h) = Some t') by (apply (holder c a); [exact HS|rewrite E'; reflexivity]).
    destruct A1 as (_ & _ & _ & M2). congruence.
  - left. split; [reflexivity|]. apply sim_begin; auto; [|intros Hf'; congruence].
    intros t' N W. destruct (th c t') eqn:E'; try contradiction. cbn in W. apply N.
    assert (M1 : c_mutex _ _ _ c (mutex_of h0) = Some t') by (apply (holder c a); [exact HS|rewrite E'; reflexivity]).
    destruct A1 as (_ & _ & _ & M2). destruct Hlocks as [Hl|Hl]; [congruence|]. rewrite (Hl _ _ W) in M1. congruence.
  - right. destruct A1 as (-> & -> & Hok & HM). eexists. split; [eapply A_failure; eauto|].
    apply sim_thread; auto; [rewrite E; reflexivity|cbn; auto].
  - left. split; [reflexivity|]. assert (W : works_on (th c t) (obj_of h)) by (rewrite E; reflexivity).
    constructor.
    + intros t'. cbn [c_threads]. destruct (Nat.eq_dec t' t) as [->|N]; [rewrite upd_eq, Ea; exact A1|rewrite upd_ne by assumption; apply HS].
    + intros i Hi. cbn [c_files]. rewrite at_rest_iff in Hi. cbn [c_threads] in Hi.
      assert (Ni : i <> obj_of h) by (intros ->; apply (Hi t); rewrite upd_eq; reflexivity).
      rewrite upd_ne by assumption. apply HS. apply at_rest_iff. intros t' W'. apply (Hi t').
      destruct (Nat.eq_dec t' t) as [->|N]; [rewrite E in W'; cbn in W'; congruence|rewrite upd_ne by assumption; exact W'].
    + intros t' h' o' k' p' E'. cbn [c_threads c_files] in *. destruct (Nat.eq_dec t' t) as [->|N].
      * rewrite upd_eq in E'. injection E' as <- <- <- <-. rewrite upd_eq. destruct (s_run _ _ HS _ _ _ _ _ E) as (s0 & R0 & X0).
        exists s0. split; [exact R0|exact X0].
      * rewrite upd_ne in E' by assumption. rewrite upd_ne; [eapply s_run; eauto|]. intros Eo. apply N.
        apply (exclusive' c a t' t (obj_of h) HS); [rewrite E'; exact Eo|exact W].
  - right. destruct A1 as (-> & -> & Hok & HM & HF). assert (W : works_on (th c t) (obj_of h)) by (rewrite E; reflexivity).
    destruct (s_run _ _ HS _ _ _ _ _ E) as (s0 & R0 & X0). cbn [exec] in X0.
    destruct (Hbody h o k s0 _ Hok R0) as [B1 B2]. rewrite <- X0 in B1, B2. cbn [fst snd] in B1, B2.
    eexists. split; [apply A_effect; exact Ea|]. constructor.
    + intros t'. cbn [c_threads a_threads]. destruct (Nat.eq_dec t' t) as [->|N].
      * rewrite !upd_eq. cbn [th_rel c_mutex]. auto.
      * rewrite !upd_ne by assumption. apply (th_rel_other c); [auto| |apply HS]. intros Hf i Wi. cbn [c_flock]. rewrite Hf.
        destruct (Nat.eq_dec i (obj_of h)) as [->|Ni]; [exfalso; apply N; eapply exclusive'; eauto|apply upd_ne; exact Ni].
    + intros i Hi. cbn [c_files a_files]. rewrite at_rest_iff in Hi. cbn [c_threads] in Hi.
      destruct (Nat.eq_dec i (obj_of h)) as [->|Ni]; [rewrite upd_eq; exact B1|]. rewrite upd_ne by assumption. apply HS. apply at_rest_iff.
      intros t' W'. apply (Hi t'). destruct (Nat.eq_dec t' t) as [->|N]; [rewrite E in W'; cbn in W'; congruence|rewrite upd_ne by assumption; exact W'].
    + intros t' h' o' k' p' E'. cbn [c_threads c_files a_files] in *. destruct (Nat.eq_dec t' t) as [->|N]; [rewrite upd_eq in E'; discriminate|].
      rewrite upd_ne in E' by assumption. rewrite upd_ne; [eapply s_run; eauto|]. intros Eo. apply N.
      apply (exclusive' c a t' t (obj_of h) HS); [rewrite E'; exact Eo|exact W].
  - left. split; [reflexivity|]. destruct A1 as (-> & HM).
    assert (G : sim (mkC St R Op (c_files _ _ _ c) (upd (c_mutex _ _ _ c) (mutex_of h) None) (c_flock _ _ _ c) (upd (th c) t (TOut _ _ _ r)))
                    (mkA Abs R Op (a_files _ _ _ a) (upd (a_threads _ _ _ a) t (ADone _ _ r)))).
    { apply sim_thread; auto; [rewrite E; reflexivity|reflexivity|].
      intros t' m N Hm. pose proof (holder _ _ _ _ HS Hm) as Hh. destruct (Nat.eq_dec m (mutex_of h)) as [->|Nm]; [congruence|apply upd_ne; exact Nm]. }
    exact (sim_same _ _ _ _ G Ea).
  - right. cbn in A1. subst r1. eexists. split; [apply A_return; exact Ea|]. apply sim_thread; auto; rewrite E; reflexivity.
Qed.

Lemma refine c0 tr c a0 : csteps St R Op obj_of mutex_of flock_on failed body c0 tr c -> calls ok tr -> sim c0 a0 ->
  exists a, atomic Abs R Op apply obj_of failed a0 tr a /\ sim c a.
Proof.
  intros H. induction H as [c|c c1 c2 tr H IH S|c c1 c2 tr e H IH S]; intros Hc HS.
  - exists a0. split; [constructor|exact HS].
  - destruct (IH Hc HS) as (a & T & HS1). destruct (sim_step _ _ _ _ S I HS1) as [[_ HS2]|(a' & S' & HS2)].
    + eauto.
    + exists a'. split; [eapply AS_silent; eauto|exact HS2].
  - apply Forall_app in Hc as [Hc He]. destruct (IH Hc HS) as (a & T & HS1). inversion_clear He.
    assert (Hv : ev_ok (Some e)) by (destruct e; auto).
    destruct (sim_step _ _ _ _ S Hv HS1) as [[D _]|(a' & S' & HS2)]; [discriminate|].
    exists a'. split; [eapply AS_event; eauto|exact HS2].
Qed.
End Refine.

(** ** The operations in steps do what they do at once *)
Section StepsOk.
Variable B : backend.
Variable File Loc : Type.
Variable join : File -> Loc -> bk_state B.
Variable file_of : bk_state B -> File.
Variable loc_of : bk_state B -> Loc.
Variable R : Type.
Hypothesis J1 : forall f l, file_of (join f l) = f.
Hypothesis J2 : forall f l, loc_of (join f l) = l.
Hypothesis J3 : forall s, join (file_of s) (loc_of s) = s.

Local Notation M := (M File Loc R).
Local Notation ret := (ret File Loc R).
Local Notation bind := (bind File Loc R).
Local Notation tbind := (tbind File Loc R).
Local Notation call := (call B File Loc join file_of loc_of R).
Local Notation St := (bk_state B).

Definition impl {X} (m : M X) (g : St -> St * X) : Prop :=
  forall l k f, exec (m l k) f = let '(s, x) := g (join f l) in exec (k x (loc_of s)) (file_of s).

Lemma impl_ext {X} (m : M X) g g' : impl m g -> (forall s, g s = g' s) -> impl m g'.
Proof. intros H E l k f. rewrite H, E. reflexivity. Qed.
Lemma impl_ret {X} (x : X) : impl (ret x) (fun s => (s, x)).
Proof. intros l k f. unfold ConcModel.ret. rewrite J1, J2. reflexivity. Qed.
Lemma impl_call {X} (g : St -> St * X) : impl (call g) g.
Proof. intros l k f. cbn [ConcModel.call exec]. destruct (g (join f l)) as [s x]. reflexivity. Qed.
Lemma impl_bind {X Y} (m : M X) (f : X -> M Y) g h : impl m g -> (forall x, impl (f x) (h x)) ->
  impl (bind m f) (fun s => let '(s1, x) := g s in h x s1).
Proof.
  intros Hm Hf l k f0. unfold ConcModel.bind. rewrite Hm. destruct (g (join f0 l)) as [s1 x]. rewrite Hf, J3. reflexivity.
Qed.
Lemma impl_tbind {X Y} (m : M (res X)) (f : X -> M (res Y)) g h : impl m g -> (forall x, impl (f x) (h x)) ->
  impl (tbind m f) (fun s => match g s with (s1, Ok x) => h x s1 | (s1, Err e) => (s1, Err e) end).
Proof.
  intros Hm Hf. eapply impl_ext; [apply impl_bind; [exact Hm|]|].
  - intros r. instantiate (1 := fun r s => match r with Ok x => h x s | Err e => (s, Err e) end). destruct r; [apply Hf|apply impl_ret].
  - intros s. cbv beta. destruct (g s) as [s1 [x|e]]; reflexivity.
Qed.

Local Notation m_size := (m_size B File Loc join file_of loc_of R).
Local Notation m_read := (m_read B File Loc join file_of loc_of R).
Local Notation p_read := (p_read B File Loc join file_of loc_of R).
Local Notation p_unchecked_write := (p_unchecked_write B File Loc join file_of loc_of R).
Local Notation p_unchecked_resize := (p_unchecked_resize B File Loc join file_of loc_of R).
Local Notation p_write := (p_write B File Loc join file_of loc_of R).
Local Notation p_resize := (p_resize B File Loc join file_of loc_of R).
Local Notation p_step := (p_step B File Loc join file_of loc_of R).

Lemma impl_read off len : impl (p_read off len) (fun s => (s, bb_read B off len s)).
Proof.
  unfold ConcModel.p_read, bb_read. destruct (len <=? 0); [apply impl_ret|].
  destruct (_ && _); [apply impl_call|]. eapply impl_ext; [apply impl_tbind; [apply impl_call|intros out; apply impl_ret]|].
  intros s. cbv beta. unfold rbind. destruct (bk_read B _ _ s) as [out|e]; [|reflexivity]. reflexivity.
Qed.

Lemma impl_unchecked_write w off : impl (p_unchecked_write w off) (bb_unchecked_write B w off).
Proof.
  unfold ConcModel.p_unchecked_write, bb_unchecked_write. cbv zeta. destruct (winput_len w <=? 0); [apply impl_ret|].
  destruct (_ && _); [destruct w; apply impl_call|].
  set (sb := off / bk_bs B). set (sr := off mod bk_bs B). set (eb := (off + winput_len w) / bk_bs B). set (er := (off + winput_len w) mod bk_bs B).
  set (buf0 := zeros _).
  eapply impl_ext.
  - apply impl_tbind with (g := fun s => (s, if (0 <? sr) && (sb <? eb) then rmap (put_at buf0 0) (bk_read B sb (sb + 1) s) else Ok buf0)).
    + destruct (_ && _); [|apply impl_ret]. eapply impl_ext; [apply impl_tbind; [apply impl_call|intros out; apply impl_ret]|].
      intros s. cbv beta. destruct (bk_read B sb (sb + 1) s); reflexivity.
    + intros buf1. apply impl_tbind with (g := fun s => (s, if 0 <? er then rmap (fun out => (put_at buf1 ((eb - sb) * bk_bs B) out, max er (length out))) (bk_read B eb (eb + 1) s) else Ok (buf1, 0)))
        (h := fun '(buf2, eff) => bk_write B sb eb eff match w with WZero _ => buf2 | WData d => put_at buf2 sr d end).
      * destruct (0 <? er); [|apply impl_ret]. eapply impl_ext; [apply impl_tbind; [apply impl_call|intros out; apply impl_ret]|].
        intros s. cbv beta. destruct (bk_read B eb (eb + 1) s); reflexivity.
      * intros [buf2 eff]. apply (impl_call (bk_write B sb eb eff match w with WZero _ => buf2 | WData d => put_at buf2 sr d end)).
  - intros s. cbv beta. destruct (if (0 <? sr) && (sb <? eb) then _ else _) as [buf1|e]; [|reflexivity].
    destruct (if 0 <? er then _ else _) as [[buf2 eff]|e]; reflexivity.
Qed.

Lemma impl_unchecked_resize cur new : impl (p_unchecked_resize cur new) (bb_unchecked_resize B cur new).
Proof.
  unfold ConcModel.p_unchecked_resize, bb_unchecked_resize. destruct (new =? cur); [apply impl_ret|]. destruct (new <? cur).
  - cbv zeta. eapply impl_ext.
    + apply impl_tbind with (g := fun s => if 0 <? new mod bk_bs B then
           match rmap (put_at (zeros (bk_bs B)) 0) (bk_read B (new / bk_bs B) (new / bk_bs B + 1) s) with
           | Err e => (s, Err e) | Ok buf => bk_write B (new / bk_bs B) (new / bk_bs B) (new mod bk_bs B) buf s end else (s, Ok tt)) (h := fun _ => bk_adjust B new).
      * destruct (0 <? new mod bk_bs B); [|apply impl_ret].
        eapply impl_ext; [apply impl_tbind; [apply impl_call|intros out; apply impl_call]|].
        intros s. cbv beta. destruct (bk_read B _ _ s); reflexivity.
      * intros _. apply impl_call.
    + intros s. cbv beta. unfold then_. destruct (if 0 <? new mod bk_bs B then _ else _) as [s1 [x|e]]; reflexivity.
  - cbv zeta. unfold bb_zero_fill. eapply impl_ext.
    + apply impl_tbind with (g := fun s => if negb (bk_sparse B) || (cur / bk_bs B =? new / bk_bs B) then bb_unchecked_write B (WZero (new - cur)) cur s
        else bb_unchecked_write B (WZero (cur / bk_bs B * bk_bs B + bk_bs B - cur)) cur s) (h := fun _ => bk_adjust B new).
      * destruct (_ || _); apply impl_unchecked_write.
      * intros _. apply impl_call.
    + intros s. cbv beta. unfold then_. destruct (if negb (bk_sparse B) || _ then _ else _) as [s1 [x|e]]; reflexivity.
Qed.

Lemma impl_write off d : impl (p_write off d) (bb_write B off d).
Proof.
  unfold ConcModel.p_write, bb_write. destruct (length d <=? 0); [apply impl_ret|].
  eapply impl_ext.
  - apply impl_bind; [apply impl_call|]. intros cur. apply impl_tbind with (g := fun s => if cur <? off then bb_unchecked_resize B cur off s else (s, Ok tt)) (h := fun _ => bb_unchecked_write B (WData d) off).
    + destruct (cur <? off); [apply impl_unchecked_resize|apply impl_ret].
    + intros _. apply impl_unchecked_write.
  - intros s. cbv beta zeta. unfold then_. destruct (if bk_size B s <? off then _ else _) as [s1 [x|e]]; reflexivity.
Qed.

Lemma impl_resize n : impl (p_resize n) (bb_resize B n).
Proof.
  unfold ConcModel.p_resize, bb_resize. eapply impl_ext; [apply impl_bind; [apply impl_call|intros cur; apply impl_unchecked_resize]|]. reflexivity.
Qed.

Lemma impl_step o : impl (p_step o) (fun s => bb_step B s o).
Proof.
  destruct o as [off len|off d|n|]; cbn [ConcModel.p_step bb_step].
  - eapply impl_ext; [apply impl_bind; [apply impl_read|intros r; apply impl_ret]|]. reflexivity.
  - eapply impl_ext; [apply impl_bind; [apply impl_write|intros r; apply impl_ret]|]. reflexivity.
  - eapply impl_ext; [apply impl_bind; [apply impl_resize|intros r; apply impl_ret]|]. reflexivity.
  - eapply impl_ext; [apply impl_bind; [apply impl_call|intros r; apply impl_ret]|]. reflexivity.
Qed.
End StepsOk.

Lemma lite_body_exec A bs iv_size check sparse rnd iv_fuel key pad o k f :
  exec (lite_body A bs iv_size check sparse rnd iv_fuel key pad o k) f =
  (l_file (fst (bb_step (lite_backend A bs iv_size check sparse rnd iv_fuel) (mkLite f key pad k) o)),
   snd (bb_step (lite_backend A bs iv_size check sparse rnd iv_fuel) (mkLite f key pad k) o)).
Proof.
  unfold lite_body.
  pose proof (impl_step (lite_backend A bs iv_size check sparse rnd iv_fuel) bytes (bytes * bytes * nat)
    (fun f '(key, pad, k) => mkLite f key pad k) l_file (fun s => (l_key s, l_pad s, l_rng s)) sout
    ltac:(intros f0 [[a b] c]; reflexivity) ltac:(intros f0 [[a b] c]; reflexivity) ltac:(intros []; reflexivity) o (key, pad, k) (fun r _ => PRet r) f) as H.
  etransitivity; [exact H|]. cbv beta iota. destruct (bb_step _ _ o) as [s r]. reflexivity.
Qed.

Lemma full_body_exec B o s : exec (full_body B o) s = bb_step B s o.
Proof.
  unfold full_body.
  pose proof (impl_step B (bk_state B) unit (fun s _ => s) (fun s => s) (fun _ => tt) sout
    ltac:(reflexivity) ltac:(intros f0 []; reflexivity) ltac:(reflexivity) o tt (fun r _ => PRet r) s) as H.
  etransitivity; [exact H|]. cbv beta iota. destruct (bb_step _ _ o) as [s1 r]. reflexivity.
Qed.

(** ** Nobody waits for ever *)
Section Progress.
Variable St R Op : Type.
Variable obj_of mutex_of : nat -> nat.
Variable flock_on : bool.
Variable failed : option (N -> R).
Variable body : nat -> Op -> nat -> prog St R.
Local Notation conf := (conf St R Op).
Local Notation thread := (thread St R Op).
Local Notation cstep := (cstep St R Op obj_of mutex_of flock_on failed body).
Local Notation csteps := (csteps St R Op obj_of mutex_of flock_on failed body).

(** Who holds a lock is at work with it; the threads outside a list are idle. *)
Record held (c : conf) : Prop := {
  held_mutex : forall m t, c_mutex _ _ _ c m = Some t ->
    match c_threads _ _ _ c t with
    | TMutex _ _ _ h _ _ => mutex_of h = m | TRun _ _ _ h _ _ _ => mutex_of h = m | TLeave _ _ _ h _ => mutex_of h = m
    | _ => False end;
  held_flock : forall i h, c_flock _ _ _ c i = Some h -> flock_on = true /\
    exists t o k p, c_threads _ _ _ c t = TRun _ _ _ h o k p /\ obj_of h = i;
  held_finite : exists n, forall t, n <= t -> c_threads _ _ _ c t = TIdle _ _ _ }.

Lemma upd_neq {X} (f : nat -> X) i j v : j <> i -> upd f i v j = f j.
Proof. unfold upd. intros H. apply Nat.eqb_neq in H. rewrite H. reflexivity. Qed.
Local Lemma upd_at {X} (f : nat -> X) i v : upd f i v i = v.
Proof. unfold upd. rewrite Nat.eqb_refl. reflexivity. Qed.

Lemma held_step c e c' : held c -> cstep c e c' -> held c'.
Proof.
  intros [Hm Hf [n Hn]] S.
  assert (F : forall t x, exists n, forall t', n <= t' -> upd (c_threads _ _ _ c) t x t' = TIdle _ _ _).
  { intros t x. exists (Nat.max n (t + 1)). intros t' L. rewrite upd_neq by lia. apply Hn. lia. }
  (* threads that hold nothing before and after *)
  assert (Keep : forall t x files fl,
     (forall m, c_mutex _ _ _ c m = Some t -> match x with TMutex _ _ _ h _ _ => mutex_of h = m | TRun _ _ _ h _ _ _ => mutex_of h = m | TLeave _ _ _ h _ => mutex_of h = m | _ => False end) ->
     (forall i h, fl i = Some h -> flock_on = true /\ exists t' o k p, upd (c_threads _ _ _ c) t x t' = TRun _ _ _ h o k p /\ obj_of h = i) ->
     held (mkC _ _ _ files (c_mutex _ _ _ c) fl (upd (c_threads _ _ _ c) t x))).
  { intros t x files fl H1 H2. constructor; cbn [c_mutex c_flock c_threads]; [|exact H2|apply F].
    intros m t' E. destruct (Nat.eq_dec t' t) as [->|N]; [rewrite upd_at; apply H1; exact E|rewrite upd_neq by exact N; apply Hm; exact E]. }
  (* the file locks, when the thread that moves does not run *)
  assert (Fl : forall t x, (forall h o k p, c_threads _ _ _ c t <> TRun _ _ _ h o k p) ->
     forall i h, c_flock _ _ _ c i = Some h -> flock_on = true /\ exists t' o k p, upd (c_threads _ _ _ c) t x t' = TRun _ _ _ h o k p /\ obj_of h = i).
  { intros t x H i h E. destruct (Hf i h E) as (E0 & t' & o & k & p & E1 & E2). split; [exact E0|]. exists t', o, k, p. split; [|exact E2].
    rewrite upd_neq; [exact E1|]. intros ->. exact (H _ _ _ _ E1). }
  inversion S as [c0 t h o k Et|c0 t h o k Et Em|c0 t h o k Et Ef Eh|c0 t h o k Et Ef|c0 t h o k f n0 Et Ef Eh|c0 t h o k u nx Et|c0 t h o k r Et|c0 t h r Et|c0 t r Et]; subst.
  - apply Keep; [intros m E; apply Hm in E; rewrite Et in E; contradiction|]. apply Fl. rewrite Et. discriminate.
  - constructor; cbn [c_mutex c_flock c_threads]; [|apply Fl; rewrite Et; discriminate|apply F].
    intros m t' E. destruct (Nat.eq_dec m (mutex_of h)) as [->|N].
    + rewrite upd_at in E. injection E as <-. rewrite upd_at. reflexivity.
    + rewrite upd_neq in E by exact N. destruct (Nat.eq_dec t' t) as [->|N']; [apply Hm in E; rewrite Et in E; contradiction|].
      rewrite upd_neq by exact N'. apply Hm. exact E.
  - apply Keep; [intros m E; apply Hm in E; rewrite Et in E; exact E|]. intros i h' E.
    destruct (Nat.eq_dec i (obj_of h)) as [->|N].
    + rewrite upd_at in E. injection E as <-. split; [exact Ef|]. exists t. rewrite upd_at. eauto.
    + rewrite upd_neq in E by exact N. exact (Fl t _ ltac:(rewrite Et; discriminate) i h' E).
  - apply Keep; [intros m E; apply Hm in E; rewrite Et in E; exact E|]. apply Fl. rewrite Et. discriminate.
  - apply Keep; [intros m E; apply Hm in E; rewrite Et in E; exact E|]. apply Fl. rewrite Et. discriminate.
  - apply Keep; [intros m E; apply Hm in E; rewrite Et in E; exact E|]. intros i h' E. destruct (Hf i h' E) as (E0 & t' & o' & k' & p' & E1 & E2). split; [exact E0|].
    destruct (Nat.eq_dec t' t) as [->|N].
    + rewrite Et in E1. injection E1 as <- <- <- <-. exists t. rewrite upd_at. eauto 6.
    + exists t', o', k', p'. rewrite upd_neq by exact N. auto.
  - apply Keep; [intros m E; apply Hm in E; rewrite Et in E; exact E|]. intros i h' E.
    assert (E0 : c_flock _ _ _ c i = Some h').
    { destruct flock_on; [|exact E]. destruct (Nat.eq_dec i (obj_of h)) as [->|N]; [rewrite upd_at in E; discriminate|].
      rewrite upd_neq in E by exact N. exact E. }
    destruct (Hf i h' E0) as (E1 & t' & o' & k' & p' & E2 & E3). split; [exact E1|]. rewrite E1 in E.
    destruct (Nat.eq_dec t' t) as [->|N]; [|exists t', o', k', p'; rewrite upd_neq by exact N; auto].
    rewrite Et in E2. injection E2 as <- <- <- <-. subst i. rewrite upd_at in E. discriminate.
  - constructor; cbn [c_mutex c_flock c_threads]; [|apply Fl; rewrite Et; discriminate|apply F].
    intros m t' E. destruct (Nat.eq_dec m (mutex_of h)) as [->|N]; [rewrite upd_at in E; discriminate|].
    rewrite upd_neq in E by exact N. destruct (Nat.eq_dec t' t) as [->|N']; [apply Hm in E; rewrite Et in E; congruence|].
    rewrite upd_neq by exact N'. apply Hm. exact E.
  - apply Keep; [intros m E; apply Hm in E; rewrite Et in E; contradiction|]. apply Fl. rewrite Et. discriminate.
Qed.

Lemma held_start files : held (start _ _ _ files).
Proof. constructor; cbn; try discriminate. exists 0. reflexivity. Qed.

Lemma held_reached c tr c' : csteps c tr c' -> held c -> held c'.
Proof.
  intros H. induction H as [c|c c1 c2 tr H IH S|c c1 c2 tr e H IH S]; intros HH; [exact HH| |];
    exact (held_step _ _ _ (IH HH) S).
Qed.

Lemma run_moves c t h o k p : c_threads _ _ _ c t = TRun _ _ _ h o k p -> exists e c', cstep c e c' /\ onward e.
Proof. intros E. destruct p as [r|u nx]; eexists _, _; (split; [|shelve]); [eapply S_unflock|eapply S_step]; exact E. Unshelve. all: exact I. Qed.

Lemma mutex_moves c t h o k : held c -> c_threads _ _ _ c t = TMutex _ _ _ h o k -> exists e c', cstep c e c' /\ onward e.
Proof.
  intros HH E. destruct (Bool.bool_dec flock_on true) as [Ef|Ef].
  - destruct (c_flock _ _ _ c (obj_of h)) as [h'|] eqn:El.
    + destruct (held_flock _ HH _ _ El) as (_ & t' & o' & k' & p' & E' & _). eapply run_moves; eauto.
    + eexists _, _. split; [eapply S_flock; eauto|exact I].
  - apply Bool.not_true_is_false in Ef. eexists _, _. split; [eapply S_no_flock; eauto|exact I].
Qed.

Lemma progress c t : held c -> c_threads _ _ _ c t <> TIdle _ _ _ -> exists e c', cstep c e c' /\ onward e.
Proof.
  intros HH N. destruct (c_threads _ _ _ c t) as [|h o k|h o k|h o k p|h r|r] eqn:Et; [congruence| | | | |].
  - destruct (c_mutex _ _ _ c (mutex_of h)) as [t'|] eqn:Em.
    + pose proof (held_mutex _ HH _ _ Em) as Q. destruct (c_threads _ _ _ c t') as [|h' o' k'|h' o' k'|h' o' k' p'|h' r'|r'] eqn:Et'; try contradiction.
      * eapply mutex_moves; eauto.
      * eapply run_moves; eauto.
      * eexists _, _. split; [eapply S_unmutex; eauto|exact I].
    + eexists _, _. split; [eapply S_mutex; eauto|exact I].
  - eapply mutex_moves; eauto.
  - eapply run_moves; eauto.
  - eexists _, _. split; [eapply S_unmutex; eauto|exact I].
  - eexists _, _. split; [eapply S_return; eauto|exact I].
Qed.

(** Every step that is not a call brings one thread nearer to its end. *)
Inductive nearer : thread -> thread -> Prop :=
| N_mutex h o k : nearer (TMutex _ _ _ h o k) (TCalled _ _ _ h o k)
| N_run h o k p : nearer (TRun _ _ _ h o k p) (TMutex _ _ _ h o k)
| N_fail h o k r : nearer (TLeave _ _ _ h r) (TMutex _ _ _ h o k)
| N_step h o k u nx s : nearer (TRun _ _ _ h o k (nx s)) (TRun _ _ _ h o k (PStep u nx))
| N_leave h o k r : nearer (TLeave _ _ _ h r) (TRun _ _ _ h o k (PRet r))
| N_out h r : nearer (TOut _ _ _ r) (TLeave _ _ _ h r)
| N_idle r : nearer (TIdle _ _ _) (TOut _ _ _ r).

Lemma nearer_wf : forall th, Acc nearer th.
Proof.
  assert (Idle : Acc nearer (TIdle _ _ _)) by (constructor; intros y H; inversion H).
  assert (Out : forall r, Acc nearer (TOut _ _ _ r)) by (intros r; constructor; intros y H; inversion H; subst; exact Idle).
  assert (Leave : forall h r, Acc nearer (TLeave _ _ _ h r)) by (intros h r; constructor; intros y H; inversion H; subst; apply Out).
  assert (Run : forall p h o k, Acc nearer (TRun _ _ _ h o k p)).
  { induction p as [r|u nx IH]; intros h o k; constructor; intros y H; inversion H; subst; [apply Leave|apply IH]. }
  assert (Mut : forall h o k, Acc nearer (TMutex _ _ _ h o k)) by (intros h o k; constructor; intros y H; inversion H; subst; [apply Run|apply Leave]).
  intros [|h o k|h o k|h o k p|h r|r]; auto. constructor. intros y H. inversion H; subst. apply Mut.
Qed.

Lemma step_nearer c e c' : cstep c e c' -> onward e ->
  exists t x, c_threads _ _ _ c' = upd (c_threads _ _ _ c) t x /\ nearer x (c_threads _ _ _ c t).
Proof.
  intros S Ho. inversion S; subst; try contradiction; cbn [c_threads]; eexists _, _; (split; [reflexivity|]); rewrite H; constructor.
Qed.

(** The first [n] threads. *)
Inductive one_nearer : list thread -> list thread -> Prop :=
| O_here x y l : nearer x y -> one_nearer (x :: l) (y :: l)
| O_later x l l' : one_nearer l' l -> one_nearer (x :: l') (x :: l).
Lemma one_nearer_wf : forall l, Acc one_nearer l.
Proof.
  induction l as [|x l IH]; [constructor; intros y H; inversion H|].
  revert l IH. induction (nearer_wf x) as [x _ IHx]. intros l Hl. induction Hl as [l Hl IHl].
  constructor. intros y H. inversion H; subst.
  - apply IHx; [assumption|]. constructor. exact Hl.
  - apply IHl. assumption.
Qed.

Lemma map_nearer (f : nat -> thread) t x l : NoDup l -> In t l -> nearer x (f t) -> one_nearer (map (upd f t x) l) (map f l).
Proof.
  intros ND. induction ND as [|a l Na ND IH]; intros Hi Hn; [contradiction|]. cbn [map]. destruct (Nat.eq_dec a t) as [->|Nt].
  - rewrite upd_at. replace (map (upd f t x) l) with (map f l); [constructor; exact Hn|].
    apply map_ext_in. intros b Hb. symmetry. apply upd_neq. intros ->. contradiction.
  - rewrite upd_neq by exact Nt. constructor. apply IH; [|exact Hn]. destruct Hi; congruence.
Qed.

Lemma calls_end c : held c -> Acc (fun c2 c1 => exists e, cstep c1 e c2 /\ onward e) c.
Proof.
  intros HH. destruct (held_finite _ HH) as [n Hn].
  remember (map (c_threads _ _ _ c) (seq 0 n)) as l eqn:El. revert c HH Hn El. induction (one_nearer_wf l) as [l _ IH]. intros c HH Hn ->.
  constructor. intros c2 (e & S & Ho). destruct (step_nearer _ _ _ S Ho) as (t & x & E & Hx).
  assert (Lt : t < n). { destruct (Nat.lt_ge_cases t n) as [L|L]; [exact L|]. rewrite (Hn t L) in Hx. inversion Hx. }
  eapply IH; [|eapply held_step; eauto| |reflexivity].
  - rewrite E. apply map_nearer; [apply seq_NoDup|apply in_seq; lia|exact Hx].
  - intros t' L. rewrite E, upd_neq by lia. apply Hn. exact L.
Qed.
End Progress.
