(** What the steps of one program do, whatever happens between them. *)
From Coq Require Import Strings.String Lia ZArith Permutation.
From Verif Require Import Base BaseLemmas TextModel NameModel BtreeModel BtreeSpec FullFsModel FullFsSpec FullFsProofs FullFsPath FullFsInv FullFsStep FsConcModel FsConcSpec FsConcProofs FsConcSafe FsConcOps FsMomentSpec.
Local Open Scope list_scope.

(** ** Programs and their steps *)
Inductive plays {A} : prog A -> list (ffs * ffs) -> A -> Prop :=
| P_ret a : plays (PRet a) [] a
| P_step upd next st ms a : plays (next st) ms a -> plays (PStep upd next) ((st, upd st) :: ms) a.

Lemma plays_ret {A} (a : A) ms b : plays (PRet a) ms b -> ms = [] /\ b = a.
Proof. intros H. inversion H. auto. Qed.
Lemma plays_bind {A B} (p : prog A) (f : A -> prog B) : forall ms b, plays (bind p f) ms b ->
  exists ms1 ms2 a, ms = ms1 ++ ms2 /\ plays p ms1 a /\ plays (f a) ms2 b.
Proof.
  induction p as [a|upd next IH]; cbn [bind]; intros ms b H.
  - exists [], ms, a. split; [reflexivity|]. split; [constructor|exact H].
  - inversion H as [|u n st ms' b' H']; subst. destruct (IH st _ _ H') as (ms1 & ms2 & a & -> & H1 & H2).
    exists ((st, upd st) :: ms1), ms2, a. split; [reflexivity|]. split; [now constructor|exact H2].
Qed.
Lemma plays_do {A} (f : ffs -> ffs * A) ms a : plays (p_do f) ms a -> exists st, ms = [(st, fst (f st))] /\ a = snd (f st).
Proof.
  intros H. inversion H as [|u n st ms' b' H']; subst. apply plays_ret in H'. destruct H' as [-> ->]. eauto.
Qed.
Lemma plays_do_bind {A B} (f : ffs -> ffs * A) (k : A -> prog B) ms b : plays (bind (p_do f) k) ms b ->
  exists st ms2, ms = (st, fst (f st)) :: ms2 /\ plays (k (snd (f st))) ms2 b.
Proof.
  intros H. apply plays_bind in H. destruct H as (ms1 & ms2 & a & -> & H1 & H2). apply plays_do in H1. destruct H1 as (st & -> & ->).
  exists st, ms2. split; [reflexivity|exact H2].
Qed.
Lemma plays_ask_bind {A B} (f : ffs -> A) (k : A -> prog B) ms b : plays (bind (p_ask f) k) ms b ->
  exists st ms2, ms = (st, st) :: ms2 /\ plays (k (f st)) ms2 b.
Proof. intros H. apply plays_do_bind in H. exact H. Qed.

(** A program that notes its steps. *)
Fixpoint traced {A} (p : prog A) (h : list (ffs * ffs)) : prog (A * list (ffs * ffs)) :=
  match p with
  | PRet a => PRet (a, h)
  | PStep upd next => PStep upd (fun st => traced (next st) (h ++ [(st, upd st)]))
  end.

Section Proofs.
Variable cmp : bytes -> bytes -> comparison.
Hypothesis Hcmp : cmp_ok cmp.
Notation safe := (safe cmp).
Notation CInv := (CInv cmp).
Notation calm := (calm cmp).
Notation walks := (walks cmp).
Notation base_over := (base_over cmp).
Notation base_missing := (base_missing cmp).
Notation last_over := (last_over cmp).
Notation file_over := (file_over cmp).
Notation file_missing := (file_missing cmp).
Notation happened := (happened cmp).
Notation name_in := (name_in cmp).

Lemma safe_traced {A} (p : prog A) Q (R : list (ffs * ffs) -> A -> Prop) : forall own pos h,
  safe p Q own pos -> (forall ms a, plays p ms a -> R ms a) ->
  safe (traced p h) (fun x o q => exists ms, snd x = h ++ ms /\ Q (fst x) o q /\ R ms (fst x)) own pos.
Proof.
  revert R. induction p as [a|upd next IH]; cbn [safe traced]; intros R own pos h H HR.
  - exists []. rewrite app_nil_r. split; [reflexivity|]. split; [exact H|]. apply HR. constructor.
  - intros eo ep lost st Hi Hr. destruct (H eo ep lost st Hi Hr) as (o & q & l & H1 & H2 & H3). exists o, q, l. split; [exact H1|]. split; [exact H2|].
    eapply safe_imp; [|exact (IH st (fun ms a => R ((st, upd st) :: ms) a) o q (h ++ [(st, upd st)]) H3 (fun ms a Hp => HR _ _ (P_step _ _ _ _ _ Hp)))].
    cbn beta. intros x o' q' (ms & E & Hq & Hm). exists ((st, upd st) :: ms). split; [|auto]. rewrite E, <- app_assoc. reflexivity.
Qed.
Lemma traced_bind {A B} (p : prog A) (f : A -> prog B) Q : forall h own pos,
  safe (bind (traced p h) (fun x => traced (f (fst x)) (snd x))) Q own pos -> safe (traced (bind p f) h) Q own pos.
Proof.
  induction p as [a|upd next IH]; cbn [bind traced safe]; intros h own pos H; [exact H|].
  intros eo ep lost st Hi Hr. destruct (H eo ep lost st Hi Hr) as (o & q & l & H1 & H2 & H3). exists o, q, l. auto.
Qed.

(** ** Steps that change nothing *)
Lemma kept_refl st : kept (st, st).
Proof. intros id nd H. left. eauto. Qed.
Lemma calm_refl st : calm (st, st).
Proof. split; [apply kept_refl|reflexivity]. Qed.
Lemma name_in_put st id nd d n : name_in (put st id nd) d n =
  if bytes_eqb id d then option_map (fun e => (e_id e, e_type e)) (find_name cmp n (i_dir nd)) else name_in st d n.
Proof. unfold FullFsSpec.name_in. rewrite get_put. now destruct (bytes_eqb id d). Qed.
Lemma kept_put st id nd nd' : get st id = Some nd -> i_mode nd' = i_mode nd -> i_data nd' = i_data nd -> kept (st, put st id nd').
Proof.
  intros Hg Hm Hd x n Hx. cbn [fst snd] in *. left. rewrite get_put. destruct (bytes_eqb id x) eqn:E; [|eauto].
  apply bytes_eqb_eq in E. subst. replace n with nd by congruence. eauto.
Qed.
Lemma calm_put st id nd nd' : get st id = Some nd -> i_mode nd' = i_mode nd -> i_data nd' = i_data nd ->
  (forall n, find_name cmp n (i_dir nd') = find_name cmp n (i_dir nd)) -> calm (st, put st id nd').
Proof.
  intros Hg Hm Hd Hn. split; [now apply (kept_put st id nd)|]. cbn [fst snd]. intros d n _. rewrite name_in_put.
  destruct (bytes_eqb id d) eqn:E; [|reflexivity]. apply bytes_eqb_eq in E. subst. unfold FullFsSpec.name_in. now rewrite Hg, Hn.
Qed.
Lemma calm_hold id st : calm (st, hold id st).
Proof. split; [|reflexivity]. intros x nd H. left. cbn. eauto. Qed.
Lemma calm_set_parent id p st : calm (st, set_parent id p st).
Proof.
  unfold set_parent. destruct (get st id) as [nd|] eqn:E; [|apply calm_refl]. now apply (calm_put st id nd).
Qed.
Lemma calm_down id st : calm (st, count_down id st).
Proof.
  unfold count_down. destruct (get st id) as [nd|] eqn:E; [|apply calm_refl]. now apply (calm_put st id nd).
Qed.
Lemma nget_ndel id x l : nget x (ndel id l) = if bytes_eqb id x then None else nget x l.
Proof.
  induction l as [|[i n] l IH]; cbn [ndel filter nget fst]; [now destruct (bytes_eqb id x)|].
  fold (ndel id l). destruct (bytes_eqb i id) eqn:E1; cbn [negb].
  - apply bytes_eqb_eq in E1. subst i. rewrite IH. now destruct (bytes_eqb id x).
  - cbn [nget]. destruct (bytes_eqb i x) eqn:E2; [|exact IH]. apply bytes_eqb_eq in E2. subst i.
    destruct (bytes_eqb id x) eqn:E3; [|reflexivity]. apply bytes_eqb_eq in E3. subst. now rewrite bytes_eqb_refl in E1.
Qed.
Lemma calm_drop id st : calm (st, drop_ref id st).
Proof.
  assert (H0 : calm (st, mkFfs (nodes st) (remove_one id (opened st)))).
  { split; [|reflexivity]. intros x nd H. left. cbn. eauto. }
  unfold drop_ref, finish. cbn [nodes opened]. destruct (_ || _); [exact H0|].
  unfold get at 1. cbn [nodes]. fold (get st id). destruct (get st id) as [nd|] eqn:Eg; [|exact H0].
  destruct (i_nlink nd =? 0)%N eqn:E0; [|exact H0]. apply N.eqb_eq in E0.
  assert (X : forall x, get (mkFfs (ndel id (nodes st)) (remove_one id (opened st))) x = if bytes_eqb id x then None else get st x) by (intros x; apply nget_ndel).
  split.
  - intros x n Hx. cbn [fst snd] in *. rewrite X. destruct (bytes_eqb id x) eqn:E; [|left; eauto]. apply bytes_eqb_eq in E. subst.
    right. split; [reflexivity|congruence].
  - cbn [fst snd]. intros d n Hd. unfold FullFsSpec.name_in. rewrite X in *. destruct (bytes_eqb id d) eqn:E; [|reflexivity].
    apply bytes_eqb_eq in E. subst. elim Hd; congruence.
Qed.
Lemma calm_new id nd st : get st id = None -> i_dir nd = [] -> calm (st, hold id (put st id nd)).
Proof.
  intros Hg Hd. assert (X : forall x, get (hold id (put st id nd)) x = if bytes_eqb id x then Some nd else get st x) by (intros x; exact (get_put st id x nd)).
  split.
  - intros x n Hx. cbn [fst snd] in *. left. rewrite X. destruct (bytes_eqb id x) eqn:E; [|eauto]. apply bytes_eqb_eq in E. congruence.
  - cbn [fst snd]. intros d n _. unfold FullFsSpec.name_in. rewrite X. destruct (bytes_eqb id d) eqn:E; [|reflexivity].
    apply bytes_eqb_eq in E. subst. now rewrite Hg, Hd.
Qed.

Lemma plays_leave {A} (a : A) : forall ids ms b, plays (leave ids a) ms b -> b = a /\ Forall calm ms.
Proof.
  induction ids as [|id ids IH]; cbn [leave]; intros ms b H.
  - apply plays_ret in H. destruct H as [-> ->]. auto.
  - apply plays_do_bind in H. destruct H as (st & ms2 & -> & H). cbn [fst snd] in *. destruct (IH _ _ H) as [-> Hc].
    split; [reflexivity|]. constructor; [apply calm_drop|exact Hc].
Qed.
Lemma plays_open id ty ms r : plays (p_open id ty) ms r ->
  exists st st', ms = [(st, st')] /\ calm (st, st') /\ r = open_as id ty st.
Proof.
  intros H. apply plays_do in H. destruct H as (st & -> & ->). exists st. eexists. split; [reflexivity|].
  destruct (open_as id ty st); cbn [fst snd]; split; auto; [apply calm_hold|apply calm_refl].
Qed.
Lemma plays_open_bind {B} id ty (k : res holder -> prog B) ms b : plays (bind (p_open id ty) k) ms b ->
  exists st st' ms2, ms = (st, st') :: ms2 /\ calm (st, st') /\ plays (k (open_as id ty st)) ms2 b.
Proof.
  intros H. apply plays_bind in H. destruct H as (ms1 & ms2 & a & -> & H1 & H2). apply plays_open in H1. destruct H1 as (st & st' & -> & Hc & ->).
  exists st, st', ms2. split; [reflexivity|]. split; [exact Hc|exact H2].
Qed.
Lemma plays_parent_bind {B} id p (k : unit -> prog B) ms b : plays (bind (p_set_parent id p) k) ms b ->
  exists st st' ms2, ms = (st, st') :: ms2 /\ calm (st, st') /\ plays (k tt) ms2 b.
Proof.
  intros H. apply plays_do_bind in H. destruct H as (st & ms2 & -> & H). cbn [fst snd] in *. do 3 eexists. split; [reflexivity|]. split; [apply calm_set_parent|exact H].
Qed.
Lemma plays_drop_bind {B} id (k : unit -> prog B) ms b : plays (bind (p_drop id) k) ms b ->
  exists st st' ms2, ms = (st, st') :: ms2 /\ calm (st, st') /\ plays (k tt) ms2 b.
Proof.
  intros H. apply plays_do_bind in H. destruct H as (st & ms2 & -> & H). cbn [fst snd] in *. do 3 eexists. split; [reflexivity|]. split; [apply calm_drop|exact H].
Qed.

(** ** Walks *)
Lemma walks_front k ms d p r : walks k ms d p r -> forall ms0, walks k (ms0 ++ ms) d p r.
Proof.
  induction 1; intros ms0; try (rewrite !app_assoc; rewrite <- ?app_assoc; rewrite (app_assoc ms0)); try (econstructor; eauto; fail).
Qed.
Lemma walks_back k ms d p r : walks k ms d p r -> forall ms9, walks k (ms ++ ms9) d p r.
Proof.
  induction 1; intros ms9; rewrite <- ?app_assoc; cbn [app]; rewrite <- ?app_assoc; cbn [app]; rewrite <- ?app_assoc; try (econstructor; eauto; fail).
Qed.
Lemma walks_mid k ms d p r ms0 ms9 : walks k ms d p r -> walks k (ms0 ++ ms ++ ms9) d p r.
Proof. intros H. apply walks_front. now apply walks_back. Qed.

Lemma get_entry_name h n st r : get_entry cmp h n st = r ->
  match r with
  | Ok o => is_dir st (fst h) /\ name_in st (fst h) n = option_map (fun e => (e_id e, e_type e)) o
  | Err e => e = E_PERM \/ e = E_NAMETOOLONG \/ e = EUndef
  end.
Proof.
  intros <-. unfold get_entry, cast_as, FullFsSpec.name_in, is_dir. destruct (get st (fst h)) as [nd|]; [|cbn; auto].
  destruct (snd h =? i_type nd)%N eqn:E1; [|cbn; auto]. destruct (snd h =? TDIR)%N eqn:E2; [|cbn; auto]. cbn [rbind dspec_step].
  destruct (name_too_long n); [auto|]. split; [|reflexivity]. exists nd. split; [reflexivity|]. apply N.eqb_eq in E1, E2. congruence.
Qed.
Lemma open_as_name id ty st : match open_as id ty st with
  | Ok h => h = (id, ty)
  | Err e => (e = E_NOENT /\ get st id = None) \/ e = E_PERM
  end.
Proof.
  unfold open_as. destruct (bytes_eqb id root_id).
  - destruct (ty =? TDIR)%N; auto.
  - destruct (get st id) eqn:E; [|auto]. destruct (_ || _); auto.
Qed.
Lemma cast_name want h st : match cast_as want h st with
  | Ok nd => get st (fst h) = Some nd /\ i_type nd = want
  | Err e => e = E_PERM \/ e = EUndef
  end.
Proof.
  unfold cast_as. destruct (get st (fst h)) as [nd|]; [|auto]. destruct (snd h =? i_type nd)%N eqn:E1; [|auto].
  destruct (snd h =? want)%N eqn:E2; [|auto]. apply N.eqb_eq in E1, E2. split; congruence.
Qed.

(** What a walk that answers [r] has seen. *)
Definition walked (ms : list ffs) (k : nat) (d : bytes) (p : list bytes) (r : res (option holder)) : Prop :=
  match r with
  | Ok (Some h) => walks k ms d p (Some (fst h))
  | Ok None => walks k ms d p None
  | Err e => (e = E_NOENT /\ walks k ms d p None) \/ e = E_PERM \/ e = E_NAMETOOLONG \/ e = EUndef \/ e = E_LOOP
  end.
Lemma plays_open_walk : forall k splits pid parent ms r, pid = fst parent -> plays (c_open cmp k splits pid parent) ms r ->
  Forall calm ms /\ match k with
                    | O => r = Err E_LOOP
                    | S k' => walked (before ms) k' (fst parent) splits r
                    end.
Proof.
  induction k as [|k IHk].
  { intros splits pid parent ms r _ H. assert (H' : plays (leave [fst parent] (Err E_LOOP)) ms r) by (destruct splits; exact H).
    apply plays_leave in H'. tauto. }
  induction splits as [|s ss IH]; intros pid parent ms r Hpid H; cbn [c_open] in H.
  { apply plays_ret in H. destruct H as [-> ->]. split; [constructor|]. cbn. constructor. }
  destruct (bytes_eqb s (str ".")) eqn:E1.
  { apply bytes_eqb_eq in E1. subst s. destruct (IH _ _ _ _ Hpid H) as [H1 H2]. split; [exact H1|].
    destruct r as [[h|]|e]; cbn in *; try now constructor. destruct H2 as [[-> H2]|H2]; [left; split; [reflexivity|now constructor]|now right]. }
  destruct (bytes_eqb s (str "..")) eqn:E2.
  { apply bytes_eqb_eq in E2. subst s. apply plays_ask_bind in H. destruct H as (st & ms2 & -> & H).
    destruct (get st (fst parent)) as [nd|] eqn:Eg; cbv beta iota in H.
    2:{ apply plays_leave in H. destruct H as [-> Hc]. split; [constructor; [apply calm_refl|exact Hc]|]. cbn. auto. }
    apply plays_open_bind in H. destruct H as (st2 & st2' & ms3 & -> & Hc2 & H). pose proof (open_as_name (i_parent nd) TDIR st2) as Ho.
    destruct (open_as (i_parent nd) TDIR st2) as [h|e].
    - apply plays_drop_bind in H. destruct H as (st3 & st3' & ms4 & -> & Hc3 & H). subst h. destruct (IH (i_parent nd) (i_parent nd, TDIR) _ _ eq_refl H) as [H1 H2].
      split; [constructor; [apply calm_refl|]; constructor; [exact Hc2|]; constructor; [exact Hc3|exact H1]|].
      cbn [before map fst] in *. assert (X : forall r0, walks k (before ms4) (i_parent nd) ss r0 -> walks k (st :: st2 :: st3 :: before ms4) (fst parent) (str ".." :: ss) r0).
      { intros r0 Hw. apply (M_up cmp k [] st (st2 :: st3 :: before ms4) (fst parent) nd ss r0 Eg). exact (walks_front _ _ _ _ _ Hw [st2; st3]). }
      destruct r as [[h|]|e]; cbn [walked] in *; try now apply X. destruct H2 as [[-> H2]|H2]; [left; split; [reflexivity|now apply X]|now right].
    - apply plays_leave in H. destruct H as [-> Hc]. split; [constructor; [apply calm_refl|]; constructor; [exact Hc2|exact Hc]|].
      cbn [walked before map fst]. destruct Ho as [[-> Ho]| ->]; [left|now right; left]. split; [reflexivity|].
      exact (M_up_gone cmp k [] st [] st2 (before ms3) (fst parent) nd ss Eg Ho). }
  apply plays_ask_bind in H. destruct H as (st & ms2 & -> & H). pose proof (get_entry_name parent s st _ eq_refl) as Hn.
  destruct (get_entry cmp parent s st) as [[e|]|er].
  - destruct Hn as [Hd Hn]. cbn [option_map] in Hn.
    apply plays_open_bind in H. destruct H as (st2 & st2' & ms3 & -> & Hc2 & H). pose proof (open_as_name (e_id e) (e_type e) st2) as Ho.
    destruct (open_as (e_id e) (e_type e) st2) as [h|er].
    2:{ apply plays_leave in H. destruct H as [-> Hc]. split; [constructor; [apply calm_refl|]; constructor; [exact Hc2|exact Hc]|].
        cbn [walked before map fst]. destruct Ho as [[-> Ho]| ->]; [left|now right; left]. split; [reflexivity|].
        exact (M_gone cmp k [] st [] st2 (before ms3) (fst parent) s ss _ Hn Ho). }
    subst h. apply plays_parent_bind in H. destruct H as (st3 & st3' & ms4 & -> & Hc3 & H).
    destruct (e_type e =? TLINK)%N eqn:El.
    + apply N.eqb_eq in El. apply plays_ask_bind in H. destruct H as (st4 & ms5 & -> & H). pose proof (cast_name TLINK (e_id e, e_type e) st4) as Hca.
      destruct (cast_as TLINK (e_id e, e_type e) st4) as [ln|er]; cbn [rmap] in H.
      2:{ apply plays_leave in H. destruct H as [-> Hc]. split; [repeat (constructor; [first [apply calm_refl|assumption]|]); exact Hc|].
          cbn. destruct Hca as [->| ->]; auto 6. }
      destruct Hca as [Hg _]. cbn [fst] in Hg. apply plays_bind in H. destruct H as (ms6 & ms7 & r1 & -> & H1 & H2). destruct (IHk _ _ _ _ _ Hpid H1) as [Hc6 Hw].
      rewrite El in Hn.
      destruct r1 as [[h|]|er].
      * apply plays_drop_bind in H2. destruct H2 as (st5 & st5' & ms8 & -> & Hc5 & H2). destruct (IH (fst h) h _ _ eq_refl H2) as [H8 Hw2].
        split; [repeat (constructor; [first [apply calm_refl|assumption]|]); apply Forall_app; split; [exact Hc6|]; constructor; [exact Hc5|exact H8]|].
        destruct k as [|k]; [discriminate|]. cbn [walked] in Hw.
        assert (X : forall r0, walks (S k) (before ms8) (fst h) ss r0 -> walks (S k) (before ((st, st) :: (st2, st2') :: (st3, st3') :: (st4, st4) :: ms6 ++ (st5, st5') :: ms8)) (fst parent) (s :: ss) r0).
        { intros r0 H0. unfold before in *. cbn [map fst]. rewrite map_app. cbn [map fst].
          apply (M_link cmp k [] st [st2; st3] st4 (map fst ms6) (st5 :: map fst ms8) (fst parent) s ss r0 (e_id e) ln (fst h) Hn Hg Hw).
          exact (walks_front _ _ _ _ _ H0 [st5]). }
        destruct r as [[h'|]|e']; cbn [walked] in *; try now apply X. destruct Hw2 as [[-> H3]|H3]; [left; split; [reflexivity|now apply X]|now right].
      * apply plays_leave in H2. destruct H2 as [-> Hc]. split; [repeat (constructor; [first [apply calm_refl|assumption]|]); apply Forall_app; auto|].
        destruct k as [|k]; [discriminate|]. cbn [walked] in Hw |- *. unfold before in *. cbn [map fst]. rewrite map_app.
        apply (M_link_missing cmp k [] st [st2; st3] st4 _ (fst parent) s ss (e_id e) ln Hn Hg). now apply walks_back.
      * apply plays_leave in H2. destruct H2 as [-> Hc]. split; [repeat (constructor; [first [apply calm_refl|assumption]|]); apply Forall_app; auto|].
        destruct k as [|k]; [injection Hw as ->; cbn; auto 6|]. cbn [walked] in Hw |- *. destruct Hw as [[-> Hw]|Hw]; [left; split; [reflexivity|]|now right].
        unfold before in *. cbn [map fst]. rewrite map_app.
        apply (M_link_missing cmp k [] st [st2; st3] st4 _ (fst parent) s ss (e_id e) ln Hn Hg). now apply walks_back.
    + apply N.eqb_neq in El. apply plays_drop_bind in H. destruct H as (st4 & st4' & ms5 & -> & Hc4 & H). destruct (IH (e_id e) (e_id e, e_type e) _ _ eq_refl H) as [H1 H2].
      split; [repeat (constructor; [first [apply calm_refl|assumption]|]); exact H1|]. cbn [fst] in H2.
      assert (X : forall r0, walks k (before ms5) (e_id e) ss r0 -> walks k (before ((st, st) :: (st2, st2') :: (st3, st3') :: (st4, st4') :: ms5)) (fst parent) (s :: ss) r0).
      { intros r0 H0. unfold before in *. cbn [map fst]. apply (M_name cmp k [] st (st2 :: st3 :: st4 :: map fst ms5) (fst parent) s ss r0 (e_id e) (e_type e) Hn El).
        exact (walks_front _ _ _ _ _ H0 [st2; st3; st4]). }
      destruct r as [[h'|]|e']; cbn [walked] in *; try now apply X. destruct H2 as [[-> H3]|H3]; [left; split; [reflexivity|now apply X]|now right].
  - destruct Hn as [Hd Hn]. apply plays_leave in H. destruct H as [-> Hc]. split; [constructor; [apply calm_refl|exact Hc]|].
    cbn [walked]. exact (M_missing cmp k [] st (before ms2) (fst parent) s ss Hd Hn).
  - apply plays_leave in H. destruct H as [-> Hc]. split; [constructor; [apply calm_refl|exact Hc]|]. cbn. destruct Hn as [->|[->| ->]]; auto 6.
Qed.

Definition based (ms : list ffs) (path : bytes) (r : res (holder * bytes)) : Prop :=
  match r with
  | Ok (h, n) => base_over ms path (fst h) n
  | Err e => (e = E_NOENT /\ base_missing ms path) \/ e = E_PERM \/ e = E_NAMETOOLONG \/ e = EUndef \/ e = E_LOOP
  end.
Lemma plays_base path ms r : plays (c_base cmp path) ms r -> Forall calm ms /\ based (before ms) path r.
Proof.
  intros H. unfold c_base in H. apply plays_open_bind in H. destruct H as (st & st' & ms2 & -> & Hc & H).
  assert (Eo : open_as root_id TDIR st = Ok (root_id, TDIR)) by (unfold open_as; rewrite bytes_eqb_refl; reflexivity). rewrite Eo in H. clear Eo.
  unfold based, FsMomentSpec.base_over, FsMomentSpec.base_missing.
  destruct (path_comps path) as [|s [|s' l]] eqn:Ep.
  - apply plays_ret in H. destruct H as [-> ->]. split; [constructor; [exact Hc|constructor]|]. left. auto.
  - apply plays_ret in H. destruct H as [-> ->]. split; [constructor; [exact Hc|constructor]|]. right. split; [discriminate|]. split; [reflexivity|]. constructor.
  - apply plays_bind in H. destruct H as (ms3 & ms4 & r1 & -> & H1 & H2).
    destruct (plays_open_walk 16 _ _ _ _ _ (eq_refl : root_id = fst (root_id, TDIR)) H1) as [Hc1 Hw].
    assert (Hms : ms4 = []) by (destruct r1 as [[?|]|?]; apply plays_ret in H2; tauto). subst ms4. rewrite app_nil_r.
    split; [now constructor|]. change (before ((st, st') :: ms3)) with ([st] ++ before ms3).
    destruct r1 as [[h|]|e]; apply plays_ret in H2; destruct H2 as [_ ->]; cbn [walked] in Hw.
    + right. split; [discriminate|]. split; [reflexivity|]. now apply walks_front.
    + left. split; [reflexivity|]. now apply walks_front.
    + destruct Hw as [[-> Hw]|Hw]; [left; split; [reflexivity|now apply walks_front]|now right].
Qed.
Lemma base_front ms path d n ms0 : base_over ms path d n -> base_over (ms0 ++ ms) path d n.
Proof. intros [H|(H1 & H2 & H3)]; [now left|]. right. split; [exact H1|]. split; [exact H2|]. now apply walks_front. Qed.
Lemma base_back ms path d n ms9 : base_over ms path d n -> base_over (ms ++ ms9) path d n.
Proof. intros [H|(H1 & H2 & H3)]; [now left|]. right. split; [exact H1|]. split; [exact H2|]. now apply walks_back. Qed.
Lemma missing_back ms path ms9 : base_missing ms path -> base_missing (ms ++ ms9) path.
Proof. intros H. now apply walks_back. Qed.

Definition filed (ms : list ffs) (path : bytes) (follow : bool) (r : res (option holder)) : Prop :=
  match r with
  | Ok (Some h) => file_over ms path follow (fst h)
  | Ok None => file_missing ms path follow
  | Err e => (e = E_NOENT /\ file_missing ms path follow) \/ e = E_PERM \/ e = E_NAMETOOLONG \/ e = EUndef \/ e = E_LOOP
  end.
Lemma plays_all path follow ms r : plays (c_all cmp path follow) ms r -> Forall calm ms /\ filed (before ms) path follow r.
Proof.
  intros H. unfold c_all in H. unfold filed, FsMomentSpec.file_over, FsMomentSpec.file_missing.
  destruct (bytes_eqb path [] || bytes_eqb path (str "/")) eqn:Er.
  { apply plays_open_bind in H. destruct H as (st & st' & ms2 & -> & Hc & H).
    assert (Eo : open_as root_id TDIR st = Ok (root_id, TDIR)) by (unfold open_as; rewrite bytes_eqb_refl; reflexivity). rewrite Eo in H. clear Eo.
    apply plays_ret in H. destruct H as [-> ->]. split; [constructor; [exact Hc|constructor]|reflexivity]. }
  apply Bool.orb_false_iff in Er. destruct Er as [Er1 Er2]. apply bytes_eqb_neq in Er1, Er2.
  apply plays_bind in H. destruct H as (ms1 & ms2 & b & -> & H1 & H). destruct (plays_base _ _ _ H1) as [Hc1 Hb]. unfold before in *. rewrite map_app in *.
  destruct b as [[base name]|e]; cbn [based] in Hb.
  2:{ apply plays_ret in H. destruct H as [-> ->]. rewrite !app_nil_r. split; [exact Hc1|]. destruct Hb as [[-> Hb]|Hb]; [left; auto 6|now right]. }
  apply plays_ask_bind in H. destruct H as (st & ms3 & -> & H). pose proof (get_entry_name base name st _ eq_refl) as Hn.
  assert (Hc0 : forall l, Forall calm l -> Forall calm (ms1 ++ (st, st) :: l)).
  { intros l Hl. apply Forall_app. split; [exact Hc1|]. constructor; [apply calm_refl|exact Hl]. }
  assert (Hl : forall v l, is_dir st (fst base) -> name_in st (fst base) name = v -> last_over (map fst ms1 ++ map fst ((st, st) :: l)) path (fst base) v (map fst l)).
  { intros v l Hd Hv. exists (map fst ms1), st, name. cbn [map fst]. auto. }
  destruct (get_entry cmp base name st) as [[e|]|er].
  - destruct Hn as [Hd Hn]. cbn [option_map] in Hn. specialize (Hl _ ms3 Hd Hn).
    apply plays_open_bind in H. destruct H as (st2 & st2' & ms4 & -> & Hc2 & H). pose proof (open_as_name (e_id e) (e_type e) st2) as Ho.
    destruct (open_as (e_id e) (e_type e) st2) as [h|er].
    2:{ apply plays_leave in H. destruct H as [-> Hc]. split; [apply Hc0; constructor; assumption|].
        destruct Ho as [[-> Ho]| ->]; [left|now right; left]. split; [reflexivity|]. split; [exact Er1|]. split; [exact Er2|]. right.
        do 2 eexists. right. do 5 eexists. split; [exact Hl|]. cbn [map fst]. split; [exact (eq_refl : _ = [] ++ st2 :: _)|now left]. }
    subst h. apply plays_parent_bind in H. destruct H as (st3 & st3' & ms5 & -> & Hc3 & H). cbn [snd fst] in H.
    destruct (follow && (e_type e =? TLINK)%N) eqn:El.
    + apply plays_ask_bind in H. destruct H as (st4 & ms6 & -> & H). pose proof (cast_name TLINK (e_id e, e_type e) st4) as Hca.
      destruct (cast_as TLINK (e_id e, e_type e) st4) as [ln|er]; cbn [rmap] in H.
      2:{ apply plays_leave in H. destruct H as [-> Hc]. split; [apply Hc0; repeat (constructor; [first [apply calm_refl|assumption]|]); exact Hc|].
          destruct Hca as [->| ->]; auto 6. }
      destruct Hca as [Hg _]. cbn [fst] in Hg. apply plays_bind in H. destruct H as (ms7 & ms8 & r1 & -> & H2 & H3).
      destruct (plays_open_walk 16 _ _ _ _ _ (eq_refl : fst base = fst base) H2) as [Hc7 Hw]. apply plays_leave in H3. destruct H3 as [-> Hc8].
      split; [apply Hc0; repeat (constructor; [first [apply calm_refl|assumption]|]); apply Forall_app; auto|].
      cbn [map fst] in Hl |- *. rewrite map_app in Hl |- *.
      apply Bool.andb_true_iff in El. destruct El as [Ef El].
      assert (Xm : walks 15 (map fst ms7) (fst base) (path_comps (i_data ln)) None -> file_missing (map fst ms1 ++ st :: st2 :: st3 :: st4 :: map fst ms7 ++ map fst ms8) path follow).
      { intros Hm. split; [exact Er1|]. split; [exact Er2|]. right. do 2 eexists. right. exists (e_id e), (e_type e), [st2; st3], st4, (map fst ms7 ++ map fst ms8).
        split; [exact Hl|]. split; [reflexivity|]. right. split; [exact Ef|]. apply N.eqb_eq in El. split; [exact El|]. exists ln. split; [exact Hg|now apply walks_back]. }
      cbn [walked before] in Hw. destruct r1 as [[h|]|er].
      * exists (fst base), (e_id e), (e_type e). eexists. split; [exact Hl|]. rewrite Ef, El. cbn [andb].
        exists [st2; st3], st4, (map fst ms7 ++ map fst ms8), ln. split; [reflexivity|]. split; [exact Hg|]. now apply walks_back.
      * now apply Xm.
      * destruct Hw as [[-> Hw]|Hw]; [left; split; [reflexivity|now apply Xm]|now right].
    + apply plays_leave in H. destruct H as [-> Hc]. split; [apply Hc0; repeat (constructor; [first [apply calm_refl|assumption]|]); exact Hc|].
      exists (fst base), (e_id e), (e_type e). eexists. split; [exact Hl|]. now rewrite El.
  - destruct Hn as [Hd Hn]. apply plays_leave in H. destruct H as [-> Hc]. split; [now apply Hc0|]. split; [exact Er1|]. split; [exact Er2|].
    right. do 2 eexists. left. now apply Hl.
  - apply plays_leave in H. destruct H as [-> Hc]. split; [now apply Hc0|]. destruct Hn as [->|[->| ->]]; auto 6.
Qed.
End Proofs.
