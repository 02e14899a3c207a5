(** Every action of the file table, and every schedule. *)
From Coq Require Import ZArith Lia.
From Verif Require Import Base BaseLemmas CodecModel FullFsModel TableModel TableSpec TableProofs.
Local Open Scope nat_scope.
Local Open Scope list_scope.
Notation count a l := (count_occ Nat.eq_dec l a).

Lemma alive_fun t a o o' : alive t a o -> alive t a o' -> o = o'.
Proof. intros [H _] [H' _]. congruence. Qed.
Lemma live_not_cached t s k id a o : TI t s -> In (id, a) (live t k) -> alive t a o -> forall j, ~ In a (cached t j).
Proof.
  intros H Hl Ha j Hc. destruct (i_live _ _ H _ _ _ Hl) as (_ & L2 & L3 & o1 & L4 & L5). destruct (i_cached _ _ H _ _ Hc) as (_ & o2 & C2 & _ & C4 & _).
  rewrite (alive_fun _ _ _ _ L4 Ha) in *. rewrite (alive_fun _ _ _ _ C2 Ha) in *. assert (E : j = k) by congruence. rewrite E in Hc. contradiction.
Qed.
Lemma not_busy t s a o : TI t s -> alive t a o -> o_id o = root_id \/ busy t (shard_of (o_id o)) = None -> forall k id, busy t k <> Some (id, a).
Proof.
  intros H Ha Hb k id Hk. destruct (i_busy _ _ H _ _ _ Hk) as [B1 _]. destruct (i_live _ _ H _ _ _ B1) as (L1 & L2 & _ & o1 & L4 & L5).
  rewrite (alive_fun _ _ _ _ L4 Ha) in *. destruct Hb as [Hb|Hb]; [congruence|]. rewrite L5, L2 in Hb. congruence.
Qed.
Lemma root_not_cached t s k : TI t s -> ~ In 0 (cached t k).
Proof.
  intros H Hc. destruct (i_root _ _ H) as (r & Hr & Hi). destruct (i_cached _ _ H _ _ Hc) as (_ & o & O1 & O2 & _).
  rewrite (alive_fun _ _ _ _ O1 Hr) in O2. contradiction.
Qed.
Lemma cfind_some t s id a : cfind t s id = Some a -> In a (cached t s) /\ exists o, oget t a = Some o /\ o_id o = id.
Proof.
  unfold cfind. intros H. apply find_some in H. destruct H as [H1 H2]. split; [exact H1|]. unfold has_id in H2. destruct (oget t a) as [o|]; [|discriminate].
  exists o. split; [reflexivity|]. now apply bytes_eqb_eq.
Qed.
Lemma no_object t s id : TI t s -> id <> root_id -> lfind id (live t (shard_of id)) = None -> cfind t (shard_of id) id = None ->
  forall a o, alive t a o -> o_id o <> id.
Proof.
  intros H Hr Hl Hc a o Ha E. subst id. destruct (i_place _ _ H a o Ha) as [P|[P|P]]; [contradiction| |].
  - exact (lfind_none _ _ a Hl P).
  - pose proof (find_none _ _ Hc a P) as F. unfold has_id in F. destruct Ha as [Ha _]. rewrite Ha, bytes_eqb_refl in F. discriminate.
Qed.
Lemma small_evict t s k : TI t s -> (forall j, j <> k -> length (cached t j) <= max_cached) -> length (cached t k) <= max_cached + 1 -> small (evict k t).
Proof.
  intros H Ho Hk. unfold evict. destruct (max_cached <? length (cached t k)) eqn:El.
  - assert (Eu : existsb (in_use t) (firstn eject_number (cached t k)) = false).
    { apply Bool.not_true_iff_false. intros E. apply existsb_exists in E. destruct E as (a & A1 & A2). apply in_firstn in A1.
      destruct (i_cached _ _ H _ _ A1) as (C1 & o & [C2 _] & _). unfold in_use in A2. rewrite C2 in A2. rewrite (i_ref _ _ H _ _ C2) in A2.
      rewrite (proj1 (count_occ_not_In Nat.eq_dec _ _) C1) in A2. discriminate. }
    rewrite Eu. intros j. destruct (kill_all_frame (firstn eject_number (cached t k)) (with_cached k (skipn eject_number (cached t k)) t)) as (_ & -> & _).
    cbn [with_cached cached]. destruct (Nat.eq_dec j k) as [->|E]; [rewrite upd_eq, skipn_length; unfold max_cached, eject_number in *; lia|rewrite upd_ne by exact E; auto].
  - apply Nat.ltb_ge in El. intros j. destruct (Nat.eq_dec j k) as [->|E]; auto.
Qed.
Lemma cached_hold a t : cached (hold_obj a t) = cached t.
Proof. unfold hold_obj. destruct (oget t a); reflexivity. Qed.
Lemma with_live_hold k l a t : with_live k l (hold_obj a t) = hold_obj a (with_live k l t).
Proof. unfold hold_obj. change (oget (with_live k l t) a) with (oget t a). destruct (oget t a); reflexivity. Qed.
Lemma with_cached_hold k l a t : with_cached k l (hold_obj a t) = hold_obj a (with_cached k l t).
Proof. unfold hold_obj. change (oget (with_cached k l t) a) with (oget t a). destruct (oget t a); reflexivity. Qed.

Lemma access_ok t s a f t' r : TI t s -> access a t f = (t', r) ->
  (r = TWait /\ t' = t /\ (forall id, ~ In (a, id) (handles s)) /\ ~ In a (held t)) \/
  (exists o, alive t a o /\ In a (held t) /\ In (a, o_id o) (handles s) /\ files s (o_id o) = Some (o_cont o) /\ f o = (t', r)).
Proof.
  intros H. unfold access, is_held. destruct (existsb (Nat.eqb a) (held t)) eqn:E.
  - apply existsb_nat in E. destruct (i_held _ _ H a E) as (o & Ho). destruct (Ho) as [Ho1 Ho2]. rewrite Ho1, Ho2. intros F. right. exists o.
    split; [exact Ho|]. split; [exact E|]. split; [apply (handle_iff _ _ _ _ H); eauto|]. split; [apply (i_files1 _ _ H a o Ho)|exact F].
  - assert (N : ~ In a (held t)) by (intros Hi; apply existsb_nat in Hi; congruence). intros [= <- <-]. left. split; [reflexivity|]. split; [reflexivity|]. split; [|exact N].
    intros id Hi. apply (handle_iff _ _ _ _ H) in Hi. tauto.
Qed.
Lemma held_not_cached t s a k : TI t s -> In a (held t) -> ~ In a (cached t k).
Proof. intros H Hh Hc. now apply (i_cached _ _ H _ _ Hc). Qed.

Theorem step_TI x t s : TI t s -> small t -> forall t' r, tstep x t = (t', r) -> exists s', lawful s x r s' /\ TI t' s' /\ small t'.
Proof.
  intros H Hs t' r. destruct x as [id ty bad|id ty bad|a|a c|a want|a bad|a|a|id bad|k bad]; cbn [tstep].
  - destruct (bytes_eqb id root_id) eqn:Er.
    + apply bytes_eqb_eq in Er. subst id. destruct (i_root _ _ H) as (r0 & Hr & Hi). destruct (i_files1 _ _ H 0 r0 Hr) as [F1 F2]. rewrite Hi in F1.
      destruct (ty =? TDIR)%N eqn:Et; intros [= <- <-].
      * exists (take 0 root_id s). split; [eapply L_open; [exact F1|]|]. { rewrite <- Hi. eapply handle_for_alive; eassumption. }
        rewrite <- Hi at 1. split; [apply hold_TI; [exact H|exact Hr|intros k; eapply root_not_cached; exact H|]|intros k; rewrite cached_hold; apply Hs].
        eapply not_busy; [exact H|exact Hr|now left].
      * apply N.eqb_neq in Et. exists s. split; [eapply L_open_type; [exact F1|auto]|auto].
    + apply bytes_eqb_neq in Er. destruct (busy t (shard_of id)) eqn:Eb; [intros [= <- <-]; exists s; split; [apply L_wait; exact I|auto]|].
      destruct (lfind id (live t (shard_of id))) as [a|] eqn:El.
      * intros [= <- <-]. apply lfind_in in El. destruct (i_live _ _ H _ _ _ El) as (_ & _ & _ & o & Ho & <-).
        exists (take a (o_id o) s). split; [eapply L_open; [apply (i_files1 _ _ H a o Ho)|eapply handle_for_alive; eassumption]|].
        split; [apply hold_TI; [exact H|exact Ho|eapply live_not_cached; eassumption|]|intros k; rewrite cached_hold; apply Hs].
        eapply not_busy; [exact H|exact Ho|now right].
      * destruct (cfind t (shard_of id) id) as [a|] eqn:Ec.
        -- intros [= <- <-]. apply cfind_some in Ec. destruct Ec as (C1 & o & C2 & C3).
           destruct (i_cached _ _ H _ _ C1) as (C4 & o2 & C5 & _). assert (o2 = o) by (destruct C5; congruence). subst o2.
           rewrite with_cached_hold, with_live_hold. set (k := shard_of id) in *. set (t1 := with_live _ _ _).
           assert (H1 : TI t1 s) by (unfold t1; rewrite <- C3; now apply move_TI).
           assert (A1 : alive t1 a o) by exact C5.
           exists (take a id s). split; [eapply L_open; [rewrite <- C3; apply (i_files1 _ _ H a o C5)|rewrite <- C3; eapply handle_for_alive; [exact H|exact C5]]|].
           split.
           ++ rewrite <- C3. apply hold_TI; [exact H1|exact A1|eapply (live_not_cached t1 s k id a o H1); [|exact A1]|].
              ** unfold t1. cbn [with_live live]. rewrite upd_eq. now left.
              ** eapply not_busy; [exact H1|exact A1|]. right. unfold t1. cbn [with_live with_cached busy]. now rewrite C3.
           ++ intros j. rewrite cached_hold. unfold t1. cbn [with_live with_cached cached]. destruct (Nat.eq_dec j k) as [->|E]; [rewrite upd_eq|rewrite upd_ne by exact E; apply Hs].
              pose proof (Hs k) as Hk. assert (Hle : forall l, length (remove_nat a l) <= length l). { induction l as [|y l IH]; cbn; [lia|]. destruct (y =? a); cbn; lia. }
              specialize (Hle (cached t k)). lia.
        -- pose proof (no_object t s id H Er El Ec) as Hno. pose proof (i_files2 _ _ H id Hno) as Hf.
           destruct (disk t id) as [c|] eqn:Ed.
           2:{ intros [= <- <-]. exists s. split; [now apply L_missing|auto]. }
           destruct bad as [e|]; [intros [= <- <-]; exists s; split; [apply L_open_bad|auto]|].
           destruct (good_class ty) eqn:Eg.
           2:{ intros [= <- <-]. exists s. split; [eapply L_open_type; [exact Hf|now left]|auto]. }
           intros [= <- <-]. rewrite with_live_hold. pose proof (alloc_TI t s id ty c H Hno Ed) as H1. cbv zeta in H1. set (t1 := with_live _ _ _) in *. set (a := length (heap t)) in *.
           assert (A1 : alive t1 a (mkObj id ty c 0 false)).
           { split; [|reflexivity]. unfold oget, t1. cbn. rewrite nth_error_app2 by (unfold a; lia). unfold a. rewrite Nat.sub_diag. reflexivity. }
           assert (Hin : In (id, a) (live t1 (shard_of id))) by (unfold t1; cbn [with_live live]; rewrite upd_eq; now left).
           exists (take a id s). split; [eapply L_open; [exact Hf|exact (handle_for_alive _ _ _ _ H1 A1)]|]. split.
           ++ exact (hold_TI t1 s a _ H1 A1 (live_not_cached _ _ _ _ _ _ H1 Hin A1) (not_busy _ _ _ _ H1 A1 (or_intror Eb))).
           ++ intros j. rewrite cached_hold. apply Hs.
  - destruct (bytes_eqb id root_id) eqn:Er.
    + apply bytes_eqb_eq in Er. subst id. destruct (i_root _ _ H) as (r0 & Hr & Hi). destruct (i_files1 _ _ H 0 r0 Hr) as [F1 _]. rewrite Hi in F1.
      intros [= <- <-]. exists s. split; [|auto]. pose proof (L_exists s root_id ty bad) as L. rewrite bytes_eqb_refl in L. apply L. congruence.
    + pose proof Er as Erb. apply bytes_eqb_neq in Er. destruct (busy t (shard_of id)) eqn:Eb; [intros [= <- <-]; exists s; split; [apply L_wait; exact I|auto]|].
      assert (Hdisk : files s id = None <-> disk t id = None).
      { destruct (lfind id (live t (shard_of id))) as [a|] eqn:El.
        - apply lfind_in in El. destruct (i_live _ _ H _ _ _ El) as (_ & _ & _ & o & Ho & <-). destruct (i_files1 _ _ H a o Ho). split; congruence.
        - destruct (cfind t (shard_of id) id) as [a|] eqn:Ec; [|now rewrite (i_files2 _ _ H id (no_object t s id H Er El Ec))].
          apply cfind_some in Ec. destruct Ec as (C1 & o & C2 & C3). destruct (i_cached _ _ H _ _ C1) as (_ & o2 & C5 & _). assert (o2 = o) by (destruct C5; congruence). subst o2.
          destruct (i_files1 _ _ H a o C5). rewrite C3 in *. split; congruence. }
      destruct (disk t id) as [c|] eqn:Ed.
      { intros [= <- <-]. exists s. split; [|auto]. pose proof (L_exists s id ty bad) as L. rewrite Erb in L. apply L. intros E. apply Hdisk in E. discriminate. }
      assert (Hf : files s id = None) by now apply Hdisk.
      destruct bad as [e|]; [intros [= <- <-]; exists s; split; [apply L_create_bad|auto]|].
      destruct (good_class ty) eqn:Eg; [|intros [= <- <-]; exists s; split; [now apply L_create_type|auto]].
      assert (Hno : forall a o, alive t a o -> o_id o <> id).
      { intros a o Ha E. destruct (i_files1 _ _ H a o Ha). congruence. }
      destruct (lfind id (live t (shard_of id))) as [a|] eqn:El.
      { exfalso. apply lfind_in in El. destruct (i_live _ _ H _ _ _ El) as (_ & _ & _ & o & Ho & E). exact (Hno a o Ho E). }
      intros [= <- <-]. rewrite with_live_hold.
      pose proof (newfile_TI t s id blank H Hno) as H0. set (t0 := store id (Some blank) t) in *. set (s0 := set_cell id (Some blank) s) in *.
      pose proof (alloc_TI t0 s0 id ty blank H0 Hno (dset_eq _ _ _)) as H1. cbv zeta in H1.
      change (with_live (shard_of id) ((id, length (heap t)) :: live t (shard_of id)) (store id (Some blank) (with_heap (heap t ++ [mkObj id ty blank 0 false]) t)))
        with (with_live (shard_of id) ((id, length (heap t0)) :: live t0 (shard_of id)) (with_heap (heap t0 ++ [mkObj id ty blank 0 false]) t0)).
      set (t1 := with_live _ _ _) in *. change (length (heap t)) with (length (heap t0)). set (a := length (heap t0)) in *.
      assert (A1 : alive t1 a (mkObj id ty blank 0 false)).
      { split; [|reflexivity]. unfold oget, t1. cbn. rewrite nth_error_app2 by (unfold a, t0; cbn; lia). unfold a, t0. cbn. rewrite Nat.sub_diag. reflexivity. }
      assert (Hin : In (id, a) (live t1 (shard_of id))) by (unfold t1; cbn [with_live live]; rewrite upd_eq; now left).
      exists (take a id s0). split; [apply L_create; [exact Hf|exact (handle_for_alive _ _ _ _ H1 A1)]|]. split.
      * exact (hold_TI t1 s0 a _ H1 A1 (live_not_cached _ _ _ _ _ _ H1 Hin A1) (not_busy _ _ _ _ H1 A1 (or_intror Eb))).
      * intros j. rewrite cached_hold. apply Hs.
  - intros E. destruct (access_ok _ _ _ _ _ _ H E) as [(-> & -> & W & _)|(o & Ho & Hh & Hi & Hf & [= <- <-])].
    + exists s. split; [now apply L_wait|auto].
    + exists s. split; [eapply L_read; eassumption|auto].
  - intros E. destruct (access_ok _ _ _ _ _ _ H E) as [(-> & -> & W & _)|(o & Ho & Hh & Hi & Hf & [= <- <-])].
    + exists s. split; [now apply L_wait|auto].
    + exists (set_cell (o_id o) (Some c) s). split; [eapply L_change; eassumption|]. split; [now apply change_TI|exact Hs].
  - intros E. destruct (access_ok _ _ _ _ _ _ H E) as [(-> & -> & W & _)|(o & Ho & Hh & Hi & Hf & F)].
    + exists s. split; [now apply L_wait|auto].
    + exists s. destruct (o_class o =? kind_of (o_cont o))%N eqn:E1; [destruct (o_class o =? want)%N eqn:E2|]; injection F as <- <-.
      * apply N.eqb_eq in E1. apply N.eqb_eq in E2. split; [|auto]. rewrite <- E2, E1. eapply L_cast; eassumption.
      * split; [eapply L_cast_bad; eassumption|auto].
      * split; [eapply L_cast_bad; eassumption|auto].
  - intros E. destruct (access_ok _ _ _ _ _ _ H E) as [(-> & -> & W & _)|(o & Ho & Hh & Hi & Hf & [= <- <-])].
    + exists s. split; [now apply L_wait|auto].
    + exists s. split; [eapply L_flush; eassumption|]. split; [|exact Hs]. eapply flush_TI; [exact H|exact Ho|]. intros k. eapply held_not_cached; eassumption.
  - intros E. destruct (access_ok _ _ _ _ _ _ H E) as [(-> & -> & W & _)|(o & Ho & Hh & Hi & Hf & [= <- <-])].
    + exists s. split; [now apply L_wait|auto].
    + eexists. split; [eapply L_drop; eassumption|]. pose proof (drop_TI t s a o H Ho Hh) as H1. destruct (o_ref o - 1 <=? 0)%Z; [split; [now apply going_TI|exact Hs]|split; [exact H1|exact Hs]].
  - destruct (existsb (Nat.eqb a) (going t)) eqn:E; [|intros [= <- <-]; exists s; split; [apply L_wait; exact I|auto]].
    destruct (oget t a) as [o|]; [|intros [= <- <-]; exists s; split; [apply L_read_dead|auto]].
    intros [= <- <-]. exists s. split; [destruct (o_dead o); [apply L_read_dead|apply L_read_id]|]. split; [now apply closing_TI, going_TI|exact Hs].
  - destruct (existsb (bytes_eqb id) (closing t)); [|intros [= <- <-]; exists s; split; [apply L_wait; exact I|auto]].
    pose proof (closing_TI t s (remove_one id (closing t)) H) as H1. set (t1 := with_closing _ t) in *.
    destruct (bytes_eqb id root_id) eqn:Er.
    + apply bytes_eqb_eq in Er. subst id. destruct (i_root _ _ H) as (r0 & Hr & Hi). destruct (Hr) as [Hr1 _]. rewrite Hr1. intros [= <- <-]. exists s. split; [apply L_close|].
      split; [|exact Hs]. rewrite <- Hi at 1. eapply flush_TI; [exact H1|exact Hr|]. intros k. eapply root_not_cached. exact H1.
    + apply bytes_eqb_neq in Er. destruct (busy t (shard_of id)) eqn:Eb; [intros [= <- <-]; exists s; split; [apply L_wait; exact I|auto]|].
      destruct (lfind id (live t (shard_of id))) as [a|] eqn:El; [|intros [= <- <-]; exists s; split; [apply L_close|auto]].
      apply lfind_in in El. destruct (in_use t a) eqn:Eu; intros [= <- <-]; exists s; (split; [apply L_close|]); [auto|]. split; [|exact Hs].
      apply busy_TI; [exact H1|]. intros i b [= <- <-]. split; [exact El|]. destruct (i_live _ _ H _ _ _ El) as (_ & _ & _ & o & [Ho _] & _).
      unfold in_use in Eu. rewrite Ho in Eu. rewrite (i_ref _ _ H _ _ Ho) in Eu. intros Hh. apply (count_occ_In Nat.eq_dec) in Hh.
      change (held t1) with (held t) in Hh. apply Z.ltb_ge in Eu. lia.
  - destruct (busy t k) as [[id a]|] eqn:Eb; [|intros [= <- <-]; exists s; split; [apply L_wait; exact I|auto]].
    destruct (i_busy _ _ H _ _ _ Eb) as [B1 B2]. destruct (i_live _ _ H _ _ _ B1) as (L1 & L2 & L3 & o & Ho & L5). destruct (Ho) as [Ho1 Ho2]. rewrite Ho1, Ho2.
    assert (H1 : TI (with_busy k None t) s) by (apply busy_TI; [exact H|discriminate]). set (t1 := with_busy k None t) in *.
    assert (Eb1 : busy t1 k = None) by (unfold t1; cbn [with_busy busy]; apply upd_eq).
    destruct (i_files1 _ _ H a o Ho) as [F1 F2]. rewrite L5 in F1, F2.
    destruct (c_nlink (o_cont o) <=? 0)%N eqn:En.
    + apply N.leb_le in En. intros [= <- <-]. exists (set_cell id None s). split.
      { apply L_remove with (c := o_cont o); [exact F1|lia|]. intros b Hb. apply (handle_iff _ _ _ _ H) in Hb. destruct Hb as (Hb & ob & Hob & E).
        apply B2. rewrite <- (i_uniq _ _ H _ _ _ _ Hob Ho); [exact Hb|congruence]. }
      pose proof (remove_TI t1 s k id a o H1 B1 Ho B2 Eb1) as H2. split; [now apply evict_TI|]. eapply small_evict; [exact H2| |]; [intros j _; exact (Hs j)|pose proof (Hs k) as Hk; change (length (cached t k) <= max_cached + 1); lia].
    + apply N.leb_gt in En. destruct bad as [g|]; intros [= <- <-]; exists s; (split; [apply L_finish|]).
      * split; [|exact Hs]. rewrite <- L5. eapply flush_TI; [exact H1|exact Ho|]. eapply live_not_cached; [exact H1|exact B1|exact Ho].
      * assert (H2 : TI (store id (Some (o_cont o)) t1) s).
        { rewrite <- L5 at 1. eapply flush_TI; [exact H1|exact Ho|]. eapply live_not_cached; [exact H1|exact B1|exact Ho]. }
        pose proof (rest_TI _ s k id a o H2 B1 Ho B2 Eb1 (dset_eq _ _ _) ltac:(lia)) as H3.
        split; [apply evict_TI; exact H3|]. eapply small_evict; [exact H3| |].
        -- intros j Hj. cbn [with_cached with_live cached]. rewrite upd_ne by exact Hj. exact (Hs j).
        -- cbn [with_cached with_live cached]. rewrite upd_eq, app_length. cbn [length]. pose proof (Hs k) as Hk. change (cached (store id (Some (o_cont o)) t1) k) with (cached t k). lia.
Qed.

Lemma run_TI xs : forall t s, TI t s -> small t -> forall t' h, trun xs t = (t', h) -> exists s', lawful_run s h s' /\ TI t' s' /\ small t'.
Proof.
  induction xs as [|x xs IH]; intros t s H Hs t' h; cbn [trun].
  - intros [= <- <-]. exists s. cbn. auto.
  - destruct (tstep x t) as [t1 r] eqn:E. destruct (trun xs t1) as [t2 h2] eqn:E2. intros [= <- <-].
    destruct (step_TI x t s H Hs t1 r E) as (s1 & L & H1 & Hs1). destruct (IH t1 s1 H1 Hs1 t2 h2 E2) as (s' & L' & H2 & Hs2).
    exists s'. split; [|auto]. cbn [lawful_run]. eauto.
Qed.
Lemma start_TI d : TI (start d) (cells0 d) /\ small (start d).
Proof.
  split; [|intros k; cbn; unfold max_cached; lia].
  assert (G : forall a o, alive (start d) a o -> a = 0 /\ o = mkObj root_id TDIR (match d root_id with Some c => c | None => root_content end) 0 false).
  { intros [|[|a]] o [H1 H2]; unfold oget, start in H1; cbn [heap nth_error] in H1; [|discriminate|discriminate]. injection H1 as <-. auto. }
  constructor; try easy.
  - eexists. split; [split; reflexivity|reflexivity].
  - intros; constructor.
  - intros a b oa ob A B _. apply G in A. apply G in B. destruct A, B. congruence.
  - intros a o A. apply G in A. left. now destruct A as [_ ->].
  - intros [|[|a]] o H1; unfold oget, start in H1; cbn [heap nth_error] in H1; [|discriminate|discriminate]. injection H1 as <-. reflexivity.
  - intros a o A. apply G in A. destruct A as [_ ->]. cbn [o_id o_cont]. unfold cells0, start. cbn [files disk]. destruct (d root_id) eqn:E; [rewrite E|rewrite !dset_eq]; split; congruence.
  - intros id Hi. assert (Hr : root_id <> id) by (apply (Hi 0 _ (conj eq_refl eq_refl))).
    unfold cells0, start. cbn [files disk]. destruct (d root_id); [reflexivity|]. now rewrite !dset_ne by congruence.
Qed.

(** ** Users, waiting, shutting down *)
Lemma users_count t s a : TI t s -> users a s = count a (held t).
Proof.
  intros H. unfold users. rewrite (i_handles _ _ H). induction (held t) as [|b l IH]; [reflexivity|]. cbn [map filter fst count_occ].
  destruct (b =? a) eqn:E; destruct (Nat.eq_dec b a) as [E2|E2]; cbn [length]; rewrite ?IH; try reflexivity.
  - apply Nat.eqb_eq in E. contradiction.
  - apply Nat.eqb_neq in E. contradiction.
Qed.
Lemma access_wait a t f : (forall o, snd (f o) <> TWait) -> snd (access a t f) = TWait -> ~ In a (held t).
Proof.
  intros Hf. unfold access, is_held. destruct (existsb (Nat.eqb a) (held t)) eqn:E.
  - destruct (oget t a) as [o|]; [|discriminate]. destruct (o_dead o); [discriminate|]. intros H. now apply Hf in H.
  - intros _ Hi. apply existsb_nat in Hi. congruence.
Qed.
Lemma wait_only x t : snd (tstep x t) = TWait -> waits x t.
Proof.
  destruct x as [id ty bad|id ty bad|a|a c|a want|a bad|a|a|id bad|k bad]; cbn [tstep waits].
  - destruct (bytes_eqb id root_id) eqn:Er; [destruct (ty =? TDIR)%N; discriminate|]. apply bytes_eqb_neq in Er.
    destruct (busy t (shard_of id)); [intros _; split; [exact Er|discriminate]|]. destruct (lfind _ _); [discriminate|]. destruct (cfind _ _ _); [discriminate|].
    destruct (disk t id); [|discriminate]. destruct bad; [discriminate|]. destruct (good_class ty); discriminate.
  - destruct (bytes_eqb id root_id) eqn:Er; [discriminate|]. apply bytes_eqb_neq in Er.
    destruct (busy t (shard_of id)); [intros _; split; [exact Er|discriminate]|]. destruct (disk t id); [discriminate|]. destruct bad; [discriminate|].
    destruct (good_class ty); [|discriminate]. destruct (lfind _ _); discriminate.
  - apply access_wait. discriminate.
  - apply access_wait. discriminate.
  - apply access_wait. intros o. destruct (_ =? _)%N; [destruct (_ =? _)%N|]; discriminate.
  - apply access_wait. discriminate.
  - apply access_wait. discriminate.
  - destruct (existsb (Nat.eqb a) (going t)) eqn:E; [destruct (oget t a) as [o|]; [destruct (o_dead o); discriminate|discriminate]|].
    intros _ Hi. apply existsb_nat in Hi. congruence.
  - destruct (existsb (bytes_eqb id) (closing t)) eqn:E.
    + destruct (bytes_eqb id root_id) eqn:Er; [destruct (oget t 0); discriminate|]. apply bytes_eqb_neq in Er.
      destruct (busy t (shard_of id)); [intros _; right; split; [exact Er|discriminate]|]. destruct (lfind _ _); [destruct (in_use t _); discriminate|discriminate].
    + intros _. left. intros Hi. assert (existsb (bytes_eqb id) (closing t) = true); [|congruence]. apply existsb_exists. exists id. split; [exact Hi|apply bytes_eqb_refl].
  - destruct (busy t k) as [[id a]|]; [|reflexivity]. destruct (oget t a) as [o|]; [|discriminate]. destruct (o_dead o); [discriminate|].
    destruct (_ <=? _)%N; [discriminate|]. destruct bad; discriminate.
Qed.
Lemma evict_busy k t : busy (evict k t) = busy t.
Proof. unfold evict. destruct (_ <? _); [|reflexivity]. destruct (existsb _ _); [reflexivity|]. now destruct (kill_all_frame (firstn eject_number (cached t k)) (with_cached k (skipn eject_number (cached t k)) t)) as (_ & _ & -> & _). Qed.
Lemma finish_frees k bad t s : TI t s -> busy (fst (tstep (AFinish k bad) t)) k = None.
Proof.
  intros H. cbn [tstep]. destruct (busy t k) as [[id a]|] eqn:Eb; [|exact Eb].
  destruct (i_busy _ _ H _ _ _ Eb) as [B1 _]. destruct (i_live _ _ H _ _ _ B1) as (_ & _ & _ & o & [Ho1 Ho2] & _). rewrite Ho1, Ho2.
  destruct (_ <=? _)%N; [|destruct bad]; cbn [fst]; rewrite ?evict_busy; cbn; apply upd_eq.
Qed.

Lemma flush_all_heap l t : heap (flush_all l t) = heap t.
Proof.
  revert t; induction l as [|a l IH]; intros t; cbn [flush_all fold_left]; [reflexivity|]. change (fold_left _ l ?x) with (flush_all l x). rewrite IH.
  destruct (oget t a); reflexivity.
Qed.
Lemma flush_all_disk l : forall t id, (forall a, In a l -> exists o, alive t a o) -> (forall a b oa ob, alive t a oa -> alive t b ob -> o_id oa = o_id ob -> a = b) ->
  (forall a o, In a l -> alive t a o -> o_id o = id -> disk (flush_all l t) id = Some (o_cont o)) /\
  ((forall a o, In a l -> alive t a o -> o_id o <> id) -> disk (flush_all l t) id = disk t id).
Proof.
  induction l as [|a l IH]; intros t id Hl Hu; cbn [flush_all fold_left]; [split; [easy|reflexivity]|].
  change (fold_left _ l ?x) with (flush_all l x). destruct (Hl a (or_introl eq_refl)) as (o & Ho). destruct (Ho) as [Ho1 _]. rewrite Ho1.
  set (t1 := store _ _ t). destruct (IH t1 id) as [I1 I2]; [intros b Hb; apply Hl; now right|exact Hu|].
  assert (D : (exists b ob, In b l /\ alive t b ob /\ o_id ob = id) \/ (forall b ob, In b l -> alive t b ob -> o_id ob <> id)).
  { clear - Hl. assert (Hl' : forall b, In b l -> exists ob, alive t b ob) by (intros b Hb; apply Hl; now right). clear Hl. induction l as [|x l IH]; [right; easy|].
    destruct (Hl' x (or_introl eq_refl)) as (ox & Hx). destruct (list_eq_dec byte_eq_dec (o_id ox) id) as [E|E]; [left; exists x, ox; split; [now left|auto]|].
    destruct IH as [(b & ob & B1 & B2)|IH]; [intros b Hb; apply Hl'; now right|left; exists b, ob; split; [now right|exact B2]|right].
    intros b ob [<-|Hb] B; [now rewrite (alive_fun _ _ _ _ B Hx)|eauto]. }
  split.
  - intros b ob [<-|Hb] B E; [|now apply (I1 b ob)]. rewrite (alive_fun _ _ _ _ B Ho) in *.
    destruct D as [(c & oc & C1 & C2 & C3)|D].
    + assert (c = a) by (eapply Hu; [exact C2|exact Ho|congruence]). subst c. rewrite (alive_fun _ _ _ _ C2 Ho) in *. now apply (I1 a o).
    + rewrite I2 by exact D. unfold t1. cbn [store with_disk disk]. rewrite <- E. apply dset_eq.
  - intros Hn. rewrite I2 by (intros b ob Hb; apply Hn; now right). unfold t1. cbn [store with_disk disk]. apply dset_ne. intros E. apply (Hn a o); [now left|exact Ho|congruence].
Qed.
Lemma shard_lt id : shard_of id < 32.
Proof. unfold shard_of. pose proof (N.mod_lt (inode_number id) 32 ltac:(lia)). lia. Qed.
Lemma shutdown_files t s id : TI t s -> shutdown t id = files s id.
Proof.
  intros H. unfold shutdown. set (l := 0 :: _).
  assert (Hl : forall a, In a l -> exists o, alive t a o).
  { intros a [<-|Ha]; [destruct (i_root _ _ H) as (r & Hr & _); eauto|]. apply in_flat_map in Ha. destruct Ha as (k & _ & Ha). apply in_app_or in Ha. destruct Ha as [Ha|Ha].
    - apply in_map_iff in Ha. destruct Ha as ([i b] & E & Ha). cbn in E. subst b. destruct (i_live _ _ H _ _ _ Ha) as (_ & _ & _ & o & Ho & _). eauto.
    - destruct (i_cached _ _ H _ _ Ha) as (_ & o & Ho & _). eauto. }
  assert (Hall : forall a o, alive t a o -> In a l).
  { intros a o Ha. assert (Hk : In (shard_of (o_id o)) (seq 0 32)) by (apply in_seq; pose proof (shard_lt (o_id o)); lia).
    destruct (i_place _ _ H a o Ha) as [P|[P|P]].
    - left. destruct (i_root _ _ H) as (r & Hr & Hi). eapply (i_uniq _ _ H); [exact Hr|exact Ha|congruence].
    - right. apply in_flat_map. eexists. split; [exact Hk|]. apply in_or_app. left. apply in_map_iff. eexists. split; [|exact P]. reflexivity.
    - right. apply in_flat_map. eexists. split; [exact Hk|]. apply in_or_app. now right. }
  destruct (flush_all_disk l t id Hl (i_uniq _ _ H)) as [D1 D2].
  assert (D : (exists b ob, In b l /\ alive t b ob /\ o_id ob = id) \/ (forall b ob, In b l -> alive t b ob -> o_id ob <> id)).
  { clear - Hl. induction l as [|x l IH]; [right; easy|].
    destruct (Hl x (or_introl eq_refl)) as (ox & Hx). destruct (list_eq_dec byte_eq_dec (o_id ox) id) as [E|E]; [left; exists x, ox; split; [now left|auto]|].
    destruct IH as [(b & ob & B1 & B2)|IH]; [intros b Hb; apply Hl; now right|left; exists b, ob; split; [now right|exact B2]|right].
    intros b ob [<-|Hb] B; [now rewrite (alive_fun _ _ _ _ B Hx)|eauto]. }
  destruct D as [(b & ob & B1 & B2 & B3)|D].
  - rewrite (D1 b ob B1 B2 B3). rewrite <- B3. symmetry. apply (i_files1 _ _ H b ob B2).
  - rewrite (D2 D). symmetry. apply (i_files2 _ _ H). intros a o Ha. apply (D a o); [eapply Hall; exact Ha|exact Ha].
Qed.
