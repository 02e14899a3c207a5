(** All threads together: the invariant of every run. *)
From Coq Require Import Strings.String Lia ZArith Permutation.
From Verif Require Import Base BaseLemmas TextModel NameModel BtreeModel BtreeSpec FullFsModel FullFsSpec FullFsProofs FullFsPath FullFsInv FullFsStep FsConcModel FsConcSpec FsConcProofs FsConcSafe FsConcOps.
Local Open Scope list_scope.

Section World.
Variable cmp : bytes -> bytes -> comparison.
Hypothesis Hcmp : cmp_ok cmp.
Notation CInv := (CInv cmp).

Definition ghost := (list holder * list bytes)%type.
Definition thread_ok (t : thread) (g : ghost) : Prop :=
  match t with
  | TIdle => g = ([], [])
  | TRun o p => safe cmp p (Qbody o) (fst g) (snd g)
  end.
Definition idle : ghost := ([], []).
Definition owns (gs : list ghost) : list holder := concat (map fst gs).
Definition poss (gs : list ghost) : list bytes := concat (map snd gs).

(** [gs]: what each thread holds; [hs]: the kernel's handles; [stuck]: references that
    failed releases have left. *)
Definition WInv (gs : list ghost) (hs stuck : list holder) (lost : list bytes) (w : world) : Prop :=
  Forall2 thread_ok (threads w) gs /\ Permutation (map fst hs) (handles w) /\
  CInv (owns gs ++ hs ++ stuck) (poss gs) lost (files w).

Lemma Forall2_set {A B} (R : A -> B -> Prop) l gs i t : Forall2 R l gs -> nth_error l i = Some t ->
  exists g gs1 gs2, gs = gs1 ++ g :: gs2 /\ R t g /\ forall t' g', R t' g' -> Forall2 R (set_nth i t' l) (gs1 ++ g' :: gs2).
Proof.
  intros H. revert i. induction H as [|x y l gs Hx Hl IH]; intros i Hi; [now destruct i|].
  destruct i as [|i].
  - injection Hi as ->. exists y, [], gs. split; [reflexivity|]. split; [exact Hx|]. intros t' g' H'. cbn. now constructor.
  - destruct (IH i Hi) as (g & gs1 & gs2 & -> & Hr & Hset). exists g, (y :: gs1), gs2. split; [reflexivity|]. split; [exact Hr|].
    intros t' g' H'. specialize (Hset t' g' H'). change (set_nth (S i) t' (x :: l)) with (x :: set_nth i t' l). now constructor.
Qed.
Lemma owns_mid gs1 g gs2 : Permutation (owns (gs1 ++ g :: gs2)) (fst g ++ owns (gs1 ++ gs2)).
Proof. unfold owns. rewrite !map_app, !concat_app. cbn [map concat]. rewrite app_assoc, app_assoc. apply Permutation_app_tail. apply Permutation_app_comm. Qed.
Lemma poss_mid gs1 g gs2 : Permutation (poss (gs1 ++ g :: gs2)) (snd g ++ poss (gs1 ++ gs2)).
Proof. unfold poss. rewrite !map_app, !concat_app. cbn [map concat]. rewrite app_assoc, app_assoc. apply Permutation_app_tail. apply Permutation_app_comm. Qed.

Definition first_root : inode := match nodes new_repo with (_, nd) :: _ => nd | [] => mkInode 0 0 [] [] [] end.
Lemma start_node id nd : get new_repo id = Some nd -> id = root_id /\ nd = first_root.
Proof.
  unfold get, new_repo. cbn [nodes nget]. destruct (bytes_eqb _ id) eqn:E; [|discriminate]. apply bytes_eqb_eq in E. intros [= <-]. split; [now symmetry|reflexivity].
Qed.
Lemma WInv_start n : WInv (repeat ([], []) n) [] [] [] (mkWorld new_repo [] (repeat TIdle n)).
Proof.
  split; [|split].
  - induction n; cbn; constructor; [reflexivity|assumption].
  - reflexivity.
  - cbn [files]. assert (E : owns (repeat ([], []) n) = [] /\ poss (repeat ([], []) n) = []) by (split; induction n; cbn; auto).
    destruct E as [-> ->]. constructor.
    + cbn. repeat constructor. intros [].
    + eexists. split; [reflexivity|reflexivity].
    + intros id nd Hg. apply start_node in Hg. destruct Hg as [-> ->]. reflexivity.
    + intros e [].
    + intros id Hd. unfold debts in Hd. cbn in Hd. lia.
    + reflexivity.
    + intros id t [].
    + intros id nd Hg. apply start_node in Hg. tauto.
    + intros id nd Hg. apply start_node in Hg. destruct Hg as [-> ->]. exact I.
    + intros id nd Hg. apply start_node in Hg. destruct Hg as [-> ->]. vm_compute. auto.
Qed.

Definition ok_event (ev : event) : Prop :=
  match ev with ERet _ _ r | EIo _ r => r <> Err EUndef | _ => True end.

Lemma in_typed x (hs : list holder) : In x (map fst hs) -> exists t, In (x, t) hs.
Proof. intros H. apply in_map_iff in H. destruct H as ([y t] & <- & Hi). eauto. Qed.
Lemma perm_typed x t (hs : list holder) hl : In (x, t) hs -> Permutation (map fst hs) hl ->
  exists hs', Permutation hs ((x, t) :: hs') /\ Permutation (map fst hs') (remove_one x hl).
Proof.
  intros Hi Hp. apply in_split in Hi. destruct Hi as (a & b & ->). exists (a ++ b). split; [symmetry; apply Permutation_middle|].
  rewrite <- (perm_remove_one x _ _ Hp). rewrite (perm_remove_one x _ _ (Permutation_map fst (Permutation_sym (Permutation_middle a b (x, t))))).
  cbn [map fst remove_one]. now rewrite bytes_eqb_refl.
Qed.

Lemma WInv_step gs hs stuck lost w ev w' : WInv gs hs stuck lost w -> room (files w) -> wstep cmp w ev w' ->
  ok_event ev /\ exists gs' hs' stuck' lost', WInv gs' hs' stuck' lost' w' /\
    (tidy (files w) -> clean ev -> stuck = [] -> lost = [] -> stuck' = [] /\ lost' = []).
Proof.
  intros (HT & HH & HC) Hr Hs. destruct Hs as [w i o Hi Hok|w i o upd next Hi|w i o r Hi|w o id Ho Hin|w id].
  - (* call *) split; [exact I|]. destruct (Forall2_set _ _ _ _ _ HT Hi) as (g & gs1 & gs2 & -> & Hg & Hset). cbn in Hg. subst g.
    assert (Hno : no_io o) by (destruct o; cbn in *; auto).
    assert (Hst : exists own hs', starts o own /\ Permutation hs (own ++ hs') /\ Permutation (map fst hs') (after_call o (handles w))).
    { assert (Hd : after_call o (handles w) = handles w -> starts o [] -> exists own hs', starts o own /\ Permutation hs (own ++ hs') /\ Permutation (map fst hs') (after_call o (handles w))).
      { intros E1 E2. exists [], hs. split; [exact E2|]. split; [reflexivity|]. now rewrite E1. }
      destruct o; try (apply Hd; reflexivity). cbn in Hok |- *. apply (Permutation_in _ (Permutation_sym HH)) in Hok. destruct (in_typed _ _ Hok) as (t & Ht).
      destruct (perm_typed _ _ _ _ Ht HH) as (hs' & P1 & P2). exists [(id, t)], hs'. split; [eauto|]. split; [exact P1|exact P2]. }
    destruct Hst as (own & hs' & H1 & H2 & H3). exists (gs1 ++ (own, []) :: gs2), hs', stuck, lost. split; [|auto].
    split; [|split]; cbn [threads handles files].
    + apply Hset. cbn. now apply safe_body.
    + exact H3.
    + eapply CInv_perm; [exact HC| | |reflexivity].
      * rewrite !owns_mid. cbn [fst app]. rewrite H2. rewrite (app_assoc _ _ stuck), (app_assoc _ _ stuck). apply Permutation_app_tail.
        rewrite !app_assoc. apply Permutation_app_tail. apply Permutation_app_comm.
      * rewrite !poss_mid. reflexivity.
  - (* step *) split; [exact I|]. destruct (Forall2_set _ _ _ _ _ HT Hi) as ([ow po] & gs1 & gs2 & -> & Hg & Hset). cbn [thread_ok safe fst snd] in Hg.
    destruct (Hg (owns (gs1 ++ gs2) ++ hs ++ stuck) (poss (gs1 ++ gs2)) lost (files w)) as (ow' & po' & lost' & H1 & H2 & H3).
    { eapply CInv_perm; [exact HC| | |reflexivity].
      - rewrite owns_mid. cbn [fst]. now rewrite !app_assoc.
      - now rewrite poss_mid. }
    { exact Hr. }
    exists (gs1 ++ (ow', po') :: gs2), hs, stuck, lost'. split.
    + split; [|split]; cbn [threads handles files].
      * apply Hset. exact H3.
      * exact HH.
      * eapply CInv_perm; [exact H1| | |reflexivity].
        -- rewrite owns_mid. cbn [fst]. now rewrite !app_assoc.
        -- now rewrite poss_mid.
    + intros Ht _ Hs Hl. split; [exact Hs|]. now rewrite (H2 Ht).
  - (* return *) destruct (Forall2_set _ _ _ _ _ HT Hi) as ([ow po] & gs1 & gs2 & -> & Hg & Hset). cbn [thread_ok safe fst snd] in Hg.
    destruct Hg as (Hu & Ho & Hp). split; [exact Hu|].
    assert (Hk : exists hs' stuck', Permutation (ow ++ hs ++ stuck) (hs' ++ stuck') /\ Permutation (map fst hs') (after_return r (handles w)) /\
      (clean (ERet i o r) -> stuck = [] -> stuck' = [])).
    { assert (Hid : (forall x, r <> Ok (FOId x)) -> ow = [] -> exists hs' stuck', Permutation (ow ++ hs ++ stuck) (hs' ++ stuck') /\ Permutation (map fst hs') (after_return r (handles w)) /\
        (clean (ERet i o r) -> stuck = [] -> stuck' = [])).
      { intros Hr0 ->. exists hs, stuck. split; [reflexivity|]. split; [|auto]. destruct r as [[]|]; try exact HH. now elim (Hr0 id). }
      assert (Hone : forall x, r = Ok (FOId x) -> map fst ow = [x] -> exists hs' stuck', Permutation (ow ++ hs ++ stuck) (hs' ++ stuck') /\ Permutation (map fst hs') (after_return r (handles w)) /\
        (clean (ERet i o r) -> stuck = [] -> stuck' = [])).
      { intros x -> Hm. exists (ow ++ hs), stuck. split; [now rewrite app_assoc|]. split; [|auto]. rewrite map_app. refine (eq_ind_r (fun z => Permutation (z ++ _) _) _ Hm). cbn. now constructor. }
      assert (Hnil : map fst ow = [] -> ow = []) by (now destruct ow).
      destruct r as [[]|e]; try (apply Hid; [discriminate|]; apply Hnil; now destruct o); try (apply (Hone id); [reflexivity|now destruct o]).
      destruct o; try (apply Hid; [discriminate|]; now apply Hnil).
      exists hs, (ow ++ stuck). split; [rewrite !app_assoc; apply Permutation_app_tail; apply Permutation_app_comm|]. split; [exact HH|].
      cbn. intros Hc. now elim Hc. }
    destruct Hk as (hs' & stuck' & K1 & K2 & K3). exists (gs1 ++ idle :: gs2), hs', stuck', (po ++ lost). split.
    + split; [|split]; cbn [threads handles files].
      * now apply Hset.
      * exact K2.
      * eapply CI_ext; [exact HC| |].
        -- rewrite !owns_mid. cbn [fst app idle]. rewrite <- K1. rewrite !app_assoc. do 2 apply Permutation_app_tail. apply Permutation_app_comm.
        -- intros id. unfold debts. rewrite (occ_perm id _ _ (poss_mid gs1 (ow, po) gs2)), (occ_perm id _ _ (poss_mid gs1 idle gs2)). cbn [snd app idle].
           rewrite !occ_app. lia.
    + intros _ Hc Hs Hl. split; [now apply K3|]. destruct Hp as [-> | (e & -> & Hlb)]; [exact Hl|]. now elim Hc.
  - (* reading and writing *) apply (Permutation_in _ (Permutation_sym HH)) in Hin. destruct (in_typed _ _ Hin) as (t & Ht).
    assert (Hown : In (id, t) (owns gs ++ hs ++ stuck)) by (apply in_or_app; right; apply in_or_app; now left).
    assert (Hop : existsb (bytes_eqb id) (opened (files w)) = true).
    { apply existsb_in. apply (Permutation_in _ (Permutation_sym (ci_own _ _ _ _ HC))). now apply (in_map fst) in Hown. }
    destruct (ci_have _ _ _ _ HC id t Hown) as (nd & Hg & _).
    assert (Hd : CInv (owns gs ++ hs ++ stuck) (poss gs) lost (fst (fs_step cmp o (files w))) /\ snd (fs_step cmp o (files w)) <> Err EUndef).
    { destruct Ho as [->|[(d & ->)| ->]]; cbn [fs_step]; rewrite Hop.
      - split; [exact HC|]. unfold cast_as. cbn [fst snd]. rewrite Hg. rewrite N.eqb_refl. destruct (_ =? _)%N; discriminate.
      - unfold cast_as. cbn [fst snd]. rewrite Hg, N.eqb_refl. destruct (_ =? _)%N; cbn [fst snd]; split; try discriminate; [|exact HC].
        now apply (CI_same cmp _ _ _ id nd).
      - rewrite Hg. destruct (_ =? _)%N; cbn [fst snd]; split; try discriminate; exact HC. }
    destruct Hd as [H1 H2]. split; [exact H2|]. exists gs, hs, stuck, lost. split; [|auto]. now split.
  - (* eviction *) split; [exact I|]. exists gs, hs, stuck, lost. split; [|auto]. split; [exact HT|]. split; [exact HH|]. cbn [files fs_step].
    destruct (existsb _ _); cbn [fst]; [exact HC|]. now apply CI_parent.
Qed.

Lemma last_always P n l w : run cmp n l w -> always P l -> P (files w).
Proof. intros H [H0 Ha]. destruct H; [exact H0|]. now inversion Ha. Qed.
Lemma always_tl P x l : always P (x :: l) -> always P l.
Proof. intros [H0 Ha]. split; [exact H0|]. now inversion Ha. Qed.

Lemma run_WInv n l w : run cmp n l w -> always room (tl l) -> exists gs hs stuck lost, WInv gs hs stuck lost w /\
  Forall (fun x => ok_event (fst x)) l /\ (always tidy (tl l) -> Forall (fun x => clean (fst x)) l -> stuck = [] /\ lost = []).
Proof.
  induction 1 as [|l w e w' H IH Hs]; intros Hr.
  - exists (repeat ([], []) n), [], [], []. split; [apply WInv_start|]. split; [constructor|auto].
  - cbn [tl] in Hr.
    assert (Hr' : always room (tl l)) by (destruct l; [exact Hr|now apply always_tl in Hr]).
    destruct (IH Hr') as (gs & hs & stuck & lost & H1 & H2 & H3).
    destruct (WInv_step _ _ _ _ _ _ _ H1 (last_always _ _ _ _ H Hr) Hs) as (Hev & gs' & hs' & stuck' & lost' & H4 & H5).
    exists gs', hs', stuck', lost'. split; [exact H4|]. split; [now constructor|]. cbn [tl]. intros Ht Hc. inversion Hc as [|x l' Hx Hl]; subst.
    assert (Ht' : always tidy (tl l)) by (destruct l; [exact Ht|now apply always_tl in Ht]).
    destruct (H3 Ht' Hl) as [-> ->]. apply H5; auto. exact (last_always _ _ _ _ H Ht).
Qed.

Lemma WInv_sound gs hs stuck lost w : WInv gs hs stuck lost w -> sound (files w) /\ forall id, In id (handles w) -> In id (opened (files w)).
Proof.
  intros (_ & HH & HC). split.
  - constructor.
    + exact (ci_root _ _ _ _ HC).
    + exact (ci_entries _ _ _ _ HC).
    + intros id nd Hg. pose proof (ci_nlink _ _ _ _ HC id nd Hg) as Hn. pose proof (debts_nonneg (poss gs) lost id). lia.
    + intros id Hi. apply (Permutation_in _ (ci_own _ _ _ _ HC)) in Hi. exact (ci_there _ _ _ _ _ HC Hi).
    + intros id nd Hg. destruct (ci_used _ _ _ _ HC id nd Hg) as [E|[E|E]]; auto. right. right. now apply (Permutation_in _ (Permutation_sym (ci_own _ _ _ _ HC))).
  - intros id Hi. apply (Permutation_in _ (Permutation_sym (ci_own _ _ _ _ HC))). rewrite !map_app. apply in_or_app. right. apply in_or_app. left.
    now apply (Permutation_in _ (Permutation_sym HH)).
Qed.
Lemma quiet_ghosts ts gs : Forall2 thread_ok ts gs -> Forall (fun t => t = TIdle) ts -> owns gs = [] /\ poss gs = [].
Proof.
  induction 1 as [|t g ts gs Ht Hl IH]; intros Hq; [now split|]. inversion Hq as [|x l Hx Hq']; subst. cbn in Ht. subst g.
  destruct (IH Hq') as [E1 E2]. split; [exact E1|exact E2].
Qed.
End World.

(** ** The theorems *)
Lemma runs_sound cmp n l w : cmp_ok cmp -> run cmp n l w -> always room l -> sound (files w) /\ forall id, In id (handles w) -> In id (opened (files w)).
Proof.
  intros Hcmp H Hr. assert (Hr' : always room (tl l)) by (destruct l; [exact Hr|now apply always_tl in Hr]).
  destruct (run_WInv cmp Hcmp n l w H Hr') as (gs & hs & stuck & lost & H1 & _). exact (WInv_sound cmp _ _ _ _ _ H1).
Qed.
Lemma runs_defined cmp n l w : cmp_ok cmp -> run cmp n l w -> always room l -> Forall (fun x => ok_event (fst x)) l.
Proof.
  intros Hcmp H Hr. assert (Hr' : always room (tl l)) by (destruct l; [exact Hr|now apply always_tl in Hr]).
  destruct (run_WInv cmp Hcmp n l w H Hr') as (gs & hs & stuck & lost & _ & H1 & _). exact H1.
Qed.
Lemma runs_exact cmp n l w : cmp_ok cmp -> run cmp n l w -> always room l -> always tidy l -> Forall (fun x => clean (fst x)) l -> quiet w ->
  counts_right (files w) /\ Permutation (opened (files w)) (handles w).
Proof.
  intros Hcmp H Hr Ht Hc Hq. assert (Hr' : always room (tl l)) by (destruct l; [exact Hr|now apply always_tl in Hr]).
  assert (Ht' : always tidy (tl l)) by (destruct l; [exact Ht|now apply always_tl in Ht]).
  destruct (run_WInv cmp Hcmp n l w H Hr') as (gs & hs & stuck & lost & (HT & HH & HC) & _ & H3).
  destruct (H3 Ht' Hc) as [-> ->]. destruct (quiet_ghosts cmp _ _ HT Hq) as [E1 E2]. rewrite E1, E2 in HC. rewrite app_nil_r in HC. cbn [app] in HC.
  assert (Hd : forall id, debts [] [] id = 0%Z) by reflexivity. split.
  - constructor.
    + intros id nd Hg. pose proof (ci_nlink _ _ _ _ HC id nd Hg) as Hn. rewrite Hd in Hn. lia.
    + intros id. split.
      * intros Hg. destruct (get (files w) id) as [nd|] eqn:E; [|congruence]. destruct (ci_used _ _ _ _ HC id nd E) as [E'|[E'|E']]; auto.
        -- pose proof (ci_nlink _ _ _ _ HC id nd E) as Hn. rewrite Hd in Hn. unfold root_bonus in Hn. destruct (bytes_eqb id root_id) eqn:Er.
           ++ left. now apply bytes_eqb_eq.
           ++ right. left. lia.
        -- right. right. now apply (Permutation_in _ (Permutation_sym (ci_own _ _ _ _ HC))).
      * intros [->|[Hp|Hi]].
        -- destruct (ci_root _ _ _ _ HC) as (nd & -> & _). discriminate.
        -- rewrite refs_cnt in Hp. apply cnt_pos in Hp. destruct Hp as (e & He & <-). destruct (ci_entries _ _ _ _ HC e He) as (nd & -> & _). discriminate.
        -- apply (Permutation_in _ (ci_own _ _ _ _ HC)) in Hi. exact (ci_there _ _ _ _ _ HC Hi).
    + intros e nd He Hg. destruct (ci_entries _ _ _ _ HC e He) as (nd' & Hg' & Hty). congruence.
  - rewrite (ci_own _ _ _ _ HC). exact HH.
Qed.
