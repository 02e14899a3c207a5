(** All threads together: what every call of a run did in its own steps. *)
From Coq Require Import Strings.String Lia ZArith Permutation.
From Verif Require Import Base BaseLemmas TextModel NameModel BtreeModel BtreeSpec FullFsModel FullFsSpec FullFsProofs FullFsPath FullFsInv FullFsTop FullFsStep FsConcModel FsConcSpec FsConcProofs FsConcSafe FsConcOps FsConcWorld FsMomentSpec FsMomentProofs FsMomentOps.
Local Open Scope list_scope.

Section World.
Variable cmp : bytes -> bytes -> comparison.
Hypothesis Hcmp : cmp_ok cmp.
Notation CInv := (CInv cmp).
Notation happened := (happened cmp).

Definition told (l : list (event * world)) (i : nat) (t : thread) (g : ghost) : Prop :=
  match t with
  | TIdle => g = idle
  | TRun o p => safe cmp (traced p (own_steps i l)) (Qh cmp o) (fst g) (snd g)
  end.
Definition all_told (l : list (event * world)) (ts : list thread) (gs : list ghost) : Prop :=
  length gs = length ts /\ forall i t, nth_error ts i = Some t -> exists g, nth_error gs i = Some g /\ told l i t g.
Definition MInv (l : list (event * world)) (gs : list ghost) (hs stuck : list holder) (lost : list bytes) (w : world) : Prop :=
  all_told l (threads w) gs /\ Permutation (map fst hs) (handles w) /\ CInv (owns gs ++ hs ++ stuck) (poss gs) lost (files w) /\ files w = now l.

Lemma nth_set {A} (l : list A) : forall i j a b, nth_error l i = Some a ->
  nth_error (set_nth i b l) j = if Nat.eqb i j then Some b else nth_error l j.
Proof.
  unfold set_nth. induction l as [|x l IH]; intros i j a b H; [now destruct i|].
  destruct i as [|i]; cbn in *.
  - destruct j; reflexivity.
  - destruct j as [|j]; [reflexivity|]. cbn. exact (IH i j a b H).
Qed.
Lemma len_set {A} (l : list A) : forall i a b, nth_error l i = Some a -> length (set_nth i b l) = length l.
Proof.
  unfold set_nth. induction l as [|x l IH]; intros i a b H; [now destruct i|]. destruct i as [|i]; cbn in *; [reflexivity|]. f_equal. exact (IH i a b H).
Qed.
Lemma all_set l l' ts gs i t0 : all_told l ts gs -> nth_error ts i = Some t0 -> (forall j t g, j <> i -> told l j t g -> told l' j t g) ->
  exists g gs1 gs2, gs = gs1 ++ g :: gs2 /\ told l i t0 g /\ forall t' g', told l' i t' g' -> all_told l' (set_nth i t' ts) (gs1 ++ g' :: gs2).
Proof.
  intros [Hl H] Hi Hk. destruct (H i t0 Hi) as (g & Hg & Ht). destruct (nth_error_split _ _ Hg) as (gs1 & gs2 & -> & Hlen).
  exists g, gs1, gs2. split; [reflexivity|]. split; [exact Ht|]. intros t' g' Ht'. split.
  - rewrite (len_set _ _ _ _ Hi), <- Hl, !app_length. reflexivity.
  - intros j t Hj. rewrite (nth_set _ _ _ _ _ Hi) in Hj. destruct (Nat.eqb i j) eqn:E.
    + apply Nat.eqb_eq in E. subst j. injection Hj as <-. exists g'. split; [|exact Ht']. subst i. rewrite nth_error_app2 by lia. now rewrite Nat.sub_diag.
    + apply Nat.eqb_neq in E. destruct (H j t Hj) as (g2 & Hg2 & Ht2). exists g2. split; [|apply Hk; [congruence|exact Ht2]].
      rewrite <- Hg2. destruct (Nat.lt_ge_cases j (length gs1)) as [Hlt|Hge]; [now rewrite !nth_error_app1|].
      rewrite !nth_error_app2 by lia. destruct (j - length gs1) as [|k] eqn:Ek; [lia|reflexivity].
Qed.
Lemma told_same l l' i t g : own_steps i l' = own_steps i l -> told l i t g -> told l' i t g.
Proof. intros E. unfold told. now rewrite E. Qed.
Lemma all_same l l' ts gs : (forall i, own_steps i l' = own_steps i l) -> all_told l ts gs -> all_told l' ts gs.
Proof. intros E [Hl H]. split; [exact Hl|]. intros i t Hi. destruct (H i t Hi) as (g & Hg & Ht). exists g. split; [exact Hg|]. now apply (told_same l). Qed.

Lemma MInv_start n : MInv [] (repeat ([], []) n) [] [] [] (mkWorld new_repo [] (repeat TIdle n)).
Proof.
  destruct (WInv_start cmp n) as (_ & H2 & H3). split; [|split; [exact H2|split; [exact H3|reflexivity]]].
  split; [cbn; now rewrite !repeat_length|]. intros i t Hi. pose proof (nth_error_In _ _ Hi) as Hin. apply repeat_spec in Hin. subst t. exists idle. split; [|reflexivity].
  cbn [threads] in Hi. clear - Hi. revert i Hi. induction n as [|n IH]; intros [|i]; cbn; intros Hi; try discriminate Hi; [reflexivity|now apply IH].
Qed.

Definition moment (l : list (event * world)) (ev : event) : Prop :=
  match ev with ERet i o r => happened o r (own_steps i l) | _ => True end.

Lemma MInv_step l gs hs stuck lost w ev w' : MInv l gs hs stuck lost w -> room (files w) -> wstep cmp w ev w' ->
  moment l ev /\ exists gs' hs' stuck' lost', MInv ((ev, w') :: l) gs' hs' stuck' lost' w'.
Proof.
  intros (HT & HH & HC & HN) Hr Hs. destruct Hs as [w i o Hi Hok|w i o upd next Hi|w i o r Hi|w o id Ho Hin|w id].
  - (* call *) split; [exact I|].
    set (w' := mkWorld (files w) (after_call o (handles w)) (set_nth i (TRun o (body cmp o)) (threads w))).
    destruct (all_set l ((ECall i o, w') :: l) _ _ _ _ HT Hi) as (g & gs1 & gs2 & -> & Hg & Hset).
    { intros j t g Hj. apply told_same. cbn [own_steps]. destruct (Nat.eqb i j) eqn:E; [apply Nat.eqb_eq in E; congruence|reflexivity]. }
    cbn in Hg. subst g.
    assert (Hno : no_io o) by (destruct o; cbn in *; auto).
    assert (Hst : exists own hs', starts o own /\ Permutation hs (own ++ hs') /\ Permutation (map fst hs') (after_call o (handles w))).
    { assert (Hd : after_call o (handles w) = handles w -> starts o [] -> exists own hs', starts o own /\ Permutation hs (own ++ hs') /\ Permutation (map fst hs') (after_call o (handles w))).
      { intros E1 E2. exists [], hs. split; [exact E2|]. split; [reflexivity|]. now rewrite E1. }
      destruct o; try (apply Hd; reflexivity). cbn in Hok |- *. apply (Permutation_in _ (Permutation_sym HH)) in Hok. destruct (in_typed _ _ Hok) as (t & Ht).
      destruct (perm_typed _ _ _ _ Ht HH) as (hs' & P1 & P2). exists [(id, t)], hs'. split; [eauto|]. split; [exact P1|exact P2]. }
    destruct Hst as (own & hs' & H1 & H2 & H3). exists (gs1 ++ (own, []) :: gs2), hs', stuck, lost.
    split; [|split; [|split]]; cbn [threads handles files w'].
    + apply Hset. cbn [told own_steps]. rewrite Nat.eqb_refl. now apply traced_body.
    + exact H3.
    + eapply CInv_perm; [exact HC| | |reflexivity].
      * rewrite !owns_mid. cbn [fst app]. rewrite H2. rewrite (app_assoc _ _ stuck), (app_assoc _ _ stuck). apply Permutation_app_tail.
        rewrite !app_assoc. apply Permutation_app_tail. apply Permutation_app_comm.
      * rewrite !poss_mid. reflexivity.
    + reflexivity.
  - (* step *) split; [exact I|].
    set (w' := mkWorld (upd (files w)) (handles w) (set_nth i (TRun o (next (files w))) (threads w))).
    destruct (all_set l ((EStep i, w') :: l) _ _ _ _ HT Hi) as ([ow po] & gs1 & gs2 & -> & Hg & Hset).
    { intros j t g Hj. apply told_same. cbn [own_steps]. destruct (Nat.eqb i j) eqn:E; [apply Nat.eqb_eq in E; congruence|reflexivity]. }
    cbn [told traced safe fst snd] in Hg.
    destruct (Hg (owns (gs1 ++ gs2) ++ hs ++ stuck) (poss (gs1 ++ gs2)) lost (files w)) as (ow' & po' & lost' & H1 & H2 & H3).
    { eapply CInv_perm; [exact HC| | |reflexivity].
      - rewrite owns_mid. cbn [fst]. now rewrite !app_assoc.
      - now rewrite poss_mid. }
    { exact Hr. }
    exists (gs1 ++ (ow', po') :: gs2), hs, stuck, lost'. split; [|split; [|split]]; cbn [threads handles files w'].
    + apply Hset. cbn [told own_steps]. rewrite Nat.eqb_refl. cbn [files w']. rewrite <- HN. exact H3.
    + exact HH.
    + eapply CInv_perm; [exact H1| | |reflexivity].
      * rewrite owns_mid. cbn [fst]. now rewrite !app_assoc.
      * now rewrite poss_mid.
    + reflexivity.
  - (* return *)
    set (w' := mkWorld (files w) (after_return r (handles w)) (set_nth i TIdle (threads w))).
    destruct (all_set l ((ERet i o r, w') :: l) _ _ _ _ HT Hi) as ([ow po] & gs1 & gs2 & -> & Hg & Hset).
    { intros j t g Hj. apply told_same. cbn [own_steps]. destruct (Nat.eqb i j) eqn:E; [apply Nat.eqb_eq in E; congruence|reflexivity]. }
    cbn [told traced safe fst snd] in Hg. destruct Hg as [(Hu & Ho & Hp) Hh]. split; [exact Hh|]. cbn [fst snd] in *.
    assert (Hk : exists hs' stuck', Permutation (ow ++ hs ++ stuck) (hs' ++ stuck') /\ Permutation (map fst hs') (after_return r (handles w))).
    { assert (Hid : (forall x, r <> Ok (FOId x)) -> ow = [] -> exists hs' stuck', Permutation (ow ++ hs ++ stuck) (hs' ++ stuck') /\ Permutation (map fst hs') (after_return r (handles w))).
      { intros Hr0 ->. exists hs, stuck. split; [reflexivity|]. destruct r as [[]|]; try exact HH. now elim (Hr0 id). }
      assert (Hone : forall x, r = Ok (FOId x) -> map fst ow = [x] -> exists hs' stuck', Permutation (ow ++ hs ++ stuck) (hs' ++ stuck') /\ Permutation (map fst hs') (after_return r (handles w))).
      { intros x -> Hm. exists (ow ++ hs), stuck. split; [now rewrite app_assoc|]. rewrite map_app. refine (eq_ind_r (fun z => Permutation (z ++ _) _) _ Hm). cbn. now constructor. }
      assert (Hnil : map fst ow = [] -> ow = []) by (now destruct ow).
      destruct r as [[]|e]; try (apply Hid; [discriminate|]; apply Hnil; now destruct o); try (apply (Hone id); [reflexivity|now destruct o]).
      destruct o; try (apply Hid; [discriminate|]; now apply Hnil).
      exists hs, (ow ++ stuck). split; [rewrite !app_assoc; apply Permutation_app_tail; apply Permutation_app_comm|]. exact HH. }
    destruct Hk as (hs' & stuck' & K1 & K2). exists (gs1 ++ idle :: gs2), hs', stuck', (po ++ lost).
    split; [|split; [|split]]; cbn [threads handles files w'].
    + now apply Hset.
    + exact K2.
    + eapply CI_ext; [exact HC| |].
      * rewrite !owns_mid. cbn [fst app idle]. rewrite <- K1. rewrite !app_assoc. do 2 apply Permutation_app_tail. apply Permutation_app_comm.
      * intros id. unfold debts. rewrite (occ_perm id _ _ (poss_mid gs1 (ow, po) gs2)), (occ_perm id _ _ (poss_mid gs1 idle gs2)). cbn [snd app idle].
        rewrite !occ_app. lia.
    + reflexivity.
  - (* reading and writing *) split; [exact I|]. apply (Permutation_in _ (Permutation_sym HH)) in Hin. destruct (in_typed _ _ Hin) as (t & Ht).
    assert (Hown : In (id, t) (owns gs ++ hs ++ stuck)) by (apply in_or_app; right; apply in_or_app; now left).
    assert (Hop : existsb (bytes_eqb id) (opened (files w)) = true).
    { apply existsb_in. apply (Permutation_in _ (Permutation_sym (ci_own _ _ _ _ HC))). now apply (in_map fst) in Hown. }
    destruct (ci_have _ _ _ _ HC id t Hown) as (nd & Hg & _).
    exists gs, hs, stuck, lost. split; [apply (all_same l); [reflexivity|exact HT]|]. split; [exact HH|]. split; [|reflexivity]. cbn [files].
    destruct Ho as [->|[(d & ->)| ->]]; cbn [fs_step]; rewrite Hop.
    + exact HC.
    + unfold cast_as. cbn [fst snd]. rewrite Hg, N.eqb_refl. destruct (_ =? _)%N; cbn [fst snd]; [|exact HC]. now apply (CI_same cmp _ _ _ id nd).
    + rewrite Hg. destruct (_ =? _)%N; cbn [fst snd]; exact HC.
  - (* eviction *) split; [exact I|]. exists gs, hs, stuck, lost. split; [apply (all_same l); [reflexivity|exact HT]|]. split; [exact HH|]. split; [|reflexivity]. cbn [files fs_step].
    destruct (existsb _ _); cbn [fst]; [exact HC|]. now apply CI_parent.
Qed.

Lemma run_now n l w : run cmp n l w -> files w = now l.
Proof. intros H. destruct H; reflexivity. Qed.
Lemma run_MInv n l w : run cmp n l w -> always room (tl l) -> exists gs hs stuck lost, MInv l gs hs stuck lost w.
Proof.
  induction 1 as [|l w e w' H IH Hs]; intros Hr.
  - exists (repeat ([], []) n), [], [], []. apply MInv_start.
  - cbn [tl] in Hr. assert (Hr' : always room (tl l)) by (destruct l; [exact Hr|now apply always_tl in Hr]).
    destruct (IH Hr') as (gs & hs & stuck & lost & H1).
    destruct (MInv_step _ _ _ _ _ _ _ _ H1 (last_always cmp _ _ _ _ H Hr) Hs) as (_ & H2). exact H2.
Qed.
Lemma run_moment n l ev w w0 : run cmp n ((ev, w) :: l) w0 -> always room l -> moment l ev.
Proof.
  intros H Hr. inversion H as [|l' w1 e w2 H' Hs]; subst. assert (Hr' : always room (tl l)) by (destruct l; [exact Hr|now apply always_tl in Hr]).
  destruct (run_MInv _ _ _ H' Hr') as (gs & hs & stuck & lost & H1).
  exact (proj1 (MInv_step _ _ _ _ _ _ _ _ H1 (last_always cmp _ _ _ _ H' Hr) Hs)).
Qed.
Lemma run_suffix n l1 l2 w : run cmp n (l1 ++ l2) w -> exists w', run cmp n l2 w'.
Proof.
  revert w. induction l1 as [|x l1 IH]; intros w H; [eauto|]. cbn [app] in H. inversion H as [|l' w1 e w2 H' Hs]; subst. exact (IH _ H').
Qed.
Lemma always_app P l1 l2 : always P (l1 ++ l2) -> always P l2.
Proof. intros [H0 H]. apply Forall_app in H. split; [exact H0|apply H]. Qed.

(** Events that are not steps of calls. *)
Lemma others_calm w ev w' : wstep cmp w ev w' ->
  match ev with
  | EStep _ => True
  | EIo (FWrite id d) r => same_names (name_in cmp (files w')) (name_in cmp (files w)) /\
      (r = Ok FOUnit -> changed cmp (files w) id (fun v => (fst v, d)) (files w')) /\ (r <> Ok FOUnit -> files w' = files w)
  | EEvict _ => calm cmp (files w, files w')
  | _ => files w' = files w
  end.
Proof.
  intros H. destruct H as [w i o Hi Hok|w i o upd next Hi|w i o r Hi|w o id Ho Hin|w id]; cbn [files]; auto.
  - destruct Ho as [->|[(d & ->)| ->]]; cbn [fs_step].
    + now destruct (existsb _ _).
    + destruct (existsb _ _); cbn [fst snd]; [|split; [intros d' n'; reflexivity|split; [discriminate|reflexivity]]].
      pose proof (cast_name TREG (id, match get (files w) id with Some n => i_type n | None => 0%N end) (files w)) as Hc.
      destruct (cast_as TREG _ (files w)) as [nd|e]; cbn [fst snd].
      * destruct Hc as [Hg _]. cbn [fst] in Hg. split; [now apply (names_keep cmp (files w) id nd)|]. split; [intros _; now apply (changed_put cmp (files w) id nd)|congruence].
      * split; [intros d' n'; reflexivity|split; [discriminate|reflexivity]].
    + destruct (existsb _ _); [|reflexivity]. destruct (get _ _); [|reflexivity]. now destruct (_ =? _)%N.
  - cbn [fs_step]. destruct (existsb _ _); cbn [fst]; [apply calm_refl|apply calm_set_parent].
Qed.
End World.
