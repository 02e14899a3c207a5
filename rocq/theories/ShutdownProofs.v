(** Proofs about serving and stopping. *)
From Coq Require Import Permutation.
From Verif Require Import Base BaseLemmas ShutdownModel ShutdownSpec.
Local Open Scope nat_scope.
Local Open Scope list_scope.

Lemma nth_split {A} i (x : A) l : nth_error l i = Some x -> exists l1 l2, l = l1 ++ x :: l2 /\ length l1 = i /\ forall y, set_nth i y l = l1 ++ y :: l2.
Proof.
  intros H. apply nth_error_split in H as (l1 & l2 & -> & Hl). exists l1, l2. split; [reflexivity|]. split; [exact Hl|]. intros y. unfold set_nth.
  rewrite <- Hl. rewrite firstn_app, firstn_all, Nat.sub_diag. cbn [firstn]. rewrite app_nil_r. f_equal. f_equal.
  rewrite skipn_app, skipn_all2 by lia. replace (S (length l1) - length l1) with 1 by lia. reflexivity.
Qed.
Lemma run_app ls1 : forall ls2 s, run (ls1 ++ ls2) s = match run ls1 s with Some s' => run ls2 s' | None => None end.
Proof. induction ls1 as [|l ls1 IH]; intros ls2 s; [reflexivity|]. cbn [app run]. destruct (step l s); [apply IH|reflexivity]. Qed.

(** What a step does, worker by worker. *)
Ltac open_step H :=
  unfold step in H;
  match type of H with (match s_return ?s with Some _ => None | None => _ end) = _ => destruct (s_return s) eqn:?; [discriminate H|] end.
Ltac worker_at H l1 l2 w := match type of H with (match nth_error ?l ?i with Some _ => _ | None => None end) = _ =>
  destruct (nth_error l i) as [w|] eqn:?; [|discriminate H] end.

(** ** Requests *)
Definition in_hand (w : worker) : list nat := match w_pc w with WProcessing q => [q] | _ => [] end.
Definition balanced (s : state) : Prop := Permutation (taken (s_seen s)) (completed (s_seen s) ++ flat_map in_hand (s_workers s)).
Lemma flat_in_hand l1 l2 w : Permutation (flat_map in_hand (l1 ++ w :: l2)) (in_hand w ++ flat_map in_hand (l1 ++ l2)).
Proof. rewrite !flat_map_app. cbn [flat_map]. rewrite !app_assoc. apply Permutation_app_tail. apply Permutation_app_comm. Qed.
Lemma balanced_step l s s' : step l s = Some s' -> balanced s -> balanced s'.
Proof.
  unfold balanced. intros H B. open_step H. destruct l as [i|i r|i|i stop|i| | | | |].
  - worker_at H l1 l2 w. apply nth_split in Heqo0 as (l1 & l2 & E & _ & Hs). destruct (w_pc w) eqn:P; try discriminate H. injection H as <-. cbn [with_worker s_workers s_seen].
    rewrite Hs. rewrite E, flat_in_hand in B. rewrite flat_in_hand. unfold in_hand at 1 in B. rewrite P in B. destruct (s_exited s); exact B.
  - worker_at H l1 l2 w. apply nth_split in Heqo0 as (l1 & l2 & E & _ & Hs). destruct (w_pc w) eqn:P; try discriminate H. rewrite E, flat_in_hand in B. unfold in_hand at 1 in B. rewrite P in B.
    destruct r as [|e| |q]; injection H as <-; cbn [with_worker with_seen with_error s_workers s_seen]; rewrite Hs, flat_in_hand; try exact B.
    unfold taken, completed in *. rewrite !flat_map_app. cbn [flat_map]. rewrite !app_nil_r. unfold in_hand at 1. cbn [w_pc].
    rewrite Permutation_app_comm. cbn [app]. rewrite <- Permutation_middle. apply perm_skip. rewrite flat_map_app in B. exact B.
  - worker_at H l1 l2 w. apply nth_split in Heqo0 as (l1 & l2 & E & _ & Hs). destruct (w_pc w) eqn:P; try discriminate H. destruct (w_cancel w); try discriminate H. injection H as <-.
    cbn [with_worker s_workers s_seen]. rewrite Hs. rewrite E, flat_in_hand in B. rewrite flat_in_hand. unfold in_hand at 1 in B. rewrite P in B. exact B.
  - worker_at H l1 l2 w. apply nth_split in Heqo0 as (l1 & l2 & E & _ & Hs). destruct (w_pc w) eqn:P; try discriminate H.
    assert (K : Permutation (taken (s_seen s ++ [Completed q])) (completed (s_seen s ++ [Completed q]) ++ flat_map in_hand (l1 ++ mkW WTest (w_cancel w) :: l2))).
    { rewrite E, flat_in_hand in B. unfold in_hand at 1 in B. rewrite P in B. rewrite flat_in_hand. unfold in_hand at 1. cbn [w_pc app].
      unfold taken, completed in *. rewrite !flat_map_app. cbn [flat_map]. rewrite !app_nil_r. rewrite <- app_assoc. rewrite flat_map_app in B. exact B. }
    destruct stop; injection H as <-; cbn [with_worker with_seen with_pipe s_workers s_seen]; rewrite Hs; exact K.
  - worker_at H l1 l2 w. apply nth_split in Heqo0 as (l1 & l2 & E & _ & Hs). destruct (w_pc w) eqn:P; try discriminate H. injection H as <-.
    cbn [with_worker with_pipe s_workers s_seen]. rewrite Hs. rewrite E, flat_in_hand in B. rewrite flat_in_hand. unfold in_hand at 1 in B. rewrite P in B. exact B.
  - injection H as <-. exact B.
  - destruct (s_waiter s); try discriminate H. destruct (s_pipe s); try discriminate H. injection H as <-. exact B.
  - destruct (s_waiter s); try discriminate H. injection H as <-. exact B.
  - destruct (s_waiter s) as [| |i|]; try discriminate H. destruct (nth_error (s_workers s) i) as [w|] eqn:En; injection H as <-; [|exact B].
    apply nth_split in En as (l1 & l2 & E & _ & Hs). cbn [with_worker with_waiter s_workers s_seen]. rewrite Hs. rewrite E, flat_in_hand in B. rewrite flat_in_hand. exact B.
  - destruct (s_waiter s); try discriminate H. destruct (forallb ended (s_workers s)); try discriminate H. injection H as <-. exact B.
Qed.
Lemma inv_run (P : state -> Prop) : (forall l s s', step l s = Some s' -> P s -> P s') -> forall ls s s', run ls s = Some s' -> P s -> P s'.
Proof.
  intros HP. induction ls as [|l ls IH]; intros s s' H B; cbn [run] in H; [now injection H as <-|]. destruct (step l s) as [s1|] eqn:E; [|discriminate H]. eauto.
Qed.
Lemma balanced_start n : balanced (start n).
Proof. unfold balanced, start. cbn [s_seen s_workers taken completed flat_map app]. induction n; [constructor|exact IHn]. Qed.

(** Returned: all workers have ended, and the code is the error. *)
Definition returned_ok (s : state) : Prop := forall c, s_return s = Some c -> forallb ended (s_workers s) = true /\ c = s_error s /\ s_exited s = true.

(** ** The waiter *)
Definition waiter_ok (s : state) : Prop :=
  match s_waiter s with
  | AWaiting => length (filter ended (s_workers s)) <= s_pipe s /\ s_exited s = false
  | AWoken => s_exited s = false
  | ACancelling i => s_exited s = true /\ i <= length (s_workers s) /\ forall j w, j < i -> nth_error (s_workers s) j = Some w -> w_cancel w = true
  | ADone => s_exited s = true /\ forall w, In w (s_workers s) -> w_cancel w = true
  end /\ (s_return s <> None -> s_waiter s = ADone).
Lemma filter_set i (l : list worker) w w' : nth_error l i = Some w -> length (filter ended (set_nth i w' l)) + (if ended w then 1 else 0) = length (filter ended l) + (if ended w' then 1 else 0).
Proof.
  intros H. apply nth_split in H as (l1 & l2 & -> & _ & Hs). rewrite Hs, !filter_app. cbn [filter]. rewrite !app_length. destruct (ended w), (ended w'); cbn [length]; lia.
Qed.
Lemma nth_set i j (l : list worker) w w' x : nth_error l i = Some w -> nth_error (set_nth i w' l) j = Some x -> (j = i /\ x = w') \/ (j <> i /\ nth_error l j = Some x).
Proof.
  intros H. apply nth_split in H as (l1 & l2 & -> & <- & Hs). rewrite Hs. intros Hj. destruct (Nat.lt_trichotomy j (length l1)) as [A|[A|A]].
  - right. split; [lia|]. rewrite nth_error_app1 in * by exact A. exact Hj.
  - left. subst j. rewrite nth_error_app2, Nat.sub_diag in Hj by lia. cbn in Hj. split; [reflexivity|congruence].
  - right. split; [lia|]. rewrite nth_error_app2 in * by lia. destruct (j - length l1) as [|k] eqn:E; [lia|]. exact Hj.
Qed.
Lemma length_set i (l : list worker) w w' : nth_error l i = Some w -> length (set_nth i w' l) = length l.
Proof. intros H. apply nth_split in H as (l1 & l2 & -> & _ & Hs). rewrite Hs, !app_length. reflexivity. Qed.
Lemma in_set i (l : list worker) w w' x : nth_error l i = Some w -> In x (set_nth i w' l) -> x = w' \/ In x l.
Proof.
  intros H Hx. apply In_nth_error in Hx as [j Hj]. destruct (nth_set _ _ _ _ _ _ H Hj) as [[_ ->]|[_ Hx]]; [now left|right]. eapply nth_error_In; eauto.
Qed.
(** A worker moves on: its cancellation stays, the pipe does not shrink. *)
Lemma waiter_move s i w pc p : nth_error (s_workers s) i = Some w -> ended w = false -> s_return s = None ->
  s_pipe s + (match pc with WEnded => 1 | _ => 0 end) <= p ->
  forall e x, waiter_ok s -> waiter_ok (mkS (set_nth i (mkW pc (w_cancel w)) (s_workers s)) (s_exited s) p (s_waiter s) e x (s_return s)).
Proof.
  intros Hn He Hr Hp e x [W _]. split; [|cbn [s_return]; congruence]. cbn [s_waiter s_workers s_exited s_pipe]. destruct (s_waiter s) as [| |k|].
  - destruct W as [W1 W2]. split; [|exact W2]. pose proof (filter_set _ _ _ (mkW pc (w_cancel w)) Hn) as F. rewrite He in F. change (ended (mkW pc (w_cancel w))) with (match pc with WEnded => true | _ => false end) in F. destruct pc; lia.
  - exact W.
  - destruct W as (W1 & W2 & W3). split; [exact W1|]. split; [erewrite length_set by exact Hn; exact W2|]. intros j y Hj Hy.
    destruct (nth_set _ _ _ _ _ _ Hn Hy) as [[-> ->]|[_ Hy2]]; [apply (W3 i w Hj Hn)|eauto].
  - destruct W as [W1 W2]. split; [exact W1|]. intros y Hy. destruct (in_set _ _ _ _ _ Hn Hy) as [->|Hy2]; [|eauto]. cbn [w_cancel]. apply W2. eapply nth_error_In; eauto.
Qed.
Lemma waiter_step l s s' : step l s = Some s' -> waiter_ok s -> waiter_ok s'.
Proof.
  intros H B. open_step H. destruct l as [i|i r|i|i stop|i| | | | |].
  - worker_at H l1 l2 w. destruct (w_pc w) eqn:P; try discriminate H. injection H as <-. unfold with_worker. apply waiter_move; auto; [unfold ended; now rewrite P|]. destruct (s_exited s); lia.
  - worker_at H l1 l2 w. destruct (w_pc w) eqn:P; try discriminate H. assert (E : ended w = false) by (unfold ended; now rewrite P).
    destruct r as [|e| |q]; injection H as <-; unfold with_seen, with_error, with_worker; cbn [s_workers s_exited s_pipe s_waiter s_error s_seen s_return]; apply waiter_move; auto; lia.
  - worker_at H l1 l2 w. destruct (w_pc w) eqn:P; try discriminate H. destruct (w_cancel w) eqn:Ec; try discriminate H. injection H as <-. unfold with_worker. rewrite <- Ec. apply waiter_move; auto; [unfold ended; now rewrite P|]. lia.
  - worker_at H l1 l2 w. destruct (w_pc w) eqn:P; try discriminate H. assert (E : ended w = false) by (unfold ended; now rewrite P).
    destruct stop; injection H as <-; unfold with_pipe, with_seen, with_worker; cbn [s_workers s_exited s_pipe s_waiter s_error s_seen s_return]; apply waiter_move; auto; lia.
  - worker_at H l1 l2 w. destruct (w_pc w) eqn:P; try discriminate H. assert (E : ended w = false) by (unfold ended; now rewrite P).
    injection H as <-; unfold with_pipe, with_worker; cbn [s_workers s_exited s_pipe s_waiter s_error s_seen s_return]; apply waiter_move; auto; lia.
  - injection H as <-. destruct B as [W R]. split; [|exact R]. cbn [with_pipe s_waiter s_workers s_exited s_pipe]. destruct (s_waiter s); try exact W. destruct W. split; [lia|assumption].
  - destruct (s_waiter s) eqn:Ew; try discriminate H. destruct (s_pipe s); try discriminate H. injection H as <-. destruct B as [W R]. rewrite Ew in W. split; [|intros X; cbn in X; congruence]. cbn. apply W.
  - destruct (s_waiter s) eqn:Ew; try discriminate H. injection H as <-. split; [|intros X; cbn in X; congruence]. cbn. split; [reflexivity|]. split; [lia|]. intros j w Hj. lia.
  - destruct (s_waiter s) as [| |i|] eqn:Ew; try discriminate H. destruct B as [W R]. rewrite Ew in W. destruct W as (W1 & W2 & W3).
    destruct (nth_error (s_workers s) i) as [w|] eqn:En; injection H as <-.
    + split; [|intros X; cbn in X; congruence]. cbn [with_waiter with_worker s_waiter s_workers s_exited]. split; [exact W1|]. split.
      * erewrite length_set by exact En. apply nth_error_Some. congruence.
      * intros j y Hj Hy. destruct (nth_set _ _ _ _ _ _ En Hy) as [[_ ->]|[Hne Hy2]]; [reflexivity|]. apply (W3 j y); [lia|exact Hy2].
    + split; [|intros X; reflexivity]. cbn [with_waiter s_waiter s_workers s_exited]. split; [exact W1|]. intros y Hy. apply In_nth_error in Hy as [j Hj]. apply (W3 j y); [|exact Hj].
      apply nth_error_None in En. assert (j < length (s_workers s)) by (apply nth_error_Some; congruence). lia.
  - destruct (s_waiter s) eqn:Ew; try discriminate H. destruct (forallb ended (s_workers s)); try discriminate H. injection H as <-. destruct B as [W R]. rewrite Ew in W. split; [exact W|reflexivity].
Qed.
Lemma waiter_start n : waiter_ok (start n).
Proof.
  split; [|cbn; congruence]. cbn. split; [|reflexivity]. assert (E : filter ended (repeat (mkW WTest false) n) = []) by (induction n; [reflexivity|exact IHn]). rewrite E. cbn. lia.
Qed.

Lemma returned_step l s s' : step l s = Some s' -> waiter_ok s -> returned_ok s'.
Proof.
  intros H [W _] c. open_step H. destruct l as [i|i r|i|i stop|i| | | | |].
  - worker_at H l1 l2 w. destruct (w_pc w); try discriminate H. injection H as <-. cbn. congruence.
  - worker_at H l1 l2 w. destruct (w_pc w); try discriminate H. destruct r; injection H as <-; cbn; congruence.
  - worker_at H l1 l2 w. destruct (w_pc w); try discriminate H. destruct (w_cancel w); try discriminate H. injection H as <-. cbn. congruence.
  - worker_at H l1 l2 w. destruct (w_pc w); try discriminate H. destruct stop; injection H as <-; cbn; congruence.
  - worker_at H l1 l2 w. destruct (w_pc w); try discriminate H. injection H as <-. cbn. congruence.
  - injection H as <-. cbn. congruence.
  - destruct (s_waiter s); try discriminate H. destruct (s_pipe s); try discriminate H. injection H as <-. cbn. congruence.
  - destruct (s_waiter s); try discriminate H. injection H as <-. cbn. congruence.
  - destruct (s_waiter s); try discriminate H. destruct (nth_error _ _); injection H as <-; cbn; congruence.
  - destruct (s_waiter s); try discriminate H. destruct (forallb ended (s_workers s)) eqn:E; try discriminate H. injection H as <-. cbn. intros X. injection X as <-. destruct W. auto.
Qed.
Lemma returned_run ls n s : run ls (start n) = Some s -> returned_ok s.
Proof.
  intros H. apply (inv_run (fun s => waiter_ok s /\ returned_ok s)) in H; [apply H| |].
  - intros l a b Hs [A _]. split; [eapply waiter_step; eauto|eapply returned_step; eauto].
  - split; [apply waiter_start|]. intros c X. discriminate X.
Qed.
Lemma waiter_run ls n s : run ls (start n) = Some s -> waiter_ok s.
Proof. intros H. apply (inv_run waiter_ok waiter_step) in H; [exact H|apply waiter_start]. Qed.

(** ** The error *)
Lemma error_step l s s' : step l s = Some s' -> s_error s' = last (errors [l]) (s_error s).
Proof.
  intros H. open_step H. destruct l as [i|i r|i|i stop|i| | | | |].
  - worker_at H l1 l2 w. destruct (w_pc w); try discriminate H. injection H as <-. reflexivity.
  - worker_at H l1 l2 w. destruct (w_pc w); try discriminate H. destruct r; injection H as <-; reflexivity.
  - worker_at H l1 l2 w. destruct (w_pc w); try discriminate H. destruct (w_cancel w); try discriminate H. injection H as <-. reflexivity.
  - worker_at H l1 l2 w. destruct (w_pc w); try discriminate H. destruct stop; injection H as <-; reflexivity.
  - worker_at H l1 l2 w. destruct (w_pc w); try discriminate H. injection H as <-. reflexivity.
  - injection H as <-. reflexivity.
  - destruct (s_waiter s); try discriminate H. destruct (s_pipe s); try discriminate H. injection H as <-. reflexivity.
  - destruct (s_waiter s); try discriminate H. injection H as <-. reflexivity.
  - destruct (s_waiter s); try discriminate H. destruct (nth_error _ _); injection H as <-; reflexivity.
  - destruct (s_waiter s); try discriminate H. destruct (forallb ended (s_workers s)) eqn:E; try discriminate H. injection H as <-. reflexivity.
Qed.
Lemma last_app_d {A} (a b : list A) d : last (a ++ b) d = last b (last a d).
Proof.
  induction b as [|x b IH] using rev_ind; [now rewrite app_nil_r|]. rewrite app_assoc, !last_last. reflexivity.
Qed.
Lemma error_run ls : forall s s', run ls s = Some s' -> s_error s' = last (errors ls) (s_error s).
Proof.
  induction ls as [|l ls IH]; intros s s' H; cbn [run] in H; [now injection H as <-|]. destruct (step l s) as [s1|] eqn:E; [|discriminate H].
  apply IH in H. apply error_step in E. rewrite H, E. change (l :: ls) with ([l] ++ ls). unfold errors. rewrite flat_map_app. rewrite last_app_d. reflexivity.
Qed.

(** ** Without a reason *)
Definition serving (w : worker) : Prop := w_cancel w = false /\ match w_pc w with WTest | WReceiving | WProcessing _ => True | _ => False end.
Definition calm (s : state) : Prop := s_pipe s = 0 /\ s_exited s = false /\ s_waiter s = AWaiting /\ s_return s = None /\ Forall serving (s_workers s).
Lemma forall_set i (l : list worker) w w' (P : worker -> Prop) : nth_error l i = Some w -> Forall P l -> P w' -> Forall P (set_nth i w' l).
Proof. intros H HF HP. apply Forall_forall. intros x Hx. destruct (in_set _ _ _ _ _ H Hx) as [->|Hx2]; [exact HP|]. rewrite Forall_forall in HF. auto. Qed.
Lemma calm_step l s s' : step l s = Some s' -> reason l = false -> calm s -> calm s'.
Proof.
  intros H Hr (A & B & Cw & D & F). open_step H. assert (FW : forall i w, nth_error (s_workers s) i = Some w -> serving w) by (intros i w Hi; rewrite Forall_forall in F; apply F; eapply nth_error_In; eauto).
  destruct l as [i|i r|i|i stop|i| | | | |].
  - worker_at H l1 l2 w. destruct (w_pc w) eqn:P; try discriminate H. injection H as <-. rewrite B. repeat split; auto. eapply forall_set; eauto. split; [apply (FW _ _ Heqo0)|exact I].
  - worker_at H l1 l2 w. destruct (w_pc w) eqn:P; try discriminate H. destruct r as [|e| |q]; try discriminate Hr; injection H as <-; repeat split; auto; cbn [with_seen with_worker s_workers]; (eapply forall_set; eauto; split; [apply (FW _ _ Heqo0)|exact I]).
  - worker_at H l1 l2 w. destruct (w_pc w) eqn:P; try discriminate H. destruct (w_cancel w) eqn:Ec; try discriminate H. destruct (FW _ _ Heqo0). congruence.
  - worker_at H l1 l2 w. destruct (w_pc w) eqn:P; try discriminate H. cbn in Hr. subst stop. injection H as <-; repeat split; auto; cbn [with_seen with_worker s_workers]; (eapply forall_set; eauto; split; [apply (FW _ _ Heqo0)|exact I]).
  - worker_at H l1 l2 w. destruct (w_pc w) eqn:P; try discriminate H. destruct (FW _ _ Heqo0) as [_ X]. rewrite P in X. destruct X.
  - discriminate Hr.
  - rewrite Cw, A in H. discriminate H.
  - rewrite Cw in H. discriminate H.
  - rewrite Cw in H. discriminate H.
  - rewrite Cw in H. discriminate H.
Qed.
Lemma calm_run ls : forall s s', run ls s = Some s' -> forallb (fun l => negb (reason l)) ls = true -> calm s -> calm s'.
Proof.
  induction ls as [|l ls IH]; intros s s' H Hr B; cbn [run] in H; [now injection H as <-|]. destruct (step l s) as [s1|] eqn:E; [|discriminate H].
  cbn [forallb] in Hr. apply andb_prop in Hr as [R1 R2]. apply (IH s1 s' H R2). eapply calm_step; eauto. now destruct (reason l).
Qed.
Lemma calm_start n : calm (start n).
Proof. repeat split. cbn. induction n; constructor; [split; [reflexivity|exact I]|exact IHn]. Qed.

(** ** It stops *)
Definition left_worker (w : worker) : nat := match w_pc w with WEnded => 0 | WLeaving => 1 | WTest => 2 | WProcessing _ => 3 | WReceiving => 4 end.
Definition left_to_do (s : state) : nat :=
  match s_return s with
  | Some _ => 0
  | None => list_sum (map left_worker (s_workers s)) + match s_waiter s with ACancelling i => length (s_workers s) - i + 2 | ADone => 1 | AWaiting => 0 | AWoken => 0 end
  end.
Lemma left_set i (l : list worker) w w' : nth_error l i = Some w -> list_sum (map left_worker (set_nth i w' l)) + left_worker w = list_sum (map left_worker l) + left_worker w'.
Proof.
  intros H. apply nth_split in H as (l1 & l2 & -> & _ & Hs). rewrite Hs, !map_app, !list_sum_app. cbn [map list_sum fold_right]. unfold list_sum. lia.
Qed.
Lemma left_step l s s' : step l s = Some s' -> waiter_ok s -> s_exited s = true ->
  s_exited s' = true /\ left_to_do s' + (if not_signal l then 1 else 0) <= left_to_do s.
Proof.
  intros H [W R] Hx. open_step H. unfold left_to_do at 2. rewrite Heqo.
  assert (M : forall i w pc e x p, nth_error (s_workers s) i = Some w -> left_worker (mkW pc (w_cancel w)) + 1 <= left_worker w ->
    s_exited (mkS (set_nth i (mkW pc (w_cancel w)) (s_workers s)) (s_exited s) p (s_waiter s) e x (s_return s)) = true /\
    left_to_do (mkS (set_nth i (mkW pc (w_cancel w)) (s_workers s)) (s_exited s) p (s_waiter s) e x (s_return s)) + 1 <=
    list_sum (map left_worker (s_workers s)) + match s_waiter s with ACancelling i => length (s_workers s) - i + 2 | ADone => 1 | AWaiting => 0 | AWoken => 0 end).
  { intros i w pc e x p Hn Hl. split; [exact Hx|]. unfold left_to_do. cbn [s_return s_workers s_waiter]. rewrite Heqo. pose proof (left_set _ _ _ (mkW pc (w_cancel w)) Hn).
    erewrite length_set by exact Hn. lia. }
  destruct l as [i|i r|i|i stop|i| | | | |]; cbn [not_signal].
  - worker_at H l1 l2 w. destruct (w_pc w) eqn:P; try discriminate H. injection H as <-. rewrite Hx. apply M; [assumption|]. unfold left_worker. rewrite P. cbn. lia.
  - worker_at H l1 l2 w. destruct (w_pc w) eqn:P; try discriminate H. destruct r as [|e| |q]; injection H as <-; apply M; auto; unfold left_worker; rewrite P; cbn; lia.
  - worker_at H l1 l2 w. destruct (w_pc w) eqn:P; try discriminate H. destruct (w_cancel w) eqn:Ec; try discriminate H. injection H as <-. replace (mkW WLeaving true) with (mkW WLeaving (w_cancel w)) by now rewrite Ec. apply M; [assumption|]. unfold left_worker; rewrite P; cbn; lia.
  - worker_at H l1 l2 w. destruct (w_pc w) eqn:P; try discriminate H. destruct stop; injection H as <-; apply M; auto; unfold left_worker; rewrite P; cbn; lia.
  - worker_at H l1 l2 w. destruct (w_pc w) eqn:P; try discriminate H. injection H as <-; apply M; auto; unfold left_worker; rewrite P; cbn; lia.
  - injection H as <-. split; [exact Hx|]. unfold left_to_do. cbn [with_pipe s_return s_workers s_waiter]. rewrite Heqo. lia.
  - destruct (s_waiter s); try discriminate H. destruct W. congruence.
  - destruct (s_waiter s); try discriminate H. congruence.
  - destruct (s_waiter s) as [| |i|] eqn:Ew; try discriminate H. destruct W as (W1 & W2 & _). destruct (nth_error (s_workers s) i) as [w|] eqn:En; injection H as <-.
    + split; [exact Hx|]. unfold left_to_do. cbn [with_waiter with_worker s_return s_workers s_waiter]. rewrite Heqo. pose proof (left_set _ _ _ (mkW (w_pc w) true) En) as L.
      change (left_worker (mkW (w_pc w) true)) with (left_worker w) in L. erewrite length_set by exact En. assert (i < length (s_workers s)) by (apply nth_error_Some; congruence). lia.
    + split; [exact Hx|]. unfold left_to_do. cbn [with_waiter s_return s_workers s_waiter]. rewrite Heqo. lia.
  - destruct (s_waiter s); try discriminate H. destruct (forallb ended (s_workers s)); try discriminate H. injection H as <-. split; [exact Hx|]. unfold left_to_do. cbn [s_return]. lia.
Qed.
Lemma left_run ls : forall s s', run ls s = Some s' -> waiter_ok s -> s_exited s = true -> length (filter not_signal ls) + left_to_do s' <= left_to_do s.
Proof.
  induction ls as [|l ls IH]; intros s s' H W X; cbn [run] in H; [injection H as <-; cbn; lia|]. destruct (step l s) as [s1|] eqn:E; [|discriminate H].
  destruct (left_step _ _ _ E W X) as [X1 L1]. pose proof (IH s1 s' H (waiter_step _ _ _ E W) X1) as L2. cbn [filter]. destruct (not_signal l); cbn [length]; lia.
Qed.
Lemma worker_count_run ls : forall s s', run ls s = Some s' -> length (s_workers s') = length (s_workers s).
Proof.
  intros s s' H. apply (inv_run (fun x => length (s_workers x) = length (s_workers s))) in H; [exact H| |reflexivity].
  clear. intros l a b H <-. open_step H. destruct l as [i|i r|i|i stop|i| | | | |].
  - worker_at H l1 l2 w. destruct (w_pc w); try discriminate H. injection H as <-. cbn [with_worker s_workers]. eapply length_set; eauto.
  - worker_at H l1 l2 w. destruct (w_pc w); try discriminate H. destruct r; injection H as <-; cbn [with_seen with_error with_worker s_workers]; eapply length_set; eauto.
  - worker_at H l1 l2 w. destruct (w_pc w); try discriminate H. destruct (w_cancel w); try discriminate H. injection H as <-. cbn [with_worker s_workers]. eapply length_set; eauto.
  - worker_at H l1 l2 w. destruct (w_pc w); try discriminate H. destruct stop; injection H as <-; cbn [with_pipe with_seen with_worker s_workers]; eapply length_set; eauto.
  - worker_at H l1 l2 w. destruct (w_pc w); try discriminate H. injection H as <-. cbn [with_pipe with_worker s_workers]. eapply length_set; eauto.
  - injection H as <-. reflexivity.
  - destruct (s_waiter a); try discriminate H. destruct (s_pipe a); try discriminate H. injection H as <-. reflexivity.
  - destruct (s_waiter a); try discriminate H. injection H as <-. reflexivity.
  - destruct (s_waiter a); try discriminate H. destruct (nth_error _ _) eqn:En; injection H as <-; [|reflexivity]. cbn [with_waiter with_worker s_workers]. eapply length_set; eauto.
  - destruct (s_waiter a); try discriminate H. destruct (forallb ended (s_workers a)); try discriminate H. injection H as <-. reflexivity.
Qed.
Lemma left_bound s n : length (s_workers s) = n -> left_to_do s <= 5 * n + 2.
Proof.
  intros <-. unfold left_to_do. destruct (s_return s); [lia|]. assert (L : forall l, list_sum (map left_worker l) <= 4 * length l).
  { induction l as [|w l IH]; [cbn; lia|]. cbn [map list_sum fold_right length]. unfold list_sum in IH. unfold left_worker at 1. destruct (w_pc w); lia. }
  specialize (L (s_workers s)). destruct (s_waiter s); lia.
Qed.

(** ** Until it stops there is something to do *)
Lemma worker_own s i w : s_return s = None -> nth_error (s_workers s) i = Some w -> ended w = false -> (w_pc w = WReceiving -> w_cancel w = true) ->
  exists l s', own l = true /\ step l s = Some s'.
Proof.
  intros Hr Hn He Hc. destruct (w_pc w) as [| |q| |] eqn:P.
  - exists (LTest i). eexists. split; [reflexivity|]. unfold step. rewrite Hr, Hn, P. reflexivity.
  - exists (LCancelled i). eexists. split; [reflexivity|]. unfold step. rewrite Hr, Hn, P, Hc by reflexivity. reflexivity.
  - exists (LComplete i false). eexists. split; [reflexivity|]. unfold step. rewrite Hr, Hn, P. reflexivity.
  - exists (LLeave i). eexists. split; [reflexivity|]. unfold step. rewrite Hr, Hn, P. reflexivity.
  - unfold ended in He. rewrite P in He. discriminate He.
Qed.
(** The reason to stop has left its mark. *)
Definition marked (s : state) : Prop :=
  0 < s_pipe s \/ s_waiter s <> AWaiting \/ (exists i w, nth_error (s_workers s) i = Some w /\ w_pc w = WLeaving).
Lemma mark_stays l s s' : step l s = Some s' -> marked s -> marked s'.
Proof.
  intros H M. open_step H.
  assert (K : forall i w pc p e x, nth_error (s_workers s) i = Some w -> w_pc w <> WLeaving -> s_pipe s <= p -> marked (mkS (set_nth i (mkW pc (w_cancel w)) (s_workers s)) (s_exited s) p (s_waiter s) e x (s_return s))).
  { intros i w pc p e x Hn Hne Hp. destruct M as [M|[M|(j & v & Hj & Hv)]]; [left; cbn; lia|right; left; exact M|]. right. right. exists j, v. split; [|exact Hv]. cbn [s_workers].
    assert (j <> i) by (intros ->; congruence). apply nth_split in Hn as (l1 & l2 & E & El & Hs). rewrite Hs. rewrite E in Hj. subst i.
    destruct (Nat.lt_trichotomy j (length l1)) as [A|[A|A]]; [|lia|].
    - rewrite nth_error_app1 in * by exact A. exact Hj.
    - rewrite nth_error_app2 in * by lia. destruct (j - length l1) as [|k] eqn:Ek; [lia|]. exact Hj. }
  destruct l as [i|i r|i|i stop|i| | | | |].
  - worker_at H l1 l2 w. destruct (w_pc w) eqn:P; try discriminate H. injection H as <-. apply K; [assumption|congruence|lia].
  - worker_at H l1 l2 w. destruct (w_pc w) eqn:P; try discriminate H. destruct r; injection H as <-; (apply K; [assumption|congruence|cbn; lia]).
  - worker_at H l1 l2 w. destruct (w_pc w) eqn:P; try discriminate H. destruct (w_cancel w) eqn:Ec; try discriminate H. injection H as <-. unfold with_worker. rewrite <- Ec. apply K; [assumption|congruence|lia].
  - worker_at H l1 l2 w. destruct (w_pc w) eqn:P; try discriminate H. destruct stop; injection H as <-; (apply K; [assumption|congruence|cbn; lia]).
  - worker_at H l1 l2 w. destruct (w_pc w) eqn:P; try discriminate H. injection H as <-. left. cbn. lia.
  - injection H as <-. left. cbn. lia.
  - destruct (s_waiter s); try discriminate H. destruct (s_pipe s); try discriminate H. injection H as <-. right. left. discriminate.
  - destruct (s_waiter s); try discriminate H. injection H as <-. right. left. discriminate.
  - destruct (s_waiter s); try discriminate H. destruct (nth_error _ _); injection H as <-; right; left; discriminate.
  - destruct (s_waiter s); try discriminate H. destruct (forallb ended (s_workers s)); try discriminate H. injection H as <-. right. left. discriminate.
Qed.
Lemma nth_set_same i (l : list worker) w w' : nth_error l i = Some w -> nth_error (set_nth i w' l) i = Some w'.
Proof. intros H. apply nth_split in H as (l1 & l2 & -> & <- & Hs). rewrite Hs, nth_error_app2, Nat.sub_diag by lia. reflexivity. Qed.
Lemma reason_marks l s s' : step l s = Some s' -> reason l = true -> marked s'.
Proof.
  intros H Hr. open_step H. destruct l as [i|i r|i|i stop|i| | | | |]; try discriminate Hr.
  - worker_at H l1 l2 w. destruct (w_pc w) eqn:P; try discriminate H. destruct r; try discriminate Hr; injection H as <-; right; right; exists i; eexists; (split; [cbn [with_error with_worker s_workers]; eapply nth_set_same; eassumption|reflexivity]).
  - worker_at H l1 l2 w. destruct (w_pc w) eqn:P; try discriminate H. cbn in Hr. subst stop. injection H as <-. left. cbn. lia.
  - injection H as <-. left. cbn. lia.
Qed.
Lemma reason_run ls : forall s s', run ls s = Some s' -> existsb reason ls = true \/ marked s -> marked s'.
Proof.
  induction ls as [|l ls IH]; intros s s' H M; cbn [run] in H.
  - injection H as <-. destruct M as [M|M]; [discriminate M|exact M].
  - destruct (step l s) as [s1|] eqn:E; [|discriminate H]. apply (IH s1 s' H). cbn [existsb] in M. destruct M as [M|M].
    + apply orb_prop in M as [M|M]; [right; eapply reason_marks; eauto|now left].
    + right. eapply mark_stays; eauto.
Qed.
Lemma marked_moves s : waiter_ok s -> marked s -> s_return s = None -> exists l s', own l = true /\ step l s = Some s'.
Proof.
  intros [W _] M Hr. destruct (s_waiter s) as [| |i|] eqn:Ew.
  - destruct M as [M|[M|(j & w & Hj & Hw)]]; [|congruence|].
    + destruct (s_pipe s) as [|p] eqn:Ep; [lia|]. exists LWake. eexists. split; [reflexivity|]. unfold step. rewrite Hr, Ew, Ep. reflexivity.
    + apply (worker_own s j w); auto; [unfold ended; now rewrite Hw|congruence].
  - exists LExit. eexists. split; [reflexivity|]. unfold step. rewrite Hr, Ew. reflexivity.
  - exists LCancel. destruct (nth_error (s_workers s) i) as [w|] eqn:En; eexists; (split; [reflexivity|]); unfold step; rewrite Hr, Ew, En; reflexivity.
  - destruct W as [_ W]. destruct (forallb ended (s_workers s)) eqn:F.
    + exists LReturn. eexists. split; [reflexivity|]. unfold step. rewrite Hr, Ew, F. reflexivity.
    + assert (X : exists w, In w (s_workers s) /\ ended w = false).
      { clear - F. induction (s_workers s) as [|w l IH]; [discriminate F|]. cbn [forallb] in F. destruct (ended w) eqn:E; [|exists w; split; [now left|exact E]].
        destruct (IH F) as (x & Hx & Ex). exists x. split; [now right|exact Ex]. }
      destruct X as (w & Hw & Ex). pose proof (W w Hw) as Hc. apply In_nth_error in Hw as [j Hj]. apply (worker_own s j w); auto.
Qed.
