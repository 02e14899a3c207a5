(** Property C63: serving requests and stopping. *)
From Coq Require Import Permutation.
From Verif Require Import Base BaseLemmas ShutdownModel ShutdownSpec ShutdownProofs.
Local Open Scope nat_scope.
Local Open Scope list_scope.

(** When the program returns, every request it took has been completed: a signal, whenever it
    comes, never ends an operation in the middle. *)
Theorem C63_complete n ls s code : run ls (start n) = Some s -> s_return s = Some code ->
  Permutation (taken (s_seen s)) (completed (s_seen s)).
Proof.
  intros H Hr. pose proof (inv_run balanced balanced_step _ _ _ H (balanced_start n)) as B. destruct (returned_run _ _ _ H code Hr) as (E & _ & _).
  unfold balanced in B. assert (F : flat_map in_hand (s_workers s) = []).
  { clear - E. induction (s_workers s) as [|w l IH]; [reflexivity|]. cbn [forallb] in E. apply andb_prop in E as [E1 E2]. cbn [flat_map]. rewrite (IH E2), app_nil_r.
    unfold ended in E1. unfold in_hand. destruct (w_pc w); try discriminate E1; reflexivity. }
  rewrite F, app_nil_r in B. exact B.
Qed.
Print Assumptions C63_complete.

(** At any time the requests taken are those completed and at most one for each worker. *)
Theorem C63_in_hand n ls s : run ls (start n) = Some s ->
  exists hand, Permutation (taken (s_seen s)) (completed (s_seen s) ++ hand) /\ length hand <= n.
Proof.
  intros H. exists (flat_map in_hand (s_workers s)). split; [exact (inv_run balanced balanced_step _ _ _ H (balanced_start n))|].
  rewrite <- (repeat_length (mkW WTest false) n). change (repeat (mkW WTest false) n) with (s_workers (start n)). rewrite <- (worker_count_run _ _ _ H).
  induction (s_workers s) as [|w l IH]; [cbn; lia|]. cbn [flat_map length]. rewrite app_length. unfold in_hand at 1. destruct (w_pc w); cbn [length]; lia.
Qed.
Print Assumptions C63_in_hand.

(** It goes on serving, with all its workers, unless there is a reason to stop, and returns
    only then; it returns the error reported last when receiving, 0 if there was none. *)
Theorem C63_reason n ls s : run ls (start n) = Some s ->
  (existsb reason ls = false -> s_return s = None /\ length (s_workers s) = n /\
     forall i w, nth_error (s_workers s) i = Some w ->
       w_pc w = WReceiving \/ (w_pc w = WTest /\ exists s', step (LTest i) s = Some s' /\ nth_error (s_workers s') i = Some (mkW WReceiving false)) \/ exists q, w_pc w = WProcessing q) /\
  (forall code, s_return s = Some code -> existsb reason ls = true /\ code = last (errors ls) 0%N).
Proof.
  intros H.
  assert (K : existsb reason ls = false -> calm s).
  { intros Hr. apply (calm_run _ _ _ H); [|apply calm_start]. clear - Hr. induction ls as [|l ls IH]; [reflexivity|]. cbn [existsb] in Hr. apply Bool.orb_false_iff in Hr as [R1 R2]. cbn [forallb]. now rewrite R1, IH. }
  split.
  - intros Hr. destruct (K Hr) as (A & B & Cw & D & F). split; [exact D|]. split.
    { rewrite (worker_count_run _ _ _ H). cbn [start s_workers]. apply repeat_length. }
    intros i w Hn. rewrite Forall_forall in F. destruct (F w) as [F1 F2]; [eapply nth_error_In; eauto|]. destruct (w_pc w) as [| |q| |] eqn:P; try contradiction.
    + right. left. split; [reflexivity|]. eexists. split; [unfold step; rewrite D, Hn, P; reflexivity|]. cbn [with_worker s_workers]. rewrite B, F1. eapply nth_set_same; eauto.
    + now left.
    + right. right. eauto.
  - intros code Hc. destruct (returned_run _ _ _ H code Hc) as (_ & -> & _). split.
    + destruct (existsb reason ls) eqn:E; [reflexivity|]. destruct (K eq_refl) as (_ & _ & _ & D & _). congruence.
    + exact (error_run _ _ _ H).
Qed.
Print Assumptions C63_reason.

(** Once there is a reason to stop, until the program has returned there is always a step that
    it can take by itself: it does not wait for another request or signal. *)
Theorem C63_never_stuck n ls s : run ls (start n) = Some s -> existsb reason ls = true -> s_return s = None ->
  exists l s', own l = true /\ step l s = Some s'.
Proof. intros H Hr Hn. apply marked_moves; [eapply waiter_run; eauto| |exact Hn]. eapply reason_run; eauto. Qed.
Print Assumptions C63_never_stuck.

(** And once the waiter has told the workers, no more than 5 n + 2 steps are left, whatever
    order they are taken in and however many more requests are waiting. *)
Theorem C63_stops n ls1 s1 ls2 s2 : run ls1 (start n) = Some s1 -> s_exited s1 = true -> run ls2 s1 = Some s2 ->
  length (filter not_signal ls2) <= 5 * n + 2.
Proof.
  intros H1 Hx H2. pose proof (left_run _ _ _ H2 (waiter_run _ _ _ H1) Hx). pose proof (left_bound s1 n) as L.
  rewrite (worker_count_run _ _ _ H1) in L. cbn [start s_workers] in L. rewrite repeat_length in L. specialize (L eq_refl). lia.
Qed.
Print Assumptions C63_stops.

(** Two workers: one takes request 7, a signal comes, the other is cancelled while receiving,
    the first completes its request, both end, the program returns 0. *)
Definition ex_run : list label :=
  [LTest 0; LTest 1; LReceive 0 (RRequest 7); LSignal; LWake; LExit; LCancel; LCancel; LCancel; LCancelled 1; LLeave 1; LComplete 0 false; LTest 0; LLeave 0; LReturn].
Example C63_ex :
  option_map (fun s => (s_return s, s_seen s)) (run ex_run (start 2)) = Some (Some 0%N, [Taken 7; Completed 7]) /\
  existsb reason ex_run = true /\
  option_map s_exited (run (firstn 6 ex_run) (start 2)) = Some true /\ option_map s_return (run (firstn 6 ex_run) (start 2)) = Some None /\
  existsb reason (firstn 3 ex_run) = false /\
  (* an error ends everything *)
  option_map s_return (run [LTest 0; LReceive 0 (RError 5); LLeave 0; LWake; LExit; LCancel; LCancel; LReturn] (start 1)) = Some (Some 5%N).
Proof. vm_compute. repeat split. Qed.

(** Where the number of processors is not known, there are no workers: no request is ever
    taken, and the mount hangs. *)
Theorem C63_no_workers_refuted ls s : run ls (start (worker_count true 0)) = Some s -> s_seen s = [].
Proof.
  intros H. assert (K : s_seen s = [] /\ s_workers s = []); [|apply K].
  apply (inv_run (fun s => s_seen s = [] /\ s_workers s = [])) in H; [exact H| |split; reflexivity].
  clear. intros l a b H [A B]. open_step H. rewrite B in H. destruct l as [i|i r|i|i stop|i| | | | |]; try (destruct i; discriminate H).
  - injection H as <-. auto.
  - destruct (s_waiter a); try discriminate H. destruct (s_pipe a); try discriminate H. injection H as <-. auto.
  - destruct (s_waiter a); try discriminate H. injection H as <-. auto.
  - destruct (s_waiter a) as [| |i|]; try discriminate H. destruct i; injection H as <-; auto.
  - destruct (s_waiter a); try discriminate H. injection H as <-. auto.
Qed.
Print Assumptions C63_no_workers_refuted.
Example C63_no_workers_ex : option_map s_return (run [LSignal; LWake; LExit; LCancel; LReturn] (start (worker_count true 0))) = Some (Some 0%N).
Proof. reflexivity. Qed.

(** With the option for a single thread, requests are served one after the other. *)
Lemma single_inv l s s' : step l s = Some s' ->
  (exists w qs, s_workers s = [w] /\ s_seen s = flat_map (fun q => [Taken q; Completed q]) qs ++ map Taken (in_hand w)) ->
  exists w qs, s_workers s' = [w] /\ s_seen s' = flat_map (fun q => [Taken q; Completed q]) qs ++ map Taken (in_hand w).
Proof.
  intros H (w & qs & Hw & Hs). open_step H. rewrite Hw in H. unfold in_hand in *.
  assert (N : forall i (f : worker -> option state), match nth_error [w] i with Some w => f w | None => None end = Some s' -> i = 0 /\ f w = Some s').
  { intros [|[|i]] f Hf; cbn in Hf; [auto|discriminate Hf|discriminate Hf]. }
  destruct l as [i|i r|i|i stop|i| | | | |].
  - apply N in H as [-> H]. destruct (w_pc w) eqn:P; try discriminate H. injection H as <-. unfold with_worker. rewrite Hw. cbn [s_workers s_seen set_nth firstn skipn app].
    exists (mkW (if s_exited s then WLeaving else WReceiving) (w_cancel w)), qs. split; [reflexivity|]. rewrite Hs. now destruct (s_exited s).
  - apply N in H as [-> H]. destruct (w_pc w) eqn:P; try discriminate H. destruct r as [|e| |q]; injection H as <-; unfold with_seen, with_error, with_worker; rewrite Hw;
      cbn [s_workers s_seen set_nth firstn skipn app]; (eexists; exists qs; split; [reflexivity|]); cbn [w_pc map]; rewrite Hs; cbn [map]; rewrite ?app_nil_r; reflexivity.
  - apply N in H as [-> H]. destruct (w_pc w) eqn:P; try discriminate H. destruct (w_cancel w); try discriminate H. injection H as <-. unfold with_worker. rewrite Hw.
    cbn [s_workers s_seen set_nth firstn skipn app]. eexists. exists qs. split; [reflexivity|]. now rewrite Hs.
  - apply N in H as [-> H]. destruct (w_pc w) as [| |q| |] eqn:P; try discriminate H. injection H as <-.
    exists (mkW WTest (w_cancel w)), (qs ++ [q]). destruct stop; unfold with_pipe, with_seen, with_worker; rewrite Hw; cbn [s_workers s_seen set_nth firstn skipn app w_pc map];
      (split; [reflexivity|]); rewrite Hs, flat_map_app; cbn [flat_map map app]; rewrite <- app_assoc, app_nil_r; reflexivity.
  - apply N in H as [-> H]. destruct (w_pc w) eqn:P; try discriminate H. injection H as <-. unfold with_pipe, with_worker. rewrite Hw.
    cbn [s_workers s_seen set_nth firstn skipn app]. eexists. exists qs. split; [reflexivity|]. now rewrite Hs.
  - injection H as <-. exists w, qs. auto.
  - destruct (s_waiter s); try discriminate H. destruct (s_pipe s); try discriminate H. injection H as <-. exists w, qs. auto.
  - destruct (s_waiter s); try discriminate H. injection H as <-. exists w, qs. auto.
  - destruct (s_waiter s) as [| |[|i]|]; try discriminate H; cbn [nth_error] in H.
    + injection H as <-. unfold with_waiter, with_worker. rewrite Hw. cbn [s_workers s_seen set_nth firstn skipn app]. eexists. exists qs. split; [reflexivity|]. exact Hs.
    + destruct (nth_error [] i) as [x|] eqn:E; [now destruct i|]. injection H as <-. exists w, qs. auto.
  - destruct (s_waiter s); try discriminate H. destruct (forallb ended [w]); try discriminate H. injection H as <-. exists w, qs. auto.
Qed.
Theorem C63_single processors ls s : run ls (start (worker_count false processors)) = Some s -> one_by_one (s_seen s).
Proof.
  intros H. apply (inv_run _ single_inv) in H; [|exists (mkW WTest false), []; split; reflexivity].
  destruct H as (w & qs & _ & Hs). exists qs. rewrite Hs. unfold in_hand. destruct (w_pc w); cbn [map]; rewrite ?app_nil_r; auto. right. eexists. reflexivity.
Qed.
Print Assumptions C63_single.
Example C63_single_ex : option_map s_seen (run [LTest 0; LReceive 0 (RRequest 7); LComplete 0 false; LTest 0; LReceive 0 (RRequest 8)] (start (worker_count false 4))) =
  Some [Taken 7; Completed 7; Taken 8].
Proof. reflexivity. Qed.
