(** C41: per-thread objects.  C42: the idle timer.  C43: the lock file. *)
From Coq Require Import ZArith Lia Sorting.Permutation.
From Verif Require Import Base ThreadLocalModel ThreadLocalSpec ThreadLocalProofs TimerModel LockerModel SyncSpec SyncProofs.
Local Open Scope list_scope.

(** C41.  However owners are made and destroyed and threads (any threads [ts]) ask for
    their objects, begin and end, with initializers that throw or ask other owners:
    every answer is the one the plain bookkeeping of [ThreadLocalSpec] gives.  An owner
    hands a thread the object it made for that thread, and makes one exactly if there is
    none; 256 owners can be alive, not more; an object is destroyed once, as the type it
    was made with, by its thread, when the thread ends or after its owner has ended.
    There is never more than one object per owner and thread. *)
Theorem C41_per_thread :
  forall ts g l s h, tlrun ts l (tls0 g) = (s, h) ->
  exists w, lawful_run ts world0 h w /\
    (forall x y t o, In (mkThing x t o) (things w) -> In (mkThing y t o) (things w) -> x = y) /\
    NoDup (map t_obj (things w)).
Proof.
  intros ts g l s h E. destruct (run_ok ts l (tls0 g) world0 s h (start_ok ts g) E) as (w & L & H). exists w. split; [exact L|]. split; [|apply (l_objs ts s w H)].
  intros x y t o Hx Hy. apply (l_things ts s w H) in Hx, Hy. destruct Hx as (k & K & B). destruct Hy as (k' & K' & B'). unfold was in *. assert (k' = k) by congruence. subst. rewrite B in B'. unfold full_holder in B'. congruence.
Qed.
Print Assumptions C41_per_thread.

(** Two threads, two owners of different types in turn in one slot, an initializer that
    throws, and one that uses another owner. *)
Definition ex_tl : list tlact :=
  [ANew 7; ANew 8; AGet 1 0; AInit 1 true; AGet 1 0; AGet 2 0; AInit 2 false; AGet 2 0; AGet 2 1; AInit 2 true; AInit 2 true;
   ADel 0; ANew 9; AGet 1 2; AInit 1 true; AGet 1 2; AExit 2; AExit 1; AGet 1 2].
Example C41_example :
  map (fun p => (snd (fst p), snd p)) (snd (tlrun [1; 2] ex_tl (tls0 5))) =
  [(RNew 0, []); (RNew 1, []); (RInit, []); (RObj 0, []); (RObj 0, []); (RInit, []); (RThrew, []); (RInit, []); (RInit, []); (RObj 1, []); (RObj 2, []);
   (RDone, []); (RNew 2, []); (RInit, [(0, 7)]); (RObj 3, []); (RObj 3, []); (RDone, [(2, 7); (1, 8)]); (RDone, [(3, 9)]); (RInit, [])].
Proof. vm_compute. reflexivity. Qed.

(** C42.  At every moment of every history: when the timer decides to call, the clock
    shows at least the time asked for last, the destructor has not begun, and it has not
    decided before; when the callback is called, that was decided before, it has not been
    called before, and the destructor has not ended. *)
Theorem C42_timer :
  forall epoch t0 l s h, tmrun l (timer0 epoch t0) [] = (s, h) ->
  forall h1 a r h2, h = h1 ++ (a, r) :: h2 ->
    (r = TDecided -> (exists t, last_set h2 = Some t /\ (t <= last_clock t0 h2)%Z) /\ ~ destroying h2 /\ answers TDecided h2 = 0) /\
    (r = TCalled -> answers TDecided h2 = 1 /\ answers TCalled h2 = 0 /\ ~ joined h2).
Proof.
  intros ep t0 l s h E h1 a r h2 Eh. destruct (tm_run ep t0 l (timer0 ep t0) [] s h (tm_start ep t0) (every_nil (sound t0) I) E) as [_ Ev]. specialize (Ev h1 _ Eh). cbn in Ev.
  split; intros ->; exact Ev.
Qed.
Print Assumptions C42_timer.

(** C42, it does call: if a time was asked for, the clock has reached every time asked
    for, and nobody destroys the timer, three steps of the worker are enough. *)
Theorem C42_prompt :
  forall epoch t0 l s h, tmrun l (timer0 epoch t0) [] = (s, h) ->
  last_set h <> None -> ~ destroying h -> (forall t, asked t h -> (t <= last_clock t0 h)%Z) ->
  answers TCalled (snd (tmrun [TWork; TWork; TWork] s h)) = 1.
Proof.
  intros ep t0 l s h E Hs Nd Ha. destruct (tm_run ep t0 l (timer0 ep t0) [] s h (tm_start ep t0) (every_nil (sound t0) I) E) as [M _].
  assert (Ht : (trigger s <= now s)%Z).
  { rewrite (m_trig _ _ _ _ M), (m_now _ _ _ _ M). destruct (last_set h) as [t|] eqn:L; [|congruence]. now apply Ha, last_set_asked. }
  assert (Ex : exiting s = false) by (destruct (exiting s) eqn:Ex; [exfalso; apply Nd; now apply (m_exit _ _ _ _ M)|reflexivity]).
  pose proof (m_called _ _ _ _ M) as C. pose proof (m_none _ _ _ _ M) as N. pose proof (m_wait _ _ _ _ M) as Wt. pose proof (m_wexit _ _ _ _ M) as We. pose proof (m_now _ _ _ _ M) as Nw.
  clear E M. destruct s as [tr wk ex wo nw gn]. cbn [trigger exiting work now] in *. subst ex. apply Z.leb_le in Ht.
  destruct wo as [| |d| | |]; cbn [tmrun tmstep work trigger wake exiting now gone].
  - exfalso. apply Hs. now apply N.
  - rewrite Ht, !Bool.orb_true_r. cbn. unfold answers in *. cbn. now rewrite C.
  - assert (Hd : (d <=? nw)%Z = true) by (apply Z.leb_le; rewrite Nw; apply Ha, Wt; reflexivity). rewrite Hd, Ht, !Bool.orb_true_r. cbn. unfold answers in *. cbn. now rewrite C.
  - cbn. unfold answers in *. cbn. now rewrite C.
  - cbn. unfold answers in *. cbn. exact C.
  - specialize (We eq_refl). discriminate.
Qed.
Print Assumptions C42_prompt.

(** Put off twice, then called; the clock runs. *)
Definition ex_tm : list tact := [TSet 10; TWork; TClock 5; TSet 15; TClock 10; TWork; TWork; TClock 14; TWork; TClock 15; TWork; TWork; TDestroy; TJoin]%Z.
Example C42_example :
  rev (map snd (snd (tmrun ex_tm (timer0 (-1000) 0) []))) =
  [TNothing; TNothing; TNothing; TNothing; TNothing; TNothing; TNothing; TNothing; TBlocked; TNothing; TDecided; TCalled; TNothing; TNothing].
Proof. vm_compute. reflexivity. Qed.

(** C42 does not hold of the call itself, as opposed to the decision: it happens after the
    mutex was released.  A time in the future may have been asked for in between, and the
    destructor may have begun. *)
Theorem C42_call_refuted :
  (exists l h2, snd (tmrun l (timer0 0 0) []) = (TWork, TCalled) :: h2 /\ last_set h2 = Some 100%Z /\ last_clock 0 h2 = 10%Z) /\
  (exists l h2, snd (tmrun l (timer0 0 0) []) = (TWork, TCalled) :: h2 /\ destroying h2).
Proof.
  split.
  - exists [TSet 10; TWork; TClock 10; TWork; TSet 100; TWork]%Z. eexists. vm_compute. repeat split.
  - exists [TSet 10; TWork; TClock 10; TWork; TDestroy; TWork]%Z. eexists. split; [vm_compute; reflexivity|]. eexists. now left.
Qed.
Print Assumptions C42_call_refuted.

(** And it may be late: an earlier time asked for, then one between, makes the worker
    sleep on until the first. *)
Theorem C42_late_refuted :
  exists l s h, tmrun l (timer0 0 0) [] = (s, h) /\ last_set h = Some 7%Z /\ last_clock 0 h = 8%Z /\ ~ destroying h /\ snd (tmstep TWork s) = TBlocked.
Proof.
  exists [TSet 10; TWork; TSet 5; TSet 7; TClock 8]%Z. eexists. eexists. split; [vm_compute; reflexivity|]. cbn. repeat split. intros (r & H). cbn in H. intuition discriminate.
Qed.
Print Assumptions C42_late_refuted.

(** C43.  Whatever lock file is left over, if processes take and give back the lock one at
    a time, never two of them hold it, however they fail and die. *)
Theorem C43_one_at_a_time :
  forall left_over l, one_at_a_time (locker0 left_over) l ->
  forall p q, holds (lrun (locker0 left_over) l) p -> holds (lrun (locker0 left_over) l) q -> p = q.
Proof. intros c l O p q. apply one_holder. apply lrun_LI; [apply locker0_LI|exact O]. Qed.
Print Assumptions C43_one_at_a_time.

(** A process finds the lock taken and is refused; when the holder has died it takes over,
    and gives the lock back. *)
Definition ex_lk : list lact :=
  [LSpawn 11; LSpawn 12; LGo 11; LGo 11; LGo 11; LGo 12; LGo 12; LGo 12; LGo 12].
Example C43_example :
  let s1 := lrun (locker0 None) ex_lk in
  let s2 := lrun s1 [LCrash 11; LGo 12; LGo 12; LGo 12; LGo 12; LGo 12; LGo 12] in
  let s3 := lrun s2 [LGo 12; LGo 12] in
  one_at_a_time (locker0 None) (ex_lk ++ [LCrash 11; LGo 12; LGo 12; LGo 12; LGo 12; LGo 12; LGo 12] ++ [LGo 12; LGo 12]) /\
  procs s1 11 = PHold 0 /\ procs s1 12 = POut /\ procs s2 12 = PHold 0 /\ procs s3 12 = POut /\ name s3 = None.
Proof.
  cbv zeta. split; [|vm_compute; repeat split].
  cbn. unfold quiet, pset. cbn. repeat split; intros q N; repeat match goal with |- context [?a =? ?b] => destruct (Nat.eqb_spec a b); subst; cbn; try congruence end; exact I.
Qed.

(** C43 does not hold of all schedules.  Between creating the lock file and writing the
    pid, another process sees an empty lock file and takes it; two processes may both see
    the pid of a dead one; and a process that opened the lock file before its owner
    removed it takes a file that has no name any more. *)
Theorem C43_refuted :
  (exists l, (forall p, ~ In (LCrash p) l) /\ let s := lrun (locker0 None) l in holds s 1 /\ holds s 2) /\
  (exists l, (forall p, ~ In (LCrash p) l) /\ let s := lrun (locker0 (Some (Some 9))) l in holds s 1 /\ holds s 2) /\
  (exists l, let s := lrun (locker0 None) l in holds s 2 /\ holds s 3).
Proof.
  assert (NC : forall l, forallb (fun a => match a with LCrash _ => false | _ => true end) l = true -> forall p, ~ In (LCrash p) l).
  { intros l H p Hp. rewrite forallb_forall in H. discriminate (H _ Hp). }
  split; [|split].
  - exists [LSpawn 1; LSpawn 2; LGo 1; LGo 2; LGo 2; LGo 2; LGo 2; LGo 2; LGo 2; LGo 1; LGo 1]. split; [apply NC; reflexivity|]. split; eexists; vm_compute; reflexivity.
  - exists [LSpawn 1; LSpawn 2; LGo 1; LGo 1; LGo 1; LGo 2; LGo 2; LGo 2; LGo 1; LGo 2; LGo 1; LGo 1; LGo 2; LGo 2]. split; [apply NC; reflexivity|]. split; eexists; vm_compute; reflexivity.
  - exists [LSpawn 1; LSpawn 2; LSpawn 3; LGo 1; LGo 1; LGo 1; LGo 2; LGo 2; LGo 1; LGo 1; LCrash 1; LGo 2; LGo 2; LGo 2; LGo 2; LGo 3; LGo 3; LGo 3]. split; eexists; vm_compute; reflexivity.
Qed.
Print Assumptions C43_refuted.
