(** C84: the log consists of whole lines. *)
From Coq Require Import Strings.String.
From Verif Require Import Base BaseLemmas TextModel FuseModel LogModel LogSpec.
Local Open Scope list_scope.

Section Inv.
Variable colour : bool.
Variable file : bytes.
Variable lv : level.
Variable todo : nat -> list lcall.
Variable shown : Z -> Prop.      (* the times the clock has shown *)

Definition cur_of (cur : option (entry * bytes)) : bytes := match cur with Some (_, w) => w | None => [] end.
Definition cur_thread (cur : option (entry * bytes)) : option nat := match cur with Some ((t, _, _), _) => Some t | None => None end.

Definition thr_ok (s : lstate) (done : list entry) (cur : option (entry * bytes)) (t : nat) : Prop :=
  let W := wanted lv (todo t) in let D := by_thread t done in let R := wanted lv (lt_todo (ls_thr s t)) in
  match lt_pc (ls_thr s t) with
  | LIdle => W = D ++ R /\ cur_thread cur <> Some t
  | LChecked c => level_le lv (lc_level c) = true /\ W = D ++ c :: R /\ cur_thread cur <> Some t
  | LTimed c now => shown now /\ W = D ++ c :: R /\ cur_thread cur <> Some t
  | LWriting rest => exists c now w, cur = Some ((t, c, now), w) /\ W = D ++ c :: R /\ w ++ concat rest = line_of colour c now
  | LFlush => exists c now, cur = Some ((t, c, now), line_of colour c now) /\ W = D ++ c :: R
  | LUnlock => exists c now, cur = Some ((t, c, now), line_of colour c now) /\ W = D ++ c :: R /\ ls_buf s = []
  end.

Record linv (s : lstate) (done : list entry) (cur : option (entry * bytes)) : Prop := {
  i_level : ls_level s = lv;
  i_undef : ls_undef s = false;
  i_text : ls_out s ++ ls_buf s = file ++ text_of colour done ++ cur_of cur;
  i_owner : ls_owner s = cur_thread cur;
  i_buf : ls_owner s = None -> ls_buf s = [];
  i_thr : forall t, thr_ok s done cur t;
  i_clock : shown (ls_clock s);
  i_times : Forall (fun e => shown (snd e)) (done ++ match cur with Some (e, _) => [e] | None => [] end)
}.

Lemma by_thread_app t a b : by_thread t (a ++ b) = by_thread t a ++ by_thread t b.
Proof. unfold by_thread. rewrite filter_app, map_app. reflexivity. Qed.
Lemma text_of_app a b : text_of colour (a ++ b) = text_of colour a ++ text_of colour b.
Proof. unfold text_of. rewrite map_app, concat_app. reflexivity. Qed.

Lemma thr_ok_ext s s' done cur t : ls_thr s' t = ls_thr s t -> (ls_buf s = [] -> ls_buf s' = []) -> thr_ok s done cur t -> thr_ok s' done cur t.
Proof.
  unfold thr_ok. intros -> Hb H. destruct (lt_pc (ls_thr s t)); try exact H.
  destruct H as (c & now & H1 & H2 & H3). exists c, now. auto.
Qed.
(** A thread that does not hold the stream does not care about the current line. *)
Lemma thr_ok_other s s' done cur cur' t u : ls_thr s' t = ls_thr s t -> cur_thread cur = Some u \/ cur_thread cur = None -> u <> t ->
  cur_thread cur' = Some u \/ cur_thread cur' = None -> thr_ok s done cur t -> thr_ok s' done cur' t.
Proof.
  unfold thr_ok. intros -> Hc Hn Hc' H.
  assert (N : cur_thread cur <> Some t) by (destruct Hc as [-> | ->]; congruence).
  assert (N' : cur_thread cur' <> Some t) by (destruct Hc' as [-> | ->]; congruence).
  destruct (lt_pc (ls_thr s t)).
  - destruct H as [H _]. split; assumption.
  - destruct H as (H1 & H2 & _). repeat split; assumption.
  - destruct H as (H1 & H2 & _). repeat split; assumption.
  - destruct H as (c & now & w & -> & _). cbn in N. congruence.
  - destruct H as (c & now & -> & _). cbn in N. congruence.
  - destruct H as (c & now & -> & _). cbn in N. congruence.
Qed.

Lemma line_pieces c now : concat ((if colour then [colour_code (lc_level c)] else []) ++ [lc_head c now] ++ message c ++ tail colour c) = line_of colour c now.
Proof.
  unfold line_of, message, tail, painted, colour_code, colour_default, is_loud, esc. rewrite !concat_app. cbn [concat]. rewrite app_nil_r.
  destruct (lc_exn c), colour, (lc_level c); cbn [concat andb app]; rewrite ?app_nil_r; try reflexivity;
    rewrite <- ?app_assoc; cbn [app]; rewrite <- ?app_assoc; reflexivity.
Qed.

Lemma set_same s t x : ls_thr (set_thr s t x) t = x.
Proof. cbn. rewrite Nat.eqb_refl. reflexivity. Qed.
Lemma set_other s t x u : u <> t -> ls_thr (set_thr s t x) u = ls_thr s u.
Proof. intros H. cbn. destruct (Nat.eqb_spec u t); [contradiction|reflexivity]. Qed.

Lemma step_inv t s s' done cur : linv s done cur -> lstep colour t s = Some s' -> exists done' cur', linv s' done' cur'.
Proof.
  intros I Hs. pose proof (i_thr _ _ _ I t) as Ht. unfold thr_ok in Ht. unfold lstep in Hs.
  destruct (lt_pc (ls_thr s t)) as [|c|c now|rest| |] eqn:Epc.
  - destruct (lt_todo (ls_thr s t)) as [|c r] eqn:Et; [discriminate|]. assert (E : set_thr s t (mkLT (if level_le (ls_level s) (lc_level c) then LChecked c else LIdle) r) = s') by congruence. subst s'. clear Hs.
    rewrite (i_level _ _ _ I). exists done, cur. destruct Ht as [HW Hc].
    constructor; try (cbn; apply I). intros u. destruct (Nat.eq_dec u t) as [-> |Hu].
    + unfold thr_ok. rewrite set_same. cbn [wanted filter] in HW. change (level_num lv <=? level_num (lc_level c)) with (level_le lv (lc_level c)) in HW.
      destruct (level_le lv (lc_level c)) eqn:El; cbn [lt_pc lt_todo]; [repeat split|split]; assumption.
    + apply (thr_ok_ext s); [rewrite set_other by exact Hu; reflexivity|auto|apply I].
  - assert (E : set_thr s t (mkLT (if level_le (ls_level s) (lc_level c) then LTimed c (ls_clock s) else LWriting (message c ++ tail colour c)) (lt_todo (ls_thr s t))) = s') by congruence. subst s'. clear Hs.
    rewrite (i_level _ _ _ I). destruct Ht as (El & HW & Hc). rewrite El. exists done, cur.
    constructor; try (cbn; apply I). intros u. destruct (Nat.eq_dec u t) as [-> |Hu].
    + unfold thr_ok. rewrite set_same. cbn [lt_pc lt_todo]. split; [apply I|]. split; assumption.
    + apply (thr_ok_ext s); [rewrite set_other by exact Hu; reflexivity|auto|apply I].
  - destruct Ht as (El & HW & Hc).
    destruct (ls_owner s) as [o|] eqn:Eo.
    { destruct (Nat.eqb_spec o t) as [-> |Ho]; [|discriminate]. rewrite (i_owner _ _ _ I) in Eo. contradiction. }
    match type of Hs with Some ?x = _ => assert (E : x = s') by congruence end. subst s'. clear Hs.
    assert (Ec : cur = None) by (rewrite (i_owner _ _ _ I) in Eo; destruct cur as [[[[? ?] ?] ?]|]; [discriminate|reflexivity]). subst cur.
    exists done, (Some ((t, c, now), [])). constructor; try (cbn; apply I).
    + cbn. reflexivity.
    + cbn. discriminate.
    + intros u. destruct (Nat.eq_dec u t) as [-> |Hu].
      * unfold thr_ok. rewrite set_same. cbn [lt_pc lt_todo]. exists c, now, []. split; [reflexivity|]. split; [exact HW|]. apply line_pieces.
      * apply (thr_ok_other s _ done None _ u t); [rewrite set_other by exact Hu; reflexivity|right; reflexivity|congruence|left; reflexivity|apply I].
    + apply Forall_app. split; [|constructor; [exact El|constructor]]. pose proof (i_times _ _ _ I) as T. apply Forall_app in T. apply T.
  - destruct Ht as (c & now & w & -> & HW & Hl). assert (Eo : ls_owner s = Some t) by apply (i_owner _ _ _ I). rewrite Eo, Nat.eqb_refl in Hs.
    destruct rest as [|b r].
    + match type of Hs with Some ?x = _ => assert (E : x = s') by congruence end. subst s'. clear Hs. cbn [concat] in Hl. rewrite app_nil_r in Hl. subst w.
      exists done, (Some ((t, c, now), line_of colour c now)). constructor; try (cbn; apply I). intros u. destruct (Nat.eq_dec u t) as [-> |Hu].
      * unfold thr_ok. rewrite set_same. cbn [lt_pc lt_todo]. exists c, now. split; [reflexivity|exact HW].
      * apply (thr_ok_ext s); [rewrite set_other by exact Hu; reflexivity|auto|apply I].
    + match type of Hs with Some ?x = _ => assert (E : x = s') by congruence end. subst s'. clear Hs.
      exists done, (Some ((t, c, now), w ++ b)). constructor; try (cbn; apply I).
      * cbn. pose proof (i_text _ _ _ I) as X. cbn [cur_of] in X. rewrite !app_assoc. rewrite !app_assoc in X. rewrite X. reflexivity.
      * cbn. rewrite Eo. discriminate.
      * intros u. destruct (Nat.eq_dec u t) as [-> |Hu].
        -- unfold thr_ok. rewrite set_same. cbn [lt_pc lt_todo]. exists c, now, (w ++ b). split; [reflexivity|]. split; [exact HW|]. rewrite <- app_assoc. exact Hl.
        -- apply (thr_ok_other s _ done (Some ((t, c, now), w)) _ u t); [rewrite set_other by exact Hu; reflexivity|left; reflexivity|congruence|left; reflexivity|apply I].
  - destruct Ht as (c & now & -> & HW). assert (Eo : ls_owner s = Some t) by apply (i_owner _ _ _ I). rewrite Eo, Nat.eqb_refl in Hs.
    match type of Hs with Some ?x = _ => assert (E : x = s') by congruence end. subst s'. clear Hs.
    exists done, (Some ((t, c, now), line_of colour c now)). constructor; try (cbn; apply I).
    + cbn. rewrite app_nil_r. apply I.
    + reflexivity.
    + reflexivity.
    + intros u. destruct (Nat.eq_dec u t) as [-> |Hu].
      * unfold thr_ok. rewrite set_same. cbn [lt_pc lt_todo]. exists c, now. split; [reflexivity|]. split; [exact HW|reflexivity].
      * apply (thr_ok_ext s); [rewrite set_other by exact Hu; reflexivity|reflexivity|apply I].
  - destruct Ht as (c & now & -> & HW & Hb). assert (Eo : ls_owner s = Some t) by apply (i_owner _ _ _ I). rewrite Eo, Nat.eqb_refl in Hs.
    match type of Hs with Some ?x = _ => assert (E : x = s') by congruence end. subst s'. clear Hs.
    exists (done ++ [(t, c, now)]), None. constructor; try (cbn; apply I).
    + cbn. rewrite text_of_app, app_nil_r. cbn [text_of map concat fst snd]. rewrite app_nil_r. apply I.
    + reflexivity.
    + intros _. exact Hb.
    + intros u. destruct (Nat.eq_dec u t) as [-> |Hu].
      * unfold thr_ok. rewrite set_same. cbn [lt_pc lt_todo]. split; [|discriminate]. rewrite by_thread_app. cbn [by_thread filter fst snd]. unfold by_thread at 2. cbn [filter fst snd map]. rewrite Nat.eqb_refl. cbn [map fst snd]. rewrite <- app_assoc. exact HW.
      * assert (X : thr_ok (set_thr (mkLS (ls_out s) (ls_buf s) None (ls_level s) (ls_clock s) (ls_thr s) (ls_undef s)) t (mkLT LIdle (lt_todo (ls_thr s t)))) done None u).
        { apply (thr_ok_other s _ done (Some ((t, c, now), line_of colour c now)) _ u t); [rewrite set_other by exact Hu; reflexivity|left; reflexivity|congruence|right; reflexivity|apply I]. }
        assert (Y : by_thread u (done ++ [(t, c, now)]) = by_thread u done).
        { rewrite by_thread_app. unfold by_thread at 2. cbn [filter fst snd]. destruct (Nat.eqb_spec t u); [congruence|]. cbn [map]. apply app_nil_r. }
        unfold thr_ok in *. rewrite Y. exact X.
    + rewrite app_nil_r. apply I.
Qed.

Lemma do_inv a s done cur : steady a -> (forall z, a = AClock z -> shown z) -> linv s done cur -> exists done' cur', linv (ldo colour a s) done' cur'.
Proof.
  intros Ha Hz I. destruct a as [t|z|n|l]; [| | |contradiction]; cbn [ldo].
  - destruct (lstep colour t s) as [s'|] eqn:E; [|eauto]. eapply step_inv; eassumption.
  - exists done, cur. constructor; try (cbn; apply I). cbn. apply Hz. reflexivity.
  - exists done, cur. constructor; try (cbn; apply I).
    + cbn. rewrite <- app_assoc, firstn_skipn. apply I.
    + cbn. intros H. rewrite (i_buf _ _ _ I H). destruct n; reflexivity.
    + intros t. apply (thr_ok_ext s); [reflexivity| |apply I]. cbn. intros ->. destruct n; reflexivity.
Qed.

Lemma start_inv : shown 0 -> linv (lstart file lv todo) [] None.
Proof.
  intros H0. constructor; try reflexivity; [|exact H0|constructor]. intros t. unfold thr_ok. cbn. split; [reflexivity|discriminate].
Qed.

Lemma run_inv l : shown 0 -> (forall z, In (AClock z) l -> shown z) -> Forall steady l -> exists done cur, linv (lrun colour l (lstart file lv todo)) done cur.
Proof.
  intros H0 Hz H. unfold lrun. assert (X : exists done cur, linv (lstart file lv todo) done cur) by (exists [], None; apply start_inv, H0).
  revert X. generalize (lstart file lv todo). induction H as [|a l Ha _ IH]; intros s X; [exact X|].
  cbn [fold_left]. apply IH; [intros z Hin; apply Hz; right; exact Hin|]. destruct X as (d & c & I).
  apply (do_inv a s d c Ha); [intros z ->; apply Hz; left; reflexivity|exact I].
Qed.
End Inv.

(** At every moment of every run in which the level stays: what was written to the
    stream after the old content is a sequence of whole lines and at most the beginning of
    one more; the lines of each thread are those of its calls of sufficient level, in their
    order, none twice and none left out, with times that the clock has shown (it shows 0 at
    first); and the lock of the stream is used properly. *)
Theorem C84_whole :
  forall colour file lv todo l, Forall steady l ->
  let s := lrun colour l (lstart file lv todo) in
  ls_undef s = false /\
  exists done cur,
    ls_out s ++ ls_buf s = file ++ text_of colour done ++ cur /\
    (forall t c now, In (t, c, now) done -> now = 0%Z \/ In (AClock now) l) /\
    (cur = [] \/ exists t c now rest more, wanted lv (todo t) = by_thread t done ++ c :: more /\
                   (now = 0%Z \/ In (AClock now) l) /\ line_of colour c now = cur ++ rest) /\
    forall t, exists rest, wanted lv (todo t) = by_thread t done ++ rest.
Proof.
  intros colour file lv todo l H s. destruct (run_inv colour file lv todo (fun z => z = 0%Z \/ In (AClock z) l) l (or_introl eq_refl) (fun z Hz => or_intror Hz) H) as (done & cur & I). fold s in I.
  split; [apply I|]. exists done, (cur_of cur). split; [apply I|].
  pose proof (i_times _ _ _ _ _ _ _ _ I) as TT. rewrite Forall_app in TT. destruct TT as [TT TC]. split.
  { intros t c now Hin. rewrite Forall_forall in TT. apply (TT _ Hin). }
  split.
  - destruct cur as [[[[t c] now] w]|]; [|left; reflexivity]. right. cbn [cur_of].
    assert (X : ls_owner s = Some t) by apply (i_owner _ _ _ _ _ _ _ _ I). pose proof (i_thr _ _ _ _ _ _ _ _ I t) as T. unfold thr_ok in T. cbn [cur_thread] in T.
    apply Forall_inv in TC. cbn [snd] in TC.
    destruct (lt_pc (ls_thr s t)) as [|?|? ?|rest| |].
    + destruct T as [_ []]; reflexivity.
    + destruct T as (_ & _ & []); reflexivity.
    + destruct T as (_ & _ & []); reflexivity.
    + destruct T as (c' & now' & w' & E & HW & El). assert (w' = w) by congruence. assert (now' = now) by congruence. subst. exists t, c', now, (concat rest). eexists. split; [exact HW|]. split; [exact TC|]. symmetry. exact El.
    + destruct T as (c' & now' & E & HW). assert (w = line_of colour c' now') by congruence. assert (now' = now) by congruence. subst. exists t, c', now, []. eexists. split; [exact HW|]. split; [exact TC|]. rewrite app_nil_r. reflexivity.
    + destruct T as (c' & now' & E & HW & _). assert (w = line_of colour c' now') by congruence. assert (now' = now) by congruence. subst. exists t, c', now, []. eexists. split; [exact HW|]. split; [exact TC|]. rewrite app_nil_r. reflexivity.
  - intros t. pose proof (i_thr _ _ _ _ _ _ _ _ I t) as T. unfold thr_ok in T. destruct (lt_pc (ls_thr s t)).
    + destruct T as [T _]. eauto.
    + destruct T as (_ & T & _). eauto.
    + destruct T as (_ & T & _). eauto.
    + destruct T as (c' & now' & w' & _ & T & _). eauto.
    + destruct T as (c' & now' & _ & T). eauto.
    + destruct T as (c' & now' & _ & T & _). eauto.
Qed.
Print Assumptions C84_whole.

(** When the threads have returned from their calls, the lines of all of them are in the
    file, not in a buffer: nothing is lost if the process is then killed. *)
Theorem C84_complete :
  forall colour file lv todo l, Forall steady l ->
  let s := lrun colour l (lstart file lv todo) in
  (forall t, quiet_thread s t) ->
  exists done, ls_out s = file ++ text_of colour done /\ ls_buf s = [] /\
    forall t, by_thread t done = wanted lv (todo t).
Proof.
  intros colour file lv todo l H s Hq. destruct (run_inv colour file lv todo (fun z => z = 0%Z \/ In (AClock z) l) l (or_introl eq_refl) (fun z Hz => or_intror Hz) H) as (done & cur & I). fold s in I.
  assert (Q : forall t, wanted lv (todo t) = by_thread t done /\ cur_thread cur <> Some t).
  { intros t. pose proof (i_thr _ _ _ _ _ _ _ _ I t) as T. destruct (Hq t) as [E1 E2]. unfold thr_ok in T. rewrite E1, E2 in T. cbn [wanted filter] in T. rewrite app_nil_r in T. exact T. }
  assert (Ec : cur = None). { destruct cur as [[[[t c] now] w]|]; [|reflexivity]. destruct (Q t) as [_ X]. cbn in X. congruence. }
  subst cur. assert (Eb : ls_buf s = []) by (apply (i_buf _ _ _ _ _ _ _ _ I); apply (i_owner _ _ _ _ _ _ _ _ I)).
  exists done. split; [|split; [exact Eb|intros t; symmetry; apply Q]].
  pose proof (i_text _ _ _ _ _ _ _ _ I) as X. rewrite Eb in X. cbn [cur_of] in X. rewrite !app_nil_r in X. exact X.
Qed.
Print Assumptions C84_complete.

(** Nobody waits for ever: while a thread has something to do, it or the one that holds the
    stream can go on. *)
Theorem C84_no_deadlock :
  forall colour file lv todo l t, Forall steady l ->
  let s := lrun colour l (lstart file lv todo) in
  ~ quiet_thread s t ->
  lstep colour t s <> None \/ exists u, ls_owner s = Some u /\ lstep colour u s <> None.
Proof.
  intros colour file lv todo l t H s Hq. destruct (run_inv colour file lv todo (fun z => z = 0%Z \/ In (AClock z) l) l (or_introl eq_refl) (fun z Hz => or_intror Hz) H) as (done & cur & I). fold s in I.
  assert (Hold : forall u, ls_owner s = Some u -> lstep colour u s <> None).
  { intros u Eu. pose proof (i_owner _ _ _ _ _ _ _ _ I) as X. rewrite Eu in X. pose proof (i_thr _ _ _ _ _ _ _ _ I u) as T. unfold thr_ok in T. rewrite <- X in T.
    unfold lstep. rewrite Eu, Nat.eqb_refl. destruct (lt_pc (ls_thr s u)) as [|?|? ?|[|? ?]| |]; try discriminate.
    destruct T as [_ []]. reflexivity. }
  destruct (ls_owner s) as [u|] eqn:Eo; [right; exists u; auto|]. left.
  unfold lstep. rewrite Eo. pose proof (i_owner _ _ _ _ _ _ _ _ I) as X. rewrite Eo in X.
  unfold quiet_thread in Hq. destruct (lt_pc (ls_thr s t)) as [|?|? ?|[|? ?]| |]; try discriminate.
  destruct (lt_todo (ls_thr s t)); [destruct Hq; split; reflexivity|discriminate].
Qed.
Print Assumptions C84_no_deadlock.

(** Not so: that the times in the log do not go back although the clock does not.  The
    clock is read before the stream is locked. *)
Definition c84_call (b : byte) : lcall := mkCall LWarning (fun z => [x5b; if (z <? 5)%Z then x30 else x39; x5d]) [[b]; [b]] None.
Theorem C84_times_refuted :
  exists l, Forall steady l /\
  (forall l1 a l2, l = l1 ++ AClock a :: l2 -> forall b l3 l4, l2 = l3 ++ AClock b :: l4 -> (a <= b)%Z) /\
  let s := lrun false l (lstart [] LInfo (fun t => if t <? 2 then [c84_call x61] else [])) in
  ls_out s = text_of false [(1, c84_call x61, 9%Z); (0, c84_call x61, 1%Z)] /\ forall t, quiet_thread s t.
Proof.
  exists ([AClock 1; AStep 0; AStep 0; AClock 9] ++ repeat (AStep 1) 12 ++ repeat (AStep 0) 12). split; [|split; [|split]].
  - repeat constructor.
  - intros l1 a l2 E b l3 l4 E2. subst l2. assert (Hin : exists n m, nth_error ([AClock 1; AStep 0; AStep 0; AClock 9] ++ repeat (AStep 1) 12 ++ repeat (AStep 0) 12) n = Some (AClock a) /\ nth_error ([AClock 1; AStep 0; AStep 0; AClock 9] ++ repeat (AStep 1) 12 ++ repeat (AStep 0) 12) m = Some (AClock b) /\ n < m).
    { rewrite E. exists (length l1), (length l1 + S (length l3)). split; [|split; [|lia]].
      - rewrite nth_error_app2 by lia. rewrite Nat.sub_diag. reflexivity.
      - rewrite nth_error_app2 by lia. replace (length l1 + S (length l3) - length l1) with (S (length l3)) by lia. cbn [nth_error].
        rewrite nth_error_app2 by lia. rewrite Nat.sub_diag. reflexivity. }
    destruct Hin as (n & m & Hn & Hm & Hlt). clear E.
    destruct n as [|[|[|[|n]]]]; [|discriminate Hn|discriminate Hn| |].
    + cbn in Hn. assert (a = 1%Z) by congruence. subst a. destruct m as [|[|[|[|m]]]]; try discriminate Hm; [cbn in Hm; assert (b = 1%Z) by congruence; subst; lia|cbn in Hm; assert (b = 9%Z) by congruence; subst; lia|].
      exfalso. cbn [app nth_error] in Hm. apply nth_error_In in Hm. rewrite in_app_iff in Hm. destruct Hm as [Hm|Hm]; apply repeat_spec in Hm; discriminate Hm.
    + destruct m as [|[|[|[|m]]]]; [lia|lia|lia|lia|]. exfalso. cbn [app nth_error] in Hm. apply nth_error_In in Hm. rewrite in_app_iff in Hm. destruct Hm as [Hm|Hm]; apply repeat_spec in Hm; discriminate Hm.
    + exfalso. cbn [app nth_error] in Hn. apply nth_error_In in Hn. rewrite in_app_iff in Hn. destruct Hn as [Hn|Hn]; apply repeat_spec in Hn; discriminate Hn.
  - vm_compute. reflexivity.
  - intros t. destruct t as [|[|t]]; vm_compute; split; reflexivity.
Qed.
Print Assumptions C84_times_refuted.

(** Not so when the level is raised while a thread is logging: it then unlocks a stream it
    has not locked.  (The program sets the level only before it serves files.) *)
Theorem C84_level_refuted :
  exists l, ls_undef (lrun false l (lstart [] LInfo (fun t => if t =? 0 then [c84_call x61] else []))) = true.
Proof. exists ([AStep 0; ALevel LError] ++ repeat (AStep 0) 12). vm_compute. reflexivity. Qed.
Print Assumptions C84_level_refuted.

(** A case: two threads on a terminal, interleaved step by step, and a call of a level
    that is not logged. *)
Example C84_case :
  let todo := fun t => match t with
    | 0 => [c84_call x61; mkCall LTrace (fun _ => [x3f]) [] None; c84_call x62]
    | 1 => [mkCall LError (fun _ => [x21]) [[x63]] (Some [x64])]
    | _ => [] end in
  let s := lrun true (concat (repeat [AStep 0; AStep 1; AWriteOut 3] 60)) (lstart [x2d] LInfo todo) in
  (forall t, quiet_thread s t) /\
  ls_out s = [x2d] ++ text_of true [(0, c84_call x61, 0%Z); (1, mkCall LError (fun _ => [x21]) [[x63]] (Some [x64]), 0%Z); (0, c84_call x62, 0%Z)].
Proof. split; [intros t; destruct t as [|[|t]]; vm_compute; split; reflexivity|vm_compute; reflexivity]. Qed.
