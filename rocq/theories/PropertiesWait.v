(** C92: a mount in the background is reported as what it is. *)
From Coq Require Import Lia.
From Verif Require Import Base WaitModel WaitSpec.
Local Open Scope list_scope.

Lemma wrun_app ign l1 l2 s : wrun ign (l1 ++ l2) s = wrun ign l2 (wrun ign l1 s).
Proof. apply fold_left_app. Qed.
Lemma wrun_snoc ign l e s : wrun ign (l ++ [e]) s = wstep ign (wrun ign l s) e.
Proof. unfold wrun. rewrite fold_left_app. reflexivity. Qed.

(** The code of a child that has ended. *)
Lemma code_of e valid : real e -> valid = true ->
  exists c, exit_code valid (WEnded (status_of e)) = (true, Some c) /\ (if (c =? 0)%Z then -1 else c)%Z = reported e.
Proof.
  intros H ->. unfold exit_code. cbn [negb]. eexists. split; [reflexivity|]. destruct e as [code|sig dumped]; cbn [status_of real] in *.
  - assert (E : (code * 256 mod 128 = 0)%N) by (replace (code * 256)%N with (code * 2 * 128)%N by lia; apply N.mod_mul; discriminate).
    unfold wifexited. rewrite E. cbn [N.eqb]. unfold wexitstatus. rewrite N.div_mul by discriminate. rewrite N.mod_small by exact H.
    destruct code as [|p]; [reflexivity|]. cbn [reported]. reflexivity.
  - assert (E : ((sig + if dumped then 128 else 0) mod 128 = sig)%N).
    { destruct dumped; [|rewrite N.add_0_r; apply N.mod_small; lia].
      replace (sig + 128)%N with (sig + 1 * 128)%N by lia. rewrite N.mod_add by discriminate. apply N.mod_small; lia. }
    unfold wifexited, wifsignaled, wtermsig. rewrite E. destruct (N.eqb_spec sig 0); [lia|].
    destruct (N.ltb_spec 0 sig); [|lia]. destruct (N.ltb_spec sig 127); [|lia]. cbn [andb reported].
    destruct (Z.eqb_spec (128 + Z.of_N sig) 0); [lia|reflexivity].
Qed.
Lemma reported_not_0 e : reported e <> 0%Z.
Proof. destruct e as [[|p]|sig d]; cbn [reported]; lia. Qed.

(** What holds all the time. *)
Record inv (ign : bool) (mounts : list mounter) (l : list wev) (s : wst) : Prop := {
  i_valid : ign = false -> ws_valid s = true;
  i_end : forall st, w_child (ws_world s) = Some st -> exists e, real e /\ st = status_of e /\ In (EvEnd st) l;
  i_mounted : w_child (ws_world s) <> None -> ~ In ByChild mounts -> ~ In ByChild (w_mounts (ws_world s));
  i_only : undisturbed mounts l -> ~ In BySecurefs (w_mounts (ws_world s));
  i_zero : ws_pc s = WReturned 0 -> exists l1 l2 calm rest, l = l1 ++ EvCommand true calm :: l2 /\
    (w_mounts (ws_world (wrun ign l1 (wstart mounts))) = ByChild :: rest \/ w_mounts (ws_world (wrun ign l1 (wstart mounts))) = BySecurefs :: rest);
  i_fail : forall c, ws_pc s = WReturned c -> c <> 0%Z -> ign = false /\ exists e, real e /\ w_child (ws_world s) = Some (status_of e) /\ c = reported e }.

Lemma without_in m l : In m (without_child l) -> In m l /\ m <> ByChild.
Proof. unfold without_child. rewrite filter_In. intros [H E]. split; [exact H|]. now intros ->. Qed.

Lemma inv_grow ign mounts l e s : inv ign mounts l s -> 
  (undisturbed mounts (l ++ [e]) -> undisturbed mounts l) /\
  (forall st, w_child (ws_world s) = Some st -> exists x, real x /\ st = status_of x /\ In (EvEnd st) (l ++ [e])) /\
  (ws_pc s = WReturned 0 -> exists l1 l2 calm rest, l ++ [e] = l1 ++ EvCommand true calm :: l2 /\
    (w_mounts (ws_world (wrun ign l1 (wstart mounts))) = ByChild :: rest \/ w_mounts (ws_world (wrun ign l1 (wstart mounts))) = BySecurefs :: rest)).
Proof.
  intros I. split; [|split].
  - intros (H1 & H2 & H3). repeat split; [exact H1|exact H2|]. intros H. apply H3. apply in_or_app. now left.
  - intros st H. destruct (i_end _ _ _ _ I st H) as (x & H1 & H2 & H3). exists x. repeat split; [exact H1|exact H2|]. apply in_or_app. now left.
  - intros H. destruct (i_zero _ _ _ _ I H) as (l1 & l2 & calm & rest & -> & H'). exists l1, (l2 ++ [e]), calm, rest. split; [now rewrite <- app_assoc|exact H'].
Qed.

Lemma inv_run ign mounts l : possible l -> inv ign mounts l (wrun ign l (wstart mounts)).
Proof.
  induction l as [|e l IH] using rev_ind; intros P.
  - cbn [wrun fold_left wstart]. constructor; cbn [ws_valid ws_world w_child w_mounts ws_pc]; try discriminate; try reflexivity; [now intros H|intros H; now destruct H].
  - apply Forall_app in P as [P Pe]. specialize (IH P). rewrite wrun_snoc. remember (wrun ign l (wstart mounts)) as s eqn:Es.
    destruct (inv_grow ign mounts l e s IH) as (G1 & G2 & G3). destruct s as [[ms ch] v pc]. destruct IH as [I1 I2 I3 I4 I5 I6]. cbn [ws_valid ws_world w_child w_mounts ws_pc] in *.
    assert (Same : inv ign mounts (l ++ [e]) (mkWst (mkW ms ch) v pc)).
    { constructor; cbn [ws_valid ws_world w_child w_mounts ws_pc]; [exact I1|exact G2|exact I3|intros H; exact (I4 (G1 H))|exact G3|exact I6]. }
    destruct e as [| |st|m| |answers calm]; cbn [wstep ws_valid ws_world w_child w_mounts ws_pc].
    + destruct ch as [st|]; [exact Same|]. constructor; cbn [ws_valid ws_world w_child w_mounts ws_pc]; [exact I1|discriminate|congruence| |exact G3|].
      * intros H [H'|H']; [discriminate H'|exact (I4 (G1 H) H')].
      * intros c Hc Hn. destruct (I6 c Hc Hn) as (_ & x & _ & H & _). discriminate H.
    + constructor; cbn [ws_valid ws_world w_child w_mounts ws_pc]; [exact I1|exact G2| | |exact G3|exact I6].
      * intros H1 H2 H3. apply without_in in H3 as [_ H3]. now apply H3.
      * intros H H'. apply without_in in H' as [H' _]. exact (I4 (G1 H) H').
    + destruct ch as [st'|]; [exact Same|]. constructor; cbn [ws_valid ws_world w_child w_mounts ws_pc]; [exact I1| | | |exact G3|].
      * intros st' [= <-]. apply Forall_inv in Pe. destruct Pe as (x & Hx & Ex). exists x. split; [exact Hx|]. split; [exact Ex|]. apply in_or_app. right. now left.
      * intros _ _ H. apply without_in in H as [_ H]. now apply H.
      * intros H H'. apply without_in in H' as [H' _]. exact (I4 (G1 H) H').
      * intros c Hc Hn. destruct (I6 c Hc Hn) as (_ & x & _ & H & _). discriminate H.
    + assert (O : m <> ByChild -> inv ign mounts (l ++ [EvOther m]) (mkWst (mkW (m :: ms) ch) v pc)).
      { intros Hm. constructor; cbn [ws_valid ws_world w_child w_mounts ws_pc]; [exact I1|exact G2| | |exact G3|exact I6].
        - intros H1 H2 [H3|H3]; [congruence|exact (I3 H1 H2 H3)].
        - intros H [H'|H']; [|exact (I4 (G1 H) H')]. subst m. destruct H as (_ & _ & H). apply H. apply in_or_app. right. now left. }
      destruct m; [exact Same|apply O; discriminate|apply O; discriminate].
    + assert (O : forall m ms', ms = m :: ms' -> inv ign mounts (l ++ [EvOtherGone]) (mkWst (mkW ms' ch) v pc)).
      { intros m ms' ->. constructor; cbn [ws_valid ws_world w_child w_mounts ws_pc]; [exact I1|exact G2| | |exact G3|exact I6].
        - intros H1 H2 H3. apply (I3 H1 H2). now right.
        - intros H H'. apply (I4 (G1 H)). now right. }
      destruct ms as [|[] ms']; [exact Same|exact Same|exact (O _ _ eq_refl)|exact (O _ _ eq_refl)].
    + destruct pc as [| | |c].
      * destruct (answers && top_is_securefs ms) eqn:E; constructor; cbn [ws_valid ws_world w_child w_mounts ws_pc]; try exact I1; try exact G2; try exact I3; try (intros H; exact (I4 (G1 H))); try discriminate.
        -- intros _. apply andb_prop in E as [-> E].
           assert (exists rest, ms = ByChild :: rest \/ ms = BySecurefs :: rest) as (rest & Hr).
           { destruct ms as [|[] ms']; try discriminate E; exists ms'; [now left|now right]. }
           exists l, [], calm, rest. split; [reflexivity|]. rewrite <- Es. cbn [ws_world w_mounts]. exact Hr.
        -- intros c [= <-] Hn. congruence.
      * destruct (exit_code v (waitpid ign calm (mkW ms ch))) as [v' code] eqn:E.
        assert (V : ign = false -> v' = true).
        { intros Hi. specialize (I1 Hi). subst v ign. unfold exit_code, waitpid in E. cbn [negb w_child] in E. destruct calm, ch; cbn [negb] in E; congruence. }
        destruct code as [c|]; constructor; cbn [ws_valid ws_world w_child w_mounts ws_pc]; try exact V; try exact G2; try exact I3; try (intros H; exact (I4 (G1 H))); try discriminate.
        -- intros [= H]. exfalso. unfold exit_code, waitpid in E. destruct v; cbn [negb w_child] in E; [|discriminate E]. destruct calm; cbn [negb] in E; [|discriminate E].
           destruct ch as [st|]; [|discriminate E]. destruct ign; [discriminate E|]. destruct (G2 st eq_refl) as (x & Hx & -> & _).
           destruct (code_of x true Hx eq_refl) as (c' & E' & R). unfold exit_code in E'. cbn [negb] in E'. rewrite E' in E. injection E as _ <-. rewrite R in H. exact (reported_not_0 x H).
        -- intros c' [= <-] Hn. unfold exit_code, waitpid in E. destruct v; cbn [negb w_child] in E; [|discriminate E]. destruct calm; cbn [negb] in E; [|discriminate E].
           destruct ch as [st|]; [|discriminate E]. destruct ign; [discriminate E|]. split; [reflexivity|]. destruct (G2 st eq_refl) as (x & Hx & -> & _).
           exists x. repeat split; [exact Hx|]. destruct (code_of x true Hx eq_refl) as (c' & E' & R). unfold exit_code in E'. cbn [negb] in E'. rewrite E' in E. injection E as _ <-. exact R.
      * constructor; cbn [ws_valid ws_world w_child w_mounts ws_pc]; [exact I1|exact G2|exact I3|intros H; exact (I4 (G1 H))|discriminate|discriminate].
      * exact Same.
Qed.

(** The command says that it has mounted only if it has seen a securefs on the mount point
    since it started the child; and if nobody else mounts one there, that is the child's,
    and the child was still running. *)
Theorem C92_success : forall ignoring mounts l, possible l -> ws_pc (wrun ignoring l (wstart mounts)) = WReturned 0 ->
  exists l1 l2 calm rest, l = l1 ++ EvCommand true calm :: l2 /\
    let then_ := ws_world (wrun ignoring l1 (wstart mounts)) in
    (w_mounts then_ = ByChild :: rest \/ w_mounts then_ = BySecurefs :: rest) /\
    (undisturbed mounts l -> w_mounts then_ = ByChild :: rest /\ w_child then_ = None).
Proof.
  intros ign mounts l P H. destruct (i_zero _ _ _ _ (inv_run ign mounts l P) H) as (l1 & l2 & calm & rest & -> & Hm). exists l1, l2, calm, rest. split; [reflexivity|]. cbn zeta. split; [exact Hm|].
  intros (U1 & U2 & U3). apply Forall_app in P as [P1 _]. pose proof (inv_run ign mounts l1 P1) as I.
  assert (U : undisturbed mounts l1) by (repeat split; [exact U1|exact U2|]; intros H'; apply U3; apply in_or_app; now left).
  destruct Hm as [Hm|Hm]; [|exfalso; apply (i_only _ _ _ _ I U); rewrite Hm; now left]. split; [exact Hm|].
  destruct (w_child _) eqn:E; [|reflexivity]. exfalso. apply (i_mounted _ _ _ _ I); [congruence|exact U2|]. rewrite Hm. now left.
Qed.
Print Assumptions C92_success.

(** It fails only if the child has ended, with the code of the child, 128 and the signal
    that killed it, or -1 if the child ended with 0; and the child serves nothing then. *)
Theorem C92_failure : forall ignoring mounts l code, possible l -> ws_pc (wrun ignoring l (wstart mounts)) = WReturned code -> code <> 0%Z ->
  exists e, real e /\ In (EvEnd (status_of e)) l /\ w_child (ws_world (wrun ignoring l (wstart mounts))) = Some (status_of e) /\ code = reported e /\
    (~ In ByChild mounts -> ~ In ByChild (w_mounts (ws_world (wrun ignoring l (wstart mounts))))).
Proof.
  intros ign mounts l code P H Hn. pose proof (inv_run ign mounts l P) as I. destruct (i_fail _ _ _ _ I code H Hn) as (_ & e & H1 & H2 & H3).
  exists e. split; [exact H1|]. split; [destruct (i_end _ _ _ _ I _ H2) as (x & _ & _ & Hx); exact Hx|]. split; [exact H2|]. split; [exact H3|].
  apply (i_mounted _ _ _ _ I). rewrite H2. discriminate.
Qed.
Print Assumptions C92_failure.

Lemma returned_stays ign l s c : ws_pc s = WReturned c -> ws_pc (wrun ign l s) = WReturned c.
Proof.
  revert s. induction l as [|e l IH]; intros s H; [exact H|]. cbn [wrun fold_left]. apply IH. destruct e as [| |st|m| |a k]; cbn [wstep].
  - destruct (w_child (ws_world s)); exact H.
  - exact H.
  - destruct (w_child (ws_world s)); exact H.
  - destruct m; exact H.
  - destruct (w_mounts (ws_world s)) as [|[] ?]; exact H.
  - rewrite H. exact H.
Qed.

(** How far the command is from the end. *)
Definition far (p : wpc) : nat := match p with WReturned _ => 0 | WAsk => 1 | WPoll => 2 | WSleep => 3 end.

(** Once the child has ended, the command returns in three steps of its own, whatever
    else happens. *)
Theorem C92_returns_ended : forall mounts l0 l, possible (l0 ++ l) ->
  w_child (ws_world (wrun false l0 (wstart mounts))) <> None -> 3 <= steps_of l -> quiet_calls l ->
  exists code, ws_pc (wrun false (l0 ++ l) (wstart mounts)) = WReturned code.
Proof.
  intros mounts l0 l P. rewrite wrun_app. apply Forall_app in P as [P0 P]. pose proof (i_valid _ _ _ _ (inv_run false mounts l0 P0) eq_refl) as V.
  remember (wrun false l0 (wstart mounts)) as s eqn:Es. intros Hc Hn. assert (Hf : far (ws_pc s) <= steps_of l) by (destruct (ws_pc s); cbn [far]; lia).
  clear P0 P Es l0 mounts Hn. revert s V Hc Hf. induction l as [|e l IH]; intros s V Hc Hf Q.
  - destruct (ws_pc s) eqn:E; cbn in Hf; try lia. exists code. exact E.
  - inversion Q as [|? ? Qe Q']; subst. cbn [wrun fold_left]. destruct s as [[ms [st|]] v pc]; cbn [ws_world w_child ws_valid ws_pc] in *; [|congruence]. subst v.
    assert (K : steps_of (e :: l) = steps_of l + match e with EvCommand _ _ => 1 | _ => 0 end) by (unfold steps_of; cbn [filter]; destruct e; cbn [length]; lia).
    rewrite K in Hf. clear K.
    destruct e as [| |st'|m| |a k]; cbn [wstep ws_world w_child w_mounts ws_valid ws_pc].
    + apply IH; cbn [ws_valid ws_world w_child ws_pc]; [reflexivity|discriminate|lia|exact Q'].
    + apply IH; cbn [ws_valid ws_world w_child ws_pc]; [reflexivity|discriminate|lia|exact Q'].
    + apply IH; cbn [ws_valid ws_world w_child ws_pc]; [reflexivity|discriminate|lia|exact Q'].
    + destruct m; apply IH; cbn [ws_valid ws_world w_child ws_pc]; try reflexivity; try discriminate; try lia; exact Q'.
    + destruct ms as [|[] ms']; apply IH; cbn [ws_valid ws_world w_child ws_pc]; try reflexivity; try discriminate; try lia; exact Q'.
    + subst k. destruct pc as [| | |c]; cbn [far] in Hf.
      * destruct (a && top_is_securefs ms); [exists 0%Z; now apply (returned_stays false l)|]. apply IH; cbn [ws_valid ws_world w_child ws_pc far]; [reflexivity|discriminate|lia|exact Q'].
      * unfold waitpid. cbn [negb w_child]. unfold exit_code. cbn [negb]. eexists. apply (returned_stays false l). reflexivity.
      * apply IH; cbn [ws_valid ws_world w_child ws_pc far]; [reflexivity|discriminate|lia|exact Q'].
      * exists c. now apply (returned_stays false l).
Qed.
Print Assumptions C92_returns_ended.

(** Once the child has mounted, and as long as it runs and nothing is mounted over it, the
    command says so, in three steps of its own. *)
Theorem C92_returns_mounted : forall ignoring mounts l0 l rest, possible (l0 ++ l) ->
  w_mounts (ws_world (wrun ignoring l0 (wstart mounts))) = ByChild :: rest -> w_child (ws_world (wrun ignoring l0 (wstart mounts))) = None ->
  Forall (fun e => match e with EvCommand _ _ | EvMount | EvOtherGone => True | _ => False end) l -> 3 <= steps_of l -> steady_calls l ->
  ws_pc (wrun ignoring (l0 ++ l) (wstart mounts)) = WReturned 0.
Proof.
  intros ign mounts l0 l rest P Hm Hc Hl Hn Q. rewrite wrun_app. apply Forall_app in P as [P0 _]. pose proof (inv_run ign mounts l0 P0) as I.
  remember (wrun ign l0 (wstart mounts)) as s eqn:Es.
  assert (Hz : forall c, ws_pc s = WReturned c -> c = 0%Z).
  { intros c H. destruct (Z.eq_dec c 0) as [E|E]; [exact E|]. destruct (i_fail _ _ _ _ I c H E) as (_ & x & _ & H' & _). congruence. }
  set (far' := fun p => match p with WReturned _ => 0 | WPoll => 1 | WSleep => 2 | WAsk => 3 end).
  assert (Hf : far' (ws_pc s) <= steps_of l) by (destruct (ws_pc s); cbn; lia).
  clear Es I P0 Hn l0. revert s rest Hm Hc Hz Hf. induction l as [|e l IH]; intros s rest Hm Hc Hz Hf.
  - destruct (ws_pc s) eqn:E; cbn in Hf; try lia. cbn [wrun fold_left]. rewrite E. f_equal. now apply Hz.
  - inversion Q as [|? ? Qe Q']; subst. inversion Hl as [|? ? He Hl']; subst. specialize (IH Hl' Q'). cbn [wrun fold_left].
    destruct s as [[ms ch] v pc]; cbn [ws_world w_child w_mounts ws_valid ws_pc] in *. subst ms ch.
    assert (K : steps_of (e :: l) = steps_of l + match e with EvCommand _ _ => 1 | _ => 0 end) by (unfold steps_of; cbn [filter]; destruct e; cbn [length]; lia).
    rewrite K in Hf. clear K.
    destruct e as [| |st'|m| |a k]; try contradiction; cbn [wstep ws_world w_child w_mounts ws_valid ws_pc].
    + apply (IH _ (ByChild :: rest)); cbn [ws_world w_child w_mounts ws_pc]; [reflexivity|reflexivity|exact Hz|lia].
    + apply (IH _ rest); cbn [ws_world w_child w_mounts ws_pc]; [reflexivity|reflexivity|exact Hz|lia].
    + destruct Qe as [-> ->]. destruct pc as [| | |c]; cbn [far'] in Hf.
      * cbn [andb top_is_securefs]. now apply (returned_stays ign l).
      * unfold waitpid. cbn [negb w_child]. unfold exit_code. destruct v; cbn [negb]; apply (IH _ rest); cbn [ws_world w_child w_mounts ws_pc far']; try reflexivity; try lia; discriminate.
      * apply (IH _ rest); cbn [ws_world w_child w_mounts ws_pc far']; try reflexivity; try lia; discriminate.
      * apply (IH _ rest); cbn [ws_world w_child w_mounts ws_pc far']; try reflexivity; try exact Hz; lia.
Qed.
Print Assumptions C92_returns_mounted.

(** A run that succeeds after two rounds and one that fails. *)
Example C92_example :
  let c := EvCommand true true in
  let good := [c; c; EvOther ByOther; c; c; EvOtherGone; EvMount; c; c; c] in
  let bad := [c; c; c; EvEnd (status_of (Killed 9 false)); c; c] in
  possible good /\ undisturbed [ByOther] good /\ ws_pc (wrun false good (wstart [ByOther])) = WReturned 0 /\
  possible bad /\ ws_pc (wrun false bad (wstart [])) = WReturned 137 /\
  ws_pc (wrun false [c; EvEnd (status_of (Exited 0)); c] (wstart [])) = WReturned (-1).
Proof.
  cbv zeta. split; [repeat constructor|]. split; [repeat split; cbn; intuition discriminate|]. split; [reflexivity|].
  split; [repeat constructor; exists (Killed 9 false); split; [now split|reflexivity]|]. split; reflexivity.
Qed.

(** ** Findings *)

(** If another securefs is on the mount point, the command says that it has mounted although its child has
    mounted nothing and has failed. *)
Theorem C92_already_mounted_refuted : exists mounts l, possible l /\ ~ In EvMount l /\ In (EvEnd (status_of (Exited 1))) l /\
  ws_pc (wrun false l (wstart mounts)) = WReturned 0.
Proof.
  exists [BySecurefs], [EvEnd (status_of (Exited 1)); EvCommand true true]. split; [|split; [|split]].
  - repeat constructor. exists (Exited 1). now split.
  - intros [H|[H|[]]]; discriminate H.
  - now left.
  - reflexivity.
Qed.
Print Assumptions C92_already_mounted_refuted.

(** Started by a process that ignores SIGCHLD, the command waits for ever when its child
    fails. *)
Theorem C92_ignored_signal_refuted : exists l, possible l /\ In (EvEnd (status_of (Exited 1))) l /\
  forall n code, ws_pc (wrun true (l ++ repeat (EvCommand true true) n) (wstart [])) <> WReturned code.
Proof.
  exists [EvEnd (status_of (Exited 1))]. split; [repeat constructor; exists (Exited 1); now split|]. split; [now left|]. intros n code.
  rewrite wrun_app. cbn [wrun fold_left wstart wstep ws_world w_child w_mounts ws_valid ws_pc without_child filter].
  assert (G : forall n s, (exists v pc, s = mkWst (mkW [] (Some (status_of (Exited 1)))) v pc /\ forall c, pc <> WReturned c) ->
    ws_pc (wrun true (repeat (EvCommand true true) n) s) <> WReturned code).
  { clear n. induction n as [|n IH]; intros s (v & pc & -> & Hp); [cbn [repeat wrun fold_left ws_pc]; apply Hp|]. cbn [repeat wrun fold_left]. apply IH.
    destruct pc as [| | |c]; [| | |now destruct (Hp c)]; cbn [wstep ws_world w_child w_mounts ws_valid ws_pc top_is_securefs andb].
    - exists v, WAsk. split; [reflexivity|discriminate].
    - unfold waitpid, exit_code. cbn [negb w_child]. destruct v; cbn [negb]; [exists false, WSleep|exists false, WSleep]; (split; [reflexivity|discriminate]).
    - exists v, WPoll. split; [reflexivity|discriminate]. }
  apply G. exists true, WPoll. split; [reflexivity|discriminate].
Qed.
Print Assumptions C92_ignored_signal_refuted.
