(** C95: the descriptors of a child that is started, and of its parent. *)
From Coq Require Import Lia.
From Verif Require Import Base SpawnModel SpawnSpec.
Local Open Scope list_scope.

Lemma look_put : forall fd t v k, look (put t fd v) k = if k =? fd then v else look t k.
Proof.
  unfold look. induction fd as [|fd IH]; intros [|x t] v [|k]; cbn [put nth Nat.eqb]; try reflexivity.
  - now destruct k.
  - rewrite IH. destruct (k =? fd); [reflexivity|now destruct k].
  - apply IH.
Qed.
Lemma lowest_is_free t : look t (lowest_free t) = None.
Proof. unfold look. induction t as [|[e|] t IH]; cbn [lowest_free nth]; auto. Qed.
Lemma below_lowest t k : k < lowest_free t -> look t k <> None.
Proof.
  unfold look. revert k. induction t as [|[e|] t IH]; cbn [lowest_free]; intros k H; try lia. destruct k as [|k]; cbn [nth]; [discriminate|]. apply IH. lia.
Qed.
Lemma look_exec t k : look (os_exec t) k = inherited (look t k).
Proof.
  unfold look, os_exec. revert k. induction t as [|e t IH]; intros [|k]; cbn [map nth]; try reflexivity; [|apply IH]. now destruct e as [[o []]|].
Qed.
Lemma pipe_ok t t1 r w : os_pipe t = (t1, r, w) -> r <> w /\ look t r = None /\ look t w = None /\
  (forall k, look t1 k = if k =? r then Some (OPipeRead, false) else if k =? w then Some (OPipeWrite, false) else look t k) /\
  (forall k, k < r -> look t k <> None).
Proof.
  unfold os_pipe. intros H. injection H as <- <- <-. set (r := lowest_free t). set (t1 := put t r (Some (OPipeRead, false))).
  pose proof (lowest_is_free t) as F. pose proof (lowest_is_free t1) as F1. fold r in F. set (w := lowest_free t1) in *.
  unfold t1 in F1. rewrite look_put in F1. destruct (Nat.eqb_spec w r) as [E|N]; [discriminate F1|].
  split; [congruence|]. split; [exact F|]. split; [exact F1|]. split; [|intros k; apply below_lowest].
  intros k. rewrite look_put. unfold t1. rewrite look_put. destruct (Nat.eqb_spec k w), (Nat.eqb_spec k r); subst; congruence.
Qed.
Lemma closed_again t t1 r w : os_pipe t = (t1, r, w) -> same_table t (os_close (os_close t1 r) w).
Proof.
  intros H. destruct (pipe_ok _ _ _ _ H) as (N & Fr & Fw & L & _). intros k. unfold os_close. rewrite !look_put, L.
  destruct (Nat.eqb_spec k w) as [->|]; [now rewrite Fw|]. destruct (Nat.eqb_spec k r) as [->|]; [now rewrite Fr|reflexivity].
Qed.

(** Whatever fails, the parent has the descriptors that it had before, and has given
    back everything else. *)
Theorem C95_no_leak : forall args a fed t r w, execute args a fed t = (r, w) ->
  same_table t (w_table w) /\ w_actions w = false /\ w_attr w = false.
Proof.
  intros args a fed t r w H. unfold execute in H.
  destruct args; [injection H as <- <-; cbn; repeat split|]. destruct (a_pipe a); [injection H as <- <-; cbn; repeat split|].
  destruct (os_pipe t) as [[t1 rd] wr] eqn:EP. pose proof (closed_again _ _ _ _ EP) as C.
  repeat match type of H with (match ?x with _ => _ end) = _ => destruct x end; injection H as <- <-; cbn; repeat split; exact C.
Qed.
Print Assumptions C95_no_leak.

(** A child that is started has the pipe as its standard input, unless the parent's was
    closed; it holds nothing else of the pipe, so that it sees the end of its input when
    the parent is done; and it has the parent's other descriptors, except those that are
    to be closed. *)
Theorem C95_child : forall args a fed t r w c, execute args a fed t = (r, w) -> w_child w = Some c ->
  no_pipe t -> look t 0 <> None ->
  look c 0 = Some (OPipeRead, false) /\
  (forall fd, 0 < fd -> look c fd = inherited (look t fd)) /\
  (forall fd, look c fd <> Some (OPipeWrite, false)) /\ (forall fd, 0 < fd -> look c fd <> Some (OPipeRead, false)).
Proof.
  intros args a fed t r w c H Hc Hn H0. unfold execute in H.
  destruct args; [injection H as <- <-; discriminate Hc|]. destruct (a_pipe a); [injection H as <- <-; discriminate Hc|].
  destruct (os_pipe t) as [[t1 rd] wr] eqn:EP. destruct (pipe_ok _ _ _ _ EP) as (N & Fr & Fw & L & _).
  assert (E : c = os_spawn t1 [AClose wr; ADup2 rd 0; AClose rd]).
  { repeat match type of H with (match ?x with _ => _ end) = _ => destruct x end; injection H as <- <-; cbn in Hc; (discriminate Hc || (injection Hc as <-; reflexivity)). }
  assert (R0 : rd <> 0) by (intros ->; contradiction). assert (W0 : wr <> 0) by (intros ->; contradiction).
  assert (K : forall k, look c k = inherited (if k =? rd then None else if k =? 0 then Some (OPipeRead, false) else if k =? wr then None else look t k)).
  { intros k. subst c. unfold os_spawn. cbn [fold_left act]. unfold os_close, os_dup2. rewrite look_exec, !look_put, !L, Nat.eqb_refl.
    destruct (Nat.eqb_spec rd wr); [contradiction|]. destruct (Nat.eqb_spec k rd); [reflexivity|]. destruct (k =? 0); [reflexivity|]. now destruct (k =? wr). }
  assert (K0 : look c 0 = Some (OPipeRead, false)).
  { rewrite K. destruct (Nat.eqb_spec 0 rd); [lia|reflexivity]. }
  assert (KS : forall fd, 0 < fd -> look c fd = inherited (look t fd)).
  { intros fd Hf. rewrite K. destruct (Nat.eqb_spec fd rd) as [->|]; [now rewrite Fr|]. destruct (Nat.eqb_spec fd 0); [lia|].
    destruct (Nat.eqb_spec fd wr) as [->|]; [now rewrite Fw|reflexivity]. }
  split; [exact K0|]. split; [exact KS|]. split.
  - intros [|fd] X; [rewrite K0 in X; discriminate X|]. rewrite KS in X by lia. destruct (look t (S fd)) as [[o []]|] eqn:E1; cbn in X; try discriminate X.
    injection X as ->. destruct (Hn _ _ _ E1). congruence.
  - intros fd Hf X. rewrite KS in X by lia. destruct (look t fd) as [[o []]|] eqn:E1; cbn in X; try discriminate X. injection X as ->. destruct (Hn _ _ _ E1). congruence.
Qed.
Print Assumptions C95_child.

(** There is a child exactly if everything up to starting it went well, and success is
    reported exactly if, besides, all its input was written. *)
Theorem C95_result : forall args a fed t r w, execute args a fed t = (r, w) ->
  (w_child w <> None <-> args <> [] /\ a = mkAns None None None None None None None None) /\
  (r = Ok tt <-> w_child w <> None /\ fed = Ok tt).
Proof.
  intros args [p1 p2 p3 p4 p5 p6 p7 p8] fed t r w H. unfold execute in H. cbn [a_pipe a_actions_init a_close_write a_dup2 a_close_read a_attr_init a_setflags a_spawn] in H.
  destruct args as [|arg args]; [injection H as <- <-; cbn; intuition congruence|]. destruct p1; [injection H as <- <-; cbn; intuition congruence|].
  destruct (os_pipe t) as [[t1 rd] wr].
  repeat match type of H with (match ?x with _ => _ end) = _ => destruct x end; injection H as <- <-; cbn; try (intuition congruence).
  destruct a. intuition congruence.
Qed.
Print Assumptions C95_result.

Definition ex_all_well : answers := mkAns None None None None None None None None.
Definition ex_table : table := [Some (OFile 0, false); Some (OFile 1, false); Some (OFile 2, false); Some (OFile 9, true)].
Example C95_example :
  no_pipe ex_table /\ look ex_table 0 <> None /\
  w_child (snd (execute [[x61]] ex_all_well (Ok tt) ex_table)) = Some [Some (OPipeRead, false); Some (OFile 1, false); Some (OFile 2, false); None; None; None].
Proof.
  split; [|split; [discriminate|reflexivity]].
  intros [|[|[|[|fd]]]] o c H; cbn in H; try (injection H as <- <-; split; discriminate). unfold look in H. now destruct fd.
Qed.

(** Not so if the parent was started with its standard input closed: the pipe then gets
    the number 0, and is closed again in the child, which has no input at all. *)
Theorem C95_closed_input_refuted : forall args a fed t r w c, execute args a fed t = (r, w) -> w_child w = Some c ->
  look t 0 = None -> look c 0 = None.
Proof.
  intros args a fed t r w c H Hc H0. unfold execute in H.
  destruct args; [injection H as <- <-; discriminate Hc|]. destruct (a_pipe a); [injection H as <- <-; discriminate Hc|].
  destruct (os_pipe t) as [[t1 rd] wr] eqn:EP. destruct (pipe_ok _ _ _ _ EP) as (N & Fr & Fw & L & B).
  assert (rd = 0) as ->. { destruct rd as [|rd]; [reflexivity|]. exfalso. apply (B 0); [lia|exact H0]. }
  assert (E : c = os_spawn t1 [AClose wr; ADup2 0 0; AClose 0]).
  { repeat match type of H with (match ?x with _ => _ end) = _ => destruct x end; injection H as <- <-; cbn in Hc; (discriminate Hc || (injection Hc as <-; reflexivity)). }
  subst c. unfold os_spawn. cbn [fold_left act]. unfold os_close at 1. rewrite look_exec, look_put. reflexivity.
Qed.
Print Assumptions C95_closed_input_refuted.
Example C95_closed_input_example : w_child (snd (execute [[x61]] ex_all_well (Ok tt) [None; Some (OFile 1, false)])) = Some [None; Some (OFile 1, false); None] /\
  fst (execute [[x61]] ex_all_well (Ok tt) [None; Some (OFile 1, false)]) = Ok tt.
Proof. split; reflexivity. Qed.
