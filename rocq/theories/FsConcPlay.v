(** Runs made from a schedule, for the examples. *)
From Coq Require Import Strings.String Lia.
From Verif Require Import Base BaseLemmas TextModel NameModel BtreeModel BtreeSpec FullFsModel FullFsSpec FullFsProofs FullFsInv FsConcModel FsConcSpec.
Local Open Scope list_scope.

(** [Step i k]: thread [i] takes [k] steps; [Fin i]: all it has left, and returns. *)
Inductive cmd := Call (i : nat) (o : fop) | Step (i k : nat) | Fin (i : nat) | Io (o : fop) | Evict (id : bytes).

Section Play.
Variable cmp : bytes -> bytes -> comparison.
Notation hist := (list (event * world) * world)%type.

Definition call_okb (o : fop) (w : world) : bool :=
  match o with
  | FClose id _ => existsb (bytes_eqb id) (handles w)
  | FRead _ | FWrite _ _ | FReaddir _ | FEvict _ => false
  | FCreate _ _ _ bad | FMkdir _ _ _ bad | FSymlink _ _ _ bad => match bad with Some EUndef => false | _ => true end
  | _ => true
  end.
Definition push (e : event) (w' : world) (h : hist) : hist := ((e, w') :: fst h, w').
Fixpoint steps (k : nat) (i : nat) (h : hist) : option hist :=
  match k with
  | O => Some h
  | S k' =>
    match nth_error (threads (snd h)) i with
    | Some (TRun o (PStep upd next)) =>
      let w := snd h in
      steps k' i (push (EStep i) (mkWorld (upd (files w)) (handles w) (set_nth i (TRun o (next (files w))) (threads w))) h)
    | _ => None
    end
  end.
Fixpoint finish_up (fuel : nat) (i : nat) (h : hist) : option hist :=
  match fuel with
  | O => None
  | S k =>
    let w := snd h in
    match nth_error (threads w) i with
    | Some (TRun o (PStep upd next)) =>
      finish_up k i (push (EStep i) (mkWorld (upd (files w)) (handles w) (set_nth i (TRun o (next (files w))) (threads w))) h)
    | Some (TRun o (PRet r)) => Some (push (ERet i o r) (mkWorld (files w) (after_return r (handles w)) (set_nth i TIdle (threads w))) h)
    | _ => None
    end
  end.
Definition play1 (c : cmd) (h : hist) : option hist :=
  let w := snd h in
  match c with
  | Call i o =>
    match nth_error (threads w) i with
    | Some TIdle => if call_okb o w then Some (push (ECall i o) (mkWorld (files w) (after_call o (handles w)) (set_nth i (TRun o (body cmp o)) (threads w))) h) else None
    | _ => None
    end
  | Step i k => steps k i h
  | Fin i => finish_up 100 i h
  | Io o =>
    match o with
    | FRead id | FWrite id _ | FReaddir id =>
      if existsb (bytes_eqb id) (handles w) then
        Some (push (EIo o (snd (fs_step cmp o (files w)))) (mkWorld (fst (fs_step cmp o (files w))) (handles w) (threads w)) h)
      else None
    | _ => None
    end
  | Evict id => Some (push (EEvict id) (mkWorld (fst (fs_step cmp (FEvict id) (files w))) (handles w) (threads w)) h)
  end.
Fixpoint play (l : list cmd) (h : hist) : option hist :=
  match l with
  | [] => Some h
  | c :: l' => match play1 c h with Some h' => play l' h' | None => None end
  end.
Definition played (n : nat) (l : list cmd) : hist :=
  match play l ([], mkWorld new_repo [] (repeat TIdle n)) with Some h => h | None => ([], mkWorld new_repo [] []) end.

Lemma steps_run n l1 k : forall i h h', run cmp n (fst h ++ l1) (snd h) -> steps k i h = Some h' -> run cmp n (fst h' ++ l1) (snd h').
Proof.
  induction k as [|k IH]; intros i h h' H; cbn [steps]; [now intros [= <-]|].
  destruct (nth_error (threads (snd h)) i) as [[|o [a|upd next]]|] eqn:E; try discriminate. intros Hs. eapply IH; [|exact Hs].
  cbn [push fst snd app]. apply (R_step _ _ _ (snd h)); [exact H|]. now apply W_step.
Qed.
Lemma finish_up_run n l1 k : forall i h h', run cmp n (fst h ++ l1) (snd h) -> finish_up k i h = Some h' -> run cmp n (fst h' ++ l1) (snd h').
Proof.
  induction k as [|k IH]; intros i h h' H; cbn [finish_up]; [discriminate|].
  destruct (nth_error (threads (snd h)) i) as [[|o [a|upd next]]|] eqn:E; try discriminate.
  - intros [= <-]. cbn [push fst snd app]. apply (R_step _ _ _ (snd h)); [exact H|]. now apply W_return.
  - intros Hs. eapply IH; [|exact Hs].
    cbn [push fst snd app]. apply (R_step _ _ _ (snd h)); [exact H|]. now apply W_step.
Qed.
Lemma play1_run n l1 c h h' : run cmp n (fst h ++ l1) (snd h) -> play1 c h = Some h' -> run cmp n (fst h' ++ l1) (snd h').
Proof.
  intros H. destruct c as [i o|i k|i|o|id]; cbn [play1].
  - destruct (nth_error (threads (snd h)) i) as [[|o' p]|] eqn:E; try discriminate. destruct (call_okb o (snd h)) eqn:Eo; [|discriminate].
    intros [= <-]. cbn [push fst snd app]. apply (R_step _ _ _ (snd h)); [exact H|]. apply W_call; [exact E|].
    destruct o; cbn in *; auto; try discriminate; try (intros ->; discriminate). now apply existsb_in.
  - apply steps_run. exact H.
  - apply finish_up_run. exact H.
  - assert (Hio : forall id, (o = FRead id \/ (exists d, o = FWrite id d) \/ o = FReaddir id) ->
      (if existsb (bytes_eqb id) (handles (snd h)) then Some (push (EIo o (snd (fs_step cmp o (files (snd h))))) (mkWorld (fst (fs_step cmp o (files (snd h)))) (handles (snd h)) (threads (snd h))) h) else None) = Some h' ->
      run cmp n (fst h' ++ l1) (snd h')).
    { intros id Ho. destruct (existsb _ _) eqn:E; [|discriminate]. intros [= <-]. cbn [push fst snd app]. apply (R_step _ _ _ (snd h)); [exact H|].
      apply (W_io _ _ _ id); [exact Ho|now apply existsb_in]. }
    destruct o; try discriminate; apply Hio; eauto.
  - intros [= <-]. cbn [push fst snd app]. apply (R_step _ _ _ (snd h)); [exact H|]. apply W_evict.
Qed.
Lemma play_run n l1 l : forall h h', run cmp n (fst h ++ l1) (snd h) -> play l h = Some h' -> run cmp n (fst h' ++ l1) (snd h').
Proof.
  induction l as [|c l IH]; intros h h' H; cbn [play]; [now intros [= <-]|].
  destruct (play1 c h) as [h1|] eqn:E; [|discriminate]. apply IH. exact (play1_run n l1 c h h1 H E).
Qed.
Lemma played_run n l : match play l ([], mkWorld new_repo [] (repeat TIdle n)) with Some _ => true | None => false end = true -> run cmp n (fst (played n l)) (snd (played n l)).
Proof.
  unfold played. intros H. destruct (play l _) as [h|] eqn:E; [|discriminate]. rewrite <- (app_nil_r (fst h)). eapply play_run; [|exact E]. apply R_start.
Qed.
(** Going on from a state. *)
Definition played_on (w : world) (l : list cmd) : hist := match play l ([], w) with Some h => h | None => ([], w) end.
Lemma played_on_run n l1 w l : run cmp n l1 w -> run cmp n (fst (played_on w l) ++ l1) (snd (played_on w l)).
Proof.
  intros H. unfold played_on. destruct (play l ([], w)) as [h|] eqn:E; [|exact H]. eapply play_run; [|exact E]. exact H.
Qed.
End Play.

(** Deciding the hypotheses. *)
Definition roomb (st : ffs) : bool := forallb (fun p => (i_nlink (snd p) <? 2 ^ 32 - 1)%N) (nodes st).
Definition tidyb (st : ffs) : bool := forallb (fun p => negb (i_nlink (snd p) =? 0)%N || match i_dir (snd p) with [] => true | _ => false end) (nodes st).
Lemma roomb_ok st : roomb st = true -> room st.
Proof. unfold roomb. rewrite forallb_forall. intros H id nd Hg. apply nget_in in Hg. specialize (H _ Hg). cbn in H. now apply N.ltb_lt. Qed.
Lemma tidyb_ok st : tidyb st = true -> tidy st.
Proof.
  unfold tidyb. rewrite forallb_forall. intros H id nd Hg Hn. apply nget_in in Hg. specialize (H _ Hg). cbn [snd] in H. rewrite Hn in H. cbn in H.
  now destruct (i_dir nd).
Qed.
Definition alwaysb (P : ffs -> bool) (l : list (event * world)) : bool := P new_repo && forallb (fun x => P (files (snd x))) l.
Lemma alwaysb_ok (P : ffs -> bool) (Q : ffs -> Prop) l : (forall st, P st = true -> Q st) -> alwaysb P l = true -> always Q l.
Proof.
  intros H Hb. apply andb_prop in Hb. destruct Hb as [H0 Hl]. split; [now apply H|]. rewrite forallb_forall in Hl. apply Forall_forall. intros x Hx. apply H. now apply Hl.
Qed.
Definition posix_in (e : err) (l : list N) : bool := match e with EPosix n => existsb (N.eqb n) l | _ => false end.
Definition left_behindb (o : fop) (e : err) : bool :=
  match o with
  | FCreate _ _ _ None | FMkdir _ _ _ None | FSymlink _ _ _ None | FRename _ _ => posix_in e [1%N; 36%N]
  | FRmdir _ => posix_in e [1%N; 39%N]
  | FClose _ _ => true
  | _ => false
  end.
Definition cleanb (ev : event) : bool := match ev with ERet _ o (Err e) => negb (left_behindb o e) | _ => true end.
Lemma posix_in_ok e a b : posix_in e [a; b] = false -> e <> EPosix a /\ e <> EPosix b.
Proof.
  unfold posix_in. cbn. intros H. split; intros ->; rewrite N.eqb_refl in H; cbn in H; [discriminate|].
  destruct (b =? a)%N; discriminate.
Qed.
Lemma cleanb_ok ev : cleanb ev = true -> clean ev.
Proof.
  destruct ev as [| |i o [r|e]| |]; cbn; auto. intros H. apply Bool.negb_true_iff in H. intros Hl.
  destruct o as [? ? ? [|]|? ? ? [|]|? ? ? [|]| | | | | | | | | | | | | | |]; cbn in *; try contradiction; try discriminate; apply posix_in_ok in H; tauto.
Qed.
Lemma all_clean l : forallb (fun x : event * world => cleanb (fst x)) l = true -> Forall (fun x => clean (fst x)) l.
Proof. rewrite forallb_forall. intros H. apply Forall_forall. intros x Hx. apply cleanb_ok. now apply H. Qed.
Definition quietb (w : world) : bool := forallb (fun t => match t with TIdle => true | _ => false end) (threads w).
Lemma quietb_ok w : quietb w = true -> quiet w.
Proof. unfold quietb. rewrite forallb_forall. intros H. apply Forall_forall. intros t Ht. specialize (H _ Ht). now destruct t. Qed.
