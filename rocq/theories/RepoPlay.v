(** Runs of a repository made from a schedule, and what they must satisfy, decided: for
    the examples. *)
From Coq Require Import Strings.String Lia.
From Verif Require Import Base BaseLemmas TextModel NameModel AttrModel AttrProofs BtreeModel BtreeSpec BtreeInsert FullFsModel FullFsSpec FullFsProofs FullFsInv FullStreamModel ObjModel ObjProofs RepoModel RepoSpec.
Local Open Scope list_scope.

(** [KFin i]: all that thread [i] has left, and it returns. *)
Inductive kcmd := KCall (i : nat) (o : fop) | KStep (i k : nat) | KFin (i : nat) | KIo (o : rio) | KEvict (id : bytes) | KRemount.

Section Play.
Variable E : senv.
Notation hist := (list (revent * rworld) * rworld)%type.

Definition may_callb (o : fop) (hs : list bytes) : bool :=
  match o with
  | FClose id _ => existsb (bytes_eqb id) hs
  | FRead _ | FWrite _ _ | FReaddir _ | FEvict _ => false
  | FCreate _ _ _ bad | FMkdir _ _ _ bad | FSymlink _ _ _ bad => match bad with Some EUndef => false | _ => true end
  | _ => true
  end.
Lemma may_callb_ok o hs : may_callb o hs = true -> may_call o hs.
Proof. destruct o; cbn; auto; try discriminate; try (intros H ->; discriminate H). apply existsb_in. Qed.
Definition is_idle (t : rthread) : bool := match t with RIdle => true | _ => false end.
Definition rpush (e : revent) (w' : rworld) (h : hist) : hist := ((e, w') :: fst h, w').
Fixpoint rsteps (k : nat) (i : nat) (h : hist) : option hist :=
  match k with
  | O => Some h
  | S k' =>
    match nth_error (w_threads (snd h)) i with
    | Some (RRun o (RStep upd next)) =>
      let w := snd h in
      rsteps k' i (rpush (VStep i) (mkRworld (upd (w_repo w)) (w_handles w) (rset_nth i (RRun o (next (w_repo w))) (w_threads w))) h)
    | _ => None
    end
  end.
Fixpoint rfinish (fuel : nat) (i : nat) (h : hist) : option hist :=
  match fuel with
  | O => None
  | S k =>
    let w := snd h in
    match nth_error (w_threads w) i with
    | Some (RRun o (RStep upd next)) =>
      rfinish k i (rpush (VStep i) (mkRworld (upd (w_repo w)) (w_handles w) (rset_nth i (RRun o (next (w_repo w))) (w_threads w))) h)
    | Some (RRun o (RRet r)) => Some (rpush (VRet i o r) (mkRworld (w_repo w) (handed_out r (w_handles w)) (rset_nth i RIdle (w_threads w))) h)
    | _ => None
    end
  end.
Definition rplay1 (c : kcmd) (h : hist) : option hist :=
  let w := snd h in
  match c with
  | KCall i o =>
    match nth_error (w_threads w) i with
    | Some RIdle => if may_callb o (w_handles w) then Some (rpush (VCall i o) (mkRworld (w_repo w) (given_up o (w_handles w)) (rset_nth i (RRun o (r_body E o)) (w_threads w))) h) else None
    | _ => None
    end
  | KStep i k => rsteps k i h
  | KFin i => rfinish 100 i h
  | KIo o =>
    if existsb (bytes_eqb (io_file o)) (w_handles w) then
      let x := r_io E o (w_repo w) in Some (rpush (VIo o (snd x)) (mkRworld (fst x) (w_handles w) (w_threads w)) h)
    else None
  | KEvict id => Some (rpush (VEvict id) (mkRworld (t_evict id (w_repo w)) (w_handles w) (w_threads w)) h)
  | KRemount =>
    match w_handles w with
    | [] => if forallb is_idle (w_threads w) then
              let x := mount E (unmount E (w_repo w)) (rp_time (w_repo w)) in Some (rpush (VRemount (snd x)) (mkRworld (fst x) [] (w_threads w)) h)
            else None
    | _ => None
    end
  end.
Fixpoint rplay (l : list kcmd) (h : hist) : option hist :=
  match l with
  | [] => Some h
  | c :: l' => match rplay1 c h with Some h' => rplay l' h' | None => None end
  end.
Definition rplayed (n : nat) (l : list kcmd) : hist :=
  match rplay l ([], mkRworld (fst (mount E [] 0)) [] (repeat RIdle n)) with Some h => h | None => ([], mkRworld (fst (mount E [] 0)) [] []) end.

Lemma rsteps_run n k : forall i h h', rrun E n (fst h) (snd h) -> rsteps k i h = Some h' -> rrun E n (fst h') (snd h').
Proof.
  induction k as [|k IH]; intros i h h' H; cbn [rsteps]; [now intros [= <-]|].
  destruct (nth_error (w_threads (snd h)) i) as [[|o [a|upd next]]|] eqn:Ei; try discriminate. intros Hs. eapply IH; [|exact Hs].
  cbn [rpush fst snd]. apply (RR_step _ _ _ (snd h)); [exact H|]. now apply V_step.
Qed.
Lemma rfinish_run n k : forall i h h', rrun E n (fst h) (snd h) -> rfinish k i h = Some h' -> rrun E n (fst h') (snd h').
Proof.
  induction k as [|k IH]; intros i h h' H; cbn [rfinish]; [discriminate|].
  destruct (nth_error (w_threads (snd h)) i) as [[|o [a|upd next]]|] eqn:Ei; try discriminate.
  - intros [= <-]. cbn [rpush fst snd]. apply (RR_step _ _ _ (snd h)); [exact H|]. now apply V_return.
  - intros Hs. eapply IH; [|exact Hs]. cbn [rpush fst snd]. apply (RR_step _ _ _ (snd h)); [exact H|]. now apply V_step.
Qed.
Lemma rplay1_run n c h h' : rrun E n (fst h) (snd h) -> rplay1 c h = Some h' -> rrun E n (fst h') (snd h').
Proof.
  intros H. destruct c as [i o|i k|i|o|id|]; cbn [rplay1].
  - destruct (nth_error (w_threads (snd h)) i) as [[|o' p]|] eqn:Ei; try discriminate. destruct (may_callb o (w_handles (snd h))) eqn:Eo; [|discriminate].
    intros [= <-]. cbn [rpush fst snd]. apply (RR_step _ _ _ (snd h)); [exact H|]. apply V_call; [exact Ei|]. now apply may_callb_ok.
  - apply rsteps_run. exact H.
  - apply rfinish_run. exact H.
  - destruct (existsb _ _) eqn:Ei; [|discriminate]. intros [= <-]. cbn [rpush fst snd]. apply (RR_step _ _ _ (snd h)); [exact H|]. apply V_io. now apply existsb_in.
  - intros [= <-]. cbn [rpush fst snd]. apply (RR_step _ _ _ (snd h)); [exact H|]. apply V_evict.
  - destruct (w_handles (snd h)) eqn:Eh; [|discriminate]. destruct (forallb is_idle (w_threads (snd h))) eqn:Et; [|discriminate].
    intros [= <-]. cbn [rpush fst snd]. apply (RR_step _ _ _ (snd h)); [exact H|]. apply V_remount; [exact Eh|]. apply Forall_forall. intros t Ht. rewrite forallb_forall in Et. specialize (Et t Ht). now destruct t.
Qed.
Lemma rplay_run n l : forall h h', rrun E n (fst h) (snd h) -> rplay l h = Some h' -> rrun E n (fst h') (snd h').
Proof.
  induction l as [|c l IH]; intros h h' H; cbn [rplay]; [now intros [= <-]|].
  destruct (rplay1 c h) as [h1|] eqn:E1; [|discriminate]. apply IH. exact (rplay1_run n c h h1 H E1).
Qed.
Lemma rplayed_run n l : match rplay l ([], mkRworld (fst (mount E [] 0)) [] (repeat RIdle n)) with Some _ => true | None => false end = true -> rrun E n (fst (rplayed n l)) (snd (rplayed n l)).
Proof.
  unfold rplayed. intros H. destruct (rplay l _) as [h|] eqn:E1; [|discriminate]. eapply rplay_run; [|exact E1]. apply RR_start.
Qed.

(** ** Deciding the hypotheses, with padding of [p] bytes at most *)
Variable p : N.
Hypothesis Hpad : forall id, (N.of_nat (v_pad E id) <= p)%N.
Definition length_okb (n : N) : bool := (n + p <=? full_max_blocks_N * N.of_nat (v_bs E))%N.
Lemma length_okb_ok n : length_okb n = true -> length_ok E n.
Proof. intros H id. apply N.leb_le in H. specialize (Hpad id). lia. Qed.
Definition no_nulb (x : bytes) : bool := negb (existsb (Byte.eqb x00) x).
Lemma no_nulb_ok x : no_nulb x = true -> no_nul x.
Proof.
  unfold no_nulb, no_nul. intros H Hi. apply Bool.negb_true_iff in H. assert (existsb (Byte.eqb x00) x = true); [|congruence].
  apply existsb_exists. exists x00. split; [exact Hi|reflexivity].
Qed.
Definition ts_fitsb (t : AttrModel.timespec) : bool :=
  (- 2 ^ 63 <=? AttrModel.tv_sec t)%Z && (AttrModel.tv_sec t <? 2 ^ 63)%Z && (AttrModel.tv_nsec t <? 2 ^ 32)%N.
Lemma ts_fitsb_ok t : ts_fitsb t = true -> ts_fits t.
Proof.
  unfold ts_fitsb, ts_fits. rewrite !Bool.andb_true_iff. intros [[A B] C]. apply Z.leb_le in A. apply Z.ltb_lt in B. apply N.ltb_lt in C. auto.
Qed.
Definition chattr_fitsb (c : chattr) : bool :=
  match c with
  | ChMode _ => true
  | ChOwner uid gid => (uid <? 2 ^ 32)%N && (gid <? 2 ^ 32)%N
  | ChTimes ts unset => ts_fitsb unset && match ts with Some (t0, t1) => ts_fitsb t0 && ts_fitsb t1 | None => true end
  end.
Lemma chattr_fitsb_ok c : chattr_fitsb c = true -> chattr_fits c.
Proof.
  destruct c as [perm|u g|ts u]; cbn [chattr_fitsb chattr_fits]; [auto| |].
  - rewrite Bool.andb_true_iff, !N.ltb_lt. auto.
  - rewrite Bool.andb_true_iff. intros [A B]. split; [now apply ts_fitsb_ok|]. destruct ts as [[t0 t1]|]; [|exact I].
    apply Bool.andb_true_iff in B. destruct B. split; now apply ts_fitsb_ok.
Qed.
Definition call_fitsb (o : fop) : bool :=
  match o with
  | FCreate path _ x _ | FMkdir path _ x _ => no_nulb path && (length x =? 32)
  | FSymlink t path x _ => no_nulb path && (length x =? 32) && length_okb (N.of_nat (length t))
  | FLink _ dest => no_nulb dest
  | FRename from to => no_nulb from && no_nulb to
  | FTruncate _ len => length_okb (N.of_nat len)
  | FChattr _ c => chattr_fitsb c
  | _ => true
  end.
Lemma call_fitsb_ok o : call_fitsb o = true -> call_fits E o.
Proof.
  destruct o; cbn [call_fitsb call_fits]; auto; try apply chattr_fitsb_ok; rewrite ?Bool.andb_true_iff, ?Nat.eqb_eq; intros H;
    repeat match goal with
    | H : _ /\ _ |- _ => destruct H
    | |- _ /\ _ => split
    | |- no_nul _ => apply no_nulb_ok
    | |- length_ok _ _ => apply length_okb_ok
    end; assumption.
Qed.
Definition io_fitsb (o : rio) : bool :=
  match o with
  | IRead _ off len => length_okb (N.of_nat off + N.of_nat len)
  | IWrite _ off d => length_okb (N.of_nat off + N.of_nat (length d))
  | ITruncate _ len => length_okb (N.of_nat len)
  | _ => true
  end.
Lemma io_fitsb_ok o : io_fitsb o = true -> io_fits E o.
Proof. destruct o; cbn [io_fitsb io_fits]; auto using length_okb_ok. Qed.
Definition event_fitsb (e : revent) : bool :=
  match e with
  | VCall _ o => call_fitsb o
  | VIo o _ => io_fitsb o
  | VRet _ (FClose _ _) (Err _) => false
  | _ => true
  end.
Lemma event_fitsb_ok e : event_fitsb e = true -> event_fits E e.
Proof.
  destruct e as [i o|i|i o r|o r|id|r]; cbn [event_fitsb event_fits]; auto using call_fitsb_ok, io_fitsb_ok. destruct o; auto. destruct r; auto. discriminate.
Qed.
Lemma events_fit (l : list (revent * rworld)) : forallb (fun x => event_fitsb (fst x)) l = true -> Forall (fun x => event_fits E (fst x)) l.
Proof. intros H. apply Forall_forall. intros x Hx. rewrite forallb_forall in H. apply event_fitsb_ok, H, Hx. Qed.

Definition dirs_fitb (k : nat) (st : ffs) : bool := forallb (fun x => (N.of_nat (length (i_dir (snd x)) + k) <=? MAX_ENTRIES)%N) (nodes st).
Lemma dirs_fitb_ok k st : dirs_fitb k st = true -> dirs_fit k st.
Proof. unfold dirs_fitb. rewrite forallb_forall. intros H id nd Hg. apply nget_in in Hg. specialize (H _ Hg). now apply N.leb_le. Qed.
Definition may_dob (o : rop) (st : ffs) : bool :=
  match o with
  | OCall o => may_callb o (opened st) && call_fitsb o
  | OIo o => existsb (bytes_eqb (io_file o)) (opened st) && io_fitsb o
  | OEvict _ => true
  | ORemount => match opened st with [] => true | _ => false end
  end.
Fixpoint may_runb (ops : list rop) (st : ffs) : bool :=
  match ops with
  | [] => true
  | o :: ops' => may_dob o st && dirs_fitb 4 st && may_runb ops' (fs_run (v_cmp E) (as_fops o st) st)
  end.
Lemma may_runb_ok ops : forall st, may_runb ops st = true -> may_run E ops st.
Proof.
  induction ops as [|o ops IH]; intros st H; cbn [may_runb may_run] in *; [exact I|]. apply Bool.andb_true_iff in H as [H H3]. apply Bool.andb_true_iff in H as [H1 H2].
  split; [|split; [now apply dirs_fitb_ok|now apply IH]]. destruct o as [o|o|id|]; cbn [may_dob may_do] in *; auto.
  - apply Bool.andb_true_iff in H1 as [A B]. split; [now apply may_callb_ok|now apply call_fitsb_ok].
  - apply Bool.andb_true_iff in H1 as [A B]. split; [now apply existsb_in|now apply io_fitsb_ok].
  - destruct (opened st); [reflexivity|discriminate].
Qed.
End Play.
