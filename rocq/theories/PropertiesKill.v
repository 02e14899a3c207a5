(** C76: a mounted repository of the full format whose process is killed. *)
From Coq Require Import Strings.String Lia Permutation.
From Verif Require Import Base BaseLemmas TextModel NameModel AttrModel AttrProofs BtreeModel BtreeInsert FullStreamModel FullFsModel FullFsSpec ObjModel ObjProofs
  RepoModel RepoSpec RepoProofs FsConcModel RepoRun RepoPlay RepoKillModel RepoKillSpec RepoKillProofs Toy PropertiesFull PropertiesFullFs PropertiesRepo.
Local Open Scope list_scope.

(** ** Runs from schedules; [None] is a kill *)
Section Play.
Variable E : senv.
Notation hist := (list (kevent * rworld) * rworld)%type.
Lemma rrun_krun n l w : rrun E n l w -> krun E n (map (fun x => (KEv (fst x), snd x)) l) w.
Proof. induction 1 as [|l w e w' Hr IH Hs]; cbn [map fst snd]; [constructor|]. apply (KR_step _ _ _ w); [exact IH|now constructor]. Qed.
Definition kplay1 (c : option kcmd) (h : hist) : option hist :=
  match c with
  | Some c => match rplay1 E c ([], snd h) with Some x => Some (map (fun y => (KEv (fst y), snd y)) (fst x) ++ fst h, snd x) | None => None end
  | None =>
    let w := snd h in
    match w_handles w with
    | [] => if forallb is_idle (w_threads w) then
              let x := mount E (host_files (w_repo w)) (rp_time (w_repo w)) in Some ((KKill (snd x), mkRworld (fst x) [] (w_threads w)) :: fst h, mkRworld (fst x) [] (w_threads w))
            else None
    | _ => None
    end
  end.
Fixpoint kplay (l : list (option kcmd)) (h : hist) : option hist :=
  match l with
  | [] => Some h
  | c :: l' => match kplay1 c h with Some h' => kplay l' h' | None => None end
  end.
Definition kplayed (n : nat) (l : list (option kcmd)) : hist :=
  match kplay l ([], mkRworld (fst (mount E [] 0)) [] (repeat RIdle n)) with Some h => h | None => ([], mkRworld (fst (mount E [] 0)) [] []) end.

(** A run from any state on. *)
Inductive rfrom (w0 : rworld) : list (revent * rworld) -> rworld -> Prop :=
| RF_start : rfrom w0 [] w0
| RF_step l w e w' : rfrom w0 l w -> rwstep E w e w' -> rfrom w0 ((e, w') :: l) w'.
Lemma rfrom_krun n l0 w0 l w : krun E n l0 w0 -> rfrom w0 l w -> krun E n (map (fun y => (KEv (fst y), snd y)) l ++ l0) w.
Proof. intros H. induction 1 as [|l w e w' Hr IH Hs]; cbn [map fst snd app]; [exact H|]. apply (KR_step _ _ _ w); [exact IH|now constructor]. Qed.
Lemma rsteps_from w0 k : forall i h h', rfrom w0 (fst h) (snd h) -> rsteps k i h = Some h' -> rfrom w0 (fst h') (snd h').
Proof.
  induction k as [|k IH]; intros i h h' H; cbn [rsteps]; [now intros [= <-]|].
  destruct (nth_error (w_threads (snd h)) i) as [[|o [a|upd next]]|] eqn:Ei; try discriminate. intros Hs. eapply IH; [|exact Hs].
  cbn [rpush fst snd]. apply (RF_step _ _ (snd h)); [exact H|]. now apply V_step.
Qed.
Lemma rfinish_from w0 k : forall i h h', rfrom w0 (fst h) (snd h) -> rfinish k i h = Some h' -> rfrom w0 (fst h') (snd h').
Proof.
  induction k as [|k IH]; intros i h h' H; cbn [rfinish]; [discriminate|].
  destruct (nth_error (w_threads (snd h)) i) as [[|o [a|upd next]]|] eqn:Ei; try discriminate.
  - intros [= <-]. cbn [rpush fst snd]. apply (RF_step _ _ (snd h)); [exact H|]. now apply V_return.
  - intros Hs. eapply IH; [|exact Hs]. cbn [rpush fst snd]. apply (RF_step _ _ (snd h)); [exact H|]. now apply V_step.
Qed.
Lemma rplay1_from w0 c h h' : rfrom w0 (fst h) (snd h) -> rplay1 E c h = Some h' -> rfrom w0 (fst h') (snd h').
Proof.
  intros H. destruct c as [i o|i k|i|o|id|]; cbn [rplay1].
  - destruct (nth_error (w_threads (snd h)) i) as [[|o' p]|] eqn:Ei; try discriminate. destruct (may_callb o (w_handles (snd h))) eqn:Eo; [|discriminate].
    intros [= <-]. cbn [rpush fst snd]. apply (RF_step _ _ (snd h)); [exact H|]. apply V_call; [exact Ei|]. now apply may_callb_ok.
  - apply rsteps_from. exact H.
  - apply rfinish_from. exact H.
  - destruct (existsb _ _) eqn:Ei; [|discriminate]. intros [= <-]. cbn [rpush fst snd]. apply (RF_step _ _ (snd h)); [exact H|]. apply V_io. now apply FullFsInv.existsb_in.
  - intros [= <-]. cbn [rpush fst snd]. apply (RF_step _ _ (snd h)); [exact H|]. apply V_evict.
  - destruct (w_handles (snd h)) eqn:Eh; [|discriminate]. destruct (forallb is_idle (w_threads (snd h))) eqn:Et; [|discriminate].
    intros [= <-]. cbn [rpush fst snd]. apply (RF_step _ _ (snd h)); [exact H|]. apply V_remount; [exact Eh|]. apply Forall_forall. intros t Ht. rewrite forallb_forall in Et. specialize (Et t Ht). now destruct t.
Qed.
Lemma kplay1_run n c h h' : krun E n (fst h) (snd h) -> kplay1 c h = Some h' -> krun E n (fst h') (snd h').
Proof.
  intros H. destruct c as [c|]; cbn [kplay1].
  - destruct (rplay1 E c ([], snd h)) as [x|] eqn:E1; [|discriminate]. intros [= <-]. cbn [fst snd]. apply (rfrom_krun n (fst h) (snd h)); [exact H|].
    apply (rplay1_from (snd h) c ([], snd h)); [constructor|exact E1].
  - destruct (w_handles (snd h)) eqn:Eh; [|discriminate]. destruct (forallb is_idle (w_threads (snd h))) eqn:Et; [|discriminate]. intros [= <-]. cbn [fst snd].
    apply (KR_step _ _ _ (snd h)); [exact H|]. apply K_kill; [exact Eh|]. apply Forall_forall. intros t Ht. rewrite forallb_forall in Et. specialize (Et t Ht). now destruct t.
Qed.
Lemma kplay_run n l : forall h h', krun E n (fst h) (snd h) -> kplay l h = Some h' -> krun E n (fst h') (snd h').
Proof.
  induction l as [|c l IH]; intros h h' H; cbn [kplay]; [now intros [= <-]|].
  destruct (kplay1 c h) as [h1|] eqn:E1; [|discriminate]. apply IH. exact (kplay1_run n c h h1 H E1).
Qed.
Lemma kplayed_run n l : match kplay l ([], mkRworld (fst (mount E [] 0)) [] (repeat RIdle n)) with Some _ => true | None => false end = true -> krun E n (fst (kplayed n l)) (snd (kplayed n l)).
Proof.
  unfold kplayed. intros H. destruct (kplay l _) as [h|] eqn:E1; [|discriminate]. eapply kplay_run; [|exact E1]. apply KR_start.
Qed.
Variable p : N.
Hypothesis Hpad : forall id, (N.of_nat (v_pad E id) <= p)%N.
Definition kevent_fitsb (e : kevent) : bool := match e with KEv e => event_fitsb E p e | KKill _ => true end.
Lemma kevents_fit (l : list (kevent * rworld)) : forallb (fun x => kevent_fitsb (fst x)) l = true -> Forall (fun x => kevent_fits E (fst x)) l.
Proof.
  intros H. apply Forall_forall. intros x Hx. rewrite forallb_forall in H. specialize (H x Hx). unfold kevent_fits, kevent_fitsb in *. destruct (fst x); [|exact I].
  now apply (event_fitsb_ok E p Hpad).
Qed.
Definition is_step (e : kevent) : bool := match e with KEv (VStep _) => true | _ => false end.
Fixpoint kills_lateb (l : list (kevent * rworld)) : bool :=
  match l with
  | [] => true
  | (KKill _, _) :: l' => existsb (fun x => is_step (fst x)) l' && kills_lateb l'
  | _ :: l' => kills_lateb l'
  end.
Lemma workedb_ok l : existsb (fun x => is_step (fst x)) l = true -> worked l.
Proof. intros H. apply existsb_exists in H. destruct H as ([e w] & Hi & He). destruct e as [[]|]; try discriminate He. now exists i, w. Qed.
Lemma kills_lateb_ok l : kills_lateb l = true -> kills_late l.
Proof. induction l as [|[[e|r] w] l IH]; cbn [kills_lateb kills_late]; auto. rewrite Bool.andb_true_iff. intros [H1 H2]. split; [now apply workedb_ok|auto]. Qed.
End Play.

(** ** C76 *)

(** Kills when nothing is in use: every run, also with overlapping calls, in which the
    process is killed any number of times while no file is open and no call is under
    way, goes on after each kill just as after an orderly unmount: nothing that was
    done before is lost, and every mount succeeds ([kseen] has no other kind).  The
    exception is a kill before the very first call of a new repository has begun
    ([kills_late]; see [C76_before_first_call_refuted]). *)
Theorem C76_at_rest : forall E, senv_ok E -> forall n l w, krun E n l w -> Forall (fun x => kevent_fits E (fst x)) l -> kills_late l ->
  (exists h l' aw, ksees (v_cmp E) n l h l' aw /\ run (v_cmp E) n l' aw) \/
  (exists l2 l1 h l' aw, l = l2 ++ l1 /\ ksees (v_cmp E) n l1 h l' aw /\ run (v_cmp E) n l' aw /\ ~ dirs_fit 2 (files aw)).
Proof.
  intros E HE n l w H Hf Hl. destruct (krun_ok E HE n l w H Hf Hl) as [(h & l' & aw & A1 & A2 & _)|H1]; [left; eauto|now right].
Qed.
Print Assumptions C76_at_rest.
Definition ex_kills : list (option kcmd) :=
  [Some (KCall 0 (FMkdir (str "/d") 493 (xid x01) None)); Some (KFin 0); Some (KCall 0 (FCreate (str "/d/f") 420 (xid x02) None)); Some (KStep 0 5);
   Some (KCall 1 (FRename (str "/d") (str "/e"))); Some (KFin 1); Some (KFin 0); Some (KIo (IWrite (xid x02) 0 (str "abc"))); Some (KCall 0 (FClose (xid x02) false)); Some (KFin 0); None;
   Some (KCall 0 (FOpen (str "/e/f") false)); Some (KFin 0); Some (KIo (IRead (xid x02) 0 10)); Some (KCall 1 (FUnlink (str "/e/f"))); Some (KFin 1); Some (KCall 0 (FClose (xid x02) false)); Some (KFin 0); None; None;
   Some (KCall 1 (FOpen (str "/e/f") false)); Some (KFin 1); Some (KCall 1 (FRmdir (str "/e"))); Some (KFin 1)].
Definition k_returns (l : list (kevent * rworld)) : list (res fout) :=
  flat_map (fun x => match fst x with KEv (VRet _ _ r) => [r] | KEv (VIo _ r) => [r] | KKill (Ok _) => [Ok (FOBytes (str "killed"))] | _ => [] end) (rev l).
Example C76_at_rest_example : exists l w, krun toy_senv 2 l w /\ Forall (fun x => kevent_fits toy_senv (fst x)) l /\ kills_late l /\
  k_returns l = [Ok FOUnit; Ok FOUnit; Ok (FOId (xid x02)); Ok FOUnit; Ok FOUnit; Ok (FOBytes (str "killed")); Ok (FOId (xid x02)); Ok (FOBytes (str "abc")); Ok FOUnit; Ok FOUnit;
    Ok (FOBytes (str "killed")); Ok (FOBytes (str "killed")); Err E_NOENT; Ok FOUnit].
Proof.
  exists (fst (kplayed toy_senv 2 ex_kills)), (snd (kplayed toy_senv 2 ex_kills)).
  split; [apply kplayed_run; vm_compute; reflexivity|]. split; [apply (kevents_fit toy_senv 4 toy_pad); vm_compute; reflexivity|].
  split; [apply kills_lateb_ok; vm_compute; reflexivity|]. vm_compute. reflexivity.
Qed.

(** A kill at any moment of such a run, between any two steps of any calls: the host
    then has the files of the map and no others; a file that no call under way holds and
    nobody has open reads as it is; and of a file that is held, one finds ([found]) the
    file as it was at some moment since its last flush, or nothing at all if it was made
    and never flushed, or bytes that are refused because their MAC is not theirs. *)
Theorem C76_any_moment : forall E, senv_ok E -> forall n l w, krun E n l w -> Forall (fun x => kevent_fits E (fst x)) l -> kills_late l ->
  (exists h l' aw, ksees (v_cmp E) n l h l' aw /\ run (v_cmp E) n l' aw /\
    forall id, match rget id (host_files (w_repo w)) with
               | Some (RStored data meta) => exists nd, get (files aw) id = Some nd /\
                   (~ In id (opened (files aw)) -> (id = root_id -> worked l) -> reads_as E id data meta nd) /\
                   found E id data meta h
               | Some (RLoaded _ _ _) => False
               | None => get (files aw) id = None
               end) \/
  (exists l2 l1 h l' aw, l = l2 ++ l1 /\ ksees (v_cmp E) n l1 h l' aw /\ run (v_cmp E) n l' aw /\ ~ dirs_fit 2 (files aw)).
Proof.
  intros E HE n l w H Hf Hl. destruct (krun_ok E HE n l w H Hf Hl) as [(h & l' & aw & A1 & A2 & A3)|H1]; [left|now right]. exists h, l', aw. split; [exact A1|]. split; [exact A2|].
  intros id. rewrite (rget_host' id (w_repo w)). destruct (rget id (rp_files (w_repo w))) as [x|] eqn:Eg; cbn [option_map].
  - exact (KI_found E HE l h w aw id x A3 Eg).
  - destruct (get (files aw) id) as [nd|] eqn:Ea; [|reflexivity]. destruct (RR_there _ _ _ _ _ (wi_files _ _ _ (ki_wi _ _ _ _ _ A3)) Ea) as (x & Hx & _). congruence.
Qed.
Print Assumptions C76_any_moment.

(** Right after a flush of an open file, it is on the host as it is. *)
Theorem C76_flushed : forall E, senv_ok E -> forall n l w id r, krun E n ((KEv (VIo (IFlush id) r), w) :: l) w ->
  Forall (fun x => kevent_fits E (fst x)) l -> kills_late l ->
  (exists h l' aw nd data meta, ksees (v_cmp E) n ((KEv (VIo (IFlush id) r), w) :: l) h l' aw /\ r = Ok FOUnit /\
    rget id (host_files (w_repo w)) = Some (RStored data meta) /\ get (files aw) id = Some nd /\ reads_as E id data meta nd) \/
  (exists l2 l1 h l' aw, l = l2 ++ l1 /\ ksees (v_cmp E) n l1 h l' aw /\ run (v_cmp E) n l' aw /\ ~ dirs_fit 2 (files aw)).
Proof.
  intros E HE n l w id r H Hf Hl. inversion H as [|l0 w0 e0 w1 Hr Hs Q1 Q2]. subst l0 e0 w1.
  destruct (krun_ok E HE n l w0 Hr Hf Hl) as [(h & l' & aw & A1 & A2 & A3)|H1]; [|now right].
  destruct (dirs_dec 2 (files aw)) as [Hd|Hd]; [|right; exists [], l, h, l', aw; auto]. left.
  destruct (kstep_KI E HE l h w0 aw _ w A3 Hs I ltac:(discriminate) Hd) as (evs & new & aw' & B1 & B2 & B3).
  pose proof (wi_files _ _ _ (ki_wi _ _ _ _ _ A3)) as HR. pose proof (wi_files _ _ _ (ki_wi _ _ _ _ _ B3)) as HR'.
  inversion Hs as [w2 e2 w3 Hs'|]; subst. destruct (flush_event E w0 _ w id Hs' aw (ki_wi _ _ _ _ _ A3)) as (f & k & p & C1 & C2). { cbn [is_flush]. apply bytes_eqb_refl. }
  destruct (get (files aw) id) as [nd0|] eqn:Ea; [|rewrite (RR_none _ _ _ _ HR Ea) in C1; discriminate].
  destruct (RR_there _ _ _ _ _ HR Ea) as (x & Hx & _ & Hff). rewrite C1 in Hx. injection Hx as <-. cbn [fits_file] in Hff. destruct Hff as (Ho & _).
  destruct (ORep_flush E HE id f nd0 Ho) as (f1 & E1 & _ & Hcl). rewrite E1 in C2. cbn [fst] in C2.
  destruct (get (files aw') id) as [nd|] eqn:Ea'; [|rewrite (RR_none _ _ _ _ HR' Ea') in C2; discriminate].
  destruct (RR_there _ _ _ _ _ HR' Ea') as (x & Hx & _ & Hff). rewrite C2 in Hx. injection Hx as <-. cbn [fits_file] in Hff. destruct Hff as (Ho' & _).
  exists ((Some (KEv (VIo (IFlush id) r)), aw') :: h), (new ++ l'), aw', nd, (f_data (fo_s f1)), (f_meta (fo_s f1)).
  split; [econstructor; try eassumption; apply (wi_handles _ _ _ (ki_wi _ _ _ _ _ B3))|]. split.
  { inversion Hs'; subst. unfold r_io, with_obj. rewrite C1, E1. reflexivity. }
  split; [rewrite (rget_host' id (w_repo w)), C2; reflexivity|]. split; [exact Ea'|]. apply (OClean_reads E HE). now apply ORep_clean.
Qed.
Print Assumptions C76_flushed.
Definition ex_flush : list (option kcmd) :=
  [Some (KCall 0 (FCreate (str "/f") 420 (xid x02) None)); Some (KFin 0); Some (KIo (IWrite (xid x02) 3 (str "abc"))); Some (KCall 1 (FMkdir (str "/d") 493 (xid x01) None)); Some (KStep 1 2);
   Some (KIo (IFlush (xid x02)))].
Lemma ends_flushed E n l w id : krun E n l w -> match l with (KEv (VIo (IFlush x) (Ok FOUnit)), _) :: _ => bytes_eqb x id | _ => false end = true ->
  l = (KEv (VIo (IFlush id) (Ok FOUnit)), w) :: tl l.
Proof.
  intros H He. destruct H as [|l w e w' Hr Hs]; [discriminate He|]. destruct e as [[| | |[] [[]|]| |]|]; try discriminate He. apply bytes_eqb_eq in He. now subst id.
Qed.
Example C76_flushed_example : exists l w, krun toy_senv 2 ((KEv (VIo (IFlush (xid x02)) (Ok FOUnit)), w) :: l) w /\ Forall (fun x => kevent_fits toy_senv (fst x)) l /\ kills_late l /\
  match rget (xid x02) (host_files (w_repo w)) with
  | Some (RStored d m) => match fo_open toy_senv (xid x02) d m 9 with
                          | Ok f => snd (fo_read toy_senv (xid x02) (mkTs 1 1) 0 9 f) = Ok ([x00; x00; x00] ++ str "abc") /\ a_mode (fo_attrs f) = (420 + TREG * 4096)%N
                          | Err _ => False end
  | _ => False
  end.
Proof.
  exists (tl (fst (kplayed toy_senv 2 ex_flush))), (snd (kplayed toy_senv 2 ex_flush)).
  split; [|split; [apply (kevents_fit toy_senv 4 toy_pad); vm_compute; reflexivity|split; [apply kills_lateb_ok; vm_compute; reflexivity|vm_compute; split; reflexivity]]].
  rewrite <- (ends_flushed toy_senv 2 (fst (kplayed toy_senv 2 ex_flush)) (snd (kplayed toy_senv 2 ex_flush)) (xid x02)).
  - apply kplayed_run. vm_compute. reflexivity.
  - apply kplayed_run. vm_compute. reflexivity.
  - vm_compute. reflexivity.
Qed.

(** ** What is not so *)

(** The exception of [C76_at_rest]: the root of a new repository is written to the host by
    the first call that ends, not by the mount. *)
Theorem C76_before_first_call_refuted : ~ (forall E, senv_ok E -> snd (mount E (host_files (fst (mount E [] 0))) 1) = Ok tt).
Proof. intros H. specialize (H toy_senv toy_senv_ok). vm_compute in H. discriminate H. Qed.
Print Assumptions C76_before_first_call_refuted.

(** Nor is a kill at any moment harmless once a call has returned: while the root of a new
    repository is held (here somebody lists it), nothing of it is flushed, and what the
    kill leaves cannot be mounted at all. *)
Definition ex_held : list kcmd := [KCall 0 (FOpendir (str "/")); KFin 0; KCall 1 (FGetattr (str "/")); KFin 1].
Lemma ends_returned (l : list (revent * rworld)) : match l with (VRet _ _ (Ok _), _) :: _ => true | _ => false end = true -> exists i o r w', In (VRet i o (Ok r), w') l.
Proof. destruct l as [|[[| |i o [r|]| | |] w'] l]; try discriminate. intros _. exists i, o, r, w'. now left. Qed.
Definition is_ok {A} (r : res A) : bool := match r with Ok _ => true | Err _ => false end.
Theorem C76_root_held_refuted : ~ (forall E, senv_ok E -> forall n l w, rrun E n l w -> Forall (fun x => event_fits E (fst x)) l -> (exists i o r w', In (VRet i o (Ok r), w') l) ->
  snd (mount E (host_files (w_repo w)) (rp_time (w_repo w))) = Ok tt).
Proof.
  intros H.
  assert (Hc : is_ok (snd (mount toy_senv (host_files (w_repo (snd (rplayed toy_senv 2 ex_held)))) (rp_time (w_repo (snd (rplayed toy_senv 2 ex_held)))))) = true).
  { rewrite (H toy_senv toy_senv_ok 2 (fst (rplayed toy_senv 2 ex_held)) (snd (rplayed toy_senv 2 ex_held))); [reflexivity| | |].
    - apply rplayed_run. vm_compute. reflexivity.
    - apply (events_fit toy_senv 4 toy_pad). vm_compute. reflexivity.
    - apply ends_returned. vm_compute. reflexivity. }
  clear H. vm_compute in Hc. discriminate Hc.
Qed.
Print Assumptions C76_root_held_refuted.

(** A file that was written, flushed and closed is lost with its name, if the directory it
    is in is held when the process is killed (here somebody lists it): its own bytes are
    whole, but the directory has not been flushed. *)
Lemma opens_to E path (x : repo * res unit) r : snd x = Ok tt /\ snd (r_alone (r_body E (FOpen path false)) (fst x)) = r ->
  let '(rp, r0) := x in r0 = Ok tt /\ snd (r_alone (r_body E (FOpen path false)) rp) = r.
Proof. destruct x. auto. Qed.
Definition ex_lost : list kcmd :=
  [KCall 0 (FMkdir (str "/d") 493 (xid x01) None); KFin 0; KCall 0 (FOpendir (str "/")); KFin 0; KCall 1 (FCreate (str "/f") 420 (xid x02) None); KFin 1;
   KIo (IWrite (xid x02) 0 (str "abc")); KIo (IFlush (xid x02)); KCall 1 (FClose (xid x02) false); KFin 1].
Example C76_closed_file_lost : exists l w, rrun toy_senv 2 l w /\ Forall (fun x => event_fits toy_senv (fst x)) l /\
  r_returns l = [Ok FOUnit; Ok (FOId root_id); Ok (FOId (xid x02)); Ok FOUnit; Ok FOUnit; Ok FOUnit] /\
  let '(rp, r) := mount toy_senv (host_files (w_repo w)) (rp_time (w_repo w)) in
  r = Ok tt /\ snd (r_alone (r_body toy_senv (FOpen (str "/f") false)) rp) = Err E_NOENT.
Proof.
  exists (fst (rplayed toy_senv 2 ex_lost)), (snd (rplayed toy_senv 2 ex_lost)).
  split; [apply rplayed_run; vm_compute; reflexivity|]. split; [apply (events_fit toy_senv 4 toy_pad); vm_compute; reflexivity|].
  split; [vm_compute; reflexivity|]. apply opens_to. vm_compute. split; reflexivity.
Qed.

(** A file that is open when the process is killed may have its name, and not open: the
    last alternative but one of [found]. *)
Definition ex_named : list kcmd := [KCall 0 (FCreate (str "/f") 420 (xid x02) None); KFin 0; KIo (IWrite (xid x02) 0 (str "abc"))].
Example C76_any_moment_example : exists l w, rrun toy_senv 2 l w /\ Forall (fun x => event_fits toy_senv (fst x)) l /\
  krun toy_senv 2 (map (fun x => (KEv (fst x), snd x)) l) w /\
  r_returns l = [Ok (FOId (xid x02)); Ok FOUnit] /\
  let '(rp, r) := mount toy_senv (host_files (w_repo w)) (rp_time (w_repo w)) in
  r = Ok tt /\ snd (r_alone (r_body toy_senv (FOpen (str "/f") false)) rp) = Err EVerify.
Proof.
  exists (fst (rplayed toy_senv 2 ex_named)), (snd (rplayed toy_senv 2 ex_named)).
  assert (Hr : rrun toy_senv 2 (fst (rplayed toy_senv 2 ex_named)) (snd (rplayed toy_senv 2 ex_named))) by (apply rplayed_run; vm_compute; reflexivity).
  split; [exact Hr|]. split; [apply (events_fit toy_senv 4 toy_pad); vm_compute; reflexivity|]. split; [now apply rrun_krun|].
  split; [vm_compute; reflexivity|]. apply opens_to. vm_compute. split; reflexivity.
Qed.
