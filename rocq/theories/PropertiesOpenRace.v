(** Property C77: lite files that are created, opened, used and closed at the same time. *)
From Verif Require Import Base BaseLemmas StreamSpec BlockModel BlockProofs LiteModel LiteProofs
  HandleModel HandleSpec HandleProofs ConcModel ConcSpec ConcProofs OpenRaceModel OpenRaceSpec OpenRaceProofs Toy PropertiesHandles PropertiesConc.

(** Any number of threads of any number of processes open, use and close the files that
    handles are for, several of them the same file, beginning with files that the host has
    just created and that nobody has opened yet.  They take the locks of the host and do
    their work in steps of any size ([body] is any program that does alone what the models
    of the stream do), interleaved in any way.  Then what they see is a history of atomic
    files (OpenRaceSpec): one header is written, whoever is first, and all handles agree on
    it.  A file nobody is working on has no bytes if nothing was put into it, and otherwise
    can be opened and reads as its array. *)
Theorem C77_openings_are_atomic :
  forall (A : aead) bs iv_size check sparse session_key padding_of rnd iv_fuel writable file_of body tr c,
    lite_env_ok A bs iv_size rnd iv_fuel ->
    (forall h o k s, exec (body h o k) s = call_alone A bs iv_size check sparse session_key padding_of rnd iv_fuel writable o k s) ->
    let lock_failure := Some (fun n => OFail (EPosix n)) in
    csteps fstate sout fcall file_of (fun h => h) true lock_failure body (start _ _ _ (fun _ => ([], fun _ => None))) tr c ->
    calls (fair_call (lite_max_blocks * bs) writable) tr ->
    exists a,
      atomic ofile sout fcall (ofile_step writable) file_of lock_failure (atomic_start _ _ _ (fun _ => new_file)) tr a /\
      forall i, at_rest file_of c i ->
        match fst (a_files _ _ _ a i) with
        | None => fst (c_files _ _ _ c i) = []
        | Some d =>
          forall off len k, off + len <= lite_max_blocks * bs ->
            exists l, lite_open bs iv_size session_key padding_of rnd (fst (c_files _ _ _ c i)) k = Ok l /\
              l_file l = fst (c_files _ _ _ c i) /\
              snd (bb_step (lite_backend A bs iv_size check sparse rnd iv_fuel) l (SRead off len)) = OData (arr_read d off len)
        end.
Proof.
  intros A bs iv_size check sparse session_key padding_of rnd iv_fuel writable file_of body tr c HE Hbody lf Hc Hcalls.
  set (Rep := fun (i : nat) => ORep A bs iv_size check session_key padding_of).
  assert (HB : forall h o k s a, fair_call (lite_max_blocks * bs) writable h o -> Rep (file_of h) s a ->
     Rep (file_of h) (fst (exec (body h o k) s)) (fst (ofile_step writable a o)) /\ snd (exec (body h o k) s) = snd (ofile_step writable a o)).
  { intros h o k s a Hf HR. rewrite Hbody. eapply ORep_step; eauto. }
  destruct (refine fstate sout fcall ofile file_of (fun h => h) true lf body (ofile_step writable) Rep _ (or_introl eq_refl) HB
              _ _ _ _ Hc Hcalls (sim_start fstate sout fcall ofile file_of (fun h => h) true body Rep _ (fun _ => ([], fun _ => None)) (fun _ => new_file)
                 (fun _ => ORep_new _ _ _ _ _ _))) as (a & Ha & HS).
  exists a. split; [exact Ha|]. intros i Hr. destruct (s_rest _ _ _ _ _ _ _ _ _ _ _ _ HS i Hr) as [_ HC].
  destruct (fst (a_files _ _ _ a i)) as [d|]; [|exact (proj1 HC)]. intros off len k Hlen. destruct HC as (key & pad & H & _).
  rewrite (holds_open A bs iv_size check session_key padding_of rnd iv_fuel HE _ _ _ _ k H). eexists. split; [reflexivity|]. split; [reflexivity|].
  destruct (holds_io A bs iv_size check sparse session_key padding_of rnd iv_fuel HE _ _ _ _ k (SRead off len) H Hlen) as (l & El & _).
  rewrite El. reflexivity.
Qed.
Print Assumptions C77_openings_are_atomic.

(** The programs of OpenRaceModel, with a step for every access to the stored file by an
    opening and for every call of the block layer, are such bodies. *)
Theorem C77_bodies :
  forall A bs iv_size check sparse session_key padding_of rnd iv_fuel writable h o k s,
    exec (call_steps A bs iv_size check sparse session_key padding_of rnd iv_fuel writable h o k) s =
    call_alone A bs iv_size check sparse session_key padding_of rnd iv_fuel writable o k s.
Proof. intros. apply steps_alone. Qed.
Print Assumptions C77_bodies.

(** ** Cases.  Handles 10 and 11 are for writing, 12 for reading, all of one file. *)
Definition ex_writable (h : nat) : bool := negb (h =? 12).
Definition ex_calls_body := call_steps keyed_aead 32 12 true true (fun id => id) (fun _ => 5) toy_rnd 2 ex_writable.
Definition open_run (flock : bool) (ms : list (nat * (nat * fcall * nat))) :=
  moves fstate sout fcall (fun _ => 0) (fun h => h) flock ex_calls_body (start _ _ _ (fun _ => ([], fun _ => None))) ms.
Definition o1 := (1, (10, FOpen 10, 50)).
Definition o2 := (2, (11, FOpen 11, 60)).
Definition o3 := (3, (12, FOpen 12, 90)).
Definition wr1 := (1, (10, FIo 10 (SWrite 0 [x61; x62]), 70)).
Definition rd2 := (2, (11, FIo 11 (SRead 0 2), 80)).
Definition rd3 := (3, (12, FIo 12 (SRead 0 2), 80)).
Definition open_history (r : sout) : list (event sout fcall) :=
  [EInv _ _ 1 10 (FOpen 10); EInv _ _ 2 11 (FOpen 11); ERes _ _ 1 ODone; ERes _ _ 2 ODone;
   EInv _ _ 1 10 (FIo 10 (SWrite 0 [x61; x62])); ERes _ _ 1 ODone; EInv _ _ 2 11 (FIo 11 (SRead 0 2)); ERes _ _ 2 r].

Lemma open_history_fair lim r : 1000 <= lim -> calls (fair_call (lim * 32) ex_writable) (open_history r).
Proof.
  intros HL. assert (H : 2 <= lim * 32) by lia. unfold calls, open_history. generalize dependent (lim * 32). intros n H.
  repeat (apply Forall_cons || apply Forall_nil); cbn [fair_call sop_within length]; try exact I; try reflexivity; (split; [reflexivity|]); (split; [lia|]);
    reflexivity || exact I.
Qed.

(** Two threads open a new file at the same time, move by move in turn; one writes and the
    other reads what it wrote. *)
Example C77_example :
  lite_env_ok keyed_aead 32 12 toy_rnd 2 /\
  (exists c, csteps fstate sout fcall (fun _ => 0) (fun h => h) true (Some (fun n => OFail (EPosix n))) ex_calls_body
     (start _ _ _ (fun _ => ([], fun _ => None))) (open_history (OData [x61; x62])) c) /\
  calls (fair_call (lite_max_blocks * 32) ex_writable) (open_history (OData [x61; x62])).
Proof.
  split; [exact keyed_env|]. split.
  - pose proof (moves_sound fstate sout fcall (fun _ => 0) (fun h => h) true (Some (fun n => OFail (EPosix n))) ex_calls_body
      (alternate 10 o1 o2 ++ repeat o2 4 ++ repeat wr1 10 ++ repeat rd2 8) _ [] _ (CS_nil _ _ _ _ _ _ _ _ (start _ _ _ (fun _ => ([], fun _ => None))))) as H.
    set (tr := snd _) in H. assert (Et : [] ++ tr = open_history (OData [x61; x62])) by (vm_compute; reflexivity). rewrite Et in H. eexists. exact H.
  - assert (HL : 1000 <= lite_max_blocks) by (apply lite_over_max_inv; vm_compute; reflexivity).
    apply open_history_fair. exact HL.
Qed.

(** No atomic history has an opened file fail a verification. *)
Lemma atomic_verifies w fo lf tr a :
  (forall f n, lf = Some f -> f n <> OFail EVerify) ->
  atomic ofile sout fcall (ofile_step w) fo lf (atomic_start _ _ _ (fun _ => new_file)) tr a ->
  (forall t, ~ In (ERes sout fcall t (OFail EVerify)) tr) /\ (forall t, a_threads _ _ _ a t <> ADone _ _ (OFail EVerify)).
Proof.
  intros Hlf H. remember (atomic_start _ _ _ _) as a0 eqn:E0.
  assert (Hup : forall (f : nat -> athread sout fcall) t x, x <> ADone _ _ (OFail EVerify) -> (forall t', f t' <> ADone _ _ (OFail EVerify)) ->
            forall t', upd f t x t' <> ADone _ _ (OFail EVerify)).
  { intros f t x Hx Hf t'. unfold upd. destruct (t' =? t); auto. }
  induction H as [a|a a1 a2 tr H IH S|a a1 a2 tr e H IH S].
  - subst a. split; [intros t []|intros t; discriminate].
  - destruct (IH E0) as [I1 I2]. split; [exact I1|]. inversion S as [|b t h o Et Ee|b t h o f n Et Ef|]; subst; cbn [a_threads]; apply Hup; try exact I2.
    + intros E. injection E as E. revert E. destruct (a_files _ _ _ a1 (fo h)) as [[d|] op]; destruct o as [h'|h' [off len|off dd|n|]|h']; cbn [ofile_step spec_step];
        try destruct (op h'); try destruct (w h'); cbn [fst snd]; discriminate.
    + intros E. injection E as E. exact (Hlf _ _ eq_refl E).
  - destruct (IH E0) as [I1 I2]. inversion S as [b t h o Et| | |b t r Et]; subst; cbn [a_threads]; (split; [|apply Hup; [discriminate|exact I2]]).
    + intros t' Hi. apply in_app_or in Hi as [Hi|[Hi|[]]]; [exact (I1 _ Hi)|discriminate Hi].
    + intros t' Hi. apply in_app_or in Hi as [Hi|[Hi|[]]]; [exact (I1 _ Hi)|]. injection Hi as -> ->. exact (I2 _ Et).
Qed.

(** With --noflock, two threads that open a new file at the same time can both write a
    header; both succeed, but what one writes the other cannot read, and that is no
    history of an atomic file. *)
Theorem C77_noflock_refuted :
  exists c, csteps fstate sout fcall (fun _ => 0) (fun h => h) false None ex_calls_body
     (start _ _ _ (fun _ => ([], fun _ => None))) (open_history (OFail EVerify)) c /\
    calls (fair_call (lite_max_blocks * 32) ex_writable) (open_history (OFail EVerify)) /\
    ~ exists a, atomic ofile sout fcall (ofile_step ex_writable) (fun _ => 0) None (atomic_start _ _ _ (fun _ => new_file)) (open_history (OFail EVerify)) a.
Proof.
  pose proof (moves_sound fstate sout fcall (fun _ => 0) (fun h => h) false None ex_calls_body
      (alternate 10 o1 o2 ++ repeat wr1 10 ++ repeat rd2 8) _ [] _ (CS_nil _ _ _ _ _ _ _ _ (start _ _ _ (fun _ => ([], fun _ => None))))) as H.
  set (tr := snd _) in H. assert (Et : [] ++ tr = open_history (OFail EVerify)) by (vm_compute; reflexivity). rewrite Et in H.
  eexists. split; [exact H|]. clear. split.
  - assert (HL : 1000 <= lite_max_blocks) by (apply lite_over_max_inv; vm_compute; reflexivity).
    apply open_history_fair. exact HL.
  - intros (a & Ha). destruct (atomic_verifies _ _ None _ _ ltac:(intros ? ? E; discriminate E) Ha) as [Hn _]. apply (Hn 2). unfold open_history. cbn [In]. tauto.
Qed.
Print Assumptions C77_noflock_refuted.

(** A file that is just being created cannot be opened for reading until its header is
    there: whoever finds its name in between is refused with EBADF. *)
Theorem C77_reading_too_early_refuted :
  exists c, csteps fstate sout fcall (fun _ => 0) (fun h => h) true None ex_calls_body (start _ _ _ (fun _ => ([], fun _ => None)))
     [EInv _ _ 1 10 (FOpen 10); EInv _ _ 3 12 (FOpen 12); ERes _ _ 3 (OFail (EPosix 9)); ERes _ _ 1 ODone] c.
Proof.
  pose proof (moves_sound fstate sout fcall (fun _ => 0) (fun h => h) true None ex_calls_body
      (repeat o1 2 ++ repeat o3 7 ++ repeat o1 8) _ [] _ (CS_nil _ _ _ _ _ _ _ _ (start _ _ _ (fun _ => ([], fun _ => None))))) as H.
  set (tr := snd _) in H. match type of H with csteps _ _ _ _ _ _ _ _ _ ?t _ => match goal with |- exists c, csteps _ _ _ _ _ _ _ _ _ ?t' c =>
    assert (Et : t = t') by (vm_compute; reflexivity) end end. rewrite Et in H. eexists. exact H.
Qed.
Print Assumptions C77_reading_too_early_refuted.

(** An opening of a new file that is cut off between its two writes leaves a file that
    nobody can open. *)
Theorem C77_cut_off_refuted :
  exists c, csteps fstate sout fcall (fun _ => 0) (fun h => h) true None ex_calls_body (start _ _ _ (fun _ => ([], fun _ => None)))
      [EInv _ _ 1 10 (FOpen 10)] c /\
    forall k, lite_open 32 12 (fun id => id) (fun _ => 5) toy_rnd (fst (c_files _ _ _ c 0)) k = Err EInval.
Proof.
  pose proof (moves_sound fstate sout fcall (fun _ => 0) (fun h => h) true None ex_calls_body
      (repeat o1 5) _ [] _ (CS_nil _ _ _ _ _ _ _ _ (start _ _ _ (fun _ => ([], fun _ => None))))) as H.
  fold (open_run true (repeat o1 5)) in H. assert (Et : [] ++ snd (open_run true (repeat o1 5)) = [EInv _ _ 1 10 (FOpen 10)]) by (vm_compute; reflexivity).
  assert (Ef : fst (c_files _ _ _ (fst (open_run true (repeat o1 5))) 0) = repeat x33 16) by (vm_compute; reflexivity).
  revert H Et Ef. generalize (open_run true (repeat o1 5)). intros [c e] H Et Ef. cbn [fst snd] in *. rewrite Et in H.
  exists c. split; [exact H|]. intros k. rewrite Ef. reflexivity.
Qed.
Print Assumptions C77_cut_off_refuted.
