(** Property C57: threads that use open files at the same time. *)
From Verif Require Import Base BaseLemmas StreamSpec BlockModel BlockProofs LiteModel LiteProofs FullStreamModel FullStreamProofs
  HandleModel HandleSpec HandleProofs ConcModel ConcSpec ConcProofs Toy PropertiesFull PropertiesHandles.

(** Any number of threads read, write, truncate and ask for the size through any open
    handles, several of them on the same file.  The operations take the locks as in
    ConcModel and do their work in steps of any size ([body] is any program that does
    alone what the model of the stream does), interleaved in any way.  Then what the
    threads see is a history of atomic byte arrays, and a file nobody is working on holds
    the content of its array.  Handles are as any history [ops] of C53 left them. *)
Theorem C57_lite_operations_are_atomic :
  forall (A : aead) bs iv_size check sparse session_key padding_of padded rnd iv_fuel ops body tr c,
    lite_env_ok A bs iv_size rnd iv_fuel ->
    (padded = false -> forall id, padding_of id = 0) ->
    all_allowed (lite_max_blocks * bs) p_empty ops ->
    let s := fst (run_ops (hstep A bs iv_size check sparse session_key padding_of padded rnd iv_fuel) h_empty ops) in
    let p := fst (run_ops pstep p_empty ops) in
    (forall h i key pad o k f, h_handles s h = Some (i, key, pad) ->
       exec (body h o k) f =
       let '(l, r) := bb_step (lite_backend A bs iv_size check sparse rnd iv_fuel) (mkLite f key pad k) o in (l_file l, r)) ->
    let file_of h := match p_handles p h with Some (i, _) => i | None => 0 end in
    let stored i := match h_files s i with Some f => f | None => [] end in
    let content i := match p_files p i with Some (c, _) => c | None => [] end in
    let lock_failure := Some (fun n => OFail (EPosix n)) in
    csteps bytes sout sop file_of (fun h => h) true lock_failure body (start _ _ _ stored) tr c ->
    calls (fun h o => p_handles p h <> None /\ ~ outdated p h /\ sop_within (lite_max_blocks * bs) o) tr ->
    exists a,
      atomic bytes sout sop spec_step file_of lock_failure (atomic_start _ _ _ content) tr a /\
      forall i off len k, p_files p i <> None -> at_rest file_of c i -> off + len <= lite_max_blocks * bs ->
        exists l, lite_open bs iv_size session_key padding_of rnd (c_files _ _ _ c i) k = Ok l /\
          snd (bb_step (lite_backend A bs iv_size check sparse rnd iv_fuel) l (SRead off len)) = OData (arr_read (a_files _ _ _ a i) off len).
Proof.
  intros A bs iv_size check sparse session_key padding_of padded rnd iv_fuel ops body tr c HE HP Hal s p Hbody file_of stored content lf Hc Hcalls.
  destruct (run_rel A bs iv_size check sparse session_key padding_of padded rnd iv_fuel HE HP ops h_empty p_empty
             (rel_empty A bs iv_size check session_key padding_of padded HP) Hal) as [_ HR]. fold s p in HR.
  set (hold := holds A bs iv_size check session_key padding_of).
  set (Rep := fun (i : nat) (f c : bytes) => p_files p i = None \/
     (exists key pad, hold f key pad c) /\
     forall h key pad, h_handles s h = Some (i, key, pad) -> ~ outdated p h -> hold f key pad c).
  assert (Hini : forall i, Rep i (stored i) (content i)).
  { intros i. unfold Rep, stored, content. destruct (p_files p i) as [[c0 g]|] eqn:Ep; [right|left; reflexivity].
    destruct (r_files _ _ _ _ _ _ _ _ HR _ _ _ Ep) as (f & key & pad & Hf & H). rewrite Hf. split; [eauto|].
    intros h key' pad' Hh Hout. pose proof (r_handle _ _ _ _ _ _ _ _ HR h) as Q. rewrite Hh in Q.
    destruct (p_handles p h) as [[j g1]|] eqn:Eh; [|contradiction]. destruct Q as (<- & _ & Q).
    destruct (Q _ _ _ Ep Hf) as [_ Q2]. apply Q2. destruct (Nat.eq_dec g1 g) as [->|N]; [reflexivity|]. exfalso. apply Hout.
    exists i, g1, c0, g. auto. }
  pose (ok := fun (h : nat) (o : sop) => p_handles p h <> None /\ ~ outdated p h /\ sop_within (lite_max_blocks * bs) o).
  assert (HB : forall h o k f a, ok h o -> Rep (file_of h) f a ->
     Rep (file_of h) (fst (exec (body h o k) f)) (fst (spec_step a o)) /\ snd (exec (body h o k) f) = snd (spec_step a o)).
  { intros h o k f a (Hh & Hout & Ho) HRep. unfold file_of in *.
    pose proof (r_handle _ _ _ _ _ _ _ _ HR h) as Q. destruct (p_handles p h) as [[i g]|] eqn:Eh; [|congruence].
    destruct (h_handles s h) as [[[j key] pad]|] eqn:Eh'; [|contradiction]. destruct Q as (-> & Hi & _).
    rewrite (Hbody _ _ _ _ o k f Eh').
    destruct HRep as [N|[_ HRep]]; [exfalso; exact (r_file_ex _ _ _ _ _ _ _ _ HR _ Hi N)|].
    pose proof (HRep _ _ _ Eh' Hout) as H.
    destruct (holds_io A bs iv_size check sparse session_key padding_of rnd iv_fuel HE f key pad a k o H Ho) as (l & El & Hl).
    rewrite El. cbn [fst snd]. split; [|reflexivity]. right. split; [exists key, pad; exact Hl|]. intros h' key' pad' Hh' Hout'.
    destruct (holds_same A bs iv_size check session_key padding_of rnd iv_fuel HE f key pad key' pad' a a H (HRep _ _ _ Hh' Hout')) as [-> ->]. exact Hl. }
  destruct (refine bytes sout sop bytes file_of (fun h => h) true lf body spec_step Rep ok (or_introl eq_refl) HB
              _ _ _ _ Hc Hcalls (sim_start bytes sout sop bytes file_of (fun h => h) true body Rep ok stored content Hini)) as (a & Ha & HS).
  exists a. split; [exact Ha|]. intros i off len k Hi Hr Hlen.
  destruct (s_rest _ _ _ _ _ _ _ _ _ _ _ _ HS i Hr) as [N|[(key & pad & H) _]]; [congruence|].
  rewrite (holds_open A bs iv_size check session_key padding_of rnd iv_fuel HE _ _ _ _ k H). eexists. split; [reflexivity|].
  destruct (holds_io A bs iv_size check sparse session_key padding_of rnd iv_fuel HE _ _ _ _ k (SRead off len) H Hlen) as (l & El & _).
  rewrite El. reflexivity.
Qed.
Print Assumptions C57_lite_operations_are_atomic.

(** The same for the full format, where all handles of a file share one object and its
    mutex.  Every file [i] has its keys and was written by any history [ops i] of C02. *)
Theorem C57_full_operations_are_atomic :
  forall (A : aead) hmac (dkey mkey id : nat -> bytes) bs iv_size header_size check sparse rnd iv_fuel (k : nat -> nat) (ops : nat -> list fop) file_of body tr c,
    full_env_ok A hmac bs iv_size rnd iv_fuel ->
    (forall i, Forall (fop_within (full_max_blocks * bs) header_size) (ops i)) ->
    let stored i := fst (run_ops (full_step A hmac (dkey i) (mkey i) (id i) bs iv_size header_size check sparse rnd iv_fuel) (mkFull [] [] false (k i)) (ops i)) in
    let content i := fst (fst (run_ops (fspec_step header_size) ([], None) (ops i))) in
    let B i := full_backend A (dkey i) (id i) bs iv_size header_size check sparse rnd iv_fuel in
    (forall h o n s, exec (body h o n) s = bb_step (B (file_of h)) s o) ->
    csteps full_st sout sop file_of file_of false None body (start _ _ _ stored) tr c ->
    calls (fun _ o => sop_within (full_max_blocks * bs) o) tr ->
    exists a,
      atomic bytes sout sop spec_step file_of None (atomic_start _ _ _ content) tr a /\
      forall i off len, at_rest file_of c i -> off + len <= full_max_blocks * bs ->
        snd (bb_step (B i) (c_files _ _ _ c i) (SRead off len)) = OData (arr_read (a_files _ _ _ a i) off len).
Proof.
  intros A hmac dkey mkey id bs iv_size header_size check sparse rnd iv_fuel k ops file_of body tr c HE Hops stored content B Hbody Hc Hcalls.
  set (Rep := fun (i : nat) (s : full_st) (c : bytes) =>
     exists h, FRep A hmac (dkey i) (mkey i) (id i) bs iv_size header_size h s c /\ length c <= full_max_blocks * bs).
  assert (Hini : forall i, Rep i (stored i) (content i)).
  { intros i. unfold Rep, stored, content.
    pose proof (full_refines A hmac (dkey i) (mkey i) (id i) bs iv_size header_size check sparse rnd iv_fuel HE (ops i) None (mkFull [] [] false (k i)) []
                  (FRep_fresh A hmac (dkey i) (mkey i) (id i) bs iv_size header_size (k i)) (Nat.le_0_l _) (Hops i)) as Q.
    destruct (fst (run_ops (fspec_step header_size) ([], None) (ops i))) as [c0 h]. destruct Q as (_ & Q1 & Q2). exists h. auto. }
  assert (HB : forall i o s a, sop_within (full_max_blocks * bs) o -> Rep i s a ->
     Rep i (fst (bb_step (B i) s o)) (fst (spec_step a o)) /\ snd (bb_step (B i) s o) = snd (spec_step a o)).
  { intros i o s a Ho (h & HR & Hl).
    destruct (bb_step_ok (B i) (FRep A hmac (dkey i) (mkey i) (id i) bs iv_size header_size h)
       (full_backend_ok A hmac (dkey i) (mkey i) (id i) bs iv_size header_size check sparse rnd iv_fuel HE h) s a o HR
       ltac:(unfold B; rewrite bk_maxn_full; exact Hl) ltac:(unfold B; rewrite bk_maxn_full; exact Ho)) as (s1 & Hs & HR1 & Hl1).
    unfold B in Hl1. rewrite bk_maxn_full in Hl1. fold (B i) in Hl1. rewrite Hs. cbn [fst snd]. split; [exists h; auto|reflexivity]. }
  assert (HB' : forall h o n (s : full_st) a, sop_within (full_max_blocks * bs) o -> Rep (file_of h) s a ->
     Rep (file_of h) (fst (exec (body h o n) s)) (fst (spec_step a o)) /\ snd (exec (body h o n) s) = snd (spec_step a o)).
  { intros h o n s a Ho HR. replace (exec (body h o n) s) with (bb_step (B (file_of h)) s o) by (symmetry; exact (Hbody h o n s)). apply HB; assumption. }
  destruct (refine full_st sout sop bytes file_of file_of false None body spec_step Rep (fun _ o => sop_within (full_max_blocks * bs) o)
              (or_intror (fun _ _ E => E)) HB'
              _ _ _ _ Hc Hcalls (sim_start full_st sout sop bytes file_of file_of false body Rep _ stored content Hini)) as (a & Ha & HS).
  exists a. split; [exact Ha|]. intros i off len Hr Hlen.
  exact (proj2 (HB i (SRead off len) _ _ Hlen (s_rest _ _ _ _ _ _ _ _ _ _ _ _ HS i Hr))).
Qed.
Print Assumptions C57_full_operations_are_atomic.

(** The programs of ConcModel, with a step for every call of the block layer, are such
    bodies. *)
Theorem C57_bodies :
  (forall A bs iv_size check sparse rnd iv_fuel key pad o k f,
     exec (lite_body A bs iv_size check sparse rnd iv_fuel key pad o k) f =
     let '(l, r) := bb_step (lite_backend A bs iv_size check sparse rnd iv_fuel) (mkLite f key pad k) o in (l_file l, r)) /\
  (forall B o s, exec (full_body B o) s = bb_step B s o).
Proof.
  split; [|exact full_body_exec]. intros. rewrite lite_body_exec. destruct (bb_step _ _ o) as [l r]. reflexivity.
Qed.
Print Assumptions C57_bodies.

(** Nobody waits for ever: whatever the threads have done so far, with any locks per
    handle or per file, with or without the host's locks, if a thread is in a call then
    some thread can go on, and the threads cannot go on for ever without new calls.  So
    all calls return once no new ones come. *)
Theorem C57_no_deadlock :
  forall St R Op (file_of mutex_of : nat -> nat) flock failed (body : nat -> Op -> nat -> prog St R) files tr c,
    csteps St R Op file_of mutex_of flock failed body (start _ _ _ files) tr c ->
    (forall t, c_threads _ _ _ c t <> TIdle _ _ _ -> exists e c', cstep St R Op file_of mutex_of flock failed body c e c' /\ onward e) /\
    Acc (fun c2 c1 => exists e, cstep St R Op file_of mutex_of flock failed body c1 e c2 /\ onward e) c.
Proof.
  intros St R Op file_of mutex_of flock failed body files tr c H.
  pose proof (held_reached _ _ _ _ _ _ _ _ _ _ _ H (held_start _ _ _ _ _ _ files)) as HH.
  split; [intros t; apply progress; exact HH|apply calls_end; exact HH].
Qed.
Print Assumptions C57_no_deadlock.

(** ** Executions, for the cases: a schedule says which thread moves; an idle thread
    makes the given call. *)
Section Sched.
Variable St R Op : Type.
Variable obj_of mutex_of : nat -> nat.
Variable flock_on : bool.
Variable failed : option (N -> R).
Variable body : nat -> Op -> nat -> prog St R.
Local Notation conf := (conf St R Op).
Definition move (c : conf) (m : nat * (nat * Op * nat)) : option (conf * list (event R Op)) :=
  let '(t, (h0, o0, k0)) := m in
  let th x := upd (c_threads _ _ _ c) t x in
  match c_threads _ _ _ c t with
  | TIdle _ _ _ => Some (mkC _ _ _ (c_files _ _ _ c) (c_mutex _ _ _ c) (c_flock _ _ _ c) (th (TCalled _ _ _ h0 o0 k0)), [EInv _ _ t h0 o0])
  | TCalled _ _ _ h o k =>
    match c_mutex _ _ _ c (mutex_of h) with
    | Some _ => None
    | None => Some (mkC _ _ _ (c_files _ _ _ c) (upd (c_mutex _ _ _ c) (mutex_of h) (Some t)) (c_flock _ _ _ c) (th (TMutex _ _ _ h o k)), [])
    end
  | TMutex _ _ _ h o k =>
    if flock_on then
      if match c_flock _ _ _ c (obj_of h) with None => true | Some h' => h' =? h end
      then Some (mkC _ _ _ (c_files _ _ _ c) (c_mutex _ _ _ c) (upd (c_flock _ _ _ c) (obj_of h) (Some h)) (th (TRun _ _ _ h o k (body h o k))), [])
      else None
    else Some (mkC _ _ _ (c_files _ _ _ c) (c_mutex _ _ _ c) (c_flock _ _ _ c) (th (TRun _ _ _ h o k (body h o k))), [])
  | TRun _ _ _ h o k (PStep u nx) =>
    Some (mkC _ _ _ (upd (c_files _ _ _ c) (obj_of h) (u (c_files _ _ _ c (obj_of h)))) (c_mutex _ _ _ c) (c_flock _ _ _ c)
              (th (TRun _ _ _ h o k (nx (c_files _ _ _ c (obj_of h))))), [])
  | TRun _ _ _ h o k (PRet r) =>
    Some (mkC _ _ _ (c_files _ _ _ c) (c_mutex _ _ _ c) (if flock_on then upd (c_flock _ _ _ c) (obj_of h) None else c_flock _ _ _ c) (th (TLeave _ _ _ h r)), [])
  | TLeave _ _ _ h r => Some (mkC _ _ _ (c_files _ _ _ c) (upd (c_mutex _ _ _ c) (mutex_of h) None) (c_flock _ _ _ c) (th (TOut _ _ _ r)), [])
  | TOut _ _ _ r => Some (mkC _ _ _ (c_files _ _ _ c) (c_mutex _ _ _ c) (c_flock _ _ _ c) (th (TIdle _ _ _)), [ERes _ _ t r])
  end.
(** Moves that are not possible are skipped. *)
Fixpoint moves (c : conf) (ms : list (nat * (nat * Op * nat))) : conf * list (event R Op) :=
  match ms with
  | [] => (c, [])
  | m :: ms' =>
    match move c m with
    | Some (c1, e) => let '(c2, e2) := moves c1 ms' in (c2, e ++ e2)
    | None => moves c ms'
    end
  end.
Local Notation csteps := (csteps St R Op obj_of mutex_of flock_on failed body).
Lemma move_sound c0 tr c m c1 e : csteps c0 tr c -> move c m = Some (c1, e) -> csteps c0 (tr ++ e) c1.
Proof.
  intros H E. destruct m as [t [[h0 o0] k0]]. unfold move in E.
  assert (HN : forall c2, cstep St R Op obj_of mutex_of flock_on failed body c None c2 -> csteps c0 (tr ++ []) c2).
  { intros c2 S. rewrite app_nil_r. eapply CS_silent; eauto. }
  destruct (c_threads _ _ _ c t) as [|h o k|h o k|h o k [r|u nx]|h r|r] eqn:Et.
  - injection E as <- <-. eapply CS_event; [exact H|]. apply S_invoke. exact Et.
  - destruct (c_mutex _ _ _ c (mutex_of h)) eqn:Em; [discriminate|]. injection E as <- <-. apply HN. apply S_mutex; assumption.
  - destruct flock_on eqn:Ef.
    + destruct (c_flock _ _ _ c (obj_of h)) as [h'|] eqn:Ec.
      * destruct (Nat.eqb_spec h' h) as [->|]; [|discriminate]. injection E as <- <-. apply HN. rewrite <- Ef. apply S_flock; auto.
      * injection E as <- <-. apply HN. apply S_flock; auto.
    + injection E as <- <-. apply HN. apply S_no_flock; auto.
  - injection E as <- <-. apply HN. eapply S_unflock; eauto.
  - injection E as <- <-. apply HN. eapply S_step; eauto.
  - injection E as <- <-. apply HN. eapply S_unmutex; eauto.
  - injection E as <- <-. eapply CS_event; [exact H|]. apply S_return. exact Et.
Qed.
Lemma moves_sound ms : forall c0 tr c, csteps c0 tr c -> csteps c0 (tr ++ snd (moves c ms)) (fst (moves c ms)).
Proof.
  induction ms as [|m ms IH]; intros c0 tr c H; cbn [moves fst snd]; [rewrite app_nil_r; exact H|].
  destruct (move c m) as [[c1 e]|] eqn:E; [|apply IH; exact H].
  pose proof (IH _ _ _ (move_sound _ _ _ _ _ _ H E)) as Q. destruct (moves c1 ms) as [c2 e2]. cbn [fst snd] in *. rewrite app_assoc. exact Q.
Qed.
End Sched.

(** A file of 2 bytes "xy" with the handles 10 and 11. *)
Definition ex_prefix : list hop := [HCreate 1 10; HOpen 1 11 false; HIo 10 (SWrite 0 [x78; x79])].
Definition ex_s : hst := fst (run_ops (hstep keyed_aead 32 12 true true (fun id => id) (fun _ => 5) true toy_rnd 2) h_empty ex_prefix).
Definition ex_p : pst := fst (run_ops pstep p_empty ex_prefix).
Definition ex_body (h : nat) (o : sop) (k : nat) : prog bytes sout :=
  match h_handles ex_s h with
  | Some (_, key, pad) => lite_body keyed_aead 32 12 true true toy_rnd 2 key pad o k
  | None => PRet (OFail EBADF)
  end.
Definition ex_file (h : nat) : nat := match p_handles ex_p h with Some (i, _) => i | None => 0 end.
Definition ex_stored (i : nat) : bytes := match h_files ex_s i with Some f => f | None => [] end.
Definition ex_run (flock : bool) (ms : list (nat * (nat * sop * nat))) :=
  moves bytes sout sop ex_file (fun h => h) flock ex_body (start _ _ _ ex_stored) ms.
(** Two threads write a byte each through the two handles, move by move in turn; then one
    reads. *)
Definition w1 := (1, (10, SWrite 0 [x61], 50)).
Definition w2 := (2, (11, SWrite 1 [x62], 60)).
Definition r1 := (1, (10, SRead 0 2, 70)).
Fixpoint alternate (n : nat) {X} (a b : X) : list X := match n with 0 => [] | S n => a :: b :: alternate n a b end.

Definition ex_history (d : bytes) : list (event sout sop) :=
  [EInv _ _ 1 10 (SWrite 0 [x61]); EInv _ _ 2 11 (SWrite 1 [x62]); ERes _ _ 1 ODone; ERes _ _ 2 ODone;
   EInv _ _ 1 10 (SRead 0 2); ERes _ _ 1 (OData d)].

Lemma ex_calls d : calls (fun h o => p_handles ex_p h <> None /\ ~ outdated ex_p h /\ sop_within (lite_max_blocks * 32) o) (ex_history d).
Proof.
  assert (HL : 1000 <= lite_max_blocks) by (apply lite_over_max_inv; vm_compute; reflexivity).
  assert (L : 100 <= lite_max_blocks * 32) by lia.
  assert (O10 : ~ outdated ex_p 10).
  { intros (i & g & c & g' & E1 & E2 & N). vm_compute in E1. injection E1 as <- <-. vm_compute in E2. injection E2 as <- <-. congruence. }
  assert (O11 : ~ outdated ex_p 11).
  { intros (i & g & c & g' & E1 & E2 & N). vm_compute in E1. injection E1 as <- <-. vm_compute in E2. injection E2 as <- <-. congruence. }
  unfold calls, ex_history. repeat (apply Forall_cons || apply Forall_nil); try exact I;
    (split; [vm_compute; discriminate|]; split; [assumption|cbn [sop_within length]; lia]).
Qed.

(** With the host's locks the second write waits for the first and both are there; the
    conditions of the theorem hold. *)
Example C57_example :
  all_allowed (lite_max_blocks * 32) p_empty ex_prefix /\
  (forall h i key pad o k f, h_handles ex_s h = Some (i, key, pad) ->
     exec (ex_body h o k) f =
     let '(l, r) := bb_step (lite_backend keyed_aead 32 12 true true toy_rnd 2) (mkLite f key pad k) o in (l_file l, r)) /\
  (exists c, csteps bytes sout sop ex_file (fun h => h) true (Some (fun n => OFail (EPosix n))) ex_body (start _ _ _ ex_stored)
               (ex_history [x61; x62]) c) /\
  calls (fun h o => p_handles ex_p h <> None /\ ~ outdated ex_p h /\ sop_within (lite_max_blocks * 32) o) (ex_history [x61; x62]).
Proof.
  assert (HL : 1000 <= lite_max_blocks) by (apply lite_over_max_inv; vm_compute; reflexivity).
  split; [apply (allowed_b_ok 1000); [lia|vm_compute; reflexivity]|]. split; [|split; [|apply ex_calls]].
  - intros h i key pad o k f E. unfold ex_body. rewrite E. apply C57_bodies.
  - pose proof (moves_sound bytes sout sop ex_file (fun h => h) true (Some (fun n => OFail (EPosix n))) ex_body
      (alternate 9 w1 w2 ++ repeat w2 4 ++ repeat r1 7) _ [] _ (CS_nil _ _ _ _ _ _ _ _ (start _ _ _ ex_stored))) as H.
    set (tr := snd _) in H. assert (Et : [] ++ tr = ex_history [x61; x62]) by (vm_compute; reflexivity). rewrite Et in H. eexists. exact H.
Qed.

(** The same schedule on a file of the full format, whose handles share one mutex. *)
Example C57_full_example :
  let B := full_backend (toy_aead ([], [], [])) [] [] 32 12 10 true true toy_rnd 2 in
  let o0 := [FOp (SWrite 0 [x78; x79])] in
  let stored := fst (run_ops (full_step (toy_aead ([], [], [])) toy_hmac [] [] [] 32 12 10 true true toy_rnd 2) (mkFull [] [] false 0) o0) in
  (exists c, csteps full_st sout sop (fun _ => 0) (fun _ => 0) false None (fun _ o _ => full_body B o) (start _ _ _ (fun _ => stored))
     (ex_history [x61; x62]) c) /\
  (forall o n s, exec ((fun (_ : nat) o (_ : nat) => full_body B o) n o n) s = bb_step B s o) /\
  full_env_ok (toy_aead ([], [], [])) toy_hmac 32 12 toy_rnd 2 /\
  Forall (fop_within (full_max_blocks * 32) 10) o0.
Proof.
  cbv zeta. split; [|split; [|split]].
  - pose proof (moves_sound full_st sout sop (fun _ => 0) (fun _ => 0) false None (fun _ o _ => full_body (full_backend (toy_aead ([], [], [])) [] [] 32 12 10 true true toy_rnd 2) o)
      (alternate 9 w1 w2 ++ repeat w2 6 ++ repeat r1 7) _ [] _ (CS_nil _ _ _ _ _ _ _ _ (start _ _ _ (fun _ => fst (run_ops (full_step (toy_aead ([], [], [])) toy_hmac [] [] [] 32 12 10 true true toy_rnd 2) (mkFull [] [] false 0) [FOp (SWrite 0 [x78; x79])]))))) as H.
    set (tr := snd _) in H. assert (Et : [] ++ tr = ex_history [x61; x62]) by (vm_compute; reflexivity). rewrite Et in H. eexists. exact H.
  - intros. apply C57_bodies.
  - apply toy_full_env.
  - assert (HL : 1000 <= full_max_blocks) by (apply full_over_max_inv; vm_compute; reflexivity).
    apply Forall_cons; [|apply Forall_nil]. cbn [fop_within sop_within length]. lia.
Qed.

(** With --noflock, operations through different handles of one file are not atomic: of
    two writes to different bytes that both succeed, one is lost. *)
Theorem C57_noflock_refuted :
  exists c d, csteps bytes sout sop ex_file (fun h => h) false None ex_body (start _ _ _ ex_stored) (ex_history d) c /\
    d <> [x61; x62] /\
    (forall c0, length c0 = 2 ->
       fst (spec_step (fst (spec_step c0 (SWrite 0 [x61]))) (SWrite 1 [x62])) = [x61; x62] /\
       fst (spec_step (fst (spec_step c0 (SWrite 1 [x62]))) (SWrite 0 [x61])) = [x61; x62]).
Proof.
  pose proof (moves_sound bytes sout sop ex_file (fun h => h) false None ex_body
      (alternate 9 w1 w2 ++ repeat r1 7) _ [] _ (CS_nil _ _ _ _ _ _ _ _ (start _ _ _ ex_stored))) as H.
  set (tr := snd _) in H. assert (Et : [] ++ tr = ex_history [x78; x62]) by (vm_compute; reflexivity). rewrite Et in H.
  eexists _, _. split; [exact H|]. clear. split; [discriminate|]. intros [|a [|b [|]]] L; try discriminate L. split; vm_compute; reflexivity.
Qed.
Print Assumptions C57_noflock_refuted.

(** Asking for the size by path takes no lock: in the middle of a write past the end it
    can show a size that the file has neither before nor after the write. *)
Theorem C57_size_by_path_refuted :
  exists c, csteps bytes sout sop ex_file (fun h => h) true None ex_body (start _ _ _ ex_stored) [EInv _ _ 1 10 (SWrite 50 [x61])] c /\
    stat_size 32 12 (fun id => id) (fun _ => 5) true toy_rnd ex_s (c_files _ _ _ c 0) = OSize 50 /\
    stat_size 32 12 (fun id => id) (fun _ => 5) true toy_rnd ex_s (ex_stored 0) = OSize 2 /\
    length (fst (spec_step [x78; x79] (SWrite 50 [x61]))) = 51.
Proof.
  pose (c := moves bytes sout sop ex_file (fun h => h) true ex_body (start _ _ _ ex_stored) (repeat (1, (10, SWrite 50 [x61], 50)) 7)).
  pose proof (moves_sound bytes sout sop ex_file (fun h => h) true None ex_body
      (repeat (1, (10, SWrite 50 [x61], 50)) 7) _ [] _ (CS_nil _ _ _ _ _ _ _ _ (start _ _ _ ex_stored))) as H.
  fold c in H. assert (Et : [] ++ snd c = [EInv _ _ 1 10 (SWrite 50 [x61])]) by (vm_compute; reflexivity). rewrite Et in H.
  exists (fst c). split; [exact H|]. split; [vm_compute; reflexivity|]. split; vm_compute; reflexivity.
Qed.
Print Assumptions C57_size_by_path_refuted.
