(** Property C64: what [fsync] makes durable. *)
From Verif Require Import Base BaseLemmas StreamSpec BlockModel BlockProofs LiteModel LiteSpec LiteProofs LiteTamper
  FullStreamModel FullSpec FullStreamProofs CrashModel CrashSpec CrashProofs CrashTop DurableModel DurableSpec DurableProofs
  Toy PropertiesFull PropertiesCrash.

(** Nothing that happens to the stored files is left out: what was stable, with what is
    pending, is what is stored. *)
Theorem C64_lite_pending_is_complete :
  forall (A : aead) bs iv_size check sparse rnd iv_fuel calls s0,
    l_file (ld_st s0) = replay (ld_stable s0) (ld_pending s0) ->
    let s := ldur_run A bs iv_size check sparse rnd iv_fuel s0 calls in
    l_file (ld_st s) = replay (ld_stable s) (ld_pending s).
Proof.
  intros A bs iv_size check sparse rnd iv_fuel calls. unfold ldur_run.
  induction calls as [|x l IH]; intros s0 H; [exact H|]. cbn [fold_left]. apply IH.
  destruct x; cbn [ldur_step ld_st ld_stable ld_pending]; try exact H; [|reflexivity].
  rewrite lite_accounted, H. unfold replay. rewrite fold_left_app. reflexivity.
Qed.
Print Assumptions C64_lite_pending_is_complete.

Theorem C64_full_pending_is_complete :
  forall (A : aead) hmac dkey mkey id bs iv_size header_size check sparse rnd iv_fuel calls s0,
    let complete s := f_data (fd_st s) = replay (fd_data s) (data_part (fd_pending s)) /\
                      f_meta (fd_st s) = replay (fd_meta s) (meta_part (fd_pending s)) in
    complete s0 -> complete (fdur_run A hmac dkey mkey id bs iv_size header_size check sparse rnd iv_fuel s0 calls).
Proof.
  intros A hmac dkey mkey id bs iv_size header_size check sparse rnd iv_fuel calls s0 complete. revert s0. unfold fdur_run.
  assert (D : forall s o, complete s -> complete (fst (fdur_do A hmac dkey mkey id bs iv_size header_size check sparse rnd iv_fuel s o))).
  { intros s o [H1 H2]. rewrite do_eq. unfold complete. cbn [fd_st fd_data fd_meta fd_pending].
    destruct (full_accounted A hmac dkey mkey id bs iv_size header_size check sparse rnd iv_fuel (fd_st s) o) as [-> ->].
    unfold data_part, meta_part in *. rewrite !flat_map_app, H1, H2. unfold replay. rewrite !fold_left_app. auto. }
  induction calls as [|x l IH]; intros s0 H; [exact H|]. cbn [fold_left]. apply IH. destruct x; cbn [fdur_step].
  - apply D, H.
  - exact H.
  - destruct (fd_changed s0).
    + pose proof (D s0 (FWriteHeader (fd_attr s0)) H) as H1.
      destruct (fdur_do _ _ _ _ _ _ _ _ _ _ _ _ s0 (FWriteHeader (fd_attr s0))) as [s1 r1]. cbn [fst] in H1.
      destruct r1; try (apply D); exact H1.
    + apply D, H.
  - split; reflexivity.
Qed.
Print Assumptions C64_full_pending_is_complete.

(** C64, lite.  A new file, any calls; the power fails, and of the physical operations since
    the last fsync anything is left ([left_over], CrashSpec).  The file can be opened, and
    every range of what it held at the fsync reads back unless a call since then has touched
    one of its blocks.  (A power failure in the middle of a call is covered: the call is then
    the last one of the list.) *)
Theorem C64_lite_synced_data_survives :
  forall (A : aead) bs iv_size check sparse session_key padding_of rnd iv_fuel k stable pending calls s0 a hs c h b f' k',
    lite_env_ok A bs iv_size rnd iv_fuel ->
    lite_open bs iv_size session_key padding_of rnd [] k = Ok s0 ->
    Forall (call_within (lite_max_blocks * bs) hs) calls ->
    let s := ldur_run A bs iv_size check sparse rnd iv_fuel (mkLdur s0 stable pending) calls in
    let u := user_run (user_new a) calls in
    u_synced u = Some (c, h, b) ->
    left_over (ld_stable s) (ld_pending s) f' ->
    exists s1,
      lite_open bs iv_size session_key padding_of rnd f' k' = Ok s1 /\
      forall off len, spared bs c (u_later u) off len ->
        snd (lite_step A bs iv_size check sparse session_key padding_of rnd iv_fuel s1 (LOp (SRead off len)))
        = LOut (OData (arr_read c off len)).
Proof.
  intros A bs iv_size check sparse session_key padding_of rnd iv_fuel k stable pending calls s0 a hs c h b f' k' HE Ho HF s u E HL.
  destruct (lite_open_fresh A bs iv_size check session_key padding_of rnd iv_fuel HE k) as (s0' & Ho' & HR).
  rewrite Ho in Ho'. injection Ho' as <-.
  assert (HI : LInv A bs iv_size check sparse session_key padding_of rnd iv_fuel s u).
  { apply (linv_run A bs iv_size check sparse session_key padding_of rnd iv_fuel HE calls hs); [|exact HF].
    constructor; cbn [ld_st user_new u_now u_synced]; [exact HR|cbn [length]; lia|discriminate]. }
  destruct (lite_durable A bs iv_size check sparse session_key padding_of rnd iv_fuel HE s u c h b f' k' HI E HL) as (s1 & E1 & H1).
  exists s1. split; [exact E1|]. intros off len Hs. cbn [lite_step bb_step]. rewrite (H1 off len Hs). reflexivity.
Qed.
Print Assumptions C64_lite_synced_data_survives.

(** If nothing was changed since the fsync, the file opens as it was: every further history of
    operations answers as an array of bytes with that content. *)
Theorem C64_lite_synced_file_survives :
  forall (A : aead) bs iv_size check sparse session_key padding_of rnd iv_fuel k stable pending calls s0 a hs c h b f' k' ops,
    lite_env_ok A bs iv_size rnd iv_fuel ->
    lite_open bs iv_size session_key padding_of rnd [] k = Ok s0 ->
    Forall (call_within (lite_max_blocks * bs) hs) calls ->
    let s := ldur_run A bs iv_size check sparse rnd iv_fuel (mkLdur s0 stable pending) calls in
    let u := user_run (user_new a) calls in
    u_synced u = Some (c, h, b) -> Forall quiet (u_later u) ->
    left_over (ld_stable s) (ld_pending s) f' ->
    Forall (lop_within (lite_max_blocks * bs)) ops ->
    exists s1,
      lite_open bs iv_size session_key padding_of rnd f' k' = Ok s1 /\
      snd (run_ops (lite_step A bs iv_size check sparse session_key padding_of rnd iv_fuel) s1 ops) = snd (run_ops lspec_step c ops).
Proof.
  intros A bs iv_size check sparse session_key padding_of rnd iv_fuel k stable pending calls s0 a hs c h b f' k' ops HE Ho HF s u E HQ HL HO.
  destruct (lite_open_fresh A bs iv_size check session_key padding_of rnd iv_fuel HE k) as (s0' & Ho' & HR).
  rewrite Ho in Ho'. injection Ho' as <-.
  assert (HI : LInv A bs iv_size check sparse session_key padding_of rnd iv_fuel s u).
  { apply (linv_run A bs iv_size check sparse session_key padding_of rnd iv_fuel HE calls hs); [|exact HF].
    constructor; cbn [ld_st user_new u_now u_synced]; [exact HR|cbn [length]; lia|discriminate]. }
  exact (lite_durable_whole A bs iv_size check sparse session_key padding_of rnd iv_fuel HE s u c h b f' k' ops HI E HQ HL HO).
Qed.
Print Assumptions C64_lite_synced_file_survives.

(** C64, full.  If the file was flushed (closed) and then fsynced, and not changed since, it
    opens, with verification or without, with the content and the attributes it had. *)
Theorem C64_full_flushed_and_synced_file_survives :
  forall (A : aead) hmac dkey mkey id bs iv_size header_size check sparse rnd iv_fuel k calls a c h d' m' k' ops,
    full_env_ok A hmac bs iv_size rnd iv_fuel ->
    length a <= header_size -> Forall (call_within (full_max_blocks * bs) header_size) calls ->
    let s := fdur_run A hmac dkey mkey id bs iv_size header_size check sparse rnd iv_fuel (fdur_new a k) calls in
    let u := user_run (user_new a) calls in
    u_synced u = Some (c, h, true) -> Forall quiet (u_later u) ->
    left_over (fd_data s) (data_part (fd_pending s)) d' -> left_over (fd_meta s) (meta_part (fd_pending s)) m' ->
    Forall (fop_within (full_max_blocks * bs) header_size) ops ->
    exists s1,
      full_open hmac mkey id check d' m' k' = Ok s1 /\
      Forall2 fout_ok (snd (run_ops (fspec_step header_size) (c, Some (h ++ zeros (header_size - length h))) ops))
        (snd (run_ops (full_step A hmac dkey mkey id bs iv_size header_size check sparse rnd iv_fuel) s1 ops)).
Proof.
  intros A hmac dkey mkey id bs iv_size header_size check sparse rnd iv_fuel k calls a c h d' m' k' ops HE Ha HF s u E HQ HD HM HO.
  apply (full_durable_whole A hmac dkey mkey id bs iv_size header_size check sparse rnd iv_fuel HE s u c h d' m' k' ops); auto.
  apply finv_run; [exact HE| |exact HF]. apply finv_new; assumption.
Qed.
Print Assumptions C64_full_flushed_and_synced_file_survives.

(** Whether flushed or not, what was fsynced is there for an open without verification of the
    whole, and its blocks pass their own checks. *)
Theorem C64_full_synced_data_survives_unverified :
  forall (A : aead) hmac dkey mkey id bs iv_size header_size check sparse rnd iv_fuel k calls a c h b d' m' k' check',
    full_env_ok A hmac bs iv_size rnd iv_fuel ->
    length a <= header_size -> Forall (call_within (full_max_blocks * bs) header_size) calls ->
    let s := fdur_run A hmac dkey mkey id bs iv_size header_size check sparse rnd iv_fuel (fdur_new a k) calls in
    let u := user_run (user_new a) calls in
    u_synced u = Some (c, h, b) ->
    left_over (fd_data s) (data_part (fd_pending s)) d' -> left_over (fd_meta s) (meta_part (fd_pending s)) m' ->
    exists s1,
      full_open hmac mkey id false d' m' k' = Ok s1 /\
      forall off len, spared bs c (u_later u) off len ->
        snd (full_step A hmac dkey mkey id bs iv_size header_size check' sparse rnd iv_fuel s1 (FOp (SRead off len)))
        = FOut (OData (arr_read c off len)).
Proof.
  intros A hmac dkey mkey id bs iv_size header_size check sparse rnd iv_fuel k calls a c h b d' m' k' check' HE Ha HF s u E HD HM.
  eexists. split; [reflexivity|]. intros off len Hs. cbn [full_step bb_step].
  rewrite (full_durable A hmac dkey mkey id bs iv_size header_size check sparse rnd iv_fuel HE s u c h b d' m' false k' check' off len); auto.
  apply finv_run; [exact HE| |exact HF]. apply finv_new; assumption.
Qed.
Print Assumptions C64_full_synced_data_survives_unverified.

(** ** Examples *)
(** Lite: a hundred bytes and an fsync; then five bytes in the second block and two at the
    end; the first of the two writes is torn and the second lost. *)
Definition exd_calls : list call := [COp (SWrite 0 ex_content); CFsync; COp ex_o; COp (SWrite 100 [x79; x7a]); CFlush].
Definition exd_open : lite_st := match lite_open 32 12 (fun id => id) (fun _ => 5) toy_rnd [] 0 with Ok s => s | Err _ => mkLite [] [] [] 0 end.
Definition exd_lite : ldur := ldur_run sum_aead 32 12 true true toy_rnd 2 (mkLdur exd_open [] []) exd_calls.
Definition exd_torn : bytes :=
  match ld_pending exd_lite with
  | PWrite off d :: _ => replay (ld_stable exd_lite) [PWrite off (firstn 20 d)]
  | _ => []
  end.
Lemma exd_left : left_over (ld_stable exd_lite) (ld_pending exd_lite) exd_torn.
Proof.
  unfold exd_torn. assert (H : match ld_pending exd_lite with PWrite _ _ :: _ => True | _ => False end) by (vm_compute; exact I).
  destruct (ld_pending exd_lite) as [|[off d|] l]; try contradiction.
  exact (proj2 (C09_killed_process_leaves_a_left_over (ld_stable exd_lite) [] (PWrite off d) l 20)).
Qed.
Lemma exd_spared : spared 32 ex_content (u_later (user_run (user_new []) exd_calls)) 0 32 /\
                   spared 32 ex_content (u_later (user_run (user_new []) exd_calls)) 64 32.
Proof.
  assert (L : length ex_content = 100) by (unfold ex_content; rewrite map_length, seq_length; reflexivity).
  assert (L1 : length (fst (spec_step ex_content ex_o)) = 100) by (vm_compute; reflexivity).
  assert (L2 : length (fst (spec_step (fst (spec_step ex_content ex_o)) (SWrite 100 [x79; x7a]))) = 102) by (vm_compute; reflexivity).
  unfold exd_calls, user_run. cbn [fold_left user_step u_later app spared]. rewrite L, L1, L2.
  split; (split; [apply ex_untouched || (split; [lia|]; intros i H1 H2 (_ & H3 & H4); cbn [length] in *; lia)|]);
    (split; [split; [lia|]; intros i H1 H2 (_ & H3 & H4); cbn [length] in *; lia|lia]).
Qed.
Lemma exd_within limit : 1000 * 32 <= limit -> Forall (call_within limit 5) exd_calls.
Proof.
  intros H. unfold exd_calls. repeat (apply Forall_cons || apply Forall_nil); cbn [call_within sop_within ex_o]; try exact I.
  - unfold ex_content. rewrite map_length, seq_length. lia.
  - cbn [length]. lia.
  - cbn [length]. lia.
Qed.
Example C64_lite_example :
  lite_env_ok sum_aead 32 12 toy_rnd 2 /\ Forall (call_within (lite_max_blocks * 32) 5) exd_calls /\
  u_synced (user_run (user_new []) exd_calls) = Some (ex_content, [], false) /\
  left_over (ld_stable exd_lite) (ld_pending exd_lite) exd_torn /\ exd_torn <> ld_stable exd_lite /\
  spared 32 ex_content (u_later (user_run (user_new []) exd_calls)) 0 32 /\
  spared 32 ex_content (u_later (user_run (user_new []) exd_calls)) 64 32 /\
  match lite_open 32 12 (fun id => id) (fun _ => 5) toy_rnd exd_torn 7 with
  | Ok s1 => map (fun o => snd (lite_step sum_aead 32 12 true true (fun id => id) (fun _ => 5) toy_rnd 2 s1 (LOp o))) [SRead 0 32; SRead 64 32; SRead 40 5]
             = [LOut (OData (firstn 32 ex_content)); LOut (OData (firstn 32 (skipn 64 ex_content))); LOut (OFail EVerify)]
  | Err _ => False
  end.
Proof.
  split; [exact sum_lite_env|]. split.
  { apply exd_within. assert (H : 1000 <= lite_max_blocks) by (apply lite_over_max_inv; vm_compute; reflexivity). lia. }
  split; [vm_compute; reflexivity|]. split; [exact exd_left|]. split; [intros H; vm_compute in H; discriminate H|].
  destruct exd_spared as [S1 S2]. split; [exact S1|]. split; [exact S2|]. vm_compute. reflexivity.
Qed.

(** Full: the content, new attributes, close, fsync, and reads; the file opens as it was. *)
Definition exd_fcalls : list call := [COp (SWrite 0 ex_content); CAttr [x01; x02]; CFlush; CFsync; COp (SRead 0 10); CFlush].
Definition exd_full : fdur := fdur_run sum_aead sum_hmac [] [] [x09] 32 12 5 true true toy_rnd 2 (fdur_new [x07] 0) exd_fcalls.
Example C64_full_example :
  full_env_ok sum_aead sum_hmac 32 12 toy_rnd 2 /\ Forall (call_within (full_max_blocks * 32) 5) exd_fcalls /\
  u_synced (user_run (user_new [x07]) exd_fcalls) = Some (ex_content, [x01; x02], true) /\
  Forall quiet (u_later (user_run (user_new [x07]) exd_fcalls)) /\
  left_over (fd_data exd_full) (data_part (fd_pending exd_full)) (fd_data exd_full) /\
  left_over (fd_meta exd_full) (meta_part (fd_pending exd_full)) (fd_meta exd_full) /\
  match full_open sum_hmac [] [x09] true (fd_data exd_full) (fd_meta exd_full) 9 with
  | Ok s1 => snd (run_ops (full_step sum_aead sum_hmac [] [] [x09] 32 12 5 true true toy_rnd 2) s1 [FOp (SRead 0 200); FReadHeader 5])
             = [FOut (OData ex_content); FHeader (Some [x01; x02; x00; x00; x00])]
  | Err _ => False
  end.
Proof.
  split; [exact sum_full_env|]. split.
  { pose proof full_max_1000. unfold exd_fcalls. repeat (apply Forall_cons || apply Forall_nil); cbn [call_within sop_within]; try exact I.
    - unfold ex_content. rewrite map_length, seq_length. lia.
    - cbn [length]. lia.
    - lia. }
  split; [vm_compute; reflexivity|].
  split. { unfold exd_fcalls, user_run. cbn [fold_left user_step u_later app]. repeat (apply Forall_cons || apply Forall_nil); cbn [quiet changes]; auto. }
  split; [apply left_over_refl|]. split; [apply left_over_refl|]. vm_compute. reflexivity.
Qed.

(** The full format's fsync alone does not keep the file: it does not bring the stored MAC up
    to date.  A file is written, closed and fsynced; five bytes are overwritten; fsync
    succeeds; the power fails, and with everything stored exactly as fsync has left it the
    file cannot be opened any more, with nothing of its content lost.  The lite format under
    the same calls is safe. *)
Theorem C64_full_fsync_refuted :
  exists A hmac bs iv_size rnd iv_fuel calls,
    full_env_ok A hmac bs iv_size rnd iv_fuel /\
    calls = [COp (SWrite 0 ex_content); CFlush; CFsync; COp (SWrite 40 [x61; x62; x63; x64; x65]); CFsync] /\
    Forall (call_within (full_max_blocks * bs) 5) calls /\
    let s := fdur_run A hmac [] [] [x09] bs iv_size 5 true true rnd iv_fuel (fdur_new [x01] 0) calls in
    fd_pending s = [] /\ u_later (user_run (user_new [x01]) calls) = [] /\
    full_open hmac [] [x09] true (fd_data s) (fd_meta s) 9 = Err EVerify /\
    (let s' := fdur_run A hmac [] [] [x09] bs iv_size 5 true true rnd iv_fuel (fdur_new [x01] 0) (firstn 3 calls) in
     full_open hmac [] [x09] true (fd_data s') (fd_meta s') 9 = Ok (mkFull (fd_data s') (fd_meta s') false 9)).
Proof.
  exists sum_aead, sum_hmac, 32, 12, toy_rnd, 2. eexists. split; [exact sum_full_env|]. split; [reflexivity|]. split.
  { pose proof full_max_1000. repeat (apply Forall_cons || apply Forall_nil); cbn [call_within sop_within]; try exact I.
    - unfold ex_content. rewrite map_length, seq_length. lia.
    - cbn [length]. lia. }
  vm_compute. repeat split.
Qed.
Print Assumptions C64_full_fsync_refuted.
