(** Property C67: calls of the host that fail while a file is read and written. *)
From Verif Require Import Base BaseLemmas StreamSpec BlockModel BlockProofs LiteModel LiteSpec LiteProofs LiteTamper
  FullStreamModel FullSpec FullStreamProofs CrashModel CrashSpec CrashProofs CrashTop FaultModel FaultSpec FaultProofs
  Toy PropertiesFull PropertiesCrash.

(** ** Lite *)
(** After any history, an operation during which calls of the host fail either gives the
    answer it should and the file goes on as it should, or it reports the error of the call
    that failed; then the file is what the modifications before that call left, it can be
    opened, and the blocks which the operation does not touch are read back, by the open
    object as well. *)
Theorem C67_lite_success_is_complete_and_failure_is_local :
  forall (A : aead) bs iv_size check sparse session_key padding_of rnd iv_fuel k ops s0 F o,
    lite_env_ok A bs iv_size rnd iv_fuel ->
    lite_open bs iv_size session_key padding_of rnd [] k = Ok s0 ->
    Forall (lop_within (lite_max_blocks * bs)) ops ->
    sop_within (lite_max_blocks * bs) o ->
    no_short_reads F ->
    let step := lite_step A bs iv_size check sparse session_key padding_of rnd iv_fuel in
    let s := fst (run_ops step s0 ops) in
    let c := fst (run_ops lspec_step [] ops) in
    let '(s', r) := hlite_step A bs iv_size check sparse rnd iv_fuel F s o in
    (r = snd (spec_step c o) /\
     forall more, Forall (lop_within (lite_max_blocks * bs)) more ->
       snd (run_ops step s' more) = snd (run_ops lspec_step (fst (spec_step c o)) more)) \/
    (exists e, r = OFail e /\
     cut_off F (l_file s) (lite_trace A bs iv_size check sparse rnd iv_fuel s o) (l_file s') e /\
     (exists s1, lite_open bs iv_size session_key padding_of rnd (l_file s') (l_rng s') = Ok s1) /\
     forall off len, untouched bs (length c) o off len ->
       snd (step s' (LOp (SRead off len))) = LOut (OData (arr_read c off len)) /\
       forall s1, lite_open bs iv_size session_key padding_of rnd (l_file s') (l_rng s') = Ok s1 ->
         snd (step s1 (LOp (SRead off len))) = LOut (OData (arr_read c off len))).
Proof.
  intros A bs iv_size check sparse session_key padding_of rnd iv_fuel k ops s0 F o HE Ho Hall Hw HF step s c.
  destruct (lite_open_fresh A bs iv_size check session_key padding_of rnd iv_fuel HE k) as (s0' & Ho' & HR0).
  rewrite Ho in Ho'. injection Ho' as <-.
  destruct (lite_refines A bs iv_size check sparse session_key padding_of rnd iv_fuel HE s0 [] ops HR0
              ltac:(cbn; lia) Hall) as (s1 & Hr & HR & Hl).
  assert (Es : s = s1) by (unfold s, step; rewrite Hr; reflexivity). clearbody s. subst s1. fold c in HR, Hl. clear Hr HR0.
  pose proof (lite_fault_step A bs iv_size check sparse rnd iv_fuel F HF s o) as K. cbv zeta in K.
  pose proof (hlite_keys A bs iv_size check sparse rnd iv_fuel F s o) as (K1 & K2).
  destruct (hlite_step A bs iv_size check sparse rnd iv_fuel F s o) as [s' r]. cbn [fst snd] in *. destruct K as [E|(e & -> & S)].
  - left.
    destruct (bb_step_ok (lite_backend A bs iv_size check sparse rnd iv_fuel) (LRep A bs iv_size check session_key padding_of)
        (lite_backend_ok A bs iv_size check sparse session_key padding_of rnd iv_fuel HE) s c o HR
        ltac:(rewrite bk_maxn_lite; exact Hl) ltac:(rewrite bk_maxn_lite; exact Hw)) as (s2 & Hs & HR2 & Hl2). rewrite bk_maxn_lite in Hl2.
    assert (E' : (s', r) = (s2, snd (spec_step c o))) by (rewrite E; exact Hs). injection E' as -> ->.
    split; [reflexivity|]. intros more Hm.
    destruct (lite_refines A bs iv_size check sparse session_key padding_of rnd iv_fuel HE s2 (fst (spec_step c o)) more HR2 Hl2 Hm) as (s3 & E3 & _).
    unfold step. rewrite E3. reflexivity.
  - right. exists e. split; [reflexivity|]. split; [apply stop_cut_off, S|].
    destruct (lite_crash_same A bs iv_size check sparse session_key padding_of rnd iv_fuel HE s c o (l_file s') (l_rng s') HR Hl (stop_left_over _ _ _ _ _ _ S)) as (C1 & C2).
    assert (Es' : s' = mkLite (l_file s') (l_key s) (l_pad s) (l_rng s')) by (destruct s'; cbn in *; now subst).
    rewrite <- Es' in C1, C2. split; [eauto|]. intros off len Hu. specialize (C2 off len Hu). split.
    + unfold step. cbn [lite_step bb_step]. rewrite C2. reflexivity.
    + intros s1 E1. rewrite C1 in E1. injection E1 as <-. unfold step. cbn [lite_step bb_step]. rewrite C2. reflexivity.
Qed.
Print Assumptions C67_lite_success_is_complete_and_failure_is_local.

(** A history in which operations fail before they have modified anything: those that fail
    have no effect, all others behave as specified. *)
Theorem C67_lite_failures_at_once_have_no_effect :
  forall (A : aead) bs iv_size check sparse session_key padding_of rnd iv_fuel k s0 l,
    lite_env_ok A bs iv_size rnd iv_fuel ->
    lite_open bs iv_size session_key padding_of rnd [] k = Ok s0 ->
    Forall (fun x => fails_at_once (fst x) /\ sop_within (lite_max_blocks * bs) (snd x)) l ->
    exists c, history [] (map snd l) (snd (run_faulty (hlite_step A bs iv_size check sparse rnd iv_fuel) s0 l)) c.
Proof.
  intros A bs iv_size check sparse session_key padding_of rnd iv_fuel k s0 l HE Ho Hall.
  destruct (lite_open_fresh A bs iv_size check session_key padding_of rnd iv_fuel HE k) as (s0' & Ho' & HR0).
  rewrite Ho in Ho'. injection Ho' as <-.
  destruct (faulty_history (hlite_step A bs iv_size check sparse rnd iv_fuel) (LRep A bs iv_size check session_key padding_of) (lite_max_blocks * bs)
    (lite_at_once A bs iv_size check sparse session_key padding_of rnd iv_fuel HE) l s0 [] Hall HR0 ltac:(cbn; lia)) as (c & K & _). eauto.
Qed.
Print Assumptions C67_lite_failures_at_once_have_no_effect.

(** ** Full *)
Theorem C67_full_success_is_complete_and_failure_is_local :
  forall (A : aead) hmac dkey mkey id bs iv_size header_size check sparse rnd iv_fuel k ops F o,
    full_env_ok A hmac bs iv_size rnd iv_fuel ->
    Forall (fop_within (full_max_blocks * bs) header_size) ops ->
    sop_within (full_max_blocks * bs) o ->
    no_short_reads F ->
    let step := full_step A hmac dkey mkey id bs iv_size header_size check sparse rnd iv_fuel in
    let s := fst (run_ops step (mkFull [] [] false k) ops) in
    let c := fst (fst (run_ops (fspec_step header_size) ([], None) ops)) in
    let h := snd (fst (run_ops (fspec_step header_size) ([], None) ops)) in
    let '(s', r) := hfull_step A dkey id bs iv_size header_size check sparse rnd iv_fuel F s o in
    (r = snd (spec_step c o) /\
     forall more, Forall (fop_within (full_max_blocks * bs) header_size) more ->
       Forall2 fout_ok (snd (run_ops (fspec_step header_size) (fst (spec_step c o), h) more)) (snd (run_ops step s' more))) \/
    (exists e, r = OFail e /\
     cut_off2 F (f_data s) (f_meta s) (full_trace A hmac dkey mkey id bs iv_size header_size check sparse rnd iv_fuel s (FOp o)) (f_data s') (f_meta s') e /\
     forall off len, untouched bs (length c) o off len ->
       snd (step s' (FOp (SRead off len))) = FOut (OData (arr_read c off len)) /\
       exists s1, full_open hmac mkey id false (f_data s') (f_meta s') (f_rng s') = Ok s1 /\
         snd (step s1 (FOp (SRead off len))) = FOut (OData (arr_read c off len))).
Proof.
  intros A hmac dkey mkey id bs iv_size header_size check sparse rnd iv_fuel k ops F o HE Hall Hw HF step s c h.
  pose proof (full_refines A hmac dkey mkey id bs iv_size header_size check sparse rnd iv_fuel HE ops None (mkFull [] [] false k) []
    (FRep_fresh A hmac dkey mkey id bs iv_size header_size k) (Nat.le_0_l _) Hall) as HA. fold step in HA. fold s in HA.
  unfold c, h. destruct (fst (run_ops (fspec_step header_size) ([], None) ops)) as [c1 h1]. cbn [fst snd]. destruct HA as (_ & HR & Hl). clear c h.
  pose proof (full_fault_step A dkey id bs iv_size header_size check sparse rnd iv_fuel F HF s o) as K. cbv zeta in K.
  destruct (hfull_step A dkey id bs iv_size header_size check sparse rnd iv_fuel F s o) as [s' r]. cbn [fst snd] in *. destruct K as [E|(e & -> & S)].
  - left.
    destruct (bb_step_ok (full_backend A dkey id bs iv_size header_size check sparse rnd iv_fuel) (FRep A hmac dkey mkey id bs iv_size header_size h1)
        (full_backend_ok A hmac dkey mkey id bs iv_size header_size check sparse rnd iv_fuel HE h1) s c1 o HR
        ltac:(rewrite bk_maxn_full; exact Hl) ltac:(rewrite bk_maxn_full; exact Hw)) as (s2 & Hs & HR2 & Hl2). rewrite bk_maxn_full in Hl2.
    assert (E' : (s', r) = (s2, snd (spec_step c1 o))) by (rewrite E; exact Hs). injection E' as -> ->.
    split; [reflexivity|]. intros more Hm.
    pose proof (full_refines A hmac dkey mkey id bs iv_size header_size check sparse rnd iv_fuel HE more h1 s2 (fst (spec_step c1 o)) HR2 Hl2 Hm) as HA.
    fold step in HA. destruct (fst (run_ops (fspec_step header_size) (fst (spec_step c1 o), h1) more)). apply HA.
  - right. exists e. split; [reflexivity|]. split; [exact (stop_cut_off2 _ _ _ _ _ S)|].
    intros off len Hu. destruct (stop_left_over2 _ _ _ _ _ _ S) as (L1 & L2). cbn [both fst snd] in L1, L2.
    assert (Hoff : off + len <= length c1) by (destruct Hu; assumption). split.
    + unfold step. cbn [full_step bb_step].
      pose proof (full_crash A hmac dkey mkey id bs iv_size header_size check sparse rnd iv_fuel HE h1 s c1 (FOp o) (f_data s') (f_meta s') (f_dirty s') (f_rng s') check HR Hl L1 L2 off len Hoff Hu) as C.
      assert (Es' : s' = mkFull (f_data s') (f_meta s') (f_dirty s') (f_rng s')) by (destruct s'; reflexivity). rewrite <- Es' in C. rewrite C. reflexivity.
    + exists (mkFull (f_data s') (f_meta s') false (f_rng s')). split; [reflexivity|]. unfold step. cbn [full_step bb_step].
      rewrite (full_crash A hmac dkey mkey id bs iv_size header_size check sparse rnd iv_fuel HE h1 s c1 (FOp o) (f_data s') (f_meta s') false (f_rng s') check HR Hl L1 L2 off len Hoff Hu). reflexivity.
Qed.
Print Assumptions C67_full_success_is_complete_and_failure_is_local.

Theorem C67_full_failures_at_once_have_no_effect :
  forall (A : aead) hmac dkey id bs iv_size header_size check sparse rnd iv_fuel k l,
    full_env_ok A hmac bs iv_size rnd iv_fuel ->
    Forall (fun x => fails_at_once (fst x) /\ sop_within (full_max_blocks * bs) (snd x)) l ->
    exists c, history [] (map snd l) (snd (run_faulty (hfull_step A dkey id bs iv_size header_size check sparse rnd iv_fuel) (mkFull [] [] false k) l)) c.
Proof.
  intros A hmac dkey id bs iv_size header_size check sparse rnd iv_fuel k l HE Hall.
  destruct (faulty_history (hfull_step A dkey id bs iv_size header_size check sparse rnd iv_fuel) (FRep A hmac dkey [] id bs iv_size header_size None) (full_max_blocks * bs)
    (full_at_once A hmac dkey [] id bs iv_size header_size check sparse rnd iv_fuel HE None) l (mkFull [] [] false k) [] Hall
    (FRep_fresh A hmac dkey [] id bs iv_size header_size k) ltac:(cbn; lia)) as (c & K & _). eauto.
Qed.
Print Assumptions C67_full_failures_at_once_have_no_effect.

(** Writing the MAC: pread may return less than asked for as long as it returns something.
    Success is the success of a host without faults; after a failure only the 32 bytes of
    the MAC may have changed, and writing it again completes it. *)
Theorem C67_full_flush_can_be_repeated :
  forall hmac mkey id F s,
    (forall k m, length (hmac k m) = 32) ->
    (forall p, (exists e, on_pread F 0 false p = HFail e) \/ on_pread F 0 false p <> HShort 0) ->
    let '(s', r) := hfull_flush hmac mkey id F s in
    (s', r) = full_flush hmac mkey id s \/
    (exists e, r = Err (EPosix e)) /\ f_data s' = f_data s /\ skipn 32 (f_meta s') = skipn 32 (f_meta s) /\
    full_flush hmac mkey id s' = full_flush hmac mkey id s.
Proof.
  intros hmac mkey id F s Hlen HF. pose proof (flush_fault hmac mkey id Hlen F s HF) as K. cbv zeta in K.
  destruct (hfull_flush hmac mkey id F s) as [s' r]. cbn [fst snd] in K. destruct K as [K|(e & K1 & _ & K2 & K3 & K4)]; [now left|right].
  split; [eauto|]. auto.
Qed.
Print Assumptions C67_full_flush_can_be_repeated.

(** ** Examples *)
Definition f_disk_full : faults := mkFaults (fun _ _ _ => HDone) (fun n => match n with 0 => HFail 28 | _ => HDone end).
Definition f_torn : faults := mkFaults (fun _ _ _ => HDone) (fun n => match n with 0 => HShort 20 | _ => HDone end).

Definition f_read_fails0 : faults := mkFaults (fun n _ _ => match n with 0 => HFail 5 | _ => HDone end) (fun _ => HDone).
Lemma ex_at_once : fails_at_once f_read_fails0 /\ fails_at_once f_disk_full.
Proof. split; split; intros [|n]; intros; cbn; try (now left); right; (split; [reflexivity|]); eauto. Qed.
Notation ex_hl := (hlite_step sum_aead 32 12 true true toy_rnd 2).
Notation ex_hf := (hfull_step sum_aead [] [x09] 32 12 5 true true toy_rnd 2).

(** A write of five bytes of which the host writes 20 bytes of the encrypted block: an error
    is reported and the blocks around are read back.  A full disk, then a read that fails:
    both are reported and have no effect. *)
Example C67_lite_example :
  lite_env_ok sum_aead 32 12 toy_rnd 2 /\
  Forall (lop_within (lite_max_blocks * 32)) [LOp (SWrite 0 ex_content)] /\
  sop_within (lite_max_blocks * 32) ex_o /\ no_short_reads f_torn /\
  untouched 32 100 ex_o 0 32 /\
  snd (ex_hl f_torn ex_lite ex_o) = OFail (EPosix 5) /\
  l_file (fst (ex_hl f_torn ex_lite ex_o)) <> l_file ex_lite /\
  snd (ex_hl no_faults (fst (ex_hl f_torn ex_lite ex_o)) (SRead 0 32)) = OData (firstn 32 ex_content) /\
  fails_at_once f_disk_full /\ fails_at_once f_read_fails0 /\
  snd (run_faulty ex_hl ex_lite [(f_disk_full, ex_o); (f_read_fails0, SRead 0 5); (no_faults, SRead 40 5); (no_faults, ex_o); (no_faults, SRead 39 3)])
  = [OFail (EPosix 28); OFail (EPosix 5); OData (arr_read ex_content 40 5); ODone; OData [x28; x61; x62]].
Proof.
  assert (H : 1000 <= lite_max_blocks) by (apply lite_over_max_inv; vm_compute; reflexivity).
  split; [exact sum_lite_env|]. split.
  { constructor; [|constructor]. cbn [lop_within sop_within]. unfold ex_content. rewrite map_length, seq_length. lia. }
  split; [cbn [sop_within ex_o length]; lia|]. split; [intros n w p m E; discriminate E|].
  split; [apply ex_untouched|]. split; [vm_compute; reflexivity|]. split; [intros E; vm_compute in E; discriminate E|].
  split; [vm_compute; reflexivity|]. split; [apply ex_at_once|]. split; [apply ex_at_once|]. vm_compute. reflexivity.
Qed.

Example C67_full_example :
  full_env_ok sum_aead sum_hmac 32 12 toy_rnd 2 /\
  Forall (fop_within (full_max_blocks * 32) 5) exc_ops /\
  sop_within (full_max_blocks * 32) ex_o /\ no_short_reads f_torn /\
  snd (ex_hf f_torn ex_full ex_o) = OFail (EPosix 5) /\
  f_data (fst (ex_hf f_torn ex_full ex_o)) <> f_data ex_full /\
  snd (ex_hf no_faults (fst (ex_hf f_torn ex_full ex_o)) (SRead 64 36)) = OData (skipn 64 ex_content) /\
  snd (run_faulty ex_hf ex_full [(f_disk_full, ex_o); (f_read_fails0, SRead 0 5); (no_faults, SRead 40 5); (no_faults, ex_o); (no_faults, SRead 39 3)])
  = [OFail (EPosix 28); OFail (EPosix 5); OData (arr_read ex_content 40 5); ODone; OData [x28; x61; x62]] /\
  let s := fst (full_step sum_aead sum_hmac [] [] [x09] 32 12 5 true true toy_rnd 2 ex_full (FOp ex_o)) in
  snd (hfull_flush sum_hmac [] [x09] f_torn s) = Err (EPosix 5).
Proof.
  pose proof full_max_1000 as H.
  split; [exact sum_full_env|]. split.
  { unfold exc_ops. repeat (apply Forall_cons || apply Forall_nil); cbn [fop_within sop_within]; try exact I.
    - unfold ex_content. rewrite map_length, seq_length. lia.
    - cbn [length]. lia. }
  split; [cbn [sop_within ex_o length]; lia|]. split; [intros n w p m E; discriminate E|].
  split; [vm_compute; reflexivity|]. split; [intros E; vm_compute in E; discriminate E|].
  split; [vm_compute; reflexivity|]. split; vm_compute; reflexivity.
Qed.

(** ** What is not so *)
(** A pread that returns less than asked for in the middle of the file is taken for the end
    of the file: a read is cut short without an error, and a write that has to read the rest
    of its block reports success although bytes 50 to 52, which it has not been asked to
    change, are lost. *)
Theorem C67_short_read_refuted :
  exists A bs iv_size rnd iv_fuel s F1 F2,
    lite_env_ok A bs iv_size rnd iv_fuel /\ s = ex_lite /\
    let step := hlite_step A bs iv_size true true rnd iv_fuel in
    snd (step no_faults s (SRead 0 100)) = OData ex_content /\
    snd (step F1 s (SRead 0 100)) = OData (firstn 32 ex_content) /\
    snd (step no_faults s (SRead 50 3)) = OData [x33; x34; x35] /\
    snd (step F2 s (SWrite 40 [x61; x62; x63; x64; x65])) = ODone /\
    snd (step no_faults (fst (step F2 s (SWrite 40 [x61; x62; x63; x64; x65]))) (SRead 50 3)) = OFail EVerify.
Proof.
  exists sum_aead, 32, 12, toy_rnd, 2, ex_lite, (mkFaults (fun _ _ _ => HShort 60) (fun _ => HDone)), (mkFaults (fun _ _ _ => HShort 0) (fun _ => HDone)).
  split; [exact sum_lite_env|]. split; [reflexivity|]. vm_compute. repeat split; reflexivity.
Qed.
Print Assumptions C67_short_read_refuted.

(** Full: the metadata are written in part and the error is reported, but the metadata do
    not count as changed.  Flushing reports success and does nothing, and the file cannot be
    opened any more, not even for the blocks which were not touched. *)
Theorem C67_full_torn_metadata_refuted :
  exists A hmac bs iv_size rnd iv_fuel s F,
    full_env_ok A hmac bs iv_size rnd iv_fuel /\ s = ex_full /\ no_short_reads F /\
    let '(s1, r1) := hfull_step A [] [x09] bs iv_size 5 true true rnd iv_fuel F s (SWrite 40 [x61; x62; x63; x64; x65]) in
    let '(s2, r2) := hfull_flush hmac [] [x09] no_faults s1 in
    full_open hmac [] [x09] true (f_data s) (f_meta s) 9 = Ok (mkFull (f_data s) (f_meta s) false 9) /\
    r1 = OFail (EPosix 5) /\ r2 = Ok tt /\
    full_open hmac [] [x09] true (f_data s2) (f_meta s2) 9 = Err EVerify.
Proof.
  exists sum_aead, sum_hmac, 32, 12, toy_rnd, 2, ex_full, (mkFaults (fun _ _ _ => HDone) (fun n => match n with 1 => HShort 5 | _ => HDone end)).
  split; [exact sum_full_env|]. split; [reflexivity|]. split; [intros n w p m E; discriminate E|]. vm_compute. repeat split; reflexivity.
Qed.
Print Assumptions C67_full_torn_metadata_refuted.

(** Full: the MAC is written when the object is destroyed and an error is dropped then: every
    operation has reported success, and the file cannot be opened any more. *)
Theorem C67_full_error_on_close_refuted :
  exists A hmac bs iv_size rnd iv_fuel s F,
    full_env_ok A hmac bs iv_size rnd iv_fuel /\ s = ex_full /\
    let '(s1, r1) := hfull_step A [] [x09] bs iv_size 5 true true rnd iv_fuel no_faults s (SWrite 40 [x61; x62; x63; x64; x65]) in
    let '(d, m) := hfull_close hmac [] [x09] F s1 in
    let '(d0, m0) := hfull_close hmac [] [x09] no_faults s1 in
    r1 = ODone /\
    full_open hmac [] [x09] true d0 m0 9 = Ok (mkFull d0 m0 false 9) /\
    full_open hmac [] [x09] true d m 9 = Err EVerify.
Proof.
  exists sum_aead, sum_hmac, 32, 12, toy_rnd, 2, ex_full, f_disk_full.
  split; [exact sum_full_env|]. split; [reflexivity|]. vm_compute. repeat split; reflexivity.
Qed.
Print Assumptions C67_full_error_on_close_refuted.
