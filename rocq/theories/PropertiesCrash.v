(** Property C09: an operation on a file that is cut short. *)
From Verif Require Import Base BaseLemmas StreamSpec BlockModel BlockProofs LiteModel LiteSpec LiteProofs LiteTamper
  FullStreamModel FullSpec FullStreamProofs CrashModel CrashSpec CrashProofs CrashTop Toy PropertiesFull.

(** The list of physical operations is complete: performing it gives the stored bytes after
    the operation. *)
Theorem C09_lite_all_changes_are_physical_operations :
  forall (A : aead) bs iv_size check sparse session_key padding_of rnd iv_fuel s o,
    l_file (fst (lite_step A bs iv_size check sparse session_key padding_of rnd iv_fuel s (LOp o)))
    = replay (l_file s) (lite_trace A bs iv_size check sparse rnd iv_fuel s o).
Proof.
  intros. cbn [lite_step]. pose proof (lite_accounted A bs iv_size check sparse rnd iv_fuel s o) as H.
  destruct (bb_step (lite_backend _ _ _ _ _ _ _) s o). exact H.
Qed.
Print Assumptions C09_lite_all_changes_are_physical_operations.

Theorem C09_full_all_changes_are_physical_operations :
  forall (A : aead) hmac dkey mkey id bs iv_size header_size check sparse rnd iv_fuel s o,
    let s' := fst (full_step A hmac dkey mkey id bs iv_size header_size check sparse rnd iv_fuel s o) in
    let l := full_trace A hmac dkey mkey id bs iv_size header_size check sparse rnd iv_fuel s o in
    f_data s' = replay (f_data s) (data_part l) /\ f_meta s' = replay (f_meta s) (meta_part l).
Proof. intros. apply full_accounted. Qed.
Print Assumptions C09_full_all_changes_are_physical_operations.

(** What the death of the process leaves: the first operations done, the next one done in
    part; it is one of the outcomes of [left_over]. *)
Theorem C09_killed_process_leaves_a_left_over :
  forall f done torn rest n,
    left_over f (done ++ rest) (replay f done) /\
    match torn with
    | PWrite off d => left_over f (done ++ torn :: rest) (replay f (done ++ [PWrite off (firstn n d)]))
    | PResize _ => True
    end.
Proof.
  intros f done torn rest n. split; [apply left_over_more, left_over_replay|]. destruct torn as [off d|]; [|exact I].
  unfold replay. rewrite fold_left_app. apply left_over_torn.
Qed.
Print Assumptions C09_killed_process_leaves_a_left_over.

(** C09, lite.  After any history, whatever is left of a further operation [o] that is cut
    short, the file can be opened and every range of the old content in blocks that [o] does
    not touch is read back. *)
Theorem C09_lite_untouched_blocks_survive :
  forall (A : aead) bs iv_size check sparse session_key padding_of rnd iv_fuel k ops s0 o f' k',
    lite_env_ok A bs iv_size rnd iv_fuel ->
    lite_open bs iv_size session_key padding_of rnd [] k = Ok s0 ->
    Forall (lop_within (lite_max_blocks * bs)) ops ->
    let step := lite_step A bs iv_size check sparse session_key padding_of rnd iv_fuel in
    let s := fst (run_ops step s0 ops) in
    let c := fst (run_ops lspec_step [] ops) in
    left_over (l_file s) (lite_trace A bs iv_size check sparse rnd iv_fuel s o) f' ->
    exists s1,
      lite_open bs iv_size session_key padding_of rnd f' k' = Ok s1 /\
      forall off len, untouched bs (length c) o off len ->
        snd (step s1 (LOp (SRead off len))) = LOut (OData (arr_read c off len)).
Proof.
  intros A bs iv_size check sparse session_key padding_of rnd iv_fuel k ops s0 o f' k' HE Ho Hall step s c HL.
  destruct (lite_open_fresh A bs iv_size check session_key padding_of rnd iv_fuel HE k) as (s0' & Ho' & HR).
  rewrite Ho in Ho'. injection Ho' as <-.
  destruct (lite_refines A bs iv_size check sparse session_key padding_of rnd iv_fuel HE s0 [] ops HR
              ltac:(cbn; lia) Hall) as (s1 & Hr & HR1 & Hl1).
  assert (Es : s = s1) by (unfold s, step; rewrite Hr; reflexivity). rewrite Es in HL.
  destruct (lite_crash A bs iv_size check sparse session_key padding_of rnd iv_fuel HE s1 c o f' k' HR1 Hl1 HL) as (s2 & E2 & H2).
  exists s2. split; [exact E2|]. intros off len Hu. unfold step. cbn [lite_step bb_step]. rewrite (H2 off len Hu). reflexivity.
Qed.
Print Assumptions C09_lite_untouched_blocks_survive.

(** C09, full.  The same for the two files of the full format and every operation of an open
    file, for an object that goes on with what is left as well as for one that opens the
    files without verification. *)
Theorem C09_full_untouched_blocks_survive :
  forall (A : aead) hmac dkey mkey id bs iv_size header_size check sparse rnd iv_fuel k ops o d' m' dirty k' check',
    full_env_ok A hmac bs iv_size rnd iv_fuel ->
    Forall (fop_within (full_max_blocks * bs) header_size) ops ->
    let s := fst (run_ops (full_step A hmac dkey mkey id bs iv_size header_size check sparse rnd iv_fuel) (mkFull [] [] false k) ops) in
    let c := fst (fst (run_ops (fspec_step header_size) ([], None) ops)) in
    let l := full_trace A hmac dkey mkey id bs iv_size header_size check sparse rnd iv_fuel s o in
    left_over (f_data s) (data_part l) d' -> left_over (f_meta s) (meta_part l) m' ->
    full_open hmac mkey id false d' m' k' = Ok (mkFull d' m' false k') /\
    forall off len, off + len <= length c -> (forall o', o = FOp o' -> untouched bs (length c) o' off len) ->
      snd (full_step A hmac dkey mkey id bs iv_size header_size check' sparse rnd iv_fuel (mkFull d' m' dirty k') (FOp (SRead off len)))
      = FOut (OData (arr_read c off len)).
Proof.
  intros A hmac dkey mkey id bs iv_size header_size check sparse rnd iv_fuel k ops o d' m' dirty k' check' HE Hall s c l HD HM.
  split; [reflexivity|]. intros off len Hoff Hu.
  pose proof (full_refines A hmac dkey mkey id bs iv_size header_size check sparse rnd iv_fuel HE ops None (mkFull [] [] false k) []
    (FRep_fresh A hmac dkey mkey id bs iv_size header_size k) (Nat.le_0_l _) Hall) as HA.
  unfold s, c in *. destruct (fst (run_ops (fspec_step header_size) ([], None) ops)) as [c1 h1]. cbn [fst] in *. destruct HA as (_ & HR & Hl).
  cbn [full_step bb_step].
  rewrite (full_crash A hmac dkey mkey id bs iv_size header_size check sparse rnd iv_fuel HE h1 _ c1 o d' m' dirty k' check' HR Hl HD HM off len Hoff);
    [reflexivity|]. destruct o; auto.
Qed.
Print Assumptions C09_full_untouched_blocks_survive.

(** Examples: a cipher whose tag depends on the nonce and the ciphertext. *)
Definition sum_bytes (l : bytes) : bytes := repeat (n2b (fold_right (fun b n => (Byte.to_N b + n)%N) 0%N l)) 16.
Definition sum_aead : aead :=
  mkAead (fun _ iv _ p => (p, sum_bytes (iv ++ p))) (fun _ iv _ ct mac => (bytes_eqb mac (sum_bytes (iv ++ ct)), ct)).
Lemma sum_aead_ok : aead_ok sum_aead.
Proof.
  constructor; intros; cbn [sum_aead a_enc a_dec fst snd]; try reflexivity.
  rewrite bytes_eqb_refl. reflexivity.
Qed.
Lemma sum_lite_env : lite_env_ok sum_aead 32 12 toy_rnd 2.
Proof. pose proof (toy_env_ok ([], [], [])) as H. constructor; try lia; try apply H. apply sum_aead_ok. Qed.

Definition ex_content : bytes := map (fun i => n2b (N.of_nat i)) (seq 1 100).
Definition ex_lite : lite_st :=
  match lite_open 32 12 (fun id => id) (fun _ => 5) toy_rnd [] 0 with
  | Ok s0 => fst (run_ops (lite_step sum_aead 32 12 true true (fun id => id) (fun _ => 5) toy_rnd 2) s0 [LOp (SWrite 0 ex_content)])
  | Err _ => mkLite [] [] [] 0
  end.
(** The write of five bytes into the second block is torn after [n] bytes. *)
Definition ex_o : sop := SWrite 40 [x61; x62; x63; x64; x65].
Definition ex_torn (n : nat) : bytes :=
  match lite_trace sum_aead 32 12 true true toy_rnd 2 ex_lite ex_o with
  | [PWrite off d] => replay (l_file ex_lite) [PWrite off (firstn n d)]
  | _ => []
  end.

Lemma ex_untouched : untouched 32 100 ex_o 0 32 /\ untouched 32 100 ex_o 64 36.
Proof.
  split; (split; [lia|]); intros i H1 H2 (_ & H3 & H4); cbn [length] in *; lia.
Qed.

Lemma torn_one f l n : 
  match l with [PWrite off d] => left_over f l (replay f [PWrite off (firstn n d)]) | _ => True end.
Proof.
  destruct l as [|[off d|] [|]]; try exact I. exact (proj2 (C09_killed_process_leaves_a_left_over f [] (PWrite off d) [] n)).
Qed.
Definition ex_trace : list phys := lite_trace sum_aead 32 12 true true toy_rnd 2 ex_lite ex_o.
Lemma ex_torn_left : left_over (l_file ex_lite) ex_trace (ex_torn 20).
Proof.
  pose proof (torn_one (l_file ex_lite) ex_trace 20) as H. unfold ex_torn. fold ex_trace.
  assert (E : match ex_trace with [PWrite _ _] => True | _ => False end) by (vm_compute; exact I).
  destruct ex_trace as [|[off d|] [|]]; try contradiction. exact H.
Qed.

(** The hypotheses hold; the blocks around the torn one are read back. *)
Example C09_lite_example :
  lite_env_ok sum_aead 32 12 toy_rnd 2 /\
  Forall (lop_within (lite_max_blocks * 32)) [LOp (SWrite 0 ex_content)] /\
  left_over (l_file ex_lite) (lite_trace sum_aead 32 12 true true toy_rnd 2 ex_lite ex_o) (ex_torn 20) /\
  untouched 32 100 ex_o 0 32 /\ untouched 32 100 ex_o 64 36 /\ ex_torn 20 <> l_file ex_lite /\
  match lite_open 32 12 (fun id => id) (fun _ => 5) toy_rnd (ex_torn 20) 7 with
  | Ok s1 => map (fun o => snd (lite_step sum_aead 32 12 true true (fun id => id) (fun _ => 5) toy_rnd 2 s1 (LOp o))) [SRead 0 32; SRead 64 36]
             = [LOut (OData (firstn 32 ex_content)); LOut (OData (skipn 64 ex_content))]
  | Err _ => False
  end.
Proof.
  split; [exact sum_lite_env|]. split.
  { assert (H : 1000 <= lite_max_blocks) by (apply lite_over_max_inv; vm_compute; reflexivity).
    constructor; [|constructor]. cbn [lop_within sop_within]. unfold ex_content. rewrite map_length, seq_length. lia. }
  split; [exact ex_torn_left|].
  split; [apply ex_untouched|]. split; [apply ex_untouched|]. split; [intros H; vm_compute in H; discriminate H|].
  vm_compute. reflexivity.
Qed.

(** The bytes around the written ones in the same block are not safe: the torn block fails
    its check, and bytes 50 to 53 that the write does not touch cannot be read. *)
Theorem C09_same_block_refuted :
  exists A bs iv_size rnd iv_fuel s f' s1,
    lite_env_ok A bs iv_size rnd iv_fuel /\
    s = ex_lite /\
    snd (lite_step A bs iv_size true true (fun id => id) (fun _ => 5) rnd iv_fuel s (LOp (SRead 50 3))) = LOut (OData [x33; x34; x35]) /\
    left_over (l_file s) (lite_trace A bs iv_size true true rnd iv_fuel s (SWrite 40 [x61; x62; x63; x64; x65])) f' /\
    lite_open bs iv_size (fun id => id) (fun _ => 5) rnd f' 7 = Ok s1 /\
    snd (lite_step A bs iv_size true true (fun id => id) (fun _ => 5) rnd iv_fuel s1 (LOp (SRead 50 3))) = LOut (OFail EVerify).
Proof.
  exists sum_aead, 32, 12, toy_rnd, 2, ex_lite, (ex_torn 20), (mkLite (ex_torn 20) (l_key ex_lite) (l_pad ex_lite) 7).
  split; [exact sum_lite_env|]. split; [reflexivity|]. split; [vm_compute; reflexivity|].
  split; [exact ex_torn_left|]. split; vm_compute; reflexivity.
Qed.
Print Assumptions C09_same_block_refuted.

(** ** Full *)
Definition sum_hmac (k m : bytes) : bytes := sum_bytes m ++ sum_bytes m.
Lemma sum_full_env : full_env_ok sum_aead sum_hmac 32 12 toy_rnd 2.
Proof. pose proof (toy_full_env ([], [], [])) as H. constructor; try lia; try apply H. apply sum_aead_ok. Qed.

Definition exc_ops : list fop := [FOp (SWrite 0 ex_content); FWriteHeader [x01; x02]; FFlush].
Definition ex_full : full_st :=
  fst (run_ops (full_step sum_aead sum_hmac [] [] [x09] 32 12 5 true true toy_rnd 2) (mkFull [] [] false 0) exc_ops).
Definition ex_ftrace : list part := full_trace sum_aead sum_hmac [] [] [x09] 32 12 5 true true toy_rnd 2 ex_full (FOp ex_o).
(** The ciphertext of the new block is stored, its nonce and tag are not. *)
Definition ex_half : bytes := replay (f_data ex_full) (data_part ex_ftrace).
(** Both are stored, the MAC of the file is not. *)
Definition ex_whole : bytes := replay (f_meta ex_full) (meta_part ex_ftrace).

Example C09_full_example :
  full_env_ok sum_aead sum_hmac 32 12 toy_rnd 2 /\
  Forall (fop_within (full_max_blocks * 32) 5) exc_ops /\
  left_over (f_data ex_full) (data_part ex_ftrace) ex_half /\ left_over (f_meta ex_full) (meta_part ex_ftrace) (f_meta ex_full) /\
  ex_half <> f_data ex_full /\
  map (fun o => snd (full_step sum_aead sum_hmac [] [] [x09] 32 12 5 true true toy_rnd 2 (mkFull ex_half (f_meta ex_full) false 9) (FOp o)))
    [SRead 0 32; SRead 64 36; SRead 50 3]
  = [FOut (OData (firstn 32 ex_content)); FOut (OData (skipn 64 ex_content)); FOut (OFail EVerify)].
Proof.
  split; [exact sum_full_env|]. split.
  { pose proof full_max_1000. unfold exc_ops. repeat (apply Forall_cons || apply Forall_nil); cbn [fop_within sop_within]; try exact I.
    - unfold ex_content. rewrite map_length, seq_length. lia.
    - cbn [length]. lia. }
  split; [apply left_over_replay|]. split; [apply (left_over_more _ [] _ _ (left_over_refl _ _))|].
  split; [intros H; vm_compute in H; discriminate H|]. vm_compute. reflexivity.
Qed.

(** With verification on, the full format as a whole does not survive: the process dies after
    the physical writes of a completed write and before the flush, and no byte of the file can
    be read any more, for it cannot be opened. *)
Theorem C09_full_verified_open_refuted :
  exists A hmac bs iv_size rnd iv_fuel,
    full_env_ok A hmac bs iv_size rnd iv_fuel /\
    let step := full_step A hmac [] [] [x09] bs iv_size 5 true true rnd iv_fuel in
    let s := fst (run_ops step (mkFull [] [] false 0) [FOp (SWrite 0 ex_content); FWriteHeader [x01; x02]; FFlush]) in
    let s' := fst (step s (FOp (SWrite 40 [x61; x62; x63; x64; x65]))) in
    full_open hmac [] [x09] true (f_data s) (f_meta s) 9 = Ok (mkFull (f_data s) (f_meta s) false 9) /\
    full_open hmac [] [x09] true (f_data s') (f_meta s') 9 = Err EVerify.
Proof.
  exists sum_aead, sum_hmac, 32, 12, toy_rnd, 2. split; [exact sum_full_env|]. vm_compute. split; reflexivity.
Qed.
Print Assumptions C09_full_verified_open_refuted.
