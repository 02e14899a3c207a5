(** Property C89: operations that reach past the largest size a file can have.
    C01 and C02 leave these out ([sop_within]); here every operation is allowed. *)
From Verif Require Import Base BaseLemmas StreamSpec BlockModel BlockProofs LiteModel LiteSpec LiteProofs
  FullStreamModel FullSpec FullStreamProofs LimitSpec LimitProofs PropertiesLite PropertiesFull Toy.
Local Open Scope list_scope.

Definition lite_limit (bs : nat) : nat := lite_max_blocks * bs.
Definition full_limit (bs : nat) : nat := full_max_blocks * bs.

(** Lite format: every history of any operations gives the outputs of the byte array with
    a largest size. *)
Theorem C89_lite_limit_exact :
  forall (A : aead) bs iv_size check sparse session_key padding_of rnd iv_fuel k ops,
    lite_env_ok A bs iv_size rnd iv_fuel ->
    exists s0,
      lite_open bs iv_size session_key padding_of rnd [] k = Ok s0 /\
      snd (run_ops (lite_step A bs iv_size check sparse session_key padding_of rnd iv_fuel) s0 ops)
      = snd (run_ops (lim_lite sparse bs (lite_limit bs)) [] ops).
Proof.
  intros A bs iv_size check sparse session_key padding_of rnd iv_fuel k ops HE.
  destruct (lite_open_fresh A bs iv_size check session_key padding_of rnd iv_fuel HE k) as (s0 & Ho & HR).
  exists s0. split; [exact Ho|]. apply (lite_run_total A bs iv_size check sparse session_key padding_of rnd iv_fuel HE ops s0 [] HR).
Qed.
Print Assumptions C89_lite_limit_exact.

(** Full format, with headers. *)
Theorem C89_full_limit_exact :
  forall (A : aead) hmac dkey mkey id bs iv_size header_size check sparse rnd iv_fuel k ops,
    full_env_ok A hmac bs iv_size rnd iv_fuel ->
    Forall (header_within header_size) ops ->
    Forall2 fout_ok
      (snd (run_ops (lim_full sparse bs (full_limit bs) header_size) ([], None) ops))
      (snd (run_ops (full_step A hmac dkey mkey id bs iv_size header_size check sparse rnd iv_fuel)
                    (mkFull [] [] false k) ops)).
Proof.
  intros A hmac dkey mkey id bs iv_size header_size check sparse rnd iv_fuel k ops HE Hops.
  apply (full_run_total A hmac dkey mkey id bs iv_size header_size check sparse rnd iv_fuel HE ops ([], None)); [apply FRep_fresh|exact Hops].
Qed.
Print Assumptions C89_full_limit_exact.

Lemma lite_limit_big bs : 32 <= bs -> 1000 <= lite_limit bs.
Proof.
  intros H. unfold lite_limit. assert (1000 <= lite_max_blocks) by (apply lite_over_max_inv; vm_compute; reflexivity). nia.
Qed.
Lemma full_limit_big bs : 32 <= bs -> 1000 <= full_limit bs.
Proof. intros H. unfold full_limit. pose proof full_max_1000. nia. Qed.

(** The hypotheses hold, and there are operations that fail. *)
Example C89_example :
  lite_env_ok (toy_aead ([], [], [])) 32 12 toy_rnd 2 /\
  full_env_ok (toy_aead ([], [], [])) toy_hmac 32 12 toy_rnd 2 /\ Forall (header_within 5) exf_ops /\
  snd (run_ops (lim_step true 32 64) []
    [SWrite 64 [x61]; SSize; SResize 70; SWrite 60 [x61; x62; x63; x64]; SRead 60 4; SRead 60 5; SResize 63; SResize 70; SSize; SResize 65; SRead 63 1])
  = [OFail ETooLong; OSize 64; OFail ETooLong; ODone; OData [x61; x62; x63; x64]; OFail ETooLong; ODone; ODone; OSize 70; OFail ETooLong; OData [x00]].
Proof.
  split; [apply toy_env_ok|]. split; [apply toy_full_env|]. split; [|vm_compute; reflexivity].
  unfold exf_ops. repeat (apply Forall_cons || apply Forall_nil); cbn [header_within length]; try exact I; lia.
Qed.

(** A call that fails, at any place in any history, fails with that one error; and all
    that comes later is as if it had not been made, or, for a write, as if the file had been
    extended up to the offset of the write.  So no byte stored before is lost. *)
Theorem C89_lite_failed_call :
  forall (A : aead) bs iv_size check sparse session_key padding_of rnd iv_fuel k s0 before o after e,
    lite_env_ok A bs iv_size rnd iv_fuel ->
    lite_open bs iv_size session_key padding_of rnd [] k = Ok s0 ->
    let outs ops := snd (run_ops (lite_step A bs iv_size check sparse session_key padding_of rnd iv_fuel) s0 ops) in
    nth_error (outs (before ++ LOp o :: after)) (length before) = Some (LOut (OFail e)) ->
    e = ETooLong /\
    exists l, leftover o l /\
      skipn (length before + 1) (outs (before ++ LOp o :: after))
      = skipn (length before + length l) (outs (before ++ map LOp l ++ after)).
Proof.
  intros A bs iv_size check sparse session_key padding_of rnd iv_fuel k s0 before o after e HE Ho outs H.
  assert (HO : forall ops, outs ops = snd (run_ops (lim_lite sparse bs (lite_limit bs)) [] ops)).
  { intros ops. destruct (C89_lite_limit_exact A bs iv_size check sparse session_key padding_of rnd iv_fuel k ops HE) as (s1 & Ho1 & E).
    rewrite Ho in Ho1. injection Ho1 as <-. exact E. }
  rewrite HO in H |- *.
  destruct (lim_history sparse bs (lite_limit bs) before o after [] e H) as (-> & l & Hl & E). split; [reflexivity|].
  exists l. rewrite HO. auto.
Qed.
Print Assumptions C89_lite_failed_call.

Theorem C89_full_failed_call :
  forall (A : aead) hmac dkey mkey id bs iv_size header_size check sparse rnd iv_fuel k before o after e,
    full_env_ok A hmac bs iv_size rnd iv_fuel ->
    Forall (header_within header_size) (before ++ after) ->
    let outs ops := snd (run_ops (full_step A hmac dkey mkey id bs iv_size header_size check sparse rnd iv_fuel)
                           (mkFull [] [] false k) ops) in
    nth_error (outs (before ++ FOp o :: after)) (length before) = Some (FOut (OFail e)) ->
    e = ETooLong /\
    exists l spec, leftover o l /\
      Forall2 fout_ok spec (skipn (length before + 1) (outs (before ++ FOp o :: after))) /\
      Forall2 fout_ok spec (skipn (length before + length l) (outs (before ++ map FOp l ++ after))).
Proof.
  intros A hmac dkey mkey id bs iv_size header_size check sparse rnd iv_fuel k before o after e HE Hw outs H.
  assert (HO : forall ops, Forall (header_within header_size) ops ->
    Forall2 fout_ok (snd (run_ops (lim_full sparse bs (full_limit bs) header_size) ([], None) ops)) (outs ops)).
  { intros ops Hops. apply C89_full_limit_exact; assumption. }
  apply Forall_app in Hw as [Hb Ha].
  assert (H1 : Forall (header_within header_size) (before ++ FOp o :: after)).
  { apply Forall_app. split; [exact Hb|]. constructor; [exact I|exact Ha]. }
  assert (H2 : forall l, Forall (header_within header_size) (before ++ map FOp l ++ after)).
  { intros l. apply Forall_app. split; [exact Hb|]. apply Forall_app. split; [|exact Ha]. induction l; constructor; auto. exact I. }
  pose proof (HO _ H1) as F. destruct (full_nth _ _ _ _ _ F H) as (r & Er & Hr).
  assert (r = FOut (OFail e)) as ->.
  { destruct Hr as [-> | ->]; [|reflexivity]. exfalso. revert Er. apply full_op_not_any. }
  destruct (lim_full_history sparse bs (full_limit bs) header_size before o after ([], None) e Er) as (-> & l & Hl & E).
  split; [reflexivity|]. exists l, (skipn (length before + 1) (snd (run_ops (lim_full sparse bs (full_limit bs) header_size) ([], None) (before ++ FOp o :: after)))).
  split; [exact Hl|]. split; [apply Forall2_skipn; exact F|]. rewrite E. apply Forall2_skipn. apply HO, H2.
Qed.
Print Assumptions C89_full_failed_call.

(** Not so: a write that fails leaves the file as it was.  Writing a byte at the limit
    fails and leaves a file of the largest size. *)
Theorem C89_failed_write_extends_refuted :
  forall (A : aead) bs iv_size check sparse session_key padding_of rnd iv_fuel k s0,
    lite_env_ok A bs iv_size rnd iv_fuel ->
    lite_open bs iv_size session_key padding_of rnd [] k = Ok s0 ->
    snd (run_ops (lite_step A bs iv_size check sparse session_key padding_of rnd iv_fuel) s0
           [LOp SSize; LOp (SWrite (lite_limit bs) [x61]); LOp SSize])
    = [LOut (OSize 0); LOut (OFail ETooLong); LOut (OSize (lite_limit bs))].
Proof.
  intros A bs iv_size check sparse session_key padding_of rnd iv_fuel k s0 HE Ho.
  destruct (C89_lite_limit_exact A bs iv_size check sparse session_key padding_of rnd iv_fuel k
    [LOp SSize; LOp (SWrite (lite_limit bs) [x61]); LOp SSize] HE) as (s1 & Ho1 & E).
  rewrite Ho in Ho1. injection Ho1 as <-. rewrite E. apply lim_write_extends. pose proof (lite_limit_big bs (le_bs _ _ _ _ _ HE)). lia.
Qed.
Print Assumptions C89_failed_write_extends_refuted.

(** Not so: a file never exceeds the largest size.  On a host with holes a file can be
    resized beyond it, and then the part beyond cannot be read, although it is within the
    size; nor can it be resized to most other sizes beyond the limit, only to a smaller one. *)
Theorem C89_beyond_the_limit_refuted :
  forall (A : aead) bs iv_size check session_key padding_of rnd iv_fuel k s0,
    lite_env_ok A bs iv_size rnd iv_fuel ->
    lite_open bs iv_size session_key padding_of rnd [] k = Ok s0 ->
    snd (run_ops (lite_step A bs iv_size check true session_key padding_of rnd iv_fuel) s0
           [LOp (SResize (lite_limit bs + 5)); LOp SSize; LOp (SRead (lite_limit bs) 5);
            LOp (SResize (lite_limit bs + 6)); LOp (SResize (lite_limit bs + 4)); LOp (SResize 0)])
    = [LOut ODone; LOut (OSize (lite_limit bs + 5)); LOut (OFail ETooLong);
       LOut (OFail ETooLong); LOut (OFail ETooLong); LOut ODone].
Proof.
  intros A bs iv_size check session_key padding_of rnd iv_fuel k s0 HE Ho.
  destruct (C89_lite_limit_exact A bs iv_size check true session_key padding_of rnd iv_fuel k
    [LOp (SResize (lite_limit bs + 5)); LOp SSize; LOp (SRead (lite_limit bs) 5);
     LOp (SResize (lite_limit bs + 6)); LOp (SResize (lite_limit bs + 4)); LOp (SResize 0)] HE) as (s1 & Ho1 & E).
  rewrite Ho in Ho1. injection Ho1 as <-. rewrite E. pose proof (le_bs _ _ _ _ _ HE) as Hb. apply lim_beyond.
  - pose proof (lite_limit_big bs Hb). lia.
  - unfold lite_limit. rewrite Nat.add_comm, Nat.mod_add by lia. rewrite Nat.mod_small by lia. lia.
Qed.
Print Assumptions C89_beyond_the_limit_refuted.

(** Not so: a read beyond the end of a file is an end of file.  Asking for more bytes than
    the largest size, or from the largest size on, is an error, however small the file. *)
Theorem C89_read_past_limit_refuted :
  forall (A : aead) bs iv_size check sparse session_key padding_of rnd iv_fuel k s0,
    lite_env_ok A bs iv_size rnd iv_fuel ->
    lite_open bs iv_size session_key padding_of rnd [] k = Ok s0 ->
    snd (run_ops (lite_step A bs iv_size check sparse session_key padding_of rnd iv_fuel) s0
           [LOp (SWrite 0 [x61]); LOp (SRead 0 (lite_limit bs)); LOp (SRead 0 (lite_limit bs + 1)); LOp (SRead (lite_limit bs) 1)])
    = [LOut ODone; LOut (OData [x61]); LOut (OFail ETooLong); LOut (OFail ETooLong)].
Proof.
  intros A bs iv_size check sparse session_key padding_of rnd iv_fuel k s0 HE Ho.
  destruct (C89_lite_limit_exact A bs iv_size check sparse session_key padding_of rnd iv_fuel k
    [LOp (SWrite 0 [x61]); LOp (SRead 0 (lite_limit bs)); LOp (SRead 0 (lite_limit bs + 1)); LOp (SRead (lite_limit bs) 1)] HE) as (s1 & Ho1 & E).
  rewrite Ho in Ho1. injection Ho1 as <-. rewrite E. apply lim_read_past. pose proof (lite_limit_big bs (le_bs _ _ _ _ _ HE)). lia.
Qed.
Print Assumptions C89_read_past_limit_refuted.
