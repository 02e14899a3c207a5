(** Property C59: what switching verification off (--insecure) changes. *)
From Verif Require Import Base BaseLemmas StreamSpec BlockModel CodecModel LiteModel LiteProofs LiteTamper FullStreamModel FullStreamProofs VerifyProofs Toy.

(** Lite: a history of operations and reopenings of a file with any stored bytes, in which
    no operation reports failed verification, gives the same results and the same stored
    bytes when verification is off. *)
Theorem C59_lite_same_without_verification :
  forall (A : aead) bs iv_size sparse session_key padding_of rnd iv_fuel s ops,
    let run check := run_ops (lite_step A bs iv_size check sparse session_key padding_of rnd iv_fuel) s ops in
    ~ In (LOut (OFail EVerify)) (snd (run true)) -> run true = run false.
Proof.
  intros A bs iv_size sparse session_key padding_of rnd iv_fuel s ops. revert s.
  induction ops as [|o ops IH]; intros s; cbn [run_ops]; [reflexivity|]. cbv zeta.
  assert (E : lite_step A bs iv_size true sparse session_key padding_of rnd iv_fuel s o = lite_step A bs iv_size false sparse session_key padding_of rnd iv_fuel s o \/
              snd (lite_step A bs iv_size true sparse session_key padding_of rnd iv_fuel s o) = LOut (OFail EVerify)).
  { destruct o as [o|]; [|left; reflexivity]. cbn [lite_step].
    destruct (two_step lite_st bs lite_max_blocks_N sparse (lite_size bs iv_size) _ _ (lite_write_multi A bs iv_size rnd iv_fuel) (lite_adjust bs iv_size)
                (lite_read_two A bs iv_size) s o) as [[E _]|E].
    - right. unfold lite_backend. destruct (bb_step _ _ _) as [s' r]. cbn [snd] in *. subst r. reflexivity.
    - left. unfold lite_backend. rewrite E. reflexivity. }
  destruct E as [E|E].
  - rewrite E. destruct (lite_step A bs iv_size false sparse session_key padding_of rnd iv_fuel s o) as [s1 r]. specialize (IH s1). cbv zeta in IH.
    destruct (run_ops (lite_step A bs iv_size true sparse session_key padding_of rnd iv_fuel) s1 ops) as [s2 rs]. cbn [snd] in *.
    intros H. rewrite <- IH; [reflexivity|]. intros Hi. apply H. right. exact Hi.
  - destruct (lite_step A bs iv_size true sparse session_key padding_of rnd iv_fuel s o) as [s1 r].
    destruct (run_ops (lite_step A bs iv_size true sparse session_key padding_of rnd iv_fuel) s1 ops) as [s2 rs]. cbn [snd] in *.
    intros H. exfalso. apply H. left. exact E.
Qed.
Print Assumptions C59_lite_same_without_verification.

(** Full format: the same, with headers, flushing and reopening (C02_example is such a
    history). *)
Theorem C59_full_same_without_verification :
  forall (A : aead) hmac dkey mkey id bs iv_size header_size sparse rnd iv_fuel s ops,
    let run check := run_ops (full_step A hmac dkey mkey id bs iv_size header_size check sparse rnd iv_fuel) s ops in
    ~ In (FOut (OFail EVerify)) (snd (run true)) -> run true = run false.
Proof.
  intros A hmac dkey mkey id bs iv_size header_size sparse rnd iv_fuel s ops. revert s.
  induction ops as [|o ops IH]; intros s; cbn [run_ops]; [reflexivity|]. cbv zeta.
  set (step1 := full_step A hmac dkey mkey id bs iv_size header_size true sparse rnd iv_fuel) in *.
  set (step2 := full_step A hmac dkey mkey id bs iv_size header_size false sparse rnd iv_fuel) in *.
  assert (E : step1 s o = step2 s o \/ snd (step1 s o) = FOut (OFail EVerify)).
  { unfold step1, step2. destruct o as [o|h|len| |]; try (left; reflexivity); cbn [full_step].
    - destruct (two_step full_st bs full_max_blocks_N sparse full_size _ _ (full_write_multi A dkey id bs iv_size header_size rnd iv_fuel) (full_adjust bs iv_size header_size)
                  (full_read_two A dkey id bs iv_size header_size) s o) as [[E _]|E].
      + right. unfold full_backend. destruct (bb_step _ _ _) as [s' r]. cbn [snd] in *. subst r. reflexivity.
      + left. unfold full_backend. rewrite E. reflexivity.
    - cbv zeta. set (s1 := fst (full_flush hmac mkey id s)).
      destruct (full_open_two hmac mkey id (f_data s1) (f_meta s1) (f_rng s1)) as [E|E]; rewrite E; [right; reflexivity|left; reflexivity]. }
  destruct E as [E|E].
  - rewrite E. destruct (step2 s o) as [s1 r]. 
    assert (IH' : ~ In (FOut (OFail EVerify)) (snd (run_ops step1 s1 ops)) -> run_ops step1 s1 ops = run_ops step2 s1 ops) by exact (IH s1).
    destruct (run_ops step1 s1 ops) as [s2 rs]. cbn [snd] in *.
    intros H. rewrite <- IH'; [reflexivity|]. intros Hi. apply H. right. exact Hi.
  - destruct (step1 s o) as [s1 r]. destruct (run_ops step1 s1 ops) as [s2 rs]. cbn [snd] in *.
    intros H. exfalso. apply H. left. exact E.
Qed.
Print Assumptions C59_full_same_without_verification.

(** An operation that reports failed verification has changed nothing that is stored; only
    a write that starts beyond the end may already have lengthened the file up to there. *)
Theorem C59_lite_failure_changes_nothing :
  forall (A : aead) bs iv_size sparse rnd iv_fuel s o s',
    let step := bb_step (lite_backend A bs iv_size true sparse rnd iv_fuel) in
    step s o = (s', OFail EVerify) ->
    s' = s \/ exists off d, o = SWrite off d /\ lite_size bs iv_size s < off /\ step s (SResize off) = (s', ODone).
Proof.
  intros A bs iv_size sparse rnd iv_fuel s o s' step H.
  exact (fail_step (lite_backend A bs iv_size true sparse rnd iv_fuel) (lite_write_quiet A bs iv_size rnd iv_fuel) ltac:(discriminate) s o s' H).
Qed.
Print Assumptions C59_lite_failure_changes_nothing.

Theorem C59_full_failure_changes_nothing :
  forall (A : aead) dkey id bs iv_size header_size check sparse rnd iv_fuel s o s',
    let step := bb_step (full_backend A dkey id bs iv_size header_size check sparse rnd iv_fuel) in
    step s o = (s', OFail EVerify) ->
    s' = s \/ exists off d, o = SWrite off d /\ full_size s < off /\ step s (SResize off) = (s', ODone).
Proof.
  intros A dkey id bs iv_size header_size check sparse rnd iv_fuel s o s' step H.
  exact (fail_step (full_backend A dkey id bs iv_size header_size check sparse rnd iv_fuel) (full_write_quiet A dkey id bs iv_size header_size rnd iv_fuel) ltac:(discriminate) s o s' H).
Qed.
Print Assumptions C59_full_failure_changes_nothing.

(** Without verification every byte of a lite file can be read, whatever has become of the
    stored bytes: the read gives as many bytes as the size says. *)
Theorem C59_insecure_reads_damaged_lite :
  forall (A : aead) bs iv_size sparse rnd iv_fuel s off len,
    lite_env_ok A bs iv_size rnd iv_fuel -> off + len <= lite_max_blocks * bs ->
    exists out, bb_step (lite_backend A bs iv_size false sparse rnd iv_fuel) s (SRead off len) = (s, OData out) /\
      length out = min len (lite_size bs iv_size s - off).
Proof.
  intros A bs iv_size sparse rnd iv_fuel s off len HE HL.
  assert (R : forall a b, b <= lite_max_blocks -> exists o, lite_read_multi A bs iv_size false a b s = Ok o).
  { intros a b Hb. unfold lite_read_multi. rewrite lite_over_max_false by exact Hb. cbv zeta. apply lite_loop_false. lia. }
  pose proof (le_bs _ _ _ _ _ HE) as Hbs.
  assert (D : exists out, bb_read (lite_backend A bs iv_size false sparse rnd iv_fuel) off len s = Ok out).
  { unfold bb_read. cbn [bk_bs bk_read lite_backend]. destruct (len <=? 0); [eauto|].
    pose proof (Nat.div_mod (off + len) bs ltac:(lia)) as E.
    assert (Q : (off + len) / bs + b2nat (0 <? (off + len) mod bs) <= lite_max_blocks).
    { destruct (Nat.ltb_spec 0 ((off + len) mod bs)); cbn [b2nat]; nia. }
    destruct (_ && _); [apply R; lia|]. destruct (R (off / bs) _ Q) as [o ->]. cbn [rbind]. destruct (_ <=? _); eauto. }
  destruct D as [out D]. exists out. cbn [bb_step]. rewrite D. split; [reflexivity|].
  eapply (bb_read_length A bs iv_size false sparse (fun x => x) (fun _ => 0)); eauto.
Qed.
Print Assumptions C59_insecure_reads_damaged_lite.

(** ** A damaged file
    The second of three blocks of a lite file was altered.  A write into it is refused and
    changes nothing; the others can be used as before; with verification off everything
    can be read. *)
Definition ex59_step check := lite_step (toy_aead ([], [], [])) 32 12 check true (fun id => id) (fun _ => 0) toy_rnd 2.
Definition ex59_file : lite_st :=
  let s := fst (run_ops (ex59_step true) (mkLite (toy_rnd 0 16) (toy_rnd 0 16) [] 1) [LOp (SWrite 0 (repeat x61 80))]) in
  mkLite (arr_write (l_file s) 89 (zeros 40)) (l_key s) (l_pad s) (l_rng s).
Definition ex59_ops : list lop := [LOp (SRead 0 32); LOp (SWrite 5 [x62; x63]); LReopen; LOp (SResize 90); LOp (SRead 64 100)].
Example C59_example :
  ~ In (LOut (OFail EVerify)) (snd (run_ops (ex59_step true) ex59_file ex59_ops)) /\
  run_ops (ex59_step true) ex59_file [LOp (SWrite 40 [x62])] = (ex59_file, [LOut (OFail EVerify)]) /\
  snd (ex59_step true ex59_file (LOp (SRead 0 80))) = LOut (OFail EVerify) /\
  (exists out, snd (ex59_step false ex59_file (LOp (SRead 0 80))) = LOut (OData out) /\ length out = 80 /\ out <> repeat x61 80).
Proof.
  split; [vm_compute; intuition discriminate|]. split; [vm_compute; reflexivity|]. split; [vm_compute; reflexivity|].
  destruct (ex59_step false ex59_file (LOp (SRead 0 80))) as [s r] eqn:E. vm_compute in E. injection E as <- <-.
  eexists. split; [reflexivity|]. split; [reflexivity|]. intros H. apply (f_equal (fun l => nth 33 l x00)) in H. vm_compute in H. discriminate H.
Qed.
