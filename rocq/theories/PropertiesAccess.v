(** Property C88: a lite file can be used as it was opened, as its mode says. *)
From Verif Require Import Base StreamSpec BlockModel LiteModel LiteSpec LiteProofs HandleModel
  AccessModel AccessSpec AccessProofs Toy.
Local Open Scope list_scope.

(** Every history: the answers are those of a byte array with a mode, whatever the flags,
    O_APPEND among them, with the three differences of [AccessSpec] from an ordinary file. *)
Theorem C88_access_exact :
  forall (A : aead) bs iv_size check sparse session_key padding_of padded rnd iv_fuel super umask calls,
    lite_env_ok A bs iv_size rnd iv_fuel ->
    (padded = false -> forall id, padding_of id = 0) ->
    all_sane false padded super umask (lite_max_blocks * bs) s_empty calls ->
    snd (run_ops (a_step A bs iv_size check sparse session_key padding_of padded rnd iv_fuel super umask) a_empty calls)
    = snd (run_ops (s_step false padded super umask) s_empty calls).
Proof.
  intros A bs iv_size check sparse session_key padding_of padded rnd iv_fuel super umask calls HE HP Hs.
  apply access_run; [exact HE|exact HP|apply arel_empty|exact Hs].
Qed.
Print Assumptions C88_access_exact.

(** As long as its owner may read it, it is an ordinary file. *)
Theorem C88_access_plain :
  forall (A : aead) bs iv_size check sparse session_key padding_of padded rnd iv_fuel super umask calls,
    lite_env_ok A bs iv_size rnd iv_fuel ->
    (padded = false -> forall id, padding_of id = 0) ->
    Forall (readable umask) calls ->
    all_sane true padded super umask (lite_max_blocks * bs) s_empty calls ->
    snd (run_ops (a_step A bs iv_size check sparse session_key padding_of padded rnd iv_fuel super umask) a_empty calls)
    = snd (run_ops (s_step true padded super umask) s_empty calls).
Proof.
  intros A bs iv_size check sparse session_key padding_of padded rnd iv_fuel super umask calls HE HP Hr Hs.
  destruct (plain_run padded super umask (lite_max_blocks * bs) calls s_empty ltac:(discriminate) Hr) as [E HS].
  rewrite <- E. apply C88_access_exact; auto.
Qed.
Print Assumptions C88_access_plain.

(** A story: a file is created for writing only, and written to; opened to append (the
    kernel asks for a write at the end of the file) and to read; then its owner takes away
    the permission to write, and gives it back; it is truncated, by name and by opening. *)
Definition ex_flags_append : N := 1025.     (* O_WRONLY | O_APPEND *)
Definition ex_calls : list acall :=
  [ACreate 0 O_WRONLY 416; AIo 0 (SWrite 0 (repeat x61 40)); AIo 0 (SRead 0 10); AClose 0;
   AOpen 1 ex_flags_append; AOpen 2 0; AIo 1 (SWrite 40 [x62; x63]); AIo 2 (SRead 38 10);
   AIo 2 (SWrite 0 [x64]); AChmod 256; AOpen 3 2; AOpen 3 1; AIo 1 (SWrite 3 [x65]); AOpen 3 0;
   AIo 3 (SRead 0 5); ATruncate 3; AChmod 384; ATruncate 2; AStat; AOpen 4 513; AStat; AOpen 5 0; AIo 5 (SRead 0 9)].

Lemma ex_calls_sane plain padded : all_sane plain padded false 18 (lite_max_blocks * 32) s_empty ex_calls.
Proof.
  assert (H : 1000 <= lite_max_blocks).
  { apply lite_over_max_inv. vm_compute. reflexivity. }
  destruct plain, padded; cbn; unfold s_empty; cbn;
    repeat match goal with
           | |- _ /\ _ => split
           | |- True => exact I
           | |- _ <> _ => discriminate
           | |- _ = false => reflexivity
           | |- _ -> _ => intros; first [reflexivity | discriminate]
           | |- _ <= _ => lia
           end.
Qed.

Example C88_access_example :
  lite_env_ok (toy_aead ([], [], [])) 32 12 toy_rnd 2 /\
  (forall padded, all_sane false padded false 18 (lite_max_blocks * 32) s_empty ex_calls) /\
  Forall (readable 18) ex_calls /\ all_sane true true false 18 (lite_max_blocks * 32) s_empty ex_calls /\
  snd (run_ops (a_step (toy_aead ([], [], [])) 32 12 true false (fun id => id) (fun _ => 5) true toy_rnd 2 false 18) a_empty ex_calls)
  = [ADone; AData ODone; AData (OFail (EPosix 9)); ADone;
     ADone; ADone; AData ODone; AData (OData [x61; x61; x62; x63]);
     AData (OFail (EPosix 9)); ADone; AFail (EPosix 13); AFail (EPosix 13); AData ODone; ADone;
     AData (OData [x61; x61; x61; x65; x61]); AFail (EPosix 13); ADone; ADone; AStatOut 384 2; ADone; AStatOut 384 0; ADone; AData (OData [])].
Proof.
  split; [apply toy_env_ok|]. split; [intros padded; apply ex_calls_sane|].
  split; [unfold ex_calls; repeat (apply Forall_cons; [vm_compute; try exact I; try reflexivity; split; reflexivity|]); apply Forall_nil|].
  split; [apply ex_calls_sane|]. vm_compute. reflexivity.
Qed.

(** What is not as with an ordinary file.  The file of these histories has the mode 0200:
    its owner may write it, and it cannot be opened for writing or truncated; *)
Definition ex_run (padded : bool) : list acall -> list aout := fun l =>
  snd (run_ops (a_step (toy_aead ([], [], [])) 32 12 true false (fun id => id) (fun _ => if padded then 5 else 0) padded toy_rnd 2 false 18) a_empty l).
Definition ex_plain (padded : bool) : list acall -> list aout := fun l => snd (run_ops (s_step true padded false 18) s_empty l).

Theorem C88_write_only_refuted :
  ~ (forall calls, all_sane true false false 18 (lite_max_blocks * 32) s_empty calls -> ex_run false calls = ex_plain false calls).
Proof.
  intros H. specialize (H [ACreate 0 2 384; AChmod 128; AOpen 1 O_WRONLY; ATruncate 0]).
  assert (K : ex_run false [ACreate 0 2 384; AChmod 128; AOpen 1 O_WRONLY; ATruncate 0] = [ADone; ADone; AFail EACCES; AFail EACCES]) by (vm_compute; reflexivity).
  assert (J : ex_plain false [ACreate 0 2 384; AChmod 128; AOpen 1 O_WRONLY; ATruncate 0] = [ADone; ADone; ADone; ADone]) by (vm_compute; reflexivity).
  rewrite K, J in H. discriminate H. cbn [all_sane sane]. repeat split; first [discriminate | reflexivity | apply Nat.le_0_l].
Qed.
Print Assumptions C88_write_only_refuted.

(** the mode 0200 given to create becomes 0600, so that its owner can read it; *)
Theorem C88_created_mode_refuted :
  exists calls, all_sane true false false 18 (lite_max_blocks * 32) s_empty calls /\
    ex_run false calls = [ADone; AStatOut 384 0; ADone] /\ ex_plain false calls = [ADone; AStatOut 128 0; AFail EACCES].
Proof.
  exists [ACreate 0 2 128; AStat; AOpen 1 0]. split.
  - cbn [all_sane sane]. repeat split; first [discriminate | reflexivity].
  - split; vm_compute; reflexivity.
Qed.
Print Assumptions C88_created_mode_refuted.

(** with padding, a file that its owner may not read has no size; *)
Theorem C88_stat_refuted :
  exists calls, all_sane true true false 18 (lite_max_blocks * 32) s_empty calls /\
    ex_run true calls = [ADone; ADone; AFail EACCES] /\ ex_plain true calls = [ADone; ADone; AStatOut 0 0].
Proof.
  exists [ACreate 0 2 384; AChmod 0; AStat]. split; [cbn [all_sane sane]; repeat split|split; vm_compute; reflexivity].
Qed.
Print Assumptions C88_stat_refuted.

(** and a file that is opened for reading with O_TRUNC is emptied, but not opened, and then
    cannot be opened for reading, until somebody opens it for writing. *)
Theorem C88_truncated_for_reading_refuted :
  ex_run false [ACreate 0 2 384; AIo 0 (SWrite 0 [x61]); AOpen 1 512; AOpen 2 0; AStat; AOpen 3 2; AOpen 4 0]
  = [ADone; AData ODone; AFail EBADF; AFail EBADF; AStatOut 384 0; ADone; ADone].
Proof. vm_compute. reflexivity. Qed.
Print Assumptions C88_truncated_for_reading_refuted.
