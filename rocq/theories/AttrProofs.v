(** Attribute header and timestamp proofs. *)
From Verif Require Import Base BaseLemmas CodecModel CodecProofs StreamSpec BlockModel LiteModel FullStreamModel FullStreamProofs AttrModel.

(** ** The header codec *)

Definition ts_in_range (t : timespec) : Prop := (- 2 ^ 63 <= tv_sec t < 2 ^ 63)%Z /\ (tv_nsec t < 2 ^ 32)%N.

Definition attrs_in_range (a : attrs) : Prop :=
  Forall (fun f => (f < 2 ^ 32)%N) (flags_of a) /\
  ts_in_range (a_atime a) /\ ts_in_range (a_mtime a) /\ ts_in_range (a_ctime a) /\ ts_in_range (a_birth a).

Lemma u64_roundtrip z : (- 2 ^ 63 <= z < 2 ^ 63)%Z -> of_u64 (to_u64 z) = z /\ (to_u64 z < 2 ^ 64)%N.
Proof.
  intros H. unfold of_u64, to_u64.
  destruct (Z.neg_nonneg_cases z) as [Hn|Hp].
  - assert (E : (z mod 2 ^ 64 = z + 2 ^ 64)%Z) by (symmetry; apply (Z.mod_unique z (2 ^ 64) (-1)); lia).
    rewrite E. destruct (N.ltb_spec (Z.to_N (z + 2 ^ 64)) (2 ^ 63)); lia.
  - rewrite Z.mod_small by lia. destruct (N.ltb_spec (Z.to_N z) (2 ^ 63)); lia.
Qed.

Lemma list4 {T} (l : list T) : length l = 4 -> exists a b c d, l = [a; b; c; d].
Proof. destruct l as [|a [|b [|c [|d [|? ?]]]]]; cbn; try discriminate. eauto. Qed.
Lemma list8 {T} (l : list T) : length l = 8 -> exists a b c d e f g h, l = [a; b; c; d; e; f; g; h].
Proof. destruct l as [|a [|b [|c [|d [|e [|f [|g [|h [|? ?]]]]]]]]]; cbn; try discriminate. eauto 10. Qed.

Lemma le4 f : (f < 2 ^ 32)%N -> exists a b c d, to_le 4 f = [a; b; c; d] /\ from_le [a; b; c; d] = f.
Proof.
  intros H. destruct (list4 (to_le 4 f) (to_le_length 4 f)) as (a & b & c & d & E).
  exists a, b, c, d. split; [exact E|]. rewrite <- E. apply from_to_le. exact H.
Qed.
Lemma le8 n : (n < 2 ^ 64)%N -> exists a b c d e f g h, to_le 8 n = [a; b; c; d; e; f; g; h] /\ from_le [a; b; c; d; e; f; g; h] = n.
Proof.
  intros H. destruct (list8 (to_le 8 n) (to_le_length 8 n)) as (a & b & c & d & e & f & g & h & E).
  exists a, b, c, d, e, f, g, h. split; [exact E|]. rewrite <- E. apply from_to_le. exact H.
Qed.

Ltac open4 f := let E := fresh "E" in let R := fresh "R" in
  destruct (le4 f ltac:(assumption)) as (? & ? & ? & ? & E & R); rewrite E; clear E.
Ltac open8 f := let E := fresh "E" in let R := fresh "R" in
  destruct (le8 f ltac:(assumption)) as (? & ? & ? & ? & ? & ? & ? & ? & E & R); rewrite E; clear E.

Definition without_times (a : attrs) : attrs :=
  mkAttrs (a_mode a) (a_uid a) (a_gid a) (a_nlink a) (a_root_page a) (a_start_free a) (a_num_free a)
          zero_time zero_time zero_time zero_time.

Lemma pack_unpack store_time a : attrs_in_range a ->
  unpack_attrs store_time (Some (pack_attrs store_time a)) = ((if store_time then a else without_times a), false).
Proof.
  destruct a as [f0 f1 f2 f3 f4 f5 f6 [s0 n0] [s1 n1] [s2 n2] [s3 n3]].
  unfold attrs_in_range, ts_in_range, flags_of. cbn [a_mode a_uid a_gid a_nlink a_root_page a_start_free a_num_free a_atime a_mtime a_ctime a_birth tv_sec tv_nsec].
  intros (HF & [Hs0 Hn0] & [Hs1 Hn1] & [Hs2 Hn2] & [Hs3 Hn3]).
  repeat match goal with H : Forall _ (_ :: _) |- _ => inversion H; subst; clear H end.
  destruct (u64_roundtrip s0 Hs0) as [Z0 L0]. destruct (u64_roundtrip s1 Hs1) as [Z1 L1].
  destruct (u64_roundtrip s2 Hs2) as [Z2 L2]. destruct (u64_roundtrip s3 Hs3) as [Z3 L3].
  destruct store_time.
  - unfold pack_attrs, put_time, flags_of, without_times, unpack_attrs, get_time, get_flag.
    cbn [put_flags a_mode a_uid a_gid a_nlink a_root_page a_start_free a_num_free a_atime a_mtime a_ctime a_birth tv_sec tv_nsec].
    open4 f0. open4 f1. open4 f2. open4 f3. open4 f4. open4 f5. open4 f6.
    open4 n0. open4 n1. open4 n2. open4 n3.
    open8 (to_u64 s0). open8 (to_u64 s1). open8 (to_u64 s2). open8 (to_u64 s3).
    cbv [attr_header_size zeros repeat put_at arr_read firstn skipn app length Nat.mul Nat.add atime_offset mtime_offset ctime_offset btime_offset num_flags].
    congruence.
  - unfold pack_attrs, put_time, flags_of, without_times, unpack_attrs, get_time, get_flag.
    cbn [put_flags a_mode a_uid a_gid a_nlink a_root_page a_start_free a_num_free a_atime a_mtime a_ctime a_birth tv_sec tv_nsec].
    open4 f0. open4 f1. open4 f2. open4 f3. open4 f4. open4 f5. open4 f6.
    cbv [attr_header_size zeros repeat put_at arr_read firstn skipn app length Nat.mul Nat.add atime_offset mtime_offset ctime_offset btime_offset num_flags].
    congruence.
Qed.

Lemma put_flags_length fs : forall h i, (i + length fs) * 4 <= length h -> length (put_flags h i fs) = length h.
Proof.
  induction fs as [|f fs IH]; intros h i H; [reflexivity|]. cbn [put_flags length] in *.
  assert (HL : length (put_at h (i * 4) (to_le 4 f)) = length h) by (apply put_at_length; rewrite to_le_length; lia).
  rewrite IH; rewrite HL; [reflexivity|lia].
Qed.

Lemma put_time_length h off t : off + 12 <= length h -> length (put_time h off t) = length h.
Proof.
  intros H. unfold put_time.
  assert (HL : length (put_at h off (to_le 8 (to_u64 (tv_sec t)))) = length h) by (apply put_at_length; rewrite to_le_length; lia).
  rewrite put_at_length; [exact HL|]. rewrite HL, to_le_length. lia.
Qed.

Lemma pack_length store_time a : length (pack_attrs store_time a) = attr_header_size store_time.
Proof.
  unfold pack_attrs. assert (H : length (put_flags (zeros (attr_header_size store_time)) 0 (flags_of a)) = attr_header_size store_time).
  { rewrite put_flags_length; rewrite zeros_length; [reflexivity|]. destruct store_time; cbn; lia. }
  destruct store_time; [|exact H]. cbn [attr_header_size] in *.
  assert (HT : forall h off t, length h = 80 -> off + 12 <= 80 -> length (put_time h off t) = 80)
    by (intros h off t Hh Ho; rewrite put_time_length; lia).
  unfold btime_offset, ctime_offset, mtime_offset, atime_offset, num_flags.
  repeat (apply HT; [|lia]). exact H.
Qed.

(** ** Through the encrypted file *)

Definition no_header_write (o : fop) : Prop := match o with FWriteHeader _ => False | _ => True end.

Lemma run_ops_app {St Op Out} (step : St -> Op -> St * Out) s a b :
  run_ops step s (a ++ b) =
  (fst (run_ops step (fst (run_ops step s a)) b), snd (run_ops step s a) ++ snd (run_ops step (fst (run_ops step s a)) b)).
Proof.
  revert s; induction a as [|x a IH]; intros s; cbn [run_ops app fst snd].
  - destruct (run_ops step s b); reflexivity.
  - destruct (step s x) as [s' r]. rewrite IH. destruct (run_ops step s' a) as [s'' rs]. cbn [fst snd]. reflexivity.
Qed.

Lemma spec_header_kept hs ops : Forall no_header_write ops -> forall c h,
  snd (fst (run_ops (fspec_step hs) (c, h) ops)) = h.
Proof.
  induction 1 as [|o ops Ho _ IH]; intros c h; [reflexivity|]. cbn [run_ops].
  destruct o as [o| w | len | |]; cbn [fspec_step no_header_write] in *; try contradiction.
  - destruct (spec_step c o) as [c' r]. specialize (IH c' h). destruct (run_ops _ (c', h) ops). exact IH.
  - specialize (IH c h). destruct (run_ops _ (c, h) ops). exact IH.
  - specialize (IH c h). destruct (run_ops _ (c, h) ops). exact IH.
  - specialize (IH c h). destruct (run_ops _ (c, h) ops). exact IH.
Qed.

Lemma attrs_survive_reopen (A : aead) hmac dkey mkey id bs iv_size check sparse rnd iv_fuel store_time k pre a post k2 :
  full_env_ok A hmac bs iv_size rnd iv_fuel ->
  attrs_in_range a ->
  let hs := attr_header_size store_time in
  Forall (fop_within (full_max_blocks * bs) hs) pre ->
  Forall (fop_within (full_max_blocks * bs) hs) post ->
  Forall no_header_write post ->
  let step := full_step A hmac dkey mkey id bs iv_size hs check sparse rnd iv_fuel in
  let s := fst (run_ops step (mkFull [] [] false k) (pre ++ FWriteHeader (pack_attrs store_time a) :: post)) in
  let sF := fst (full_flush hmac mkey id s) in
  exists s1, full_open hmac mkey id check (f_data sF) (f_meta sF) k2 = Ok s1 /\
             load_attrs A dkey id iv_size store_time s1 = Ok ((if store_time then a else without_times a), false).
Proof.
  intros HE Ha hs Hpre Hpost Hnh step s sF.
  assert (Hops : Forall (fop_within (full_max_blocks * bs) hs) (pre ++ FWriteHeader (pack_attrs store_time a) :: post)).
  { apply Forall_app. split; [exact Hpre|]. constructor; [|exact Hpost]. cbn. rewrite pack_length. apply Nat.le_refl. }
  destruct (full_reopen_history A hmac dkey mkey id bs iv_size hs check sparse rnd iv_fuel HE k
              (pre ++ FWriteHeader (pack_attrs store_time a) :: post) k2 [FReadHeader hs] Hops) as (s1 & H1 & H2).
  { constructor; [apply Nat.le_refl|constructor]. }
  exists s1. split; [exact H1|].
  set (sp := fst (run_ops (fspec_step hs) ([], None) (pre ++ FWriteHeader (pack_attrs store_time a) :: post))) in *.
  assert (Hh : snd sp = Some (pack_attrs store_time a)).
  { unfold sp. rewrite run_ops_app. cbn [fst]. destruct (run_ops (fspec_step hs) ([], None) pre) as [[c0 h0] out0]. cbn [fst].
    cbn [run_ops fspec_step]. rewrite pack_length. fold hs. rewrite Nat.sub_diag. cbn [zeros repeat]. rewrite app_nil_r.
    pose proof (spec_header_kept hs post Hnh c0 (Some (pack_attrs store_time a))) as HK.
    destruct (run_ops (fspec_step hs) (c0, Some (pack_attrs store_time a)) post). exact HK. }
  destruct sp as [c h]. cbn [snd] in Hh. subst h. cbn [run_ops fspec_step snd] in H2.
  unfold load_attrs. fold hs.
  destruct (full_read_header A dkey id iv_size hs hs s1) as [oh|e] eqn:ER.
  - cbn [full_step] in H2. rewrite ER in H2. cbn [snd] in H2. inversion H2 as [|? ? ? ? Ho _]; subst.
    destruct Ho as [Ho|Ho]; [discriminate|]. injection Ho as <-.
    unfold hs. rewrite <- (pack_length store_time a) at 1. rewrite firstn_all. cbn [rmap]. rewrite pack_unpack by exact Ha. reflexivity.
  - cbn [full_step] in H2. rewrite ER in H2. cbn [snd] in H2. inversion H2 as [|? ? ? ? Ho _]; subst.
    destruct Ho as [Ho|Ho]; discriminate.
Qed.

(** ** Timestamps *)

Lemma run_snoc st junk a evs ev : attr_run st junk a (evs ++ [ev]) = attr_step st junk (attr_run st junk a evs) ev.
Proof. unfold attr_run. rewrite fold_left_app. reflexivity. Qed.

Lemma set_if_birth g s v st now a : (forall v a, a_birth (s v a) = a_birth a) -> a_birth (set_if g s st now v a) = a_birth a.
Proof. intros H. unfold set_if, update_ctime. destruct (g a =? v)%N, st; cbn; auto. Qed.
Lemma set_if_mtime g s v st now a : (forall v a, a_mtime (s v a) = a_mtime a) -> a_mtime (set_if g s st now v a) = a_mtime a.
Proof. intros H. unfold set_if, update_ctime. destruct (g a =? v)%N, st; cbn; auto. Qed.
Lemma set_if_atime g s v st now a : (forall v a, a_atime (s v a) = a_atime a) -> a_atime (set_if g s st now v a) = a_atime a.
Proof. intros H. unfold set_if, update_ctime. destruct (g a =? v)%N, st; cbn; auto. Qed.

Lemma step_birth st junk a ev : a_birth (attr_step st junk a ev) = a_birth a.
Proof.
  destruct ev as [op now]. destruct op as [| |m|u g| | |[[t0 t1]|]]; cbn [attr_step];
    unfold update_atime, update_mtime; try (destruct st; reflexivity).
  - destruct (st && _); reflexivity.
  - apply set_if_birth; reflexivity.
  - destruct (u =? u32_max)%N, (g =? u32_max)%N; rewrite ?set_if_birth; reflexivity.
  - apply set_if_birth; reflexivity.
Qed.

Lemma run_birth st junk a evs : a_birth (attr_run st junk a evs) = a_birth a.
Proof.
  unfold attr_run. revert a. induction evs as [|ev evs IH]; intros a; [reflexivity|]. cbn [fold_left].
  rewrite IH. apply step_birth.
Qed.

Definition no_null_utimens (ev : attr_op * timespec) : Prop := fst ev <> AUtimens None.

(** What an event sets the modification time to, if anything. *)
Definition mtime_event (ev : attr_op * timespec) : option timespec :=
  match ev with
  | (AModify, now) => Some now
  | (AUtimens (Some (_, t1)), _) => Some t1
  | _ => None
  end.
(** The value set by the most recent event, or the initial one. *)
Definition latest {E} (f : E -> option timespec) (init : timespec) (evs : list E) : timespec :=
  fold_left (fun acc ev => match f ev with Some t => t | None => acc end) evs init.

Lemma step_mtime junk a ev : no_null_utimens ev ->
  a_mtime (attr_step true junk a ev) = match mtime_event ev with Some t => t | None => a_mtime a end.
Proof.
  destruct ev as [op now]. unfold no_null_utimens. cbn [fst].
  destruct op as [| |m|u g| | |[[t0 t1]|]]; cbn [attr_step mtime_event]; intros H; try reflexivity; try congruence.
  - unfold update_atime. destruct (true && _); reflexivity.
  - apply set_if_mtime; reflexivity.
  - destruct (u =? u32_max)%N, (g =? u32_max)%N; rewrite ?set_if_mtime; reflexivity.
  - apply set_if_mtime; reflexivity.
Qed.

Lemma run_mtime junk a evs : Forall no_null_utimens evs ->
  a_mtime (attr_run true junk a evs) = latest mtime_event (a_mtime a) evs.
Proof.
  unfold attr_run, latest. intros H. revert a. induction H as [|ev evs Hev _ IH]; intros a; [reflexivity|].
  cbn [fold_left]. rewrite IH, step_mtime by exact Hev. reflexivity.
Qed.

(** The attributes a user sees apart from times. *)
Definition visible (a : attrs) := (a_mode a, a_uid a, a_gid a, a_nlink a).

Lemma set_if_ctime g s v now a :
  (forall v a, a_ctime (s v a) = a_ctime a) -> (forall v a, g (s v a) = v) ->
  a_ctime (set_if g s true now v a) = (if (g a =? v)%N then a_ctime a else now).
Proof. intros H1 H2. unfold set_if, update_ctime. destruct (g a =? v)%N; cbn; auto. Qed.

Lemma step_ctime junk a op now :
  op <> AUnlink -> (forall ts, op <> AUtimens ts) -> (a_nlink a < u32_max)%N ->
  let a' := attr_step true junk a (op, now) in
  (op = AModify \/ visible a' <> visible a -> a_ctime a' = now) /\
  (op <> AModify -> visible a' = visible a -> a_ctime a' = a_ctime a).
Proof.
  intros H1 H2 Hn. cbv zeta. destruct op as [| |m|u g| | |ts]; try congruence; try (exfalso; eapply H2; reflexivity); clear H1 H2.
  - cbn [attr_step]. unfold update_atime. destruct (true && _); cbn; (split; [intros [H|H]; [discriminate|exfalso; apply H; reflexivity]|reflexivity]).
  - cbn. split; [reflexivity|congruence].
  - cbn [attr_step]. unfold set_if. destruct (N.eqb_spec (a_mode a) (N.lor (N.land (a_mode a) (N.ldiff (N.ones 32) 511)) (N.land m 511))) as [E|E].
    + split; [intros [H|H]; [discriminate|exfalso; apply H; reflexivity]|reflexivity].
    + cbn. split; [reflexivity|]. intros _ H. exfalso. apply E. apply (f_equal (fun p => fst (fst (fst p)))) in H. symmetry. exact H.
  - cbn [attr_step].
    destruct (N.eqb_spec u u32_max) as [Eu|Eu], (N.eqb_spec g u32_max) as [Eg|Eg]; unfold set_if; cbn [a_uid a_gid].
    + split; [intros [H|H]; [discriminate|exfalso; apply H; reflexivity]|reflexivity].
    + destruct (N.eqb_spec (a_gid a) g) as [E|E].
      * split; [intros [H|H]; [discriminate|exfalso; apply H; reflexivity]|reflexivity].
      * cbn. split; [reflexivity|]. intros _ H. unfold visible in H. cbn in H. injection H. congruence.
    + destruct (N.eqb_spec (a_uid a) u) as [E|E].
      * split; [intros [H|H]; [discriminate|exfalso; apply H; reflexivity]|reflexivity].
      * cbn. split; [reflexivity|]. intros _ H. unfold visible in H. cbn in H. injection H. congruence.
    + destruct (N.eqb_spec (a_uid a) u) as [E|E]; cbn [update_ctime set_ctime set_uid a_gid a_uid];
        destruct (N.eqb_spec (a_gid a) g) as [E'|E']; cbn;
        (split; [intros [H|H]; try discriminate; try reflexivity; try (exfalso; apply H; reflexivity)|
                 intros _ H; try reflexivity; unfold visible in H; cbn in H; injection H; intros; congruence]).
  - cbn [attr_step]. unfold set_if.
    assert (E : ((a_nlink a + 1) mod 2 ^ 32 = a_nlink a + 1)%N) by (apply N.mod_small; unfold u32_max in Hn; lia).
    rewrite E. destruct (N.eqb_spec (a_nlink a) (a_nlink a + 1)); [lia|]. cbn.
    split; [reflexivity|]. intros _ H. unfold visible in H. cbn in H. injection H. lia.
Qed.

(** Access time. *)
Lemma step_atime junk a op now :
  op <> ARead -> (forall ts, op <> AUtimens ts) -> a_atime (attr_step true junk a (op, now)) = a_atime a.
Proof.
  intros H1 H2. destruct op as [| |m|u g| | |ts]; try congruence; try (exfalso; eapply H2; reflexivity); cbn [attr_step]; try reflexivity.
  - apply set_if_atime; reflexivity.
  - destruct (u =? u32_max)%N, (g =? u32_max)%N; rewrite ?set_if_atime; reflexivity.
  - apply set_if_atime; reflexivity.
Qed.

Lemma read_atime junk a now :
  let a' := attr_step true junk a (ARead, now) in
  a_mtime a' = a_mtime a /\ a_ctime a' = a_ctime a /\
  ((tv_sec (a_mtime a) <= tv_sec (a_atime a))%Z -> (tv_sec (a_ctime a) <= tv_sec (a_atime a))%Z -> a_atime a' = a_atime a) /\
  ((tv_sec (a_mtime a) <= tv_sec now)%Z -> (tv_sec (a_ctime a) <= tv_sec now)%Z ->
   (tv_sec (a_mtime a) <= tv_sec (a_atime a'))%Z /\ (tv_sec (a_ctime a) <= tv_sec (a_atime a'))%Z) /\
  (a_atime a' = a_atime a \/ a_atime a' = now).
Proof.
  cbn [attr_step]. unfold update_atime.
  destruct (Z.ltb_spec (tv_sec (a_atime a)) (tv_sec (a_mtime a))), (Z.ltb_spec (tv_sec (a_atime a)) (tv_sec (a_ctime a))); cbn;
    (split; [reflexivity|split; [reflexivity|split; [|split]]]); try lia; auto; intros; reflexivity.
Qed.

Definition times (a : attrs) := (a_atime a, a_mtime a, a_ctime a, a_birth a).

Lemma no_store_times junk a evs : times (attr_run false junk a evs) = times a.
Proof.
  unfold attr_run. revert a. induction evs as [|[op now] evs IH]; intros a; [reflexivity|]. cbn [fold_left]. rewrite IH.
  destruct op as [| |m|u g| | |ts]; cbn [attr_step]; try reflexivity.
  - unfold set_if. destruct (_ =? _)%N; reflexivity.
  - unfold set_if. destruct (u =? u32_max)%N, (g =? u32_max)%N; repeat (destruct (_ =? _)%N); reflexivity.
  - unfold set_if. destruct (_ =? _)%N; reflexivity.
Qed.
