(** An ordinary file behind the flags and modes of [AccessModel]. *)
From Verif Require Import Base BaseLemmas StreamSpec BlockModel BlockProofs LiteModel LiteProofs LiteTamper
  HandleModel HandleSpec HandleProofs CrashModel CrashSpec CrashProofs CrashTop DurableProofs AccessModel AccessSpec.
Local Open Scope list_scope.

(** ** Bits *)
Lemma has_bit x k : has x (2 ^ k) = N.testbit x k.
Proof.
  unfold has. destruct (N.testbit x k) eqn:E.
  - destruct (N.eqb_spec (N.land x (2 ^ k)) 0) as [H|]; [|reflexivity]. exfalso.
    assert (K : N.testbit (N.land x (2 ^ k)) k = true) by (rewrite N.land_spec, E, N.pow2_bits_true; reflexivity).
    rewrite H, N.bits_0 in K. discriminate K.
  - assert (H : N.land x (2 ^ k) = 0%N); [|rewrite H; reflexivity].
    apply N.bits_inj. intro n. rewrite N.land_spec, N.bits_0. destruct (N.eq_dec k n) as [<-|D].
    + rewrite E. reflexivity.
    + rewrite N.pow2_bits_false by exact D. apply andb_false_r.
Qed.
Lemma has_trunc x : has x O_TRUNC = N.testbit x 9.
Proof. exact (has_bit x 9). Qed.
Lemma has_append x : has x O_APPEND = N.testbit x 10.
Proof. exact (has_bit x 10). Qed.
Lemma has_creat x : has x O_CREAT = N.testbit x 6.
Proof. exact (has_bit x 6). Qed.
Lemma has_r x : has x S_IRUSR = N.testbit x 8.
Proof. exact (has_bit x 8). Qed.
Lemma has_w x : has x S_IWUSR = N.testbit x 7.
Proof. exact (has_bit x 7). Qed.

Lemma acc_range x : (N.land x O_ACCMODE = 0 \/ N.land x O_ACCMODE = 1 \/ N.land x O_ACCMODE = 2 \/ N.land x O_ACCMODE = 3)%N.
Proof.
  change O_ACCMODE with (N.ones 2). rewrite N.land_ones. pose proof (N.mod_lt x (2 ^ 2) ltac:(discriminate)) as H.
  change (2 ^ 2)%N with 4%N in *. lia.
Qed.
Lemma bit3 n : N.testbit 3 n = (n =? 0)%N || (n =? 1)%N.
Proof.
  destruct (N.eq_dec n 0) as [->|H0]; [reflexivity|]. destruct (N.eq_dec n 1) as [->|H1]; [reflexivity|].
  rewrite N.bits_above_log2 by (cbn; lia). symmetry. apply orb_false_intro; apply N.eqb_neq; assumption.
Qed.
Lemma land_3 x y : (forall n, (n < 2)%N -> N.testbit x n = N.testbit y n) -> N.land x 3 = N.land y 3.
Proof.
  intros H. apply N.bits_inj. intro n. rewrite !N.land_spec, bit3.
  destruct (n =? 0)%N eqn:E0; [apply N.eqb_eq in E0; subst n; rewrite H by lia; reflexivity|].
  destruct (n =? 1)%N eqn:E1; [apply N.eqb_eq in E1; subst n; rewrite H by lia; reflexivity|].
  cbn [orb]. rewrite !andb_false_r. reflexivity.
Qed.

(** What [open_flags] changes: nothing but the bits 0, 1 and 10. *)
Lemma flags_high x n : (2 <= n)%N -> n <> 10%N -> N.testbit (open_flags x) n = N.testbit x n.
Proof.
  intros H2 H10. unfold open_flags. cbv zeta.
  assert (E : N.testbit (if has x O_APPEND then N.ldiff x O_APPEND else x) n = N.testbit x n).
  { destruct (has x O_APPEND); [|reflexivity]. rewrite N.ldiff_spec. change O_APPEND with (2 ^ 10)%N.
    rewrite N.pow2_bits_false by (intro K; apply H10; symmetry; exact K). apply andb_true_r. }
  destruct (_ =? _)%N; [|exact E]. rewrite N.lor_spec, N.ldiff_spec, E.
  assert (B3 : N.testbit O_ACCMODE n = false).
  { change O_ACCMODE with 3%N. rewrite bit3. apply orb_false_intro; apply N.eqb_neq; lia. }
  assert (B2 : N.testbit O_RDWR n = false) by (change O_RDWR with (2 ^ 1)%N; apply N.pow2_bits_false; lia).
  rewrite B3, B2. cbn [negb]. rewrite andb_true_r, orb_false_r. reflexivity.
Qed.
Lemma flags_append x : N.testbit (open_flags x) 10 = false.
Proof.
  unfold open_flags. cbv zeta. rewrite has_append.
  assert (E : N.testbit (if N.testbit x 10 then N.ldiff x O_APPEND else x) 10 = false).
  { destruct (N.testbit x 10) eqn:E; [|exact E]. rewrite N.ldiff_spec, E. reflexivity. }
  destruct (_ =? _)%N; [|exact E]. rewrite N.lor_spec, N.ldiff_spec, E. reflexivity.
Qed.
Lemma flags_acc x : N.land (open_flags x) O_ACCMODE
  = (if N.land x O_ACCMODE =? 1 then 2 else N.land x O_ACCMODE)%N.
Proof.
  unfold open_flags. cbv zeta. set (y := if has x O_APPEND then _ else _).
  assert (E : N.land y O_ACCMODE = N.land x O_ACCMODE).
  { apply land_3. intros n Hn. unfold y. destruct (has x O_APPEND); [|reflexivity]. rewrite N.ldiff_spec.
    change O_APPEND with (2 ^ 10)%N. rewrite N.pow2_bits_false by lia. apply andb_true_r. }
  rewrite E. change O_WRONLY with 1%N. destruct (N.land x O_ACCMODE =? 1)%N; [|exact E].
  change 2%N with (N.land 2 3). apply land_3. intros n Hn. rewrite N.lor_spec, N.ldiff_spec.
  change O_ACCMODE with 3%N. rewrite bit3.
  assert ((n =? 0) || (n =? 1) = true)%N as ->.
  { destruct (N.eq_dec n 0) as [->|]; [reflexivity|]. assert (n = 1%N) as -> by lia. reflexivity. }
  cbn [negb]. rewrite andb_false_r. reflexivity.
Qed.

Section AccessProofs.
Variable A : aead.
Variable bs iv_size : nat.
Variable check sparse : bool.
Variable session_key : bytes -> bytes.
Variable padding_of : bytes -> nat.
Variable padded : bool.
Variable rnd : nat -> nat -> bytes.
Variable iv_fuel : nat.
Variable super : bool.
Variable umask : N.
Hypothesis HE : lite_env_ok A bs iv_size rnd iv_fuel.
Hypothesis HP : padded = false -> forall id, padding_of id = 0.

Local Notation lim := (lite_max_blocks * bs).
Local Notation holds := (holds A bs iv_size check session_key padding_of).
Local Notation step := (a_step A bs iv_size check sparse session_key padding_of padded rnd iv_fuel super umask).
Local Notation spec := (s_step false padded super umask).
Local Notation lopen := (lite_open bs iv_size session_key padding_of rnd).
Local Notation B := (lite_backend A bs iv_size check sparse rnd iv_fuel).
Local Notation fio := (fd_io A bs iv_size check sparse rnd iv_fuel).

(** A descriptor that can write and does not append. *)
Lemma replay_fd fd : fd_writes fd = true -> has fd O_APPEND = false ->
  forall l f, fd_replay fd f l = (replay f l, None).
Proof.
  intros Hw Ha l. induction l as [|p l IH]; intros f; [reflexivity|]. cbn [fd_replay].
  unfold replay. cbn [fold_left]. destruct p; cbn [fd_perform perform]; rewrite Hw, ?Ha; apply IH.
Qed.

(** A descriptor that fits what was asked for. *)
Record fits (asked fd : N) : Prop := {
  f_r : fd_reads fd = true;
  f_w : writes asked = true -> fd_writes fd = true;
  f_a : has fd O_APPEND = false }.

Lemma io_fits asked fd d key pad c k o : fits asked fd -> allows_io asked o = true -> holds d key pad c -> sop_within lim o ->
  exists l, fio fd (mkLite d key pad k) o = (l, snd (spec_step c o)) /\ l_key l = key /\ l_pad l = pad /\
    holds (l_file l) key pad (fst (spec_step c o)).
Proof.
  intros [Fr Fw Fa] Hal H Ho.
  destruct (holds_io A bs iv_size check sparse session_key padding_of rnd iv_fuel HE _ _ _ _ k o H Ho) as (l & E & H').
  assert (Hf : Forall (lop_within lim) [LOp o]) by (constructor; [exact Ho|constructor]).
  destruct (run_key A bs iv_size check sparse session_key padding_of rnd iv_fuel HE _ c [LOp o]
              (holds_rng A bs iv_size check session_key padding_of _ _ _ _ k H) (proj2 H) Hf) as [K1 K2].
  cbn [run_ops lite_step] in K1, K2. rewrite E in K1, K2. cbn [fst l_key l_pad] in K1, K2.
  unfold fd_io. rewrite Fr. cbn [negb]. rewrite E.
  pose proof (lite_accounted A bs iv_size check sparse rnd iv_fuel (mkLite d key pad k) o) as HA. rewrite E in HA. cbn [fst l_file] in HA.
  assert (R : fd_replay fd d (lite_trace A bs iv_size check sparse rnd iv_fuel (mkLite d key pad k) o) = (l_file l, None)).
  { destruct (fd_writes fd) eqn:W.
    - rewrite (replay_fd fd W Fa). cbn [l_file] in HA. rewrite <- HA. reflexivity.
    - assert (Hi : match o with SRead _ _ | SSize => True | _ => False end).
      { destruct o; cbn [allows_io] in Hal; try exact I; specialize (Fw Hal); discriminate Fw. }
      unfold lite_trace in *. rewrite idle_trace in *; [|destruct o; try contradiction; exact I..].
      cbn [fd_replay]. cbn in HA. congruence. }
  cbn [l_file]. rewrite R. eexists. split; [reflexivity|]. cbn [l_key l_pad l_file]. auto.
Qed.

Lemma holds_len d key pad c : holds d key pad c -> lite_id_size <= length d.
Proof.
  intros H. pose proof (rep_len _ _ _ _ _ _ _ _ (proj1 H)) as L. unfold l_header in L. cbn [l_file l_pad] in L. lia.
Qed.

(** The constructor on a file that has its header, and on an empty one. *)
Lemma stream_old fd d key pad c k : fd_reads fd = true -> holds d key pad c ->
  fd_stream bs iv_size session_key padding_of rnd fd d k = (d, Ok (mkLite d key pad k)).
Proof.
  intros Fr H. unfold fd_stream. rewrite Fr. cbn [negb].
  rewrite (holds_open A bs iv_size check session_key padding_of rnd iv_fuel HE _ _ _ _ k H).
  unfold header_trace. pose proof (holds_len _ _ _ _ H) as L. unfold arr_read. cbn [skipn]. rewrite firstn_length_le by exact L.
  cbn [Nat.eqb lite_id_size fd_replay l_key l_pad l_rng]. reflexivity.
Qed.
Lemma header_all k l : lopen [] k = Ok l -> l_file l = replay [] (header_trace padding_of rnd [] k).
Proof.
  unfold lite_open, header_trace. destruct (_ || _); [discriminate|]. destruct (bs <? 32); [discriminate|].
  change (length (arr_read [] 0 lite_id_size)) with 0. cbn [Nat.eqb].
  destruct (padding_of (rnd k lite_id_size) =? 0); intros [= <-]; reflexivity.
Qed.
Lemma stream_new fd k : fd_reads fd = true -> fd_writes fd = true -> has fd O_APPEND = false ->
  exists l, fd_stream bs iv_size session_key padding_of rnd fd [] k = (l_file l, Ok l) /\ holds (l_file l) (l_key l) (l_pad l) [].
Proof.
  intros Fr Fw Fa. destruct (holds_fresh A bs iv_size check session_key padding_of padded rnd iv_fuel HE HP k) as (l & E & H).
  exists l. split; [|exact H]. unfold fd_stream. rewrite Fr, E. cbn [negb]. rewrite (replay_fd fd Fw Fa), <- (header_all _ _ E).
  destruct l; reflexivity.
Qed.

(** ** Opening *)
Lemma flags_fit flags : N.land flags O_ACCMODE <> 3%N -> fits flags (open_flags flags).
Proof.
  intros H3. constructor.
  - unfold fd_reads. rewrite flags_acc. destruct (acc_range flags) as [E|[E|[E|E]]]; rewrite E; try reflexivity. contradiction.
  - unfold writes, fd_writes. rewrite flags_acc. intros H. destruct (acc_range flags) as [E|[E|[E|E]]]; rewrite E in *; try reflexivity; discriminate H.
  - rewrite has_append. apply flags_append.
Qed.

Lemma host_old f flags mode : N.land flags O_ACCMODE <> 3%N -> N.testbit flags 6 = false -> (truncates flags = true -> writes flags = true) ->
  host_open super umask (Some f) (open_flags flags) mode
  = if allows_open false super (af_mode f) flags then Ok (if truncates flags then mkAf (af_mode f) [] else f) else Err EACCES.
Proof.
  intros H3 H6 Ht. unfold host_open. rewrite has_creat, flags_high, H6 by lia. cbn [andb]. cbv zeta.
  rewrite has_trunc, flags_high, has_r, has_w, flags_acc by lia. unfold allows_open, may_read, may_write.
  change (N.testbit flags 9) with (truncates flags) in *. unfold writes, reads in *.
  destruct super; [reflexivity|]. cbn [orb negb andb].
  destruct (acc_range flags) as [E|[E|[E|E]]]; rewrite E in *; cbn [N.eqb Pos.eqb orb negb andb] in *; try contradiction.
  - destruct (truncates flags); [specialize (Ht eq_refl); discriminate Ht|].
    destruct (N.testbit (af_mode f) 8), (N.testbit (af_mode f) 7); reflexivity.
  - destruct (truncates flags), (N.testbit (af_mode f) 8), (N.testbit (af_mode f) 7); reflexivity.
  - destruct (truncates flags), (N.testbit (af_mode f) 8), (N.testbit (af_mode f) 7); reflexivity.
Qed.

Local Notation aopen := (a_open A bs iv_size check sparse session_key padding_of rnd iv_fuel super umask).

Lemma open_old s f flags key pad c : a_file s = Some f -> holds (af_data f) key pad c ->
  N.land flags O_ACCMODE <> 3%N -> N.testbit flags 6 = false -> (truncates flags = true -> writes flags = true) ->
  if allows_open false super (af_mode f) flags then
    exists d key' pad' k, aopen s flags 0 = (mkAst (Some (mkAf (af_mode f) d)) (a_handles s) k, Ok (open_flags flags, key', pad')) /\
      (if truncates flags then holds d key' pad' [] else d = af_data f /\ key' = key /\ pad' = pad)
  else aopen s flags 0 = (s, Err EACCES).
Proof.
  intros Hf H H3 H6 Ht. pose proof (flags_fit flags H3) as F. unfold a_open. cbv zeta. rewrite Hf, host_old by assumption.
  destruct (allows_open _ _ _ _); [|reflexivity].
  rewrite has_trunc, flags_high by lia. change (N.testbit flags 9) with (truncates flags).
  destruct (truncates flags) eqn:T; cbn [af_data af_mode].
  - destruct (stream_new (open_flags flags) (a_rng s) (f_r _ _ F) (f_w _ _ F (Ht eq_refl)) (f_a _ _ F)) as (l & E & Hl). rewrite E.
    destruct (io_fits flags (open_flags flags) (l_file l) (l_key l) (l_pad l) [] (l_rng l) (SResize 0) F (Ht eq_refl) Hl ltac:(cbn; lia)) as (l' & E' & K1 & K2 & H').
    replace (mkLite (l_file l) (l_key l) (l_pad l) (l_rng l)) with l in E' by (destruct l; reflexivity).
    rewrite E'. cbn [spec_step fst snd]. eexists (l_file l'), (l_key l'), (l_pad l'), _. split; [reflexivity|].
    rewrite K1, K2. exact H'.
  - rewrite (stream_old _ _ _ _ _ (a_rng s) (f_r _ _ F) H). cbn [l_key l_pad l_rng].
    eexists (af_data f), key, pad, _. split; [reflexivity|auto].
Qed.

Lemma open_none s flags : a_file s = None -> N.testbit flags 6 = false -> aopen s flags 0 = (s, Err ENOENT).
Proof.
  intros Hf H6. unfold a_open. cbv zeta. rewrite Hf. unfold host_open. rewrite has_creat, flags_high, H6 by lia. reflexivity.
Qed.

(** ** The relation *)
Record arel (s : ast) (p : sst) : Prop := {
  r_file : match a_file s, s_file p with
           | None, None => True
           | Some f, Some g => af_mode f = s_mode g /\ exists key pad, holds (af_data f) key pad (s_content g)
           | _, _ => False
           end;
  r_none : s_file p = None -> forall h, s_handles p h = None;
  r_hand : forall h asked, s_handles p h = Some asked ->
    exists ah, a_handles s h = Some ah /\ ah_asked ah = asked /\ fits asked (ah_fd ah) /\
      forall f g, a_file s = Some f -> s_file p = Some g -> holds (af_data f) (ah_key ah) (ah_pad ah) (s_content g) }.

Lemma arel_empty : arel a_empty s_empty.
Proof. constructor; cbn; [exact I|auto|discriminate]. Qed.

(** The content changes under one key and padding. *)
Lemma arel_content s p f g key pad d c m k : arel s p -> a_file s = Some f -> s_file p = Some g ->
  holds (af_data f) key pad (s_content g) -> holds d key pad c ->
  arel (mkAst (Some (mkAf m d)) (a_handles s) k) (mkSst (Some (mkFst m c)) (s_handles p)).
Proof.
  intros R Hf Hg H H'. constructor; cbn [a_file s_file a_handles s_handles].
  - split; [reflexivity|]. exists key, pad. exact H'.
  - discriminate.
  - intros h asked Hh. destruct (r_hand _ _ R h asked Hh) as (ah & E1 & E2 & F & Hd). exists ah. repeat (split; [assumption|]).
    intros f' g' [= <-] [= <-]. cbn [af_data s_content]. specialize (Hd f g Hf Hg).
    destruct (holds_same A bs iv_size check session_key padding_of rnd iv_fuel HE _ _ _ _ _ _ _ H Hd) as [-> ->]. exact H'.
Qed.

(** A handle is added. *)
Lemma arel_handle s p h asked fd key pad f g : arel s p -> a_file s = Some f -> s_file p = Some g -> fits asked fd ->
  holds (af_data f) key pad (s_content g) ->
  arel (with_handle s h (Some (mkAh asked fd key pad))) (mkSst (s_file p) (fupd (s_handles p) h (Some asked))).
Proof.
  intros R Hf Hg F H. constructor; cbn [with_handle a_file s_file a_handles s_handles].
  - apply (r_file _ _ R).
  - rewrite Hg. discriminate.
  - intros h' asked' Hh. unfold fupd in *. destruct (h =? h').
    + injection Hh as <-. eexists. split; [reflexivity|]. cbn [ah_asked ah_fd ah_key ah_pad]. split; [reflexivity|]. split; [exact F|].
      intros f' g' Hf' Hg'. assert (f' = f) as -> by congruence. assert (g' = g) as -> by congruence. exact H.
    + exact (r_hand _ _ R h' asked' Hh).
Qed.

Lemma may_setbit mode : N.ldiff (N.lor mode S_IRUSR) umask = new_mode false umask mode.
Proof. unfold new_mode. rewrite N.setbit_spec'. reflexivity. Qed.

Lemma size_ok s f key pad c : holds (af_data f) key pad c ->
  a_size bs iv_size session_key padding_of padded rnd super umask s f
  = if allows_stat false padded super (af_mode f) then Ok (length c) else Err EACCES.
Proof.
  intros H. pose proof (holds_stat A bs iv_size check session_key padding_of padded rnd iv_fuel HE HP
                          (mkH (fun _ => None) (fun _ => None) (fun _ => None) 0 (a_rng s)) (af_data f) key pad c H) as E.
  unfold stat_size in E. unfold a_size, allows_stat. cbn [h_rng] in E.
  pose proof (holds_len _ _ _ _ H) as L. destruct (Nat.eqb_spec (length (af_data f)) 0) as [Z|Z]; [unfold lite_id_size in L; lia|].
  pose proof (stream_old 0 _ _ _ _ (a_rng s) eq_refl H) as SO.
  pose proof (holds_open A bs iv_size check session_key padding_of rnd iv_fuel HE _ _ _ _ (a_rng s) H) as HO.
  destruct padded.
  - unfold host_open. change (has 0 O_CREAT && has 0 O_EXCL) with false. cbv iota. cbv zeta.
    change (N.land 0 O_ACCMODE) with 0%N. change (has 0 O_TRUNC) with false. cbn [N.eqb negb andb orb]. rewrite has_r, orb_false_r.
    unfold may_read. destruct super, (N.testbit (af_mode f) 8); cbn [negb andb orb]; try reflexivity;
      rewrite SO; rewrite HO in E; congruence.
  - injection E as ->. destruct super; reflexivity.
Qed.

Lemma astep_rel s p c : arel s p -> sane lim p c ->
  arel (fst (step s c)) (fst (spec p c)) /\ snd (step s c) = snd (spec p c).
Proof.
  intros R Hs. pose proof (r_file _ _ R) as RF.
  destruct c as [h asked mode|h flags|h o|n|mode| |h]; cbn [a_step s_step].
  - (* create *)
    destruct (a_file s) as [f|] eqn:Ef, (s_file p) as [g|] eqn:Eg; try contradiction.
    + unfold a_open. cbv zeta. rewrite Ef. cbn [fst snd]. split; [exact R|reflexivity].
    + unfold a_open. cbv zeta. rewrite Ef.
      change (open_flags (N.lor O_CREAT (N.lor O_EXCL O_RDWR))) with 194%N.
      unfold host_open. change (has 194 O_CREAT) with true. cbv iota. change (has 194 O_TRUNC) with false. cbv iota. cbn [af_data af_mode].
      destruct (stream_new 194 (a_rng s) eq_refl eq_refl eq_refl) as (l & E & Hl). rewrite E.
      change (open_mode 194 mode) with (N.lor mode S_IRUSR). rewrite may_setbit. cbn [fst snd].
      split; [|reflexivity].
      apply (arel_handle (mkAst (Some (mkAf (new_mode false umask mode) (l_file l))) (a_handles s) (l_rng l))
               (mkSst (Some (mkFst (new_mode false umask mode) [])) (s_handles p)) h asked 194 (l_key l) (l_pad l)
               (mkAf (new_mode false umask mode) (l_file l)) (mkFst (new_mode false umask mode) []));
        [|reflexivity|reflexivity|constructor; [reflexivity|reflexivity|reflexivity]|exact Hl].
      constructor; cbn [a_file s_file a_handles s_handles].
      * split; [reflexivity|]. exists (l_key l), (l_pad l). exact Hl.
      * discriminate.
      * intros h' asked' Hh. rewrite (r_none _ _ R Eg) in Hh. discriminate Hh.
  - (* open *)
    cbn [sane] in Hs. destruct Hs as (H3 & H6 & Ht).
    destruct (a_file s) as [f|] eqn:Ef, (s_file p) as [g|] eqn:Eg; try contradiction.
    + destruct RF as [Em (key & pad & H)]. pose proof (open_old s f flags key pad _ Ef H H3 H6 Ht) as O. rewrite Em in O.
      destruct (allows_open false super (s_mode g) flags); [|rewrite O; cbn [fst snd]; split; [exact R|reflexivity]].
      destruct O as (d & key' & pad' & k & E & Hd). rewrite E. destruct (truncates flags); cbn [fst snd]; split; try reflexivity.
      * apply (arel_handle (mkAst (Some (mkAf (s_mode g) d)) (a_handles s) k) (mkSst (Some (mkFst (s_mode g) [])) (fun _ => None)) h flags
                 (open_flags flags) key' pad' (mkAf (s_mode g) d) (mkFst (s_mode g) [])); try reflexivity; [|apply flags_fit, H3|exact Hd].
        constructor; cbn [a_file s_file a_handles s_handles]; [split; [reflexivity|exists key', pad'; exact Hd]|discriminate|discriminate].
      * destruct Hd as (-> & -> & ->).
        pose proof (arel_content s p f g key pad (af_data f) (s_content g) (s_mode g) k R Ef Eg H H) as R'.
        replace (mkFst (s_mode g) (s_content g)) with g in R' by (destruct g; reflexivity).
        exact (arel_handle _ _ h flags (open_flags flags) key pad _ g R' eq_refl eq_refl (flags_fit flags H3) H).
    + rewrite (open_none s flags Ef H6). cbn [fst snd]. split; [exact R|reflexivity].
  - (* io *)
    cbn [sane] in Hs. destruct Hs as [Hh Ho].
    destruct (s_handles p h) as [asked|] eqn:Eh; [|contradiction].
    destruct (r_hand _ _ R h asked Eh) as (ah & Ea & <- & F & Hd). rewrite Ea.
    destruct (a_file s) as [f|] eqn:Ef, (s_file p) as [g|] eqn:Eg; try contradiction.
    2: rewrite (r_none _ _ R Eg) in Eh; discriminate Eh.
    specialize (Hd f g eq_refl eq_refl). change (kernel_lets (ah_asked ah) o) with (allows_io (ah_asked ah) o).
    destruct (allows_io (ah_asked ah) o) eqn:Hal; [|split; [exact R|reflexivity]].
    destruct (io_fits _ _ _ _ _ _ (a_rng s) o F Hal Hd Ho) as (l & E & _ & _ & H'). rewrite E. cbn [fst snd]. split; [|reflexivity].
    destruct RF as [Em _]. rewrite Em. exact (arel_content s p f g _ _ _ _ _ _ R Ef Eg Hd H').
  - (* truncate *)
    cbn [sane] in Hs.
    destruct (a_file s) as [f|] eqn:Ef, (s_file p) as [g|] eqn:Eg; try contradiction.
    + destruct RF as [Em (key & pad & H)].
      pose proof (open_old s f O_WRONLY key pad _ Ef H ltac:(discriminate) eq_refl ltac:(discriminate)) as O. rewrite Em in O.
      assert (EA : allows_open false super (s_mode g) O_WRONLY = allows_truncate false super (s_mode g)).
      { unfold allows_open, allows_truncate. cbn [andb orb]. change (writes O_WRONLY) with true. cbn [negb].
        rewrite !orb_false_r. rewrite (andb_comm (may_read _)). reflexivity. }
      rewrite EA in O. destruct (allows_truncate false super (s_mode g)); [|rewrite O; cbn [fst snd]; split; [exact R|reflexivity]].
      destruct O as (d & key' & pad' & k & E & Hd). change (truncates O_WRONLY) with false in Hd. cbv iota in Hd. destruct Hd as (-> & -> & ->).
      rewrite E. cbn [a_file af_data af_mode a_handles a_rng].
      destruct (io_fits O_WRONLY (open_flags O_WRONLY) _ _ _ _ k (SResize n) (flags_fit O_WRONLY ltac:(discriminate)) eq_refl H Hs) as (l & E' & _ & _ & H').
      rewrite E'. cbn [spec_step fst snd] in *. split; [|reflexivity].
      exact (arel_content s p f g _ _ _ _ _ _ R Ef Eg H H').
    + rewrite (open_none s O_WRONLY Ef eq_refl). cbn [fst snd]. split; [exact R|reflexivity].
  - (* chmod *)
    destruct (a_file s) as [f|] eqn:Ef, (s_file p) as [g|] eqn:Eg; try contradiction; cbn [fst snd]; split; try reflexivity; [|exact R].
    destruct RF as [Em (key & pad & H)]. exact (arel_content s p f g key pad _ _ _ _ R Ef Eg H H).
  - (* stat *)
    destruct (a_file s) as [f|] eqn:Ef, (s_file p) as [g|] eqn:Eg; try contradiction; [|split; [exact R|reflexivity]].
    destruct RF as [Em (key & pad & H)]. rewrite (size_ok s f key pad _ H), Em.
    destruct (allows_stat _ _ _ _); split; try exact R; reflexivity.
  - (* close *)
    cbn [fst snd]. split; [|reflexivity]. constructor; cbn [with_handle a_file s_file a_handles s_handles].
    + exact RF.
    + intros Hn h'. unfold fupd. destruct (h =? h'); [reflexivity|]. apply (r_none _ _ R Hn).
    + intros h' asked'. unfold fupd. destruct (h =? h'); [discriminate|]. apply (r_hand _ _ R).
Qed.

Theorem access_run l : forall s p, arel s p -> all_sane false padded super umask lim p l ->
  snd (run_ops step s l) = snd (run_ops spec p l).
Proof.
  induction l as [|c l IH]; intros s p R Hs; [reflexivity|]. cbn [run_ops all_sane] in *. destruct Hs as [H1 H2].
  destruct (astep_rel s p c R H1) as [R1 E]. destruct (step s c) as [s1 r]. destruct (spec p c) as [p1 r']. cbn [fst snd] in *. subst r'.
  pose proof (IH s1 p1 R1 H2) as E2. destruct (run_ops step s1 l). destruct (run_ops spec p1 l). cbn [snd] in *. congruence.
Qed.
End AccessProofs.

(** While the owner can read the file, it is an ordinary one. *)
Lemma plain_step padded super umask p c : (forall f, s_file p = Some f -> may_read (s_mode f) = true) -> readable umask c ->
  s_step false padded super umask p c = s_step true padded super umask p c /\
  forall f, s_file (fst (s_step true padded super umask p c)) = Some f -> may_read (s_mode f) = true.
Proof.
  intros Hr Hc. unfold s_step. destruct c as [h asked mode|h flags|h o|n|mode| |h]; destruct (s_file p) as [g|] eqn:Eg;
    try (specialize (Hr g eq_refl)); cbn [readable] in Hc.
  - split; [reflexivity|]. cbn [fst]. intros f Hf. congruence.
  - destruct Hc as [Hm Hu]. unfold new_mode, may_read in *.
    assert (N.setbit mode 8 = mode) as ->.
    { apply N.bits_inj. intro n. destruct (N.eq_dec 8 n) as [<-|D]; [rewrite N.setbit_eq; congruence|apply N.setbit_neq; exact D]. }
    split; [reflexivity|]. cbn [fst s_file]. intros f [= <-]. cbn [s_mode]. rewrite N.ldiff_spec, Hm, Hu. reflexivity.
  - unfold allows_open. rewrite Hr. cbn [orb]. split; [reflexivity|].
    destruct (_ || _); [destruct (truncates _)|]; cbn [fst s_file]; intros f Hf; [injection Hf as <-; exact Hr|congruence|congruence].
  - split; [reflexivity|]. cbn [fst]. intros f Hf. congruence.
  - split; [reflexivity|]. destruct (s_handles p h) as [asked|]; [destruct (allows_io asked o)|]; cbn [fst s_file]; intros f Hf;
      [injection Hf as <-; exact Hr|congruence|congruence].
  - split; [reflexivity|]. cbn [fst]. intros f Hf. congruence.
  - unfold allows_truncate. rewrite Hr. rewrite orb_true_r. split; [reflexivity|].
    destruct (_ || _); cbn [fst s_file]; intros f Hf; [injection Hf as <-; exact Hr|congruence].
  - split; [reflexivity|]. cbn [fst]. intros f Hf. congruence.
  - split; [reflexivity|]. cbn [fst s_file]. intros f [= <-]. exact Hc.
  - split; [reflexivity|]. cbn [fst]. intros f Hf. congruence.
  - unfold allows_stat. rewrite Hr, !orb_true_r. split; [reflexivity|]. cbn [fst]. intros f Hf. congruence.
  - split; [reflexivity|]. cbn [fst]. intros f Hf. congruence.
  - split; [reflexivity|]. cbn [fst s_file]. intros f Hf. congruence.
  - split; [reflexivity|]. cbn [fst s_file]. intros f Hf. congruence.
Qed.
Lemma plain_run padded super umask limit l : forall p, (forall f, s_file p = Some f -> may_read (s_mode f) = true) ->
  Forall (readable umask) l ->
  run_ops (s_step false padded super umask) p l = run_ops (s_step true padded super umask) p l /\
  (all_sane true padded super umask limit p l -> all_sane false padded super umask limit p l).
Proof.
  induction l as [|c l IH]; intros p Hr Hl; [split; auto|]. inversion Hl as [|? ? Hc Hl']; subst.
  destruct (plain_step padded super umask p c Hr Hc) as [E Hr']. cbn [run_ops all_sane]. rewrite E.
  destruct (IH _ Hr' Hl') as [E2 HS]. destruct (s_step true padded super umask p c) as [p1 r]. cbn [fst] in *. rewrite E2.
  split; [reflexivity|]. intros [H1 H2]. split; [exact H1|apply HS, H2].
Qed.
