(** The stream adaptors are transparent. *)
From Verif Require Import Base BaseLemmas StreamSpec FullStreamModel FullStreamProofs AdaptorModel.

Lemma spec_step_limit limit c o :
  length c <= limit -> sop_within limit o -> length (fst (spec_step c o)) <= limit.
Proof.
  intros Hc Ho. destruct o as [off len|off d|n|]; cbn [spec_step fst sop_within] in *; try exact Hc.
  - rewrite arr_write_length. destruct d; cbn [length] in *; lia.
  - rewrite arr_resize_length. exact Ho.
Qed.

Lemma run_array {St} (step : St -> sop -> St * sout) R limit ops :
  behaves_as_array step R limit -> forall s c,
  R s c -> length c <= limit -> Forall (sop_within limit) ops ->
  exists s', run_ops step s ops = (s', snd (run_ops spec_step c ops)) /\ R s' (fst (run_ops spec_step c ops)).
Proof.
  intros HB. induction ops as [|o ops IH]; intros s c HR Hl Hall.
  - exists s. auto.
  - inversion Hall as [|? ? Ho Hops]; subst.
    destruct (HB s c o HR Hl Ho) as (s1 & Hs & HR1).
    destruct (IH s1 _ HR1 (spec_step_limit _ _ _ Hl Ho) Hops) as (s2 & Hs2 & HR2).
    exists s2. cbn [run_ops]. rewrite Hs.
    destruct (spec_step c o) as [c1 r1]. cbn [fst snd] in *.
    rewrite Hs2. destruct (run_ops spec_step c1 ops) as [c2 rs]. auto.
Qed.

Lemma raw_file_array limit : behaves_as_array (sm_step raw_file) (fun s c => s = c) limit.
Proof. intros s c o -> _ _. exists (fst (spec_step c o)). cbn. destruct (spec_step c o); auto. Qed.

Lemma firstn_write_after p raw off d :
  p <= length raw -> p <= off -> firstn p (arr_write raw off d) = firstn p raw.
Proof.
  intros H1 H2. apply bytes_ext.
  - rewrite !firstn_length, arr_write_length. destruct d; lia.
  - intros i Hi. rewrite !get_firstn, get_arr_write. destruct (Nat.ltb_spec i p); [|reflexivity].
    destruct (Nat.leb_spec off i); [lia|reflexivity].
Qed.

Lemma firstn_resize_after p raw n :
  p <= length raw -> p <= n -> firstn p (arr_resize raw n) = firstn p raw.
Proof.
  intros H1 H2. apply bytes_ext.
  - rewrite !firstn_length, arr_resize_length. lia.
  - intros i Hi. rewrite !get_firstn, get_arr_resize. destruct (Nat.ltb_spec i p); [|reflexivity].
    destruct (Nat.ltb_spec i n); [reflexivity|lia].
Qed.

Section PadProofs.
  Variable D : strm.
  Variable R : sm_st D -> bytes -> Prop.
  Variable limit : nat.
  Hypothesis HD : behaves_as_array (sm_step D) R limit.

  (** The wrapped stream holds the prefix followed by the content. *)
  Definition PRep (pre : bytes) (s : sm_st D) (c : bytes) : Prop := R s (pre ++ c).

  Lemma skipn_pre (pre c : bytes) : skipn (length pre) (pre ++ c) = c.
  Proof. rewrite skipn_app, skipn_all, Nat.sub_diag. reflexivity. Qed.
  Lemma firstn_pre (pre c : bytes) : firstn (length pre) (pre ++ c) = pre.
  Proof. rewrite firstn_app, firstn_all, Nat.sub_diag. cbn. apply app_nil_r. Qed.

  Lemma pre_write pre c off d : arr_write (pre ++ c) (off + length pre) d = pre ++ arr_write c off d.
  Proof.
    rewrite <- (firstn_skipn (length pre) (arr_write _ _ _)).
    rewrite firstn_write_after by (rewrite ?app_length; lia).
    rewrite firstn_pre, skipn_arr_write, skipn_pre. reflexivity.
  Qed.

  Lemma pre_resize pre c n : arr_resize (pre ++ c) (n + length pre) = pre ++ arr_resize c n.
  Proof.
    rewrite <- (firstn_skipn (length pre) (arr_resize _ _)).
    rewrite firstn_resize_after by (rewrite ?app_length; lia).
    rewrite firstn_pre, skipn_arr_resize, skipn_pre. reflexivity.
  Qed.

  Lemma pre_read pre c off len : arr_read (pre ++ c) (off + length pre) len = arr_read c off len.
  Proof. rewrite skipn_arr_read, skipn_pre. reflexivity. Qed.

  Lemma pre_size (pre c : bytes) :
    (if length pre <? length (pre ++ c) then length (pre ++ c) - length pre else 0) = length c.
  Proof. rewrite app_length. destruct (Nat.ltb_spec (length pre) (length pre + length c)); lia. Qed.

  Lemma padded_array pre :
    length pre <= limit -> behaves_as_array (sm_step (padded D (length pre))) (PRep pre) (limit - length pre).
  Proof.
    intros Hp s c o HR Hc Ho. cbn [sm_step padded]. unfold PRep in *.
    assert (Hc' : length (pre ++ c) <= limit) by (rewrite app_length; lia).
    destruct o as [off len|off d|n|]; cbn [padded_step spec_step fst snd sop_within] in *.
    - destruct (HD s (pre ++ c) (SRead (off + length pre) len) HR Hc' ltac:(cbn; lia)) as (s' & Hs & HR').
      cbn [spec_step fst snd] in *. rewrite pre_read in Hs. exists s'. auto.
    - destruct (HD s (pre ++ c) (SWrite (off + length pre) d) HR Hc' ltac:(cbn; lia)) as (s' & Hs & HR').
      cbn [spec_step fst snd] in *. rewrite pre_write in HR'. exists s'. auto.
    - destruct (HD s (pre ++ c) (SResize (n + length pre)) HR Hc' ltac:(cbn; lia)) as (s' & Hs & HR').
      cbn [spec_step fst snd] in *. rewrite pre_resize in HR'. exists s'. auto.
    - destruct (HD s (pre ++ c) SSize HR Hc' I) as (s' & Hs & HR').
      cbn [spec_step fst snd] in *. rewrite Hs. cbn [minus_prefix]. rewrite pre_size. exists s'. auto.
  Qed.

  (** Opening: a shorter stream gets fresh padding, a long enough one keeps what
      it has. *)
  Lemma padded_open_ok p rnd s c :
    R s c -> length c <= limit -> p <= limit -> p <= length rnd ->
    exists s' pre, padded_open D p rnd s = (s', ODone) /\ length pre = p /\
      PRep pre s' (skipn p c) /\ (p <= length c -> pre = firstn p c).
  Proof.
    intros HR Hc Hp Hr. unfold padded_open.
    destruct (HD s c SSize HR Hc I) as (s1 & Hs & HR1). cbn [spec_step fst snd] in *. rewrite Hs.
    destruct (Nat.ltb_spec (length c) p) as [Hlt|Hge].
    - assert (Hf : length (firstn p rnd) = p) by (rewrite firstn_length; lia).
      destruct (HD s1 c (SWrite 0 (firstn p rnd)) HR1 Hc ltac:(cbn [sop_within]; lia)) as (s2 & Hs2 & HR2).
      cbn [spec_step fst snd] in *. rewrite Hs2. exists s2, (firstn p rnd).
      split; [reflexivity|]. split; [exact Hf|]. split; [|lia].
      unfold PRep. rewrite (skipn_all2 c) by lia. rewrite app_nil_r.
      replace (firstn p rnd) with (arr_write c 0 (firstn p rnd)); [exact HR2|].
      apply bytes_ext; [rewrite arr_write_length_ne; lia|].
      intros i Hi. rewrite arr_write_length_ne in Hi by lia. rewrite get_arr_write. cbn [Nat.leb andb].
      destruct (Nat.ltb_spec i (0 + length (firstn p rnd))); [|lia]. f_equal. lia.
    - exists s1, (firstn p c). split; [reflexivity|]. split; [rewrite firstn_length; lia|].
      split; [|reflexivity]. unfold PRep. rewrite firstn_skipn. exact HR1.
  Qed.

  (** ** HMAC stream: the content is what follows the first 32 bytes *)
  Definition HRep (s : sm_st D * bool) (c : bytes) : Prop :=
    exists raw, R (fst s) raw /\ length raw <= limit /\ c = skipn hmac_len raw.

  Lemma hmacd_array : hmac_len <= limit -> behaves_as_array (sm_step (hmacd D)) HRep (limit - hmac_len).
  Proof.
    intros Hh [d dirty] c o (raw & HR & Hl & ->) Hc Ho. cbn [fst] in HR.
    cbn [sm_step hmacd]. destruct o as [off len|off x|n|]; cbn [hmacd_step spec_step fst snd sop_within] in *.
    - destruct (HD d raw (SRead (off + hmac_len) len) HR Hl ltac:(cbn [sop_within]; lia)) as (s' & Hs & HR').
      cbn [spec_step fst snd] in *. rewrite Hs, skipn_arr_read. eexists. split; [reflexivity|]. exists raw. auto.
    - destruct (HD d raw (SWrite (off + hmac_len) x) HR Hl ltac:(cbn [sop_within]; lia)) as (s' & Hs & HR').
      pose proof (spec_step_limit limit raw (SWrite (off + hmac_len) x) Hl ltac:(cbn [sop_within]; lia)) as Hl'.
      cbn [spec_step fst snd] in *. rewrite Hs. eexists. split; [reflexivity|].
      exists (arr_write raw (off + hmac_len) x). rewrite skipn_arr_write. auto.
    - destruct (HD d raw (SResize (n + hmac_len)) HR Hl ltac:(cbn [sop_within]; lia)) as (s' & Hs & HR').
      pose proof (spec_step_limit limit raw (SResize (n + hmac_len)) Hl ltac:(cbn [sop_within]; lia)) as Hl'.
      cbn [spec_step fst snd] in *. rewrite Hs. eexists. split; [reflexivity|].
      exists (arr_resize raw (n + hmac_len)). rewrite skipn_arr_resize. auto.
    - destruct (HD d raw SSize HR Hl I) as (s' & Hs & HR'). cbn [spec_step fst snd] in *. rewrite Hs.
      exists (s', dirty). split; [|exists raw; auto]. cbn [minus_prefix]. rewrite skipn_length.
      replace (if hmac_len <? length raw then length raw - hmac_len else 0) with (length raw - hmac_len); [reflexivity|].
      destruct (Nat.ltb_spec hmac_len (length raw)); lia.
  Qed.

  (** The first 32 bytes are untouched by content operations. *)
  Lemma hmacd_prefix s o raw :
    R (fst s) raw -> hmac_len <= length raw -> length raw <= limit -> sop_within (limit - hmac_len) o ->
    hmac_len <= limit ->
    exists raw', R (fst (fst (hmacd_step D s o))) raw' /\ firstn hmac_len raw' = firstn hmac_len raw.
  Proof.
    intros HR Hr Hl Ho Hh. destruct s as [d dirty]. cbn [fst] in HR.
    destruct o as [off len|off x|n|]; cbn [hmacd_step sop_within] in *.
    - destruct (HD d raw (SRead (off + hmac_len) len) HR Hl ltac:(cbn [sop_within]; lia)) as (s' & -> & HR').
      exists raw. auto.
    - destruct (HD d raw (SWrite (off + hmac_len) x) HR Hl ltac:(cbn [sop_within]; lia)) as (s' & -> & HR').
      eexists. split; [exact HR'|]. cbn [spec_step fst]. apply firstn_write_after; lia.
    - destruct (HD d raw (SResize (n + hmac_len)) HR Hl ltac:(cbn [sop_within]; lia)) as (s' & -> & HR').
      eexists. split; [exact HR'|]. cbn [spec_step fst]. apply firstn_resize_after; lia.
    - destruct (HD d raw SSize HR Hl I) as (s' & -> & HR'). exists raw. auto.
  Qed.

  (** ** Write cache: never populated *)
  Definition WRep (s : wc_st D) (c : bytes) : Prop := R (wc_d D s) c /\ wc_len D s = 0 /\ wc_start D s = 0.

  Lemma wcached_array : behaves_as_array (sm_step (wcached D)) WRep limit.
  Proof.
    intros [d buf st ln] c o (HR & Hlen & Hst) Hc Ho. cbn [wc_d wc_len wc_start] in *. subst.
    cbn [sm_step wcached]. destruct (HD d c o HR Hc Ho) as (s' & Hs & HR').
    destruct o as [off len|off x|n|]; cbn [wc_step spec_step fst snd sop_within] in *;
      unfold wc_read, wc_write, wc_flush; cbn [wc_d wc_len wc_start wc_buf Nat.eqb]; rewrite Hs;
      eexists; (split; [reflexivity|]); (split; [exact HR'|]); auto.
  Qed.

  Lemma wc_open_rep n d c : R d c -> WRep (wc_open D n d) c.
  Proof. intros H. split; [exact H|]. auto. Qed.
End PadProofs.

Lemma padded_full_array (A : LiteModel.aead) hmac dkey mkey id bs iv_size header_size check sparse rnd iv_fuel h pre :
  full_env_ok A hmac bs iv_size rnd iv_fuel -> length pre <= full_max_blocks * bs ->
  let D := mkStrm full_st (BlockModel.bb_step (full_backend A dkey id bs iv_size header_size check sparse rnd iv_fuel)) in
  behaves_as_array (sm_step (padded D (length pre)))
    (fun s c => FRep A hmac dkey mkey id bs iv_size header_size h s (pre ++ c))
    (full_max_blocks * bs - length pre).
Proof.
  intros HE Hp D. apply (padded_array D (FRep A hmac dkey mkey id bs iv_size header_size h)); [|exact Hp].
  intros s c o HR Hc Ho.
  destruct (BlockProofs.bb_step_ok _ _ (full_backend_ok A hmac dkey mkey id bs iv_size header_size check sparse rnd iv_fuel HE h)
    s c o HR ltac:(rewrite bk_maxn_full; exact Hc) ltac:(rewrite bk_maxn_full; exact Ho)) as (s1 & Hs & HR1 & _).
  exists s1. auto.
Qed.
