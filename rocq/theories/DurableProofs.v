(** What survives a loss of power after [fsync]: proofs. *)
From Verif Require Import Base BaseLemmas StreamSpec BlockModel BlockProofs LiteModel LiteProofs LiteTamper
  FullStreamModel FullStreamProofs CrashModel CrashSpec CrashProofs CrashTop DurableModel DurableSpec.

(** ** Operations that stay away from the blocks [a, b) *)
(** [grow]: operations behind the blocks are allowed. *)
Definition away (hdr u a b : nat) (grow : bool) (p : phys) : Prop :=
  match p with
  | PWrite o d => (grow = true /\ hdr + b * u <= o) \/ o + length d <= hdr + a * u
  | PResize n => grow = true /\ hdr + b * u <= n
  end.

Lemma away_read f l f' hdr u a b grow :
  a <= b -> left_over f l f' -> Forall (away hdr u a b grow) l -> hdr + a * u <= length f ->
  (grow = true -> hdr + b * u <= length f) ->
  arr_read f' (hdr + a * u) ((b - a) * u) = arr_read f (hdr + a * u) ((b - a) * u).
Proof.
  intros Hab HL HF Ha Hg. rewrite Forall_forall in HF. destruct grow.
  - specialize (Hg eq_refl). pose proof (mul_le_mono _ _ u Hab) as Hu. destruct HL as [K Mi Ma].
    assert (L : hdr + b * u <= length f').
    { apply Mi; [exact Hg|]. intros n Hn. apply (HF _ Hn). }
    rewrite Nat.mul_sub_distr_r.
    apply bytes_ext; [rewrite !arr_read_length; lia|]. intros i Hi. rewrite arr_read_length in Hi. rewrite !get_arr_read.
    destruct (Nat.ltb_spec i (b * u - a * u)); [|reflexivity]. apply K; [lia|lia|].
    intros p Hp. specialize (HF p Hp). destruct p as [o d|n]; cbn [away reaches] in *; lia.
  - apply (left_after _ _ _ (hdr + a * u) _ _ HL Ha); [|lia].
    intros p Hp. specialize (HF p Hp). destruct p as [o d|n]; cbn [away] in HF.
    + destruct HF as [[HF _]|HF]; [discriminate HF|exact HF].
    + destruct HF as [HF _]. discriminate HF.
Qed.

Lemma in_blocks_away hdr u lo hi a b grow p :
  in_blocks hdr u lo hi p ->
  (grow = true /\ b <= lo) \/ (exists t, hi = Some t /\ t <= a) -> away hdr u a b grow p.
Proof.
  intros HI [[Hg Hb]|(t & -> & Ht)].
  - pose proof (mul_le_mono _ _ u Hb). destruct p as [o d|n]; cbn [in_blocks away] in *; [left|]; (split; [exact Hg|lia]).
  - pose proof (mul_le_mono _ _ u Ht). destruct p as [o d|n]; cbn [in_blocks away] in *; [right; lia|].
    destruct HI as [HI _]. discriminate HI.
Qed.

(** One operation that spares the range, seen from the blocks: nothing is done, or it is done
    elsewhere; the length of the content does not fall below the blocks, nor does it change if
    the last block is among them. *)
Lemma spared_step bs c o off len a b grow :
  0 < bs -> untouched bs (length c) o off len -> a < b ->
  (forall i, a <= i < b -> i * bs < off + len /\ off < (i + 1) * bs) ->
  (grow = false -> length c < b * bs) ->
  ((match o with SWrite _ d => d = [] | SResize m => m = length c | _ => True end) \/
   ((grow = true /\ b <= first_touched bs (length c) o) \/ exists t, last_touched bs (length c) o = Some t /\ t <= a)) /\
  (grow = false -> length (fst (spec_step c o)) < b * bs).
Proof.
  intros Hbs Hu Hab Hr Hg. pose proof (untouched_split bs (length c) o off len a b Hbs Hu Hab Hr) as Hs.
  pose proof (first_le bs (length c) o Hbs) as Hfl. destruct Hu as [Hu _].
  assert (Hz : grow = false -> b <= first_touched bs (length c) o -> False).
  { intros Hf Hb. specialize (Hg Hf). pose proof (mul_le_mono _ _ bs Hb). lia. }
  split.
  - destruct Hs as [H|[H|H]]; [left; exact H| |right; right; exact H]. right. left. split; [|exact H].
    destruct grow; [reflexivity|]. destruct (Hz eq_refl H).
  - intros Hf. specialize (Hg Hf). destruct o as [? ?|woff d|m|]; cbn [spec_step fst]; try exact Hg.
    + destruct d as [|x d']. { rewrite arr_write_length. exact Hg. }
      destruct Hs as [H|[H|(t & Ht & Hta)]]; [discriminate H|destruct (Hz Hf H)|].
      set (d := x :: d') in *. cbn [last_touched] in Ht. destruct (Nat.leb_spec woff (length c)) as [Hw|Hw]; [|discriminate Ht].
      injection Ht as <-. rewrite arr_write_length.
      assert (He : woff + length d <= a * bs).
      { destruct (Nat.le_gt_cases (woff + length d) (a * bs)) as [|Hgt]; [assumption|].
        apply (ceil_spec bs (woff + length d) Hbs) in Hgt.
        change (S (length d')) with (length d) in Hta. lia. }
      pose proof (mul_lt_block a b bs Hab). destruct (Hr a ltac:(lia)). change (max (length c) (woff + length d) < b * bs). lia.
    + destruct Hs as [H|[H|(t & Ht & Hta)]]; [subst m; rewrite arr_resize_length; exact Hg|destruct (Hz Hf H)|discriminate Ht].
Qed.

Lemma spared_length bs c l off len : spared bs c l off len -> off + len <= length c.
Proof. revert c. induction l as [|[o|h| |] l IH]; intros c H; cbn [spared] in H; auto. apply H. Qed.

(** The operations are within the limit. *)
Definition ow (limit : nat) (x : call) : Prop := match x with COp o => sop_within limit o | _ => True end.
Lemma within_ow limit hs x : call_within limit hs x -> ow limit x.
Proof. destruct x; auto; intros; exact I. Qed.

(** ** Lite *)
Section LiteDur.
  Variable A : aead.
  Variable bs iv_size : nat.
  Variable check sparse : bool.
  Variable session_key : bytes -> bytes.
  Variable padding_of : bytes -> nat.
  Variable rnd : nat -> nat -> bytes.
  Variable iv_fuel : nat.
  Hypothesis HE : lite_env_ok A bs iv_size rnd iv_fuel.
  Notation ubs := (ubs bs iv_size).
  Notation B := (lite_backend A bs iv_size check sparse rnd iv_fuel).
  Notation LRep := (LRep A bs iv_size check session_key padding_of).
  Notation ltrace := (lite_trace A bs iv_size check sparse rnd iv_fuel).
  Notation step := (ldur_step A bs iv_size check sparse rnd iv_fuel).
  Notation run := (ldur_run A bs iv_size check sparse rnd iv_fuel).
  Notation limit := (lite_max_blocks * bs).

  Lemma lite_header_kept s o : l_header (fst (bb_step B s o)) = l_header s.
  Proof.
    apply (bb_step_inv B (fun x => l_header x = l_header s)); [| |reflexivity].
    - intros a e r d x Hx. cbn [bk_write lite_backend]. unfold lite_write_multi. destruct (over_max _ _); [exact Hx|].
      destruct (lite_write_loop _ _ _ _ _ _ _ _ _ _ _ _) as [[buf k]|]; exact Hx.
    - intros n x Hx. exact Hx.
  Qed.

  (** The calls since the last fsync. *)
  Fixpoint traces (s : lite_st) (l : list call) : list phys :=
    match l with
    | [] => []
    | COp o :: l' => ltrace s o ++ traces (fst (bb_step B s o)) l'
    | _ :: l' => traces s l'
    end.
  Fixpoint after (s : lite_st) (l : list call) : lite_st :=
    match l with
    | [] => s
    | COp o :: l' => after (fst (bb_step B s o)) l'
    | _ :: l' => after s l'
    end.
  Lemma after_app l1 l2 : forall s, after s (l1 ++ l2) = after (after s l1) l2.
  Proof. induction l1 as [|[o|h| |] l1 IH]; intros s; cbn [after app]; auto. Qed.
  Lemma traces_app l1 l2 : forall s, traces s (l1 ++ l2) = traces s l1 ++ traces (after s l1) l2.
  Proof. induction l1 as [|[o|h| |] l1 IH]; intros s; cbn [after traces app]; auto. rewrite IH, app_assoc. reflexivity. Qed.

  Lemma step_rep s c o : LRep s c -> length c <= limit -> sop_within limit o ->
    LRep (fst (bb_step B s o)) (fst (spec_step c o)) /\ length (fst (spec_step c o)) <= limit.
  Proof.
    intros HR Hl Ho.
    destruct (bb_step_ok B LRep (lite_backend_ok A bs iv_size check sparse session_key padding_of rnd iv_fuel HE) s c o HR
      ltac:(rewrite bk_maxn_lite; exact Hl) ltac:(rewrite bk_maxn_lite; exact Ho)) as (s1 & E & HR1 & Hl1).
    rewrite bk_maxn_lite in Hl1. rewrite E. auto.
  Qed.

  Record LInv (s : ldur) (u : user) : Prop := {
    li_rep : LRep (ld_st s) (u_now u);
    li_lim : length (u_now u) <= limit;
    li_syn : forall c h b, u_synced u = Some (c, h, b) -> exists s0,
      LRep s0 c /\ length c <= limit /\ ld_stable s = l_file s0 /\ Forall (ow limit) (u_later u) /\
      ld_st s = after s0 (u_later u) /\ ld_pending s = traces s0 (u_later u)
  }.
  Lemma linv_step s u x hs : LInv s u -> call_within limit hs x -> LInv (step s x) (user_step u x).
  Proof.
    intros [R L S] Hx. pose proof (within_ow _ _ _ Hx) as Hw.
    assert (K : forall y, ow limit y -> forall c h b, u_synced u = Some (c, h, b) -> exists s0,
      LRep s0 c /\ length c <= limit /\ ld_stable s = l_file s0 /\ Forall (ow limit) (u_later u ++ [y]) /\
      after (ld_st s) [y] = after s0 (u_later u ++ [y]) /\ ld_pending s ++ traces (ld_st s) [y] = traces s0 (u_later u ++ [y])).
    { intros y Hy c h b E. destruct (S c h b E) as (s0 & S1 & S2 & S3 & S4 & S5 & S6). exists s0.
      rewrite after_app, traces_app, <- S5, <- S6.
      refine (conj S1 (conj S2 (conj S3 (conj _ (conj eq_refl eq_refl))))).
      apply Forall_app. split; [exact S4|constructor; [exact Hy|constructor]]. }
    specialize (K x Hw).
    destruct x as [o|h| |]; cbn [ldur_step user_step]; cbn [after traces] in K; rewrite app_nil_r in K.
    - destruct (step_rep _ _ o R L Hx) as [R1 L1]. constructor; cbn [ld_st u_now u_synced u_later ld_stable ld_pending]; auto.
    - constructor; cbn [ld_st u_now u_synced u_later ld_stable ld_pending]; auto.
    - constructor; cbn [ld_st u_now u_synced u_later ld_stable ld_pending]; auto.
    - constructor; cbn [ld_st u_now u_synced u_later ld_stable ld_pending]; auto.
      intros c h b E. injection E as <- <- <-. exists (ld_st s). cbn [after traces].
      refine (conj R (conj L (conj eq_refl (conj _ (conj eq_refl eq_refl))))). constructor.
  Qed.
  Lemma linv_run l hs : forall s u, LInv s u -> Forall (call_within limit hs) l -> LInv (run s l) (user_run u l).
  Proof.
    induction l as [|x l IH]; intros s u HI HF; [exact HI|]. inversion HF; subst. cbn [ldur_run user_run fold_left].
    apply IH; [|assumption]. eapply linv_step; eauto.
  Qed.

  Lemma traces_away off len a b grow : a < b -> (forall i, a <= i < b -> i * bs < off + len /\ off < (i + 1) * bs) ->
    forall l s c, LRep s c -> length c <= limit ->
      Forall (ow limit) l ->
      spared bs c l off len -> (grow = false -> length c < b * bs) ->
      Forall (away (l_header s) ubs a b grow) (traces s l).
  Proof.
    intros Hab Hr. pose proof (le_bs _ _ _ _ _ HE) as Hb.
    induction l as [|[o|h| |] l IH]; intros s c HR Hl HF Hs Hg; cbn [traces spared] in *; [constructor| | | |].
    2-4: apply (IH s c); auto; inversion HF; assumption.
    inversion HF as [|? ? Ho HF']; subst. destruct Hs as [Hu Hs].
    destruct (spared_step bs c o off len a b grow ltac:(lia) Hu Hab Hr Hg) as [H1 H2].
    destruct (step_rep s c o HR Hl Ho) as [HR1 Hl1].
    apply Forall_app. split.
    - destruct H1 as [Hi|H1].
      + unfold lite_trace. rewrite idle_trace; [constructor|].
        cbn [bk_size lite_backend]. rewrite (real_size_ok _ _ _ _ _ _ _ _ HE _ _ HR). exact Hi.
      + pose proof (lite_trace_in A bs iv_size check sparse session_key padding_of rnd iv_fuel HE s c o HR) as HT.
        eapply Forall_impl; [|exact HT]. intros p Hp. eapply in_blocks_away; eauto.
    - rewrite <- (lite_header_kept s o). apply (IH _ _ HR1 Hl1 HF' Hs H2).
  Qed.

  (** The header is never written to. *)
  Lemma traces_after_header : forall l s c, LRep s c -> length c <= limit ->
    Forall (ow limit) l ->
    Forall (in_blocks (l_header s) ubs 0 None) (traces s l).
  Proof.
    induction l as [|[o|h| |] l IH]; intros s c HR Hl HF; cbn [traces] in *; [constructor| | | |].
    2-4: apply (IH s c); auto; inversion HF; assumption.
    inversion HF as [|? ? Ho HF']; subst. destruct (step_rep s c o HR Hl Ho) as [HR1 Hl1]. apply Forall_app. split.
    - eapply Forall_impl; [|exact (lite_trace_in A bs iv_size check sparse session_key padding_of rnd iv_fuel HE s c o HR)].
      intros p Hp. destruct p as [x d|n]; cbn [in_blocks] in *; (split; [|try exact I]); try reflexivity; lia.
    - rewrite <- (lite_header_kept s o). apply (IH _ _ HR1 Hl1 HF').
  Qed.

  Lemma lite_durable s u c h b f' k :
    LInv s u -> u_synced u = Some (c, h, b) -> left_over (ld_stable s) (ld_pending s) f' ->
    exists s1, lite_open bs iv_size session_key padding_of rnd f' k = Ok s1 /\
      forall off len, spared bs c (u_later u) off len -> bb_read B off len s1 = Ok (arr_read c off len).
  Proof.
    intros [_ _ HS] E HL. destruct (HS c h b E) as (s0 & HR & Hlim & E0 & HF & _ & Ep). rewrite E0, Ep in HL. clear HS Ep E E0.
    pose proof (le_bs _ _ _ _ _ HE) as Hb. destruct (rep_hdr _ _ _ _ _ _ _ _ HR) as (id & I1 & I2 & I3 & I4).
    pose proof (rep_len _ _ _ _ _ _ _ _ HR) as HLen.
    assert (Ho : lite_open bs iv_size session_key padding_of rnd f' k = Ok (mkLite f' (session_key id) (l_pad s0) k)).
    { apply (open_hdr A bs iv_size session_key padding_of rnd iv_fuel HE); auto.
      pose proof (blocks_before _ _ _ _ _ _ _ 0 (l_header s0) HL (traces_after_header _ _ _ HR Hlim HF) ltac:(lia) ltac:(lia)) as HB.
      unfold arr_read in HB. cbn [skipn] in HB. unfold l_header in *. rewrite HB. exact I2. }
    eexists. split; [exact Ho|]. intros off len Hs. pose proof (spared_length _ _ _ _ _ Hs) as Hoff.
    rewrite <- (bb_read_ok B LRep (lite_backend_ok A bs iv_size check sparse session_key padding_of rnd iv_fuel HE) s0 c off len HR).
    2: { rewrite bk_maxn_lite. cbn [bk_bs lite_backend]. lia. }
    apply bb_read_local; [cbn [bk_bs lite_backend]; lia|]. cbn [bk_bs lite_backend bk_read]. intros x y Hxy Hr Hx.
    unfold lite_read_multi. destruct (over_max _ _); [reflexivity|]. cbn [l_file l_key l_pad].
    change (l_header (mkLite f' (session_key id) (l_pad s0) k)) with (l_header s0). rewrite I3.
    assert (EE : arr_read f' (l_header s0 + ubs * x) ((y - x) * ubs) = arr_read (l_file s0) (l_header s0 + ubs * x) ((y - x) * ubs)); [|rewrite EE; reflexivity].
    rewrite (Nat.mul_comm ubs x).
    set (grow := y * bs <=? length c).
    assert (Hg : grow = false -> length c < y * bs) by (unfold grow; destruct (Nat.leb_spec (y * bs) (length c)); [discriminate|auto]).
    apply (away_read _ (traces s0 (u_later u)) _ _ _ _ _ grow); [lia|exact HL|apply (traces_away off len x y grow Hxy Hr _ _ _ HR Hlim HF Hs Hg)| |].
    - assert (Hxl : x * bs <= length c) by (destruct (Hr x ltac:(lia)); lia).
      pose proof (phys_len_ge A bs iv_size rnd iv_fuel HE _ _ Hxl). lia.
    - unfold grow. intros Hgr. apply Nat.leb_le in Hgr. pose proof (phys_len_ge A bs iv_size rnd iv_fuel HE _ _ Hgr). lia.
  Qed.

  Lemma quiet_traces l : forall s, Forall quiet l -> traces s l = [].
  Proof.
    induction l as [|[o|h| |] l IH]; intros s HF; inversion HF as [|? ? Hq HF']; subst; cbn [traces quiet] in *; auto; try contradiction.
    destruct o; cbn [changes] in Hq; try discriminate Hq; unfold lite_trace; rewrite idle_trace by exact I; cbn [bb_step fst app]; apply IH, HF'.
  Qed.

  Lemma lite_durable_whole s u c h b f' k ops :
    LInv s u -> u_synced u = Some (c, h, b) -> Forall quiet (u_later u) -> left_over (ld_stable s) (ld_pending s) f' ->
    Forall (lop_within limit) ops ->
    exists s1, lite_open bs iv_size session_key padding_of rnd f' k = Ok s1 /\
      snd (run_ops (lite_step A bs iv_size check sparse session_key padding_of rnd iv_fuel) s1 ops) = snd (run_ops lspec_step c ops).
  Proof.
    intros [_ _ HS] E HQ HL HO. destruct (HS c h b E) as (s0 & HR & Hlim & E0 & _ & _ & Ep).
    rewrite Ep, (quiet_traces _ _ HQ) in HL. apply left_nil in HL. subst f'. rewrite E0.
    destruct (lite_reopen A bs iv_size check session_key padding_of rnd iv_fuel HE s0 c k HR) as [Ho HR1].
    eexists. split; [exact Ho|].
    destruct (lite_refines A bs iv_size check sparse session_key padding_of rnd iv_fuel HE _ _ ops HR1 Hlim HO) as (s2 & E2 & _).
    rewrite E2. reflexivity.
  Qed.
End LiteDur.

(** ** Full *)
Section FullDur.
  Variable A : aead.
  Variable hmac : bytes -> bytes -> bytes.
  Variable dkey mkey id : bytes.
  Variable bs iv_size header_size : nat.
  Variable check sparse : bool.
  Variable rnd : nat -> nat -> bytes.
  Variable iv_fuel : nat.
  Hypothesis HE : full_env_ok A hmac bs iv_size rnd iv_fuel.
  Notation ms := (meta_size iv_size).
  Notation ehs := (enc_header_size iv_size header_size).
  Notation B ck := (full_backend A dkey id bs iv_size header_size ck sparse rnd iv_fuel).
  Notation FRep := (FRep A hmac dkey mkey id bs iv_size header_size).
  Notation fstep := (full_step A hmac dkey mkey id bs iv_size header_size check sparse rnd iv_fuel).
  Notation ftrace := (full_trace A hmac dkey mkey id bs iv_size header_size check sparse rnd iv_fuel).
  Notation step := (fdur_step A hmac dkey mkey id bs iv_size header_size check sparse rnd iv_fuel).
  Notation run := (fdur_run A hmac dkey mkey id bs iv_size header_size check sparse rnd iv_fuel).
  Notation fdo := (fdur_do A hmac dkey mkey id bs iv_size header_size check sparse rnd iv_fuel).
  Notation limit := (full_max_blocks * bs).

  Fixpoint ftraces (s : full_st) (l : list fop) : list part :=
    match l with [] => [] | o :: l' => ftrace s o ++ ftraces (fst (fstep s o)) l' end.
  Fixpoint fafter (s : full_st) (l : list fop) : full_st :=
    match l with [] => s | o :: l' => fafter (fst (fstep s o)) l' end.
  Lemma fafter_app l1 l2 : forall s, fafter s (l1 ++ l2) = fafter (fafter s l1) l2.
  Proof. induction l1 as [|o l1 IH]; intros s; cbn [fafter app]; auto. Qed.
  Lemma ftraces_app l1 l2 : forall s, ftraces s (l1 ++ l2) = ftraces s l1 ++ ftraces (fafter s l1) l2.
  Proof. induction l1 as [|o l1 IH]; intros s; cbn [fafter ftraces app]; auto. rewrite IH, app_assoc. reflexivity. Qed.

  (** The operations on the content among the calls. *)
  Definition cops (l : list call) : list sop := flat_map (fun x => match x with COp o => [o] | _ => [] end) l.
  Definition fops (l : list fop) : list sop := flat_map (fun x => match x with FOp o => [o] | _ => [] end) l.
  Fixpoint sparedo (c : bytes) (l : list sop) (off len : nat) : Prop :=
    match l with [] => off + len <= length c | o :: l' => untouched bs (length c) o off len /\ sparedo (fst (spec_step c o)) l' off len end.
  Lemma spared_o l off len : forall c, spared bs c l off len -> sparedo c (cops l) off len.
  Proof. induction l as [|[o|h| |] l IH]; intros c H; cbn [spared cops flat_map app sparedo] in *; auto. destruct H. auto. Qed.

  Definition onc (c : bytes) (o : fop) : bytes := match o with FOp o' => fst (spec_step c o') | _ => c end.
  Lemma fstep_rep h s c o : FRep h s c -> length c <= limit -> fop_within limit header_size o ->
    FRep (snd (fst (fspec_step header_size (c, h) o))) (fst (fstep s o)) (onc c o) /\ length (onc c o) <= limit.
  Proof.
    intros HR Hl Ho. pose proof (full_step_ok A hmac dkey mkey id bs iv_size header_size check sparse rnd iv_fuel HE h s c o HR Hl Ho) as H.
    destruct (fst (fspec_step header_size (c, h) o)) as [c' h'] eqn:E. destruct H as (_ & H1 & H2).
    assert (Hc : c' = onc c o).
    { destruct o; cbn [fspec_step fst onc] in *; try (injection E as <- _; reflexivity). destruct (spec_step c o). cbn [fst] in *. injection E as <- _. reflexivity. }
    subst c'. cbn [snd]. auto.
  Qed.

  Definition paway (a b : nat) (grow : bool) (p : part) : Prop :=
    match p with PData q => away 0 bs a b grow q | PMeta q => away (hmac_len + ehs) ms a b grow q end.
  Lemma paway_split a b grow l : Forall (paway a b grow) l ->
    Forall (away 0 bs a b grow) (data_part l) /\ Forall (away (hmac_len + ehs) ms a b grow) (meta_part l).
  Proof.
    induction 1 as [|[p|p] l H HF [I1 I2]]; [split; constructor| |]; cbn [data_part meta_part flat_map app] in *; split; try assumption; constructor; assumption.
  Qed.

  Lemma aside_away a b grow s o : (match o with FOp _ => False | _ => True end) -> Forall (paway a b grow) (ftrace s o).
  Proof.
    intros Ho.
    assert (Hf : Forall (paway a b grow) (if f_dirty s then match mac_message id (f_meta s) with Ok m => [PMeta (PWrite 0 (hmac mkey m))] | Err _ => [] end else [])).
    { rewrite mac_message_ok. destruct (f_dirty s); constructor; [|constructor]. cbn [paway away]. right. rewrite (fe_hmac _ _ _ _ _ _ HE). unfold hmac_len. lia. }
    destruct o as [o|w|n| |]; cbn [full_trace]; [contradiction| |constructor|exact Hf|exact Hf].
    destruct (Nat.ltb_spec header_size (length w)); [constructor|].
    pose proof (aead_ct_len _ (fe_aead _ _ _ _ _ _ HE) dkey (rnd (f_rng s) iv_size) id (w ++ zeros (header_size - length w))) as L1.
    pose proof (aead_mac_len _ (fe_aead _ _ _ _ _ _ HE) dkey (rnd (f_rng s) iv_size) id (w ++ zeros (header_size - length w))) as L2.
    destruct (a_enc _ _ _ _ _) as [ct mac]. cbn [fst snd] in *. constructor; [|constructor]. cbn [paway away]. right.
    rewrite !app_length, L1, L2, (fe_rnd _ _ _ _ _ _ HE), app_length, zeros_length. unfold enc_header_size, mac_size. lia.
  Qed.

  Lemma ftraces_away off len a b grow : a < b -> (forall i, a <= i < b -> i * bs < off + len /\ off < (i + 1) * bs) ->
    forall l h s c, FRep h s c -> length c <= limit -> Forall (fop_within limit header_size) l ->
      sparedo c (fops l) off len -> (grow = false -> length c < b * bs) ->
      Forall (paway a b grow) (ftraces s l).
  Proof.
    intros Hab Hr. pose proof (fbs_pos _ _ _ _ _ _ HE) as Hb.
    induction l as [|o l IH]; intros h s c HR Hl HF Hs Hg; cbn [ftraces]; [constructor|].
    inversion HF as [|? ? Ho HF']; subst. destruct (fstep_rep h s c o HR Hl Ho) as [HR1 Hl1].
    apply Forall_app.
    assert (Ha : (match o with FOp _ => False | _ => True end) \/ exists o', o = FOp o') by (destruct o; eauto).
    destruct Ha as [Ha|[o' ->]].
    - split; [apply aside_away; exact Ha|]. apply (IH _ _ _ HR1 Hl1 HF'); destruct o; cbn [onc fops flat_map app] in *; auto; contradiction.
    - cbn [fops flat_map app sparedo] in Hs. destruct Hs as [Hu Hs].
      destruct (spared_step bs c o' off len a b grow ltac:(lia) Hu Hab Hr Hg) as [H1 H2]. split.
      + cbn [full_trace]. destruct H1 as [Hi|H1].
        * rewrite idle_trace; [constructor|]. cbn [bk_size full_backend]. unfold full_size. rewrite (fr_data _ _ _ _ _ _ _ _ _ _ _ HR). exact Hi.
        * pose proof (full_trace_in A hmac dkey mkey id bs iv_size header_size check sparse rnd iv_fuel HE h s c o' HR) as HT.
          eapply Forall_impl; [|exact HT]. intros [p|p] Hp; cbn [in_parts paway] in *; eapply in_blocks_away; eauto.
      + apply (IH _ _ _ HR1 Hl1 HF'); assumption.
  Qed.

  Definition padded (h : bytes) : bytes := h ++ zeros (header_size - length h).
  Record FInv (s : fdur) (u : user) : Prop := {
    fi_rep : exists h, FRep h (fd_st s) (u_now u) /\ (fd_changed s = false -> h = Some (padded (u_attr u)));
    fi_lim : length (u_now u) <= limit;
    fi_attr : fd_attr s = u_attr u;
    fi_alen : length (u_attr u) <= header_size;
    fi_fl : u_flushed u = true -> fd_changed s = false /\ f_dirty (fd_st s) = false;
    fi_syn : forall c a b, u_synced u = Some (c, a, b) -> exists s0 h0 l,
      FRep h0 s0 c /\ length c <= limit /\ fd_data s = f_data s0 /\ fd_meta s = f_meta s0 /\ Forall (fop_within limit header_size) l /\
      fops l = cops (u_later u) /\ fd_st s = fafter s0 l /\ fd_pending s = ftraces s0 l;
    fi_quiet : forall c a, u_synced u = Some (c, a, true) -> exists s0,
      FRep (Some (padded a)) s0 c /\ length c <= limit /\ fd_data s = f_data s0 /\ fd_meta s = f_meta s0 /\ f_dirty s0 = false /\
      (Forall quiet (u_later u) -> fd_st s = s0 /\ fd_changed s = false /\ fd_pending s = [])
  }.

  Lemma do_eq s o : fst (fdo s o) = mkFdur (fst (fstep (fd_st s) o)) (fd_attr s) (fd_changed s) (fd_data s) (fd_meta s) (fd_pending s ++ ftrace (fd_st s) o).
  Proof. unfold fdur_do. destruct (fstep (fd_st s) o). reflexivity. Qed.

  Lemma do_header s h c : FRep h (fd_st s) c -> length (fd_attr s) <= header_size ->
    snd (fdo s (FWriteHeader (fd_attr s))) = ODone.
  Proof.
    intros HR Hl. unfold fdur_do. cbn [full_step].
    edestruct full_write_header_ok as (s' & E & _); [exact HE|exact HR|exact Hl|]. rewrite E. reflexivity.
  Qed.

  (** A flush as stream operations. *)
  Definition flush_ops (s : fdur) : list fop := (if fd_changed s then [FWriteHeader (fd_attr s)] else []) ++ [FFlush].
  Lemma flush_eq s h c : FRep h (fd_st s) c -> length (fd_attr s) <= header_size ->
    step s CFlush = mkFdur (fafter (fd_st s) (flush_ops s)) (fd_attr s) false (fd_data s) (fd_meta s) (fd_pending s ++ ftraces (fd_st s) (flush_ops s)).
  Proof.
    intros HR Hl. unfold flush_ops. cbn [fdur_step]. pose proof (do_header s h c HR Hl) as Hd. pose proof (do_eq s (FWriteHeader (fd_attr s))) as He.
    destruct (fd_changed s) eqn:Ec.
    - destruct (fdo s (FWriteHeader (fd_attr s))) as [s1 r1]. cbn [fst snd] in *. subst r1 s1. rewrite do_eq. cbn [fd_st fd_attr fd_changed fd_data fd_meta fd_pending].
      cbn [app fafter ftraces]. rewrite app_nil_r, app_assoc. reflexivity.
    - rewrite do_eq. cbn [app fafter ftraces]. rewrite app_nil_r, Ec. reflexivity.
  Qed.

  Lemma flush_clean s h c : FRep h s c -> f_dirty (fst (fstep s FFlush)) = false.
  Proof.
    intros HR. cbn [full_step]. destruct (full_flush_ok A hmac dkey mkey id bs iv_size header_size rnd iv_fuel HE h s c HR) as (s' & -> & _ & Hd). exact Hd.
  Qed.

  Lemma later_syn s u s1 (x : call) (l1 : list fop) :
    Forall (fop_within limit header_size) l1 -> fops l1 = cops [x] ->
    fd_st s1 = fafter (fd_st s) l1 -> fd_data s1 = fd_data s -> fd_meta s1 = fd_meta s -> fd_pending s1 = fd_pending s ++ ftraces (fd_st s) l1 ->
    (forall c a b, u_synced u = Some (c, a, b) -> exists s0 h0 l,
      FRep h0 s0 c /\ length c <= limit /\ fd_data s = f_data s0 /\ fd_meta s = f_meta s0 /\ Forall (fop_within limit header_size) l /\
      fops l = cops (u_later u) /\ fd_st s = fafter s0 l /\ fd_pending s = ftraces s0 l) ->
    (forall c a b, u_synced u = Some (c, a, b) -> exists s0 h0 l,
      FRep h0 s0 c /\ length c <= limit /\ fd_data s1 = f_data s0 /\ fd_meta s1 = f_meta s0 /\ Forall (fop_within limit header_size) l /\
      fops l = cops (u_later u ++ [x]) /\ fd_st s1 = fafter s0 l /\ fd_pending s1 = ftraces s0 l).
  Proof.
    intros HF Hc E1 E2 E3 E4 S c a b E. destruct (S c a b E) as (s0 & h0 & l & S1 & S2 & S3 & S4 & S5 & S6 & S7 & S8).
    exists s0, h0, (l ++ l1). rewrite E1, E2, E3, E4, fafter_app, ftraces_app, <- S7, <- S8.
    refine (conj S1 (conj S2 (conj S3 (conj S4 (conj _ (conj _ (conj eq_refl eq_refl))))))).
    - apply Forall_app. auto.
    - unfold fops, cops in *. rewrite !flat_map_app, S6, Hc. reflexivity.
  Qed.

  Lemma idle_step s o : changes o = false -> fst (fstep s (FOp o)) = s /\ ftrace s (FOp o) = [].
  Proof.
    intros H. destruct o; cbn [changes] in H; try discriminate H; (split; [reflexivity|]); cbn [full_trace]; apply idle_trace; exact I.
  Qed.

  Lemma finv_step s u x : FInv s u -> call_within limit header_size x -> FInv (step s x) (user_step u x).
  Proof.
    intros [(h & R & Rh) L At Al Fl S Q] Hx. destruct x as [o|w| |].
    - cbn [fdur_step user_step]. rewrite do_eq. destruct (fstep_rep h _ _ (FOp o) R L Hx) as [R1 L1]. cbn [onc] in *.
      assert (Eh : snd (fst (fspec_step header_size (u_now u, h) (FOp o))) = h) by (cbn [fspec_step]; destruct (spec_step (u_now u) o); reflexivity).
      rewrite Eh in R1. constructor; cbn [fd_st fd_attr fd_changed fd_data fd_meta fd_pending u_now u_attr u_flushed u_synced u_later]; auto.
      + eauto.
      + intros E. apply andb_prop in E as [E1 E2]. apply negb_true_iff in E2. destruct (idle_step (fd_st s) o E2) as [-> _]. auto.
      + apply (later_syn s u (mkFdur (fst (fstep (fd_st s) (FOp o))) (fd_attr s) (fd_changed s) (fd_data s) (fd_meta s) (fd_pending s ++ ftrace (fd_st s) (FOp o))) (COp o) [FOp o]); try reflexivity; auto.
        cbn [ftraces fd_pending]. rewrite app_nil_r. reflexivity.
      + intros c a E. destruct (Q c a E) as (s0 & Q1 & Q2 & Q3 & Q4 & Q5 & Q6). exists s0.
        refine (conj Q1 (conj Q2 (conj Q3 (conj Q4 (conj Q5 _))))). intros HQ. apply Forall_app in HQ as [HQ Hq]. inversion Hq as [|? ? Hq1 _]; subst.
        destruct (Q6 HQ) as (E1 & E2 & E3). destruct (idle_step (fd_st s) o Hq1) as [-> ->]. rewrite app_nil_r. auto.
    - cbn [fdur_step user_step]. constructor; cbn [fd_st fd_attr fd_changed fd_data fd_meta fd_pending u_now u_attr u_flushed u_synced u_later]; auto.
      + exists h. split; [exact R|intros E; discriminate E].
      + intros E; discriminate E.
      + apply (later_syn s u (mkFdur (fd_st s) w true (fd_data s) (fd_meta s) (fd_pending s)) (CAttr w) []); try reflexivity; auto.
        cbn [ftraces fd_pending]. rewrite app_nil_r. reflexivity.
      + intros c a E. destruct (Q c a E) as (s0 & Q1 & Q2 & Q3 & Q4 & Q5 & Q6). exists s0.
        refine (conj Q1 (conj Q2 (conj Q3 (conj Q4 (conj Q5 _))))). intros HQ. apply Forall_app in HQ as [HQ Hq]. inversion Hq as [|? ? Hq1 _]; subst. destruct Hq1.
    - assert (Al' : length (fd_attr s) <= header_size) by (rewrite At; exact Al).
      rewrite (flush_eq s h _ R Al'). cbn [user_step].
      assert (HW : Forall (fop_within limit header_size) (flush_ops s)).
      { unfold flush_ops. destruct (fd_changed s); repeat (apply Forall_cons || apply Forall_nil); cbn [fop_within]; auto. }
      assert (K : FRep (Some (padded (u_attr u))) (fafter (fd_st s) (flush_ops s)) (u_now u) /\ f_dirty (fafter (fd_st s) (flush_ops s)) = false).
      { unfold flush_ops. destruct (fd_changed s) eqn:Ec; cbn [app fafter].
        - destruct (fstep_rep h _ _ (FWriteHeader (fd_attr s)) R L Al') as [R1 L1].
          cbn [fspec_step fst snd onc] in R1. rewrite At in R1. fold (padded (u_attr u)) in R1.
          destruct (fstep_rep _ _ _ FFlush R1 L I) as [R2 _]. cbn [fspec_step fst snd onc] in R2.
          rewrite At. split; [exact R2|]. eapply flush_clean; exact R1.
        - specialize (Rh eq_refl). subst h. destruct (fstep_rep _ _ _ FFlush R L I) as [R2 _]. cbn [fspec_step fst snd onc] in R2.
          split; [exact R2|]. eapply flush_clean; exact R. }
      destruct K as [K1 K2].
      constructor; cbn [fd_st fd_attr fd_changed fd_data fd_meta fd_pending u_now u_attr u_flushed u_synced u_later]; auto.
      + eauto.
      + apply (later_syn s u (mkFdur (fafter (fd_st s) (flush_ops s)) (fd_attr s) false (fd_data s) (fd_meta s) (fd_pending s ++ ftraces (fd_st s) (flush_ops s))) CFlush (flush_ops s)); try reflexivity; auto.
        unfold flush_ops. destruct (fd_changed s); reflexivity.
      + intros c a E. destruct (Q c a E) as (s0 & Q1 & Q2 & Q3 & Q4 & Q5 & Q6). exists s0.
        refine (conj Q1 (conj Q2 (conj Q3 (conj Q4 (conj Q5 _))))). intros HQ. apply Forall_app in HQ as [HQ _].
        destruct (Q6 HQ) as (E1 & E2 & E3). unfold flush_ops. rewrite E2, E3, E1. cbn [app fafter ftraces full_step full_trace]. rewrite Q5.
        unfold full_flush, hmac_flush. rewrite Q5. cbn [fst app]. destruct s0 as [d0 m0 y0 k0]. cbn [f_dirty f_data f_meta f_rng] in *. subst y0. auto.
    - cbn [fdur_step user_step]. constructor; cbn [fd_st fd_attr fd_changed fd_data fd_meta fd_pending u_now u_attr u_flushed u_synced u_later]; auto.
      + eauto.
      + intros c a b E. injection E as <- <- <-. exists (fd_st s), h, []. cbn [ftraces fafter fops cops flat_map].
        refine (conj R (conj L (conj eq_refl (conj eq_refl (conj _ (conj eq_refl (conj eq_refl eq_refl))))))). constructor.
      + intros c a E. injection E as <- <- E. destruct (Fl E) as [F1 F2]. specialize (Rh F1). subst h. exists (fd_st s).
        refine (conj R (conj L (conj eq_refl (conj eq_refl (conj F2 _))))). auto.
  Qed.
  Lemma finv_run l : forall s u, FInv s u -> Forall (call_within limit header_size) l -> FInv (run s l) (user_run u l).
  Proof.
    induction l as [|x l IH]; intros s u HI HF; [exact HI|]. inversion HF; subst. cbn [fdur_run user_run fold_left].
    apply IH; [|assumption]. apply finv_step; assumption.
  Qed.
  Lemma finv_new h k : length h <= header_size -> FInv (fdur_new h k) (user_new h).
  Proof.
    intros Hh. constructor; cbn [fdur_new user_new fd_st fd_attr fd_changed fd_data fd_meta fd_pending u_now u_attr u_flushed u_synced u_later]; auto; try discriminate.
    - exists None. split; [|discriminate]. apply FRep_fresh.
    - cbn [length]. lia.
  Qed.

  Lemma full_durable s u c a b d' m' y k ck off len :
    FInv s u -> u_synced u = Some (c, a, b) ->
    left_over (fd_data s) (data_part (fd_pending s)) d' -> left_over (fd_meta s) (meta_part (fd_pending s)) m' ->
    spared bs c (u_later u) off len ->
    bb_read (B ck) off len (mkFull d' m' y k) = Ok (arr_read c off len).
  Proof.
    intros [_ _ _ _ _ S _] E HD HM Hs. destruct (S c a b E) as (s0 & h0 & l & HR & Hlim & E1 & E2 & HF & Eo & _ & Ep).
    rewrite Ep, E1 in HD. rewrite Ep, E2 in HM. pose proof (spared_length _ _ _ _ _ Hs) as Hoff. apply spared_o in Hs. rewrite <- Eo in Hs.
    apply (full_reads_same A hmac dkey mkey id bs iv_size header_size sparse rnd iv_fuel HE h0 s0 c ck d' m' y k off len HR Hlim Hoff).
    intros x z Hxz Hr. set (grow := z * bs <=? length c).
    assert (Hg : grow = false -> length c < z * bs) by (unfold grow; destruct (Nat.leb_spec (z * bs) (length c)); [discriminate|auto]).
    pose proof (ftraces_away off len x z grow Hxz Hr l h0 s0 c HR Hlim HF Hs Hg) as HA. apply paway_split in HA as [A1 A2].
    assert (Hx : x * bs <= length c) by (destruct (Hr x ltac:(lia)); lia).
    assert (Hc : 0 < length c) by (destruct (Hr x ltac:(lia)); lia).
    pose proof (fr_data _ _ _ _ _ _ _ _ _ _ _ HR) as HLd. split.
    - apply (away_read _ _ _ 0 bs x z grow ltac:(lia) HD A1); [lia|]. unfold grow. intros Hgr. apply Nat.leb_le in Hgr. lia.
    - apply (away_read _ _ _ (hmac_len + ehs) ms x z grow ltac:(lia) HM A2).
      + apply (meta_length A hmac dkey mkey id bs iv_size header_size rnd iv_fuel HE h0 s0 c x HR Hx Hc).
      + unfold grow. intros Hgr. apply Nat.leb_le in Hgr. apply (meta_length A hmac dkey mkey id bs iv_size header_size rnd iv_fuel HE h0 s0 c z HR Hgr Hc).
  Qed.

  Lemma full_durable_whole s u c a d' m' k ops :
    FInv s u -> u_synced u = Some (c, a, true) -> Forall quiet (u_later u) ->
    left_over (fd_data s) (data_part (fd_pending s)) d' -> left_over (fd_meta s) (meta_part (fd_pending s)) m' ->
    Forall (fop_within limit header_size) ops ->
    exists s1, full_open hmac mkey id check d' m' k = Ok s1 /\
      Forall2 fout_ok (snd (run_ops (fspec_step header_size) (c, Some (padded a)) ops)) (snd (run_ops fstep s1 ops)).
  Proof.
    intros [_ _ _ _ _ _ Q] E HQ HD HM HO. destruct (Q c a E) as (s0 & HR & Hlim & E1 & E2 & Ed & Hq). destruct (Hq HQ) as (_ & _ & Ep).
    rewrite Ep in HD, HM. apply left_nil in HD, HM. subst d' m'. rewrite E1, E2.
    eexists. split; [apply (full_open_ok A hmac dkey mkey id bs iv_size header_size check _ s0 c k HR Ed)|].
    pose proof (FRep_rng A hmac dkey mkey id bs iv_size header_size _ _ _ k HR) as HR1. rewrite Ed in HR1.
    pose proof (full_refines A hmac dkey mkey id bs iv_size header_size check sparse rnd iv_fuel HE ops _ _ _ HR1 Hlim HO) as H.
    destruct (fst (run_ops (fspec_step header_size) (c, Some (padded a)) ops)). apply H.
  Qed.
End FullDur.
