(** Nonces and secrecy of the full format: proofs. *)
From Coq Require Import Sorted.
From Verif Require Import Base BaseLemmas StreamSpec BlockModel BlockProofs CodecModel LiteModel LiteProofs LiteTamper
  FullStreamModel FullStreamProofs CrashModel CrashSpec CrashProofs CrashTop CryptoProofs SecrecySpec SecrecyProofs SecrecyTop.

Section FullGhost.
  Variable A : aead.
  Variable hmac : bytes -> bytes -> bytes.
  Variable dkey mkey id : bytes.
  Variable bs iv_size header_size : nat.
  Variable check sparse : bool.
  Variable rnd : nat -> nat -> bytes.
  Variable iv_fuel : nat.
  Hypothesis HE : full_env_ok A hmac bs iv_size rnd iv_fuel.

  Notation B := (full_backend A dkey id bs iv_size header_size check sparse rnd iv_fuel).
  Notation T := (traced B (full_on_write A dkey id bs iv_size header_size rnd iv_fuel) (full_on_adjust bs iv_size header_size)).
  Notation gblocks := (gblocks bs iv_size rnd iv_fuel).
  Notation ghost := (ghost bs iv_size rnd iv_fuel).
  Notation FRep := (FRep A hmac dkey mkey id bs iv_size header_size).
  Notation fmax := full_max_blocks.

  Definition fct (e : ent) : bytes := fst (a_enc A dkey (rnd (fst (fst e)) iv_size) id (snd e)).
  Definition frec (e : ent) : bytes := rnd (fst (fst e)) iv_size ++ snd (a_enc A dkey (rnd (fst (fst e)) iv_size) id (snd e)).
  Definition frender (g : gcall) : list part :=
    match g with
    | GBlocks a l => [PData (PWrite (a * bs) (concat (map fct l))); PMeta (PWrite (meta_pos iv_size header_size a + hmac_len) (concat (map frec l)))]
    | GSize n => [PData (PResize n); PMeta (PResize (meta_pos iv_size header_size ((n + bs - 1) / bs) + hmac_len))]
    end.

  Lemma full_loop_ghost m r : r <= bs -> forall block input k fuel,
    m * bs + r <= length input -> bs * m + r <= fuel ->
    full_write_loop A dkey id bs iv_size rnd iv_fuel fuel (firstn (bs * m + r) input) k
    = Ok (concat (map fct (fst (gblocks m r block input k))), concat (map frec (fst (gblocks m r block input k))), snd (gblocks m r block input k)).
  Proof.
    intros Hr. pose proof (fe_bs _ _ _ _ _ _ HE) as Hbs.
    assert (Hend : forall f' kk, full_write_loop A dkey id bs iv_size rnd iv_fuel f' [] kk = Ok ([], [], kk)) by (intros [|f'] kk; reflexivity).
    induction m as [|m IH]; intros block input k fuel Hin Hfuel; cbn [SecrecyProofs.gblocks].
    - rewrite Nat.mul_0_r, Nat.add_0_l in *. destruct (Nat.leb_spec r 0) as [H0|H0].
      + replace r with 0 by lia. cbn [firstn]. rewrite Hend. reflexivity.
      + destruct fuel as [|f]; [lia|]. cbn [full_write_loop]. destruct (firstn r input) as [|x t] eqn:E.
        { assert (length (firstn r input) = 0) by (rewrite E; reflexivity). rewrite firstn_length in *. lia. }
        rewrite <- E. rewrite (next_iv_nexti iv_size rnd iv_fuel k (fe_nonzero _ _ _ _ _ _ HE k)). cbn [rbind].
        rewrite (firstn_all2 (n := bs)) by (rewrite firstn_length; lia). rewrite (skipn_all2 (n := bs)) by (rewrite firstn_length; lia).
        cbn [fst snd map concat]. unfold fct, frec. cbn [fst snd]. destruct (a_enc _ _ _ _ _) as [ct mac]. rewrite Hend. reflexivity.
    - destruct fuel as [|f]; [lia|]. cbn [full_write_loop]. destruct (firstn (bs * S m + r) input) as [|x t] eqn:E.
      { assert (length (firstn (bs * S m + r) input) = 0) by (rewrite E; reflexivity). rewrite firstn_length in *. lia. }
      rewrite <- E. rewrite (next_iv_nexti iv_size rnd iv_fuel k (fe_nonzero _ _ _ _ _ _ HE k)). cbn [rbind].
      replace (firstn bs (firstn (bs * S m + r) input)) with (firstn bs input) by (rewrite firstn_firstn; f_equal; lia).
      replace (skipn bs (firstn (bs * S m + r) input)) with (firstn (bs * m + r) (skipn bs input)) by (rewrite firstn_skipn_comm; f_equal; f_equal; lia).
      rewrite (IH (S block) (skipn bs input) (S (nexti iv_size rnd iv_fuel k)) f) by (rewrite ?skipn_length; lia).
      cbn [fst snd map concat]. unfold fct at 2, frec at 2. cbn [fst snd]. destruct (a_enc _ _ _ _ _) as [ct mac]. cbn [rbind fst snd]. reflexivity.
  Qed.

  Lemma full_exec_ghost l : Forall (cvalid bs fmax) l -> forall s t,
    let x := exec T l (s, t) in
    snd x = t ++ flat_map frender (fst (ghost l (f_rng s))) /\
    f_rng (fst x) = snd (ghost l (f_rng s)) /\ f_dirty (fst x) = match l with [] => f_dirty s | _ => true end.
  Proof.
    induction 1 as [|c l Hc Hl IH]; intros s t; cbv zeta.
    - cbn [exec SecrecyProofs.ghost fst snd flat_map]. rewrite app_nil_r. auto.
    - destruct c as [a e r d|n]; cbn [exec SecrecyProofs.ghost fst snd cvalid] in *.
      + destruct Hc as (H1 & H2 & H3 & H4). cbn [traced bk_write fst snd full_backend]. unfold full_write_multi, full_on_write.
        rewrite full_over_max_false by exact H2. rewrite (full_loop_ghost (e - a) r H3 a) by lia. cbn [fst snd].
        match goal with |- context [(mkFull ?f1 ?f2 true ?f3, ?t1)] => destruct (IH (mkFull f1 f2 true f3) t1) as (I1 & I2 & I3) end.
        cbn [f_rng f_dirty] in *. refine (conj _ (conj I2 _)).
        * etransitivity; [exact I1|]. rewrite <- app_assoc. reflexivity.
        * etransitivity; [exact I3|]. destruct l; reflexivity.
      + cbn [traced bk_adjust fst snd full_backend]. unfold full_adjust, full_on_adjust. cbn [fst snd].
        match goal with |- context [(mkFull ?f1 ?f2 true ?f3, ?t1)] => destruct (IH (mkFull f1 f2 true f3) t1) as (I1 & I2 & I3) end.
        cbn [f_rng f_dirty] in *. refine (conj _ (conj I2 _)).
        * etransitivity; [exact I1|]. rewrite <- app_assoc. reflexivity.
        * etransitivity; [exact I3|]. destruct l; reflexivity.
  Qed.

  Lemma full_op_ghost h s c o : FRep h s c -> length c <= fmax * bs -> sop_within (fmax * bs) o ->
    trace B (full_on_write A dkey id bs iv_size header_size rnd iv_fuel) (full_on_adjust bs iv_size header_size) s o
      = flat_map frender (fst (ghost (plan bs sparse c o) (f_rng s))) /\
    f_rng (fst (bb_step B s o)) = snd (ghost (plan bs sparse c o) (f_rng s)) /\
    f_dirty (fst (bb_step B s o)) = match plan bs sparse c o with [] => f_dirty s | _ => true end.
  Proof.
    intros HR Hl Ho. pose proof (full_backend_ok A hmac dkey mkey id bs iv_size header_size check sparse rnd iv_fuel HE h) as HB.
    assert (Hl' : length c <= bk_maxn B * bk_bs B) by (rewrite bk_maxn_full; exact Hl).
    assert (Ho' : sop_within (bk_maxn B * bk_bs B) o) by (rewrite bk_maxn_full; exact Ho).
    assert (HV : Forall (cvalid bs fmax) (plan bs sparse c o)).
    { rewrite <- (bk_maxn_full A dkey id bs iv_size header_size check sparse rnd iv_fuel). exact (plan_valid B _ HB c o Hl' Ho'). }
    destruct (full_exec_ghost _ HV s []) as (G1 & G2 & G3).
    pose proof (exec_fst B part (full_on_write A dkey id bs iv_size header_size rnd iv_fuel) (full_on_adjust bs iv_size header_size) _ HB s c o HR Hl' Ho') as EQ.
    refine (conj _ (conj _ _)).
    - etransitivity; [exact (trace_exec B part _ _ _ HB s c o HR Hl' Ho')|exact G1].
    - exact (eq_trans (eq_sym (f_equal f_rng EQ)) G2).
    - exact (eq_trans (eq_sym (f_equal f_dirty EQ)) G3).
  Qed.
End FullGhost.

(** The encryptions of a history. *)
Definition fstep_ghost (bs iv_size header_size : nat) (sparse : bool) (rnd : nat -> nat -> bytes) (iv_fuel : nat) (c : bytes) (k : nat) (o : fop) : list ent * nat :=
  match o with
  | FOp o => let x := ghost bs iv_size rnd iv_fuel (plan bs sparse c o) k in (ents (fst x), snd x)
  | FWriteHeader h => ([(k, 0, h ++ zeros (header_size - length h))], S k)
  | _ => ([], k)
  end.
Definition fnext (c : bytes) (o : fop) : bytes := match o with FOp o => fst (spec_step c o) | _ => c end.
Fixpoint fghost (bs iv_size header_size : nat) (sparse : bool) (rnd : nat -> nat -> bytes) (iv_fuel : nat) (c : bytes) (k : nat) (ops : list fop) : list ent * nat :=
  match ops with
  | [] => ([], k)
  | o :: l =>
      let x := fstep_ghost bs iv_size header_size sparse rnd iv_fuel c k o in
      let y := fghost bs iv_size header_size sparse rnd iv_fuel (fnext c o) (snd x) l in
      (fst x ++ fst y, snd y)
  end.
Lemma fstep_ghost_rising bs iv_size header_size sparse rnd iv_fuel c k o :
  rising k (draws (fst (fstep_ghost bs iv_size header_size sparse rnd iv_fuel c k o))) (snd (fstep_ghost bs iv_size header_size sparse rnd iv_fuel c k o)).
Proof. destruct o; cbn [fstep_ghost fst snd draws map rising]; try lia. exact (ghost_rising bs iv_size rnd iv_fuel (plan bs sparse c o) k). Qed.
Lemma fghost_rising bs iv_size header_size sparse rnd iv_fuel ops : forall c k,
  rising k (draws (fst (fghost bs iv_size header_size sparse rnd iv_fuel c k ops))) (snd (fghost bs iv_size header_size sparse rnd iv_fuel c k ops)).
Proof.
  induction ops as [|o ops IH]; intros c k; cbn [fghost fst snd]; [cbn; lia|].
  unfold draws. rewrite map_app. eapply rising_app; [apply fstep_ghost_rising|apply IH].
Qed.
Lemma fstep_ghost_like bs iv_size header_size sparse rnd iv_fuel c1 c2 k o1 o2 limit : falike o1 o2 -> length c1 = length c2 -> fop_within limit header_size o1 -> fop_within limit header_size o2 ->
  Forall2 ent_like (fst (fstep_ghost bs iv_size header_size sparse rnd iv_fuel c1 k o1)) (fst (fstep_ghost bs iv_size header_size sparse rnd iv_fuel c2 k o2)) /\
  snd (fstep_ghost bs iv_size header_size sparse rnd iv_fuel c1 k o1) = snd (fstep_ghost bs iv_size header_size sparse rnd iv_fuel c2 k o2) /\
  length (fnext c1 o1) = length (fnext c2 o2).
Proof.
  intros Ho Hc W1 W2. destruct o1 as [o1|h1|n1| |], o2 as [o2|h2|n2| |]; cbn [falike] in Ho; try discriminate Ho; cbn [fstep_ghost fnext fst snd fop_within] in *; try (repeat split; auto; fail).
  - destruct (ghost_like bs iv_size rnd iv_fuel _ _ (plan_shape bs sparse c1 c2 o1 o2 Hc Ho) k) as [G1 G2]. split; [apply ents_like, G1|]. split; [exact G2|]. apply alike_length; assumption.
  - split; [|auto]. constructor; [|constructor]. split; [reflexivity|]. cbn [snd]. rewrite !app_length, !zeros_length. lia.
Qed.
Lemma fghost_like bs iv_size header_size sparse rnd iv_fuel limit ops1 ops2 : Forall2 falike ops1 ops2 ->
  Forall (fop_within limit header_size) ops1 -> Forall (fop_within limit header_size) ops2 -> forall c1 c2 k, length c1 = length c2 ->
  Forall2 ent_like (fst (fghost bs iv_size header_size sparse rnd iv_fuel c1 k ops1)) (fst (fghost bs iv_size header_size sparse rnd iv_fuel c2 k ops2)).
Proof.
  induction 1 as [|o1 o2 ops1 ops2 Ho HF IH]; intros W1 W2 c1 c2 k Hc; [constructor|].
  inversion W1; inversion W2; subst. cbn [fghost fst snd].
  destruct (fstep_ghost_like bs iv_size header_size sparse rnd iv_fuel c1 c2 k o1 o2 limit Ho Hc) as (G1 & G2 & G3); try assumption. rewrite G2.
  apply Forall2_app; [exact G1|]. apply IH; assumption.
Qed.

Section FullHistory.
  Variable A : aead.
  Variable hmac : bytes -> bytes -> bytes.
  Variable dkey mkey id : bytes.
  Variable bs iv_size header_size : nat.
  Variable check sparse : bool.
  Variable rnd : nat -> nat -> bytes.
  Variable iv_fuel : nat.
  Hypothesis HE : full_env_ok A hmac bs iv_size rnd iv_fuel.
  Notation FRep := (FRep A hmac dkey mkey id bs iv_size header_size).
  Notation fstep := (full_step A hmac dkey mkey id bs iv_size header_size check sparse rnd iv_fuel).
  Notation ftrace := (full_trace A hmac dkey mkey id bs iv_size header_size check sparse rnd iv_fuel).
  Notation fhistory := (full_history A hmac dkey mkey id bs iv_size header_size check sparse rnd iv_fuel).
  Notation fghost := (fghost bs iv_size header_size sparse rnd iv_fuel).
  Notation fstep_ghost := (fstep_ghost bs iv_size header_size sparse rnd iv_fuel).
  Notation limit := (full_max_blocks * bs).

  (** One step keeps the representation. *)
  Lemma full_step_rep h s c o : FRep h s c -> length c <= limit -> fop_within limit header_size o ->
    exists h', FRep h' (fst (fstep s o)) (fnext c o) /\ length (fnext c o) <= limit.
  Proof.
    intros HR Hl Ho. pose proof (full_step_ok A hmac dkey mkey id bs iv_size header_size check sparse rnd iv_fuel HE h s c o HR Hl Ho) as H.
    destruct o as [o|w|len| |]; cbn [fspec_step fst snd fnext] in *; try (destruct H as (_ & H1 & H2); eauto).
    destruct (spec_step c o) as [c1 r1]. cbn [fst snd] in *. destruct H as (_ & H1 & H2). eauto.
  Qed.
  Lemma full_step_rng h s c o : FRep h s c -> length c <= limit -> fop_within limit header_size o ->
    f_rng (fst (fstep s o)) = snd (fstep_ghost c (f_rng s) o).
  Proof.
    intros HR Hl Ho. destruct o as [o|w|len| |]; cbn [full_step SecrecyFull.fstep_ghost snd fop_within] in *.
    - destruct (full_op_ghost A hmac dkey mkey id bs iv_size header_size check sparse rnd iv_fuel HE h s c o HR Hl Ho) as (_ & H & _).
      match goal with |- context [bb_step ?B s o] => destruct (bb_step B s o) end. exact H.
    - unfold full_write_header. destruct (Nat.ltb_spec header_size (length w)); [lia|]. destruct (a_enc _ _ _ _ _). reflexivity.
    - reflexivity.
    - unfold full_flush. destruct (hmac_flush _ _ _ _ _) as [[raw d] r]. reflexivity.
    - unfold full_flush. destruct (hmac_flush _ _ _ _ _) as [[raw d] r]. cbn [fst f_data f_meta f_rng]. unfold full_open. destruct (hmac_open _ _ _ _ _); reflexivity.
  Qed.

  Notation nonces := (full_nonces iv_size header_size).
  Lemma full_nonces_step h s c o : FRep h s c -> length c <= limit -> fop_within limit header_size o ->
    flat_map nonces (ftrace s o) = map (fun i => rnd i iv_size) (draws (fst (fstep_ghost c (f_rng s) o))).
  Proof.
    intros HR Hl Ho. pose proof (fe_rnd _ _ _ _ _ _ HE) as Hrnd. pose proof (fe_iv _ _ _ _ _ _ HE) as Hiv.
    destruct o as [o|w|len| |]; cbn [full_trace SecrecyFull.fstep_ghost fst snd fop_within] in *.
    - destruct (full_op_ghost A hmac dkey mkey id bs iv_size header_size check sparse rnd iv_fuel HE h s c o HR Hl Ho) as (H & _ & _). rewrite H. clear H.
      generalize (fst (ghost bs iv_size rnd iv_fuel (plan bs sparse c o) (f_rng s))). intros l.
      induction l as [|g l IH]; [reflexivity|]. cbn [flat_map]. rewrite flat_map_app, IH. unfold ents. cbn [flat_map]. unfold draws. rewrite !map_app. f_equal.
      destruct g as [a l1|n]; cbn [frender flat_map full_nonces gcall_ents app map]; [|reflexivity]. rewrite app_nil_r.
      unfold hmac_len, meta_pos, enc_header_size, mac_size. destruct (Nat.ltb_spec (header_size + iv_size + 16 + meta_size iv_size * a + 32) 32); [lia|].
      destruct (Nat.eqb_spec (header_size + iv_size + 16 + meta_size iv_size * a + 32) 32); [lia|].
      rewrite cut_concat; [|lia| |lia].
      + rewrite !map_map. apply map_ext. intros e. unfold frec. rewrite firstn_app, Hrnd, Nat.sub_diag. cbn [firstn]. rewrite app_nil_r. apply firstn_all2. rewrite Hrnd. lia.
      + assert (HL : forall e, length (frec A dkey id iv_size rnd e) = iv_size + 16).
        { intros e. unfold frec. rewrite app_length, Hrnd, (aead_mac_len _ (fe_aead _ _ _ _ _ _ HE)). reflexivity. }
        clear - HL Hiv. induction l1 as [|e l1 IH]; cbn [map]; [exact I|]. destruct l1 as [|e2 l1]; cbn [map] in *; rewrite HL; [lia|]. split; [reflexivity|exact IH].
    - destruct (Nat.ltb_spec header_size (length w)); [lia|]. destruct (a_enc _ _ _ _ _) as [ct mac]. cbn [flat_map full_nonces app hmac_len Nat.add Nat.ltb Nat.leb Nat.eqb draws map fst].
      unfold hmac_len. cbn. rewrite firstn_app, Hrnd, Nat.sub_diag. cbn [firstn]. rewrite app_nil_r. rewrite firstn_all2 by (rewrite Hrnd; lia). reflexivity.
    - reflexivity.
    - destruct (f_dirty s); [|reflexivity]. destruct (mac_message _ _); reflexivity.
    - destruct (f_dirty s); [|reflexivity]. destruct (mac_message _ _); reflexivity.
  Qed.

  Lemma full_history_nonces ops : forall h s c, FRep h s c -> length c <= limit -> Forall (fop_within limit header_size) ops ->
    flat_map nonces (fhistory s ops) = map (fun i => rnd i iv_size) (draws (fst (fghost c (f_rng s) ops))) /\
    f_rng (fst (run_ops fstep s ops)) = snd (fghost c (f_rng s) ops).
  Proof.
    induction ops as [|o ops IH]; intros h s c HR Hl Hall; [split; reflexivity|]. inversion Hall as [|? ? Ho Hops]; subst.
    cbn [full_history run_ops SecrecyFull.fghost fst snd]. destruct (full_step_rep h s c o HR Hl Ho) as (h' & HR' & Hl').
    pose proof (full_step_rng h s c o HR Hl Ho) as Hk. rewrite flat_map_app, (full_nonces_step h s c o HR Hl Ho).
    destruct (IH h' _ _ HR' Hl' Hops) as [I1 I2]. rewrite Hk in I1, I2. rewrite I1. unfold draws. rewrite !map_app. split; [reflexivity|].
    destruct (fstep s o) as [s1 r1]. cbn [fst] in *. destruct (run_ops fstep s1 ops) as [s2 rs]. exact I2.
  Qed.
End FullHistory.

(** Two histories in lock step. *)
Section FullPair.
  Variable tag : bytes -> bytes -> bytes -> bytes -> bytes.
  Variable pad1 pad2 : bytes -> bytes -> nat -> byte.
  Variable hmac : bytes -> bytes -> bytes.
  Variable dkey mkey id : bytes.
  Variable bs iv_size header_size : nat.
  Variable check sparse : bool.
  Variable rnd : nat -> nat -> bytes.
  Variable iv_fuel : nat.
  Notation A1 := (otp tag pad1).
  Notation A2 := (otp tag pad2).
  Hypothesis H1 : full_env_ok A1 hmac bs iv_size rnd iv_fuel.
  Hypothesis H2 : full_env_ok A2 hmac bs iv_size rnd iv_fuel.
  Notation FRep A := (FRep A hmac dkey mkey id bs iv_size header_size).
  Notation fstep A := (full_step A hmac dkey mkey id bs iv_size header_size check sparse rnd iv_fuel).
  Notation ftrace A := (full_trace A hmac dkey mkey id bs iv_size header_size check sparse rnd iv_fuel).
  Notation fhistory A := (full_history A hmac dkey mkey id bs iv_size header_size check sparse rnd iv_fuel).
  Notation fghost := (fghost bs iv_size header_size sparse rnd iv_fuel).
  Notation fstep_ghost := (fstep_ghost bs iv_size header_size sparse rnd iv_fuel).
  Notation limit := (full_max_blocks * bs).

  Definition agree (e1 e2 : ent) : Prop :=
    masked (pad1 dkey (rnd (fst (fst e1)) iv_size)) (snd e1) = masked (pad2 dkey (rnd (fst (fst e1)) iv_size)) (snd e2).

  Lemma agree_enc e1 e2 : ent_like e1 e2 -> agree e1 e2 ->
    a_enc A1 dkey (rnd (fst (fst e1)) iv_size) id (snd e1) = a_enc A2 dkey (rnd (fst (fst e2)) iv_size) id (snd e2).
  Proof. intros [E _] HA. unfold agree in HA. cbn [otp a_enc]. rewrite <- E, HA. reflexivity. Qed.

  Lemma frender_like g1 g2 : gcall_like g1 g2 -> Forall2 agree (gcall_ents g1) (gcall_ents g2) ->
    frender A1 dkey id bs iv_size header_size rnd g1 = frender A2 dkey id bs iv_size header_size rnd g2.
  Proof.
    intros HL HM. destruct g1 as [a l1|n], g2 as [a2 l2|n2]; cbn [gcall_like gcall_ents] in *; try contradiction; [|now subst n2].
    destruct HL as [<- HL]. cbn [frender].
    assert (E : map (fct A1 dkey id iv_size rnd) l1 = map (fct A2 dkey id iv_size rnd) l2 /\ map (frec A1 dkey id iv_size rnd) l1 = map (frec A2 dkey id iv_size rnd) l2).
    { clear a. induction HL as [|e1 e2 l1 l2 He HL IH]; cbn [map]; [auto|]. inversion HM as [|? ? ? ? M1 M2]; subst. destruct (IH M2) as [I1 I2].
      unfold fct at 1 3, frec at 1 3. rewrite (agree_enc _ _ He M1), I1, I2. destruct He as [He _]. rewrite He. auto. }
    destruct E as [-> ->]. reflexivity.
  Qed.

  Lemma pair_step h1 h2 s c1 c2 o1 o2 : FRep A1 h1 s c1 -> FRep A2 h2 s c2 -> length c1 = length c2 -> length c1 <= limit ->
    fop_within limit header_size o1 -> fop_within limit header_size o2 -> falike o1 o2 ->
    Forall2 agree (fst (fstep_ghost c1 (f_rng s) o1)) (fst (fstep_ghost c2 (f_rng s) o2)) ->
    ftrace A1 s o1 = ftrace A2 s o2 /\ fst (fstep A1 s o1) = fst (fstep A2 s o2).
  Proof.
    intros R1 R2 Hc Hl W1 W2 Ho HA.
    assert (HT : ftrace A1 s o1 = ftrace A2 s o2).
    { destruct o1 as [o1|w1|n1| |], o2 as [o2|w2|n2| |]; cbn [falike] in Ho; try discriminate Ho; cbn [full_trace SecrecyFull.fstep_ghost fst fop_within] in *; try reflexivity.
      - destruct (full_op_ghost A1 hmac dkey mkey id bs iv_size header_size check sparse rnd iv_fuel H1 h1 s c1 o1 R1 Hl W1) as (T1 & _ & _).
        destruct (full_op_ghost A2 hmac dkey mkey id bs iv_size header_size check sparse rnd iv_fuel H2 h2 s c2 o2 R2 ltac:(lia) W2) as (T2 & _ & _).
        rewrite T1, T2. clear T1 T2.
        destruct (ghost_like bs iv_size rnd iv_fuel _ _ (plan_shape bs sparse c1 c2 o1 o2 Hc Ho) (f_rng s)) as [G1 _].
        pose proof (Forall2_flat _ gcall_ents gcall_like gcall_like_length _ _ G1 HA) as HF. clear - HF.
        induction HF as [|a b l1 l2 [Hab HM] HF IH]; [reflexivity|]. cbn [flat_map]. rewrite IH, (frender_like a b Hab HM). reflexivity.
      - destruct (Nat.ltb_spec header_size (length w1)); [lia|]. destruct (Nat.ltb_spec header_size (length w2)); [lia|].
        inversion HA as [|? ? ? ? M1 M2]; subst. unfold agree in M1. cbn [fst snd] in M1. cbn [otp a_enc]. rewrite M1. reflexivity. }
    split; [exact HT|].
    destruct (full_accounted A1 hmac dkey mkey id bs iv_size header_size check sparse rnd iv_fuel s o1) as [D1 M1].
    destruct (full_accounted A2 hmac dkey mkey id bs iv_size header_size check sparse rnd iv_fuel s o2) as [D2 M2].
    rewrite HT in D1, M1. rewrite <- D2 in D1. rewrite <- M2 in M1.
    pose proof (full_step_rng A1 hmac dkey mkey id bs iv_size header_size check sparse rnd iv_fuel H1 h1 s c1 o1 R1 Hl W1) as K1.
    pose proof (full_step_rng A2 hmac dkey mkey id bs iv_size header_size check sparse rnd iv_fuel H2 h2 s c2 o2 R2 ltac:(lia) W2) as K2.
    destruct (fstep_ghost_like bs iv_size header_size sparse rnd iv_fuel c1 c2 (f_rng s) o1 o2 limit Ho Hc W1 W2) as (_ & KK & _). rewrite KK, <- K2 in K1.
    assert (DD : f_dirty (fst (fstep A1 s o1)) = f_dirty (fst (fstep A2 s o2))).
    { destruct o1 as [o1|w1|n1| |], o2 as [o2|w2|n2| |]; cbn [falike] in Ho; try discriminate Ho; cbn [full_step fop_within] in *; try reflexivity.
      - destruct (full_op_ghost A1 hmac dkey mkey id bs iv_size header_size check sparse rnd iv_fuel H1 h1 s c1 o1 R1 Hl W1) as (_ & _ & T1).
        destruct (full_op_ghost A2 hmac dkey mkey id bs iv_size header_size check sparse rnd iv_fuel H2 h2 s c2 o2 R2 ltac:(lia) W2) as (_ & _ & T2).
        pose proof (plan_shape bs sparse c1 c2 o1 o2 Hc Ho) as HS. repeat match goal with |- context [bb_step ?B s ?o] => destruct (bb_step B s o) end. cbn [fst] in *. rewrite T1, T2.
        destruct HS; reflexivity.
      - unfold full_write_header. destruct (Nat.ltb_spec header_size (length w1)); [lia|]. destruct (Nat.ltb_spec header_size (length w2)); [lia|].
        destruct (a_enc A1 _ _ _ _), (a_enc A2 _ _ _ _). reflexivity. }
    destruct (fst (fstep A1 s o1)) as [x1 y1 z1 k1], (fst (fstep A2 s o2)) as [x2 y2 z2 k2]. cbn [f_data f_meta f_rng f_dirty] in *. congruence.
  Qed.

  Lemma pair_history ops1 ops2 : Forall2 falike ops1 ops2 -> Forall (fop_within limit header_size) ops1 -> Forall (fop_within limit header_size) ops2 ->
    forall h1 h2 s c1 c2, FRep A1 h1 s c1 -> FRep A2 h2 s c2 -> length c1 = length c2 -> length c1 <= limit ->
    Forall2 agree (fst (fghost c1 (f_rng s) ops1)) (fst (fghost c2 (f_rng s) ops2)) ->
    fhistory A1 s ops1 = fhistory A2 s ops2.
  Proof.
    induction 1 as [|o1 o2 ops1 ops2 Ho HF IH]; intros W1 W2 h1 h2 s c1 c2 R1 R2 Hc Hl HA; [reflexivity|].
    inversion W1 as [|? ? Wo1 W1']; inversion W2 as [|? ? Wo2 W2']; subst. cbn [full_history SecrecyFull.fghost fst snd] in *.
    destruct (fstep_ghost_like bs iv_size header_size sparse rnd iv_fuel c1 c2 (f_rng s) o1 o2 limit Ho Hc Wo1 Wo2) as (L1 & L2 & L3).
    apply Forall2_app_inv_l in HA as (r1 & r2 & X1 & X2 & E).
    apply app_split in E as [E1 E2]; [|rewrite <- (Forall2_len _ _ _ X1), (Forall2_len _ _ _ L1); reflexivity]. subst r1 r2.
    destruct (pair_step h1 h2 s c1 c2 o1 o2 R1 R2 Hc Hl Wo1 Wo2 Ho X1) as [TT SS].
    destruct (full_step_rep A1 hmac dkey mkey id bs iv_size header_size check sparse rnd iv_fuel H1 h1 s c1 o1 R1 Hl Wo1) as (h1' & R1' & Hl').
    destruct (full_step_rep A2 hmac dkey mkey id bs iv_size header_size check sparse rnd iv_fuel H2 h2 s c2 o2 R2 ltac:(lia) Wo2) as (h2' & R2' & _).
    rewrite TT. f_equal. rewrite <- SS in R2' |- *. eapply (IH W1' W2'); [exact R1'|exact R2'|exact L3|exact Hl'|].
    rewrite (full_step_rng A1 hmac dkey mkey id bs iv_size header_size check sparse rnd iv_fuel H1 h1 s c1 o1 R1 Hl Wo1). rewrite <- L2 in X2. exact X2.
  Qed.
End FullPair.

Section FullTheorems.
  Variable hmac : bytes -> bytes -> bytes.
  Variable dkey mkey id : bytes.
  Variable bs iv_size header_size : nat.
  Variable check sparse : bool.
  Variable rnd : nat -> nat -> bytes.
  Variable iv_fuel : nat.
  Notation fstep A := (full_step A hmac dkey mkey id bs iv_size header_size check sparse rnd iv_fuel).
  Notation fhistory A := (full_history A hmac dkey mkey id bs iv_size header_size check sparse rnd iv_fuel).
  Notation limit := (full_max_blocks * bs).
  Notation nonces := (full_nonces iv_size header_size).

  Lemma full_nonces_used A k ops : full_env_ok A hmac bs iv_size rnd iv_fuel -> Forall (fop_within limit header_size) ops ->
    exists used : list nat,
      StronglySorted lt used /\
      Forall (fun i => k <= i < f_rng (fst (run_ops (fstep A) (mkFull [] [] false k) ops))) used /\
      flat_map nonces (fhistory A (mkFull [] [] false k) ops) = map (fun i => rnd i iv_size) used.
  Proof.
    intros HE Hops.
    destruct (full_history_nonces A hmac dkey mkey id bs iv_size header_size check sparse rnd iv_fuel HE ops None (mkFull [] [] false k) []
      (FRep_fresh A hmac dkey mkey id bs iv_size header_size k) (Nat.le_0_l _) Hops) as [N1 N2]. cbn [f_rng] in *.
    destruct (rising_sorted _ _ _ (fghost_rising bs iv_size header_size sparse rnd iv_fuel ops [] k)) as [S1 S2].
    exists (draws (fst (fghost bs iv_size header_size sparse rnd iv_fuel [] k ops))). rewrite N2. auto.
  Qed.

  Lemma full_secrecy tag k ops1 ops2 :
    (forall pad, full_env_ok (otp tag pad) hmac bs iv_size rnd iv_fuel) ->
    Forall (fop_within limit header_size) ops1 -> Forall (fop_within limit header_size) ops2 -> Forall2 falike ops1 ops2 ->
    exists diff : bytes -> bytes -> nat -> byte,
      (forall key, key <> dkey -> forall iv i, diff key iv i = x00) /\
      forall pad,
        NoDup (map (fun i => rnd i iv_size) (seq k (f_rng (fst (run_ops (fstep (otp tag pad)) (mkFull [] [] false k) ops1)) - k))) ->
        fhistory (otp tag pad) (mkFull [] [] false k) ops1
        = fhistory (otp tag (fun key iv i => xor1 (pad key iv i) (diff key iv i))) (mkFull [] [] false k) ops2.
  Proof.
    intros HE W1 W2 HL.
    set (g1 := fghost bs iv_size header_size sparse rnd iv_fuel [] k ops1). set (g2 := fghost bs iv_size header_size sparse rnd iv_fuel [] k ops2).
    pose proof (fghost_like bs iv_size header_size sparse rnd iv_fuel limit ops1 ops2 HL W1 W2 [] [] k eq_refl) as L1. fold g1 g2 in L1.
    exists (fun key iv i => if bytes_eqb key dkey then diff_of (fun i => rnd i iv_size) (fst g1) (fst g2) iv i else x00).
    split.
    { intros key Hk iv i. destruct (bytes_eqb key dkey) eqn:E; [apply bytes_eqb_eq in E; contradiction|reflexivity]. }
    intros pad HN.
    destruct (full_history_nonces (otp tag pad) hmac dkey mkey id bs iv_size header_size check sparse rnd iv_fuel (HE pad) ops1 None (mkFull [] [] false k) []
      (FRep_fresh _ hmac dkey mkey id bs iv_size header_size k) (Nat.le_0_l _) W1) as [_ N2]. cbn [f_rng] in *. fold g1 in N2. rewrite N2 in HN.
    destruct (rising_sorted _ _ _ (fghost_rising bs iv_size header_size sparse rnd iv_fuel ops1 [] k)) as [S1 S2]. fold g1 in S1, S2.
    pose proof (diff_of_ok _ _ _ L1 (NoDup_nonces _ _ _ _ HN S1 S2)) as HD.
    eapply (pair_history tag pad _ hmac dkey mkey id bs iv_size header_size check sparse rnd iv_fuel (HE pad) (HE _) ops1 ops2 HL W1 W2 None None);
      [apply FRep_fresh|apply FRep_fresh|reflexivity|apply Nat.le_0_l|]. cbn [f_rng]. fold g1 g2.
    eapply Forall2_imp; [|exact HD]. intros e1 e2 H. cbv beta in *. unfold agree. rewrite H. apply masked_ext. intros i Hi. rewrite bytes_eqb_refl. reflexivity.
  Qed.
End FullTheorems.
