(** Host errors: proofs.  The operation over the failing host runs in step with the operation
    over a host that does not fail, up to the first call that fails. *)
From Verif Require Import Base BaseLemmas StreamSpec BlockModel BlockProofs CodecModel LiteModel LiteProofs LiteTamper
  FullStreamModel FullStreamProofs CrashModel CrashSpec CrashProofs CrashTop FaultModel FaultSpec.

Section Generic.
  Context {P files : Type}.
  Variable B : backend.
  Variable on_write : nat -> nat -> nat -> bytes -> bk_state B -> list P.
  Variable on_adjust : nat -> bk_state B -> list P.
  Notation T := (traced B on_write on_adjust).
  Variable stored : bk_state B -> files.
  Variable perform1 : files -> P -> files.
  Variable plen : P -> nat.
  Variable torn1 : files -> P -> nat -> files.
  Variable F : faults.
  Variable hread : nat -> nat -> bk_state B * nat -> res bytes.
  Variable hwrite : nat -> nat -> nat -> bytes -> bk_state B * nat -> (bk_state B * nat) * res unit.
  Variable hadj : nat -> bk_state B * nat -> (bk_state B * nat) * res unit.
  Definition hback : backend :=
    mkBackend (bk_state B * nat) (bk_bs B) (bk_max B) (bk_sparse B) (fun x => bk_size B (fst x)) hread hwrite hadj.
  Notation H := hback.

  (** Of the modifications [l] of [f], counted from [n0], the first [j] are done; then a call
      fails. *)
  Definition stop (n0 : nat) (f : files) (l : list P) (f' : files) (e : err) : Prop :=
    exists j, j <= length l /\
    ((f' = fold_left perform1 (firstn j l) f /\
       ((exists w p x, on_pread F (n0 + j) w p = HFail x /\ e = EPosix x) \/
        (j < length l /\ exists x, on_mod F (n0 + j) = HFail x /\ e = EPosix x))) \/
     (exists p m, nth_error l j = Some p /\ on_mod F (n0 + j) = HShort m /\ m < plen p /\ e = EPosix host_EIO /\
        f' = torn1 (fold_left perform1 (firstn j l) f) p m)).

  Lemma stop_app f0 l0 l1 f' e :
    stop (length l0) (fold_left perform1 l0 f0) l1 f' e -> stop 0 f0 (l0 ++ l1) f' e.
  Proof.
    intros (j & Hj & Hs). exists (length l0 + j). split; [rewrite app_length; lia|].
    rewrite firstn_app, firstn_all2, fold_left_app by lia. replace (length l0 + j - length l0) with j by lia. rewrite Nat.add_0_l, app_length.
    destruct Hs as [(E & Hs)|(p & m & Hn & Hs)].
    - left. split; [exact E|]. destruct Hs as [Hs|(Hs1 & Hs2)]; [now left|right]. split; [lia|exact Hs2].
    - right. exists p, m. split; [|exact Hs]. rewrite nth_error_app2 by lia. replace (length l0 + j - length l0) with j by lia. exact Hn.
  Qed.
  Lemma stop_more f0 l l' f' e : stop 0 f0 l f' e -> stop 0 f0 (l ++ l') f' e.
  Proof.
    intros (j & Hj & Hs). exists j. rewrite app_length. split; [lia|].
    rewrite firstn_app. replace (j - length l) with 0 by lia. rewrite firstn_O, app_nil_r.
    destruct Hs as [(E & Hs)|(p & m & Hn & Hs)].
    - left. split; [exact E|]. destruct Hs as [Hs|(Hs1 & Hs2)]; [now left|right]. split; [lia|exact Hs2].
    - right. exists p, m. split; [|exact Hs]. rewrite nth_error_app1; [exact Hn|]. apply nth_error_Some. congruence.
  Qed.

  Hypothesis Hr : forall a b s n, hread a b (s, n) = bk_read B a b s \/
    exists w p x, on_pread F n w p = HFail x /\ hread a b (s, n) = Err (EPosix x).
  Hypothesis Hw : forall a e r d s n, let y := hwrite a e r d (s, n) in
    (fst y = (fst (bk_write B a e r d s), n + length (on_write a e r d s)) /\ snd y = snd (bk_write B a e r d s)) \/
    (exists x, snd y = Err x /\ stop n (stored s) (on_write a e r d s) (stored (fst (fst y))) x).
  Hypothesis Ha : forall m s n, let y := hadj m (s, n) in
    (fst y = (fst (bk_adjust B m s), n + length (on_adjust m s)) /\ snd y = snd (bk_adjust B m s)) \/
    (exists x, snd y = Err x /\ stop n (stored s) (on_adjust m s) (stored (fst (fst y))) x).
  Hypothesis Sw : forall a e r d s, stored (fst (bk_write B a e r d s)) = fold_left perform1 (on_write a e r d s) (stored s).
  Hypothesis Sa : forall n s, stored (fst (bk_adjust B n s)) = fold_left perform1 (on_adjust n s) (stored s).

  Variable f0 : files.
  Definition insync (x : bk_state H) (t : bk_state T) : Prop :=
    fst x = fst t /\ snd x = length (snd t) /\ stored (fst x) = fold_left perform1 (snd t) f0.
  Definition sim (y : bk_state H * res unit) (z : bk_state T * res unit) : Prop :=
    (insync (fst y) (fst z) /\ snd y = snd z) \/
    (exists e, snd y = Err e /\ stop 0 f0 (snd (fst z)) (stored (fst (fst y))) e).

  Lemma sim_stop x t e l : insync x t -> (exists w p y, on_pread F (snd x) w p = HFail y /\ e = EPosix y) ->
    stop 0 f0 (snd t ++ l) (stored (fst x)) e.
  Proof.
    intros (I1 & I2 & I3) HH. apply stop_more. exists (length (snd t)). split; [lia|]. left. rewrite firstn_all. split; [exact I3|].
    left. rewrite Nat.add_0_l, <- I2. exact HH.
  Qed.

  Lemma sim_write a e r d x t : insync x t -> sim (bk_write H a e r d x) (bk_write T a e r d t).
  Proof.
    intros (I1 & I2 & I3). destruct x as [s n], t as [s' l]. cbn [fst snd] in *. subst s' n.
    cbn [hback bk_write traced fst snd]. pose proof (Hw a e r d s (length l)) as K. pose proof (Sw a e r d s) as S.
    destruct (hwrite a e r d (s, length l)) as [[s1 n1] r1]. destruct (bk_write B a e r d s) as [s2 r2]. cbn [fst snd] in *. cbv zeta in K.
    destruct K as [(E & ->)|(x & -> & K)].
    - injection E as -> ->. left. split; [|reflexivity]. unfold insync. cbn [fst snd]. rewrite app_length, fold_left_app, S, I3. auto.
    - right. exists x. split; [reflexivity|]. cbn [fst snd]. apply stop_app. rewrite <- I3. exact K.
  Qed.
  Lemma sim_adjust m x t : insync x t -> sim (bk_adjust H m x) (bk_adjust T m t).
  Proof.
    intros (I1 & I2 & I3). destruct x as [s n], t as [s' l]. cbn [fst snd] in *. subst s' n.
    cbn [hback bk_adjust traced fst snd]. pose proof (Ha m s (length l)) as K. pose proof (Sa m s) as S.
    destruct (hadj m (s, length l)) as [[s1 n1] r1]. destruct (bk_adjust B m s) as [s2 r2]. cbn [fst snd] in *. cbv zeta in K.
    destruct K as [(E & ->)|(x & -> & K)].
    - injection E as -> ->. left. split; [|reflexivity]. unfold insync. cbn [fst snd]. rewrite app_length, fold_left_app, S, I3. auto.
    - right. exists x. split; [reflexivity|]. cbn [fst snd]. apply stop_app. rewrite <- I3. exact K.
  Qed.

  Definition grown (t t' : bk_state T) : Prop := exists l, snd t' = snd t ++ l.
  Lemma grown_refl t : grown t t. Proof. exists []. now rewrite app_nil_r. Qed.
  Lemma grown_write t a e r d t' : grown t t' -> grown t (fst (bk_write T a e r d t')).
  Proof.
    intros (l & E). cbn [traced bk_write]. destruct (bk_write B a e r d (fst t')). exists (l ++ on_write a e r d (fst t')). cbn [fst snd]. now rewrite E, app_assoc.
  Qed.
  Lemma grown_adjust t n t' : grown t t' -> grown t (fst (bk_adjust T n t')).
  Proof.
    intros (l & E). cbn [traced bk_adjust]. destruct (bk_adjust B n (fst t')). exists (l ++ on_adjust n (fst t')). cbn [fst snd]. now rewrite E, app_assoc.
  Qed.
  Lemma grown_unchecked w off t : grown t (fst (bb_unchecked_write T w off t)).
  Proof.
    apply (bb_unchecked_write_inv T (grown t)); [intros; now apply grown_write|apply grown_refl].
  Qed.

  (** A read: the same, or a failure. *)
  Lemma sim_read a b x t : insync x t -> bk_read H a b x = bk_read T a b t \/
    exists e, bk_read H a b x = Err e /\ (exists w p y, on_pread F (snd x) w p = HFail y /\ e = EPosix y).
  Proof.
    intros (I1 & I2 & I3). destruct x as [s n], t as [s' l]. cbn [fst snd] in *. subst s'. cbn [hback bk_read traced fst].
    destruct (Hr a b s n) as [->|(w & p & y & E1 & ->)]; [now left|]. right. exists (EPosix y). split; [reflexivity|]. exists w, p, y. auto.
  Qed.

  Lemma sim_unchecked w off x t : insync x t -> sim (bb_unchecked_write H w off x) (bb_unchecked_write T w off t).
  Proof.
    intros HI. pose proof (grown_unchecked w off t) as (lx & Gx).
    assert (HF : forall e, (exists w p y, on_pread F (snd x) w p = HFail y /\ e = EPosix y) -> sim (x, Err e) (bb_unchecked_write T w off t)).
    { intros e HH. right. exists e. split; [reflexivity|]. rewrite Gx. cbn [fst]. apply sim_stop; assumption. }
    revert HF. unfold bb_unchecked_write. change (bk_bs H) with (bk_bs B). change (bk_bs T) with (bk_bs B). cbv zeta. intros HF.
    destruct (winput_len w <=? 0); [left; auto|].
    destruct ((off mod bk_bs B =? 0) && ((off + winput_len w) mod bk_bs B =? 0)); [destruct w; apply sim_write; exact HI|].
    destruct ((0 <? off mod bk_bs B) && (off / bk_bs B <? (off + winput_len w) / bk_bs B)).
    - destruct (sim_read (off / bk_bs B) (off / bk_bs B + 1) x t HI) as [E1|(e & E1 & HH)].
      + rewrite E1. revert HF. destruct (bk_read T (off / bk_bs B) (off / bk_bs B + 1) t) as [o1|e1]; cbn [rmap]; intros HF; [|left; auto].
        destruct (0 <? (off + winput_len w) mod bk_bs B); [|apply sim_write; exact HI].
        destruct (sim_read ((off + winput_len w) / bk_bs B) ((off + winput_len w) / bk_bs B + 1) x t HI) as [E2|(e & E2 & HH)].
        * rewrite E2. revert HF. destruct (bk_read T ((off + winput_len w) / bk_bs B) ((off + winput_len w) / bk_bs B + 1) t) as [o2|e2]; cbn [rmap]; intros HF; [|left; auto].
          apply sim_write; exact HI.
        * rewrite E2. cbn [rmap]. apply HF. exact HH.
      + rewrite E1. cbn [rmap]. apply HF. exact HH.
    - destruct (0 <? (off + winput_len w) mod bk_bs B); [|apply sim_write; exact HI].
      destruct (sim_read ((off + winput_len w) / bk_bs B) ((off + winput_len w) / bk_bs B + 1) x t HI) as [E2|(e & E2 & HH)].
      + rewrite E2. revert HF. destruct (bk_read T ((off + winput_len w) / bk_bs B) ((off + winput_len w) / bk_bs B + 1) t) as [o2|e2]; cbn [rmap]; intros HF; [|left; auto].
        apply sim_write; exact HI.
      + rewrite E2. cbn [rmap]. apply HF. exact HH.
  Qed.

  Lemma sim_then y z kH kT :
    sim y z -> (forall x t, insync x t -> sim (kH x) (kT t)) -> (forall t, grown t (fst (kT t))) ->
    sim (then_ H y kH) (then_ T z kT).
  Proof.
    intros [(I & E)|(e & E & S)] Hk Hg; destruct y as [x ry], z as [t rz]; cbn [fst snd] in *; subst ry.
    - destruct rz as [[]|e]; cbn [then_]; [apply Hk; exact I|left; auto].
    - destruct rz as [[]|e']; cbn [then_]; right; exists e; (split; [reflexivity|]); cbn [fst snd]; [|exact S].
      destruct (Hg t) as (l & ->). apply stop_more. exact S.
  Qed.

  Lemma sim_resize cur new x t : insync x t -> sim (bb_unchecked_resize H cur new x) (bb_unchecked_resize T cur new t).
  Proof.
    intros HI. unfold bb_unchecked_resize, bb_zero_fill. change (bk_bs H) with (bk_bs B). change (bk_bs T) with (bk_bs B).
    change (bk_sparse H) with (bk_sparse B). change (bk_sparse T) with (bk_sparse B).
    destruct (new =? cur); [left; auto|]. destruct (new <? cur).
    - apply sim_then; [|intros; apply sim_adjust; assumption|intros; apply grown_adjust, grown_refl].
      destruct (0 <? new mod bk_bs B); [|left; auto].
      destruct (sim_read (new / bk_bs B) (new / bk_bs B + 1) x t HI) as [E1|(e & E1 & HH)].
      + rewrite E1. destruct (bk_read T (new / bk_bs B) (new / bk_bs B + 1) t) as [o1|e1]; cbn [rmap]; [|left; auto]. apply sim_write; exact HI.
      + rewrite E1. cbn [rmap]. right. exists e. split; [reflexivity|]. cbn [fst].
        assert (G : exists l, snd (fst (match rmap (put_at (zeros (bk_bs B)) 0) (bk_read T (new / bk_bs B) (new / bk_bs B + 1) t) with
            | Ok buf => bk_write T (new / bk_bs B) (new / bk_bs B) (new mod bk_bs B) buf t | Err e0 => (t, Err e0) end)) = snd t ++ l).
        { destruct (rmap _ _); [apply grown_write, grown_refl|apply grown_refl]. }
        destruct G as (l & ->). apply sim_stop; assumption.
    - apply sim_then; [|intros; apply sim_adjust; assumption|intros; apply grown_adjust, grown_refl].
      destruct (_ || _); apply sim_unchecked; exact HI.
  Qed.

  (** The whole operation. *)
  Lemma fault_step s o : stored s = f0 ->
    let y := bb_step H (s, 0) o in
    (fst (fst y) = fst (bb_step B s o) /\ snd y = snd (bb_step B s o)) \/
    (exists e, snd y = OFail e /\ stop 0 f0 (trace B on_write on_adjust s o) (stored (fst (fst y))) e).
  Proof.
    intros Hs0. assert (HI : insync (s, 0) (s, [])) by (split; [reflexivity|split; [reflexivity|exact Hs0]]).
    pose proof (tr_step B on_write on_adjust s [] o) as ET. unfold plain in ET. unfold trace. cbv zeta. rewrite <- ET. cbn [fst snd].
    destruct o as [off len|off d|n|]; cbn [bb_step].
    - assert (K : bb_read H off len (s, 0) = bb_read T off len (s, []) \/
        exists w p x, on_pread F 0 w p = HFail x /\ bb_read H off len (s, 0) = Err (EPosix x)).
      { unfold bb_read. change (bk_bs H) with (bk_bs B). change (bk_bs T) with (bk_bs B). cbv zeta. destruct (len <=? 0); [now left|].
        destruct (_ && _).
        - destruct (sim_read (off / bk_bs B) ((off + len) / bk_bs B) _ _ HI) as [E|(e & E & w & p & y & H1 & H2)]; [now left|].
          right. exists w, p, y. subst e. auto.
        - destruct (sim_read (off / bk_bs B) ((off + len) / bk_bs B + b2nat (0 <? (off + len) mod bk_bs B)) _ _ HI) as [E|(e & E & w & p & y & H1 & H2)].
          + left. now rewrite E.
          + right. exists w, p, y. rewrite E. subst e. auto. }
      destruct K as [->|(w & p & x & E & ->)]; [now left|]. right. exists (EPosix x). split; [reflexivity|]. cbn [fst snd].
      exists 0. split; [cbn; lia|]. left. split; [exact Hs0|]. left. exists w, p, x. auto.
    - assert (K : sim (bb_write H off d (s, 0)) (bb_write T off d (s, []))).
      { unfold bb_write. destruct (length d <=? 0); [left; auto|]. change (bk_size H (s, 0)) with (bk_size B s). change (bk_size T (s, [])) with (bk_size B s).
        apply sim_then; [|intros; apply sim_unchecked; assumption|intros; apply grown_unchecked].
        destruct (bk_size B s <? off); [apply sim_resize; exact HI|left; auto]. }
      destruct (bb_write H off d (s, 0)) as [x r1]. destruct (bb_write T off d (s, [])) as [t r2]. cbn [fst snd].
      destruct K as [((I1 & _) & E)|(e & E & S)]; cbn [fst snd] in *; subst r1; [left; rewrite I1; auto|right; exists e; auto].
    - assert (K : sim (bb_resize H n (s, 0)) (bb_resize T n (s, []))).
      { unfold bb_resize. change (bk_size H (s, 0)) with (bk_size B s). change (bk_size T (s, [])) with (bk_size B s). apply sim_resize; exact HI. }
      destruct (bb_resize H n (s, 0)) as [x r1]. destruct (bb_resize T n (s, [])) as [t r2]. cbn [fst snd].
      destruct K as [((I1 & _) & E)|(e & E & S)]; cbn [fst snd] in *; subst r1; [left; rewrite I1; auto|right; exists e; auto].
    - left. auto.
  Qed.
End Generic.

(** ** The two formats *)
Definition plen1 (p : phys) : nat := match p with PWrite _ d => length d | PResize _ => 0 end.
Definition tear1 (f : bytes) (p : phys) (m : nat) : bytes :=
  match p with PWrite off d => arr_write f off (firstn m d) | PResize _ => f end.

Section LiteFault.
  Variable A : aead.
  Variable bs iv_size : nat.
  Variable check sparse : bool.
  Variable rnd : nat -> nat -> bytes.
  Variable iv_fuel : nat.
  Variable F : faults.
  Hypothesis HF : no_short_reads F.
  Notation B := (lite_backend A bs iv_size check sparse rnd iv_fuel).

  Lemma lite_fault_step s o :
    let y := hlite_step A bs iv_size check sparse rnd iv_fuel F s o in
    y = bb_step B s o \/
    (exists e, snd y = OFail e /\ stop perform plen1 tear1 F 0 (l_file s) (lite_trace A bs iv_size check sparse rnd iv_fuel s o) (l_file (fst y)) e).
  Proof.
    pose proof (fault_step B (lite_on_write A bs iv_size rnd iv_fuel) (lite_on_adjust bs iv_size) l_file perform plen1 tear1 F
      (hlite_read A bs iv_size check F) (hlite_write A bs iv_size rnd iv_fuel F) (hlite_adjust bs iv_size F)) as K.
    assert (K1 : forall a b s n, hlite_read A bs iv_size check F a b (s, n) = bk_read B a b s \/
      exists w p x, on_pread F n w p = HFail x /\ hlite_read A bs iv_size check F a b (s, n) = Err (EPosix x)).
    { intros a b s0 n. cbn [lite_backend bk_read]. unfold hlite_read, lite_read_multi. destruct (over_max _ _); [now left|].
      destruct (on_pread F n true a) eqn:E; cbn [h_pread rbind]; [now left| |exfalso; exact (HF _ _ _ _ E)].
      right. eauto. }
    specialize (K K1). clear K1.
    assert (K2 : forall f off d, h_pwrite HDone f off d = (arr_write f off d, Ok tt)) by reflexivity.
    assert (KW : forall a e r d s n, let y := hlite_write A bs iv_size rnd iv_fuel F a e r d (s, n) in
      (fst y = (fst (bk_write B a e r d s), n + length (lite_on_write A bs iv_size rnd iv_fuel a e r d s)) /\ snd y = snd (bk_write B a e r d s)) \/
      (exists x, snd y = Err x /\ stop perform plen1 tear1 F n (l_file s) (lite_on_write A bs iv_size rnd iv_fuel a e r d s) (l_file (fst (fst y))) x)).
    { intros a e r d s0 n. cbn [lite_backend bk_write]. unfold hlite_write, lite_write_multi, lite_on_write.
      destruct (over_max _ _); [left; cbn; auto|].
      destruct (lite_write_loop _ _ _ _ _ _ _ _ _ _ _ _) as [[buf k]|y]; cbn [fst snd]; [|left; cbn; auto].
      destruct (on_mod F n) as [|x|m] eqn:E; cbn [h_pwrite fst snd length].
      - left. rewrite Nat.add_1_r. auto.
      - right. exists (EPosix x). split; [reflexivity|]. exists 0. rewrite Nat.add_0_r. split; [cbn; lia|]. left. cbn [firstn fold_left l_file].
        split; [reflexivity|]. right. split; [cbn; lia|]. eauto.
      - destruct (Nat.ltb_spec m (length buf)).
        + right. exists (EPosix host_EIO). split; [reflexivity|]. exists 0. rewrite Nat.add_0_r. split; [cbn; lia|]. right.
          exists (PWrite (a * ubs bs iv_size + l_header s0) buf), m. cbn [nth_error plen1 firstn fold_left l_file tear1]. auto.
        + left. rewrite firstn_all2 by lia. rewrite Nat.add_1_r. auto. }
    specialize (K KW). clear KW.
    assert (KA : forall m s n, let y := hlite_adjust bs iv_size F m (s, n) in
      (fst y = (fst (bk_adjust B m s), n + length (lite_on_adjust bs iv_size m s)) /\ snd y = snd (bk_adjust B m s)) \/
      (exists x, snd y = Err x /\ stop perform plen1 tear1 F n (l_file s) (lite_on_adjust bs iv_size m s) (l_file (fst (fst y))) x)).
    { intros m s0 n. cbn [lite_backend bk_adjust]. unfold hlite_adjust, lite_adjust, lite_on_adjust.
      destruct (on_mod F n) as [|x|m'] eqn:E; cbn [h_trunc fst snd length].
      - left. rewrite Nat.add_1_r. auto.
      - right. exists (EPosix x). split; [reflexivity|]. exists 0. rewrite Nat.add_0_r. split; [cbn; lia|]. left. cbn [firstn fold_left l_file].
        split; [reflexivity|]. right. split; [cbn; lia|]. eauto.
      - left. rewrite Nat.add_1_r. auto. }
    specialize (K KA). clear KA.
    assert (KS : forall a e r d s, l_file (fst (bk_write B a e r d s)) = fold_left perform (lite_on_write A bs iv_size rnd iv_fuel a e r d s) (l_file s)).
    { intros a e r d x. cbn [lite_backend bk_write]. unfold lite_write_multi, lite_on_write. destruct (over_max _ _); [reflexivity|].
      destruct (lite_write_loop _ _ _ _ _ _ _ _ _ _ _ _) as [[buf k]|]; reflexivity. }
    specialize (K KS ltac:(reflexivity) (l_file s) s o eq_refl). clear KS K2.
    assert (K' : let y := bb_step (hlite_backend A bs iv_size check sparse rnd iv_fuel F) (s, 0) o in
      (fst (fst y) = fst (bb_step B s o) /\ snd y = snd (bb_step B s o)) \/
      (exists e, snd y = OFail e /\ stop perform plen1 tear1 F 0 (l_file s) (lite_trace A bs iv_size check sparse rnd iv_fuel s o) (l_file (fst (fst y))) e)) by exact K.
    clear K. revert K'. unfold hlite_step. cbv zeta.
    destruct (bb_step (hlite_backend A bs iv_size check sparse rnd iv_fuel F) (s, 0) o) as [[s1 n1] r1]. cbn [fst snd].
    intros [(E1 & E2)|K]; [|right; exact K]. left. destruct (bb_step B s o). cbn [fst snd] in *. now subst.
  Qed.

  Lemma hlite_keys s o : let s' := fst (hlite_step A bs iv_size check sparse rnd iv_fuel F s o) in l_key s' = l_key s /\ l_pad s' = l_pad s.
  Proof.
    pose proof (bb_step_inv (hlite_backend A bs iv_size check sparse rnd iv_fuel F) (fun x => l_key (fst x) = l_key s /\ l_pad (fst x) = l_pad s)) as K.
    assert (K' : let x := fst (bb_step (hlite_backend A bs iv_size check sparse rnd iv_fuel F) (s, 0) o) in l_key (fst x) = l_key s /\ l_pad (fst x) = l_pad s).
    { apply K; [| |split; reflexivity].
      - intros a e r d [s1 n1] Hx. cbn [hlite_backend bk_write fst] in *. unfold hlite_write. destruct (over_max _ _); [exact Hx|].
        destruct (lite_write_loop _ _ _ _ _ _ _ _ _ _ _ _) as [[buf k]|]; [|exact Hx].
        destruct (h_pwrite _ _ _ _). exact Hx.
      - intros m [s1 n1] Hx. cbn [hlite_backend bk_adjust fst] in *. unfold hlite_adjust. destruct (h_trunc _ _ _). exact Hx. }
    unfold hlite_step. destruct (bb_step (hlite_backend A bs iv_size check sparse rnd iv_fuel F) (s, 0) o) as [[s1 n1] r1]. exact K'.
  Qed.
End LiteFault.

(** What is left after a failure is among what a crash may leave. *)
Lemma stop_left_over F n0 f l f' e : stop perform plen1 tear1 F n0 f l f' e -> left_over f l f'.
Proof.
  intros (j & Hj & [(-> & _)|(p & m & Hn & _ & _ & _ & ->)]).
  - rewrite <- (firstn_skipn j l) at 1. apply left_over_more, left_over_replay.
  - apply nth_error_split in Hn as (l1 & l2 & -> & <-). rewrite firstn_app, firstn_all2, Nat.sub_diag, firstn_O, app_nil_r by lia.
    destruct p as [off d|n]; cbn [tear1].
    + apply (left_over_torn f l1 off d l2 m).
    + apply left_over_more, left_over_replay.
Qed.

(** ** Full format *)
Definition plen2 (p : part) : nat := match p with PData p | PMeta p => plen1 p end.
Definition tear2 (f : bytes * bytes) (p : part) (m : nat) : bytes * bytes :=
  match p with PData p => (tear1 (fst f) p m, snd f) | PMeta p => (fst f, tear1 (snd f) p m) end.
Definition both (s : full_st) : bytes * bytes := (f_data s, f_meta s).

Section FullFault.
  Variable A : aead.
  Variable dkey id : bytes.
  Variable bs iv_size header_size : nat.
  Variable check sparse : bool.
  Variable rnd : nat -> nat -> bytes.
  Variable iv_fuel : nat.
  Variable F : faults.
  Hypothesis HF : no_short_reads F.
  Notation B := (full_backend A dkey id bs iv_size header_size check sparse rnd iv_fuel).
  Notation onw := (full_on_write A dkey id bs iv_size header_size rnd iv_fuel).
  Notation ona := (full_on_adjust bs iv_size header_size).
  Notation HB := (hfull_backend A dkey id bs iv_size header_size check sparse rnd iv_fuel F).

  Lemma full_fault_step s o :
    let y := hfull_step A dkey id bs iv_size header_size check sparse rnd iv_fuel F s o in
    y = bb_step B s o \/
    (exists e, snd y = OFail e /\ stop perform2 plen2 tear2 F 0 (both s) (trace B onw ona s o) (both (fst y)) e).
  Proof.
    pose proof (fault_step B onw ona both perform2 plen2 tear2 F
      (hfull_read A dkey id bs iv_size header_size check F) (hfull_write A dkey id bs iv_size header_size rnd iv_fuel F) (hfull_adjust bs iv_size header_size F)) as K.
    assert (K1 : forall a b s n, hfull_read A dkey id bs iv_size header_size check F a b (s, n) = bk_read B a b s \/
      exists w p x, on_pread F n w p = HFail x /\ hfull_read A dkey id bs iv_size header_size check F a b (s, n) = Err (EPosix x)).
    { intros a b s0 n. cbn [full_backend bk_read]. unfold hfull_read, full_read_multi, hmac_read. destruct (a =? b); [now left|].
      destruct (over_max _ _); [now left|].
      destruct (on_pread F n true a) eqn:E1; cbn [h_pread rbind]; [|right; eauto|exfalso; exact (HF _ _ _ _ E1)].
      destruct (on_pread F n false a) eqn:E2; cbn [h_pread rbind]; [now left|right; eauto|exfalso; exact (HF _ _ _ _ E2)]. }
    specialize (K K1). clear K1.
    assert (KW : forall a e r d s n, let y := hfull_write A dkey id bs iv_size header_size rnd iv_fuel F a e r d (s, n) in
      (fst y = (fst (bk_write B a e r d s), n + length (onw a e r d s)) /\ snd y = snd (bk_write B a e r d s)) \/
      (exists x, snd y = Err x /\ stop perform2 plen2 tear2 F n (both s) (onw a e r d s) (both (fst (fst y))) x)).
    { intros a e r d s0 n. cbn [full_backend bk_write]. unfold hfull_write, full_write_multi, full_on_write.
      destruct (over_max _ _); [left; cbn; auto|].
      destruct (full_write_loop _ _ _ _ _ _ _ _ _ _) as [[[d1 m1] k1]|y]; cbn [fst snd]; [|left; cbn; auto].
      set (p1 := PData (PWrite (a * bs) d1)). set (p2 := PMeta (PWrite (meta_pos iv_size header_size a + hmac_len) m1)).
      assert (KD : forall fd, fd = arr_write (f_data s0) (a * bs) d1 ->
        let y := match h_pwrite (on_mod F (S n)) (f_meta s0) (meta_pos iv_size header_size a + hmac_len) m1 with
           | (fm, Ok _) => (mkFull fd fm true k1, S (S n), Ok tt) | (fm, Err y) => (mkFull fd fm (f_dirty s0) k1, S (S n), Err y) end in
        (fst y = (mkFull (arr_write (f_data s0) (a * bs) d1) (hmac_write (f_meta s0) (meta_pos iv_size header_size a) m1) true k1, n + length [p1; p2]) /\ snd y = Ok tt) \/
        (exists x, snd y = Err x /\ stop perform2 plen2 tear2 F n (both s0) [p1; p2] (both (fst (fst y))) x)).
      { intros fd ->. cbv zeta. destruct (on_mod F (S n)) as [|x|m] eqn:E; cbn [h_pwrite fst snd length].
        - left. rewrite (Nat.add_comm n 2). auto.
        - right. exists (EPosix x). split; [reflexivity|]. exists 1. rewrite Nat.add_1_r. split; [cbn; lia|]. left. cbn [firstn fold_left].
          split; [reflexivity|]. right. split; [cbn; lia|]. eauto.
        - destruct (Nat.ltb_spec m (length m1)).
          + right. exists (EPosix host_EIO). split; [reflexivity|]. exists 1. rewrite Nat.add_1_r. split; [cbn; lia|]. right.
            exists p2, m. split; [reflexivity|]. split; [exact E|]. split; [assumption|]. split; reflexivity.
          + left. rewrite firstn_all2 by lia. rewrite (Nat.add_comm n 2). auto. }
      cbv zeta in KD |- *.
      destruct (on_mod F n) as [|x|m] eqn:E; cbn [h_pwrite].
      - exact (KD _ eq_refl).
      - right. exists (EPosix x). split; [reflexivity|]. exists 0. rewrite Nat.add_0_r. split; [cbn; lia|]. left. cbn [firstn fold_left].
        split; [reflexivity|]. right. split; [cbn; lia|]. eauto.
      - destruct (Nat.ltb_spec m (length d1)).
        + right. exists (EPosix host_EIO). split; [reflexivity|]. exists 0. rewrite Nat.add_0_r. split; [cbn; lia|]. right.
          exists p1, m. split; [reflexivity|]. split; [exact E|]. split; [assumption|]. split; reflexivity.
        + apply KD. rewrite firstn_all2 by lia. reflexivity. }
    specialize (K KW). clear KW.
    assert (KA : forall m s n, let y := hfull_adjust bs iv_size header_size F m (s, n) in
      (fst y = (fst (bk_adjust B m s), n + length (ona m s)) /\ snd y = snd (bk_adjust B m s)) \/
      (exists x, snd y = Err x /\ stop perform2 plen2 tear2 F n (both s) (ona m s) (both (fst (fst y))) x)).
    { intros m s0 n. cbn [full_backend bk_adjust]. unfold hfull_adjust, full_adjust, full_on_adjust.
      assert (KD : forall fd, fd = arr_resize (f_data s0) m ->
        let y := match h_trunc (on_mod F (S n)) (f_meta s0) (meta_pos iv_size header_size ((m + bs - 1) / bs) + hmac_len) with
           | (fm, Ok _) => (mkFull fd fm true (f_rng s0), S (S n), Ok tt) | (fm, Err y) => (mkFull fd fm (f_dirty s0) (f_rng s0), S (S n), Err y) end in
        (fst y = (mkFull (arr_resize (f_data s0) m) (hmac_resize (f_meta s0) (meta_pos iv_size header_size ((m + bs - 1) / bs))) true (f_rng s0), n + 2) /\ snd y = Ok tt) \/
        (exists x, snd y = Err x /\ stop perform2 plen2 tear2 F n (both s0)
           [PData (PResize m); PMeta (PResize (meta_pos iv_size header_size ((m + bs - 1) / bs) + hmac_len))] (both (fst (fst y))) x)).
      { intros fd ->. cbv zeta. destruct (on_mod F (S n)) as [|x|m'] eqn:E; cbn [h_trunc fst snd length].
        - left. rewrite (Nat.add_comm n 2). auto.
        - right. exists (EPosix x). split; [reflexivity|]. exists 1. rewrite Nat.add_1_r. split; [cbn; lia|]. left. cbn [firstn fold_left].
          split; [reflexivity|]. right. split; [cbn; lia|]. eauto.
        - left. rewrite (Nat.add_comm n 2). auto. }
      cbv zeta in KD |- *.
      destruct (on_mod F n) as [|x|m'] eqn:E; cbn [h_trunc].
      - exact (KD _ eq_refl).
      - right. exists (EPosix x). split; [reflexivity|]. exists 0. rewrite Nat.add_0_r. split; [cbn; lia|]. left. cbn [firstn fold_left].
        split; [reflexivity|]. right. split; [cbn; lia|]. eauto.
      - exact (KD _ eq_refl). }
    specialize (K KA). clear KA.
    assert (KS : forall a e r d s, both (fst (bk_write B a e r d s)) = fold_left perform2 (onw a e r d s) (both s)).
    { intros a e r d s0. cbn [bk_write full_backend]. unfold full_write_multi, full_on_write. destruct (over_max _ _); [reflexivity|].
      destruct (full_write_loop _ _ _ _ _ _ _ _ _ _) as [[[d1 m1] k1]|]; reflexivity. }
    specialize (K KS ltac:(reflexivity) (both s) s o eq_refl). clear KS.
    assert (K' : let y := bb_step HB (s, 0) o in
      (fst (fst y) = fst (bb_step B s o) /\ snd y = snd (bb_step B s o)) \/
      (exists e, snd y = OFail e /\ stop perform2 plen2 tear2 F 0 (both s) (trace B onw ona s o) (both (fst (fst y))) e)) by exact K.
    clear K. revert K'. unfold hfull_step. cbv zeta.
    destruct (bb_step HB (s, 0) o) as [[s1 n1] r1]. cbn [fst snd].
    intros [(E1 & E2)|K]; [|right; exact K]. left. destruct (bb_step B s o). cbn [fst snd] in *. now subst.
  Qed.
End FullFault.

Lemma perform2_split l : forall f, fold_left perform2 l f = (replay (fst f) (data_part l), replay (snd f) (meta_part l)).
Proof.
  induction l as [|[p|p] l IH]; intros f; cbn [fold_left data_part meta_part flat_map app]; [now destruct f| |]; rewrite IH; reflexivity.
Qed.
Lemma data_part_app l1 l2 : data_part (l1 ++ l2) = data_part l1 ++ data_part l2.
Proof. apply flat_map_app. Qed.
Lemma meta_part_app l1 l2 : meta_part (l1 ++ l2) = meta_part l1 ++ meta_part l2.
Proof. apply flat_map_app. Qed.

Lemma stop_left_over2 F n0 f l f' e : stop perform2 plen2 tear2 F n0 f l f' e ->
  left_over (fst f) (data_part l) (fst f') /\ left_over (snd f) (meta_part l) (snd f').
Proof.
  intros (j & Hj & [(-> & _)|(p & m & Hn & _ & _ & _ & ->)]).
  - rewrite perform2_split. cbn [fst snd]. rewrite <- (firstn_skipn j l) at 1 3. rewrite data_part_app, meta_part_app.
    split; apply left_over_more, left_over_replay.
  - apply nth_error_split in Hn as (l1 & l2 & -> & <-). rewrite firstn_app, firstn_all2, Nat.sub_diag, firstn_O, app_nil_r by lia.
    rewrite perform2_split. rewrite data_part_app, meta_part_app. destruct p as [p|p]; cbn [tear2 fst snd].
    + split; [|apply left_over_more, left_over_replay]. change (data_part (PData p :: l2)) with (p :: data_part l2). destruct p as [off d|n]; cbn [tear1].
      * apply (left_over_torn (fst f) (data_part l1) off d (data_part l2) m).
      * apply left_over_more, left_over_replay.
    + split; [apply left_over_more, left_over_replay|]. change (meta_part (PMeta p :: l2)) with (p :: meta_part l2). destruct p as [off d|n]; cbn [tear1].
      * apply (left_over_torn (snd f) (meta_part l1) off d (meta_part l2) m).
      * apply left_over_more, left_over_replay.
Qed.

Lemma stop_cut_off F f l f' e : stop perform plen1 tear1 F 0 f l f' e -> cut_off F f l f' e.
Proof.
  intros (j & Hj & [(-> & [(w & p & x & H1 & ->)|(Hj' & x & H1 & ->)])|(p & m & Hn & H1 & H2 & -> & ->)]); rewrite Nat.add_0_l in H1.
  - exact (Cut_read F f l j w p x Hj H1).
  - exact (Cut_modification F f l j x Hj' H1).
  - destruct p as [off d|n]; [|cbn [plen1] in H2; lia]. cbn [tear1 plen1] in *.
    pose proof (Cut_within F f l j off d m Hn H1 H2) as K. unfold replay in *. rewrite fold_left_app in K. exact K.
Qed.
Lemma stop_cut_off2 F f l f' e : stop perform2 plen2 tear2 F 0 f l f' e -> cut_off2 F (fst f) (snd f) l (fst f') (snd f') e.
Proof.
  intros (j & Hj & [(-> & [(w & p & x & H1 & ->)|(Hj' & x & H1 & ->)])|(p & m & Hn & H1 & H2 & -> & ->)]); rewrite Nat.add_0_l in H1; rewrite perform2_split.
  - exact (Cut2_read F _ _ l j w p x Hj H1).
  - exact (Cut2_modification F _ _ l j x Hj' H1).
  - pose proof (Cut2_within F (fst f) (snd f) l j p m Hn H1) as K. unfold replay_data, replay_meta in K. rewrite data_part_app, meta_part_app in K.
    unfold replay in *. rewrite !fold_left_app in K. destruct p as [[off d|n]|[off d|n]]; exact K.
Qed.

(** ** Flushing the MAC *)
Section FlushFault.
  Variable F : faults.

  Lemma run_mac_short_ok chunk raw : 0 < chunk -> forall fuel off,
    (forall p, (exists e, on_pread F 0 false p = HFail e) \/ on_pread F 0 false p <> HShort 0) ->
    length raw - off < fuel ->
    (exists e, hrun_mac F fuel chunk raw off = Err (EPosix e) /\ exists p, on_pread F 0 false p = HFail e) \/
    hrun_mac F fuel chunk raw off = Ok (skipn off raw).
  Proof.
    intros Hc. induction fuel as [|fuel IH]; intros off HF Hl.
    - exfalso. lia.
    - cbn [hrun_mac].
      assert (Hx : (exists e, h_pread (on_pread F 0 false off) raw off chunk = Err (EPosix e) /\ on_pread F 0 false off = HFail e) \/
        exists k, h_pread (on_pread F 0 false off) raw off chunk = Ok (arr_read raw off k) /\ (off < length raw -> 0 < k)).
      { destruct (on_pread F 0 false off) as [|e|m] eqn:E; cbn [h_pread].
        - right. exists chunk. auto.
        - left. eauto.
        - right. exists (min m chunk). split.
          + unfold arr_read. now rewrite firstn_firstn.
          + intros _. destruct (HF off) as [(e & He)|Hn]; [congruence|]. rewrite E in Hn. destruct m; [congruence|lia]. }
      destruct Hx as [(e & -> & Ee)|(k & -> & Hk)]; cbn [rbind]; [left; eauto|].
      rewrite arr_read_length. destruct (Nat.eqb_spec (min k (length raw - off)) 0) as [E0|E0].
      + right. rewrite skipn_all2; [reflexivity|]. destruct (Nat.le_gt_cases (length raw) off); [assumption|]. specialize (Hk H). lia.
      + destruct (IH (off + min k (length raw - off)) HF ltac:(lia)) as [(e & E1 & He)|E1]; rewrite E1; cbn [rmap]; [left; eauto|].
        right. f_equal. unfold arr_read. rewrite (Nat.add_comm off), <- (skipn_skipn (min k (length raw - off)) off).
        rewrite <- (firstn_skipn k (skipn off raw)) at 3. f_equal.
        destruct (Nat.le_gt_cases k (length raw - off)); [now rewrite Nat.min_l by lia|]. rewrite Nat.min_r by lia.
        rewrite !skipn_all2; rewrite ?skipn_length; auto; lia.
  Qed.
End FlushFault.

Lemma at_once_no_short F : fails_at_once F -> no_short_reads F.
Proof. intros (HR & _) n w p m E. destruct (HR n w p) as [E'|(_ & e & E')]; congruence. Qed.
Lemma at_once_stop {P files} (pf : files -> P -> files) pl tf F f l f' e :
  fails_at_once F -> stop pf pl tf F 0 f l f' e -> f' = f /\ exists x, e = EPosix x.
Proof.
  intros (HR & HM) (j & Hj & [(-> & [(w & p & x & H1 & ->)|(Hj' & x & H1 & ->)])|(p & m & Hn & H1 & H2 & -> & ->)]); rewrite Nat.add_0_l in H1.
  - destruct (HR j w p) as [E|(-> & _)]; [congruence|]. split; [reflexivity|eauto].
  - destruct (HM j) as [E|(-> & _)]; [congruence|]. split; [reflexivity|eauto].
  - destruct (HM j) as [E|(-> & e & E)]; congruence.
Qed.

Lemma faulty_history {S} (step : faults -> S -> sop -> S * sout) (Rep : S -> bytes -> Prop) (limit : nat) :
  (forall F s c o, fails_at_once F -> Rep s c -> length c <= limit -> sop_within limit o ->
     let y := step F s o in
     (snd y = snd (spec_step c o) /\ Rep (fst y) (fst (spec_step c o)) /\ length (fst (spec_step c o)) <= limit) \/
     ((exists e, snd y = OFail (EPosix e)) /\ Rep (fst y) c)) ->
  forall l s c, Forall (fun x => fails_at_once (fst x) /\ sop_within limit (snd x)) l -> Rep s c -> length c <= limit ->
    exists c', history c (map snd l) (snd (run_faulty step s l)) c' /\ Rep (fst (run_faulty step s l)) c' /\ length c' <= limit.
Proof.
  intros HS. induction l as [|[F o] l IH]; intros s c Hall HR Hc; cbn [run_faulty map snd fst].
  - exists c. split; [constructor|auto].
  - inversion Hall as [|? ? (H1 & H2) H3]; subst. cbn [fst snd] in *. specialize (HS F s c o H1 HR Hc H2). cbv zeta in HS.
    destruct (step F s o) as [s1 r]. cbn [fst snd] in HS. destruct HS as [(-> & HR1 & Hc1)|((e & ->) & HR1)].
    + destruct (IH _ _ H3 HR1 Hc1) as (c' & K1 & K2). destruct (run_faulty step s1 l) as [s2 rs]. cbn [fst snd] in *. exists c'. split; [constructor; exact K1|exact K2].
    + destruct (IH _ _ H3 HR1 Hc) as (c' & K1 & K2). destruct (run_faulty step s1 l) as [s2 rs]. cbn [fst snd] in *. exists c'. split; [constructor; exact K1|exact K2].
Qed.

Lemma hfull_dirty A dkey id bs iv_size header_size check sparse rnd iv_fuel F s o :
  f_dirty s = true -> f_dirty (fst (hfull_step A dkey id bs iv_size header_size check sparse rnd iv_fuel F s o)) = true.
Proof.
  intros Hd.
  pose proof (bb_step_inv (hfull_backend A dkey id bs iv_size header_size check sparse rnd iv_fuel F) (fun x => f_dirty (fst x) = true)) as K.
  assert (K' : f_dirty (fst (fst (bb_step (hfull_backend A dkey id bs iv_size header_size check sparse rnd iv_fuel F) (s, 0) o))) = true).
  { apply K; [| |exact Hd].
    - intros a e r d [s1 n1] Hx. cbn [hfull_backend bk_write fst] in *. unfold hfull_write. destruct (over_max _ _); [exact Hx|].
      destruct (full_write_loop _ _ _ _ _ _ _ _ _ _) as [[[d1 m1] k1]|]; [|exact Hx].
      destruct (h_pwrite _ _ _ _) as [fd [[]|]]; [|exact Hx]. destruct (h_pwrite _ _ _ _) as [fm [[]|]]; [reflexivity|exact Hx].
    - intros m [s1 n1] Hx. cbn [hfull_backend bk_adjust fst] in *. unfold hfull_adjust.
      destruct (h_trunc _ _ _) as [fd [[]|]]; [|exact Hx]. destruct (h_trunc _ _ _) as [fm [[]|]]; [reflexivity|exact Hx]. }
  unfold hfull_step. destruct (bb_step (hfull_backend A dkey id bs iv_size header_size check sparse rnd iv_fuel F) (s, 0) o) as [[s1 n1] r1]. exact K'.
Qed.

Section Steps.
  Variable A : aead.
  Variable hmac : bytes -> bytes -> bytes.
  Variable dkey mkey id : bytes.
  Variable bs iv_size header_size : nat.
  Variable check sparse : bool.
  Variable session_key : bytes -> bytes.
  Variable padding_of : bytes -> nat.
  Variable rnd : nat -> nat -> bytes.
  Variable iv_fuel : nat.
  Notation LRep := (LRep A bs iv_size check session_key padding_of).
  Notation hl F := (hlite_step A bs iv_size check sparse rnd iv_fuel F).
  Notation FRep := (FRep A hmac dkey mkey id bs iv_size header_size).
  Notation hf F := (hfull_step A dkey id bs iv_size header_size check sparse rnd iv_fuel F).

  Lemma lite_at_once : lite_env_ok A bs iv_size rnd iv_fuel ->
    forall F s c o, fails_at_once F -> LRep s c -> length c <= lite_max_blocks * bs -> sop_within (lite_max_blocks * bs) o ->
     let y := hl F s o in
     (snd y = snd (spec_step c o) /\ LRep (fst y) (fst (spec_step c o)) /\ length (fst (spec_step c o)) <= lite_max_blocks * bs) \/
     ((exists e, snd y = OFail (EPosix e)) /\ LRep (fst y) c).
  Proof.
    intros HE F s c o HF HR Hc Ho. cbv zeta.
    destruct (lite_fault_step A bs iv_size check sparse rnd iv_fuel F (at_once_no_short F HF) s o) as [E|(e & E & S)].
    - rewrite E. left.
      destruct (bb_step_ok (lite_backend A bs iv_size check sparse rnd iv_fuel) LRep (lite_backend_ok A bs iv_size check sparse session_key padding_of rnd iv_fuel HE) s c o HR
        ltac:(rewrite bk_maxn_lite; exact Hc) ltac:(rewrite bk_maxn_lite; exact Ho)) as (s1 & Hs & HR1 & Hl1). rewrite bk_maxn_lite in Hl1.
      rewrite Hs. auto.
    - right. destruct (at_once_stop _ _ _ _ _ _ _ _ HF S) as (Ef & x & ->). split; [eauto|].
      destruct (hlite_keys A bs iv_size check sparse rnd iv_fuel F s o) as (K1 & K2).
      destruct (hl F s o) as [[f1 k1 p1 r1] y1]. cbn [fst snd l_file l_key l_pad] in *. subst f1 k1 p1.
      destruct HR as [R1 R2 R3]. constructor; assumption.
  Qed.

  Lemma full_at_once : full_env_ok A hmac bs iv_size rnd iv_fuel ->
    forall h F s c o, fails_at_once F -> FRep h s c -> length c <= full_max_blocks * bs -> sop_within (full_max_blocks * bs) o ->
     let y := hf F s o in
     (snd y = snd (spec_step c o) /\ FRep h (fst y) (fst (spec_step c o)) /\ length (fst (spec_step c o)) <= full_max_blocks * bs) \/
     ((exists e, snd y = OFail (EPosix e)) /\ FRep h (fst y) c).
  Proof.
    intros HE h F s c o HF HR Hc Ho. cbv zeta.
    destruct (full_fault_step A dkey id bs iv_size header_size check sparse rnd iv_fuel F (at_once_no_short F HF) s o) as [E|(e & E & S)].
    - rewrite E. left.
      destruct (bb_step_ok (full_backend A dkey id bs iv_size header_size check sparse rnd iv_fuel) (FRep h) (full_backend_ok A hmac dkey mkey id bs iv_size header_size check sparse rnd iv_fuel HE h) s c o HR
        ltac:(rewrite bk_maxn_full; exact Hc) ltac:(rewrite bk_maxn_full; exact Ho)) as (s1 & Hs & HR1 & Hl1). rewrite bk_maxn_full in Hl1.
      rewrite Hs. auto.
    - right. destruct (at_once_stop _ _ _ _ _ _ _ _ HF S) as (Ef & x & ->). split; [eauto|].
      pose proof (hfull_dirty A dkey id bs iv_size header_size check sparse rnd iv_fuel F s o) as Hd.
      destruct (hf F s o) as [[d1 m1 y1 k1] r1]. unfold both in Ef. cbn [fst snd f_data f_meta f_dirty] in *. injection Ef as -> ->.
      destruct HR as [R1 R2 R3 R4 R5]. constructor; try assumption. cbn [f_dirty f_meta]. intros ->. apply R5. destruct (f_dirty s); [now specialize (Hd eq_refl)|reflexivity].
  Qed.
End Steps.

(** Flushing: what fails can be tried again. *)
Section Flush.
  Variable hmac : bytes -> bytes -> bytes.
  Variable mkey id : bytes.
  Hypothesis Hlen : forall k m, length (hmac k m) = hmac_len.

  Lemma full_flush_dirty s : f_dirty s = true ->
    full_flush hmac mkey id s = (mkFull (f_data s) (arr_write (f_meta s) 0 (hmac mkey (id ++ skipn hmac_len (f_meta s)))) false (f_rng s), Ok tt).
  Proof. intros Hd. unfold full_flush, hmac_flush. rewrite Hd, mac_message_ok. reflexivity. Qed.

  Lemma write_head raw d m : length d = hmac_len ->
    arr_write (arr_write raw 0 (firstn m d)) 0 d = arr_write raw 0 d /\ skipn hmac_len (arr_write raw 0 (firstn m d)) = skipn hmac_len raw.
  Proof.
    intros Hd. assert (L : length (arr_write raw 0 (firstn m d)) = max (length raw) (min m hmac_len)).
    { rewrite arr_write_length. pose proof (firstn_length m d) as Hf. rewrite Hd in Hf. destruct (firstn m d); cbn [length] in *; lia. }
    split.
    - apply bytes_ext; [rewrite !(arr_write_length _ 0 d), L; destruct d; cbn [length] in *; unfold hmac_len in *; lia|]. intros i Hi. change (get (arr_write (arr_write raw 0 (firstn m d)) 0 d) i = get (arr_write raw 0 d) i).
      rewrite !get_arr_write. cbn [Nat.leb Nat.add andb]. rewrite firstn_length.
      destruct (Nat.ltb_spec i (length d)); [reflexivity|]. destruct (Nat.ltb_spec i (min m (length d))); [lia|reflexivity].
    - apply bytes_ext; [rewrite !skipn_length, L; lia|]. intros i Hi.
      change (get (skipn hmac_len (arr_write raw 0 (firstn m d))) i = get (skipn hmac_len raw) i). rewrite !get_skipn, get_arr_write. cbn [Nat.leb andb].
      rewrite firstn_length. destruct (Nat.ltb_spec (hmac_len + i) (0 + min m (length d))); [lia|reflexivity].
  Qed.

  Lemma flush_fault F s :
    (forall p, (exists e, on_pread F 0 false p = HFail e) \/ on_pread F 0 false p <> HShort 0) ->
    let y := hfull_flush hmac mkey id F s in
    y = full_flush hmac mkey id s \/
    (exists e, snd y = Err (EPosix e) /\ f_dirty s = true /\ f_data (fst y) = f_data s /\ skipn hmac_len (f_meta (fst y)) = skipn hmac_len (f_meta s) /\
       full_flush hmac mkey id (fst y) = full_flush hmac mkey id s).
  Proof.
    intros HF. cbv zeta. unfold hfull_flush. destruct (f_dirty s) eqn:Hd; [|left; unfold full_flush, hmac_flush; rewrite Hd; destruct s; cbn in *; now subst].
    destruct (run_mac_short_ok F (N.to_nat 4096) (f_meta s) ltac:(lia) (S (length (f_meta s))) hmac_len HF ltac:(lia)) as [(e & E & _)|E]; rewrite E.
    - right. exists e. auto 6.
    - rewrite (full_flush_dirty s Hd). destruct (write_head (f_meta s) (hmac mkey (id ++ skipn hmac_len (f_meta s))) 0 (Hlen _ _)) as (_ & W0).
      destruct (on_mod F 0) as [|e|m]; cbn [h_pwrite].
      + now left.
      + right. exists e. cbn [fst snd f_data f_meta]. rewrite (full_flush_dirty (mkFull _ _ _ _) eq_refl). cbn [f_data f_meta f_rng]. auto.
      + destruct (write_head (f_meta s) (hmac mkey (id ++ skipn hmac_len (f_meta s))) m (Hlen _ _)) as (W1 & W2).
        destruct (Nat.ltb_spec m (length (hmac mkey (id ++ skipn hmac_len (f_meta s))))).
        * right. exists host_EIO. cbn [fst snd f_data f_meta]. rewrite (full_flush_dirty (mkFull _ _ _ _) eq_refl). cbn [f_data f_meta f_rng].
          rewrite W2, W1. auto.
        * left. rewrite firstn_all2 by lia. reflexivity.
  Qed.
End Flush.
