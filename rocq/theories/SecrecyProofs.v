(** Nonces and secrecy: proofs.  The operations on the content determine which blocks are
    encrypted, with which plaintext and with which draw of the random source, without the
    cipher; what is stored is the image of that under the cipher. *)
From Coq Require Import Sorted.
From Verif Require Import Base BaseLemmas StreamSpec BlockModel BlockProofs CodecModel LiteModel LiteProofs LiteTamper
  FullStreamModel FullStreamProofs CrashModel CrashSpec CrashProofs CrashTop CryptoProofs SecrecySpec.

(** ** The calls of the block layer, from the content *)
Inductive bcall := BWrite (a e r : nat) (d : bytes) | BAdjust (n : nat).

Section Plan.
  Variable bs : nat.
  Variable sparse : bool.

  Definition wplan (c : bytes) (w : winput) (off : nat) : list bcall :=
    let len := winput_len w in
    if len <=? 0 then []
    else
      let sb := off / bs in let sr := off mod bs in
      let eb := (off + len) / bs in let er := (off + len) mod bs in
      if (sr =? 0) && (er =? 0) then [BWrite sb eb 0 (match w with WZero _ => zeros ((eb - sb) * bs) | WData d => d end)]
      else
        let buf0 := zeros ((eb - sb + b2nat (0 <? er)) * bs) in
        let buf1 := if (0 <? sr) && (sb <? eb) then put_at buf0 0 (arr_read c (sb * bs) ((sb + 1 - sb) * bs)) else buf0 in
        let x := if 0 <? er then let out := arr_read c (eb * bs) ((eb + 1 - eb) * bs) in (put_at buf1 ((eb - sb) * bs) out, max er (length out)) else (buf1, 0) in
        [BWrite sb eb (snd x) (match w with WZero _ => fst x | WData d => put_at (fst x) sr d end)].

  Definition rplan (c : bytes) (new : nat) : list bcall :=
    let cur := length c in
    if new =? cur then []
    else if new <? cur then
      (if 0 <? new mod bs then [BWrite (new / bs) (new / bs) (new mod bs) (put_at (zeros bs) 0 (arr_read c (new / bs * bs) ((new / bs + 1 - new / bs) * bs)))] else [])
      ++ [BAdjust new]
    else
      (if negb sparse || (cur / bs =? new / bs) then wplan c (WZero (new - cur)) cur
       else wplan c (WZero (cur / bs * bs + bs - cur)) cur) ++ [BAdjust new].

  Definition plan (c : bytes) (o : sop) : list bcall :=
    match o with
    | SWrite off d =>
        if length d <=? 0 then []
        else if length c <? off then rplan c off ++ wplan (arr_resize c off) (WData d) off
        else wplan c (WData d) off
    | SResize n => rplan c n
    | _ => []
    end.

  Definition cvalid (mx : nat) (x : bcall) : Prop :=
    match x with BWrite a e r d => a <= e /\ e <= mx /\ r <= bs /\ (e - a) * bs + r <= length d | BAdjust _ => True end.
  Definition cshape (x y : bcall) : Prop :=
    match x, y with BWrite a e r d, BWrite a' e' r' d' => a = a' /\ e = e' /\ r = r' /\ length d = length d' | BAdjust n, BAdjust n' => n = n' | _, _ => False end.
End Plan.

Fixpoint exec (B : backend) (l : list bcall) (s : bk_state B) : bk_state B :=
  match l with
  | [] => s
  | BWrite a e r d :: l' => exec B l' (fst (bk_write B a e r d s))
  | BAdjust n :: l' => exec B l' (fst (bk_adjust B n s))
  end.
Lemma exec_app B l1 l2 : forall s, exec B (l1 ++ l2) s = exec B l2 (exec B l1 s).
Proof. induction l1 as [|[a e r d|n] l1 IH]; intros s; cbn [exec app]; auto. Qed.

Section PlanOk.
  Variable B : backend.
  Variable Rep : bk_state B -> bytes -> Prop.
  Hypothesis HB : backend_ok B Rep.
  Notation bs := (bk_bs B).
  Notation limit := (bk_maxn B * bk_bs B).

  Lemma put_at_len2 buf off d : length (put_at buf off d) = min off (length buf) + (length d + (length buf - (off + length d))).
  Proof. unfold put_at. rewrite !app_length, firstn_length, skipn_length. reflexivity. Qed.

  Lemma eb_le off len : off + len <= limit -> (off + len) / bs <= bk_maxn B /\ (0 < (off + len) mod bs -> (off + len) / bs + 1 <= bk_maxn B).
  Proof.
    intros H. destruct (divmod_spec B Rep HB (off + len)) as (q & r & -> & -> & E & L). split; [|intros Hr].
    - destruct (Nat.le_gt_cases q (bk_maxn B)) as [|Hg]; [assumption|]. pose proof (mul_lt_block _ _ bs Hg). lia.
    - destruct (Nat.le_gt_cases (q + 1) (bk_maxn B)) as [|Hg]; [assumption|]. assert (Hq : bk_maxn B <= q) by lia. pose proof (mul_le_mono _ _ bs Hq). lia.
  Qed.

  Lemma wplan_ok s c w off : Rep s c -> off + winput_len w <= limit ->
    fst (bb_unchecked_write B w off s) = exec B (wplan bs c w off) s.
  Proof.
    intros HR Hl. unfold bb_unchecked_write, wplan. destruct (Nat.leb_spec (winput_len w) 0); [reflexivity|].
    destruct (_ && _) eqn:Eal; [destruct w; reflexivity|].
    destruct (eb_le _ _ Hl) as [M1 M2]. pose proof (ok_bs _ _ HB) as Hbs.
    assert (Hse : off / bs <= (off + winput_len w) / bs) by (apply Nat.div_le_mono; lia).
    assert (R1 : (if (0 <? off mod bs) && (off / bs <? (off + winput_len w) / bs)
          then rmap (put_at (zeros (((off + winput_len w) / bs - off / bs + b2nat (0 <? (off + winput_len w) mod bs)) * bs)) 0) (bk_read B (off / bs) (off / bs + 1) s)
          else Ok (zeros (((off + winput_len w) / bs - off / bs + b2nat (0 <? (off + winput_len w) mod bs)) * bs)))
      = Ok (if (0 <? off mod bs) && (off / bs <? (off + winput_len w) / bs)
          then put_at (zeros (((off + winput_len w) / bs - off / bs + b2nat (0 <? (off + winput_len w) mod bs)) * bs)) 0 (arr_read c (off / bs * bs) ((off / bs + 1 - off / bs) * bs))
          else zeros (((off + winput_len w) / bs - off / bs + b2nat (0 <? (off + winput_len w) mod bs)) * bs))).
    { destruct (0 <? off mod bs); cbn [andb]; [|reflexivity]. destruct (Nat.ltb_spec (off / bs) ((off + winput_len w) / bs)); [|reflexivity].
      rewrite (ok_read _ _ HB s c _ _ HR) by lia. reflexivity. }
    rewrite R1. clear R1. cbv zeta.
    set (buf1 := if (0 <? off mod bs) && (off / bs <? (off + winput_len w) / bs) then put_at _ 0 _ else _).
    destruct (Nat.ltb_spec 0 ((off + winput_len w) mod bs)) as [H0|H0].
    - rewrite (ok_read _ _ HB s c _ _ HR) by lia. cbn [rmap fst snd exec]. reflexivity.
    - cbn [fst snd exec]. reflexivity.
  Qed.

  Lemma wplan_valid c w off : off + winput_len w <= limit -> Forall (cvalid bs (bk_maxn B)) (wplan bs c w off).
  Proof.
    intros Hl. unfold wplan. destruct (Nat.leb_spec (winput_len w) 0); [constructor|]. cbv zeta.
    destruct (eb_le _ _ Hl) as [M1 M2]. pose proof (ok_bs _ _ HB) as Hbs.
    assert (Hse : off / bs <= (off + winput_len w) / bs) by (apply Nat.div_le_mono; lia).
    destruct (divmod_spec B Rep HB off) as (q1 & r1 & Q1 & R1 & E1 & L1). destruct (divmod_spec B Rep HB (off + winput_len w)) as (q2 & r2 & Q2 & R2 & E2 & L2).
    rewrite Q1, R1, Q2, R2 in *. clear Q1 R1 Q2 R2.
    pose proof (mul_le_mono _ _ bs Hse) as Hm.
    destruct ((r1 =? 0) && (r2 =? 0)) eqn:Eal; (constructor; [|constructor]); cbn [cvalid].
    - apply andb_prop in Eal as [Ea Eb]. apply Nat.eqb_eq in Ea, Eb. subst. repeat split; try lia.
      rewrite Nat.mul_sub_distr_r. destruct w; cbn [winput_len] in *; rewrite ?zeros_length; rewrite ?Nat.mul_sub_distr_r; lia.
    - set (buf0 := zeros ((q2 - q1 + b2nat (0 <? r2)) * bs)).
      assert (L0 : length buf0 = (q2 - q1 + b2nat (0 <? r2)) * bs) by apply zeros_length.
      set (buf1 := if (0 <? r1) && (q1 <? q2) then _ else buf0).
      assert (LB1 : length buf1 = length buf0).
      { unfold buf1. destruct ((0 <? r1) && (q1 <? q2)) eqn:Ec; [|reflexivity]. apply andb_prop in Ec as [_ Ec]. apply Nat.ltb_lt in Ec.
        apply put_at_length. rewrite arr_read_length, L0. replace (q1 + 1 - q1) with 1 by lia.
        assert (Hq : 1 <= q2 - q1 + b2nat (0 <? r2)) by lia. pose proof (mul_le_mono _ _ bs Hq). lia. }
      match goal with |- context [snd ?t] => set (x := t) end.
      assert (LX : length (fst x) = length buf0 /\ (q2 - q1) * bs + snd x <= length buf0 /\ snd x <= bs).
      { unfold x. destruct (Nat.ltb_spec 0 r2) as [Hr|Hr]; cbn [fst snd b2nat] in *.
        - rewrite Nat.mul_add_distr_r in L0. replace (q2 + 1 - q2) with 1 by lia. rewrite put_at_length; rewrite ?arr_read_length; lia.
        - rewrite LB1, L0, Nat.add_0_r. lia. }
      destruct LX as (X1 & X2 & X3). repeat split; try lia.
      enough (HH : length buf0 <= length (match w with WZero _ => fst x | WData d => put_at (fst x) r1 d end)) by lia.
      destruct w as [d|n]; [|lia]. rewrite put_at_len2, X1. cbn [winput_len] in *.
      destruct (Nat.le_gt_cases (length buf0) (r1 + length d)); lia.
  Qed.

  Lemma rplan_ok s c new : Rep s c -> length c <= limit -> new <= limit ->
    fst (bb_unchecked_resize B (length c) new s) = exec B (rplan bs (bk_sparse B) c new) s.
  Proof.
    intros HR Hlc Hln. unfold bb_unchecked_resize, rplan, bb_zero_fill. pose proof (ok_bs _ _ HB) as Hbs.
    destruct (Nat.eqb_spec new (length c)); [reflexivity|]. destruct (divmod_spec B Rep HB new) as (q & r & Q & R & E & L).
    destruct (Nat.ltb_spec new (length c)) as [Hlt|Hge].
    - rewrite Q, R. destruct (Nat.ltb_spec 0 r) as [Hr|Hr]; [|reflexivity].
      assert (Hm : q + 1 <= bk_maxn B).
      { destruct (Nat.le_gt_cases (q + 1) (bk_maxn B)) as [|Hg]; [assumption|]. assert (Hq : bk_maxn B <= q) by lia. pose proof (mul_le_mono _ _ bs Hq). lia. }
      rewrite (ok_read _ _ HB s c q (q + 1) HR) by lia. cbn [rmap app exec].
      set (d := put_at _ 0 _).
      assert (Hd : length d = bs). { unfold d. rewrite put_at_length; rewrite ?zeros_length, ?arr_read_length; lia. }
      destruct (ok_shrink _ _ HB s c q r d HR Hr L ltac:(lia) Hm ltac:(lia)) as (s1 & s2 & Hw & Ha & _).
      rewrite Hw. reflexivity.
    - assert (K : forall z, length c + z <= limit -> exists s1, bb_unchecked_write B (WZero z) (length c) s = (s1, Ok tt)).
      { intros z Hz. destruct (bb_unchecked_write_ok B Rep HB s c (WZero z) (length c) HR ltac:(lia) ltac:(cbn [winput_len]; lia) ltac:(auto)) as (s1 & H1 & _). eauto. }
      destruct (negb (bk_sparse B) || (length c / bs =? new / bs)) eqn:Esp.
      + destruct (K (new - length c) ltac:(lia)) as (s1 & H1). pose proof (wplan_ok s c (WZero (new - length c)) (length c) HR ltac:(cbn [winput_len]; lia)) as HW.
        rewrite H1 in HW |- *. cbn [fst then_] in *. rewrite exec_app, <- HW. reflexivity.
      + assert (Hb : length c / bs * bs + bs <= limit).
        { apply orb_false_elim in Esp as [_ Esp]. apply Nat.eqb_neq in Esp. rewrite Q in Esp.
          destruct (divmod_spec B Rep HB (length c)) as (q' & r' & Q' & _ & E' & L'). rewrite Q' in *.
          assert (q' < q) by (destruct (Nat.le_gt_cases q q') as [Hg|]; [|assumption]; pose proof (mul_le_mono _ _ bs Hg); destruct (Nat.eq_dec q q'); [congruence|]; assert (Hx : q < q') by lia; pose proof (mul_lt_block _ _ bs Hx); lia).
          pose proof (mul_lt_block _ _ bs H). lia. }
        assert (Hb2 : length c <= length c / bs * bs + bs).
        { destruct (divmod_spec B Rep HB (length c)) as (q' & r' & Q' & _ & E' & L'). rewrite Q'. lia. }
        destruct (K (length c / bs * bs + bs - length c) ltac:(lia)) as (s1 & H1). pose proof (wplan_ok s c (WZero (length c / bs * bs + bs - length c)) (length c) HR ltac:(cbn [winput_len]; lia)) as HW.
        rewrite H1 in HW |- *. cbn [fst then_] in *. rewrite exec_app, <- HW. reflexivity.
  Qed.

  Lemma rplan_valid c new : length c <= limit -> new <= limit -> Forall (cvalid bs (bk_maxn B)) (rplan bs (bk_sparse B) c new).
  Proof.
    intros Hlc Hln. unfold rplan. pose proof (ok_bs _ _ HB) as Hbs.
    destruct (Nat.eqb_spec new (length c)); [constructor|]. destruct (divmod_spec B Rep HB new) as (q & r & Q & R & E & L). rewrite Q, R.
    destruct (Nat.ltb_spec new (length c)) as [Hlt|Hge]; apply Forall_app; (split; [|constructor; [exact I|constructor]]).
    - destruct (Nat.ltb_spec 0 r) as [Hr|Hr]; [|constructor]. constructor; [|constructor]. cbn [cvalid].
      assert (Hm : q <= bk_maxn B).
      { destruct (Nat.le_gt_cases q (bk_maxn B)) as [|Hg]; [assumption|]. pose proof (mul_lt_block _ _ bs Hg). lia. }
      rewrite put_at_length; rewrite ?zeros_length, ?arr_read_length; replace (q + 1 - q) with 1 by lia; rewrite ?Nat.sub_diag; repeat split; lia.
    - destruct (negb (bk_sparse B) || (length c / bs =? q)) eqn:Esp; apply wplan_valid; cbn [winput_len]; [lia|].
      apply orb_false_elim in Esp as [_ Esp]. apply Nat.eqb_neq in Esp.
      destruct (divmod_spec B Rep HB (length c)) as (q' & r' & Q' & _ & E' & L'). rewrite Q' in *.
      assert (q' < q) by (destruct (Nat.le_gt_cases q q') as [Hg|]; [|assumption]; assert (Hx : q < q') by lia; pose proof (mul_lt_block _ _ bs Hx); lia).
      pose proof (mul_lt_block _ _ bs H). lia.
  Qed.

  Lemma plan_ok s c o : Rep s c -> length c <= limit -> sop_within limit o ->
    fst (bb_step B s o) = exec B (plan bs (bk_sparse B) c o) s.
  Proof.
    intros HR Hlc Ho. destruct o as [off len|off d|n|]; cbn [bb_step plan sop_within fst] in *; try reflexivity.
    - unfold bb_write. destruct (Nat.leb_spec (length d) 0); [reflexivity|]. rewrite (ok_size _ _ HB _ _ HR).
      destruct (Nat.ltb_spec (length c) off) as [Hlt|Hge].
      + destruct (bb_unchecked_resize_ok B Rep HB s c off HR Hlc ltac:(lia)) as (s1 & Hr & HR1). pose proof (rplan_ok s c off HR Hlc ltac:(lia)) as HP.
        rewrite Hr in HP |- *. cbn [fst then_] in *. rewrite exec_app, <- HP.
        pose proof (wplan_ok s1 (arr_resize c off) (WData d) off HR1 ltac:(cbn [winput_len]; lia)) as HW.
        destruct (bb_unchecked_write B (WData d) off s1). exact HW.
      + cbn [then_]. pose proof (wplan_ok s c (WData d) off HR ltac:(cbn [winput_len]; lia)) as HW.
        destruct (bb_unchecked_write B (WData d) off s). exact HW.
    - unfold bb_resize. rewrite (ok_size _ _ HB _ _ HR). pose proof (rplan_ok s c n HR Hlc Ho) as HP.
      destruct (bb_unchecked_resize B (length c) n s). exact HP.
  Qed.

  Lemma plan_valid c o : length c <= limit -> sop_within limit o -> Forall (cvalid bs (bk_maxn B)) (plan bs (bk_sparse B) c o).
  Proof.
    intros Hlc Ho. destruct o as [off len|off d|n|]; cbn [plan sop_within] in *; try constructor.
    - destruct (Nat.leb_spec (length d) 0); [constructor|]. destruct (Nat.ltb_spec (length c) off).
      + apply Forall_app. split; [apply rplan_valid; lia|apply wplan_valid; cbn [winput_len]; lia].
      + apply wplan_valid; cbn [winput_len]; lia.
    - apply rplan_valid; assumption.
  Qed.
End PlanOk.

(** The shape of the calls depends on lengths only. *)
Lemma wplan_shape bs c1 c2 w1 w2 off : length c1 = length c2 ->
  (match w1, w2 with WData d1, WData d2 => length d1 = length d2 | WZero n1, WZero n2 => n1 = n2 | _, _ => False end) ->
  Forall2 cshape (wplan bs c1 w1 off) (wplan bs c2 w2 off).
Proof.
  intros Hc Hw. assert (Hl : winput_len w1 = winput_len w2) by (destruct w1, w2; try contradiction; exact Hw).
  unfold wplan. rewrite Hl. destruct (_ <=? 0); [constructor|]. cbv zeta.
  destruct (_ && _) eqn:Eal; (constructor; [|constructor]); cbn [cshape].
  - destruct w1, w2; try contradiction; auto.
  - set (sb := off / bs). set (eb := (off + winput_len w2) / bs). set (er := (off + winput_len w2) mod bs). set (sr := off mod bs).
    set (buf0 := zeros ((eb - sb + b2nat (0 <? er)) * bs)).
    set (x1 := if (0 <? sr) && (sb <? eb) then put_at buf0 0 (arr_read c1 (sb * bs) ((sb + 1 - sb) * bs)) else buf0).
    set (x2 := if (0 <? sr) && (sb <? eb) then put_at buf0 0 (arr_read c2 (sb * bs) ((sb + 1 - sb) * bs)) else buf0).
    assert (X : length x1 = length x2). { unfold x1, x2. destruct ((0 <? sr) && (sb <? eb)); [|reflexivity]. rewrite !put_at_len2, !arr_read_length, Hc. reflexivity. }
    set (y1 := if 0 <? er then (put_at x1 ((eb - sb) * bs) (arr_read c1 (eb * bs) ((eb + 1 - eb) * bs)), max er (length (arr_read c1 (eb * bs) ((eb + 1 - eb) * bs)))) else (x1, 0)).
    set (y2 := if 0 <? er then (put_at x2 ((eb - sb) * bs) (arr_read c2 (eb * bs) ((eb + 1 - eb) * bs)), max er (length (arr_read c2 (eb * bs) ((eb + 1 - eb) * bs)))) else (x2, 0)).
    assert (Y : length (fst y1) = length (fst y2) /\ snd y1 = snd y2).
    { unfold y1, y2. destruct (0 <? er); cbn [fst snd]; [|auto]. rewrite !put_at_len2, !arr_read_length, Hc, X. auto. }
    destruct Y as [Y1 Y2]. repeat split; [exact Y2|]. destruct w1, w2; try contradiction; [|exact Y1]. rewrite !put_at_len2, Y1, Hw. reflexivity.
Qed.
Lemma rplan_shape bs sparse c1 c2 n : length c1 = length c2 -> Forall2 cshape (rplan bs sparse c1 n) (rplan bs sparse c2 n).
Proof.
  intros Hc. unfold rplan. rewrite Hc. destruct (n =? length c2); [constructor|]. destruct (n <? length c2); apply Forall2_app; try (constructor; [reflexivity|constructor]).
  - destruct (0 <? n mod bs); constructor; [|constructor]. cbn [cshape]. rewrite !put_at_len2, !arr_read_length, Hc. auto.
  - destruct (_ || _); apply wplan_shape; auto.
Qed.
Lemma plan_shape bs sparse c1 c2 o1 o2 : length c1 = length c2 -> alike o1 o2 -> Forall2 cshape (plan bs sparse c1 o1) (plan bs sparse c2 o2).
Proof.
  intros Hc Ha. destruct o1 as [off len|off d|n|], o2 as [off2 len2|off2 d2|n2|]; cbn [alike] in Ha; try discriminate Ha; cbn [plan]; try constructor.
  - destruct Ha as [-> Hd]. rewrite Hd, Hc. destruct (_ <=? 0); [constructor|]. destruct (_ <? _).
    + apply Forall2_app; [apply rplan_shape; exact Hc|apply wplan_shape; [rewrite !arr_resize_length; reflexivity|exact Hd]].
    + apply wplan_shape; [exact Hc|exact Hd].
  - injection Ha as <-. apply rplan_shape; exact Hc.
Qed.
Lemma alike_length c1 c2 o1 o2 : length c1 = length c2 -> alike o1 o2 -> length (fst (spec_step c1 o1)) = length (fst (spec_step c2 o2)).
Proof.
  intros Hc Ha. destruct o1 as [off len|off d|n|], o2 as [off2 len2|off2 d2|n2|]; cbn [alike] in Ha; try discriminate Ha; cbn [spec_step fst]; auto.
  - destruct Ha as [-> Hd]. rewrite !arr_write_length, Hc, Hd. destruct d, d2; cbn [length] in Hd; try discriminate Hd; reflexivity.
  - injection Ha as <-. rewrite !arr_resize_length. reflexivity.
Qed.

(** ** The encryptions, without the cipher *)
(** A draw, a block number, a plaintext. *)
Definition ent : Type := nat * nat * bytes.

(** Draws are used in order and once. *)
Fixpoint rising (k : nat) (l : list nat) (k' : nat) : Prop :=
  match l with [] => k <= k' | i :: l' => k <= i /\ rising (S i) l' k' end.
Lemma rising_le l : forall k k', rising k l k' -> k <= k'.
Proof. induction l as [|i l IH]; intros k k' H; cbn [rising] in H; [exact H|]. destruct H as [H1 H2]. apply IH in H2. lia. Qed.
Lemma rising_weak l : forall j k k' , j <= k -> rising k l k' -> rising j l k'.
Proof. intros j k k' Hj H. destruct l; cbn [rising] in *; [lia|]. destruct H. split; [lia|assumption]. Qed.
Lemma rising_app l1 l2 : forall k k1 k2, rising k l1 k1 -> rising k1 l2 k2 -> rising k (l1 ++ l2) k2.
Proof.
  induction l1 as [|i l1 IH]; intros k k1 k2 H1 H2; cbn [rising app] in *; [apply (rising_weak _ _ k1); assumption|].
  destruct H1. split; [assumption|]. eapply IH; eauto.
Qed.
Lemma rising_sorted l : forall k k', rising k l k' -> StronglySorted lt l /\ Forall (fun i => k <= i < k') l.
Proof.
  induction l as [|i l IH]; intros k k' H; [split; constructor|]. cbn [rising] in H. destruct H as [H1 H2]. pose proof (rising_le _ _ _ H2) as HL. apply IH in H2 as [S1 S2].
  split; constructor; auto; try lia; (eapply Forall_impl; [|exact S2]; cbv beta; intros; lia).
Qed.

Section Ghost.
  Variable bs iv_size : nat.
  Variable rnd : nat -> nat -> bytes.

  Fixpoint nexti (fuel k : nat) : nat :=
    match fuel with O => k | S f => if all_zero (rnd k iv_size) then nexti f (S k) else k end.
  Lemma nexti_ge fuel : forall k, k <= nexti fuel k.
  Proof. induction fuel as [|f IH]; intros k; cbn [nexti]; [lia|]. destruct (all_zero _); [specialize (IH (S k)); lia|lia]. Qed.
  Lemma next_iv_nexti fuel k : (exists j, j < fuel /\ all_zero (rnd (k + j) iv_size) = false) ->
    next_iv iv_size rnd fuel k = Ok (rnd (nexti fuel k) iv_size, S (nexti fuel k)).
  Proof.
    revert k; induction fuel as [|f IH]; intros k (j & Hj & Hz); [lia|].
    cbn [next_iv nexti]. destruct (all_zero (rnd k iv_size)) eqn:E; [|reflexivity].
    apply IH. destruct j as [|j]; [rewrite Nat.add_0_r in Hz; congruence|].
    exists j. split; [lia|]. replace (S k + j) with (k + S j) by lia. exact Hz.
  Qed.

  Variable iv_fuel : nat.
  Fixpoint gblocks (m r block : nat) (input : bytes) (k : nat) : list ent * nat :=
    match m with
    | O => if r <=? 0 then ([], k) else ([(nexti iv_fuel k, block, firstn r input)], S (nexti iv_fuel k))
    | S m' =>
        let x := gblocks m' r (S block) (skipn bs input) (S (nexti iv_fuel k)) in
        ((nexti iv_fuel k, block, firstn bs input) :: fst x, snd x)
    end.

  Inductive gcall := GBlocks (a : nat) (l : list ent) | GSize (n : nat).
  Definition gcall_ents (g : gcall) : list ent := match g with GBlocks _ l => l | GSize _ => [] end.
  Fixpoint ghost (l : list bcall) (k : nat) : list gcall * nat :=
    match l with
    | [] => ([], k)
    | BWrite a e r d :: l' =>
        let x := gblocks (e - a) r a d k in
        let y := ghost l' (snd x) in
        (GBlocks a (fst x) :: fst y, snd y)
    | BAdjust n :: l' => let y := ghost l' k in (GSize n :: fst y, snd y)
    end.

  Definition draws (l : list ent) : list nat := map (fun e => fst (fst e)) l.
  Lemma gblocks_rising m r : forall block input k, rising k (draws (fst (gblocks m r block input k))) (snd (gblocks m r block input k)).
  Proof.
    induction m as [|m IH]; intros block input k; cbn [gblocks].
    - pose proof (nexti_ge iv_fuel k). destruct (r <=? 0); cbn [fst snd draws map rising]; [lia|]. split; [assumption|lia].
    - cbn [fst snd draws map rising]. split; [apply nexti_ge|]. apply IH.
  Qed.
  Lemma ghost_rising l : forall k, rising k (draws (flat_map gcall_ents (fst (ghost l k)))) (snd (ghost l k)).
  Proof.
    induction l as [|[a e r d|n] l IH]; intros k; cbn [ghost fst snd flat_map gcall_ents app]; [cbn [draws map rising]; lia| |apply IH].
    unfold draws. rewrite map_app. eapply rising_app; [apply gblocks_rising|apply IH].
  Qed.

  (** Same shape, same draws. *)
  Definition ent_like (x y : ent) : Prop := fst x = fst y /\ length (snd x) = length (snd y).
  Definition gcall_like (x y : gcall) : Prop :=
    match x, y with GBlocks a l, GBlocks a' l' => a = a' /\ Forall2 ent_like l l' | GSize n, GSize n' => n = n' | _, _ => False end.
  Lemma gblocks_like m r : forall block d d' k, length d = length d' ->
    Forall2 ent_like (fst (gblocks m r block d k)) (fst (gblocks m r block d' k)) /\ snd (gblocks m r block d k) = snd (gblocks m r block d' k).
  Proof.
    induction m as [|m IH]; intros block d d' k H; cbn [gblocks].
    - destruct (r <=? 0); cbn [fst snd]; split; auto. constructor; [|constructor]. split; [reflexivity|]. cbn [snd]. rewrite !firstn_length, H. reflexivity.
    - cbn [fst snd]. destruct (IH (S block) (skipn bs d) (skipn bs d') (S (nexti iv_fuel k))) as [I1 I2]; [rewrite !skipn_length, H; reflexivity|].
      split; [|exact I2]. constructor; [|exact I1]. split; [reflexivity|]. cbn [snd]. rewrite !firstn_length, H. reflexivity.
  Qed.
  Lemma ghost_like l1 l2 : Forall2 cshape l1 l2 -> forall k,
    Forall2 gcall_like (fst (ghost l1 k)) (fst (ghost l2 k)) /\ snd (ghost l1 k) = snd (ghost l2 k).
  Proof.
    induction 1 as [|x y l1 l2 Hxy HF IH]; intros k; [split; [constructor|reflexivity]|].
    destruct x as [a e r d|n], y as [a' e' r' d'|n']; cbn [cshape] in Hxy; try contradiction; cbn [ghost fst snd].
    - destruct Hxy as (<- & <- & <- & Hd). destruct (gblocks_like (e - a) r a d d' k Hd) as [G1 G2]. rewrite G2. destruct (IH (snd (gblocks (e - a) r a d' k))) as [I1 I2].
      split; [|exact I2]. constructor; [|exact I1]. split; [reflexivity|exact G1].
    - subst n'. destruct (IH k) as [I1 I2]. split; [|exact I2]. constructor; [reflexivity|exact I1].
  Qed.
End Ghost.

(** ** Traces as executions *)
Section TracedOk.
  Variable B : backend.
  Variable P : Type.
  Variable on_write : nat -> nat -> nat -> bytes -> bk_state B -> list P.
  Variable on_adjust : nat -> bk_state B -> list P.
  Variable Rep : bk_state B -> bytes -> Prop.
  Hypothesis HB : backend_ok B Rep.
  Notation T := (traced B on_write on_adjust).

  Lemma traced_ok : backend_ok T (fun x c => Rep (fst x) c).
  Proof.
    constructor; unfold bk_maxn; cbn [traced bk_state bk_bs bk_max bk_sparse bk_size bk_read bk_write bk_adjust].
    - apply (ok_bs _ _ HB).
    - intros [s t] c H. apply (ok_size _ _ HB _ _ H).
    - intros [s t] c a b H. apply (ok_read _ _ HB _ _ _ _ H).
    - intros [s t] c a e r d H H1 H2 H3 H4 H5 H6 H7. destruct (ok_write _ _ HB s c a e r d H H1 H2 H3 H4 H5 H6 H7) as (s' & E & R).
      cbn [fst snd]. rewrite E. eexists. split; [reflexivity|exact R].
    - intros [s t] c e r d H H1 H2 H3 H4 H5. destruct (ok_shrink _ _ HB s c e r d H H1 H2 H3 H4 H5) as (s1 & s2 & E1 & E2 & R).
      cbn [fst snd]. rewrite E1. do 2 eexists. split; [reflexivity|]. cbn [fst snd]. rewrite E2. split; [reflexivity|exact R].
    - intros [s t] c e H H1. destruct (ok_truncate _ _ HB s c e H H1) as (s' & E & R). cbn [fst snd]. rewrite E. eexists. split; [reflexivity|exact R].
    - intros [s t] c n H H1 H2. destruct (ok_grow _ _ HB s c n H H1 H2) as (s' & E & R). cbn [fst snd]. rewrite E. eexists. split; [reflexivity|exact R].
  Qed.

  Lemma trace_exec s c o : Rep s c -> length c <= bk_maxn B * bk_bs B -> sop_within (bk_maxn B * bk_bs B) o ->
    trace B on_write on_adjust s o = snd (exec T (plan (bk_bs B) (bk_sparse B) c o) (s, [])).
  Proof. intros HR Hc Ho. unfold trace. rewrite (plan_ok T _ traced_ok (s, []) c o HR Hc Ho). reflexivity. Qed.
  Lemma exec_fst s c o : Rep s c -> length c <= bk_maxn B * bk_bs B -> sop_within (bk_maxn B * bk_bs B) o ->
    fst (exec T (plan (bk_bs B) (bk_sparse B) c o) (s, [])) = fst (bb_step B s o).
  Proof.
    intros HR Hc Ho. pose proof (plan_ok T _ traced_ok (s, []) c o HR Hc Ho) as E. cbn [traced bk_bs bk_sparse] in E. rewrite <- E.
    pose proof (tr_step B on_write on_adjust s [] o) as E2. unfold plain in E2. exact (f_equal fst E2).
  Qed.
End TracedOk.

(** ** Lite format *)
Section LiteGhost.
  Variable A : aead.
  Variable bs iv_size : nat.
  Variable check sparse : bool.
  Variable rnd : nat -> nat -> bytes.
  Variable iv_fuel : nat.
  Hypothesis HE : lite_env_ok A bs iv_size rnd iv_fuel.

  Notation ubs := (ubs bs iv_size).
  Notation B := (lite_backend A bs iv_size check sparse rnd iv_fuel).
  Notation T := (traced B (lite_on_write A bs iv_size rnd iv_fuel) (lite_on_adjust bs iv_size)).
  Notation gblocks := (gblocks bs iv_size rnd iv_fuel).
  Notation ghost := (ghost bs iv_size rnd iv_fuel).

  Definition lenc (key pad : bytes) (e : ent) : bytes :=
    lite_encode_block A key pad (snd (fst e)) (rnd (fst (fst e)) iv_size) (snd e).
  Definition lrender (key pad : bytes) (g : gcall) : phys :=
    match g with
    | GBlocks a l => PWrite (a * ubs + (lite_id_size + length pad)) (concat (map (lenc key pad) l))
    | GSize n => PResize (lite_id_size + length pad + n / bs * ubs + (if 0 <? n mod bs then n mod bs + iv_size + mac_size else 0))
    end.

  Lemma lite_loop_ghost m r key pad : r <= bs -> forall block input k fuel,
    let total := m * ubs + (if r <=? 0 then 0 else r + iv_size + mac_size) in
    total <= fuel ->
    lite_write_loop A bs iv_size rnd iv_fuel fuel key pad block total input k
    = Ok (concat (map (lenc key pad) (fst (gblocks m r block input k))), snd (gblocks m r block input k)).
  Proof.
    intros Hr. pose proof (ubs_eq bs iv_size) as HU. pose proof (le_bs _ _ _ _ _ HE) as Hbs. unfold mac_size in *.
    assert (Hend : forall f' blk inp kk, lite_write_loop A bs iv_size rnd iv_fuel f' key pad blk 0 inp kk = Ok ([], kk)) by (intros [|f'] blk inp kk; reflexivity).
    induction m as [|m IH]; intros block input k fuel; cbv zeta; intros Hfuel.
    - rewrite !Nat.mul_0_l, !Nat.add_0_l in *. cbn [gblocks SecrecyProofs.gblocks]. destruct (Nat.leb_spec r 0) as [H0|H0].
      + rewrite Hend. reflexivity.
      + destruct fuel as [|f]; [lia|]. cbn [lite_write_loop].
        destruct (Nat.eqb_spec (r + iv_size + 16) 0); [lia|]. rewrite Nat.min_r by lia. unfold mac_size.
        replace (r + iv_size + 16 - 16 - iv_size) with r by lia. destruct (Nat.ltb_spec 0 r); [|lia].
        rewrite (next_iv_nexti iv_size rnd iv_fuel k (le_nonzero _ _ _ _ _ HE k)). cbn [rbind]. rewrite Nat.sub_diag, Hend. reflexivity.
    - destruct fuel as [|f]; [lia|]. cbn [lite_write_loop SecrecyProofs.gblocks].
      set (tot' := m * ubs + (if r <=? 0 then 0 else r + iv_size + 16)) in *.
      replace (S m * ubs + (if r <=? 0 then 0 else r + iv_size + 16)) with (ubs + tot') in * by (unfold tot'; lia).
      destruct (Nat.eqb_spec (ubs + tot') 0); [lia|]. rewrite Nat.min_l by lia. unfold mac_size.
      replace (ubs - 16 - iv_size) with bs by lia. destruct (Nat.ltb_spec 0 bs); [|lia].
      rewrite (next_iv_nexti iv_size rnd iv_fuel k (le_nonzero _ _ _ _ _ HE k)). cbn [rbind].
      replace (ubs + tot' - ubs) with tot' by lia.
      unfold tot'. rewrite IH by (fold tot'; lia). reflexivity.
  Qed.

  Lemma lite_exec_ghost l : Forall (cvalid bs lite_max_blocks) l -> forall s t,
    let x := exec T l (s, t) in
    snd x = t ++ map (lrender (l_key s) (l_pad s)) (fst (ghost l (l_rng s))) /\
    l_rng (fst x) = snd (ghost l (l_rng s)) /\ l_key (fst x) = l_key s /\ l_pad (fst x) = l_pad s.
  Proof.
    induction 1 as [|c l Hc Hl IH]; intros s t; cbv zeta.
    - cbn [exec SecrecyProofs.ghost fst snd map]. rewrite app_nil_r. auto.
    - destruct c as [a e r d|n]; cbn [exec SecrecyProofs.ghost fst snd cvalid] in *.
      + destruct Hc as (H1 & H2 & H3 & H4). cbn [traced bk_write fst snd lite_backend]. unfold lite_write_multi, lite_on_write.
        rewrite lite_over_max_false by exact H2. rewrite lite_loop_ghost by (auto; lia). cbn [fst snd].
        destruct (IH (mkLite (arr_write (l_file s) (a * ubs + l_header s) (concat (map (lenc (l_key s) (l_pad s)) (fst (gblocks (e - a) r a d (l_rng s))))))
          (l_key s) (l_pad s) (snd (gblocks (e - a) r a d (l_rng s))))
          (t ++ [PWrite (a * ubs + l_header s) (concat (map (lenc (l_key s) (l_pad s)) (fst (gblocks (e - a) r a d (l_rng s)))))])) as (I1 & I2 & I3 & I4).
        cbn [l_key l_pad l_rng] in *. refine (conj _ (conj I2 (conj I3 I4))). etransitivity; [exact I1|]. rewrite <- app_assoc. reflexivity.
      + cbn [traced bk_adjust fst snd lite_backend]. unfold lite_adjust, lite_on_adjust. cbn [fst snd].
        match goal with |- context [(mkLite ?f (l_key s) (l_pad s) (l_rng s), ?t1)] => destruct (IH (mkLite f (l_key s) (l_pad s) (l_rng s)) t1) as (I1 & I2 & I3 & I4) end.
        cbn [l_key l_pad l_rng] in *. refine (conj _ (conj I2 (conj I3 I4))). etransitivity; [exact I1|]. rewrite <- app_assoc. reflexivity.
  Qed.
End LiteGhost.

(** All blocks of a write are whole, but for the last. *)
Fixpoint whole (bs : nat) (l : list ent) : Prop :=
  match l with
  | [] => True
  | e :: l' => match l' with [] => length (snd e) <= bs | _ :: _ => length (snd e) = bs /\ whole bs l' end
  end.
Lemma gblocks_whole bs iv_size rnd iv_fuel m r : r <= bs -> forall block input k, m * bs + r <= length input ->
  whole bs (fst (gblocks bs iv_size rnd iv_fuel m r block input k)).
Proof.
  intros Hr. induction m as [|m IH]; intros block input k H; cbn [gblocks].
  - destruct (r <=? 0); cbn [fst whole snd]; [exact I|]. rewrite firstn_length. lia.
  - cbn [fst whole snd]. specialize (IH (S block) (skipn bs input) (S (nexti iv_size rnd iv_fuel k)) ltac:(rewrite skipn_length; lia)).
    destruct (fst (gblocks _ _ _ _ _ _ _ _ _)); [rewrite firstn_length; lia|]. split; [rewrite firstn_length; lia|exact IH].
Qed.
Lemma ghost_whole bs iv_size rnd iv_fuel mx l : Forall (cvalid bs mx) l -> forall k, Forall (fun g => whole bs (gcall_ents g)) (fst (ghost bs iv_size rnd iv_fuel l k)).
Proof.
  induction 1 as [|c l Hc Hl IH]; intros k; [constructor|]. destruct c as [a e r d|n]; cbn [ghost fst snd cvalid] in *; constructor; auto; cbn [gcall_ents]; try exact I.
  apply gblocks_whole; lia.
Qed.

(** The encryptions of a history. *)
Fixpoint lghost (bs iv_size : nat) (sparse : bool) (rnd : nat -> nat -> bytes) (iv_fuel : nat) (c : bytes) (k : nat) (ops : list lop) : list gcall * nat :=
  match ops with
  | [] => ([], k)
  | LOp o :: l =>
      let x := ghost bs iv_size rnd iv_fuel (plan bs sparse c o) k in
      let y := lghost bs iv_size sparse rnd iv_fuel (fst (spec_step c o)) (snd x) l in
      (fst x ++ fst y, snd y)
  | LReopen :: l => lghost bs iv_size sparse rnd iv_fuel c k l
  end.
Definition ents (l : list gcall) : list ent := flat_map gcall_ents l.
Lemma ents_app a b : ents (a ++ b) = ents a ++ ents b.
Proof. apply flat_map_app. Qed.
Lemma lghost_rising bs iv_size sparse rnd iv_fuel ops : forall c k,
  rising k (draws (ents (fst (lghost bs iv_size sparse rnd iv_fuel c k ops)))) (snd (lghost bs iv_size sparse rnd iv_fuel c k ops)).
Proof.
  induction ops as [|[o|] ops IH]; intros c k; cbn [lghost fst snd]; [cbn; lia| |apply IH].
  rewrite ents_app. unfold draws. rewrite map_app. eapply rising_app; [exact (ghost_rising bs iv_size rnd iv_fuel (plan bs sparse c o) k)|apply IH].
Qed.
Lemma lghost_like bs iv_size sparse rnd iv_fuel ops1 ops2 : Forall2 lalike ops1 ops2 -> forall c1 c2 k, length c1 = length c2 ->
  Forall2 gcall_like (fst (lghost bs iv_size sparse rnd iv_fuel c1 k ops1)) (fst (lghost bs iv_size sparse rnd iv_fuel c2 k ops2)) /\
  snd (lghost bs iv_size sparse rnd iv_fuel c1 k ops1) = snd (lghost bs iv_size sparse rnd iv_fuel c2 k ops2).
Proof.
  induction 1 as [|o1 o2 ops1 ops2 Ho HF IH]; intros c1 c2 k Hc; [split; [constructor|reflexivity]|].
  destruct o1 as [o1|], o2 as [o2|]; cbn [lalike] in Ho; try discriminate Ho; cbn [lghost fst snd]; [|apply IH; exact Hc].
  destruct (ghost_like bs iv_size rnd iv_fuel _ _ (plan_shape bs sparse c1 c2 o1 o2 Hc Ho) k) as [G1 G2]. rewrite G2.
  destruct (IH _ _ (snd (ghost bs iv_size rnd iv_fuel (plan bs sparse c2 o2) k)) (alike_length _ _ _ _ Hc Ho)) as [I1 I2].
  split; [apply Forall2_app; assumption|exact I2].
Qed.

Section LiteHistory.
  Variable A : aead.
  Variable bs iv_size : nat.
  Variable check sparse : bool.
  Variable session_key : bytes -> bytes.
  Variable padding_of : bytes -> nat.
  Variable rnd : nat -> nat -> bytes.
  Variable iv_fuel : nat.
  Hypothesis HE : lite_env_ok A bs iv_size rnd iv_fuel.
  Notation B := (lite_backend A bs iv_size check sparse rnd iv_fuel).
  Notation LRep := (LRep A bs iv_size check session_key padding_of).
  Notation lstep := (lite_step A bs iv_size check sparse session_key padding_of rnd iv_fuel).
  Notation lghost := (lghost bs iv_size sparse rnd iv_fuel).
  Notation limit := (lite_max_blocks * bs).

  Lemma lite_history_ghost ops : forall s c, LRep s c -> length c <= limit -> Forall (lop_within limit) ops ->
    lite_history A bs iv_size check sparse session_key padding_of rnd iv_fuel s ops
      = map (lrender A bs iv_size rnd (l_key s) (l_pad s)) (fst (lghost c (l_rng s) ops)) /\
    l_rng (fst (run_ops lstep s ops)) = snd (lghost c (l_rng s) ops) /\
    Forall (fun g => whole bs (gcall_ents g)) (fst (lghost c (l_rng s) ops)).
  Proof.
    induction ops as [|o ops IH]; intros s c HR Hl Hall; [repeat split; constructor|].
    inversion Hall as [|? ? Ho Hops]; subst. cbn [lite_history run_ops]. destruct o as [o|]; cbn [lite_step lop_within] in *.
    - pose proof (lite_backend_ok A bs iv_size check sparse session_key padding_of rnd iv_fuel HE) as HB.
      assert (Hl' : length c <= bk_maxn B * bk_bs B) by (rewrite bk_maxn_lite; exact Hl).
      assert (Ho' : sop_within (bk_maxn B * bk_bs B) o) by (rewrite bk_maxn_lite; exact Ho).
      destruct (bb_step_ok B LRep HB s c o HR Hl' Ho') as (s1 & Hs & HR1 & Hl1). rewrite bk_maxn_lite in Hl1. cbn [bk_bs lite_backend] in Hl1.
      assert (HV : Forall (cvalid bs lite_max_blocks) (plan bs sparse c o)).
      { rewrite <- (bk_maxn_lite A bs iv_size check sparse rnd iv_fuel). exact (plan_valid B LRep HB c o Hl' Ho'). }
      destruct (lite_exec_ghost A bs iv_size check sparse rnd iv_fuel HE _ HV s []) as (G1 & G2 & G3 & G4).
      assert (EQ : fst (exec (traced B (lite_on_write A bs iv_size rnd iv_fuel) (lite_on_adjust bs iv_size)) (plan bs sparse c o) (s, [])) = s1).
      { etransitivity; [exact (exec_fst B phys _ _ LRep HB s c o HR Hl' Ho')|]. rewrite Hs. reflexivity. }
      pose proof (eq_trans (eq_sym (f_equal l_rng EQ)) G2) as G2'. pose proof (eq_trans (eq_sym (f_equal l_key EQ)) G3) as G3'. pose proof (eq_trans (eq_sym (f_equal l_pad EQ)) G4) as G4'.
      clear G2 G3 G4 EQ. rename G2' into G2, G3' into G3, G4' into G4.
      change (bk_bs B) with bs. change (bk_sparse B) with sparse. rewrite Hs.
      assert (G1' : lite_trace A bs iv_size check sparse rnd iv_fuel s o = map (lrender A bs iv_size rnd (l_key s) (l_pad s)) (fst (ghost bs iv_size rnd iv_fuel (plan bs sparse c o) (l_rng s)))).
      { etransitivity; [exact (trace_exec B phys _ _ LRep HB s c o HR Hl' Ho')|exact G1]. }
      rewrite G1'. cbn [fst snd app SecrecyProofs.lghost].
      destruct (IH s1 _ HR1 Hl1 Hops) as (I1 & I2 & I3). rewrite I1, G2, G3, G4, map_app. split; [reflexivity|].
      rewrite G2 in I2, I3. split.
      + destruct (run_ops lstep s1 ops) as [s2 rs] eqn:Er. exact I2.
      + apply Forall_app. split; [apply (ghost_whole _ _ _ _ _ _ HV)|exact I3].
    - destruct (lite_reopen A bs iv_size check session_key padding_of rnd iv_fuel HE s c (l_rng s) HR) as [E R]. rewrite E. cbn [fst snd app SecrecyProofs.lghost].
      destruct (IH _ c R Hl Hops) as (I1 & I2 & I3). cbn [l_key l_pad l_rng] in *. split; [exact I1|]. split; [|exact I3].
      destruct (run_ops lstep _ ops) as [s2 rs] eqn:Er. exact I2.
  Qed.
End LiteHistory.
