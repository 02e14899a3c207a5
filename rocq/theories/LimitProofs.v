(** Streams without the assumption that the operations stay below the largest size. *)
From Verif Require Import Base BaseLemmas StreamSpec BlockModel BlockProofs LiteModel LiteProofs FullStreamModel FullStreamProofs LimitSpec.
Local Open Scope list_scope.

Section Generic.
Variable B : backend.
Variable Rep : bk_state B -> bytes -> Prop.
Hypothesis HB : backend_ok B Rep.
Hypothesis Hread : forall s a b, a < b -> bk_maxn B < b -> bk_read B a b s = Err ETooLong.
Hypothesis Hwrite : forall s a e r d, bk_maxn B < e -> bk_write B a e r d s = (s, Err ETooLong).
Notation bs := (bk_bs B).
Notation limit := (bk_maxn B * bk_bs B).

Lemma read_over s off len : 0 < len -> limit < off + len -> bb_read B off len s = Err ETooLong.
Proof.
  intros H0 Hl. pose proof (bs_pos B Rep HB) as Hbs. unfold bb_read. destruct (Nat.leb_spec len 0) as [|_]; [lia|].
  destruct (divmod_spec B Rep HB off) as (q1 & r1 & Q1 & R1 & E1 & L1). rewrite Q1, R1.
  destruct (divmod_spec B Rep HB (off + len)) as (q2 & r2 & Q2 & R2 & E2 & L2). rewrite Q2, R2.
  destruct ((r1 =? 0) && (r2 =? 0)) eqn:E.
  - apply andb_prop in E as [Z1 Z2]. apply Nat.eqb_eq in Z1, Z2. apply Hread; nia.
  - rewrite Hread; [reflexivity| |]; destruct (Nat.ltb_spec 0 r2); cbn [b2nat]; nia.
Qed.

Lemma uwrite_over s c w off : Rep s c -> 0 < winput_len w -> limit < off + winput_len w ->
  bb_unchecked_write B w off s = (s, Err ETooLong).
Proof.
  intros HR H0 Hl. pose proof (bs_pos B Rep HB) as Hbs. unfold bb_unchecked_write. destruct (Nat.leb_spec (winput_len w) 0) as [|_]; [lia|].
  set (len := winput_len w) in *.
  destruct (divmod_spec B Rep HB off) as (q1 & r1 & Q1 & R1 & E1 & L1). rewrite Q1, R1.
  destruct (divmod_spec B Rep HB (off + len)) as (q2 & r2 & Q2 & R2 & E2 & L2). rewrite Q2, R2.
  destruct ((r1 =? 0) && (r2 =? 0)) eqn:E.
  - apply andb_prop in E as [Z1 Z2]. apply Nat.eqb_eq in Z1, Z2. destruct w; apply Hwrite; nia.
  - cbv zeta. set (buf0 := zeros _).
    assert (R : forall q, bk_read B q (q + 1) s = Err ETooLong \/ exists out, bk_read B q (q + 1) s = Ok out /\ q + 1 <= bk_maxn B).
    { intros q. destruct (Nat.le_gt_cases (q + 1) (bk_maxn B)) as [G|G]; [right|left; apply Hread; lia].
      eexists. split; [apply (ok_read _ _ HB s c q (q + 1) HR); lia|exact G]. }
    destruct ((0 <? r1) && (q1 <? q2)).
    + destruct (R q1) as [->|(out & -> & _)]; cbn [rmap]; [reflexivity|].
      destruct (Nat.ltb_spec 0 r2) as [P|P].
      * rewrite Hread by nia. reflexivity.
      * apply Hwrite. nia.
    + destruct (Nat.ltb_spec 0 r2) as [P|P].
      * rewrite Hread by nia. reflexivity.
      * apply Hwrite. nia.
Qed.

(** Resizing, also of and to sizes beyond the limit. *)
Lemma resize_ok s c new : Rep s c ->
  (new < length c -> new mod bs = 0 \/ new <= limit) ->
  (length c < new -> if bk_sparse B then length c < limit else new <= limit) ->
  exists s', bb_unchecked_resize B (length c) new s = (s', Ok tt) /\ Rep s' (arr_resize c new).
Proof.
  intros HR Hsh Hgr. unfold bb_unchecked_resize. pose proof (bs_pos B Rep HB) as Hbs.
  destruct (Nat.eqb_spec new (length c)) as [->|Hne].
  { exists s; split; [reflexivity|]. rewrite arr_resize_same; exact HR. }
  destruct (divmod_spec B Rep HB new) as (q & r & Q & R & E & L). rewrite Q, R in *. clear Q R.
  destruct (Nat.ltb_spec new (length c)) as [Hlt|Hge].
  - rewrite arr_resize_shrink by lia. specialize (Hsh Hlt).
    destruct (Nat.ltb_spec 0 r) as [Hr|Hr].
    + assert (Hm : q + 1 <= bk_maxn B) by (destruct Hsh; nia).
      rewrite (ok_read _ _ HB s c q (q + 1) HR) by lia. cbn [rmap].
      replace (q + 1 - q) with 1 by lia. rewrite Nat.mul_1_l.
      set (d := put_at (zeros bs) 0 (arr_read c (q * bs) bs)).
      assert (Hd : length d = bs).
      { unfold d. rewrite put_at_length; rewrite ?zeros_length, ?arr_read_length; lia. }
      destruct (ok_shrink _ _ HB s c q r d HR Hr L ltac:(lia) Hm ltac:(lia)) as (s1 & s2 & Hw & Ha & HR2).
      rewrite Hw. cbn [then_]. rewrite E. rewrite Ha.
      exists s2. split; [reflexivity|].
      match type of HR2 with Rep _ ?x => match goal with |- Rep _ ?y => replace y with x; [exact HR2|] end end.
      apply bytes_ext.
      * rewrite app_length, !firstn_length, Hd. lia.
      * intros i Hi. rewrite app_length, !firstn_length, Hd in Hi. unfold d.
        rewrite get_app, !get_firstn, firstn_length.
        replace (min (q * bs) (length c)) with (q * bs) by lia.
        destruct (Nat.ltb_spec i (q * bs)).
        { destruct (Nat.ltb_spec i (q * bs + r)); [reflexivity|lia]. }
        destruct (Nat.ltb_spec (i - q * bs) r); [|lia].
        destruct (Nat.ltb_spec i (q * bs + r)); [|lia].
        rewrite get_put_at by (rewrite zeros_length; lia). rewrite arr_read_length.
        cbn [Nat.leb andb]. destruct (Nat.ltb_spec (i - q * bs) (0 + min bs (length c - q * bs))); [|lia].
        rewrite get_arr_read. destruct (Nat.ltb_spec (i - q * bs - 0) bs); [|lia]. f_equal; lia.
    + cbn [then_]. replace new with (q * bs) by lia. apply (ok_truncate _ _ HB); [exact HR|lia].
  - destruct (divmod_spec B Rep HB (length c)) as (oq & or & Eoq & Eor & E' & L'). rewrite Eoq. clear Eor Eoq.
    assert (Hlt : length c < new) by lia. specialize (Hgr Hlt).
    rewrite arr_resize_grow by lia.
    destruct (negb (bk_sparse B) || (oq =? q)) eqn:Esp.
    + assert (Hn : new <= limit).
      { destruct (bk_sparse B); [|exact Hgr]. cbn [negb orb] in Esp. apply Nat.eqb_eq in Esp. subst oq.
        assert (q < bk_maxn B) by nia. nia. }
      unfold bb_zero_fill.
      destruct (bb_unchecked_write_ok B Rep HB s c (WZero (new - length c)) (length c) HR) as (s1 & Hw & HR1); try (cbn [winput_len]; lia).
      rewrite Hw. cbn [then_]. cbn [winput_bytes] in HR1. rewrite arr_write_app in HR1.
      destruct (ok_grow _ _ HB s1 _ new HR1) as (s2 & Ha & HR2).
      { rewrite app_length, zeros_length. lia. }
      { left. rewrite app_length, zeros_length. lia. }
      exists s2. split; [exact Ha|].
      rewrite app_length, zeros_length in HR2.
      replace (new - (length c + (new - length c))) with 0 in HR2 by lia.
      cbn [zeros repeat] in HR2. rewrite app_nil_r in HR2. exact HR2.
    + apply orb_false_elim in Esp as [Es Esp]. apply Nat.eqb_neq in Esp.
      destruct (bk_sparse B); [|discriminate Es].
      assert (Hoq : oq < q) by nia.
      assert (Hle : oq * bs + bs <= q * bs) by nia.
      assert (Hom : oq < bk_maxn B) by nia.
      assert (Hol : oq * bs + bs <= limit) by nia.
      unfold bb_zero_fill.
      destruct (bb_unchecked_write_ok B Rep HB s c (WZero (oq * bs + bs - length c)) (length c) HR) as (s1 & Hw & HR1); try (cbn [winput_len]; lia).
      rewrite Hw. cbn [then_]. cbn [winput_bytes] in HR1. rewrite arr_write_app in HR1.
      destruct (ok_grow _ _ HB s1 _ new HR1) as (s2 & Ha & HR2).
      { rewrite app_length, zeros_length. lia. }
      { right. exists (oq + 1). rewrite app_length, zeros_length. lia. }
      exists s2. split; [exact Ha|].
      rewrite app_length, zeros_length, <- app_assoc, zeros_app in HR2.
      replace (oq * bs + bs - length c + (new - (length c + (oq * bs + bs - length c)))) with (new - length c) in HR2 by lia.
      exact HR2.
Qed.

Lemma resize_total s c new : Rep s c ->
  exists s' r, bb_unchecked_resize B (length c) new s = (s', r) /\
    Rep s' (fst (lim_resize (bk_sparse B) bs limit c new)) /\ res_out r = snd (lim_resize (bk_sparse B) bs limit c new).
Proof.
  intros HR. pose proof (bs_pos B Rep HB) as Hbs. unfold lim_resize.
  destruct (Nat.eqb_spec new (length c)) as [->|Hne].
  { exists s, (Ok tt). unfold bb_unchecked_resize. rewrite Nat.eqb_refl. auto. }
  destruct (Nat.ltb_spec new (length c)) as [Hlt|Hge].
  - destruct ((limit <? new) && negb (new mod bs =? 0)) eqn:E.
    + apply andb_prop in E as [E1 E2]. apply Nat.ltb_lt in E1. apply negb_true_iff, Nat.eqb_neq in E2.
      exists s, (Err ETooLong). split; [|auto]. unfold bb_unchecked_resize.
      destruct (Nat.eqb_spec new (length c)); [contradiction|]. destruct (Nat.ltb_spec new (length c)); [|lia]. cbv zeta.
      destruct (divmod_spec B Rep HB new) as (q & r & Q & R & E & L). rewrite Q, R in *.
      destruct (Nat.ltb_spec 0 r) as [P|P]; [|lia]. rewrite Hread by nia. reflexivity.
    + destruct (resize_ok s c new HR) as (s' & E' & HR').
      * intros _. apply andb_false_iff in E as [E|E]; [right; apply Nat.ltb_ge in E; exact E|left].
        apply negb_false_iff, Nat.eqb_eq in E. exact E.
      * lia.
      * exists s', (Ok tt). split; [exact E'|]. rewrite arr_resize_shrink in HR' by lia. auto.
  - destruct (if bk_sparse B then limit <=? length c else limit <? new) eqn:E.
    + exists s, (Err ETooLong). split; [|auto]. unfold bb_unchecked_resize.
      destruct (Nat.eqb_spec new (length c)); [contradiction|]. destruct (Nat.ltb_spec new (length c)); [lia|]. cbv zeta.
      destruct (divmod_spec B Rep HB new) as (q & r & Q & R & E1 & L1). rewrite Q.
      destruct (divmod_spec B Rep HB (length c)) as (oq & or & OQ & OR & E2 & L2). rewrite OQ. unfold bb_zero_fill.
      destruct (bk_sparse B); cbn [negb orb].
      * apply Nat.leb_le in E. destruct (oq =? q); rewrite (uwrite_over s c) by (try exact HR; cbn [winput_len]; nia); reflexivity.
      * apply Nat.ltb_lt in E. rewrite (uwrite_over s c) by (try exact HR; cbn [winput_len]; lia). reflexivity.
    + destruct (resize_ok s c new HR) as (s' & E' & HR').
      * lia.
      * intros _. destruct (bk_sparse B); [apply Nat.leb_gt in E; exact E|apply Nat.ltb_ge in E; exact E].
      * exists s', (Ok tt). auto.
Qed.

Lemma step_total s c o : Rep s c ->
  snd (bb_step B s o) = snd (lim_step (bk_sparse B) bs limit c o) /\
  Rep (fst (bb_step B s o)) (fst (lim_step (bk_sparse B) bs limit c o)).
Proof.
  intros HR. destruct o as [off len|off d|n|]; cbn [bb_step lim_step].
  - cbn [fst snd]. split; [|exact HR]. destruct ((0 <? len) && (limit <? off + len)) eqn:E.
    + apply andb_prop in E as [E1 E2]. apply Nat.ltb_lt in E1, E2. rewrite read_over by assumption. reflexivity.
    + apply andb_false_iff in E as [E|E]; apply Nat.ltb_ge in E.
      * assert (len = 0) as -> by lia. cbn. reflexivity.
      * rewrite (bb_read_ok B Rep HB s c off len HR E). reflexivity.
  - unfold bb_write. destruct (Nat.leb_spec (length d) 0) as [Z|Z].
    { destruct (Nat.eqb_spec (length d) 0); [|lia]. auto. }
    destruct (Nat.eqb_spec (length d) 0); [lia|]. rewrite (ok_size _ _ HB _ _ HR).
    assert (T : forall s1 c1, Rep s1 c1 -> off <= length c1 ->
      snd (let '(s', r) := bb_unchecked_write B (WData d) off s1 in (s', res_out r))
      = snd (if limit <? off + length d then (c1, OFail ETooLong) else (arr_write c1 off d, ODone)) /\
      Rep (fst (let '(s', r) := bb_unchecked_write B (WData d) off s1 in (s', res_out r)))
          (fst (if limit <? off + length d then (c1, OFail ETooLong) else (arr_write c1 off d, ODone)))).
    { intros s1 c1 HR1 Ho. destruct (Nat.ltb_spec limit (off + length d)) as [P|P].
      - rewrite (uwrite_over s1 c1) by (try exact HR1; cbn [winput_len]; lia). auto.
      - destruct (bb_unchecked_write_ok B Rep HB s1 c1 (WData d) off HR1 Ho P ltac:(discriminate)) as (s2 & -> & HR2). auto. }
    destruct (Nat.ltb_spec (length c) off) as [Hlt|Hge].
    + destruct (resize_total s c off HR) as (s1 & r & E & HR1 & Er). rewrite E.
      assert (L : snd (lim_resize (bk_sparse B) bs limit c off) = ODone -> off <= length (fst (lim_resize (bk_sparse B) bs limit c off))).
      { unfold lim_resize. destruct (off =? length c) eqn:Q; [apply Nat.eqb_eq in Q; lia|]. destruct (Nat.ltb_spec off (length c)); [lia|].
        destruct (if bk_sparse B then _ else _); [discriminate|]. cbn [fst]. rewrite arr_resize_length. lia. }
      destruct (lim_resize (bk_sparse B) bs limit c off) as [c1 r1]. cbn [fst snd] in *. subst r1.
      destruct r as [[]|e]; cbn [then_ res_out] in *; [|auto]. apply T; [exact HR1|apply L; reflexivity].
    + cbn [then_]. apply T; assumption.
  - unfold bb_resize. rewrite (ok_size _ _ HB _ _ HR). destruct (resize_total s c n HR) as (s1 & r & E & HR1 & Er). rewrite E. cbn [fst snd]. auto.
  - cbn [fst snd]. rewrite (ok_size _ _ HB _ _ HR). auto.
Qed.
End Generic.

(** A failed step. *)
Lemma lim_fails sparse bs M c o e : snd (lim_step sparse bs M c o) = OFail e ->
  e = ETooLong /\ exists l, leftover o l /\ fst (lim_step sparse bs M c o) = fst (run_ops (lim_step sparse bs M) c l).
Proof.
  assert (R : forall n e', snd (lim_resize sparse bs M c n) = OFail e' -> e' = ETooLong /\ fst (lim_resize sparse bs M c n) = c).
  { intros n e'. unfold lim_resize. destruct (n =? length c); [discriminate|].
    destruct (n <? length c); [destruct (_ && _)|destruct (if sparse then _ else _)]; cbn [fst snd]; try discriminate; intros [= <-]; auto. }
  destruct o as [off len|off d|n|]; cbn [lim_step].
  - destruct (_ && _); cbn [fst snd]; [|discriminate]. intros [= <-]. split; [reflexivity|]. exists []. split; [left; reflexivity|reflexivity].
  - destruct (length d =? 0); [discriminate|]. destruct (length c <? off).
    + intros H.
      assert (G : fst (run_ops (lim_step sparse bs M) c [SResize off]) = fst (lim_resize sparse bs M c off)).
      { cbn [run_ops lim_step]. destruct (lim_resize sparse bs M c off). reflexivity. }
      assert (e = ETooLong /\ fst (match lim_resize sparse bs M c off with
        | (c1, OFail e0) => (c1, OFail e0)
        | (c1, _) => if M <? off + length d then (c1, OFail ETooLong) else (arr_write c1 off d, ODone) end) = fst (lim_resize sparse bs M c off)) as [-> E].
      { specialize (R off). destruct (lim_resize sparse bs M c off) as [c1 r]. cbn [fst snd] in *.
        destruct r as [x| |x|e0]; try (destruct (M <? off + length d); cbn [fst snd] in *; [injection H as <-; auto|discriminate H]).
        cbn [fst snd] in *. injection H as ->. destruct (R e eq_refl) as [-> ->]. auto. }
      split; [reflexivity|]. exists [SResize off]. split; [right; exists off, d; auto|]. rewrite E, G. reflexivity.
    + destruct (M <? off + length d); [|discriminate]. intros [= <-]. split; [reflexivity|]. exists []. split; [left; reflexivity|reflexivity].
  - intros H. destruct (R n e H) as [-> E]. split; [reflexivity|]. exists []. split; [left; reflexivity|]. rewrite E. reflexivity.
  - discriminate.
Qed.

Section Formats.
Lemma lite_over b : lite_max_blocks < b -> over_max lite_max_blocks_N b = true.
Proof. intros H. destruct (over_max lite_max_blocks_N b) eqn:E; [reflexivity|]. apply lite_over_max_inv in E. lia. Qed.
Lemma full_over b : full_max_blocks < b -> over_max full_max_blocks_N b = true.
Proof. intros H. destruct (over_max full_max_blocks_N b) eqn:E; [reflexivity|]. apply full_over_max_inv in E. lia. Qed.

Section LiteLimit.
Variable A : aead.
Variable bs iv_size : nat.
Variable check sparse : bool.
Variable session_key : bytes -> bytes.
Variable padding_of : bytes -> nat.
Variable rnd : nat -> nat -> bytes.
Variable iv_fuel : nat.
Hypothesis HE : lite_env_ok A bs iv_size rnd iv_fuel.
Local Notation LRep := (LRep A bs iv_size check session_key padding_of).
Local Notation step := (lite_step A bs iv_size check sparse session_key padding_of rnd iv_fuel).
Local Notation spec := (lim_lite sparse bs (lite_max_blocks * bs)).

Lemma lite_read_over s a b : lite_max_blocks < b -> lite_read_multi A bs iv_size check a b s = Err ETooLong.
Proof. intros H. unfold lite_read_multi. rewrite lite_over by exact H. reflexivity. Qed.
Lemma lite_write_over s a e r d : lite_max_blocks < e -> lite_write_multi A bs iv_size rnd iv_fuel a e r d s = (s, Err ETooLong).
Proof. intros H. unfold lite_write_multi. rewrite lite_over by exact H. reflexivity. Qed.

Lemma lite_total s c o : LRep s c -> snd (step s o) = snd (spec c o) /\ LRep (fst (step s o)) (fst (spec c o)).
Proof.
  intros HR. destruct o as [o|]; cbn [lite_step lim_lite].
  - pose proof (step_total (lite_backend A bs iv_size check sparse rnd iv_fuel) LRep
      (lite_backend_ok A bs iv_size check sparse session_key padding_of rnd iv_fuel HE)) as T.
    rewrite bk_maxn_lite in T.
    specialize (T (fun s0 a b _ Hb => lite_read_over s0 a b Hb) lite_write_over s c o HR).
    cbn [lite_backend bk_bs bk_sparse] in T.
    destruct (bb_step (lite_backend A bs iv_size check sparse rnd iv_fuel) s o) as [s1 r1]. destruct (lim_step _ _ _ c o) as [c1 r2]. cbn [fst snd] in *. destruct T as [-> T]. auto.
  - destruct (lite_reopen A bs iv_size check session_key padding_of rnd iv_fuel HE s c (l_rng s) HR) as [Ho HR1]. rewrite Ho. auto.
Qed.
Lemma lite_run_total ops : forall s c, LRep s c ->
  snd (run_ops step s ops) = snd (run_ops spec c ops) /\ LRep (fst (run_ops step s ops)) (fst (run_ops spec c ops)).
Proof.
  induction ops as [|o ops IH]; intros s c HR; [auto|]. cbn [run_ops]. destruct (lite_total s c o HR) as [E HR1].
  destruct (step s o) as [s1 r]. destruct (spec c o) as [c1 r']. cbn [fst snd] in *. subst r'.
  destruct (IH s1 c1 HR1) as [E2 HR2]. destruct (run_ops step s1 ops). destruct (run_ops spec c1 ops). cbn [fst snd] in *. split; [congruence|exact HR2].
Qed.
End LiteLimit.

Section FullLimit.
Variable A : aead.
Variable hmac : bytes -> bytes -> bytes.
Variable dkey mkey id : bytes.
Variable bs iv_size header_size : nat.
Variable check sparse : bool.
Variable rnd : nat -> nat -> bytes.
Variable iv_fuel : nat.
Hypothesis HE : full_env_ok A hmac bs iv_size rnd iv_fuel.
Local Notation FRep := (FRep A hmac dkey mkey id bs iv_size header_size).
Local Notation step := (full_step A hmac dkey mkey id bs iv_size header_size check sparse rnd iv_fuel).
Local Notation spec := (lim_full sparse bs (full_max_blocks * bs) header_size).

Lemma full_read_over s a b : a < b -> full_max_blocks < b -> full_read_multi A dkey id bs iv_size header_size check a b s = Err ETooLong.
Proof. intros H0 H. unfold full_read_multi. destruct (Nat.eqb_spec a b); [lia|]. rewrite full_over by exact H. reflexivity. Qed.
Lemma full_write_over s a e r d : full_max_blocks < e -> full_write_multi A dkey id bs iv_size header_size rnd iv_fuel a e r d s = (s, Err ETooLong).
Proof. intros H. unfold full_write_multi. rewrite full_over by exact H. reflexivity. Qed.

Lemma full_total h s c o : FRep h s c -> header_within header_size o ->
  fout_ok (snd (spec (c, h) o)) (snd (step s o)) /\ FRep (snd (fst (spec (c, h) o))) (fst (step s o)) (fst (fst (spec (c, h) o))).
Proof.
  intros HR Ho. destruct o as [o|w|len| |]; cbn [full_step lim_full fspec_step header_within fst snd] in *.
  - pose proof (step_total (full_backend A dkey id bs iv_size header_size check sparse rnd iv_fuel) (FRep h)
      (full_backend_ok A hmac dkey mkey id bs iv_size header_size check sparse rnd iv_fuel HE h)) as T.
    rewrite bk_maxn_full in T. specialize (T full_read_over full_write_over s c o HR). cbn [full_backend bk_bs bk_sparse] in T.
    destruct (bb_step (full_backend A dkey id bs iv_size header_size check sparse rnd iv_fuel) s o) as [s1 r1]. destruct (lim_step _ _ _ c o) as [c1 r2]. cbn [fst snd] in *. destruct T as [-> T]. split; [right; reflexivity|exact T].
  - destruct (full_write_header_ok A hmac dkey mkey id bs iv_size header_size rnd iv_fuel HE h w s c HR Ho) as (s1 & -> & HR1).
    cbn [fst snd]. split; [right; reflexivity|exact HR1].
  - split; [|exact HR]. destruct h as [p|]; [|left; reflexivity].
    rewrite (full_read_header_ok A hmac dkey mkey id bs iv_size header_size p len s c HR Ho). right; reflexivity.
  - destruct (full_flush_ok A hmac dkey mkey id bs iv_size header_size rnd iv_fuel HE h s c HR) as (s1 & -> & HR1 & _).
    split; [right; reflexivity|exact HR1].
  - destruct (full_flush_ok A hmac dkey mkey id bs iv_size header_size rnd iv_fuel HE h s c HR) as (s1 & -> & HR1 & Hd1).
    cbn [fst snd]. rewrite (full_open_ok A hmac dkey mkey id bs iv_size header_size check h s1 c (f_rng s1) HR1 Hd1). cbn [fst snd].
    split; [right; reflexivity|]. rewrite <- Hd1. apply FRep_rng. exact HR1.
Qed.
Lemma full_run_total ops : forall st s, FRep (snd st) s (fst st) -> Forall (header_within header_size) ops ->
  Forall2 fout_ok (snd (run_ops spec st ops)) (snd (run_ops step s ops)) /\
  FRep (snd (fst (run_ops spec st ops))) (fst (run_ops step s ops)) (fst (fst (run_ops spec st ops))).
Proof.
  induction ops as [|o ops IH]; intros [c h] s HR Hall; [split; [constructor|exact HR]|].
  inversion Hall as [|? ? Ho Hops]; subst. destruct (full_total h s c o HR Ho) as [E HR1]. cbn [run_ops].
  destruct (step s o) as [s1 r]. destruct (spec (c, h) o) as [st1 r']. cbn [fst snd] in *.
  destruct (IH st1 s1 HR1 Hops) as [E2 HR2]. destruct (run_ops step s1 ops). destruct (run_ops spec st1 ops). cbn [fst snd] in *. auto.
Qed.
End FullLimit.
End Formats.

(** Histories with a failing call. *)
Lemma skipn_past {T} (l1 l2 : list T) k : skipn (length l1 + k) (l1 ++ l2) = skipn k l2.
Proof. induction l1; [reflexivity|exact IHl1]. Qed.
Lemma run_split {S O R} (step : S -> O -> S * R) l1 : forall s l2,
  snd (run_ops step s (l1 ++ l2)) = snd (run_ops step s l1) ++ snd (run_ops step (fst (run_ops step s l1)) l2) /\
  fst (run_ops step s (l1 ++ l2)) = fst (run_ops step (fst (run_ops step s l1)) l2) /\
  length (snd (run_ops step s l1)) = length l1.
Proof.
  induction l1 as [|o l1 IH]; intros s l2; [auto|]. cbn [app run_ops]. destruct (step s o) as [s1 r].
  destruct (IH s1 l2) as (E1 & E2 & E3). destruct (run_ops step s1 (l1 ++ l2)). destruct (run_ops step s1 l1).
  cbn [fst snd length] in *. rewrite E1, E2, E3. auto.
Qed.
Lemma run_after {S O R} (step : S -> O -> S * R) s l1 l2 l3 :
  skipn (length l1 + length l2) (snd (run_ops step s (l1 ++ l2 ++ l3)))
  = snd (run_ops step (fst (run_ops step (fst (run_ops step s l1)) l2)) l3).
Proof.
  destruct (run_split step l1 s (l2 ++ l3)) as (E1 & _ & E3). rewrite E1, <- E3, skipn_past.
  destruct (run_split step l2 (fst (run_ops step s l1)) l3) as (F1 & _ & F3). rewrite F1.
  rewrite <- F3. replace (length (snd (run_ops step (fst (run_ops step s l1)) l2))) with (length (snd (run_ops step (fst (run_ops step s l1)) l2)) + 0) by lia.
  rewrite skipn_past. reflexivity.
Qed.
Lemma run_at {S O R} (step : S -> O -> S * R) s l1 o l2 r :
  nth_error (snd (run_ops step s (l1 ++ o :: l2))) (length l1) = Some r ->
  r = snd (step (fst (run_ops step s l1)) o) /\
  skipn (length l1 + 1) (snd (run_ops step s (l1 ++ o :: l2)))
  = snd (run_ops step (fst (step (fst (run_ops step s l1)) o)) l2).
Proof.
  intros H. split.
  - destruct (run_split step l1 s (o :: l2)) as (E1 & _ & E3). rewrite E1, <- E3 in H.
    rewrite nth_error_app2 in H by lia. rewrite Nat.sub_diag in H. cbn [run_ops] in H.
    destruct (step (fst (run_ops step s l1)) o) as [s1 r1]. destruct (run_ops step s1 l2). cbn in H. injection H as <-. reflexivity.
  - change (o :: l2) with ([o] ++ l2). change 1 with (length [o]). rewrite run_after. cbn [run_ops]. destruct (step _ o). reflexivity.
Qed.

Lemma lite_ops sparse bs M l : forall c,
  fst (run_ops (lim_lite sparse bs M) c (map LOp l)) = fst (run_ops (lim_step sparse bs M) c l).
Proof.
  induction l as [|o l IH]; intros c; [reflexivity|]. cbn [map run_ops lim_lite]. destruct (lim_step sparse bs M c o) as [c1 r].
  specialize (IH c1). destruct (run_ops (lim_lite sparse bs M) c1 (map LOp l)). destruct (run_ops (lim_step sparse bs M) c1 l). exact IH.
Qed.
Lemma full_ops sparse bs M hs l : forall c h,
  fst (run_ops (lim_full sparse bs M hs) (c, h) (map FOp l)) = (fst (run_ops (lim_step sparse bs M) c l), h).
Proof.
  induction l as [|o l IH]; intros c h; [reflexivity|]. cbn [map run_ops lim_full fst snd]. destruct (lim_step sparse bs M c o) as [c1 r].
  specialize (IH c1 h). destruct (run_ops (lim_full sparse bs M hs) (c1, h) (map FOp l)). destruct (run_ops (lim_step sparse bs M) c1 l). exact IH.
Qed.

Lemma lim_history sparse bs M l1 o l2 c e :
  let outs ops := snd (run_ops (lim_lite sparse bs M) c ops) in
  nth_error (outs (l1 ++ LOp o :: l2)) (length l1) = Some (LOut (OFail e)) ->
  e = ETooLong /\ exists l, leftover o l /\
    skipn (length l1 + 1) (outs (l1 ++ LOp o :: l2)) = skipn (length l1 + length l) (outs (l1 ++ map LOp l ++ l2)).
Proof.
  intros outs H. apply run_at in H as [H E]. set (c1 := fst (run_ops (lim_lite sparse bs M) c l1)) in *.
  assert (S : lim_lite sparse bs M c1 (LOp o) = (fst (lim_step sparse bs M c1 o), LOut (snd (lim_step sparse bs M c1 o))))
    by (cbn [lim_lite]; destruct (lim_step sparse bs M c1 o); reflexivity).
  rewrite S in H, E. cbn [fst snd] in H, E. injection H as H. symmetry in H.
  destruct (lim_fails _ _ _ _ _ _ H) as (-> & l & Hl & El). split; [reflexivity|]. exists l. split; [exact Hl|].
  unfold outs at 1. rewrite E, El. unfold outs. rewrite <- (map_length LOp l), run_after, lite_ops. reflexivity.
Qed.
Lemma lim_full_history sparse bs M hs l1 o l2 st e :
  let outs ops := snd (run_ops (lim_full sparse bs M hs) st ops) in
  nth_error (outs (l1 ++ FOp o :: l2)) (length l1) = Some (FOut (OFail e)) ->
  e = ETooLong /\ exists l, leftover o l /\
    skipn (length l1 + 1) (outs (l1 ++ FOp o :: l2)) = skipn (length l1 + length l) (outs (l1 ++ map FOp l ++ l2)).
Proof.
  intros outs H. apply run_at in H as [H E]. set (st1 := fst (run_ops (lim_full sparse bs M hs) st l1)) in *.
  assert (S : lim_full sparse bs M hs st1 (FOp o) = ((fst (lim_step sparse bs M (fst st1) o), snd st1), FOut (snd (lim_step sparse bs M (fst st1) o))))
    by (cbn [lim_full]; destruct (lim_step sparse bs M (fst st1) o); reflexivity).
  rewrite S in H, E. cbn [fst snd] in H, E. injection H as H. symmetry in H.
  destruct (lim_fails _ _ _ _ _ _ H) as (-> & l & Hl & El). split; [reflexivity|]. exists l. split; [exact Hl|].
  unfold outs at 1. rewrite E, El. unfold outs. rewrite <- (map_length FOp l), run_after. fold st1.
  clearbody st1. destruct st1 as [c1 h1]. rewrite full_ops. reflexivity.
Qed.
Lemma full_op_not_any sparse bs M hs l1 o l2 st :
  nth_error (snd (run_ops (lim_full sparse bs M hs) st (l1 ++ FOp o :: l2))) (length l1) = Some FAny -> False.
Proof.
  intros H. apply run_at in H as [H _]. cbn [lim_full] in H. destruct (lim_step _ _ _ _ o). discriminate H.
Qed.
Lemma full_nth {X Y} (R : X -> Y -> Prop) l1 l2 k y : Forall2 R l1 l2 -> nth_error l2 k = Some y -> exists x, nth_error l1 k = Some x /\ R x y.
Proof.
  intros F. revert k. induction F as [|a b l1 l2 H F IH]; intros [|k] E; try discriminate E; cbn [nth_error] in *; [injection E as <-; eauto|auto].
Qed.
Lemma Forall2_skipn {X Y} (R : X -> Y -> Prop) l1 l2 : Forall2 R l1 l2 -> forall k, Forall2 R (skipn k l1) (skipn k l2).
Proof. induction 1; intros [|k]; cbn [skipn]; auto. Qed.

(** Three short histories. *)
Ltac tests := repeat match goal with
  | |- context [?a =? ?b] => destruct (Nat.eqb_spec a b); try (exfalso; lia)
  | |- context [?a <? ?b] => destruct (Nat.ltb_spec a b); try (exfalso; lia)
  | |- context [?a <=? ?b] => destruct (Nat.leb_spec a b); try (exfalso; lia)
  end; cbn [andb negb].

Lemma lim_write_extends sparse bs M : 0 < M ->
  snd (run_ops (lim_lite sparse bs M) [] [LOp SSize; LOp (SWrite M [x61]); LOp SSize])
  = [LOut (OSize 0); LOut (OFail ETooLong); LOut (OSize M)].
Proof.
  intros H. cbn [run_ops lim_lite lim_step length]. unfold lim_resize. cbn [length].
  destruct sparse; tests; cbn [snd]; rewrite arr_resize_length; reflexivity.
Qed.
Lemma lim_beyond bs M : 0 < M -> (M + 4) mod bs <> 0 ->
  snd (run_ops (lim_lite true bs M) []
    [LOp (SResize (M + 5)); LOp SSize; LOp (SRead M 5); LOp (SResize (M + 6)); LOp (SResize (M + 4)); LOp (SResize 0)])
  = [LOut ODone; LOut (OSize (M + 5)); LOut (OFail ETooLong); LOut (OFail ETooLong); LOut (OFail ETooLong); LOut ODone].
Proof.
  intros H Hm.
  assert (E1 : lim_resize true bs M [] (M + 5) = (arr_resize [] (M + 5), ODone)) by (unfold lim_resize; cbn [length]; tests; reflexivity).
  pose proof (arr_resize_length [] (M + 5)) as L. set (c := arr_resize [] (M + 5)) in *.
  assert (E2 : lim_resize true bs M c (M + 6) = (c, OFail ETooLong)) by (unfold lim_resize; rewrite L; tests; reflexivity).
  assert (E3 : lim_resize true bs M c (M + 4) = (c, OFail ETooLong)).
  { unfold lim_resize; rewrite L. destruct (Nat.eqb_spec ((M + 4) mod bs) 0); [contradiction|]. tests; reflexivity. }
  assert (E4 : lim_resize true bs M c 0 = ([], ODone)) by (unfold lim_resize; rewrite L; tests; reflexivity).
  cbn [run_ops lim_lite lim_step]. rewrite E1, E2, E3, E4, L. tests. reflexivity.
Qed.
Lemma lim_read_past sparse bs M : 0 < M ->
  snd (run_ops (lim_lite sparse bs M) [] [LOp (SWrite 0 [x61]); LOp (SRead 0 M); LOp (SRead 0 (M + 1)); LOp (SRead M 1)])
  = [LOut ODone; LOut (OData [x61]); LOut (OFail ETooLong); LOut (OFail ETooLong)].
Proof.
  intros H. cbn [run_ops lim_lite lim_step length]. tests. cbn [snd].
  change (arr_write [] 0 [x61]) with [x61]. unfold arr_read. cbn [skipn]. rewrite firstn_all2 by (cbn [length]; lia). reflexivity.
Qed.
