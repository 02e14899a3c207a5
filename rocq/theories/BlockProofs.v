(** [BlockBasedStream] refines the byte array, for any backend that meets a
    block-level contract. *)
From Verif Require Import Base BaseLemmas StreamSpec BlockModel.

(** Contract of a backend: [Rep s c] says that state [s] stores content [c]. *)
Record backend_ok (B : backend) (Rep : bk_state B -> bytes -> Prop) : Prop := {
  ok_bs : 0 < bk_bs B;
  ok_size : forall s c, Rep s c -> bk_size B s = length c;
  ok_read : forall s c a b, Rep s c -> a <= b -> b <= bk_maxn B ->
    bk_read B a b s = Ok (arr_read c (a * bk_bs B) ((b - a) * bk_bs B));
  (* overwrite whole blocks [a,e) and, if r > 0, all of the last block e *)
  ok_write : forall s c a e r d, Rep s c -> a <= e -> r <= bk_bs B ->
    e * bk_bs B + r <= bk_maxn B * bk_bs B ->
    (e - a) * bk_bs B + r <= length d -> a * bk_bs B <= length c ->
    (r = 0 \/ min (length c) (e * bk_bs B + bk_bs B) <= e * bk_bs B + r) ->
    0 < (e - a) * bk_bs B + r ->
    exists s', bk_write B a e r d s = (s', Ok tt) /\
      Rep s' (arr_write c (a * bk_bs B) (firstn ((e - a) * bk_bs B + r) d));
  (* rewrite the last block short, then cut *)
  ok_shrink : forall s c e r d, Rep s c -> 0 < r -> r < bk_bs B ->
    e * bk_bs B + r < length c -> e + 1 <= bk_maxn B -> r <= length d ->
    exists s1 s2, bk_write B e e r d s = (s1, Ok tt) /\
      bk_adjust B (e * bk_bs B + r) s1 = (s2, Ok tt) /\
      Rep s2 (firstn (e * bk_bs B) c ++ firstn r d);
  ok_truncate : forall s c e, Rep s c -> e * bk_bs B <= length c ->
    exists s', bk_adjust B (e * bk_bs B) s = (s', Ok tt) /\ Rep s' (firstn (e * bk_bs B) c);
  ok_grow : forall s c n, Rep s c -> length c <= n ->
    (length c = n \/ exists q, length c = q * bk_bs B) ->
    exists s', bk_adjust B n s = (s', Ok tt) /\ Rep s' (c ++ zeros (n - length c))
}.

Lemma over_max_false max b : b <= N.to_nat max -> over_max max b = false.
Proof. intros H. unfold over_max. apply N.ltb_ge. lia. Qed.

(** An invariant kept by the virtual methods is kept by the whole stream. *)
Section BlockInv.
  Variable B : backend.
  Variable I : bk_state B -> Prop.
  Hypothesis Hw : forall a e r d s, I s -> I (fst (bk_write B a e r d s)).
  Hypothesis Ha : forall n s, I s -> I (fst (bk_adjust B n s)).

  Lemma bb_unchecked_write_inv w off s : I s -> I (fst (bb_unchecked_write B w off s)).
  Proof.
    intros H. unfold bb_unchecked_write.
    destruct (winput_len w <=? 0); [exact H|].
    destruct (_ && _); [destruct w; apply Hw; exact H|].
    match goal with |- I (fst (match ?x with _ => _ end)) => destruct x as [b1|] end; [|exact H].
    match goal with |- I (fst (match ?x with _ => _ end)) => destruct x as [[b2 k]|] end; [|exact H].
    apply Hw; exact H.
  Qed.

  Lemma then_inv x k : I (fst x) -> (forall s, I s -> I (fst (k s))) -> I (fst (then_ B x k)).
  Proof. destruct x as [s [[]|e]]; cbn; intros H Hk; [apply Hk; exact H|exact H]. Qed.

  Lemma bb_unchecked_resize_inv cur new s : I s -> I (fst (bb_unchecked_resize B cur new s)).
  Proof.
    intros H. unfold bb_unchecked_resize, bb_zero_fill.
    destruct (new =? cur); [exact H|]. destruct (new <? cur).
    - apply then_inv; [|intros; apply Ha; assumption].
      destruct (0 <? new mod bk_bs B); [|exact H].
      destruct (rmap _ _); [apply Hw; exact H|exact H].
    - apply then_inv; [|intros; apply Ha; assumption].
      destruct (_ || _); apply bb_unchecked_write_inv; exact H.
  Qed.

  Lemma bb_step_inv s o : I s -> I (fst (bb_step B s o)).
  Proof.
    intros H. destruct o; cbn [bb_step].
    - exact H.
    - assert (HH : I (fst (bb_write B off data s))).
      { unfold bb_write. destruct (length data <=? 0); [exact H|].
        apply then_inv; [|intros; apply bb_unchecked_write_inv; assumption].
        destruct (bk_size B s <? off); [apply bb_unchecked_resize_inv|]; exact H. }
      destruct (bb_write B off data s); exact HH.
    - pose proof (bb_unchecked_resize_inv (bk_size B s) n s H) as HH. unfold bb_resize.
      destruct (bb_unchecked_resize B (bk_size B s) n s); exact HH.
    - exact H.
  Qed.
End BlockInv.

Section BlockProofs.
  Variable B : backend.
  Variable Rep : bk_state B -> bytes -> Prop.
  Hypothesis HB : backend_ok B Rep.
  Notation bs := (bk_bs B).
  Notation limit := (bk_maxn B * bk_bs B).

  Lemma bs_pos : 0 < bs.
  Proof. exact (ok_bs _ _ HB). Qed.

  (** Division facts for an offset. *)
  Lemma divmod_spec x : exists q r, x / bs = q /\ x mod bs = r /\ x = q * bs + r /\ r < bs.
  Proof.
    pose proof bs_pos as Hbs.
    exists (x / bs), (x mod bs). split; [reflexivity|]. split; [reflexivity|].
    split; [|apply Nat.mod_upper_bound; lia].
    pose proof (Nat.div_mod x bs ltac:(lia)). nia.
  Qed.

  Lemma mul_le_cancel q1 r1 q2 r2 :
    r1 < bs -> r2 < bs -> q1 * bs + r1 <= q2 * bs + r2 -> q1 <= q2.
  Proof. intros. nia. Qed.

  Lemma sub_mul a b : (b - a) * bs = b * bs - a * bs.
  Proof. apply Nat.mul_sub_distr_r. Qed.

  Lemma bb_read_ok s c off len :
    Rep s c -> off + len <= limit ->
    bb_read B off len s = Ok (arr_read c off len).
  Proof.
    intros HR Hlim. unfold bb_read. pose proof bs_pos as Hbs.
    destruct (Nat.leb_spec len 0) as [H0|H0].
    { replace len with 0 by lia. reflexivity. }
    destruct (divmod_spec off) as (q1 & r1 & Q1 & R1 & E1 & L1). rewrite Q1, R1.
    destruct (divmod_spec (off + len)) as (q2 & r2 & Q2 & R2 & E2 & L2). rewrite Q2, R2. clear Q1 R1 Q2 R2.
    assert (Hq : q1 <= q2) by nia.
    destruct ((r1 =? 0) && (r2 =? 0)) eqn:Eal.
    { apply andb_prop in Eal as [Er1 Er2]. apply Nat.eqb_eq in Er1, Er2.
      rewrite (ok_read _ _ HB s c q1 q2 HR Hq) by nia.
      rewrite sub_mul. f_equal. f_equal; lia. }
    clear Eal.
    set (k := b2nat (0 <? r2)).
    assert (Hk : k = if 0 <? r2 then 1 else 0) by reflexivity.
    assert (Hm : q2 + k <= bk_maxn B).
    { rewrite Hk. destruct (Nat.ltb_spec 0 r2); nia. }
    rewrite (ok_read _ _ HB s c q1 (q2 + k) HR ltac:(lia) Hm).
    assert (Hqm : q1 * bs <= q2 * bs) by nia.
    assert (Hkm : (q2 + k - q1) * bs = q2 * bs + (if 0 <? r2 then bs else 0) - q1 * bs).
    { rewrite sub_mul, Nat.mul_add_distr_r, Hk. destruct (0 <? r2); lia. }
    rewrite Hkm. cbn [rbind]. rewrite arr_read_length.
    destruct (Nat.ltb_spec 0 r2).
    - destruct (Nat.leb_spec (min (q2 * bs + bs - q1 * bs) (length c - q1 * bs)) r1) as [Hle|Hgt].
      + f_equal. symmetry; apply arr_read_over; lia.
      + f_equal. bext.
    - destruct (Nat.leb_spec (min (q2 * bs + 0 - q1 * bs) (length c - q1 * bs)) r1) as [Hle|Hgt].
      + f_equal. symmetry; apply arr_read_over; lia.
      + f_equal. bext.
  Qed.

  (** Growing write ([off <= length c]); for [WZero] the write starts at the end. *)
  Definition winput_bytes (w : winput) : bytes :=
    match w with WData d => d | WZero n => zeros n end.

  Lemma winput_bytes_length w : length (winput_bytes w) = winput_len w.
  Proof. destruct w; cbn; [reflexivity|apply zeros_length]. Qed.

  Lemma bb_unchecked_write_ok s c w off :
    Rep s c -> off <= length c -> off + winput_len w <= limit ->
    (forall n, w = WZero n -> off = length c) ->
    exists s', bb_unchecked_write B w off s = (s', Ok tt) /\
      Rep s' (arr_write c off (winput_bytes w)).
  Proof.
    intros HR Hoff Hlim Hz. unfold bb_unchecked_write. pose proof bs_pos as Hbs.
    pose proof (winput_bytes_length w) as HL.
    set (len := winput_len w) in *.
    destruct (Nat.leb_spec len 0) as [H0|H0].
    { exists s; split; [reflexivity|].
      replace (winput_bytes w) with (@nil byte); [exact HR|].
      destruct (winput_bytes w); [reflexivity|cbn in HL; lia]. }
    destruct (divmod_spec off) as (q1 & r1 & Q1 & R1 & E1 & L1). rewrite Q1, R1.
    destruct (divmod_spec (off + len)) as (q2 & r2 & Q2 & R2 & E2 & L2). rewrite Q2, R2. clear Q1 R1 Q2 R2.
    assert (Hq : q1 <= q2) by nia.
    destruct ((r1 =? 0) && (r2 =? 0)) eqn:Eal.
    { (* aligned *)
      apply andb_prop in Eal as [Er1 Er2]. apply Nat.eqb_eq in Er1, Er2.
      assert (Hlen : (q2 - q1) * bs = len) by (rewrite sub_mul; lia).
      assert (Hpre : (q2 - q1) * bs + 0 <= length (winput_bytes w)) by lia.
      destruct (ok_write _ _ HB s c q1 q2 0 (winput_bytes w) HR Hq ltac:(lia) ltac:(lia) Hpre
                  ltac:(lia) (or_introl eq_refl) ltac:(lia)) as (s' & Hw & HR').
      exists s'. split.
      - destruct w as [d|n]; cbn [winput_bytes] in Hw; [exact Hw|].
        rewrite Hlen. unfold len; cbn [winput_len]. exact Hw.
      - rewrite Hlen, Nat.add_0_r, firstn_all2 in HR' by lia.
        replace off with (q1 * bs) by lia. exact HR'. }
    (* unaligned *)
    assert (Hun : r1 <> 0 \/ r2 <> 0).
    { destruct (Nat.eqb_spec r1 0); destruct (Nat.eqb_spec r2 0); cbn in Eal; try congruence; lia. }
    clear Eal.
    set (k := b2nat (0 <? r2)).
    assert (Hk : k = if 0 <? r2 then 1 else 0) by reflexivity.
    assert (Hq2 : q2 + k <= bk_maxn B).
    { rewrite Hk. destruct (Nat.ltb_spec 0 r2); nia. }
    assert (HS : (q2 - q1) * bs = q2 * bs - q1 * bs) by apply sub_mul.
    assert (HS' : (q2 - q1 + k) * bs = q2 * bs - q1 * bs + k * bs) by (rewrite Nat.mul_add_distr_r; lia).
    assert (Hqm : q1 * bs <= q2 * bs) by nia.
    rewrite HS'. set (buf0 := zeros (q2 * bs - q1 * bs + k * bs)).
    assert (Hkb : k * bs = if 0 <? r2 then bs else 0).
    { rewrite Hk. destruct (0 <? r2); lia. }
    (* first read *)
    assert (H1 : (if (0 <? r1) && (q1 <? q2)
                  then rmap (put_at buf0 0) (bk_read B q1 (q1 + 1) s)
                  else Ok buf0) =
                 Ok (if (0 <? r1) && (q1 <? q2)
                     then put_at buf0 0 (arr_read c (q1 * bs) bs) else buf0)).
    { destruct ((0 <? r1) && (q1 <? q2)) eqn:E; [|reflexivity].
      apply andb_prop in E as [_ E]. apply Nat.ltb_lt in E.
      rewrite (ok_read _ _ HB s c q1 (q1 + 1) HR) by lia.
      cbn [rmap]. do 3 f_equal. replace (q1 + 1 - q1) with 1 by lia. lia. }
    rewrite H1; clear H1.
    set (buf1 := if (0 <? r1) && (q1 <? q2) then put_at buf0 0 (arr_read c (q1 * bs) bs) else buf0).
    assert (H2 : (if 0 <? r2
                  then rmap (fun out => (put_at buf1 ((q2 - q1) * bs) out, max r2 (length out)))
                         (bk_read B q2 (q2 + 1) s)
                  else Ok (buf1, 0)) =
                 Ok (if 0 <? r2
                     then (put_at buf1 (q2 * bs - q1 * bs) (arr_read c (q2 * bs) bs),
                           max r2 (length (arr_read c (q2 * bs) bs)))
                     else (buf1, 0))).
    { destruct (0 <? r2) eqn:E; [|reflexivity].
      rewrite (ok_read _ _ HB s c q2 (q2 + 1) HR) by lia.
      cbn [rmap]. rewrite HS. replace (q2 + 1 - q2) with 1 by lia.
      rewrite Nat.mul_1_l. reflexivity. }
    rewrite H2; clear H2.
    assert (Hlast : r2 = 0 -> q1 < q2) by nia.
    assert (Hb1len : length buf1 = q2 * bs - q1 * bs + k * bs).
    { unfold buf1. destruct ((0 <? r1) && (q1 <? q2)) eqn:E.
      - rewrite put_at_length; unfold buf0; rewrite ?zeros_length; [reflexivity|].
        rewrite arr_read_length. apply andb_prop in E as [_ E]. apply Nat.ltb_lt in E. nia.
      - apply zeros_length. }
    assert (Hb1 : forall i, get buf1 i =
       if (0 <? r1) && (q1 <? q2) && (i <? length (arr_read c (q1 * bs) bs))
       then get c (q1 * bs + i) else x00).
    { intros i. unfold buf1. destruct ((0 <? r1) && (q1 <? q2)); cbn [andb].
      - rewrite get_put_at by (unfold buf0; rewrite zeros_length; lia). cbn [Nat.leb andb].
        replace (0 + length (arr_read c (q1 * bs) bs)) with (length (arr_read c (q1 * bs) bs)) by lia.
        rewrite Nat.sub_0_r.
        destruct (Nat.ltb_spec i (length (arr_read c (q1 * bs) bs))) as [Hi|Hi].
        + rewrite arr_read_length in Hi. rewrite get_arr_read.
          destruct (Nat.ltb_spec i bs); [reflexivity|lia].
        + unfold buf0. apply get_zeros.
      - unfold buf0. apply get_zeros. }
    (* the buffer and residue handed to write_multi_blocks *)
    set (p := if 0 <? r2
              then (put_at buf1 (q2 * bs - q1 * bs) (arr_read c (q2 * bs) bs),
                    max r2 (length (arr_read c (q2 * bs) bs)))
              else (buf1, 0)).
    assert (Hplen : length (fst p) = q2 * bs - q1 * bs + k * bs).
    { unfold p. destruct (Nat.ltb_spec 0 r2) as [E|E]; cbn [fst]; [|exact Hb1len].
      rewrite put_at_length; [exact Hb1len|]. rewrite Hb1len, arr_read_length, Hkb.
      destruct (Nat.ltb_spec 0 r2); lia. }
    assert (Heff : snd p = if 0 <? r2 then max r2 (min bs (length c - q2 * bs)) else 0).
    { unfold p. destruct (0 <? r2); cbn [snd]; [|reflexivity]. rewrite arr_read_length. reflexivity. }
    assert (Hpget : forall i, get (fst p) i =
       if (0 <? r2) && (q2 * bs - q1 * bs <=? i) && (i <? q2 * bs - q1 * bs + min bs (length c - q2 * bs))
       then get c (q1 * bs + i) else get buf1 i).
    { intros i. unfold p. destruct (0 <? r2) eqn:E; cbn [fst andb]; [|reflexivity].
      rewrite get_put_at by lia. rewrite arr_read_length.
      destruct ((q2 * bs - q1 * bs <=? i) && (i <? q2 * bs - q1 * bs + min bs (length c - q2 * bs))) eqn:E2';
        [|reflexivity].
      apply andb_prop in E2' as [Ea Eb]. apply Nat.leb_le in Ea. apply Nat.ltb_lt in Eb.
      rewrite get_arr_read. destruct (Nat.ltb_spec (i - (q2 * bs - q1 * bs)) bs); [|lia].
      f_equal. lia. }
    destruct p as [buf2 eff]. cbn [fst snd] in *.
    set (buf3 := match w with WZero _ => buf2 | WData d => put_at buf2 r1 d end).
    assert (Hlen2 : r1 + len <= q2 * bs - q1 * bs + k * bs).
    { rewrite Hkb. destruct (Nat.ltb_spec 0 r2); nia. }
    assert (Hb3len : length buf3 = length buf2).
    { unfold buf3. destruct w as [d|n]; [|reflexivity]. apply put_at_length.
      unfold len in Hlen2; cbn [winput_len] in Hlen2. lia. }
    assert (Heffb : eff <= bs).
    { rewrite Heff. destruct (0 <? r2); lia. }
    assert (Hpre : (q2 - q1) * bs + eff <= length buf3).
    { rewrite Hb3len, Hplen, HS, Hkb, Heff. destruct (Nat.ltb_spec 0 r2); lia. }
    assert (Hlim' : q2 * bs + eff <= limit).
    { rewrite Heff. destruct (Nat.ltb_spec 0 r2); nia. }
    assert (Hend : eff = 0 \/ min (length c) (q2 * bs + bs) <= q2 * bs + eff).
    { rewrite Heff. destruct (Nat.ltb_spec 0 r2); [right|left]; lia. }
    assert (Hne : 0 < (q2 - q1) * bs + eff).
    { rewrite HS, Heff. destruct (Nat.ltb_spec 0 r2); lia. }
    destruct (ok_write _ _ HB s c q1 q2 eff buf3 HR Hq Heffb Hlim' Hpre ltac:(lia) Hend Hne)
      as (s' & Hw & HR').
    exists s'. split; [exact Hw|].
    match type of HR' with Rep _ ?x => match goal with |- Rep _ ?y => replace y with x; [exact HR'|] end end.
    (* the resulting content *)
    assert (Hlenne : 0 < length (firstn ((q2 - q1) * bs + eff) buf3)).
    { rewrite firstn_length. lia. }
    assert (Hwne : 0 < length (winput_bytes w)) by lia.
    assert (Hb3get : forall i, i < length buf3 -> get buf3 i =
       if (r1 <=? i) && (i <? r1 + len) then get (winput_bytes w) (i - r1)
       else if q1 * bs + i <? length c then
              (if (0 <? r1) && (q1 <? q2) && (i <? bs) then get c (q1 * bs + i)
               else if (0 <? r2) && (q2 * bs - q1 * bs <=? i) then get c (q1 * bs + i)
               else x00)
            else x00).
    { intros i Hi. unfold buf3, len.
      assert (Hbase : get buf2 i =
        if q1 * bs + i <? length c then
              (if (0 <? r1) && (q1 <? q2) && (i <? bs) then get c (q1 * bs + i)
               else if (0 <? r2) && (q2 * bs - q1 * bs <=? i) then get c (q1 * bs + i)
               else x00)
            else x00).
      { rewrite Hpget, Hb1, arr_read_length. rewrite Hb3len, Hplen, Hkb in Hi.
        clear - Hi Hqm Hbs.
        generalize (q1 <? q2) (get c (q1 * bs + i)). intros bq gc.
        remember (q2 * bs) as Q2 eqn:HQ2. remember (q1 * bs) as Q1 eqn:HQ1. clear HQ1 HQ2.
        remember (length c) as lc eqn:Hlc. clear Hlc.
        destruct ((0 <? r1) && bq); cbn [andb].
        - destruct (Nat.ltb_spec (Q1 + i) lc).
          + destruct (Nat.ltb_spec i bs).
            * destruct (Nat.ltb_spec i (min bs (lc - Q1))); [|lia].
              destruct ((0 <? r2) && (Q2 - Q1 <=? i) && (i <? Q2 - Q1 + min bs (lc - Q2))); reflexivity.
            * destruct (Nat.ltb_spec i (min bs (lc - Q1))); [lia|].
              destruct (Nat.ltb_spec 0 r2); cbn [andb]; [|reflexivity].
              destruct (Nat.leb_spec (Q2 - Q1) i); cbn [andb]; [|reflexivity].
              destruct (Nat.ltb_spec i (Q2 - Q1 + min bs (lc - Q2))); [reflexivity|lia].
          + destruct (Nat.ltb_spec i (min bs (lc - Q1))); [lia|].
            destruct (Nat.leb_spec (Q2 - Q1) i); cbn [andb]; [|rewrite andb_false_r; reflexivity].
            destruct (Nat.ltb_spec i (Q2 - Q1 + min bs (lc - Q2))); [lia|].
            rewrite andb_false_r; reflexivity.
        - destruct (Nat.ltb_spec (Q1 + i) lc).
          + destruct (Nat.ltb_spec 0 r2); cbn [andb]; [|reflexivity].
            destruct (Nat.leb_spec (Q2 - Q1) i); cbn [andb]; [|reflexivity].
            destruct (Nat.ltb_spec i (Q2 - Q1 + min bs (lc - Q2))); [reflexivity|lia].
          + destruct (Nat.leb_spec (Q2 - Q1) i); cbn [andb]; [|rewrite andb_false_r; reflexivity].
            destruct (Nat.ltb_spec i (Q2 - Q1 + min bs (lc - Q2))); [lia|].
            rewrite andb_false_r; reflexivity. }
      destruct w as [d|n]; cbn [winput_bytes winput_len].
      - rewrite get_put_at by lia.
        destruct ((r1 <=? i) && (i <? r1 + length d)); [reflexivity|exact Hbase].
      - rewrite get_zeros, Hbase. specialize (Hz n eq_refl).
        destruct (Nat.leb_spec r1 i); destruct (Nat.ltb_spec i (r1 + n)); cbn [andb]; try reflexivity.
        destruct (Nat.ltb_spec (q1 * bs + i) (length c)); [lia|reflexivity]. }
    apply bytes_ext.
    - rewrite !arr_write_length_ne by assumption.
      rewrite firstn_length, HL. rewrite Heff in *.
      destruct (Nat.ltb_spec 0 r2); lia.
    - intros i Hi. rewrite arr_write_length_ne in Hi by assumption.
      rewrite firstn_length in Hi. rewrite !get_arr_write, HL, firstn_length, get_firstn.
      destruct (Nat.leb_spec (q1 * bs) i) as [Ha|Ha]; cbn [andb].
      2: { destruct (Nat.leb_spec off i); [lia|reflexivity]. }
      destruct (Nat.ltb_spec i (q1 * bs + min ((q2 - q1) * bs + eff) (length buf3))) as [Hb|Hb].
      + destruct (Nat.ltb_spec (i - q1 * bs) ((q2 - q1) * bs + eff)) as [Hc|Hc]; [|lia].
        rewrite Hb3get by lia.
        destruct (Nat.leb_spec r1 (i - q1 * bs)); destruct (Nat.leb_spec off i); try lia; cbn [andb].
        * destruct (Nat.ltb_spec (i - q1 * bs) (r1 + len)); destruct (Nat.ltb_spec i (off + len)); try lia.
          { f_equal; lia. }
          replace (q1 * bs + (i - q1 * bs)) with i by lia.
          destruct (Nat.ltb_spec i (length c)).
          2: { symmetry. apply get_over; lia. }
          destruct ((0 <? r1) && (q1 <? q2) && (i - q1 * bs <? bs)); [reflexivity|].
          rewrite Heff in Hc.
          destruct (Nat.ltb_spec 0 r2); cbn [andb]; [|lia].
          destruct (Nat.leb_spec (q2 * bs - q1 * bs) (i - q1 * bs)); [reflexivity|lia].
        * replace (q1 * bs + (i - q1 * bs)) with i by lia.
          destruct (Nat.ltb_spec i (length c)); [|lia].
          destruct (Nat.ltb_spec 0 r1); [|lia]. cbn [andb].
          destruct (Nat.ltb_spec q1 q2); cbn [andb].
          -- destruct (Nat.ltb_spec (i - q1 * bs) bs); [reflexivity|lia].
          -- assert (q1 = q2) by lia. subst q2.
             destruct (Nat.ltb_spec 0 r2); cbn [andb]; [|lia].
             destruct (Nat.leb_spec (q1 * bs - q1 * bs) (i - q1 * bs)); [reflexivity|lia].
      + assert (q2 * bs + eff <= i) by lia.
        assert (off + len <= q2 * bs + eff).
        { rewrite Heff. destruct (Nat.ltb_spec 0 r2); lia. }
        destruct (Nat.leb_spec off i); cbn [andb]; [|reflexivity].
        destruct (Nat.ltb_spec i (off + len)); [lia|reflexivity].
  Qed.

  Lemma bb_unchecked_resize_ok s c new :
    Rep s c -> length c <= limit -> new <= limit ->
    exists s', bb_unchecked_resize B (length c) new s = (s', Ok tt) /\
      Rep s' (arr_resize c new).
  Proof.
    intros HR Hlc Hln. unfold bb_unchecked_resize. pose proof bs_pos as Hbs.
    destruct (Nat.eqb_spec new (length c)) as [->|Hne].
    { exists s; split; [reflexivity|]. rewrite arr_resize_same; exact HR. }
    destruct (divmod_spec new) as (q & r & Q & R & E & L). rewrite Q, R. clear Q R.
    destruct (Nat.ltb_spec new (length c)) as [Hlt|Hge].
    - (* shrink *)
      rewrite arr_resize_shrink by lia.
      destruct (Nat.ltb_spec 0 r) as [Hr|Hr].
      + assert (Hm : q + 1 <= bk_maxn B) by nia.
        rewrite (ok_read _ _ HB s c q (q + 1) HR) by lia. cbn [rmap].
        replace (q + 1 - q) with 1 by lia. rewrite Nat.mul_1_l.
        set (d := put_at (zeros bs) 0 (arr_read c (q * bs) bs)).
        assert (Hd : length d = bs).
        { unfold d. rewrite put_at_length; rewrite ?zeros_length, ?arr_read_length; lia. }
        destruct (ok_shrink _ _ HB s c q r d HR Hr L ltac:(lia) Hm ltac:(lia))
          as (s1 & s2 & Hw & Ha & HR2).
        rewrite Hw. cbn [then_]. rewrite E. rewrite Ha.
        exists s2. split; [reflexivity|].
        match type of HR2 with Rep _ ?x => match goal with |- Rep _ ?y => replace y with x; [exact HR2|] end end.
        apply bytes_ext.
        * rewrite app_length, !firstn_length, Hd. lia.
        * intros i Hi. rewrite app_length, !firstn_length, Hd in Hi. unfold d.
          rewrite get_app, !get_firstn, firstn_length.
          replace (min (q * bs) (length c)) with (q * bs) by lia.
          destruct (Nat.ltb_spec i (q * bs)).
          { destruct (Nat.ltb_spec i (q * bs + r)); [reflexivity|lia]. }
          destruct (Nat.ltb_spec (i - q * bs) r); [|lia].
          destruct (Nat.ltb_spec i (q * bs + r)); [|lia].
          rewrite get_put_at by (rewrite zeros_length; lia). rewrite arr_read_length.
          cbn [Nat.leb andb]. destruct (Nat.ltb_spec (i - q * bs) (0 + min bs (length c - q * bs))); [|lia].
          rewrite get_arr_read. destruct (Nat.ltb_spec (i - q * bs - 0) bs); [|lia]. f_equal; lia.
      + cbn [then_]. replace new with (q * bs) by lia.
        apply (ok_truncate _ _ HB); [exact HR|lia].
    - (* grow *)
      destruct (divmod_spec (length c)) as (oq & or & Eoq & Eor & E' & L').
      rewrite Eoq. clear Eor Eoq.
      rewrite arr_resize_grow by lia.
      destruct (negb (bk_sparse B) || (oq =? q)) eqn:Esp.
      + unfold bb_zero_fill.
        destruct (bb_unchecked_write_ok s c (WZero (new - length c)) (length c) HR)
          as (s1 & Hw & HR1); try (cbn [winput_len]; lia).
        rewrite Hw. cbn [then_]. cbn [winput_bytes] in HR1. rewrite arr_write_app in HR1.
        destruct (ok_grow _ _ HB s1 _ new HR1) as (s2 & Ha & HR2).
        { rewrite app_length, zeros_length. lia. }
        { left. rewrite app_length, zeros_length. lia. }
        exists s2. split; [exact Ha|].
        rewrite app_length, zeros_length in HR2.
        replace (new - (length c + (new - length c))) with 0 in HR2 by lia.
        cbn [zeros repeat] in HR2. rewrite app_nil_r in HR2. exact HR2.
      + apply orb_false_elim in Esp as [_ Esp]. apply Nat.eqb_neq in Esp.
        assert (Hoq : oq < q) by nia.
        assert (Hle : oq * bs + bs <= q * bs) by nia.
        unfold bb_zero_fill.
        destruct (bb_unchecked_write_ok s c (WZero (oq * bs + bs - length c)) (length c) HR)
          as (s1 & Hw & HR1); try (cbn [winput_len]; lia).
        rewrite Hw. cbn [then_]. cbn [winput_bytes] in HR1. rewrite arr_write_app in HR1.
        destruct (ok_grow _ _ HB s1 _ new HR1) as (s2 & Ha & HR2).
        { rewrite app_length, zeros_length. lia. }
        { right. exists (oq + 1). rewrite app_length, zeros_length. lia. }
        exists s2. split; [exact Ha|].
        rewrite app_length, zeros_length, <- app_assoc, zeros_app in HR2.
        replace (oq * bs + bs - length c + (new - (length c + (oq * bs + bs - length c))))
          with (new - length c) in HR2 by lia.
        exact HR2.
  Qed.

  Lemma bb_write_ok s c off d :
    Rep s c -> length c <= limit -> off + length d <= limit ->
    exists s', bb_write B off d s = (s', Ok tt) /\ Rep s' (arr_write c off d).
  Proof.
    intros HR Hlc Hl. unfold bb_write.
    destruct (Nat.leb_spec (length d) 0) as [H0|H0].
    { destruct d; [|cbn in H0; lia]. exists s; split; [reflexivity|exact HR]. }
    rewrite (ok_size _ _ HB _ _ HR).
    destruct (Nat.ltb_spec (length c) off) as [Hlt|Hge].
    - destruct (bb_unchecked_resize_ok s c off HR Hlc ltac:(lia)) as (s1 & Hr & HR1).
      rewrite Hr. cbn [then_].
      destruct (bb_unchecked_write_ok s1 (arr_resize c off) (WData d) off HR1) as (s2 & Hw & HR2);
        try (cbn [winput_len]; rewrite ?arr_resize_length; lia); try discriminate.
      exists s2. split; [exact Hw|]. cbn [winput_bytes] in HR2.
      match type of HR2 with Rep _ ?x => match goal with |- Rep _ ?y => replace y with x; [exact HR2|] end end.
      apply bytes_ext.
      + rewrite !arr_write_length_ne, arr_resize_length by lia. lia.
      + intros i Hi. rewrite arr_write_length_ne, arr_resize_length in Hi by lia.
        rewrite !get_arr_write, get_arr_resize.
        destruct ((off <=? i) && (i <? off + length d)) eqn:E; [reflexivity|].
        destruct (Nat.ltb_spec i off); [reflexivity|].
        destruct (Nat.leb_spec off i); [|lia]. destruct (Nat.ltb_spec i (off + length d)); [discriminate|lia].
    - cbn [then_].
      destruct (bb_unchecked_write_ok s c (WData d) off HR) as (s2 & Hw & HR2);
        try (cbn [winput_len]; lia); try discriminate.
      exists s2. split; [exact Hw|exact HR2].
  Qed.

  (** One step refines the specification, and stays within the limit. *)
  Lemma bb_step_ok s c o :
    Rep s c -> length c <= limit -> sop_within limit o ->
    exists s', bb_step B s o = (s', snd (spec_step c o)) /\
      Rep s' (fst (spec_step c o)) /\ length (fst (spec_step c o)) <= limit.
  Proof.
    intros HR Hlc Ho. destruct o as [off len|off d|n|]; cbn [bb_step spec_step sop_within fst snd] in *.
    - rewrite (bb_read_ok s c off len HR Ho). exists s; auto.
    - destruct (bb_write_ok s c off d HR Hlc Ho) as (s' & -> & HR').
      exists s'. split; [reflexivity|]. split; [exact HR'|].
      rewrite arr_write_length. destruct d; cbn [length] in *; lia.
    - unfold bb_resize. rewrite (ok_size _ _ HB _ _ HR).
      destruct (bb_unchecked_resize_ok s c n HR Hlc Ho) as (s' & -> & HR').
      exists s'. split; [reflexivity|]. split; [exact HR'|].
      rewrite arr_resize_length. exact Ho.
    - rewrite (ok_size _ _ HB _ _ HR). exists s; auto.
  Qed.

  Theorem bb_refines s c ops :
    Rep s c -> length c <= limit -> Forall (sop_within limit) ops ->
    exists s', run_ops (bb_step B) s ops = (s', snd (run_ops spec_step c ops)) /\
      Rep s' (fst (run_ops spec_step c ops)) /\
      length (fst (run_ops spec_step c ops)) <= limit.
  Proof.
    revert s c. induction ops as [|o ops IH]; intros s c HR Hl Hall.
    - exists s. auto.
    - inversion Hall as [|? ? Ho Hops]; subst.
      destruct (bb_step_ok s c o HR Hl Ho) as (s1 & Hs & HR1 & Hl1).
      destruct (IH s1 _ HR1 Hl1 Hops) as (s2 & Hs2 & HR2 & Hl2).
      exists s2. cbn [run_ops]. rewrite Hs.
      destruct (spec_step c o) as [c1 r1]. cbn [fst snd] in *.
      rewrite Hs2. destruct (run_ops spec_step c1 ops) as [c2 rs]. auto.
  Qed.
End BlockProofs.
