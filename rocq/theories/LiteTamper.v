(** Reading from arbitrary (tampered) lite files. *)
From Verif Require Import Base BaseLemmas StreamSpec BlockModel BlockProofs CodecModel
  CodecProofs LiteModel LiteSpec LiteProofs.

Lemma in_snapshots {S O R} (step : S -> O -> S * R) s ops x :
  In x (snapshots step s ops) <->
  exists k, k <= length ops /\ x = fst (run_ops step s (firstn k ops)).
Proof.
  unfold snapshots. rewrite in_map_iff. split.
  - intros (k & <- & Hk). apply in_seq in Hk. exists k. split; [lia|reflexivity].
  - intros (k & Hk & ->). exists k. split; [reflexivity|]. apply in_seq. lia.
Qed.

Section LiteTamper.
  Variable A : aead.
  Variable bs iv_size : nat.
  Variable check sparse : bool.
  Variable session_key : bytes -> bytes.
  Variable padding_of : bytes -> nat.
  Variable rnd : nat -> nat -> bytes.
  Variable iv_fuel : nat.
  Hypothesis HE : lite_env_ok A bs iv_size rnd iv_fuel.

  Notation ubs := (ubs bs iv_size).
  Notation ov := (iv_size + mac_size).
  Notation decode := (lite_decode_block A iv_size check).
  Notation B := (lite_backend A bs iv_size check sparse rnd iv_fuel).
  Notation step := (lite_step A bs iv_size check sparse session_key padding_of rnd iv_fuel).

  Lemma read_loop_inv fuel key pad a buf out :
    lite_read_loop A bs iv_size check fuel key pad a buf = Ok out ->
    forall p, p < length out ->
    exists pt, decode key pad (a + p / bs) (arr_read buf (p / bs * ubs) ubs) = Ok pt /\
      p mod bs < length pt /\ get out p = get pt (p mod bs) /\
      ov < length (arr_read buf (p / bs * ubs) ubs).
  Proof.
    pose proof (bs_pos' _ _ _ _ _ HE) as Hbs. pose proof (ubs_eq bs iv_size) as HU.
    revert a buf out. induction fuel as [|f IH]; intros a buf out H p Hp.
    { cbn in H. destruct buf; [|discriminate]. injection H as <-. cbn in Hp. lia. }
    cbn [lite_read_loop] in H. destruct buf as [|x buf'] eqn:Eb.
    { injection H as <-. cbn in Hp. lia. }
    rewrite <- Eb in *. clear Eb x buf'.
    destruct (Nat.leb_spec (min ubs (length buf)) (mac_size + iv_size)) as [Hle|Hgt].
    { injection H as <-. cbn in Hp. lia. }
    destruct (decode key pad a (firstn (min ubs (length buf)) buf)) as [o1|e] eqn:Ed; [|discriminate].
    cbn [rbind] in H.
    destruct (lite_read_loop A bs iv_size check f key pad (S a) (skipn (min ubs (length buf)) buf))
      as [rest|e] eqn:Er; [|discriminate].
    cbn [rbind] in H. injection H as <-.
    assert (Hfl : length (firstn (min ubs (length buf)) buf) = min ubs (length buf))
      by (rewrite firstn_length; lia).
    assert (Ho1 : length o1 = min ubs (length buf) - ov).
    { rewrite (decode_length A bs iv_size check session_key padding_of rnd iv_fuel HE _ _ _ _ _ ltac:(rewrite Hfl; lia) Ed), Hfl. reflexivity. }
    assert (Hf0 : firstn (min ubs (length buf)) buf = arr_read buf 0 ubs).
    { unfold arr_read. cbn [skipn]. destruct (Nat.le_ge_cases ubs (length buf)).
      - rewrite Nat.min_l by lia. reflexivity.
      - rewrite Nat.min_r by lia. rewrite !firstn_all2 by lia. reflexivity. }
    destruct (Nat.lt_ge_cases p (length o1)) as [Hin|Hout].
    - assert (Hpb : p < bs) by lia. rewrite Nat.div_small, Nat.mod_small by lia.
      rewrite Nat.mul_0_l, Nat.add_0_r, <- Hf0. exists o1. repeat split; try assumption; try lia.
      rewrite get_app. destruct (Nat.ltb_spec p (length o1)); [reflexivity|lia].
    - rewrite app_length in Hp.
      destruct (Nat.le_ge_cases (length buf) ubs) as [Hb|Hb].
      { rewrite Nat.min_r in Er by lia. rewrite skipn_all in Er.
        destruct f; cbn in Er; injection Er as <-; cbn in Hp; lia. }
      rewrite Nat.min_l in * by lia.
      assert (Hl1 : length o1 = bs) by lia. rewrite Hl1 in *.
      destruct (IH (S a) _ _ Er (p - bs) ltac:(lia)) as (pt & H1 & H2 & H3 & H4).
      assert (Hdiv : p / bs = S ((p - bs) / bs)).
      { replace p with (p - bs + 1 * bs) at 1 by lia. rewrite Nat.div_add by lia. lia. }
      assert (Hmod : p mod bs = (p - bs) mod bs).
      { replace p with (p - bs + 1 * bs) at 1 by lia. rewrite Nat.mod_add by lia. reflexivity. }
      rewrite Hdiv, Hmod.
      assert (Hrd : arr_read (skipn ubs buf) ((p - bs) / bs * ubs) ubs
                    = arr_read buf (S ((p - bs) / bs) * ubs) ubs).
      { unfold arr_read. rewrite skipn_skipn. do 2 f_equal. lia. }
      rewrite Hrd in *. replace (a + S ((p - bs) / bs)) with (S a + (p - bs) / bs) by lia.
      exists pt. repeat split; try assumption.
      rewrite get_app, Hl1. destruct (Nat.ltb_spec p bs); [lia|exact H3].
  Qed.

  Lemma read_multi_inv s a b out :
    lite_read_multi A bs iv_size check a b s = Ok out ->
    b <= lite_max_blocks /\
    forall p, p < length out ->
    exists pt, decode (l_key s) (l_pad s) (a + p / bs) (stored_block bs iv_size s (a + p / bs)) = Ok pt /\
      p mod bs < length pt /\ get out p = get pt (p mod bs) /\
      ov < length (stored_block bs iv_size s (a + p / bs)) /\ a + p / bs < b.
  Proof.
    unfold lite_read_multi. intros H.
    destruct (over_max lite_max_blocks_N b) eqn:Eo; [discriminate|].
    split; [apply lite_over_max_inv; exact Eo|].
    intros p Hp. destruct (read_loop_inv _ _ _ _ _ _ H p Hp) as (pt & H1 & H2 & H3 & H4).
    pose proof (ubs_eq bs iv_size) as HU. pose proof (bs_pos' _ _ _ _ _ HE) as Hbs.
    assert (Hj : p / bs < b - a).
    { rewrite !arr_read_length in H4. destruct (Nat.lt_ge_cases (p / bs) (b - a)); [assumption|].
      pose proof (mul_le_mono (b - a) (p / bs) ubs ltac:(lia)). lia. }
    assert (Heq : arr_read (arr_read (l_file s) (l_header s + ubs * a) ((b - a) * ubs)) (p / bs * ubs) ubs
                  = stored_block bs iv_size s (a + p / bs)).
    { unfold stored_block. change (bs + iv_size + 16) with ubs.
      pose proof (mul_lt_block _ _ ubs Hj) as Hml. unfold arr_read.
      rewrite skipn_firstn_comm, firstn_firstn, skipn_skipn.
      rewrite Nat.min_l by lia. do 2 f_equal. lia. }
    rewrite Heq in *. exists pt. repeat split; try assumption. apply Nat.lt_add_lt_sub_l; exact Hj.
  Qed.

  Lemma bb_read_inv s off len out :
    bb_read B off len s = Ok out ->
    forall p, p < length out ->
    exists pt, decode (l_key s) (l_pad s) ((off + p) / bs) (stored_block bs iv_size s ((off + p) / bs)) = Ok pt /\
      (off + p) mod bs < length pt /\ get out p = get pt ((off + p) mod bs) /\
      ov < length (stored_block bs iv_size s ((off + p) / bs)) /\ (off + p) / bs < lite_max_blocks.
  Proof.
    pose proof (bs_pos' _ _ _ _ _ HE) as Hbs. unfold bb_read. cbn [bk_bs bk_read lite_backend].
    intros H p Hp.
    destruct (len <=? 0). { injection H as <-. cbn in Hp. lia. }
    assert (Hdm : forall q, off / bs + (off mod bs + q) / bs = (off + q) / bs /\
                            (off mod bs + q) mod bs = (off + q) mod bs).
    { intros q. pose proof (Nat.div_mod off bs ltac:(lia)) as E.
      replace (off + q) with (off mod bs + q + (off / bs) * bs) by lia.
      rewrite Nat.div_add, Nat.mod_add by lia. split; [apply Nat.add_comm|reflexivity]. }
    destruct ((off mod bs =? 0) && ((off + len) mod bs =? 0)) eqn:Eal.
    - apply andb_prop in Eal as [E1 _]. apply Nat.eqb_eq in E1.
      destruct (read_multi_inv _ _ _ _ H) as [Hmax HB].
      destruct (HB p Hp) as (pt & H1 & H2 & H3 & H4 & H5).
      destruct (Hdm p) as [D1 D2]. rewrite E1, Nat.add_0_l in D1, D2.
      rewrite D1 in *. rewrite D2 in *. exists pt. repeat split; try assumption. eapply Nat.lt_le_trans; [exact H5|exact Hmax].
    - destruct (lite_read_multi A bs iv_size check (off / bs) ((off + len) / bs + b2nat (0 <? (off + len) mod bs)) s)
        as [raw|e] eqn:Er; [|discriminate].
      cbn [rbind] in H. destruct (Nat.leb_spec (length raw) (off mod bs)) as [Hle|Hgt].
      { injection H as <-. cbn in Hp. lia. }
      injection H as <-. rewrite arr_read_length in Hp.
      destruct (read_multi_inv _ _ _ _ Er) as [Hmax HB].
      destruct (HB (off mod bs + p) ltac:(lia)) as (pt & H1 & H2 & H3 & H4 & H5).
      destruct (Hdm p) as [D1 D2]. rewrite D1 in *. rewrite D2 in *.
      exists pt. repeat split; try assumption; [|eapply Nat.lt_le_trans; [exact H5|exact Hmax]].
      rewrite get_arr_read. destruct (Nat.ltb_spec p (min (length raw - off mod bs) len)); [exact H3|lia].
  Qed.

  (** Key and padding never change while a file is in use. *)
  Lemma step_key s c o :
    LRep A bs iv_size check session_key padding_of s c ->
    l_key (fst (step s o)) = l_key s /\ l_pad (fst (step s o)) = l_pad s.
  Proof.
    intros HR. destruct o as [o|]; cbn [lite_step].
    - pose proof (bb_step_inv B (fun x => l_key x = l_key s /\ l_pad x = l_pad s)) as HI.
      specialize (HI) as HI.
      assert (HH : l_key (fst (bb_step B s o)) = l_key s /\ l_pad (fst (bb_step B s o)) = l_pad s).
      { apply HI; [| |auto].
        - intros a e r d x [Hk Hp]. cbn [bk_write lite_backend]. unfold lite_write_multi.
          destruct (over_max _ _); [auto|]. destruct (lite_write_loop _ _ _ _ _ _ _ _ _ _ _ _) as [[buf k]|]; auto.
        - intros n x [Hk Hp]. auto. }
      destruct (bb_step B s o); exact HH.
    - destruct (lite_reopen A bs iv_size check session_key padding_of rnd iv_fuel HE s c (l_rng s) HR) as [Ho _].
      rewrite Ho. auto.
  Qed.

  Lemma run_app {S O R} (st : S -> O -> S * R) s l1 l2 :
    run_ops st s (l1 ++ l2) =
      let '(s1, r1) := run_ops st s l1 in
      let '(s2, r2) := run_ops st s1 l2 in (s2, r1 ++ r2).
  Proof.
    revert s. induction l1 as [|o l1 IH]; intros s; cbn [app run_ops].
    - destruct (run_ops st s l2); reflexivity.
    - destruct (st s o) as [s1 r]. rewrite IH. destruct (run_ops st s1 l1) as [s2 r2].
      destruct (run_ops st s2 l2); reflexivity.
  Qed.

  Lemma run_key s c ops :
    LRep A bs iv_size check session_key padding_of s c -> length c <= lite_max_blocks * bs ->
    Forall (lop_within (lite_max_blocks * bs)) ops ->
    l_key (fst (run_ops step s ops)) = l_key s /\ l_pad (fst (run_ops step s ops)) = l_pad s.
  Proof.
    intros HR Hl. revert s c HR Hl. induction ops as [|o ops IH]; intros s c HR Hl Hall; [auto|].
    inversion Hall as [|? ? Ho Hops]; subst.
    destruct (lite_refines A bs iv_size check sparse session_key padding_of rnd iv_fuel HE s c [o] HR Hl
                ltac:(constructor; [exact Ho|constructor])) as (s1 & Hr & HR1 & Hl1).
    pose proof (step_key s c o HR) as [K1 K2].
    cbn [run_ops] in *. destruct (step s o) as [s1' r] eqn:Es. injection Hr as -> Hr. cbn [fst] in *.
    destruct (IH s1 _ HR1 Hl1 Hops) as [K3 K4].
    destruct (run_ops step s1 ops) as [s2 rs]. cbn [fst] in *. split; congruence.
  Qed.

  (** Every snapshot of a history represents the content at that moment. *)
  Lemma snapshot_rep s ops k :
    LRep A bs iv_size check session_key padding_of s [] ->
    Forall (lop_within (lite_max_blocks * bs)) ops ->
    let x := fst (run_ops step s (firstn k ops)) in
    let c := fst (run_ops lspec_step [] (firstn k ops)) in
    LRep A bs iv_size check session_key padding_of x c /\ length c <= lite_max_blocks * bs /\
    l_key x = l_key s /\ l_pad x = l_pad s.
  Proof.
    intros HR Hall x c.
    assert (Hk : Forall (lop_within (lite_max_blocks * bs)) (firstn k ops)).
    { rewrite <- (firstn_skipn k ops) in Hall. apply Forall_app in Hall. tauto. }
    destruct (lite_refines A bs iv_size check sparse session_key padding_of rnd iv_fuel HE s [] _ HR
                ltac:(cbn; lia) Hk) as (s1 & Hr & HR1 & Hl1).
    destruct (run_key s [] _ HR ltac:(cbn; lia) Hk) as [K1 K2].
    unfold x, c. rewrite Hr in *. auto.
  Qed.

  Lemma lite_aad_inj pad i j :
    i < lite_max_blocks -> j < lite_max_blocks -> lite_aad pad i = lite_aad pad j -> i = j.
  Proof.
    unfold lite_aad. intros Hi Hj H.
    apply app_inv_tail in H.
    pose proof lite_max_blocks_lt as Hm.
    apply Nat2N.inj. apply (to_le_inj 4); [| |exact H].
    all: cbn in Hm; cbn; lia.
  Qed.

  Lemma block_split eb :
    ov < length eb ->
    firstn iv_size eb ++ arr_read eb iv_size (length eb - mac_size - iv_size)
      ++ arr_read eb (length eb - mac_size) mac_size = eb.
  Proof.
    intros H. unfold arr_read.
    rewrite (firstn_all2 (skipn (length eb - mac_size) eb)) by (rewrite skipn_length; lia).
    replace (length eb - mac_size) with ((length eb - mac_size - iv_size) + iv_size) at 2 by lia.
    rewrite <- (skipn_skipn (length eb - mac_size - iv_size) iv_size), firstn_skipn.
    apply firstn_skipn.
  Qed.

  Lemma stored_block_piece s i :
    arr_read (l_file s) (l_header s + i * (bs + iv_size + 16)) (length (stored_block bs iv_size s i))
    = stored_block bs iv_size s i.
  Proof.
    unfold stored_block. rewrite arr_read_length. unfold arr_read.
    destruct (Nat.le_ge_cases (bs + iv_size + 16) (length (l_file s) - (l_header s + i * (bs + iv_size + 16)))).
    - rewrite Nat.min_l by lia. reflexivity.
    - rewrite Nat.min_r by lia. rewrite !firstn_all2 by (rewrite skipn_length; lia). reflexivity.
  Qed.

  Lemma stored_block_in s c j :
    LRep A bs iv_size check session_key padding_of s c ->
    0 < length (stored_block bs iv_size s j) -> j * bs < length c.
  Proof.
    intros HR Hl. destruct (Nat.lt_ge_cases (j * bs) (length c)) as [|Hge]; [assumption|].
    pose proof (phys_len_le A bs iv_size rnd iv_fuel HE (length c) j Hge) as Hpl.
    unfold stored_block in Hl. rewrite arr_read_length, (rep_len _ _ _ _ _ _ _ _ HR) in Hl.
    change (bs + iv_size + 16) with ubs in Hl. lia.
  Qed.

  (** Where a successfully read byte comes from. *)
  Theorem lite_read_genuine s0 ops file' k' off len out :
    check = true ->
    LRep A bs iv_size check session_key padding_of s0 [] ->
    Forall (lop_within (lite_max_blocks * bs)) ops ->
    let s' := mkLite file' (l_key s0) (l_pad s0) k' in
    lite_no_forgery A bs iv_size (l_key s0) (l_pad s0) (snapshots step s0 ops) file' ->
    bb_read B off len s' = Ok out ->
    exists src : nat -> bytes,
      (forall p, p < length out ->
         (off + p) mod bs < length (src ((off + p) / bs)) /\
         get out p = get (src ((off + p) / bs)) ((off + p) mod bs)) /\
      (forall i, src i = zeros (length (src i)) \/
         exists k, k <= length ops /\
           src i = arr_read (fst (run_ops lspec_step [] (firstn k ops))) (i * bs) bs).
  Proof.
    intros Hc HR Hall s' Hnf Hread.
    exists (fun i => match decode (l_key s0) (l_pad s0) i (stored_block bs iv_size s' i) with
                     | Ok pt => if (ov <? length (stored_block bs iv_size s' i)) &&
                                   (i <? lite_max_blocks) then pt else []
                     | Err _ => [] end).
    split.
    - intros p Hp. destruct (bb_read_inv _ _ _ _ Hread p Hp) as (pt & H1 & H2 & H3 & H4 & H5).
      cbn [l_key l_pad s'] in H1. rewrite H1.
      apply Nat.ltb_lt in H4, H5. rewrite H4, H5. cbn [andb]. auto.
    - intros i.
      destruct (decode (l_key s0) (l_pad s0) i (stored_block bs iv_size s' i)) as [pt|e] eqn:Ed;
        [|left; reflexivity].
      destruct (ov <? length (stored_block bs iv_size s' i)) eqn:El; [|left; reflexivity].
      destruct (i <? lite_max_blocks) eqn:Ei; [|left; reflexivity]. cbn [andb].
      apply Nat.ltb_lt in El, Ei.
      set (eb := stored_block bs iv_size s' i) in *.
      pose proof Ed as Ed'.
      unfold lite_decode_block in Ed. destruct (all_zero eb) eqn:Ez.
      { left. injection Ed as <-. rewrite zeros_length. reflexivity. }
      destruct (a_dec A (l_key s0) (firstn iv_size eb) (lite_aad (l_pad s0) i)
                  (arr_read eb iv_size (length eb - mac_size - iv_size))
                  (arr_read eb (length eb - mac_size) mac_size)) as [ok o] eqn:Ea.
      rewrite Hc in Ed. destruct ok; cbn [negb andb] in Ed; [|discriminate].
      right.
      pose proof (block_split eb El) as Hsp.
      destruct (Hnf (firstn iv_size eb) (lite_aad (l_pad s0) i)
                  (arr_read eb iv_size (length eb - mac_size - iv_size))
                  (arr_read eb (length eb - mac_size) mac_size)
                  (l_header s' + i * (bs + iv_size + 16))) as (x & j & Hx & Haad & Hblk).
      + rewrite firstn_length. lia.
      + rewrite arr_read_length. unfold mac_size in *. lia.
      + intros Hn. apply (f_equal (@length _)) in Hn. rewrite arr_read_length in Hn. cbn in Hn. lia.
      + rewrite Hsp. apply stored_block_piece.
      + rewrite Ea. reflexivity.
      + rewrite Hsp in Hblk. apply in_snapshots in Hx as (k & Hk & ->).
        destruct (snapshot_rep s0 ops k HR Hall) as (HRk & Hlk & Kk & Pk).
        set (xk := fst (run_ops step s0 (firstn k ops))) in *.
        set (ck := fst (run_ops lspec_step [] (firstn k ops))) in *.
        assert (Hj : j * bs < length ck).
        { eapply stored_block_in; [eassumption|]. rewrite Hblk. lia. }
        pose proof (rep_blk _ _ _ _ _ _ _ _ HRk j Hj) as Hdk.
        rewrite Kk, Pk in Hdk.
        assert (Hjm : j < lite_max_blocks).
        { destruct (Nat.lt_ge_cases j lite_max_blocks); [assumption|].
          pose proof (mul_le_mono lite_max_blocks j bs ltac:(assumption)). lia. }
        assert (j = i) as -> by (symmetry; eapply lite_aad_inj; eassumption).
        exists k. split; [exact Hk|].
        assert (Heb : arr_read (l_file xk) (l_header xk + i * ubs) ubs = eb) by exact Hblk.
        rewrite Heb, Ed' in Hdk. injection Hdk as ->. reflexivity.
  Qed.

  (** Length of what a successful read returns, for any stored bytes. *)
  Definition vlen (n : nat) : nat := n / ubs * bs + (n mod ubs - ov).

  Lemma ubs_pos : 0 < ubs.
  Proof. pose proof (bs_pos' _ _ _ _ _ HE). pose proof (ubs_eq bs iv_size). lia. Qed.

  Lemma vlen_qr q r : r < ubs -> vlen (q * ubs + r) = q * bs + (r - ov).
  Proof.
    intros H. unfold vlen. rewrite (Nat.add_comm (q * ubs)), Nat.div_add, Nat.mod_add by lia.
    rewrite Nat.div_small, Nat.mod_small by lia. lia.
  Qed.

  Lemma u_divmod n : exists q r, n = q * ubs + r /\ r < ubs.
  Proof.
    pose proof ubs_pos. exists (n / ubs), (n mod ubs).
    pose proof (Nat.div_mod n ubs ltac:(lia)). pose proof (Nat.mod_upper_bound n ubs ltac:(lia)). lia.
  Qed.

  Lemma vlen_small n : n <= ov -> vlen n = 0.
  Proof.
    intros H. pose proof (ubs_eq bs iv_size). pose proof (bs_pos' _ _ _ _ _ HE).
    replace n with (0 * ubs + n) by lia. rewrite vlen_qr by lia. lia.
  Qed.

  Lemma vlen_min m n : vlen (min (m * ubs) n) = min (m * bs) (vlen n).
  Proof.
    pose proof (ubs_eq bs iv_size) as HU. pose proof ubs_pos.
    destruct (u_divmod n) as (q & r & -> & Hr). rewrite vlen_qr by lia.
    destruct (Nat.le_gt_cases m q) as [Hm|Hm].
    - pose proof (mul_le_mono m q ubs Hm). pose proof (mul_le_mono m q bs Hm).
      rewrite !Nat.min_l by lia. replace (m * ubs) with (m * ubs + 0) by lia.
      rewrite vlen_qr by lia. lia.
    - pose proof (mul_lt_block q m ubs Hm). pose proof (mul_lt_block q m bs Hm).
      rewrite !Nat.min_r by lia. apply vlen_qr. lia.
  Qed.

  Lemma vlen_sub n a : vlen (n - a * ubs) = vlen n - a * bs.
  Proof.
    pose proof (ubs_eq bs iv_size) as HU. pose proof ubs_pos.
    destruct (u_divmod n) as (q & r & -> & Hr). rewrite vlen_qr by lia.
    destruct (Nat.le_gt_cases a q) as [Ha|Ha].
    - pose proof (mul_le_mono a q ubs Ha). pose proof (mul_le_mono a q bs Ha).
      replace (q * ubs + r - a * ubs) with ((q - a) * ubs + r) by (rewrite Nat.mul_sub_distr_r; lia).
      rewrite vlen_qr, Nat.mul_sub_distr_r by lia. lia.
    - pose proof (mul_lt_block q a ubs Ha). pose proof (mul_lt_block q a bs Ha).
      rewrite vlen_small by lia. lia.
  Qed.

  Lemma read_loop_length fuel key pad a buf out :
    lite_read_loop A bs iv_size check fuel key pad a buf = Ok out -> length out = vlen (length buf).
  Proof.
    pose proof (ubs_eq bs iv_size) as HU. pose proof (bs_pos' _ _ _ _ _ HE) as Hbs.
    revert a buf out. induction fuel as [|f IH]; intros a buf out H.
    { cbn in H. destruct buf; [|discriminate]. injection H as <-. rewrite vlen_small; cbn; lia. }
    cbn [lite_read_loop] in H. destruct buf as [|x buf'] eqn:Eb.
    { injection H as <-. rewrite vlen_small; cbn; lia. }
    rewrite <- Eb in *. clear Eb x buf'.
    destruct (Nat.leb_spec (min ubs (length buf)) (mac_size + iv_size)) as [Hle|Hgt].
    { injection H as <-. rewrite vlen_small; cbn [length]; lia. }
    destruct (decode key pad a (firstn (min ubs (length buf)) buf)) as [o1|e] eqn:Ed; [|discriminate].
    cbn [rbind] in H.
    destruct (lite_read_loop A bs iv_size check f key pad (S a) (skipn (min ubs (length buf)) buf))
      as [rest|e] eqn:Er; [|discriminate].
    cbn [rbind] in H. injection H as <-. apply IH in Er. rewrite app_length, Er.
    assert (Hfl : length (firstn (min ubs (length buf)) buf) = min ubs (length buf))
      by (rewrite firstn_length; lia).
    assert (Ho1 : length o1 = min ubs (length buf) - ov).
    { rewrite (decode_length A bs iv_size check session_key padding_of rnd iv_fuel HE _ _ _ _ _ ltac:(rewrite Hfl; lia) Ed), Hfl. reflexivity. }
    rewrite Ho1, skipn_length.
    destruct (Nat.le_gt_cases ubs (length buf)) as [Hb|Hb].
    - rewrite Nat.min_l by lia.
      replace (length buf - ubs) with (length buf - 1 * ubs) by lia. rewrite vlen_sub.
      pose proof (vlen_min 1 (length buf)) as Hv. rewrite (Nat.min_l (1 * ubs)) in Hv by lia.
      replace (1 * ubs) with (1 * ubs + 0) in Hv by lia. rewrite vlen_qr in Hv by lia. lia.
    - rewrite Nat.min_r by lia. rewrite Nat.sub_diag, (vlen_small 0) by lia.
      replace (length buf) with (0 * ubs + length buf) at 2 by lia. rewrite vlen_qr by lia. lia.
  Qed.

  Lemma read_multi_length s a b out :
    lite_read_multi A bs iv_size check a b s = Ok out ->
    length out = min ((b - a) * bs) (vlen (length (l_file s) - l_header s) - a * bs).
  Proof.
    unfold lite_read_multi. destruct (over_max _ _); [discriminate|]. intros H.
    apply read_loop_length in H. rewrite H, arr_read_length, vlen_min. f_equal.
    rewrite <- vlen_sub. f_equal. lia.
  Qed.

  Lemma size_vlen s : lite_size bs iv_size s = vlen (length (l_file s) - l_header s).
  Proof.
    unfold lite_size. destruct (Nat.leb_spec (length (l_file s)) (l_header s)) as [H|H].
    - rewrite vlen_small by lia. reflexivity.
    - unfold calculate_real_size, vlen. unfold l_header in *. fold (LiteModel.ubs bs iv_size).
      change (bs + iv_size + mac_size) with ubs.
      destruct (Nat.leb_spec (length (l_file s) - length (l_pad s)) lite_id_size); [lia|].
      replace (length (l_file s) - length (l_pad s) - lite_id_size)
        with (length (l_file s) - (lite_id_size + length (l_pad s))) by lia.
      destruct (Nat.ltb_spec (iv_size + mac_size) ((length (l_file s) - (lite_id_size + length (l_pad s))) mod ubs)); lia.
  Qed.

  Lemma bb_read_length s off len out :
    bb_read B off len s = Ok out -> length out = min len (lite_size bs iv_size s - off).
  Proof.
    rewrite size_vlen. set (v := vlen (length (l_file s) - l_header s)).
    pose proof (bs_pos' _ _ _ _ _ HE) as Hbs. unfold bb_read. cbn [bk_bs bk_read lite_backend].
    destruct (Nat.leb_spec len 0) as [H0|H0]. { intros H; injection H as <-. cbn. lia. }
    pose proof (Nat.div_mod off bs ltac:(lia)) as E1.
    pose proof (Nat.div_mod (off + len) bs ltac:(lia)) as E2.
    pose proof (Nat.mod_upper_bound off bs ltac:(lia)).
    pose proof (Nat.mod_upper_bound (off + len) bs ltac:(lia)).
    set (q1 := off / bs) in *. set (r1 := off mod bs) in *.
    set (q2 := (off + len) / bs) in *. set (r2 := (off + len) mod bs) in *.
    assert (Hq : q1 <= q2). { unfold q1, q2. apply Nat.div_le_mono; lia. }
    pose proof (mul_le_mono q1 q2 bs Hq).
    destruct ((r1 =? 0) && (r2 =? 0)) eqn:Eal.
    - apply andb_prop in Eal as [Er1 Er2]. apply Nat.eqb_eq in Er1, Er2.
      intros H'. apply read_multi_length in H'. fold v in H'. rewrite H', Nat.mul_sub_distr_r. lia.
    - intros H'. destruct (lite_read_multi _ _ _ _ _ _ _) as [raw|e] eqn:Er; [|discriminate].
      cbn [rbind] in H'. apply read_multi_length in Er. fold v in Er.
      assert (Hk : (q2 + b2nat (0 <? r2) - q1) * bs = q2 * bs + (if 0 <? r2 then bs else 0) - q1 * bs).
      { rewrite Nat.mul_sub_distr_r, Nat.mul_add_distr_r. destruct (0 <? r2); cbn [b2nat]; lia. }
      rewrite Hk in Er.
      destruct (Nat.leb_spec (length raw) r1) as [Hle|Hgt]; injection H' as <-.
      + cbn [length]. destruct (Nat.ltb_spec 0 r2); lia.
      + rewrite arr_read_length. destruct (Nat.ltb_spec 0 r2); lia.
  Qed.

  (** A block that differs from everything ever stored at its position (and is
      not a hole) makes every read that covers it fail. *)
  Theorem lite_altered_block_rejected s0 ops file' k' off len i p :
    check = true ->
    LRep A bs iv_size check session_key padding_of s0 [] ->
    Forall (lop_within (lite_max_blocks * bs)) ops ->
    let s' := mkLite file' (l_key s0) (l_pad s0) k' in
    lite_no_forgery A bs iv_size (l_key s0) (l_pad s0) (snapshots step s0 ops) file' ->
    all_zero (stored_block bs iv_size s' i) = false ->
    (forall x, In x (snapshots step s0 ops) -> stored_block bs iv_size x i <> stored_block bs iv_size s' i) ->
    off <= i * bs + p -> p < bs -> i * bs + p < off + len ->
    i * bs + p < lite_size bs iv_size s' ->
    exists e, bb_read B off len s' = Err e.
  Proof.
    intros Hc HR Hall s' Hnf Hnz Hne Hoff Hpb Hlen Hsz.
    destruct (bb_read B off len s') as [out|e] eqn:Er; [exfalso|exists e; reflexivity].
    pose proof (bb_read_length _ _ _ _ Er) as HL.
    pose proof (bs_pos' _ _ _ _ _ HE) as Hbs.
    destruct (bb_read_inv _ _ _ _ Er (i * bs + p - off) ltac:(lia)) as (pt & H1 & H2 & H3 & H4 & H5).
    replace (off + (i * bs + p - off)) with (i * bs + p) in * by lia.
    rewrite (div_eq A bs iv_size rnd iv_fuel HE) in * by lia.
    cbn [l_key l_pad s'] in H1.
    set (eb := stored_block bs iv_size s' i) in *.
    unfold lite_decode_block in H1. rewrite Hnz in H1.
    destruct (a_dec A (l_key s0) (firstn iv_size eb) (lite_aad (l_pad s0) i)
                  (arr_read eb iv_size (length eb - mac_size - iv_size))
                  (arr_read eb (length eb - mac_size) mac_size)) as [ok o] eqn:Ea.
    rewrite Hc in H1. destruct ok; cbn [negb andb] in H1; [|discriminate].
    pose proof (block_split eb H4) as Hsp.
    destruct (Hnf (firstn iv_size eb) (lite_aad (l_pad s0) i)
                  (arr_read eb iv_size (length eb - mac_size - iv_size))
                  (arr_read eb (length eb - mac_size) mac_size)
                  (l_header s' + i * (bs + iv_size + 16))) as (x & j & Hx & Haad & Hblk).
    - rewrite firstn_length. lia.
    - rewrite arr_read_length. unfold mac_size in *. lia.
    - intros Hn. apply (f_equal (@length _)) in Hn. rewrite arr_read_length in Hn. cbn in Hn. lia.
    - rewrite Hsp. apply stored_block_piece.
    - rewrite Ea. reflexivity.
    - rewrite Hsp in Hblk. apply (Hne x Hx).
      apply in_snapshots in Hx as (k & Hk & ->).
      destruct (snapshot_rep s0 ops k HR Hall) as (HRk & Hlk & Kk & Pk).
      set (xk := fst (run_ops step s0 (firstn k ops))) in *.
      set (ck := fst (run_ops lspec_step [] (firstn k ops))) in *.
      assert (Hj : j * bs < length ck) by (eapply stored_block_in; [eassumption|rewrite Hblk; lia]).
      assert (Hjm : j < lite_max_blocks).
      { destruct (Nat.lt_ge_cases j lite_max_blocks); [assumption|].
        pose proof (mul_le_mono lite_max_blocks j bs ltac:(assumption)). lia. }
      assert (j = i) as -> by (symmetry; eapply lite_aad_inj; eassumption).
      exact Hblk.
  Qed.

End LiteTamper.

(** Wrappers used by the property files. *)
Section LiteTop.
  Variable A : aead.
  Variable bs iv_size : nat.
  Variable check sparse : bool.
  Variable session_key : bytes -> bytes.
  Variable padding_of : bytes -> nat.
  Variable rnd : nat -> nat -> bytes.
  Variable iv_fuel : nat.
  Hypothesis HE : lite_env_ok A bs iv_size rnd iv_fuel.
  Notation step := (lite_step A bs iv_size check sparse session_key padding_of rnd iv_fuel).
  Notation open := (lite_open bs iv_size session_key padding_of rnd).
  Notation limit := (lite_max_blocks * bs).

  Lemma lite_history k ops :
    Forall (lop_within limit) ops ->
    exists s0, open [] k = Ok s0 /\
      snd (run_ops step s0 ops) = snd (run_ops lspec_step [] ops).
  Proof.
    intros Hall.
    destruct (lite_open_fresh A bs iv_size check session_key padding_of rnd iv_fuel HE k) as (s0 & Ho & HR).
    exists s0. split; [exact Ho|].
    destruct (lite_refines A bs iv_size check sparse session_key padding_of rnd iv_fuel HE s0 [] ops HR
                ltac:(cbn; lia) Hall) as (s1 & Hr & _). rewrite Hr. reflexivity.
  Qed.

  Lemma lite_reopen_history k ops k2 ops2 s0 :
    open [] k = Ok s0 -> Forall (lop_within limit) ops -> Forall (lop_within limit) ops2 ->
    exists s1, open (l_file (fst (run_ops step s0 ops))) k2 = Ok s1 /\
      snd (run_ops step s1 ops2) = snd (run_ops lspec_step (fst (run_ops lspec_step [] ops)) ops2).
  Proof.
    intros Ho H1 H2.
    destruct (lite_open_fresh A bs iv_size check session_key padding_of rnd iv_fuel HE k) as (s0' & Ho' & HR).
    rewrite Ho in Ho'. injection Ho' as <-.
    destruct (lite_refines A bs iv_size check sparse session_key padding_of rnd iv_fuel HE s0 [] ops HR
                ltac:(cbn; lia) H1) as (s1 & Hr & HR1 & Hl1). rewrite Hr. cbn [fst].
    destruct (lite_reopen A bs iv_size check session_key padding_of rnd iv_fuel HE s1 _ k2 HR1) as [Hop HR2].
    rewrite Hop. eexists. split; [reflexivity|].
    destruct (lite_refines A bs iv_size check sparse session_key padding_of rnd iv_fuel HE _ _ ops2 HR2
                Hl1 H2) as (s2 & Hr2 & _). rewrite Hr2. reflexivity.
  Qed.

  Lemma open_pad0 f k s0 : (forall id, padding_of id = 0) -> open f k = Ok s0 -> l_pad s0 = [].
  Proof.
    intros Hp. unfold lite_open. destruct (_ || _); [discriminate|]. destruct (_ <? _); [discriminate|].
    destruct (_ =? _).
    - rewrite Hp. cbn. intros H; injection H as <-. reflexivity.
    - destruct (negb _); [discriminate|]. rewrite Hp. cbn. intros H; injection H as <-. reflexivity.
  Qed.

  Lemma lite_stat_size k ops s0 :
    (forall id, padding_of id = 0) ->
    open [] k = Ok s0 -> Forall (lop_within limit) ops ->
    calculate_real_size (length (l_file (fst (run_ops step s0 ops)))) bs iv_size
    = length (fst (run_ops lspec_step [] ops)).
  Proof.
    intros Hp Ho H1.
    destruct (lite_open_fresh A bs iv_size check session_key padding_of rnd iv_fuel HE k) as (s0' & Ho' & HR).
    rewrite Ho in Ho'. injection Ho' as <-.
    destruct (lite_refines A bs iv_size check sparse session_key padding_of rnd iv_fuel HE s0 [] ops HR
                ltac:(cbn; lia) H1) as (s1 & Hr & HR1 & Hl1).
    destruct (run_key A bs iv_size check sparse session_key padding_of rnd iv_fuel HE s0 [] ops HR ltac:(cbn; lia) H1)
      as [_ Hpad].
    rewrite Hr in *. cbn [fst] in *. rewrite (open_pad0 _ _ _ Hp Ho) in Hpad.
    rewrite <- (real_size_ok A bs iv_size check session_key padding_of rnd iv_fuel HE s1 _ HR1).
    unfold lite_size, l_header. rewrite Hpad. cbn [length].
    destruct (Nat.leb_spec (length (l_file s1)) (lite_id_size + 0)) as [Hle|Hgt].
    - unfold calculate_real_size. destruct (Nat.leb_spec (length (l_file s1)) lite_id_size); [reflexivity|lia].
    - rewrite Nat.sub_0_r. reflexivity.
  Qed.
End LiteTop.

Lemma lite_genuine_top
  (A : aead) (bs iv_size : nat) (sparse : bool) (session_key : bytes -> bytes)
  (padding_of : bytes -> nat) (rnd : nat -> nat -> bytes) (iv_fuel : nat) :
  lite_env_ok A bs iv_size rnd iv_fuel ->
  forall k s0 ops file' k' off len out,
    lite_open bs iv_size session_key padding_of rnd [] k = Ok s0 ->
    Forall (lop_within (lite_max_blocks * bs)) ops ->
    lite_no_forgery A bs iv_size (l_key s0) (l_pad s0)
      (snapshots (lite_step A bs iv_size true sparse session_key padding_of rnd iv_fuel) s0 ops) file' ->
    bb_read (lite_backend A bs iv_size true sparse rnd iv_fuel) off len
            (mkLite file' (l_key s0) (l_pad s0) k') = Ok out ->
    exists src : nat -> bytes,
      (forall p, p < length out ->
         (off + p) mod bs < length (src ((off + p) / bs)) /\
         get out p = get (src ((off + p) / bs)) ((off + p) mod bs)) /\
      (forall i, src i = zeros (length (src i)) \/
         exists n, n <= length ops /\
           src i = arr_read (fst (run_ops lspec_step [] (firstn n ops))) (i * bs) bs).
Proof.
  intros HE k s0 ops file' k' off len out Ho Hall Hnf Hr.
  destruct (lite_open_fresh A bs iv_size true session_key padding_of rnd iv_fuel HE k) as (s0' & Ho' & HR).
  rewrite Ho in Ho'. injection Ho' as <-.
  eapply lite_read_genuine; try eassumption; reflexivity.
Qed.

Lemma lite_altered_top
  (A : aead) (bs iv_size : nat) (sparse : bool) (session_key : bytes -> bytes)
  (padding_of : bytes -> nat) (rnd : nat -> nat -> bytes) (iv_fuel : nat) :
  lite_env_ok A bs iv_size rnd iv_fuel ->
  forall k s0 ops file' k' off len i p,
    lite_open bs iv_size session_key padding_of rnd [] k = Ok s0 ->
    Forall (lop_within (lite_max_blocks * bs)) ops ->
    let step := lite_step A bs iv_size true sparse session_key padding_of rnd iv_fuel in
    let s' := mkLite file' (l_key s0) (l_pad s0) k' in
    lite_no_forgery A bs iv_size (l_key s0) (l_pad s0) (snapshots step s0 ops) file' ->
    all_zero (stored_block bs iv_size s' i) = false ->
    (forall x, In x (snapshots step s0 ops) -> stored_block bs iv_size x i <> stored_block bs iv_size s' i) ->
    off <= i * bs + p -> p < bs -> i * bs + p < off + len ->
    i * bs + p < lite_size bs iv_size s' ->
    exists e, bb_read (lite_backend A bs iv_size true sparse rnd iv_fuel) off len s' = Err e.
Proof.
  intros HE k s0 ops file' k' off len i p Ho Hall step s' Hnf Hz Hne H1 H2 H3 H4.
  destruct (lite_open_fresh A bs iv_size true session_key padding_of rnd iv_fuel HE k) as (s0' & Ho' & HR).
  rewrite Ho in Ho'. injection Ho' as <-.
  eapply lite_altered_block_rejected; try eassumption; reflexivity.
Qed.
