(** Crash locality (C09) for the two formats. *)
From Verif Require Import Base BaseLemmas StreamSpec BlockModel BlockProofs LiteModel LiteProofs LiteTamper
  FullStreamModel FullStreamProofs CrashModel CrashSpec CrashProofs.

(** The physical operations account for every change of the stored files. *)
Section Accounted.
  Context {P : Type}.
  Variable B : backend.
  Variable on_write : nat -> nat -> nat -> bytes -> bk_state B -> list P.
  Variable on_adjust : nat -> bk_state B -> list P.
  Notation T := (traced B on_write on_adjust).
  Variable files : Type.
  Variable stored : bk_state B -> files.
  Variable perform1 : files -> P -> files.
  Hypothesis Hw : forall a e r d s, stored (fst (bk_write B a e r d s)) = fold_left perform1 (on_write a e r d s) (stored s).
  Hypothesis Ha : forall n s, stored (fst (bk_adjust B n s)) = fold_left perform1 (on_adjust n s) (stored s).
  Lemma accounted s o : stored (fst (bb_step B s o)) = fold_left perform1 (trace B on_write on_adjust s o) (stored s).
  Proof.
    pose proof (bb_step_inv T (fun x => stored (fst x) = fold_left perform1 (snd x) (stored s))) as H.
    assert (Hs : stored (fst (fst (bb_step T (s, []) o))) = fold_left perform1 (snd (fst (bb_step T (s, []) o))) (stored s)).
    { apply H; [| |reflexivity].
      - intros a e r d [s1 l1] Hx. cbn [traced bk_write fst snd] in *. specialize (Hw a e r d s1). destruct (bk_write B a e r d s1) as [s2 x]. cbn [fst snd] in *.
        rewrite fold_left_app, <- Hx. exact Hw.
      - intros n [s1 l1] Hx. cbn [traced bk_adjust fst snd] in *. specialize (Ha n s1). destruct (bk_adjust B n s1) as [s2 x]. cbn [fst snd] in *.
        rewrite fold_left_app, <- Hx. exact Ha. }
    pose proof (tr_step B on_write on_adjust s [] o) as E. unfold plain in E. rewrite <- E. exact Hs.
  Qed.
End Accounted.

(** Blocks [lo, hi) of [u] bytes after [hdr] are all that is written to. *)
Definition in_blocks (hdr u lo : nat) (hi : option nat) (p : phys) : Prop :=
  match p with
  | PWrite o d => hdr + lo * u <= o /\ match hi with Some t => o + length d <= hdr + t * u | None => True end
  | PResize n => hi = None /\ hdr + lo * u <= n
  end.
Lemma blocks_before f l f' hdr u lo hi x m :
  left_over f l f' -> Forall (in_blocks hdr u lo hi) l -> hdr + lo * u <= length f -> x + m <= hdr + lo * u -> arr_read f' x m = arr_read f x m.
Proof.
  intros HL HT HK Hx. rewrite Forall_forall in HT. apply (left_before _ _ _ _ _ _ HL HK); [|exact Hx].
  intros p Hp. specialize (HT p Hp). destruct p; cbn [in_blocks] in HT; apply HT.
Qed.
Lemma blocks_after f l f' hdr u lo t x m :
  left_over f l f' -> Forall (in_blocks hdr u lo (Some t)) l -> hdr + t * u <= length f -> hdr + t * u <= x -> arr_read f' x m = arr_read f x m.
Proof.
  intros HL HT HK Hx. rewrite Forall_forall in HT. apply (left_after _ _ _ (hdr + t * u) _ _ HL HK); [|exact Hx].
  intros p Hp. specialize (HT p Hp). destruct p; cbn [in_blocks] in HT; [apply HT|destruct HT; discriminate].
Qed.

Lemma first_le bs n o : 0 < bs -> first_touched bs n o * bs <= n.
Proof.
  intros H. assert (X : forall m, min m n / bs * bs <= n).
  { intros m. pose proof (Nat.div_mod (min m n) bs ltac:(lia)). nia. }
  destruct o; cbn [first_touched]; first [apply X|lia].
Qed.

(** ** Lite *)
Section LiteCrash.
  Variable A : aead.
  Variable bs iv_size : nat.
  Variable check sparse : bool.
  Variable session_key : bytes -> bytes.
  Variable padding_of : bytes -> nat.
  Variable rnd : nat -> nat -> bytes.
  Variable iv_fuel : nat.
  Hypothesis HE : lite_env_ok A bs iv_size rnd iv_fuel.
  Notation ubs := (ubs bs iv_size).
  Notation B := (lite_backend A bs iv_size check sparse rnd iv_fuel).
  Notation LRep := (LRep A bs iv_size check session_key padding_of).
  Notation ltrace := (lite_trace A bs iv_size check sparse rnd iv_fuel).

  Lemma lite_accounted s o : l_file (fst (bb_step B s o)) = replay (l_file s) (ltrace s o).
  Proof.
    apply (accounted B (lite_on_write A bs iv_size rnd iv_fuel) (lite_on_adjust bs iv_size) bytes l_file perform).
    - intros a e r d x. cbn [lite_backend bk_write]. unfold lite_write_multi, lite_on_write. destruct (over_max _ _); [reflexivity|].
      destruct (lite_write_loop _ _ _ _ _ _ _ _ _ _ _ _) as [[buf k]|]; reflexivity.
    - reflexivity.
  Qed.

  Lemma next_iv_len fuel k iv k1 : next_iv iv_size rnd fuel k = Ok (iv, k1) -> length iv = iv_size.
  Proof.
    revert k. induction fuel as [|g IHg]; intros k; cbn [next_iv]; [discriminate|].
    destruct (all_zero _); [apply IHg|]. intros H. injection H as <- _. apply (le_rnd _ _ _ _ _ HE).
  Qed.

  Lemma lite_loop_len fuel key pad block rem input k buf k' :
    lite_write_loop A bs iv_size rnd iv_fuel fuel key pad block rem input k = Ok (buf, k') -> length buf <= rem.
  Proof.
    revert block rem input k buf k'. induction fuel as [|f IH]; intros block rem input k buf k'; cbn [lite_write_loop].
    - destruct (Nat.eqb_spec rem 0); [|discriminate]. intros H. injection H as <- <-. cbn. lia.
    - destruct (Nat.eqb_spec rem 0). { intros H. injection H as <- <-. cbn. lia. }
      set (u := min ubs rem). set (v := u - mac_size - iv_size).
      assert (X : forall eb k1, length eb <= u ->
        rbind (lite_write_loop A bs iv_size rnd iv_fuel f key pad (S block) (rem - u) (skipn v input) k1) (fun '(rest, k'') => Ok (eb ++ rest, k'')) = Ok (buf, k') -> length buf <= rem).
      { intros eb k1 He. destruct (lite_write_loop _ _ _ _ _ _ _ _ _ _ _ _) as [[rest k2]|] eqn:El; cbn [rbind]; [|discriminate].
        intros H. injection H as <- <-. apply IH in El. rewrite app_length. lia. }
      destruct (Nat.ltb_spec 0 v).
      + destruct (next_iv iv_size rnd iv_fuel k) as [[iv k1]|] eqn:En; cbn [rbind]; [|discriminate]. apply X.
        pose proof (next_iv_len _ _ _ _ En) as Hiv.
        rewrite (encode_length A bs iv_size session_key padding_of rnd iv_fuel HE _ _ _ _ _ Hiv), firstn_length. unfold v in *. lia.
      + cbn [rbind]. apply X. rewrite zeros_length. lia.
  Qed.

  Lemma lite_trace_in s c o : LRep s c ->
    Forall (in_blocks (l_header s) ubs (first_touched bs (length c) o) (last_touched bs (length c) o)) (ltrace s o).
  Proof.
    intros HR. pose proof (le_bs _ _ _ _ _ HE) as Hb. pose proof (real_size_ok _ _ _ _ _ _ _ _ HE _ _ HR) as Hsz.
    apply (good_step B) with (J := fun x => l_header x = l_header s) (lo := first_touched bs (length c) o) (hi := last_touched bs (length c) o); cbn [bk_bs bk_size bk_read bk_write bk_adjust lite_backend bk_state].
    - lia.
    - intros a e r d x Hx. unfold lite_write_multi. destruct (over_max _ _); [exact Hx|].
      destruct (lite_write_loop _ _ _ _ _ _ _ _ _ _ _ _) as [[buf k]|]; exact Hx.
    - intros n x Hx. exact Hx.
    - intros a x out Hx Hr. apply (read_multi_length A bs iv_size check session_key padding_of rnd iv_fuel HE) in Hr. lia.
    - intros a e r d x Hx Hlo Hae Hr Hup. unfold lite_on_write. destruct (over_max _ _); [constructor|].
      destruct (lite_write_loop _ _ _ _ _ _ _ _ _ _ _ _) as [[buf k]|] eqn:El; [|constructor].
      apply lite_loop_len in El. constructor; [|constructor]. cbn [in_blocks]. rewrite Hx.
      pose proof (mul_le_mono _ _ ubs Hlo). split; [lia|]. unfold upto in Hup. destruct (last_touched _ _ _) as [t|]; [|exact I].
      pose proof (mul_le_mono _ _ ubs Hup) as Hm. rewrite Nat.mul_sub_distr_r in El. pose proof (mul_le_mono _ _ ubs Hae).
      pose proof (ubs_eq bs iv_size). rewrite Nat.mul_add_distr_r in Hm.
      destruct (Nat.leb_spec r 0), (Nat.ltb_spec 0 r); cbn [b2nat] in Hm; lia.
    - intros n x Hx Hh Hlo. constructor; [|constructor]. cbn [in_blocks]. split; [exact Hh|]. rewrite Hx.
      assert (Hq : first_touched bs (length c) o <= n / bs) by (apply Nat.div_le_lower_bound; lia).
      pose proof (mul_le_mono _ _ ubs Hq). lia.
    - reflexivity.
    - rewrite Hsz. apply step_range. lia.
  Qed.

  (** The header alone decides about opening. *)
  Lemma open_hdr f id pad k :
    length id = lite_id_size -> firstn (lite_id_size + length pad) f = id ++ pad -> padding_of id = length pad ->
    lite_open bs iv_size session_key padding_of rnd f k = Ok (mkLite f (session_key id) pad k).
  Proof.
    intros I1 I2 I4. unfold lite_open. pose proof (le_bs _ _ _ _ _ HE). pose proof (le_iv_min _ _ _ _ _ HE).
    pose proof (le_iv_max _ _ _ _ _ HE).
    destruct (Nat.ltb_spec iv_size 12); [lia|]. destruct (Nat.ltb_spec 32 iv_size); [lia|]. cbn [orb].
    destruct (Nat.ltb_spec bs 32); [lia|].
    assert (Hid : arr_read f 0 lite_id_size = id).
    { unfold arr_read. cbn [skipn].
      replace (firstn lite_id_size f) with (firstn lite_id_size (firstn (lite_id_size + length pad) f)).
      - rewrite I2, firstn_app, I1, Nat.sub_diag, firstn_all2 by lia. apply app_nil_r.
      - rewrite firstn_firstn, Nat.min_l by lia. reflexivity. }
    assert (Hpad : arr_read f lite_id_size (padding_of id) = pad).
    { unfold arr_read. rewrite I4. rewrite firstn_skipn_comm.
      rewrite I2, skipn_app, I1, Nat.sub_diag, skipn_all2 by lia. reflexivity. }
    rewrite Hid, I1. cbn [lite_id_size Nat.eqb negb].
    change 16 with lite_id_size. rewrite Hpad, I4, Nat.eqb_refl. cbn [negb]. rewrite andb_false_r. reflexivity.
  Qed.

  Lemma lite_crash_same s c o f' k :
    LRep s c -> length c <= lite_max_blocks * bs -> left_over (l_file s) (ltrace s o) f' ->
    lite_open bs iv_size session_key padding_of rnd f' k = Ok (mkLite f' (l_key s) (l_pad s) k) /\
      forall off len, untouched bs (length c) o off len -> bb_read B off len (mkLite f' (l_key s) (l_pad s) k) = Ok (arr_read c off len).
  Proof.
    intros HR Hlim HL. pose proof (lite_trace_in s c o HR) as HT.
    pose proof (le_bs _ _ _ _ _ HE) as Hb. destruct (rep_hdr _ _ _ _ _ _ _ _ HR) as (id & I1 & I2 & I3 & I4).
    pose proof (rep_len _ _ _ _ _ _ _ _ HR) as HLen.
    assert (Hlo : first_touched bs (length c) o * bs <= length c).
    { apply first_le. lia. }
    pose proof (phys_len_ge A bs iv_size rnd iv_fuel HE _ _ Hlo) as Hpl.
    set (lo := first_touched bs (length c) o) in *. set (K := l_header s + lo * ubs) in *.
    assert (BK : forall x m, x + m <= K -> arr_read f' x m = arr_read (l_file s) x m).
    { intros x m Hx. apply (blocks_before _ _ _ _ _ _ _ _ _ HL HT); unfold K in *; lia. }
    assert (Ho : lite_open bs iv_size session_key padding_of rnd f' k = Ok (mkLite f' (session_key id) (l_pad s) k)).
    { apply open_hdr; auto. specialize (BK 0 (l_header s) ltac:(lia)). unfold arr_read in BK. cbn [skipn] in BK. unfold l_header in *. rewrite BK. exact I2. }
    rewrite I3 in Ho. split; [exact Ho|]. intros off len Hu.
    rewrite <- (bb_read_ok B LRep (lite_backend_ok A bs iv_size check sparse session_key padding_of rnd iv_fuel HE) s c off len HR).
    2: { rewrite bk_maxn_lite. cbn [bk_bs lite_backend]. destruct Hu. lia. }
    apply bb_read_local; [cbn [bk_bs lite_backend]; lia|]. cbn [bk_bs lite_backend bk_read]. intros a b Hab Hr Ha.
    unfold lite_read_multi. destruct (over_max _ _); [reflexivity|]. cbn [l_file l_key l_pad].
    change (l_header (mkLite f' (l_key s) (l_pad s) k)) with (l_header s).
    assert (E : arr_read f' (l_header s + ubs * a) ((b - a) * ubs) = arr_read (l_file s) (l_header s + ubs * a) ((b - a) * ubs)); [|rewrite E; reflexivity].
    destruct (untouched_split bs (length c) o off len a b ltac:(lia) Hu Hab Hr) as [Hi|[Hbf|(t & Ht & Hta)]].
    - assert (E0 : ltrace s o = []).
      { apply idle_trace. cbn [bk_size lite_backend]. rewrite (real_size_ok _ _ _ _ _ _ _ _ HE _ _ HR). exact Hi. }
      rewrite E0 in HL. apply left_nil in HL. now rewrite HL.
    - apply BK. unfold K. fold lo in Hbf. pose proof (mul_le_mono _ _ ubs Hbf). rewrite Nat.mul_sub_distr_r. pose proof (mul_lt_block a b ubs Hab). lia.
    - pose proof (mul_le_mono _ _ bs Hta) as Htb. pose proof (mul_le_mono _ _ ubs Hta) as Htu. destruct Hu as [Hu _].
      assert (Htl : t * bs <= length c) by (destruct (Hr a ltac:(lia)); lia).
      pose proof (phys_len_ge A bs iv_size rnd iv_fuel HE _ _ Htl) as Hpt.
      rewrite Ht in HT. apply (blocks_after _ _ _ _ _ _ _ _ _ HL HT); lia.
  Qed.
  Lemma lite_crash s c o f' k :
    LRep s c -> length c <= lite_max_blocks * bs -> left_over (l_file s) (ltrace s o) f' ->
    exists s1, lite_open bs iv_size session_key padding_of rnd f' k = Ok s1 /\
      forall off len, untouched bs (length c) o off len -> bb_read B off len s1 = Ok (arr_read c off len).
  Proof. intros HR Hlim HL. exists (mkLite f' (l_key s) (l_pad s) k). exact (lite_crash_same s c o f' k HR Hlim HL). Qed.
End LiteCrash.

(** ** Full *)
Section FullCrash.
  Variable A : aead.
  Variable hmac : bytes -> bytes -> bytes.
  Variable dkey mkey id : bytes.
  Variable bs iv_size header_size : nat.
  Variable check sparse : bool.
  Variable rnd : nat -> nat -> bytes.
  Variable iv_fuel : nat.
  Hypothesis HE : full_env_ok A hmac bs iv_size rnd iv_fuel.
  Notation ms := (meta_size iv_size).
  Notation ehs := (enc_header_size iv_size header_size).
  Notation B ck := (full_backend A dkey id bs iv_size header_size ck sparse rnd iv_fuel).
  Notation FRep := (FRep A hmac dkey mkey id bs iv_size header_size).
  Notation fstep := (full_step A hmac dkey mkey id bs iv_size header_size check sparse rnd iv_fuel).
  Notation ftrace := (full_trace A hmac dkey mkey id bs iv_size header_size check sparse rnd iv_fuel).

  Definition perform2 (f : bytes * bytes) (p : part) : bytes * bytes :=
    match p with PData q => (perform (fst f) q, snd f) | PMeta q => (fst f, perform (snd f) q) end.
  Lemma replay2 l : forall f, fold_left perform2 l f = (replay (fst f) (data_part l), replay (snd f) (meta_part l)).
  Proof.
    induction l as [|[p|p] l IH]; intros f; cbn [fold_left data_part meta_part flat_map app]; [now destruct f| |]; rewrite IH; reflexivity.
  Qed.

  Lemma full_accounted s o :
    f_data (fst (fstep s o)) = replay (f_data s) (data_part (ftrace s o)) /\
    f_meta (fst (fstep s o)) = replay (f_meta s) (meta_part (ftrace s o)).
  Proof.
    destruct o as [o|h|len| |]; cbn [full_step full_trace].
    - pose proof (accounted (B check) (full_on_write A dkey id bs iv_size header_size rnd iv_fuel) (full_on_adjust bs iv_size header_size)
        (bytes * bytes) (fun s => (f_data s, f_meta s)) perform2) as H.
      assert (H1 : forall a e r d s0, (fun s => (f_data s, f_meta s)) (fst (bk_write (B check) a e r d s0)) =
        fold_left perform2 (full_on_write A dkey id bs iv_size header_size rnd iv_fuel a e r d s0) ((fun s => (f_data s, f_meta s)) s0)).
      { intros a e r d s0. cbn [bk_write full_backend]. unfold full_write_multi, full_on_write. destruct (over_max _ _); [reflexivity|].
        destruct (full_write_loop _ _ _ _ _ _ _ _ _ _) as [[[d1 m1] k1]|]; reflexivity. }
      assert (H2 : forall n s0, (fun s => (f_data s, f_meta s)) (fst (bk_adjust (B check) n s0)) =
        fold_left perform2 (full_on_adjust bs iv_size header_size n s0) ((fun s => (f_data s, f_meta s)) s0)) by reflexivity.
      specialize (H H1 H2 s o). cbv beta in H. rewrite replay2 in H. cbn [fst snd] in H. injection H as E1 E2.
      destruct (bb_step (B check) s o). cbn [fst] in *. split; assumption.
    - unfold full_write_header. destruct (header_size <? length h); [split; reflexivity|]. destruct (a_enc _ _ _ _ _). split; reflexivity.
    - split; reflexivity.
    - unfold full_flush, hmac_flush. destruct (f_dirty s); [|split; reflexivity]. destruct (mac_message id (f_meta s)); split; reflexivity.
    - unfold full_flush, hmac_flush. destruct (f_dirty s) eqn:Ed.
      + rewrite mac_message_ok. cbn [fst f_data f_meta f_rng]. unfold full_open. destruct (hmac_open _ _ _ _ _); split; reflexivity.
      + cbn [fst f_data f_meta f_rng]. unfold full_open. destruct (hmac_open _ _ _ _ _); split; reflexivity.
  Qed.

  Lemma full_loop_len fuel input k d m k' :
    full_write_loop A dkey id bs iv_size rnd iv_fuel fuel input k = Ok (d, m, k') ->
    length d = length input /\ length m = ms * nb bs (length input).
  Proof.
    pose proof (fbs_pos _ _ _ _ _ _ HE) as Hbs.
    revert input k d m k'. induction fuel as [|f IH]; intros input k d m k'; cbn [full_write_loop].
    - destruct input; [|discriminate]. intros H. injection H as <- <- <-. cbn [length]. rewrite (nb_0 _ _ _ _ _ _ HE). lia.
    - destruct input as [|x input]. { intros H. injection H as <- <- <-. cbn [length]. rewrite (nb_0 _ _ _ _ _ _ HE). lia. }
      set (inp := x :: input).
      destruct (next_iv iv_size rnd iv_fuel k) as [[iv k1]|] eqn:En; cbn [rbind]; [|discriminate].
      assert (Hiv : length iv = iv_size).
      { assert (X : forall fu kk, next_iv iv_size rnd fu kk = Ok (iv, k1) -> length iv = iv_size).
        { induction fu as [|g IHg]; intros kk; cbn [next_iv]; [discriminate|]. destruct (all_zero _); [apply IHg|]. intros H. injection H as <- _. apply (fe_rnd _ _ _ _ _ _ HE). }
        eapply X, En. }
      pose proof (aead_ct_len _ (fe_aead _ _ _ _ _ _ HE) dkey iv id (firstn bs inp)) as L1.
      pose proof (aead_mac_len _ (fe_aead _ _ _ _ _ _ HE) dkey iv id (firstn bs inp)) as L2.
      destruct (a_enc A dkey iv id (firstn bs inp)) as [ct mac]. cbn [fst snd] in *.
      destruct (full_write_loop A dkey id bs iv_size rnd iv_fuel f (skipn bs inp) k1) as [[[d1 m1] k2]|] eqn:El; cbn [rbind]; [|discriminate].
      intros H. injection H as <- <- <-. apply IH in El as [E1 E2]. rewrite !app_length, L1, L2, E1, E2, firstn_length, skipn_length.
      split; [lia|]. rewrite Hiv. change (iv_size + 16) with ms.
      assert (Hlen : 0 < length inp) by (cbn; lia).
      assert (Hn : nb bs (length inp) = 1 + nb bs (length inp - bs)).
      { destruct (Nat.le_gt_cases (length inp) bs) as [Hle|Hgt].
        - replace (length inp - bs) with 0 by lia. rewrite (nb_0 _ _ _ _ _ _ HE). replace (length inp) with (0 * bs + length inp) by lia.
          rewrite (nb_qr _ _ _ _ _ _ HE) by lia. destruct (Nat.eqb_spec (length inp) 0); lia.
        - unfold nb. replace (length inp + bs - 1) with (length inp - bs + bs - 1 + 1 * bs) by lia. rewrite Nat.div_add by lia. lia. }
      rewrite Hn. lia.
  Qed.

  Lemma full_read_len ck a s out : full_read_multi A dkey id bs iv_size header_size ck a (a + 1) s = Ok out -> length out <= bs.
  Proof.
    unfold full_read_multi. destruct (a =? a + 1). { intros H. injection H as <-. cbn. lia. } destruct (over_max _ _); [discriminate|].
    set (data := arr_read _ _ _). set (mt := hmac_read _ _ _).
    destruct (length data <=? 0). { intros H. injection H as <-. cbn. lia. } destruct (negb _); [discriminate|].
    assert (L : forall fuel data meta out, full_read_loop A dkey id bs iv_size ck fuel data meta = Ok out -> length out = length data).
    { intros fuel. induction fuel as [|f IH]; intros data0 meta out0; cbn [full_read_loop].
      - destruct data0; [|discriminate]. intros H. injection H as <-. reflexivity.
      - destruct data0 as [|x data0]. { intros H. injection H as <-. reflexivity. } set (dd := x :: data0).
        destruct (full_decode_block A dkey id iv_size ck (firstn bs dd) (firstn ms meta)) as [o1|] eqn:Ed; cbn [rbind]; [|discriminate].
        destruct (full_read_loop A dkey id bs iv_size ck f (skipn bs dd) (skipn ms meta)) as [o2|] eqn:El; cbn [rbind]; [|discriminate].
        intros H. injection H as <-. apply IH in El. rewrite app_length, El, skipn_length.
        assert (Hd : length o1 = length (firstn bs dd)).
        { unfold full_decode_block in Ed. destruct (_ && _). { injection Ed as <-. apply zeros_length. }
          pose proof (aead_dec_len _ (fe_aead _ _ _ _ _ _ HE) dkey (firstn iv_size (firstn ms meta)) id (firstn bs dd) (skipn iv_size (firstn ms meta))) as Hl.
          destruct (a_dec _ _ _ _ _ _) as [ok o]. destruct (_ && _); [discriminate|]. injection Ed as <-. exact Hl. }
        rewrite Hd, firstn_length. lia. }
    intros H. apply L in H. rewrite H. unfold data. rewrite arr_read_length. lia.
  Qed.

  Definition in_parts (lo : nat) (hi : option nat) (p : part) : Prop :=
    match p with PData q => in_blocks 0 bs lo hi q | PMeta q => in_blocks (hmac_len + ehs) ms lo hi q end.
  Lemma in_parts_split lo hi l : Forall (in_parts lo hi) l -> Forall (in_blocks 0 bs lo hi) (data_part l) /\ Forall (in_blocks (hmac_len + ehs) ms lo hi) (meta_part l).
  Proof.
    induction 1 as [|[p|p] l H HF [I1 I2]]; [split; constructor| |]; cbn [data_part meta_part flat_map app] in *; split; try assumption; constructor; assumption.
  Qed.

  Lemma full_trace_in h s c o : FRep h s c ->
    Forall (in_parts (first_touched bs (length c) o) (last_touched bs (length c) o))
      (trace (B check) (full_on_write A dkey id bs iv_size header_size rnd iv_fuel) (full_on_adjust bs iv_size header_size) s o).
  Proof.
    intros HR. pose proof (fbs_pos _ _ _ _ _ _ HE) as Hb.
    assert (Hsz : bk_size (B check) s = length c) by (apply (fr_data _ _ _ _ _ _ _ _ _ _ _ HR)).
    apply (good_step (B check)) with (J := fun _ => True) (lo := first_touched bs (length c) o) (hi := last_touched bs (length c) o); cbn [bk_bs bk_read bk_write bk_adjust full_backend bk_state]; auto.
    - intros a x out _. apply full_read_len.
    - intros a e r d x _ Hlo Hae Hr Hup. unfold full_on_write. destruct (over_max _ _); [constructor|].
      destruct (full_write_loop _ _ _ _ _ _ _ _ _ _) as [[[d1 m1] k1]|] eqn:El; [|constructor].
      apply full_loop_len in El as [L1 L2]. rewrite firstn_length in L1, L2.
      assert (L3 : length m1 <= ms * (e - a + b2nat (0 <? r))).
      { rewrite L2. apply Nat.mul_le_mono_l. etransitivity; [apply (nb_mono _ _ _ _ _ _ HE) with (m := (e - a) * bs + r); lia|].
        rewrite (nb_qr _ _ _ _ _ _ HE) by lia. destruct (Nat.eqb_spec r 0), (Nat.ltb_spec 0 r); cbn [b2nat]; lia. }
      pose proof (mul_le_mono _ _ bs Hlo). pose proof (mul_le_mono _ _ ms Hlo).
      pose proof (mul_le_mono _ _ bs Hae). pose proof (mul_le_mono _ _ ms Hae). rewrite Nat.mul_comm, Nat.mul_add_distr_r, Nat.mul_sub_distr_r in L3.
      rewrite Nat.mul_comm, Nat.mul_sub_distr_r in L1.
      constructor; [|constructor; [|constructor]]; cbn [in_parts in_blocks]; unfold meta_pos.
      + split; [lia|]. unfold upto in Hup. destruct (last_touched _ _ _) as [t|]; [|exact I].
        pose proof (mul_le_mono _ _ bs Hup) as Hm. rewrite Nat.mul_add_distr_r in Hm. destruct (Nat.ltb_spec 0 r); cbn [b2nat] in Hm; lia.
      + split; [lia|]. unfold upto in Hup. destruct (last_touched _ _ _) as [t|]; [|exact I].
        pose proof (mul_le_mono _ _ ms Hup) as Hm. rewrite Nat.mul_add_distr_r in Hm. lia.
    - intros n x _ Hh Hlo. constructor; [|constructor; [|constructor]]; cbn [in_parts in_blocks]; (split; [exact Hh|]); [lia|]. unfold meta_pos.
      assert (Hq : first_touched bs (length c) o <= (n + bs - 1) / bs) by (apply Nat.div_le_lower_bound; lia).
      pose proof (mul_le_mono _ _ ms Hq). lia.
    - rewrite Hsz. apply step_range. lia.
  Qed.

  Lemma full_reads_same h s c ck d' m' y k off len :
    FRep h s c -> length c <= full_max_blocks * bs -> off + len <= length c ->
    (forall a b, a < b -> (forall i, a <= i < b -> i * bs < off + len /\ off < (i + 1) * bs) ->
       arr_read d' (a * bs) ((b - a) * bs) = arr_read (f_data s) (a * bs) ((b - a) * bs) /\
       arr_read m' (hmac_len + ehs + a * ms) ((b - a) * ms) = arr_read (f_meta s) (hmac_len + ehs + a * ms) ((b - a) * ms)) ->
    bb_read (B ck) off len (mkFull d' m' y k) = Ok (arr_read c off len).
  Proof.
    intros HR Hlim Hoff HX. pose proof (fbs_pos _ _ _ _ _ _ HE) as Hb.
    rewrite <- (bb_read_ok (B ck) (FRep h) (full_backend_ok A hmac dkey mkey id bs iv_size header_size ck sparse rnd iv_fuel HE h) s c off len HR).
    2: { rewrite bk_maxn_full. cbn [bk_bs full_backend]. lia. }
    apply bb_read_local; [cbn [bk_bs full_backend]; lia|]. cbn [bk_bs full_backend bk_read]. intros a b Hab Hr _.
    destruct (HX a b Hab Hr) as [E1 E2]. unfold full_read_multi, hmac_read, meta_pos. cbn [f_data f_meta].
    replace (ehs + ms * a + hmac_len) with (hmac_len + ehs + a * ms) by lia. rewrite E1, E2. reflexivity.
  Qed.

  Lemma meta_length h s c i : FRep h s c -> i * bs <= length c -> 0 < length c -> hmac_len + ehs + i * ms <= length (f_meta s).
  Proof.
    intros HR Hi Hc. pose proof (fr_meta _ _ _ _ _ _ _ _ _ _ _ HR) as [HM|[_ HM]]; [|lia]. rewrite skipn_length in HM.
    pose proof (fbs_pos _ _ _ _ _ _ HE) as Hb.
    assert (Hi' : i <= nb bs (length c)).
    { destruct i as [|j]; [lia|]. apply (nb_spec _ _ _ _ _ _ HE). nia. }
    pose proof (mul_le_mono _ _ ms Hi'). unfold enc_header_size, mac_size in *. lia.
  Qed.

  Lemma full_crash h s c o d' m' y k ck :
    FRep h s c -> length c <= full_max_blocks * bs ->
    left_over (f_data s) (data_part (ftrace s o)) d' -> left_over (f_meta s) (meta_part (ftrace s o)) m' ->
    forall off len, off + len <= length c -> (match o with FOp o' => untouched bs (length c) o' off len | _ => True end) ->
      bb_read (B ck) off len (mkFull d' m' y k) = Ok (arr_read c off len).
  Proof.
    intros HR Hlim HD HM off len Hoff Hu. pose proof (fbs_pos _ _ _ _ _ _ HE) as Hb.
    apply (full_reads_same h s c ck d' m' y k off len HR Hlim Hoff). intros a b Hab Hr.
    assert (Hc : 0 < length c) by (destruct (Hr a ltac:(lia)); lia).
    pose proof (fr_data _ _ _ _ _ _ _ _ _ _ _ HR) as HLd.
    assert (Hmeta : forall l, left_over (f_meta s) l m' -> (forall p, In p l -> match p with PWrite o d => o + length d <= hmac_len + ehs | PResize n => False end) ->
      arr_read m' (hmac_len + ehs + a * ms) ((b - a) * ms) = arr_read (f_meta s) (hmac_len + ehs + a * ms) ((b - a) * ms)).
    { intros l Hl Hp. apply (left_after _ _ _ (hmac_len + ehs) _ _ Hl); [|exact Hp|lia]. pose proof (meta_length h s c 0 HR ltac:(lia) Hc). lia. }
    assert (Hflush : forall x, meta_part (if f_dirty s then match mac_message id (f_meta s) with Ok m => [PMeta (PWrite 0 (hmac mkey m))] | Err _ => [] end else []) = x ->
      forall p, In p x -> match p with PWrite o d => o + length d <= hmac_len + ehs | PResize n => False end).
    { intros x <- p. rewrite mac_message_ok. destruct (f_dirty s); cbn [meta_part flat_map app]; intros []; [subst p|easy].
      rewrite (fe_hmac _ _ _ _ _ _ HE). unfold hmac_len. lia. }
    assert (Hflushd : data_part (if f_dirty s then match mac_message id (f_meta s) with Ok m => [PMeta (PWrite 0 (hmac mkey m))] | Err _ => [] end else []) = [])
      by (rewrite mac_message_ok; destruct (f_dirty s); reflexivity).
    destruct o as [o|w|n| |]; cbn [full_trace] in HD, HM.
    - pose proof (full_trace_in h s c o HR) as HT. apply in_parts_split in HT as [T1 T2].
      assert (Hlo : first_touched bs (length c) o * bs <= length c).
      { apply first_le. lia. }
      destruct (untouched_split bs (length c) o off len a b ltac:(lia) Hu Hab Hr) as [Hi|[Hbf|(t & Ht & Hta)]].
      + rewrite idle_trace in HD, HM by (cbn [bk_size full_backend]; unfold full_size; rewrite HLd; exact Hi).
        apply left_nil in HD, HM. subst. split; reflexivity.
      + pose proof (mul_le_mono _ _ bs Hbf). pose proof (mul_le_mono _ _ ms Hbf). pose proof (mul_lt_block a b bs Hab). pose proof (mul_lt_block a b ms Hab).
        pose proof (meta_length h s c _ HR Hlo Hc).
        split; [apply (blocks_before _ _ _ _ _ _ _ _ _ HD T1)|apply (blocks_before _ _ _ _ _ _ _ _ _ HM T2)]; rewrite ?Nat.mul_sub_distr_r; lia.
      + rewrite Ht in T1, T2. pose proof (mul_le_mono _ _ bs Hta). pose proof (mul_le_mono _ _ ms Hta).
        assert (Htl : t * bs <= length c) by (destruct (Hr a ltac:(lia)); lia). pose proof (meta_length h s c _ HR Htl Hc).
        split; [apply (blocks_after _ _ _ _ _ _ _ _ _ HD T1)|apply (blocks_after _ _ _ _ _ _ _ _ _ HM T2)]; lia.
    - destruct (Nat.ltb_spec header_size (length w)). { apply left_nil in HD, HM. subst. split; reflexivity. }
      pose proof (aead_ct_len _ (fe_aead _ _ _ _ _ _ HE) dkey (rnd (f_rng s) iv_size) id (w ++ zeros (header_size - length w))) as L1.
      pose proof (aead_mac_len _ (fe_aead _ _ _ _ _ _ HE) dkey (rnd (f_rng s) iv_size) id (w ++ zeros (header_size - length w))) as L2.
      destruct (a_enc _ _ _ _ _) as [ct mac]. cbn [fst snd data_part meta_part flat_map app] in *. apply left_nil in HD. subst d'. split; [reflexivity|].
      apply (Hmeta _ HM). intros p [<-|[]]. rewrite !app_length, L1, L2, (fe_rnd _ _ _ _ _ _ HE), app_length, zeros_length. unfold enc_header_size, mac_size. lia.
    - apply left_nil in HD, HM. subst. split; reflexivity.
    - rewrite Hflushd in HD. apply left_nil in HD. subst d'. split; [reflexivity|]. apply (Hmeta _ HM), Hflush. reflexivity.
    - rewrite Hflushd in HD. apply left_nil in HD. subst d'. split; [reflexivity|]. apply (Hmeta _ HM), Hflush. reflexivity.
  Qed.
End FullCrash.
