(** Verification on and off: one run of the block stream against another whose reads
    agree wherever the first does not report a failed verification. *)
From Verif Require Import Base BaseLemmas StreamSpec BlockModel CodecModel LiteModel FullStreamModel FullStreamProofs.

Section TwoReads.
  Variable St : Type.
  Variable bs : nat.
  Variable mx : N.
  Variable sparse : bool.
  Variable size : St -> nat.
  Variable rd1 rd2 : nat -> nat -> St -> res bytes.
  Variable wr : nat -> nat -> nat -> bytes -> St -> St * res unit.
  Variable adj : nat -> St -> St * res unit.
  Hypothesis Hrd : forall a b s, rd1 a b s = Err EVerify \/ rd1 a b s = rd2 a b s.
  Let B1 := mkBackend St bs mx sparse size rd1 wr adj.
  Let B2 := mkBackend St bs mx sparse size rd2 wr adj.

  Lemma two_read off len s : bb_read B1 off len s = Err EVerify \/ bb_read B1 off len s = bb_read B2 off len s.
  Proof.
    unfold bb_read. cbn [bk_bs bk_read B1 B2]. destruct (len <=? 0); [auto|]. destruct ((off mod bs =? 0) && ((off + len) mod bs =? 0)); [apply Hrd|].
    destruct (Hrd (off / bs) ((off + len) / bs + b2nat (0 <? (off + len) mod bs)) s) as [E|E]; rewrite E; [now left|now right].
  Qed.
  Lemma two_uwrite w off s : bb_unchecked_write B1 w off s = (s, Err EVerify) \/ bb_unchecked_write B1 w off s = bb_unchecked_write B2 w off s.
  Proof.
    unfold bb_unchecked_write. cbn [bk_bs bk_read bk_write B1 B2]. destruct (winput_len w <=? 0); [auto|].
    destruct ((off mod bs =? 0) && ((off + winput_len w) mod bs =? 0)); [right; reflexivity|]. cbv zeta.
    destruct (Hrd ((off + winput_len w) / bs) ((off + winput_len w) / bs + 1) s) as [E2|E2].
    - destruct ((0 <? off mod bs) && (off / bs <? (off + winput_len w) / bs)).
      + destruct (Hrd (off / bs) (off / bs + 1) s) as [E1|E1]; rewrite E1; [left; reflexivity|].
        destruct (rd2 (off / bs) (off / bs + 1) s) as [x|e]; cbn [rmap]; [|right; reflexivity].
        destruct (0 <? (off + winput_len w) mod bs); [rewrite E2; left; reflexivity|right; reflexivity].
      + destruct (0 <? (off + winput_len w) mod bs); [rewrite E2; left; reflexivity|right; reflexivity].
    - rewrite E2. destruct ((0 <? off mod bs) && (off / bs <? (off + winput_len w) / bs)); [|right; reflexivity].
      destruct (Hrd (off / bs) (off / bs + 1) s) as [E1|E1]; rewrite E1; [left; reflexivity|right; reflexivity].
  Qed.
  Lemma two_uresize cur new s : bb_unchecked_resize B1 cur new s = (s, Err EVerify) \/ bb_unchecked_resize B1 cur new s = bb_unchecked_resize B2 cur new s.
  Proof.
    unfold bb_unchecked_resize. cbn [bk_bs bk_read bk_write bk_adjust bk_sparse B1 B2]. destruct (new =? cur); [auto|]. destruct (new <? cur).
    - destruct (0 <? new mod bs); [|right; reflexivity].
      destruct (Hrd (new / bs) (new / bs + 1) s) as [E|E]; rewrite E; [left; reflexivity|right; reflexivity].
    - unfold bb_zero_fill. destruct (negb sparse || (cur / bs =? new / bs)).
      + destruct (two_uwrite (WZero (new - cur)) cur s) as [E|E]; rewrite E; [left; reflexivity|right; reflexivity].
      + destruct (two_uwrite (WZero (cur / bs * bs + bs - cur)) cur s) as [E|E]; rewrite E; [left; reflexivity|right; reflexivity].
  Qed.
  (** A step with verification fails because of it, or does what the other does.  A
      failure leaves the state alone, but for the extension of the file by a write beyond
      its end. *)
  Lemma two_step s o :
    (snd (bb_step B1 s o) = OFail EVerify /\
     (fst (bb_step B1 s o) = s \/
      exists off d, o = SWrite off d /\ size s < off /\
        bb_step B1 s (SResize off) = (fst (bb_step B1 s o), ODone))) \/
    bb_step B1 s o = bb_step B2 s o.
  Proof.
    destruct o as [off len|off d|n|]; cbn [bb_step].
    - destruct (two_read off len s) as [E|E]; rewrite E; [left; cbn [fst snd]; auto|right; reflexivity].
    - unfold bb_write. cbn [bk_size B1 B2]. destruct (length d <=? 0); [right; reflexivity|].
      destruct (size s <? off) eqn:L.
      + apply Nat.ltb_lt in L. unfold bb_resize. cbn [bk_size]. change (bk_size B1 s) with (size s).
        destruct (two_uresize (size s) off s) as [E|E].
        * rewrite E. left. cbn [then_ fst snd res_out]. auto.
        * rewrite E. destruct (bb_unchecked_resize B2 (size s) off s) as [s1 [u|e]]; cbn [then_]; [|right; reflexivity].
          destruct (two_uwrite (WData d) off s1) as [E2|E2]; rewrite E2; [|right; reflexivity].
          left. cbn [fst snd res_out]. split; [reflexivity|]. right. exists off, d. split; [reflexivity|]. split; [exact L|]. rewrite E. reflexivity.
      + cbn [then_]. destruct (two_uwrite (WData d) off s) as [E2|E2]; rewrite E2; [left; cbn [fst snd res_out]; auto|right; reflexivity].
    - unfold bb_resize. change (bk_size B1 s) with (size s). change (bk_size B2 s) with (size s).
      destruct (two_uresize (size s) n s) as [E|E]; rewrite E; [left; cbn [fst snd res_out]; auto|right; reflexivity].
    - right. reflexivity.
  Qed.
End TwoReads.

(** ** The lite format *)
Section LiteTwo.
  Variable A : aead.
  Variable bs iv_size : nat.
  Variable sparse : bool.
  Variable session_key : bytes -> bytes.
  Variable padding_of : bytes -> nat.
  Variable rnd : nat -> nat -> bytes.
  Variable iv_fuel : nat.

  Lemma lite_loop_two fuel key pad block buf :
    lite_read_loop A bs iv_size true fuel key pad block buf = Err EVerify \/
    lite_read_loop A bs iv_size true fuel key pad block buf = lite_read_loop A bs iv_size false fuel key pad block buf.
  Proof.
    revert block buf. induction fuel as [|f IH]; intros block buf; cbn [lite_read_loop]; [auto|]. destruct buf as [|x buf]; [auto|].
    destruct (min (ubs bs iv_size) (length (x :: buf)) <=? mac_size + iv_size); [auto|].
    set (eb := firstn _ _). set (rest := skipn _ _).
    assert (D : lite_decode_block A iv_size true key pad block eb = Err EVerify \/
                lite_decode_block A iv_size true key pad block eb = lite_decode_block A iv_size false key pad block eb).
    { unfold lite_decode_block. destruct (all_zero eb); [auto|]. destruct (a_dec A _ _ _ _ _) as [[|] out]; cbn [andb negb]; auto. }
    destruct D as [D|D]; rewrite D; [now left|].
    destruct (lite_decode_block A iv_size false key pad block eb) as [o|e]; cbn [rbind]; [|auto].
    destruct (IH (S block) rest) as [E|E]; rewrite E; auto.
  Qed.
  Lemma lite_read_two a b s :
    lite_read_multi A bs iv_size true a b s = Err EVerify \/
    lite_read_multi A bs iv_size true a b s = lite_read_multi A bs iv_size false a b s.
  Proof. unfold lite_read_multi. destruct (over_max lite_max_blocks_N b); [auto|]. apply lite_loop_two. Qed.
End LiteTwo.

(** ** The full format *)
Section FullTwo.
  Variable A : aead.
  Variable hmac : bytes -> bytes -> bytes.
  Variable dkey mkey id : bytes.
  Variable bs iv_size header_size : nat.

  Lemma full_loop_two fuel data meta :
    full_read_loop A dkey id bs iv_size true fuel data meta = Err EVerify \/
    full_read_loop A dkey id bs iv_size true fuel data meta = full_read_loop A dkey id bs iv_size false fuel data meta.
  Proof.
    revert data meta. induction fuel as [|f IH]; intros data meta; cbn [full_read_loop]; [auto|]. destruct data as [|x data]; [auto|].
    set (d := firstn bs _). set (m := firstn _ meta).
    assert (D : full_decode_block A dkey id iv_size true d m = Err EVerify \/
                full_decode_block A dkey id iv_size true d m = full_decode_block A dkey id iv_size false d m).
    { unfold full_decode_block. destruct (all_zero m && all_zero d); [auto|]. destruct (a_dec A _ _ _ _ _) as [[|] out]; cbn [andb negb]; auto. }
    destruct D as [D|D]; rewrite D; [now left|].
    destruct (full_decode_block A dkey id iv_size false d m) as [o|e]; cbn [rbind]; [|auto].
    destruct (IH (skipn bs (x :: data)) (skipn (meta_size iv_size) meta)) as [E|E]; rewrite E; auto.
  Qed.
  Lemma full_read_two a b s :
    full_read_multi A dkey id bs iv_size header_size true a b s = Err EVerify \/
    full_read_multi A dkey id bs iv_size header_size true a b s = full_read_multi A dkey id bs iv_size header_size false a b s.
  Proof.
    unfold full_read_multi. destruct (a =? b); [auto|]. destruct (over_max full_max_blocks_N b); [auto|]. cbv zeta.
    destruct (length _ <=? 0); [auto|]. destruct (negb _); [auto|]. apply full_loop_two.
  Qed.
  Lemma full_open_two data meta k :
    full_open hmac mkey id true data meta k = Err EVerify \/
    full_open hmac mkey id true data meta k = full_open hmac mkey id false data meta k.
  Proof.
    unfold full_open, hmac_open. cbv zeta. destruct (_ =? 0); [auto|]. destruct (negb _); [auto|].
    rewrite mac_message_ok. cbn [rbind rmap]. destruct (bytes_eqb _ _); auto.
  Qed.
End FullTwo.

Lemma lite_loop_false A bs iv_size fuel key pad block buf : length buf <= fuel ->
  exists out, lite_read_loop A bs iv_size false fuel key pad block buf = Ok out.
Proof.
  revert block buf. induction fuel as [|f IH]; intros block buf L; cbn [lite_read_loop].
  - destruct buf; [eauto|cbn [length] in L; lia].
  - destruct buf as [|x buf]; [eauto|].
    destruct (Nat.leb_spec (min (ubs bs iv_size) (length (x :: buf))) (mac_size + iv_size)) as [|H]; [eauto|].
    set (u := min _ _) in *. assert (D : exists o, lite_decode_block A iv_size false key pad block (firstn u (x :: buf)) = Ok o).
    { unfold lite_decode_block. destruct (all_zero _); [eauto|]. destruct (a_dec A _ _ _ _ _) as [b o]. cbn [andb]. eauto. }
    destruct D as [o ->]. cbn [rbind]. destruct (IH (S block) (skipn u (x :: buf))) as [rest ->].
    { rewrite skipn_length. cbn [length] in *. lia. }
    cbn [rbind]. eauto.
Qed.

(** ** What an operation that fails to verify has done *)
Section Failure.
  Variable B : backend.
  Hypothesis Hw : forall a e r d s, snd (bk_write B a e r d s) <> Err EVerify.
  Hypothesis Ha : forall n s, snd (bk_adjust B n s) <> Err EVerify.

  Lemma fail_uwrite w off s s' : bb_unchecked_write B w off s = (s', Err EVerify) -> s' = s.
  Proof.
    unfold bb_unchecked_write. cbv zeta. destruct (winput_len w <=? 0); [discriminate|].
    set (sb := off / bk_bs B). set (eb := (off + winput_len w) / bk_bs B).
    destruct ((off mod bk_bs B =? 0) && ((off + winput_len w) mod bk_bs B =? 0)).
    - destruct w as [d|n]; intros H.
      + exfalso. apply (Hw sb eb 0 d s). rewrite H. reflexivity.
      + exfalso. apply (Hw sb eb 0 (zeros ((eb - sb) * bk_bs B)) s). rewrite H. reflexivity.
    - destruct (if (0 <? off mod bk_bs B) && (sb <? eb) then _ else _) as [b1|e]; [|intros H; injection H as <- _; reflexivity].
      destruct (if 0 <? (off + winput_len w) mod bk_bs B then _ else _) as [[b2 eff]|e]; [|intros H; injection H as <- _; reflexivity].
      intros H. exfalso. eapply Hw. rewrite H. reflexivity.
  Qed.
  Lemma then_verify x k s' : then_ B x k = (s', Err EVerify) -> (x = (s', Err EVerify)) \/ (exists s1 u, x = (s1, Ok u) /\ k s1 = (s', Err EVerify)).
  Proof. destruct x as [s1 [u|e]]; cbn [then_]; intros H; [right; eauto|left; exact H]. Qed.
  Lemma fail_uresize cur new s s' : bb_unchecked_resize B cur new s = (s', Err EVerify) -> s' = s.
  Proof.
    unfold bb_unchecked_resize. cbv zeta. destruct (new =? cur); [discriminate|]. destruct (new <? cur); intros H;
      (destruct (then_verify _ _ _ H) as [E|(s1 & u & _ & E)]; [|exfalso; eapply Ha; rewrite E; reflexivity]).
    - destruct (0 <? new mod bk_bs B); [|discriminate E].
      destruct (rmap _ _) as [x|e]; [exfalso; eapply Hw; rewrite E; reflexivity|injection E as <- _; reflexivity].
    - unfold bb_zero_fill in E. destruct (negb _ || _); eapply fail_uwrite; exact E.
  Qed.
  Lemma fail_step s o s' : bb_step B s o = (s', OFail EVerify) ->
    s' = s \/ exists off d, o = SWrite off d /\ bk_size B s < off /\ bb_step B s (SResize off) = (s', ODone).
  Proof.
    assert (R : forall r, res_out r = OFail EVerify -> r = Err EVerify) by (intros [u|e] H; [discriminate H|cbn in H; congruence]).
    destruct o as [off len|off d|n|]; cbn [bb_step]; intros H.
    - injection H as <- _. auto.
    - destruct (bb_write B off d s) as [s1 r] eqn:E. injection H as -> H. apply R in H. subst r. unfold bb_write in E.
      destruct (length d <=? 0); [discriminate E|]. cbv zeta in E. destruct (then_verify _ _ _ E) as [E1|(s1 & u & E1 & E2)].
      + left. destruct (bk_size B s <? off); [eapply fail_uresize; exact E1|discriminate E1].
      + apply fail_uwrite in E2. subst s1. destruct (Nat.ltb_spec (bk_size B s) off) as [L|L]; [|injection E1 as <- _; auto].
        right. exists off, d. split; [reflexivity|]. split; [exact L|]. unfold bb_resize. rewrite E1. reflexivity.
    - destruct (bb_resize B n s) as [s1 r] eqn:E. injection H as -> H. apply R in H. subst r. left. eapply fail_uresize; exact E.
    - discriminate H.
  Qed.
  (** Reads that never report it lead to steps that never report it. *)
  Hypothesis Hr : forall a b s, bk_read B a b s <> Err EVerify.
  Lemma quiet_uwrite w off s : snd (bb_unchecked_write B w off s) <> Err EVerify.
  Proof.
    unfold bb_unchecked_write. cbv zeta. destruct (winput_len w <=? 0); [discriminate|].
    destruct ((off mod bk_bs B =? 0) && ((off + winput_len w) mod bk_bs B =? 0)); [destruct w; apply Hw|].
    set (sb := off / bk_bs B). set (eb := (off + winput_len w) / bk_bs B).
    pose proof (Hr sb (sb + 1) s) as H1. pose proof (Hr eb (eb + 1) s) as H2.
    destruct ((0 <? off mod bk_bs B) && (sb <? eb)).
    - destruct (bk_read B sb (sb + 1) s) as [x|e]; cbn [rmap]; [|cbn [snd]; congruence].
      destruct (0 <? (off + winput_len w) mod bk_bs B); [|apply Hw].
      destruct (bk_read B eb (eb + 1) s) as [y|e]; cbn [rmap]; [apply Hw|cbn [snd]; congruence].
    - destruct (0 <? (off + winput_len w) mod bk_bs B); [|apply Hw].
      destruct (bk_read B eb (eb + 1) s) as [y|e]; cbn [rmap]; [apply Hw|cbn [snd]; congruence].
  Qed.
  Lemma then_quiet x k : snd x <> Err EVerify -> (forall s, snd (k s) <> Err EVerify) -> snd (then_ B x k) <> Err EVerify.
  Proof. destruct x as [s [u|e]]; cbn [then_ snd]; auto. Qed.
  Lemma quiet_uresize cur new s : snd (bb_unchecked_resize B cur new s) <> Err EVerify.
  Proof.
    unfold bb_unchecked_resize. cbv zeta. destruct (new =? cur); [discriminate|]. destruct (new <? cur); (apply then_quiet; [|intros; apply Ha]).
    - destruct (0 <? new mod bk_bs B); [|discriminate]. pose proof (Hr (new / bk_bs B) (new / bk_bs B + 1) s) as H1.
      destruct (bk_read B _ _ s) as [x|e]; cbn [rmap]; [apply Hw|cbn [snd]; congruence].
    - unfold bb_zero_fill. destruct (negb _ || _); apply quiet_uwrite.
  Qed.
  Lemma quiet_step s o : snd (bb_step B s o) <> OFail EVerify.
  Proof.
    assert (R : forall r, r <> Err EVerify -> res_out r <> OFail EVerify) by (intros [u|e] H; [discriminate|cbn; congruence]).
    destruct o as [off len|off d|n|]; cbn [bb_step snd].
    - unfold bb_read. destruct (len <=? 0); [discriminate|]. destruct (_ && _).
      + pose proof (Hr (off / bk_bs B) ((off + len) / bk_bs B) s) as H. destruct (bk_read B _ _ s); congruence.
      + pose proof (Hr (off / bk_bs B) ((off + len) / bk_bs B + b2nat (0 <? (off + len) mod bk_bs B)) s) as H.
        destruct (bk_read B _ _ s); cbn [rbind]; [destruct (_ <=? _); discriminate|congruence].
    - assert (Q : snd (bb_write B off d s) <> Err EVerify).
      { unfold bb_write. destruct (length d <=? 0); [discriminate|]. cbv zeta. apply then_quiet; [|intros; apply quiet_uwrite].
        destruct (bk_size B s <? off); [apply quiet_uresize|discriminate]. }
      destruct (bb_write B off d s) as [s1 r]. cbn [snd] in *. now apply R.
    - assert (Q : snd (bb_resize B n s) <> Err EVerify) by apply quiet_uresize.
      destruct (bb_resize B n s) as [s1 r]. cbn [snd] in *. now apply R.
    - discriminate.
  Qed.
End Failure.

Lemma next_iv_quiet iv_size rnd fuel k : next_iv iv_size rnd fuel k <> Err EVerify.
Proof. revert k. induction fuel as [|f IH]; intros k; cbn [next_iv]; [discriminate|]. destruct (all_zero _); [apply IH|discriminate]. Qed.
Lemma lite_wloop_quiet A bs iv_size rnd iv_fuel fuel key pad block remaining input k :
  lite_write_loop A bs iv_size rnd iv_fuel fuel key pad block remaining input k <> Err EVerify.
Proof.
  revert block remaining input k. induction fuel as [|f IH]; intros block remaining input k; cbn [lite_write_loop]; destruct (remaining =? 0); try discriminate.
  set (u := min _ _). destruct (0 <? u - mac_size - iv_size).
  - pose proof (next_iv_quiet iv_size rnd iv_fuel k) as Q. destruct (next_iv iv_size rnd iv_fuel k) as [[iv k']|e]; cbn [rbind]; [|congruence].
    specialize (IH (S block) (remaining - u) (skipn (u - mac_size - iv_size) input) k').
    destruct (lite_write_loop A bs iv_size rnd iv_fuel f key pad (S block) _ _ k') as [[r k'']|e]; cbn [rbind]; [discriminate|congruence].
  - cbn [rbind]. specialize (IH (S block) (remaining - u) (skipn (u - mac_size - iv_size) input) k).
    destruct (lite_write_loop A bs iv_size rnd iv_fuel f key pad (S block) _ _ k) as [[r k'']|e]; cbn [rbind]; [discriminate|congruence].
Qed.
Lemma lite_write_quiet A bs iv_size rnd iv_fuel a e r d s : snd (lite_write_multi A bs iv_size rnd iv_fuel a e r d s) <> Err EVerify.
Proof.
  unfold lite_write_multi. destruct (over_max lite_max_blocks_N e); [discriminate|]. cbv zeta.
  match goal with |- context [lite_write_loop ?a1 ?a2 ?a3 ?a4 ?a5 ?a6 ?a7 ?a8 ?a9 ?b1 ?b2 ?b3] =>
    pose proof (lite_wloop_quiet a1 a2 a3 a4 a5 a6 a7 a8 a9 b1 b2 b3) as Q; destruct (lite_write_loop a1 a2 a3 a4 a5 a6 a7 a8 a9 b1 b2 b3) as [[b k]|x] end; cbn [snd]; congruence.
Qed.
Lemma lite_read_quiet A bs iv_size a b s : lite_read_multi A bs iv_size false a b s <> Err EVerify.
Proof.
  unfold lite_read_multi. destruct (over_max lite_max_blocks_N b); [discriminate|]. cbv zeta.
  destruct (lite_loop_false A bs iv_size (length (arr_read (l_file s) (l_header s + ubs bs iv_size * a) ((b - a) * ubs bs iv_size))) (l_key s) (l_pad s) a
     (arr_read (l_file s) (l_header s + ubs bs iv_size * a) ((b - a) * ubs bs iv_size)) (le_n _)) as [o ->]. discriminate.
Qed.
Lemma full_wloop_quiet A dkey id bs iv_size rnd iv_fuel fuel input k :
  full_write_loop A dkey id bs iv_size rnd iv_fuel fuel input k <> Err EVerify.
Proof.
  revert input k. induction fuel as [|f IH]; intros input k; cbn [full_write_loop]; destruct input as [|x input]; try discriminate.
  pose proof (next_iv_quiet iv_size rnd iv_fuel k) as Q. destruct (next_iv iv_size rnd iv_fuel k) as [[iv k']|e]; cbn [rbind]; [|congruence].
  destruct (a_enc A dkey iv id _) as [ct mac]. specialize (IH (skipn bs (x :: input)) k').
  destruct (full_write_loop A dkey id bs iv_size rnd iv_fuel f _ k') as [[[d m] k2]|e]; cbn [rbind]; [discriminate|congruence].
Qed.
Lemma full_write_quiet A dkey id bs iv_size header_size rnd iv_fuel a e r d s :
  snd (full_write_multi A dkey id bs iv_size header_size rnd iv_fuel a e r d s) <> Err EVerify.
Proof.
  unfold full_write_multi. destruct (over_max full_max_blocks_N e); [discriminate|]. cbv zeta.
  pose proof (full_wloop_quiet A dkey id bs iv_size rnd iv_fuel (bs * (e - a) + r) (firstn (bs * (e - a) + r) d) (f_rng s)) as Q.
  destruct (full_write_loop A dkey id bs iv_size rnd iv_fuel _ _ _) as [[[x y] z]|w]; cbn [snd]; congruence.
Qed.
