From Verif Require Import Base BaseLemmas TextModel CryptoModel CryptoProofs LiteModel NameModel NameProofs
  LongNameModel LongNameProofs XattrModel XattrSpec XattrProofs.

Section Lite.
Variable cmac : bytes -> bytes.
Variable keystream : bytes -> nat -> bytes.
Hypothesis cmac_len : forall m, length (cmac m) = 16.
Hypothesis ks_len : forall s n, length (keystream s n) = n.
Variable b64 : bytes -> bytes.
Variable unb64 : bytes -> option bytes.
Hypothesis code : text_code b64 unb64.
Variable A : aead.
Hypothesis HA : aead_ok A.
Variable key : bytes.
Variable iv_size : nat.
Variable verify : bool.
Notation wrap := (wrap_name cmac keystream b64).
Notation unwrap := (unwrap_name cmac keystream unb64).

Definition lstored (_ v x : bytes) : Prop := exists iv, length iv = iv_size /\ x = xattr_encrypt A key iv v.
Notation lview := (view cmac keystream b64 unb64 lstored).

Lemma xattr_encrypt_length iv v : length (xattr_encrypt A key iv v) = length iv + length v + 16.
Proof.
  unfold xattr_encrypt. pose proof (aead_ct_len A HA key iv [] v) as H1. pose proof (aead_mac_len A HA key iv [] v) as H2.
  destruct (a_enc A key iv [] v) as [ct mac]. cbn [fst snd] in *. rewrite !app_length. lia.
Qed.
Lemma xattr_decrypt_encrypt iv v : length iv = iv_size -> xattr_decrypt A key iv_size verify (xattr_encrypt A key iv v) (length v) = Ok v.
Proof.
  intros Hi. unfold xattr_decrypt, infer_encrypted_size, mac_size. rewrite xattr_encrypt_length.
  destruct (Nat.ltb_spec (length iv + length v + 16) (length v + iv_size + 16)) as [Hx|_]; [lia|].
  unfold xattr_encrypt. pose proof (aead_ct_len A HA key iv [] v) as H1. pose proof (aead_mac_len A HA key iv [] v) as H2.
  pose proof (aead_dec_enc A HA key iv [] v) as H3.
  destruct (a_enc A key iv [] v) as [ct mac]. cbn [fst snd] in *.
  rewrite firstn_app, firstn_all2 by lia. replace (iv_size - length iv) with 0 by lia. cbn [firstn]. rewrite app_nil_r.
  rewrite (skipn_app iv_size iv), (skipn_all2 iv) by lia. replace (iv_size - length iv) with 0 by lia. cbn [skipn app].
  rewrite (firstn_app _ ct), firstn_all2 by lia. replace (length iv + length v + 16 - iv_size - 16 - length ct) with 0 by lia.
  cbn [firstn]. rewrite app_nil_r, app_assoc, skipn_app, skipn_all2 by (rewrite app_length; lia).
  rewrite app_length. replace (length iv + length v + 16 - 16 - (length iv + length ct)) with 0 by lia. cbn [skipn app].
  rewrite H3. reflexivity.
Qed.

Lemma lite_get_seen p h n size bad : lview p h -> xname n ->
  (forall sz, size = Some sz -> sz <> 0 /\ (forall v, ent n p = Some v -> sz <= length v)) ->
  seen (lite_getx cmac keystream b64 A key iv_size verify n size bad h) = seen (hx_get bad n (or0 size) p).
Proof.
  intros V [Hn _] Hs. pose proof (view_ent cmac keystream cmac_len ks_len b64 unb64 code _ p h n Hn V) as E.
  unfold lite_getx, hx_get. destruct bad as [e|]; [destruct size; reflexivity|].
  destruct (ent n p) as [v|], (ent (wrap n) h) as [x|]; try contradiction; [|destruct size as [[|sz]|]; reflexivity].
  destruct E as [iv [Hi ->]]. destruct size as [sz|].
  - destruct (Hs sz eq_refl) as [H0 Hle]. specialize (Hle v eq_refl). cbn [or0].
    destruct sz as [|sz]; [congruence|]. unfold infer_encrypted_size at 1. cbn [Nat.add].
    rewrite xattr_encrypt_length. unfold infer_encrypted_size, mac_size.
    destruct (Nat.ltb_spec (S sz + iv_size + 16) (length iv + length v + 16)) as [Hx|Hx];
      destruct (Nat.ltb_spec (S sz) (length v)) as [Hy|Hy]; try lia; [reflexivity|].
    assert (Es : S sz = length v) by lia. cbn [rbind].
    rewrite xattr_encrypt_length. replace (S sz + iv_size + 16 - (length iv + length v + 16)) with 0 by lia. unfold zeros. cbn [repeat]. rewrite app_nil_r, Es.
    rewrite xattr_decrypt_encrypt by exact Hi. cbn [rbind seen]. unfold infer_decrypted_size, mac_size.
    destruct (Nat.leb_spec (iv_size + 16) (length iv + length v + 16)) as [_|Hz]; [|lia].
    replace (length iv + length v + 16 - (iv_size + 16)) with (length v) by lia. rewrite !firstn_all. reflexivity.
  - cbn [or0 rbind seen]. rewrite xattr_encrypt_length. unfold infer_decrypted_size, mac_size.
    destruct (Nat.leb_spec (iv_size + 16) (length iv + length v + 16)) as [_|Hz]; [|lia].
    replace (length iv + length v + 16 - (iv_size + 16)) with (length v) by lia. rewrite !firstn_nil. reflexivity.
Qed.

Lemma lite_xstep_sim o p h : lview p h -> lite_fits iv_size o p ->
  lview (fst (plain_xstep o p)) (fst (lite_xstep cmac keystream b64 unb64 A key iv_size verify o h)) /\
  seen (snd (lite_xstep cmac keystream b64 unb64 A key iv_size verify o h)) = seen (snd (plain_xstep o p)).
Proof.
  intros V F. destruct o as [n v fl iv bad bad2|n size bad bad2|n bad bad2|size bad]; cbn [lite_xstep plain_xstep lite_fits] in *.
  - destruct F as [Hn [Hv Hi]]. unfold lite_setx. destruct v as [|c v]; [congruence|].
    pose proof (view_ent cmac keystream cmac_len ks_len b64 unb64 code _ p h n (proj1 Hn) V) as E.
    unfold hx_set. destruct bad as [e|]; [split; [exact V|reflexivity]|].
    assert (P : lview (hx_put n (c :: v) p) (hx_put (wrap n) (xattr_encrypt A key iv (c :: v)) h))
      by (apply (view_put cmac keystream cmac_len ks_len b64 unb64 code); [exact Hn|exists iv; auto|exact V]).
    destruct (ent n p) as [v0|], (ent (wrap n) h) as [x0|]; try contradiction;
      destruct fl; cbn [fst snd]; split; try exact V; try exact P; reflexivity.
  - destruct F as [Hn Hs]. cbn [fst snd]. split; [exact V|]. apply lite_get_seen; assumption.
  - pose proof (view_ent cmac keystream cmac_len ks_len b64 unb64 code _ p h n (proj1 F) V) as E.
    unfold hx_remove. destruct bad as [e|]; [split; [exact V|reflexivity]|].
    destruct (ent n p) as [v0|], (ent (wrap n) h) as [x0|]; try contradiction; cbn [fst snd]; (split; [|reflexivity]); [|exact V].
    apply (view_del cmac keystream cmac_len ks_len b64 unb64 code); [exact (proj1 F)|exact V].
  - cbn [fst snd]. split; [exact V|]. apply (view_list cmac keystream cmac_len ks_len b64 unb64 code lstored). exact V.
Qed.

Lemma lite_xrun_sim ops : forall p h, lview p h -> fits_run (lite_fits iv_size) ops p ->
  map seen (snd (lite_xrun cmac keystream b64 unb64 A key iv_size verify ops h)) = map seen (snd (plain_xrun ops p)).
Proof.
  induction ops as [|o ops IH]; intros p h V F; [reflexivity|]. cbn [lite_xrun plain_xrun fits_run] in *. destruct F as [F Fs].
  destruct (lite_xstep_sim o p h V F) as [V' S].
  destruct (lite_xstep cmac keystream b64 unb64 A key iv_size verify o h) as [h1 r]. destruct (plain_xstep o p) as [p1 q]. cbn [fst snd] in *.
  specialize (IH p1 h1 V' Fs). destruct (lite_xrun _ _ _ _ _ _ _ _ ops h1) as [h2 rs]. destruct (plain_xrun ops p1) as [p2 qs].
  cbn [snd map] in *. rewrite S, IH. reflexivity.
Qed.

Theorem lite_as_plain ops h : all_foreign unwrap h -> fits_run (lite_fits iv_size) ops [] ->
  map seen (snd (lite_xrun cmac keystream b64 unb64 A key iv_size verify ops h)) = map seen (snd (plain_xrun ops [])).
Proof. intros H F. apply lite_xrun_sim; [|exact F]. apply view_start. exact H. Qed.

End Lite.

Section Full.
Variable cmac : bytes -> bytes.
Variable keystream : bytes -> nat -> bytes.
Hypothesis cmac_len : forall m, length (cmac m) = 16.
Hypothesis ks_len : forall s n, length (keystream s n) = n.
Variable b64 : bytes -> bytes.
Variable unb64 : bytes -> option bytes.
Hypothesis code : text_code b64 unb64.
Variable A : aead.
Hypothesis HA : aead_ok A.
Variable key id : bytes.
Variable check : bool.
Notation wrap := (wrap_name cmac keystream b64).
Notation unwrap := (unwrap_name cmac keystream unb64).

Definition fstored (_ v x : bytes) : Prop := True.
Notation fview := (view cmac keystream b64 unb64 fstored).
Definition linked (p : hx) (s : fx) : Prop := forall n, n <> [] ->
  match ent n p with
  | Some v => exists iv, length iv = 16 /\ ent (wrap n) (fx_data s) = Some (fst (a_enc A key iv (id ++ wrap n) v)) /\
                         ent (wrap n) (fx_meta s) = Some (iv ++ snd (a_enc A key iv (id ++ wrap n) v))
  | None => ent (wrap n) (fx_data s) = None /\ ent (wrap n) (fx_meta s) = None
  end.
Definition finv (p : hx) (s : fx) : Prop := fview p (fx_data s) /\ linked p s.

Lemma full_get_seen p s n size bad : linked p s -> xname n -> size <> Some 0 ->
  seen (full_getx cmac keystream b64 A key id check n size bad None s) = seen (hx_get bad n (or0 size) p).
Proof.
  intros L [Hn _] Hs. specialize (L n Hn). unfold full_getx, hx_get. destruct bad as [e|]; [destruct size; reflexivity|].
  destruct (ent n p) as [v|].
  2:{ destruct L as [L1 L2]. rewrite L1. destruct size as [[|sz]|]; reflexivity. }
  destruct L as [iv [Hi [L1 L2]]]. rewrite L1, L2.
  pose proof (aead_ct_len A HA key iv (id ++ wrap n) v) as H1. pose proof (aead_mac_len A HA key iv (id ++ wrap n) v) as H2.
  pose proof (aead_dec_enc A HA key iv (id ++ wrap n) v) as H3.
  destruct (a_enc A key iv (id ++ wrap n) v) as [ct mac]. cbn [fst snd] in *. rewrite H1.
  destruct size as [[|sz]|]; [congruence| |reflexivity]. cbn [or0].
  destruct (Nat.ltb_spec (S sz) (length v)) as [Hx|Hx]; [reflexivity|]. cbn [rbind].
  change (XATTR_IV_LENGTH + XATTR_MAC_LENGTH) with 32. rewrite app_length, Hi, H2. cbn [Nat.add].
  change (32 <? 32) with false. cbn [rbind Nat.eqb]. 
  destruct (Nat.ltb_spec (S sz) (length v)) as [Hy|_]; [lia|].
  unfold XATTR_IV_LENGTH. rewrite firstn_app, firstn_all2, skipn_app, (skipn_all2 iv) by lia. rewrite Hi, Nat.sub_diag.
  cbn [firstn skipn app]. rewrite app_nil_r, H3. cbn [negb]. rewrite Bool.andb_false_r. reflexivity.
Qed.

Lemma full_xstep_sim o p s : finv p s -> full_fits o p ->
  finv (fst (plain_xstep o p)) (fst (full_xstep cmac keystream b64 unb64 A key id check o s)) /\
  seen (snd (full_xstep cmac keystream b64 unb64 A key id check o s)) = seen (snd (plain_xstep o p)).
Proof.
  intros [V L] F. destruct o as [n v fl iv bad bad2|n size bad bad2|n bad bad2|size bad]; cbn [full_xstep plain_xstep full_fits] in *.
  - destruct F as [Hn [Hi ->]]. unfold full_setx.
    assert (P : fview (hx_put n v p) (hx_put (wrap n) (fst (a_enc A key iv (id ++ wrap n) v)) (fx_data s)))
      by (apply (view_put cmac keystream cmac_len ks_len b64 unb64 code); [exact Hn|exact I|exact V]).
    assert (Q : linked (hx_put n v p) (mkFx (hx_put (wrap n) (fst (a_enc A key iv (id ++ wrap n) v)) (fx_data s))
                                            (hx_put (wrap n) (iv ++ snd (a_enc A key iv (id ++ wrap n) v)) (fx_meta s)))).
    { intros m Hm. cbn [fx_data fx_meta]. rewrite !ent_put_hx, !(wrap_eqb cmac keystream cmac_len ks_len b64 unb64 code).
      destruct (bytes_eqb n m) eqn:E; [|apply L; exact Hm]. apply bytes_eqb_eq in E. subst m. exists iv. auto. }
    pose proof (L n (proj1 Hn)) as E. destruct (a_enc A key iv (id ++ wrap n) v) as [ct mac] eqn:EE. cbn [fst snd] in P, Q.
    unfold hx_set. destruct bad as [e|]; [destruct s; split; [split; assumption|reflexivity]|].
    destruct (ent n p) as [v0|].
    + destruct E as [iv0 [_ [E1 E2]]]. rewrite E1, E2. destruct fl; cbn [fst snd]; (split; [|reflexivity]); try (split; assumption);
        destruct s; split; assumption.
    + destruct E as [E1 E2]. rewrite E1, E2. destruct fl; cbn [fst snd]; (split; [|reflexivity]); try (split; assumption);
        destruct s; split; assumption.
  - destruct F as [Hn [Hs ->]]. cbn [fst snd]. split; [split; assumption|]. apply full_get_seen; assumption.
  - destruct F as [Hn ->]. unfold full_removex. pose proof (L n (proj1 Hn)) as E. unfold hx_remove.
    destruct bad as [e|]; [destruct s; split; [split; assumption|reflexivity]|].
    destruct (ent n p) as [v0|].
    + destruct E as [iv0 [_ [E1 E2]]]. rewrite E1, E2. cbn [fst snd]. split; [|reflexivity]. split; cbn [fx_data fx_meta].
      * apply (view_del cmac keystream cmac_len ks_len b64 unb64 code); [exact (proj1 Hn)|exact V].
      * intros m Hm. cbn [fx_data fx_meta]. rewrite !ent_del_hx, (wrap_eqb cmac keystream cmac_len ks_len b64 unb64 code).
        destruct (bytes_eqb n m); [auto|apply L; exact Hm].
    + destruct E as [E1 E2]. rewrite E1. cbn [fst snd]. destruct s. split; [split; assumption|reflexivity].
  - cbn [fst snd]. split; [split; assumption|]. apply (view_list cmac keystream cmac_len ks_len b64 unb64 code fstored). exact V.
Qed.

Lemma full_xrun_sim ops : forall p s, finv p s -> fits_run full_fits ops p ->
  map seen (snd (full_xrun cmac keystream b64 unb64 A key id check ops s)) = map seen (snd (plain_xrun ops p)).
Proof.
  induction ops as [|o ops IH]; intros p h V F; [reflexivity|]. cbn [full_xrun plain_xrun fits_run] in *. destruct F as [F Fs].
  destruct (full_xstep_sim o p h V F) as [V' S].
  destruct (full_xstep cmac keystream b64 unb64 A key id check o h) as [h1 r]. destruct (plain_xstep o p) as [p1 q]. cbn [fst snd] in *.
  specialize (IH p1 h1 V' Fs). destruct (full_xrun _ _ _ _ _ _ _ _ ops h1) as [h2 rs]. destruct (plain_xrun ops p1) as [p2 qs].
  cbn [snd map] in *. rewrite S, IH. reflexivity.
Qed.

Lemma foreign_none h n : all_foreign unwrap h -> n <> [] -> ent (wrap n) h = None.
Proof.
  intros H Hn. destruct (ent (wrap n) h) as [x|] eqn:E; [|reflexivity].
  assert (Hi : exists x, In (wrap n, x) h).
  { clear -E. induction h as [|[w y] h IH]; [discriminate|]. cbn [ent] in E. destruct (bytes_eqb w (wrap n)) eqn:Eq.
    - apply bytes_eqb_eq in Eq. subst. exists y. left. reflexivity.
    - destruct (IH E) as [z Hz]. exists z. right. exact Hz. }
  destruct Hi as [y Hy]. apply H in Hy as [Hy _]. rewrite (unwrap_wrap cmac keystream cmac_len ks_len b64 unb64 code n Hn) in Hy. discriminate.
Qed.

Theorem full_as_plain ops s : all_foreign unwrap (fx_data s) -> all_foreign unwrap (fx_meta s) -> fits_run full_fits ops [] ->
  map seen (snd (full_xrun cmac keystream b64 unb64 A key id check ops s)) = map seen (snd (plain_xrun ops [])).
Proof.
  intros H1 H2 F. apply full_xrun_sim; [|exact F]. split; [apply view_start; exact H1|].
  intros n Hn. cbn [ent]. split; apply foreign_none; assumption.
Qed.
End Full.

(** ** Tampering *)
Lemma hx_get_some n size s k v : hx_get None n (S size) s = Ok (k, v) -> ent n s = Some v /\ k = length v /\ k <= S size.
Proof.
  unfold hx_get. destruct (ent n s) as [x|]; [|discriminate]. destruct (Nat.ltb_spec (S size) (length x)) as [_|H]; [discriminate|].
  intros [= <- <-]. auto.
Qed.
Lemma hx_get_ok bad n size s k v : hx_get bad n size s = Ok (k, v) -> bad = None.
Proof. destruct bad; [discriminate|reflexivity]. Qed.
Lemma hx_ent_in n (s : hx) v : ent n s = Some v -> In (n, v) s.
Proof.
  induction s as [|[w y] s IH]; [discriminate|]. cbn [ent]. destruct (bytes_eqb w n) eqn:E.
  - apply bytes_eqb_eq in E. intros [= ->]. left. congruence.
  - intros H. right. apply IH. exact H.
Qed.

Lemma full_get_made cmac keystream b64 unb64 A key id made s name size bad bad2 k b :
  (forall m, length (cmac m) = 16) -> (forall s n, length (keystream s n) = n) -> text_code b64 unb64 -> aead_ok A ->
  (forall i n iv v, In (i, n, iv, v) made -> length i = length id) ->
  full_xattr_not_forged A key (wrap_name cmac keystream b64) made s ->
  full_getx cmac keystream b64 A key id true name (Some (S size)) bad bad2 s = Ok (k, b) ->
  k = length b /\ exists iv, In (id, name, iv, b) made.
Proof.
  intros Hc Hk code HA Hid NF. unfold full_getx.
  destruct (hx_get bad _ _ _) as [[ts ct]|e] eqn:E1; [|discriminate]. cbn [rbind].
  destruct (hx_get bad2 _ _ _) as [[rc meta]|e] eqn:E2; [|discriminate]. cbn [rbind].
  pose proof (hx_get_ok _ _ _ _ _ _ E1). pose proof (hx_get_ok _ _ _ _ _ _ E2). subst bad bad2.
  apply hx_get_some in E1 as (E1 & -> & L1). apply (hx_get_some _ 31) in E2 as (E2 & -> & L2).
  destruct (length meta =? _); [|discriminate]. destruct (S size <? length ct); [discriminate|].
  unfold XATTR_IV_LENGTH. destruct (a_dec A key (firstn 16 meta) (id ++ wrap_name cmac keystream b64 name) ct (skipn 16 meta)) as [ok out] eqn:E3.
  cbn [andb]. destruct ok; [|discriminate]. cbn [negb]. intros [= <- <-].
  destruct (NF _ _ _ _ _ _ (hx_ent_in _ _ _ E1) (hx_ent_in _ _ _ E2) E3) as (i & n & v & Hi & Ha & He).
  assert (Hl := Hid _ _ _ _ Hi). assert (Hii : id = i /\ wrap_name cmac keystream b64 name = wrap_name cmac keystream b64 n).
  { split; [|]; [apply (f_equal (firstn (length id))) in Ha|apply (f_equal (skipn (length id))) in Ha].
    - rewrite firstn_app, firstn_all, Nat.sub_diag, <- Hl, firstn_app, firstn_all, Nat.sub_diag in Ha. cbn [firstn] in Ha. rewrite !app_nil_r in Ha. exact Ha.
    - rewrite skipn_app, skipn_all, Nat.sub_diag, <- Hl, skipn_app, skipn_all, Nat.sub_diag in Ha. exact Ha. }
  destruct Hii as [<- Hw]. apply (wrap_inj cmac keystream Hc Hk b64 unb64 code) in Hw as <-.
  pose proof (aead_dec_enc A HA key (firstn 16 meta) (id ++ wrap_name cmac keystream b64 name) v) as D. rewrite He in D. cbn [fst snd] in D.
  rewrite E3 in D. injection D as ->. split; [|exists (firstn 16 meta); exact Hi].
  pose proof (aead_ct_len A HA key (firstn 16 meta) (id ++ wrap_name cmac keystream b64 name) v) as L. rewrite He in L. exact L.
Qed.

Lemma lite_get_made cmac keystream b64 A key iv_size made s name size bad k b :
  aead_ok A -> lite_xattr_not_forged A key iv_size made s ->
  (forall w x, In (w, x) s -> iv_size <= length x) ->
  lite_getx cmac keystream b64 A key iv_size true name (Some size) bad s = Ok (k, b) ->
  exists iv v, In (iv, v) made /\ b = firstn k v /\ length v = size.
Proof.
  intros HA NF HL. unfold lite_getx. destruct (hx_get bad _ _ _) as [[rc x]|e] eqn:E1; [|discriminate]. cbn [rbind].
  pose proof (hx_get_ok _ _ _ _ _ _ E1). subst bad. unfold infer_encrypted_size, mac_size in *.
  replace (size + iv_size + 16) with (S (size + iv_size + 15)) in E1 by lia.
  apply hx_get_some in E1 as (E1 & -> & L1). apply hx_ent_in in E1. pose proof (HL _ _ E1) as Hx.
  set (u := x ++ zeros (size + iv_size + 16 - length x)).
  assert (Lu : length u = size + iv_size + 16) by (unfold u; rewrite app_length, zeros_length; lia).
  unfold xattr_decrypt, infer_encrypted_size, mac_size. rewrite Lu, Nat.ltb_irrefl.
  assert (F : firstn iv_size u = firstn iv_size x).
  { unfold u. rewrite firstn_app. replace (iv_size - length x) with 0 by lia. cbn [firstn]. apply app_nil_r. }
  rewrite F. destruct (a_dec A key (firstn iv_size x) [] _ _) as [ok out] eqn:E3. destruct ok; [|discriminate]. cbn [negb andb rbind].
  intros [= <- <-].
  assert (S1 : skipn iv_size x ++ repeat x00 (size + iv_size + 16 - length x) = firstn (size + iv_size + 16 - iv_size - 16) (skipn iv_size u) ++ skipn (size + iv_size + 16 - 16) u).
  { transitivity (skipn iv_size u); [unfold u; rewrite skipn_app; replace (iv_size - length x) with 0 by lia; reflexivity|].
    rewrite <- (firstn_skipn size (skipn iv_size u)) at 1. rewrite skipn_skipn.
    replace (size + iv_size + 16 - iv_size - 16) with size by lia. replace (size + iv_size + 16 - 16) with (size + iv_size) by lia.
    first [reflexivity | rewrite Nat.add_comm; reflexivity]. }
  destruct (NF _ _ _ _ _ _ E1 S1 E3) as (v & Hi & He). exists (firstn iv_size x), v. split; [exact Hi|].
  pose proof (aead_dec_enc A HA key (firstn iv_size x) [] v) as D. rewrite He in D. cbn [fst snd] in D. rewrite E3 in D. injection D as ->.
  split; [reflexivity|]. pose proof (aead_ct_len A HA key (firstn iv_size x) [] v) as L. rewrite He in L. cbn [fst] in L.
  rewrite <- L, firstn_length, skipn_length, Lu. lia.
Qed.
