(** The statements of PropertiesNames, proved for the translator chosen at mount time. *)
From Coq Require Import Strings.String.
From Verif Require Import Base BaseLemmas TextModel TextProofs CryptoModel CryptoProofs NameModel NameSpec NameProofs.
Local Open Scope list_scope.

Lemma split_dir_name dir name : ~ In slash name -> last (split_slash (dir ++ slash :: name)) [] = name.
Proof.
  intros H. induction dir as [|c dir IH].
  - cbn [app]. rewrite split_cons_slash, (split_simple _ H). reflexivity.
  - cbn [app]. destruct (Byte.eqb c slash) eqn:E.
    + apply slash_eqb in E. subst c. rewrite split_cons_slash, last_cons_ne by apply split_ne. exact IH.
    + apply slash_neqb in E. rewrite split_cons_other by exact E.
      destruct (split_slash (dir ++ slash :: name)) as [|w ws] eqn:Es; [exfalso; exact (split_ne _ Es)|].
      destruct ws as [|w' ws]; [|exact IH].
      exfalso. clear - Es. assert (HS : 2 <= length (split_slash (dir ++ slash :: name))).
      { clear. induction dir as [|c dir IH]; cbn [app].
        - rewrite split_cons_slash. pose proof (split_ne name). destruct (split_slash name); [congruence|cbn; lia].
        - destruct (Byte.eqb c slash) eqn:E.
          + apply slash_eqb in E. subst c. rewrite split_cons_slash. cbn [length]. lia.
          + apply slash_neqb in E. rewrite split_cons_other by exact E.
            destruct (split_slash (dir ++ slash :: name)); cbn [length] in *; lia. }
      rewrite Es in HS. cbn in HS. lia.
Qed.

Lemma until_nul_firstn s n : ~ In x00 s -> until_nul (firstn n s) = firstn n s.
Proof.
  intros H. apply until_nul_id. intros Hi. apply H. rewrite <- (firstn_skipn n s). apply in_or_app. left. exact Hi.
Qed.

Lemma readlink_ok tr stored target size :
  t_link_dec tr stored = Ok target -> ~ In x00 stored -> ~ In x00 target ->
  length stored <= size * 2 + 126 -> length target < size ->
  lite_readlink tr stored size = Ok target.
Proof.
  intros Hd H1 H2 HL HT. unfold lite_readlink. destruct (Nat.leb_spec size 1) as [Hs|Hs].
  - destruct target; [reflexivity|cbn in HT; lia].
  - replace (size * 2 + 127 - 1) with (size * 2 + 126) by lia. rewrite firstn_all2, until_nul_id by assumption.
    rewrite Hd. cbn [rbind]. rewrite Nat.min_l, firstn_all2, until_nul_id by (assumption || lia). reflexivity.
Qed.

Section Top.
Variable cmac : bytes -> bytes.
Variable keystream : bytes -> nat -> bytes.
Variable blake : bytes -> bytes.
Hypothesis cmac_len : forall m, length (cmac m) = 16.
Hypothesis ks_len : forall iv n, length (keystream iv n) = n.
Hypothesis blake_len : forall m, length (blake m) = 32.

Notation box := (siv_box cmac keystream).
Notation make := (make_translator cmac keystream blake).
Notation ncomp := (ncomp cmac keystream blake).
Notation lcomp := (lcomp cmac keystream).

Definition effective (suffix : bytes) : bytes := match suffix with [] => kLegacyLongNameSuffix | _ => suffix end.

(** The physical name of one virtual component. *)
Definition pcomp (threshold : nat) (suffix v : bytes) : bytes :=
  if 0 <? threshold then ncomp threshold (effective suffix) v else lcomp v.

Definition config_ok (threshold : nat) (suffix : bytes) : Prop := 0 < threshold -> suffix_ok (effective suffix).

Lemma make_inner threshold suffix :
  make false threshold suffix None None =
  if 0 <? threshold then new_translator cmac keystream blake threshold (effective suffix) else legacy_translator cmac keystream.
Proof. reflexivity. Qed.

Lemma make_noop threshold suffix : t_noop (make false threshold suffix None None) = false.
Proof. rewrite make_inner. destruct (0 <? threshold); reflexivity. Qed.

Lemma pcomp_safe threshold suffix v : config_ok threshold suffix -> v <> [] -> safe_component (pcomp threshold suffix v).
Proof.
  intros Hc Hv. unfold pcomp. destruct (Nat.ltb_spec 0 threshold).
  - apply ncomp_safe; auto.
  - apply lcomp_safe; auto.
Qed.

Lemma make_last threshold suffix dir name P l : config_ok threshold suffix ->
  name <> [] -> ~ In slash name ->
  t_encrypt (make false threshold suffix None None) (dir ++ slash :: name) = Ok (P, l) ->
  get_last_component P = pcomp threshold suffix name /\
  l = (if (0 <? threshold) && (threshold <? length name) then enc32 (box name) else []).
Proof.
  intros Hc Hn Hs He. rewrite make_inner in He. unfold pcomp. pose proof (split_dir_name dir name Hs) as HL.
  destruct (Nat.ltb_spec 0 threshold) as [Ht|Ht].
  - cbn [t_encrypt new_translator] in He. rewrite new_encrypt_ok in He by assumption. injection He as <- <-.
    rewrite last_physical, HL by auto. split; [reflexivity|]. unfold nlast. rewrite HL. reflexivity.
  - cbn [t_encrypt legacy_translator] in He. eapply legacy_last in He; eauto; rewrite ?HL in *; auto.
Qed.

Lemma enc_box_ne m : enc32 (box m) <> [].
Proof.
  intros E. apply (f_equal (@length _)) in E. rewrite enc32_length, (box_length cmac keystream cmac_len ks_len) in E. cbn [length] in E.
  pose proof (encode_groups_mono 16 (16 + length m) ltac:(lia)) as Hg. change (encode_groups 16) with 26 in Hg. lia.
Qed.

Lemma created_decodes threshold suffix name table l prev : config_ok threshold suffix -> name <> [] ->
  l = (if (0 <? threshold) && (threshold <? length name) then enc32 (box name) else []) ->
  (l <> [] -> table (pcomp threshold suffix name) = Ok l) ->
  decode_entry (make false threshold suffix None None) table (pcomp threshold suffix name) prev = Ok name.
Proof.
  intros Hc Hn -> Ht. unfold decode_entry, pcomp in *. rewrite make_inner.
  destruct (Nat.ltb_spec 0 threshold) as [H0|H0]; cbn [andb] in *.
  - cbn [t_decrypt new_translator]. unfold NameProofs.ncomp in *. destruct name as [|x name]; [congruence|].
    destruct (Nat.leb_spec (length (x :: name)) threshold) as [H|H].
    + rewrite new_decrypt_direct by (auto; discriminate). reflexivity.
    + rewrite new_decrypt_long by auto. cbn [rbind].
      destruct (Nat.ltb_spec threshold (length (x :: name))) as [_|H']; [|lia].
      rewrite Ht by apply enc_box_ne. cbn [rbind]. rewrite new_decrypt_direct by (auto; discriminate). reflexivity.
  - cbn [t_decrypt legacy_translator]. unfold NameProofs.lcomp. destruct name as [|x name]; [congruence|].
    rewrite (decode_enc cmac keystream cmac_len ks_len) by discriminate. reflexivity.
Qed.

Theorem name_round_trip threshold suffix dir name P l table prev : config_ok threshold suffix ->
  name <> [] -> ~ In slash name ->
  t_encrypt (make false threshold suffix None None) (dir ++ slash :: name) = Ok (P, l) ->
  (l <> [] -> table (get_last_component P) = Ok l) ->
  list_names (make false threshold suffix None None) table [get_last_component P] prev = [name].
Proof.
  intros Hc Hn Hs He Ht. destruct (make_last _ _ _ _ _ _ Hc Hn Hs He) as (EP & El). rewrite EP in *.
  rewrite (safe_listed _ table (pcomp threshold suffix name) name prev (make_noop _ _)).
  - reflexivity.
  - apply pcomp_safe; assumption.
  - eapply created_decodes; eauto.
Qed.

(** Success of the translation. *)
Theorem new_names_total threshold suffix nfc fold path :
  0 < threshold -> exists P l, t_encrypt (make false threshold suffix nfc fold) path = Ok (P, l).
Proof.
  intros Ht. assert (HE : forall p, exists P l, t_encrypt (make false threshold suffix None None) p = Ok (P, l)).
  { intros p. rewrite make_inner. destruct (Nat.ltb_spec 0 threshold); [|lia]. cbn [t_encrypt new_translator].
    rewrite new_encrypt_ok. eauto. }
  rewrite make_inner in HE. unfold make_translator. fold (effective suffix). destruct (0 <? threshold) eqn:E0.
  2: { apply Nat.ltb_ge in E0. lia. }
  destruct nfc as [f|], fold as [g|]; try apply HE; cbn [normalizing t_encrypt];
    match goal with |- context [match ?x with Ok _ => _ | Err _ => _ end] => destruct x as [[P l]|]; [eauto|apply HE] end.
Qed.

Theorem legacy_names_total suffix path :
  Forall (fun w => length w <= 2000) (split_slash path) ->
  exists P, t_encrypt (make false 0 suffix None None) path = Ok (P, []).
Proof.
  intros H. rewrite make_inner. cbn [Nat.ltb Nat.leb t_encrypt legacy_translator].
  pose proof (legacy_encrypt_path_total cmac keystream cmac_len ks_len path H) as He.
  destruct path as [|c [|c2 path]].
  - exists []. reflexivity.
  - cbn [legacy_encrypt_full]. destruct (Byte.eqb c slash); [eauto|]. rewrite He. cbn [rbind]. eauto.
  - cbn [legacy_encrypt_full]. rewrite He. cbn [rbind]. destruct (join_slash _) as [|x s]; [eauto|]. destruct (Byte.eqb x slash); eauto.
Qed.

(** Normalisation *)
Theorem normalised_as threshold suffix f g path n1 n2 P l :
  f path = Ok n1 -> g n1 = Ok n2 ->
  t_encrypt (make false threshold suffix None None) n2 = Ok (P, l) ->
  t_encrypt (make false threshold suffix (Some f) (Some g)) path = Ok (P, l) /\
  (forall table us prev, list_names (make false threshold suffix (Some f) (Some g)) table us prev =
                         list_names (make false threshold suffix None None) table us prev).
Proof.
  intros Hf Hg He. split.
  - rewrite make_inner in He. unfold make_translator. fold (effective suffix). cbn [normalizing t_encrypt].
    rewrite Hf. cbn [rbind]. rewrite Hg. cbn [rbind]. rewrite He. reflexivity.
  - intros table us. rewrite make_inner. unfold make_translator. fold (effective suffix).
    induction us as [|u us IH]; intros prev; [reflexivity|]. cbn [list_names normalizing t_noop].
    destruct u as [|c u]; [apply IH|]. unfold decode_entry in *. cbn [t_decrypt normalizing] in *.
    rewrite !IH. destruct (_ || _)%bool; [reflexivity|]. destruct (t_noop _); [reflexivity|].
    destruct (Byte.eqb c dot); [reflexivity|].
    match goal with |- match ?x with Ok _ => _ | Err _ => _ end = _ => destruct x; [rewrite IH|]; reflexivity end.
Qed.

(** Injectivity *)
Theorem paths_injective threshold suffix p q P P' l l' : config_ok threshold suffix ->
  hd x00 p = slash -> hd x00 q = slash ->
  no_collision blake threshold (split_slash p ++ split_slash q) ->
  t_encrypt (make false threshold suffix None None) p = Ok (P, l) ->
  t_encrypt (make false threshold suffix None None) q = Ok (P', l') ->
  to_lower P = to_lower P' -> p = q.
Proof.
  intros Hc Hp Hq Hcol He He' HE. rewrite make_inner in He, He'. destruct (Nat.ltb_spec 0 threshold).
  - eapply (new_paths_inj cmac keystream cmac_len ks_len blake blake_len threshold (effective suffix)); eauto.
  - exact (legacy_paths_inj cmac keystream cmac_len ks_len p q P P' l l' Hp Hq He He' HE).
Qed.

Theorem plain_paths_injective threshold suffix nfc fold p q P P' l l' :
  hd x00 p = slash -> hd x00 q = slash ->
  t_encrypt (make true threshold suffix nfc fold) p = Ok (P, l) ->
  t_encrypt (make true threshold suffix nfc fold) q = Ok (P', l') ->
  P = P' -> p = q.
Proof.
  intros Hp Hq He He' HE. subst P'. cbn in He, He'. unfold noop_encrypt_full in *.
  destruct p as [|c p]; [discriminate|]. destruct q as [|d q]; [discriminate|]. cbn [hd] in *. subst.
  rewrite byte_eqb_refl in *. congruence.
Qed.

(** Containment *)
Lemma filter_map_comp (f : bytes -> bytes) ws :
  (forall v, v <> [] -> safe_component (f v)) -> f [] = [] ->
  Forall2 (fun v c => c = f v /\ safe_component c) (nonempty ws)
    (filter (fun w => negb (bytes_eqb w []) && negb (bytes_eqb w [dot])) (map f ws)).
Proof.
  intros Hf H0. induction ws as [|w ws IH]; [constructor|]. cbn [map nonempty filter].
  destruct w as [|c w].
  - rewrite H0. cbn [bytes_eqb negb andb]. exact IH.
  - specialize (Hf (c :: w) ltac:(discriminate)). destruct Hf as (H1 & H2 & H3 & H4).
    cbn [bytes_eqb negb].
    assert (E1 : bytes_eqb (f (c :: w)) [] = false).
    { destruct (bytes_eqb (f (c :: w)) []) eqn:E; [|reflexivity]. apply bytes_eqb_eq in E. rewrite E in H1. cbn in H1. lia. }
    assert (E2 : bytes_eqb (f (c :: w)) [dot] = false).
    { destruct (bytes_eqb (f (c :: w)) [dot]) eqn:E; [|reflexivity]. apply bytes_eqb_eq in E. rewrite E in H1. cbn in H1. lia. }
    rewrite E1, E2. cbn [negb andb]. constructor; [|exact IH]. split; [reflexivity|]. repeat split; assumption.
Qed.

Theorem containment threshold suffix p P l : config_ok threshold suffix ->
  hd x00 p = slash ->
  t_encrypt (make false threshold suffix None None) p = Ok (P, l) ->
  Forall2 (fun v c => c = pcomp threshold suffix v /\ safe_component c) (nonempty (split_slash p)) (steps P) /\
  (hd x00 (tl p) <> slash -> hd x00 P <> slash).
Proof.
  intros Hc Hp He. rewrite make_inner in He. unfold steps.
  pose proof (pcomp_safe threshold suffix) as HS. unfold pcomp in *.
  destruct (Nat.ltb_spec 0 threshold) as [H0|H0].
  - cbn [t_encrypt new_translator] in He. rewrite new_encrypt_ok in He. injection He as <- _. split; [|intros _; discriminate].
    rewrite split_physical by auto. cbn [filter]. change (bytes_eqb [dot] [dot]) with true.
    cbn [negb]. rewrite Bool.andb_false_r. apply filter_map_comp; [|reflexivity]. intros v Hv. apply HS; auto.
  - cbn [t_encrypt legacy_translator] in He.
    apply (legacy_components cmac keystream cmac_len ks_len) in He; [|exact Hp]. destruct He as (-> & [(-> & ->)|(Hne & rest & -> & Er)]).
    + split; [constructor|intros _; discriminate].
    + rewrite Er. rewrite split_cons_slash. cbn [nonempty filter bytes_eqb negb]. split.
      * apply filter_map_comp; [|reflexivity]. intros v Hv. apply HS; auto.
      * cbn [tl]. intros Hr. destruct P as [|c P]; [discriminate|]. cbn [hd]. intros ->.
        rewrite split_cons_slash in Er. destruct rest as [|r rest]; [cbn in Er; apply (f_equal (@length _)) in Er; cbn [length] in Er; pose proof (split_ne P); destruct (split_slash P); [congruence|discriminate]|].
        cbn [hd] in Hr. rewrite split_cons_other in Er by exact Hr.
        assert (HX : exists x, [] = lcomp (r :: x)).
        { destruct (split_slash rest) as [|w ws]; apply (f_equal (hd [])) in Er; cbn [map hd] in Er; eauto. }
        destruct HX as (x & Ex). pose proof (lcomp_length cmac keystream cmac_len ks_len (r :: x) ltac:(discriminate)) as Hw.
        rewrite <- Ex in Hw. cbn in Hw. lia.
Qed.

(** Link targets *)
Theorem new_link_round_trip threshold suffix target size : 0 < threshold ->
  ~ In x00 target -> length target < size ->
  exists stored, t_link_enc (make false threshold suffix None None) target = Ok stored /\ ~ In x00 stored /\
    lite_readlink (make false threshold suffix None None) stored size = Ok target.
Proof.
  intros Ht H0 HL. rewrite make_inner. destruct (Nat.ltb_spec 0 threshold); [|lia].
  destruct (new_link_ok cmac keystream cmac_len ks_len target) as (s & Es & Ed & Hs & Hz).
  exists s. split; [exact Es|]. split; [exact Hz|]. apply readlink_ok; auto. lia.
Qed.

Theorem legacy_link_round_trip suffix target size :
  Forall (fun w => length w <= 2000) (split_slash target) ->
  ~ In x00 target -> length target < size ->
  exists stored, t_link_enc (make false 0 suffix None None) target = Ok stored /\ ~ In x00 stored /\
    (length stored <= size * 2 + 126 -> lite_readlink (make false 0 suffix None None) stored size = Ok target).
Proof.
  intros Hc H0 HL. rewrite make_inner. cbn [Nat.ltb Nat.leb].
  destruct (legacy_link_ok cmac keystream cmac_len ks_len target Hc) as (s & Es & Ed & Hz).
  exists s. split; [exact Es|]. split; [exact Hz|]. intros Hs. apply readlink_ok; auto.
Qed.

Theorem plain_link_round_trip threshold suffix nfc fold target size :
  ~ In x00 target -> length target < size ->
  t_link_enc (make true threshold suffix nfc fold) target = Ok target /\
  lite_readlink (make true threshold suffix nfc fold) target size = Ok target.
Proof using cmac keystream blake.
  clear cmac_len ks_len blake_len. intros H0 HL. split; [reflexivity|]. apply readlink_ok; auto. lia.
Qed.

(** Some authentic ciphertext of [m] is in the text [s]. *)
Definition carries (s m : bytes) : Prop := base32_decode (filter (fun c => negb (Byte.eqb c slash)) s) = Ok (box m).

Theorem new_link_sound threshold suffix stored size answer : 0 < threshold ->
  lite_readlink (make false threshold suffix None None) stored size = Ok answer -> answer <> [] ->
  exists full text, answer = until_nul (firstn (size - 1) full) /\ text = until_nul (firstn (size * 2 + 126) stored) /\ carries text full.
Proof.
  intros Ht H Ha. rewrite make_inner in H. destruct (Nat.ltb_spec 0 threshold); [|lia]. unfold lite_readlink in H.
  destruct (size <=? 1); [congruence|]. replace (size * 2 + 127 - 1) with (size * 2 + 126) in H by lia.
  cbn [t_link_dec new_translator] in H. destruct (new_link_dec _ _ _) as [r|] eqn:E; [|discriminate]. cbn [rbind] in H. injection H as <-.
  exists r, (until_nul (firstn (size * 2 + 126) stored)). split; [|split; [reflexivity|]].
  - f_equal. destruct (Nat.le_gt_cases (length r) (size - 1)).
    + rewrite Nat.min_l, !firstn_all2 by lia. reflexivity.
    + rewrite Nat.min_r by lia. reflexivity.
  - apply (new_link_dec_sound cmac keystream cmac_len ks_len); [exact E|]. intros ->. cbn in Ha. congruence.
Qed.

Theorem legacy_link_sound suffix stored size answer :
  lite_readlink (make false 0 suffix None None) stored size = Ok answer -> answer <> [] ->
  let text := until_nul (firstn (size * 2 + 126) stored) in
  (text = [dot] /\ answer = [slash]) \/
  exists parts, answer = until_nul (firstn (size - 1) (join_slash parts)) /\
    Forall2 (fun u v => (u = [] /\ v = []) \/ (u <> [] /\ base32_decode u = Ok (box v))) (split_slash text) parts.
Proof.
  intros H Ha text. rewrite make_inner in H. cbn [Nat.ltb Nat.leb] in H. unfold lite_readlink in H.
  destruct (Nat.leb_spec size 1); [congruence|]. replace (size * 2 + 127 - 1) with (size * 2 + 126) in H by lia.
  cbn [t_link_dec legacy_translator] in H. fold text in H. destruct (legacy_link_dec _ _ _) as [r|] eqn:E; [|discriminate]. cbn [rbind] in H. injection H as <-.
  unfold legacy_link_dec in E. destruct text as [|c t]; [injection E as <-; cbn in Ha; congruence|].
  destruct (bytes_eqb (c :: t) [dot]) eqn:Ed.
  - left. apply bytes_eqb_eq in Ed. injection E as <-. split; [exact Ed|]. rewrite Nat.min_l by (cbn; lia). reflexivity.
  - right. apply (legacy_decrypt_sound cmac keystream cmac_len ks_len) in E as (vs & -> & HF). exists vs. split; [|exact HF].
    f_equal. destruct (Nat.le_gt_cases (length (join_slash vs)) (size - 1)).
    + rewrite Nat.min_l, !firstn_all2 by lia. reflexivity.
    + rewrite Nat.min_r by lia. reflexivity.
Qed.

(** Maximal lengths *)
Definition host_max : N := 858993459. (* 5 times this is below 2^32 *)

Lemma u32_small phys : (phys <= host_max)%N -> u32_times5_div8 phys = (phys * 5 / 8)%N.
Proof. intros H. unfold u32_times5_div8, host_max in *. rewrite N.mod_small; [reflexivity|]. change (2 ^ 32)%N with 4294967296%N. lia. Qed.

Lemma sub_small a b : (b <= a)%N -> (a < 2 ^ 32)%N -> sub_to_u32 a b = (a - b)%N.
Proof.
  intros H1 H2. unfold sub_to_u32. replace (a + 2 ^ 64 - b)%N with (a - b + 2 ^ 32 * 2 ^ 32)%N.
  - rewrite N.mod_add by discriminate. apply N.mod_small. lia.
  - change (2 ^ 32 * 2 ^ 32)%N with (2 ^ 64)%N. lia.
Qed.

Lemma fits_iff m phys : (N.of_nat (encode_groups (16 + m)) <= phys)%N <-> (N.of_nat (16 + m) <= phys * 5 / 8)%N.
Proof.
  rewrite <- (N2Nat.id phys) at 1 2. set (p := N.to_nat phys).
  assert (E : (N.of_nat p * 5 / 8)%N = N.of_nat (p * 5 / 8)).
  { rewrite Nat2N.inj_div, Nat2N.inj_mul. reflexivity. }
  rewrite E.
  pose proof (encode_groups_le (16 + m) p). lia.
Qed.

Theorem legacy_max_exact suffix phys name : (phys <= host_max)%N -> name <> [] ->
  ((N.of_nat (length (pcomp 0 suffix name)) <= phys)%N <->
   (N.of_nat (length name) <= t_max (make false 0 suffix None None) phys)%N).
Proof.
  intros Hp Hn. unfold pcomp. rewrite make_inner. cbn [Nat.ltb Nat.leb t_max legacy_translator]. unfold NameProofs.lcomp.
  destruct name as [|c name]; [congruence|]. rewrite enc32_length, (box_length cmac keystream cmac_len ks_len).
  rewrite fits_iff. unfold legacy_max. cbn [length]. destruct (N.leb_spec phys 25).
  - split; [|lia]. intros HL. assert (phys * 5 / 8 <= 15)%N; [|lia].
    assert (phys * 5 / 8 < 16)%N by (apply N.div_lt_upper_bound; lia). lia.
  - rewrite u32_small by exact Hp.
    assert (16 <= phys * 5 / 8)%N by (apply N.div_le_lower_bound; lia).
    assert (phys * 5 / 8 < 2 ^ 32)%N by (apply N.div_lt_upper_bound; [lia|]; unfold host_max in Hp; change (2 ^ 32)%N with 4294967296%N; lia).
    rewrite sub_small by assumption. lia.
Qed.

Theorem new_max_sound threshold suffix phys name : 0 < threshold -> (phys <= host_max)%N -> (26 <= phys)%N ->
  (77 + N.of_nat (length (effective suffix)) <= phys)%N ->
  (N.of_nat (length name) <= t_max (make false threshold suffix None None) phys)%N ->
  (N.of_nat (length (pcomp threshold suffix name)) <= phys)%N.
Proof.
  intros Ht Hp H26 Hs HL. rewrite make_inner in HL. unfold pcomp. destruct (Nat.ltb_spec 0 threshold); [|lia].
  unfold NameProofs.ncomp. destruct name as [|c name]; [cbn; lia|].
  destruct (Nat.leb_spec (length (c :: name)) threshold) as [Hle|Hgt].
  - rewrite enc32_length, (box_length cmac keystream cmac_len ks_len). rewrite fits_iff.
    cbn [t_max new_translator] in HL. unfold new_max in HL.
    destruct (N.leb_spec phys ((N.of_nat threshold + 16) * 8 / 5)) as [H1|H1].
    + rewrite u32_small in HL by exact Hp.
      assert (16 <= phys * 5 / 8)%N by (apply N.div_le_lower_bound; lia).
      assert (phys * 5 / 8 < 2 ^ 32)%N by (apply N.div_lt_upper_bound; [lia|]; unfold host_max in Hp; change (2 ^ 32)%N with 4294967296%N; lia).
      rewrite sub_small in HL by assumption. lia.
    + apply N.div_le_lower_bound; [lia|].
      pose proof (N.mul_succ_div_gt ((N.of_nat threshold + 16) * 8) 5 ltac:(lia)). lia.
  - rewrite app_length, enc32_length, (box_length cmac keystream cmac_len ks_len), blake_len.
    change (encode_groups (16 + 32)) with 77. lia.
Qed.

Theorem new_max_maximal threshold suffix phys name : 0 < threshold -> (phys <= host_max)%N -> (26 <= phys)%N ->
  name <> [] -> length name <= threshold ->
  (N.of_nat (length (pcomp threshold suffix name)) <= phys)%N -> (N.of_nat (length name) <= 65535)%N ->
  (N.of_nat (length name) <= t_max (make false threshold suffix None None) phys)%N.
Proof.
  intros Ht Hp H26 Hn Hl HP H6. rewrite make_inner. unfold pcomp in HP. destruct (Nat.ltb_spec 0 threshold); [|lia].
  unfold NameProofs.ncomp in HP. destruct name as [|c name]; [congruence|].
  destruct (Nat.leb_spec (length (c :: name)) threshold) as [Hle|Hgt]; [|lia].
  rewrite enc32_length, (box_length cmac keystream cmac_len ks_len), fits_iff in HP.
  cbn [t_max new_translator]. unfold new_max. destruct (N.leb_spec phys ((N.of_nat threshold + 16) * 8 / 5)) as [H1|H1].
  - rewrite u32_small by exact Hp.
    assert (16 <= phys * 5 / 8)%N by (apply N.div_le_lower_bound; lia).
    assert (phys * 5 / 8 < 2 ^ 32)%N by (apply N.div_lt_upper_bound; [lia|]; unfold host_max in Hp; change (2 ^ 32)%N with 4294967296%N; lia).
    rewrite sub_small by assumption. lia.
  - exact H6.
Qed.

(** Listings *)
Lemma list_skip tr table u us prev : u = [] \/ (exists c v, u = c :: v /\ t_noop tr = false /\ bytes_eqb u [dot] = false /\ bytes_eqb u [dot; dot] = false /\
   (c = dot \/ exists e, decode_entry tr table u prev = Err e)) ->
  list_names tr table (u :: us) prev = list_names tr table us prev.
Proof.
  intros [->|(c & v & -> & Hn & E1 & E2 & H)]; [reflexivity|]. cbn [list_names]. rewrite E1, E2, Hn. cbn [orb].
  destruct H as [->|(e & ->)]; [rewrite byte_eqb_refl; reflexivity|]. destruct (Byte.eqb c dot); reflexivity.
Qed.

Theorem listing_exact threshold suffix table us outs prev : config_ok threshold suffix ->
  Forall2 (shown (t_encrypt (make false threshold suffix None None)) table) us outs ->
  list_names (make false threshold suffix None None) table us prev = concat outs.
Proof.
  intros Hc H. revert prev. induction H as [|u out us outs Hu H IH]; intros prev; [reflexivity|].
  cbn [concat]. destruct Hu as [| |u Hu1 Hu2|dir name P l Hn Hs He Ht|u Hd Hb Ht].
  - cbn [list_names app]. change (bytes_eqb [dot] [dot] || bytes_eqb [dot] [dot; dot])%bool with true. rewrite IH. reflexivity.
  - cbn [list_names app]. change (bytes_eqb [dot; dot] [dot] || bytes_eqb [dot; dot] [dot; dot])%bool with true. rewrite IH. reflexivity.
  - rewrite list_skip; [apply IH|]. right. exists dot, u. split; [reflexivity|]. split; [apply make_noop|].
    split; [|split; [|left; reflexivity]].
    + destruct (bytes_eqb (dot :: u) [dot]) eqn:E; [|reflexivity]. apply bytes_eqb_eq in E. congruence.
    + destruct (bytes_eqb (dot :: u) [dot; dot]) eqn:E; [|reflexivity]. apply bytes_eqb_eq in E. congruence.
  - destruct (make_last _ _ _ _ _ _ Hc Hn Hs He) as (EP & El). rewrite EP in *.
    rewrite (safe_listed _ table (pcomp threshold suffix name) name prev (make_noop _ _)).
    + rewrite IH. reflexivity.
    + apply pcomp_safe; assumption.
    + eapply created_decodes; eauto.
  - rewrite list_skip; [apply IH|]. destruct u as [|c u]; [left; reflexivity|]. right. exists c, u.
    cbn [hd] in Hd. split; [reflexivity|]. split; [apply make_noop|].
    split; [destruct (bytes_eqb (c :: u) [dot]) eqn:E; [apply bytes_eqb_eq in E; congruence|reflexivity]|].
    split; [destruct (bytes_eqb (c :: u) [dot; dot]) eqn:E; [apply bytes_eqb_eq in E; congruence|reflexivity]|].
    right. destruct Hb as (e & Hb), Ht as (e' & Ht). unfold decode_entry. rewrite make_inner. destruct (0 <? threshold).
    + cbn [t_decrypt new_translator]. unfold new_decrypt. destruct (ends_with (c :: u) (effective suffix)).
      * cbn [rbind]. rewrite Ht. cbn [rbind]. eauto.
      * unfold decode_component. rewrite Hb. cbn [rbind]. eauto.
    + cbn [t_decrypt legacy_translator]. unfold decode_component. rewrite Hb. cbn [rbind]. eauto.
Qed.

(** [u] is, directly or through the table, an authentic encryption of [n]. *)
Definition authentic (table : bytes -> res bytes) (u n : bytes) : Prop :=
  exists text, (text = u \/ table u = Ok text) /\ base32_decode text = Ok (box n).

Lemma decode_sound tr_dec threshold suffix table u prev n :
  tr_dec = make false threshold suffix None None ->
  decode_entry tr_dec table u prev = Ok n -> n = prev \/ authentic table u n.
Proof.
  intros -> H. unfold decode_entry in H. rewrite make_inner in H.
  assert (HD : forall t m, t_decrypt (if 0 <? threshold then new_translator cmac keystream blake threshold (effective suffix) else legacy_translator cmac keystream) t = Ok (DName m) ->
    base32_decode t = Ok (box m)).
  { intros t m Hm. assert (HC : decode_component cmac keystream t = Ok (DName m)).
    { destruct (0 <? threshold); cbn [t_decrypt new_translator legacy_translator] in Hm; [|exact Hm].
      unfold new_decrypt in Hm. destruct (ends_with _ _); [discriminate|exact Hm]. }
    unfold decode_component in HC. destruct (base32_decode t) as [d|]; [|discriminate]. cbn [rbind] in HC.
    destruct (_ <=? _); [discriminate|]. destruct (siv_unbox cmac keystream d) as [p|] eqn:E; [|discriminate].
    injection HC as ->. apply (unbox_some cmac keystream cmac_len ks_len) in E. congruence. }
  destruct (t_decrypt _ u) as [d|] eqn:E; [|discriminate]. cbn [rbind] in H. destruct d as [| |m].
  - injection H as <-. left. reflexivity.
  - destruct (table u) as [enc|] eqn:Et; [|discriminate]. cbn [rbind] in H.
    destruct (t_decrypt _ enc) as [d'|] eqn:E'; [|discriminate]. cbn [rbind] in H. destruct d' as [| |m]; try discriminate.
    injection H as <-. right. exists enc. split; [right; exact Et|]. apply HD. exact E'.
  - injection H as <-. right. exists u. split; [left; reflexivity|]. apply HD. exact E.
Qed.

Theorem listing_sound threshold suffix table us prev n :
  In n (list_names (make false threshold suffix None None) table us prev) ->
  n = prev \/ n = [dot] \/ n = [dot; dot] \/ exists u, In u us /\ authentic table u n.
Proof.
  revert prev. induction us as [|u us IH]; intros prev Hi; [destruct Hi|]. cbn [list_names] in Hi.
  assert (HW : forall p, In n (list_names (make false threshold suffix None None) table us p) ->
     n = p \/ n = [dot] \/ n = [dot; dot] \/ exists v, In v (u :: us) /\ authentic table v n).
  { intros p Hp. destruct (IH p Hp) as [H|[H|[H|(v & Hv & H)]]]; auto. right; right; right. exists v. split; [right; exact Hv|exact H]. }
  destruct u as [|c u]; [apply HW; exact Hi|].
  destruct (bytes_eqb (c :: u) [dot] || bytes_eqb (c :: u) [dot; dot])%bool eqn:Ed.
  - assert (Hu : c :: u = [dot] \/ c :: u = [dot; dot]).
    { apply orb_prop in Ed as [E|E]; apply bytes_eqb_eq in E; auto. }
    destruct Hi as [<-|Hi]; [destruct Hu as [->| ->]; auto|].
    apply HW in Hi as [->|Hi]; [destruct Hu as [->| ->]; auto|auto].
  - rewrite make_noop in Hi. destruct (Byte.eqb c dot); [apply HW; exact Hi|].
    destruct (decode_entry _ table (c :: u) prev) as [m|] eqn:E; [|apply HW; exact Hi].
    apply (decode_sound _ threshold suffix) in E; [|reflexivity].
    assert (Hm : forall x, x = m -> x = prev \/ x = [dot] \/ x = [dot; dot] \/ exists v, In v ((c :: u) :: us) /\ authentic table v x).
    { intros x ->. destruct E as [->|E]; [auto|]. right; right; right. exists (c :: u). split; [left; reflexivity|exact E]. }
    destruct Hi as [Hi|Hi]; [apply Hm; congruence|]. apply HW in Hi as [->|Hi]; [apply Hm; reflexivity|auto].
Qed.

(** Every entry made through the file system is there, whatever else is. *)
Theorem listing_complete threshold suffix table us1 us2 dir name P l prev : config_ok threshold suffix ->
  name <> [] -> ~ In slash name ->
  t_encrypt (make false threshold suffix None None) (dir ++ slash :: name) = Ok (P, l) ->
  (l <> [] -> table (get_last_component P) = Ok l) ->
  In name (list_names (make false threshold suffix None None) table (us1 ++ get_last_component P :: us2) prev).
Proof.
  intros Hc Hn Hs He Ht. destruct (make_last _ _ _ _ _ _ Hc Hn Hs He) as (EP & El). rewrite EP in *.
  revert prev. induction us1 as [|u us1 IH]; intros prev.
  - cbn [app]. rewrite (safe_listed _ table (pcomp threshold suffix name) name prev (make_noop _ _)).
    + left. reflexivity.
    + apply pcomp_safe; assumption.
    + eapply created_decodes; eauto.
  - cbn [app list_names]. destruct u as [|c u]; [apply IH|].
    destruct (_ || _)%bool; [right; apply IH|]. rewrite make_noop. destruct (Byte.eqb c dot); [apply IH|].
    destruct (decode_entry _ _ _ _); [right|]; apply IH.
Qed.

(** Migration *)
Lemma fold_max_ge (es : list (bytes * bool)) e : In e es -> length (fst e) <= fold_right (fun e m => Nat.max (length (fst e)) m) 0 es.
Proof. induction es as [|x es IH]; intros H; [destruct H|]. cbn [fold_right]. destruct H as [->|H]; [lia|]. specialize (IH H). lia. Qed.

Theorem migration_keeps threshold suffix old entries path P l :
  config_ok threshold suffix ->
  hd x00 path = slash ->
  migration_threshold entries = Ok threshold ->
  t_encrypt (make false 0 old None None) path = Ok (P, l) ->
  (forall c, In c (steps P) -> In c (map fst entries)) ->
  0 < threshold /\
  exists P', t_encrypt (make false threshold suffix None None) path = Ok (P', []) /\ steps P' = steps P.
Proof.
  intros Hc Hp Hm He Hall.
  pose proof (containment 0 old path P l ltac:(intros H; lia) Hp He) as (HF & _).
  unfold migration_threshold in Hm. destruct (existsb snd entries); [discriminate|].
  set (mx := fold_right (fun e m => Nat.max (length (fst e)) m) 0 entries) in *.
  assert (Hth : threshold = if mx <? (kDefaultLongNameThreshold + 16) * 8 / 5 then kDefaultLongNameThreshold else mx * 5 / 8 - 16) by congruence.
  clear Hm. change ((kDefaultLongNameThreshold + 16) * 8 / 5) with 230 in Hth.
  assert (Hpos : 0 < threshold).
  { rewrite Hth. destruct (Nat.ltb_spec mx 230) as [H|H]; [unfold kDefaultLongNameThreshold; lia|].
    assert (143 <= mx * 5 / 8) by (apply Nat.div_le_lower_bound; lia). lia. }
  split; [exact Hpos|].
  assert (Hshort : forall v, In v (split_slash path) -> length v <= threshold).
  { intros v Hv. destruct v as [|c v]; [cbn; lia|].
    assert (Hin : In (c :: v) (nonempty (split_slash path))).
    { apply filter_In. split; [exact Hv|reflexivity]. }
    assert (Hc' : In (pcomp 0 old (c :: v)) (steps P)).
    { clear - HF Hin. induction HF as [|a b as' bs Hab HF IH]; [destruct Hin|]. destruct Hab as (-> & _).
      destruct Hin as [->|Hin]; [left; reflexivity|right; auto]. }
    apply Hall in Hc'. apply in_map_iff in Hc' as (e & Ee & Hine). pose proof (fold_max_ge _ _ Hine) as Hmx. rewrite Ee in Hmx. fold mx in Hmx.
    unfold pcomp in Hmx. cbn [Nat.ltb Nat.leb] in Hmx. cbn [NameProofs.lcomp] in Hmx.
    rewrite enc32_length, (box_length cmac keystream cmac_len ks_len) in Hmx. apply encode_groups_le in Hmx.
    rewrite Hth. destruct (Nat.ltb_spec mx 230) as [H|H]; [|lia].
    assert (mx * 5 / 8 < 144) by (apply Nat.div_lt_upper_bound; lia). unfold kDefaultLongNameThreshold. lia. }
  rewrite make_inner. destruct (Nat.ltb_spec 0 threshold); [|lia]. cbn [t_encrypt new_translator]. rewrite new_encrypt_ok.
  eexists. split.
  - f_equal. f_equal. unfold nlast. destruct (Nat.ltb_spec threshold (length (last (split_slash path) []))) as [Hb|Hb]; [|reflexivity].
    exfalso. assert (In (last (split_slash path) []) (split_slash path)).
    { pose proof (split_ne path) as Hne. clear - Hne. induction (split_slash path) as [|x l IH]; [congruence|]. destruct l as [|y l]; [left; reflexivity|].
      right. apply IH. discriminate. }
    specialize (Hshort _ H0). lia.
  - assert (He2 : t_encrypt (make false threshold suffix None None) path =
      Ok (dot :: flat_map (fun v => slash :: ncomp threshold (effective suffix) v) (split_slash path), nlast cmac keystream threshold path)).
    { rewrite make_inner. destruct (Nat.ltb_spec 0 threshold); [|lia]. cbn [t_encrypt new_translator]. apply new_encrypt_ok. }
    pose proof (containment threshold suffix path _ _ Hc Hp He2) as (HF2 & _).
    set (P2 := dot :: flat_map _ _) in *. clearbody P2. clear Hth. revert HF HF2. unfold nonempty.
    generalize (steps P) as s1. generalize (steps P2) as s2.
    assert (Hsh : forall v, In v (filter (fun w => negb (bytes_eqb w [])) (split_slash path)) -> length v <= threshold /\ v <> []).
    { intros v Hv. apply filter_In in Hv as (Hv & Hb). split; [auto|]. intros ->. discriminate. }
    revert Hsh. induction (filter _ (split_slash path)) as [|v vs IH]; intros Hsh s2 s1 HF HF2; inversion HF as [|? c1 ? t1 E1 HT1]; subst; inversion HF2 as [|? c2 ? t2 E2 HT2]; subst; [reflexivity|].
    f_equal; [|apply IH; auto; intros; apply Hsh; right; assumption].
    destruct (Hsh v (or_introl eq_refl)) as (Hl & Hne).
    destruct E1 as (-> & _), E2 as (-> & _).
    unfold pcomp. destruct (Nat.ltb_spec 0 threshold); [|lia]. cbn [Nat.ltb Nat.leb].
    unfold NameProofs.ncomp, NameProofs.lcomp. destruct v as [|c v]; [reflexivity|].
    destruct (Nat.leb_spec (length (c :: v)) threshold); [reflexivity|lia].
Qed.
End Top.
