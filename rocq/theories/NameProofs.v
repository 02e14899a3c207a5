(** Proofs about name translation. *)
From Coq Require Import Strings.String.
From Verif Require Import Base BaseLemmas TextModel TextProofs CryptoModel CryptoProofs NameModel NameSpec.
Local Open Scope list_scope.

(** ** Splitting at separators *)
Fixpoint join_slash (ws : list bytes) : bytes :=
  match ws with
  | [] => []
  | [w] => w
  | w :: ws' => w ++ slash :: join_slash ws'
  end.

Lemma join_cons w ws : ws <> [] -> join_slash (w :: ws) = w ++ slash :: join_slash ws.
Proof. destruct ws; [congruence|reflexivity]. Qed.

Lemma split_ne s : split_slash s <> [].
Proof.
  destruct s as [|c s]; cbn [split_slash]; [discriminate|]. destruct (Byte.eqb c slash); [discriminate|].
  destruct (split_slash s); discriminate.
Qed.

Lemma slash_eqb c : Byte.eqb c slash = true <-> c = slash.
Proof. split; [apply byte_eqb_eq|intros ->; apply byte_eqb_refl]. Qed.
Lemma slash_neqb c : Byte.eqb c slash = false <-> c <> slash.
Proof.
  split; intros H.
  - intros ->. rewrite byte_eqb_refl in H. discriminate.
  - destruct (Byte.eqb c slash) eqn:E; [|reflexivity]. apply slash_eqb in E. congruence.
Qed.

Lemma split_cons_slash s : split_slash (slash :: s) = [] :: split_slash s.
Proof. reflexivity. Qed.
Lemma split_cons_other c s : c <> slash ->
  split_slash (c :: s) = match split_slash s with w :: ws => (c :: w) :: ws | [] => [[c]] end.
Proof. intros H. apply slash_neqb in H. cbn [split_slash]. rewrite H. reflexivity. Qed.

Lemma join_split s : join_slash (split_slash s) = s.
Proof.
  induction s as [|c s IH]; [reflexivity|].
  destruct (Byte.eqb c slash) eqn:E.
  - apply slash_eqb in E. subst c. rewrite split_cons_slash, join_cons by apply split_ne. rewrite IH. reflexivity.
  - apply slash_neqb in E. rewrite split_cons_other by exact E.
    destruct (split_slash s) as [|w ws] eqn:Es; [exfalso; exact (split_ne s Es)|].
    destruct ws as [|w' ws]; cbn [join_slash app] in *; rewrite IH; reflexivity.
Qed.

Lemma split_no_slash s : Forall (fun w => ~ In slash w) (split_slash s).
Proof.
  induction s as [|c s IH]; [constructor; [intros []|constructor]|].
  destruct (Byte.eqb c slash) eqn:E.
  - apply slash_eqb in E. subst c. rewrite split_cons_slash. constructor; [intros []|exact IH].
  - apply slash_neqb in E. rewrite split_cons_other by exact E.
    destruct (split_slash s) as [|w ws].
    + constructor; [|constructor]. intros [H|[]]. congruence.
    + inversion IH; subst. constructor; [|assumption]. intros [H|H]; [congruence|contradiction].
Qed.

Lemma split_app w s : ~ In slash w -> split_slash (w ++ slash :: s) = w :: split_slash s.
Proof.
  induction w as [|c w IH]; intros H; [reflexivity|].
  cbn [app]. rewrite split_cons_other by (intros ->; apply H; left; reflexivity).
  rewrite IH by (intros Hi; apply H; right; exact Hi). reflexivity.
Qed.

Lemma split_simple w : ~ In slash w -> split_slash w = [w].
Proof.
  induction w as [|c w IH]; intros H; [reflexivity|].
  rewrite split_cons_other by (intros ->; apply H; left; reflexivity).
  rewrite IH by (intros Hi; apply H; right; exact Hi). reflexivity.
Qed.

Lemma split_join ws : ws <> [] -> Forall (fun w => ~ In slash w) ws -> split_slash (join_slash ws) = ws.
Proof.
  induction ws as [|w ws IH]; intros Hne H; [congruence|]. inversion H; subst.
  destruct ws as [|w' ws].
  - apply split_simple. assumption.
  - rewrite join_cons by discriminate. rewrite split_app by assumption. f_equal. apply IH; [discriminate|assumption].
Qed.

Lemma split_inj s s' : split_slash s = split_slash s' -> s = s'.
Proof. intros H. rewrite <- (join_split s), <- (join_split s'), H. reflexivity. Qed.

(** ** Base32 text *)
Lemma alphabet_not_slash c : In c upper32 -> c <> slash /\ c <> dot /\ c <> x00.
Proof.
  assert (H : forall c, implb (existsb (Byte.eqb c) upper32)
     (negb (Byte.eqb c slash) && negb (Byte.eqb c dot) && negb (Byte.eqb c x00)) = true).
  { apply byte_sweep. vm_compute. reflexivity. }
  intros Hi. specialize (H c).
  assert (E : existsb (Byte.eqb c) upper32 = true) by (apply existsb_exists; exists c; split; [exact Hi|apply byte_eqb_refl]).
  rewrite E in H. cbn [implb] in H. apply andb_prop in H as [H H3]. apply andb_prop in H as [H1 H2].
  apply negb_true_iff in H1, H2, H3.
  repeat split; intros ->; rewrite byte_eqb_refl in *; discriminate.
Qed.

Lemma enc32_in l c : In c (enc32 l) -> In c upper32.
Proof. intros H. pose proof (enc32_alphabet l) as HF. rewrite Forall_forall in HF. auto. Qed.

Lemma enc32_no_slash l : ~ In slash (enc32 l).
Proof. intros H. apply enc32_in, alphabet_not_slash in H. destruct H. congruence. Qed.

Lemma enc32_inj a b : enc32 a = enc32 b -> a = b.
Proof. intros H. apply enc32_ci_inj. rewrite H. reflexivity. Qed.

Lemma encode_groups_mono a b : a <= b -> encode_groups a <= encode_groups b.
Proof. intros H. unfold encode_groups. apply Nat.div_le_mono; lia. Qed.

Lemma encode_groups_le m p : encode_groups m <= p <-> m <= p * 5 / 8.
Proof.
  unfold encode_groups. split; intros H.
  - apply Nat.div_le_lower_bound; [lia|].
    pose proof (Nat.div_mod (m * 8 + 4) 5 ltac:(lia)). pose proof (Nat.mod_upper_bound (m * 8 + 4) 5 ltac:(lia)). lia.
  - apply Nat.lt_succ_r. apply Nat.div_lt_upper_bound; [lia|].
    pose proof (Nat.div_mod (p * 5) 8 ltac:(lia)). lia.
Qed.

(** Concatenating encodings of multiples of five bytes. *)
Lemma bit_app_l a b j : j < 8 * length a -> bit (a ++ b) j = bit a j.
Proof.
  intros H. unfold bit, get. rewrite app_nth1; [reflexivity|]. apply Nat.div_lt_upper_bound; lia.
Qed.
Lemma bit_app_r a b j : bit (a ++ b) (8 * length a + j) = bit b j.
Proof.
  unfold bit, get. replace (8 * length a + j) with (j + length a * 8) by lia.
  rewrite Nat.div_add, Nat.mod_add by lia. rewrite app_nth2 by lia. replace (j / 8 + length a - length a) with (j / 8) by lia. reflexivity.
Qed.

Lemma group_ext l l' k k' :
  (forall t, t < 5 -> bit l (5 * k + t) = bit l' (5 * k' + t)) -> encode_group l k = encode_group l' k'.
Proof.
  intros H. assert (HL : forall l k, (encode_group l k < 2 ^ 5)%N).
  { intros l0 k0. pose proof (encode_group_lt l0 k0). change (2 ^ 5)%N with 32%N. lia. }
  apply N.bits_inj. intros i. destruct (N.lt_ge_cases i 5) as [Hi|Hi].
  - replace i with (N.of_nat (4 - (4 - N.to_nat i))) by lia. rewrite !encode_group_bit by lia. apply H. lia.
  - assert (Hz : forall l k, N.testbit (encode_group l k) i = false).
    { intros l0 k0. rewrite <- (N.mod_small _ _ (HL l0 k0)). apply N.mod_pow2_bits_high. exact Hi. }
    rewrite !Hz. reflexivity.
Qed.

Lemma enc32_app a b : length a mod 5 = 0 -> enc32 (a ++ b) = enc32 a ++ enc32 b.
Proof.
  intros H. apply Nat.mod_divide in H; [|lia]. destruct H as [q Hq].
  assert (Ea : encode_groups (length a) = 8 * q).
  { unfold encode_groups. rewrite Hq. replace (q * 5 * 8 + 4) with (4 + (8 * q) * 5) by lia.
    rewrite Nat.div_add by lia. reflexivity. }
  assert (Eab : encode_groups (length (a ++ b)) = 8 * q + encode_groups (length b)).
  { unfold encode_groups. rewrite app_length, Hq.
    replace ((q * 5 + length b) * 8 + 4) with (length b * 8 + 4 + (8 * q) * 5) by lia.
    rewrite Nat.div_add by lia. lia. }
  unfold enc32. rewrite Eab, Ea, seq_app, map_app. f_equal.
  - apply map_ext_in. intros k Hk. apply in_seq in Hk. do 2 f_equal. apply group_ext. intros t Ht.
    apply bit_app_l. lia.
  - replace (0 + 8 * q) with (8 * q + 0) by lia.
    generalize (encode_groups (length b)) as n. intros n.
    assert (Hs : forall n s, map (fun k => nth (N.to_nat (encode_group (a ++ b) k)) upper32 x00) (seq (8 * q + s) n)
       = map (fun k => nth (N.to_nat (encode_group b k)) upper32 x00) (seq s n)).
    { clear n. induction n as [|n IH]; intros s; [reflexivity|]. cbn [seq map]. f_equal.
      - do 2 f_equal. apply group_ext. intros t Ht.
        replace (5 * (8 * q + s) + t) with (8 * length a + (5 * s + t)) by lia. apply bit_app_r.
      - replace (S (8 * q + s)) with (8 * q + S s) by lia. apply IH. }
    apply Hs.
Qed.

(** ** Suffixes *)
Lemma ends_with_app a s : ends_with (a ++ s) s = true.
Proof.
  unfold ends_with. rewrite app_length. destruct (Nat.leb_spec (length s) (length a + length s)); [|lia].
  replace (length a + length s - length s) with (length a) by lia.
  rewrite skipn_app, skipn_all, Nat.sub_diag. cbn [app skipn andb]. apply bytes_eqb_refl.
Qed.

Lemma ends_with_in a s c : ends_with a s = true -> In c s -> In c a.
Proof.
  unfold ends_with. intros H Hc. apply andb_prop in H as [_ H]. apply bytes_eqb_eq in H. rewrite <- H in Hc.
  rewrite <- (firstn_skipn (length a - length s) a). apply in_or_app. right. exact Hc.
Qed.

(** Containment *)
Lemma enc32_safe l s : 26 < length (enc32 l ++ s) -> length (enc32 l) <> 0 -> ~ In slash s -> ~ In x00 s -> safe_component (enc32 l ++ s).
Proof.
  intros HL Hz H1 H2. split; [lia|]. split; [|split].
  - intros H. apply in_app_or in H as [H|H]; [exact (enc32_no_slash _ H)|contradiction].
  - intros H. apply in_app_or in H as [H|H]; [|contradiction]. apply enc32_in, alphabet_not_slash in H. tauto.
  - destruct (enc32 l) as [|c e] eqn:E; [cbn in Hz; congruence|]. cbn [app hd]. intros ->.
    pose proof (enc32_in l dot) as Hi. rewrite E in Hi. specialize (Hi (or_introl eq_refl)).
    apply alphabet_not_slash in Hi. tauto.
Qed.

(** ** One physical entry, seen by a listing *)
Lemma step_listed trans table u c us n prev :
  t_noop trans = false -> u = c :: us -> 2 < length u -> c <> dot ->
  decode_entry trans table u prev = Ok n ->
  forall rest, list_names trans table (u :: rest) prev = n :: list_names trans table rest n.
Proof.
  intros Hn -> HL Hc Hd rest. cbn [list_names]. rewrite Hn, Hd.
  assert (Edot : bytes_eqb (c :: us) [dot] = false).
  { destruct (bytes_eqb (c :: us) [dot]) eqn:E; [|reflexivity]. apply bytes_eqb_eq in E. rewrite E in HL. cbn in HL. lia. }
  assert (Edd : bytes_eqb (c :: us) [dot; dot] = false).
  { destruct (bytes_eqb (c :: us) [dot; dot]) eqn:E; [|reflexivity]. apply bytes_eqb_eq in E. rewrite E in HL. cbn in HL. lia. }
  rewrite Edot, Edd. cbn [orb].
  destruct (Byte.eqb c dot) eqn:E; [apply byte_eqb_eq in E; congruence|reflexivity].
Qed.

Lemma safe_listed trans table u n prev :
  t_noop trans = false -> safe_component u -> decode_entry trans table u prev = Ok n ->
  forall rest, list_names trans table (u :: rest) prev = n :: list_names trans table rest n.
Proof.
  intros Hn (HL & _ & _ & Hd) He. destruct u as [|c us]; [cbn in HL; lia|]. eapply step_listed; eauto.
Qed.

Section Names.
Variable cmac : bytes -> bytes.
Variable keystream : bytes -> nat -> bytes.
Hypothesis cmac_len : forall m, length (cmac m) = 16.
Hypothesis ks_len : forall iv n, length (keystream iv n) = n.

Notation box := (siv_box cmac keystream).
Notation unbox := (siv_unbox cmac keystream).

Lemma box_length m : length (box m) = 16 + length m.
Proof.
  unfold siv_box. pose proof (siv_lengths cmac keystream cmac_len ks_len m []) as [H1 H2].
  destruct (siv_encrypt cmac keystream m []) as [s c]. cbn [fst snd] in *. rewrite app_length. lia.
Qed.

Lemma unbox_box m : unbox (box m) = Some m.
Proof.
  unfold siv_unbox, siv_box. pose proof (siv_lengths cmac keystream cmac_len ks_len m []) as [H1 H2].
  pose proof (siv_roundtrip cmac keystream cmac_len ks_len m []) as HR.
  destruct (siv_encrypt cmac keystream m []) as [s c]. cbn [fst snd] in *.
  unfold kSIVSize. rewrite firstn_app, firstn_all2, skipn_app, (skipn_all2 s) by lia.
  replace (16 - length s) with 0 by lia. cbn [firstn skipn app]. rewrite app_nil_r, HR. reflexivity.
Qed.

Lemma unbox_some b p : unbox b = Some p -> b = box p.
Proof.
  unfold siv_unbox. destruct (siv_decrypt _ _ _ _ _) as [ok q] eqn:E. destruct ok; [|discriminate].
  intros H. injection H as ->. apply (siv_accepts cmac keystream cmac_len ks_len) in E. unfold siv_box. rewrite E.
  symmetry. apply firstn_skipn.
Qed.

Lemma box_inj a b : box a = box b -> a = b.
Proof. intros H. pose proof (unbox_box a) as Ha. rewrite H, unbox_box in Ha. congruence. Qed.

Lemma decode_enc m : m <> [] -> decode_component cmac keystream (enc32 (box m)) = Ok (DName m).
Proof.
  intros H. unfold decode_component. rewrite base32_decode_enc. cbn [rbind]. rewrite box_length.
  destruct m as [|c m]; [congruence|]. unfold kSIVSize. destruct (Nat.leb_spec (16 + length (c :: m)) 16) as [Hx|_]; [cbn in Hx; lia|].
  rewrite unbox_box. reflexivity.
Qed.

(** ** New-style components *)
Section New.
Variable blake : bytes -> bytes.
Hypothesis blake_len : forall m, length (blake m) = 32.
Variable threshold : nat.
Variable suffix : bytes.

Definition ncomp (v : bytes) : bytes :=
  match v with
  | [] => []
  | _ :: _ => if length v <=? threshold then enc32 (box v) else enc32 (box (blake v)) ++ suffix
  end.

Lemma new_component_ok v : new_component cmac keystream blake threshold suffix v = Ok (ncomp v).
Proof.
  unfold new_component, ncomp. destruct v as [|c v]; [reflexivity|].
  destruct (length (c :: v) <=? threshold); rewrite base32_encode_ok; reflexivity.
Qed.

Lemma new_components_ok vs :
  new_components cmac keystream blake threshold suffix vs = Ok (flat_map (fun v => slash :: ncomp v) vs).
Proof.
  induction vs as [|v vs IH]; [reflexivity|]. cbn [new_components flat_map].
  rewrite new_component_ok, IH. reflexivity.
Qed.

Definition nlast (path : bytes) : bytes :=
  let back := last (split_slash path) [] in
  if threshold <? length back then enc32 (box back) else [].

Lemma new_encrypt_ok path :
  new_encrypt_full cmac keystream blake threshold suffix path =
  Ok (dot :: flat_map (fun v => slash :: ncomp v) (split_slash path), nlast path).
Proof.
  unfold new_encrypt_full, nlast. rewrite new_components_ok. cbn [rbind].
  destruct (threshold <? _); [rewrite base32_encode_ok|]; reflexivity.
Qed.

Hypothesis Hsuf : suffix_ok suffix.

Lemma ncomp_no_slash v : ~ In slash (ncomp v).
Proof.
  unfold ncomp. destruct v as [|c v]; [intros []|]. destruct (_ <=? _); [apply enc32_no_slash|].
  intros H. apply in_app_or in H as [H|H]; [exact (enc32_no_slash _ H)|]. exact (proj1 (proj2 Hsuf) H).
Qed.

Lemma split_physical vs :
  split_slash (dot :: flat_map (fun v => slash :: ncomp v) vs) = [dot] :: map ncomp vs.
Proof.
  assert (H : forall w, ~ In slash w -> split_slash (w ++ flat_map (fun v => slash :: ncomp v) vs) = w :: map ncomp vs).
  { induction vs as [|v vs IH]; intros w Hw; cbn [flat_map map].
    - rewrite app_nil_r. apply split_simple. exact Hw.
    - change ((slash :: ncomp v) ++ flat_map (fun v0 => slash :: ncomp v0) vs)
        with (slash :: (ncomp v ++ flat_map (fun v0 => slash :: ncomp v0) vs)).
      rewrite split_app by exact Hw. f_equal. apply IH. apply ncomp_no_slash. }
  apply (H [dot]). intros [E|[]]. discriminate.
Qed.

Lemma suffix_lower_alphabet l s : to_lower (enc32 l) <> to_lower (s ++ suffix).
Proof.
  intros H. destruct Hsuf as ((c & Hc & Hn) & _). apply Hn.
  assert (Hi : In (lower_byte c) (to_lower (enc32 l))).
  { rewrite H. unfold to_lower. apply in_map. apply in_or_app. right. exact Hc. }
  unfold to_lower in *. apply in_map_iff in Hi as (x & Hx & Hi). rewrite <- Hx. apply in_map. exact (enc32_in _ _ Hi).
Qed.

Lemma to_lower_app a b : to_lower (a ++ b) = to_lower a ++ to_lower b.
Proof. apply map_app. Qed.

Lemma ncomp_length v : v <> [] -> 26 < length (ncomp v).
Proof.
  intros H. unfold ncomp. destruct v as [|c v]; [congruence|].
  assert (He : forall m, m <> [] -> 26 < length (enc32 (box m))).
  { intros m Hm. rewrite enc32_length, box_length. destruct m; [congruence|].
    pose proof (encode_groups_mono 17 (16 + length (b :: m)) ltac:(cbn; lia)) as Hg.
    change (encode_groups 17) with 28 in Hg. lia. }
  destruct (_ <=? _); [apply He; discriminate|]. rewrite app_length.
  assert (26 < length (enc32 (box (blake (c :: v))))).
  { apply He. intros E. pose proof (blake_len (c :: v)) as Hb. rewrite E in Hb. discriminate. }
  lia.
Qed.

(** Equal physical components, even up to letter case, come from equal names. *)
Lemma ncomp_inj v w :
  (threshold < length v -> threshold < length w -> blake v = blake w -> v = w) ->
  to_lower (ncomp v) = to_lower (ncomp w) -> v = w.
Proof.
  intros Hb H.
  assert (HL : length (ncomp v) = length (ncomp w)).
  { apply (f_equal (@length _)) in H. unfold to_lower in H. rewrite !map_length in H. exact H. }
  destruct v as [|c v], w as [|d w]; try reflexivity.
  - pose proof (ncomp_length (d :: w) ltac:(discriminate)). change (ncomp []) with (@nil byte) in HL. cbn [length] in HL. lia.
  - pose proof (ncomp_length (c :: v) ltac:(discriminate)). change (ncomp []) with (@nil byte) in HL. cbn [length] in HL. lia.
  - unfold ncomp in H, HL.
    destruct (Nat.leb_spec (length (c :: v)) threshold) as [H1|H1], (Nat.leb_spec (length (d :: w)) threshold) as [H2|H2].
    + apply enc32_ci_inj, box_inj in H. exact H.
    + exfalso. exact (suffix_lower_alphabet _ _ H).
    + exfalso. exact (suffix_lower_alphabet _ _ (eq_sym H)).
    + rewrite !to_lower_app in H. apply app_inv_tail in H. apply enc32_ci_inj, box_inj in H. auto.
Qed.

Lemma lower_slash c : lower_byte c = slash <-> c = slash.
Proof.
  assert (H : forall c, Bool.eqb (Byte.eqb (lower_byte c) slash) (Byte.eqb c slash) = true).
  { apply byte_sweep. vm_compute. reflexivity. }
  specialize (H c). apply eqb_prop in H. rewrite <- !slash_eqb. rewrite H. reflexivity.
Qed.

Lemma to_lower_split s : split_slash (to_lower s) = map to_lower (split_slash s).
Proof.
  induction s as [|c s IH]; [reflexivity|]. unfold to_lower. cbn [map]. fold (to_lower s).
  destruct (Byte.eqb c slash) eqn:E.
  - apply slash_eqb in E. subst c. change (lower_byte slash) with slash. rewrite !split_cons_slash, IH. reflexivity.
  - apply slash_neqb in E. rewrite !split_cons_other; [|exact E|rewrite lower_slash; exact E]. rewrite IH.
    destruct (split_slash s); reflexivity.
Qed.

Lemma map_ncomp_inj vs ws :
  no_collision blake threshold (vs ++ ws) -> map to_lower (map ncomp vs) = map to_lower (map ncomp ws) -> vs = ws.
Proof.
  revert ws; induction vs as [|v vs IH]; intros [|w ws] Hc H; try discriminate; [reflexivity|].
  cbn [map] in H. injection H as H1 H2. f_equal.
  - apply ncomp_inj; [|exact H1]. intros L1 L2 Hb. apply Hc; auto; [left; reflexivity|].
    apply in_or_app. right. left. reflexivity.
  - apply IH; [|exact H2]. intros a b Ha Hb. apply Hc; (apply in_app_or in Ha, Hb).
    + destruct Ha as [Ha|Ha]; [right; apply in_or_app; auto|apply in_cons, in_or_app; right; right; exact Ha].
    + destruct Hb as [Hb|Hb]; [right; apply in_or_app; auto|apply in_cons, in_or_app; right; right; exact Hb].
Qed.

Lemma new_paths_inj p q P P' l l' :
  no_collision blake threshold (split_slash p ++ split_slash q) ->
  new_encrypt_full cmac keystream blake threshold suffix p = Ok (P, l) ->
  new_encrypt_full cmac keystream blake threshold suffix q = Ok (P', l') ->
  to_lower P = to_lower P' -> p = q.
Proof.
  intros Hc Hp Hq HE. rewrite new_encrypt_ok in Hp, Hq. injection Hp as <- _. injection Hq as <- _.
  apply (f_equal split_slash) in HE. rewrite !to_lower_split, !split_physical in HE. cbn [map] in HE.
  injection HE as HE. apply split_inj. apply map_ncomp_inj; assumption.
Qed.

Lemma ncomp_safe v : v <> [] -> safe_component (ncomp v).
Proof.
  intros H. pose proof (ncomp_length v H) as HL. unfold ncomp in *. destruct v as [|c v]; [congruence|].
  destruct Hsuf as (_ & S1 & S2).
  assert (He : forall m, length (enc32 (box m)) <> 0).
  { intros m. rewrite enc32_length, box_length. unfold encode_groups. intros E.
    pose proof (Nat.div_mod ((16 + length m) * 8 + 4) 5 ltac:(lia)). pose proof (Nat.mod_upper_bound ((16 + length m) * 8 + 4) 5 ltac:(lia)). lia. }
  destruct (_ <=? _).
  - rewrite <- (app_nil_r (enc32 _)). apply enc32_safe; auto. rewrite app_nil_r. exact HL.
  - apply enc32_safe; auto.
Qed.

(** ** Listing back *)
Lemma short_not_suffix l : ends_with (enc32 l) suffix = false.
Proof.
  destruct (ends_with (enc32 l) suffix) eqn:E; [|reflexivity]. exfalso.
  destruct Hsuf as ((c & Hc & Hn) & _). apply Hn. pose proof (ends_with_in _ _ c E Hc) as Hi.
  apply in_map. exact (enc32_in _ _ Hi).
Qed.

Lemma new_decrypt_direct m : m <> [] -> new_decrypt cmac keystream suffix (enc32 (box m)) = Ok (DName m).
Proof. intros H. unfold new_decrypt. rewrite short_not_suffix. apply decode_enc. exact H. Qed.

Lemma new_decrypt_long m : new_decrypt cmac keystream suffix (enc32 (box m) ++ suffix) = Ok DLong.
Proof. unfold new_decrypt. rewrite ends_with_app. reflexivity. Qed.

Lemma last_map {A B} (f : A -> B) l d : l <> [] -> last (map f l) (f d) = f (last l d).
Proof.
  induction l as [|x l IH]; intros H; [congruence|]. destruct l as [|y l]; [reflexivity|].
  cbn [map last] in *. apply IH. discriminate.
Qed.

Lemma last_physical path :
  get_last_component (dot :: flat_map (fun v => slash :: ncomp v) (split_slash path)) =
  ncomp (last (split_slash path) []).
Proof.
  unfold get_last_component. rewrite split_physical.
  pose proof (split_ne path) as Hne. destruct (split_slash path) as [|v vs] eqn:E; [congruence|].
  change (last ([dot] :: map ncomp (v :: vs)) []) with (last (map ncomp (v :: vs)) []).
  change (@nil byte) with (ncomp []) at 1. apply last_map. discriminate.
Qed.

Lemma new_name_listed path name table prev :
  last (split_slash path) [] = name -> name <> [] ->
  exists P l,
    new_encrypt_full cmac keystream blake threshold suffix path = Ok (P, l) /\
    (l <> [] <-> threshold < length name) /\
    ((l <> [] -> table (get_last_component P) = Ok l) ->
     list_names (new_translator cmac keystream blake threshold suffix) table [get_last_component P] prev = [name]).
Proof.
  intros Hl Hne. rewrite new_encrypt_ok. eexists _, _. split; [reflexivity|].
  unfold nlast. rewrite last_physical, Hl. split.
  { destruct (Nat.ltb_spec threshold (length name)) as [H|H].
    - split; [lia|]. intros _ E. apply (f_equal (@length _)) in E. rewrite enc32_length, box_length in E.
      unfold encode_groups in E. cbn [length] in E.
      pose proof (Nat.div_mod ((16 + length name) * 8 + 4) 5 ltac:(lia)). pose proof (Nat.mod_upper_bound ((16 + length name) * 8 + 4) 5 ltac:(lia)). lia.
    - split; [congruence|lia]. }
  intros Ht. pose proof (ncomp_safe name Hne) as (L1 & _ & _ & L4). pose proof (ncomp_length name Hne) as HLn.
  cbn [list_names]. destruct (ncomp name) as [|c nm] eqn:En; [cbn in L1; lia|].
  assert (Edot : bytes_eqb (c :: nm) [dot] = false).
  { destruct (bytes_eqb (c :: nm) [dot]) eqn:E; [|reflexivity]. apply bytes_eqb_eq in E. rewrite E in L1. cbn in L1. lia. }
  assert (Edd : bytes_eqb (c :: nm) [dot; dot] = false).
  { destruct (bytes_eqb (c :: nm) [dot; dot]) eqn:E; [|reflexivity]. apply bytes_eqb_eq in E. rewrite E in L1. cbn in L1. lia. }
  rewrite Edot, Edd. cbn [orb t_noop new_translator].
  assert (Ecd : Byte.eqb c dot = false).
  { destruct (Byte.eqb c dot) eqn:E; [|reflexivity]. apply byte_eqb_eq in E. cbn [hd] in L4. congruence. }
  rewrite Ecd. unfold decode_entry. cbn [t_decrypt new_translator]. rewrite <- En in *.
  unfold ncomp in *. destruct name as [|x name]; [congruence|].
  destruct (Nat.leb_spec (length (x :: name)) threshold) as [H|H].
  - rewrite new_decrypt_direct by discriminate. reflexivity.
  - rewrite new_decrypt_long. cbn [rbind].
    destruct (Nat.ltb_spec threshold (length (x :: name))) as [_|H']; [|lia].
    rewrite Ht.
    + cbn [rbind]. rewrite new_decrypt_direct by discriminate. reflexivity.
    + intros E. apply (f_equal (@length _)) in E. rewrite enc32_length, box_length in E.
      unfold encode_groups in E. cbn [length] in E.
      pose proof (Nat.div_mod ((16 + S (length name)) * 8 + 4) 5 ltac:(lia)).
      pose proof (Nat.mod_upper_bound ((16 + S (length name)) * 8 + 4) 5 ltac:(lia)). lia.
Qed.
End New.

(** ** Legacy names *)
Definition lcomp (v : bytes) : bytes := match v with [] => [] | _ :: _ => enc32 (box v) end.

Fixpoint mapm (f : bytes -> res bytes) (ws : list bytes) : res (list bytes) :=
  match ws with
  | [] => Ok []
  | w :: ws' => rbind (f w) (fun a => rbind (mapm f ws') (fun r => Ok (a :: r)))
  end.

Lemma mapm_length f ws rs : mapm f ws = Ok rs -> length rs = length ws.
Proof.
  revert rs; induction ws as [|w ws IH]; intros rs H; cbn [mapm] in H.
  - injection H as <-. reflexivity.
  - destruct (f w) as [a|]; [|discriminate]. cbn [rbind] in H. destruct (mapm f ws) as [r|]; [|discriminate].
    cbn [rbind] in H. injection H as <-. cbn [length]. rewrite (IH r eq_refl). reflexivity.
Qed.

Lemma legacy_loop_spec part path : forall cur, ~ In slash cur ->
  legacy_loop part path cur = rmap join_slash (mapm (legacy_part part) (split_slash (cur ++ path))).
Proof.
  induction path as [|c path IH]; intros cur Hc; cbn [legacy_loop].
  - rewrite app_nil_r, split_simple by exact Hc. cbn [mapm]. destruct (legacy_part part cur); reflexivity.
  - destruct (Byte.eqb c slash) eqn:E.
    + apply slash_eqb in E. subst c. rewrite split_app by exact Hc. cbn [mapm].
      destruct (legacy_part part cur) as [a|]; [|reflexivity]. cbn [rbind].
      rewrite (IH [] ltac:(intros [])). cbn [app].
      destruct (mapm (legacy_part part) (split_slash path)) as [rs|] eqn:Er; [|reflexivity].
      cbn [rbind rmap]. rewrite join_cons; [reflexivity|].
      intros ->. apply mapm_length in Er. pose proof (split_ne path). destruct (split_slash path); [congruence|discriminate].
    + apply slash_neqb in E. rewrite IH.
      * rewrite <- app_assoc. reflexivity.
      * intros H. apply in_app_or in H as [H|[H|[]]]; [contradiction|congruence].
Qed.

Lemma lcomp_no_slash v : ~ In slash (lcomp v).
Proof. destruct v; [intros []|apply enc32_no_slash]. Qed.

Lemma mapm_enc ws : Forall (fun w => length w <= 2000) ws ->
  mapm (legacy_part (legacy_enc_part cmac keystream)) ws = Ok (map lcomp ws).
Proof.
  intros H. induction H as [|w ws Hw H IH]; [reflexivity|]. cbn [mapm map].
  assert (E : legacy_part (legacy_enc_part cmac keystream) w = Ok (lcomp w)).
  { destruct w as [|c w]; [reflexivity|]. cbn [legacy_part lcomp]. unfold legacy_enc_part.
    destruct (Nat.ltb_spec 2000 (length (c :: w))); [lia|]. apply base32_encode_ok. }
  rewrite E, IH. reflexivity.
Qed.

Lemma mapm_enc_inv ws rs : mapm (legacy_part (legacy_enc_part cmac keystream)) ws = Ok rs ->
  Forall (fun w => length w <= 2000) ws.
Proof.
  revert rs; induction ws as [|w ws IH]; intros rs H; [constructor|]. cbn [mapm] in H.
  destruct (legacy_part (legacy_enc_part cmac keystream) w) as [a|] eqn:E; [|discriminate]. cbn [rbind] in H.
  destruct (mapm (legacy_part (legacy_enc_part cmac keystream)) ws) as [r|]; [|discriminate].
  constructor; [|exact (IH r eq_refl)]. destruct w as [|c w]; [cbn; lia|]. cbn [legacy_part] in E. unfold legacy_enc_part in E.
  destruct (Nat.ltb_spec 2000 (length (c :: w))); [discriminate|lia].
Qed.

Lemma mapm_dec ws : Forall (fun w => length w <= 2000) ws ->
  mapm (legacy_part (legacy_dec_part cmac keystream)) (map lcomp ws) = Ok ws.
Proof.
  intros H. induction H as [|w ws Hw H IH]; [reflexivity|]. cbn [mapm map].
  assert (E : legacy_part (legacy_dec_part cmac keystream) (lcomp w) = Ok w).
  { destruct w as [|c w]; [reflexivity|]. cbn [lcomp].
    assert (Hl : length (enc32 (box (c :: w))) <> 0).
    { rewrite enc32_length, box_length. pose proof (encode_groups_mono 16 (16 + length (c :: w)) ltac:(lia)) as Hg.
      change (encode_groups 16) with 26 in Hg. lia. }
    destruct (enc32 (box (c :: w))) as [|x e] eqn:Ee; [cbn in Hl; congruence|]. cbn [legacy_part]. rewrite <- Ee.
    unfold legacy_dec_part. rewrite base32_decode_enc. cbn [rbind]. rewrite box_length.
    destruct (Nat.leb_spec 2032 (16 + length (c :: w))); [lia|].
    destruct (Nat.ltb_spec (16 + length (c :: w)) kSIVSize); [unfold kSIVSize in *; lia|].
    rewrite unbox_box. reflexivity. }
  rewrite E, IH. reflexivity.
Qed.

Lemma legacy_encrypt_path_ok path s : legacy_encrypt_path cmac keystream path = Ok s ->
  s = join_slash (map lcomp (split_slash path)) /\ Forall (fun w => length w <= 2000) (split_slash path).
Proof.
  unfold legacy_encrypt_path. rewrite legacy_loop_spec by (intros []). cbn [app].
  destruct (mapm _ _) as [rs|] eqn:E; [|discriminate]. cbn [rmap]. intros H. injection H as <-.
  pose proof (mapm_enc_inv _ _ E) as HF. rewrite (mapm_enc _ HF) in E. injection E as <-. auto.
Qed.

Lemma legacy_encrypt_path_total path : Forall (fun w => length w <= 2000) (split_slash path) ->
  legacy_encrypt_path cmac keystream path = Ok (join_slash (map lcomp (split_slash path))).
Proof.
  intros H. unfold legacy_encrypt_path. rewrite legacy_loop_spec by (intros []). cbn [app]. rewrite (mapm_enc _ H). reflexivity.
Qed.

Lemma split_join_lcomp ws : ws <> [] -> split_slash (join_slash (map lcomp ws)) = map lcomp ws.
Proof.
  intros H. apply split_join; [destruct ws; [congruence|discriminate]|].
  rewrite Forall_map. apply Forall_forall. intros w _. apply lcomp_no_slash.
Qed.

Lemma legacy_decrypt_encrypt path : Forall (fun w => length w <= 2000) (split_slash path) ->
  legacy_decrypt_path cmac keystream (join_slash (map lcomp (split_slash path))) = Ok path.
Proof.
  intros H. unfold legacy_decrypt_path. rewrite legacy_loop_spec by (intros []). cbn [app].
  rewrite split_join_lcomp by apply split_ne. rewrite (mapm_dec _ H). cbn [rmap]. rewrite join_split. reflexivity.
Qed.

Lemma lcomp_length v : v <> [] -> 26 < length (lcomp v).
Proof.
  intros H. destruct v as [|c v]; [congruence|]. cbn [lcomp]. rewrite enc32_length, box_length.
  pose proof (encode_groups_mono 17 (16 + length (c :: v)) ltac:(cbn; lia)) as Hg. change (encode_groups 17) with 28 in Hg. lia.
Qed.

Lemma lcomp_inj v w : to_lower (lcomp v) = to_lower (lcomp w) -> v = w.
Proof.
  intros H.
  assert (HL : length (lcomp v) = length (lcomp w)).
  { apply (f_equal (@length _)) in H. unfold to_lower in H. rewrite !map_length in H. exact H. }
  destruct v as [|c v], w as [|d w]; try reflexivity.
  - pose proof (lcomp_length (d :: w) ltac:(discriminate)). change (lcomp []) with (@nil byte) in HL. cbn [length] in HL. lia.
  - pose proof (lcomp_length (c :: v) ltac:(discriminate)). change (lcomp []) with (@nil byte) in HL. cbn [length] in HL. lia.
  - cbn [lcomp] in H. apply enc32_ci_inj, box_inj in H. exact H.
Qed.

Lemma lcomp_safe v : v <> [] -> safe_component (lcomp v).
Proof.
  intros H. pose proof (lcomp_length v H) as HL. destruct v as [|c v]; [congruence|]. cbn [lcomp] in *.
  rewrite <- (app_nil_r (enc32 _)). apply enc32_safe; [rewrite app_nil_r; exact HL|lia|intros []|intros []].
Qed.

(** The components of the physical path of an absolute virtual path. *)
Lemma legacy_components path P l : hd x00 path = slash ->
  legacy_encrypt_full cmac keystream path = Ok (P, l) ->
  l = [] /\
  ((path = [slash] /\ P = [dot]) \/
   (path <> [slash] /\ exists rest, path = slash :: rest /\ split_slash P = map lcomp (split_slash rest))).
Proof.
  intros Hh H. destruct path as [|c [|c2 path]]; [discriminate| |].
  - cbn [hd] in Hh. subst c. cbn in H. injection H as <- <-. auto.
  - cbn [hd] in Hh. subst c. cbn [legacy_encrypt_full] in H.
    destruct (legacy_encrypt_path cmac keystream (slash :: c2 :: path)) as [s|] eqn:E; [|discriminate].
    cbn [rbind] in H. apply legacy_encrypt_path_ok in E as (-> & HF).
    rewrite split_cons_slash in H. cbn [map] in H. change (lcomp []) with (@nil byte) in H.
    rewrite join_cons in H by (pose proof (split_ne (c2 :: path)); destruct (split_slash (c2 :: path)); [congruence|discriminate]).
    cbn [app] in H. rewrite byte_eqb_refl in H. injection H as <- <-. split; [reflexivity|]. right. split; [discriminate|].
    exists (c2 :: path). split; [reflexivity|]. apply split_join_lcomp, split_ne.
Qed.

Lemma map_lcomp_inj vs ws : map to_lower (map lcomp vs) = map to_lower (map lcomp ws) -> vs = ws.
Proof.
  revert ws; induction vs as [|v vs IH]; intros [|w ws] H; try discriminate; [reflexivity|].
  cbn [map] in H. injection H as H1 H2. f_equal; [apply lcomp_inj; exact H1|apply IH; exact H2].
Qed.

Lemma legacy_paths_inj p q P P' l l' : hd x00 p = slash -> hd x00 q = slash ->
  legacy_encrypt_full cmac keystream p = Ok (P, l) ->
  legacy_encrypt_full cmac keystream q = Ok (P', l') ->
  to_lower P = to_lower P' -> p = q.
Proof.
  intros Hp Hq Ep Eq HE.
  apply legacy_components in Ep as (_ & [[-> ->]|(_ & r & -> & Er)]); [| |exact Hp];
  apply legacy_components in Eq as (_ & [[-> ->]|(_ & r' & -> & Er')]); auto.
  - exfalso. apply (f_equal split_slash) in HE. rewrite !to_lower_split, Er' in HE.
    change (split_slash [dot]) with [[dot]] in HE. pose proof (split_ne r') as Hne.
    destruct (split_slash r') as [|w ws]; [congruence|]. cbn [map] in HE. injection HE as HE _.
    apply (f_equal (@length _)) in HE. unfold to_lower in HE. rewrite !map_length in HE. cbn [length] in HE.
    destruct w as [|c w]; [discriminate|]. pose proof (lcomp_length (c :: w) ltac:(discriminate)). lia.
  - exfalso. apply (f_equal split_slash) in HE. rewrite !to_lower_split, Er in HE.
    change (split_slash [dot]) with [[dot]] in HE. pose proof (split_ne r) as Hne.
    destruct (split_slash r) as [|w ws]; [congruence|]. cbn [map] in HE. injection HE as HE _.
    apply (f_equal (@length _)) in HE. unfold to_lower in HE. rewrite !map_length in HE. cbn [length] in HE.
    destruct w as [|c w]; [discriminate|]. pose proof (lcomp_length (c :: w) ltac:(discriminate)). lia.
  - f_equal. apply split_inj. apply map_lcomp_inj. apply (f_equal split_slash) in HE.
    rewrite !to_lower_split, Er, Er' in HE. exact HE.
Qed.

Lemma last_cons_ne {A} (x : A) l d : l <> [] -> last (x :: l) d = last l d.
Proof. destruct l; [congruence|reflexivity]. Qed.

Lemma map_ne {A B} (f : A -> B) l : l <> [] -> map f l <> [].
Proof. destruct l; [congruence|discriminate]. Qed.

Lemma legacy_last path P l : legacy_encrypt_full cmac keystream path = Ok (P, l) ->
  last (split_slash path) [] <> [] ->
  get_last_component P = lcomp (last (split_slash path) []) /\ l = [].
Proof.
  intros H Hn.
  assert (HL : forall s, legacy_encrypt_path cmac keystream path = Ok s -> last (split_slash s) [] = lcomp (last (split_slash path) [])).
  { intros s Hs. apply legacy_encrypt_path_ok in Hs as (-> & _). rewrite split_join_lcomp by apply split_ne.
    change (@nil byte) with (lcomp []) at 1. apply last_map, split_ne. }
  unfold get_last_component. destruct path as [|c [|c2 path]].
  - cbn in Hn. congruence.
  - cbn [legacy_encrypt_full] in H. destruct (Byte.eqb c slash) eqn:E.
    + apply slash_eqb in E. subst c. cbn in Hn. congruence.
    + destruct (legacy_encrypt_path _ _ _) as [s|] eqn:Es; [|discriminate]. cbn [rbind] in H. injection H as <- <-. split; [auto|reflexivity].
  - cbn [legacy_encrypt_full] in H. destruct (legacy_encrypt_path _ _ _) as [s|] eqn:Es; [|discriminate]. cbn [rbind] in H.
    destruct s as [|x s].
    + exfalso. specialize (HL [] eq_refl). pose proof (lcomp_length _ Hn) as Hw. rewrite <- HL in Hw. cbn in Hw. lia.
    + destruct (Byte.eqb x slash) eqn:E; injection H as <- <-; (split; [|reflexivity]); rewrite <- (HL _ eq_refl); [|reflexivity].
      apply slash_eqb in E. subst x. rewrite split_cons_slash, last_cons_ne by apply split_ne. reflexivity.
Qed.

(** ** Link targets *)
Lemma filter_no_slash l : filter (fun c => negb (Byte.eqb c slash)) (enc32 l) = enc32 l.
Proof.
  pose proof (enc32_no_slash l) as H. induction (enc32 l) as [|c e IH]; [reflexivity|]. cbn [filter].
  assert (E : Byte.eqb c slash = false) by (apply slash_neqb; intros ->; apply H; left; reflexivity).
  rewrite E. cbn [negb]. f_equal. apply IH. intros Hi. apply H. right. exact Hi.
Qed.

Lemma link_chunks_spec fuel b : length b <= fuel ->
  exists s, link_chunks fuel b = Ok s /\ filter (fun c => negb (Byte.eqb c slash)) s = enc32 b /\
            (b <> [] -> s <> []) /\ 60 * length s <= 97 * length b + 120 /\ ~ In x00 s.
Proof.
  revert b; induction fuel as [|f IH]; intros b Hb.
  - destruct b; [|cbn in Hb; lia]. exists []. cbn. repeat split; auto; lia.
  - destruct b as [|x b0].
    + exists []. cbn. repeat split; auto; lia.
    + remember (x :: b0) as b eqn:Eb.
      assert (Hlen : 0 < length b) by (rewrite Eb; cbn; lia).
      assert (Hskip : length (skipn kComponentSizeInSymlink b) <= f)
        by (rewrite skipn_length; unfold kComponentSizeInSymlink; lia).
      destruct (IH _ Hskip) as (s & Es & Ef & _ & HL & H0).
      exists (slash :: enc32 (firstn kComponentSizeInSymlink b) ++ s).
      split; [|split; [|split; [discriminate|split]]].
      * rewrite Eb at 1. cbn [link_chunks]. rewrite <- Eb. rewrite base32_encode_ok. cbn [rbind]. rewrite Es. reflexivity.
      * cbn [filter]. rewrite byte_eqb_refl. cbn [negb]. rewrite filter_app, filter_no_slash, Ef.
        destruct (Nat.le_gt_cases (length b) kComponentSizeInSymlink) as [Hs|Hs].
        -- rewrite firstn_all2, skipn_all2 by exact Hs. cbn. rewrite app_nil_r. reflexivity.
        -- rewrite <- enc32_app, firstn_skipn; [reflexivity|]. rewrite firstn_length, Nat.min_l by lia. reflexivity.
      * cbn [length]. rewrite app_length, enc32_length.
        destruct (Nat.le_gt_cases (length b) kComponentSizeInSymlink) as [Hs|Hs].
        -- rewrite firstn_all2 by exact Hs. rewrite skipn_all2 in Es by exact Hs.
           assert (s = []) as -> by (destruct f; cbn in Es; congruence). cbn [length].
           unfold encode_groups, kComponentSizeInSymlink in *.
           pose proof (Nat.div_mod (length b * 8 + 4) 5 ltac:(lia)). lia.
        -- rewrite firstn_length, Nat.min_l by lia. rewrite skipn_length in HL.
           change (encode_groups kComponentSizeInSymlink) with 96. unfold kComponentSizeInSymlink in *. lia.
      * intros [H|H]; [discriminate|]. apply in_app_or in H as [H|H]; [|contradiction].
        apply enc32_in, alphabet_not_slash in H. tauto.
Qed.

Lemma new_link_ok target : exists s, new_link_enc cmac keystream target = Ok s /\ new_link_dec cmac keystream s = Ok target /\
  60 * length s <= 97 * length target + 1672 /\ ~ In x00 s.
Proof.
  destruct target as [|c t].
  - exists []. cbn. repeat split; auto; lia.
  - destruct (link_chunks_spec (length (box (c :: t))) (box (c :: t)) ltac:(lia)) as (s & Es & Ef & Hn & HL & H0).
    exists s. split; [exact Es|]. split; [|split; [|exact H0]].
    + assert (Hb : box (c :: t) <> []).
      { intros E. apply (f_equal (@length _)) in E. rewrite box_length in E. cbn in E. lia. }
      specialize (Hn Hb). destruct s as [|y s]; [congruence|]. unfold new_link_dec. rewrite Ef, base32_decode_enc. cbn [rbind].
      rewrite box_length. destruct (Nat.leb_spec (16 + length (c :: t)) kSIVSize) as [Hx|_]; [unfold kSIVSize in Hx; cbn [length] in Hx; lia|].
      rewrite unbox_box. reflexivity.
    + rewrite box_length in HL. lia.
Qed.

(** Whatever a link was changed to, a non-empty answer is one whose encryption is there. *)
Lemma new_link_dec_sound s p : new_link_dec cmac keystream s = Ok p -> p <> [] ->
  base32_decode (filter (fun c => negb (Byte.eqb c slash)) s) = Ok (box p).
Proof.
  unfold new_link_dec. destruct s as [|c s]; [congruence|].
  destruct (base32_decode _) as [d|]; [|discriminate]. cbn [rbind]. destruct (_ <=? _); [congruence|].
  destruct (unbox d) as [q|] eqn:E; [|discriminate]. intros H _. injection H as ->. apply unbox_some in E. congruence.
Qed.

Lemma until_nul_id s : ~ In x00 s -> until_nul s = s.
Proof.
  induction s as [|c s IH]; intros H; [reflexivity|]. cbn [until_nul].
  destruct (Byte.eqb c x00) eqn:E; [apply byte_eqb_eq in E; exfalso; apply H; left; exact E|].
  f_equal. apply IH. intros Hi. apply H. right. exact Hi.
Qed.

Lemma legacy_link_ok target : Forall (fun w => length w <= 2000) (split_slash target) ->
  exists s, legacy_link_enc cmac keystream target = Ok s /\ legacy_link_dec cmac keystream s = Ok target /\ ~ In x00 s.
Proof.
  intros H. destruct target as [|c t].
  - exists []. repeat split; auto.
  - unfold legacy_link_enc. destruct (bytes_eqb (c :: t) [slash]) eqn:E.
    + apply bytes_eqb_eq in E. rewrite E. exists [dot]. split; [reflexivity|]. split; [reflexivity|].
      intros [Hx|[]]. discriminate.
    + exists (join_slash (map lcomp (split_slash (c :: t)))).
      rewrite (legacy_encrypt_path_total _ H). split; [reflexivity|]. split.
      * unfold legacy_link_dec. destruct (join_slash (map lcomp (split_slash (c :: t)))) as [|y s] eqn:Ej.
        -- exfalso. apply (f_equal split_slash) in Ej. rewrite split_join_lcomp in Ej by apply split_ne.
           change (split_slash []) with [@nil byte] in Ej. pose proof (join_split (c :: t)) as Hj.
           destruct (split_slash (c :: t)) as [|w [|w' ws]]; try discriminate. cbn [map] in Ej. injection Ej as Ej.
           destruct w as [|z w]; [cbn in Hj; discriminate|]. pose proof (lcomp_length (z :: w) ltac:(discriminate)) as Hw.
           rewrite Ej in Hw. cbn in Hw. lia.
        -- rewrite <- Ej. destruct (bytes_eqb _ [dot]) eqn:Ed; [|apply legacy_decrypt_encrypt; exact H].
           exfalso. apply bytes_eqb_eq in Ed. apply (f_equal split_slash) in Ed. rewrite split_join_lcomp in Ed by apply split_ne.
           change (split_slash [dot]) with [[dot]] in Ed. pose proof (join_split (c :: t)) as Hj.
           destruct (split_slash (c :: t)) as [|w [|w' ws]]; try discriminate. cbn [map] in Ed. injection Ed as Ed.
           destruct w as [|z w]; [cbn in Hj; discriminate|]. pose proof (lcomp_length (z :: w) ltac:(discriminate)) as Hw.
           rewrite Ed in Hw. cbn in Hw. lia.
      * assert (HJ : forall ws, ~ In x00 (join_slash (map lcomp ws))).
        { induction ws as [|w ws IH]; [intros []|]. destruct ws as [|w' ws].
          - cbn [map join_slash]. destruct w; [intros []|]. cbn [lcomp]. intros Hi. apply enc32_in, alphabet_not_slash in Hi. tauto.
          - cbn [map] in *. rewrite join_cons by discriminate. intros Hi. apply in_app_or in Hi as [Hi|[Hi|Hi]]; [|discriminate|].
            + destruct w; [destruct Hi|]. cbn [lcomp] in Hi. apply enc32_in, alphabet_not_slash in Hi. tauto.
            + exact (IH Hi). }
        apply HJ.
Qed.

(** Legacy reading: every piece of the answer is one whose encryption is there. *)
Definition decodes_to (u v : bytes) : Prop := (u = [] /\ v = []) \/ (u <> [] /\ base32_decode u = Ok (box v)).

Lemma legacy_decrypt_sound s p : legacy_decrypt_path cmac keystream s = Ok p ->
  exists vs, p = join_slash vs /\ Forall2 decodes_to (split_slash s) vs.
Proof.
  unfold legacy_decrypt_path. rewrite legacy_loop_spec by (intros []). cbn [app].
  destruct (mapm _ _) as [rs|] eqn:E; [|discriminate]. cbn [rmap]. intros H. injection H as <-. exists rs. split; [reflexivity|].
  revert rs E. induction (split_slash s) as [|w ws IH]; intros rs E; cbn [mapm] in E.
  - injection E as <-. constructor.
  - destruct (legacy_part (legacy_dec_part cmac keystream) w) as [a|] eqn:Ea; [|discriminate]. cbn [rbind] in E.
    destruct (mapm (legacy_part (legacy_dec_part cmac keystream)) ws) as [r|]; [|discriminate]. cbn [rbind] in E.
    injection E as <-. constructor; [|apply IH; reflexivity].
    destruct w as [|c w]; cbn [legacy_part] in Ea; [injection Ea as <-; left; auto|]. right. split; [discriminate|].
    unfold legacy_dec_part in Ea. destruct (base32_decode (c :: w)) as [d|]; [|discriminate]. cbn [rbind] in Ea.
    destruct (_ <=? _); [discriminate|]. destruct (_ <? _); [discriminate|].
    destruct (unbox d) as [q|] eqn:Eq; [|discriminate]. injection Ea as ->. apply unbox_some in Eq. congruence.
Qed.
End Names.
